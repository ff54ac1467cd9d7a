(* Gaussian elimination computes the inverse exactly for non-singular matrices; damped normal equations. *)
From Coq Require Import Reals List Arith Bool Lra Lia.
From Verif Require Import Res MatSpec TensorModel MatProofs TensorProofs SolveModel IcpSpec.
Import ListNotations.
Local Open Scope R_scope.

Lemma rsum_S_l m f : rsum (S m) f = f 0%nat + rsum m (fun k => f (S k)).
Proof.
  induction m as [|m IH]; [cbn; lra|].
  change (rsum (S (S m)) f) with (rsum (S m) f + f (S m)). rewrite IH.
  change (rsum (S m) (fun k => f (S k))) with (rsum m (fun k => f (S k)) + f (S m)). lra.
Qed.
Lemma rsum_minus n f g : rsum n (fun k => f k - g k) = rsum n f - rsum n g.
Proof. induction n; cbn; [lra|]. rewrite IHn. lra. Qed.

Definition sw (p i : nat) : nat := if Nat.eqb i 0 then p else if Nat.eqb i p then 0%nat else i.
Lemma sw_inv p i : sw p (sw p i) = i.
Proof.
  unfold sw. destruct (Nat.eqb_spec i 0) as [->|H0].
  - destruct (Nat.eqb_spec p 0) as [->|]; [reflexivity|]. rewrite Nat.eqb_refl. reflexivity.
  - destruct (Nat.eqb_spec i p) as [->|Hp]; [reflexivity|].
    destruct (Nat.eqb_spec i 0); [lia|]. destruct (Nat.eqb_spec i p); [lia|reflexivity].
Qed.
Lemma sw_lt p n i : (p < n)%nat -> (i < n)%nat -> (sw p i < n)%nat.
Proof. unfold sw. destruct (Nat.eqb_spec i 0), (Nat.eqb_spec i p); lia. Qed.

Lemma pivot_spec (M : mat) n p : find (fun i => nonzero_dec (M i 0%nat)) (seq 0 n) = Some p -> (p < n)%nat /\ M p 0%nat <> 0.
Proof.
  intros H. apply find_some in H. destruct H as [Hi Hd]. apply in_seq in Hi. split; [lia|].
  unfold nonzero_dec in Hd. destruct (Req_EM_T (M p 0%nat) 0); [discriminate|assumption].
Qed.
Lemma pivot_none (M : mat) n : find (fun i => nonzero_dec (M i 0%nat)) (seq 0 n) = None -> forall i, (i < n)%nat -> M i 0%nat = 0.
Proof.
  intros H i Hi. pose proof (find_none _ _ H i) as Hn. cbn in Hn.
  assert (Hin : In i (seq 0 n)) by (apply in_seq; lia). specialize (Hn Hin). unfold nonzero_dec in Hn.
  destruct (Req_EM_T (M i 0%nat) 0); [assumption|discriminate].
Qed.

(* elimination of the first column *)
Definition elim (M : mat) : mat := fun i j => M (S i) (S j) - M (S i) 0%nat / M 0%nat 0%nat * M 0%nat (S j).
Lemma elim_row M m x i : M 0%nat 0%nat <> 0 ->
  mvec m (elim M) x i = rsum m (fun k => M (S i) (S k) * x k) - M (S i) 0%nat / M 0%nat 0%nat * rsum m (fun k => M 0%nat (S k) * x k).
Proof.
  intros _. unfold mvec, elim. rewrite <- rsum_mult_l, <- rsum_minus. apply rsum_ext. intros k _. lra.
Qed.

Lemma gauss_sound : forall n M b x, gauss n M b = Some x -> veq n (mvec n M x) b.
Proof.
  induction n as [|m IH]; intros M b x H i Hi; [lia|].
  cbn [gauss] in H. destruct (find _ (seq 0 (S m))) as [p|] eqn:Ep; [|discriminate].
  apply pivot_spec in Ep. destruct Ep as [Hp Hnz].
  set (M1 := swap0 p M) in *. set (b1 := swap0 p b) in *.
  assert (H00 : M1 0%nat 0%nat <> 0) by exact Hnz.
  destruct (gauss m _ _) as [y|] eqn:Eg; [|discriminate]. injection H as <-.
  apply IH in Eg. change (fun i j => M1 (S i) (S j) - M1 (S i) 0%nat / M1 0%nat 0%nat * M1 0%nat (S j)) with (elim M1) in Eg.
  set (x := fun j => match j with O => (b1 0%nat - rsum m (fun k => M1 0%nat (S k) * y k)) / M1 0%nat 0%nat | S k => y k end).
  assert (HM1 : forall r, (r < S m)%nat -> mvec (S m) M1 x r = b1 r).
  { intros [|r] Hr; unfold mvec; rewrite rsum_S_l; cbn [x].
    - unfold x. field. exact H00.
    - assert (Hr' : (r < m)%nat) by lia. specialize (Eg r Hr'). rewrite elim_row in Eg by exact H00.
      unfold x.
      replace (M1 (S r) 0%nat * ((b1 0%nat - rsum m (fun k => M1 0%nat (S k) * y k)) / M1 0%nat 0%nat))
        with (M1 (S r) 0%nat / M1 0%nat 0%nat * b1 0%nat - M1 (S r) 0%nat / M1 0%nat 0%nat * rsum m (fun k => M1 0%nat (S k) * y k)) by (field; exact H00).
      lra. }
  specialize (HM1 (sw p i) (sw_lt p (S m) i Hp Hi)).
  unfold mvec in HM1 |- *. unfold M1, b1, swap0 in HM1. fold (sw p (sw p i)) in HM1. rewrite sw_inv in HM1. exact HM1.
Qed.

Lemma gauss_complete : forall n M b, injective_mat n M -> exists x, gauss n M b = Some x.
Proof.
  induction n as [|m IH]; intros M b Hinj; [eexists; reflexivity|].
  cbn [gauss]. destruct (find _ (seq 0 (S m))) as [p|] eqn:Ep.
  - apply pivot_spec in Ep. destruct Ep as [Hp Hnz].
    set (M1 := swap0 p M) in *. set (b1 := swap0 p b) in *.
    assert (H00 : M1 0%nat 0%nat <> 0) by exact Hnz.
    assert (He : injective_mat m (elim M1)).
    { intros y Hy. set (x := fun j => match j with O => - rsum m (fun k => M1 0%nat (S k) * y k) / M1 0%nat 0%nat | S k => y k end).
      assert (Hx : veq (S m) x (fun _ => 0)).
      { apply Hinj. intros i Hi.
        assert (HM1 : forall r, (r < S m)%nat -> mvec (S m) M1 x r = 0).
        { intros [|r] Hr; unfold mvec; rewrite rsum_S_l.
          - unfold x. field. exact H00.
          - assert (Hr' : (r < m)%nat) by lia. specialize (Hy r Hr'). rewrite elim_row in Hy by exact H00.
            unfold x. rewrite <- Hy. field. exact H00. }
        specialize (HM1 (sw p i) (sw_lt p (S m) i Hp Hi)).
        unfold mvec in HM1 |- *. unfold M1, swap0 in HM1. fold (sw p (sw p i)) in HM1. rewrite sw_inv in HM1. exact HM1. }
      intros i Hi. specialize (Hx (S i) ltac:(lia)). exact Hx. }
    destruct (IH (elim M1) (fun i => b1 (S i) - M1 (S i) 0%nat / M1 0%nat 0%nat * b1 0%nat) He) as [y Ey].
    unfold elim in Ey. rewrite Ey. eexists. reflexivity.
  - exfalso. assert (H1 : veq (S m) (fun j => delta j 0) (fun _ => 0)).
    { apply Hinj. intros i Hi. unfold mvec. rewrite rsum_delta_r by lia. apply (pivot_none _ _ Ep i Hi). }
    specialize (H1 0%nat ltac:(lia)). cbn in H1. lra.
Qed.

Lemma inj_unique n M x y : injective_mat n M -> veq n (mvec n M x) (mvec n M y) -> veq n x y.
Proof.
  intros Hi H. assert (Hz : veq n (fun k => x k - y k) (fun _ => 0)).
  { apply Hi. intros i Hn. rewrite mvec_minus, (H i Hn). lra. }
  intros i Hn. specialize (Hz i Hn). cbn in Hz. lra.
Qed.
Lemma gauss_singular n M b : ~ injective_mat n M -> gauss n M b = None \/ exists x, gauss n M b = Some x.
Proof. destruct (gauss n M b); eauto. Qed.

(* a left and right inverse *)
Lemma inverse_injective n M N : meq n n (mmul n N M) mI -> injective_mat n M.
Proof.
  intros H x Hx i Hi.
  assert (E : mvec n (mmul n N M) x i = 0).
  { rewrite mvec_mmul. unfold mvec at 1. rewrite (rsum_ext _ _ (fun _ => 0)); [apply rsum_0|].
    intros k Hk. rewrite (Hx k Hk). lra. }
  rewrite <- E. rewrite (mvec_ext_mat n n _ mI x H i Hi). symmetry. apply mvec_I. exact Hi.
Qed.

(* torch.inverse on any size: exactly the two-sided inverse, or an error for singular matrices *)
Lemma inverse_2d_ok (x : ten R) n : dims x = [n; n] -> injective_mat n (ent x []) ->
  exists y, torch_inverse_2d x = Ok y /\ dims y = [n; n] /\
    meq n n (mmul n (ent x []) (ent y [])) mI /\ meq n n (mmul n (ent y []) (ent x [])) mI.
Proof.
  intros Ed Hinj. unfold torch_inverse_2d. rewrite Ed, Nat.eqb_refl.
  assert (Hs : forall j, is_solved (gauss n (ent x []) (fun i => delta i j)) = true).
  { intros j. destruct (gauss_complete n (ent x []) (fun i => delta i j) Hinj) as [v ->]. reflexivity. }
  rewrite (proj2 (forallb_forall _ _)) by (intros j _; apply Hs).
  eexists. split; [reflexivity|]. split; [reflexivity|].
  assert (Hr : meq n n (mmul n (ent x []) (fun i j => match gauss n (ent x []) (fun i => delta i j) with Some v => v i | None => 0 end)) mI).
  { intros i j Hi Hj. unfold mmul, mI. pose proof (Hs j) as Hj'. destruct (gauss n (ent x []) (fun i0 => delta i0 j)) as [v|] eqn:E; [|discriminate].
    apply gauss_sound in E. exact (E i Hi). }
  split; [exact Hr|].
  (* M (N M) = (M N) M = M = M I, cancel the injective M *)
  set (N := fun i j => match gauss n (ent x []) (fun i => delta i j) with Some v => v i | None => 0 end) in *.
  intros i j Hi Hj. change (mmul n N (ent x []) i j = mI i j).
  refine (inj_unique n (ent x []) (fun i => mmul n N (ent x []) i j) (fun i => mI i j) Hinj _ i Hi).
  intros k Hk.
  transitivity (mmul n (ent x []) (mmul n N (ent x [])) k j); [reflexivity|].
  rewrite <- mmul_assoc. transitivity (ent x [] k j).
  - unfold mmul at 1. rewrite (rsum_ext _ _ (fun l => delta k l * ent x [] l j)).
    + apply (rsum_delta_l n k (fun l => ent x [] l j) Hk).
    + intros l Hl. rewrite (Hr k l Hk Hl). reflexivity.
  - symmetry. unfold mvec, mI. apply (rsum_delta_r n j (fun l => ent x [] k l) Hj).
Qed.

(* ---------------------------------------------------------------- damped normal equations *)
Lemma normal_quad n k A d x :
  dot k x (mvec k (normal_mat n A d) x) = dot n (mvec k A x) (mvec k A x) + d * dot k x x.
Proof.
  unfold dot, mvec, normal_mat.
  rewrite (rsum_ext k _ (fun i => rsum n (fun r => x i * A r i * rsum k (fun j => A r j * x j)) + d * (x i * x i))).
  2:{ intros i Hi. rewrite (rsum_ext k _ (fun j => rsum n (fun r => A r i * A r j) * x j + d * (delta i j * x j))) by (intros; lra).
      rewrite rsum_plus, rsum_mult_l. rewrite (rsum_delta_l k i x Hi).
      rewrite (rsum_ext k _ (fun j => rsum n (fun r => A r i * (A r j * x j)))) by (intros; rewrite <- rsum_mult_r; apply rsum_ext; intros; lra).
      rewrite rsum_swap.
      rewrite (rsum_ext n _ (fun r => A r i * rsum k (fun j => A r j * x j))) by (intros; apply rsum_mult_l).
      rewrite Rmult_plus_distr_l, <- rsum_mult_l. f_equal; [apply rsum_ext; intros; lra|lra]. }
  rewrite rsum_plus, rsum_mult_l. f_equal. rewrite rsum_swap. apply rsum_ext. intros r Hr.
  rewrite <- rsum_mult_r. apply rsum_ext. intros; lra.
Qed.
Lemma dot_self_nonneg n u : 0 <= dot n u u.
Proof. apply rsum_nonneg. intros k _. pose proof (Rle_0_sqr (u k)) as H. unfold Rsqr in H. exact H. Qed.
Lemma dot_self_zero n u : dot n u u = 0 -> veq n u (fun _ => 0).
Proof.
  unfold dot. intros H. induction n as [|n IH]; intros i Hi; [lia|]. cbn [rsum] in H.
  pose proof (dot_self_nonneg n u) as Hn. unfold dot in Hn. pose proof (Rle_0_sqr (u n)) as Hs. unfold Rsqr in Hs.
  assert (H1 : rsum n (fun k => u k * u k) = 0) by lra. assert (H2 : u n * u n = 0) by lra.
  destruct (Nat.eq_dec i n) as [->|]; [apply Rsqr_0_uniq in H2; exact H2|]. apply IH; [exact H1|lia].
Qed.
Lemma normal_injective n k A d : 0 < d -> injective_mat k (normal_mat n A d).
Proof.
  intros Hd x Hx. assert (E : dot k x (mvec k (normal_mat n A d) x) = 0).
  { unfold dot. rewrite (rsum_ext _ _ (fun _ => 0)); [apply rsum_0|]. intros i Hi. rewrite (Hx i Hi). lra. }
  rewrite normal_quad in E. pose proof (dot_self_nonneg n (mvec k A x)). pose proof (dot_self_nonneg k x).
  apply dot_self_zero. nra.
Qed.
