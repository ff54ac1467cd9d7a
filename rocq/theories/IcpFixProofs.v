(* C75: fixed points of the two registration loops. *)
From Coq Require Import Reals List Arith Bool ZArith Lra Lia.
From Verif Require Import Res MatSpec TensorModel GeomModel RgbdModel GeomSpec MatProofs TensorProofs GeomProofs GeomPtsProofs Se3Model Se3Proofs ExpProofs
  SolveModel FusionModel IcpModel IcpSpec IcpFixSpec SolveProofs IcpSolveProofs IcpGnProofs IcpLoopProofs IcpPropProofs IcpRunProofs IcpRunProofs2.
Import ListNotations.
Local Open Scope R_scope.

Lemma six_zero_exp (xi : vec) E : veq 6 xi (fun _ => 0) -> se3_exp (six xi) = Ok E -> meq 4 4 E mI.
Proof.
  intros H HE. unfold six in HE. rewrite !H in HE by lia.
  assert (N : norm 3 (vec3 0 0 0) < se3_eps).
  { replace (norm 3 (vec3 0 0 0)) with 0; [apply eps_pos|]. unfold norm. rewrite <- sqrt_0 at 1. f_equal. unfold dot, vec3. cbn. ring. }
  destruct (se3_exp_small 0 0 0 0 0 0 N) as (E' & HE' & ME). rewrite HE' in HE. injection HE as <-.
  intros i j Hi Hj. rewrite (ME i j Hi Hj). unfold twist_exp, mI, delta, madd, mvec.
  destruct i as [|[|[|[|i]]]]; [| | | |lia]; (destruct j as [|[|[|[|j]]]]; [| | | |lia]); cbn; unfold skew, vec3; cbn; ring.
Qed.
Lemma moved_id n A s : meq 4 4 A mI -> same_pts n (moved A s) s.
Proof.
  intros H i Hi. eapply veq_trans; [apply act_ext_m, H|]. intros k Hk. unfold act, mvec, rot_of, tr_of, mI, delta.
  destruct k as [|[|[|k]]]; [| | |lia]; cbn; ring.
Qed.
Lemma mmul_id_l A B : meq 4 4 A mI -> meq 4 4 (mmul 4 A B) B.
Proof.
  intros H i j Hi Hj. unfold mmul. cbn [rsum]. rewrite !(H i) by lia. unfold mI, delta.
  destruct i as [|[|[|[|i]]]]; [| | | |lia]; cbn; ring.
Qed.
Lemma rsum_zero n f : (forall i, (i < n)%nat -> f i = 0) -> rsum n f = 0.
Proof. induction n as [|n IH]; intros H; [reflexivity|]. cbn [rsum]. rewrite IH, (H n) by (intros; try apply H; lia). lra. Qed.
Lemma rsum_sq_zero n f : (forall i, (i < n)%nat -> 0 <= f i) -> rsum n f = 0 -> forall i, (i < n)%nat -> f i = 0.
Proof.
  induction n as [|n IH]; intros H E i Hi; [lia|]. cbn [rsum] in E.
  assert (P : 0 <= rsum n f). { clear -H. assert (H' : forall i, (i < n)%nat -> 0 <= f i) by (intros; apply H; lia). clear H. induction n as [|n IH]; [cbn; lra|]. cbn [rsum]. pose proof (H' n ltac:(lia)). assert (0 <= rsum n f) by (apply IH; intros; apply H'; lia). lra. }
  pose proof (H n ltac:(lia)). destruct (Nat.eq_dec i n) as [->|]; [lra|]. apply IH; [intros; apply H; lia|lra|lia].
Qed.
Lemma dist2_zero_veq u v : dist2 3 u v = 0 -> veq 3 u v.
Proof.
  unfold dist2. intros H k Hk. apply Rminus_diag_uniq.
  assert (Q := rsum_sq_zero 3 _ ltac:(intros; apply Rle_0_sqr) H k Hk). apply Rsqr_0_uniq. exact Q.
Qed.

(* what the balance means for the normal equations *)
Lemma balanced_lm nn keep ns nt d n s damp : balanced nn keep ns nt d n s -> lm_step nn keep ns nt d n s damp (fun _ => 0).
Proof.
  intros H i Hi. replace (mvec 6 _ _ i) with 0; [|unfold mvec; symmetry; apply rsum_zero; intros; ring].
  symmetry. unfold balanced in H. cbv zeta in H.
  destruct (Nat.ltb i 3) eqn:L.
  - apply Nat.ltb_lt in L. destruct (H i L) as [H1 _]. transitivity (- (rsum ns (fun r => if keep (dist2 3 (s r) (d (match_of nn nt d (s r)))) then plane_res (n (match_of nn nt d (s r))) (d (match_of nn nt d (s r))) (s r) * n (match_of nn nt d (s r)) i else 0))); [|rewrite H1; ring].
    clear H H1. induction ns as [|m IH]; cbn [rsum]; [ring|]. rewrite IH. unfold lin_row, lin_rhs. apply Nat.ltb_lt in L. rewrite L. destruct (keep _); ring.
  - apply Nat.ltb_ge in L. destruct (H (i - 3)%nat ltac:(lia)) as [_ H1].
    transitivity (- (rsum ns (fun r => if keep (dist2 3 (s r) (d (match_of nn nt d (s r)))) then plane_res (n (match_of nn nt d (s r))) (d (match_of nn nt d (s r))) (s r) * cross (s r) (n (match_of nn nt d (s r))) (i - 3)%nat else 0))); [|rewrite H1; ring].
    clear H H1. induction ns as [|m IH]; cbn [rsum]; [ring|]. rewrite IH. unfold lin_row, lin_rhs. apply Nat.ltb_ge in L. rewrite L. destruct (keep _); ring.
Qed.

Section Fix.
  Variables (nn : nnfun) (src tgt nor : ten R) (ns nt : nat) (th : thr_arg).
  Hypothesis Hin : icp_input nn src tgt nor ns nt th.
  Notation err := (plane_err nn (keep_sq th) ns nt (pts_of tgt) (pts_of nor)).
  Notation bal := (balanced nn (keep_sq th) ns nt (pts_of tgt) (pts_of nor)).
  Notation lm := (lm_step nn (keep_sq th) ns nt (pts_of tgt) (pts_of nor)).
  Notation idx_of s := (map (fun i => match_of nn nt (pts_of tgt) (s i)) (kept_pts nn (keep_sq th) ns nt (pts_of tgt) s)).
  (* the zero twist is the damped step *)
  Definition still (s : nat -> vec) : Prop := forall damp, lm s damp (fun _ => 0).
  Lemma still_same s t : same_pts ns s t -> still s -> still t.
  Proof. intros H1 H2 damp. apply (lm_step_ext nn (keep_sq th) ns nt (pts_of tgt) (pts_of nor) (proj1 Hin) s t); [exact H1|apply H2]. Qed.
  Lemma still_twist s damp xi : 0 < damp -> still s -> lm s damp xi -> veq 6 xi (fun _ => 0).
  Proof. intros Hd H1 H2. apply (lm_step_unique nn (keep_sq th) ns nt (pts_of tgt) (pts_of nor) s damp xi (fun _ => 0) Hd H2 (H1 damp)). Qed.

  Lemma icp_still s a : good ns s -> still (pts_of (i_src s)) -> icp_iter nn tgt nor th s = Ok a ->
    i_T a = i_T s /\ i_src a = i_src s /\ i_idx a = Some (idx_of (pts_of (i_src s))).
  Proof.
    intros G S Ea. destruct (icp_iter_ok nn src tgt nor ns nt th Hin s G) as (a' & xi & E & Ha & _ & L & HE & AE & Ia & Ca).
    rewrite Ea in Ha. injection Ha as <-. pose proof (six_zero_exp xi E (still_twist _ _ xi (proj2 (proj2 G)) S L) HE) as HI.
    rewrite (err_same nn src tgt nor ns nt th Hin _ _ (moved_id ns E _ HI)) in Ca.
    destruct Ca as [(C & _)|(_ & _ & C1 & C2)]; [lra|]. auto.
  Qed.
  Lemma icp_still_iter n s a : good ns s -> still (pts_of (i_src s)) -> iterate (icp_iter nn tgt nor th) n s = Ok a ->
    i_T a = i_T s /\ i_src a = i_src s /\ (n <> 0%nat -> i_idx a = Some (idx_of (pts_of (i_src s)))).
  Proof.
    revert s. induction n as [|n IH]; intros s G S E; [cbn in E; injection E as <-; split; [reflexivity|split; [reflexivity|congruence]]|].
    cbn [iterate] in E. destruct (icp_total nn src tgt nor ns nt th Hin s G) as (s1 & Es & G1 & _). rewrite Es in E. cbn [rbind] in E.
    destruct (icp_still s s1 G S Es) as (T1 & P1 & I1). rewrite <- P1 in S. destruct (IH s1 G1 S E) as (T2 & P2 & I2).
    split; [congruence|]. split; [congruence|]. intros _. destruct n as [|n]; [cbn in E; injection E as <-; exact I1|].
    rewrite I2 by discriminate. rewrite P1. reflexivity.
  Qed.
  Lemma icp_fixed init n damp : mat44 init -> 0 < damp -> (0 < n)%Z -> still (moved (ent init []) (pts_of src)) ->
    point_to_plane_ICP nn (TTen src) (TTen tgt) (TTen nor) (TTen init) (IntV n) damp th = Ok (init, idx_of (moved (ent init []) (pts_of src))).
  Proof.
    intros Hi Hd Hn S. rewrite icp_unfold by exact Hi.
    destruct (start_ok src init damp ns (proj1 (proj2 Hin)) Hi Hd) as (s0 & -> & G0 & T0 & D0 & I0 & P0). cbn [rbind].
    assert (S0 : still (pts_of (i_src s0))) by (apply (still_same _ _ (same_sym _ _ _ P0)), S).
    destruct (iter_ok ns _ (icp_total nn src tgt nor ns nt th Hin) (Z.to_nat n) s0 G0) as (s & Es & Gs & Is). rewrite Es. cbn [rbind].
    destruct (icp_still_iter (Z.to_nat n) s0 s G0 S0 Es) as (T1 & _ & I1). unfold finish. rewrite I1 by lia.
    rewrite T1, T0. f_equal. f_equal. apply (idx_same nn src tgt nor ns nt th Hin). exact P0.
  Qed.

  Variables (lmax B B2 nu : R).
  Hypothesis Hl : 0 < lmax.
  Hypothesis Hnu : nu <> 0.
  Notation gf := (grad_iter nn tgt nor th lmax B B2 nu).
  Lemma grad_still s a : good ns s -> still (pts_of (i_src s)) -> gf s = Ok a ->
    meq 4 4 (ent (i_T a) []) (ent (i_T s) []) /\ same_pts ns (pts_of (i_src a)) (pts_of (i_src s)) /\ i_idx a = Some (idx_of (pts_of (i_src s))).
  Proof.
    intros G S Ea. destruct (grad_iter_ok nn src tgt nor ns nt th Hin lmax B B2 nu Hl Hnu s G) as (a' & xi & E & E' & Ha & _ & L & HE & HE' & AE & Ia & Da & Ca & Pa).
    rewrite Ea in Ha. injection Ha as <-. pose proof (still_twist _ _ xi (proj2 (proj2 G)) S L) as Z.
    assert (HI : meq 4 4 E' mI).
    { apply (six_zero_exp _ E') in HE'; [exact HE'|]. intros k Hk. unfold scaled. rewrite (Z k Hk). ring. }
    split; [|split; [|exact Ia]].
    - eapply meq_trans; [exact Ca|]. apply mmul_id_l, HI.
    - eapply same_trans; [exact Pa|]. apply moved_id, HI.
  Qed.
  Lemma grad_still_iter n s a : good ns s -> still (pts_of (i_src s)) -> iterate gf n s = Ok a ->
    meq 4 4 (ent (i_T a) []) (ent (i_T s) []) /\ same_pts ns (pts_of (i_src a)) (pts_of (i_src s)) /\ (n <> 0%nat -> i_idx a = Some (idx_of (pts_of (i_src s)))).
  Proof.
    revert s. induction n as [|n IH]; intros s G S E.
    - cbn in E; injection E as <-. split; [apply meq_refl|]. split; [apply same_refl|congruence].
    - cbn [iterate] in E. destruct (grad_total nn src tgt nor ns nt th Hin lmax B B2 nu Hl Hnu s G) as (s1 & Es & G1 & _). rewrite Es in E. cbn [rbind] in E.
      destruct (grad_still s s1 G S Es) as (T1 & P1 & I1). pose proof (still_same _ _ (same_sym _ _ _ P1) S) as S1. destruct (IH s1 G1 S1 E) as (T2 & P2 & I2).
      split; [eapply meq_trans; eassumption|]. split; [eapply same_trans; eassumption|]. intros _. destruct n as [|n]; [cbn in E; injection E as <-; exact I1|].
      rewrite I2 by discriminate. f_equal. apply (idx_same nn src tgt nor ns nt th Hin). exact P1.
  Qed.
  Lemma grad_fixed init n damp : mat44 init -> 0 < damp -> (0 < n)%Z -> still (moved (ent init []) (pts_of src)) ->
    exists T, point_to_plane_gradICP nn (TTen src) (TTen tgt) (TTen nor) (TTen init) (IntV n) damp th (Num lmax) (Num B) (Num B2) (Num nu)
      = Ok (T, idx_of (moved (ent init []) (pts_of src))) /\ mat44 T /\ meq 4 4 (ent T []) (ent init []).
  Proof.
    intros Hi Hd Hn S. rewrite grad_unfold by (exact Hi || lra).
    destruct (start_ok src init damp ns (proj1 (proj2 Hin)) Hi Hd) as (s0 & -> & G0 & T0 & D0 & I0 & P0). cbn [rbind].
    assert (S0 : still (pts_of (i_src s0))) by (apply (still_same _ _ (same_sym _ _ _ P0)), S).
    destruct (iter_ok ns _ (grad_total nn src tgt nor ns nt th Hin lmax B B2 nu Hl Hnu) (Z.to_nat n) s0 G0) as (s & Es & Gs & Is). rewrite Es. cbn [rbind].
    destruct (grad_still_iter (Z.to_nat n) s0 s G0 S0 Es) as (T1 & _ & I1). unfold finish. rewrite I1 by lia.
    exists (i_T s). split; [|split; [exact (proj1 (proj2 Gs))|rewrite <- T0; exact T1]].
    f_equal. f_equal. apply (idx_same nn src tgt nor ns nt th Hin). exact P0.
  Qed.
End Fix.

Lemma zero_err_res nn keep ns nt d n s : plane_err nn keep ns nt d n s = 0 <->
  forall i, takes_part nn keep ns nt d s i -> plane_res (n (match_of nn nt d (s i))) (d (match_of nn nt d (s i))) (s i) = 0.
Proof.
  unfold plane_err, takes_part. cbv zeta. split.
  - intros H i [Hi Hk]. pose proof (fun P => rsum_sq_zero ns _ P H i Hi) as Q. cbv beta in Q. rewrite Hk in Q.
    assert (Z : plane_res (n (match_of nn nt d (s i))) (d (match_of nn nt d (s i))) (s i) * plane_res (n (match_of nn nt d (s i))) (d (match_of nn nt d (s i))) (s i) = 0).
    { apply Q. intros k _. destruct (keep (dist2 3 (s k) (d (match_of nn nt d (s k))))); [apply Rle_0_sqr|lra]. }
    apply Rsqr_0_uniq. exact Z.
  - intros H. apply rsum_zero. intros i Hi. destruct (keep (dist2 3 (s i) (d (match_of nn nt d (s i))))) eqn:K; [|reflexivity]. rewrite (H i (conj Hi K)). ring.
Qed.
Lemma zero_err_balanced nn keep ns nt d n s : plane_err nn keep ns nt d n s = 0 -> balanced nn keep ns nt d n s.
Proof.
  intros H. pose proof (proj1 (zero_err_res nn keep ns nt d n s) H) as Z. intros k Hk. cbv zeta.
  split; apply rsum_zero; intros i Hi; destruct (keep (dist2 3 (s i) (d (match_of nn nt d (s i))))) eqn:K; try reflexivity; rewrite (Z i (conj Hi K)); ring.
Qed.
Lemma on_target_err nn keep ns nt d n s : nearest nn -> on_target ns nt d s -> plane_err nn keep ns nt d n s = 0.
Proof.
  intros Hnn H. apply zero_err_res. intros i [Hi _]. destruct (H i Hi) as (j & Hj & E).
  destruct ((proj1 Hnn) nt d (s i) ltac:(lia)) as [_ Hc]. specialize (Hc j Hj). change (nn nt d (s i)) with (match_of nn nt d (s i)) in Hc.
  assert (Z : dist2 3 (s i) (d j) = 0).
  { rewrite (dist2_ext (s i) (d j) (d j) (d j) E (veq_refl _ _)). unfold dist2, dot. cbn [rsum]. ring. }
  rewrite Z in Hc. pose proof (dist2_nonneg (s i) (d (match_of nn nt d (s i)))) as Hp.
  assert (V := dist2_zero_veq _ _ (Rle_antisym _ _ Hc Hp)). unfold plane_res, dot. cbn [rsum]. rewrite !V by lia. ring.
Qed.
