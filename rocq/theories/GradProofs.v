(* Calculus for C82 and the derivatives of the vertex, global vertex and normal maps. *)
From Coq Require Import Reals List Arith Bool ZArith Lia Lra.
From Verif Require Import Res Fld StructUtilsModel PointcloudsModel PointcloudsSpec MatSpec GeomSpec TensorModel RgbdModel RgbdSpec RgbdProofs RgbdPropProofs FusionModel FusionSpec GradSpec.
Import ListNotations.
Local Open Scope nat_scope.

(* ---------------------------------------------------------------- neighbourhoods *)
Lemma near_all x (P : R -> Prop) : (forall y, P y) -> near x P.
Proof. intros H. exists 1%R. split; [lra|auto]. Qed.
Lemma near_at x P : near x P -> P x.
Proof. intros (e & He & H). apply H. rewrite Rminus_diag_eq by reflexivity. rewrite Rabs_R0. exact He. Qed.
Lemma near_and x P Q : near x P -> near x Q -> near x (fun y => P y /\ Q y).
Proof.
  intros (e & He & H) (e' & He' & H'). exists (Rmin e e'). split; [now apply Rmin_glb_lt|]. intros y Hy. split.
  - apply H. apply Rlt_le_trans with (1 := Hy), Rmin_l.
  - apply H'. apply Rlt_le_trans with (1 := Hy), Rmin_r.
Qed.
Lemma near_imp x (P Q : R -> Prop) : (forall y, P y -> Q y) -> near x P -> near x Q.
Proof. intros HI (e & He & H). exists e. split; [exact He|]. intros y Hy. apply HI, H, Hy. Qed.
Lemma near_list {A} x (l : list A) (P : A -> R -> Prop) : (forall a, In a l -> near x (P a)) -> near x (fun y => forall a, In a l -> P a y).
Proof.
  induction l as [|a l IH]; intros H; [apply near_all; intros y b []|].
  apply (near_imp x (fun y => P a y /\ forall b, In b l -> P b y)); [intros y [H1 H2] b [<-|Hb]; auto|].
  apply near_and; [apply H; now left|]. apply IH. intros b Hb. apply H. now right.
Qed.
Lemma near_lt x n (P : nat -> R -> Prop) : (forall k, k < n -> near x (P k)) -> near x (fun y => forall k, k < n -> P k y).
Proof.
  intros H. apply (near_imp x (fun y => forall k, In k (seq 0 n) -> P k y)); [intros y Hy k Hk; apply Hy, in_seq; lia|].
  apply near_list. intros k Hk. apply H. apply in_seq in Hk. lia.
Qed.

(* ---------------------------------------------------------------- rules *)
Lemma diff_ext f g x : (forall y, f y = g y) -> differentiable g x -> differentiable f x.
Proof. intros E (l & H). exists l. intros e He. destruct (H e He) as (d & Hd). exists d. intros h Hh Hl. rewrite !E. now apply Hd. Qed.
Lemma diff_near f g x : near x (fun y => f y = g y) -> differentiable g x -> differentiable f x.
Proof.
  intros N (l & H). exists l. pose proof (near_at _ _ N) as E0. destruct N as (e0 & He0 & N). intros e He. destruct (H e He) as (d & Hd).
  assert (Hm : (0 < Rmin e0 d)%R) by (apply Rmin_glb_lt; [exact He0|apply (cond_pos d)]). exists (mkposreal _ Hm). cbn. intros h Hh Hl.
  rewrite E0, N by (replace (x + h - x)%R with h by ring; apply Rlt_le_trans with (1 := Hl), Rmin_l). apply Hd; [exact Hh|]. apply Rlt_le_trans with (1 := Hl), Rmin_r.
Qed.
Lemma lim_near f g x l : near x (fun y => f y = g y) -> derivable_pt_lim g x l -> derivable_pt_lim f x l.
Proof.
  intros N H. pose proof (near_at _ _ N) as E0. destruct N as (e0 & He0 & N). intros e He. destruct (H e He) as (d & Hd).
  assert (Hm : (0 < Rmin e0 d)%R) by (apply Rmin_glb_lt; [exact He0|apply (cond_pos d)]). exists (mkposreal _ Hm). cbn. intros h Hh Hl.
  rewrite E0, N by (replace (x + h - x)%R with h by ring; apply Rlt_le_trans with (1 := Hl), Rmin_l). apply Hd; [exact Hh|]. apply Rlt_le_trans with (1 := Hl), Rmin_r.
Qed.
Lemma diff_const c x : differentiable (fun _ => c) x.
Proof. exists 0%R. apply derivable_pt_lim_const. Qed.
Lemma diff_id x : differentiable (fun y => y) x.
Proof. exists 1%R. apply derivable_pt_lim_id. Qed.
Lemma diff_plus f g x : differentiable f x -> differentiable g x -> differentiable (fun y => f y + g y)%R x.
Proof. intros (l & H) (l' & H'). exists (l + l')%R. exact (derivable_pt_lim_plus f g x l l' H H'). Qed.
Lemma diff_minus f g x : differentiable f x -> differentiable g x -> differentiable (fun y => f y - g y)%R x.
Proof. intros (l & H) (l' & H'). exists (l - l')%R. exact (derivable_pt_lim_minus f g x l l' H H'). Qed.
Lemma diff_opp f x : differentiable f x -> differentiable (fun y => - f y)%R x.
Proof. intros (l & H). exists (- l)%R. exact (derivable_pt_lim_opp f x l H). Qed.
Lemma diff_mult f g x : differentiable f x -> differentiable g x -> differentiable (fun y => f y * g y)%R x.
Proof. intros (l & H) (l' & H'). exists (l * g x + f x * l')%R. exact (derivable_pt_lim_mult f g x l l' H H'). Qed.
Lemma diff_div f g x : differentiable f x -> differentiable g x -> g x <> 0%R -> differentiable (fun y => f y / g y)%R x.
Proof. intros (l & H) (l' & H') Hg. exists ((l * g x - l' * f x) / Rsqr (g x))%R. exact (derivable_pt_lim_div f g x l l' H H' Hg). Qed.
Lemma diff_inv f x : differentiable f x -> f x <> 0%R -> differentiable (fun y => / f y)%R x.
Proof. intros H Hf. apply (diff_ext _ (fun y => 1 / f y)%R); [intros y; unfold Rdiv; ring|]. apply diff_div; [apply diff_const|exact H|exact Hf]. Qed.
Lemma diff_comp f g x : differentiable f x -> differentiable g (f x) -> differentiable (fun y => g (f y)) x.
Proof. intros (l & H) (l' & H'). exists (l' * l)%R. exact (derivable_pt_lim_comp f g x l l' H H'). Qed.
Lemma diff_sqrt f x : differentiable f x -> (0 < f x)%R -> differentiable (fun y => sqrt (f y)) x.
Proof. intros H Hf. apply (diff_comp f sqrt); [exact H|]. exists (/ (2 * sqrt (f x)))%R. now apply derivable_pt_lim_sqrt. Qed.
Lemma diff_exp f x : differentiable f x -> differentiable (fun y => exp (f y)) x.
Proof. intros H. apply (diff_comp f exp); [exact H|]. exists (exp (f x)). apply derivable_pt_lim_exp. Qed.
Lemma diff_rsum n (f : R -> nat -> R) x : (forall k, k < n -> differentiable (fun y => f y k) x) -> differentiable (fun y => rsum n (f y)) x.
Proof. induction n as [|n IH]; intros H; cbn [rsum]; [apply diff_const|]. apply diff_plus; [apply IH; intros k Hk; apply H; lia|apply H; lia]. Qed.
Lemma diff_pow2 f x : differentiable f x -> differentiable (fun y => f y ^ 2)%R x.
Proof. intros H. apply (diff_ext _ (fun y => f y * f y)%R); [intros y; ring|]. now apply diff_mult. Qed.
Lemma diff_cont f x : differentiable f x -> forall e, (0 < e)%R -> near x (fun y => Rabs (f y - f x) < e)%R.
Proof.
  intros (l & H) e He. assert (D : derivable_pt f x) by (exists l; exact H). pose proof (derivable_continuous_pt f x D) as C.
  destruct (C e He) as (d & Hd & K). exists d. split; [exact Hd|]. intros y Hy. destruct (Req_dec x y) as [<-|N]; [rewrite Rminus_diag_eq by reflexivity; rewrite Rabs_R0; exact He|].
  apply K. split; [split; [exact I|exact N]|exact Hy].
Qed.
Lemma diff_pos f x : differentiable f x -> (0 < f x)%R -> near x (fun y => 0 < f y)%R.
Proof. intros H Hf. apply (near_imp x (fun y => Rabs (f y - f x) < f x)%R); [|now apply diff_cont]. intros y Hy. apply Rabs_def2 in Hy. lra. Qed.
Lemma diff_neg f x : differentiable f x -> (f x < 0)%R -> near x (fun y => f y < 0)%R.
Proof. intros H Hf. apply (near_imp x (fun y => 0 < - f y)%R); [intros; lra|]. apply diff_pos; [now apply diff_opp|lra]. Qed.
Lemma diff_lt f g x : differentiable f x -> differentiable g x -> f x <> g x -> near x (fun y => f y < g y <-> f x < g x)%R.
Proof.
  intros H H' N. destruct (Rtotal_order (f x) (g x)) as [L|[L|L]]; [|contradiction|].
  - apply (near_imp x (fun y => 0 < g y - f y)%R); [intros; lra|]. apply diff_pos; [now apply diff_minus|lra].
  - apply (near_imp x (fun y => 0 < f y - g y)%R); [intros; lra|]. apply diff_pos; [now apply diff_minus|lra].
Qed.
Lemma diff_dot n u v x : (forall k, k < n -> differentiable (fun y => u y k) x) -> (forall k, k < n -> differentiable (fun y => v y k) x) -> differentiable (fun y => dot n (u y) (v y)) x.
Proof. intros H H'. unfold dot. apply (diff_rsum n (fun y k => u y k * v y k)%R). intros k Hk. apply diff_mult; auto. Qed.
Lemma dot_nonneg n u : (0 <= dot n u u)%R.
Proof. unfold dot. induction n as [|n IH]; cbn [rsum]; [lra|]. pose proof (Rle_0_sqr (u n)) as S. unfold Rsqr in S. lra. Qed.
Lemma dot_zero3 u : dot 3 u u = 0%R -> forall j, j < 3 -> u j = 0%R.
Proof.
  unfold dot. cbn [rsum]. intros H j Hj. pose proof (Rle_0_sqr (u 0)) as S0. pose proof (Rle_0_sqr (u 1)) as S1. pose proof (Rle_0_sqr (u 2)) as S2. unfold Rsqr in *.
  assert (E : (u j * u j = 0)%R) by (destruct j as [|[|[|j]]]; [| | |lia]; lra). apply Rmult_integral in E. tauto.
Qed.
Lemma diff_norm u x : (forall k, k < 3 -> differentiable (fun y => u y k) x) -> (exists k, k < 3 /\ u x k <> 0%R) -> differentiable (fun y => norm 3 (u y)) x.
Proof.
  intros H (k & Hk & N). unfold norm. apply diff_sqrt; [now apply diff_dot|]. destruct (Rle_lt_or_eq_dec _ _ (dot_nonneg 3 (u x))) as [L|E]; [exact L|]. exfalso. apply N. now apply dot_zero3.
Qed.

(* ---------------------------------------------------------------- maps of the frames *)
Section Maps.
  Variables (F : R -> frames) (x0 : R).
  Hypothesis SF : smooth_frames F x0.
  Lemma sizes_eq x : fB (F x) = fB (F x0) /\ fL (F x) = fL (F x0) /\ fH (F x) = fH (F x0) /\ fW (F x) = fW (F x0).
  Proof. destruct SF as (H & _). apply H. Qed.
  Lemma inside_eq x b l h w : inside (F x0) b l h w -> inside (F x) b l h w.
  Proof. destruct (sizes_eq x) as (E1 & E2 & E3 & E4). unfold inside. lia. Qed.
  Lemma d_dep b l h w : inside (F x0) b l h w -> differentiable (fun x => fdep (F x) b l h w) x0.
  Proof. destruct SF as (_ & _ & H & _). apply H. Qed.
  Lemma d_pixel b l h w i : inside (F x0) b l h w -> i < 3 -> differentiable (fun x => pixel (F x) b l h w i) x0.
  Proof.
    intros Hin Hi. destruct SF as (_ & _ & _ & _ & _ & _ & [H|(p & E & H)]).
    - apply (diff_ext _ (fun _ => vec3 (INR w) (INR h) 1 i)); [intros x; unfold pixel; now rewrite H|apply diff_const].
    - apply (diff_ext _ (fun x => p x b l h w i)); [intros x; unfold pixel; now rewrite E|]. now apply H.
  Qed.
  Lemma d_kinv b i j : b < fB (F x0) -> i < 3 -> j < 3 -> differentiable (fun x => kinv (fK (F x) b) i j) x0.
  Proof.
    intros Hb Hi Hj. destruct SF as (_ & _ & _ & H & N & _). destruct (N b Hb) as [N0 N1].
    assert (K : forall i j, i < 4 -> j < 4 -> differentiable (fun x => fK (F x) b i j) x0) by (intros; now apply H).
    assert (F0 : differentiable (fun x => fK (F x) b 0%nat 0%nat + / 1000000)%R x0) by (apply diff_plus; [apply K; lia|apply diff_const]).
    assert (F1 : differentiable (fun x => fK (F x) b 1%nat 1%nat + / 1000000)%R x0) by (apply diff_plus; [apply K; lia|apply diff_const]).
    unfold kinv, pinhole. destruct i as [|[|[|i]]]; [| | |lia]; (destruct j as [|[|[|j]]]; [| | |lia]); try apply diff_const.
    - apply diff_inv; assumption.
    - apply diff_div; [apply diff_opp, K; lia|assumption|assumption].
    - apply diff_inv; assumption.
    - apply diff_div; [apply diff_opp, K; lia|assumption|assumption].
  Qed.
  Lemma d_ray b l h w j : inside (F x0) b l h w -> j < 3 -> differentiable (fun x => ray (F x) b l h w j) x0.
  Proof.
    intros Hin Hj. unfold ray, mvec. apply (diff_rsum 3 (fun x k => kinv (fK (F x) b) j k * pixel (F x) b l h w k)%R). intros k Hk.
    apply diff_mult; [apply d_kinv; [apply Hin|lia|lia]|now apply d_pixel].
  Qed.
  (* the sign of the depth does not change *)
  Lemma dep_near b l h w : inside (F x0) b l h w -> fdep (F x0) b l h w <> 0%R -> near x0 (fun x => (0 < fdep (F x) b l h w <-> 0 < fdep (F x0) b l h w)%R).
  Proof. intros Hin N. apply (diff_lt (fun _ => 0%R) (fun x => fdep (F x) b l h w)); [apply diff_const|now apply d_dep|]. congruence. Qed.
  Lemma keep_diff b l h w (f : R -> R) : inside (F x0) b l h w -> fdep (F x0) b l h w <> 0%R -> ((0 < fdep (F x0) b l h w)%R -> differentiable f x0) ->
    differentiable (fun x => keep (fdep (F x) b l h w) (f x)) x0.
  Proof.
    intros Hin N H. destruct (Rlt_dec 0 (fdep (F x0) b l h w)) as [P|P].
    - apply (diff_near _ f); [|now apply H]. refine (near_imp _ _ _ _ (dep_near b l h w Hin N)). intros x E. unfold keep. destruct (Rlt_dec 0 (fdep (F x) b l h w)); tauto.
    - apply (diff_near _ (fun _ => 0%R)); [|apply diff_const]. refine (near_imp _ _ _ _ (dep_near b l h w Hin N)). intros x E. unfold keep. destruct (Rlt_dec 0 (fdep (F x) b l h w)); tauto.
  Qed.
  Lemma d_vertex b l h w j : inside (F x0) b l h w -> j < 3 -> fdep (F x0) b l h w <> 0%R -> differentiable (fun x => vertex (F x) b l h w j) x0.
  Proof. intros Hin Hj N. unfold vertex. apply keep_diff; [exact Hin|exact N|]. intros _. apply diff_mult; [now apply d_dep|]. now apply d_ray. Qed.
  Lemma d_act T b l (v : R -> vec) i : (forall b l i j, b < fB (F x0) -> l < fL (F x0) -> i < 4 -> j < 4 -> differentiable (fun x => T x b l i j) x0) -> b < fB (F x0) -> l < fL (F x0) -> i < 3 ->
    (forall j, j < 3 -> differentiable (fun x => v x j) x0) -> differentiable (fun x => mvec 3 (rot_of (T x b l)) (v x) i) x0 /\ differentiable (fun x => act (T x b l) (v x) i) x0.
  Proof.
    intros HT Hb Hl Hi Hv. assert (M : differentiable (fun x => mvec 3 (rot_of (T x b l)) (v x) i) x0).
    { unfold mvec, rot_of. apply (diff_rsum 3 (fun x k => T x b l i k * v x k)%R). intros k Hk. apply diff_mult; [apply HT; lia|now apply Hv]. }
    split; [exact M|]. unfold act, tr_of. apply diff_plus; [exact M|]. apply HT; lia.
  Qed.
  Lemma d_gvertex b l h w j : inside (F x0) b l h w -> j < 3 -> fdep (F x0) b l h w <> 0%R -> differentiable (fun x => global_vertex (F x) b l h w j) x0.
  Proof.
    intros Hin Hj N. destruct SF as (_ & _ & _ & _ & _ & [H|(T & E & H)] & _).
    - apply (diff_ext _ (fun x => vertex (F x) b l h w j)); [intros x; unfold global_vertex; now rewrite H|now apply d_vertex].
    - apply (diff_ext _ (fun x => keep (fdep (F x) b l h w) (act (T x b l) (vertex (F x) b l h w) j))); [intros x; unfold global_vertex; now rewrite E|].
      apply keep_diff; [exact Hin|exact N|]. intros _. apply d_act; [exact H|apply Hin|apply Hin|exact Hj|]. intros k Hk. now apply d_vertex.
  Qed.
  Hypothesis HH : 2 <= fH (F x0).
  Hypothesis HW : 2 <= fW (F x0).
  Hypothesis NZ : no_zero_depth (F x0).
  Lemma d_tangents b l h w j : inside (F x0) b l h w -> j < 3 -> differentiable (fun x => tangent_h (F x) b l h w j) x0 /\ differentiable (fun x => tangent_v (F x) b l h w j) x0.
  Proof.
    intros (Hb & Hl & Hh & Hw) Hj. split.
    - apply (diff_ext _ (fun x => vertex (F x) b l h (S (Nat.min w (fW (F x0) - 2))) j - vertex (F x) b l h (Nat.min w (fW (F x0) - 2)) j)%R).
      + intros x. unfold tangent_h. destruct (sizes_eq x) as (_ & _ & _ & ->). reflexivity.
      + apply diff_minus; apply d_vertex; try exact Hj; try apply NZ; repeat split; try assumption; lia.
    - apply (diff_ext _ (fun x => vertex (F x) b l (S (Nat.min h (fH (F x0) - 2))) w j - vertex (F x) b l (Nat.min h (fH (F x0) - 2)) w j)%R).
      + intros x. unfold tangent_v. destruct (sizes_eq x) as (_ & _ & -> & _). reflexivity.
      + apply diff_minus; apply d_vertex; try exact Hj; try apply NZ; repeat split; try assumption; lia.
  Qed.
  Lemma d_cross (u v : R -> vec) j : (forall k, k < 3 -> differentiable (fun x => u x k) x0) -> (forall k, k < 3 -> differentiable (fun x => v x k) x0) -> differentiable (fun x => cross (u x) (v x) j) x0.
  Proof. intros Hu Hv. unfold cross. destruct j as [|[|j]]; apply diff_minus; apply diff_mult; (apply Hu || apply Hv); lia. Qed.
  Lemma d_unitize (u : R -> vec) j : (forall k, k < 3 -> differentiable (fun x => u x k) x0) -> (exists k, k < 3 /\ u x0 k <> 0%R) -> j < 3 -> differentiable (fun x => unitize (u x) j) x0.
  Proof.
    intros H E Hj. assert (N0 : (0 < norm 3 (u x0))%R).
    { destruct E as (k & Hk & N). unfold norm. apply sqrt_lt_R0. destruct (Rle_lt_or_eq_dec _ _ (dot_nonneg 3 (u x0))) as [L|E]; [exact L|]. exfalso. apply N. now apply dot_zero3. }
    pose proof (diff_norm u x0 H E) as DN. unfold unitize. apply (diff_near _ (fun x => u x j / norm 3 (u x))%R).
    - refine (near_imp _ _ _ _ (diff_pos _ _ DN N0)). intros x P. destruct (Req_EM_T (norm 3 (u x)) 0); [lra|reflexivity].
    - apply diff_div; [now apply H|exact DN|lra].
  Qed.
  Lemma d_normal b l h w j : inside (F x0) b l h w -> j < 3 -> ((0 < fdep (F x0) b l h w)%R -> exists k, k < 3 /\ normal (F x0) b l h w k <> 0%R) ->
    differentiable (fun x => normal (F x) b l h w j) x0.
  Proof.
    intros Hin Hj N. unfold normal. apply keep_diff; [exact Hin|now apply NZ|]. intros P. destruct (N P) as (k & Hk & NN). apply d_unitize; [| |exact Hj].
    - intros i Hi. apply d_cross; intros m Hm; now apply d_tangents.
    - exists k. split; [exact Hk|]. intros Z. apply NN. unfold normal, keep. destruct (Rlt_dec 0 _); [|reflexivity]. unfold unitize. rewrite Z. unfold Rdiv. ring.
  Qed.
  Lemma d_gnormal b l h w j : inside (F x0) b l h w -> j < 3 -> ((0 < fdep (F x0) b l h w)%R -> exists k, k < 3 /\ normal (F x0) b l h w k <> 0%R) ->
    differentiable (fun x => global_normal (F x) b l h w j) x0.
  Proof.
    intros Hin Hj N. pose proof SF as (_ & _ & _ & _ & _ & [H|(T & E & H)] & _).
    - apply (diff_ext _ (fun x => normal (F x) b l h w j)); [intros x; unfold global_normal; now rewrite H|now apply d_normal].
    - apply (diff_ext _ (fun x => mvec 3 (rot_of (T x b l)) (normal (F x) b l h w) j)); [intros x; unfold global_normal; now rewrite E|].
      apply d_act; [exact H|apply Hin|apply Hin|exact Hj|]. intros k Hk. now apply d_normal.
  Qed.
End Maps.
