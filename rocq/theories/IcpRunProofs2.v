(* C50-C52, continued: rigidity, gradICP, argument errors. *)
From Coq Require Import Reals List Arith Bool ZArith Lra Lia.
From Verif Require Import Res MatSpec TensorModel GeomModel RgbdModel GeomSpec MatProofs TensorProofs GeomProofs GeomPtsProofs Se3Model Se3Proofs ExpProofs
  SolveModel FusionModel IcpModel IcpSpec SolveProofs IcpSolveProofs IcpGnProofs IcpLoopProofs IcpPropProofs IcpRunProofs.
Import ListNotations.
Local Open Scope R_scope.

(* ---------------------------------------------------------------- lengths *)
Lemma mvec_mmul3 A B v i : mvec 3 (mmul 3 A B) v i = mvec 3 A (mvec 3 B v) i.
Proof. unfold mvec, mmul. cbn [rsum]. ring. Qed.
Lemma dot3_ext u u' : veq 3 u u' -> dot 3 u u = dot 3 u' u'.
Proof. intros H. unfold dot. apply rsum_ext. intros k Hk. rewrite (H k Hk). reflexivity. Qed.
Lemma iso_rotation Q v : orthogonal3 Q -> dot 3 (mvec 3 Q v) (mvec 3 Q v) = dot 3 v v.
Proof.
  intros [H _]. 
  assert (E : dot 3 (mvec 3 Q v) (mvec 3 Q v) = dot 3 v (mvec 3 (mmul 3 (mtr Q) Q) v)).
  { unfold dot, mvec, mmul, mtr. cbn [rsum]. ring. }
  rewrite E. unfold dot. apply rsum_ext. intros i Hi. f_equal. unfold mvec.
  rewrite (rsum_ext 3 _ (fun j => mI i j * v j)) by (intros j Hj; rewrite (H i j Hi Hj); reflexivity).
  unfold mI, delta. destruct i as [|[|[|i]]]; [| | |lia]; cbn [rsum Nat.eqb]; ring.
Qed.
Lemma near_ext c A B : meq 3 3 A B -> near_isometry c A -> near_isometry c B.
Proof.
  intros H N v. rewrite <- (dot3_ext (mvec 3 A v) (mvec 3 B v)); [apply N|].
  intros i Hi. unfold mvec. apply rsum_ext. intros j Hj. rewrite (H i j Hi Hj). reflexivity.
Qed.
Lemma dot3_nonneg v : 0 <= dot 3 v v. Proof. unfold dot. cbn [rsum]. nra. Qed.
Lemma near_mul c d A B : 0 <= c -> near_isometry c A -> near_isometry d B -> near_isometry (c * d) (mmul 3 A B).
Proof.
  intros Hc HA HB v. rewrite (dot3_ext (mvec 3 (mmul 3 A B) v) (mvec 3 A (mvec 3 B v))) by (intros i _; apply mvec_mmul3).
  destruct (HA (mvec 3 B v)) as [A1 A2]. destruct (HB v) as [B1 B2]. split; [lra|].
  apply Rle_trans with (1 := A2). rewrite Rmult_assoc. apply Rmult_le_compat_l; assumption.
Qed.
Lemma near_weaken c d A : c <= d -> near_isometry c A -> near_isometry d A.
Proof. intros H N v. destruct (N v). split; [assumption|]. pose proof (dot3_nonneg v). nra. Qed.
Lemma near_small w : norm 3 w < se3_eps -> near_isometry (1 + se3_eps * se3_eps) (madd mI (skew w)).
Proof.
  intros H v. pose proof (sqrt_pos (dot 3 w w)) as Hp. fold (norm 3 w) in Hp.
  assert (Hw : sq3 w <= se3_eps * se3_eps) by (rewrite <- norm3_sq; nra).
  assert (E : dot 3 (mvec 3 (madd mI (skew w)) v) (mvec 3 (madd mI (skew w)) v) = dot 3 v v + (sq3 w * dot 3 v v - (dot 3 w v) * (dot 3 w v))).
  { unfold dot, mvec, madd, mI, delta, skew, sq3. cbn [rsum Nat.eqb]. ring. }
  assert (C : 0 <= sq3 w * dot 3 v v - dot 3 w v * dot 3 w v).
  { replace (sq3 w * dot 3 v v - dot 3 w v * dot 3 w v) with (dot 3 (cross w v) (cross w v)); [apply dot3_nonneg|].
    unfold dot, cross, sq3. cbn [rsum]. ring. }
  rewrite E. pose proof (dot3_nonneg v). pose proof (Rle_0_sqr (dot 3 w v)) as Hq. unfold Rsqr in Hq. split; [lra|]. nra.
Qed.
Lemma one_le_eps : 1 <= 1 + se3_eps * se3_eps. Proof. pose proof eps_pos. nra. Qed.
Lemma rot_twist Q V v : meq 3 3 (rot_of (twist_exp Q V v)) Q.
Proof.
  intros i j Hi Hj. unfold rot_of, twist_exp. destruct i as [|[|[|i]]]; [| | |lia]; destruct j as [|[|[|j]]]; try lia; reflexivity.
Qed.
Lemma se3_near xi E : se3_exp (six xi) = Ok E -> near_isometry (1 + se3_eps * se3_eps) (rot_of E).
Proof.
  intros H. unfold six in H. set (w := vec3 (xi 3%nat) (xi 4%nat) (xi 5%nat)).
  destruct (Rlt_dec (norm 3 w) se3_eps) as [Hs|Hb].
  - destruct (se3_exp_small (xi 0%nat) (xi 1%nat) (xi 2%nat) _ _ _ Hs) as (E' & HE & ME). rewrite HE in H. injection H as <-.
    apply (near_ext _ (madd mI (skew w))); [|apply near_small, Hs].
    intros i j Hi Hj. unfold rot_of. rewrite (ME i j) by lia. symmetry. apply (rot_twist _ _ _ i j Hi Hj).
  - apply Rnot_lt_le in Hb. destruct (se3_exp_big (xi 0%nat) (xi 1%nat) (xi 2%nat) _ _ _ Hb) as (E' & HE & ME). rewrite HE in H. injection H as <-.
    assert (Hn0 : norm 3 w <> 0) by (pose proof eps_pos; lra).
    apply (near_weaken 1); [apply one_le_eps|].
    apply (near_ext _ (rodR w)).
    + intros i j Hi Hj. unfold rot_of. rewrite (ME i j) by lia. symmetry. apply (rot_twist _ _ _ i j Hi Hj).
    + intros v. rewrite (iso_rotation _ _ (proj1 (rodR_rot w Hn0))). lra.
Qed.
Lemma mmul4_rot A B : affine4 B -> meq 3 3 (rot_of (mmul 4 A B)) (mmul 3 (rot_of A) (rot_of B)).
Proof. intros (b0 & b1 & b2 & _) i j Hi Hj. unfold rot_of, mmul. cbn [rsum]. destruct j as [|[|[|j]]]; [| | |lia]; rewrite ?b0, ?b1, ?b2; ring. Qed.

Lemma near_iter ns src f c : 
  (forall s, good ns s -> exists s', f s = Ok s' /\ good ns s' /\ i_idx s' <> None) ->
  (forall s a, good ns s -> tracks ns (pts_of src) s -> f s = Ok a -> tracks ns (pts_of src) a) ->
  (forall s a d, good ns s -> tracks ns (pts_of src) s -> f s = Ok a -> 0 <= d -> near_isometry d (rot_of (ent (i_T s) [])) -> near_isometry (c * d) (rot_of (ent (i_T a) []))) ->
  0 <= c -> forall n s a d, good ns s -> tracks ns (pts_of src) s -> iterate f n s = Ok a -> 0 <= d -> near_isometry d (rot_of (ent (i_T s) [])) ->
  near_isometry (c ^ n * d) (rot_of (ent (i_T a) [])).
Proof.
  intros Hok Htr Hst Hc. induction n as [|n IH]; intros s a d G T E Hd N.
  - cbn in E. injection E as <-. cbn [pow]. rewrite Rmult_1_l. exact N.
  - cbn [iterate] in E. destruct (Hok s G) as (s1 & E1 & G1 & _). rewrite E1 in E. cbn [rbind] in E.
    pose proof (Hst s s1 d G T E1 Hd N) as N1. specialize (IH s1 a (c * d) G1 (Htr s s1 G T E1) E ltac:(nra) N1).
    replace (c ^ S n * d) with (c ^ n * (c * d)) by (cbn [pow]; ring). exact IH.
Qed.

Section Icp2.
  Variables (nn : nnfun) (src tgt nor : ten R) (ns nt : nat) (th : thr_arg).
  Hypothesis Hin : icp_input nn src tgt nor ns nt th.
  Notation err := (plane_err nn (keep_sq th) ns nt (pts_of tgt) (pts_of nor)).
  Notation run init n damp := (point_to_plane_ICP nn (TTen src) (TTen tgt) (TTen nor) (TTen init) (IntV n) damp th).
  Notation idx_of s := (map (fun i => match_of nn nt (pts_of tgt) (s i)) (kept_pts nn (keep_sq th) ns nt (pts_of tgt) s)).
  Notation prop_ := (proposal nn (keep_sq th) ns nt (pts_of tgt) (pts_of nor)).
  Let Hsrc : cloud_of src ns := proj1 (proj2 Hin).
  Notation K := (1 + se3_eps * se3_eps).
  Lemma near_step (E T T' : mat) d : (exists xi, se3_exp (six xi) = Ok E) -> affine4 T -> 0 <= d ->
    near_isometry d (rot_of T) -> meq 4 4 T' (mmul 4 E T) -> near_isometry (K * d) (rot_of T').
  Proof.
    intros [xi HE] HA Hd HN HM. pose proof one_le_eps.
    apply (near_ext _ (mmul 3 (rot_of E) (rot_of T))).
    - intros i j Hi Hj. unfold rot_of at 3. rewrite (HM i j) by lia. symmetry. apply (mmul4_rot E T HA i j Hi Hj).
    - apply near_mul; [lra|exact (se3_near xi E HE)|exact HN].
  Qed.
  Lemma r_near init n damp d : mat44 init -> affine4 (ent init []) -> 0 <= d -> near_isometry d (rot_of (ent init [])) -> 0 < damp -> (0 < n)%Z ->
    exists T idx, run init n damp = Ok (T, idx) /\ affine4 (ent T []) /\ near_isometry (K ^ Z.to_nat n * d) (rot_of (ent T [])).
  Proof.
    intros Hi Ha Hd0 HN Hd Hn. rewrite icp_grun by exact Hi.
    destruct (grun_state ns src _ Hsrc (icp_total nn src tgt nor ns nt th Hin) (icp_trk nn src tgt nor ns nt th Hin) init damp (Z.to_nat n) Hi Hd ltac:(lia))
      as (s0 & s & idx & S0 & G0 & It & G & _ & E & T). destruct (T Ha) as [Tr0 Tr].
    exists (i_T s), idx. split; [exact E|]. split; [exact (proj1 Tr)|].
    destruct (start_ok src init damp ns Hsrc Hi Hd) as (z & Ez & _ & Tz & _ & _ & Pz). rewrite S0 in Ez. injection Ez as <-.
    apply (near_iter ns src (icp_iter nn tgt nor th) K (icp_total nn src tgt nor ns nt th Hin) (icp_trk nn src tgt nor ns nt th Hin)) with (s := s0); auto.
    - intros x a d' Gx Tx Ex Hd' Nx. destruct (icp_iter_ok nn src tgt nor ns nt th Hin x Gx) as (a' & xi & E' & Ea & _ & _ & HE & _ & _ & C).
      rewrite Ex in Ea. injection Ea as <-. destruct C as [(_ & _ & C & _)|(_ & _ & C & _)].
      + apply (near_step E' (ent (i_T x) []) _ d'); [exists xi; exact HE|exact (proj1 Tx)|exact Hd'|exact Nx|exact C].
      + rewrite C. apply (near_weaken d'); [pose proof one_le_eps; nra|exact Nx].
    - pose proof one_le_eps; lra.
    - rewrite Tz. exact HN.
  Qed.

  (* ---------------------------------------------------------------- gradICP *)
  Variables (lmax B B2 nu : R).
  Hypothesis Hl : 0 < lmax.
  Hypothesis Hnu : nu <> 0.
  Notation grad init n damp := (point_to_plane_gradICP nn (TTen src) (TTen tgt) (TTen nor) (TTen init) (IntV n) damp th (Num lmax) (Num B) (Num B2) (Num nu)).
  Notation gf := (grad_iter nn tgt nor th lmax B B2 nu).
  Lemma grad_total s : good ns s -> exists s', gf s = Ok s' /\ good ns s' /\ i_idx s' <> None.
  Proof.
    intros G. destruct (grad_iter_ok nn src tgt nor ns nt th Hin lmax B B2 nu Hl Hnu s G) as (s' & xi & E & E' & H1 & H2 & _ & _ & _ & _ & H3 & _).
    exists s'. rewrite H3. split; [exact H1|]. split; [exact H2|discriminate].
  Qed.
  Lemma grad_trk s a : good ns s -> tracks ns (pts_of src) s -> gf s = Ok a -> tracks ns (pts_of src) a.
  Proof. exact (grad_iter_track nn src tgt nor ns nt th Hin lmax B B2 nu Hl Hnu s a). Qed.
  Lemma grad_grun init n damp : mat44 init -> grad init n damp = grun src gf init damp (Z.to_nat n).
  Proof. intros H. rewrite grad_unfold by (exact H || lra). reflexivity. Qed.
  Lemma g_total init n damp : mat44 init -> 0 < damp -> (0 < n)%Z ->
    exists T idx, grad init n damp = Ok (T, idx) /\ mat44 T /\ (affine4 (ent init []) -> affine4 (ent T [])).
  Proof.
    intros Hi Hd Hn. rewrite grad_grun by exact Hi.
    destruct (grun_state ns src _ Hsrc grad_total grad_trk init damp (Z.to_nat n) Hi Hd ltac:(lia)) as (s0 & s & idx & _ & _ & _ & G & _ & E & T).
    exists (i_T s), idx. split; [exact E|]. split; [exact (proj1 (proj2 G))|]. intros A. exact (proj1 (proj2 (T A))).
  Qed.
  Lemma g_near init n damp d : mat44 init -> affine4 (ent init []) -> 0 <= d -> near_isometry d (rot_of (ent init [])) -> 0 < damp -> (0 < n)%Z ->
    exists T idx, grad init n damp = Ok (T, idx) /\ affine4 (ent T []) /\ near_isometry (K ^ Z.to_nat n * d) (rot_of (ent T [])).
  Proof.
    intros Hi Ha Hd0 HN Hd Hn. rewrite grad_grun by exact Hi.
    destruct (grun_state ns src _ Hsrc grad_total grad_trk init damp (Z.to_nat n) Hi Hd ltac:(lia))
      as (s0 & s & idx & S0 & G0 & It & G & _ & E & T). destruct (T Ha) as [Tr0 Tr].
    exists (i_T s), idx. split; [exact E|]. split; [exact (proj1 Tr)|].
    destruct (start_ok src init damp ns Hsrc Hi Hd) as (z & Ez & _ & Tz & _ & _ & Pz). rewrite S0 in Ez. injection Ez as <-.
    apply (near_iter ns src gf K grad_total grad_trk) with (s := s0); auto.
    - intros x a d' Gx Tx Ex Hd' Nx. destruct (grad_iter_ok nn src tgt nor ns nt th Hin lmax B B2 nu Hl Hnu x Gx) as (a' & xi & E' & E2 & Ea & _ & _ & HE & HE2 & _ & _ & _ & C & _).
      rewrite Ex in Ea. injection Ea as <-.
      apply (near_step E2 (ent (i_T x) []) _ d'); [eexists; exact HE2|exact (proj1 Tx)|exact Hd'|exact Nx|exact C].
    - pose proof one_le_eps; lra.
    - rewrite Tz. exact HN.
  Qed.
  Lemma g_one init damp : mat44 init -> 0 < damp ->
    let s := moved (ent init []) (pts_of src) in
    exists T idx xi E E', grad init 1 damp = Ok (T, idx) /\ prop_ s damp xi E /\ idx = idx_of s /\
      se3_exp (six (scaled (soft_step B2 nu (clamped_change (err s) (err (moved E s)))) xi)) = Ok E' /\
      meq 4 4 (ent T []) (mmul 4 E' (ent init [])).
  Proof.
    intros Hi Hd. cbv zeta. rewrite grad_grun by exact Hi. unfold grun.
    destruct (start_ok src init damp ns Hsrc Hi Hd) as (s0 & -> & G0 & T0 & D0 & I0 & P0). change (Z.to_nat 1) with 1%nat. cbn [rbind iterate].
    destruct (grad_iter_ok nn src tgt nor ns nt th Hin lmax B B2 nu Hl Hnu s0 G0) as (s1 & xi & E & E' & -> & G1 & L & HE & HE' & AE & I1 & D1 & C & P1). cbn [rbind]. unfold finish. rewrite I1.
    assert (Pm : same_pts ns (moved E (pts_of (i_src s0))) (moved E (moved (ent init []) (pts_of src)))) by (apply moved_ext; [apply meq_refl|exact P0]).
    cbv zeta in HE'. rewrite clamp_eq, (err_same nn src tgt nor ns nt th Hin _ _ Pm), (err_same nn src tgt nor ns nt th Hin _ _ P0) in HE'.
    exists (i_T s1), (idx_of (pts_of (i_src s0))), xi, E, E'. split; [reflexivity|]. split; [|split; [|split]].
    - split; [|exact HE]. rewrite D0 in L. apply (lm_step_ext nn (keep_sq th) ns nt (pts_of tgt) (pts_of nor) (proj1 Hin) _ _ damp xi P0 L).
    - apply (idx_same nn src tgt nor ns nt th Hin). exact P0.
    - exact HE'.
    - rewrite T0 in C. exact C.
  Qed.
  Lemma g_restart init damp n : mat44 init -> affine4 (ent init []) -> 0 < damp -> (0 < n)%Z ->
    let s := moved (ent init []) (pts_of src) in
    exists T1 i1 T T' idx xi E, grad init 1 damp = Ok (T1, i1) /\ grad init (1 + n) damp = Ok (T, idx) /\
      prop_ s damp xi E /\
      grad T1 n (damp * damp_factor lmax B (clamped_change (err s) (err (moved E s)))) = Ok (T', idx) /\
      mat44 T1 /\ affine4 (ent T1 []) /\ meq 4 4 (ent T []) (ent T' []).
  Proof.
    intros Hi Ha Hd Hn. cbv zeta.
    destruct (grun_restart ns src _ Hsrc grad_total (grad_iter_sim nn src tgt nor ns nt th Hin lmax B B2 nu Hl Hnu) grad_trk init damp (Z.to_nat n) Hi Ha Hd)
      as (s0 & s1 & E0 & G0 & T0 & D0 & P0 & E1 & G1 & Kk).
    destruct (Kk ltac:(lia)) as (T & T' & idx & R1 & R2 & R3).
    assert (Tr0 : tracks ns (pts_of src) s0) by (split; rewrite T0; assumption).
    pose proof (grad_trk s0 s1 G0 Tr0 E1) as Tr1.
    destruct (grad_iter_ok nn src tgt nor ns nt th Hin lmax B B2 nu Hl Hnu s0 G0) as (s1' & xi & E & E' & F1 & _ & L & HE & HE' & AE & I1 & D1 & C & P1).
    rewrite E1 in F1. injection F1 as <-.
    assert (Pm : same_pts ns (moved E (pts_of (i_src s0))) (moved E (moved (ent init []) (pts_of src)))) by (apply moved_ext; [apply meq_refl|exact P0]).
    cbv zeta in D1. rewrite clamp_eq, (err_same nn src tgt nor ns nt th Hin _ _ Pm), (err_same nn src tgt nor ns nt th Hin _ _ P0), D0 in D1.
    exists (i_T s1), (idx_of (pts_of (i_src s0))), T, T', idx, xi, E.
    split; [|split; [|split; [|split; [|split; [|split]]]]].
    - rewrite grad_grun by exact Hi. unfold grun. rewrite E0. change (Z.to_nat 1) with 1%nat. cbn [rbind iterate]. rewrite E1. cbn [rbind]. unfold finish. rewrite I1. reflexivity.
    - rewrite grad_grun by exact Hi. replace (Z.to_nat (1 + n)) with (1 + Z.to_nat n)%nat by lia. exact R1.
    - split; [|exact HE]. rewrite D0 in L. apply (lm_step_ext nn (keep_sq th) ns nt (pts_of tgt) (pts_of nor) (proj1 Hin) _ _ damp xi P0 L).
    - rewrite <- D1. rewrite grad_grun by exact (proj1 (proj2 G1)). exact R2.
    - exact (proj1 (proj2 G1)).
    - exact (proj1 Tr1).
    - exact R3.
  Qed.
End Icp2.

(* ---------------------------------------------------------------- the soft step *)
Lemma clamped_bd a b : -70 <= clamped_change a b <= 70.
Proof. unfold clamped_change, Rmax, Rmin. repeat destruct (Rle_dec _ _); lra. Qed.
Lemma soft_step_between B2 nu e : 0 < nu -> 0 < soft_step B2 nu e < 1.
Proof.
  intros Hn. unfold soft_step. pose proof (exp_pos (- B2 * e)) as He.
  assert (H1 : 1 < Rpower (1 + exp (- B2 * e)) (1 / nu)).
  { apply Rle_lt_trans with (Rpower (1 + exp (- B2 * e)) 0); [rewrite Rpower_O; lra|]. apply Rpower_lt; [lra|]. apply Rdiv_lt_0_compat; lra. }
  split; [apply Rdiv_lt_0_compat; lra|]. unfold Rdiv. rewrite Rmult_1_l. rewrite <- Rinv_1 at 3. apply Rinv_lt_contravar; lra.
Qed.
(* the larger the error after the full step, the larger the step that is taken *)
Lemma soft_step_increasing B2 nu e e' : 0 < B2 -> 0 < nu -> e < e' -> soft_step B2 nu e < soft_step B2 nu e'.
Proof.
  intros HB Hn He. unfold soft_step.
  assert (H1 : exp (- B2 * e') < exp (- B2 * e)) by (apply exp_increasing; nra).
  pose proof (exp_pos (- B2 * e')) as P.
  assert (H2 : Rpower (1 + exp (- B2 * e')) (1 / nu) < Rpower (1 + exp (- B2 * e)) (1 / nu)).
  { unfold Rpower. apply exp_increasing. apply Rmult_lt_compat_l; [apply Rdiv_lt_0_compat; lra|]. apply ln_increasing; lra. }
  assert (H3 : 0 < Rpower (1 + exp (- B2 * e')) (1 / nu)) by (unfold Rpower; apply exp_pos).
  assert (D : forall x, 1 / x = / x) by (intros; unfold Rdiv; ring). rewrite (D (Rpower (1 + exp (- B2 * e)) _)), (D (Rpower (1 + exp (- B2 * e')) _)).
  apply Rinv_lt_contravar; [apply Rmult_lt_0_compat; lra|exact H2].
Qed.
Lemma damp_factor_increasing lmax B e e' : 1 < lmax -> 0 < B -> e < e' -> damp_factor lmax B e < damp_factor lmax B e'.
Proof.
  intros Hl HB He. unfold damp_factor. apply Rplus_lt_compat_l. unfold Rdiv. apply Rmult_lt_compat_l.
  - assert (/ lmax < 1) by (rewrite <- Rinv_1; apply Rinv_lt_contravar; lra). lra.
  - pose proof (exp_pos (- B * e')). assert (exp (- B * e') < exp (- B * e)) by (apply exp_increasing; nra).
    apply Rinv_lt_contravar; [nra|lra].
Qed.
Lemma exp_nat n : exp (INR n) = exp 1 ^ n.
Proof. induction n as [|n IH]; [cbn; apply exp_0|]. rewrite S_INR, exp_plus, IH. cbn [pow]. ring. Qed.
Lemma exp70 : exp 70 <= float32_max.
Proof.
  replace 70 with (INR 70) by (rewrite INR_IZR_INZ; reflexivity). rewrite exp_nat.
  apply Rle_trans with (3 ^ 70); [apply pow_incr; split; [left; apply exp_pos|apply exp_le_3]|].
  replace 3 with (IZR 3) by reflexivity. rewrite pow_IZR. apply IZR_le. apply Z.leb_le. vm_compute. reflexivity.
Qed.
Lemma exp140 : float32_max < exp 140.
Proof.
  replace 140 with (INR 140) by (rewrite INR_IZR_INZ; reflexivity). rewrite exp_nat.
  apply Rlt_le_trans with (2 ^ 140).
  - replace 2 with (IZR 2) by reflexivity. rewrite pow_IZR. apply IZR_lt. apply Z.ltb_lt. vm_compute. reflexivity.
  - apply pow_incr. split; [lra|]. pose proof (exp_ineq1 1 ltac:(lra)). lra.
Qed.
Lemma no_overflow B a b : 0 <= B <= 1 -> exp (- B * clamped_change a b) <= float32_max.
Proof.
  intros HB. pose proof (clamped_bd a b). apply Rle_trans with (exp 70); [|apply exp70].
  destruct (Req_dec (- B * clamped_change a b) 70) as [->|]; [lra|]. left. apply exp_increasing. nra.
Qed.
