(* C48-C52 at the level of the API. *)
From Coq Require Import Reals List Arith Bool ZArith Lra Lia.
From Verif Require Import Res MatSpec TensorModel GeomModel RgbdModel GeomSpec MatProofs TensorProofs GeomProofs GeomPtsProofs Se3Model Se3Proofs ExpProofs
  SolveModel FusionModel IcpModel IcpSpec SolveProofs IcpSolveProofs IcpGnProofs IcpLoopProofs.
Import ListNotations.
Local Open Scope R_scope.

(* ---------------------------------------------------------------- C48 *)
Lemma row_linear (n d s xi : vec) :
  dot 6 (fun k => nth k (gn_row s n) 0) xi - - plane_res n d s =
  plane_res n d (fun k => s k + cross (twist_w xi) s k + twist_v xi k).
Proof.
  unfold dot, plane_res, twist_w, twist_v, cross, gn_row, dot. cbn [rsum nth Nat.add]. ring.
Qed.
Lemma deriv_lin a b f g x l m : derivable_pt_lim f x l -> derivable_pt_lim g x m ->
  derivable_pt_lim (fun t => a * f t + b * g t) x (a * l + b * m).
Proof.
  intros Hf Hg. apply (derivable_pt_lim_plus (mult_real_fct a f) (mult_real_fct b g)); apply derivable_pt_lim_scal; assumption.
Qed.
Lemma row_deriv (n d s xi : vec) (T : R -> mat) : 
  (forall i j, (i < 3)%nat -> (j < 4)%nat -> derivable_pt_lim (fun t => T t i j) 0 (twist (twist_v xi) (twist_w xi) i j)) ->
  derivable_pt_lim (fun t => plane_res n d (act (T t) s)) 0 (dot 6 (fun k => nth k (gn_row s n) 0) xi).
Proof.
  intros H.
  assert (Hrow : forall i, (i < 3)%nat -> derivable_pt_lim (fun t => act (T t) s i) 0 (cross (twist_w xi) s i + twist_v xi i)).
  { intros i Hi.
    pose proof (deriv_lin (s 0%nat) (s 1%nat) _ _ _ _ _ (H i 0%nat Hi ltac:(lia)) (H i 1%nat Hi ltac:(lia))) as D1.
    pose proof (deriv_lin (s 2%nat) 1 _ _ _ _ _ (H i 2%nat Hi ltac:(lia)) (H i 3%nat Hi ltac:(lia))) as D2.
    pose proof (deriv_lin 1 1 _ _ _ _ _ D1 D2) as D3.
    assert (D4 := fun e => derivable_pt_lim_ext _ (fun t => act (T t) s i) _ _ e D3).
    replace (cross (twist_w xi) s i + twist_v xi i) with
      (1 * (s 0%nat * twist (twist_v xi) (twist_w xi) i 0%nat + s 1%nat * twist (twist_v xi) (twist_w xi) i 1%nat)
       + 1 * (s 2%nat * twist (twist_v xi) (twist_w xi) i 2%nat + 1 * twist (twist_v xi) (twist_w xi) i 3%nat)).
    - apply D4. intros t. unfold act, mvec, rot_of, tr_of. cbn [rsum]. ring.
    - unfold twist, skew, twist_v, twist_w, cross. destruct i as [|[|[|i]]]; [| | |lia]; cbn [Nat.ltb Nat.leb Nat.add]; ring. }
  pose proof (deriv_lin (n 0%nat) (n 1%nat) _ _ _ _ _ (Hrow 0%nat ltac:(lia)) (Hrow 1%nat ltac:(lia))) as D1.
  pose proof (deriv_lin (n 2%nat) 1 _ (fun _ => - dot 3 n d) _ _ 0 (Hrow 2%nat ltac:(lia)) (derivable_pt_lim_const _ 0)) as D2.
  pose proof (deriv_lin 1 1 _ _ _ _ _ D1 D2) as D3.
  assert (D4 := fun e => derivable_pt_lim_ext _ (fun t => plane_res n d (act (T t) s)) _ _ e D3).
  match type of D3 with derivable_pt_lim _ _ ?l => replace (dot 6 (fun k => nth k (gn_row s n) 0) xi) with l end.
  - apply D4. intros t. unfold plane_res, dot. cbn [rsum]. ring.
  - unfold dot, twist_w, twist_v, cross, gn_row. cbn [rsum nth Nat.add]. ring.
Qed.

Lemma p_gn : forall nn src tgt nor ns nt th, icp_input nn src tgt nor ns nt th ->
  let s := pts_of src in let d := pts_of tgt in let n := pts_of nor in
  let ks := kept_pts nn (keep_sq th) ns nt d s in
  exists A b, gauss_newton_solve nn (TTen src) (TTen tgt) (TTen nor) th = Ok (A, b, map (fun i => match_of nn nt d (s i)) ks) /\
    shape A = [length ks; 6%nat] /\ shape b = [length ks; 1%nat] /\
    forall r, (r < length ks)%nat ->
      let i := nth r ks 0%nat in let j := match_of nn nt d (s i) in
      ((i < ns)%nat /\ (j < nt)%nat /\ forall j', (j' < nt)%nat -> edist (s i) (d j) <= edist (s i) (d j')) /\
      at_ b [0%nat; r] = - plane_res (n j) (d j) (s i) /\
      (forall xi, dot 6 (fun k => ent A [] r k) xi - at_ b [0%nat; r] =
                  plane_res (n j) (d j) (fun k => s i k + cross (twist_w xi) (s i) k + twist_v xi k)) /\
      (forall xi (T : R -> mat), meq 4 4 (T 0) mI ->
         (forall a c, (a < 3)%nat -> (c < 4)%nat -> derivable_pt_lim (fun t => T t a c) 0 (twist (twist_v xi) (twist_w xi) a c)) ->
         derivable_pt_lim (fun t => plane_res (n j) (d j) (act (T t) (s i))) 0 (dot 6 (fun k => ent A [] r k) xi)).
Proof.
  intros nn src tgt nor ns nt th (Hnn & Hs & Ht & Hn & H0 & Hth). cbv zeta.
  eexists _, _. split; [apply gn_ok; assumption|]. split; [reflexivity|]. split; [reflexivity|].
  intros r Hr. pose proof (nth_kept _ _ _ Hr) as [Hi _]. fold (kept_pts nn (keep_sq th) ns nt (pts_of tgt) (pts_of src)) in Hi.
  set (i := nth r (kept_pts nn (keep_sq th) ns nt (pts_of tgt) (pts_of src)) 0%nat) in *.
  set (j := match_of nn nt (pts_of tgt) (pts_of src i)).
  split; [|split; [|split]].
  - split; [exact Hi|]. destruct (proj1 Hnn nt (pts_of tgt) (pts_of src i) ltac:(lia)) as [Hj Hmin].
    split; [exact Hj|]. intros j' Hj'. unfold edist. apply sqrt_le_1_alt. apply Hmin. exact Hj'.
  - unfold gn_vec. cbn [at_]. fold i. rewrite gn_res_spec. reflexivity.
  - intros xi. unfold gn_vec, gn_mat, ent. cbn [at_]. fold i. rewrite gn_res_spec. apply row_linear.
  - intros xi T _ HT. unfold gn_mat, ent. cbn [at_]. fold i. apply row_deriv. exact HT.
Qed.

Lemma deriv_local f g l dl : 0 < dl -> (forall h, Rabs h < dl -> f h = g h) -> derivable_pt_lim g 0 l -> derivable_pt_lim f 0 l.
Proof.
  intros Hd He Hg e Hpos. destruct (Hg e Hpos) as [d' Hd']. exists (mkposreal (Rmin dl d') (Rmin_pos _ _ Hd (cond_pos d'))).
  intros h Hh Hlt. cbn in Hlt. pose proof (Rmin_l dl d'). pose proof (Rmin_r dl d').
  rewrite (He (0 + h)) by (rewrite Rplus_0_l; lra). rewrite (He 0) by (rewrite Rabs_R0; lra). apply Hd'; [exact Hh|lra].
Qed.
(* the exponential map of the code is such a curve *)
Lemma p_exp_curve : forall xi : vec, exists T : R -> mat, (forall t, se3_exp (map (Rmult t) (six xi)) = Ok (T t)) /\
  meq 4 4 (T 0) mI /\
  forall i j, (i < 3)%nat -> (j < 4)%nat -> derivable_pt_lim (fun t => T t i j) 0 (twist (twist_v xi) (twist_w xi) i j).
Proof.
  intros xi.
  set (v := twist_v xi). set (w := vec3 (xi 3%nat) (xi 4%nat) (xi 5%nat)).
  set (T := fun t => match se3_exp (map (Rmult t) (six xi)) with Ok E => E | Err _ => mI end).
  assert (HT : forall t, se3_exp (map (Rmult t) (six xi)) = Ok (T t)).
  { intros t. unfold T. destruct (se3_exp_six (scaled t xi)) as (E & HE & _). unfold six, scaled in HE. cbn [six map]. rewrite HE. reflexivity. }
  assert (Hsmall : forall t, Rabs t * norm 3 w < se3_eps ->
    meq 4 4 (T t) (twist_exp (madd mI (skew (vec3 (t * xi 3%nat) (t * xi 4%nat) (t * xi 5%nat)))) (madd mI (skew (vec3 (t * xi 3%nat) (t * xi 4%nat) (t * xi 5%nat))))
       (at1 [t * xi 0%nat; t * xi 1%nat; t * xi 2%nat]))).
  { intros t Ht. unfold w in Ht. rewrite <- norm3_scale in Ht. destruct (se3_exp_small (t * xi 0%nat) (t * xi 1%nat) (t * xi 2%nat) _ _ _ Ht) as (E & HE & ME).
    specialize (HT t). cbn [six map] in HT. rewrite HE in HT. injection HT as <-. exact ME. }
  pose proof eps_pos as Hep. pose proof (sqrt_pos (dot 3 w w)) as Hn. fold (norm 3 w) in Hn.
  exists T. split; [exact HT|]. split.
  - intros i j Hi Hj. rewrite (Hsmall 0) by (rewrite ?Rabs_R0; lra || assumption).
    unfold twist_exp, madd, mI, skew, vec3, at1, mvec, delta.
    destruct i as [|[|[|[|i]]]]; [| | | |lia]; destruct j as [|[|[|[|j]]]]; try lia; cbn [Nat.ltb Nat.leb Nat.eqb rsum nth]; ring.
  - intros i j Hi Hj.
    assert (Hd : 0 < se3_eps / (norm 3 w + 1)) by (apply Rdiv_lt_0_compat; lra).
    apply (deriv_local (fun t => T t i j) (fun t => twist_exp (madd mI (skew (vec3 (t * xi 3%nat) (t * xi 4%nat) (t * xi 5%nat)))) (madd mI (skew (vec3 (t * xi 3%nat) (t * xi 4%nat) (t * xi 5%nat))))
       (at1 [t * xi 0%nat; t * xi 1%nat; t * xi 2%nat]) i j) _ _ Hd).
    + intros h Hh. apply Hsmall; [|lia|lia].
      apply Rle_lt_trans with (Rabs h * (norm 3 w + 1)); [apply Rmult_le_compat_l; [apply Rabs_pos|lra]|].
      apply (Rmult_lt_compat_r (norm 3 w + 1)) in Hh; [|lra]. replace (se3_eps / (norm 3 w + 1) * (norm 3 w + 1)) with se3_eps in Hh by (field; lra). exact Hh.
    + assert (Hlin : forall a b c, derivable_pt_lim (fun t => a + t * b + t * t * c) 0 b).
      { intros a b c e He. assert (Hq : 0 < e / (Rabs c + 1)) by (apply Rdiv_lt_0_compat; [exact He|pose proof (Rabs_pos c); lra]).
        exists (mkposreal _ Hq). intros h Hh Hlt. cbn [pos] in Hlt.
        replace ((a + (0 + h) * b + (0 + h) * (0 + h) * c - (a + 0 * b + 0 * 0 * c)) / h - b) with (h * c) by (field; exact Hh).
        rewrite Rabs_mult. pose proof (Rabs_pos c). apply Rle_lt_trans with (Rabs h * (Rabs c + 1)).
        - apply Rmult_le_compat_l; [apply Rabs_pos|lra].
        - apply (Rmult_lt_compat_r (Rabs c + 1)) in Hlt; [|lra]. replace (e / (Rabs c + 1) * (Rabs c + 1)) with e in Hlt by (field; lra). exact Hlt. }
      destruct i as [|[|[|i]]]; [| | |lia]; destruct j as [|[|[|[|j]]]]; try lia;
        unfold twist_exp, twist, madd, mI, skew, vec3, at1, mvec, delta, twist_v, twist_w; cbn [Nat.ltb Nat.leb Nat.eqb rsum nth Nat.add].
      all: match goal with |- derivable_pt_lim ?f 0 ?l => 
        let f0 := eval cbv beta in (f 0) in
        first [ apply (derivable_pt_lim_ext (fun t => 0 + t * l + t * t * 0)); [intros; ring|apply Hlin]
              | apply (derivable_pt_lim_ext (fun t => 1 + t * l + t * t * 0)); [intros; ring|apply Hlin]
              | idtac ] end.
      * apply (derivable_pt_lim_ext (fun t => 0 + t * xi 0%nat + t * t * (xi 4%nat * xi 2%nat - xi 5%nat * xi 1%nat))); [intros; ring|apply Hlin].
      * apply (derivable_pt_lim_ext (fun t => 0 + t * xi 1%nat + t * t * (xi 5%nat * xi 0%nat - xi 3%nat * xi 2%nat))); [intros; ring|apply Hlin].
      * apply (derivable_pt_lim_ext (fun t => 0 + t * xi 2%nat + t * t * (xi 3%nat * xi 1%nat - xi 4%nat * xi 0%nat))); [intros; ring|apply Hlin].
Qed.

Lemma p_gn_types : forall nn src tgt nor th,
  (forall x, src <> TTen x) \/ (forall x, tgt <> TTen x) \/ (forall x, nor <> TTen x) \/ th = ThrBad ->
  gauss_newton_solve nn src tgt nor th = Err TypeError.
Proof.
  intros nn src tgt nor th H. unfold gauss_newton_solve.
  destruct src as [|src|]; try reflexivity. destruct tgt as [|tgt|]; try reflexivity. destruct nor as [|nor|]; try reflexivity. cbn [need_tensor rbind].
  destruct H as [H|[H|[H| ->]]]; [destruct (H src eq_refl)|destruct (H tgt eq_refl)|destruct (H nor eq_refl)|reflexivity].
Qed.
Lemma p_gn_shapes : forall nn src tgt nor th, th <> ThrBad ->
  ~ (exists ns nt, shape src = [1; ns; 3]%nat /\ shape tgt = [1; nt; 3]%nat /\ shape nor = [1; nt; 3]%nat) ->
  gauss_newton_solve nn (TTen src) (TTen tgt) (TTen nor) th = Err ValueError.
Proof.
  intros nn src tgt nor th Hth H. unfold gauss_newton_solve. cbn [need_tensor rbind].
  replace (guard (match th with ThrBad => false | _ => true end) TypeError) with (Ok tt) by (destruct th; congruence || reflexivity).
  cbn [rbind]. unfold cloud3_check, batch1_check, width3_check, npts, ndim, shape in *.
  destruct src as [ds fs], tgt as [dt ft], nor as [dn fn]. cbn [dims] in *.
  destruct ds as [|s0 [|s1 [|s2 [|]]]]; try reflexivity. cbn [length Nat.eqb guard rbind].
  destruct dt as [|t0 [|t1 [|t2 [|]]]]; try reflexivity. cbn [length Nat.eqb guard rbind].
  destruct dn as [|n0 [|n1 [|n2 [|]]]]; try reflexivity. cbn [length Nat.eqb guard rbind nth].
  destruct (Nat.eqb_spec s2 1) as [->|]; [|reflexivity]. destruct (Nat.eqb_spec t2 1) as [->|]; [|reflexivity].
  destruct (Nat.eqb_spec n2 1) as [->|]; [|reflexivity]. cbn [guard rbind].
  destruct (Nat.eqb_spec t1 n1) as [->|]; [|reflexivity]. cbn [guard rbind].
  destruct (Nat.eqb_spec s0 3) as [->|]; [|reflexivity]. destruct (Nat.eqb_spec t0 3) as [->|]; [|reflexivity].
  destruct (Nat.eqb_spec n0 3) as [->|]; [|reflexivity]. exfalso. apply H. exists s1, n1. repeat split.
Qed.

(* ---------------------------------------------------------------- C49 *)
Lemma sqrt_lt_iff x t : 0 <= x -> 0 <= t -> (x < t <-> sqrt x < sqrt t).
Proof. intros Hx Ht. split; [apply sqrt_lt_1; assumption|apply sqrt_lt_0; assumption]. Qed.
Lemma dist2_nonneg u v : 0 <= dist2 3 u v.
Proof. unfold dist2. apply rsum_nonneg. intros k _. apply Rle_0_sqr. Qed.
(* the threshold really is the square root of dist_thresh *)
Lemma p_threshold : forall nn src tgt nor ns nt t, icp_input nn src tgt nor ns nt (Thr t) -> 0 <= t ->
  exists A b idx, gauss_newton_solve nn (TTen src) (TTen tgt) (TTen nor) (Thr t) = Ok (A, b, idx) /\
    idx = map (fun i => match_of nn nt (pts_of tgt) (pts_of src i))
           (filter (fun i => if Rlt_dec (edist (pts_of src i) (pts_of tgt (match_of nn nt (pts_of tgt) (pts_of src i)))) (sqrt t) then true else false) (seq 0 ns)).
Proof.
  intros nn src tgt nor ns nt t (Hnn & Hs & Ht & Hn & H0 & Hth) H. eexists _, _, _.
  split; [exact (gn_ok nn src tgt nor (Thr t) ns nt Hs Ht Hn H0 Hth)|]. unfold kept_pts, match_of. f_equal. apply filter_ext. intros i.
  unfold keep_sq, edist. pose proof (sqrt_lt_iff _ _ (dist2_nonneg (pts_of src i) (pts_of tgt (nn nt (pts_of tgt) (pts_of src i)))) H) as E.
  destruct (Rlt_dec _ t), (Rlt_dec _ (sqrt t)); tauto.
Qed.
Lemma p_threshold_none : forall nn src tgt nor ns nt, icp_input nn src tgt nor ns nt ThrNone ->
  exists A b, gauss_newton_solve nn (TTen src) (TTen tgt) (TTen nor) ThrNone =
    Ok (A, b, map (fun i => match_of nn nt (pts_of tgt) (pts_of src i)) (seq 0 ns)).
Proof.
  intros nn src tgt nor ns nt (Hnn & Hs & Ht & Hn & H0 & Hth). eexists _, _.
  rewrite (gn_ok nn src tgt nor ThrNone ns nt) by assumption. do 3 f_equal. unfold kept_pts. f_equal.
  cbn [keep_sq]. induction (seq 0 ns) as [|x l IH]; [reflexivity|]. cbn [filter]. rewrite IH. reflexivity.
Qed.
(* clouds with one point *)
Definition one_pt (x y z : R) : ten R := mkTen [3; 1; 1]%nat (fun ix => match ix with k :: _ => vec3 x y z k | [] => 0 end).
Lemma one_pt_cloud x y z : cloud_of (one_pt x y z) 1. Proof. reflexivity. Qed.
(* an actual nearest neighbour: the first closest point *)
Fixpoint first_closest (n : nat) (t : nat -> vec) (p : vec) : nat :=
  match n with
  | O => 0
  | S m => let j := first_closest m t p in
           if Nat.eqb m 0 then 0%nat else if Rlt_dec (dist2 3 p (t m)) (dist2 3 p (t j)) then m else j
  end.
Lemma first_closest_nearest : nearest first_closest.
Proof.
  split.
  - intros n t p. induction n as [|m IH]; intros H; [lia|]. cbn [first_closest].
    destruct (Nat.eqb_spec m 0) as [->|Hm]; [split; [lia|intros j Hj; replace j with 0%nat by lia; lra]|].
    destruct (IH ltac:(lia)) as [H1 H2]. destruct (Rlt_dec _ _) as [Hlt|Hge].
    + split; [lia|]. intros j Hj. destruct (Nat.eq_dec j m) as [->|]; [lra|]. specialize (H2 j ltac:(lia)). lra.
    + split; [lia|]. intros j Hj. destruct (Nat.eq_dec j m) as [->|]; [lra|]. apply H2. lia.
  - intros n t t' p p' Ht Hp. induction n as [|m IH]; [reflexivity|]. cbn [first_closest].
    assert (E : first_closest m t p = first_closest m t' p') by (apply IH; intros j Hj; apply Ht; lia). rewrite E.
    destruct (Nat.eqb_spec m 0) as [|Hm0]; [reflexivity|].
    assert (Hlt : (first_closest m t' p' < S m)%nat).
    { clear -Hm0. assert (forall k, (0 < k)%nat -> (first_closest k t' p' < k)%nat) as Hk.
      { induction k as [|k IHk]; intros H; [lia|]. cbn [first_closest]. destruct (Nat.eqb_spec k 0); [lia|].
        destruct (Rlt_dec _ _); [lia|]. specialize (IHk ltac:(lia)). lia. }
      specialize (Hk m ltac:(lia)). lia. }
    rewrite (dist2_ext _ _ _ _ Hp (Ht m ltac:(lia))), (dist2_ext _ _ _ _ Hp (Ht _ Hlt)). reflexivity.
Qed.
Lemma p_threshold_refuted :
  (exists nn src tgt nor t A b, icp_input nn src tgt nor 1 1 (Thr t) /\ edist (pts_of src 0) (pts_of tgt 0) < t /\
     gauss_newton_solve nn (TTen src) (TTen tgt) (TTen nor) (Thr t) = Ok (A, b, [])) /\
  (exists nn src tgt nor t A b, icp_input nn src tgt nor 1 1 (Thr t) /\ t <= edist (pts_of src 0) (pts_of tgt 0) /\
     gauss_newton_solve nn (TTen src) (TTen tgt) (TTen nor) (Thr t) = Ok (A, b, [0%nat])).
Proof.
  assert (Hin : forall x t, icp_input first_closest (one_pt 0 0 0) (one_pt x 0 0) (one_pt 1 0 0) 1 1 (Thr t)).
  { intros x t. split; [apply first_closest_nearest|]. repeat split; try lia. discriminate. }
  assert (Hd : forall x, dist2 3 (pts_of (one_pt 0 0 0) 0) (pts_of (one_pt x 0 0) 0) = x * x).
  { intros x. unfold dist2, pts_of, comp, one_pt, vec3. cbn [rsum at_]. ring. }
  assert (He : forall x, 0 <= x -> edist (pts_of (one_pt 0 0 0) 0) (pts_of (one_pt x 0 0) 0) = x).
  { intros x Hx. unfold edist. rewrite Hd. apply sqrt_square. exact Hx. }
  assert (Hk : forall x t, kept_pts first_closest (keep_sq (Thr t)) 1 1 (pts_of (one_pt x 0 0)) (pts_of (one_pt 0 0 0)) = if Rlt_dec (x * x) t then [0%nat] else []).
  { intros x t. unfold kept_pts. cbn [seq filter]. unfold match_of. cbn [first_closest Nat.eqb]. unfold keep_sq. rewrite Hd.
    destruct (Rlt_dec (x * x) t); reflexivity. }
  assert (Hb : forall t, Thr t <> ThrBad) by (intros t; discriminate).
  pose proof (fun x t => gn_ok first_closest (one_pt 0 0 0) (one_pt x 0 0) (one_pt 1 0 0) (Thr t) 1%nat 1%nat
    (one_pt_cloud 0 0 0) (one_pt_cloud x 0 0) (one_pt_cloud 1 0 0) (or_introl Nat.lt_0_1) (Hb t)) as Hg.
  split.
  - exists first_closest, (one_pt 0 0 0), (one_pt 2 0 0), (one_pt 1 0 0), 3. eexists _, _. split; [apply Hin|]. split; [rewrite He; lra|].
    rewrite Hg, Hk.
    destruct (Rlt_dec (2 * 2) 3); [lra|]. reflexivity.
  - exists first_closest, (one_pt 0 0 0), (one_pt (/ 2) 0 0), (one_pt 1 0 0), (/ 3). eexists _, _. split; [apply Hin|]. split; [rewrite He; lra|].
    rewrite Hg, Hk.
    destruct (Rlt_dec (/ 2 * / 2) (/ 3)); [reflexivity|lra].
Qed.
