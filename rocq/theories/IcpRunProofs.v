(* C50-C52 at the level of the API: runs of point_to_plane_ICP and point_to_plane_gradICP. *)
From Coq Require Import Reals List Arith Bool ZArith Lra Lia.
From Verif Require Import Res MatSpec TensorModel GeomModel RgbdModel GeomSpec MatProofs TensorProofs GeomProofs GeomPtsProofs Se3Model Se3Proofs ExpProofs
  SolveModel FusionModel IcpModel IcpSpec SolveProofs IcpSolveProofs IcpGnProofs IcpLoopProofs IcpPropProofs.
Import ListNotations.
Local Open Scope R_scope.

Lemma clamp_eq e0 e1 : clampR (-70) 70 (e1 - e0) = clamped_change e0 e1.
Proof. unfold clampR, clamped_change, Rmax, Rmin. repeat destruct (Rle_dec _ _); lra. Qed.

Lemma icp_unfold nn src tgt nor init n damp th : mat44 init ->
  point_to_plane_ICP nn (TTen src) (TTen tgt) (TTen nor) (TTen init) (IntV n) damp th =
  (let? s0 := start src init damp in let? s := iterate (icp_iter nn tgt nor th) (Z.to_nat n) s0 in finish s).
Proof. intros H. unfold point_to_plane_ICP. cbn [need_tensor rbind opt_tensor guard need_int check_init]. unfold ndim. rewrite H. reflexivity. Qed.
Lemma grad_unfold nn src tgt nor init n damp th lmax B B2 nu : mat44 init -> lmax <> 0 ->
  point_to_plane_gradICP nn (TTen src) (TTen tgt) (TTen nor) (TTen init) (IntV n) damp th (Num lmax) (Num B) (Num B2) (Num nu) =
  (let? s0 := start src init damp in let? s := iterate (grad_iter nn tgt nor th lmax B B2 nu) (Z.to_nat n) s0 in finish s).
Proof.
  intros H Hl. unfold point_to_plane_gradICP. cbn [need_tensor rbind opt_tensor guard need_int need_num check_init]. unfold ndim. rewrite H.
  cbn [length Nat.eqb guard rbind nth andb]. unfold nonzero_dec. destruct (Req_EM_T lmax 0); [contradiction|]. reflexivity.
Qed.

(* a loop body that always succeeds, respects equality of states, keeps the source in step with the transform *)
Section Generic.
  Variables (ns : nat) (src : ten R) (f : icp_state -> res icp_state).
  Hypothesis Hsrc : cloud_of src ns.
  Hypothesis Hok : forall s, good ns s -> exists s', f s = Ok s' /\ good ns s' /\ i_idx s' <> None.
  Hypothesis Hsim : forall s t a b, good ns s -> good ns t -> sim ns s t -> f s = Ok a -> f t = Ok b -> sim ns a b /\ i_idx a = i_idx b.
  Hypothesis Htrack : forall s a, good ns s -> tracks ns (pts_of src) s -> f s = Ok a -> tracks ns (pts_of src) a.
  Definition grun (init : ten R) (damp : R) (n : nat) : res (ten R * list nat) :=
    let? s0 := start src init damp in let? s := iterate f n s0 in finish s.
  Lemma grun_state init damp n : mat44 init -> 0 < damp -> n <> 0%nat ->
    exists s0 s idx, start src init damp = Ok s0 /\ good ns s0 /\ iterate f n s0 = Ok s /\ good ns s /\ i_idx s = Some idx /\
      grun init damp n = Ok (i_T s, idx) /\ (affine4 (ent init []) -> tracks ns (pts_of src) s0 /\ tracks ns (pts_of src) s).
  Proof.
    intros Hi Hd Hn. destruct (start_ok src init damp ns Hsrc Hi Hd) as (s0 & E0 & G0 & T0 & D0 & I0 & P0).
    destruct (iter_ok ns f Hok n s0 G0) as (s & Es & Gs & Is). destruct (i_idx s) as [idx|] eqn:Ei; [|destruct (Is Hn eq_refl)].
    exists s0, s, idx. split; [exact E0|]. split; [exact G0|]. split; [exact Es|]. split; [exact Gs|]. split; [exact Ei|]. split.
    - unfold grun. rewrite E0. cbn [rbind]. rewrite Es. cbn [rbind]. unfold finish. rewrite Ei. reflexivity.
    - intros A. assert (Tr : tracks ns (pts_of src) s0) by (split; rewrite T0; assumption).
      split; [exact Tr|]. exact (iter_track ns (pts_of src) f Hok Htrack n s0 s G0 Tr Es).
  Qed.
  Lemma grun_restart init damp n : mat44 init -> affine4 (ent init []) -> 0 < damp ->
    exists s0 s1, start src init damp = Ok s0 /\ good ns s0 /\ i_T s0 = init /\ i_damp s0 = damp /\
      same_pts ns (pts_of (i_src s0)) (moved (ent init []) (pts_of src)) /\
      f s0 = Ok s1 /\ good ns s1 /\
      (n <> 0%nat -> exists T T' idx, grun init damp (1 + n) = Ok (T, idx) /\ grun (i_T s1) (i_damp s1) n = Ok (T', idx) /\ meq 4 4 (ent T []) (ent T' [])).
  Proof.
    intros Hi Ha Hd. destruct (start_ok src init damp ns Hsrc Hi Hd) as (s0 & E0 & G0 & T0 & D0 & I0 & P0).
    assert (Tr0 : tracks ns (pts_of src) s0) by (split; rewrite T0; assumption).
    destruct (Hok s0 G0) as (s1 & E1 & G1 & I1). pose proof (Htrack s0 s1 G0 Tr0 E1) as Tr1.
    exists s0, s1. do 7 (split; [assumption|]). intros Hn.
    destruct (iter_ok ns f Hok n s1 G1) as (s & Es & Gs & Is).
    destruct (start_ok src (i_T s1) (i_damp s1) ns Hsrc (proj1 (proj2 G1)) (proj2 (proj2 G1))) as (t0 & F0 & K0 & U0 & V0 & J0 & Q0).
    destruct (iter_ok ns f Hok n t0 K0) as (t & Et & Kt & Jt).
    assert (S0 : sim ns s1 t0).
    { split; [|split].
      - eapply same_trans; [exact (proj2 Tr1)|]. apply same_sym. exact Q0.
      - symmetry; exact V0.
      - rewrite U0. apply meq_refl. }
    destruct (iter_sim ns f Hok Hsim n s1 t0 s t G1 K0 S0 Es Et) as [(_ & _ & ST) SI]. specialize (SI Hn).
    destruct (i_idx s) as [idx|] eqn:Ei; [|destruct (Is Hn eq_refl)].
    exists (i_T s), (i_T t), idx. split; [|split; [|exact ST]].
    - unfold grun. rewrite E0. cbn [rbind Nat.add iterate]. rewrite E1. cbn [rbind]. rewrite Es. cbn [rbind]. unfold finish. rewrite Ei. reflexivity.
    - unfold grun. rewrite F0. cbn [rbind]. rewrite Et. cbn [rbind]. unfold finish. rewrite <- SI. reflexivity.
  Qed.
End Generic.

Section Icp.
  Variables (nn : nnfun) (src tgt nor : ten R) (ns nt : nat) (th : thr_arg).
  Hypothesis Hin : icp_input nn src tgt nor ns nt th.
  Notation err := (plane_err nn (keep_sq th) ns nt (pts_of tgt) (pts_of nor)).
  Notation idx_of s := (map (fun i => match_of nn nt (pts_of tgt) (s i)) (kept_pts nn (keep_sq th) ns nt (pts_of tgt) s)).
  Notation prop_ := (proposal nn (keep_sq th) ns nt (pts_of tgt) (pts_of nor)).
  Notation run init n damp := (point_to_plane_ICP nn (TTen src) (TTen tgt) (TTen nor) (TTen init) (IntV n) damp th).
  Let Hsrc : cloud_of src ns := proj1 (proj2 Hin).
  Lemma icp_total s : good ns s -> exists s', icp_iter nn tgt nor th s = Ok s' /\ good ns s' /\ i_idx s' <> None.
  Proof.
    intros G. destruct (icp_iter_ok nn src tgt nor ns nt th Hin s G) as (s' & xi & E & H1 & H2 & _ & _ & _ & H3 & _).
    exists s'. rewrite H3. split; [exact H1|]. split; [exact H2|discriminate].
  Qed.
  Lemma icp_trk s a : good ns s -> tracks ns (pts_of src) s -> icp_iter nn tgt nor th s = Ok a -> tracks ns (pts_of src) a.
  Proof. intros G T E. exact (proj1 (icp_iter_track nn src tgt nor ns nt th Hin s a G T E)). Qed.
  Lemma icp_grun init n damp : mat44 init -> run init n damp = grun src (icp_iter nn tgt nor th) init damp (Z.to_nat n).
  Proof. intros H. rewrite icp_unfold by exact H. reflexivity. Qed.

  Lemma iter_mono n s a : good ns s -> tracks ns (pts_of src) s -> iterate (icp_iter nn tgt nor th) n s = Ok a ->
    err (pts_of (i_src a)) <= err (pts_of (i_src s)).
  Proof.
    revert s. induction n as [|n IH]; intros s G T E; [cbn in E; injection E as <-; lra|].
    cbn [iterate] in E. destruct (icp_total s G) as (s1 & Es & G1 & _). rewrite Es in E. cbn [rbind] in E.
    destruct (icp_iter_track nn src tgt nor ns nt th Hin s s1 G T Es) as [T1 L1]. specialize (IH s1 G1 T1 E). lra.
  Qed.
  Lemma r_total init n damp : mat44 init -> 0 < damp -> (0 < n)%Z ->
    exists T idx, run init n damp = Ok (T, idx) /\ mat44 T /\ (affine4 (ent init []) -> affine4 (ent T [])).
  Proof.
    intros Hi Hd Hn. rewrite icp_grun by exact Hi.
    destruct (grun_state ns src _ Hsrc icp_total icp_trk init damp (Z.to_nat n) Hi Hd ltac:(lia)) as (s0 & s & idx & _ & _ & _ & G & _ & E & T).
    exists (i_T s), idx. split; [exact E|]. split; [exact (proj1 (proj2 G))|]. intros A. exact (proj1 (proj2 (T A))).
  Qed.
  Lemma r_mono init n m damp : mat44 init -> affine4 (ent init []) -> 0 < damp -> (0 < n <= m)%Z ->
    exists T1 i1 T2 i2, run init n damp = Ok (T1, i1) /\ run init m damp = Ok (T2, i2) /\
      err (moved (ent T2 []) (pts_of src)) <= err (moved (ent T1 []) (pts_of src)) <= err (moved (ent init []) (pts_of src)).
  Proof.
    intros Hi Ha Hd Hn. rewrite !icp_grun by exact Hi.
    destruct (grun_state ns src _ Hsrc icp_total icp_trk init damp (Z.to_nat n) Hi Hd ltac:(lia)) as (s0 & s & i1 & S0 & G0 & I1 & G1 & _ & E1 & K1).
    destruct (grun_state ns src _ Hsrc icp_total icp_trk init damp (Z.to_nat m) Hi Hd ltac:(lia)) as (s0' & t & i2 & S0' & _ & I2 & G2 & _ & E2 & K2).
    rewrite S0 in S0'. injection S0' as <-. destruct (K1 Ha) as [Tr0 Tr1]. destruct (K2 Ha) as [_ Tr2].
    exists (i_T s), i1, (i_T t), i2. split; [exact E1|]. split; [exact E2|].
    rewrite <- (err_same nn src tgt nor ns nt th Hin _ _ (proj2 Tr1)), <- (err_same nn src tgt nor ns nt th Hin _ _ (proj2 Tr2)).
    destruct (start_ok src init damp ns Hsrc Hi Hd) as (z & Ez & _ & _ & _ & _ & Pz). rewrite S0 in Ez. injection Ez as <-.
    rewrite <- (err_same nn src tgt nor ns nt th Hin _ _ Pz).
    split.
    - replace (Z.to_nat m) with (Z.to_nat n + (Z.to_nat m - Z.to_nat n))%nat in I2 by lia. rewrite iterate_add, I1 in I2. cbn [rbind] in I2.
      exact (iter_mono _ s t G1 Tr1 I2).
    - exact (iter_mono _ s0 s G0 Tr0 I1).
  Qed.
  (* one iteration *)
  Lemma r_one init damp : mat44 init -> 0 < damp ->
    let s := moved (ent init []) (pts_of src) in
    exists T idx xi E, run init 1 damp = Ok (T, idx) /\ prop_ s damp xi E /\ idx = idx_of s /\
      ((err (moved E s) < err s /\ meq 4 4 (ent T []) (mmul 4 E (ent init []))) \/ (err s <= err (moved E s) /\ meq 4 4 (ent T []) (ent init []))).
  Proof.
    intros Hi Hd. cbv zeta. rewrite icp_grun by exact Hi. unfold grun.
    destruct (start_ok src init damp ns Hsrc Hi Hd) as (s0 & -> & G0 & T0 & D0 & I0 & P0). change (Z.to_nat 1) with 1%nat. cbn [rbind iterate].
    destruct (icp_iter_ok nn src tgt nor ns nt th Hin s0 G0) as (s1 & xi & E & -> & G1 & L & HE & AE & I1 & C). cbn [rbind]. unfold finish. rewrite I1.
    assert (Pm : same_pts ns (moved E (pts_of (i_src s0))) (moved E (moved (ent init []) (pts_of src)))) by (apply moved_ext; [apply meq_refl|exact P0]).
    exists (i_T s1), (idx_of (pts_of (i_src s0))), xi, E. split; [reflexivity|]. split; [|split].
    - split; [|exact HE]. rewrite D0 in L. apply (lm_step_ext nn (keep_sq th) ns nt (pts_of tgt) (pts_of nor) (proj1 Hin) _ _ damp xi P0 L).
    - apply (idx_same nn src tgt nor ns nt th Hin). exact P0.
    - rewrite (err_same nn src tgt nor ns nt th Hin _ _ Pm), (err_same nn src tgt nor ns nt th Hin _ _ P0) in C. rewrite T0 in C.
      destruct C as [(C1 & _ & C2 & _)|(C1 & _ & C2 & _)]; [left; auto|right]. split; [lra|rewrite C2; apply meq_refl].
  Qed.
  (* the rest of the run starts from what one iteration returned, with the damping halved or doubled *)
  Lemma r_restart init damp n : mat44 init -> affine4 (ent init []) -> 0 < damp -> (0 < n)%Z ->
    let s := moved (ent init []) (pts_of src) in
    exists T1 i1 T T' idx, run init 1 damp = Ok (T1, i1) /\ run init (1 + n) damp = Ok (T, idx) /\
      run T1 n (if Rlt_dec (err (moved (ent T1 []) (pts_of src))) (err s) then damp / 2 else damp * 2) = Ok (T', idx) /\
      mat44 T1 /\ affine4 (ent T1 []) /\ meq 4 4 (ent T []) (ent T' []).
  Proof.
    intros Hi Ha Hd Hn. cbv zeta.
    destruct (grun_restart ns src _ Hsrc icp_total (icp_iter_sim nn src tgt nor ns nt th Hin) icp_trk init damp (Z.to_nat n) Hi Ha Hd)
      as (s0 & s1 & E0 & G0 & T0 & D0 & P0 & E1 & G1 & K).
    destruct (K ltac:(lia)) as (T & T' & idx & R1 & R2 & R3).
    assert (Tr0 : tracks ns (pts_of src) s0) by (split; rewrite T0; assumption).
    pose proof (icp_trk s0 s1 G0 Tr0 E1) as Tr1.
    destruct (icp_iter_ok nn src tgt nor ns nt th Hin s0 G0) as (s1' & xi & E & F1 & _ & L & HE & AE & I1 & C).
    rewrite E1 in F1. injection F1 as <-.
    exists (i_T s1), (idx_of (pts_of (i_src s0))), T, T', idx.
    split; [|split; [|split; [|split; [|split]]]].
    - rewrite icp_grun by exact Hi. unfold grun. rewrite E0. change (Z.to_nat 1) with 1%nat. cbn [rbind iterate]. rewrite E1. cbn [rbind]. unfold finish. rewrite I1. reflexivity.
    - rewrite icp_grun by exact Hi. replace (Z.to_nat (1 + n)) with (1 + Z.to_nat n)%nat by lia. exact R1.
    - replace (if Rlt_dec _ _ then damp / 2 else damp * 2) with (i_damp s1); [rewrite icp_grun by exact (proj1 (proj2 G1)); exact R2|].
      rewrite <- (err_same nn src tgt nor ns nt th Hin _ _ (proj2 Tr1)), <- (err_same nn src tgt nor ns nt th Hin _ _ P0). rewrite <- D0.
      destruct C as [(C1 & C2 & _ & C4)|(C1 & C2 & _ & C4)].
      + rewrite (err_same nn src tgt nor ns nt th Hin _ _ C4). destruct (Rlt_dec _ _); [exact C2|contradiction].
      + rewrite C4. destruct (Rlt_dec _ _) as [Hc|]; [exfalso; lra|exact C2].
    - exact (proj1 (proj2 G1)).
    - exact (proj1 Tr1).
    - exact R3.
  Qed.
End Icp.
