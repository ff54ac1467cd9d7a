(* C50-C52: the two registration loops. *)
From Coq Require Import Reals List Arith Bool ZArith Lra Lia.
From Verif Require Import Res MatSpec TensorModel GeomModel RgbdModel GeomSpec MatProofs TensorProofs GeomProofs GeomPtsProofs Se3Model Se3Proofs
  SolveModel FusionModel IcpModel IcpSpec SolveProofs IcpSolveProofs IcpGnProofs.
Import ListNotations.
Local Open Scope R_scope.

Lemma act_mmul A B p i : affine4 B -> (i < 3)%nat -> act (mmul 4 A B) p i = act A (act B p) i.
Proof.
  intros (b0 & b1 & b2 & b3) Hi. unfold act, mvec, mmul, rot_of, tr_of. cbn [rsum]. rewrite b0, b1, b2, b3. ring.
Qed.
Lemma act_ext_p A p q : veq 3 p q -> veq 3 (act A p) (act A q).
Proof. intros H i Hi. unfold act. rewrite (mvec_ext_v 3 _ p q i H). reflexivity. Qed.
Lemma act_ext_m A B p : meq 4 4 A B -> veq 3 (act A p) (act B p).
Proof.
  intros H i Hi. unfold act, mvec, rot_of, tr_of. rewrite (H i 3%nat) by lia. f_equal. apply rsum_ext. intros k Hk. rewrite (H i k) by lia. reflexivity.
Qed.
Lemma affine_mul A B : affine4 A -> affine4 B -> affine4 (mmul 4 A B).
Proof.
  intros (a0 & a1 & a2 & a3) (b0 & b1 & b2 & b3). unfold affine4, mmul. cbn [rsum]. rewrite a0, a1, a2, a3, b0, b1, b2, b3. repeat split; ring.
Qed.
Lemma same_refl n s : same_pts n s s. Proof. intros i _. apply veq_refl. Qed.
Lemma same_sym n s t : same_pts n s t -> same_pts n t s. Proof. intros H i Hi. apply veq_sym, H, Hi. Qed.
Lemma same_trans n s t u : same_pts n s t -> same_pts n t u -> same_pts n s u.
Proof. intros H1 H2 i Hi. eapply veq_trans; [apply H1, Hi|apply H2, Hi]. Qed.
Lemma moved_ext n A B s t : meq 4 4 A B -> same_pts n s t -> same_pts n (moved A s) (moved B t).
Proof. intros H1 H2 i Hi. unfold moved. eapply veq_trans; [apply act_ext_p, H2, Hi|apply act_ext_m, H1]. Qed.
Lemma moved_mul n A B s : affine4 B -> same_pts n (moved (mmul 4 A B) s) (moved A (moved B s)).
Proof. intros H i Hi k Hk. unfold moved. apply act_mmul; assumption. Qed.

Lemma mm44 (E : mat) (T : ten R) : mat44 T -> exists T', matmul (mat_ten E) T = Ok T' /\ mat44 T' /\ meq 4 4 (ent T' []) (mmul 4 E (ent T [])).
Proof.
  intros H. destruct T as [d f]. unfold mat44 in H. cbn [dims] in H. subst d. unfold matmul. cbn [dims mat_ten Nat.eqb bshape rbind].
  eexists. split; [reflexivity|]. split; [reflexivity|]. intros i j Hi Hj. unfold mmul, ent. apply rsum_ext. intros k Hk. reflexivity.
Qed.

Definition good (ns : nat) (s : icp_state) : Prop := cloud_of (i_src s) ns /\ mat44 (i_T s) /\ 0 < i_damp s.
(* the same positions, damping and transform *)
Definition sim (ns : nat) (s t : icp_state) : Prop :=
  same_pts ns (pts_of (i_src s)) (pts_of (i_src t)) /\ i_damp s = i_damp t /\ meq 4 4 (ent (i_T s) []) (ent (i_T t) []).
(* the source held is the original source moved by the transform *)
Definition tracks (ns : nat) (s0 : nat -> vec) (s : icp_state) : Prop :=
  affine4 (ent (i_T s) []) /\ same_pts ns (pts_of (i_src s)) (moved (ent (i_T s) []) s0).

Section Loop.
  Variables (nn : nnfun) (src tgt nor : ten R) (ns nt : nat) (th : thr_arg).
  Hypothesis Hin : icp_input nn src tgt nor ns nt th.
  Notation err := (plane_err nn (keep_sq th) ns nt (pts_of tgt) (pts_of nor)).
  Notation lm := (lm_step nn (keep_sq th) ns nt (pts_of tgt) (pts_of nor)).
  Notation idx_of s := (map (fun i => match_of nn nt (pts_of tgt) (s i)) (kept_pts nn (keep_sq th) ns nt (pts_of tgt) s)).

  Lemma icp_iter_ok s : good ns s -> exists s' xi E, icp_iter nn tgt nor th s = Ok s' /\ good ns s' /\
    lm (pts_of (i_src s)) (i_damp s) xi /\ se3_exp (six xi) = Ok E /\ affine4 E /\
    i_idx s' = Some (idx_of (pts_of (i_src s))) /\
    ((err (moved E (pts_of (i_src s))) < err (pts_of (i_src s)) /\ i_damp s' = i_damp s / 2 /\
      meq 4 4 (ent (i_T s') []) (mmul 4 E (ent (i_T s) [])) /\ same_pts ns (pts_of (i_src s')) (moved E (pts_of (i_src s))))
     \/ (~ err (moved E (pts_of (i_src s))) < err (pts_of (i_src s)) /\ i_damp s' = i_damp s * 2 /\
      i_T s' = i_T s /\ i_src s' = i_src s)).
  Proof.
    destruct Hin as (Hnn & Hs & Ht & Hn & H0 & Hth). intros (Gs & GT & Gd).
    destruct (look_ok nn (i_src s) tgt nor th ns nt (i_damp s) Gs Ht Hn H0 Hth Gd Hnn) as (l & xi & E & Hl & L1 & L2 & L3 & L4 & L5 & L6 & L7 & L8 & L9 & L10).
    unfold icp_iter. rewrite Hl. cbn [rbind]. destruct (Rlt_dec (l_new l) (l_err l)) as [Hlt|Hge].
    - rewrite L5. destruct (mm44 E (i_T s) GT) as (T' & -> & HT' & HTm). cbn [rbind].
      eexists _, xi, E. split; [reflexivity|]. cbn [i_src i_damp i_T i_idx].
      split; [repeat split; cbn [i_src i_damp i_T]; auto; lra|]. split; [exact L1|]. split; [exact L3|]. split; [exact L4|].
      split; [rewrite L10; reflexivity|]. left. rewrite L6, L7 in Hlt. auto.
    - eexists _, xi, E. split; [reflexivity|]. cbn [i_src i_damp i_T i_idx].
      split; [repeat split; cbn [i_src i_damp i_T]; auto; lra|]. split; [exact L1|]. split; [exact L3|]. split; [exact L4|].
      split; [rewrite L10; reflexivity|]. right. rewrite L6, L7 in Hge. auto.
  Qed.

  Lemma lm_same s t damp xi xi' : 0 < damp -> same_pts ns s t -> lm s damp xi -> lm t damp xi' -> six xi = six xi'.
  Proof.
    intros Hd Hp H1 H2. apply six_ext. apply (lm_step_unique nn (keep_sq th) ns nt (pts_of tgt) (pts_of nor) t damp); auto.
    apply (lm_step_ext nn (keep_sq th) ns nt (pts_of tgt) (pts_of nor) (proj1 Hin) s t); assumption.
  Qed.
  Lemma err_same s t : same_pts ns s t -> err s = err t.
  Proof. apply plane_err_ext. exact (proj1 Hin). Qed.
  Lemma idx_same s t : same_pts ns s t -> idx_of s = idx_of t.
  Proof.
    intros H. rewrite (kept_ext nn (keep_sq th) ns nt (pts_of tgt) (proj1 Hin) s t H).
    apply map_ext_in. intros i Hi. unfold kept_pts in Hi. apply filter_In in Hi. destruct Hi as [Hi _]. apply in_seq in Hi.
    apply match_ext; [exact (proj1 Hin)|apply H; lia].
  Qed.

  Lemma icp_iter_sim s t a b : good ns s -> good ns t -> sim ns s t ->
    icp_iter nn tgt nor th s = Ok a -> icp_iter nn tgt nor th t = Ok b -> sim ns a b /\ i_idx a = i_idx b.
  Proof.
    intros Gs Gt (P & D & T) Ea Eb.
    destruct (icp_iter_ok s Gs) as (a' & xi & E & Ha & _ & L & HE & AE & Ia & Ca).
    destruct (icp_iter_ok t Gt) as (b' & xi' & E' & Hb & _ & L' & HE' & AE' & Ib & Cb).
    rewrite Ea in Ha. rewrite Eb in Hb. injection Ha as <-. injection Hb as <-.
    assert (Hx : six xi = six xi').
    { rewrite D in L. apply (lm_same _ _ (i_damp t) xi xi' (proj2 (proj2 Gt)) P L L'). }
    rewrite Hx in HE. rewrite HE in HE'. injection HE' as <-.
    assert (Hm : same_pts ns (moved E (pts_of (i_src s))) (moved E (pts_of (i_src t)))) by (apply moved_ext; [apply meq_refl|exact P]).
    split; [|rewrite Ia, Ib; f_equal; apply idx_same, P].
    rewrite (err_same _ _ Hm), (err_same _ _ P) in Ca.
    destruct Ca as [(C1 & C2 & C3 & C4)|(C1 & C2 & C3 & C4)], Cb as [(D1 & D2 & D3 & D4)|(D1 & D2 & D3 & D4)]; try contradiction.
    - split; [|split].
      + eapply same_trans; [exact C4|]. eapply same_trans; [exact Hm|]. apply same_sym, D4.
      + rewrite C2, D2, D. reflexivity.
      + eapply meq_trans; [exact C3|]. eapply meq_trans; [|apply meq_sym, D3]. apply mmul_ext; [apply meq_refl|exact T].
    - split; [|split].
      + rewrite C4, D4. exact P.
      + rewrite C2, D2, D. reflexivity.
      + rewrite C3, D3. exact T.
  Qed.
  Lemma icp_iter_track s a : good ns s -> tracks ns (pts_of src) s -> icp_iter nn tgt nor th s = Ok a ->
    tracks ns (pts_of src) a /\ err (pts_of (i_src a)) <= err (pts_of (i_src s)).
  Proof.
    intros Gs (Aff & P) Ea. destruct (icp_iter_ok s Gs) as (a' & xi & E & Ha & _ & L & HE & AE & Ia & Ca).
    rewrite Ea in Ha. injection Ha as <-. destruct Ca as [(C1 & C2 & C3 & C4)|(C1 & C2 & C3 & C4)].
    - split.
      + split; [eapply affine_ext; [apply meq_sym, C3|apply affine_mul; assumption]|].
        eapply same_trans; [exact C4|]. eapply same_trans; [apply moved_ext; [apply meq_refl|exact P]|].
        apply same_sym. eapply same_trans; [apply moved_ext; [exact C3|apply same_refl]|]. apply moved_mul, Aff.
      + rewrite (err_same _ _ C4). lra.
    - split; [split; [rewrite C3; exact Aff|rewrite C4, C3; exact P]|]. rewrite C4. lra.
  Qed.

  (* ---------------- gradICP *)
  Variables (lmax B B2 nu : R).
  Hypothesis Hl : 0 < lmax.
  Hypothesis Hnu : nu <> 0.
  Lemma damp_factor_between e : Rmin (1 / lmax) lmax <= damp_factor lmax B e <= Rmax (1 / lmax) lmax.
  Proof.
    unfold damp_factor. pose proof (exp_pos (- B * e)) as He. set (g := / (1 + exp (- B * e))).
    assert (Hg : 0 < g < 1).
    { unfold g. split; [apply Rinv_0_lt_compat; lra|]. rewrite <- Rinv_1. apply Rinv_lt_contravar; lra. }
    replace ((lmax - 1 / lmax) / (1 + exp (- B * e))) with ((lmax - 1 / lmax) * g) by reflexivity.
    unfold Rmin, Rmax. destruct (Rle_dec (1 / lmax) lmax); nra.
  Qed.
  Lemma damp_factor_pos e : 0 < damp_factor lmax B e.
  Proof.
    pose proof (damp_factor_between e) as [H _]. assert (0 < 1 / lmax) by (unfold Rdiv; rewrite Rmult_1_l; apply Rinv_0_lt_compat, Hl).
    unfold Rmin in H. destruct (Rle_dec (1 / lmax) lmax); lra.
  Qed.
  Lemma grad_iter_ok s : good ns s -> exists s' xi E E', grad_iter nn tgt nor th lmax B B2 nu s = Ok s' /\ good ns s' /\
    lm (pts_of (i_src s)) (i_damp s) xi /\ se3_exp (six xi) = Ok E /\
    let e := clampR (-70) 70 (err (moved E (pts_of (i_src s))) - err (pts_of (i_src s))) in
    se3_exp (six (scaled (soft_step B2 nu e) xi)) = Ok E' /\ affine4 E' /\
    i_idx s' = Some (idx_of (pts_of (i_src s))) /\
    i_damp s' = i_damp s * damp_factor lmax B e /\
    meq 4 4 (ent (i_T s') []) (mmul 4 E' (ent (i_T s) [])) /\ same_pts ns (pts_of (i_src s')) (moved E' (pts_of (i_src s))).
  Proof.
    destruct Hin as (Hnn & Hs & Ht & Hn & H0 & Hth). intros (Gs & GT & Gd).
    destruct (look_ok nn (i_src s) tgt nor th ns nt (i_damp s) Gs Ht Hn H0 Hth Gd Hnn) as (l & xi & E & Hlk & L1 & L2 & L3 & L4 & L5 & L6 & L7 & L8 & L9 & L10).
    unfold grad_iter. rewrite Hlk. cbn [rbind]. unfold nonzero_dec. destruct (Req_EM_T nu 0); [contradiction|]. cbn [guard rbind].
    unfold step_transform. rewrite L2. unfold err_diff. rewrite L6, L7. set (e := clampR (-70) 70 _).
    change (map (Rmult (soft_step B2 nu e)) (six xi)) with (six (scaled (soft_step B2 nu e) xi)).
    destruct (se3_exp_six (scaled (soft_step B2 nu e) xi)) as (E' & HE' & AE'). rewrite HE'. cbn [rmap rbind].
    destruct (move_ok (i_src s) (mat_ten E') ns Gs (mat_ten_44 E')) as (pc & -> & Hpc & Hpts). cbn [rbind].
    destruct (mm44 E' (i_T s) GT) as (T' & -> & HT' & HTm). cbn [rbind].
    eexists _, xi, E, E'. split; [reflexivity|]. cbn [i_src i_damp i_T i_idx].
    split; [repeat split; cbn [i_src i_damp i_T]; auto; apply Rmult_lt_0_compat; [exact Gd|apply damp_factor_pos]|].
    split; [exact L1|]. split; [exact L3|]. cbv zeta. fold e. split; [exact HE'|]. split; [exact AE'|].
    split; [rewrite L10; reflexivity|]. split; [reflexivity|]. split; [exact HTm|exact Hpts].
  Qed.
  Lemma grad_iter_sim s t a b : good ns s -> good ns t -> sim ns s t ->
    grad_iter nn tgt nor th lmax B B2 nu s = Ok a -> grad_iter nn tgt nor th lmax B B2 nu t = Ok b -> sim ns a b /\ i_idx a = i_idx b.
  Proof.
    intros Gs Gt (P & D & T) Ea Eb.
    destruct (grad_iter_ok s Gs) as (a' & xi & E & Es & Ha & _ & L & HE & HEs & AE & Ia & Da & Ca & Pa).
    destruct (grad_iter_ok t Gt) as (b' & xi' & E' & Et & Hb & _ & L' & HE' & HEt & AE' & Ib & Db & Cb & Pb).
    rewrite Ea in Ha. rewrite Eb in Hb. injection Ha as <-. injection Hb as <-.
    assert (Hx : six xi = six xi').
    { rewrite D in L. apply (lm_same _ _ (i_damp t) xi xi' (proj2 (proj2 Gt)) P L L'). }
    rewrite Hx in HE. rewrite HE in HE'. injection HE' as <-.
    assert (Hm : same_pts ns (moved E (pts_of (i_src s))) (moved E (pts_of (i_src t)))) by (apply moved_ext; [apply meq_refl|exact P]).
    cbv zeta in *. rewrite (err_same _ _ Hm), (err_same _ _ P) in HEs. rewrite (err_same _ _ Hm), (err_same _ _ P) in Da.
    set (e := clampR _ _ _) in *. cbv beta in *.
    assert (Hx' : six (scaled (soft_step B2 nu e) xi) = six (scaled (soft_step B2 nu e) xi')).
    { unfold six, scaled in *. injection Hx as X0 X1 X2 X3 X4 X5. rewrite X0, X1, X2, X3, X4, X5. reflexivity. }
    rewrite Hx' in HEs. rewrite HEs in HEt. injection HEt as <-.
    split; [|rewrite Ia, Ib; f_equal; apply idx_same, P].
    split; [|split].
    - eapply same_trans; [exact Pa|]. eapply same_trans; [apply moved_ext; [apply meq_refl|exact P]|]. apply same_sym, Pb.
    - rewrite Da, Db, D. reflexivity.
    - eapply meq_trans; [exact Ca|]. eapply meq_trans; [|apply meq_sym, Cb]. apply mmul_ext; [apply meq_refl|exact T].
  Qed.
  Lemma grad_iter_track s a : good ns s -> tracks ns (pts_of src) s -> grad_iter nn tgt nor th lmax B B2 nu s = Ok a -> tracks ns (pts_of src) a.
  Proof.
    intros Gs (Aff & P) Ea. destruct (grad_iter_ok s Gs) as (a' & xi & E & Es & Ha & _ & L & HE & HEs & AE & Ia & Da & Ca & Pa).
    rewrite Ea in Ha. injection Ha as <-.
    split; [eapply affine_ext; [apply meq_sym, Ca|apply affine_mul; assumption]|].
    eapply same_trans; [exact Pa|]. eapply same_trans; [apply moved_ext; [apply meq_refl|exact P]|].
    apply same_sym. eapply same_trans; [apply moved_ext; [exact Ca|apply same_refl]|]. apply moved_mul, Aff.
  Qed.
End Loop.

(* ---------------------------------------------------------------- iteration *)
Lemma iterate_add {S} (f : S -> res S) n m s : iterate f (n + m) s = (let? a := iterate f n s in iterate f m a).
Proof. revert s. induction n as [|n IH]; intros s; [reflexivity|]. cbn [Nat.add iterate]. destruct (f s); [apply IH|reflexivity]. Qed.

Section Iter.
  Variables (ns : nat) (s0 : nat -> vec) (f : icp_state -> res icp_state).
  Hypothesis Hok : forall s, good ns s -> exists s', f s = Ok s' /\ good ns s' /\ i_idx s' <> None.
  Hypothesis Hsim : forall s t a b, good ns s -> good ns t -> sim ns s t -> f s = Ok a -> f t = Ok b -> sim ns a b /\ i_idx a = i_idx b.
  Hypothesis Htrack : forall s a, good ns s -> tracks ns s0 s -> f s = Ok a -> tracks ns s0 a.
  Lemma iter_ok n s : good ns s -> exists s', iterate f n s = Ok s' /\ good ns s' /\ (n <> 0%nat -> i_idx s' <> None).
  Proof.
    revert s. induction n as [|n IH]; intros s G; [exists s; split; [reflexivity|split; [exact G|congruence]]|].
    cbn [iterate]. destruct (Hok s G) as (a & -> & Ga & Ia). cbn [rbind].
    destruct n as [|n]; [exists a; split; [reflexivity|split; [exact Ga|intros _; exact Ia]]|].
    destruct (IH a Ga) as (s' & E & G' & I'). exists s'. split; [exact E|]. split; [exact G'|]. intros _. apply I'. discriminate.
  Qed.
  Lemma iter_sim n s t a b : good ns s -> good ns t -> sim ns s t -> iterate f n s = Ok a -> iterate f n t = Ok b ->
    sim ns a b /\ (n <> 0%nat -> i_idx a = i_idx b).
  Proof.
    revert s t. induction n as [|n IH]; intros s t Gs Gt S Ea Eb.
    - cbn in Ea, Eb. injection Ea as <-. injection Eb as <-. split; [exact S|congruence].
    - cbn [iterate] in Ea, Eb. destruct (Hok s Gs) as (s1 & Es & Gs1 & _). destruct (Hok t Gt) as (t1 & Et & Gt1 & _).
      rewrite Es in Ea. rewrite Et in Eb. cbn [rbind] in Ea, Eb.
      destruct (Hsim s t s1 t1 Gs Gt S Es Et) as [S1 I1].
      destruct n as [|n].
      + cbn in Ea, Eb. injection Ea as <-. injection Eb as <-. auto.
      + destruct (IH s1 t1 Gs1 Gt1 S1 Ea Eb) as [Sa Ia]. split; [exact Sa|]. intros _. apply Ia. discriminate.
  Qed.
  Lemma iter_track n s a : good ns s -> tracks ns s0 s -> iterate f n s = Ok a -> tracks ns s0 a.
  Proof.
    revert s. induction n as [|n IH]; intros s G T E; [cbn in E; injection E as <-; exact T|].
    cbn [iterate] in E. destruct (Hok s G) as (s1 & Es & G1 & _). rewrite Es in E. cbn [rbind] in E.
    apply (IH s1 G1 (Htrack s s1 G T Es) E).
  Qed.
End Iter.
Lemma start_ok src init damp ns : cloud_of src ns -> mat44 init -> 0 < damp ->
  exists s, start src init damp = Ok s /\ good ns s /\ i_T s = init /\ i_damp s = damp /\ i_idx s = None /\
    same_pts ns (pts_of (i_src s)) (moved (ent init []) (pts_of src)).
Proof.
  intros Hs Hi Hd. unfold start. destruct (move_ok src init ns Hs Hi) as (pc & -> & Hpc & Hp). cbn [rbind].
  eexists. split; [reflexivity|]. cbn. repeat split; auto.
Qed.
