(* The item properties: one lemma per theorem of PropItem.v. *)
From Coq Require Import Reals ZArith Ascii String List Arith Bool Lia Lra.
From Verif Require Import Res MatSpec TextModel TensorModel LinAlgModel DataUtilsModel ImageModel GeomSpec GeomModel IcpModel DatasetModel
  MatProofs GeomProofs GeomMiscProofs QuatProofs DataSpec DatasetSpec PoseFileProofs SceneProofs DataPropProofs ItemModel ItemSpec ItemProofs.
Import ListNotations.
Local Open Scope nat_scope.

Lemma loads_or : forall c, loads c <-> c_pose c || c_trans c = true.
Proof. intros c. unfold loads. now rewrite orb_true_iff. Qed.
Lemma readable_frames : forall rnd o c sc W H cp dp xs ys, images_readable o c W H cp dp xs ys ->
  exists cs ds color, read_frames rnd o c sc (length cp) cp dp = Ok (cs, ds) /\ stack_0 cs = Ok color /\ color_out rnd o c xs color /\ length xs = length cp /\
    exists depth, (c_depth c = true -> stack_0 ds = Ok depth /\ depth_out o c sc ys depth /\ length ys = length cp).
Proof.
  intros rnd o c sc W H cp dp xs ys (Lo & No & w & h & HW & HH & N & HC & HD).
  destruct (read_frames_ok rnd o c sc cp dp W H xs ys Lo No w h HW HH HC) as (cs & ds & E & FC & FD).
  { intros K. apply HD, K. } { intros K. apply HD, K. }
  exists cs, ds.
  assert (Lx : length cp = length xs) by (eapply Forall2_len; exact HC).
  assert (Nx : xs <> []) by (destruct cp; [contradiction|]; destruct xs; discriminate).
  destruct (color_stack rnd o c W H xs cs Lo w h HW HH Nx) as (color & Ec & Pc); [|exact FC|].
  { apply Forall_forall. intros x Hx. apply In_nth_error in Hx. destruct Hx as (i & Ei). destruct (Forall2_nth_r _ _ _ HC i x Ei) as (p & _ & _ & D). exact D. }
  exists color. split; [exact E|]. split; [exact Ec|]. split; [exact Pc|]. split; [congruence|].
  destruct (c_depth c).
  - destruct (HD eq_refl) as (Ld & HD').
    assert (Ly : length dp = length ys) by (eapply Forall2_len; exact HD').
    assert (Ny : ys <> []) by (destruct cp; [contradiction|]; destruct ys; [cbn in *; congruence|discriminate]).
    destruct (depth_stack o c sc W H ys ds No w h HW HH Ny) as (depth & Ed & Pd); [|exact (FD eq_refl)|].
    { apply Forall_forall. intros x Hx. apply In_nth_error in Hx. destruct Hx as (i & Ei). destruct (Forall2_nth_r _ _ _ HD' i x Ei) as (p & _ & _ & D). exact D. }
    exists depth. intros _. split; [exact Ed|]. split; [exact Pd|congruence].
  - exists (mkTen [] (fun _ => 0%R)). discriminate.
Qed.
Lemma quat_pose_ok : forall q m, quat_pose q m -> pose_ok m.
Proof. intros q m (? & ? & ? & ? & ? & ? & ? & _ & A & _ & _ & R). split; [exact A|]. destruct R as [_ [_ D]]. rewrite D. lra. Qed.
Lemma motion_of : forall c ms it, (loads c -> ms <> [] /\ Forall pose_ok ms) -> (c_pose c = true -> pose_seq ms (p_pose it)) ->
  (c_trans c = true -> transform_seq ms (p_trans it)) -> motion c ms it.
Proof. intros c ms it H P T. split; [exact P|]. split; [exact T|]. intros K1 K2. destruct (H (or_introl K1)) as (N & F). apply seqs_chained; auto. Qed.

Lemma tum_item_ok : forall rnd o c d i cp dp nm st pq W H xs ys,
  images_readable o c W H cp dp xs ys ->
  nth_error (t_color d) i = Some cp -> nth_error (t_depth d) i = Some dp -> nth_error (t_names d) i = Some nm -> nth_error (t_stamps d) i = Some st ->
  (loads c -> nth_error (t_poses d) i = Some pq /\ length pq = length cp /\ Forall quat_line pq) ->
  exists it ms lines, tum_item rnd o c (length cp) d (Z.of_nat i) = Ok (documented c it) /\
    shapes c (length cp) it /\ p_names it = nm /\ p_last it = OText (join [newline] lines) /\ Forall2 Stamp st lines /\
    color_out rnd o c xs (p_color it) /\ (c_depth c = true -> depth_out o c 5000 ys (p_depth it)) /\
    camera (525 * (INR (c_width c) / 640)) (525 * (INR (c_height c) / 480)) (639 / 2 * (INR (c_width c) / 640)) (479 / 2 * (INR (c_height c) / 480)) (p_intr it) /\
    (loads c -> Forall2 quat_pose pq ms) /\ motion c ms it.
Proof.
  intros rnd o c d i cp dp nm st pq W H xs ys R Ec Ed En Es HP.
  assert (Ncp : cp <> []) by apply R.
  destruct (readable_frames rnd o c 5000 W H cp dp xs ys R) as (cs & ds & color & Ef & Esc & Pc & Lx & depth & Pd).
  unfold tum_item. rewrite (pyitem_nat _ _ _ Ec), (pyitem_nat _ _ _ Ed), (pyitem_nat _ _ _ En), (pyitem_nat _ _ _ Es). cbn [rbind].
  assert (EP : exists ms, (let? pq := (if c_pose c || c_trans c then pyitem (t_poses d) (Z.of_nat i) else Ok []) in (if c_pose c || c_trans c then homogen_poses pq else Ok [])) = Ok ms /\
     (exists pq', (if c_pose c || c_trans c then pyitem (t_poses d) (Z.of_nat i) else Ok []) = Ok pq' /\ (if c_pose c || c_trans c then homogen_poses pq' else Ok []) = Ok ms) /\
     (loads c -> Forall2 quat_pose pq ms /\ ms <> [] /\ Forall pose_ok ms /\ length ms = length cp)).
  { destruct (c_pose c || c_trans c) eqn:Q.
    - apply loads_or in Q. destruct (HP Q) as (E1 & E2 & E3). destruct (homogen_ok pq E3) as (ms & E4 & E5). exists ms.
      rewrite (pyitem_nat _ _ _ E1). split; [exact E4|]. split; [exists pq; auto|]. intros _.
      assert (Lm : length pq = length ms) by (eapply Forall2_len; exact E5).
      split; [exact E5|]. split; [destruct cp; [contradiction|]; destruct ms; [cbn in *; congruence|discriminate]|]. split; [|congruence].
      clear - E5. induction E5; constructor; [eapply quat_pose_ok; eassumption|assumption].
    - exists []. split; [reflexivity|]. split; [exists []; auto|]. intros K. apply loads_or in K. congruence. }
  destruct EP as (ms & _ & (pq' & Epq & Ems) & Kms). rewrite Epq. cbn [rbind]. rewrite Ef. cbn [rbind]. rewrite Ems. cbn [rbind fst snd]. rewrite Esc. cbn [rbind].
  rewrite (on_ok _ _ (OTen depth)) by (intros K; destruct (Pd K) as (E & _); rewrite E; reflexivity). cbn [rbind].
  destruct (K_of_camera 525 525 (639 / 2) (479 / 2)) as (KD & KE).
  destruct (intrinsics_ok c _ _ _ _ _ KD KE) as (k & Ek & Pk).
  rewrite Ek. cbn [rbind]. rewrite (on_ok _ (Ok (OTen k)) (OTen k)) by reflexivity. cbn [rbind].
  destruct (pose_outputs_ok c (map mat_ten ms) ms) as (a & b & Eab & Pa & Pb).
  { intros K. apply loads_or in K. destruct (Kms K) as (_ & N & P & _). split; [exact N|]. split; [apply mats_of_map|exact P]. }
  rewrite Eab. cbn [rbind]. rewrite (on_ok _ _ (OText nm)) by reflexivity. cbn [rbind]. rewrite (on_ok _ _ (OText (join [newline] (map stamp_line st)))) by reflexivity. cbn [rbind].
  exists (mkItem color depth k a b nm (OText (join [newline] (map stamp_line st)))), ms, (map stamp_line st).
  split; [unfold documented; cbn [p_color p_depth p_intr p_pose p_trans p_names p_last app]; rewrite <- !app_assoc; reflexivity|].
  assert (MS : forall x, (loads c -> x = length ms) -> loads c -> x = length cp) by (intros x Hx K; rewrite (Hx K); apply Kms, K).
  cbn [p_names p_last p_color p_depth p_intr p_pose p_trans].
  split; [unfold shapes; cbn [p_names p_last p_color p_depth p_intr p_pose p_trans]; split; [|split; [|split; [|split]]]|].
  - rewrite <- Lx. apply Pc.
  - intros K. destruct (Pd K) as (_ & Q & Ly). rewrite <- Ly. apply Q.
  - intros _. apply Pk.
  - intros K. destruct (Pa K) as (Q & _). rewrite Q. f_equal. apply Kms. now left.
  - intros K. destruct (Pb K) as (Q & _). rewrite Q. f_equal. apply Kms. now right.
  - split; [reflexivity|]. split; [reflexivity|]. split.
    { clear. induction st as [|[[r dd] p] st IH]; cbn [map]; constructor; [|exact IH]. destruct p as [p|].
      - exists r, dd, p. split; [left; reflexivity|reflexivity].
      - exists r, dd, (txt "None"). split; [right; split; reflexivity|reflexivity]. }
    split; [exact Pc|]. split; [intros K; apply Pd, K|]. split; [exact Pk|]. split; [intros K; apply Kms, K|].
    apply motion_of; [|exact Pa|exact Pb]. intros K. destruct (Kms K) as (_ & N & P & _). split; assumption.
Qed.

Lemma rows_mat_pose : forall r, rows_pose r (rows_mat r).
Proof. intros r i a b c d E. unfold rows_mat, row4. rewrite E. auto. Qed.
Lemma poseat_rows : forall value lines s r, PoseAt value lines s r -> affine4 (rows_mat r) /\ forall m, rows_pose r m -> meq 4 4 m (rows_mat r).
Proof.
  intros value lines s r (l0 & l1 & l2 & r0 & r1 & r2 & _ & _ & _ & _ & _ & _ & ->). split; [repeat split|].
  intros m Hm. destruct r0 as [[[? ?] ?] ?], r1 as [[[? ?] ?] ?], r2 as [[[? ?] ?] ?].
  pose proof (Hm 0 _ _ _ _ eq_refl) as (A0 & A1 & A2 & A3). pose proof (Hm 1 _ _ _ _ eq_refl) as (B0 & B1 & B2 & B3).
  pose proof (Hm 2 _ _ _ _ eq_refl) as (C0 & C1 & C2 & C3). pose proof (Hm 3 _ _ _ _ eq_refl) as (D0 & D1 & D2 & D3).
  intros i j Hi Hj. destruct i as [|[|[|[|i]]]]; try lia; destruct j as [|[|[|[|j]]]]; try lia; cbn; congruence.
Qed.

Lemma icl_item_ok : forall rnd value o c d i cp dp nm file f ls rows W H xs ys,
  images_readable o c W H cp dp xs ys ->
  nth_error (i_color d) i = Some cp -> nth_error (i_depth d) i = Some dp -> nth_error (i_names d) i = Some nm ->
  c_last c = false ->
  (loads c -> nth_error (i_poses d) i = Some (file, ls) /\ rd_text o file = Ok f /\ load_poses value f ls = Ok rows /\ rows <> [] /\
     Forall (fun r => pose_ok (rows_mat r)) rows) ->
  exists it, icl_item rnd value o c (length cp) d (Z.of_nat i) = Ok (documented c it) /\
    shapes_poses c (length cp) (length rows) it /\ p_names it = nm /\
    color_out rnd o c xs (p_color it) /\ (c_depth c = true -> depth_out o c 5000 ys (p_depth it)) /\
    camera (4812 / 10 * (INR (c_width c) / 640)) (- 480 * (INR (c_height c) / 480)) (639 / 2 * (INR (c_width c) / 640)) (479 / 2 * (INR (c_height c) / 480)) (p_intr it) /\
    motion c (map rows_mat rows) it.
Proof.
  intros rnd value o c d i cp dp nm file f ls rows W H xs ys R Ec Ed En Cl HP.
  destruct (readable_frames rnd o c 5000 W H cp dp xs ys R) as (cs & ds & color & Ef & Esc & Pc & Lx & depth & Pd).
  unfold icl_item. rewrite (pyitem_nat _ _ _ Ec), (pyitem_nat _ _ _ Ed), (pyitem_nat _ _ _ En). cbn [rbind].
  assert (EP : exists meta ms, (if c_pose c || c_trans c then pyitem (i_poses d) (Z.of_nat i) else Ok ([], [])) = Ok meta /\
     (if c_pose c || c_trans c then let? f := rd_text o (fst meta) in let? l := load_poses value f (snd meta) in Ok (map rows_mat l) else Ok []) = Ok ms /\
     (loads c -> ms = map rows_mat rows /\ rows <> [] /\ Forall pose_ok ms)).
  { destruct (c_pose c || c_trans c) eqn:Q.
    - apply loads_or in Q. destruct (HP Q) as (E1 & E2 & E3 & E4 & E5). exists (file, ls), (map rows_mat rows).
      rewrite (pyitem_nat _ _ _ E1). split; [reflexivity|]. cbn [fst snd]. rewrite E2. cbn [rbind]. rewrite E3. split; [reflexivity|]. intros _. split; [reflexivity|]. split; [exact E4|].
      clear - E5. induction E5; cbn [map]; constructor; assumption.
    - exists ([], []), []. split; [reflexivity|]. split; [reflexivity|]. intros K. apply loads_or in K. congruence. }
  destruct EP as (meta & ms & Em & Ems & Kms). rewrite Em. cbn [rbind]. rewrite Ef. cbn [rbind]. rewrite Ems. cbn [rbind fst snd]. rewrite Esc. cbn [rbind].
  rewrite (on_ok _ _ (OTen depth)) by (intros K; destruct (Pd K) as (E & _); rewrite E; reflexivity). cbn [rbind].
  destruct (K_of_camera (4812 / 10) (- 480) (639 / 2) (479 / 2)) as (KD & KE).
  destruct (intrinsics_ok c _ _ _ _ _ KD KE) as (k & Ek & Pk).
  rewrite Ek. cbn [rbind]. rewrite (on_ok _ (Ok (OTen k)) (OTen k)) by reflexivity. cbn [rbind].
  destruct (pose_outputs_ok c (map mat_ten ms) ms) as (a & b & Eab & Pa & Pb).
  { intros K. apply loads_or in K. destruct (Kms K) as (Q & N & P). split; [rewrite Q; destruct rows; [contradiction|discriminate]|]. split; [apply mats_of_map|exact P]. }
  rewrite Eab. cbn [rbind]. rewrite (on_ok _ _ (OText nm)) by reflexivity. cbn [rbind].
  exists (mkItem color depth k a b nm (OText [])).
  split; [unfold documented; cbn [p_color p_depth p_intr p_pose p_trans p_names p_last app]; rewrite Cl; cbn [when]; rewrite <- !app_assoc, app_nil_r; reflexivity|].
  cbn [p_names p_last p_color p_depth p_intr p_pose p_trans].
  split; [unfold shapes_poses; cbn [p_names p_last p_color p_depth p_intr p_pose p_trans]; split; [|split; [|split; [|split]]]|].
  - rewrite <- Lx. apply Pc.
  - intros K. destruct (Pd K) as (_ & Q & Ly). rewrite <- Ly. apply Q.
  - intros _. apply Pk.
  - intros K. destruct (Pa K) as (Q & _). rewrite Q. f_equal. destruct (Kms (or_introl K)) as (Q' & _). rewrite Q'. apply map_length.
  - intros K. destruct (Pb K) as (Q & _). rewrite Q. f_equal. destruct (Kms (or_intror K)) as (Q' & _). rewrite Q'. apply map_length.
  - split; [reflexivity|]. split; [exact Pc|]. split; [intros K; apply Pd, K|]. split; [exact Pk|].
    apply motion_of.
    + intros K. destruct (Kms K) as (Q & N & P). rewrite <- Q. split; [rewrite Q; destruct rows; [contradiction|discriminate]|exact P].
    + intros K. destruct (Kms (or_introl K)) as (<- & _). exact (Pa K).
    + intros K. destruct (Kms (or_intror K)) as (<- & _). exact (Pb K).
Qed.

(* ---------------- ScanNet *)
Lemma label_one : forall o c s20 x W H, labels_ok o -> 0 < c_width c -> 0 < c_height c -> 0 < W -> 0 < H ->
  length x = H -> Forall (fun r => length r = W) x -> Forall (Forall (fun v => v < 256)) x ->
  exists r y, cv_labels o (c_width c) (c_height c) x = Ok r /\ preprocess_label o c s20 x = Ok y /\ dims y = [1; c_width c; c_height c] /\
    forall i j, i < c_height c -> j < c_width c -> at_ y [0; j; i] = INR (let v := nth j (nth i r []) 0 in if s20 then class20 v else v).
Proof.
  intros o c s20 x W H Lo w h HW HH L1 L2 L3. destruct (Lo _ _ x W H w h HW HH L1 L2) as (r & Er & R1 & R2 & _).
  exists r. unfold preprocess_label. replace (map (map (fun v => v mod 256)) x) with x.
  2:{ clear - L3. induction L3 as [|a x Ha _ IH]; [reflexivity|]. cbn [map]. f_equal; [|exact IH]. clear - Ha. induction Ha; [reflexivity|]. cbn [map]. f_equal; [|assumption]. symmetry. now apply Nat.mod_small. }
  rewrite Er. cbn [rbind]. eexists. split; [reflexivity|]. split; [reflexivity|].
  assert (HR : forall f : nat -> nat, length (hd [] (map (map f) r)) = c_width c /\ length (map (map f) r) = c_height c).
  { intros f. rewrite map_length. split; [|exact R1]. destruct r as [|r0 r]; [cbn in R1; lia|]. cbn. rewrite map_length. now inversion R2. }
  split.
  - cbn [dims]. destruct s20; [rewrite q_remap; destruct (HR class20) as (-> & ->); reflexivity|].
    rewrite R1. destruct r as [|r0 r]; [cbn in R1; lia|]. cbn [hd]. inversion R2; subst. congruence.
  - intros i j Hi Hj. cbn [at_]. f_equal. destruct s20; [|reflexivity]. rewrite q_remap. cbv zeta.
    rewrite (nth_indep (map (map class20) r) [] (map class20 [])) by (rewrite map_length; lia). rewrite map_nth.
    rewrite Forall_forall in R2. assert (Ll : length (nth i r []) = c_width c) by (apply R2, nth_In; lia).
    rewrite (nth_indep (map class20 (nth i r [])) 0 (class20 0)) by (rewrite map_length; lia). apply map_nth.
Qed.
Lemma label_stack : forall o c s20 W H paths xs, labels_ok o -> 0 < c_width c -> 0 < c_height c -> 0 < W -> 0 < H -> paths <> [] ->
  label_files o W H paths xs ->
  exists ls t, Forall2 (fun p y => (let? x := rd_label o p in preprocess_label o c s20 x) = Ok y) paths ls /\ stack_0 ls = Ok t /\ label_out o c s20 class20 xs t.
Proof.
  intros o c s20 W H paths xs Lo w h HW HH N F.
  assert (E : exists ls, Forall2 (fun p y => (let? x := rd_label o p in preprocess_label o c s20 x) = Ok y) paths ls /\ Forall2 (fun x y => preprocess_label o c s20 x = Ok y /\ dims y = [1; c_width c; c_height c] /\
     exists r, cv_labels o (c_width c) (c_height c) x = Ok r /\ forall i j, i < c_height c -> j < c_width c -> at_ y [0; j; i] = INR (let v := nth j (nth i r []) 0 in if s20 then class20 v else v)) xs ls).
  { clear N. induction F as [|p x paths xs (A1 & A2 & A3 & A4) F IH]; [exists []; split; constructor|]. destruct IH as (ls & I1 & I2).
    destruct (label_one o c s20 x W H Lo w h HW HH A2 A3 A4) as (r & y & B1 & B2 & B3 & B4).
    exists (y :: ls). split; constructor; try assumption; [rewrite A1; exact B2|]. split; [exact B2|]. split; [exact B3|]. exists r. auto. }
  destruct E as (ls & E1 & E2). exists ls.
  assert (L1 : length paths = length ls) by (eapply Forall2_len; exact E1).
  assert (L2 : length xs = length ls) by (eapply Forall2_len; exact E2).
  destruct (stack_ok ls [1; c_width c; c_height c]) as (t & Et & Dt & At).
  { destruct paths; [contradiction|]. destruct ls; discriminate. }
  { clear - E2. induction E2 as [|x y xs ls (_ & D & _) _ IH]; constructor; assumption. }
  exists t. split; [exact E1|]. split; [exact Et|]. split; [unfold shape; rewrite Dt; cbn; congruence|].
  intros f x Ex. destruct (Forall2_nth _ _ _ E2 f x Ex) as (y & Ey & _ & _ & r & Er & Pr). exists r. split; [exact Er|].
  intros i j Hi Hj. rewrite <- (Pr i j Hi Hj). change [0; j; i; f] with ([0; j; i] ++ [f]). apply At, Ey.
Qed.
Lemma item_loop : forall {A B} (g : A -> res B) l r, Forall2 (fun x y => g x = Ok y) l r -> mapM (fun i => let? x := item l i in g x) (seq 0 (length l)) = Ok r.
Proof.
  intros A B g l r F. apply mapM_Forall2. eapply Forall2_seq; [exact F|]. intros i x y Ex Ey Hxy. cbv beta. rewrite (nth_error_item _ _ _ Ex). exact Hxy.
Qed.
Lemma scan_item_ok : forall rnd o c s20 d i fs ip nm W H WL HL xs ys ps ls K fx fy cx cy,
  images_readable o c W H (map sf_color fs) (map sf_depth fs) xs ys ->
  nth_error (sd_frames d) i = Some fs -> nth_error (sd_intr d) i = Some ip -> nth_error (sd_names d) i = Some nm -> sd_seqlen d = Z.of_nat (length fs) ->
  (loads c -> Forall2 (fun f p => rd_matrix o (sf_pose f) = Ok p /\ dims p = [4; 4] /\ pose_ok (ent p [])) fs ps) ->
  (c_intr c = true -> rd_matrix o ip = Ok K /\ dims K = [4; 4] /\ meq 4 4 (ent K []) (pinhole fx fy cx cy 0)) ->
  (c_last c = true -> labels_ok o /\ 0 < WL /\ 0 < HL /\ label_files o WL HL (map sf_label fs) ls) ->
  exists it labels, scan_item rnd o c s20 d (Z.of_nat i) = Ok (documented c it) /\
    shapes c (length fs) it /\ p_names it = nm /\ p_last it = OTen labels /\ (c_last c = true -> label_out o c s20 class20 ls labels) /\
    color_out rnd o c xs (p_color it) /\ (c_depth c = true -> depth_out o c 1000 ys (p_depth it)) /\
    (c_intr c = true -> camera (fx * (INR (c_width c) / 640)) (fy * (INR (c_height c) / 480)) (cx * (INR (c_width c) / 640)) (cy * (INR (c_height c) / 480)) (p_intr it)) /\
    motion c (map (fun p => ent p []) ps) it.
Proof.
  intros rnd o c s20 d i fs ip nm W H WL HL xs ys ps ls K fx fy cx cy RR Ec Ei En SL HP HK HL'.
  assert (Nfs : fs <> []) by (destruct RR as (_ & _ & _ & _ & _ & _ & N & _); intros ->; now apply N).
  destruct (readable_frames rnd o c 1000 W H _ _ xs ys RR) as (cs & ds & color & Ef & Esc & Pc & Lx & depth & Pd).
  rewrite map_length in Ef, Lx.
  assert (w : 0 < c_width c) by apply RR. assert (h : 0 < c_height c) by apply RR.
  unfold scan_item. rewrite SL, Nat2Z.id. rewrite (pyitem_nat _ _ _ Ec), (pyitem_nat _ _ _ Ei), (pyitem_nat _ _ _ En). cbn [rbind].
  rewrite Ef. cbn [rbind].
  assert (EP : exists ps', (if c_pose c || c_trans c then mapM (fun i => let? f := item fs i in rd_matrix o (sf_pose f)) (seq 0 (length fs)) else Ok []) = Ok ps' /\ (loads c -> ps' = ps)).
  { destruct (c_pose c || c_trans c) eqn:Q.
    - apply loads_or in Q. exists ps. split; [|reflexivity]. apply (item_loop (fun f => rd_matrix o (sf_pose f))). eapply Forall2_impl'; [|exact (HP Q)]. intros a b (E & _). exact E.
    - exists []. split; [reflexivity|]. intros K'. apply loads_or in K'. congruence. }
  destruct EP as (ps' & Eps & Kps). rewrite Eps. cbn [rbind].
  assert (EL : exists ls' labels, (if c_last c then mapM (fun i => let? f := item fs i in let? x := rd_label o (sf_label f) in preprocess_label o c s20 x) (seq 0 (length fs)) else Ok []) = Ok ls' /\
     (c_last c = true -> stack_0 ls' = Ok labels /\ label_out o c s20 class20 ls labels)).
  { destruct (c_last c).
    - destruct (HL' eq_refl) as (Lo & HWL & HHL & F). destruct (label_stack o c s20 WL HL (map sf_label fs) ls Lo w h HWL HHL) as (l' & t & E1 & E2 & E3); [destruct fs; [contradiction|discriminate]|exact F|].
      exists l', t. split; [|auto]. apply (item_loop (fun f => let? x := rd_label o (sf_label f) in preprocess_label o c s20 x)).
      clear - E1. remember (map sf_label fs) as q eqn:Eq. revert fs Eq. induction E1; intros [|f fs] Eq; cbn in Eq; try discriminate; [constructor|]. injection Eq as -> ->. constructor; [assumption|]. now apply IHE1.
    - exists [], (mkTen [] (fun _ => 0%R)). split; [reflexivity|discriminate]. }
  destruct EL as (ls' & labels & Els & Kls). rewrite Els. cbn [rbind fst snd]. rewrite Esc. cbn [rbind].
  rewrite (on_ok _ _ (OTen depth)) by (intros K'; destruct (Pd K') as (E & _); rewrite E; reflexivity). cbn [rbind].
  assert (EK : exists k, on (c_intr c) (let? k := rd_matrix o ip in let? k := item_intrinsics c k in Ok (OTen k)) = Ok (when (c_intr c) (OTen k)) /\
     (c_intr c = true -> camera (fx * (INR (c_width c) / 640)) (fy * (INR (c_height c) / 480)) (cx * (INR (c_width c) / 640)) (cy * (INR (c_height c) / 480)) k)).
  { destruct (c_intr c).
    - destruct (HK eq_refl) as (K1 & K2 & K3). destruct (intrinsics_ok c K fx fy cx cy K2 K3) as (k & Ek & Pk). exists k. split; [|auto].
      apply on_ok. intros _. rewrite K1. cbn [rbind]. rewrite Ek. reflexivity.
    - exists (mkTen [] (fun _ => 0%R)). split; [reflexivity|discriminate]. }
  destruct EK as (k & Ek & Pk). rewrite Ek. cbn [rbind].
  set (ms := map (fun p : ten R => ent p []) ps).
  assert (Fps : loads c -> mats_of ps ms /\ Forall pose_ok ms /\ ms <> [] /\ length ms = length fs /\ mapM as_mat ps = Ok ms).
  { intros Q. pose proof (HP Q) as F. assert (Lp : length fs = length ps) by (eapply Forall2_len; exact F).
    split; [|split; [|split; [|split]]].
    - unfold ms. clear - F. induction F as [|f p fs ps (_ & D & _) F IH]; cbn [map]; constructor; [split; [exact D|reflexivity]|exact IH].
    - unfold ms. clear - F. induction F as [|f p fs ps (_ & _ & D) F IH]; cbn [map]; constructor; assumption.
    - unfold ms. destruct fs; [contradiction|]. destruct ps; discriminate.
    - unfold ms. rewrite map_length. congruence.
    - apply mapM_Forall2. unfold ms. clear - F. induction F as [|f p fs ps (_ & D & _) F IH]; cbn [map]; constructor; [unfold as_mat; rewrite D; reflexivity|exact IH]. }
  assert (EM : exists ms', (if c_trans c then mapM as_mat ps' else Ok []) = Ok ms' /\ (c_trans c = true -> ms' = ms)).
  { destruct (c_trans c) eqn:Q.
    - assert (Lo : loads c) by (now right). exists ms. split; [|auto]. rewrite (Kps Lo). apply Fps, Lo.
    - exists []. split; [reflexivity|discriminate]. }
  destruct EM as (ms' & Em' & Km'). rewrite Em'. cbn [rbind].
  assert (EO : exists a b, pose_outputs c ps' ms' = Ok (when (c_pose c) (OTen a) ++ when (c_trans c) (OTen b)) /\
    (c_pose c = true -> pose_seq ms a) /\ (c_trans c = true -> transform_seq ms b)).
  { unfold pose_outputs.
    assert (EA : exists a, (if c_pose c then let? s := stack_0 ps' in let? s := preprocess_poses s in Ok [OTen s] else Ok []) = Ok (when (c_pose c) (OTen a)) /\ (c_pose c = true -> pose_seq ms a)).
    { destruct (c_pose c) eqn:Q.
      - assert (Lo : loads c) by (now left). destruct (Fps Lo) as (F1 & F2 & F3 & _). rewrite (Kps Lo).
        destruct (pose_stack ps ms F3 F1 F2) as (s & x & Es & Ex & Kx). exists x. rewrite Es. cbn [rbind]. rewrite Ex. split; [reflexivity|intros _; exact Kx].
      - exists (mkTen [] (fun _ => 0%R)). split; [reflexivity|discriminate]. }
    destruct EA as (a & Ea & Ka). rewrite Ea. cbn [rbind].
    assert (EB : exists b, (if c_trans c then let? t := poses_to_transforms ms' in let? s := stack_0 (map mat_ten t) in Ok [OTen s] else Ok []) = Ok (when (c_trans c) (OTen b)) /\ (c_trans c = true -> transform_seq ms b)).
    { destruct (c_trans c) eqn:Q.
      - assert (Lo : loads c) by (now right). destruct (Fps Lo) as (F1 & F2 & F3 & _). rewrite (Km' eq_refl).
        destruct (trans_stack ms F3 F2) as (s & x & Es & Ex & Kx). exists x. rewrite Es. cbn [rbind]. rewrite Ex. split; [reflexivity|intros _; exact Kx].
      - exists (mkTen [] (fun _ => 0%R)). split; [reflexivity|discriminate]. }
    destruct EB as (b & Eb & Kb). rewrite Eb. cbn [rbind]. exists a, b. auto. }
  destruct EO as (a & b & Eab & Pa & Pb). rewrite Eab. cbn [rbind]. rewrite (on_ok _ _ (OText nm)) by reflexivity. cbn [rbind].
  rewrite (on_ok _ _ (OTen labels)) by (intros Q; destruct (Kls Q) as (E & _); rewrite E; reflexivity). cbn [rbind].
  exists (mkItem color depth k a b nm (OTen labels)), labels.
  split; [unfold documented; cbn [p_color p_depth p_intr p_pose p_trans p_names p_last app]; rewrite <- !app_assoc; reflexivity|].
  cbn [p_names p_last p_color p_depth p_intr p_pose p_trans].
  split; [unfold shapes; cbn [p_names p_last p_color p_depth p_intr p_pose p_trans]; split; [|split; [|split; [|split]]]|].
  - rewrite <- Lx. apply Pc.
  - intros Q. destruct (Pd Q) as (_ & Q' & Ly). rewrite map_length in Ly. rewrite <- Ly. apply Q'.
  - intros Q. apply Pk, Q.
  - intros Q. destruct (Pa Q) as (Q' & _). rewrite Q'. f_equal. apply Fps. now left.
  - intros Q. destruct (Pb Q) as (Q' & _). rewrite Q'. f_equal. apply Fps. now right.
  - split; [reflexivity|]. split; [reflexivity|]. split; [intros Q; apply Kls, Q|]. split; [exact Pc|]. split; [intros Q; apply Pd, Q|]. split; [exact Pk|].
    apply motion_of; [|exact Pa|exact Pb]. intros Q. destruct (Fps Q) as (_ & F2 & F3 & _). split; assumption.
Qed.

(* ---------------- windows of lists *)
Definition Window {A} (l : list A) (start step n : nat) (x : list A) : Prop :=
  Forall2 (fun i y => nth_error l (start + i * step) = Some y) (seq 0 n) x.
Lemma window_ex : forall {A} (l : list A) start step n, 0 < n -> start + (n - 1) * step < length l -> exists x, Window l start step n x.
Proof.
  intros A l start step n Hn H. unfold Window.
  assert (K : forall a m, a + m <= n -> exists x, Forall2 (fun i y => nth_error l (start + i * step) = Some y) (seq a m) x).
  { intros a m. revert a. induction m as [|m IH]; intros a Ha; [exists []; constructor|]. destruct (IH (S a) ltac:(lia)) as (x & Hx).
    destruct (nth_error l (start + a * step)) as [y|] eqn:E.
    - exists (y :: x). constructor; assumption.
    - apply nth_error_None in E. assert (a * step <= (n - 1) * step) by (apply Nat.mul_le_mono_r; lia). lia. }
  apply (K 0 n). lia.
Qed.
Lemma window_nth : forall {A} (l : list A) start step n x, Window l start step n x -> length x = n /\ forall i, i < n -> nth_error x i = nth_error l (start + i * step).
Proof.
  intros A l start step n x H. assert (L : length (seq 0 n) = length x) by (eapply Forall2_len; exact H). rewrite seq_length in L. split; [congruence|].
  intros i Hi. assert (E : nth_error (seq 0 n) i = Some i).
  { rewrite (nth_error_nth' _ 0) by (rewrite seq_length; exact Hi). now rewrite seq_nth. }
  destruct (Forall2_nth _ _ _ H i i E) as (y & Ey & P). congruence.
Qed.
Lemma window_Forall2 : forall {A B} (P : A -> B -> Prop) l r start step n x y, Forall2 P l r -> Window l start step n x -> Window r start step n y -> Forall2 P x y.
Proof.
  intros A B P l r start step n x y F Hx. unfold Window in *. revert y. induction Hx as [|i a s x Ha Hx IH]; intros y Hy; inversion Hy; subst; constructor.
  - destruct (Forall2_nth _ _ _ F _ _ Ha) as (b & Eb & Pb). congruence.
  - apply IH. assumption.
Qed.
Lemma window_map : forall {A B} (g : A -> B) l start step n x, Window l start step n x -> Window (map g l) start step n (map g x).
Proof. intros A B g l start step n x H. unfold Window in *. induction H; cbn [map]; constructor; [|assumption]. rewrite nth_error_map. rewrite H. reflexivity. Qed.
Lemma window_Forall : forall {A} (P : A -> Prop) l start step n x, Forall P l -> Window l start step n x -> Forall P x.
Proof. intros A P l start step n x F H. unfold Window in H. rewrite Forall_forall in F. induction H; constructor; [|assumption]. eapply F, nth_error_In. eassumption. Qed.
Lemma sampled_window : forall {A} L d s (frames : list A) samples k x, Sampled L d s frames samples ->
  k * s + (L - 1) * (d + 1) < length frames -> Window frames (k * s) (d + 1) L x -> nth_error samples k = Some x.
Proof. intros A L d s frames samples k x H Hk W. apply H. split; [exact Hk|exact W]. Qed.

Lemma q_tum_frames : forall rnd o c w dir name assoc stamps fs r k W H colors depths,
  0 < w_len w -> 0 < w_stride w -> length stamps = length assoc ->
  Forall2 (tum_frame dir name (c_pose c || c_trans c)) assoc fs ->
  tum_sequence w dir name (c_pose c || c_trans c) assoc stamps = Ok r ->
  linear_ok o -> nearest_ok o -> 0 < c_width c -> 0 < c_height c -> 0 < W -> 0 < H ->
  color_files o W H (map (fun f => fst (fst (fst f))) fs) colors -> depth_files o W H (map (fun f => snd (fst (fst f))) fs) depths ->
  (loads c -> Forall (fun f => quat_line (snd (fst f))) fs) ->
  k * w_stride w + (w_len w - 1) * (w_dil w + 1) < length fs ->
  exists it poses, tum_item rnd o c (w_len w) r (Z.of_nat k) = Ok (documented c it) /\ shapes c (w_len w) it /\
    (loads c -> Forall2 (fun f m => quat_pose (snd (fst f)) m) fs poses) /\
    forall f n, f < w_len w -> n = k * w_stride w + f * (w_dil w + 1) ->
      (forall x, nth_error colors n = Some x -> exists y, cv_linear o (c_width c) (c_height c) x = Ok y /\
         forall i j ch, pixel c (p_color it) f i j ch = (if c_norm c then rnd (at_ y [ch; j; i] / 255)%R else at_ y [ch; j; i])) /\
      (c_depth c = true -> forall x, nth_error depths n = Some x -> exists y, cv_nearest o (c_width c) (c_height c) x = Ok y /\
         forall i j, pixel c (p_depth it) f i j 0 = (at_ y [j; i] / 5000)%R) /\
      (c_pose c = true -> meq 4 4 (mmul 4 (nth (k * w_stride w) poses mI) (ent (p_pose it) [f])) (nth n poses mI)) /\
      (c_trans c = true -> meq 4 4 (ent (p_trans it) [0]) mI /\
         (S f < w_len w -> meq 4 4 (mmul 4 (nth n poses mI) (ent (p_trans it) [S f])) (nth (n + (w_dil w + 1)) poses mI))).
Proof.
  intros rnd o c w dir name assoc stamps fs r k W H colors depths HL HS Lst FA ER Lo No cw ch HW HH HC HD HQ Hk.
  destruct (q_tum w dir name _ assoc stamps fs HL HS Lst FA) as (r' & nm & E' & S1 & S2 & S3 & S4 & Enm & S5).
  assert (r' = r) by congruence. subst r'. clear E'.
  set (st := k * w_stride w) in *. set (d := w_dil w + 1) in *. set (L := w_len w) in *.
  assert (Lf : length assoc = length fs) by (eapply Forall2_len; exact FA).
  assert (Lc : length fs = length colors) by (rewrite <- (map_length (fun f => fst (fst (fst f))) fs); eapply Forall2_len; exact HC).
  assert (Ld : length fs = length depths) by (rewrite <- (map_length (fun f => snd (fst (fst f))) fs); eapply Forall2_len; exact HD).
  destruct (window_ex fs st d L HL Hk) as (wf & Wf).
  destruct (window_ex stamps st d L HL ltac:(congruence)) as (ws & Ws).
  destruct (window_ex colors st d L HL ltac:(congruence)) as (wc & Wc).
  destruct (window_ex depths st d L HL ltac:(congruence)) as (wd & Wd).
  pose proof (window_map (fun f => fst (fst (fst f))) _ _ _ _ _ Wf) as Wcp.
  pose proof (window_map (fun f => snd (fst (fst f))) _ _ _ _ _ Wf) as Wdp.
  pose proof (window_map (fun f => snd (fst f)) _ _ _ _ _ Wf) as Wpq.
  pose proof (window_map snd _ _ _ _ _ Wf) as Wnm.
  assert (Hmap : forall {B} (g : text * text * list R * text -> B), st + (L - 1) * d < length (map g fs)) by (intros; rewrite map_length; exact Hk).
  pose proof (sampled_window _ _ _ _ _ k _ S1 (Hmap _ _) Wcp) as N1.
  pose proof (sampled_window _ _ _ _ _ k _ S2 (Hmap _ _) Wdp) as N2.
  pose proof (sampled_window _ _ _ _ _ k _ S4 (Hmap _ _) Wnm) as N4.
  assert (N3 : nth_error (t_stamps r) k = Some ws) by (apply (sampled_window _ _ _ _ _ k _ S3); [rewrite Lst, Lf; exact Hk|exact Ws]).
  assert (Lwf : length wf = L) by apply (window_nth _ _ _ _ _ Wf).
  assert (RD : images_readable o c W H (map (fun f => fst (fst (fst f))) wf) (map (fun f => snd (fst (fst f))) wf) wc wd).
  { split; [exact Lo|]. split; [exact No|]. do 4 (split; [assumption|]). split; [destruct wf; [cbn in Lwf; lia|discriminate]|].
    split; [exact (window_Forall2 _ _ _ _ _ _ _ _ HC Wcp Wc)|]. intros _. split; [rewrite !map_length; reflexivity|]. exact (window_Forall2 _ _ _ _ _ _ _ _ HD Wdp Wd). }
  destruct (tum_item_ok rnd o c r k _ _ (join (txt ", ") (map snd wf)) ws (map (fun f => snd (fst f)) wf) W H wc wd RD N1 N2) as (it & ms & lines & Ei & Sh & _ & _ & _ & Co & De & _ & Po & (M1 & M2 & _)).
  { rewrite Enm, nth_error_map, N4. reflexivity. }
  { exact N3. }
  { intros K. pose proof K as K'. apply loads_or in K'. rewrite K' in S5. split; [|split].
    - apply (sampled_window _ _ _ _ _ k _ S5 (Hmap _ _) Wpq).
    - rewrite !map_length. reflexivity.
    - eapply window_Forall; [|exact Wpq]. specialize (HQ K). clear - HQ. induction HQ; cbn [map]; constructor; assumption. }
  rewrite map_length, Lwf in Ei, Sh.
  assert (EP : exists poses, loads c -> Forall2 (fun f m => quat_pose (snd (fst f)) m) fs poses /\ Window poses st d L ms).
  { destruct (c_pose c || c_trans c) eqn:Q.
    - apply loads_or in Q.
      destruct (homogen_ok (map (fun f => snd (fst f)) fs)) as (all & Eall & Fall); [specialize (HQ Q); clear - HQ; induction HQ; cbn [map]; constructor; assumption|].
      assert (Fm : Forall2 quat_pose (map (fun f => snd (fst f)) wf) ms) by (apply Po, Q).
      (* replace the poses of the window by those of the item *)
      assert (Ln : length (map (fun f => snd (fst f)) fs) = length all) by (eapply Forall2_len; exact Fall).
      assert (Sd : 0 < d) by (unfold d; lia).
      destruct (window_nth _ _ _ _ _ Wf) as (_ & Wf').
      assert (Lm : length ms = L) by (rewrite <- (Forall2_len _ _ _ Fm), map_length; exact Lwf).
      exists (map (fun n => if (st <=? n) && ((n - st) mod d =? 0) && ((n - st) / d <? L) then nth ((n - st) / d) ms mI else nth n all mI) (seq 0 (length fs))).
      intros _. split.
      + apply Forall2_nth_intro with (n := length fs); [reflexivity|rewrite map_length, seq_length; reflexivity|].
        intros i f m Ef Em. rewrite nth_error_map in Em.
        assert (Hi : i < length fs) by (apply nth_error_Some; congruence).
        rewrite (nth_error_nth' _ 0) in Em by (rewrite seq_length; exact Hi). rewrite seq_nth in Em by exact Hi. cbn [option_map Nat.add] in Em. injection Em as <-.
        destruct ((st <=? i) && ((i - st) mod d =? 0) && ((i - st) / d <? L)) eqn:C.
        * apply andb_prop in C. destruct C as [C C3]. apply andb_prop in C. destruct C as [C1 C2].
          apply Nat.leb_le in C1. apply Nat.eqb_eq in C2. apply Nat.ltb_lt in C3.
          assert (Eq : i = st + ((i - st) / d) * d).
          { pose proof (Nat.div_mod (i - st) d ltac:(lia)). lia. }
          set (a := (i - st) / d) in *. pose proof (Wf' a C3) as Ea. rewrite <- Eq, Ef in Ea.
          assert (Ea' : nth_error (map (fun f => snd (fst f)) wf) a = Some (snd (fst f))) by (rewrite nth_error_map, Ea; reflexivity).
          destruct (Forall2_nth _ _ _ Fm a _ Ea') as (m & Em & Pm). rewrite (nth_error_nth _ _ _ Em). exact Pm.
        * assert (Ea' : nth_error (map (fun f => snd (fst f)) fs) i = Some (snd (fst f))) by (rewrite nth_error_map, Ef; reflexivity).
          destruct (Forall2_nth _ _ _ Fall i _ Ea') as (m & Em & Pm). rewrite (nth_error_nth _ _ _ Em). exact Pm.
      + unfold Window. apply Forall2_nth_intro with (n := L); [now rewrite seq_length|exact Lm|].
        intros i j m Ej Em. assert (Hi : i < L) by (rewrite <- Lm; apply nth_error_Some; congruence).
        rewrite (nth_error_nth' _ 0) in Ej by (rewrite seq_length; exact Hi). rewrite seq_nth in Ej by exact Hi. cbn in Ej. injection Ej as <-.
        rewrite nth_error_map. assert (Hb : st + i * d < length fs) by (assert (i * d <= (L - 1) * d) by (apply Nat.mul_le_mono_r; lia); lia).
        rewrite (nth_error_nth' _ 0) by (rewrite seq_length; exact Hb). rewrite seq_nth by exact Hb. cbn [option_map Nat.add].
        replace (st + i * d - st) with (i * d) by lia. rewrite Nat.div_mul by lia. rewrite Nat.mod_mul by lia.
        replace (st <=? st + i * d) with true by (symmetry; apply Nat.leb_le; lia). replace (i <? L) with true by (symmetry; apply Nat.ltb_lt; exact Hi). cbn [andb Nat.eqb].
        f_equal. now apply nth_error_nth.
    - exists []. intros K. apply loads_or in K. congruence. }
  destruct EP as (poses & EP). exists it, poses. split; [exact Ei|]. split; [exact Sh|]. split; [intros K; apply EP, K|].
  intros f n Hf ->.
  destruct (window_nth _ _ _ _ _ Wc) as (_ & Wc'). destruct (window_nth _ _ _ _ _ Wd) as (_ & Wd').
  split; [|split; [|split]].
  - intros x Ex. apply Co. rewrite Wc' by exact Hf. exact Ex.
  - intros K x Ex. destruct (De K) as (_ & De'). apply De'. rewrite Wd' by exact Hf. exact Ex.
  - intros K. destruct (EP (or_introl K)) as (_ & Wp). destruct (window_nth _ _ _ _ _ Wp) as (Lm & Wp').
    destruct (M1 K) as (_ & _ & P). 
    destruct (nth_error ms f) as [m|] eqn:Em; [|apply nth_error_None in Em; lia]. destruct (P f m Em) as (_ & Pf & _).
    rewrite (Wp' f Hf) in Em. rewrite (nth_error_nth _ _ mI Em).
    assert (E0 : nth_error ms 0 = nth_error poses (st + 0 * d)) by (apply Wp'; lia). rewrite Nat.add_0_r in E0.
    destruct ms as [|m0 ms]; [cbn in Lm; lia|]. cbn in E0. symmetry in E0. rewrite (nth_error_nth _ _ mI E0). exact Pf.
  - intros K. destruct (EP (or_intror K)) as (_ & Wp). destruct (window_nth _ _ _ _ _ Wp) as (Lm & Wp').
    destruct (M2 K) as (_ & T0 & T). split; [exact T0|]. intros Hf'.
    destruct (nth_error ms f) as [m|] eqn:Em; [|apply nth_error_None in Em; lia].
    destruct (nth_error ms (S f)) as [m'|] eqn:Em'; [|apply nth_error_None in Em'; lia].
    pose proof (T f m m' Em Em') as Tf. rewrite (Wp' f Hf) in Em. rewrite (Wp' (S f) Hf') in Em'. rewrite (nth_error_nth _ _ mI Em).
    replace (st + S f * d) with (st + f * d + d) in Em' by (cbn; lia). rewrite (nth_error_nth _ _ mI Em'). exact Tf.
Qed.

(* ---------------- C71 *)
Lemma q_tum_item : forall rnd o c d i cp dp nm st pq W H xs ys,
  images_readable o c W H cp dp xs ys ->
  nth_error (t_color d) i = Some cp -> nth_error (t_depth d) i = Some dp -> nth_error (t_names d) i = Some nm -> nth_error (t_stamps d) i = Some st ->
  (loads c -> nth_error (t_poses d) i = Some pq /\ length pq = length cp /\ Forall quat_line pq) ->
  exists it lines, tum_item rnd o c (length cp) d (Z.of_nat i) = Ok (documented c it) /\
    shapes c (length cp) it /\ p_names it = nm /\ p_last it = OText (join [newline] lines) /\ Forall2 Stamp st lines.
Proof.
  intros. edestruct (tum_item_ok rnd o c d i cp dp nm st pq W H xs ys) as (it & ms & lines & A1 & A2 & A3 & A4 & A5 & _); eauto. exists it, lines. auto.
Qed.
Lemma q_icl_item : forall rnd value o c d i cp dp nm file f lines ls rows W H xs ys,
  images_readable o c W H cp dp xs ys -> c_last c = false ->
  nth_error (i_color d) i = Some cp -> nth_error (i_depth d) i = Some dp -> nth_error (i_names d) i = Some nm ->
  (loads c -> nth_error (i_poses d) i = Some (file, ls) /\ length ls = length cp /\ rd_text o file = Ok f /\ FileLines f lines /\ Spaced ls /\
     Forall2 (PoseAt value lines) ls rows /\ Forall (fun r => exists m, rows_pose r m /\ det3 (rot_of m) <> 0%R) rows) ->
  exists it, icl_item rnd value o c (length cp) d (Z.of_nat i) = Ok (documented c it) /\ shapes c (length cp) it /\ p_names it = nm.
Proof.
  intros rnd value o c d i cp dp nm file f lines ls rows W H xs ys R Cl E1 E2 E3 HP.
  assert (N : cp <> []) by apply R.
  edestruct (icl_item_ok rnd value o c d i cp dp nm file f ls rows W H xs ys R E1 E2 E3 Cl) as (it & A1 & A2 & A3 & _).
  { intros K. destruct (HP K) as (B1 & B2 & B3 & B4 & B5 & B6 & B7). split; [exact B1|]. split; [exact B3|]. split; [eapply q_load_poses; eassumption|].
    assert (Lr : length ls = length rows) by (eapply Forall2_len; exact B6).
    split; [destruct cp; [contradiction|]; destruct rows; [cbn in *; congruence|discriminate]|].
    clear - B6 B7. induction B6 as [|s r ls rows P _ IH]; [constructor|]. inversion B7 as [|? ? (m & Hm & Dm) B7' Eq1]; subst. constructor; [|auto].
    destruct (poseat_rows _ _ _ _ P) as (A & U). split; [exact A|]. rewrite <- (det3_ext m); [exact Dm|]. intros a b Ha Hb. apply (U m Hm); lia. }
  exists it. split; [exact A1|]. split; [|exact A3]. destruct A2 as (S1 & S2 & S3 & S4 & S5). split; [exact S1|]. split; [exact S2|]. split; [exact S3|].
  split; intros K; [rewrite (S4 K)|rewrite (S5 K)]; f_equal.
  - destruct (HP (or_introl K)) as (_ & B2 & _ & _ & _ & B6 & _). rewrite <- B2. symmetry. eapply Forall2_len; exact B6.
  - destruct (HP (or_intror K)) as (_ & B2 & _ & _ & _ & B6 & _). rewrite <- B2. symmetry. eapply Forall2_len; exact B6.
Qed.
Lemma q_scan_item : forall rnd o c s20 d i fs ip nm W H WL HL xs ys ps ls K fx fy cx cy,
  images_readable o c W H (map sf_color fs) (map sf_depth fs) xs ys ->
  nth_error (sd_frames d) i = Some fs -> nth_error (sd_intr d) i = Some ip -> nth_error (sd_names d) i = Some nm -> sd_seqlen d = Z.of_nat (length fs) ->
  (loads c -> Forall2 (fun f p => rd_matrix o (sf_pose f) = Ok p /\ dims p = [4; 4] /\ pose_ok (ent p [])) fs ps) ->
  (c_intr c = true -> rd_matrix o ip = Ok K /\ dims K = [4; 4] /\ meq 4 4 (ent K []) (pinhole fx fy cx cy 0)) ->
  (c_last c = true -> labels_ok o /\ 0 < WL /\ 0 < HL /\ label_files o WL HL (map sf_label fs) ls) ->
  exists it labels, scan_item rnd o c s20 d (Z.of_nat i) = Ok (documented c it) /\
    shapes c (length fs) it /\ p_names it = nm /\ p_last it = OTen labels /\ (c_last c = true -> label_out o c s20 class20 ls labels).
Proof.
  intros. edestruct (scan_item_ok rnd o c s20 d i fs ip nm W H WL HL xs ys ps ls K fx fy cx cy) as (it & lb & A1 & A2 & A3 & A4 & A5 & _); eauto. exists it, lb. auto 6.
Qed.
Lemma r_label_shape : forall o c s20 to20 xs t, label_out o c s20 to20 xs t -> shape t <> [length xs; c_height c; c_width c].
Proof. intros o c s20 to20 xs t (E & _). rewrite E. discriminate. Qed.
Lemma pyitem_out : forall {A} (l : list A) idx, (Z.of_nat (length l) <= idx \/ idx < - Z.of_nat (length l))%Z -> pyitem l idx = Err IndexError.
Proof.
  intros A l idx H. unfold pyitem. cbv zeta. destruct (Z.ltb_spec idx 0).
  - replace (idx + Z.of_nat (length l) <? 0)%Z with true by (symmetry; apply Z.ltb_lt; lia). reflexivity.
  - replace (idx <? 0)%Z with false by (symmetry; apply Z.ltb_ge; lia). unfold item.
    replace (nth_error l (Z.to_nat idx)) with (@None A); [reflexivity|]. symmetry. apply nth_error_None. lia.
Qed.
Lemma q_index_error : forall rnd value o c L s20 dt di ds idx,
  ((Z.of_nat (length (t_color dt)) <= idx \/ idx < - Z.of_nat (length (t_color dt)))%Z -> tum_item rnd o c L dt idx = Err IndexError) /\
  ((Z.of_nat (length (i_color di)) <= idx \/ idx < - Z.of_nat (length (i_color di)))%Z -> icl_item rnd value o c L di idx = Err IndexError) /\
  ((Z.of_nat (length (sd_frames ds)) <= idx \/ idx < - Z.of_nat (length (sd_frames ds)))%Z -> scan_item rnd o c s20 ds idx = Err IndexError).
Proof.
  intros. split; [|split]; intros H; [unfold tum_item|unfold icl_item|unfold scan_item]; cbv zeta; rewrite (pyitem_out _ _ H); reflexivity.
Qed.
Lemma pyitem_neg : forall {A} (l : list A) n k, length l = n -> 0 < k <= n -> pyitem l (- Z.of_nat k) = pyitem l (Z.of_nat (n - k)).
Proof.
  intros A l n k L H. unfold pyitem. cbv zeta. rewrite L.
  replace (- Z.of_nat k <? 0)%Z with true by (symmetry; apply Z.ltb_lt; lia). replace (Z.of_nat (n - k) <? 0)%Z with false by (symmetry; apply Z.ltb_ge; lia).
  replace (- Z.of_nat k + Z.of_nat n)%Z with (Z.of_nat (n - k)) by lia. replace (Z.of_nat (n - k) <? 0)%Z with false by (symmetry; apply Z.ltb_ge; lia). reflexivity.
Qed.
Lemma q_negative_index : forall rnd value o c L s20 dt di ds n k, 0 < k <= n ->
  (length (t_color dt) = n -> length (t_depth dt) = n -> length (t_names dt) = n -> length (t_stamps dt) = n -> (loads c -> length (t_poses dt) = n) ->
     tum_item rnd o c L dt (- Z.of_nat k) = tum_item rnd o c L dt (Z.of_nat (n - k))) /\
  (length (i_color di) = n -> length (i_depth di) = n -> length (i_names di) = n -> (loads c -> length (i_poses di) = n) ->
     icl_item rnd value o c L di (- Z.of_nat k) = icl_item rnd value o c L di (Z.of_nat (n - k))) /\
  (length (sd_frames ds) = n -> length (sd_intr ds) = n -> length (sd_names ds) = n ->
     scan_item rnd o c s20 ds (- Z.of_nat k) = scan_item rnd o c s20 ds (Z.of_nat (n - k))).
Proof.
  intros rnd value o c L s20 dt di ds n k Hk. split; [|split].
  - intros L1 L2 L3 L4 L5. unfold tum_item. cbv zeta. rewrite (pyitem_neg _ n k L1 Hk), (pyitem_neg _ n k L2 Hk), (pyitem_neg _ n k L3 Hk), (pyitem_neg _ n k L4 Hk).
    destruct (c_pose c || c_trans c) eqn:Q; [|reflexivity]. apply loads_or in Q. rewrite (pyitem_neg _ n k (L5 Q) Hk). reflexivity.
  - intros L1 L2 L3 L5. unfold icl_item. cbv zeta. rewrite (pyitem_neg _ n k L1 Hk), (pyitem_neg _ n k L2 Hk), (pyitem_neg _ n k L3 Hk).
    destruct (c_pose c || c_trans c) eqn:Q; [|reflexivity]. apply loads_or in Q. rewrite (pyitem_neg _ n k (L5 Q) Hk). reflexivity.
  - intros L1 L2 L3. unfold scan_item. cbv zeta. rewrite (pyitem_neg _ n k L1 Hk), (pyitem_neg _ n k L2 Hk), (pyitem_neg _ n k L3 Hk). reflexivity.
Qed.

(* ---------------- C72 *)
Lemma q_tum_motion : forall rnd o c d i cp dp nm st pq W H xs ys,
  images_readable o c W H cp dp xs ys ->
  nth_error (t_color d) i = Some cp -> nth_error (t_depth d) i = Some dp -> nth_error (t_names d) i = Some nm -> nth_error (t_stamps d) i = Some st ->
  loads c -> nth_error (t_poses d) i = Some pq -> length pq = length cp -> Forall quat_line pq ->
  exists it ms, tum_item rnd o c (length cp) d (Z.of_nat i) = Ok (documented c it) /\ Forall2 quat_pose pq ms /\ motion c ms it.
Proof.
  intros rnd o c d i cp dp nm st pq W H xs ys R E1 E2 E3 E4 K E5 E6 E7.
  edestruct (tum_item_ok rnd o c d i cp dp nm st pq W H xs ys) as (it & ms & lines & A1 & A2 & A3 & A4 & A5 & A6 & A7 & A8 & A9 & A10); eauto. exists it, ms. auto.
Qed.
Lemma q_icl_motion : forall rnd value o c d i cp dp nm file f lines ls rows W H xs ys,
  images_readable o c W H cp dp xs ys -> c_last c = false ->
  nth_error (i_color d) i = Some cp -> nth_error (i_depth d) i = Some dp -> nth_error (i_names d) i = Some nm ->
  loads c -> nth_error (i_poses d) i = Some (file, ls) -> length ls = length cp -> rd_text o file = Ok f -> FileLines f lines -> Spaced ls ->
  Forall2 (PoseAt value lines) ls rows -> Forall (fun r => exists m, rows_pose r m /\ det3 (rot_of m) <> 0%R) rows ->
  exists it ms, icl_item rnd value o c (length cp) d (Z.of_nat i) = Ok (documented c it) /\ Forall2 rows_pose rows ms /\ motion c ms it.
Proof.
  intros rnd value o c d i cp dp nm file f lines ls rows W H xs ys R Cl E1 E2 E3 K B1 B2 B3 B4 B5 B6 B7.
  assert (N : cp <> []) by apply R.
  edestruct (icl_item_ok rnd value o c d i cp dp nm file f ls rows W H xs ys R E1 E2 E3 Cl) as (it & A1 & A2 & A3 & A4 & A5 & A6 & A7).
  { intros _. split; [exact B1|]. split; [exact B3|]. split; [eapply q_load_poses; eassumption|].
    assert (Lr : length ls = length rows) by (eapply Forall2_len; exact B6).
    split; [destruct cp; [contradiction|]; destruct rows; [cbn in *; congruence|discriminate]|].
    clear - B6 B7. induction B6 as [|s r ls rows P _ IH]; [constructor|]. inversion B7 as [|? ? (m & Hm & Dm) B7' Eq1]; subst. constructor; [|auto].
    destruct (poseat_rows _ _ _ _ P) as (A & U). split; [exact A|]. rewrite <- (det3_ext m); [exact Dm|]. intros a b Ha Hb. apply (U m Hm); lia. }
  exists it, (map rows_mat rows). split; [exact A1|]. split; [|exact A7]. clear. induction rows; cbn [map]; constructor; [apply rows_mat_pose|assumption].
Qed.
Lemma q_scan_motion : forall rnd o c s20 d i fs ip nm W H WL HL xs ys ps ls K fx fy cx cy,
  images_readable o c W H (map sf_color fs) (map sf_depth fs) xs ys ->
  nth_error (sd_frames d) i = Some fs -> nth_error (sd_intr d) i = Some ip -> nth_error (sd_names d) i = Some nm -> sd_seqlen d = Z.of_nat (length fs) ->
  (loads c -> Forall2 (fun f p => rd_matrix o (sf_pose f) = Ok p /\ dims p = [4; 4] /\ pose_ok (ent p [])) fs ps) ->
  (c_intr c = true -> rd_matrix o ip = Ok K /\ dims K = [4; 4] /\ meq 4 4 (ent K []) (pinhole fx fy cx cy 0)) ->
  (c_last c = true -> labels_ok o /\ 0 < WL /\ 0 < HL /\ label_files o WL HL (map sf_label fs) ls) ->
  exists it, scan_item rnd o c s20 d (Z.of_nat i) = Ok (documented c it) /\ motion c (map (fun p => ent p []) ps) it.
Proof.
  intros. edestruct (scan_item_ok rnd o c s20 d i fs ip nm W H WL HL xs ys ps ls K fx fy cx cy) as (it & lb & A1 & A2 & A3 & A4 & A5 & A6 & A7 & A8 & A9); eauto.
Qed.
Lemma load_loop_same : forall value l1 l2 lines i pose, (forall s, i <= s < i + length lines -> (In s l1 <-> In s l2)) ->
  load_loop value l1 i lines pose = load_loop value l2 i lines pose.
Proof.
  intros value l1 l2. induction lines as [|x lines IH]; intros i pose H; [reflexivity|]. cbn [load_loop]. fold (in_starts i l1). fold (in_starts i l2).
  assert (E : in_starts i l1 = in_starts i l2).
  { apply eq_true_iff_eq. rewrite !in_starts_spec. apply H. cbn. lia. }
  rewrite E. assert (G : forall q, load_loop value l1 (S i) lines q = load_loop value l2 (S i) lines q) by (intros q; apply IH; intros s Hs; apply H; cbn; lia).
  rewrite !G. reflexivity.
Qed.
(* a pose file that is too short: the item has fewer poses than frames *)
Lemma r_icl_fewer_poses : forall rnd value o c d i cp dp nm file f lines ls sorted rows W H xs ys,
  images_readable o c W H cp dp xs ys -> c_last c = false -> c_pose c = true ->
  nth_error (i_color d) i = Some cp -> nth_error (i_depth d) i = Some dp -> nth_error (i_names d) i = Some nm ->
  nth_error (i_poses d) i = Some (file, ls) -> rd_text o file = Ok f -> FileLines f lines ->
  (forall s, s < length lines -> (In s ls <-> In s sorted)) ->
  Spaced sorted -> sorted <> [] -> length sorted < length cp -> Forall2 (PoseAt value lines) sorted rows ->
  Forall (fun r => exists m, rows_pose r m /\ det3 (rot_of m) <> 0%R) rows ->
  exists it, icl_item rnd value o c (length cp) d (Z.of_nat i) = Ok (documented c it) /\
    shape (p_color it) = image_shape c (length cp) 3 /\ shape (p_pose it) = [length sorted; 4; 4] /\ length sorted <> length cp.
Proof.
  intros rnd value o c d i cp dp nm file f lines ls sorted rows W H xs ys R Cl Cp E1 E2 E3 B1 B3 B4 Q0 B5 NS LT B6 B7.
  assert (Q : load_poses value f ls = load_poses value f sorted) by (unfold load_poses; rewrite (filelines_eq _ _ B4); apply load_loop_same; intros s Hs; apply Q0; lia).
  assert (Lr : length sorted = length rows) by (eapply Forall2_len; exact B6).
  edestruct (icl_item_ok rnd value o c d i cp dp nm file f ls rows W H xs ys R E1 E2 E3 Cl) as (it & A1 & A2 & A3 & A4 & A5 & A6 & A7).
  { intros _. split; [exact B1|]. split; [exact B3|]. split; [rewrite Q; eapply q_load_poses; eassumption|].
    split; [destruct sorted; [contradiction|]; destruct rows; discriminate|].
    clear - B6 B7. induction B6 as [|s r ls rows P _ IH]; [constructor|]. inversion B7 as [|? ? (m & Hm & Dm) B7' Eq1]; subst. constructor; [|auto].
    destruct (poseat_rows _ _ _ _ P) as (A & U). split; [exact A|]. rewrite <- (det3_ext m); [exact Dm|]. intros a b Ha Hb. apply (U m Hm); lia. }
  exists it. split; [exact A1|]. destruct A2 as (S1 & _ & _ & S4 & _). split; [exact S1|]. split; [rewrite (S4 Cp), Lr; reflexivity|lia].
Qed.

(* ---------------- C73 *)
Lemma q_tum_images : forall rnd o c d i cp dp nm st pq W H xs ys,
  images_readable o c W H cp dp xs ys ->
  nth_error (t_color d) i = Some cp -> nth_error (t_depth d) i = Some dp -> nth_error (t_names d) i = Some nm -> nth_error (t_stamps d) i = Some st ->
  (loads c -> nth_error (t_poses d) i = Some pq /\ length pq = length cp /\ Forall quat_line pq) ->
  exists it, tum_item rnd o c (length cp) d (Z.of_nat i) = Ok (documented c it) /\
    color_out rnd o c xs (p_color it) /\ (c_depth c = true -> depth_out o c 5000 ys (p_depth it)) /\
    camera (525 * (INR (c_width c) / 640)) (525 * (INR (c_height c) / 480)) (639 / 2 * (INR (c_width c) / 640)) (479 / 2 * (INR (c_height c) / 480)) (p_intr it).
Proof.
  intros. edestruct (tum_item_ok rnd o c d i cp dp nm st pq W H xs ys) as (it & ms & lines & A1 & A2 & A3 & A4 & A5 & A6 & A7 & A8 & _); eauto.
Qed.
Lemma q_icl_images : forall rnd value o c d i cp dp nm file f lines ls rows W H xs ys,
  images_readable o c W H cp dp xs ys -> c_last c = false ->
  nth_error (i_color d) i = Some cp -> nth_error (i_depth d) i = Some dp -> nth_error (i_names d) i = Some nm ->
  (loads c -> nth_error (i_poses d) i = Some (file, ls) /\ length ls = length cp /\ rd_text o file = Ok f /\ FileLines f lines /\ Spaced ls /\
     Forall2 (PoseAt value lines) ls rows /\ Forall (fun r => exists m, rows_pose r m /\ det3 (rot_of m) <> 0%R) rows) ->
  exists it, icl_item rnd value o c (length cp) d (Z.of_nat i) = Ok (documented c it) /\
    color_out rnd o c xs (p_color it) /\ (c_depth c = true -> depth_out o c 5000 ys (p_depth it)) /\
    camera (4812 / 10 * (INR (c_width c) / 640)) (- 480 * (INR (c_height c) / 480)) (639 / 2 * (INR (c_width c) / 640)) (479 / 2 * (INR (c_height c) / 480)) (p_intr it).
Proof.
  intros rnd value o c d i cp dp nm file f lines ls rows W H xs ys R Cl E1 E2 E3 HP.
  assert (N : cp <> []) by apply R.
  edestruct (icl_item_ok rnd value o c d i cp dp nm file f ls rows W H xs ys R E1 E2 E3 Cl) as (it & A1 & A2 & A3 & A4 & A5 & A6 & A7).
  { intros K. destruct (HP K) as (B1 & B2 & B3 & B4 & B5 & B6 & B7). split; [exact B1|]. split; [exact B3|]. split; [eapply q_load_poses; eassumption|].
    assert (Lr : length ls = length rows) by (eapply Forall2_len; exact B6).
    split; [destruct cp; [contradiction|]; destruct rows; [cbn in *; congruence|discriminate]|].
    clear - B6 B7. induction B6 as [|s r ls rows P _ IH]; [constructor|]. inversion B7 as [|? ? (m & Hm & Dm) B7' Eq1]; subst. constructor; [|auto].
    destruct (poseat_rows _ _ _ _ P) as (A & U). split; [exact A|]. rewrite <- (det3_ext m); [exact Dm|]. intros a b Ha Hb. apply (U m Hm); lia. }
  exists it. auto.
Qed.
Lemma q_scan_images : forall rnd o c s20 d i fs ip nm W H WL HL xs ys ps ls K fx fy cx cy,
  images_readable o c W H (map sf_color fs) (map sf_depth fs) xs ys ->
  nth_error (sd_frames d) i = Some fs -> nth_error (sd_intr d) i = Some ip -> nth_error (sd_names d) i = Some nm -> sd_seqlen d = Z.of_nat (length fs) ->
  (loads c -> Forall2 (fun f p => rd_matrix o (sf_pose f) = Ok p /\ dims p = [4; 4] /\ pose_ok (ent p [])) fs ps) ->
  (c_intr c = true -> rd_matrix o ip = Ok K /\ dims K = [4; 4] /\ meq 4 4 (ent K []) (pinhole fx fy cx cy 0)) ->
  (c_last c = true -> labels_ok o /\ 0 < WL /\ 0 < HL /\ label_files o WL HL (map sf_label fs) ls) ->
  exists it, scan_item rnd o c s20 d (Z.of_nat i) = Ok (documented c it) /\
    color_out rnd o c xs (p_color it) /\ (c_depth c = true -> depth_out o c 1000 ys (p_depth it)) /\
    (c_intr c = true -> camera (fx * (INR (c_width c) / 640)) (fy * (INR (c_height c) / 480)) (cx * (INR (c_width c) / 640)) (cy * (INR (c_height c) / 480)) (p_intr it)).
Proof.
  intros. edestruct (scan_item_ok rnd o c s20 d i fs ip nm W H WL HL xs ys ps ls K fx fy cx cy) as (it & lb & A1 & A2 & A3 & A4 & A5 & A6 & A7 & A8 & A9); eauto.
Qed.
Lemma q_native : forall rnd o c sc xs ys t u, linear_ok o -> nearest_ok o -> 0 < c_width c -> 0 < c_height c ->
  Forall (fun x => dims x = [3; c_width c; c_height c]) xs -> Forall (fun x => dims x = [c_width c; c_height c]) ys ->
  color_out rnd o c xs t -> depth_out o c sc ys u ->
  forall f i j, i < c_height c -> j < c_width c ->
    (forall x k, nth_error xs f = Some x -> k < 3 -> pixel c t f i j k = (if c_norm c then rnd (at_ x [k; j; i] / 255)%R else at_ x [k; j; i])) /\
    (forall y, nth_error ys f = Some y -> pixel c u f i j 0 = (at_ y [j; i] / sc)%R).
Proof.
  intros rnd o c sc xs ys t u Lo No w h DX DY (_ & T) (_ & U) f i j Hi Hj. rewrite Forall_forall in DX, DY. split.
  - intros x k Ex Hk. destruct (T f x Ex) as (r & Er & Pr). rewrite Pr.
    destruct (Lo _ _ x _ _ 3 w h w h (DX x (nth_error_In _ _ Ex))) as (r' & Er' & Dr & _ & Q). assert (r' = r) by congruence. subst r'.
    destruct (Q eq_refl eq_refl) as (_ & Q'). rewrite Q'; [reflexivity|]. rewrite Dr. cbn. lia.
  - intros y Ey. destruct (U f y Ey) as (r & Er & Pr). rewrite Pr.
    destruct (No _ _ y _ _ w h w h (DY y (nth_error_In _ _ Ey))) as (r' & Er' & Dr & _ & Q). assert (r' = r) by congruence. subst r'.
    destruct (Q eq_refl eq_refl) as (_ & Q'). rewrite Q'; [reflexivity|]. rewrite Dr. cbn. lia.
Qed.
Lemma q_depth_values : forall o c sc W H ys u, nearest_ok o -> 0 < c_width c -> 0 < c_height c -> 0 < W -> 0 < H -> (0 < sc)%R ->
  Forall (fun x => dims x = [W; H]) ys -> depth_out o c sc ys u ->
  forall f y i j, nth_error ys f = Some y -> i < c_height c -> j < c_width c ->
    exists i' j', i' < H /\ j' < W /\ pixel c u f i j 0 = (at_ y [j'; i'] / sc)%R /\
      ((pixel c u f i j 0 = 0)%R <-> at_ y [j'; i'] = 0%R) /\ ((0 < pixel c u f i j 0)%R <-> (0 < at_ y [j'; i'])%R).
Proof.
  intros o c sc W H ys u No w h HW HH Hs DY (_ & U) f y i j Ey Hi Hj. rewrite Forall_forall in DY.
  destruct (U f y Ey) as (r & Er & Pr). destruct (No _ _ y _ _ w h HW HH (DY y (nth_error_In _ _ Ey))) as (r' & Er' & _ & Q & _). assert (r' = r) by congruence. subst r'.
  destruct (Q i j Hi Hj) as (i' & j' & Hi' & Hj' & E). exists i', j'. split; [exact Hi'|]. split; [exact Hj'|]. rewrite Pr, E. split; [reflexivity|].
  assert (Is : (0 < / sc)%R) by (apply Rinv_0_lt_compat; exact Hs). unfold Rdiv. split; split; intros K.
  - apply Rmult_integral in K. destruct K; lra.
  - rewrite K. lra.
  - destruct (Rle_or_lt (at_ y [j'; i']) 0) as [N|]; [|assumption]. exfalso.
    assert (at_ y [j'; i'] * / sc <= 0 * / sc)%R by (apply Rmult_le_compat_r; lra). lra.
  - apply Rmult_lt_0_compat; assumption.
Qed.
Lemma q_color_range : forall rnd o c W H xs t, linear_ok o -> 0 < c_width c -> 0 < c_height c -> 0 < W -> 0 < H ->
  (forall x y, (x <= y)%R -> (rnd x <= rnd y)%R) -> rnd 0%R = 0%R -> rnd 1%R = 1%R ->
  Forall (fun x => dims x = [3; W; H] /\ forall k i j, k < 3 -> i < H -> j < W -> (0 <= at_ x [k; j; i] <= 255)%R) xs -> color_out rnd o c xs t ->
  forall f x i j k, nth_error xs f = Some x -> i < c_height c -> j < c_width c -> k < 3 ->
    (if c_norm c then (0 <= pixel c t f i j k <= 1)%R else (0 <= pixel c t f i j k <= 255)%R).
Proof.
  intros rnd o c W H xs t Lo w h HW HH Mo R0 R1 DX (_ & T) f x i j k Ex Hi Hj Hk. rewrite Forall_forall in DX. destruct (DX x (nth_error_In _ _ Ex)) as (Dx & Bx).
  destruct (T f x Ex) as (r & Er & Pr). destruct (Lo _ _ x W H 3 w h HW HH Dx) as (r' & Er' & _ & B & _). assert (r' = r) by congruence. subst r'.
  assert (K : (0 <= at_ r [k; j; i] <= 255)%R) by (apply (B k 0%R 255%R Hk (fun i j => Bx k i j Hk) i j Hi Hj)).
  rewrite Pr. destruct (c_norm c); [|exact K].
  assert (A : (0 <= at_ r [k; j; i] / 255)%R) by lra. assert (A' : (at_ r [k; j; i] / 255 <= 1)%R) by lra.
  apply Mo in A, A'. lra.
Qed.
Lemma q_camera_scale : forall fx fy cx cy sw sh k, camera (fx * sw) (fy * sh) (cx * sw) (cy * sh) k ->
  forall p, persp (mvec 4 (ent k [0]) p) 0 = (sw * persp (mvec 4 (pinhole fx fy cx cy 0) p) 0%nat)%R /\
            persp (mvec 4 (ent k [0]) p) 1 = (sh * persp (mvec 4 (pinhole fx fy cx cy 0) p) 1%nat)%R.
Proof.
  intros fx fy cx cy sw sh k (_ & E) p.
  assert (V : forall i, i < 4 -> mvec 4 (ent k [0]) p i = mvec 4 (pinhole (fx * sw) (fy * sh) (cx * sw) (cy * sh) 0) p i).
  { intros i Hi. unfold mvec. cbn [rsum]. rewrite !E by lia. reflexivity. }
  unfold persp. rewrite !V by lia. unfold mvec. cbn [rsum pinhole].
  replace (0 + 0 * p 0%nat + 0 * p 1%nat + 1 * p 2%nat + 0 * p 3%nat)%R with (p 2%nat) by ring. destruct (Req_EM_T (p 2%nat) 0); split; try (field; assumption); ring.
Qed.
