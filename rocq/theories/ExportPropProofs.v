(* The properties of the exports of clouds. *)
From Coq Require Import List Arith ZArith Reals Bool Permutation Lia Lra.
From Verif Require Import Res Fld TensorModel StructUtilsModel PointcloudsModel PointcloudsSpec PointcloudsCtorSpec PointcloudsIndexSpec PointcloudsHist PointcloudsIndex
  PointcloudsPropProofs ExportModel ExportSpec ExportProofs.
Import ListNotations.
Local Open Scope nat_scope.

Lemma rows_taken a P x L k perm max : Batch RF a -> qp a = Some P -> qget x a = Some L -> k < length P ->
  Some (t2r (take_rows (inds_of perm (size_of a k) max) (nth k L (mkT2 3 [])))) =
  rows_of a x k (match inds_of perm (size_of a k) max with Some l => l | None => seq 0 (size_of a k) end).
Proof.
  intros B EP EL Hk. destruct (attr_cloud a P x L k B EP EL Hk) as (_ & Ln). unfold rows_of. rewrite EL. cbn [option_map]. exact (f_equal Some (taken perm _ max _ Ln)).
Qed.

Lemma p_open3d : forall perm (s : pc RF) a P i k ic max inn, shuffles perm -> Hist RF s a -> qp a = Some P -> resolves (length P) i k ->
  match max with Some m => (0 < m)%Z | None => True end -> (ic = true -> qc a <> None -> 0 < size_of a k) ->
  exists g s' inds, open3d perm (AInt i) ic max inn s = (Ok g, s') /\ Hist RF s' a /\ chosen (size_of a k) max inds /\
    Some (t2r (g_points g)) = rows_of a Points k inds /\
    option_map t2r (g_normals g) = (if inn then rows_of a Normals k inds else None) /\
    (if ic then match rows_of a Colors k inds with
                | Some rows => exists y, g_colors g = Some y /\ Unit rows (t2r y)
                | None => g_colors g = None end
     else g_colors g = None).
Proof.
  intros perm s a P i k ic max inn Hp H EP Hk Hm Hn. pose proof (hist_batch s a H) as B. assert (Kl : k < length P) by apply Hk.
  destruct (run_export perm unit_colors s a P i k ic max inn H EP Hk) as (s' & H' & E). cbv beta zeta in E.
  assert (Ch : chosen (size_of a k) max (match inds_of perm (size_of a k) max with Some l => l | None => seq 0 (size_of a k) end))
    by (apply chosen_of; [exact Hp|destruct max; [lia|exact I]]).
  assert (Rn : option_map t2r (if inn then option_map (fun L => take_rows (inds_of perm (size_of a k) max) (nth k L (mkT2 3 []))) (qn a) else None) =
               (if inn then rows_of a Normals k (match inds_of perm (size_of a k) max with Some l => l | None => seq 0 (size_of a k) end) else None)).
  { destruct inn; [|reflexivity]. destruct (qn a) as [L|] eqn:En; [|unfold rows_of; cbn [qget]; now rewrite En]. cbn [option_map]. exact (rows_taken a P Normals L k perm max B EP En Kl). }
  pose proof (rows_taken a P Points P k perm max B EP EP Kl) as Rp.
  unfold open3d. destruct (qc a) as [L|] eqn:Ec; [destruct ic|].
  - match type of E with context [unit_colors ?t] => destruct (unit_ok t) as (y & Ey & _ & U) end.
    { apply (colour_entries a P L k perm max B EP Ec Kl Hp Hm). apply Hn; [reflexivity|discriminate]. }
    rewrite Ey in E. cbn [rmap] in E. rewrite E. do 3 eexists. split; [reflexivity|]. split; [exact H'|]. split; [exact Ch|]. split; [exact Rp|]. split; [exact Rn|].
    rewrite <- (rows_taken a P Colors L k perm max B EP Ec Kl). exists y. split; [reflexivity|exact U].
  - rewrite E. do 3 eexists. split; [reflexivity|]. split; [exact H'|]. split; [exact Ch|]. split; [exact Rp|]. split; [exact Rn|]. reflexivity.
  - rewrite E. do 3 eexists. split; [reflexivity|]. split; [exact H'|]. split; [exact Ch|]. split; [exact Rp|]. split; [exact Rn|].
    unfold rows_of. cbn [qget]. rewrite Ec. cbn [option_map]. destruct ic; reflexivity.
Qed.
Lemma p_plotly : forall perm (s : pc RF) a P i k ic max, shuffles perm -> Hist RF s a -> qp a = Some P -> resolves (length P) i k ->
  match max with Some m => (0 < m)%Z | None => True end -> (ic = true -> qc a <> None -> 0 < size_of a k) ->
  exists g s' inds, plotly perm (AInt i) ic max s = (Ok g, s') /\ Hist RF s' a /\ chosen (size_of a k) max inds /\
    Some (t2r (g_points g)) = rows_of a Points k inds /\
    (if ic then match rows_of a Colors k inds with
                | Some rows => exists y, g_colors g = Some y /\ Bytes rows (t2r y)
                | None => g_colors g = None end
     else g_colors g = None).
Proof.
  intros perm s a P i k ic max Hp H EP Hk Hm Hn. pose proof (hist_batch s a H) as B. assert (Kl : k < length P) by apply Hk.
  destruct (run_export perm byte_colors s a P i k ic max false H EP Hk) as (s' & H' & E). cbv beta zeta in E.
  assert (Ch : chosen (size_of a k) max (match inds_of perm (size_of a k) max with Some l => l | None => seq 0 (size_of a k) end))
    by (apply chosen_of; [exact Hp|destruct max; [lia|exact I]]).
  pose proof (rows_taken a P Points P k perm max B EP EP Kl) as Rp.
  unfold plotly. destruct (qc a) as [L|] eqn:Ec; [destruct ic|].
  - match type of E with context [byte_colors ?t] => destruct (byte_ok t) as (y & Ey & _ & U) end.
    { apply (colour_entries a P L k perm max B EP Ec Kl Hp Hm). apply Hn; [reflexivity|discriminate]. }
    rewrite Ey in E. cbn [rmap] in E. rewrite E. do 3 eexists. split; [reflexivity|]. split; [exact H'|]. split; [exact Ch|]. split; [exact Rp|].
    rewrite <- (rows_taken a P Colors L k perm max B EP Ec Kl). exists y. split; [reflexivity|exact U].
  - rewrite E. do 3 eexists. split; [reflexivity|]. split; [exact H'|]. split; [exact Ch|]. split; [exact Rp|]. reflexivity.
  - rewrite E. do 3 eexists. split; [reflexivity|]. split; [exact H'|]. split; [exact Ch|]. split; [exact Rp|].
    unfold rows_of. cbn [qget]. rewrite Ec. cbn [option_map]. destruct ic; reflexivity.
Qed.

(* what colours mean *)
Local Open Scope R_scope.
Lemma p_unit_range : forall rows out r c, Unit rows out -> In r out -> In c r -> 0 <= c <= 1.
Proof.
  assert (I01 : forall x, 0 <= into 0 1 x <= 1) by (intros x; unfold into; destruct (Rlt_dec x 0), (Rlt_dec 1 x); lra).
  intros rows out r c [(_ & ->)|(_ & ->)] Hr Hc; apply in_map_iff in Hr; destruct Hr as (r0 & <- & _); apply in_map_iff in Hc; destruct Hc as (x & <- & _); apply I01.
Qed.
Lemma p_unit_kept : forall rows out, (forall r c, In r rows -> In c r -> 0 <= c <= 1) -> Unit rows out -> out = rows.
Proof.
  intros rows out H [((r & c & Hr & Hc & Hb) & _)|(_ & ->)]; [specialize (H r c Hr Hc); lra|].
  rewrite <- (map_id rows) at 2. apply map_ext_in. intros r Hr. rewrite <- (map_id r) at 2. apply map_ext_in. intros c Hc. specialize (H r c Hr Hc).
  unfold into. destruct (Rlt_dec c 0), (Rlt_dec 1 c); lra.
Qed.
Lemma p_unit_scaled : forall rows out, (forall r c, In r rows -> In c r -> 0 <= c <= 255) -> bright rows -> Unit rows out ->
  out = map (map (fun c => c / 255)) rows.
Proof.
  intros rows out H Hb [(_ & ->)|(N & _)]; [|contradiction].
  apply map_ext_in. intros r Hr. apply map_ext_in. intros c Hc. specialize (H r c Hr Hc).
  unfold into. destruct (Rlt_dec (c / 255) 0), (Rlt_dec 1 (c / 255)); lra.
Qed.
Lemma p_bytes_range : forall rows out r z, Bytes rows out -> In r out -> In z r -> (0 <= z <= 255)%Z.
Proof.
  assert (B : forall c z, byte_of c z -> (0 <= z <= 255)%Z).
  { intros c z [H1 H2]. assert (I0 : 0 <= into 0 255 c <= 255) by (unfold into; destruct (Rlt_dec c 0), (Rlt_dec 255 c); lra).
    split; [|apply le_IZR; lra]. assert (-1 < z)%Z by (apply lt_IZR; lra). lia. }
  assert (G : forall (Q : R -> Z -> Prop), (forall c z, Q c z -> (0 <= z <= 255)%Z) -> forall rows out r z, Forall2 (Forall2 Q) rows out -> In r out -> In z r -> (0 <= z <= 255)%Z).
  { intros Q HQ rows out r z F. induction F as [|x y rows out Fx F IH]; [intros []|]. intros [->|Hr] Hz; [|now apply IH]. clear IH.
    induction Fx as [|c z' x r Hc Fx IH]; [destruct Hz|]. destruct Hz as [->|Hz]; [exact (HQ _ _ Hc)|now apply IH]. }
  intros rows out r z [(_ & F)|(_ & F)]; [apply (G _ (fun c z H => B _ _ H) _ _ _ _ F)|apply (G _ B _ _ _ _ F)].
Qed.
(* unless the largest colour value is exactly 1.1, plotly shows 255 times the colours of open3d, rounded down *)
Lemma p_agree : forall rows u b, Unit rows u -> Bytes rows b -> dim rows \/ bright rows ->
  Forall2 (Forall2 (fun c z => IZR z <= 255 * c < IZR z + 1)) u b.
Proof.
  assert (G : forall (f : R -> R) (Q : R -> Z -> Prop), (forall c z, Q c z -> IZR z <= 255 * f c < IZR z + 1) -> forall rows b,
    Forall2 (Forall2 Q) rows b -> Forall2 (Forall2 (fun c z => IZR z <= 255 * c < IZR z + 1)) (map (map f) rows) b).
  { intros f Q HQ rows b F. induction F as [|x y rows b Fx F IH]; cbn; constructor; [|exact IH]. clear IH. induction Fx as [|c z x y Hc Fx IH]; cbn; constructor; [now apply HQ|exact IH]. }
  intros rows u b U B H.
  assert (X : bright rows -> dim rows -> False) by (intros (r & c & Hr & Hc & Hb) D; specialize (D r c Hr Hc); lra).
  destruct U as [(Br & ->)|(Nb & ->)], B as [(D & F)|(Nd & F)].
  - exfalso. now apply X.
  - apply (G _ byte_of); [|exact F]. intros c z [H1 H2]. unfold into in *. destruct (Rlt_dec c 0), (Rlt_dec 255 c), (Rlt_dec (c / 255) 0), (Rlt_dec 1 (c / 255)); lra.
  - apply (G _ (fun c z => byte_of (255 * c) z)); [|exact F]. intros c z [H1 H2]. unfold into in *. destruct (Rlt_dec (255 * c) 0), (Rlt_dec 255 (255 * c)), (Rlt_dec c 0), (Rlt_dec 1 c); lra.
  - exfalso. destruct H as [H|H]; [now apply Nd|now apply Nb].
Qed.
Local Open Scope nat_scope.

(* rejections *)
Lemma p_not_int : forall perm (s : pc RF) ic max inn, open3d perm ANotInt ic max inn s = (Err TypeError, s) /\ plotly perm ANotInt ic max s = (Err TypeError, s).
Proof. intros. split; reflexivity. Qed.
Lemma p_bad_index : forall perm (s : pc RF) a P i ic max inn, Hist RF s a -> qp a = Some P -> ~ (exists k, resolves (length P) i k) ->
  fst (open3d perm (AInt i) ic max inn s) = Err IndexError /\ fst (plotly perm (AInt i) ic max s) = Err IndexError.
Proof.
  intros perm s a P i ic max inn H EP N.
  assert (E : py_nth (num RF s) i = Err IndexError).
  { rewrite (run_num s a H). destruct (py_nth (counts_view RF a) i) as [y|e] eqn:E; [|apply py_nth_err in E; now subst]. apply py_nth_ok in E. destruct E as (k & Hk & _).
    exfalso. apply N. exists k. unfold counts_view in Hk. rewrite EP in Hk. unfold counts_of in Hk. rewrite map_length in Hk. exact Hk. }
  unfold open3d, plotly, export. split; (unfold mbind at 1; cbn [get]; unfold mbind at 1, lift at 1; rewrite E; reflexivity).
Qed.

(* objects *)
Lemma have a P : valid_batch RF P a -> (forall x L, qget x a = Some L -> Forall (real_tensor RF) (map (AT2 RF) L)) -> exists s, Hist RF s a.
Proof.
  intros V Re. set (inp := fun x => match qget x a with Some L => IList RF (map (AT2 RF) L) | None => INone RF end).
  assert (D : Denotes RF (inp Points) (inp Normals) (inp Colors) (inp Features) a).
  { right. left. exists P. split; [exact V|]. unfold inp, as_list. repeat split; destruct (qget _ a) eqn:E; cbn [qget] in E; rewrite E; reflexivity. }
  assert (Ri : forall x, real_inp RF (inp x)) by (intros x; unfold inp; destruct (qget x a) as [L|] eqn:E; [exact (Re x L E)|exact I]).
  destruct (proj2 (p_accepts RF _ _ _ _ (Ri Points) (Ri Normals) (Ri Colors) (Ri Features)) (ex_intro _ a D)) as (s & Es).
  exists s. exact (h_new RF _ _ _ _ a s (Ri _) (Ri _) (Ri _) (Ri _) D Es).
Qed.

(* no colours to take the maximum of *)
Lemma p_no_points : forall perm (s : pc RF) a P i k max inn, shuffles perm -> Hist RF s a -> qp a = Some P -> resolves (length P) i k ->
  qc a <> None -> size_of a k = 0 \/ max = Some 0%Z ->
  fst (open3d perm (AInt i) true max inn s) = Err RuntimeError /\ fst (plotly perm (AInt i) true max s) = Err RuntimeError.
Proof.
  intros perm s a P i k max inn Hp H EP Hk Nc Hz. pose proof (hist_batch s a H) as B. assert (Kl : k < length P) by apply Hk.
  destruct (qc a) as [L|] eqn:Ec; [|congruence].
  assert (Z0 : match inds_of perm (size_of a k) max with Some l => l | None => seq 0 (size_of a k) end = []).
  { unfold inds_of. destruct Hz as [ -> | -> ].
    - assert (E : perm 0 = []) by (apply Permutation_nil; exact (Permutation_sym (Hp 0))). destruct max as [m|]; [|reflexivity]. destruct (m <? Z.of_nat 0)%Z; [|reflexivity].
      rewrite E. unfold upto. destruct (m <? 0)%Z; apply firstn_nil.
    - destruct (Z.ltb_spec 0 (Z.of_nat (size_of a k))); [reflexivity|]. destruct (size_of a k); [reflexivity|lia]. }
  pose proof (rows_taken a P Colors L k perm max B EP Ec Kl) as Rc. rewrite Z0 in Rc. unfold rows_of in Rc. cbn [qget] in Rc. rewrite Ec in Rc. cbn [option_map map] in Rc. injection Rc as Rc.
  unfold open3d, plotly. split.
  - destruct (run_export perm unit_colors s a P i k true max inn H EP Hk) as (s' & _ & E). cbv beta zeta in E. rewrite E, Ec.
    rewrite empty_unit; [reflexivity|]. exact (f_equal (@concat R) Rc).
  - destruct (run_export perm byte_colors s a P i k true max false H EP Hk) as (s' & _ & E). cbv beta zeta in E. rewrite E, Ec.
    rewrite empty_byte; [reflexivity|]. exact (f_equal (@concat R) Rc).
Qed.
(* a negative limit *)
Lemma p_negative : forall perm (s : pc RF) a P i k m inn, shuffles perm -> Hist RF s a -> qp a = Some P -> resolves (length P) i k ->
  (- Z.of_nat (size_of a k) <= m < 0)%Z ->
  exists g s', open3d perm (AInt i) false (Some m) inn s = (Ok g, s') /\ Z.of_nat (length (t2r (g_points g))) = (Z.of_nat (size_of a k) + m)%Z.
Proof.
  intros perm s a P i k m inn Hp H EP Hk Hm. destruct (run_export perm unit_colors s a P i k false (Some m) inn H EP Hk) as (s' & _ & E). cbv beta zeta in E.
  unfold open3d. rewrite E. destruct (qc a); (do 2 eexists; split; [reflexivity|]; cbn [g_points]; unfold inds_of;
    destruct (Z.ltb_spec m (Z.of_nat (size_of a k))); [|lia]; cbn [take_rows t2r]; rewrite map_length; unfold upto; destruct (Z.ltb_spec m 0); [|lia];
    rewrite firstn_length, (Permutation_length (Hp _)), seq_length; lia).
Qed.

(* ---------------------------------------------------------------- examples *)
Local Open Scope R_scope.
Ltac dcmp := repeat match goal with |- context [Rlt_dec ?a ?b] => destruct (Rlt_dec a b); try lra end.
Definition pts2 : list (t2 RF) := [mkT2 3 [[0; 0; 0]; [1; 1; 1]] : t2 RF].
Definition cols2 : list (t2 RF) := [mkT2 3 [[1; 1; 1]; [200; 200; 200]] : t2 RF].
Definition dark : batch RF := mkQ (Some pts2) None (Some cols2) None.
Definition pts1 : list (t2 RF) := [mkT2 3 [[0; 0; 0]] : t2 RF].
Definition cols1 : list (t2 RF) := [mkT2 3 [[11 / 10; 11 / 10; 11 / 10]] : t2 RF].
Definition edge : batch RF := mkQ (Some pts1) None (Some cols1) None.
Lemma have_dark : exists s, Hist RF s dark.
Proof.
  apply have with pts2.
  - split; [reflexivity|]. split; [discriminate|]. intros [] L E; try discriminate E; injection E as <-; (split; [reflexivity|]); repeat constructor.
  - intros [] L E; try discriminate E; injection E as <-; repeat constructor.
Qed.
Lemma have_edge : exists s, Hist RF s edge.
Proof.
  apply have with pts1.
  - split; [reflexivity|]. split; [discriminate|]. intros [] L E; try discriminate E; injection E as <-; (split; [reflexivity|]); repeat constructor.
  - intros [] L E; try discriminate E; injection E as <-; repeat constructor.
Qed.
Lemma shuffle_seq : shuffles (fun n => seq 0 n).
Proof. intros n. apply Permutation_refl. Qed.
Lemma max_200 : fold_left Rmax [1; 1; 200; 200; 200] 1 = 200.
Proof. cbn [fold_left]. unfold Rmax. repeat match goal with |- context [Rle_dec ?a ?b] => destruct (Rle_dec a b); try lra end. Qed.
Lemma max_111 x : fold_left Rmax [x; x] x = x.
Proof. cbn [fold_left]. unfold Rmax. repeat match goal with |- context [Rle_dec ?a ?b] => destruct (Rle_dec a b); try lra end. Qed.
(* the same point, dark in the whole cloud, is white in a sample *)
Lemma p_sample_colour : exists (s : pc RF) a perm g g' s1 s2, Hist RF s a /\ shuffles perm /\
  open3d perm (AInt 0) true None false s = (Ok g, s1) /\ open3d perm (AInt 0) true (Some 1%Z) false s = (Ok g', s2) /\
  nth 0 (t2r (g_points g)) [] = nth 0 (t2r (g_points g')) [] /\
  option_map (fun y => nth 0 (t2r y) []) (g_colors g) = Some [1 / 255; 1 / 255; 1 / 255] /\
  option_map (fun y => nth 0 (t2r y) []) (g_colors g') = Some [1; 1; 1].
Proof.
  destruct have_dark as (s & H).
  assert (Hk : resolves (length pts2) 0 0) by (split; [cbn; lia|left; reflexivity]).
  destruct (run_export (fun n => seq 0 n) unit_colors s dark pts2 0 0 true None false H eq_refl Hk) as (s1 & _ & E1).
  destruct (run_export (fun n => seq 0 n) unit_colors s dark pts2 0 0 true (Some 1%Z) false H eq_refl Hk) as (s2 & _ & E2).
  cbv beta zeta in E1, E2. change (inds_of (fun n => seq 0 n) (size_of dark 0) None) with (@None (list nat)) in E1.
  change (inds_of (fun n => seq 0 n) (size_of dark 0) (Some 1%Z)) with (Some [0%nat]) in E2.
  cbn [dark qc qn cols2 pts2 nth take_rows t2r t2c map option_map] in E1, E2. unfold unit_colors in E1, E2. cbn [t2r concat app tmax rbind] in E1, E2.
  change (fold_left Rmax [1; 1; 200; 200; 200] 1) with (fold_left Rmax [1; 1; 200; 200; 200] 1) in E1. rewrite max_200 in E1. rewrite max_111 in E2.
  destruct (Rlt_dec (11 / 10) 200); [|lra]. destruct (Rlt_dec (11 / 10) 1); [lra|]. cbn [rmap] in E1, E2.
  exists s, dark, (fun n => seq 0 n). do 4 eexists. split; [exact H|]. split; [exact shuffle_seq|]. split; [exact E1|]. split; [exact E2|].
  cbn [g_points g_colors t2r nth option_map t2map map]. split; [reflexivity|].
  assert (C1 : clampR 0 1 (1 / 255) = 1 / 255) by (rewrite clamp_into by lra; unfold into; dcmp).
  assert (C2 : clampR 0 1 1 = 1) by (rewrite clamp_into by lra; unfold into; dcmp).
  now rewrite C1, C2.
Qed.
(* a largest value of 1.1: white in open3d, black in plotly *)
Lemma p_threshold : exists (s : pc RF) a perm g g' s1 s2, Hist RF s a /\ shuffles perm /\
  open3d perm (AInt 0) true None false s = (Ok g, s1) /\ plotly perm (AInt 0) true None s = (Ok g', s2) /\
  option_map t2r (g_colors g) = Some [[1; 1; 1]] /\ option_map t2r (g_colors g') = Some [[1; 1; 1]%Z].
Proof.
  destruct have_edge as (s & H).
  assert (Hk : resolves (length pts1) 0 0) by (split; [cbn; lia|left; reflexivity]).
  destruct (run_export (fun n => seq 0 n) unit_colors s edge pts1 0 0 true None false H eq_refl Hk) as (s1 & _ & E1).
  destruct (run_export (fun n => seq 0 n) byte_colors s edge pts1 0 0 true None false H eq_refl Hk) as (s2 & _ & E2).
  cbv beta zeta in E1, E2. change (inds_of (fun n => seq 0 n) (size_of edge 0) None) with (@None (list nat)) in E1, E2.
  cbn [edge qc qn cols1 pts1 nth take_rows t2r t2c map option_map] in E1, E2. unfold unit_colors in E1. unfold byte_colors in E2.
  cbn [t2r concat app tmax rbind] in E1, E2. rewrite max_111 in E1, E2. 
  destruct (Rlt_dec (11 / 10) (11 / 10)); [lra|]. cbn [rmap] in E1, E2.
  exists s, edge, (fun n => seq 0 n). do 4 eexists. split; [exact H|]. split; [exact shuffle_seq|]. split; [exact E1|]. split; [exact E2|].
  cbn [g_points g_colors t2r nth option_map t2map map].
  assert (C1 : clampR 0 1 (11 / 10) = 1) by (rewrite clamp_into by lra; unfold into; dcmp).
  assert (C2 : clampR 0 255 (11 / 10) = 11 / 10) by (rewrite clamp_into by lra; unfold into; dcmp).
  rewrite C1, C2. unfold to_uint8. assert (I : Int_part (11 / 10) = 1%Z) by (destruct (base_Int_part (11 / 10)) as [B1 B2]; assert (Int_part (11 / 10) < 2)%Z by (apply lt_IZR; lra); assert (0 < Int_part (11 / 10))%Z by (apply lt_IZR; lra); lia). now rewrite I.
Qed.
