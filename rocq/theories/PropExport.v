(* Properties C90 and C91: Pointclouds.open3d, Pointclouds.plotly and RGBDImages.plotly.
   Vocabulary: ExportModel.v (open3d, plotly, rgbd_plotly; AInt i: the index i; the permutation drawn by torch.randperm is the parameter perm),
   ExportSpec.v (shuffles, chosen: which points, rows_of: attribute rows, Unit: colours in 0..1, Bytes: colours in 0..255), PictureSpec.v.
   Hist / RHist (PointcloudsHist.v, RgbdSpec.v): the object was obtained by public calls and means the clouds / frames a;
   resolves n i k: integer i addresses item k of n (negative ones count from the end). *)
From Coq Require Import List Arith ZArith Reals Bool Permutation Lia Lra.
From Verif Require Import Res Fld TensorModel StructUtilsModel PointcloudsModel PointcloudsSpec PointcloudsCtorSpec PointcloudsIndexSpec PointcloudsHist
  ExportModel ExportSpec ExportProofs ExportPropProofs.
Import ListNotations.
Local Open Scope nat_scope.

(* ------------------------------------------------------------------ C90 *)
(* at most max_num_points distinct points of the cloud, with their own normals and colours; the object still means the same *)
Theorem C90_open3d : forall perm (s : pc RF) a P i k ic max inn, shuffles perm -> Hist RF s a -> qp a = Some P -> resolves (length P) i k ->
  match max with Some m => (0 < m)%Z | None => True end -> (ic = true -> qc a <> None -> 0 < size_of a k) ->
  exists g s' inds, open3d perm (AInt i) ic max inn s = (Ok g, s') /\ Hist RF s' a /\ chosen (size_of a k) max inds /\
    Some (t2r (g_points g)) = rows_of a Points k inds /\
    option_map t2r (g_normals g) = (if inn then rows_of a Normals k inds else None) /\
    (if ic then match rows_of a Colors k inds with
                | Some rows => exists y, g_colors g = Some y /\ Unit rows (t2r y)
                | None => g_colors g = None end
     else g_colors g = None).
Proof. exact p_open3d. Qed.
Print Assumptions C90_open3d.

Theorem C90_plotly : forall perm (s : pc RF) a P i k ic max, shuffles perm -> Hist RF s a -> qp a = Some P -> resolves (length P) i k ->
  match max with Some m => (0 < m)%Z | None => True end -> (ic = true -> qc a <> None -> 0 < size_of a k) ->
  exists g s' inds, plotly perm (AInt i) ic max s = (Ok g, s') /\ Hist RF s' a /\ chosen (size_of a k) max inds /\
    Some (t2r (g_points g)) = rows_of a Points k inds /\
    (if ic then match rows_of a Colors k inds with
                | Some rows => exists y, g_colors g = Some y /\ Bytes rows (t2r y)
                | None => g_colors g = None end
     else g_colors g = None).
Proof. exact p_plotly. Qed.
Print Assumptions C90_plotly.

(* colours for open3d are between 0 and 1 *)
Local Open Scope R_scope.
Theorem C90_unit_range : forall rows out r c, Unit rows out -> In r out -> In c r -> 0 <= c <= 1.
Proof. exact p_unit_range. Qed.
Print Assumptions C90_unit_range.

Local Close Scope R_scope.
(* colours that are already between 0 and 1 are exported unchanged *)
Local Open Scope R_scope.
Theorem C90_unit_kept : forall rows out, (forall r c, In r rows -> In c r -> 0 <= c <= 1) -> Unit rows out -> out = rows.
Proof. exact p_unit_kept. Qed.
Print Assumptions C90_unit_kept.

Local Close Scope R_scope.
(* colours between 0 and 255, one of them above 1.1, are divided by 255 *)
Local Open Scope R_scope.
Theorem C90_unit_scaled : forall rows out, (forall r c, In r rows -> In c r -> 0 <= c <= 255) -> bright rows -> Unit rows out ->
  out = map (map (fun c => c / 255)) rows.
Proof. exact p_unit_scaled. Qed.
Print Assumptions C90_unit_scaled.

Local Close Scope R_scope.
(* colours for plotly are bytes *)
Local Open Scope R_scope.
Theorem C90_bytes_range : forall rows out r z, Bytes rows out -> In r out -> In z r -> (0 <= z <= 255)%Z.
Proof. exact p_bytes_range. Qed.
Print Assumptions C90_bytes_range.

Local Close Scope R_scope.
(* both exports show the same colours, unless the largest value is exactly 1.1 *)
Local Open Scope R_scope.
Theorem C90_agree : forall rows u b, Unit rows u -> Bytes rows b -> dim rows \/ bright rows ->
  Forall2 (Forall2 (fun c z => IZR z <= 255 * c < IZR z + 1)) u b.
Proof. exact p_agree. Qed.
Print Assumptions C90_agree.

Local Close Scope R_scope.
Theorem C90_not_int : forall perm (s : pc RF) ic max inn, open3d perm ANotInt ic max inn s = (Err TypeError, s) /\ plotly perm ANotInt ic max s = (Err TypeError, s).
Proof. exact p_not_int. Qed.
Print Assumptions C90_not_int.

Theorem C90_bad_index : forall perm (s : pc RF) a P i ic max inn, Hist RF s a -> qp a = Some P -> ~ (exists k, resolves (length P) i k) ->
  fst (open3d perm (AInt i) ic max inn s) = Err IndexError /\ fst (plotly perm (AInt i) ic max s) = Err IndexError.
Proof. exact p_bad_index. Qed.
Print Assumptions C90_bad_index.

(* nothing to export (an empty cloud, max_num_points = 0): an exception if there are colours *)
Theorem C90_no_points_refuted : forall perm (s : pc RF) a P i k max inn, shuffles perm -> Hist RF s a -> qp a = Some P -> resolves (length P) i k ->
  qc a <> None -> size_of a k = 0 \/ max = Some 0%Z ->
  fst (open3d perm (AInt i) true max inn s) = Err RuntimeError /\ fst (plotly perm (AInt i) true max s) = Err RuntimeError.
Proof. exact p_no_points. Qed.
Print Assumptions C90_no_points_refuted.

(* a negative max_num_points is not rejected: that many points are left out *)
Theorem C90_negative_refuted : forall perm (s : pc RF) a P i k m inn, shuffles perm -> Hist RF s a -> qp a = Some P -> resolves (length P) i k ->
  (- Z.of_nat (size_of a k) <= m < 0)%Z ->
  exists g s', open3d perm (AInt i) false (Some m) inn s = (Ok g, s') /\ Z.of_nat (length (t2r (g_points g))) = (Z.of_nat (size_of a k) + m)%Z.
Proof. exact p_negative. Qed.
Print Assumptions C90_negative_refuted.

(* the colour of a point depends on which other points are exported *)
Local Open Scope R_scope.
Theorem C90_sample_colour_refuted : exists (s : pc RF) a perm g g' s1 s2, Hist RF s a /\ shuffles perm /\
  open3d perm (AInt 0) true None false s = (Ok g, s1) /\ open3d perm (AInt 0) true (Some 1%Z) false s = (Ok g', s2) /\
  nth 0 (t2r (g_points g)) [] = nth 0 (t2r (g_points g')) [] /\
  option_map (fun y => nth 0 (t2r y) []) (g_colors g) = Some [1 / 255; 1 / 255; 1 / 255] /\
  option_map (fun y => nth 0 (t2r y) []) (g_colors g') = Some [1; 1; 1].
Proof. exact p_sample_colour. Qed.
Print Assumptions C90_sample_colour_refuted.

Local Close Scope R_scope.
(* a largest value of 1.1: white in open3d, black in plotly *)
Local Open Scope R_scope.
Theorem C90_threshold_refuted : exists (s : pc RF) a perm g g' s1 s2, Hist RF s a /\ shuffles perm /\
  open3d perm (AInt 0) true None false s = (Ok g, s1) /\ plotly perm (AInt 0) true None s = (Ok g', s2) /\
  option_map t2r (g_colors g) = Some [[1; 1; 1]] /\ option_map t2r (g_colors g') = Some [[1; 1; 1]%Z].
Proof. exact p_threshold. Qed.
Print Assumptions C90_threshold_refuted.

Local Close Scope R_scope.
Local Open Scope R_scope.
Example C90_witness : exists s, Hist RF s dark /\ resolves 1 (-1) 0 /\ size_of dark 0 = 2%nat /\ shuffles (fun n => seq 0 n) /\
  rows_of dark Colors 0 [1%nat] = Some [[200; 200; 200]] /\ Unit [[1; 1; 1]; [200; 200; 200]] [[1 / 255; 1 / 255; 1 / 255]; [200 / 255; 200 / 255; 200 / 255]].
Proof.
  destruct have_dark as (s & H). exists s. split; [exact H|]. split; [split; [lia|right; reflexivity]|]. split; [reflexivity|]. split; [exact shuffle_seq|].
  split; [reflexivity|]. left. split.
  - exists [200; 200; 200], 200. split; [right; now left|]. split; [now left|lra].
  - unfold into. cbn. repeat match goal with |- context [Rlt_dec ?a ?b] => destruct (Rlt_dec a b); try lra end. reflexivity.
Qed.
Local Close Scope R_scope.
From Verif Require Import RgbdModel RgbdSpec RgbdWitness RgbdWitnessProofs PictureSpec PictureProofs PictureProofs2.

(* ------------------------------------------------------------------ C91 *)
(* one frame per time step: its colours as bytes, its depth times the largest power of ten that fits a byte *)
Theorem C91_frames : forall q (s : rgbd) a i b, RHist q s false a -> resolves (fB a) i b -> 0 < fL a -> 0 < fH a -> 0 < fW a ->
  (forall l h w, inside a b l h w -> (0 <= fdep a b l h w)%R) -> (exists l h w, inside a b l h w /\ (0 < fdep a b l h w)%R) ->
  exists fs sc, rgbd_plotly (AInt i) true s = (Ok (Frames fs), s) /\ right_scale a b sc /\ length fs = fL a /\
    forall l, l < fL a -> exists img d, nth_error fs l = Some (mkFrame l img (Some (d, sc))) /\ shows_rgb a b l img /\ shows_depth a b l sc d.
Proof. exact p_frames. Qed.
Print Assumptions C91_frames.

Theorem C91_rgb_only : forall q (s : rgbd) a i b, RHist q s false a -> resolves (fB a) i b -> 0 < fL a -> 0 < fH a -> 0 < fW a ->
  exists fs, rgbd_plotly (AInt i) false s = (Ok (Frames fs), s) /\ length fs = fL a /\
    forall l, l < fL a -> exists img, nth_error fs l = Some (mkFrame l img None) /\ shows_rgb a b l img.
Proof. exact p_frames_rgb. Qed.
Print Assumptions C91_rgb_only.

Theorem C91_rejects : forall q (s : rgbd) cf a i inc, RHist q s cf a ->
  rgbd_plotly ANotInt inc s = (Err TypeError, s) /\ (~ (exists b, resolves (fB a) i b) -> rgbd_plotly (AInt i) inc s = (Err IndexError, s)).
Proof. exact p_pic_rejects. Qed.
Print Assumptions C91_rejects.

(* a sequence without any depth: OverflowError *)
Theorem C91_no_depth_refuted : forall q (s : rgbd) a i b, RHist q s false a -> resolves (fB a) i b -> 0 < fL a -> 0 < fH a -> 0 < fW a ->
  (forall l h w, inside a b l h w -> fdep a b l h w = 0%R) -> rgbd_plotly (AInt i) true s = (Ok RaisedOverflow, s).
Proof. exact p_no_depth. Qed.
Print Assumptions C91_no_depth_refuted.

(* channels-first images cannot be shown *)
Theorem C91_channels_first_refuted : forall q (s : rgbd) a i b inc, RHist q s true a -> resolves (fB a) i b -> 0 < fL a -> 0 < fH a -> 0 < fW a ->
  fW a <> 3 -> fW a <> 4 -> rgbd_plotly (AInt i) inc s = (Err RuntimeError, s).
Proof. exact p_channels_first. Qed.
Print Assumptions C91_channels_first_refuted.

(* unless they are 3 or 4 wide: then the pictures have three rows and the columns as channels *)
Theorem C91_channels_first_small_refuted : forall q (s : rgbd) a i b, RHist q s true a -> resolves (fB a) i b -> 0 < fL a -> 0 < fH a -> fW a = 3 \/ fW a = 4 ->
  exists fs, rgbd_plotly (AInt i) false s = (Ok (Frames fs), s) /\ length fs = fL a /\
    forall l, l < fL a -> exists img, nth_error fs l = Some (mkFrame l img None) /\ shape img = [3; fH a; fW a].
Proof. exact p_channels_first_small. Qed.
Print Assumptions C91_channels_first_small_refuted.

Local Open Scope R_scope.
Example C91_witness : exists s, RHist false s false (wfr 1 2 3) /\ resolves (fB (wfr 1 2 3)) 0 0 /\
  (forall l h w, inside (wfr 1 2 3) 0 l h w -> 0 <= fdep (wfr 1 2 3) 0 l h w) /\ inside (wfr 1 2 3) 0 0 1 2 /\ 0 < fdep (wfr 1 2 3) 0 0 1 2.
Proof.
  destruct (w_hist 1 2 3) as (s & _ & H). exists s. split; [exact H|]. split; [split; [cbn; lia|left; reflexivity]|].
  split; [intros l h w _; cbn [fdep wfr]; apply pos_INR|]. split; [repeat split; cbn; lia|cbn; lra].
Qed.
Local Close Scope R_scope.
