(* ScanNet scenes, labels and image helpers (C59, C60, C61). *)
From Coq Require Import Ascii String List Arith Bool Reals ZArith Lia Lra.
From Verif Require Import Res TextModel DataSpec DatasetSpec DatasetModel TextProofs WindowProofs PoseFileProofs.
Import ListNotations.
Local Open Scope nat_scope.

Lemma text_eqb_refl x : text_eqb x x = true.
Proof. destruct (text_eqb_spec x x); congruence. Qed.
Lemma scan_line_ok basedir line f : scene_frame basedir line f -> scan_line basedir line = Ok f.
Proof.
  intros (c & d & p & l & i & (r & x0 & x1 & x2 & x3 & x4 & x5 & W) & ->). unfold scan_line. rewrite (words_eq _ _ W). unfold item. cbn [nth_error rbind].
  rewrite !text_eqb_refl. reflexivity.
Qed.
Lemma scan_lines_ok basedir lines fs : Forall2 (scene_frame basedir) lines fs -> mapM (scan_line basedir) lines = Ok fs.
Proof. induction 1 as [|l f lines fs H F IH]; [reflexivity|]. cbn [mapM]. rewrite (scan_line_ok _ _ _ H). cbn [rbind]. rewrite IH. reflexivity. Qed.
Lemma Forall2_len {A B} (Q : A -> B -> Prop) l r : Forall2 Q l r -> length l = length r.
Proof. induction 1; cbn; congruence. Qed.
Lemma slice_pos {A} start (e : nat) (l : list A) : slice start (Z.of_nat e) l = firstn (e - start) (skipn start l).
Proof. unfold slice, slice_end. destruct (Z.ltb_spec (Z.of_nat e) 0); [lia|]. now rewrite Nat2Z.id. Qed.
Lemma scan_loop_ok basedir start (e : nat) scs fss : start < e ->
  Forall2 (fun sc fs => e - start <= length (sc_lines sc) /\ start < length (sc_lines sc) /\ frames_of basedir start (e - start) sc fs) scs fss ->
  scan_loop basedir false start (Z.of_nat e) (Z.of_nat (e - start)) scs = Ok (mkScan (Z.of_nat (e - start)) fss (map first_intr fss) (map sc_name scs)).
Proof.
  intros Hs. induction 1 as [|sc fs scs fss (Hl & Hst & F) R IH]; [reflexivity|]. cbn [scan_loop].
  destruct (Z.ltb_spec (Z.of_nat (length (sc_lines sc))) (Z.of_nat (e - start))); [lia|]. cbn [negb guard rbind]. rewrite slice_pos.
  rewrite (scan_lines_ok _ _ _ F). cbn [rbind]. pose proof (Forall2_len _ _ _ F) as Lf. rewrite firstn_length, skipn_length in Lf.
  destruct fs as [|f0 fs]; [cbn in Lf; lia|]. cbn [item nth_error rbind]. rewrite IH. reflexivity.
Qed.
Lemma scan_loop_full basedir start (e : nat) scs fss sl e0 : start < e ->
  Forall2 (fun sc fs => length (sc_lines sc) = e /\ frames_of basedir start (e - start) sc fs) scs fss -> (scs = [] -> sl = Z.of_nat (e - start)) ->
  scan_loop basedir true start e0 sl scs = Ok (mkScan (Z.of_nat (e - start)) fss (map first_intr fss) (map sc_name scs)).
Proof.
  intros Hs F. revert e0 sl. induction F as [|sc fs scs fss (Hl & F) R IH]; intros e0 sl Z0; [rewrite Z0; reflexivity|]. cbn [scan_loop]. rewrite Hl.
  replace (Z.of_nat e - Z.of_nat start)%Z with (Z.of_nat (e - start)) by lia.
  destruct (Z.ltb_spec (Z.of_nat e) (Z.of_nat (e - start))); [lia|]. cbn [negb guard rbind]. rewrite slice_pos.
  rewrite (scan_lines_ok _ _ _ F). cbn [rbind]. pose proof (Forall2_len _ _ _ F) as Lf. rewrite firstn_length, skipn_length in Lf.
  destruct fs as [|f0 fs]; [cbn in Lf; lia|]. cbn [item nth_error rbind]. rewrite IH; [reflexivity|reflexivity].
Qed.
Lemma gather_all {A} (l : list A) : forall pre, gather (pre ++ l) (seq (length pre) (length l)) = Ok l.
Proof.
  unfold gather. induction l as [|x l IH]; intros pre; [reflexivity|]. cbn [length seq mapM]. unfold item at 1. rewrite nth_error_app2, Nat.sub_diag by lia. cbn [nth_error rbind].
  specialize (IH (pre ++ [x])). rewrite app_length, <- app_assoc in IH. cbn [app length] in IH. rewrite Nat.add_1_r in IH. rewrite IH. reflexivity.
Qed.
Lemma gather_short {A} (l : list A) n : length l < n -> gather l (seq 0 n) = Err IndexError.
Proof.
  intros H. unfold gather. apply (mapM_err _ _ (length l)); [apply in_seq; lia| |].
  - unfold item. rewrite (proj2 (nth_error_None l (length l))) by lia. reflexivity.
  - intros y e _ E. unfold item in E. destruct (nth_error l y); congruence.
Qed.
Lemma frames_ok basedir n start scs fss d i fs : Forall2 (fun sc fs => start + n <= length (sc_lines sc) /\ frames_of basedir start n sc fs) scs fss ->
  sd_seqlen d = Z.of_nat n -> sd_frames d = fss -> nth_error fss i = Some fs -> scannet_frames d i = Ok fs.
Proof.
  intros F Hn Hf E. unfold scannet_frames. rewrite Hn, Hf. unfold item. rewrite E. cbn [rbind]. rewrite Nat2Z.id.
  assert (L : length fs = n).
  { clear - F E. revert i E. induction F as [|sc f scs fss (Hl & F) R IH]; intros [|i] E; try discriminate; cbn in E; [|eauto]. injection E as <-.
    apply Forall2_len in F. rewrite firstn_length, skipn_length in F. lia. }
  rewrite <- L. apply (gather_all fs []).
Qed.
(* an explicit range that every scene contains *)
Theorem p_scannet basedir (start e : nat) scs fss : start < e ->
  Forall2 (fun sc fs => e <= length (sc_lines sc) /\ frames_of basedir start (e - start) sc fs) scs fss ->
  exists d, scannet_new basedir (Z.of_nat start) (Z.of_nat e) scs = Ok d /\ sd_seqlen d = Z.of_nat (e - start) /\ sd_names d = map sc_name scs /\ sd_intr d = map first_intr fss /\ sd_frames d = fss /\
    forall i fs, nth_error fss i = Some fs -> scannet_frames d i = Ok fs.
Proof.
  intros Hs F. unfold scannet_new. destruct (Z.ltb_spec (Z.of_nat start) 0); [lia|]. destruct (Z.eqb_spec (Z.of_nat e) (-1)); [lia|].
  destruct (Z.ltb_spec (Z.of_nat start) (Z.of_nat e)); [|lia]. cbn [negb orb guard rbind]. rewrite Nat2Z.id. replace (Z.of_nat e - Z.of_nat start)%Z with (Z.of_nat (e - start)) by lia.
  rewrite (scan_loop_ok basedir start e scs fss Hs).
  2:{ clear - F Hs. induction F as [|sc fs scs fss (H & K) F IH]; constructor; auto. split; [lia|]. split; [lia|exact K]. }
  eexists. split; [reflexivity|]. repeat split. intros i fs E.
  eapply (frames_ok basedir (e - start) start scs fss); try reflexivity; [|exact E]. clear - F Hs. induction F as [|sc fs scs fss (H & K) F IH]; constructor; auto. split; [lia|exact K].
Qed.
(* end = -1 with scenes of one length *)
Theorem p_scannet_full basedir (start e : nat) scs fss : start < e -> scs <> [] ->
  Forall2 (fun sc fs => length (sc_lines sc) = e /\ frames_of basedir start (e - start) sc fs) scs fss ->
  exists d, scannet_new basedir (Z.of_nat start) (-1) scs = Ok d /\ sd_seqlen d = Z.of_nat (e - start) /\ sd_names d = map sc_name scs /\ sd_intr d = map first_intr fss /\ sd_frames d = fss /\
    forall i fs, nth_error fss i = Some fs -> scannet_frames d i = Ok fs.
Proof.
  intros Hs N F. unfold scannet_new. destruct (Z.ltb_spec (Z.of_nat start) 0); [lia|]. cbn [Z.eqb negb orb guard rbind Pos.eqb]. rewrite Nat2Z.id.
  rewrite (scan_loop_full basedir start e scs fss _ _ Hs F) by congruence.
  eexists. split; [reflexivity|]. repeat split. intros i fs E.
  eapply (frames_ok basedir (e - start) start scs fss); try reflexivity; [|exact E]. clear - F Hs. induction F as [|sc fs scs fss (H & K) F IH]; constructor; auto. split; [lia|exact K].
Qed.
(* the arguments *)
Theorem p_scannet_args basedir start e scs : (start < 0 \/ (e <> -1 /\ e <= start))%Z -> scannet_new basedir start e scs = Err ValueError.
Proof.
  intros H. unfold scannet_new. destruct (Z.ltb_spec start 0); [reflexivity|]. cbn [negb guard rbind]. destruct (Z.eqb_spec e (-1)); [lia|]. destruct (Z.ltb_spec start e); [lia|]. reflexivity.
Qed.
(* a scene with fewer lines than the range has frames *)
Theorem p_scannet_too_short basedir (start e : nat) pre fss sc post : start < e ->
  Forall2 (fun sc fs => e <= length (sc_lines sc) /\ frames_of basedir start (e - start) sc fs) pre fss ->
  length (sc_lines sc) < e - start -> scannet_new basedir (Z.of_nat start) (Z.of_nat e) (pre ++ sc :: post) = Err ValueError.
Proof.
  intros Hs F Hl. unfold scannet_new. destruct (Z.ltb_spec (Z.of_nat start) 0); [lia|]. destruct (Z.eqb_spec (Z.of_nat e) (-1)); [lia|].
  destruct (Z.ltb_spec (Z.of_nat start) (Z.of_nat e)); [|lia]. cbn [negb orb guard rbind]. rewrite Nat2Z.id. replace (Z.of_nat e - Z.of_nat start)%Z with (Z.of_nat (e - start)) by lia.
  induction F as [|sc0 fs0 pre fss (H1 & F0) F IH]; cbn [app scan_loop].
  - destruct (Z.ltb_spec (Z.of_nat (length (sc_lines sc))) (Z.of_nat (e - start))); [reflexivity|lia].
  - destruct (Z.ltb_spec (Z.of_nat (length (sc_lines sc0))) (Z.of_nat (e - start))); [lia|]. cbn [negb guard rbind]. rewrite slice_pos, (scan_lines_ok _ _ _ F0). cbn [rbind].
    pose proof (Forall2_len _ _ _ F0) as Lf. rewrite firstn_length, skipn_length in Lf. destruct fs0 as [|f0 fs0]; [cbn in Lf; lia|]. cbn [item nth_error rbind]. rewrite IH. reflexivity.
Qed.
(* the check ignores start: a scene that ends inside the range is accepted, and reading it raises IndexError *)
Theorem p_scannet_cut basedir (start e : nat) sc fs : start < length (sc_lines sc) -> length (sc_lines sc) < e -> e - start <= length (sc_lines sc) ->
  frames_of basedir start (e - start) sc fs -> exists d, scannet_new basedir (Z.of_nat start) (Z.of_nat e) [sc] = Ok d /\ scannet_frames d 0 = Err IndexError.
Proof.
  intros H1 H2 H3 F. unfold scannet_new. destruct (Z.ltb_spec (Z.of_nat start) 0); [lia|]. destruct (Z.eqb_spec (Z.of_nat e) (-1)); [lia|].
  destruct (Z.ltb_spec (Z.of_nat start) (Z.of_nat e)); [|lia]. cbn [negb orb guard rbind]. rewrite Nat2Z.id. replace (Z.of_nat e - Z.of_nat start)%Z with (Z.of_nat (e - start)) by lia.
  rewrite (scan_loop_ok basedir start e [sc] [fs]) by (try lia; repeat constructor; auto). eexists. split; [reflexivity|]. unfold scannet_frames. cbn [sd_frames sd_seqlen item nth_error rbind]. rewrite Nat2Z.id.
  apply gather_short. apply Forall2_len in F. rewrite firstn_length, skipn_length in F. lia.
Qed.
(* start past the end of a scene *)
Theorem p_scannet_past basedir (start e : nat) sc : length (sc_lines sc) <= start -> start < e -> e - start <= length (sc_lines sc) ->
  scannet_new basedir (Z.of_nat start) (Z.of_nat e) [sc] = Err IndexError.
Proof.
  intros H1 H2 H3. unfold scannet_new. destruct (Z.ltb_spec (Z.of_nat start) 0); [lia|]. destruct (Z.eqb_spec (Z.of_nat e) (-1)); [lia|].
  destruct (Z.ltb_spec (Z.of_nat start) (Z.of_nat e)); [|lia]. cbn [negb orb guard rbind]. rewrite Nat2Z.id. replace (Z.of_nat e - Z.of_nat start)%Z with (Z.of_nat (e - start)) by lia.
  cbn [scan_loop]. destruct (Z.ltb_spec (Z.of_nat (length (sc_lines sc))) (Z.of_nat (e - start))); [lia|]. cbn [negb guard rbind]. rewrite slice_pos, skipn_all2 by lia.
  rewrite firstn_nil. reflexivity.
Qed.
(* end = -1 with two scenes of different lengths: the sequence length is that of the last scene *)
Theorem p_scannet_two basedir sc1 sc2 fs1 fs2 : 0 < length (sc_lines sc1) -> 0 < length (sc_lines sc2) ->
  Forall2 (scene_frame basedir) (sc_lines sc1) fs1 -> Forall2 (scene_frame basedir) (sc_lines sc2) fs2 ->
  exists d, scannet_new basedir 0 (-1) [sc1; sc2] = Ok d /\
    scannet_frames d 0 = (if length fs1 <? length fs2 then Err IndexError else Ok (firstn (length fs2) fs1)).
Proof.
  intros H1 H2 F1 F2. unfold scannet_new. cbn [Z.ltb Z.compare Z.eqb negb orb guard rbind Pos.eqb Z.to_nat Pos.to_nat]. cbn [scan_loop].
  change (Z.of_nat 0) with 0%Z. rewrite ?Z.sub_0_r, !Z.ltb_irrefl. cbn [negb guard rbind]. rewrite !slice_pos, !Nat.sub_0_r. cbn [skipn]. rewrite !firstn_all.
  rewrite (scan_lines_ok _ _ _ F1), (scan_lines_ok _ _ _ F2). cbn [rbind]. pose proof (Forall2_len _ _ _ F1) as L1. pose proof (Forall2_len _ _ _ F2) as L2.
  destruct fs1 as [|f1 fs1]; [cbn in L1; lia|]. destruct fs2 as [|f2 fs2]; [cbn in L2; lia|]. cbn [item nth_error rbind]. eexists. split; [reflexivity|].
  unfold scannet_frames. cbn [sd_frames sd_seqlen item nth_error rbind]. rewrite Nat2Z.id, L2.
  destruct (Nat.ltb_spec (length (f1 :: fs1)) (length (f2 :: fs2))) as [Hl|Hl]; [now apply gather_short|].
  set (l := f1 :: fs1) in *. set (n := length (f2 :: fs2)) in *. clearbody l n. rewrite <- (firstn_skipn n l) at 1.
  assert (Ln : length (firstn n l) = n) by (rewrite firstn_length; lia).
  pose proof (gather_all (firstn n l) []) as G. cbn [app length] in G. rewrite Ln in G. unfold gather in *. rewrite <- G.
  clear G. assert (Q : forall s, Forall (fun i => i < n) s -> mapM (item (firstn n l ++ skipn n l)) s = mapM (item (firstn n l)) s).
  { induction 1 as [|i s Hi F IH]; [reflexivity|]. cbn [mapM]. unfold item at 1 3. rewrite nth_error_app1 by lia. rewrite IH. reflexivity. }
  apply Q, Forall_forall. intros i Hi. apply in_seq in Hi. lia.
Qed.

(* ---------------- labels *)
Definition remap1 (x : nat) : nat := fold_left (fun x st => if x =? fst st then snd st else x) remapping x.
Lemma remap_map img : nyu40_to_scannet20 img = map (map remap1) img.
Proof.
  unfold nyu40_to_scannet20, remap1. generalize remapping as t. intros t. revert img. induction t as [|st t IH]; intros img; cbn [fold_left].
  - rewrite (map_ext _ (fun x => x)); [now rewrite map_id|]. intros r. now rewrite map_id.
  - rewrite IH. unfold remap_pass. rewrite map_map. apply map_ext. intros r. rewrite map_map. reflexivity.
Qed.
Lemma remap1_class x : remap1 x = class20 x.
Proof.
  do 41 (destruct x as [|x]; [reflexivity|]). unfold remap1, class20.
  match goal with |- _ = match nth_error ?p ?n with _ => _ end => replace (nth_error p n) with (@None (string * color3)) by (symmetry; apply nth_error_None; cbn; lia) end.
  reflexivity.
Qed.
Theorem p_remap img : nyu40_to_scannet20 img = map (map class20) img.
Proof. rewrite remap_map. apply map_ext. intros r. apply map_ext. exact remap1_class. Qed.
(* the palettes *)
Theorem p_palettes_agree x name c : nth_error palette_nyu40 x = Some (name, c) ->
  (forall k, position name palette_scannet20 = Some k -> nth_error palette_scannet20 k = Some (name, c) /\ class20 x = k) /\
  (position name palette_scannet20 = None -> class20 x = 0).
Proof.
  intros E. split.
  - intros k H. split; [|unfold class20; rewrite E, H; reflexivity].
    do 41 (destruct x as [|x]; [cbn [nth_error palette_nyu40] in E; injection E as <- <-; vm_compute in H; first [discriminate H|injection H as <-; reflexivity]|]). 
    exfalso. assert (S (x + 40) < length palette_nyu40) by (apply nth_error_Some; replace (S (x + 40)) with (41 + x) by lia; cbn [plus]; congruence). cbn in H0. lia.
  - intros H. unfold class20. rewrite E, H. reflexivity.
Qed.
Theorem p_class20_range x : x <= 40 -> class20 x <= 20.
Proof. intros H. do 41 (destruct x as [|x]; [vm_compute; lia|]). lia. Qed.
Theorem p_class20_onto k : k <= 20 -> exists x, x <= 40 /\ class20 x = k.
Proof.
  intros H. do 13 (destruct k as [|k]; [match goal with |- exists x, _ /\ _ = ?n => exists n; split; [lia|reflexivity] end|]).
  destruct k as [|k]; [exists 14; split; [lia|reflexivity]|]. destruct k as [|k]; [exists 16; split; [lia|reflexivity]|]. destruct k as [|k]; [exists 24; split; [lia|reflexivity]|].
  destruct k as [|k]; [exists 28; split; [lia|reflexivity]|]. destruct k as [|k]; [exists 33; split; [lia|reflexivity]|]. destruct k as [|k]; [exists 34; split; [lia|reflexivity]|].
  destruct k as [|k]; [exists 36; split; [lia|reflexivity]|]. destruct k as [|k]; [exists 39; split; [lia|reflexivity]|]. lia.
Qed.
Theorem p_remap_large x : 40 < x -> nyu40_to_scannet20 [[x]] = [[x]].
Proof.
  intros H. rewrite p_remap. cbn [map]. do 2 f_equal. unfold class20. rewrite (proj2 (nth_error_None palette_nyu40 x)); [reflexivity|]. cbn. lia.
Qed.
(* painting *)
Lemma combine_map {A B} (f : A -> B) l : combine l (map f l) = map (fun x => (x, f x)) l.
Proof. induction l as [|x l IH]; cbn; congruence. Qed.
Lemma paint_row pred colors : forall idx (g : nat -> color3), paint_loop pred idx colors (map (map g) pred) =
  map (map (fun x => if (idx <=? x) then nth (x - idx) colors (g x) else g x)) pred.
Proof.
  induction colors as [|c colors IH]; intros idx g; cbn [paint_loop].
  - apply map_ext. intros r. apply map_ext. intros x. destruct (idx <=? x); [destruct (x - idx)|]; reflexivity.
  - rewrite combine_map, map_map. cbn [fst snd].
    rewrite (map_ext _ (map (fun x => if x =? idx then c else g x))) by (intros r; rewrite combine_map, map_map; reflexivity).
    rewrite IH. apply map_ext. intros r. apply map_ext. intros x.
    destruct (Nat.leb_spec (S idx) x); destruct (Nat.leb_spec idx x); destruct (Nat.eqb_spec x idx); try lia; try reflexivity.
    + replace (x - idx) with (S (x - S idx)) by lia. reflexivity.
    + subst x. rewrite Nat.sub_diag. reflexivity.
Qed.
Theorem p_label_image pred colors : create_label_image pred (PColors colors) = Ok (map (map (fun x => nth x colors (0, 0, 0))) pred).
Proof. cbn [create_label_image]. rewrite paint_row. f_equal. apply map_ext. intros r. apply map_ext. intros x. cbn. now rewrite Nat.sub_0_r. Qed.
Theorem p_label_image_dict pred names r x : In r pred -> In x r -> x < length names -> create_label_image pred (PDict names) = Err ValueError.
Proof.
  intros H K L. cbn [create_label_image]. assert (E : existsb (existsb (fun x => x <? length names)) pred = true).
  { apply existsb_exists. exists r. split; [exact H|]. apply existsb_exists. exists x. split; [exact K|]. now apply Nat.ltb_lt. }
  rewrite E. reflexivity.
Qed.
