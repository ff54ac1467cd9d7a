(* The statements of C55-C62, closed, with their refutations and witnesses. *)
From Coq Require Import Ascii String List Arith Bool Reals ZArith Lia Lra Sorting.Sorted.
From Verif Require Import Res MatSpec DataUtilsModel TextModel TumModel DatasetModel DataSpec DatasetSpec
  TextProofs AssocProofs FileProofs FindAssocProofs WindowProofs PoseFileProofs SceneProofs.
Import ListNotations.
Local Open Scope nat_scope.

Lemma Forall2_impl {A B} (P Q : A -> B -> Prop) l r : (forall x y, P x y -> Q x y) -> Forall2 P l r -> Forall2 Q l r.
Proof. intros H. induction 1; constructor; auto. Qed.
(* ---------------- C55 *)
Lemma q_associate rnd value offset maxd first second : NoDup first -> NoDup second -> readable value first -> readable value second ->
  exists m, associate rnd value first second offset maxd = Ok m /\ Association rnd value offset maxd first second m.
Proof. apply p_associate. Qed.
Lemma q_associate_iff rnd value offset maxd first second m : NoDup first -> NoDup second -> readable value first -> readable value second ->
  (associate rnd value first second offset maxd = Ok m <-> Association rnd value offset maxd first second m).
Proof.
  intros N1 N2 R1 R2. destruct (p_associate rnd value offset maxd first second N1 N2 R1 R2) as (m' & E & A). split.
  - intros E'. congruence.
  - intros A'. rewrite E. f_equal. eapply p_assoc_unique; eauto.
Qed.
Lemma q_associate_order rnd value offset maxd first second first' second' : NoDup first -> NoDup second -> readable value first -> readable value second ->
  NoDup first' -> NoDup second' -> (forall a, In a first <-> In a first') -> (forall b, In b second <-> In b second') ->
  associate rnd value first second offset maxd = associate rnd value first' second' offset maxd.
Proof.
  intros N1 N2 R1 R2 N1' N2' H1 H2. destruct (p_associate rnd value offset maxd first second N1 N2 R1 R2) as (m & E & A). rewrite E. symmetry.
  assert (R1' : readable value first') by (intros a Ha; apply R1, H1, Ha). assert (R2' : readable value second') by (intros a Ha; apply R2, H2, Ha).
  apply q_associate_iff; auto. assert (C : forall a b, candidate rnd value offset maxd first' second' a b <-> candidate rnd value offset maxd first second a b).
  { intros a b. unfold candidate. now rewrite H1, H2. }
  destruct A as (A1 & A2 & A3 & A4 & A5). split; [intros a b K; apply C; auto|]. split; [exact A2|]. split; [exact A3|]. split; [|exact A5].
  intros a b K. apply A4, C, K.
Qed.
Lemma q_maximal rnd value offset maxd first second m a b : NoDup first -> NoDup second -> readable value first -> readable value second ->
  associate rnd value first second offset maxd = Ok m -> candidate rnd value offset maxd first second a b -> In a (map fst m) \/ In b (map snd m).
Proof. intros N1 N2 R1 R2 E. apply q_associate_iff in E; auto. eapply p_assoc_maximal; eauto. Qed.
Lemma q_sorted_by_time rnd value offset maxd first second m : NoDup first -> NoDup second -> readable value first -> readable value second ->
  associate rnd value first second offset maxd = Ok m ->
  (forall a b x y, In a first -> In b first -> alpha_lt a b -> value a = Ok (Some x) -> value b = Ok (Some y) -> (x <= y)%R) ->
  forall i j a b a' b' x y, i <= j -> nth_error m i = Some (a, b) -> nth_error m j = Some (a', b') -> value a = Ok (Some x) -> value a' = Ok (Some y) -> (x <= y)%R.
Proof. intros N1 N2 R1 R2 E. apply q_associate_iff in E; auto. eapply p_assoc_time_sorted; eauto. Qed.
Lemma q_associate_err rnd value offset maxd first second e : first <> [] -> second <> [] -> (forall k e', value k = Err e' -> e' = e) ->
  (exists k, (In k first \/ In k second) /\ value k = Err e) -> associate rnd value first second offset maxd = Err e.
Proof. apply p_associate_err. Qed.
Lemma q_associate_empty rnd value offset maxd first second : first = [] \/ second = [] -> associate rnd value first second offset maxd = Ok [].
Proof. apply p_associate_empty. Qed.
(* a small reading of numbers, for the examples *)
Definition small_number (s : text) : res (option R) :=
  if text_eqb s (txt "9") then Ok (Some 9%R) else if text_eqb s (txt "10") then Ok (Some 10%R) else
  if text_eqb s (txt "0") then Ok (Some 0%R) else if text_eqb s (txt "1") then Ok (Some 1%R) else if text_eqb s (txt "nan") then Ok None else Err ValueError.
Definition nine_ten : list text := [txt "9"; txt "10"].
Lemma nine_ten_ok : NoDup nine_ten /\ readable small_number nine_ten.
Proof.
  split; [repeat constructor; cbn; intuition discriminate|]. intros a [<-|[<-|[]]]; eexists; reflexivity.
Qed.
Lemma r_sorted_by_time : exists m, associate (fun x => x) small_number nine_ten nine_ten 0 (/ 2) = Ok m /\
  exists a b a' b' x y, nth_error m 0 = Some (a, b) /\ nth_error m 1 = Some (a', b') /\ small_number a = Ok (Some x) /\ small_number a' = Ok (Some y) /\ (y < x)%R.
Proof.
  destruct nine_ten_ok as [N Rd]. exists [(txt "10", txt "10"); (txt "9", txt "9")]. split.
  - apply q_associate_iff; auto.
    assert (G9 : Gap (fun x => x) small_number 0 (txt "9") (txt "9") 0) by (exists 9%R, 9%R; repeat split; replace (9 - (9 + 0))%R with 0%R by lra; now rewrite Rabs_R0).
    assert (G10 : Gap (fun x => x) small_number 0 (txt "10") (txt "10") 0) by (exists 10%R, 10%R; repeat split; replace (10 - (10 + 0))%R with 0%R by lra; now rewrite Rabs_R0).
    repeat split.
    + destruct H as [H|[H|[]]]; injection H as <- <-; cbn; auto.
    + destruct H as [H|[H|[]]]; injection H as <- <-; cbn; auto.
    + destruct H as [H|[H|[]]]; injection H as <- <-; exists 0%R; (split; [assumption|lra]).
    + repeat constructor; cbn; intuition discriminate.
    + repeat constructor; cbn; intuition discriminate.
    + intros a b (Ha & Hb & d & (x & y & Ex & Ey & ->) & L). left.
      destruct Ha as [<-|[<-|[]]]; destruct Hb as [<-|[<-|[]]]; cbn [In]; auto; exfalso.
      * assert (x = 9%R) by (cbn in Ex; congruence). assert (y = 10%R) by (cbn in Ey; congruence). subst. unfold Rabs in L. destruct (Rcase_abs _) in L; lra.
      * assert (x = 10%R) by (cbn in Ex; congruence). assert (y = 9%R) by (cbn in Ey; congruence). subst. unfold Rabs in L. destruct (Rcase_abs _) in L; lra.
    + repeat constructor.
  - exists (txt "10"), (txt "10"), (txt "9"), (txt "9"), 10%R, 9%R. repeat split. lra.
Qed.
Lemma q_find_rgbd rnd value maxd rgbf depthf start e :
  let rgb := read_file_list rgbf start e in let depth := read_file_list depthf None None in
  readable value (keys rgb) -> readable value (keys depth) ->
  exists a m, find_associations rnd value maxd rgbf depthf None start e = Ok (a, map (fun p => (fst p, snd p, None)) m) /\
    Association rnd value 0 maxd (keys rgb) (keys depth) m /\
    Forall2 (fun p x => exists c cs d ds, In (fst p, c :: cs) rgb /\ In (snd p, d :: ds) depth /\ x = (c, d, None)) m a.
Proof. apply p_find_rgbd. Qed.
Lemma q_find_rgbd_pose rnd value maxd rgbf depthf posef start e poses :
  let rgb := read_file_list rgbf start e in let depth := read_file_list depthf None None in
  readable value (keys rgb) -> readable value (keys depth) -> read_trajectory value posef = Ok poses -> readable value (keys poses) ->
  exists a ts m1 m2, find_associations rnd value maxd rgbf depthf (Some posef) start e = Ok (a, ts) /\
    Association rnd value 0 maxd (keys rgb) (keys depth) m1 /\ Association rnd value 0 maxd (map snd m1) (keys poses) m2 /\
    Forall2 (fun p t => exists r, In (r, fst p) m1 /\ t = (r, fst p, Some (snd p))) m2 ts /\
    Forall2 (fun t x => exists r d p c cs f fs q, t = (r, d, Some p) /\ In (r, c :: cs) rgb /\ In (d, f :: fs) depth /\ In (p, q) poses /\ x = (c, f, Some q)) ts a.
Proof. apply p_find_rgbd_pose. Qed.
Lemma q_find_gaps rnd value maxd rgbf depthf posef start e poses a ts r d p :
  readable value (keys (read_file_list rgbf start e)) -> readable value (keys (read_file_list depthf None None)) ->
  read_trajectory value posef = Ok poses -> readable value (keys poses) ->
  find_associations rnd value maxd rgbf depthf (Some posef) start e = Ok (a, ts) -> In (r, d, Some p) ts ->
  (exists g, Gap rnd value 0 r d g /\ (g < maxd)%R) /\ (exists g, Gap rnd value 0 d p g /\ (g < maxd)%R).
Proof.
  intros R1 R2 Ep R3 E H. destruct (p_find_rgbd_pose rnd value maxd rgbf depthf posef start e poses R1 R2 Ep R3) as (a' & ts' & m1 & m2 & E' & A & B & F & _).
  assert (ts' = ts) by congruence. subst ts'. exact (p_find_gaps rnd value maxd m1 m2 _ _ _ ts r d p A B F H).
Qed.

(* ---------------- C56 *)
Lemma q_windows L d s n : 0 < L -> 0 < s -> exists ws, windows L d s n = Ok ws /\
  forall k w, nth_error ws k = Some w <-> k * s + (L - 1) * (d + 1) < n /\ w = map (fun i => k * s + i * (d + 1)) (seq 0 L).
Proof.
  intros HL Hs. destruct (p_windows L d s n HL Hs) as (c & E & Hc). eexists. split; [exact E|]. intros k w. rewrite <- Hc. rewrite nth_error_map. split.
  - intros H. destruct (nth_error (seq 0 c) k) as [v|] eqn:Ev; [|discriminate]. assert (k < c) by (rewrite <- (seq_length c 0); apply nth_error_Some; congruence).
    split; [assumption|]. rewrite (nth_error_nth' _ 0) in Ev by now rewrite seq_length. rewrite seq_nth in Ev by assumption. injection Ev as <-. injection H as <-. reflexivity.
  - intros [H ->]. rewrite (nth_error_nth' _ 0) by now rewrite seq_length. rewrite seq_nth by assumption. reflexivity.
Qed.
Lemma q_tum w dir name load assoc stamps fs : 0 < w_len w -> 0 < w_stride w -> length stamps = length assoc ->
  Forall2 (tum_frame dir name load) assoc fs ->
  exists r nm, tum_sequence w dir name load assoc stamps = Ok r /\
    Sampled (w_len w) (w_dil w) (w_stride w) (map (fun f => fst (fst (fst f))) fs) (t_color r) /\
    Sampled (w_len w) (w_dil w) (w_stride w) (map (fun f => snd (fst (fst f))) fs) (t_depth r) /\
    Sampled (w_len w) (w_dil w) (w_stride w) stamps (t_stamps r) /\
    Sampled (w_len w) (w_dil w) (w_stride w) (map snd fs) nm /\ t_names r = map (join (txt ", ")) nm /\
    (if load then Sampled (w_len w) (w_dil w) (w_stride w) (map (fun f => snd (fst f)) fs) (t_poses r) else t_poses r = []).
Proof. apply p_tum_sequence. Qed.
Lemma q_tum_all w load seqs rs : Forall2 (fun s r => match s with (dir, name, assoc, stamps) => tum_sequence w dir name load assoc stamps = Ok r end) seqs rs ->
  tum_all w load seqs = Ok (mkTum (concat (map t_color rs)) (concat (map t_depth rs)) (concat (map t_names rs)) (concat (map t_stamps rs)) (concat (map t_poses rs))).
Proof. intros F. apply p_tum_all. induction F as [|[[[dir name] assoc] stamps] r seqs rs H F IH]; constructor; auto. Qed.
Lemma q_tum_bad_name w dir name assoc stamps c d p : In (c, d, p) assoc -> ~ ((exists x, c = txt "rgb" ++ x) /\ (exists y, d = txt "depth" ++ y)) ->
  tum_sequence w dir name false assoc stamps = Err ValueError.
Proof. apply p_tum_bad_name. Qed.
Lemma q_stride0 L d n : windows L d 0 n = Err ValueError.
Proof. reflexivity. Qed.
Lemma q_seqlen0 d s n : 0 < s -> windows 0 d s n = if n =? 0 then Ok [] else Err IndexError.
Proof. intros H. destruct (Nat.eqb_spec n 0) as [->|N]; [now apply p_windows_empty|apply p_windows_len0; lia]. Qed.
Lemma q_args_ok L d s st e : args_ok L d s st e ->
  window_args (AInt L) (arg d) (arg s) (arg st) (arg e) = Ok (mkW (Z.to_nat L) (Z.to_nat (def d 0)) (Z.to_nat (def s (L * (def d 0 + 1)))) (Z.to_nat (def st 0)) e).
Proof. apply p_args_ok. Qed.
Lemma q_args_values L d s st e : ~ args_ok L d s st e -> window_args (AInt L) (arg d) (arg s) (arg st) (arg e) = Err ValueError.
Proof. apply p_args_values. Qed.
Lemma q_args_types L d s st e : L = ANone \/ L = ABad \/ d = ABad \/ s = ABad -> window_args L d s st e = Err TypeError.
Proof. apply p_args_types. Qed.
Lemma q_args_range_types L d s st e : st = ABad \/ e = ABad -> (exists x, window_args (AInt L) (arg d) (arg s) ANone ANone = Ok x) ->
  window_args (AInt L) (arg d) (arg s) st e = Err TypeError.
Proof. apply p_args_range_types. Qed.
(* the default stride: consecutive windows do not share frames *)
Lemma q_default_stride L d k i j : i < L -> j < L -> 0 < L -> k * (L * (d + 1)) + i * (d + 1) < (k + 1) * (L * (d + 1)) + j * (d + 1).
Proof. intros Hi Hj HL. assert (i * (d + 1) < L * (d + 1)) by (apply Nat.mul_lt_mono_pos_r; lia). lia. Qed.

(* ---------------- C57 *)
Lemma q_icl tr w load lines fs plines : 0 < w_len w -> 0 < w_stride w -> match w_end w with Some e => (0 <= e)%Z | None => True end ->
  FileLines (tr_assoc tr) lines -> FileLines (tr_poses tr) plines ->
  Forall2 (fun line f => IclFrame line (fst f) (snd f)) (icl_used tr w lines) fs -> (load = true -> (length fs - 1) * 4 <= length plines) ->
  exists r nm, icl_traj w load tr = Ok r /\
    Sampled (w_len w) (w_dil w) (w_stride w) (map (fun f => icl_path (tr_dir tr) (fst f)) fs) (i_color r) /\
    Sampled (w_len w) (w_dil w) (w_stride w) (map (fun f => icl_path (tr_dir tr) (snd f)) fs) (i_depth r) /\
    Sampled (w_len w) (w_dil w) (w_stride w) (map (fun f => icl_name (tr_name tr) (snd f)) fs) nm /\ i_names r = map (join (txt ", ")) nm /\
    (if load then exists ls, Sampled (w_len w) (w_dil w) (w_stride w) (map (fun j => j * 4) (seq 0 (length fs))) ls /\ i_poses r = map (fun l => (tr_posefile tr, l)) ls else i_poses r = []).
Proof. apply p_icl_traj. Qed.
Lemma q_icl_all w load trs rs : Forall2 (fun t r => icl_traj w load t = Ok r) trs rs ->
  icl_all w load trs = Ok (mkIcl (concat (map i_color rs)) (concat (map i_depth rs)) (concat (map i_names rs)) (concat (map i_poses rs))).
Proof. apply p_icl_all. Qed.
(* with start = 0 the pose read with the frame of line j of the associations file is pose j of the pose file *)
Lemma q_icl_start0 value tr w lines fs plines (pose : nat -> list row4) : 0 < w_len w -> 0 < w_stride w -> w_start w = 0 -> match w_end w with Some e => (0 <= e)%Z | None => True end ->
  FileLines (tr_assoc tr) lines -> FileLines (tr_poses tr) plines ->
  Forall2 (fun line f => IclFrame line (fst f) (snd f)) (icl_used tr w lines) fs ->
  (forall j, j < length fs -> PoseAt value plines (j * 4) (pose j)) ->
  exists r, icl_traj w true tr = Ok r /\
    forall k c, nth_error (i_color r) k = Some c -> exists frames ls,
      nth_error (i_poses r) k = Some (tr_posefile tr, ls) /\
      Forall2 (fun i j => j = k * w_stride w + i * (w_dil w + 1)) (seq 0 (w_len w)) frames /\
      Forall2 (fun j x => exists line f d, nth_error lines j = Some line /\ IclFrame line f d /\ x = icl_path (tr_dir tr) f) frames c /\
      load_poses value (tr_poses tr) ls = Ok (map pose frames).
Proof.
  intros HL Hs H0 He FL FP F P.
  assert (B : true = true -> (length fs - 1) * 4 <= length plines).
  { intros _. destruct (Nat.eq_dec (length fs) 0) as [Z|Z]; [lia|]. destruct (P (length fs - 1) ltac:(lia)) as (l0 & _ & _ & _ & _ & _ & E & _). assert ((length fs - 1) * 4 < length plines) by (apply nth_error_Some; congruence). lia. }
  destruct (p_icl_traj tr w true lines fs plines HL Hs He FL FP F B) as (r & nm & Er & Sc & Sd & _ & _ & ls & Sl & Ep).
  exists r. split; [exact Er|]. intros k c Hk. pose proof (proj1 (Sc k c) Hk) as [Bk Wk]. rewrite map_length in Bk.
  destruct (nth_error ls k) as [l|] eqn:El.
  2:{ exfalso. apply nth_error_None in El.
      assert (G : exists x, Forall2 (fun i y => nth_error (map (fun j => j * 4) (seq 0 (length fs))) (k * w_stride w + i * (w_dil w + 1)) = Some y) (seq 0 (w_len w)) x).
      { clear - HL Bk. assert (Q : Forall (fun i => k * w_stride w + i * (w_dil w + 1) < length fs) (seq 0 (w_len w))).
        { apply Forall_forall. intros i Hi. apply in_seq in Hi. assert (i * (w_dil w + 1) <= (w_len w - 1) * (w_dil w + 1)) by (apply Nat.mul_le_mono_r; lia). lia. }
        clear Bk. induction Q as [|i l Hi Q (x & IH)]; [exists []; constructor|]. destruct (nth_error (map (fun j => j * 4) (seq 0 (length fs))) (k * w_stride w + i * (w_dil w + 1))) as [y|] eqn:E.
        - exists (y :: x). constructor; assumption.
        - apply nth_error_None in E. rewrite map_length, seq_length in E. lia. }
      destruct G as (x & Hx). assert (nth_error ls k = Some x) by (apply Sl; split; [rewrite map_length, seq_length; exact Bk|exact Hx]). assert (k < length ls) by (apply nth_error_Some; congruence). lia. }
  exists (map (fun i => k * w_stride w + i * (w_dil w + 1)) (seq 0 (w_len w))), l. split; [rewrite Ep, nth_error_map, El; reflexivity|]. split; [|split].
  - clear. induction (seq 0 (w_len w)) as [|a l0 IH]; cbn [map]; constructor; [reflexivity|exact IH].
  - apply Forall2_map_l. eapply Forall2_impl; [|exact Wk]. intros i x Hi. cbv beta in Hi |- *. rewrite nth_error_map in Hi.
    destruct (nth_error fs (k * w_stride w + i * (w_dil w + 1))) as [f|] eqn:Ef; [|discriminate]. injection Hi as <-.
    assert (X : exists line, nth_error (icl_used tr w lines) (k * w_stride w + i * (w_dil w + 1)) = Some line /\ IclFrame line (fst f) (snd f)).
    { clear - F Ef. revert Ef. generalize (k * w_stride w + i * (w_dil w + 1)). induction F as [|a b la lb H F IH]; intros [|n] E; try discriminate; cbn in *; [injection E as ->; eauto|eauto]. }
    destruct X as (line & El' & If). exists line, (fst f), (snd f). split; [|split; [exact If|reflexivity]].
    clear - El' H0. unfold icl_used in El'. rewrite H0 in El'. cbn [skipn] in El'. revert El'. generalize (k * w_stride w + i * (w_dil w + 1)) as n.
    intros n E. assert (T : forall (l : list text) m j x, nth_error (firstn m l) j = Some x -> nth_error l j = Some x).
    { induction l as [|a l IH]; intros [|m] [|j] x E'; cbn in *; try discriminate; auto. eauto. }
    apply T in E. destruct (text_eqb _ _); [|exact E]. assert (T' : forall (l : list text) j x, nth_error (removelast l) j = Some x -> nth_error l j = Some x).
    { induction l as [|a l IH]; intros j x E'; [destruct j; discriminate|]. destruct l as [|b l]; [destruct j; discriminate|]. destruct j as [|j]; [exact E'|]. apply IH. exact E'. }
    apply T', E.
  - rewrite map_map. eapply (p_icl_window_poses value (tr_poses tr) plines ls l k (w_len w) (w_dil w) (w_stride w) (length fs) pose); eauto.
Qed.

(* two frames, two poses *)
Definition two_frames : text := txt "0 depth/0.png 0 rgb/0.png" ++ [newline] ++ txt "1 depth/1.png 1 rgb/1.png" ++ [newline].
Definition two_poses : text := txt "1 0 0 0" ++ [newline] ++ txt "0 1 0 0" ++ [newline] ++ txt "0 0 1 0" ++ [newline] ++ [newline] ++
  txt "1 0 0 9" ++ [newline] ++ txt "0 1 0 9" ++ [newline] ++ txt "0 0 1 9" ++ [newline] ++ [newline].
Definition two_traj (poses : text) : icltraj := mkTraj (txt "d") (txt "living_room_traj1_frei_png") two_frames (txt "p") poses.
Lemma r_icl_start : exists r, icl_traj (mkW 1 0 1 1 None) true (two_traj two_poses) = Ok r /\
  i_color r = [[txt "d/rgb/1.png"]] /\ i_poses r = [(txt "p", [0])].
Proof. eexists. split; [vm_compute; reflexivity|]. split; vm_compute; reflexivity. Qed.
Definition small_value (s : text) : res R := match small_number s with Ok (Some x) => Ok x | _ => Err ValueError end.
Lemma words_eq' line ws : split_ws line = ws -> Words line ws.
Proof. intros <-. apply words_spec. Qed.
Lemma filelines_eq' file ls : readlines file = ls -> FileLines file ls.
Proof. intros <-. apply filelines_spec. Qed.
Definition two_poses_lines : list text := [txt "1 0 0 0"; txt "0 1 0 0"; txt "0 0 1 0"; []; txt "1 0 0 9"; txt "0 1 0 9"; txt "0 0 1 9"; []].
Lemma two_poses_file : FileLines two_poses two_poses_lines.
Proof. apply filelines_eq'. vm_compute. reflexivity. Qed.
Definition pose0 : list row4 := [(1, 0, 0, 0); (0, 1, 0, 0); (0, 0, 1, 0); (0, 0, 0, 1)]%R.
Definition pose1 : list row4 := [(1, 0, 0, 9); (0, 1, 0, 9); (0, 0, 1, 9); (0, 0, 0, 1)]%R.
Ltac numrow := match goal with |- NumRow _ _ (?x, ?y, ?z, ?w) => do 4 eexists; exists x, y, z, w; split; [apply words_eq'; vm_compute; reflexivity|repeat split] end.
Lemma two_poses_0 : PoseAt small_value two_poses_lines 0 pose0.
Proof. unfold PoseAt. do 6 eexists. split; [reflexivity|]. split; [reflexivity|]. split; [reflexivity|]. split; [|split; [|split; [|reflexivity]]]; numrow. Qed.
Lemma two_poses_1 : PoseAt small_value two_poses_lines 4 pose1.
Proof. unfold PoseAt. do 6 eexists. split; [reflexivity|]. split; [reflexivity|]. split; [reflexivity|]. split; [|split; [|split; [|reflexivity]]]; numrow. Qed.
(* the frame of line 1 is returned with pose 0 *)
Lemma r_icl_pose : exists r ls, icl_traj (mkW 1 0 1 1 None) true (two_traj two_poses) = Ok r /\
  nth_error (i_color r) 0 = Some [txt "d/rgb/1.png"] /\ nth_error (i_poses r) 0 = Some (txt "p", ls) /\
  load_poses small_value two_poses ls = Ok [pose0] /\ load_poses small_value two_poses [4] = Ok [pose1] /\ pose0 <> pose1.
Proof.
  destruct r_icl_start as (r & E & Ec & Ep). exists r, [0]. split; [exact E|]. rewrite Ec, Ep. split; [reflexivity|]. split; [reflexivity|].
  split; [apply (p_load_poses small_value two_poses two_poses_lines [0] [0]); [exact two_poses_file|constructor|reflexivity|repeat constructor; apply two_poses_0]|].
  split; [apply (p_load_poses small_value two_poses two_poses_lines [4] [4]); [exact two_poses_file|constructor|reflexivity|repeat constructor; apply two_poses_1]|].
  unfold pose0, pose1. intros K. injection K. intros. lra.
Qed.
(* a pose file that is one pose short is accepted, and the sample then has no pose *)
Lemma r_icl_short : exists file r, let tr := two_traj file in icl_traj (mkW 1 0 1 0 None) true tr = Ok r /\
  nth_error (i_color r) 1 = Some [txt "d/rgb/1.png"] /\ nth_error (i_poses r) 1 = Some (txt "p", [4]) /\ load_poses small_value file [4] = Ok [].
Proof.
  exists (txt "1 0 0 0" ++ [newline] ++ txt "0 1 0 0" ++ [newline] ++ txt "0 0 1 0" ++ [newline] ++ [newline]). eexists.
  split; [vm_compute; reflexivity|]. split; [vm_compute; reflexivity|]. split; [vm_compute; reflexivity|].
  apply (p_load_past_end small_value _ [txt "1 0 0 0"; txt "0 1 0 0"; txt "0 0 1 0"; []]); [apply filelines_eq'; vm_compute; reflexivity|].
  intros s [<-|[]]. cbn. lia.
Qed.

(* ---------------- C58 *)
Lemma q_load_poses value file lines starts poses : FileLines file lines -> Spaced starts -> Forall2 (PoseAt value lines) starts poses ->
  load_poses value file starts = Ok poses.
Proof. intros L Sp F. eapply p_load_poses; eauto. reflexivity. Qed.
Lemma q_load_any_order value file lines starts sorted poses : FileLines file lines -> Spaced sorted -> (forall s, In s starts <-> In s sorted) ->
  Forall2 (PoseAt value lines) sorted poses -> load_poses value file starts = Ok poses.
Proof. apply p_load_poses. Qed.
Lemma r_load_order : exists starts poses, Forall2 (PoseAt small_value two_poses_lines) starts poses /\ FileLines two_poses two_poses_lines /\
  load_poses small_value two_poses starts <> Ok poses.
Proof.
  exists [4; 0], [pose1; pose0]. split; [constructor; [exact two_poses_1|constructor; [exact two_poses_0|constructor]]|]. split; [exact two_poses_file|].
  rewrite (p_load_poses small_value two_poses two_poses_lines [4; 0] [0; 4] [pose0; pose1]).
  - intros K. injection K. unfold pose0, pose1. intros. lra.
  - exact two_poses_file.
  - constructor; [lia|constructor].
  - intros s. cbn. tauto.
  - constructor; [exact two_poses_0|constructor; [exact two_poses_1|constructor]].
Qed.
Lemma q_load_past_end value file lines starts : FileLines file lines -> (forall s, In s starts -> length lines <= s) -> load_poses value file starts = Ok [].
Proof. apply p_load_past_end. Qed.
Lemma q_load_cut value file lines s l0 : FileLines file lines -> length lines = s + 1 -> nth_error lines s = Some l0 -> (exists r, NumRow value l0 r) -> load_poses value file [s] = Ok [].
Proof. apply p_load_cut. Qed.
Lemma q_load_faulty value file lines s k l : FileLines file lines -> k < 3 -> nth_error lines (s + k) = Some l -> (forall ws, Words l ws -> length ws <> 4) ->
  (forall j x, j < k -> nth_error lines (s + j) = Some x -> exists ws, Words x ws /\ length ws = 4) -> load_poses value file [s] = Err ValueError.
Proof. apply p_load_faulty. Qed.

(* ---------------- C59 *)
Lemma q_scannet basedir (start e : nat) scs fss : start < e ->
  Forall2 (fun sc fs => e <= length (sc_lines sc) /\ frames_of basedir start (e - start) sc fs) scs fss ->
  exists d, scannet_new basedir (Z.of_nat start) (Z.of_nat e) scs = Ok d /\ sd_seqlen d = Z.of_nat (e - start) /\ sd_names d = map sc_name scs /\
    sd_intr d = map first_intr fss /\ sd_frames d = fss /\ forall i fs, nth_error fss i = Some fs -> scannet_frames d i = Ok fs.
Proof. apply p_scannet. Qed.
Lemma q_scannet_full basedir (start e : nat) scs fss : start < e -> scs <> [] ->
  Forall2 (fun sc fs => length (sc_lines sc) = e /\ frames_of basedir start (e - start) sc fs) scs fss ->
  exists d, scannet_new basedir (Z.of_nat start) (-1) scs = Ok d /\ sd_seqlen d = Z.of_nat (e - start) /\ sd_names d = map sc_name scs /\
    sd_intr d = map first_intr fss /\ sd_frames d = fss /\ forall i fs, nth_error fss i = Some fs -> scannet_frames d i = Ok fs.
Proof. apply p_scannet_full. Qed.
Lemma q_scannet_args basedir start e scs : (start < 0 \/ (e <> -1 /\ e <= start))%Z -> scannet_new basedir start e scs = Err ValueError.
Proof. apply p_scannet_args. Qed.
Lemma q_scannet_too_short basedir (start e : nat) pre fss sc post : start < e ->
  Forall2 (fun sc fs => e <= length (sc_lines sc) /\ frames_of basedir start (e - start) sc fs) pre fss ->
  length (sc_lines sc) < e - start -> scannet_new basedir (Z.of_nat start) (Z.of_nat e) (pre ++ sc :: post) = Err ValueError.
Proof. apply p_scannet_too_short. Qed.
Lemma r_scannet_cut basedir (start e : nat) sc fs : start < length (sc_lines sc) -> length (sc_lines sc) < e -> e - start <= length (sc_lines sc) ->
  frames_of basedir start (e - start) sc fs -> exists d, scannet_new basedir (Z.of_nat start) (Z.of_nat e) [sc] = Ok d /\ scannet_frames d 0 = Err IndexError.
Proof. apply p_scannet_cut. Qed.
Lemma r_scannet_past basedir (start e : nat) sc : length (sc_lines sc) <= start -> start < e -> e - start <= length (sc_lines sc) ->
  scannet_new basedir (Z.of_nat start) (Z.of_nat e) [sc] = Err IndexError.
Proof. apply p_scannet_past. Qed.
Lemma r_scannet_two basedir sc1 sc2 fs1 fs2 : 0 < length (sc_lines sc1) -> 0 < length (sc_lines sc2) ->
  Forall2 (scene_frame basedir) (sc_lines sc1) fs1 -> Forall2 (scene_frame basedir) (sc_lines sc2) fs2 ->
  exists d, scannet_new basedir 0 (-1) [sc1; sc2] = Ok d /\
    scannet_frames d 0 = (if length fs1 <? length fs2 then Err IndexError else Ok (firstn (length fs2) fs1)).
Proof. apply p_scannet_two. Qed.
Definition one_line : text := txt "color c depth d pose p label-filt l 8 9 10 11 12 13 intrinsic_depth i".
Definition one_frame : scanframe := mkSF (txt "b/c") (txt "b/d") (txt "b/p") (txt "b/l") (txt "b/i").
Lemma one_line_ok : scene_frame (txt "b") one_line one_frame.
Proof. do 5 eexists. split; [|reflexivity]. do 7 eexists. apply words_eq'. vm_compute. reflexivity. Qed.

(* ---------------- C60 *)
Lemma q_remap img : nyu40_to_scannet20 img = map (map class20) img.
Proof. apply p_remap. Qed.
Lemma q_palettes_agree x name c : nth_error palette_nyu40 x = Some (name, c) ->
  (forall k, position name palette_scannet20 = Some k -> nth_error palette_scannet20 k = Some (name, c) /\ class20 x = k) /\
  (position name palette_scannet20 = None -> class20 x = 0).
Proof. apply p_palettes_agree. Qed.
Lemma q_class20_range x : x <= 40 -> class20 x <= 20.
Proof. apply p_class20_range. Qed.
Lemma q_class20_onto k : k <= 20 -> exists x, x <= 40 /\ class20 x = k.
Proof. apply p_class20_onto. Qed.
Lemma r_remap_large x : 40 < x -> nyu40_to_scannet20 [[x]] = [[x]].
Proof. apply p_remap_large. Qed.
Lemma q_label_image pred colors : create_label_image pred (PColors colors) = Ok (map (map (fun x => nth x colors (0, 0, 0))) pred).
Proof. apply p_label_image. Qed.
Lemma r_label_image_dict pred names r x : In r pred -> In x r -> x < length names -> create_label_image pred (PDict names) = Err ValueError.
Proof. apply p_label_image_dict. Qed.

(* ---------------- C62 *)
Lemma q_read_file_list file rows start e : Rows file rows ->
  DictOf (entries (firstn (match e with None => length rows | Some z => if (z <? 0)%Z then Z.to_nat (Z.of_nat (length rows) + z) else Z.to_nat z end - match start with Some k => k | None => 0 end)
                    (skipn (match start with Some k => k | None => 0 end) rows)))
         (read_file_list file start e).
Proof. apply p_read_file_list. Qed.
Lemma q_rows_exist file : exists rows, Rows file rows /\ forall rows', Rows file rows' -> rows' = rows.
Proof. exists (rows_of file). split; [apply rows_of_spec|apply rows_unique]. Qed.
Lemma q_separators file file' start e : (forall rows, Rows file rows <-> Rows file' rows) -> read_file_list file start e = read_file_list file' start e.
Proof. apply p_separators. Qed.
Lemma q_read_trajectory value file rows kept : TrajFile value file rows -> Without (fun r => no_rotation (snd r)) rows kept ->
  Forall (fun r => Forall (fun v => v <> None) (snd r)) kept ->
  exists d, read_trajectory value file = Ok d /\ DictOf (map (fun r => (fst r, map num (firstn 7 (snd r)))) kept) d.
Proof. apply p_read_trajectory. Qed.
Lemma q_read_trajectory_matrix value file rows kept (m : text * list (option R) -> mat) : TrajFile value file rows -> Without (fun r => no_rotation (snd r)) rows kept ->
  Forall (fun r => Forall (fun v => v <> None) (snd r) /\ 7 <= length (snd r)) kept ->
  (forall r, In r kept -> let v := map num (firstn 7 (snd r)) in transform44 (fun i => nth i v 0%R) (fun i => nth (3 + i) v 0%R) = Ok (m r)) ->
  exists d, read_trajectory_matrix value file = Ok d /\ DictOf (map (fun r => (fst r, m r)) kept) d.
Proof. apply p_read_trajectory_matrix. Qed.
Lemma r_trajectory_nan value file rows r : TrajFile value file rows -> In r rows -> ~ no_rotation (snd r) -> In None (snd r) ->
  read_trajectory value file = Err NameError /\ read_trajectory_matrix value file = Err NameError.
Proof. apply p_trajectory_nan. Qed.
Lemma r_trajectory_blank value file ls : Lines file ls -> (exists line, In line ls /\ data_line line = true /\ Fields line []) ->
  (forall line, In line ls -> data_line line = true -> Fields line [] \/ exists stamp vals, TrajLine value line stamp (map Some vals)) ->
  read_trajectory value file = Err IndexError.
Proof. apply p_trajectory_blank. Qed.
Lemma q_trajectory_bad value file ls line p ps cores f : (forall g e, value g = Err e -> e = ValueError) -> Lines file ls -> In line ls -> data_line line = true ->
  Pieces separator line (p :: ps) -> Forall2 Trimmed ps cores -> In f cores -> f <> [] -> value f = Err ValueError ->
  read_trajectory value file = Err ValueError.
Proof. apply p_trajectory_bad. Qed.
(* a file with a comment, a pose, a pose with NaN *)
Definition good_file : text := txt "# comment" ++ [newline] ++ txt "9,1 0 0  0 0 0 1" ++ [newline].
Lemma trimmed_strip s c : strip s = c -> Trimmed s c.
Proof. intros <-. apply strip_spec. Qed.
Lemma pieces_sep line ps : split_if sepb line = ps -> Pieces separator line ps.
Proof. intros <-. apply split_pieces, sepb_spec. Qed.
Lemma lines_split file ls : split_on newline file = ls -> Lines file ls.
Proof. intros <-. apply lines_spec. Qed.
Lemma trim_all ps cs : map strip ps = cs -> Forall2 Trimmed ps cs.
Proof. intros <-. apply strip_all. Qed.
Lemma good_file_ok : TrajFile small_number good_file [(txt "9", map Some [1; 0; 0; 0; 0; 0; 1]%R)].
Proof.
  eexists. split; [apply lines_split; vm_compute; reflexivity|]. cbn [filter data_line Ascii.eqb Bool.eqb negb]. constructor; [|constructor]. cbn [fst snd].
  do 3 eexists. split; [apply pieces_sep; vm_compute; reflexivity|]. split; [apply trimmed_strip; vm_compute; reflexivity|]. split; [discriminate|].
  split; [apply trim_all; vm_compute; reflexivity|]. cbn [filter nonempty map]. repeat constructor.
Qed.
Definition nan_file : text := txt "9 nan 0 0 0 0 0 1".
Lemma nan_file_ok : TrajFile small_number nan_file [(txt "9", [None; Some 0; Some 0; Some 0; Some 0; Some 0; Some 1]%R)].
Proof.
  eexists. split; [apply lines_split; vm_compute; reflexivity|]. cbn [filter data_line Ascii.eqb Bool.eqb negb]. constructor; [|constructor]. cbn [fst snd].
  do 3 eexists. split; [apply pieces_sep; vm_compute; reflexivity|]. split; [apply trimmed_strip; vm_compute; reflexivity|]. split; [discriminate|].
  split; [apply trim_all; vm_compute; reflexivity|]. cbn [filter nonempty map]. repeat constructor.
Qed.
