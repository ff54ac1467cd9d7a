(* ICL pose files and frames (C57, C58). *)
From Coq Require Import Ascii String List Arith Bool Reals ZArith Lia.
From Verif Require Import Res TextModel DataSpec DatasetSpec DatasetModel TextProofs WindowProofs.
Import ListNotations.
Local Open Scope nat_scope.

Lemma words_spec line : Words line (split_ws line).
Proof. exists (split_if is_space line). split; [apply split_pieces; intros; apply space_blank|reflexivity]. Qed.
Lemma words_eq line ws : Words line ws -> split_ws line = ws.
Proof. intros (ps & H & ->). unfold split_ws. f_equal. eapply pieces_det; [|exact H]. apply split_pieces. intros; apply space_blank. Qed.
Lemma lines_spec' file : Lines file (split_on newline file).
Proof. apply split_pieces. intros c. unfold newline. destruct (Ascii.eqb_spec (ascii_of_nat 10) c); split; congruence. Qed.
Lemma filelines_spec file : FileLines file (readlines file).
Proof.
  exists (split_on newline file). split; [apply lines_spec'|]. unfold readlines.
  assert (N : split_on newline file <> []) by (pose proof (lines_spec' file) as H; inversion H; discriminate).
  destruct (exists_last N) as (l & x & E). rewrite E. rewrite last_rev_hd. destruct x as [|c x]; cbn [nonempty].
  - left. now rewrite removelast_last.
  - right. split; [reflexivity|]. exists l, (c :: x). split; [reflexivity|discriminate].
Qed.
Lemma filelines_eq file ls : FileLines file ls -> readlines file = ls.
Proof.
  intros (ps & H & K). assert (E : split_on newline file = ps) by (eapply pieces_det; [apply lines_spec'|exact H]). unfold readlines. rewrite E.
  destruct K as [->|[-> (l & x & -> & N)]]; rewrite last_rev_hd; cbn [nonempty]; [now rewrite removelast_last|]. destruct x; [congruence|reflexivity].
Qed.

Section Poses.
Variable value : text -> res R.
Lemma num_row line r : NumRow value line r -> length (split_ws line) = 4 /\ parse_row value (split_ws line) = Ok r.
Proof.
  intros (a & b & c & d & x & y & z & w & W & Ha & Hb & Hc & Hd & ->). rewrite (words_eq _ _ W). split; [reflexivity|]. cbn [parse_row]. rewrite Ha, Hb, Hc, Hd. reflexivity.
Qed.
Lemma nth_skip {A} (l : list A) i x : nth_error l i = Some x -> skipn i l = x :: skipn (S i) l.
Proof. revert i. induction l as [|y l IH]; intros [|i] E; try discriminate; cbn in *; [injection E as ->; reflexivity|]. apply IH in E. rewrite E. reflexivity. Qed.
Definition in_starts (i : nat) (l : list nat) : bool := existsb (Nat.eqb i) l.
Lemma in_starts_spec i l : in_starts i l = true <-> In i l.
Proof. unfold in_starts. rewrite existsb_exists. split; [intros (x & H & E); apply Nat.eqb_eq in E; congruence|intros H; exists i; rewrite Nat.eqb_refl; auto]. Qed.
Lemma loop_skip starts i lines : (forall j, i <= j < i + length lines -> ~ In j starts) -> load_loop value starts i lines [] = Ok [].
Proof.
  revert i. induction lines as [|l lines IH]; intros i H; [reflexivity|]. cbn [load_loop nonempty]. fold (in_starts i starts).
  destruct (in_starts i starts) eqn:E; [apply in_starts_spec in E; exfalso; apply (H i); [cbn; lia|exact E]|]. cbn [orb]. apply IH. intros j Hj. apply H. cbn. lia.
Qed.
Lemma loop_gap starts i lines k : (forall j, i <= j < i + k -> ~ In j starts) -> load_loop value starts i lines [] = load_loop value starts (i + k) (skipn k lines) [].
Proof.
  revert i lines. induction k as [|k IH]; intros i lines H; [now rewrite Nat.add_0_r|]. destruct lines as [|l lines]; [reflexivity|]. cbn [load_loop nonempty skipn]. fold (in_starts i starts).
  destruct (in_starts i starts) eqn:E; [apply in_starts_spec in E; exfalso; apply (H i); [lia|exact E]|]. cbn [orb]. rewrite (IH (S i) lines) by (intros j Hj; apply H; lia). f_equal. lia.
Qed.
Lemma loop_pose starts i l0 l1 l2 lines m : In i starts -> 
  (exists r0 r1 r2, NumRow value l0 r0 /\ NumRow value l1 r1 /\ NumRow value l2 r2 /\ m = [r0; r1; r2; (0, 0, 0, 1)%R]) ->
  load_loop value starts i (l0 :: l1 :: l2 :: lines) [] = (let? r := load_loop value starts (i + 3) lines [] in Ok (m :: r)).
Proof.
  intros H (r0 & r1 & r2 & H0 & H1 & H2 & ->). destruct (num_row _ _ H0) as [L0 P0]. destruct (num_row _ _ H1) as [L1 P1]. destruct (num_row _ _ H2) as [L2 P2].
  cbn [load_loop]. fold (in_starts i starts). rewrite (proj2 (in_starts_spec i starts) H). cbn [orb]. rewrite L0. cbn [Nat.eqb negb app length nonempty].
  rewrite !orb_true_r, L1. cbn [Nat.eqb negb app length nonempty]. rewrite ?orb_true_r, L2. cbn [Nat.eqb negb app length nonempty mapM]. rewrite P0, P1, P2. cbn [rbind app].
  replace (i + 3) with (S (S (S i))) by lia. reflexivity.
Qed.
Definition Above (i : nat) (rem starts : list nat) : Prop := forall j, i <= j -> (In j starts <-> In j rem).
Lemma spaced_hd s l : Spaced (s :: l) -> forall t, In t l -> s + 3 <= t.
Proof. revert s. induction l as [|u l IH]; intros s H t Ht; [destruct Ht|]. inversion H; subst. destruct Ht as [<-|Ht]; [assumption|]. specialize (IH u ltac:(assumption) t Ht). lia. Qed.
Lemma spaced_tl s l : Spaced (s :: l) -> Spaced l.
Proof. intros H. inversion H; subst; [constructor|assumption]. Qed.
Lemma loop_poses lines starts rem : Spaced rem -> forall poses i, Above i rem starts -> (forall s, In s rem -> i <= s) ->
  Forall2 (PoseAt value lines) rem poses -> load_loop value starts i (skipn i lines) [] = Ok poses.
Proof.
  induction rem as [|s rem IH]; intros Sp poses i A G F; inversion F as [|? m ? ms P Fm]; subst.
  - apply loop_skip. intros j Hj K. apply (A j) in K; [destruct K|lia].
  - assert (Hi : i <= s) by (apply G; now left). pose proof (spaced_hd _ _ Sp) as Hh.
    rewrite (loop_gap starts i (skipn i lines) (s - i)).
    2:{ intros j Hj K. apply (A j) in K; [|lia]. destruct K as [K|K]; [lia|]. apply Hh in K. lia. }
    assert (Es : skipn (s - i) (skipn i lines) = skipn s lines).
    { clear - Hi. replace s with ((s - i) + i) at 2 by lia. generalize (s - i). intros k. revert lines. induction i as [|i IHi]; intros lines; [now rewrite Nat.add_0_r|]. destruct lines; [now rewrite !skipn_nil|]. rewrite Nat.add_succ_r. cbn [skipn]. apply IHi. lia. }
    rewrite Es. replace (i + (s - i)) with s by lia.
    destruct P as (l0 & l1 & l2 & r0 & r1 & r2 & E0 & E1 & E2 & H0 & H1 & H2 & ->).
    rewrite (nth_skip _ _ _ E0). replace (S s) with (s + 1) by lia. rewrite (nth_skip _ _ _ E1). replace (S (s + 1)) with (s + 2) by lia. rewrite (nth_skip _ _ _ E2). replace (S (s + 2)) with (s + 3) by lia.
    rewrite (loop_pose starts s l0 l1 l2 _ [r0; r1; r2; (0, 0, 0, 1)%R]); [|apply A; [lia|now left]|exists r0, r1, r2; auto].
    rewrite (IH (spaced_tl _ _ Sp) ms (s + 3)); [reflexivity| | |exact Fm].
    + intros j Hj. rewrite (A j) by lia. cbn [In]. split; [intros [K|K]; [lia|exact K]|auto].
    + exact Hh.
Qed.
(* any list of requested lines: the order and repetitions do not matter *)
Theorem p_load_poses file lines starts sorted poses : FileLines file lines -> Spaced sorted -> (forall s, In s starts <-> In s sorted) ->
  Forall2 (PoseAt value lines) sorted poses -> load_poses value file starts = Ok poses.
Proof.
  intros L Sp S F. unfold load_poses. rewrite (filelines_eq _ _ L). apply (loop_poses lines starts sorted Sp poses 0); [intros j _; apply S|intros; lia|exact F].
Qed.
(* requested lines past the end give nothing *)
Theorem p_load_past_end file lines starts : FileLines file lines -> (forall s, In s starts -> length lines <= s) -> load_poses value file starts = Ok [].
Proof. intros L H. unfold load_poses. rewrite (filelines_eq _ _ L). apply loop_skip. intros j Hj K. apply H in K. lia. Qed.
(* a pose cut off by the end of the file gives nothing *)
Theorem p_load_cut file lines s l0 : FileLines file lines -> length lines = s + 1 -> nth_error lines s = Some l0 -> (exists r, NumRow value l0 r) -> load_poses value file [s] = Ok [].
Proof.
  intros L Hl E (r & Hr). unfold load_poses. rewrite (filelines_eq _ _ L). rewrite (loop_gap [s] 0 lines s) by (intros j Hj [K|[]]; lia). cbn [plus].
  rewrite (nth_skip _ _ _ E). rewrite (skipn_all2 (n := S s)) by lia. cbn [load_loop existsb]. rewrite Nat.eqb_refl. cbn [orb]. destruct (num_row _ _ Hr) as [L0 _]. rewrite L0. reflexivity.
Qed.
(* a line of the requested block that does not have four words *)
Theorem p_load_faulty file lines s k l : FileLines file lines -> k < 3 -> nth_error lines (s + k) = Some l -> (forall ws, Words l ws -> length ws <> 4) ->
  (forall j x, j < k -> nth_error lines (s + j) = Some x -> exists ws, Words x ws /\ length ws = 4) -> load_poses value file [s] = Err ValueError.
Proof.
  intros L Hk El N H. unfold load_poses. rewrite (filelines_eq _ _ L). rewrite (loop_gap [s] 0 lines s) by (intros j Hj [K|[]]; lia). cbn [plus].
  assert (Nl : (length (split_ws l) =? 4) = false) by (apply Nat.eqb_neq, N, words_spec).
  assert (Ok4 : forall j x, j < k -> nth_error lines (s + j) = Some x -> (length (split_ws x) =? 4) = true).
  { intros j x Hj Ex. destruct (H j x Hj Ex) as (ws & W & E). rewrite (words_eq _ _ W). now apply Nat.eqb_eq. }
  assert (Ex : forall j, j <= k -> exists x, nth_error lines (s + j) = Some x).
  { intros j Hj. destruct (nth_error lines (s + j)) eqn:E; [eauto|]. apply nth_error_None in E. assert (s + k < length lines) by (apply nth_error_Some; congruence). lia. }
  destruct k as [|[|[|k]]]; [| | |lia].
  - rewrite Nat.add_0_r in El. rewrite (nth_skip _ _ _ El). cbn [load_loop existsb]. rewrite Nat.eqb_refl. cbn [orb]. rewrite Nl. reflexivity.
  - destruct (Ex 0 ltac:(lia)) as (x0 & E0). pose proof (Ok4 0 x0 ltac:(lia) E0) as O0. rewrite Nat.add_0_r in E0.
    rewrite (nth_skip _ _ _ E0). replace (S s) with (s + 1) by lia. rewrite (nth_skip _ _ _ El). cbn [load_loop existsb]. rewrite Nat.eqb_refl. cbn [orb]. rewrite O0. cbn [negb app length Nat.eqb nonempty]. rewrite !orb_true_r, Nl. reflexivity.
  - destruct (Ex 0 ltac:(lia)) as (x0 & E0). pose proof (Ok4 0 x0 ltac:(lia) E0) as O0. rewrite Nat.add_0_r in E0.
    destruct (Ex 1 ltac:(lia)) as (x1 & E1). pose proof (Ok4 1 x1 ltac:(lia) E1) as O1.
    rewrite (nth_skip _ _ _ E0). replace (S s) with (s + 1) by lia. rewrite (nth_skip _ _ _ E1). replace (S (s + 1)) with (s + 2) by lia. rewrite (nth_skip _ _ _ El).
    cbn [load_loop existsb]. rewrite Nat.eqb_refl. cbn [orb]. rewrite O0. cbn [negb app length Nat.eqb nonempty]. rewrite !orb_true_r, O1. cbn [negb app length Nat.eqb nonempty]. rewrite ?orb_true_r, Nl. reflexivity.
Qed.
End Poses.

(* ---------------- ICL *)
Section Icl.
Variable tr : icltraj.
Lemma icl_frame_ok load n k line c d : IclFrame line c d -> (load = true -> k * 4 <= n) ->
  icl_frame load tr n k line = Ok (icl_path (tr_dir tr) c, icl_path (tr_dir tr) d, k * 4, icl_name (tr_name tr) d).
Proof.
  intros (a & b & r & x & y & W & -> & ->) H. unfold icl_frame. rewrite (words_eq _ _ W). unfold item. cbn [nth_error rbind].
  change 3 with (length (txt "rgb")) at 1. change 5 with (length (txt "depth")) at 1. rewrite !prefix_eq. cbn [guard rbind].
  assert (E : load && (n <? k * 4) = false) by (destruct load; [cbn; apply Nat.ltb_ge; auto|reflexivity]). rewrite E. reflexivity.
Qed.
Definition icl_out (k : nat) (f : text * text) : text * text * nat * text := (icl_path (tr_dir tr) (fst f), icl_path (tr_dir tr) (snd f), k * 4, icl_name (tr_name tr) (snd f)).
Lemma icl_frames_ok load n lines fs : Forall2 (fun line f => IclFrame line (fst f) (snd f)) lines fs -> forall k, (load = true -> forall j, j < length lines -> (k + j) * 4 <= n) ->
  icl_frames load tr n k lines = Ok (map (fun p => icl_out (fst p) (snd p)) (combine (seq k (length fs)) fs)).
Proof.
  induction 1 as [|line f lines fs H F IH]; intros k B; [reflexivity|]. cbn [icl_frames].
  rewrite (icl_frame_ok load n k line (fst f) (snd f) H) by (intros El; specialize (B El 0 ltac:(cbn; lia)); lia). cbn [rbind].
  rewrite (IH (S k)); [reflexivity|]. intros El j Hj. specialize (B El (S j) ltac:(cbn; lia)). lia.
Qed.
Lemma combine_fst {A B C} (g : nat * A -> C) (h : A -> B) (l : list A) k : map h (map snd (combine (seq k (length l)) l)) = map h l.
Proof. f_equal. revert k. induction l as [|x l IH]; intros k; [reflexivity|]. cbn. now rewrite IH. Qed.
Lemma combine_snd {A} (l : list A) k : map snd (combine (seq k (length l)) l) = l.
Proof. revert k. induction l as [|x l IH]; intros k; [reflexivity|]. cbn. now rewrite IH. Qed.
Lemma combine_seq {A} (l : list A) k : map fst (combine (seq k (length l)) l) = seq k (length l).
Proof. revert k. induction l as [|x l IH]; intros k; [reflexivity|]. cbn. now rewrite IH. Qed.
Theorem p_icl_traj w load lines fs plines : 0 < w_len w -> 0 < w_stride w -> match w_end w with Some e => (0 <= e)%Z | None => True end ->
  FileLines (tr_assoc tr) lines -> FileLines (tr_poses tr) plines ->
  Forall2 (fun line f => IclFrame line (fst f) (snd f)) (icl_used tr w lines) fs -> (load = true -> (length fs - 1) * 4 <= length plines) ->
  exists r nm, icl_traj w load tr = Ok r /\
    Sampled (w_len w) (w_dil w) (w_stride w) (map (fun f => icl_path (tr_dir tr) (fst f)) fs) (i_color r) /\
    Sampled (w_len w) (w_dil w) (w_stride w) (map (fun f => icl_path (tr_dir tr) (snd f)) fs) (i_depth r) /\
    Sampled (w_len w) (w_dil w) (w_stride w) (map (fun f => icl_name (tr_name tr) (snd f)) fs) nm /\ i_names r = map (join (txt ", ")) nm /\
    (if load then exists ls, Sampled (w_len w) (w_dil w) (w_stride w) (map (fun j => j * 4) (seq 0 (length fs))) ls /\ i_poses r = map (fun l => (tr_posefile tr, l)) ls else i_poses r = []).
Proof.
  intros HL Hs He L P F B. unfold icl_traj. rewrite (filelines_eq _ _ P).
  assert (Hl : length (icl_used tr w lines) = length fs) by (clear - F; induction F; cbn; congruence).
  assert (U : icl_lines w tr = icl_used tr w lines).
  { unfold icl_lines, icl_used. rewrite (filelines_eq _ _ L). unfold slice, slice_end. f_equal. f_equal.
    destruct (w_end w) as [e|]; [destruct (Z.ltb_spec e 0); [lia|reflexivity]|]. destruct (Z.ltb_spec (Z.of_nat (length lines)) 0); [lia|]. apply Nat2Z.id. }
  rewrite U. rewrite (icl_frames_ok load (length plines) _ fs F 0).
  2:{ intros El j Hj. specialize (B El). rewrite Hl in Hj. lia. }
  cbn [rbind]. rewrite !map_map. unfold icl_out. cbn [fst snd].
  rewrite <- (map_map snd (fun f => icl_path (tr_dir tr) (fst f))), combine_snd.
  rewrite <- (map_map snd (fun f => icl_path (tr_dir tr) (snd f))), combine_snd.
  rewrite <- (map_map snd (fun f => icl_name (tr_name tr) (snd f))), combine_snd.
  rewrite <- (map_map fst (fun j => j * 4)), combine_seq.
  destruct (p_windows (w_len w) (w_dil w) (w_stride w) (length (map (fun f => icl_path (tr_dir tr) (fst f)) fs)) HL Hs) as (c & -> & Hc). cbn [rbind]. rewrite map_length in Hc.
  destruct (sampled_ok (w_len w) (w_dil w) (w_stride w) (map (fun f => icl_path (tr_dir tr) (fst f)) fs) c HL) as (r1 & -> & S1); [now rewrite map_length|]. cbn [rbind].
  destruct (sampled_ok (w_len w) (w_dil w) (w_stride w) (map (fun f => icl_path (tr_dir tr) (snd f)) fs) c HL) as (r2 & -> & S2); [now rewrite map_length|]. cbn [rbind].
  rewrite mapM_bind. destruct (sampled_ok (w_len w) (w_dil w) (w_stride w) (map (fun f => icl_name (tr_name tr) (snd f)) fs) c HL) as (r3 & -> & S3); [now rewrite map_length|]. cbn [rbind].
  destruct load.
  - rewrite mapM_bind. destruct (sampled_ok (w_len w) (w_dil w) (w_stride w) (map (fun j => j * 4) (seq 0 (length fs))) c HL) as (r5 & -> & S5); [now rewrite map_length, seq_length|]. cbn [rbind].
    eexists. exists r3. split; [reflexivity|]. cbn. split; [exact S1|]. split; [exact S2|]. split; [exact S3|]. split; [reflexivity|]. exists r5. auto.
  - cbn [rbind]. eexists. exists r3. split; [reflexivity|]. cbn. auto 10.
Qed.
End Icl.
Theorem p_icl_all w load trs rs : Forall2 (fun t r => icl_traj w load t = Ok r) trs rs ->
  icl_all w load trs = Ok (mkIcl (concat (map i_color rs)) (concat (map i_depth rs)) (concat (map i_names rs)) (concat (map i_poses rs))).
Proof. induction 1 as [|t r trs rs H F IH]; [reflexivity|]. cbn [icl_all]. rewrite H. cbn [rbind]. rewrite IH. reflexivity. Qed.
(* poses of a window, when every pose is in the file *)
Lemma spaced_win L d s k : Spaced (map (fun i => (k * s + i * (d + 1)) * 4) (seq 0 L)).
Proof.
  enough (G : forall a, Spaced (map (fun i => (k * s + i * (d + 1)) * 4) (seq a L))) by apply G. induction L as [|L IH]; intros a; [constructor|]. destruct L as [|L]; [constructor|]. cbn [seq map]. constructor; [lia|]. apply (IH (S a)).
Qed.
Theorem p_icl_window_poses (value : text -> res R) file lines ls x k L d s n (pose : nat -> list (R * R * R * R)) :
  FileLines file lines -> (forall j, j < n -> PoseAt value lines (j * 4) (pose j)) ->
  Sampled L d s (map (fun j => j * 4) (seq 0 n)) ls -> nth_error ls k = Some x ->
  load_poses value file x = Ok (map (fun i => pose (k * s + i * (d + 1))) (seq 0 L)).
Proof.
  intros F P S E. apply S in E. destruct E as [B W].
  assert (W' : x = map (fun i => (k * s + i * (d + 1)) * 4) (seq 0 L) /\ Forall (fun i => k * s + i * (d + 1) < n) (seq 0 L)).
  { clear - W. induction W as [|i y l x H W [-> IH]]; [split; [reflexivity|constructor]|].
    rewrite nth_error_map in H. destruct (nth_error (seq 0 n) (k * s + i * (d + 1))) as [v|] eqn:E; [|discriminate]. injection H as <-.
    assert (k * s + i * (d + 1) < n) by (rewrite <- (seq_length n 0); apply nth_error_Some; congruence).
    rewrite (nth_error_nth' _ 0) in E by now rewrite seq_length. injection E as <-. rewrite seq_nth by assumption. split; [reflexivity|]. constructor; assumption. }
  destruct W' as [-> G]. eapply p_load_poses; [exact F|apply spaced_win|reflexivity|].
  clear - P G. induction G as [|i l H G IH]; cbn [map]; constructor; auto.
Qed.
