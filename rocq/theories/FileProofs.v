(* read_file_list and read_trajectory (C62). *)
From Coq Require Import Ascii String List Arith Bool Reals ZArith Lia Sorting.Sorted Sorting.Permutation.
From Verif Require Import Res MatSpec DataUtilsModel TextModel DataSpec TumModel TextProofs.
Import ListNotations.
Local Open Scope nat_scope.

Definition sep_to_space (c : ascii) : ascii := if Ascii.eqb tab (if Ascii.eqb ","%char c then space else c) then space else (if Ascii.eqb ","%char c then space else c).
Definition sepb (c : ascii) : bool := Ascii.eqb space (sep_to_space c).
Lemma sepb_spec c : sepb c = true <-> separator c.
Proof.
  unfold sepb, sep_to_space, separator. destruct (Ascii.eqb_spec ","%char c) as [<-|N1]; [cbn; tauto|].
  destruct (Ascii.eqb_spec tab c) as [<-|N2]; [cbn; tauto|]. destruct (Ascii.eqb_spec space c) as [<-|N3]; [cbn; tauto|].
  split; [discriminate|]. unfold space in N3. unfold tab in N2. intros [H|[H|H]]; congruence.
Qed.
Lemma sepb_id c : sepb c = false -> sep_to_space c = c.
Proof.
  unfold sepb, sep_to_space. destruct (Ascii.eqb_spec ","%char c); [cbn; discriminate|]. destruct (Ascii.eqb_spec tab c); [cbn; discriminate|]. reflexivity.
Qed.
Lemma split_if_cons p s : exists w ws, split_if p s = w :: ws.
Proof. induction s as [|x s (w & ws & E)]; cbn [split_if]; [eauto|]. rewrite E. destruct (p x); eauto. Qed.
Lemma split_map_lines p q f s : (forall x, p (f x) = q x) -> split_if p (map f s) = map (map f) (split_if q s).
Proof.
  intros H. induction s as [|x s IH]; [reflexivity|]. cbn [split_if map]. rewrite IH, H. destruct (split_if_cons q s) as (w & ws & ->).
  cbn [map]. destruct (q x); reflexivity.
Qed.
Lemma split_map_same p q f s : (forall x, p (f x) = q x) -> (forall x, q x = false -> f x = x) -> split_if p (map f s) = split_if q s.
Proof.
  intros H K. induction s as [|x s IH]; [reflexivity|]. cbn [split_if map]. rewrite IH, H. destruct (split_if_cons q s) as (w & ws & ->).
  destruct (q x) eqn:E; [reflexivity|]. now rewrite K.
Qed.
Lemma data_lines_eq file : data_lines file = map (map sep_to_space) (split_on newline file).
Proof.
  unfold data_lines, replace. rewrite map_map. apply split_map_lines. intros x. unfold sep_to_space.
  destruct (Ascii.eqb_spec ","%char x) as [<-|N1]; [reflexivity|]. destruct (Ascii.eqb_spec tab x) as [<-|N2]; reflexivity.
Qed.
Lemma is_row_map line : is_row (map sep_to_space line) = data_line line.
Proof.
  destruct line as [|c line]; [reflexivity|]. cbn [map is_row data_line]. f_equal. unfold sep_to_space.
  destruct (Ascii.eqb_spec ","%char c) as [<-|N1]; [reflexivity|]. destruct (Ascii.eqb_spec tab c) as [<-|N2]; reflexivity.
Qed.
Lemma filter_map {A B} (f : A -> B) p l : filter p (map f l) = map f (filter (fun x => p (f x)) l).
Proof. induction l as [|x l IH]; [reflexivity|]. cbn [map filter]. rewrite IH. destruct (p (f x)); reflexivity. Qed.
Lemma rows_eq file : filter is_row (data_lines file) = map (map sep_to_space) (filter data_line (split_on newline file)).
Proof. rewrite data_lines_eq, filter_map. f_equal. apply filter_ext. exact is_row_map. Qed.
Lemma line_split line : split_on space (map sep_to_space line) = split_if sepb line.
Proof. apply split_map_same; [reflexivity|exact sepb_id]. Qed.
Lemma lines_spec file : Lines file (split_on newline file).
Proof. apply split_pieces. intros c. unfold newline. destruct (Ascii.eqb_spec (ascii_of_nat 10) c); split; congruence. Qed.
Lemma lines_eq file ls : Lines file ls -> ls = split_on newline file.
Proof. intros H. eapply pieces_det; [exact H|apply lines_spec]. Qed.
Lemma strip_all ps : Forall2 Trimmed ps (map strip ps).
Proof. induction ps; cbn [map]; constructor; [apply strip_spec|assumption]. Qed.
Lemma strip_all_eq ps cores : Forall2 Trimmed ps cores -> cores = map strip ps.
Proof. induction 1; cbn [map]; [reflexivity|]. f_equal; [|assumption]. eapply trimmed_det; [eassumption|apply strip_spec]. Qed.
Lemma fields_spec line : Fields line (filter nonempty (map strip (split_if sepb line))).
Proof. exists (split_if sepb line), (map strip (split_if sepb line)). split; [apply split_pieces, sepb_spec|]. split; [apply strip_all|reflexivity]. Qed.
Lemma fields_eq line fs : Fields line fs -> fs = filter nonempty (map strip (split_if sepb line)).
Proof.
  intros (ps & cores & H & K & ->). assert (E : ps = split_if sepb line) by (eapply pieces_det; [exact H|apply split_pieces, sepb_spec]).
  subst ps. now rewrite (strip_all_eq _ _ K).
Qed.
Definition rows_of (file : text) : list (list text) := map (fun line => filter nonempty (map strip (split_if sepb line))) (filter data_line (split_on newline file)).
Lemma rows_of_spec file : Rows file (rows_of file).
Proof. exists (split_on newline file). split; [apply lines_spec|]. unfold rows_of. induction (filter _ _); cbn [map]; constructor; [apply fields_spec|assumption]. Qed.
Lemma rows_unique file rows : Rows file rows -> rows = rows_of file.
Proof.
  intros (ls & H & K). apply lines_eq in H. subst ls. unfold rows_of. induction K; cbn [map]; [reflexivity|]. f_equal; [now apply fields_eq|assumption].
Qed.
Lemma rows_model file : map (fun line => filter nonempty (map strip (split_on space line))) (filter is_row (data_lines file)) = rows_of file.
Proof. rewrite rows_eq, map_map. unfold rows_of. apply map_ext. intros line. now rewrite line_split. Qed.
Lemma entries_model rows : flat_map (fun l => match l with k :: (_ :: _) as l' => [(k, tl l)] | _ => [] end) rows = entries rows.
Proof. unfold entries. induction rows as [|[|a [|b r]] rows IH]; cbn [flat_map filter map app length Nat.leb hd tl]; rewrite ?IH; reflexivity. Qed.
Lemma rows_len file : length (rows_of file) <= length (data_lines file).
Proof. rewrite data_lines_eq. unfold rows_of. rewrite !map_length. induction (split_on newline file) as [|l r IH]; cbn; [lia|]. destruct (data_line l); cbn; lia. Qed.

(* the rows selected by start and end *)
Theorem p_read_file_list file rows start e : Rows file rows ->
  DictOf (entries (firstn (match e with None => length rows | Some z => if (z <? 0)%Z then Z.to_nat (Z.of_nat (length rows) + z) else Z.to_nat z end - match start with Some k => k | None => 0 end)
                    (skipn (match start with Some k => k | None => 0 end) rows)))
         (read_file_list file start e).
Proof.
  intros H. apply rows_unique in H. subst rows. unfold read_file_list. rewrite rows_model, entries_model.
  set (k := match start with Some k => k | None => 0 end). destruct e as [z|]; [apply dict_of_ok|].
  replace (firstn (length (rows_of file) - k) (skipn k (rows_of file))) with (slice k (Z.of_nat (length (data_lines file))) (rows_of file)); [apply dict_of_ok|].
  unfold slice, slice_end. replace (Z.of_nat (length (data_lines file)) <? 0)%Z with false by (symmetry; apply Z.ltb_ge; lia). rewrite Nat2Z.id.
  pose proof (rows_len file). rewrite !firstn_all2; [reflexivity| |]; rewrite skipn_length; lia.
Qed.
(* what the separators are does not matter *)
Theorem p_separators file file' start e : (forall rows, Rows file rows <-> Rows file' rows) -> read_file_list file start e = read_file_list file' start e.
Proof.
  intros H. assert (E : rows_of file' = rows_of file) by (symmetry; apply rows_unique, H, rows_of_spec).
  unfold read_file_list. rewrite !rows_model, E. destruct e as [z|]; [reflexivity|].
  match goal with |- dict_of (flat_map ?f ?a) = dict_of (flat_map ?f ?b) => enough (K : a = b) by (rewrite K; reflexivity) end. unfold slice, slice_end. rewrite (proj2 (Z.ltb_ge (Z.of_nat (length (data_lines file))) 0)) by lia. rewrite (proj2 (Z.ltb_ge (Z.of_nat (length (data_lines file'))) 0)) by lia. rewrite !Nat2Z.id.
  pose proof (rows_len file) as L1. pose proof (rows_len file') as L2. rewrite E in L2. set (k := match start with Some k => k | None => 0 end).
  rewrite !firstn_all2; [reflexivity| |]; rewrite skipn_length; [exact (Nat.sub_le_mono_r _ _ k L2)|exact (Nat.sub_le_mono_r _ _ k L1)].
Qed.

(* ---------------- trajectories *)
Section Traj.
Variable value : text -> res (option R).
Lemma traj_row_tail cores : forall n vals, 0 < n -> Forall2 (fun f v => value f = Ok v) (filter nonempty (map strip cores)) vals ->
  traj_row value n cores = Ok (map TNum vals).
Proof.
  induction cores as [|c cores IH]; intros n vals Hn H; cbn [map filter] in H; [inversion H; reflexivity|]. cbn [traj_row].
  destruct (nonempty (strip c)).
  - inversion H as [|f v fs vs Hv Hvs]; subst. rewrite (proj2 (Nat.ltb_lt 0 n) Hn), Hv. cbn [rbind]. rewrite (IH (S n) vs); [reflexivity|lia|assumption].
  - apply IH; [lia|exact H].
Qed.
Lemma nonempty_t (s : text) : s <> [] -> nonempty s = true.
Proof. destruct s; [congruence|reflexivity]. Qed.
Lemma traj_line_row line stamp vals : TrajLine value line stamp vals -> traj_row value 0 (split_if sepb line) = Ok (TStr stamp :: map TNum vals).
Proof.
  intros (p & ps & cores & H & T & N & F & V). assert (E : p :: ps = split_if sepb line) by (eapply pieces_det; [exact H|apply split_pieces, sepb_spec]).
  rewrite <- E. cbn [traj_row]. rewrite (trimmed_det p (strip p) stamp (strip_spec p) T), (nonempty_t _ N). cbn [Nat.ltb Nat.leb rbind].
  rewrite (traj_row_tail ps 1 vals); [reflexivity|lia|]. rewrite <- (strip_all_eq _ _ F). exact V.
Qed.
Lemma mapM_map {A B C} (f : B -> res C) (g : A -> B) l : mapM f (map g l) = mapM (fun x => f (g x)) l.
Proof. induction l as [|x l IH]; [reflexivity|]. cbn [map mapM]. now rewrite IH. Qed.
Lemma traj_rows_ok file rows : TrajFile value file rows -> traj_rows value file = Ok (map (fun r => TStr (fst r) :: map TNum (snd r)) rows).
Proof.
  intros (ls & H & K). apply lines_eq in H. subst ls. unfold traj_rows. rewrite rows_eq, mapM_map.
  induction K as [|line r ls rows T K IH]; [reflexivity|]. cbn [mapM map]. rewrite line_split, (traj_line_row _ _ _ T). cbn [rbind]. rewrite IH. reflexivity.
Qed.
Lemma Forall_nan vals : Forall (fun v => v <> None) vals -> existsb tok_nan (map TNum vals) = false.
Proof. induction 1 as [|v vals N H IH]; [reflexivity|]. cbn. destruct v; [exact IH|congruence]. Qed.
Lemma exists_nan vals : In None vals -> existsb tok_nan (map TNum vals) = true.
Proof. intros H. apply existsb_exists. exists (TNum None). split; [now apply in_map|reflexivity]. Qed.
Lemma firstn_map {A B} (f : A -> B) n l : firstn n (map f l) = map f (firstn n l).
Proof. revert l. induction n; intros [|x l]; cbn; congruence. Qed.
Lemma skipn_map {A B} (f : A -> B) n l : skipn n (map f l) = map f (skipn n l).
Proof. revert l. induction n; intros [|x l]; cbn; congruence. Qed.
Lemma zero_quat_spec s vals : zero_quat (TStr s :: map TNum vals) = true <-> no_rotation vals.
Proof.
  clear value. unfold zero_quat, no_rotation. change (skipn 4 (TStr s :: map TNum vals)) with (skipn 3 (map TNum vals)).
  rewrite skipn_map, firstn_map, map_length. set (q := firstn 4 (skipn 3 vals)).
  rewrite andb_true_iff, Nat.eqb_eq, forallb_forall. split.
  - intros [L H]. do 5 (destruct q as [|? q]; try discriminate). 
    assert (Z : forall x, tok_zero (TNum x) = true -> x = Some 0%R) by (intros [x|]; cbn; [destruct (Req_EM_T x 0) as [->|]; [reflexivity|discriminate]|discriminate]).
    rewrite (Z o), (Z o0), (Z o1), (Z o2); [reflexivity| | | |]; apply H; cbn; tauto.
  - intros ->. split; [reflexivity|]. intros t Ht. cbn in Ht. assert (Et : t = TNum (Some 0%R)) by (repeat (destruct Ht as [Ht|Ht]; [now symmetry|]); destruct Ht). subst t. cbn. destruct (Req_EM_T 0 0); congruence.
Qed.
Definition keeps (vals : list (option R)) : bool := negb (zero_quat (TStr [] :: map TNum vals)).
Lemma keeps_spec vals : keeps vals = false <-> no_rotation vals.
Proof. unfold keeps. rewrite negb_false_iff. apply zero_quat_spec. Qed.
Lemma traj_ok_ok rows : Forall (fun r => no_rotation (snd r) \/ Forall (fun v => v <> None) (snd r)) rows ->
  traj_ok (map (fun r => TStr (fst r) :: map TNum (snd r)) rows) = Ok (map (fun r => TStr (fst r) :: map TNum (snd r)) (filter (fun r => keeps (snd r)) rows)).
Proof.
  induction 1 as [|[s vals] rows H K IH]; [reflexivity|]. cbn [map filter fst snd traj_ok tl].
  destruct (keeps vals) eqn:E.
  - assert (Z : ~ no_rotation vals) by (rewrite <- keeps_spec; congruence).
    destruct (zero_quat (TStr s :: map TNum vals)) eqn:Q; [apply zero_quat_spec in Q; contradiction|].
    cbn [snd] in H. destruct H as [H|H]; [contradiction|]. rewrite (Forall_nan _ H), IH. reflexivity.
  - apply keeps_spec in E. rewrite (proj2 (zero_quat_spec s vals) E). exact IH.
Qed.
Lemma tok_vals vals : Forall (fun v => v <> None) vals -> mapM tok_val (firstn 7 (map TNum vals)) = Ok (firstn 7 (map num vals)).
Proof.
  intros H. rewrite !firstn_map, mapM_map. apply mapM_ok. intros v Hv. assert (In v vals) by (rewrite <- (firstn_skipn 7 vals); apply in_or_app; now left).
  rewrite Forall_forall in H. destruct v; [reflexivity|]. exfalso. now apply (H None).
Qed.
Lemma without_filter {A} (P : A -> Prop) p l l' : (forall x, p x = false <-> P x) -> Without P l l' -> l' = filter p l.
Proof.
  intros H. induction 1 as [|x l l' Px W IH|x l l' Px W IH]; [reflexivity| |]; cbn [filter].
  - rewrite (proj2 (H x) Px). exact IH.
  - destruct (p x) eqn:E; [now f_equal|]. apply H in E. contradiction.
Qed.
Lemma filter_without {A} (P : A -> Prop) p l : (forall x, p x = false <-> P x) -> Without P l (filter p l).
Proof.
  intros H. induction l as [|x l IH]; [constructor|]. cbn [filter]. destruct (p x) eqn:E.
  - constructor; [rewrite <- H; congruence|exact IH].
  - constructor; [now apply H|exact IH].
Qed.
(* rows with numbers only: the dictionary of the rows that have a rotation *)
Theorem p_read_trajectory file rows kept : TrajFile value file rows -> Without (fun r => no_rotation (snd r)) rows kept ->
  Forall (fun r => Forall (fun v => v <> None) (snd r)) kept ->
  exists d, read_trajectory value file = Ok d /\ DictOf (map (fun r => (fst r, map num (firstn 7 (snd r)))) kept) d.
Proof.
  intros F W N. assert (E : kept = filter (fun r => keeps (snd r)) rows) by (eapply without_filter; [|exact W]; intros; apply keeps_spec).
  unfold read_trajectory. rewrite (traj_rows_ok _ _ F). cbn [rbind]. rewrite traj_ok_ok.
  2:{ clear - W N. induction W as [|x l l' Px W IH|x l l' Px W IH]; [constructor|constructor; auto|]. inversion N; subst. constructor; auto. }
  cbn [rbind]. rewrite <- E, mapM_map. rewrite (mapM_ok _ (fun r => (fst r, map num (firstn 7 (snd r))))).
  2:{ intros [s vals] H. cbn [tok_key rbind fst snd tl]. rewrite Forall_forall in N. rewrite (tok_vals vals (N _ H)). cbn [rbind]. now rewrite firstn_map. }
  cbn [rbind]. eexists. split; [reflexivity|apply dict_of_ok].
Qed.
(* the same with matrices *)
Theorem p_read_trajectory_matrix file rows kept (m : text * list (option R) -> mat) : TrajFile value file rows -> Without (fun r => no_rotation (snd r)) rows kept ->
  Forall (fun r => Forall (fun v => v <> None) (snd r) /\ 7 <= length (snd r)) kept ->
  (forall r, In r kept -> let v := map num (firstn 7 (snd r)) in transform44 (fun i => nth i v 0%R) (fun i => nth (3 + i) v 0%R) = Ok (m r)) ->
  exists d, read_trajectory_matrix value file = Ok d /\ DictOf (map (fun r => (fst r, m r)) kept) d.
Proof.
  intros F W N T. assert (E : kept = filter (fun r => keeps (snd r)) rows) by (eapply without_filter; [|exact W]; intros; apply keeps_spec).
  unfold read_trajectory_matrix. rewrite (traj_rows_ok _ _ F). cbn [rbind]. rewrite traj_ok_ok.
  2:{ clear - W N. induction W as [|x l l' Px W IH|x l l' Px W IH]; [constructor|constructor; auto|]. inversion N as [|? ? [N1 _]]; subst. constructor; auto. }
  cbn [rbind]. rewrite <- E, mapM_map. rewrite (mapM_ok _ (fun r => (fst r, m r))).
  2:{ intros [s vals] H. cbn [tok_key rbind fst snd tl]. rewrite Forall_forall in N. destruct (N _ H) as [N1 N2]. cbn [snd] in N2. rewrite (tok_vals vals N1). cbn [rbind].
      rewrite firstn_length, map_length. replace (Nat.min 7 (length vals) <? 7) with false by (symmetry; apply Nat.ltb_ge; lia).
      specialize (T _ H). cbn zeta in T. cbn [snd] in T. rewrite firstn_map, T. reflexivity. }
  cbn [rbind]. eexists. split; [reflexivity|apply dict_of_ok].
Qed.
End Traj.
