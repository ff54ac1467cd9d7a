(* faulty trajectory files (C62) and TUM._findAssociations (C55). *)
From Coq Require Import Ascii String List Arith Bool Reals ZArith Lia Lra Sorting.Sorted Sorting.Permutation.
From Verif Require Import Res MatSpec DataUtilsModel TextModel DataSpec TumModel TextProofs AssocProofs FileProofs.
Import ListNotations.
Local Open Scope nat_scope.

Section Faults.
Variable value : text -> res (option R).
Lemma traj_ok_nan rows : (exists r, In r rows /\ zero_quat r = false /\ existsb tok_nan (tl r) = true) -> traj_ok rows = Err NameError.
Proof.
  induction rows as [|x rows IH]; intros (r & H & Z & N); [destruct H|]. cbn [traj_ok]. destruct H as [->|H].
  - rewrite Z, N. reflexivity.
  - destruct (zero_quat x); [eauto|]. destruct (existsb tok_nan (tl x)); [reflexivity|]. rewrite IH by eauto. reflexivity.
Qed.
Theorem p_trajectory_nan file rows r : TrajFile value file rows -> In r rows -> ~ no_rotation (snd r) -> In None (snd r) ->
  read_trajectory value file = Err NameError /\ read_trajectory_matrix value file = Err NameError.
Proof.
  intros F H Z N. unfold read_trajectory, read_trajectory_matrix. rewrite (traj_rows_ok _ _ _ F). cbn [rbind].
  rewrite traj_ok_nan; [split; reflexivity|]. exists (TStr (fst r) :: map TNum (snd r)). split; [apply (in_map (fun r => TStr (fst r) :: map TNum (snd r))); exact H|].
  split; [|now apply exists_nan]. destruct (zero_quat _) eqn:E; [|reflexivity]. apply zero_quat_spec in E. contradiction.
Qed.
Lemma traj_row_blank cols : forall n, filter nonempty (map strip cols) = [] -> traj_row value n cols = Ok [].
Proof.
  induction cols as [|c cols IH]; intros n H; [reflexivity|]. cbn [map filter] in H. cbn [traj_row]. destruct (nonempty (strip c)); [discriminate|]. auto.
Qed.
(* a data line of blanks and separators only *)
Theorem p_trajectory_blank file ls : Lines file ls -> (exists line, In line ls /\ data_line line = true /\ Fields line []) ->
  (forall line, In line ls -> data_line line = true -> Fields line [] \/ exists stamp vals, TrajLine value line stamp (map Some vals)) ->
  read_trajectory value file = Err IndexError.
Proof.
  intros L (line0 & H0 & D0 & B0) A. apply lines_eq in L. subst ls. unfold read_trajectory, traj_rows. rewrite rows_eq, mapM_map.
  set (ls := filter data_line (split_on newline file)).
  assert (X : exists rows, mapM (fun x => traj_row value 0 (split_on space (map sep_to_space x))) ls = Ok rows /\
      In [] rows /\ Forall (fun r => r = [] \/ exists s vals, r = TStr s :: map TNum (map Some vals)) rows).
  { assert (In line0 ls) by (apply filter_In; auto). assert (A' : forall line, In line ls -> Fields line [] \/ exists stamp vals, TrajLine value line stamp (map Some vals)).
    { intros line Hl. apply filter_In in Hl. apply A; tauto. } clearbody ls. clear A D0 H0.
    assert (G : exists rows, mapM (fun x => traj_row value 0 (split_on space (map sep_to_space x))) ls = Ok rows /\ (In line0 ls -> In [] rows) /\ Forall (fun r => r = [] \/ exists s vals, r = TStr s :: map TNum (map Some vals)) rows).
    { clear H. induction ls as [|x ls IH]; [exists []; repeat split; [intros []|constructor]|]. destruct IH as (rows & E & I & F); [intros; apply A'; now right|].
      cbn [mapM]. rewrite line_split. destruct (A' x (or_introl eq_refl)) as [B|(s & vals & T)].
      - rewrite traj_row_blank by (symmetry; now apply fields_eq). cbn [rbind]. rewrite E. cbn [rbind]. exists ([] :: rows). repeat split; [now left|]. constructor; auto.
      - rewrite (traj_line_row _ _ _ _ T). cbn [rbind]. rewrite E. cbn [rbind]. eexists. split; [reflexivity|]. split; [|constructor; eauto].
        intros [->|K]; [|right; auto]. exfalso. apply fields_eq in B0. pose proof (traj_line_row _ _ _ _ T) as Q. rewrite traj_row_blank in Q by (symmetry; exact B0). discriminate. }
    destruct G as (rows & E & I & F). eauto. }
  destruct X as (rows & -> & I & F). cbn [rbind].
  assert (Y : exists rows', traj_ok rows = Ok rows' /\ (In [] rows -> In [] rows') /\ Forall (fun r => r = [] \/ exists s vals, r = TStr s :: map TNum (map Some vals)) rows').
  { clear I. induction F as [|r rows H F (rows' & E & I & F')]; [exists []; repeat split; [intros []|constructor]|]. cbn [traj_ok].
    destruct H as [->|(s & vals & ->)].
    - cbn [zero_quat firstn skipn length Nat.eqb andb tl existsb]. rewrite E. cbn [rbind]. eexists. split; [reflexivity|]. split; [now left|constructor; auto].
    - destruct (zero_quat _).
      + exists rows'. split; [exact E|]. split; [|exact F']. intros [K|K]; [discriminate|auto].
      + cbn [tl]. rewrite Forall_nan by (apply Forall_forall; intros v Hv; apply in_map_iff in Hv; destruct Hv as (x & <- & _); discriminate).
        rewrite E. cbn [rbind]. eexists. split; [reflexivity|]. split; [|constructor; eauto]. intros [K|K]; [discriminate|right; auto]. }
  destruct Y as (rows' & -> & I' & F'). cbn [rbind]. rewrite (mapM_err _ rows' [] IndexError (I' I)); [reflexivity|reflexivity|].
  intros r e Hr E. rewrite Forall_forall in F'. destruct (F' r Hr) as [->|(s & vals & ->)]; [cbn in E; congruence|].
  cbn [tok_key rbind tl] in E. rewrite tok_vals in E; [discriminate|]. apply Forall_forall. intros v Hv. apply in_map_iff in Hv. destruct Hv as (x & <- & _). discriminate.
Qed.
(* a field that is not a number *)
Lemma traj_row_bad cols : forall n f, 0 < n -> In f (filter nonempty (map strip cols)) -> value f = Err ValueError ->
  (forall g e, value g = Err e -> e = ValueError) -> traj_row value n cols = Err ValueError.
Proof.
  induction cols as [|c cols IH]; intros n f Hn H E U; cbn [map filter] in H; [destruct H|]. cbn [traj_row].
  destruct (nonempty (strip c)).
  - rewrite (proj2 (Nat.ltb_lt 0 n) Hn). destruct (value (strip c)) as [v|e] eqn:Ec; cbn [rbind].
    + destruct H as [H|H]; [congruence|]. rewrite (IH (S n) f); auto.
    + rewrite (U _ _ Ec). reflexivity.
  - apply (IH (S n) f); auto.
Qed.
Lemma traj_row_errs cols : forall n e, (forall g e, value g = Err e -> e = ValueError) -> traj_row value n cols = Err e -> e = ValueError.
Proof.
  induction cols as [|c cols IH]; intros n e U E; [discriminate|]. cbn [traj_row] in E. destruct (nonempty (strip c)); [|eauto].
  destruct (0 <? n).
  - destruct (value (strip c)) as [v|e'] eqn:Ec; cbn [rbind] in E; [|injection E as <-; eauto]. destruct (traj_row value (S n) cols) eqn:Et; cbn [rbind] in E; [discriminate|]. injection E as <-. eauto.
  - cbn [rbind] in E. destruct (traj_row value (S n) cols) eqn:Et; cbn [rbind] in E; [discriminate|]. injection E as <-. eauto.
Qed.
Theorem p_trajectory_bad file ls line p ps cores f : (forall g e, value g = Err e -> e = ValueError) -> Lines file ls -> In line ls -> data_line line = true ->
  Pieces separator line (p :: ps) -> Forall2 Trimmed ps cores -> In f cores -> f <> [] -> value f = Err ValueError ->
  read_trajectory value file = Err ValueError.
Proof.
  intros U L H D P T Hf N E. apply lines_eq in L. subst ls. unfold read_trajectory, traj_rows. rewrite rows_eq, mapM_map.
  assert (K : p :: ps = split_if sepb line) by (eapply pieces_det; [exact P|apply split_pieces, sepb_spec]).
  rewrite (mapM_err _ _ line ValueError); [reflexivity|apply filter_In; auto| |].
  - rewrite line_split, <- K. cbn [traj_row]. assert (B : traj_row value 1 ps = Err ValueError).
    { apply (traj_row_bad ps 1 f); auto. apply filter_In. rewrite <- (strip_all_eq _ _ T). split; [exact Hf|]. destruct f; [congruence|reflexivity]. }
    destruct (nonempty (strip p)); cbn [Nat.ltb Nat.leb rbind]; rewrite B; reflexivity.
  - intros l e _ El. eapply traj_row_errs; eauto.
Qed.
End Faults.

(* ---------------- _findAssociations *)
Lemma dict_set_new {V} k (v : V) d : ~ In k (map fst d) -> dict_set k v d = d ++ [(k, v)].
Proof.
  induction d as [|[k' v'] d IH]; intros N; [reflexivity|]. cbn [dict_set map fst] in *. destruct (text_eqb_spec k k') as [->|D]; [exfalso; apply N; now left|].
  cbn [app]. rewrite IH; [reflexivity|]. intros K. apply N. now right.
Qed.
Lemma dict_of_nodup_id {V} (l : list (text * V)) : NoDup (map fst l) -> dict_of l = l.
Proof.
  unfold dict_of. enough (G : forall d, NoDup (map fst (d ++ l)) -> fold_left (fun d kv => dict_set (fst kv) (snd kv) d) l d = d ++ l) by exact (G []).
  induction l as [|[k v] l IH]; intros d N; [now rewrite app_nil_r|]. cbn [fold_left fst snd]. rewrite dict_set_new.
  - rewrite IH; rewrite <- app_assoc; [reflexivity|exact N].
  - rewrite map_app in N. cbn [map fst] in N. apply NoDup_remove_2 in N. intros K. apply N. apply in_or_app. now left.
Qed.
Lemma file_list_value file start e k v : In (k, v) (read_file_list file start e) -> v <> [].
Proof.
  intros H. pose proof (p_read_file_list file (rows_of file) start e (rows_of_spec file)) as [_ D]. apply D in H. destruct H as (l1 & l2 & E & _).
  assert (I : In (k, v) (l1 ++ (k, v) :: l2)) by (apply in_or_app; right; now left). rewrite <- E in I. unfold entries in I. apply in_map_iff in I.
  destruct I as (fs & Ef & Hf). apply filter_In in Hf. destruct Hf as [_ L]. apply Nat.leb_le in L. injection Ef as <- <-. destruct fs as [|? [|? ?]]; cbn in *; try lia. discriminate.
Qed.
Lemma dict_of_nodup_model {V} (l : list (text * V)) : NoDup (map fst (dict_of l)).
Proof. eapply dict_of_nodup, dict_of_ok. Qed.
Lemma file_list_nodup file start e : NoDup (keys (read_file_list file start e)).
Proof. unfold read_file_list, keys. apply dict_of_nodup_model. Qed.
Definition first_of {A} (d : A) (v : list A) : A := hd d v.
Lemma file_list_first file start e k : In k (keys (read_file_list file start e)) ->
  exists c r, In (k, c :: r) (read_file_list file start e) /\ (let? l := dict_get k (read_file_list file start e) in item l 0) = Ok c.
Proof.
  intros H. apply in_map_iff in H. destruct H as ([k' v] & E & H). cbn in E. subst k'. destruct v as [|c r]; [now apply file_list_value in H|].
  exists c, r. split; [exact H|]. rewrite (dict_get_ok k (c :: r)); [reflexivity|apply file_list_nodup|exact H].
Qed.
Lemma read_trajectory_nodup value file d : read_trajectory value file = Ok d -> NoDup (keys d).
Proof.
  unfold read_trajectory. destruct (traj_rows value file); cbn [rbind]; [|discriminate]. destruct (traj_ok _); cbn [rbind]; [|discriminate].
  destruct (mapM _ _); cbn [rbind]; [|discriminate]. intros E. injection E as <-. apply dict_of_nodup_model.
Qed.
Lemma mapM_forall2 {A B} (f : A -> res B) (Q : A -> B -> Prop) l : (forall x, In x l -> exists y, f x = Ok y /\ Q x y) -> exists r, mapM f l = Ok r /\ Forall2 Q l r.
Proof.
  induction l as [|x l IH]; intros H; [exists []; split; [reflexivity|constructor]|]. destruct (H x (or_introl eq_refl)) as (y & E & K). destruct IH as (r & Er & Fr); [intros; apply H; now right|].
  exists (y :: r). cbn [mapM]. rewrite E. cbn [rbind]. rewrite Er. split; [reflexivity|now constructor].
Qed.
Lemma Forall2_in_r {A B} (Q : A -> B -> Prop) l r y : Forall2 Q l r -> In y r -> exists x, In x l /\ Q x y.
Proof. induction 1 as [|a b l r H F IH]; intros K; [destruct K|]. destruct K as [<-|K]; [exists a; split; [now left|exact H]|]. destruct (IH K) as (x & I & J). exists x. split; [now right|exact J]. Qed.
Section FA.
Variables (rnd : R -> R) (value : text -> res (option R)) (maxd : R).
Notation Assoc := (Association rnd value 0 maxd).
Notation readable := (readable value).
Theorem p_find_rgbd rgbf depthf start e :
  let rgb := read_file_list rgbf start e in let depth := read_file_list depthf None None in
  readable (keys rgb) -> readable (keys depth) ->
  exists a m, find_associations rnd value maxd rgbf depthf None start e = Ok (a, map (fun p => (fst p, snd p, None)) m) /\ Assoc (keys rgb) (keys depth) m /\
    Forall2 (fun p x => exists c cs d ds, In (fst p, c :: cs) rgb /\ In (snd p, d :: ds) depth /\ x = (c, d, None)) m a.
Proof.
  intros rgb depth R1 R2. destruct (p_associate rnd value 0 maxd (keys rgb) (keys depth)) as (m & E & A); auto; try apply file_list_nodup.
  unfold find_associations. fold rgb depth. rewrite E. cbn [rbind].
  destruct (mapM_forall2 (fun m => let? c := (let? l := dict_get (fst m) rgb in item l 0) in let? d := (let? l := dict_get (snd m) depth in item l 0) in Ok (c, d, @None (list R)))
    (fun p x => exists c cs d ds, In (fst p, c :: cs) rgb /\ In (snd p, d :: ds) depth /\ x = (c, d, None)) m) as (a & Ea & Fa).
  { intros [k k'] H. apply (proj1 A) in H. destruct H as (Hk & Hk' & _). cbn [fst snd].
    destruct (file_list_first rgbf start e k Hk) as (c & cs & Ic & Ec). destruct (file_list_first depthf None None k' Hk') as (d & ds & Id & Ed).
    fold rgb in Ic, Ec. fold depth in Id, Ed. exists (c, d, None). split; [|exists c, cs, d, ds; auto].
    rewrite Ec. cbn [rbind]. rewrite Ed. reflexivity. }
  rewrite Ea. cbn [rbind]. exists a, m. auto.
Qed.
Theorem p_find_rgbd_pose rgbf depthf posef start e poses :
  let rgb := read_file_list rgbf start e in let depth := read_file_list depthf None None in
  readable (keys rgb) -> readable (keys depth) -> read_trajectory value posef = Ok poses -> readable (keys poses) ->
  exists a ts m1 m2, find_associations rnd value maxd rgbf depthf (Some posef) start e = Ok (a, ts) /\
    Assoc (keys rgb) (keys depth) m1 /\ Assoc (map snd m1) (keys poses) m2 /\
    Forall2 (fun p t => exists r, In (r, fst p) m1 /\ t = (r, fst p, Some (snd p))) m2 ts /\
    Forall2 (fun t x => exists r d p c cs f fs q, t = (r, d, Some p) /\ In (r, c :: cs) rgb /\ In (d, f :: fs) depth /\ In (p, q) poses /\ x = (c, f, Some q)) ts a.
Proof.
  intros rgb depth R1 R2 Ep R3. destruct (p_associate rnd value 0 maxd (keys rgb) (keys depth)) as (m1 & E & A); auto; try apply file_list_nodup.
  unfold find_associations. fold rgb depth. rewrite E, Ep. cbn [rbind].
  pose proof A as (A1 & A2 & A3 & _).
  assert (Ek : map fst (map (fun m : text * text => (snd m, fst m)) m1) = map snd m1) by (rewrite map_map; reflexivity).
  assert (Ed : dict_of (map (fun m : text * text => (snd m, fst m)) m1) = map (fun m => (snd m, fst m)) m1) by (apply dict_of_nodup_id; rewrite Ek; exact A3).
  rewrite Ed. unfold keys at 1. rewrite Ek.
  pose proof (read_trajectory_nodup _ _ _ Ep) as Np.
  destruct (p_associate rnd value 0 maxd (map snd m1) (keys poses)) as (m2 & E2 & B); auto.
  { intros k Hk. apply in_map_iff in Hk. destruct Hk as ([r d] & <- & Hk). apply A1 in Hk. apply R2. apply Hk. }
  rewrite E2. cbn [rbind].
  destruct (mapM_forall2 (fun m => let? r := dict_get (fst m) (map (fun m : text * text => (snd m, fst m)) m1) in Ok (r, fst m, snd m))
    (fun p t => exists r, In (r, fst p) m1 /\ t = (r, fst p, snd p)) m2) as (ts & Et & Ft).
  { intros [d p] H. apply (proj1 B) in H. destruct H as (Hd & _). cbn [fst snd]. apply in_map_iff in Hd. destruct Hd as ([r d'] & Edd & Hd). cbn in Edd. subst d'.
    exists (r, d, p). split; [|eauto]. rewrite (dict_get_ok d r); [reflexivity|rewrite Ek; exact A3|]. apply (in_map (fun m => (snd m, fst m))) in Hd. exact Hd. }
  rewrite Et. cbn [rbind].
  destruct (mapM_forall2 (fun m : text * text * text => match m with (r, d, p) =>
                        let? c := (let? l := dict_get r rgb in item l 0) in let? e := (let? l := dict_get d depth in item l 0) in let? x := dict_get p poses in Ok (c, e, Some x) end)
    (fun t x => exists r d p c cs f fs q, t = (r, d, p) /\ In (r, c :: cs) rgb /\ In (d, f :: fs) depth /\ In (p, q) poses /\ x = (c, f, Some q)) ts) as (a & Ea & Fa).
  { intros t Ht. destruct (Forall2_in_r _ _ _ _ Ft Ht) as ([d p] & Hp & r & Hr & ->). cbn [fst snd] in *.
    apply (proj1 B) in Hp. destruct Hp as (_ & Hp & _). apply A1 in Hr. destruct Hr as (Hr & Hd & _).
    destruct (file_list_first rgbf start e r Hr) as (c & cs & Ic & Ec). destruct (file_list_first depthf None None d Hd) as (f & fs & If & Ef).
    fold rgb in Ic, Ec. fold depth in If, Ef. apply in_map_iff in Hp. destruct Hp as ([p' q] & Eq & Hp). cbn in Eq. subst p'.
    exists (c, f, Some q). split; [|exists r, d, p, c, cs, f, fs, q; auto].
    rewrite Ec. cbn [rbind]. rewrite Ef. cbn [rbind]. rewrite (dict_get_ok p q poses Np Hp). reflexivity. }
  rewrite Ea. cbn [rbind]. do 2 eexists. exists m1, m2. split; [reflexivity|]. split; [exact A|]. split; [exact B|]. split.
  - clear - Ft. induction Ft as [|p t m2 ts (r & H & ->) F IH]; cbn [map]; constructor; eauto.
  - clear - Fa. induction Fa as [|t x ts a (r & d & p & c & cs & f & fs & q & -> & H) F IH]; cbn [map]; constructor; [|exact IH].
    exists r, d, p, c, cs, f, fs, q. tauto.
Qed.
(* the stamps of a returned triple are within the search radius of each other *)
Theorem p_find_gaps m1 m2 K1 K2 K3 ts r d p : Assoc K1 K2 m1 -> Assoc (map snd m1) K3 m2 ->
  Forall2 (fun p t => exists r, In (r, fst p) m1 /\ t = (r, fst p, Some (snd p))) m2 ts -> In (r, d, Some p) ts ->
  (exists g, Gap rnd value 0 r d g /\ (g < maxd)%R) /\ (exists g, Gap rnd value 0 d p g /\ (g < maxd)%R).
Proof.
  intros A B F H. destruct (Forall2_in_r _ _ _ _ F H) as ([d' p'] & Hp & r' & Hr & Et). injection Et as <- <- <-. cbn [fst snd] in *.
  apply (proj1 A) in Hr. apply (proj1 B) in Hp. split; [apply Hr|apply Hp].
Qed.
End FA.
