From Coq Require Import Ascii String List Arith Bool Reals ZArith Lia Permutation.
From Verif Require Import Res TextModel TumModel DatasetModel TextProofs DataSpec DatasetSpec PoseFileProofs DirModel DirSpec.
Import ListNotations.
Local Open Scope nat_scope.

(* ---------------- split *)
Lemma split_none : forall c x, ~ In c x -> split_on c x = [x].
Proof.
  intros c x H. apply (pieces_det (fun d => d = c) x); [apply split_pieces; intros d; rewrite Ascii.eqb_eq; split; congruence|].
  constructor. apply Forall_forall. intros d Hd ->. contradiction.
Qed.
Lemma split_app : forall c x r, ~ In c x -> split_on c (x ++ c :: r) = x :: split_on c r.
Proof.
  intros c x r H. assert (S : forall s, Pieces (fun d => d = c) s (split_on c s)) by (intros s; apply split_pieces; intros d; rewrite Ascii.eqb_eq; split; congruence).
  apply (pieces_det (fun d => d = c) (x ++ c :: r)); [apply S|]. constructor; [|reflexivity|apply S].
  apply Forall_forall. intros d Hd ->. contradiction.
Qed.
Lemma in_split_first : forall (c : ascii) s, ~ In c s \/ exists x r, ~ In c x /\ s = x ++ c :: r.
Proof.
  intros c s. induction s as [|d s IH]; [now left|]. destruct (ascii_dec d c) as [ -> | N ]; [right; exists [], s; split; [intros []|reflexivity]|].
  destruct IH as [IH|(x & r & Hx & ->)]; [left; intros [K|K]; contradiction|]. right. exists (d :: x), r. split; [intros [K|K]; contradiction|reflexivity].
Qed.
Lemma split_cases : forall c s, (~ In c s /\ split_on c s = [s]) \/ exists x r, ~ In c x /\ s = x ++ c :: r /\ split_on c s = x :: split_on c r.
Proof.
  intros c s. destruct (in_split_first c s) as [H|(x & r & Hx & ->)]; [left; split; [exact H|apply split_none, H]|].
  right. exists x, r. split; [exact Hx|]. split; [reflexivity|apply split_app, Hx].
Qed.
Lemma split_hd : forall c s, Before c s (hd [] (split_on c s)).
Proof.
  intros c s. destruct (split_cases c s) as [(H & ->)|(x & r & Hx & -> & ->)]; cbn [hd]; (split; [assumption|]); [now left|right; now exists r].
Qed.
Lemma before_det : forall c s x y, Before c s x -> Before c s y -> x = y.
Proof.
  intros c s x y (Hx & Ex) (Hy & Ey). 
  assert (A : hd [] (split_on c s) = x) by (destruct Ex as [ -> | (r & ->) ]; [rewrite split_none by exact Hx|rewrite split_app by exact Hx]; reflexivity).
  assert (B : hd [] (split_on c s) = y) by (destruct Ey as [ -> | (r & ->) ]; [rewrite split_none by exact Hy|rewrite split_app by exact Hy]; reflexivity).
  congruence.
Qed.
Lemma split_ne : forall c s, split_on c s <> [].
Proof. intros c s. destruct (split_cases c s) as [(_ & ->)|(x & r & _ & _ & ->)]; discriminate. Qed.

(* ---------------- TUM *)
Lemma eqb_ok a b : text_eqb a b = true <-> a = b.
Proof. destruct (text_eqb_spec a b); split; intros; congruence. Qed.
Lemma but_last_1 c x y : but_last_n 1 c = x ++ [y] -> exists z, c = x ++ [y] ++ [z].
Proof.
  unfold but_last_n. intros E. assert (L : length (firstn (length c - 1) c) = length x + 1) by (rewrite E, app_length; reflexivity).
  rewrite firstn_length in L. assert (Hs : length (skipn (length c - 1) c) = 1) by (rewrite skipn_length; lia).
  destruct (skipn (length c - 1) c) as [|z [|? ?]] eqn:Es; try discriminate. exists z. rewrite <- (firstn_skipn (length c - 1) c), E, Es, <- app_assoc. reflexivity.
Qed.
Lemma tum_folder_spec : forall n, tum_folder n = Ok tt <-> tum_name n.
Proof.
  intros n. split.
  - unfold tum_folder. intros H.
    destruct (split_cases "_"%char n) as [(N & E)|(a & r & Ha & -> & E)]; rewrite E in H; cbn [item nth_error rbind] in H.
    { destruct (text_eqb n (txt "rgbd")); discriminate. }
    destruct (text_eqb_spec a (txt "rgbd")) as [ -> | ]; [|discriminate]. cbn [guard rbind] in H.
    destruct (split_cases "_"%char r) as [(N & E')|(b & r' & Hb & -> & E')]; rewrite E' in H; cbn [item nth_error rbind] in H.
    { destruct (text_eqb r (txt "dataset")); discriminate. }
    destruct (text_eqb_spec b (txt "dataset")) as [ -> | ]; [|discriminate]. cbn [guard rbind] in H.
    destruct (split_cases "_"%char r') as [(N & E'')|(c & r'' & Hc & -> & E'')]; rewrite E'' in H; cbn [item nth_error rbind] in H.
    { destruct (text_eqb (but_last_n 1 r') (txt "freiburg")); discriminate. }
    destruct (text_eqb_spec (but_last_n 1 c) (txt "freiburg")) as [ Q | ]; [|discriminate].
    destruct (but_last_1 c (txt "freibur") "g"%char Q) as (z & ->).
    exists z, r''. split; [|reflexivity]. intros ->. apply Hc. rewrite !in_app_iff. right. right. now left.
  - intros (x & name & Hx & ->). unfold tum_folder.
    change (txt "rgbd_dataset_freiburg" ++ [x] ++ txt "_" ++ name) with (txt "rgbd" ++ "_"%char :: (txt "dataset" ++ "_"%char :: ((txt "freiburg" ++ [x]) ++ "_"%char :: name))).
    rewrite split_app by (cbn; intuition discriminate). rewrite split_app by (cbn; intuition discriminate).
    rewrite split_app by (cbn; intuition congruence). cbn [item nth_error rbind].
    pose proof (split_ne "_"%char name) as Ne. destruct (split_on "_"%char name); [contradiction|]. reflexivity.
Qed.
Lemma selected_ok : forall fs s w, selected fs s = Ok w <-> Wanted fs s w.
Proof.
  intros fs s w. destruct s as [|l|p|]; cbn; try (split; congruence); [|split; [discriminate|contradiction]].
  assert (L : Lines (contents fs p) (split_on newline (contents fs p))) by (apply split_pieces; intros d; unfold newline; rewrite Ascii.eqb_eq; split; congruence).
  destruct (isfile fs p); cbn; split.
  - intros K. injection K as <-. split; [reflexivity|]. eexists. split; [exact L|reflexivity].
  - intros (_ & ls & L' & ->). rewrite <- (pieces_det _ _ _ _ L L'). reflexivity.
  - discriminate.
  - intros (K & _). discriminate.
Qed.
Lemma mem_ok : forall x l, mem x l = true <-> In x l.
Proof. intros x l. unfold mem. rewrite existsb_exists. split; [intros (y & H & E); apply eqb_ok in E; congruence|intros H; exists x; split; [exact H|now apply eqb_ok]]. Qed.
Lemma chosen_ok : forall w n, chosen w n = true <-> uses w n.
Proof. intros [l|] n; cbn; [apply mem_ok|split; auto]. Qed.
Lemma tum_list_ok : forall w l names, tum_list w l = Ok names <->
  (forall n, In (n, true) l -> tum_name n) /\ names = filter (chosen w) (map fst (filter snd l)).
Proof.
  intros w l. induction l as [|(n, d) l IH]; intros names; cbn [tum_list].
  - split; [intros K; injection K as <-; split; [intros n []|reflexivity]|intros (_ & ->); reflexivity].
  - destruct d; cbn [filter snd map fst].
    + destruct (tum_folder n) as [[]|e] eqn:E; cbn [rbind].
      * apply tum_folder_spec in E. destruct (tum_list w l) as [r|e] eqn:Er; cbn [rbind].
        -- destruct (IH r) as (IH1 & _). destruct (IH1 eq_refl) as (A & ->). split.
           ++ intros K. injection K as <-. split; [intros m [K|K]; [injection K as <-; exact E|auto]|reflexivity].
           ++ intros (_ & ->). reflexivity.
        -- split; [discriminate|]. intros (A & ->). destruct (IH (filter (chosen w) (map fst (filter snd l)))) as (_ & IH2).
           assert (K : Err e = Ok (filter (chosen w) (map fst (filter snd l)))) by (apply IH2; split; [intros m Hm; apply A; now right|reflexivity]). discriminate.
      * split; [discriminate|]. intros (A & _). assert (T : tum_name n) by (apply A; now left). apply tum_folder_spec in T. congruence.
    + rewrite IH. split; intros (A & B); (split; [|exact B]).
      * intros m [K|K]; [discriminate|auto].
      * intros m Hm. apply A. now right.
Qed.
Lemma mapM_guard : forall {A} (f : A -> res unit) l, (exists r, mapM f l = Ok r) <-> Forall (fun x => f x = Ok tt) l.
Proof.
  intros A f l. induction l as [|x l IH]; cbn [mapM]; [split; [constructor|eexists; reflexivity]|]. split.
  - intros (r & E). destruct (f x) as [[]|] eqn:Ex; [|discriminate]. cbn [rbind] in E. destruct (mapM f l) as [r'|]; [|discriminate]. constructor; [exact Ex|apply IH; eauto].
  - intros F. inversion F; subst. destruct IH as (_ & IH). destruct IH as (r & E); [assumption|]. rewrite H1, E. cbn. eauto.
Qed.
Lemma tum_dirs_ok : forall fs basedir s load names, tum_dirs fs basedir s load = Ok names <->
  exists w, Wanted fs s w /\ (forall n, subdir fs n -> tum_name n) /\ Listed fs (uses w) names /\ names <> [] /\
    (forall l, w = Some l -> length names = length l) /\ Forall (tum_complete fs basedir load) names.
Proof.
  intros fs basedir s load names. unfold tum_dirs. split.
  - intros H. destruct (selected fs s) as [w|] eqn:Es; [|discriminate]. cbn [rbind] in H. exists w. split; [now apply selected_ok|].
    destruct (match w with Some [] => false | _ => true end) eqn:Ew; [|discriminate]. cbn [guard rbind] in H.
    destruct (tum_list w (listing fs)) as [ns|] eqn:El; [|discriminate]. cbn [rbind] in H. apply tum_list_ok in El. destruct El as (A & El).
    destruct (nonempty ns) eqn:En; [|discriminate]. cbn [guard rbind] in H.
    destruct (match w with Some l => length ns =? length l | None => true end) eqn:Ec; [|discriminate]. cbn [guard rbind] in H.
    destruct (mapM _ ns) as [r|] eqn:Em; [|discriminate]. cbn [rbind] in H. injection H as <-.
    split; [exact A|]. split; [exists (chosen w); split; [apply chosen_ok|exact El]|]. split; [destruct ns; discriminate|].
    split; [intros l ->; now apply Nat.eqb_eq|].
    assert (G : exists r, mapM (fun n => tum_check fs load (pjoin basedir n)) ns = Ok r) by (exists r; exact Em).
    apply mapM_guard in G. eapply Forall_impl; [|exact G]. intros n Hn. cbv beta in Hn. unfold tum_check in Hn. unfold tum_complete, has. fold (pjoin basedir n). fold (pjoin (pjoin basedir n) (txt "rgb.txt")).
    fold (pjoin (pjoin basedir n) (txt "depth.txt")). fold (pjoin (pjoin basedir n) (txt "groundtruth.txt")).
    destruct (isfile fs (pjoin (pjoin basedir n) (txt "rgb.txt"))); [|discriminate]. destruct (isfile fs (pjoin (pjoin basedir n) (txt "depth.txt"))); [|discriminate].
    split; [reflexivity|]. split; [reflexivity|]. intros ->. cbn in Hn. destruct (isfile fs _); [reflexivity|discriminate].
  - intros (w & Hw & A & (f & Hf & ->) & N & C & F). apply selected_ok in Hw. rewrite Hw. cbn [rbind].
    assert (Ef : filter f (map fst (filter snd (listing fs))) = filter (chosen w) (map fst (filter snd (listing fs)))).
    { apply filter_ext. intros n. apply eq_true_iff_eq. rewrite Hf. symmetry. apply chosen_ok. }
    rewrite Ef in *. set (ns := filter (chosen w) (map fst (filter snd (listing fs)))) in *.
    assert (E1 : (match w with Some [] => false | _ => true end) = true).
    { destruct w as [[|? ?]|]; try reflexivity. specialize (C [] eq_refl). destruct ns; [contradiction|discriminate]. }
    rewrite E1. cbn [guard rbind]. assert (E2 : tum_list w (listing fs) = Ok ns) by (apply tum_list_ok; split; [exact A|reflexivity]). rewrite E2. cbn [rbind].
    assert (E3 : nonempty ns = true) by (destruct ns; [contradiction|reflexivity]). rewrite E3. cbn [guard rbind].
    assert (E4 : (match w with Some l => length ns =? length l | None => true end) = true) by (destruct w as [l|]; [apply Nat.eqb_eq, C; reflexivity|reflexivity]).
    rewrite E4. cbn [guard rbind].
    destruct (mapM_guard (fun n => tum_check fs load (pjoin basedir n)) ns) as (_ & G).
    destruct G as (r & Er).
    + eapply Forall_impl; [|exact F]. intros n (H1 & H2 & H3). unfold tum_check. unfold has in *. fold (pjoin basedir n) in *. unfold pjoin at 1. rewrite H1. cbn [guard rbind]. unfold pjoin at 1. rewrite H2. cbn [guard rbind].
      destruct load; [|reflexivity]. specialize (H3 eq_refl). unfold pjoin at 1. rewrite H3. reflexivity.
    + rewrite Er. reflexivity.
Qed.

(* ---------------- ICL *)
Lemma last_n_app : forall (x y : text), last_n (length y) (x ++ y) = y.
Proof.
  intros x y. unfold last_n. rewrite app_length. replace (length x + length y - length y) with (length x) by lia.
  rewrite skipn_app, Nat.sub_diag, skipn_all2 by lia. reflexivity.
Qed.
Lemma icl_folder_ok : forall f, icl_folder f = true <-> icl_dirname f.
Proof.
  intros f. unfold icl_folder. rewrite andb_true_iff, !eqb_ok. split.
  - intros (A & B). remember (skipn 16 f) as r eqn:Er.
    assert (Ef : f = txt "living_room_traj" ++ r) by (rewrite <- A, Er; symmetry; apply firstn_skipn).
    destruct (le_lt_dec 9 (length r)) as [L|L].
    + exists (firstn (length r - 9) r). rewrite Ef. f_equal. rewrite <- (firstn_skipn (length r - 9) r) at 1. f_equal.
      rewrite <- B. unfold last_n. rewrite Ef, app_length. change (length (txt "living_room_traj")) with 16.
      rewrite skipn_app. change (length (txt "living_room_traj")) with 16.
      rewrite (skipn_all2 (txt "living_room_traj")) by (change (length (txt "living_room_traj")) with 16; lia). cbn [app]. f_equal; lia.
    + exfalso. clear Er A. subst f. do 9 (destruct r as [|? r]; [cbv in B; congruence|]). cbn in L. lia.
  - intros (x & ->). split; [reflexivity|]. rewrite app_assoc. apply (last_n_app _ (txt "_frei_png")).
Qed.
Lemma index_first : forall p i s, p <> [] -> (forall j, j < i -> firstn (length p) (skipn j s) <> p) -> firstn (length p) (skipn i s) = p -> index_of p s = Ok i.
Proof.
  intros p i. induction i as [|i IH]; intros s Np H E.
  - destruct s; cbn [index_of]; cbn [skipn] in E; rewrite E; destruct (text_eqb_spec p p); try contradiction; reflexivity.
  - destruct s as [|c s]; [exfalso; rewrite skipn_nil in E; destruct p; [contradiction|discriminate]|].
    cbn [index_of]. destruct (text_eqb_spec (firstn (length p) (c :: s)) p) as [K|_]; [exfalso; apply (H 0); [lia|exact K]|].
    rewrite (IH s Np); [reflexivity| |exact E]. intros j Hj. apply (H (S j)). lia.
Qed.
Lemma nth_firstn_skipn : forall (s : text) j n k c, nth_error (firstn n (skipn j s)) k = Some c -> nth_error s (j + k) = Some c.
Proof.
  intros s j. induction j as [|j IHj] in s |- *; intros n k c H.
  - cbn [skipn plus] in *. revert s k H. induction n as [|n IH]; intros s k H; [destruct k; discriminate|]. destruct s as [|d s]; [destruct k; discriminate|].
    destruct k as [|k]; [exact H|]. cbn in *. apply IH, H.
  - destruct s as [|d s]; [rewrite skipn_nil, firstn_nil in H; destruct k; discriminate|]. cbn [skipn plus nth_error] in *. exact (IHj s n k c H).
Qed.
Lemma index_in_base : forall p b r, p <> [] -> ~ In "/"%char p -> ~ Occurs p b -> index_of p (b ++ txt "/" ++ p ++ r) = Ok (length b + 1).
Proof.
  intros p b r Np Ns No. apply index_first; [exact Np| |].
  - intros j Hj K. destruct (le_lt_dec (j + length p) (length b)) as [L|L].
    + apply No. exists (firstn j b), (skipn (j + length p) b).
      rewrite skipn_app in K. replace (j - length b) with 0 in K by lia. cbn [skipn] in K. rewrite firstn_app in K.
      rewrite skipn_length in K. replace (length p - (length b - j)) with 0 in K by lia. cbn [firstn] in K. rewrite app_nil_r in K.
      rewrite <- K at 1. rewrite <- (firstn_skipn j b) at 1. f_equal. rewrite <- (firstn_skipn (length p) (skipn j b)) at 1. f_equal.
      rewrite <- K. clear. generalize (length p). intros n. revert j. induction b as [|c b IH]; intros j; [rewrite !skipn_nil; reflexivity|]. destruct j; [reflexivity|]. cbn. apply IH.
    + apply Ns. assert (Hk : length b - j < length p) by lia.
      destruct (nth_error p (length b - j)) as [c|] eqn:Ec; [|apply nth_error_None in Ec; lia]. pose proof Ec as Ec'. rewrite <- K in Ec'. apply nth_firstn_skipn in Ec'.
      replace (j + (length b - j)) with (length b) in Ec' by lia. rewrite nth_error_app2, Nat.sub_diag in Ec' by lia. cbn in Ec'. injection Ec' as <-. eapply nth_error_In. exact Ec.
  - rewrite skipn_app, skipn_all2 by lia. replace (length b + 1 - length b) with 1 by lia. cbn [app txt list_ascii_of_string skipn]. rewrite firstn_app, firstn_all, Nat.sub_diag. cbn [firstn]. apply app_nil_r.
Qed.
Lemma icl_posefile_ok : forall b n f, ~ Occurs (txt "living_room_traj") b -> pose_file n f -> icl_posefile (pjoin b n) = Ok (b ++ txt "/" ++ n ++ txt "/" ++ f).
Proof.
  intros b n f No (x & rest & Hx & -> & ->). unfold icl_posefile, pjoin.
  rewrite (index_in_base (txt "living_room_traj") b (x ++ txt "_" ++ rest)); [|discriminate|cbn; intuition discriminate|exact No]. cbn [rbind].
  assert (E : skipn (length b + 1 + 16) (b ++ txt "/" ++ txt "living_room_traj" ++ x ++ txt "_" ++ rest) = x ++ "_"%char :: rest).
  { rewrite skipn_app, skipn_all2 by lia. replace (length b + 1 + 16 - length b) with 17 by lia. reflexivity. }
  rewrite E, split_app by exact Hx. cbn [item nth_error rbind]. rewrite <- !app_assoc. reflexivity.
Qed.
Lemma icl_posefile_any : forall b n, ~ Occurs (txt "living_room_traj") b -> icl_dirname n -> exists f, pose_file n f.
Proof.
  intros b n No (x & ->). destruct (in_split_first "_"%char (x ++ txt "_frei_png")) as [K|(y & r & Hy & E)].
  - exfalso. apply K. apply in_app_iff. right. now left.
  - exists (txt "livingRoom" ++ y ++ txt "n.gt.sim"), y, r. split; [exact Hy|]. split; [rewrite E; reflexivity|reflexivity].
Qed.
Lemma pose_file_det : forall n f g, pose_file n f -> pose_file n g -> f = g.
Proof.
  intros n f g (x & r & Hx & -> & ->) (y & r' & Hy & E & ->). apply app_inv_head in E.
  rewrite (before_det "_"%char (x ++ txt "_" ++ r) x y); [reflexivity|split; [exact Hx|right; exists r; reflexivity]|split; [exact Hy|right; exists r'; exact E]].
Qed.

Lemma icl_check_ok : forall fs basedir load n d, ~ Occurs (txt "living_room_traj") basedir -> icl_dirname n ->
  (icl_check fs basedir load n = Ok d <-> icl_complete fs basedir load n /\ icl_kept basedir load n d).
Proof.
  intros fs basedir load n d No Hn. unfold icl_check, icl_complete, icl_kept, has. cbv zeta. fold (pjoin basedir n). fold (pjoin (pjoin basedir n) (txt "associations.txt")).
  destruct (icl_posefile_any basedir n No Hn) as (f & Hf). pose proof (icl_posefile_ok basedir n f No Hf) as Ep.
  destruct (isfile fs (pjoin (pjoin basedir n) (txt "associations.txt"))); cbn [guard rbind]; [|split; [discriminate|intros ((K & _) & _); discriminate]].
  destruct load.
  - rewrite Ep. cbn [rbind]. assert (Q : pjoin basedir n ++ txt "/" ++ f = basedir ++ txt "/" ++ n ++ txt "/" ++ f) by (unfold pjoin; rewrite <- !app_assoc; reflexivity).
    destruct (isfile fs (basedir ++ txt "/" ++ n ++ txt "/" ++ f)) eqn:E; cbn [guard rbind]; split.
    + intros K. injection K as <-. split; [split; [reflexivity|]|split; [reflexivity|]].
      * intros _ g Hg. rewrite (pose_file_det n g f Hg Hf), Q. exact E.
      * exists f. split; [exact Hf|reflexivity].
    + intros (_ & K1 & g & Hg & K2). destruct d as (n', p'). cbn in *. subst. rewrite (pose_file_det n g f Hg Hf). reflexivity.
    + discriminate.
    + intros ((_ & K) & _). specialize (K eq_refl f Hf). rewrite Q in K. congruence.
  - split.
    + intros K. injection K as <-. split; [split; [reflexivity|discriminate]|split; reflexivity].
    + intros (_ & K1 & K2). destruct d as (n', p'). cbn in *. congruence.
Qed.
Lemma mapM_iff : forall {A B} (f : A -> res B) (P : A -> B -> Prop) l, (forall x, In x l -> forall y, f x = Ok y <-> P x y) ->
  forall r, mapM f l = Ok r <-> Forall2 P l r.
Proof.
  intros A B f P l. induction l as [|x l IH]; intros H r; cbn [mapM].
  - split; [intros K; injection K as <-; constructor|intros K; inversion K; reflexivity].
  - assert (IH' : forall r, mapM f l = Ok r <-> Forall2 P l r) by (apply IH; intros; apply H; now right). split.
    + intros K. destruct (f x) as [y|] eqn:E; [|discriminate]. cbn [rbind] in K. destruct (mapM f l) as [ys|]; [|discriminate]. injection K as <-.
      constructor; [apply H; [now left|exact E]|]. now apply IH'.
    + intros K. inversion K; subst. assert (E : f x = Ok y) by (apply H; [now left|assumption]). rewrite E. cbn [rbind].
      assert (E' : mapM f l = Ok l') by (apply IH'; assumption). rewrite E'. reflexivity.
Qed.
Lemma filter_filter : forall {A} (f g : A -> bool) l, filter f (filter g l) = filter (fun x => f x && g x) l.
Proof. intros A f g l. induction l as [|x l IH]; [reflexivity|]. cbn. destruct (g x) eqn:G; cbn; rewrite ?andb_true_r, ?andb_false_r; [destruct (f x); [f_equal|]|]; exact IH. Qed.
Lemma subdir_in : forall fs n, In n (map fst (filter snd (listing fs))) <-> subdir fs n.
Proof.
  intros fs n. rewrite in_map_iff. unfold subdir. split.
  - intros ((m, b) & <- & H). apply filter_In in H. destruct H as (H & K). cbn in *. subst. exact H.
  - intros H. exists (n, true). split; [reflexivity|]. apply filter_In. split; [exact H|reflexivity].
Qed.
Lemma icl_dirs_ok : forall fs basedir s load r, ~ Occurs (txt "living_room_traj") basedir ->
  (icl_dirs fs basedir s load = Ok r <->
   exists w names, Wanted fs s w /\ (exists n, subdir fs n /\ icl_dirname n) /\ (forall l, w = Some l -> Forall icl_dirname l) /\
     Listed fs (fun n => icl_dirname n /\ uses w n) names /\ names <> [] /\ (forall l, w = Some l -> length names = length l) /\
     Forall (icl_complete fs basedir load) names /\ Forall2 (icl_kept basedir load) names r).
Proof.
  intros fs basedir s load r No. unfold icl_dirs. cbv zeta. set (dirs := map fst (filter snd (listing fs))).
  assert (Valid : nonempty (filter icl_folder dirs) = true <-> exists n, subdir fs n /\ icl_dirname n).
  { split.
    - intros H. destruct (filter icl_folder dirs) as [|n l] eqn:E; [discriminate|]. exists n. assert (K : In n (filter icl_folder dirs)) by (rewrite E; now left).
      apply filter_In in K. destruct K as (K1 & K2). split; [now apply subdir_in|now apply icl_folder_ok].
    - intros (n & H & K). apply subdir_in in H. apply icl_folder_ok in K. assert (I : In n (filter icl_folder dirs)) by (apply filter_In; auto). destruct (filter icl_folder dirs); [destruct I|reflexivity]. }
  assert (Sel : forall w, (match w with Some l => forallb icl_folder l | None => true end) = true <-> (forall l, w = Some l -> Forall icl_dirname l)).
  { intros [l|]; [|split; [discriminate|reflexivity]]. rewrite forallb_forall. split.
    - intros H l' K. injection K as <-. apply Forall_forall. intros x Hx. apply icl_folder_ok, H, Hx.
    - intros H x Hx. specialize (H l eq_refl). rewrite Forall_forall in H. apply icl_folder_ok, H, Hx. }
  assert (Names : forall w, (forall l, w = Some l -> Forall icl_dirname l) -> forall f, (forall n, f n = true <-> icl_dirname n /\ uses w n) ->
      filter f dirs = filter (fun n => mem n (match w with Some l => l | None => filter icl_folder dirs end)) dirs).
  { intros w Hw f Hf. apply filter_ext_in. intros n Hn. apply eq_true_iff_eq. rewrite Hf, mem_ok. destruct w as [l|]; cbn [uses].
    - specialize (Hw l eq_refl). rewrite Forall_forall in Hw. split; [intros (_ & K); exact K|intros K; auto].
    - rewrite filter_In, icl_folder_ok. tauto. }
  assert (Check : forall w names f, (forall n, f n = true <-> icl_dirname n /\ uses w n) -> names = filter f dirs ->
      (mapM (icl_check fs basedir load) names = Ok r <-> Forall (icl_complete fs basedir load) names /\ Forall2 (icl_kept basedir load) names r)).
  { intros w names f Hf ->. rewrite (mapM_iff (icl_check fs basedir load) (fun n d => icl_complete fs basedir load n /\ icl_kept basedir load n d)).
    - generalize (filter f dirs). clear. intros l. revert r. induction l as [|x l IH]; intros r; split.
      + intros K. inversion K. split; constructor.
      + intros (_ & K). inversion K. constructor.
      + intros K. inversion K as [|? ? ? ? (H1 & H2) H3]; subst. apply IH in H3. destruct H3. split; constructor; assumption.
      + intros (K1 & K2). inversion K1; inversion K2; subst. constructor; [split; assumption|]. apply IH. split; assumption.
    - intros n Hn d. apply icl_check_ok; [exact No|]. apply filter_In in Hn. destruct Hn as (_ & K). apply Hf in K. tauto. }
  split.
  - intros H. destruct (nonempty (filter icl_folder dirs)) eqn:E1; [|discriminate]. cbn [guard rbind] in H.
    destruct (selected fs s) as [w|] eqn:Es; [|discriminate]. cbn [rbind] in H.
    destruct (match w with Some [] => false | _ => true end) eqn:E2; [|discriminate]. cbn [guard rbind] in H.
    destruct (match w with Some l => forallb icl_folder l | None => true end) eqn:E3; [|discriminate]. cbn [guard rbind] in H.
    pose proof (proj1 (Sel w) E3) as E3x. clear E3. rename E3x into E3. set (v := match w with Some l => l | None => filter icl_folder dirs end) in *.
    destruct (nonempty (filter (fun n => mem n v) dirs)) eqn:E4; [|discriminate]. cbn [guard rbind] in H.
    destruct (match w with Some l => length (filter (fun n => mem n v) dirs) =? length l | None => true end) eqn:E5; [|discriminate]. cbn [guard rbind] in H.
    set (f := fun n => icl_folder n && chosen w n).
    assert (Hf : forall n, f n = true <-> icl_dirname n /\ uses w n) by (intros n; unfold f; rewrite andb_true_iff, icl_folder_ok, chosen_ok; reflexivity).
    pose proof (Names w E3 f Hf) as En. fold v in En. exists w, (filter (fun n => mem n v) dirs).
    split; [now apply selected_ok|]. split; [now apply Valid|]. split; [exact E3|]. split; [exists f; split; [exact Hf|symmetry; exact En]|].
    split; [intros K; rewrite K in E4; discriminate|]. split; [intros l ->; now apply Nat.eqb_eq|].
    apply (Check w _ f Hf); [symmetry; exact En|exact H].
  - intros (w & names & Hw & Hv & Hl & (f & Hf & En) & Hne & Hc & Hk). fold dirs in En. apply Valid in Hv. rewrite Hv. cbn [guard rbind]. apply selected_ok in Hw. rewrite Hw. cbn [rbind].
    assert (E2 : (match w with Some [] => false | _ => true end) = true).
    { destruct w as [[|? ?]|]; try reflexivity. specialize (Hc [] eq_refl). destruct names; [contradiction|discriminate]. }
    rewrite E2. cbn [guard rbind]. rewrite (proj2 (Sel w) Hl). cbn [guard rbind]. rewrite <- (Names w Hl f Hf), <- En.
    assert (E4 : nonempty names = true) by (destruct names; [contradiction|reflexivity]). rewrite E4. cbn [guard rbind].
    assert (E5 : (match w with Some l => length names =? length l | None => true end) = true) by (destruct w as [l|]; [apply Nat.eqb_eq, Hc; reflexivity|reflexivity]).
    rewrite E5. cbn [guard rbind]. now apply (Check w names f Hf En).
Qed.
