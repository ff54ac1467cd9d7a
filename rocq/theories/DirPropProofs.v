(* C74: one lemma per theorem of PropDir.v. *)
From Coq Require Import Ascii String List Arith Bool Reals ZArith Lia Permutation.
From Verif Require Import Res TextModel TumModel DatasetModel TextProofs DataSpec DatasetSpec PoseFileProofs DataPropProofs DirModel DirSpec DirProofs.
Import ListNotations.
Local Open Scope nat_scope.

Lemma nodup_filter : forall {A} (f : A -> bool) l, NoDup l -> NoDup (filter f l).
Proof. intros A f l H. induction H as [|x l N H IH]; cbn; [constructor|]. destruct (f x); [|exact IH]. constructor; [|exact IH]. intros K. apply filter_In in K. tauto. Qed.
Lemma nodup_dirs : forall fs, listing_ok fs -> NoDup (map fst (filter snd (listing fs))).
Proof.
  unfold listing_ok. intros fs. generalize (listing fs). intros l. induction l as [|(n, b) l IH]; intros H; [constructor|]. cbn in *. inversion H; subst.
  destruct b; cbn; [|auto]. constructor; [|auto]. intros K. apply H2. apply in_map_iff in K. destruct K as (x & <- & K). apply filter_In in K. apply in_map, K.
Qed.
Lemma listed_in : forall fs (P : text -> Prop) names n, Listed fs P names -> (In n names <-> subdir fs n /\ P n).
Proof. intros fs P names n (f & Hf & ->). rewrite filter_In, subdir_in, Hf. reflexivity. Qed.
Lemma listed_nodup : forall fs (P : text -> Prop) names, listing_ok fs -> Listed fs P names -> NoDup names.
Proof. intros fs P names H (f & _ & ->). apply nodup_filter, nodup_dirs, H. Qed.
Lemma listed_exact : forall fs l (P : text -> Prop) names, listing_ok fs -> NoDup l -> (forall n, P n -> In n l) -> Listed fs P names -> length names = length l -> Permutation names l.
Proof.
  intros fs l P names H Hl HP Hn Ln. apply NoDup_Permutation_bis; [exact (listed_nodup fs P names H Hn)|lia|].
  intros n K. apply (listed_in fs P names n Hn) in K. apply HP, K.
Qed.
Lemma listed_covers : forall fs l (P : text -> Prop), listing_ok fs -> NoDup l -> (forall n, P n <-> In n l) -> Forall (subdir fs) l -> forall names, Listed fs P names -> Permutation names l.
Proof.
  intros fs l P H Hl HP F names Hn. rewrite Forall_forall in F. apply NoDup_Permutation; [exact (listed_nodup fs P names H Hn)|exact Hl|].
  intros n. rewrite (listed_in fs P names n Hn), HP. split; [tauto|auto].
Qed.

(* ---------------- TUM *)
Lemma q_tum_dirs : forall fs basedir s load names, tum_dirs fs basedir s load = Ok names <->
  exists w, Wanted fs s w /\ (forall n, subdir fs n -> tum_name n) /\ Listed fs (uses w) names /\ names <> [] /\
    (forall l, w = Some l -> length names = length l) /\ Forall (tum_complete fs basedir load) names.
Proof. apply tum_dirs_ok. Qed.
Lemma q_tum_none : forall fs basedir load names, tum_dirs fs basedir SNone load = Ok names -> forall n, In n names <-> subdir fs n.
Proof. intros fs basedir load names H n. apply tum_dirs_ok in H. destruct H as (w & Hw & _ & HL & _). cbn in Hw. subst w. rewrite (listed_in _ _ _ n HL). cbn. tauto. Qed.
Lemma q_tum_exactly : forall fs basedir s load l names, listing_ok fs -> Wanted fs s (Some l) -> NoDup l ->
  tum_dirs fs basedir s load = Ok names -> Permutation names l.
Proof.
  intros fs basedir s load l names H Hs Hl E. apply tum_dirs_ok in E. destruct E as (w & Hw & _ & HL & _ & HC & _).
  assert (w = Some l) by (apply selected_ok in Hs, Hw; congruence). subst w. apply (listed_exact fs l (uses (Some l))); auto.
Qed.
Lemma q_tum_accepts : forall fs basedir s load l, listing_ok fs -> Wanted fs s (Some l) -> NoDup l -> l <> [] ->
  (forall n, subdir fs n -> tum_name n) -> Forall (subdir fs) l -> Forall (tum_complete fs basedir load) l ->
  exists names, tum_dirs fs basedir s load = Ok names /\ Permutation names l.
Proof.
  intros fs basedir s load l H Hs Hl Ne Hn Hd Hc.
  assert (HL : Listed fs (uses (Some l)) (filter (chosen (Some l)) (map fst (filter snd (listing fs))))) by (exists (chosen (Some l)); split; [apply chosen_ok|reflexivity]).
  assert (P : Permutation (filter (chosen (Some l)) (map fst (filter snd (listing fs)))) l) by (apply (listed_covers fs l (uses (Some l))); auto; reflexivity).
  eexists. split; [|exact P]. apply tum_dirs_ok. exists (Some l). split; [exact Hs|]. split; [exact Hn|]. split; [exact HL|].
  split; [intros K; rewrite K in P; apply Permutation_nil in P; contradiction|]. split; [intros l' K; injection K as <-; apply Permutation_length, P|].
  rewrite Forall_forall in *. intros n K. apply Hc. eapply Permutation_in; eassumption.
Qed.
Lemma tum_list_wf : forall w l, (forall n, In (n, true) l -> tum_name n) -> exists names, tum_list w l = Ok names.
Proof. intros w l H. eexists. apply tum_list_ok. split; [exact H|reflexivity]. Qed.
Lemma mapM_err : forall {A B} (f : A -> res B) e, (forall x e', f x = Err e' -> e' = e) -> forall l e', mapM f l = Err e' -> e' = e.
Proof.
  intros A B f e H l. induction l as [|x l IH]; intros e' E; [discriminate|]. cbn [mapM] in E. destruct (f x) as [y|] eqn:Ef; cbn [rbind] in E; [|injection E as <-; eapply H, Ef].
  destruct (mapM f l) as [ys|] eqn:El; cbn [rbind] in E; [discriminate|]. injection E as <-. apply IH. reflexivity.
Qed.
Lemma q_tum_errors : forall fs basedir s load e, (forall n, subdir fs n -> tum_name n) -> tum_dirs fs basedir s load = Err e ->
  (s = SOther /\ e = TypeError) \/ (s <> SOther /\ e = ValueError).
Proof.
  intros fs basedir s load e H E. unfold tum_dirs in E.
  destruct (selected fs s) as [w|e0] eqn:Es; cbn [rbind] in E.
  - right. split; [intros ->; discriminate|]. destruct (match w with Some [] => false | _ => true end); cbn [guard rbind] in E; [|congruence].
    destruct (tum_list_wf w (listing fs) H) as (ns & En). rewrite En in E. cbn [rbind] in E. destruct (nonempty ns); cbn [guard rbind] in E; [|congruence].
    destruct (match w with Some l => length ns =? length l | None => true end); cbn [guard rbind] in E; [|congruence].
    destruct (mapM _ ns) as [r|e1] eqn:Em; cbn [rbind] in E; [discriminate|]. injection E as <-. revert Em. apply mapM_err.
    intros n e' K. unfold tum_check in K. repeat (destruct (isfile fs _); cbn [guard rbind] in K; [|congruence || (destruct load; cbn in K; congruence)]). destruct load; cbn in K; congruence.
  - injection E as <-. destruct s as [|l|p|]; cbn in Es; try discriminate; [|left; split; congruence]. right. split; [discriminate|]. destruct (isfile fs p); cbn in Es; congruence.
Qed.
Lemma q_tum_missing : forall fs basedir s load l x, (forall n, subdir fs n -> tum_name n) -> listing_ok fs -> Wanted fs s (Some l) -> NoDup l ->
  In x l -> ~ subdir fs x -> tum_dirs fs basedir s load = Err ValueError.
Proof.
  intros fs basedir s load l x Hn H Hs Hl Hx Nx. destruct (tum_dirs fs basedir s load) as [names|e] eqn:E.
  - exfalso. pose proof (q_tum_exactly fs basedir s load l names H Hs Hl E) as P. apply tum_dirs_ok in E. destruct E as (w & _ & _ & HL & _).
    apply Nx. apply (listed_in _ _ _ x HL). eapply Permutation_in; [apply Permutation_sym; exact P|exact Hx].
  - destruct (q_tum_errors fs basedir s load e Hn E) as [(-> & _)|(_ & ->)]; [contradiction|reflexivity].
Qed.
Lemma r_tum_other_folder : forall fs basedir s load n, subdir fs n -> ~ tum_name n -> exists e, tum_dirs fs basedir s load = Err e.
Proof. intros fs basedir s load n H N. destruct (tum_dirs fs basedir s load) as [names|e] eqn:E; [|eauto]. apply tum_dirs_ok in E. destruct E as (w & _ & K & _). elim N. auto. Qed.
(* concrete disks: every file exists, the file with the names contains f *)
Definition a_seq : text := txt "rgbd_dataset_freiburg1_xyz".
Definition b_seq : text := txt "rgbd_dataset_freiburg2_desk".
Definition disk_of (dirs : list text) (file : text) : disk := mkDisk (map (fun n => (n, true)) dirs ++ [(txt "readme.txt", false)]) (fun _ => true) (fun _ => file).
Lemma a_seq_name : tum_name a_seq.
Proof. exists "1"%char, (txt "xyz"). split; [discriminate|reflexivity]. Qed.
Lemma b_seq_name : tum_name b_seq.
Proof. exists "2"%char, (txt "desk"). split; [discriminate|reflexivity]. Qed.
Lemma r_tum_twice : tum_dirs (disk_of [a_seq; b_seq] []) (txt "d") (STuple [a_seq]) true = Ok [a_seq] /\
  tum_dirs (disk_of [a_seq; b_seq] []) (txt "d") (STuple [a_seq; a_seq]) true = Err ValueError.
Proof. split; vm_compute; reflexivity. Qed.
Lemma r_tum_newline : tum_dirs (disk_of [a_seq; b_seq] a_seq) (txt "d") (SStr (txt "split.txt")) true = Ok [a_seq] /\
  tum_dirs (disk_of [a_seq; b_seq] (a_seq ++ [newline])) (txt "d") (SStr (txt "split.txt")) true = Err ValueError.
Proof. split; vm_compute; reflexivity. Qed.
Lemma r_tum_index : tum_dirs (disk_of [a_seq; txt "rgbd"] []) (txt "d") (STuple [a_seq]) true = Err IndexError /\
  tum_dirs (disk_of [a_seq; txt "cache"] []) (txt "d") (STuple [a_seq]) true = Err ValueError.
Proof. split; vm_compute; reflexivity. Qed.
Lemma q_tum_open : forall rnd value fs basedir s seqlen dilation stride start end_ load w names rs,
  window_args seqlen dilation stride start end_ = Ok w -> tum_dirs fs basedir s load = Ok names ->
  Forall2 (fun n r => let file f := contents fs (basedir ++ txt "/" ++ n ++ txt "/" ++ f) in exists a t,
     find_associations rnd value (2 / 100)%R (file (txt "rgb.txt")) (file (txt "depth.txt")) (if load then Some (file (txt "groundtruth.txt")) else None) (Some (w_start w)) (w_end w) = Ok (a, t) /\
     tum_sequence w (basedir ++ txt "/" ++ n) n load a t = Ok r) names rs ->
  tum_open rnd value fs basedir s seqlen dilation stride start end_ load =
    Ok (mkTum (concat (map t_color rs)) (concat (map t_depth rs)) (concat (map t_names rs)) (concat (map t_stamps rs)) (concat (map t_poses rs))).
Proof.
  intros rnd value fs basedir s seqlen dilation stride start end_ load w names rs E1 E2 F. unfold tum_open. rewrite E1. cbn [rbind]. rewrite E2. cbn [rbind].
  clear E1 E2.
  assert (G : exists seqs, mapM (fun n => let p := pjoin basedir n in
    let? a := find_associations rnd value (2 / 100)%R (contents fs (pjoin p (txt "rgb.txt"))) (contents fs (pjoin p (txt "depth.txt")))
      (if load then Some (contents fs (pjoin p (txt "groundtruth.txt"))) else None) (Some (w_start w)) (w_end w) in
    Ok (p, n, fst a, snd a)) names = Ok seqs /\
    Forall2 (fun s r => match s with (dir, name, assoc, stamps) => tum_sequence w dir name load assoc stamps = Ok r end) seqs rs).
  { induction F as [|n r names rs (a & t & Ea & Er) F IH]; [exists []; split; [reflexivity|constructor]|]. destruct IH as (seqs & Es & Fs).
    exists ((pjoin basedir n, n, a, t) :: seqs). split; [|constructor; [exact Er|exact Fs]]. cbn [mapM]. cbv zeta.
    assert (Q : forall f, pjoin (pjoin basedir n) f = basedir ++ txt "/" ++ n ++ txt "/" ++ f) by (intros f; unfold pjoin; rewrite <- !app_assoc; reflexivity).
    rewrite !Q, Ea. cbn [rbind fst snd]. cbv zeta in Es. rewrite Es. reflexivity. }
  destruct G as (seqs & Es & Fs). etransitivity; [|apply q_tum_all; exact Fs]. cbv zeta in Es. cbv zeta. rewrite Es. reflexivity.
Qed.

(* ---------------- ICL *)
Lemma q_icl_dirs : forall fs basedir s load r, ~ Occurs (txt "living_room_traj") basedir ->
  (icl_dirs fs basedir s load = Ok r <->
   exists w names, Wanted fs s w /\ (exists n, subdir fs n /\ icl_dirname n) /\ (forall l, w = Some l -> Forall icl_dirname l) /\
     Listed fs (fun n => icl_dirname n /\ uses w n) names /\ names <> [] /\ (forall l, w = Some l -> length names = length l) /\
     Forall (icl_complete fs basedir load) names /\ Forall2 (icl_kept basedir load) names r).
Proof. apply icl_dirs_ok. Qed.
Lemma kept_names : forall basedir load names r, Forall2 (icl_kept basedir load) names r -> map fst r = names.
Proof. intros basedir load names r F. induction F as [|n d names r (E & _) F IH]; cbn; [reflexivity|]. congruence. Qed.
Lemma q_icl_exactly : forall fs basedir s load l r, ~ Occurs (txt "living_room_traj") basedir -> listing_ok fs -> Wanted fs s (Some l) -> NoDup l ->
  icl_dirs fs basedir s load = Ok r -> Permutation (map fst r) l.
Proof.
  intros fs basedir s load l r No H Hs Hl E. apply icl_dirs_ok in E; [|exact No]. destruct E as (w & names & Hw & _ & _ & HL & _ & HC & _ & HK).
  assert (w = Some l) by (apply selected_ok in Hs, Hw; congruence). subst w. rewrite (kept_names _ _ _ _ HK).
  apply (listed_exact fs l (fun n => icl_dirname n /\ uses (Some l) n)); auto. intros n (_ & K). exact K.
Qed.
Lemma q_icl_accepts : forall fs basedir s load l, ~ Occurs (txt "living_room_traj") basedir -> listing_ok fs -> Wanted fs s (Some l) -> NoDup l -> l <> [] ->
  Forall icl_dirname l -> Forall (subdir fs) l -> Forall (icl_complete fs basedir load) l ->
  exists r, icl_dirs fs basedir s load = Ok r /\ Permutation (map fst r) l.
Proof.
  intros fs basedir s load l No H Hs Hl Ne Hn Hd Hc. set (f := fun n => icl_folder n && chosen (Some l) n).
  set (names := filter f (map fst (filter snd (listing fs)))).
  assert (Hf : forall n, f n = true <-> icl_dirname n /\ uses (Some l) n) by (intros n; unfold f; rewrite andb_true_iff, icl_folder_ok, chosen_ok; reflexivity).
  assert (HL : Listed fs (fun n => icl_dirname n /\ uses (Some l) n) names) by (exists f; split; [exact Hf|reflexivity]).
  assert (P : Permutation names l).
  { rewrite Forall_forall in Hn. apply (listed_covers fs l (fun n => icl_dirname n /\ uses (Some l) n)); auto. intros n. cbn. split; [tauto|auto]. }
  assert (K : exists r, Forall2 (icl_kept basedir load) names r).
  { assert (Hn' : Forall icl_dirname names) by (rewrite Forall_forall in *; intros n K; apply Hn; eapply Permutation_in; eassumption).
    clear - Hn' No. induction Hn' as [|n names Hn _ IH]; [exists []; constructor|]. destruct IH as (r & Fr). destruct (icl_posefile_any basedir n No Hn) as (g & Hg).
    destruct load; [exists ((n, Some (basedir ++ txt "/" ++ n ++ txt "/" ++ g)) :: r)|exists ((n, None) :: r)]; (constructor; [|exact Fr]); split; try reflexivity. exists g. auto. }
  destruct K as (r & Fr). exists r. split; [|rewrite (kept_names _ _ _ _ Fr); exact P]. apply icl_dirs_ok; [exact No|]. exists (Some l), names.
  split; [exact Hs|]. split; [destruct l as [|x l]; [contradiction|]; exists x; inversion Hn; inversion Hd; auto|]. split; [intros l' Q; injection Q as <-; exact Hn|]. split; [exact HL|].
  split; [intros Q; rewrite Q in P; apply Permutation_nil in P; contradiction|]. split; [intros l' Q; injection Q as <-; apply Permutation_length, P|].
  split; [|exact Fr]. rewrite Forall_forall in *. intros n Q. apply Hc. eapply Permutation_in; eassumption.
Qed.
Lemma q_icl_none : forall fs basedir load r, ~ Occurs (txt "living_room_traj") basedir -> icl_dirs fs basedir SNone load = Ok r ->
  forall n, In n (map fst r) <-> subdir fs n /\ icl_dirname n.
Proof.
  intros fs basedir load r No E n. apply icl_dirs_ok in E; [|exact No]. destruct E as (w & names & Hw & _ & _ & HL & _ & _ & _ & HK). cbn in Hw. subst w.
  rewrite (kept_names _ _ _ _ HK), (listed_in _ _ _ n HL). cbn. tauto.
Qed.
Definition t2 : text := txt "living_room_traj2_frei_png".
Lemma t2_name : icl_dirname t2.
Proof. exists (txt "2"). reflexivity. Qed.
(* a disk where exactly the associations file and the right pose file of t2 exist below basedir *)
Definition icl_disk (basedir : text) : disk := mkDisk [(t2, true); (txt "other", true)]
  (fun p => text_eqb p (basedir ++ txt "/" ++ t2 ++ txt "/associations.txt") || text_eqb p (basedir ++ txt "/" ++ t2 ++ txt "/livingRoom2n.gt.sim")) (fun _ => []).
Lemma t2_pose f : pose_file t2 f -> f = txt "livingRoom2n.gt.sim".
Proof. intros H. apply (pose_file_det t2 f); [exact H|]. exists (txt "2"), (txt "frei_png"). split; [cbn; intuition discriminate|]. split; reflexivity. Qed.
Lemma r_icl_basedir : exists b, let fs := icl_disk b in Forall (icl_complete fs b true) [t2] /\ subdir fs t2 /\ icl_dirs fs b (STuple [t2]) false = Ok [(t2, None)] /\
  icl_dirs fs b (STuple [t2]) true = Err ValueError.
Proof.
  exists (txt "/data/living_room_traj"). cbv zeta. split; [constructor; [|constructor]|].
  - split; [vm_compute; reflexivity|]. intros _ f Hf. rewrite (t2_pose f Hf). vm_compute. reflexivity.
  - split; [now left|]. split; vm_compute; reflexivity.
Qed.
Lemma q_icl_open : forall fs basedir s seqlen dilation stride start end_ load w ds rs,
  window_args seqlen dilation stride start end_ = Ok w -> icl_dirs fs basedir s load = Ok ds ->
  Forall2 (fun d r => let p := basedir ++ txt "/" ++ fst d in let f := match snd d with Some f => f | None => [] end in
     icl_traj w load (mkTraj p (fst d) (contents fs (p ++ txt "/associations.txt")) f (contents fs f)) = Ok r) ds rs ->
  icl_open fs basedir s seqlen dilation stride start end_ load =
    Ok (mkIcl (concat (map i_color rs)) (concat (map i_depth rs)) (concat (map i_names rs)) (concat (map i_poses rs))).
Proof.
  intros fs basedir s seqlen dilation stride start end_ load w ds rs E1 E2 F. unfold icl_open. rewrite E1. cbn [rbind]. rewrite E2. cbn [rbind]. apply q_icl_all.
  clear E2. induction F as [|d r ds rs H F IH]; cbn [map]; constructor; [exact H|exact IH].
Qed.

(* ---------------- ScanNet *)
Lemma q_scannet_open : forall fs basedir metadir metas s w start end_, Wanted fs s w -> exists scs used,
  (exists f, (forall m, f m = true <-> exists x, Before "-"%char m x /\ uses w x) /\ used = filter f metas) /\
  Forall2 (fun m sc => Before "."%char m (sc_name sc) /\ FileLines (contents fs (metadir ++ txt "/" ++ m)) (sc_lines sc)) used scs /\
  scannet_open fs basedir metadir metas s start end_ = scannet_new basedir start end_ scs.
Proof.
  intros fs basedir metadir metas s w start end_ Hw. set (f := fun m => chosen w (scene_of m)).
  exists (map (fun m => mkScene (hd [] (split_on "."%char m)) (readlines (contents fs (pjoin metadir m)))) (filter f metas)), (filter f metas). split; [|split].
  - exists f. split; [|reflexivity]. intros m. unfold f. rewrite chosen_ok. split.
    + intros H. exists (scene_of m). split; [apply split_hd|exact H].
    + intros (x & Hx & Hu). rewrite (before_det "-"%char m (scene_of m) x); [exact Hu|apply split_hd|exact Hx].
  - induction (filter f metas) as [|m l IH]; cbn [map]; constructor; [|exact IH]. split; [apply split_hd|apply filelines_spec].
  - unfold scannet_open, scannet_new. apply selected_ok in Hw. destruct (negb (start <? 0)%Z); [|reflexivity]. cbn [guard rbind]. destruct ((end_ =? -1)%Z || (start <? end_)%Z); [|reflexivity]. cbn [guard rbind].
    rewrite Hw. cbn [rbind]. destruct (negb (start <? 0)%Z) eqn:Q; reflexivity.
Qed.
Lemma r_scannet_missing : forall fs basedir metadir metas l (start end_ : nat), start < end_ -> (forall m x, In m metas -> Before "-"%char m x -> ~ In x l) ->
  exists r, scannet_open fs basedir metadir metas (STuple l) (Z.of_nat start) (Z.of_nat end_) = Ok r /\ sd_frames r = [].
Proof.
  intros fs basedir metadir metas l start end_ H N.
  destruct (q_scannet_open fs basedir metadir metas (STuple l) (Some l) (Z.of_nat start) (Z.of_nat end_) eq_refl) as (scs & used & (f & Hf & Eu) & F & E).
  assert (used = []).
  { destruct used as [|m used]; [reflexivity|]. assert (K : In m (filter f metas)) by (rewrite <- Eu; now left). apply filter_In in K. destruct K as (Km & Kf). apply Hf in Kf.
    destruct Kf as (x & Hx & Hu). elim (N m x Km Hx Hu). }
  subst used. rewrite H0 in F. inversion F; subst. rewrite E. unfold scannet_new.
  replace (Z.of_nat start <? 0)%Z with false by (symmetry; apply Z.ltb_ge; lia). replace (Z.of_nat start <? Z.of_nat end_)%Z with true by (symmetry; apply Z.ltb_lt; lia).
  rewrite orb_true_r. cbn [negb guard rbind scan_loop]. eexists. split; reflexivity.
Qed.
Lemma q_selection_type : forall fs basedir metadir metas load start end_, 
  tum_dirs fs basedir SOther load = Err TypeError /\
  ((exists n, subdir fs n /\ icl_dirname n) -> icl_dirs fs basedir SOther load = Err TypeError) /\
  ((0 <= start)%Z -> end_ = (-1)%Z \/ (start < end_)%Z -> scannet_open fs basedir metadir metas SOther start end_ = Err TypeError).
Proof.
  intros. split; [reflexivity|]. split.
  - intros (n & H & K). unfold icl_dirs. cbv zeta. apply subdir_in in H. apply icl_folder_ok in K.
    assert (I : In n (filter icl_folder (map fst (filter snd (listing fs))))) by (apply filter_In; auto). destruct (filter icl_folder _); [destruct I|reflexivity].
  - intros H K. unfold scannet_open. replace (start <? 0)%Z with false by (symmetry; apply Z.ltb_ge; lia). cbn [negb guard rbind].
    replace ((end_ =? -1)%Z || (start <? end_)%Z) with true; [reflexivity|]. symmetry. apply orb_true_iff. destruct K as [ -> | K]; [left; reflexivity|right; apply Z.ltb_lt; exact K].
Qed.
