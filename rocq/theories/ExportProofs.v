(* Exports of clouds. *)
From Coq Require Import List Arith ZArith Reals Bool Permutation Lia Lra.
From Verif Require Import Res Fld TensorModel StructUtilsModel PointcloudsModel PointcloudsSpec PointcloudsIndexSpec PointcloudsHist PointcloudsIndex
  PointcloudsPropProofs ExportModel ExportSpec.
Import ListNotations.
Local Open Scope nat_scope.

(* ---------------------------------------------------------------- reads *)
Lemma hist_batch s a : Hist RF s a -> Batch RF a.
Proof. intros H. eapply PointcloudsProofs.Rep_Batch. apply PointcloudsHistProofs.Hist_Rep, H. Qed.
Lemma run_list x s a : Hist RF s a -> exists s', get_list RF x s = (Ok (qget x a), s') /\ Hist RF s' a.
Proof.
  intros H. pose proof (p_hist_shows RF s a H) as (S1 & _). specialize (S1 x). pose proof (h_read RF (RdList x) s a H) as H'. cbn [after] in H'.
  destruct (get_list RF x s) as [r s']. cbn in S1, H'. subst r. eauto.
Qed.
Lemma run_has x s a : Hist RF s a -> exists s', has RF x s = (Ok (is_some (qget x a)), s') /\ Hist RF s' a.
Proof.
  intros H. pose proof (p_hist_shows RF s a H) as (_ & _ & S1 & _). specialize (S1 x). pose proof (h_read RF (RdHas x) s a H) as H'. cbn [after] in H'.
  destruct (has RF x s) as [r s']. cbn in S1, H'. subst r. eauto.
Qed.
Lemma run_num s a : Hist RF s a -> num RF s = counts_view RF a.
Proof. intros H. apply (p_hist_shows RF s a H). Qed.

(* ---------------------------------------------------------------- the common part *)
Definition inds_of (perm : nat -> list nat) (n : nat) (max : option Z) : option (list nat) :=
  match max with Some m => if (m <? Z.of_nat n)%Z then Some (upto m (perm n)) else None | None => None end.
Lemma upto_nonneg m l : (0 <= m)%Z -> upto m l = firstn (Z.to_nat m) l.
Proof. intros H. unfold upto. destruct (Z.ltb_spec m 0); [lia|reflexivity]. Qed.
Lemma map_seq_nth {X} (l : list X) (d : X) : map (fun i => nth i l d) (seq 0 (length l)) = l.
Proof.
  apply nth_ext with (d := d) (d' := d); rewrite map_length, seq_length; [reflexivity|]. intros i Hi.
  rewrite (nth_indep _ d (nth 0 l d)) by (rewrite map_length, seq_length; exact Hi). rewrite (map_nth (fun i => nth i l d)), seq_nth by exact Hi. reflexivity.
Qed.
Lemma take_all x : t2r (take_rows None x) = map (fun i => nth i (t2r x) []) (seq 0 (length (t2r x))).
Proof. cbn. symmetry. apply map_seq_nth. Qed.
Lemma in_firstn {X} n (l : list X) x : In x (firstn n l) -> In x l.
Proof. intros H. rewrite <- (firstn_skipn n l). apply in_or_app. now left. Qed.
Lemma NoDup_firstn {X} n (l : list X) : NoDup l -> NoDup (firstn n l).
Proof. intros H. revert n. induction H as [|x l N H IH]; intros [|n]; cbn; constructor; [|apply IH]. intros I. apply N. eapply in_firstn; exact I. Qed.

Lemma chosen_of perm n max : shuffles perm -> match max with Some m => (0 <= m)%Z | None => True end ->
  chosen n max (match inds_of perm n max with Some l => l | None => seq 0 n end).
Proof.
  intros Hp Hm. unfold inds_of. destruct max as [m|].
  2:{ repeat split; [apply seq_NoDup|]. intros i Hi. apply in_seq in Hi. lia. }
  destruct (Z.ltb_spec m (Z.of_nat n)).
  - rewrite upto_nonneg by exact Hm. assert (L : length (perm n) = n) by (rewrite (Permutation_length (Hp n)); apply seq_length).
    split; [|split; [|split]].
    + apply NoDup_firstn. apply (Permutation_NoDup (Permutation_sym (Hp n))). apply seq_NoDup.
    + intros i Hi. apply in_firstn in Hi. apply (Permutation_in _ (Hp n)) in Hi. apply in_seq in Hi. lia.
    + rewrite firstn_length, L. reflexivity.
    + intros C. lia.
  - split; [|split; [|split]].
    + apply seq_NoDup.
    + intros i Hi. apply in_seq in Hi. lia.
    + rewrite seq_length. lia.
    + reflexivity.
Qed.
(* rows of a tensor with n rows *)
Lemma taken perm n max x : length (t2r x) = n ->
  t2r (take_rows (inds_of perm n max) x) = map (fun i => nth i (t2r x) []) (match inds_of perm n max with Some l => l | None => seq 0 n end).
Proof. intros <-. destruct (inds_of _ _ _); [reflexivity|apply take_all]. Qed.

Lemma attr_cloud a P x L k : Batch RF a -> qp a = Some P -> qget x a = Some L -> k < length P ->
  length L = length P /\ length (t2r (nth k L (mkT2 3 []))) = size_of a k.
Proof.
  intros B EP EL Hk. unfold Batch in B. rewrite EP in B. destruct B as (_ & _ & V). destruct (V x L EL) as (C & _).
  assert (LL : length L = length P) by (apply (f_equal (@length _)) in C; unfold counts_of in C; now rewrite !map_length in C).
  split; [exact LL|]. unfold size_of, counts_view. rewrite EP, <- C. unfold counts_of.
  rewrite (nth_indep _ 0 (length (t2r (mkT2 (A := R) 3 [])))) by (rewrite map_length; lia). now rewrite (map_nth (fun y => length (t2r y))).
Qed.
Lemma py_at {X} (l : list X) d n i k : length l = n -> resolves n i k -> py_nth l i = Ok (nth k l d).
Proof. intros <- H. destruct (py_nth_resolves l i k H) as (y & E & ->). now rewrite (nth_error_nth l k d E). Qed.
Lemma run_cloud x s a P L i k : Hist RF s a -> qp a = Some P -> qget x a = Some L -> resolves (length P) i k ->
  exists s', cloud_of x i s = (Ok (nth k L (mkT2 3 [])), s') /\ Hist RF s' a.
Proof.
  intros H EP EL Hk. destruct (run_list x s a H) as (s' & E & H'). exists s'. split; [|exact H'].
  unfold cloud_of, mbind. rewrite E, EL. unfold lift. f_equal. apply py_at with (n := length P); [|exact Hk].
  destruct Hk as [Hk _]. apply (attr_cloud a P x L k (hist_batch s a H) EP EL Hk).
Qed.

Lemma run_export {C} perm (paint : t2 R -> res C) s a P i k ic max inn :
  Hist RF s a -> qp a = Some P -> resolves (length P) i k ->
  let inds := inds_of perm (size_of a k) max in
  let at_cloud L := take_rows inds (nth k L (mkT2 3 [])) in
  exists s', Hist RF s' a /\ export perm paint (AInt i) ic max inn s =
    (match (match qc a with Some L => if ic then rmap Some (paint (at_cloud L)) else Ok None | None => Ok None end) with
     | Err e => Err e
     | Ok c => Ok (mkCloud3d (at_cloud P) c (if inn then option_map at_cloud (qn a) else None))
     end, s').
Proof.
  intros H EP Hk inds at_cloud. unfold export. unfold mbind at 1. cbn [get].
  unfold mbind at 1. unfold lift at 1. rewrite (run_num s a H).
  assert (LC : length (counts_view RF a) = length P) by (unfold counts_view; rewrite EP; apply map_length).
  rewrite (py_at _ 0 _ i k LC Hk). fold (size_of a k).
  unfold mbind at 1. destruct (run_cloud Points s a P P i k H EP EP Hk) as (s1 & E1 & H1). rewrite E1. cbv zeta. fold (inds_of perm (size_of a k) max). fold inds.
  unfold mbind at 1. destruct (run_has Colors s1 a H1) as (s2 & E2 & H2). rewrite E2. cbn [qget].
  assert (N : forall s3 c, Hist RF s3 a -> exists s', Hist RF s' a /\ (do hn <- has RF Normals; do v <- (if hn && inn then do x <- cloud_of Normals i; ret (Some (take_rows inds x)) else ret None);
     ret (mkCloud3d (C := C) (take_rows inds (nth k P (mkT2 3 []))) c v)) s3 =
    (Ok (mkCloud3d (at_cloud P) c (if inn then option_map at_cloud (qn a) else None)), s')).
  { intros s3 c H3. unfold mbind at 1. destruct (run_has Normals s3 a H3) as (s4 & E4 & H4). rewrite E4. cbn [qget].
    destruct (qn a) as [Ln|] eqn:En; cbn [is_some]; destruct inn; cbn [andb option_map].
    - destruct (run_cloud Normals s4 a P Ln i k H4 EP En Hk) as (s5 & E5 & H5). exists s5. split; [exact H5|]. unfold mbind. rewrite E5. reflexivity.
    - exists s4. split; [exact H4|reflexivity].
    - exists s4. split; [exact H4|reflexivity].
    - exists s4. split; [exact H4|reflexivity]. }
  destruct (qc a) as [Lc|] eqn:Ec; cbn [is_some]; [destruct ic|]; cbn [andb].
  - destruct (run_cloud Colors s2 a P Lc i k H2 EP Ec Hk) as (s3 & E3 & H3).
    unfold mbind at 1. unfold mbind at 1. rewrite E3. unfold mbind at 1, lift. change (take_rows inds (nth k Lc (mkT2 3 []))) with (at_cloud Lc).
    destruct (paint (at_cloud Lc)) as [y|e]; cbn [rmap].
    + cbn [ret]. destruct (N s3 (Some y) H3) as (s' & H' & E'). exists s'. split; [exact H'|exact E'].
    + exists s3. split; [exact H3|reflexivity].
  - destruct (N s2 None H2) as (s' & H' & E'). exists s'. split; [exact H'|exact E'].
  - destruct (N s2 None H2) as (s' & H' & E'). exists s'. split; [exact H'|exact E'].
Qed.

(* ---------------------------------------------------------------- colours *)
Local Open Scope R_scope.
Lemma fold_max_gt t : forall l a, t < fold_left Rmax l a <-> exists c, In c (a :: l) /\ t < c.
Proof.
  induction l as [|b l IH]; intros a; cbn [fold_left].
  - split; [intros H; exists a; split; [now left|exact H]|intros (c & [<-|[]] & H); exact H].
  - rewrite IH. split.
    + intros (c & [E|I] & H); [|exists c; split; [right; now right|exact H]].
      subst c. unfold Rmax in H. destruct (Rle_dec a b); [exists b|exists a]; (split; [cbn; auto|exact H]).
    + intros (c & [E|[E|I]] & H); subst.
      * exists (Rmax c b). split; [now left|]. pose proof (Rmax_l c b). lra.
      * exists (Rmax a c). split; [now left|]. pose proof (Rmax_r a c). lra.
      * exists c. split; [now right|exact H].
Qed.
Lemma fold_max_lt t : forall l a, fold_left Rmax l a < t <-> forall c, In c (a :: l) -> c < t.
Proof.
  induction l as [|b l IH]; intros a; cbn [fold_left].
  - split; [intros H c [<-|[]]; exact H|intros H; apply H; now left].
  - rewrite IH. split.
    + intros H c [<-|[<-|I]]; [| |apply H; now right]; specialize (H (Rmax a b) (or_introl eq_refl)); pose proof (Rmax_l a b); pose proof (Rmax_r a b); lra.
    + intros H c [<-|I]; [|apply H; right; now right]. unfold Rmax. destruct (Rle_dec a b); apply H; cbn; auto.
Qed.
Lemma tmax_some l : l <> [] -> exists m, tmax l = Ok m /\ (forall t, t < m <-> exists c, In c l /\ t < c) /\ (forall t, m < t <-> forall c, In c l -> c < t).
Proof. destruct l as [|a l]; [congruence|]. intros _. exists (fold_left Rmax l a). split; [reflexivity|]. split; [intros t; apply fold_max_gt|intros t; apply fold_max_lt]. Qed.
Lemma clamp_into lo hi c : lo <= hi -> clampR lo hi c = into lo hi c.
Proof. intros H. unfold clampR, into, Rmin, Rmax. destruct (Rle_dec lo c), (Rlt_dec c lo); try lra; destruct (Rle_dec hi _), (Rlt_dec hi c); lra. Qed.
Lemma bright_in rows : bright rows <-> exists c, In c (concat rows) /\ 11 / 10 < c.
Proof.
  unfold bright. split.
  - intros (r & c & Ir & Ic & H). exists c. split; [|exact H]. apply in_concat. eauto.
  - intros (c & I & H). apply in_concat in I. destruct I as (r & Ir & Ic). eauto.
Qed.
Lemma dim_in rows : dim rows <-> forall c, In c (concat rows) -> c < 11 / 10.
Proof.
  unfold dim. split.
  - intros H c I. apply in_concat in I. destruct I as (r & Ir & Ic). eauto.
  - intros H r c Ir Ic. apply H. apply in_concat. eauto.
Qed.
Lemma unit_ok x : concat (t2r x) <> [] -> exists y, unit_colors x = Ok y /\ t2c y = t2c x /\ Unit (t2r x) (t2r y).
Proof.
  intros N. destruct (tmax_some _ N) as (m & E & G & _). unfold unit_colors. rewrite E. cbn [rbind]. eexists. split; [reflexivity|].
  destruct (Rlt_dec (11 / 10) m) as [H|H]; (split; [reflexivity|]).
  - left. split; [apply bright_in, G, H|]. cbn. rewrite map_map. apply map_ext. intros r. rewrite map_map. apply map_ext. intros c. apply clamp_into. lra.
  - right. split; [intros C; apply H, G, bright_in, C|]. cbn. apply map_ext. intros r. apply map_ext. intros c. apply clamp_into. lra.
Qed.
Lemma floor_byte c : byte_of c (to_uint8 (clampR 0 255 c)).
Proof.
  unfold byte_of, to_uint8. rewrite clamp_into by lra. destruct (base_Int_part (into 0 255 c)). lra.
Qed.
Lemma bytes_rows (f g : R -> R) rows : (forall c, f c = g c) ->
  Forall2 (Forall2 (fun c z => byte_of (g c) z)) rows (map (map (fun c => to_uint8 (clampR 0 255 (f c)))) rows).
Proof.
  intros E. induction rows as [|r rows IH]; cbn; constructor; [|exact IH]. clear IH. induction r as [|c r IH]; cbn; constructor; [|exact IH].
  rewrite E. apply floor_byte.
Qed.
Lemma byte_ok x : concat (t2r x) <> [] -> exists y, byte_colors x = Ok y /\ t2c y = t2c x /\ Bytes (t2r x) (t2r y).
Proof.
  intros N. destruct (tmax_some _ N) as (m & E & _ & G). unfold byte_colors. rewrite E. cbn [rbind]. eexists. split; [reflexivity|].
  destruct (Rlt_dec m (11 / 10)) as [H|H]; (split; [reflexivity|]).
  - left. split; [apply dim_in, G, H|]. cbn. rewrite !map_map. 
    erewrite map_ext; [apply (bytes_rows (fun c => c * 255) (fun c => 255 * c)); intros c; ring|]. intros r. rewrite !map_map. reflexivity.
  - right. split; [intros C; apply H, G, dim_in, C|]. cbn. rewrite !map_map.
    erewrite map_ext; [apply (bytes_rows (fun c => c) (fun c => c)); reflexivity|]. intros r. rewrite !map_map. reflexivity.
Qed.
Local Open Scope nat_scope.
Lemma empty_unit x : concat (t2r x) = [] -> unit_colors x = Err RuntimeError.
Proof. intros E. unfold unit_colors. now rewrite E. Qed.
Lemma empty_byte x : concat (t2r x) = [] -> byte_colors x = Err RuntimeError.
Proof. intros E. unfold byte_colors. now rewrite E. Qed.

(* colours of a non-empty selection have entries *)
Lemma colour_entries a P L k perm max : Batch RF a -> qp a = Some P -> qc a = Some L -> k < length P -> shuffles perm ->
  match max with Some m => (0 < m)%Z | None => True end -> 0 < size_of a k ->
  concat (t2r (take_rows (inds_of perm (size_of a k) max) (nth k L (mkT2 3 [])))) <> [].
Proof.
  intros B EP EL Hk Hp Hm Hn. destruct (attr_cloud a P Colors L k B EP EL Hk) as (LL & Ln).
  rewrite (taken perm _ max _ Ln).
  assert (C : chosen (size_of a k) max (match inds_of perm (size_of a k) max with Some l => l | None => seq 0 (size_of a k) end))
    by (apply chosen_of; [exact Hp|destruct max; [lia|exact I]]).
  set (inds := match inds_of perm (size_of a k) max with Some l => l | None => _ end) in *. clearbody inds.
  destruct C as (_ & Lt & Len). assert (N : inds <> []).
  { destruct max as [m|]; [|subst inds; destruct (size_of a k); [lia|discriminate]]. destruct Len as [Len _]. destruct inds; [|discriminate]. cbn in Len. lia. }
  destruct inds as [|i inds]; [congruence|]. cbn [map concat].
  assert (W : length (nth i (t2r (nth k L (mkT2 3 []))) []) = 3).
  { unfold Batch in B. rewrite EP in B. destruct B as (_ & _ & V). destruct (V Colors L EL) as (_ & W). rewrite Forall_forall in W.
    destruct (W (nth k L (mkT2 3 []))) as (_ & Wr); [apply nth_In; lia|]. rewrite Forall_forall in Wr. apply Wr. apply nth_In. rewrite Ln. apply Lt. now left. }
  destruct (nth i _ _); [discriminate W|discriminate].
Qed.
