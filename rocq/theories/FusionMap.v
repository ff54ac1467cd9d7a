(* Maps as the map-building code sees them: reads keep the map ready for cloning; entries of padded views. *)
From Coq Require Import Reals List Arith Bool ZArith Lia Lra.
From Verif Require Import Res Fld StructUtilsModel StructUtilsSpec StructUtilsProofs PointcloudsModel PointcloudsSpec
  PointcloudsCtorSpec PointcloudsSetSpec PointcloudsIndexSpec PointcloudsHist PointcloudsProofs PointcloudsOps
  PointcloudsSet PointcloudsClone PointcloudsAppend PointcloudsHistProofs PointcloudsPropProofs
  MatSpec GeomSpec TensorModel TensorProofs GeomModel GeomProofs GeomPtsProofs RgbdModel RgbdSpec RgbdProofs FusionModel FusionSpec.
Import ListNotations.
Local Open Scope nat_scope.

Definition Ready (a : batch RF) (s : pc RF) : Prop := Hist RF s a /\ (qp a <> None -> clonable RF s).

Lemma ready_iff s a : ReadyToClone RF s a <-> Ready a s.
Proof.
  split.
  - intros H. destruct (ready_Rep RF s a H) as (H1 & _ & H2). split; assumption.
  - intros [H Hc]. pose proof (Hist_Rep RF s a H) as Hr. destruct (qp a) as [P|] eqn:EP.
    + destruct Hc as [Hc|Hc]; [discriminate| |].
      * left. exists s. split; [exact H|]. cbn [after]. unfold get_list, mbind, get. cbn [qget].
        destruct (qp (lst RF s)) as [l|]; [reflexivity|congruence].
      * right. split; [exact H|]. exists P. split; [exact EP|].
        pose proof (Rep_RepN RF a s P EP Hr) as Hn. now rewrite <- (rn_num _ _ _ _ Hn).
    + left. exists s. split; [exact H|]. cbn [after]. unfold Rep in Hr. rewrite EP in Hr. destruct Hr as [_ Hr].
      rewrite (get_list0 RF s Points Hr). reflexivity.
Qed.

(* ---------------- reads do not drop lists *)
Definition keeps {A} (m : M (pc RF) A) : Prop :=
  forall s, let s' := snd (m s) in (qp (lst RF s) <> None -> qp (lst RF s') <> None) /\ num RF s' = num RF s.
Lemma keeps_bind {A B} (m : M (pc RF) A) (k : A -> M (pc RF) B) : keeps m -> (forall x, keeps (k x)) -> keeps (mbind m k).
Proof.
  intros Hm Hk s. unfold mbind. specialize (Hm s). destruct (m s) as [[v|e] s1]; cbn in *; [|exact Hm].
  destruct (Hk v s1) as [K1 K2]. destruct Hm as [M1 M2]. split; [auto|congruence].
Qed.
Lemma keeps_get : keeps get. Proof. intros s. split; auto. Qed.
Lemma keeps_ret {A} (v : A) : keeps (ret v). Proof. intros s. split; auto. Qed.
Lemma keeps_raise {A} e : keeps (raise e : M (pc RF) A). Proof. intros s. split; auto. Qed.
Lemma keeps_lift {A} (r : res A) : keeps (lift r). Proof. intros s. split; auto. Qed.
Lemma keeps_flg x v : keeps (modify (set_flg RF x v)). Proof. intros s. split; auto. Qed.
Lemma keeps_pad x v : keeps (modify (set_pad RF x v)). Proof. intros s. split; auto. Qed.
Lemma keeps_mask v : keeps (modify (with_mask RF v)). Proof. intros s. split; auto. Qed.
Lemma keeps_lst x l : keeps (modify (set_lst RF x (Some l))).
Proof. intros s. destruct x; cbn; split; auto; discriminate. Qed.
Ltac keep1 := first [apply keeps_ret|apply keeps_get|apply keeps_raise|apply keeps_lift|apply keeps_flg|apply keeps_pad|apply keeps_mask|apply keeps_lst].
Lemma keeps_has x : keeps (has RF x).
Proof.
  apply keeps_bind; [keep1|]. intros s. destruct (qget x (flg RF s)); [keep1|]. apply keeps_bind; [keep1|]. intros _. keep1.
Qed.
Lemma keeps_width : keeps (num_features RF).
Proof.
  apply keeps_bind; [apply keeps_has|]. intros [|]; cbn [negb]; [|keep1]. apply keeps_bind; [keep1|]. intros s.
  destruct (qf (pad RF s)); [keep1|]. destruct (qf (lst RF s)) as [[|]|]; keep1.
Qed.
Lemma keeps_pad_attr x w : keeps w -> keeps (pad_attr RF x w).
Proof.
  intros Hw. apply keeps_bind; [keep1|]. intros s. destruct (qget x (lst RF s)) as [l|]; [|keep1].
  apply keeps_bind; [exact Hw|]. intros w'. apply keeps_bind; [keep1|]. intros s'. apply keeps_bind; [keep1|]. intros p. keep1.
Qed.
Lemma keeps_compute : keeps (compute_padded RF).
Proof.
  apply keeps_bind; [apply keeps_has|]. intros [|]; cbn [negb]; [|keep1]. apply keeps_bind; [keep1|]. intros s.
  destruct (is_some (qp (pad RF s))); [keep1|].
  apply keeps_bind; [destruct (qp (lst RF s)); [apply keeps_pad_attr; keep1|keep1]|]. intros _.
  apply keeps_bind; [apply keeps_pad_attr; keep1|]. intros _. apply keeps_bind; [apply keeps_pad_attr; keep1|]. intros _.
  apply keeps_pad_attr. apply keeps_bind; [apply keeps_width|]. intros [|]; keep1.
Qed.
Lemma keeps_padded x : keeps (get_padded RF x).
Proof. apply keeps_bind; [apply keeps_compute|]. intros _. apply keeps_bind; [keep1|]. intros s. keep1. Qed.
Lemma keeps_list x : keeps (get_list RF x).
Proof.
  apply keeps_bind; [keep1|]. intros s. destruct (qget x (lst RF s)); [keep1|]. destruct (qget x (pad RF s)) as [p|]; [|keep1].
  destruct (t3b p =? bat RF s); cbn [negb]; [|keep1]. destruct (bat RF s <=? length (num RF s)); cbn [negb]; [|keep1].
  apply keeps_bind; [keep1|]. intros _. keep1.
Qed.
Lemma keeps_nonpad : keeps (nonpad_mask RF).
Proof.
  apply keeps_bind; [keep1|]. intros s. destruct (mask RF s); [keep1|].
  apply keeps_bind; [apply keeps_has|]. intros [|]; cbn [negb]; [|keep1].
  destruct (truthy (equi RF s)).
  - destruct (num RF s); [keep1|]. apply keeps_bind; [keep1|]. intros _. keep1.
  - destruct (bat RF s <=? length (num RF s)); cbn [negb]; [|keep1]. apply keeps_bind; [keep1|]. intros _. keep1.
Qed.
Lemma keeps_clone : keeps (clone RF).
Proof.
  apply keeps_bind; [apply keeps_has|]. intros [|]; cbn [negb]; [|keep1]. apply keeps_bind; [keep1|]. intros s.
  apply keeps_bind; [|intros o; keep1]. destruct (qp (lst RF s)); [keep1|]. destruct (qp (pad RF s)); keep1.
Qed.
Lemma keeps_clonable {A} (m : M (pc RF) A) s r s' : keeps m -> m s = (r, s') -> clonable RF s -> clonable RF s'.
Proof.
  intros H E. specialize (H s). rewrite E in H. cbn in H. destruct H as [H1 H2]. intros [K|K]; [left; auto|right; congruence].
Qed.

(* ---------------- what a ready map answers *)
Section MapReads.
Variables (a : batch RF) (s : pc RF).
Hypothesis HR : Ready a s.
Lemma ready_keep {A} (m : M (pc RF) A) r s' : keeps m -> m s = (r, s') -> Hist RF s' a -> Ready a s'.
Proof. intros Hk E H. split; [exact H|]. intros Hn. eapply keeps_clonable; [exact Hk|exact E|]. apply HR. exact Hn. Qed.
Lemma rd_has x : exists s', has RF x s = (Ok (is_some (qget x a)), s') /\ Ready a s'.
Proof.
  destruct HR as [H _]. destruct (p_hist_shows RF s a H) as (_ & _ & S & _). specialize (S x).
  destruct (has RF x s) as [r s'] eqn:E. cbn in S. subst r. exists s'. split; [reflexivity|].
  eapply ready_keep; [apply (keeps_has x)|exact E|]. replace s' with (after RF (RdHas x) s) by (cbn [after]; now rewrite E). now apply PointcloudsHist.h_read.
Qed.
Lemma rd_padded x : exists s', get_padded RF x s = (Ok (padded_view RF a x), s') /\ Ready a s'.
Proof.
  destruct HR as [H _]. destruct (p_hist_shows RF s a H) as (_ & S & _). specialize (S x).
  destruct (get_padded RF x s) as [r s'] eqn:E. cbn in S. subst r. exists s'. split; [reflexivity|].
  eapply ready_keep; [apply (keeps_padded x)|exact E|]. replace s' with (after RF (RdPadded x) s) by (cbn [after]; now rewrite E). now apply PointcloudsHist.h_read.
Qed.
Lemma rd_mask : exists s', nonpad_mask RF s = (Ok (mask_view RF a), s') /\ Ready a s'.
Proof.
  destruct HR as [H _]. destruct (p_hist_shows RF s a H) as (_ & _ & _ & S & _).
  destruct (nonpad_mask RF s) as [r s'] eqn:E. cbn in S. subst r. exists s'. split; [reflexivity|].
  eapply ready_keep; [apply keeps_nonpad|exact E|]. replace s' with (after RF PointcloudsHist.RdMask s) by (cbn [after]; now rewrite E). now apply PointcloudsHist.h_read.
Qed.
Lemma rd_clone : exists o s', clone RF s = (Ok o, s') /\ Hist RF o a /\ Ready a s'.
Proof.
  destruct (p_clone RF s a) as (o & s' & E & Ho & _ & Hs & _); [now apply ready_iff|].
  exists o, s'. split; [exact E|]. split; [exact Ho|]. eapply ready_keep; [apply keeps_clone|exact E|exact Hs].
Qed.
Lemma rd_oop m a' : Means RF m a a' -> exists o s', out_of_place RF (run RF m) s = (Ok o, s') /\ Hist RF o a' /\ Ready a s'.
Proof.
  intros Hm. destruct rd_clone as (o & s' & E & Ho & Hs). destruct (p_call RF m o a a' Ho Hm) as (o' & E2 & Ho' & _).
  exists o', s'. split; [|auto]. unfold out_of_place, mbind. rewrite E, E2. reflexivity.
Qed.
Lemma rd_len : len RF s = len_view RF a.
Proof. destruct HR as [H _]. apply (p_hist_shows RF s a H). Qed.
End MapReads.

(* lifting to the pair of map and frame *)
Lemma onp_ok {A} (m : M (pc RF) A) s g r s' : m s = (r, s') -> onp m (s, g) = (r, (s', g)).
Proof. intros E. unfold onp. cbn [fst snd]. rewrite E. reflexivity. Qed.
Lemma onr_ok {A} (m : M rgbd A) s g r g' : m g = (r, g') -> onr m (s, g) = (r, (s, g')).
Proof. intros E. unfold onr. cbn [fst snd]. rewrite E. reflexivity. Qed.
Lemma onobj_ok {A} (m : M (pc RF) A) o st v o' : m o = (Ok v, o') -> on_obj m o st = (Ok (v, o'), st).
Proof. intros E. unfold on_obj. rewrite E. reflexivity. Qed.

(* ---------------- entries of padded views *)
Lemma batch_valid s a P : Hist RF s a -> qp a = Some P -> valid_batch RF P a.
Proof. intros H E. pose proof (Rep_RepN RF a s P E (Hist_Rep RF s a H)) as Hn. apply (rn_valid _ _ _ _ Hn). Qed.

Lemma nth_get {X} (l : list X) i d : i < length l -> nth_error l i = Some (nth i l d).
Proof. intros H. now apply nth_error_nth'. Qed.

Lemma nth_map' {X Y} (f : X -> Y) l i d d' : i < length l -> nth i (map f l) d = f (nth i l d').
Proof. intros H. rewrite (nth_indep _ d (f d')) by (rewrite map_length; exact H). apply map_nth. Qed.
Section Entries.
Variables (P : list (t2 RF)) (a : batch RF).
Hypothesis Hv : valid_batch RF P a.
Let N := biggest (counts_of RF P).
Lemma np_eq b : npoints a b = length (t2r (nth b P (mkT2 0 []))).
Proof. unfold npoints. rewrite (valid_qp _ _ _ Hv). reflexivity. Qed.
Lemma np_le b : b < length P -> npoints a b <= N.
Proof.
  intros Hb. rewrite np_eq. apply biggest_ge. unfold counts_of. apply in_map_iff. eexists. split; [reflexivity|]. now apply nth_In.
Qed.
Lemma len_P : len_view RF a = length P.
Proof. unfold len_view. now rewrite (valid_qp _ _ _ Hv). Qed.
Lemma attr_len x L b : qget x a = Some L -> b < length P -> length (t2r (nth b L (mkT2 0 []))) = npoints a b.
Proof.
  intros HL Hb. rewrite np_eq. pose proof (valid_counts _ _ _ _ _ Hv HL) as Hc. unfold counts_of in Hc.
  pose proof (valid_len _ _ _ _ _ Hv HL) as Hl.
  apply (f_equal (fun l => nth b l 0)) in Hc.
  rewrite (nth_map' _ L b 0 (mkT2 0 [])) in Hc by lia. rewrite (nth_map' _ P b 0 (mkT2 0 [])) in Hc by lia. exact Hc.
Qed.
Lemma padded_entry x L b n c : qget x a = Some L -> b < length P -> n < N -> c < width RF a x ->
  get3 RF (pad_to RF N (width RF a x) L) b n c = if n <? npoints a b then attr_at a x b n c else 0%R.
Proof.
  intros HL Hb Hn Hc. pose proof (valid_len _ _ _ _ _ Hv HL) as Hl.
  set (y := nth b L (mkT2 0 [])).
  assert (Hy : nth_error L b = Some y) by (apply nth_get; lia).
  rewrite (get3_pad RF N (width RF a x) L b n c y Hy Hn).
  - pose proof (attr_len x L b HL Hb) as E. fold y in E. rewrite E. destruct (Nat.ltb_spec n (npoints a b)) as [Hlt|Hge].
    + unfold attr_at. rewrite HL. unfold row_at. reflexivity.
    + reflexivity.
  - pose proof (attr_len x L b HL Hb) as E. fold y in E. rewrite E. apply np_le. exact Hb.
Qed.
End Entries.
