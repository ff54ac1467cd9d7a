(* C77: the fused map of a motionless scene. *)
From Coq Require Import Reals List Arith Bool ZArith Lia Lra Sorting.Sorted.
From Verif Require Import Res Fld StructUtilsModel PointcloudsModel PointcloudsSpec PointcloudsHist MatSpec GeomSpec TensorModel
  RgbdModel RgbdSpec FusionModel FusionSpec Se3Model SolveModel IcpModel IcpSpec OdomSpec SlamModel SlamSpec StillSpec MatProofs IcpGnProofs FusionCorr
  SlamProofs SlamPropProofs StillProofs StillMapProofs.
Import ListNotations.
Local Open Scope nat_scope.

Lemma pixels_nodup fr b : NoDup (pixels fr b).
Proof. apply nodup_chosen. Qed.
Lemma distance_same u v : veq 3 u v -> distance u v = 0%R.
Proof.
  intros H. unfold distance, norm. replace (dot 3 _ _) with 0%R; [apply sqrt_0|]. unfold dot. cbn [rsum]. rewrite !H by lia. ring.
Qed.
Lemma rsum_S n f : rsum (S n) f = (rsum n f + f n)%R.
Proof. reflexivity. Qed.

Section Fuse.
  Variable fr : frames.
  Hypothesis Hs : still_scene fr.
  Hypothesis HL : 0 < fL fr.
  Hypothesis HH : 2 <= fH fr.
  Hypothesis HW : 2 <= fW fr.
  Notation shot T l := (posed T (moment l fr)).
  Variables (sigma dist_th dot_th : R).
  Hypothesis Hd : (0 < dist_th)%R.
  Hypothesis Ht : forall b q, b < fB fr -> In q (pixels fr b) -> (dot_th < dot 3 (normal_at fr b q) (normal_at fr b q))%R.

  Lemma fused_first T rows a a' : (forall b, b < fB fr -> meq 4 4 (T b) (first_pose fr b)) -> (forall b, b < fB fr -> npoints a b = 0) -> rows = [] ->
    Fused sigma (shot T 0) rows a a' -> Averaged sigma fr 1 a'.
  Proof using Hs HL HH HW.
    intros HT HA ER (HB & HF). change (fB (shot T 0)) with (fB (moment 0 fr)) in HB, HF. rewrite moment_B in HB, HF. split; [exact HB|].
    intros b Hb. destruct (HF b Hb) as (Hcount & _ & _ & _ & Hnew). cbv zeta in *. rewrite (HA b Hb) in Hcount, Hnew. clear HF. subst rows. cbn [Nat.add] in Hcount, Hnew.
    assert (EF : fresh_pixels [] (shot T 0) b = pixels fr b).
    { unfold fresh_pixels. cbn [existsb negb]. rewrite m_chosen by assumption. clear. induction (pixels fr b) as [|x xs IH]; [reflexivity|]. cbn [filter]. rewrite IH. reflexivity. }
    rewrite EF in Hcount, Hnew. split; [exact Hcount|]. intros i [h w] Ei. destruct (pixels_in fr Hs HL HH HW b (h, w) Hb (nth_error_In _ _ Ei)) as (B1 & B2 & _). cbn [fst snd] in *.
    destruct (Hnew i h w Ei) as [C A]. split; [|split; [|split]].
    - intros k Hk. rewrite (A Points k ltac:(discriminate) Hk). apply m_points; auto.
    - intros k Hk. rewrite (A Normals k ltac:(discriminate) Hk). apply m_normals; auto.
    - intros k Hk. rewrite (A Colors k ltac:(discriminate) Hk), m_colors by assumption. unfold mean_colour. cbn. field.
    - rewrite C, m_alpha by assumption. cbn. ring.
  Qed.
  Lemma fused_next T l n rows a a' : l < fL fr -> 0 < n -> (forall b, b < fB fr -> meq 4 4 (T b) (first_pose fr b)) -> l = n ->
    Averaged sigma fr n a -> Correspondences a (shot T l) (fun b _ => T b) dist_th dot_th rows ->
    Fused sigma (shot T l) rows a a' -> Averaged sigma fr (S n) a'.
  Proof using Hs HL HH HW Hd Ht.
    intros Hl Hn HT -> (LA & HA) (_ & _ & HM & HE) (HB & HF). change (fB (shot T n)) with (fB (moment n fr)) in HB, HF. rewrite moment_B in HB, HF. split; [exact HB|].
    intros b Hb. destruct (HF b Hb) as (Hcount & _ & _ & Hmerge & _). cbv zeta in *. destruct (HA b Hb) as [NA PA].
    assert (M : forall i q, nth_error (pixels fr b) i = Some q -> matched rows b i (fst q) (snd q)).
    { intros i [h w] Ei. destruct (PA i (h, w) Ei) as (E1 & E2 & _ & _). cbn [fst snd] in *. pose proof (nth_error_In _ _ Ei) as Iq.
      destruct (pixels_in fr Hs HL HH HW b (h, w) Hb Iq) as (B1 & B2 & _). cbn [fst snd] in *.
      assert (RP : real_point a b i) by (split; [rewrite LA; exact Hb|rewrite NA; apply nth_error_Some; congruence]).
      assert (S : seen_at a (shot T n) (fun b _ => T b) b i h w) by exact (pix_imaged fr Hs HL HH HW T n b (h, w) _ Hb Hl (HT b Hb) Iq E1).
      assert (SM : similar a (shot T n) dist_th dot_th (mkRow b i h w)).
      { split; cbn [rb rn rh rw].
        - rewrite distance_same; [exact Hd|]. eapply veq_trans; [|apply veq_sym; exact E1]. exact (m_points fr Hs HL HH HW T n b h w Hb Hl B1 B2 (HT b Hb)).
        - replace (dot 3 _ _) with (dot 3 (normal_at fr b (h, w)) (normal_at fr b (h, w))); [exact (Ht b (h, w) Hb Iq)|].
          pose proof (m_normals fr Hs HL HH HW T n b h w Hb Hl B1 B2 (HT b Hb)) as EN. unfold dot. cbn [rsum].
          change (frame_normal (shot T n) (mkRow b i h w)) with (frame_attr (shot T n) Normals b h w). rewrite !EN, !E2 by lia. reflexivity. }
      destruct (HE b i h w RP S SM) as (i' & M' & _). destruct (HM b i' h w M') as ((_ & R') & S' & _).
      rewrite NA in R'. destruct (nth_error (pixels fr b) i') as [q'|] eqn:Ei'; [|apply nth_error_None in Ei'; lia].
      destruct (PA i' q' Ei') as (F1 & _).
      pose proof (pix_only fr Hs HL HH HW T n b q' _ h w Hb Hl (HT b Hb) (nth_error_In _ _ Ei') F1 S') as ->.
      assert (i' = i). { apply (proj1 (NoDup_nth_error (pixels fr b)) (pixels_nodup fr b)); [exact R'|congruence]. }
      subst i'. exact M'. }
    assert (EF : fresh_pixels rows (shot T n) b = []).
    { unfold fresh_pixels. rewrite m_chosen by assumption. 
      assert (G : forall q, In q (pixels fr b) -> negb (existsb (fun r => (rb r =? b) && (rh r =? fst q) && (rw r =? snd q)) rows) = false).
      { intros q Iq. apply negb_false_iff, existsb_exists. destruct (In_nth_error _ _ Iq) as (i & Ei). exists (mkRow b i (fst q) (snd q)). split; [exact (M i q Ei)|].
        cbn [rb rh rw]. rewrite !Nat.eqb_refl. reflexivity. }
      clear -G. induction (pixels fr b) as [|x xs IH]; [reflexivity|]. cbn [filter]. rewrite G by now left. apply IH. intros q Hq. apply G. now right. }
    rewrite EF in Hcount. cbn [length] in Hcount. split; [lia|]. intros i [h w] Ei. destruct (PA i (h, w) Ei) as (E1 & E2 & E3 & E4). cbn [fst snd] in *.
    pose proof (nth_error_In _ _ Ei) as Iq. destruct (pixels_in fr Hs HL HH HW b (h, w) Hb Iq) as (B1 & B2 & _). cbn [fst snd] in *.
    destruct (Hmerge i h w (M i (h, w) Ei)) as [C A]. rewrite (m_alpha fr Hs HL HH HW T n sigma b h w Hb Hl B1 B2) in C, A. rewrite E4 in C, A.
    pose proof (alpha_pos fr Hs HL HH HW sigma (first_frame fr) b h w) as P. set (al := frame_alpha sigma (first_frame fr) b h w) in *. assert (Pn : (0 < INR n)%R) by (apply lt_0_INR; exact Hn).
    assert (P' : (0 < INR n * al)%R) by (apply Rmult_lt_0_compat; assumption).
    split; [|split; [|split]].
    - intros k Hk. rewrite (A Points k ltac:(discriminate) Hk). pose proof (m_points fr Hs HL HH HW T n b h w Hb Hl B1 B2 (HT b Hb) k Hk) as Em. rewrite Em. apply (wmean_same fr Hs HL HH HW); [lra|exact P|exact (E1 k Hk)].
    - intros k Hk. rewrite (A Normals k ltac:(discriminate) Hk). pose proof (m_normals fr Hs HL HH HW T n b h w Hb Hl B1 B2 (HT b Hb) k Hk) as Em. rewrite Em. apply (wmean_same fr Hs HL HH HW); [lra|exact P|exact (E2 k Hk)].
    - intros k Hk. rewrite (A Colors k ltac:(discriminate) Hk), m_colors by assumption. rewrite (E3 k Hk). unfold mean_colour, wmean. rewrite rsum_S. cbn [fst snd]. rewrite S_INR.
      field. repeat split; lra.
    - rewrite C, S_INR. ring.
  Qed.
End Fuse.
Lemma averaged_trajectory c fr n maps T d t sg : still_scene fr -> 2 <= fH fr -> 2 <= fW fr -> s_map c = Fusion d t sg -> (0 < d)%R ->
  (forall b q, b < fB fr -> In q (pixels fr b) -> (t < dot 3 (normal_at fr b q) (normal_at fr b q))%R) ->
  Trajectory c fr n maps T -> unmoved fr n T -> 0 < n <= fL fr -> Averaged (sigma_val sg) fr n (maps n).
Proof.
  intros Hs HH HW Hm Hd Ht [H0 H] U Hn. assert (HL : 0 < fL fr) by lia.
  enough (G : forall m, 0 < m <= n -> Averaged (sigma_val sg) fr m (maps m)) by (apply G; lia).
  induction m as [|m IH]; [lia|]. intros Hm'. destruct (H m ltac:(lia)) as [_ K]. unfold Mapped in K. rewrite Hm in K. destruct K as (_ & _ & rows & KF & KC).
  destruct m as [|m].
  - rewrite H0 in KC, KF. cbn in KC. eapply (fused_first fr Hs HL HH HW (sigma_val sg) (fun b => T b 0) rows (no_batch RF)); [intros; apply U; [assumption|lia]|reflexivity|exact KC|exact KF].
  - specialize (IH ltac:(lia)). 
    destruct (qp (maps (S m))) as [P|] eqn:EP.
    + destruct KC as (T' & ET & KC). cbn in ET. injection ET as <-.
      eapply (fused_next fr Hs HL HH HW (sigma_val sg) d t Hd Ht (fun b => T b (S m)) (S m) (S m) rows (maps (S m))); try eassumption; try lia. intros; apply U; [assumption|lia].
    + exfalso. destruct (H m ltac:(lia)) as [_ K]. unfold Mapped in K. rewrite Hm in K. destruct K as (_ & (K & _) & _). exact (K Points EP).
Qed.
