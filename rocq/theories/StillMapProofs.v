(* C76, C77: the map of a motionless scene. *)
From Coq Require Import Reals List Arith Bool ZArith Lia Lra FunctionalExtensionality Sorting.Sorted.
From Verif Require Import Res Fld StructUtilsModel PointcloudsModel PointcloudsSpec MatSpec GeomSpec TensorModel
  RgbdModel RgbdSpec FusionModel FusionSpec Se3Model SolveModel IcpModel IcpSpec OdomSpec SlamModel SlamSpec StillSpec MatProofs IcpGnProofs StillProofs.
Import ListNotations.
Local Open Scope nat_scope.

Lemma attr_rows (a : batch RF) x b n j : attr_at a x b n j = nth j (nth n (rows_of a x b) []) 0%R.
Proof. unfold attr_at, rows_of, row_at. destruct (qget x a); [reflexivity|]. destruct n, j; reflexivity. Qed.
Lemma npoints_rows (a : batch RF) b : npoints a b = length (rows_of a Points b).
Proof. unfold npoints, rows_of. cbn [qget]. destruct (qp a); reflexivity. Qed.
Lemma chosen_in fr b q : In q (chosen true fr b) <-> fst q < fH fr /\ snd q < fW fr /\ (0 < fdep fr b 0 (fst q) (snd q))%R.
Proof.
  unfold chosen, row_major. rewrite filter_In. destruct q as [h w]. rewrite in_prod_iff, !in_seq. cbn [fst snd].
  destruct (Rlt_dec 0 (fdep fr b 0 h w)); intuition (try discriminate; lia).
Qed.

Section Still.
  Variable fr : frames.
  Hypothesis Hs : still_scene fr.
  Hypothesis HL : 0 < fL fr.
  Hypothesis HH : 2 <= fH fr.
  Hypothesis HW : 2 <= fW fr.
  Notation shot T l := (posed T (moment l fr)).

  Lemma m_dep T l b h w : b < fB fr -> l < fL fr -> h < fH fr -> w < fW fr -> fdep (shot T l) b 0 h w = fdep fr b 0 h w.
  Proof using Hs HL HH HW.
    intros Hb Hl Hh Hw. cbn [posed with_fpose fdep moment pick nth]. rewrite seq_nth by exact Hb. cbn [Nat.add].
    apply (proj1 Hs). repeat split; assumption.
  Qed.
  Lemma m_K T l b : b < fB fr -> fK (shot T l) b = fK fr b.
  Proof using Hs HL HH HW. intros Hb. cbn. rewrite seq_nth by exact Hb. reflexivity. Qed.
  Lemma m_pix T l : fpix (shot T l) = None.
  Proof using Hs HL HH HW. cbn. rewrite (proj1 (proj2 Hs)). reflexivity. Qed.
  Lemma f_dep b h w : b < fB fr -> h < fH fr -> w < fW fr -> fdep (first_frame fr) b 0 h w = fdep fr b 0 h w.
  Proof using Hs HL HH HW. intros. apply m_dep; assumption. Qed.
  Lemma m_vertex T l b h w : b < fB fr -> l < fL fr -> h < fH fr -> w < fW fr -> vertex (shot T l) b 0 h w = vertex (first_frame fr) b 0 h w.
  Proof using Hs HL HH HW.
    intros Hb Hl Hh Hw. unfold vertex. rewrite m_dep by assumption. unfold first_frame at 1 2. rewrite m_dep by assumption.
    rewrite m_K by assumption. unfold first_frame. rewrite m_K by assumption. unfold pixel. rewrite !m_pix. reflexivity.
  Qed.
  Lemma m_chosen T l b : b < fB fr -> l < fL fr -> chosen true (shot T l) b = pixels fr b.
  Proof using Hs HL HH HW.
    intros Hb Hl. unfold pixels, chosen, first_frame. change (row_major (fH (shot T l)) (fW (shot T l))) with (row_major (fH fr) (fW fr)).
    change (row_major (fH (shot (first_pose fr) 0)) (fW (shot (first_pose fr) 0))) with (row_major (fH fr) (fW fr)).
    apply filter_ext_in. intros [h w] Hq. unfold row_major in Hq. apply in_prod_iff in Hq. rewrite !in_seq in Hq.
    rewrite !m_dep by (cbn [fst snd]; try assumption; lia). reflexivity.
  Qed.
  Lemma m_points T l b h w : b < fB fr -> l < fL fr -> h < fH fr -> w < fW fr -> meq 4 4 (T b) (first_pose fr b) ->
    veq 3 (frame_attr (shot T l) Points b h w) (point_at fr b (h, w)).
  Proof using Hs HL HH HW.
    intros Hb Hl Hh Hw HT k Hk. unfold point_at.
    change (keep (fdep (shot T l) b 0 h w) (act (T b) (vertex (shot T l) b 0 h w) k) = keep (fdep (first_frame fr) b 0 h w) (act (first_pose fr b) (vertex (first_frame fr) b 0 h w) k)).
    rewrite m_dep, f_dep, m_vertex by assumption. f_equal. unfold act, mvec, rot_of, tr_of. cbn [rsum]. rewrite !HT by lia. reflexivity.
  Qed.
  Lemma m_normals T l b h w : b < fB fr -> l < fL fr -> h < fH fr -> w < fW fr -> meq 4 4 (T b) (first_pose fr b) ->
    veq 3 (frame_attr (shot T l) Normals b h w) (normal_at fr b (h, w)).
  Proof using Hs HL HH HW.
    intros Hb Hl Hh Hw HT k Hk. unfold normal_at.
    change (mvec 3 (rot_of (T b)) (normal (shot T l) b 0 h w) k = mvec 3 (rot_of (first_pose fr b)) (normal (first_frame fr) b 0 h w) k).
    assert (N : normal (shot T l) b 0 h w = normal (first_frame fr) b 0 h w).
    { unfold normal. rewrite m_dep, f_dep by assumption. unfold tangent_h, tangent_v.
      change (fW (shot T l)) with (fW fr). change (fH (shot T l)) with (fH fr). change (fW (first_frame fr)) with (fW fr). change (fH (first_frame fr)) with (fH fr).
      rewrite !m_vertex by lia. reflexivity. }
    rewrite N. unfold mvec, rot_of. cbn [rsum]. rewrite !HT by lia. reflexivity.
  Qed.
  Lemma m_colors T l b h w c : b < fB fr -> frame_attr (shot T l) Colors b h w c = frgb fr b l h w c.
  Proof using Hs HL HH HW. intros Hb. cbn. rewrite seq_nth by exact Hb. reflexivity. Qed.
  Lemma m_alpha T l sigma b h w : b < fB fr -> l < fL fr -> h < fH fr -> w < fW fr -> frame_alpha sigma (shot T l) b h w = frame_alpha sigma (first_frame fr) b h w.
  Proof using Hs HL HH HW. intros. unfold frame_alpha. rewrite m_vertex by assumption. reflexivity. Qed.
  Lemma alpha_pos sigma g b h w : (0 < frame_alpha sigma g b h w)%R.
  Proof using Hs HL HH HW. unfold frame_alpha, alpha_spec. eapply Rlt_le_trans; [|apply Rmax_r]. lra. Qed.
  Lemma pixels_in b q : b < fB fr -> In q (pixels fr b) -> fst q < fH fr /\ snd q < fW fr /\ (0 < fdep fr b 0 (fst q) (snd q))%R.
  Proof using Hs HL HH HW.
    intros Hb H. apply chosen_in in H. destruct H as (H1 & H2 & H3). change (fH (first_frame fr)) with (fH fr) in H1. change (fW (first_frame fr)) with (fW fr) in H2.
    rewrite f_dep in H3 by assumption. auto.
  Qed.
  (* the point at a valid pixel is imaged there and nowhere else *)
  Lemma point_act b q : b < fB fr -> In q (pixels fr b) -> veq 3 (point_at fr b q) (act (first_pose fr b) (vertex (first_frame fr) b 0 (fst q) (snd q))).
  Proof using Hs HL HH HW.
    intros Hb Hq k Hk. destruct (pixels_in b q Hb Hq) as (H1 & H2 & H3).
    change (keep (fdep (first_frame fr) b 0 (fst q) (snd q)) (act (first_pose fr b) (vertex (first_frame fr) b 0 (fst q) (snd q)) k) = act (first_pose fr b) (vertex (first_frame fr) b 0 (fst q) (snd q)) k).
    rewrite f_dep by assumption. unfold keep. destruct (Rlt_dec _ _); [reflexivity|contradiction].
  Qed.
  Lemma cam_first b : b < fB fr -> ordinary_camera (fH (first_frame fr)) (fW (first_frame fr)) (fK (first_frame fr) b).
  Proof using Hs HL HH HW. intros Hb. unfold first_frame. rewrite m_K by exact Hb. exact (proj1 (proj2 (proj2 Hs) b Hb)). Qed.
  Lemma pix_imaged T l b q p : b < fB fr -> l < fL fr -> meq 4 4 (T b) (first_pose fr b) -> In q (pixels fr b) -> veq 3 p (point_at fr b q) ->
    imaged_at (shot T l) (T b) b p (fst q) (snd q).
  Proof using Hs HL HH HW.
    intros Hb Hl HT Hq Hp. destruct (pixels_in b q Hb Hq) as (H1 & H2 & H3).
    assert (I : imaged_at (first_frame fr) (first_pose fr b) b (act (first_pose fr b) (vertex (first_frame fr) b 0 (fst q) (snd q))) (fst q) (snd q)).
    { apply own_pixel; [apply m_pix|exact (cam_first b Hb)|exact (proj2 (proj2 (proj2 Hs) b Hb))|exact H1|exact H2|rewrite f_dep by assumption; exact H3]. }
    apply (imaged_ext _ _ (T b) b _ p) in I.
    - unfold imaged_at in *. cbv zeta in *. rewrite m_K by exact Hb. unfold first_frame in I. rewrite m_K in I by exact Hb. exact I.
    - intros i j Hi Hj. symmetry. apply HT; assumption.
    - eapply veq_trans; [apply veq_sym, point_act; assumption|]. apply veq_sym. exact Hp.
  Qed.
  Lemma pix_only T l b q p h w : b < fB fr -> l < fL fr -> meq 4 4 (T b) (first_pose fr b) -> In q (pixels fr b) -> veq 3 p (point_at fr b q) ->
    imaged_at (shot T l) (T b) b p h w -> q = (h, w).
  Proof using Hs HL HH HW.
    intros Hb Hl HT Hq Hp I. destruct (pixels_in b q Hb Hq) as (H1 & H2 & H3).
    assert (I' : imaged_at (first_frame fr) (first_pose fr b) b (act (first_pose fr b) (vertex (first_frame fr) b 0 (fst q) (snd q))) h w).
    { unfold imaged_at in *. cbv zeta in *. rewrite m_K in I by exact Hb. change (fK (first_frame fr) b) with (fK (shot (first_pose fr) 0) b). rewrite m_K by exact Hb.
      pose proof (to_camera_ext (T b) (first_pose fr b) p (act (first_pose fr b) (vertex (first_frame fr) b 0 (fst q) (snd q))) HT (veq_trans 3 _ _ _ Hp (point_act b q Hb Hq))) as E.
      rewrite (image_pos_ext (fK fr b) _ _ E), (E 2) in I by lia. exact I. }
    destruct q as [h0 w0]. cbn [fst snd] in *.
    destruct (own_only (first_frame fr) (first_pose fr b) b h0 w0 (m_pix _ _) (cam_first b Hb) (proj2 (proj2 (proj2 Hs) b Hb)) H1 H2 (eq_ind_r (fun x => (0 < x)%R) H3 (f_dep b h0 w0 Hb H1 H2)) h w I') as [-> ->]. reflexivity.
  Qed.

  (* ---------------- what the map contains *)
  Definition Covers (a : batch RF) : Prop := len_view RF a = fB fr /\ forall b, b < fB fr ->
    (forall q, In q (pixels fr b) -> exists n, n < npoints a b /\ veq 3 (attr_at a Points b n) (point_at fr b q)) /\
    (forall n, n < npoints a b -> exists q, In q (pixels fr b) /\ veq 3 (attr_at a Points b n) (point_at fr b q) /\ veq 3 (attr_at a Normals b n) (normal_at fr b q)).
  Lemma covers_seen a T l b q : Covers a -> b < fB fr -> l < fL fr -> meq 4 4 (T b) (first_pose fr b) -> In q (pixels fr b) ->
    exists n, real_point a b n /\ seen_at a (shot T l) (fun b _ => T b) b n (fst q) (snd q) /\ veq 3 (attr_at a Points b n) (point_at fr b q).
  Proof using Hs HL HH HW.
    intros (HB & HC) Hb Hl HT Hq. destruct (HC b Hb) as [H1 _]. destruct (H1 q Hq) as (n & Hn & E). exists n.
    split; [split; [rewrite HB; exact Hb|exact Hn]|]. split; [|exact E]. exact (pix_imaged T l b q _ Hb Hl HT Hq E).
  Qed.
  Lemma covers_pixel a T l b n h w : Covers a -> b < fB fr -> l < fL fr -> meq 4 4 (T b) (first_pose fr b) -> real_point a b n ->
    seen_at a (shot T l) (fun b _ => T b) b n h w -> In (h, w) (pixels fr b) /\ veq 3 (attr_at a Points b n) (point_at fr b (h, w)) /\ veq 3 (attr_at a Normals b n) (normal_at fr b (h, w)).
  Proof using Hs HL HH HW.
    intros (HB & HC) Hb Hl HT [_ Hn] S. destruct (HC b Hb) as [_ H2]. destruct (H2 n Hn) as (q & Hq & E1 & E2).
    pose proof (pix_only T l b q _ h w Hb Hl HT Hq E1 S) as ->. auto.
  Qed.

  (* ---------------- fusion *)
  Lemma wmean_same c p al q : (0 <= c)%R -> (0 < al)%R -> p = q -> wmean c p al q = q.
  Proof using Hs HL HH HW. intros H1 H2 ->. unfold wmean. field. lra. Qed.
  Lemma fresh_in rows b q T l : b < fB fr -> l < fL fr -> In q (fresh_pixels rows (shot T l) b) -> In q (pixels fr b).
  Proof using Hs HL HH HW. intros Hb Hl H. unfold fresh_pixels in H. apply filter_In in H. rewrite m_chosen in H by assumption. tauto. Qed.
  Lemma match_dec rows b n : (exists h w, matched rows b n h w) \/ unmatched rows b n.
  Proof using Hs HL HH HW.
    induction rows as [|r rows IH]; [right; intros h w []|]. destruct IH as [(h & w & H)|H]; [left; exists h, w; now right|].
    destruct r as [b' n' h' w']. destruct (Nat.eq_dec b' b) as [->|]; [destruct (Nat.eq_dec n' n) as [->|]; [left; exists h', w'; now left|]|];
      right; intros h w [K|K]; try exact (H h w K); injection K; intros; congruence.
  Qed.
  Lemma fuse_covers sigma T l rows a a' : l < fL fr -> (forall b, b < fB fr -> meq 4 4 (T b) (first_pose fr b)) ->
    Fused sigma (shot T l) rows a a' ->
    (forall b, b < fB fr -> npoints a b = 0) /\ rows = [] \/
    Covers a /\ (forall b n, real_point a b n -> (0 < conf a b n)%R) /\
      (forall b n h w, matched rows b n h w -> real_point a b n /\ seen_at a (shot T l) (fun b _ => T b) b n h w) ->
    Covers a' /\ forall b n, real_point a' b n -> (0 < conf a' b n)%R.
  Proof using Hs HL HH HW.
    intros Hl HT (HB & HF) HA. change (fB (shot T l)) with (length (seq 0 (fB fr))) in HB, HF. rewrite seq_length in HB, HF.
    assert (K : forall b n, b < fB fr -> n < npoints a' b ->
      (0 < conf a' b n)%R /\ exists q, In q (pixels fr b) /\ veq 3 (attr_at a' Points b n) (point_at fr b q) /\ veq 3 (attr_at a' Normals b n) (normal_at fr b q)).
    { intros b n Hb Hn. destruct (HF b Hb) as (Hcount & Hkeep & _ & Hmerge & Hnew). cbv zeta in *.
      destruct (Nat.lt_ge_cases n (npoints a b)) as [Lt|Ge].
      - destruct HA as [[HA _]|(HC & Hpos & Hrows)]; [rewrite HA in Lt by exact Hb; lia|].
        assert (RP : real_point a b n) by (split; [rewrite (proj1 HC); exact Hb|exact Lt]).
        destruct (proj2 (proj2 HC b Hb) n Lt) as (q & Hq & E1 & E2).
        destruct (match_dec rows b n) as [(h & w & M)|U].
        + destruct (Hrows b n h w M) as (_ & S). destruct (covers_pixel a T l b n h w HC Hb Hl (HT b Hb) RP S) as (P & F1 & F2).
          destruct (pixels_in b (h, w) Hb P) as (B1 & B2 & _). cbn [fst snd] in B1, B2.
          destruct (Hmerge n h w M) as [C A]. rewrite C. pose proof (alpha_pos sigma (shot T l) b h w) as Pa. pose proof (Hpos b n RP) as Pc.
          split; [lra|]. exists (h, w). split; [exact P|]. split; intros k Hk.
          * rewrite (A Points k ltac:(discriminate) Hk). pose proof (m_points T l b h w Hb Hl B1 B2 (HT b Hb) k Hk) as Em. rewrite Em. apply wmean_same; [lra|exact Pa|]. exact (F1 k Hk).
          * rewrite (A Normals k ltac:(discriminate) Hk). pose proof (m_normals T l b h w Hb Hl B1 B2 (HT b Hb) k Hk) as Em. rewrite Em. apply wmean_same; [lra|exact Pa|]. exact (F2 k Hk).
        + pose proof (Hkeep n Lt U (or_introl (Rgt_not_eq _ _ (Hpos b n RP)))) as Q.
          split; [unfold conf; rewrite (Q Features 0 ltac:(cbn; lia)); exact (Hpos b n RP)|]. exists q. split; [exact Hq|].
          split; intros k Hk; rewrite Q by exact Hk; [exact (E1 k Hk)|exact (E2 k Hk)].
      - destruct (nth_error (fresh_pixels rows (shot T l) b) (n - npoints a b)) as [[h w]|] eqn:E; [|apply nth_error_None in E; lia].
        destruct (Hnew _ h w E) as [C A]. replace (npoints a b + (n - npoints a b)) with n in C, A by lia.
        pose proof (fresh_in rows b (h, w) T l Hb Hl (nth_error_In _ _ E)) as P. destruct (pixels_in b (h, w) Hb P) as (B1 & B2 & _). cbn [fst snd] in B1, B2.
        split; [rewrite C; apply alpha_pos|]. exists (h, w). split; [exact P|]. split; intros k Hk.
        + rewrite (A Points k ltac:(discriminate) Hk). apply m_points; auto.
        + rewrite (A Normals k ltac:(discriminate) Hk). apply m_normals; auto. }
    split; [|intros b n [Hb Hn]; rewrite HB in Hb; exact (proj1 (K b n Hb Hn))].
    split; [exact HB|]. intros b Hb. split; [|intros n Hn; exact (proj2 (K b n Hb Hn))].
    intros q Hq. destruct (HF b Hb) as (Hcount & Hkeep & _ & Hmerge & Hnew). cbv zeta in *. destruct HA as [[HA ER]|(HC & Hpos & Hrows)].
    - rewrite HA in Hcount by exact Hb. subst rows.
      assert (EF : fresh_pixels [] (shot T l) b = pixels fr b).
      { unfold fresh_pixels. cbn [existsb negb]. rewrite m_chosen by assumption. clear. induction (pixels fr b) as [|x xs IH]; [reflexivity|]. cbn [filter]. rewrite IH. reflexivity. }
      rewrite EF in *. destruct (In_nth_error _ _ Hq) as (k & Ek). exists k.
      assert (k < length (pixels fr b)) by (apply nth_error_Some; congruence). split; [lia|].
      destruct q as [h w]. destruct (Hnew k h w Ek) as [_ A]. rewrite HA in A by exact Hb. cbn [Nat.add] in A.
      destruct (pixels_in b (h, w) Hb Hq) as (B1 & B2 & _). cbn [fst snd] in B1, B2.
      intros j Hj. rewrite (A Points j ltac:(discriminate) Hj). apply m_points; auto.
    - destruct (proj1 (proj2 HC b Hb) q Hq) as (n & Hn & E). exists n. split; [lia|].
      assert (Hn' : n < npoints a' b) by lia. destruct (proj2 (K b n Hb Hn')) as (q' & Hq' & E' & _).
      assert (RP : real_point a b n) by (split; [rewrite (proj1 HC); exact Hb|exact Hn]).
      destruct (match_dec rows b n) as [(h & w & M)|U].
      + destruct (Hrows b n h w M) as (_ & S). pose proof (pix_only T l b q _ h w Hb Hl (HT b Hb) Hq E S) as ->.
        destruct (pixels_in b (h, w) Hb Hq) as (B1 & B2 & _). cbn [fst snd] in B1, B2. destruct (Hmerge n h w M) as [C A].
        intros k Hk. rewrite (A Points k ltac:(discriminate) Hk). pose proof (m_points T l b h w Hb Hl B1 B2 (HT b Hb) k Hk) as Em. rewrite Em.
        apply wmean_same; [left; exact (Hpos b n RP)|apply alpha_pos|]. exact (E k Hk).
      + intros k Hk. rewrite (Hkeep n Hn U (or_introl (Rgt_not_eq _ _ (Hpos b n RP))) Points k Hk). exact (E k Hk).
  Qed.

  (* ---------------- aggregation *)
  Lemma concat_map_map {X Y Z} (g : Y -> Z) (f : X -> list Y) l : concat (map (fun x => map g (f x)) l) = map g (concat (map f l)).
  Proof using Hs HL HH HW. induction l as [|x l IH]; [reflexivity|]. cbn [map concat]. rewrite IH, map_app. reflexivity. Qed.
  Lemma frame_rows_still T l x b (f : nat * nat -> vec) : b < fB fr -> l < fL fr ->
    (forall q, In q (pixels fr b) -> veq 3 (frame_attr (shot T l) x b (fst q) (snd q)) (f q)) ->
    frame_rows (shot T l) x b = map (fun q => map (f q) [0; 1; 2]) (pixels fr b).
  Proof using Hs HL HH HW.
    intros Hb Hl H. unfold frame_rows. rewrite m_chosen by assumption. apply map_ext_in. intros q Hq. cbn [map]. rewrite !(H q Hq) by lia. reflexivity.
  Qed.
  Lemma aggregate_covers T n a : 0 < n <= fL fr -> (forall b l, b < fB fr -> l < n -> meq 4 4 (T b l) (first_pose fr b)) -> len_view RF a = fB fr ->
    (forall x b, x <> Features -> b < fB fr -> rows_of a x b = concat (map (fun l => frame_rows (shot (fun b => T b l) l) x b) (seq 0 n))) -> Covers a.
  Proof using Hs HL HH HW.
    intros Hn HT HB HR. split; [exact HB|]. intros b Hb.
    set (big := concat (map (fun _ : nat => pixels fr b) (seq 0 n))).
    assert (E : forall x (f : nat * nat -> vec), x = Points /\ f = point_at fr b \/ x = Normals /\ f = normal_at fr b -> rows_of a x b = map (fun q => map (f q) [0; 1; 2]) big).
    { intros x f Hx. rewrite HR by (try exact Hb; destruct Hx as [[-> _]|[-> _]]; discriminate). unfold big. rewrite <- concat_map_map. f_equal. apply map_ext_in. intros l Hl. apply in_seq in Hl.
      apply frame_rows_still; [exact Hb|lia|]. intros [h w] Hq. destruct (pixels_in b _ Hb Hq) as (B1 & B2 & _). cbn [fst snd] in *.
      destruct Hx as [ [ -> -> ] | [ -> -> ] ]; [apply m_points|apply m_normals]; auto; try lia; apply HT; auto; lia. }
    assert (EP := E Points (point_at fr b) (or_introl (conj eq_refl eq_refl))). assert (EN := E Normals (normal_at fr b) (or_intror (conj eq_refl eq_refl))).
    rewrite npoints_rows, EP, map_length.
    assert (R : forall m (f : nat * nat -> vec) q, nth_error big m = Some q -> nth m (map (fun q => map (f q) [0; 1; 2]) big) [] = map (f q) [0; 1; 2]).
    { intros m f q Hq. apply nth_error_nth. rewrite nth_error_map, Hq. reflexivity. }
    assert (V : forall x m (f : nat * nat -> vec) q, rows_of a x b = map (fun q => map (f q) [0; 1; 2]) big -> nth_error big m = Some q -> veq 3 (attr_at a x b m) (f q)).
    { intros x m f q Ex Hq k Hk. rewrite attr_rows, Ex, (R m f q Hq). destruct k as [|[|[|k]]]; [| | |lia]; reflexivity. }
    assert (Hin : forall q, In q big <-> In q (pixels fr b)).
    { intros q. unfold big. rewrite in_concat. split.
      - intros (y & Hy & Hq). apply in_map_iff in Hy. destruct Hy as (l & <- & _). exact Hq.
      - intros Hq. exists (pixels fr b). split; [|exact Hq]. apply in_map_iff. exists 0. split; [reflexivity|apply in_seq; lia]. }
    split.
    - intros q Hq. apply Hin in Hq. destruct (In_nth_error _ _ Hq) as (m & Em). exists m. split; [apply nth_error_Some; congruence|]. exact (V Points m (point_at fr b) q EP Em).
    - intros m Hm. destruct (nth_error big m) as [q|] eqn:Em; [|apply nth_error_None in Em; lia]. exists q. split; [apply Hin; eapply nth_error_In; exact Em|].
      split; [exact (V Points m (point_at fr b) q EP Em)|exact (V Normals m (normal_at fr b) q EN Em)].
  Qed.
End Still.
