(* C53: downsampling. *)
From Coq Require Import Reals List Arith Bool ZArith Lia Lra.
From Verif Require Import Res Fld StructUtilsModel PointcloudsModel PointcloudsSpec PointcloudsIndexSpec PointcloudsCtorSpec
  PointcloudsHist PointcloudsPropProofs MatSpec GeomSpec TensorModel TensorProofs ProjModel GeomModel RgbdModel RgbdSpec RgbdProofs RgbdOps RgbdCloud RgbdPropProofs
  FusionModel FusionSpec FusionMap SolveModel Se3Model IcpModel OdomSpec.
Import ListNotations.
Local Open Scope nat_scope.

(* ---------------- the grid *)
Lemma divides_z_spec d x : d <> 0%Z -> divides_z d x = divisible d x.
Proof.
  intros Hd. unfold divides_z, divisible. destruct (Znumtheory.Zdivide_dec d (Z.of_nat x)) as [H|H].
  - apply Z.eqb_eq. apply Z.mod_divide; assumption.
  - apply Z.eqb_neq. intros E. apply H. apply Z.mod_divide; assumption.
Qed.
Lemma divisible_nat k x : 0 < k -> divisible (Z.of_nat k) x = (x mod k =? 0).
Proof.
  intros Hk. rewrite <- divides_z_spec by lia. unfold divides_z. rewrite <- Nat2Z.inj_mod.
  destruct (Nat.eqb_spec (x mod k) 0) as [->|H]; [reflexivity|]. apply Z.eqb_neq. lia.
Qed.
Lemma strided_spec k n : 0 < k -> strided k n = filter (fun x => x mod k =? 0) (seq 0 n).
Proof.
  intros Hk. unfold strided. induction n as [|n IH].
  - rewrite Nat.div_small by lia. reflexivity.
  - rewrite seq_S, filter_app, <- IH. cbn [filter]. rewrite Nat.add_0_l. cbn [filter].
    pose proof (Nat.div_mod_eq n k) as D. pose proof (Nat.mod_upper_bound n k ltac:(lia)) as U.
    destruct (Nat.eqb_spec (n mod k) 0) as [E|E].
    + assert (N : n = k * (n / k)) by lia.
      replace ((n + k - 1) / k) with (n / k).
      2:{ apply Nat.div_unique with (k - 1); lia. }
      replace ((S n + k - 1) / k) with (S (n / k)).
      2:{ apply Nat.div_unique with 0; lia. }
      rewrite seq_S, map_app. cbn [map]. rewrite Nat.add_0_l. f_equal. f_equal. lia.
    + rewrite app_nil_r. f_equal. f_equal.
      replace ((n + k - 1) / k) with (S (n / k)) by (apply Nat.div_unique with (n mod k - 1); lia).
      symmetry. apply Nat.div_unique with (n mod k); lia.
Qed.
Lemma filter_map_comm {X Y} (f : X -> Y) p l : filter p (map f l) = map f (filter (fun x => p (f x)) l).
Proof. induction l as [|x l IH]; [reflexivity|]. cbn. destruct (p (f x)); cbn; rewrite IH; reflexivity. Qed.
Lemma filter_filter {X} (p q : X -> bool) l : filter p (filter q l) = filter (fun x => q x && p x) l.
Proof. induction l as [|x l IH]; [reflexivity|]. cbn. destruct (q x); cbn; [|exact IH]. destruct (p x); rewrite IH; reflexivity. Qed.
Lemma filter_nil {X} (l : list X) : filter (fun _ => false) l = []. Proof. induction l; [reflexivity|exact IHl]. Qed.
Lemma prod_filter {X Y} (p : X -> bool) (q : Y -> bool) l m : list_prod (filter p l) (filter q m) = filter (fun z => p (fst z) && q (snd z)) (list_prod l m).
Proof.
  induction l as [|x l IH]; [reflexivity|]. cbn [filter list_prod]. rewrite filter_app, filter_map_comm. cbn [fst snd].
  destruct (p x); cbn [list_prod andb].
  - rewrite IH. f_equal.
  - rewrite IH, filter_nil. reflexivity.
Qed.

(* ---------------- frames *)
Lemma grid_attr_shape d fr x : Forall (fun y => t2c y = 3 /\ Forall (fun r => length r = 3) (t2r y)) (grid_attr d fr x).
Proof.
  unfold grid_attr. apply Forall_map, Forall_forall. intros b _. cbn [t2c t2r]. split; [reflexivity|]. apply Forall_map, Forall_forall. reflexivity.
Qed.
Lemma grid_counts d fr x y : counts_of RF (grid_attr d fr x) = counts_of RF (grid_attr d fr y).
Proof. unfold counts_of, grid_attr. rewrite !map_map. apply map_ext. intros b. cbn [t2r]. rewrite !map_length. reflexivity. Qed.
Lemma grid_valid d fr : 0 < fB fr -> valid_batch RF (grid_attr d fr Points) (grid_clouds d fr).
Proof.
  intros HB. split; [reflexivity|]. split.
  { unfold grid_attr. destruct (fB fr); [lia|]. discriminate. }
  intros x L HL. destruct x; cbn in HL; try discriminate; injection HL as <-; (split; [apply grid_counts|apply grid_attr_shape]).
Qed.
Lemma real_grid d fr x : real_inp RF (IList RF (map (AT2 RF) (grid_attr d fr x))).
Proof.
  cbn. apply Forall_map. unfold grid_attr. apply Forall_map, Forall_forall. intros b _. cbn. unfold t2wf. cbn. apply Forall_map, Forall_forall. reflexivity.
Qed.
Lemma grid_ps d a m b : (0 < d)%Z -> b < fB a -> fL a = 1 -> Image false a 1 m (maskf a) ->
  filter (fun q => at_ m [0; snd q; fst q; 0; b]) (list_prod (strided (Z.to_nat d) (fH a)) (strided (Z.to_nat d) (fW a))) = grid_pixels d a b.
Proof.
  intros Hd Hb HL [_ Hm]. rewrite !strided_spec by lia. rewrite prod_filter, filter_filter. unfold grid_pixels, chosen. rewrite filter_filter.
  apply filter_ext_in'. intros q Hq. apply in_pixels in Hq.
  replace d with (Z.of_nat (Z.to_nat d)) at 3 4 by lia. rewrite !divisible_nat by lia.
  assert (Hb' : at_ m [0; snd q; fst q; 0; b] = maskf a b 0 (fst q) (snd q) 0) by (apply (Hm b 0 (fst q) (snd q) 0); [repeat split; lia|lia]). rewrite Hb'. unfold maskf.
  destruct (Rlt_dec 0 _); rewrite ?andb_true_r, ?andb_false_r; reflexivity.
Qed.
Lemma down_frames_inv q s a d : Inv q s false a -> fL a = 1 -> 0 < fB a -> 2 <= fH a -> 2 <= fW a -> (0 < d)%Z ->
  exists p s', downsample_rgbdimages (IntV d) s = (Ok p, s') /\ Hist RF p (grid_clouds d a) /\ Inv true s' false a /\
    (RHist q s false a -> RHist true s' false a).
Proof.
  intros Hi HL HB HH HW Hd.
  unfold downsample_rgbdimages. cbn [need_int]. rewrite (mb_lift _ _ _ d eq_refl), mb_get.
  pose proof Hi as ((Hcf & AB & AL & Ah & Aw) & _). rewrite AL, HL. cbn [Nat.eqb guard]. rewrite (mb_lift _ _ _ tt eq_refl).
  destruct (mask_read _ _ _ _ Hi) as (m & Em & Hm). rewrite (mb_ok _ _ _ _ _ Em).
  pose proof (inv_vmask _ _ _ _ _ Hi Hm) as Hi1.
  pose proof (fun H => h_read q s false a RdMask H) as R1. cbn [after_read] in R1. rewrite Em in R1. cbn [snd] in R1.
  destruct (Z.ltb_spec 0 d); [|lia]. cbn [guard]. rewrite (mb_lift _ _ _ tt eq_refl).
  rewrite Hcf. cbn [negb guard orb]. rewrite (mb_lift _ _ _ tt eq_refl). cbv zeta.
  destruct (gvertex_read _ _ _ _ Hi1) as (v & s2 & Ev & Hv & Hi2). rewrite (mb_ok _ _ _ _ _ Ev). rewrite (mb_lift _ _ _ tt eq_refl).
  pose proof (fun H => h_read _ _ _ _ RdGlobalVertex (R1 H)) as R2. cbn [after_read] in R2. rewrite Ev in R2. cbn [snd] in R2.
  destruct (gnormal_read _ _ _ _ Hi2) as [N _]. destruct (N HH HW) as (n & s3 & En & Hn & Hi3). rewrite (mb_ok _ _ _ _ _ En).
  pose proof (fun H => h_read _ _ _ _ RdGlobalNormal (R2 H)) as R3. cbn [after_read] in R3. rewrite En in R3. cbn [snd] in R3.
  rewrite mb_get. destruct (inv_inputs _ _ _ _ Hi3) as (r & dd & i & E1 & E2 & E3 & H1 & H2 & H3). rewrite E1, AB, Ah, Aw.
  assert (Hl : forall x t, x <> Features -> Image false a 3 t (fun b _ h w => frame_attr a x b h w) ->
    IList RF (map (fun b => AT2 RF (gather t (filter (fun q => at_ m [0; snd q; fst q; 0; b]) (list_prod (strided (Z.to_nat d) (fH a)) (strided (Z.to_nat d) (fW a)))) b)) (seq 0 (fB a)))
    = IList RF (map (AT2 RF) (grid_attr d a x))).
  { intros x t Hx Ht. f_equal. unfold grid_attr. rewrite map_map. apply map_ext_in. intros b Hb. apply in_seq in Hb.
    f_equal. rewrite (grid_ps d a m b) by (lia || assumption). apply (gather_img a _ (fun b _ h w => frame_attr a x b h w)); try assumption; [lia|].
    intros z Hz. apply filter_In in Hz. destruct Hz as [Hz _]. apply filter_In in Hz. apply in_pixels. apply Hz. }
  assert (Hz : forall (t : ten R) (f g : nat -> nat -> nat -> nat -> vec), Image false a 3 t f -> (forall b h w, g b 0 h w = f b 0 h w) -> Image false a 3 t g).
  { intros t f g [Hs Ht] He. split; [exact Hs|]. intros b l h w c Hp Hc. rewrite (Ht b l h w c Hp Hc).
    destruct Hp as (Hp1 & Hp2 & _). replace l with 0 by lia. rewrite He. reflexivity. }
  rewrite (Hl Points v ltac:(discriminate)) by (apply (Hz _ _ _ Hv); reflexivity).
  rewrite (Hl Normals n ltac:(discriminate)) by (apply (Hz _ _ _ Hn); reflexivity).
  rewrite (Hl Colors r ltac:(discriminate)) by (apply (Hz _ _ _ H1); reflexivity).
  assert (D : Denotes RF (IList RF (map (AT2 RF) (grid_attr d a Points))) (IList RF (map (AT2 RF) (grid_attr d a Normals)))
    (IList RF (map (AT2 RF) (grid_attr d a Colors))) (INone RF) (grid_clouds d a)).
  { right. left. eexists. split; [apply grid_valid; exact HB|]. repeat split. }
  destruct (proj2 (p_accepts RF _ _ _ (INone RF) (real_grid _ _ _) (real_grid _ _ _) (real_grid _ _ _) I) (ex_intro _ _ D)) as (p & Ep).
  exists p, s3. split; [unfold lift; f_equal; exact Ep|].
  split; [exact (PointcloudsHist.h_new RF _ _ _ (INone RF) _ _ (real_grid _ _ _) (real_grid _ _ _) (real_grid _ _ _) I D Ep)|]. split; [exact Hi3|exact R3].
Qed.
Lemma p_down_frames q s a d : RHist q s false a -> fL a = 1 -> 0 < fB a -> 2 <= fH a -> 2 <= fW a -> (0 < d)%Z ->
  exists p s', downsample_rgbdimages (IntV d) s = (Ok p, s') /\ Hist RF p (grid_clouds d a) /\ RHist true s' false a.
Proof.
  intros H HL HB HH HW Hd. destruct (down_frames_inv q s a d (hist_inv _ _ _ _ H) HL HB HH HW Hd) as (p & s' & E & H1 & _ & H2).
  exists p, s'. auto.
Qed.
(* errors *)
Lemma p_down_frames_type s : downsample_rgbdimages IntBad s = (Err TypeError, s).
Proof. reflexivity. Qed.
Lemma p_down_frames_length q s cf a d : RHist q s cf a -> fL a <> 1 -> downsample_rgbdimages (IntV d) s = (Err ValueError, s).
Proof.
  intros H HL. pose proof (hist_inv _ _ _ _ H) as ((_ & _ & AL & _) & _). unfold downsample_rgbdimages. cbn [need_int].
  rewrite (mb_lift _ _ _ d eq_refl), mb_get, AL. destruct (Nat.eqb_spec (fL a) 1); [contradiction|]. reflexivity.
Qed.
Lemma p_down_frames_ratio q s cf a d : RHist q s cf a -> fL a = 1 -> (d <= 0)%Z -> fst (downsample_rgbdimages (IntV d) s) = Err ValueError.
Proof.
  intros H HL Hd. pose proof (hist_inv _ _ _ _ H) as Hi. unfold downsample_rgbdimages. cbn [need_int].
  pose proof Hi as ((Hcf & _ & AL & _) & _). rewrite (mb_lift _ _ _ d eq_refl), mb_get, AL, HL. cbn [Nat.eqb guard]. rewrite (mb_lift _ _ _ tt eq_refl).
  destruct (mask_read _ _ _ _ Hi) as (m & Em & Hm). rewrite (mb_ok _ _ _ _ _ Em).
  destruct (Z.ltb_spec 0 d); [lia|]. reflexivity.
Qed.
(* a channels-first frame *)
Lemma down_frames_cf q s a d : Inv q s true a -> fL a = 1 -> 0 < fB a -> 2 <= fW a -> (0 < d)%Z ->
  exists s', downsample_rgbdimages (IntV d) s = (Err IndexError, s') /\ Inv true s' true a.
Proof.
  intros Hi HL HB HW Hd. unfold downsample_rgbdimages. cbn [need_int]. rewrite (mb_lift _ _ _ d eq_refl), mb_get.
  pose proof Hi as ((Hcf & AB & AL & Ah & Aw) & _). rewrite AL, HL. cbn [Nat.eqb guard]. rewrite (mb_lift _ _ _ tt eq_refl).
  destruct (mask_read _ _ _ _ Hi) as (m & Em & Hm). rewrite (mb_ok _ _ _ _ _ Em).
  pose proof (inv_vmask _ _ _ _ _ Hi Hm) as Hi1.
  destruct (Z.ltb_spec 0 d); [|lia]. cbn [guard]. rewrite (mb_lift _ _ _ tt eq_refl).
  rewrite Hcf, AB, Aw. cbn [negb guard orb]. destruct (Nat.ltb_spec 0 (fB a)); [|lia]. destruct (Nat.ltb_spec 1 (fW a)); [|lia]. cbn [andb guard].
  rewrite (mb_lift _ _ _ tt eq_refl). cbv zeta.
  destruct (gvertex_read _ _ _ _ Hi1) as (v & s2 & Ev & Hv & Hi2). rewrite (mb_ok _ _ _ _ _ Ev). exists s2. split; [reflexivity|]. exact (inv_mono _ _ _ _ Hi2).
Qed.
Lemma p_down_frames_cf q s a d : RHist q s true a -> fL a = 1 -> 0 < fB a -> 2 <= fW a -> (0 < d)%Z ->
  fst (downsample_rgbdimages (IntV d) s) = Err IndexError.
Proof. intros H HL HB HW Hd. destruct (down_frames_cf q s a d (hist_inv _ _ _ _ H) HL HB HW Hd) as (s' & E & _). now rewrite E. Qed.

(* ---------------- maps *)
Lemma rd_list a s x : Ready a s -> exists s', get_list RF x s = (Ok (qget x a), s') /\ Ready a s'.
Proof.
  intros HR. destruct HR as [H HC]. destruct (p_hist_shows RF s a H) as (S & _). specialize (S x).
  destruct (get_list RF x s) as [r s'] eqn:E. cbn in S. subst r. exists s'. split; [reflexivity|].
  eapply (ready_keep a s (conj H HC)); [apply (keeps_list x)|exact E|]. replace s' with (after RF (RdList x) s) by (cbn [after]; now rewrite E). now apply PointcloudsHist.h_read.
Qed.
Lemma mapM_map {X Y} (f : X -> res Y) (g : X -> Y) l : (forall x, In x l -> f x = Ok (g x)) -> mapM f l = Ok (map g l).
Proof. induction l as [|x l IH]; intros H; [reflexivity|]. cbn [mapM map]. rewrite (H x) by (left; reflexivity). cbn [rbind]. rewrite IH by (intros y Hy; apply H; right; exact Hy). reflexivity. Qed.
Lemma thin_rows d rows b : d <> 0%Z ->
  map rn (filter (fun r => rb r =? b) (filter (fun r => divides_z d (rw r)) (filter (fun r => divides_z d (rh r)) rows))) = thinned d rows b.
Proof.
  intros Hd. rewrite !filter_filter. unfold thinned. f_equal. apply filter_ext. intros r. rewrite !divides_z_spec by exact Hd.
  destruct (divisible d (rh r)), (divisible d (rw r)), (rb r =? b); reflexivity.
Qed.
Lemma index_ok P a x L d rows : valid_batch RF P a -> qget x a = Some L -> d <> 0%Z -> Forall (in_map a) rows -> x <> Features ->
  index_clouds (Some L) (len_view RF a) (filter (fun r => divides_z d (rw r)) (filter (fun r => divides_z d (rh r)) rows)) =
  Ok (map (fun b => mkT2 3 (map (row_at L b) (thinned d rows b))) (seq 0 (len_view RF a))).
Proof.
  intros Hv HL Hd Hr Hx. unfold index_clouds. apply mapM_map. intros b Hb. apply in_seq in Hb.
  pose proof (len_P P a Hv) as HP. destruct Hv as (HqP & Hne & HA). destruct (HA x L HL) as [Hc Hw].
  assert (Hlen : length L = length P) by (apply (f_equal (@length nat)) in Hc; unfold counts_of in Hc; rewrite !map_length in Hc; exact Hc).
  assert (G : @nth_error (t2 R) L b = Some (nth b L (mkT2 0 []))) by (exact (nth_get L b (mkT2 0 []) ltac:(lia))). rewrite G. unfold index_rows. rewrite thin_rows by exact Hd.
  rewrite (mapM_map _ (row_at L b)).
  - cbn [rbind]. f_equal. apply (f_equal (fun c => mkT2 c (map (row_at L b) (thinned d rows b)))). rewrite Forall_forall in Hw. destruct (Hw (nth b L (mkT2 0 []))) as [Hw1 _]; [apply nth_In; lia|].
    etransitivity; [exact Hw1|]. destruct x; try reflexivity. congruence.
  - intros n Hn. unfold thinned in Hn. apply in_map_iff in Hn. destruct Hn as (r & <- & Hin). apply filter_In in Hin. destruct Hin as [Hin Hp].
    apply andb_true_iff in Hp. destruct Hp as [Hp _]. apply andb_true_iff in Hp. destruct Hp as [Hp _]. apply Nat.eqb_eq in Hp. subst b.
    rewrite Forall_forall in Hr. destruct (Hr r Hin) as [_ Hn]. unfold row_at.
    rewrite <- (attr_len P a (conj HqP (conj Hne HA)) x L (rb r) HL ltac:(lia)) in Hn.
    assert (G2 : @nth_error (list R) (t2r (nth (rb r) L (mkT2 0 []))) (rn r) = Some (nth (rn r) (t2r (nth (rb r) L (mkT2 0 []))) [])) by (exact (nth_get _ _ [] Hn)). cbv beta. change (nth (rb r) L {| t2c := 0; t2r := [] |}) with (@nth (t2 R) (rb r) L {| t2c := 0; t2r := [] |}) in G2. etransitivity; [|reflexivity]. exact (eq_trans (f_equal (fun o => match o with Some r => Ok r | None => Err IndexError end) G2) eq_refl).
Qed.
Lemma thin_valid d rows a P : valid_batch RF P a -> Forall (in_map a) rows ->
  exists Q, valid_batch RF Q (thin_clouds d rows a).
Proof.
  intros Hv Hr. pose proof (len_P P a Hv) as HP. pose proof Hv as (HqP & Hne & HA).
  eexists. split; [cbn [thin_clouds qp]; unfold thin_attr; cbn [qget]; rewrite HqP; reflexivity|]. split.
  { rewrite HP. destruct P; [congruence|]. discriminate. }
  assert (Hl : forall x L', x <> Features -> thin_attr d rows a x = Some L' ->
    counts_of RF L' = map (fun b => length (thinned d rows b)) (seq 0 (len_view RF a)) /\
    Forall (fun y => t2c y = 3 /\ Forall (fun r => length r = 3) (t2r y)) L').
  { intros x L' Hx E. unfold thin_attr in E. destruct (qget x a) as [L|] eqn:EL; [|discriminate]. injection E as <-. split.
    - unfold counts_of. rewrite map_map. apply map_ext. intros b. cbn [t2r]. apply map_length.
    - apply Forall_map, Forall_forall. intros b Hb. apply in_seq in Hb. cbn [t2c t2r]. split; [reflexivity|]. apply Forall_map, Forall_forall.
      intros n Hn. unfold thinned in Hn. apply in_map_iff in Hn. destruct Hn as (r & <- & Hin). apply filter_In in Hin. destruct Hin as [Hin Hp].
      apply andb_true_iff in Hp. destruct Hp as [Hp _]. apply andb_true_iff in Hp. destruct Hp as [Hp _]. apply Nat.eqb_eq in Hp. subst b.
      rewrite Forall_forall in Hr. destruct (Hr r Hin) as [_ Hn]. destruct (HA x L EL) as [Hc Hw].
      assert (Hlen : length L = length P) by (apply (f_equal (@length nat)) in Hc; unfold counts_of in Hc; rewrite !map_length in Hc; exact Hc).
      rewrite <- (attr_len P a Hv x L (rb r) EL ltac:(lia)) in Hn. unfold row_at.
      rewrite Forall_forall in Hw. destruct (Hw (nth (rb r) L (mkT2 0 []))) as [_ Hw2]; [apply nth_In; lia|].
      rewrite Forall_forall in Hw2. specialize (Hw2 _ (nth_In _ [] Hn)). destruct x; try exact Hw2; congruence. }
  assert (Hp : thin_attr d rows a Points = Some (map (fun b => mkT2 3 (map (row_at P b) (thinned d rows b))) (seq 0 (len_view RF a)))).
  { unfold thin_attr. cbn [qget]. rewrite HqP. reflexivity. }
  intros x L' E. assert (Hx : x <> Features) by (intros ->; discriminate E).
  assert (E' : thin_attr d rows a x = Some L') by (destruct x; [exact E|exact E|exact E|congruence]).
  destruct (Hl x L' Hx E') as [C1 C2]. split; [rewrite C1; symmetry; apply (Hl Points _ ltac:(discriminate) Hp)|].
  destruct x; try exact C2. congruence.
Qed.
Lemma real_thin L : Forall (fun y => t2c y = 3 /\ Forall (fun r => length r = 3) (t2r y)) L -> real_inp RF (IList RF (map (AT2 RF) L)).
Proof.
  intros H. cbn. apply Forall_map. eapply Forall_impl; [|exact H]. intros y [H1 H2]. cbn. unfold t2wf. eapply Forall_impl; [|exact H2]. intros r Hr. exact (eq_trans Hr (eq_sym H1)).
Qed.
Lemma p_down_map s a P d rows : Ready a s -> qp a = Some P -> Forall (in_map a) rows -> d <> 0%Z ->
  exists p s', downsample_pointclouds (Tbl rows) (IntV d) s = (Ok p, s') /\ Hist RF p (thin_clouds d rows a) /\ Ready a s'.
Proof.
  intros HR HqP Hr Hd. pose proof (batch_valid s a P (proj1 HR) HqP) as Hv.
  unfold downsample_pointclouds. cbn [table_type need_int table_rows].
  rewrite (mb_lift _ _ _ tt eq_refl), (mb_lift _ _ _ d eq_refl), (mb_lift _ _ _ rows eq_refl), mb_get. rewrite (rd_len a s HR).
  destruct (Z.eqb_spec d 0); [contradiction|]. cbn [andb negb guard]. rewrite (mb_lift _ _ _ tt eq_refl). cbv zeta.
  assert (HP : len_view RF a = length P) by (apply len_P; exact Hv).
  assert (Hne : P <> []) by (apply Hv). 
  assert (E0 : len_view RF a =? 0 = false) by (apply Nat.eqb_neq; rewrite HP; destruct P; [congruence|discriminate]). rewrite E0.
  destruct (rd_list a s Points HR) as (s1 & E1 & R1). cbn [qget] in E1. rewrite HqP in E1. rewrite (mb_ok _ _ _ _ _ E1).
  rewrite (index_ok P a Points P d rows Hv HqP Hd Hr) by discriminate. rewrite (mb_lift _ _ _ _ eq_refl).
  destruct (rd_list a s1 Normals R1) as (s2 & E2 & R2). rewrite (mb_ok _ _ _ _ _ E2).
  assert (En : exists r, (match qget Normals a with None => ret None | Some _ => do x <- lift (index_clouds (qget Normals a) (len_view RF a) (filter (fun r => divides_z d (rw r)) (filter (fun r => divides_z d (rh r)) rows))); ret (Some x) end) s2
     = (Ok r, s2) /\ r = thin_attr d rows a Normals).
  { unfold thin_attr. destruct (qget Normals a) as [L|] eqn:EL; [|exists None; split; reflexivity].
    rewrite (index_ok P a Normals L d rows Hv EL Hd Hr) by discriminate. rewrite (mb_lift _ _ _ _ eq_refl). eexists. split; reflexivity. }
  destruct En as (rn_ & En & Ern). rewrite (mb_ok _ _ _ _ _ En).
  destruct (rd_list a s2 Colors R2) as (s3 & E3 & R3). rewrite (mb_ok _ _ _ _ _ E3).
  assert (Ec : exists r, (match qget Colors a with None => ret None | Some _ => do x <- lift (index_clouds (qget Colors a) (len_view RF a) (filter (fun r => divides_z d (rw r)) (filter (fun r => divides_z d (rh r)) rows))); ret (Some x) end) s3
     = (Ok r, s3) /\ r = thin_attr d rows a Colors).
  { unfold thin_attr. destruct (qget Colors a) as [L|] eqn:EL; [|exists None; split; reflexivity].
    rewrite (index_ok P a Colors L d rows Hv EL Hd Hr) by discriminate. rewrite (mb_lift _ _ _ _ eq_refl). eexists. split; reflexivity. }
  destruct Ec as (rc_ & Ec & Erc). rewrite (mb_ok _ _ _ _ _ Ec). subst rn_ rc_.
  destruct (thin_valid d rows a P Hv Hr) as (Q & HQ).
  assert (Hp : thin_attr d rows a Points = Some (map (fun b => mkT2 3 (map (row_at P b) (thinned d rows b))) (seq 0 (len_view RF a)))).
  { unfold thin_attr. cbn [qget]. rewrite HqP. reflexivity. }
  assert (Rr : forall x, x <> Features -> real_inp RF (t2_inp (thin_attr d rows a x))).
  { intros x Hx. destruct (thin_attr d rows a x) as [L'|] eqn:E; [|exact I]. apply real_thin.
    destruct HQ as (_ & _ & HA). specialize (HA x L'). destruct x; try congruence; cbn [qget thin_clouds qp qn qc qf] in HA; apply HA; exact E. }
  assert (Al : forall o, as_list RF (t2_inp o) o) by (intros [L|]; reflexivity).
  assert (D : Denotes RF (t2_inp (thin_attr d rows a Points)) (t2_inp (thin_attr d rows a Normals)) (t2_inp (thin_attr d rows a Colors)) (INone RF) (thin_clouds d rows a)).
  { right. left. exists Q. split; [exact HQ|]. repeat split; apply Al. }
  pose proof (Rr Points ltac:(discriminate)) as Rp. pose proof (Rr Normals ltac:(discriminate)) as Rn. pose proof (Rr Colors ltac:(discriminate)) as Rc.
  destruct (proj2 (p_accepts RF _ _ _ (INone RF) Rp Rn Rc I) (ex_intro _ _ D)) as (p & Ep).
  rewrite Hp in Ep, D, Rp. exists p, s3. split; [unfold lift; f_equal; exact Ep|].
  split; [exact (PointcloudsHist.h_new RF _ _ _ (INone RF) _ _ Rp Rn Rc I D Ep)|exact R3].
Qed.
Lemma p_down_map_types s t ds : t = TblBad \/ t <> TblBad /\ ds = IntBad -> downsample_pointclouds t ds s = (Err TypeError, s).
Proof. intros [->|[H ->]]; [reflexivity|]. destruct t; [congruence|reflexivity|reflexivity]. Qed.
Lemma p_down_map_shape s d : downsample_pointclouds TblShape (IntV d) s = (Err ValueError, s).
Proof. reflexivity. Qed.
Lemma p_down_map_zero s r rows : downsample_pointclouds (Tbl (r :: rows)) (IntV 0) s = (Err RuntimeError, s).
Proof. reflexivity. Qed.
