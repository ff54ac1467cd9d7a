(* C82: derivatives of the maps of RGBDImages objects and of aggregated maps. *)
From Coq Require Import Reals List Arith Bool ZArith Lia Lra.
From Verif Require Import Res Fld StructUtilsModel PointcloudsModel PointcloudsSpec PointcloudsHist MatSpec GeomSpec TensorModel RgbdModel RgbdSpec RgbdProofs RgbdPropProofs FusionModel FusionSpec
  Se3Model SolveModel IcpModel IcpSpec OdomSpec SlamModel SlamSpec SlamProofs SlamPropProofs GradSpec GradProofs.
Import ListNotations.
Local Open Scope nat_scope.

Lemma shows_one (s : pc RF) a a' : Shows RF s a -> Shows RF s a' -> a = a'.
Proof.
  intros (H & _) (H' & _). assert (E : forall x, qget x a = qget x a') by (intros x; specialize (H x); specialize (H' x); rewrite H in H'; now injection H').
  destruct a, a'. pose proof (E Points) as E1. pose proof (E Normals) as E2. pose proof (E Colors) as E3. pose proof (E Features) as E4. cbn in *. congruence.
Qed.

(* every entry of the four maps has a derivative where the depth is not 0 (for normals: no depth of the image is 0 and the normal is not 0) *)
Lemma p_grad_maps F x0 q g (cf : bool) v gv nm gn : smooth_frames F x0 -> (forall x, RHist (q x) (g x) cf (F x)) -> 2 <= fH (F x0) -> 2 <= fW (F x0) ->
  (forall x, fst (vertex_map (g x)) = Ok (v x)) -> (forall x, fst (global_vertex_map (g x)) = Ok (gv x)) ->
  (forall x, fst (normal_map (g x)) = Ok (nm x)) -> (forall x, fst (global_normal_map (g x)) = Ok (gn x)) ->
  forall b l h w j, inside (F x0) b l h w -> j < 3 -> fdep (F x0) b l h w <> 0%R ->
    differentiable (fun x => px cf (v x) b l h w j) x0 /\ differentiable (fun x => px cf (gv x) b l h w j) x0 /\
    (no_zero_depth (F x0) -> ((0 < fdep (F x0) b l h w)%R -> exists k, k < 3 /\ px cf (nm x0) b l h w k <> 0%R) ->
       differentiable (fun x => px cf (nm x) b l h w j) x0 /\ differentiable (fun x => px cf (gn x) b l h w j) x0).
Proof.
  intros SF HI HH HW Ev Egv Enm Egn b l h w j Hin Hj Hd.
  assert (K : forall x, px cf (v x) b l h w j = vertex (F x) b l h w j /\ px cf (gv x) b l h w j = global_vertex (F x) b l h w j /\
     (forall k, k < 3 -> px cf (nm x) b l h w k = normal (F x) b l h w k) /\ px cf (gn x) b l h w j = global_normal (F x) b l h w j).
  { intros x. pose proof (inside_eq F x0 SF x b l h w Hin) as Hx. destruct (sizes_eq F x0 SF x) as (_ & _ & EH & EW).
    destruct (p_shows _ _ _ _ (HI x)) as (_ & _ & _ & _ & _ & _ & _ & (t1 & E1 & _ & H1) & (t2 & E2 & _ & H2) & H3 & _). destruct (H3 ltac:(lia) ltac:(lia)) as [(t3 & E3 & _ & K3) (t4 & E4 & _ & K4)].
    rewrite Ev in E1. rewrite Egv in E2. rewrite Enm in E3. rewrite Egn in E4. injection E1 as <-. injection E2 as <-. injection E3 as <-. injection E4 as <-.
    split; [now apply H1|]. split; [now apply H2|]. split; [intros k Hk; now apply K3|now apply K4]. }
  split; [apply (diff_ext _ (fun x => vertex (F x) b l h w j)); [intros x; apply K|now apply d_vertex]|].
  split; [apply (diff_ext _ (fun x => global_vertex (F x) b l h w j)); [intros x; apply K|now apply d_gvertex]|].
  intros NZ NN. assert (N' : (0 < fdep (F x0) b l h w)%R -> exists k, k < 3 /\ normal (F x0) b l h w k <> 0%R).
  { intros P. destruct (NN P) as (k & Hk & N). exists k. split; [exact Hk|]. destruct (K x0) as (_ & _ & K3 & _). now rewrite <- K3. }
  split; [apply (diff_ext _ (fun x => normal (F x) b l h w j)); [intros x; now apply K|now apply d_normal]|].
  apply (diff_ext _ (fun x => global_normal (F x) b l h w j)); [intros x; apply K|now apply d_gnormal].
Qed.

(* ---------------------------------------------------------------- one depth *)
Lemma set_here b l h w d fr : fdep (set_depth b l h w d fr) b l h w = d.
Proof. cbn. now rewrite !Nat.eqb_refl. Qed.
Lemma set_there b l h w d fr b' l' h' w' : (b', l', h', w') <> (b, l, h, w) -> fdep (set_depth b l h w d fr) b' l' h' w' = fdep fr b' l' h' w'.
Proof. intros N. cbn. destruct (Nat.eqb_spec b' b), (Nat.eqb_spec l' l), (Nat.eqb_spec h' h), (Nat.eqb_spec w' w); cbn; try reflexivity. subst. contradiction. Qed.
Lemma near_pos d : (0 < d)%R -> near d (fun x => 0 < x)%R.
Proof. intros H. exists d. split; [exact H|]. intros y Hy. apply Rabs_def2 in Hy. lra. Qed.
Lemma near_neg d : (d < 0)%R -> near d (fun x => x < 0)%R.
Proof. intros H. exists (- d)%R. split; [lra|]. intros y Hy. apply Rabs_def2 in Hy. lra. Qed.
Lemma lin_lim a c x : derivable_pt_lim (fun y => y * a + c)%R x a.
Proof.
  intros e He. exists (mkposreal 1 Rlt_0_1). intros h Hh _. replace (((x + h) * a + c - (x * a + c)) / h - a)%R with 0%R by (field; exact Hh). rewrite Rabs_R0. exact He.
Qed.
(* a vertex moves along the ray of its pixel when its depth changes, a global vertex along the rotated ray; other vertices do not move; where there is no depth nothing moves *)
Lemma p_depth_derivative fr b l h w q g (cf : bool) v gv T : inside fr b l h w -> (forall x, RHist (q x) (g x) cf (set_depth b l h w x fr)) -> fpose fr = Some T ->
  (forall x, fst (vertex_map (g x)) = Ok (v x)) -> (forall x, fst (global_vertex_map (g x)) = Ok (gv x)) ->
  forall j, j < 3 ->
    (forall d, (0 < d)%R -> derivable_pt_lim (fun x => px cf (v x) b l h w j) d (ray fr b l h w j) /\
       derivable_pt_lim (fun x => px cf (gv x) b l h w j) d (mvec 3 (rot_of (T b l)) (ray fr b l h w) j)) /\
    (forall d, (d < 0)%R -> derivable_pt_lim (fun x => px cf (v x) b l h w j) d 0%R /\ derivable_pt_lim (fun x => px cf (gv x) b l h w j) d 0%R) /\
    continuity_pt (fun x => px cf (v x) b l h w j) 0%R /\
    forall b' l' h' w' x y, inside fr b' l' h' w' -> (b', l', h', w') <> (b, l, h, w) ->
      px cf (v x) b' l' h' w' j = px cf (v y) b' l' h' w' j /\ px cf (gv x) b' l' h' w' j = px cf (gv y) b' l' h' w' j.
Proof.
  intros Hin HI HT Ev Egv j Hj.
  assert (K : forall b' l' h' w' x, inside fr b' l' h' w' -> px cf (v x) b' l' h' w' j = vertex (set_depth b l h w x fr) b' l' h' w' j /\
     px cf (gv x) b' l' h' w' j = global_vertex (set_depth b l h w x fr) b' l' h' w' j).
  { intros b' l' h' w' x Hx. destruct (p_shows _ _ _ _ (HI x)) as (_ & _ & _ & _ & _ & _ & _ & (t1 & E1 & _ & H1) & (t2 & E2 & _ & H2) & _).
    rewrite Ev in E1. rewrite Egv in E2. injection E1 as <-. injection E2 as <-. split; [now apply H1|now apply H2]. }
  assert (V : forall x i, vertex (set_depth b l h w x fr) b l h w i = keep x (x * ray fr b l h w i)) by (intros x i; unfold vertex; rewrite set_here; reflexivity).
  assert (G : forall x, global_vertex (set_depth b l h w x fr) b l h w j = keep x (act (T b l) (vertex (set_depth b l h w x fr) b l h w) j)).
  { intros x. unfold global_vertex. cbn [fpose set_depth with_fdep]. rewrite HT. rewrite set_here. reflexivity. }
  split; [|split; [|split]].
  - intros d Hd. split.
    + apply (lim_near _ (fun x => x * ray fr b l h w j + 0)%R); [|apply lin_lim]. refine (near_imp _ _ _ _ (near_pos d Hd)). intros x Hx.
      rewrite (proj1 (K b l h w x Hin)), V. unfold keep. destruct (Rlt_dec 0 x); [ring|contradiction].
    + apply (lim_near _ (fun x => x * mvec 3 (rot_of (T b l)) (ray fr b l h w) j + T b l j 3%nat)%R); [|apply lin_lim]. refine (near_imp _ _ _ _ (near_pos d Hd)). intros x Hx.
      rewrite (proj2 (K b l h w x Hin)), G. unfold act, mvec, rot_of, tr_of. cbn [rsum]. rewrite !V. unfold keep. destruct (Rlt_dec 0 x); [ring|contradiction].
  - intros d Hd. split.
    + apply (lim_near _ (fun _ => 0%R)); [|apply derivable_pt_lim_const]. refine (near_imp _ _ _ _ (near_neg d Hd)). intros x Hx.
      rewrite (proj1 (K b l h w x Hin)), V. unfold keep. destruct (Rlt_dec 0 x); [lra|reflexivity].
    + apply (lim_near _ (fun _ => 0%R)); [|apply derivable_pt_lim_const]. refine (near_imp _ _ _ _ (near_neg d Hd)). intros x Hx.
      rewrite (proj2 (K b l h w x Hin)), G. unfold keep. destruct (Rlt_dec 0 x); [lra|reflexivity].
  - intros e He. assert (C : continuity_pt (fun x => x * ray fr b l h w j + 0)%R 0%R) by (apply derivable_continuous_pt; exists (ray fr b l h w j); apply lin_lim).
    destruct (C e He) as (d & Hd & KC). exists d. split; [exact Hd|]. intros x Hx. specialize (KC x Hx). cbn [dist R_met Rlimit.dist] in *. unfold R_dist in *.
    rewrite !(fun y => proj1 (K b l h w y Hin)), !V. unfold keep at 2. destruct (Rlt_dec 0 0) as [Z|_]; [lra|]. unfold keep. destruct (Rlt_dec 0 x); [|rewrite Rminus_diag_eq by reflexivity; rewrite Rabs_R0; exact He].
    refine (Rle_lt_trans _ _ _ (Req_le _ _ _) KC). f_equal. ring.
  - intros b' l' h' w' x y Hx N. split.
    + rewrite !(fun y => proj1 (K b' l' h' w' y Hx)). unfold vertex. rewrite !set_there by exact N. reflexivity.
    + rewrite !(fun y => proj2 (K b' l' h' w' y Hx)). unfold global_vertex. cbn [fpose set_depth with_fdep]. rewrite HT. rewrite !set_there by exact N.
      unfold act, mvec, rot_of, tr_of. cbn [rsum]. unfold vertex. rewrite !set_there by exact N. reflexivity.
Qed.
(* at depth 0 the vertex has a kink and the global vertex jumps to the camera centre *)
Lemma p_depth_kink fr b l h w q g (cf : bool) v : inside fr b l h w -> (forall x, RHist (q x) (g x) cf (set_depth b l h w x fr)) -> fpix fr = None ->
  (forall x, fst (vertex_map (g x)) = Ok (v x)) -> ~ differentiable (fun x => px cf (v x) b l h w 2) 0%R.
Proof.
  intros Hin HI HX Ev (dl & H).
  assert (K : forall x, px cf (v x) b l h w 2 = keep x x).
  { intros x. destruct (p_shows _ _ _ _ (HI x)) as (_ & _ & _ & _ & _ & _ & _ & (t1 & E1 & _ & H1) & _). rewrite Ev in E1. injection E1 as <-. rewrite H1 by (exact Hin || lia).
    unfold vertex. rewrite set_here. f_equal. unfold mvec, kinv, pinhole, pixel. cbn [fpix set_depth with_fdep]. rewrite HX. cbn. ring. }
  destruct (H (1 / 4)%R ltac:(lra)) as (d & Hd). pose proof (cond_pos d) as Dp.
  assert (P1 := Hd (d / 2)%R ltac:(lra) ltac:(rewrite Rabs_pos_eq; lra)). assert (P2 := Hd (- (d / 2))%R ltac:(lra) ltac:(rewrite Rabs_Ropp, Rabs_pos_eq; lra)).
  rewrite !K in P1, P2. unfold keep in P1, P2. destruct (Rlt_dec 0 0) as [Z|_]; [lra|]. destruct (Rlt_dec 0 (0 + d / 2)) as [_|Z]; [|lra]. destruct (Rlt_dec 0 (0 + - (d / 2))) as [Z|_]; [lra|].
  replace ((0 + d / 2 - 0) / (d / 2))%R with 1%R in P1 by (field; lra). replace ((0 - 0) / - (d / 2))%R with 0%R in P2 by (field; lra). apply Rabs_def2 in P1. apply Rabs_def2 in P2. lra.
Qed.
Lemma p_depth_jump fr b l h w q g (cf : bool) gv T j : inside fr b l h w -> (forall x, RHist (q x) (g x) cf (set_depth b l h w x fr)) -> fpose fr = Some T ->
  (forall x, fst (global_vertex_map (g x)) = Ok (gv x)) -> j < 3 -> T b l j 3%nat <> 0%R -> ~ continuity_pt (fun x => px cf (gv x) b l h w j) 0%R.
Proof.
  intros Hin HI HT Egv Hj HN C. set (r := mvec 3 (rot_of (T b l)) (ray fr b l h w) j). set (tj := T b l j 3%nat) in *.
  assert (K : forall x, px cf (gv x) b l h w j = keep x (x * r + tj)%R).
  { intros x. destruct (p_shows _ _ _ _ (HI x)) as (_ & _ & _ & _ & _ & _ & _ & _ & (t1 & E1 & _ & H1) & _). rewrite Egv in E1. injection E1 as <-. rewrite H1 by (exact Hin || lia).
    unfold global_vertex. cbn [fpose set_depth with_fdep]. rewrite HT, set_here. unfold keep. destruct (Rlt_dec 0 x) as [P|]; [|reflexivity]. unfold r, tj, act, mvec, rot_of, tr_of. cbn [rsum].
    unfold vertex. rewrite !set_here. unfold keep. destruct (Rlt_dec 0 x) as [_|]; [|contradiction]. change (with_fdep _ fr) with (set_depth b l h w x fr).
    change (mvec 3 (kinv (fK (set_depth b l h w x fr) b)) (pixel (set_depth b l h w x fr) b l h w)) with (ray fr b l h w). ring. }
  destruct (C (Rabs tj / 2)%R) as (d & Hd & KC); [pose proof (Rabs_pos_lt tj HN); lra|].
  set (x := Rmin (d / 2) (Rabs tj / (4 * (Rabs r + 1)))).
  assert (Rp : (0 < Rabs tj)%R) by (now apply Rabs_pos_lt). assert (Rr : (0 <= Rabs r)%R) by apply Rabs_pos.
  assert (X0 : (0 < x)%R) by (unfold x; apply Rmin_glb_lt; [lra|apply Rdiv_lt_0_compat; lra]).
  assert (X1 : (x <= d / 2)%R) by apply Rmin_l. assert (X2 : (x * (4 * (Rabs r + 1)) <= Rabs tj)%R).
  { apply Rle_trans with (Rabs tj / (4 * (Rabs r + 1)) * (4 * (Rabs r + 1)))%R; [apply Rmult_le_compat_r; [lra|apply Rmin_r]|]. right. field. lra. }
  specialize (KC x). cbn [dist R_met Rlimit.dist] in KC. unfold R_dist in KC. rewrite !K in KC. unfold keep in KC. destruct (Rlt_dec 0 x) as [_|Z]; [|contradiction]. destruct (Rlt_dec 0 0) as [Z|_]; [lra|].
  assert (KK : (Rabs (x * r + tj - 0) < Rabs tj / 2)%R). { apply KC. split; [split; [exact I|lra]|]. rewrite Rminus_0_r, Rabs_pos_eq; lra. }
  rewrite Rminus_0_r in KK. pose proof (Rabs_triang (x * r + tj) (- (x * r))) as TI. replace (x * r + tj + - (x * r))%R with tj in TI by ring. rewrite Rabs_Ropp, Rabs_mult, (Rabs_pos_eq x) in TI by lra.
  assert (XR : (x * Rabs r <= Rabs tj / 4)%R). { assert (0 <= x * 1)%R by lra. lra. } lra.
Qed.

(* ---------------------------------------------------------------- aggregated maps *)
Definition run_pixels (fr : frames) (b n : nat) : list (nat * (nat * nat)) :=
  concat (map (fun l => map (fun q => (l, q)) (chosen true (moment l fr) b)) (seq 0 n)).
Lemma run_pixels_in fr b n l h w : In (l, (h, w)) (run_pixels fr b n) -> l < n /\ h < fH fr /\ w < fW fr /\ (0 < fdep (moment l fr) b 0 h w)%R.
Proof.
  unfold run_pixels. rewrite in_concat. intros (y & Hy & Hi). apply in_map_iff in Hy. destruct Hy as (l' & <- & Hl). apply in_seq in Hl. apply in_map_iff in Hi. destruct Hi as ([h' w'] & E & Hi). injection E as <- <- <-.
  unfold chosen in Hi. apply filter_In in Hi. destruct Hi as [Hi Hd]. unfold row_major in Hi. apply in_prod_iff in Hi. rewrite !in_seq in Hi. cbn [fst snd] in Hd. destruct (Rlt_dec 0 _); [|discriminate]. cbn [moment pick fH fW] in Hi. repeat split; try lia. assumption.
Qed.
Lemma run_rows fr b n x : concat (map (fun l => frame_rows (moment l fr) x b) (seq 0 n)) = map (fun p => map (frame_attr (moment (fst p) fr) x b (fst (snd p)) (snd (snd p))) [0; 1; 2]) (run_pixels fr b n).
Proof.
  unfold run_pixels. rewrite concat_map, map_map. f_equal. apply map_ext. intros l. unfold frame_rows. rewrite map_map. reflexivity.
Qed.
Lemma smooth_moment F x0 l : smooth_frames F x0 -> l < fL (F x0) -> smooth_frames (fun x => moment l (F x)) x0.
Proof.
  intros (S & C & D & K & N & P & X) Hl. unfold smooth_frames. cbn [moment pick fB fL fH fW frgb fdep fK fpose fpix length]. rewrite !seq_length.
  split; [intros x; rewrite seq_length; destruct (S x) as (-> & _ & -> & ->); auto|].
  assert (NB : forall x b, b < fB (F x0) -> nth b (seq 0 (fB (F x))) 0 = b) by (intros x b Hb; destruct (S x) as (-> & _); now rewrite seq_nth).
  assert (IN : forall b l' h w, inside (moment l (F x0)) b l' h w -> b < fB (F x0) /\ l' = 0 /\ inside (F x0) b l h w).
  { intros b l' h w (I1 & I2 & I3 & I4). cbn [moment pick fB fL fH fW length] in *. rewrite seq_length in I1. split; [exact I1|]. split; [lia|]. repeat split; assumption. }
  split; [intros b l' h w c I Hc; destruct (IN _ _ _ _ I) as (Hb & -> & J); apply (diff_ext _ (fun x => frgb (F x) b l h w c)); [intros x; now rewrite NB|now apply C]|].
  split; [intros b l' h w I; destruct (IN _ _ _ _ I) as (Hb & -> & J); apply (diff_ext _ (fun x => fdep (F x) b l h w)); [intros x; now rewrite NB|now apply D]|].
  split; [intros b i j Hb Hi Hj; apply (diff_ext _ (fun x => fK (F x) b i j)); [intros x; now rewrite NB|now apply K]|].
  split; [intros b Hb; rewrite NB by exact Hb; now apply N|]. split.
  - destruct P as [P|(T & P & Q)]; [left; intros x; now rewrite P|]. right. exists (fun x b l' => T x (nth b (seq 0 (fB (F x))) 0) (nth l' [l] 0)). split; [intros x; now rewrite P|].
    intros b l' i j Hb Hl' Hi Hj. replace l' with 0 by (cbn in Hl'; lia). apply (diff_ext _ (fun x => T x b l i j)); [intros x; now rewrite NB|now apply Q].
  - destruct X as [X|(T & X & Q)]; [left; intros x; now rewrite X|]. right. exists (fun x b l' => T x (nth b (seq 0 (fB (F x))) 0) (nth l' [l] 0)). split; [intros x; now rewrite X|].
    intros b l' h w i I Hi. destruct (IN _ _ _ _ I) as (Hb & -> & J). apply (diff_ext _ (fun x => T x b l h w i)); [intros x; now rewrite NB|now apply Q].
Qed.
Lemma moment_dep l fr b h w : b < fB fr -> fdep (moment l fr) b 0 h w = fdep fr b l h w.
Proof. intros Hb. cbn. now rewrite seq_nth. Qed.
Lemma near_chosen F x0 b : smooth_frames F x0 -> b < fB (F x0) -> 0 < fL (F x0) -> no_zero_depth (F x0) -> near x0 (fun x => chosen true (F x) b = chosen true (F x0) b).
Proof.
  intros SF Hb Hl NZ. apply (near_imp _ (fun x => forall q, In q (row_major (fH (F x0)) (fW (F x0))) -> (0 < fdep (F x) b 0 (fst q) (snd q) <-> 0 < fdep (F x0) b 0 (fst q) (snd q))%R)).
  - intros x H. unfold chosen. destruct (sizes_eq F x0 SF x) as (_ & _ & -> & ->). apply filter_ext_in. intros q Hq. specialize (H q Hq).
    destruct (Rlt_dec 0 (fdep (F x) b 0 (fst q) (snd q))), (Rlt_dec 0 (fdep (F x0) b 0 (fst q) (snd q))); tauto.
  - apply near_list. intros [h w] Hq. unfold row_major in Hq. apply in_prod_iff in Hq. rewrite !in_seq in Hq. cbn [fst snd].
    assert (I : inside (F x0) b 0 h w) by (repeat split; lia). apply dep_near; [exact SF|exact I|now apply NZ].
Qed.
Lemma moment_nz l fr : l < fL fr -> no_zero_depth fr -> no_zero_depth (moment l fr).
Proof. intros Hl H b l' h w (I1 & I2 & I3 & I4). cbn [moment pick fB fL fH fW length] in *. rewrite seq_length in I1. replace l' with 0 by lia. rewrite moment_dep by exact I1. apply H. repeat split; assumption. Qed.
Lemma near_pixels F x0 b n : smooth_frames F x0 -> b < fB (F x0) -> n <= fL (F x0) -> no_zero_depth (F x0) -> near x0 (fun x => run_pixels (F x) b n = run_pixels (F x0) b n).
Proof.
  intros SF Hb Hn NZ. apply (near_imp _ (fun x => forall l, l < n -> chosen true (moment l (F x)) b = chosen true (moment l (F x0)) b)).
  - intros x H. unfold run_pixels. f_equal. apply map_ext_in. intros l Hl. apply in_seq in Hl. rewrite H by lia. reflexivity.
  - apply near_lt. intros l Hl. apply (near_chosen (fun x => moment l (F x))); [apply smooth_moment; [exact SF|lia]|rewrite moment_B; exact Hb|cbn; lia|apply moment_nz; [lia|exact NZ]].
Qed.
Lemma attr_rows_at (a : batch RF) x b n j : attr_at a x b n j = nth j (nth n (rows_of a x b) []) 0%R.
Proof. unfold attr_at, rows_of, row_at. destruct (qget x a); [reflexivity|]. destruct n, j; reflexivity. Qed.
Lemma nth3 (f : nat -> R) j : j < 3 -> nth j (map f [0; 1; 2]) 0%R = f j.
Proof. intros Hj. destruct j as [|[|[|j]]]; [reflexivity|reflexivity|reflexivity|lia]. Qed.
Lemma npoints_rows (a : batch RF) b : npoints a b = length (rows_of a Points b).
Proof. destruct a as [[P|] ? ? ?]; reflexivity. Qed.
(* ground-truth odometry and aggregation: the number of map points does not change and every point, colour and (nonzero) normal has a derivative *)
Lemma p_grad_aggregate c F x0 q g m t a : s_odom c = OGt -> s_map c = Aggregate -> smooth_frames F x0 -> (forall x, RHist (q x) (g x) false (F x)) -> fpose (F x0) <> None ->
  0 < fB (F x0) -> 2 <= fH (F x0) -> 2 <= fW (F x0) -> no_zero_depth (F x0) ->
  (forall x, forward c true (g x) = (Ok (m x, t x), g x)) -> (forall x, Shows RF (m x) (a x)) ->
  forall b, b < fB (F x0) -> near x0 (fun x => npoints (a x) b = npoints (a x0) b) /\
    forall n j, n < npoints (a x0) b -> j < 3 ->
      differentiable (fun x => attr_at (a x) Points b n j) x0 /\ differentiable (fun x => attr_at (a x) Colors b n j) x0 /\
      ((exists k, k < 3 /\ attr_at (a x0) Normals b n k <> 0%R) -> differentiable (fun x => attr_at (a x) Normals b n j) x0).
Proof.
  intros Ho Hm SF HI HP HB HH HW NZ EF SH b Hb. pose proof SF as (SZ & SC & _ & _ & _ & SP & _). destruct SP as [SP|(T & SP & _)]; [now rewrite SP in HP|].
  assert (RW : forall x X, X <> Features -> rows_of (a x) X b = map (fun p => map (frame_attr (moment (fst p) (F x)) X b (fst (snd p)) (snd (snd p))) [0; 1; 2]) (run_pixels (F x) b (fL (F x0)))).
  { intros x X HX. destruct (SZ x) as (EB & EL & EH & EW). destruct (p_forward_gt_map c (g x) (q x) (F x) (T x) (HI x) ltac:(lia) ltac:(lia) ltac:(lia) Ho Hm (SP x)) as (m' & t' & a' & E & _ & _ & S' & R').
    rewrite EF in E. injection E as <- <-. rewrite (shows_one _ _ _ (SH x) S'). rewrite R' by (exact HX || lia). rewrite EL. apply run_rows. }
  pose proof (near_pixels F x0 b (fL (F x0)) SF Hb (le_n _) NZ) as NP. split.
  - refine (near_imp _ _ _ _ NP). intros x E. rewrite !npoints_rows, !RW, E, !map_length by discriminate. reflexivity.
  - intros n j Hn Hj. rewrite npoints_rows, RW, map_length in Hn by discriminate.
    destruct (nth n (run_pixels (F x0) b (fL (F x0))) (0, (0, 0))) as [l [h w]] eqn:EN.
    assert (IP : In (l, (h, w)) (run_pixels (F x0) b (fL (F x0)))) by (rewrite <- EN; now apply nth_In). destruct (run_pixels_in _ _ _ _ _ _ IP) as (Hl & Hh & Hw & Hd).
    assert (AT : forall X, X <> Features -> near x0 (fun x => forall k, k < 3 -> attr_at (a x) X b n k = frame_attr (moment l (F x)) X b h w k)).
    { intros X HX. refine (near_imp _ _ _ _ NP). intros x E k Hk. rewrite attr_rows_at, RW, E by exact HX.
      rewrite (nth_indep _ _ (map (frame_attr (moment (fst (0, (0, 0))) (F x)) X b (fst (snd (0, (0, 0)))) (snd (snd (0, (0, 0))))) [0; 1; 2])) by (rewrite map_length; exact Hn).
      rewrite (map_nth (fun p => map (frame_attr (moment (fst p) (F x)) X b (fst (snd p)) (snd (snd p))) [0; 1; 2])), EN. cbn [fst snd]. now apply nth3. }
    pose proof (smooth_moment F x0 l SF Hl) as SM. assert (I : inside (moment l (F x0)) b 0 h w) by (unfold inside; rewrite moment_B; cbn; lia).
    split; [|split].
    + apply (diff_near _ (fun x => global_vertex (moment l (F x)) b 0 h w j)); [refine (near_imp _ _ _ _ (AT Points ltac:(discriminate))); intros x H; now apply H|].
      apply (d_gvertex (fun x => moment l (F x))); [exact SM|exact I|exact Hj|lra].
    + apply (diff_near _ (fun x => frgb (moment l (F x)) b 0 h w j)); [refine (near_imp _ _ _ _ (AT Colors ltac:(discriminate))); intros x H; now apply H|].
      destruct SM as (_ & SM & _). now apply SM.
    + intros (k & Hk & N). apply (diff_near _ (fun x => global_normal (moment l (F x)) b 0 h w j)); [refine (near_imp _ _ _ _ (AT Normals ltac:(discriminate))); intros x H; now apply H|].
      apply (d_gnormal (fun x => moment l (F x))); [exact SM|exact HH|exact HW|now apply moment_nz|exact I|exact Hj|]. intros _.
      pose proof (near_at _ _ (AT Normals ltac:(discriminate)) k Hk) as E0. rewrite E0 in N. cbn [frame_attr] in N. unfold global_normal in N.
      destruct (fpose (moment l (F x0))) as [T0|]; [|exists k; auto]. unfold mvec in N.
      destruct (Req_dec (normal (moment l (F x0)) b 0 h w 0) 0) as [Z0|Z0]; [|exists 0; split; [lia|exact Z0]].
      destruct (Req_dec (normal (moment l (F x0)) b 0 h w 1) 0) as [Z1|Z1]; [|exists 1; split; [lia|exact Z1]].
      destruct (Req_dec (normal (moment l (F x0)) b 0 h w 2) 0) as [Z2|Z2]; [|exists 2; split; [lia|exact Z2]].
      exfalso. apply N. cbn [rsum]. rewrite Z0, Z1, Z2. ring.
Qed.
