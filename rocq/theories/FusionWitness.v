(* Concrete maps and frames for the fusion properties: non-vacuity and counterexamples (C36-C44). *)
From Coq Require Import Reals List Arith Bool ZArith Lia Lra Sorting.Sorted.
From Verif Require Import Res Fld StructUtilsModel StructUtilsSpec PointcloudsModel PointcloudsSpec PointcloudsCtorSpec
  PointcloudsSetSpec PointcloudsIndexSpec PointcloudsHist PointcloudsProofs PointcloudsPropProofs PointcloudsHistProofs
  MatSpec GeomSpec TensorModel GeomModel RgbdModel RgbdSpec RgbdProofs RgbdCloud RgbdPropProofs RgbdWitness RgbdWitnessProofs
  FusionModel FusionSpec FusionMap FusionActive FusionSimilar FusionBest FusionMerge FusionFuse FusionCorr FusionFloat FusionPropProofs
  FusionPropProofs2.
Import ListNotations.
Local Open Scope nat_scope.

(* a map with one cloud *)
Definition one_cloud (p n c f : list (list R)) : batch RF :=
  mkQ (Some [mkT2 3 p : t2 RF]) (Some [mkT2 3 n : t2 RF]) (Some [mkT2 3 c : t2 RF]) (Some [mkT2 1 f : t2 RF]).
Definition rect (k w : nat) (l : list (list R)) : Prop := length l = k /\ Forall (fun r => length r = w) l.
Lemma one_valid k p n c f : rect k 3 p -> rect k 3 n -> rect k 3 c -> rect k 1 f -> valid_batch RF [mkT2 3 p : t2 RF] (one_cloud p n c f).
Proof.
  intros [P1 P2] [N1 N2] [C1 C2] [F1 F2]. split; [reflexivity|]. split; [discriminate|].
  intros x L HL. destruct x; cbn in HL; injection HL as <-; cbn; (split; [congruence|]); constructor; auto.
Qed.
Lemma one_full k p n c f : rect k 3 p -> rect k 3 n -> rect k 3 c -> rect k 1 f -> (forall i, i < k -> (0 <= nth 0 (nth i f []) 0)%R) ->
  full_map (one_cloud p n c f).
Proof.
  intros [P1 P2] [N1 N2] [C1 C2] [F1 F2] Hf. split; [intros []; discriminate|]. split; [reflexivity|].
  intros b i [Hb Hi]. assert (b = 0) by (unfold len_view in Hb; cbn in Hb; lia). subst b. unfold npoints in Hi. cbn in Hi.
  apply Hf. lia.
Qed.
Lemma one_len p n c f : len_view RF (one_cloud p n c f) = 1. Proof. reflexivity. Qed.

(* the frame: 2 x 3 pixels, depth = column; pixel (0, 1) has the 3-D point (0, -3/(4 + 1e-6), 1) *)
Lemma wfr_live : live (wfr 1 2 3). Proof. repeat split; cbn; lia. Qed.
Lemma act_id v j : j < 3 -> act (pinhole 1 1 0 0 0) v j = v j.
Proof.
  intros Hj. unfold act, tr_of, rot_of, mvec, rsum, pinhole.
  destruct j as [|[|[|j]]]; [| | |lia]; cbn -[Rplus Rmult]; ring.
Qed.
Lemma wfr_valid h w : fdep (wfr 1 2 3) 0 0 h w = INR w. Proof. reflexivity. Qed.
Lemma wfr_invalid h r : rb r = 0 -> rh r = h -> rw r = 0 -> forall k, k < 3 -> frame_point (wfr 1 2 3) r k = 0%R.
Proof.
  intros E1 E2 E3 k Hk. unfold frame_point, global_vertex. cbn [fpose wfr]. rewrite E1, E2, E3. unfold keep. rewrite wfr_valid. cbn [INR].
  destruct (Rlt_dec 0 0); [lra|reflexivity].
Qed.
Definition wY : R := (-3 / (4 + / 1000000))%R.
Lemma wfr_v1 : forall k, k < 3 -> frame_point (wfr 1 2 3) (mkRow 0 0 0 1) k = nth k [0; wY; 1]%R 0%R.
Proof.
  intros k Hk. unfold frame_point, global_vertex. cbn [fpose wfr rb rh rw]. rewrite act_id by exact Hk. unfold keep. rewrite wfr_valid. cbn [INR].
  destruct (Rlt_dec 0 1); [|lra]. unfold vertex, keep. rewrite wfr_valid. cbn [INR]. destruct (Rlt_dec 0 1); [|lra].
  unfold pixel, kinv, mvec, rsum, pinhole. cbn [fpix wfr fK INR].
  destruct k as [|[|[|k]]]; [| | |lia]; cbn -[Rplus Rmult Rdiv Rinv Rminus Ropp IZR]; unfold wY; try field; lra.
Qed.

Definition zero3 : list R := [0; 0; 0]%R.
(* a map point exactly at the 3-D point of pixel (0, 1); at the camera centre; two points for pixel (0, 1), the
   first on its viewing ray and the second closer to its 3-D point; a point without confidence *)
Definition m1 : batch RF := one_cloud [[0; wY; 1]%R] [zero3] [zero3] [[1%R]].
Definition m0 : batch RF := one_cloud [zero3] [zero3] [zero3] [[1%R]].
Definition m2 : batch RF := one_cloud [[0; 3 * wY; 3]%R; [1 / 10; wY; 1]%R] [zero3; zero3] [zero3; zero3] [[1%R]; [1%R]].
Definition m4 : batch RF := one_cloud [[5; 5; 5]%R; [0; wY; 1]%R] [zero3; zero3] [zero3; zero3] [[0%R]; [1%R]].
Definition mbig : batch RF := one_cloud (repeat zero3 (S big)) (repeat zero3 (S big)) (repeat zero3 (S big)) (repeat [1%R] (S big)).

Ltac rect := split; [reflexivity|repeat (constructor; [reflexivity|]); constructor].
Lemma rect_rep k r w : length r = w -> rect k w (repeat r k).
Proof. intros H. split; [apply repeat_length|]. apply Forall_forall. intros x Hx. apply repeat_spec in Hx. now subst x. Qed.
Lemma m1_valid : valid_batch RF [mkT2 3 [[0; wY; 1]%R] : t2 RF] m1. Proof. apply (one_valid 1); rect. Qed.
Lemma m0_valid : valid_batch RF [mkT2 3 [zero3] : t2 RF] m0. Proof. apply (one_valid 1); rect. Qed.
Lemma m2_valid : valid_batch RF [mkT2 3 [[0; 3 * wY; 3]%R; [1 / 10; wY; 1]%R] : t2 RF] m2. Proof. apply (one_valid 2); rect. Qed.
Lemma m4_valid : valid_batch RF [mkT2 3 [[5; 5; 5]%R; [0; wY; 1]%R] : t2 RF] m4. Proof. apply (one_valid 2); rect. Qed.
Lemma mbig_valid : valid_batch RF [mkT2 3 (repeat zero3 (S big)) : t2 RF] mbig. Proof. apply (one_valid (S big)); apply rect_rep; reflexivity. Qed.
Lemma m1_full : full_map m1 /\ positive m1.
Proof.
  split; [apply (one_full 1); try rect; intros [|i] Hi; [cbn; lra|lia]|].
  intros b n [Hb Hn]. unfold len_view, npoints in *. cbn in *. assert (b = 0) by lia. subst b. assert (n = 0) by (cbn in Hn; lia). subst n. unfold conf, attr_at, row_at. cbn. lra.
Qed.
Lemma m4_full : full_map m4.
Proof. apply (one_full 2); try rect. intros [|[|i]] Hi; [cbn; lra|cbn; lra|lia]. Qed.
Lemma m1_fits : fits_float32 m1 (wfr 1 2 3).
Proof. split; [cbn; lia|]. split; [cbn; lia|]. split; [cbn; lia|]. intros b Hb. assert (b = 0) by (cbn in Hb; lia). subst b. unfold npoints. cbn. lia. Qed.
Lemma w13 : exists s, RHist false s false (wfr 1 2 3).
Proof. destruct (w_hist 1 2 3) as (s & _ & H). eauto. Qed.

(* the point of m1 is seen at pixel (0, 1) *)
Lemma nearest_tol x k : (Rabs (x - INR k) < 1 / 2)%R -> nearest x k.
Proof. intros H. split; [lra|]. intros E. lra. Qed.
Lemma wY_range : (-3/4 < wY < -3/4 + 1/1000000)%R.
Proof. unfold wY. split; [apply Rmult_lt_reg_r with (4 + / 1000000)%R|apply Rmult_lt_reg_r with (4 + / 1000000)%R]; try lra; field_simplify; lra. Qed.
Lemma m1_seen : exists T, fpose (wfr 1 2 3) = Some T /\ seen_at m1 (wfr 1 2 3) T 0 0 0 1.
Proof.
  eexists. split; [reflexivity|].
  assert (Q : forall i, i < 3 -> to_camera (pinhole 1 1 0 0 0) (attr_at m1 Points 0 0) i = nth i [0; wY; 1]%R 0%R).
  { intros i Hi. unfold to_camera, rsum, pinhole, attr_at, row_at. cbn [m1 one_cloud qget qp t2r nth].
    destruct i as [|[|[|i]]]; [| | |lia]; cbn -[Rplus Rmult Rminus IZR]; ring. }
  unfold seen_at. cbv zeta.
  assert (U : image_pos (fK (wfr 1 2 3) 0) (to_camera (pinhole 1 1 0 0 0) (attr_at m1 Points 0 0)) 0%nat = 1%R /\
              image_pos (fK (wfr 1 2 3) 0) (to_camera (pinhole 1 1 0 0 0) (attr_at m1 Points 0 0)) 1%nat = (4 * wY + 3)%R).
  { unfold image_pos, project_spec, mvec. cbn [rsum]. unfold hom. cbn [Nat.ltb Nat.leb].
    rewrite !(Q 0), !(Q 1), !(Q 2) by lia. unfold persp, pinhole. cbn -[Rplus Rmult Rminus Rdiv IZR].
    repeat match goal with |- context [Req_EM_T ?u ?v] => destruct (Req_EM_T u v); [exfalso; lra|] end. split; field. }
  destruct U as [U1 U2]. pose proof wY_range.
  cbn [fpose wfr] in *. rewrite (Q 2) by lia. rewrite U1, U2. cbn [nth fH fW wfr INR].
  split; [lra|]. split; [unfold in_rectangle; cbn [INR]; lra|].
  split; apply nearest_tol; cbn [INR]; apply Rabs_def1; lra.
Qed.

(* ---------------- counterexamples *)
Lemma one_in_map k p n c f b i h w : rect k 3 p -> b = 0 -> i < k -> in_map (one_cloud p n c f) (mkRow b i h w).
Proof. intros [H _] -> Hi. split; cbn; [unfold len_view; cbn; lia|]. unfold npoints. cbn. lia. Qed.
Lemma in_img b n h w : b = 0 -> h < 2 -> w < 3 -> in_image (wfr 1 2 3) (mkRow b n h w).
Proof. intros -> H1 H2. repeat split; cbn; lia. Qed.

(* C38: with a negative threshold on the inner product, a pixel without depth is kept *)
Lemma r_similar_invalid : exists s a g fr r s' g', ReadyToClone RF s a /\ RHist false g false fr /\ live fr /\ in_map a r /\ in_image fr r /\
  find_similar_map_points (Tbl [r]) 1 (-1) (s, g) = (Ok ([r], [true]), (s', g')) /\ fdep fr (rb r) 0 (rh r) (rw r) = 0%R.
Proof.
  destruct (map_exists _ _ m0_valid) as (s & Hs). destruct w13 as (g & Hg). set (r := mkRow 0 0 0 0).
  assert (M : in_map m0 r) by (apply (one_in_map 1); [rect|reflexivity|lia]). assert (I : in_image (wfr 1 2 3) r) by (apply in_img; lia).
  destruct (p_similar s m0 g (wfr 1 2 3) false [r] 1 (-1) Hs Hg wfr_live eq_refl) as (t & s' & g' & E & Ht & _).
  { discriminate. } { discriminate. } { now constructor. } { now constructor. } { unfold points_once. cbn. constructor; [intros []|constructor]. } { discriminate. }
  exists s, m0, g, (wfr 1 2 3), r, s', g'. split; [exact Hs|]. split; [exact Hg|]. split; [exact wfr_live|]. split; [exact M|]. split; [exact I|].
  assert (T : t r = true).
  { apply Ht; [now left|]. split.
    - unfold distance, norm, dot. cbn [rsum]. rewrite !(wfr_invalid 0 r) by (reflexivity || lia).
      unfold attr_at, row_at. cbn -[sqrt]. replace (0 + (0 - 0) * (0 - 0) + (0 - 0) * (0 - 0) + (0 - 0) * (0 - 0))%R with 0%R by ring. rewrite sqrt_0. lra.
    - unfold dot. cbn [rsum]. unfold attr_at at 1 2 3, row_at. cbn. lra. }
  split; [|reflexivity]. rewrite E. cbn [filter map]. now rewrite T.
Qed.

(* C39: between two points of equal confidence the one on the viewing ray can lose *)
Lemma m2_d0 : (2 <= distance (attr_at m2 Points 0 0) (frame_point (wfr 1 2 3) (mkRow 0 0 0 1)))%R.
Proof.
  unfold distance, norm, dot. cbn [rsum]. rewrite !wfr_v1 by lia. unfold attr_at, row_at. cbn -[sqrt Rplus Rmult Rminus IZR].
  rewrite <- (sqrt_square 2) at 1 by lra. apply sqrt_le_1_alt. nra.
Qed.
Lemma fp_n n : frame_point (wfr 1 2 3) (mkRow 0 n 0 1) = frame_point (wfr 1 2 3) (mkRow 0 0 0 1). Proof. reflexivity. Qed.
Lemma m2_d1 : distance (attr_at m2 Points 0 1) (frame_point (wfr 1 2 3) (mkRow 0 1 0 1)) = (1 / 10)%R.
Proof.
  unfold distance, norm, dot. rewrite fp_n. cbn [rsum]. rewrite !wfr_v1 by lia. unfold attr_at, row_at. cbn -[sqrt Rplus Rmult Rminus IZR Rdiv].
  transitivity (sqrt ((1 / 10) * (1 / 10))); [f_equal; ring|apply sqrt_square; lra].
Qed.
Lemma m2_fits : fits_float32 m2 (wfr 1 2 3).
Proof. split; [cbn; lia|]. split; [cbn; lia|]. split; [cbn; lia|]. intros b Hb. assert (b = 0) by (cbn in Hb; lia). subst b. unfold npoints. cbn. lia. Qed.
Lemma r_ray : exists s a g fr T rA rB s' g', ReadyToClone RF s a /\ RHist false g false fr /\ live fr /\ fits_float32 a fr /\
  fpose fr = Some T /\ in_map a rA /\ in_map a rB /\ in_image fr rA /\ same_pixel rA rB /\
  conf a (rb rA) (rn rA) = conf a (rb rB) (rn rB) /\
  on_ray (T 0 0) (frame_point fr rA) (attr_at a Points (rb rA) (rn rA)) /\
  ~ on_ray (T 0 0) (frame_point fr rB) (attr_at a Points (rb rB) (rn rB)) /\
  find_best_unique_correspondences f32 (Tbl [rA; rB]) (s, g) = (Ok [rB], (s', g')).
Proof.
  destruct (map_exists _ _ m2_valid) as (s & Hs). destruct w13 as (g & Hg). set (rA := mkRow 0 0 0 1). set (rB := mkRow 0 1 0 1).
  assert (MA : in_map m2 rA) by (apply (one_in_map 2); [rect|reflexivity|lia]). assert (MB : in_map m2 rB) by (apply (one_in_map 2); [rect|reflexivity|lia]).
  assert (IA : in_image (wfr 1 2 3) rA) by (apply in_img; lia). assert (IB : in_image (wfr 1 2 3) rB) by (apply in_img; lia).
  destruct (p_best s m2 g (wfr 1 2 3) false [rA; rB] Hs Hg eq_refl eq_refl) as (out & s' & g' & E & H1 & H2 & H3 & H4 & _).
  { discriminate. } { discriminate. } { exact m2_fits. } { repeat constructor; assumption. } { repeat constructor; assumption. }
  assert (C : forall r, In r [rA; rB] -> (0 <= conf m2 (rb r) (rn r))%R).
  { intros r [<-|[<-|[]]]; unfold conf, attr_at, row_at; cbn; lra. }
  destruct (H4 eq_refl C rB (or_intror (or_introl eq_refl))) as (r' & Hr' & Hp' & Hb).
  assert (r' = rB).
  { destruct (H1 r' Hr') as [<-|[<-|[]]]; [|reflexivity]. exfalso. unfold at_least_as_good in Hb. cbv zeta in Hb. cbn [rb rn rA rB] in Hb.
    pose proof m2_d0 as D0. pose proof m2_d1 as D1. destruct Hb as [Hb|[_ Hb]].
    - unfold conf, attr_at, row_at in Hb. cbn in Hb. lra.
    - unfold rA, rB in Hb. rewrite D1 in Hb. destruct Hb as [Hb|[Hb _]]; lra. }
  subst r'.
  assert (Eout : out = [rB]).
  { assert (ALL : forall r, In r out -> r = rB).
    { intros r Hr. apply (p_best_once out r rB H2 Hr Hr'). destruct (H1 r Hr) as [<-|[<-|[]]]; repeat split. }
    destruct out as [|x [|y l]]; [destruct Hr'|f_equal; apply ALL; now left|]. exfalso.
    inversion H2; subst. inversion H6; subst. rewrite (ALL x), (ALL y) in H7 by (cbn; auto). unfold before_pixel in H7. lia. }
  exists s, m2, g, (wfr 1 2 3). eexists. exists rA, rB, s', g'. split; [exact Hs|]. split; [exact Hg|]. split; [exact wfr_live|]. split; [exact m2_fits|].
  split; [reflexivity|]. split; [exact MA|]. split; [exact MB|]. split; [exact IA|]. split; [repeat split|]. split; [reflexivity|]. split; [|split].
  - exists 3%R. split; [lra|]. intros k Hk. unfold rA. rewrite wfr_v1 by exact Hk. unfold attr_at, row_at. 
    destruct k as [|[|[|k]]]; [| | |lia]; cbn -[Rplus Rmult Rminus IZR]; ring.
  - intros (t & Ht & Hray). pose proof (Hray 0 ltac:(lia)) as R0. unfold rB in R0. rewrite fp_n, wfr_v1 in R0 by lia.
    unfold attr_at, row_at in R0. cbn -[Rplus Rmult Rminus IZR Rdiv] in R0. lra.
  - now rewrite E, Eout.
Qed.

(* C40: point 2^24 + 1 of a map comes back as point 2^24 *)
Lemma f32_0 : f32 (INR 0) = INR 0. Proof. apply f32_exact. lia. Qed.
Lemma r_big : exists s a g fr r r' s' g', ReadyToClone RF s a /\ RHist false g false fr /\ live fr /\ fB fr = len_view RF a /\
  in_map a r /\ in_image fr r /\ Z.of_nat (rn r) = (2 ^ 24 + 1)%Z /\
  find_best_unique_correspondences f32 (Tbl [r]) (s, g) = (Ok [r'], (s', g')) /\ Z.of_nat (rn r') = (2 ^ 24)%Z.
Proof.
  destruct (map_exists _ _ mbig_valid) as (s & Hs). destruct w13 as (g & Hg). set (r := mkRow 0 big 0 0).
  assert (M : in_map mbig r) by (apply (one_in_map (S big)); [now apply rect_rep|reflexivity|lia]).
  assert (I : in_image (wfr 1 2 3) r) by (apply in_img; lia).
  destruct (best_run f32 s mbig g (wfr 1 2 3) false _ [r] (proj1 (ready_iff _ _) Hs) (hist_inv _ _ _ _ Hg) eq_refl eq_refl eq_refl) as (fp & pp & vm & s' & g' & E & _).
  { discriminate. } { now constructor. } { now constructor. } { discriminate. }
  cbn [map unique_rows fold_right insert_key firsts] in E.
  exists s, mbig, g, (wfr 1 2 3), r. eexists. exists s', g'. split; [exact Hs|]. split; [exact Hg|]. split; [exact wfr_live|]. split; [reflexivity|].
  split; [exact M|]. split; [exact I|]. split; [exact big_Z|]. split; [exact E|].
  unfold row_of_criteria. cbn [rn]. unfold criteria.
  assert (L : forall (u v : list R) (x y : R), last (u ++ v ++ [x; y]) 0%R = y).
  { intros u v x y. replace (u ++ v ++ [x; y]) with ((u ++ v ++ [x]) ++ [y]) by (rewrite <- !app_assoc; reflexivity). apply last_last. }
  rewrite L. cbn [rn r]. rewrite f32_big. unfold to_long. replace (Int_part (IZR (2 ^ 24))) with (2 ^ 24)%Z; [apply Z2Nat.id; lia|].
  symmetry. rewrite <- (Z2Nat.id (2 ^ 24)) by lia. rewrite <- INR_IZR_INZ. apply Int_part_INR.
Qed.

(* C41: an unmatched point of confidence 0 loses its coordinates when some other point is matched *)
Lemma r_zero_conf : exists s a g fr rows o s' g' a', ReadyToClone RF s a /\ RHist false g false fr /\ live fr /\ full_map a /\
  Forall (in_map a) rows /\ Forall (in_image fr) rows /\ points_once rows /\
  fuse_with_map (Tbl rows) (SigNum 1) true (s, g) = (Ok o, (s', g')) /\ Shows RF (returned o s') a' /\
  real_point a 0 0 /\ unmatched rows 0 0 /\ attr_at a Points 0 0 0 = 5%R /\ attr_at a' Points 0 0 0 = 0%R.
Proof.
  destruct (map_exists _ _ m4_valid) as (s & Hs). destruct w13 as (g & Hg). set (r := mkRow 0 1 0 1).
  assert (M : Forall (in_map m4) [r]) by (constructor; [apply (one_in_map 2); [rect|reflexivity|lia]|constructor]).
  assert (I : Forall (in_image (wfr 1 2 3)) [r]) by (constructor; [apply in_img; lia|constructor]).
  assert (O : points_once [r]) by (unfold points_once; cbn; constructor; [intros []|constructor]).
  destruct (p_fuse s m4 g (wfr 1 2 3) false [r] 1 true Hs Hg wfr_live ltac:(lra) (fun _ => conj m4_full eq_refl) M I O) as (o & s' & g' & a' & E & _ & _ & Sh & HF & _).
  exists s, m4, g, (wfr 1 2 3), [r], o, s', g', a'. split; [exact Hs|]. split; [exact Hg|]. split; [exact wfr_live|]. split; [exact m4_full|].
  split; [exact M|]. split; [exact I|]. split; [exact O|]. split; [exact E|]. split; [exact Sh|].
  split; [split; cbn; [unfold len_view; cbn; lia|unfold npoints; cbn; lia]|].
  assert (U : unmatched [r] 0 0) by (intros h w [H|[]]; discriminate H).
  split; [exact U|]. split; [reflexivity|].
  destruct HF as [_ HF]. destruct (HF 0 ltac:(cbn; lia)) as (_ & _ & H0 & _).
  apply (H0 0); [unfold npoints; cbn; lia|exact U|reflexivity|discriminate|cbn; lia].
Qed.

(* C43: update_map_fusion with inplace=False raises the confidence in the map it was given *)
Lemma r_update_copy : exists s a g fr o s' g' a1, ReadyToClone RF s a /\ RHist false g false fr /\ live fr /\ full_map a /\ fits_float32 a fr /\
  update_map_fusion f32 1 (-1) (SigNum 1) false (s, g) = (Ok (PNew o), (s', g')) /\ Shows RF s a /\ Shows RF s' a1 /\
  (conf a 0 0 < conf a1 0 0)%R.
Proof.
  destruct (map_exists _ _ m1_valid) as (s & Hs). destruct w13 as (g & Hg). destruct m1_seen as (T & HT & Hseen).
  destruct (p_update_copy s m1 g (wfr 1 2 3) false 1 (-1) 1 T Hs Hg wfr_live ltac:(lra) (proj1 m1_full) eq_refl ltac:(discriminate) HT m1_fits)
    as (rows & o & s' & g' & a1 & E & (_ & _ & HCm & HC) & _ & Sh & _ & _ & Hlt).
  exists s, m1, g, (wfr 1 2 3), o, s', g', a1. split; [exact Hs|]. split; [exact Hg|]. split; [exact wfr_live|]. split; [exact (proj1 m1_full)|].
  split; [exact m1_fits|]. split; [exact E|]. split; [apply p_hist_shows, ready_iff, Hs|]. split; [exact Sh|].
  destruct (HC 0 0 0 1) as (n' & Hm & _).
  - split; [unfold len_view; cbn; lia|unfold npoints; cbn; lia].
  - exact Hseen.
  - split.
    + unfold distance, norm, dot. cbn [rsum]. rewrite !wfr_v1 by lia. unfold attr_at, row_at. cbn -[sqrt Rplus Rmult Rminus IZR Rdiv].
      replace (0 + (0 - 0) * (0 - 0) + (wY - wY) * (wY - wY) + (1 - 1) * (1 - 1))%R with 0%R by ring. rewrite sqrt_0. lra.
    + unfold dot. cbn [rsum]. unfold attr_at, row_at. cbn -[Rplus Rmult Rminus IZR Rdiv]. rewrite !Rmult_0_r. lra.
  - assert (n' = 0). { destruct (HCm 0 n' 0 1 Hm) as ([_ Hn] & _). unfold npoints in Hn. cbn in Hn. lia. }
    subst n'. exact (Hlt 0 0 0 1 Hm).
Qed.

(* an empty map *)
Lemma empty_map : exists s, ReadyToClone RF s (no_batch RF).
Proof.
  assert (D : Denotes RF (INone RF) (INone RF) (INone RF) (INone RF) (no_batch RF)) by (left; auto).
  destruct (proj2 (p_accepts RF (INone RF) (INone RF) (INone RF) (INone RF) I I I I) (ex_intro _ _ D)) as (np & Ep).
  eexists. left. exists np. split; [exact (PointcloudsHist.h_new RF (INone RF) (INone RF) (INone RF) (INone RF) _ _ I I I I D Ep)|reflexivity].
Qed.
Lemma wfr_count : length (chosen true (wfr 1 2 3) 0) = 4.
Proof.
  unfold chosen, row_major. cbn -[Rlt_dec INR].
  repeat match goal with |- context [Rlt_dec 0 (INR ?k)] => let H := fresh in destruct (Rlt_dec 0 (INR k)) as [H|H]; cbn [INR] in H; try lra end.
  reflexivity.
Qed.
