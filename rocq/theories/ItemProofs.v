(* Proofs about dataset items (C71-C73). *)
From Coq Require Import Reals ZArith Ascii String List Arith Bool Lia Lra.
From Verif Require Import Res MatSpec TextModel TensorModel LinAlgModel DataUtilsModel ImageModel GeomSpec GeomModel IcpModel DatasetModel
  MatProofs GeomProofs GeomMiscProofs QuatProofs ItemModel ItemSpec.
Import ListNotations.
Local Open Scope nat_scope.

Lemma mapM_Forall2 : forall {A B} (f : A -> res B) l r, Forall2 (fun x y => f x = Ok y) l r -> mapM f l = Ok r.
Proof. intros A B f l r H. induction H; cbn [mapM]; [reflexivity|]. rewrite H. cbn [rbind]. rewrite IHForall2. reflexivity. Qed.
Lemma Forall2_seq : forall {A B} (P : A -> B -> Prop) l r, Forall2 P l r ->
  forall (Q : nat -> B -> Prop), (forall i x y, nth_error l i = Some x -> nth_error r i = Some y -> P x y -> Q i y) -> Forall2 Q (seq 0 (length l)) r.
Proof.
  intros A B P l r H. induction H as [|x y l r Hxy H IH]; intros Q HQ; cbn [length seq]; constructor.
  - exact (HQ 0 x y eq_refl eq_refl Hxy).
  - rewrite <- seq_shift. specialize (IH (fun i => Q (S i))). 
    assert (K : Forall2 (fun i => Q (S i)) (seq 0 (length l)) r) by (apply IH; intros i a b Ha Hb; exact (HQ (S i) a b Ha Hb)).
    clear - K. revert K. generalize (seq 0 (length l)). intros s K. induction K; cbn [map]; constructor; assumption.
Qed.
Lemma nth_error_item : forall {A} (l : list A) i x, nth_error l i = Some x -> item l i = Ok x.
Proof. intros A l i x H. unfold item. rewrite H. reflexivity. Qed.
Lemma Forall2_len : forall {A B} (P : A -> B -> Prop) l r, Forall2 P l r -> length l = length r.
Proof. intros A B P l r H. induction H; cbn; congruence. Qed.
Lemma Forall2_nth : forall {A B} (P : A -> B -> Prop) l r, Forall2 P l r -> forall i x, nth_error l i = Some x -> exists y, nth_error r i = Some y /\ P x y.
Proof. intros A B P l r H. induction H; intros [|i] z E; cbn in E; try discriminate; [injection E as <-; exists y; auto|exact (IHForall2 i z E)]. Qed.
Lemma Forall2_nth_r : forall {A B} (P : A -> B -> Prop) l r, Forall2 P l r -> forall i y, nth_error r i = Some y -> exists x, nth_error l i = Some x /\ P x y.
Proof. intros A B P l r H. induction H; intros [|i] z E; cbn in E; try discriminate; [injection E as <-; exists x; auto|exact (IHForall2 i z E)]. Qed.

Lemma Forall2_nth_intro : forall {A B} (P : A -> B -> Prop) n l r, length l = n -> length r = n ->
  (forall i x y, nth_error l i = Some x -> nth_error r i = Some y -> P x y) -> Forall2 P l r.
Proof.
  intros A B P n l. revert n. induction l as [|a l IH]; intros n [|b r] L1 L2 H; cbn in *; try (constructor || lia).
  - exact (H 0 a b eq_refl eq_refl).
  - apply (IH (length l)); [reflexivity|lia|]. intros i x y Ex Ey. exact (H (S i) x y Ex Ey).
Qed.
Lemma Forall2_impl' : forall {A B} (P Q : A -> B -> Prop), (forall a b, P a b -> Q a b) -> forall l r, Forall2 P l r -> Forall2 Q l r.
Proof. intros A B P Q H l r F. induction F; constructor; auto. Qed.
Lemma pyitem_nat : forall {A} (l : list A) i x, nth_error l i = Some x -> pyitem l (Z.of_nat i) = Ok x.
Proof.
  intros A l i x H. unfold pyitem. replace (Z.of_nat i <? 0)%Z with false by (symmetry; apply Z.ltb_ge; lia). cbv zeta.
  replace (Z.of_nat i <? 0)%Z with false by (symmetry; apply Z.ltb_ge; lia). rewrite Nat2Z.id. now apply nth_error_item.
Qed.

(* torch.stack *)
Lemma stack_ok : forall l d, l <> [] -> Forall (fun y => dims y = d) l ->
  exists s, stack_0 l = Ok s /\ dims s = d ++ [length l] /\ forall f x ix, nth_error l f = Some x -> at_ s (ix ++ [f]) = at_ x ix.
Proof.
  intros [|x l] d H F; [contradiction|]. clear H. unfold stack_0.
  assert (Dx : dims x = d) by (inversion F; assumption).
  replace (forallb _ (x :: l)) with true.
  2:{ symmetry. apply forallb_forall. intros y Hy. rewrite Forall_forall in F. rewrite (F y Hy), Dx. destruct (list_eq_dec Nat.eq_dec d d); [reflexivity|contradiction]. }
  eexists. split; [reflexivity|]. cbn [dims at_]. rewrite Dx. split; [reflexivity|].
  intros f y ix E. rewrite last_last, removelast_last. rewrite (nth_error_nth _ _ _ E). reflexivity.
Qed.
Lemma stack_nil : stack_0 [] = Err RuntimeError. Proof. reflexivity. Qed.

(* ---------------- images *)
Definition pix1 (c : conf) (x : ten R) (i j k : nat) : R := if c_first c then at_ x [j; i; k] else at_ x [k; j; i].
Definition img_dims (c : conf) (ch : nat) : list nat := if c_first c then [c_width c; c_height c; ch] else [ch; c_width c; c_height c].
Lemma pre_color_ok : forall rnd o c x W H, linear_ok o -> 0 < c_width c -> 0 < c_height c -> 0 < W -> 0 < H -> dims x = [3; W; H] ->
  exists r y, cv_linear o (c_width c) (c_height c) x = Ok r /\ preprocess_color rnd o c x = Ok y /\ dims y = img_dims c 3 /\
    forall i j k, pix1 c y i j k = (if c_norm c then rnd (at_ r [k; j; i] / 255)%R else at_ r [k; j; i]).
Proof.
  intros rnd o c x W H Lo w h HW HH D. destruct (Lo _ _ x W H 3 w h HW HH D) as (r & Er & Dr & _).
  exists r. unfold preprocess_color, pix1, img_dims. rewrite Er. cbn [rbind].
  destruct (c_norm c), (c_first c); cbn [normalize_image channels_first rbind dims]; rewrite ?Dr; eexists; (split; [reflexivity|split; [reflexivity|split; [cbn [dims]; rewrite ?Dr; reflexivity|intros; reflexivity]]]).
Qed.
Lemma pre_depth_ok : forall o c sc x W H, nearest_ok o -> 0 < c_width c -> 0 < c_height c -> 0 < W -> 0 < H -> dims x = [W; H] ->
  exists r y, cv_nearest o (c_width c) (c_height c) x = Ok r /\ preprocess_depth o c sc x = Ok y /\ dims y = img_dims c 1 /\
    forall i j, pix1 c y i j 0 = (at_ r [j; i] / sc)%R.
Proof.
  intros o c sc x W H Lo w h HW HH D. destruct (Lo _ _ x W H w h HW HH D) as (r & Er & Dr & _).
  exists r. unfold preprocess_depth, pix1, img_dims. rewrite Er. cbn [rbind].
  destruct (c_first c); cbn [channels_first rbind dims unsqueeze_m1]; rewrite ?Dr; eexists; (split; [reflexivity|split; [reflexivity|split; [cbn [dims tmap unsqueeze_m1]; rewrite ?Dr; reflexivity|intros; reflexivity]]]).
Qed.

Lemma read_frames_ok : forall rnd o c sc cp dp W H xs ys,
  linear_ok o -> nearest_ok o -> 0 < c_width c -> 0 < c_height c -> 0 < W -> 0 < H ->
  color_files o W H cp xs -> (c_depth c = true -> depth_files o W H dp ys) -> (c_depth c = true -> length dp = length cp) ->
  exists cs ds, read_frames rnd o c sc (length cp) cp dp = Ok (cs, ds) /\
    Forall2 (fun x y => preprocess_color rnd o c x = Ok y) xs cs /\
    (c_depth c = true -> Forall2 (fun x y => preprocess_depth o c sc x = Ok y) ys ds).
Proof.
  intros rnd o c sc cp dp W H xs ys Lo No w h HW HH HC HD HL.
  assert (EC : exists cs, Forall2 (fun x y => preprocess_color rnd o c x = Ok y) xs cs).
  { clear HD HL. induction HC as [|p x cp xs [_ Dx] _ IH]; [exists []; constructor|].
    destruct IH as (cs & IH). destruct (pre_color_ok rnd o c x W H Lo w h HW HH Dx) as (r & y & _ & Ey & _). exists (y :: cs). constructor; assumption. }
  destruct EC as (cs & EC).
  destruct (c_depth c) eqn:Cd.
  - specialize (HD eq_refl). specialize (HL eq_refl).
    assert (ED : exists ds, Forall2 (fun x y => preprocess_depth o c sc x = Ok y) ys ds).
    { clear HL. induction HD as [|p x dp ys [_ Dx] _ IH]; [exists []; constructor|].
      destruct IH as (ds & IH). destruct (pre_depth_ok o c sc x W H No w h HW HH Dx) as (r & y & _ & Ey & _). exists (y :: ds). constructor; assumption. }
    destruct ED as (ds & ED). exists cs, ds. split; [|split; [exact EC|intros _; exact ED]].
    assert (Lx : length cp = length xs) by (eapply Forall2_len; exact HC).
    assert (Ly : length dp = length ys) by (eapply Forall2_len; exact HD).
    assert (Lc : length xs = length cs) by (eapply Forall2_len; exact EC).
    assert (Ld : length ys = length ds) by (eapply Forall2_len; exact ED).
    unfold read_frames. rewrite (mapM_Forall2 _ _ (map (fun p => (fst p, [snd p])) (combine cs ds))).
    + cbn [rbind]. f_equal. f_equal.
      * rewrite map_map. cbn [fst]. clear - Lx Ly Lc Ld HL. assert (E : length cs = length ds) by congruence. clear - E. revert ds E. induction cs as [|a cs IH]; intros [|b ds] E; cbn in E; try discriminate; [reflexivity|]. cbn. f_equal. apply IH. congruence.
      * rewrite map_map. cbn [snd]. assert (E : length cs = length ds) by congruence. clear - E. revert ds E. induction cs as [|a cs IH]; intros [|b ds] E; cbn in E; try discriminate; [reflexivity|]. cbn. f_equal. apply IH. congruence.
    + assert (LL : length cp = length (map (fun p : ten R * ten R => (fst p, [snd p])) (combine cs ds))).
      { rewrite map_length, combine_length. replace (length ds) with (length cs) by congruence. rewrite Nat.min_id. congruence. }
      eapply (Forall2_seq (fun p q => True)).
      { clear - LL. revert LL. generalize (map (fun p : ten R * ten R => (fst p, [snd p])) (combine cs ds)). intros l. revert cp. induction l; intros [|b cp] E; cbn in E; try discriminate; constructor; [exact I|]. apply IHl. congruence. }
      intros i p q Ep Eq _. cbv beta. rewrite (nth_error_item _ _ _ Ep). cbn [rbind].
      destruct (Forall2_nth _ _ _ HC i p Ep) as (x & Ex & Rx & _). rewrite Rx. cbn [rbind].
      destruct (Forall2_nth _ _ _ EC i x Ex) as (y & Ey & Py). rewrite Py. cbn [rbind].
      assert (Hi : i < length dp) by (rewrite HL; apply nth_error_Some; congruence).
      destruct (nth_error dp i) as [p'|] eqn:Ep'; [|apply nth_error_None in Ep'; lia].
      rewrite (nth_error_item _ _ _ Ep'). cbn [rbind].
      destruct (Forall2_nth _ _ _ HD i p' Ep') as (x' & Ex' & Rx' & _). rewrite Rx'. cbn [rbind].
      destruct (Forall2_nth _ _ _ ED i x' Ex') as (y' & Ey' & Py'). rewrite Py'. cbn [rbind].
      rewrite nth_error_map in Eq. destruct (nth_error (combine cs ds) i) as [[a b]|] eqn:E2; cbn in Eq; [|discriminate]. injection Eq as <-.
      assert (K : forall l1 l2 (a b : ten R), nth_error (combine l1 l2) i = Some (a, b) -> nth_error l1 i = Some a /\ nth_error l2 i = Some b).
      { clear. induction i; intros [|? l1] [|? l2] a b; cbn; try discriminate; [intros E; injection E as <- <-; auto|apply IHi]. }
      destruct (K _ _ _ _ E2) as [Ka Kb]. rewrite Ey in Ka. rewrite Ey' in Kb. injection Ka as <-. injection Kb as <-. rewrite Cd. reflexivity.
  - exists cs, []. split; [|split; [exact EC|discriminate]].
    assert (Lx : length cp = length xs) by (eapply Forall2_len; exact HC).
    assert (Lc : length xs = length cs) by (eapply Forall2_len; exact EC).
    unfold read_frames. rewrite Cd. rewrite (mapM_Forall2 _ _ (map (fun p => (p, [])) cs)).
    + cbn [rbind]. f_equal. f_equal.
      * rewrite map_map. cbn [fst]. now rewrite map_id.
      * rewrite map_map. cbn [snd]. clear. induction cs; [reflexivity|exact IHcs].
    + eapply (Forall2_seq (fun p q => True)).
      { assert (LL : length cp = length (map (fun p : ten R => (p, @nil (ten R))) cs)) by (rewrite map_length; congruence).
        clear - LL. revert LL. generalize (map (fun p : ten R => (p, @nil (ten R))) cs). intros l. revert cp. induction l; intros [|b cp] E; cbn in E; try discriminate; constructor; [exact I|]. apply IHl. congruence. }
      intros i p q Ep Eq _. cbv beta. rewrite (nth_error_item _ _ _ Ep). cbn [rbind].
      destruct (Forall2_nth _ _ _ HC i p Ep) as (x & Ex & Rx & _). rewrite Rx. cbn [rbind].
      destruct (Forall2_nth _ _ _ EC i x Ex) as (y & Ey & Py). rewrite Py. cbn [rbind].
      rewrite nth_error_map, Ey in Eq. cbn in Eq. injection Eq as <-. reflexivity.
Qed.

Lemma color_stack : forall rnd o c W H xs cs, linear_ok o -> 0 < c_width c -> 0 < c_height c -> 0 < W -> 0 < H -> xs <> [] ->
  Forall (fun x => dims x = [3; W; H]) xs -> Forall2 (fun x y => preprocess_color rnd o c x = Ok y) xs cs ->
  exists t, stack_0 cs = Ok t /\ color_out rnd o c xs t.
Proof.
  intros rnd o c W H xs cs Lo w h HW HH N D F.
  assert (L : length xs = length cs) by (eapply Forall2_len; exact F).
  destruct (stack_ok cs (img_dims c 3)) as (s & Es & Ds & As).
  { destruct xs; [contradiction|]. destruct cs; [discriminate|discriminate]. }
  { clear N L. induction F as [|x y xs cs Hy F IH]; [constructor|]. inversion D; subst. constructor; [|auto].
    destruct (pre_color_ok rnd o c x W H Lo w h HW HH H2) as (r & y' & _ & E & Dy & _). congruence. }
  exists s. split; [exact Es|]. split.
  - unfold shape. rewrite Ds. unfold img_dims, image_shape. destruct (c_first c); cbn; congruence.
  - intros f x E. destruct (Forall2_nth _ _ _ F f x E) as (y & Ey & Py).
    rewrite Forall_forall in D. destruct (pre_color_ok rnd o c x W H Lo w h HW HH (D x (nth_error_In _ _ E))) as (r & y' & Er & E' & _ & P).
    assert (y' = y) by congruence. subst y'. exists r. split; [exact Er|]. intros i j k. rewrite <- P. unfold pixel, pix1.
    destruct (c_first c); [change [j; i; k; f] with ([j; i; k] ++ [f])|change [k; j; i; f] with ([k; j; i] ++ [f])]; apply As, Ey.
Qed.
Lemma depth_stack : forall o c sc W H xs cs, nearest_ok o -> 0 < c_width c -> 0 < c_height c -> 0 < W -> 0 < H -> xs <> [] ->
  Forall (fun x => dims x = [W; H]) xs -> Forall2 (fun x y => preprocess_depth o c sc x = Ok y) xs cs ->
  exists t, stack_0 cs = Ok t /\ depth_out o c sc xs t.
Proof.
  intros o c sc W H xs cs Lo w h HW HH N D F.
  assert (L : length xs = length cs) by (eapply Forall2_len; exact F).
  destruct (stack_ok cs (img_dims c 1)) as (s & Es & Ds & As).
  { destruct xs; [contradiction|]. destruct cs; [discriminate|discriminate]. }
  { clear N L. induction F as [|x y xs cs Hy F IH]; [constructor|]. inversion D; subst. constructor; [|auto].
    destruct (pre_depth_ok o c sc x W H Lo w h HW HH H2) as (r & y' & _ & E & Dy & _). congruence. }
  exists s. split; [exact Es|]. split.
  - unfold shape. rewrite Ds. unfold img_dims, image_shape. destruct (c_first c); cbn; congruence.
  - intros f x E. destruct (Forall2_nth _ _ _ F f x E) as (y & Ey & Py).
    rewrite Forall_forall in D. destruct (pre_depth_ok o c sc x W H Lo w h HW HH (D x (nth_error_In _ _ E))) as (r & y' & Er & E' & _ & P).
    assert (y' = y) by congruence. subst y'. exists r. split; [exact Er|]. intros i j. rewrite <- P. unfold pixel, pix1.
    destruct (c_first c); [change [j; i; 0; f] with ([j; i; 0] ++ [f])|change [0; j; i; f] with ([0; j; i] ++ [f])]; apply As, Ey.
Qed.

(* ---------------- poses *)
Lemma pose_stack : forall (ps : list (ten R)) (ms : list mat), ms <> [] -> Forall2 (fun p m => dims p = [4; 4] /\ forall i j, at_ p [j; i] = m i j) ps ms -> Forall pose_ok ms ->
  exists s x, stack_0 ps = Ok s /\ preprocess_poses s = Ok x /\ pose_seq ms x.
Proof.
  intros ps ms N F HP.
  assert (L : length ps = length ms) by (eapply Forall2_len; exact F).
  destruct (stack_ok ps [4; 4]) as (s & Es & Ds & As).
  { destruct ms; [contradiction|]. destruct ps; discriminate. }
  { clear - F. induction F as [|p m ps ms [D _] F IH]; constructor; assumption. }
  exists s. cbn [app] in Ds. unfold preprocess_poses, select_first, size_0, shape. rewrite Ds, L. cbn [rev app].
  destruct (length ms) as [|n] eqn:Ln; [destruct ms; [contradiction|discriminate]|]. cbn [rbind dims at_ rev app]. rewrite L in Ds.
  set (s0 := mkTen [4; 4; S n] _).
  assert (Es' : forall f m, nth_error ms f = Some m -> forall i j, ent s [f] i j = m i j).
  { intros f m E i j. destruct (Forall2_nth_r _ _ _ F f m E) as (p & Ep & _ & A). rewrite <- A. unfold ent.
    change [j; i; f] with ([j; i] ++ [f]). apply As, Ep. }
  assert (E0 : nth_error ms 0 = Some (nth 0 ms mI)) by (destruct ms; [discriminate|reflexivity]).
  assert (Es0 : forall f i j, ent s0 [f] i j = nth 0 ms mI i j).
  { intros f i j. unfold ent, s0. cbn [at_ removelast app]. apply (Es' 0 _ E0). }
  rewrite Forall_forall in HP.
  destruct (p_relative_transformation s0 s [S n] false) as (x & Hx & Dx & Px).
  { cbn; lia. } { reflexivity. } { exact Ds. }
  { intros r Hr. destruct r as [|f [|]]; cbn in Hr; try tauto. destruct Hr as [Hf _].
    destruct (nth_error ms f) as [m|] eqn:Em; [|apply nth_error_None in Em; lia].
    destruct (HP m (nth_error_In _ _ Em)) as [A _]. destruct (HP _ (nth_error_In _ _ E0)) as [A0 D0].
    split; [|split].
    - eapply affine_ext; [|exact A0]. intros i j _ _. symmetry. apply Es0.
    - eapply affine_ext; [|exact A]. intros i j _ _. symmetry. apply Es', Em.
    - rewrite (det3_ext _ (nth 0 ms mI)); [exact D0|]. intros i j _ _. apply Es0. }
  exists x. split; [exact Es|]. split; [exact Hx|]. unfold pose_seq, shape. rewrite Dx, Ln. split; [reflexivity|].
  assert (K : forall f m, nth_error ms f = Some m -> vix [S n] [f] /\ meq 4 4 (ent s [f]) m).
  { intros f m E. split; [cbn; split; [|exact I]; rewrite <- Ln; apply nth_error_Some; congruence|]. intros i j _ _. apply Es', E. }
  assert (M0 : forall f, meq 4 4 (ent s0 [f]) (nth 0 ms mI)) by (intros f i j _ _; apply Es0).
  split.
  - destruct (K 0 _ E0) as [V M]. destruct (Px [0] V) as (_ & _ & U & _). apply meq_sym, U.
    + unfold affine4, mI, delta; cbn; repeat split.
    + eapply meq_trans; [apply mmul_I_r|]. eapply meq_trans; [apply M0|]. apply meq_sym, M.
  - intros f m E. destruct (K f m E) as [V M]. destruct (Px [f] V) as (A & P & _ & R).
    split; [exact A|]. split.
    + eapply meq_trans; [|exact M]. eapply meq_trans; [|exact P]. apply mmul_ext; [apply meq_sym, M0|apply meq_refl].
    + intros R0 Rm. apply R; [eapply rigid_ext; [apply meq_sym, M0|exact R0]|eapply rigid_ext; [apply meq_sym, M|exact Rm]].
Qed.
Lemma running_nth : forall l T i x y z, nth_error (T :: running T l) i = Some x -> nth_error l i = Some y -> nth_error (running T l) i = Some z -> z = mmul 4 x y.
Proof.
  induction l as [|a l IH]; intros T i x y z Hx Hy Hz; [destruct i; discriminate|].
  destruct i as [|i]; cbn [nth_error running] in *; [congruence|]. exact (IH _ i x y z Hx Hy Hz).
Qed.
Lemma trans_stack : forall (ms : list mat), ms <> [] -> Forall pose_ok ms ->
  exists t x, poses_to_transforms ms = Ok t /\ stack_0 (map mat_ten t) = Ok x /\ transform_seq ms x.
Proof.
  intros [|p ps] N HP; [contradiction|]. apply Forall_cons_iff in HP. destruct HP as [Hp HP].
  destruct (p_poses_to_transforms p ps Hp HP) as (l & El & Ll & HR).
  exists (mI :: l).
  destruct (stack_ok (map mat_ten (mI :: l)) [4; 4]) as (x & Ex & Dx & Ax); [discriminate| |].
  { apply Forall_forall. intros y Hy. apply in_map_iff in Hy. destruct Hy as (m & <- & _). reflexivity. }
  exists x. split; [exact El|]. split; [exact Ex|].
  assert (At : forall f m, nth_error (mI :: l) f = Some m -> forall i j, ent x [f] i j = m i j).
  { intros f m E i j. unfold ent. change [j; i; f] with ([j; i] ++ [f]). rewrite (Ax f (mat_ten m)); [reflexivity|]. rewrite nth_error_map, E. reflexivity. }
  unfold transform_seq, shape. rewrite Dx. rewrite map_length. cbn [length]. rewrite Ll. split; [reflexivity|]. split.
  - intros i j _ _. apply (At 0). reflexivity.
  - intros i m m' E E'.
    destruct (Forall2_nth_r _ _ _ HR (S i) m' E') as (z & Ez & Mz).
    destruct (Forall2_nth_r _ _ _ HR i m E) as (z0 & Ez0 & Mz0).
    assert (exists y, nth_error l i = Some y) as (y & Ey).
    { destruct (nth_error l i) eqn:Q; [eexists; reflexivity|]. apply nth_error_None in Q. rewrite Ll in Q. cbn in E'. apply nth_error_None in Q. congruence. }
    cbn [running] in Ez, Ez0. 
    assert (z = mmul 4 z0 y) by (eapply running_nth; [exact Ez0|exact Ey|exact Ez]). subst z.
    eapply meq_trans; [|exact Mz]. apply mmul_ext; [apply meq_sym, Mz0|]. intros a b _ _. apply (At (S i)). exact Ey.
Qed.

Lemma pose_ok_cancel : forall P A B, pose_ok P -> meq 4 4 (mmul 4 P A) (mmul 4 P B) -> meq 4 4 A B.
Proof.
  intros P A B [HA Hd] H. destruct (np_inv_ok P HA Hd) as (I & _ & _ & HI).
  assert (K : forall X, meq 4 4 (mmul 4 I (mmul 4 P X)) X).
  { intros X. eapply meq_trans; [|apply mmul_I_l]. eapply meq_trans; [|apply mmul_ext; [exact HI|apply meq_refl]]. intros i j _ _. symmetry. apply mmul_assoc. }
  eapply meq_trans; [apply meq_sym, K|]. eapply meq_trans; [|apply K]. apply mmul_ext; [apply meq_refl|exact H].
Qed.
Lemma seqs_chained : forall ms pose trans, ms <> [] -> Forall pose_ok ms -> pose_seq ms pose -> transform_seq ms trans -> chained (length ms) pose trans.
Proof.
  intros ms pose trans N HP (_ & P0 & P) (_ & T0 & T). split; [eapply meq_trans; [exact P0|apply meq_sym, T0]|].
  intros i Hi. destruct (nth_error ms i) as [m|] eqn:E; [|apply nth_error_None in E; lia].
  destruct (nth_error ms (S i)) as [m'|] eqn:E'; [|apply nth_error_None in E'; lia].
  destruct (P i m E) as (_ & Pi & _). destruct (P (S i) m' E') as (_ & Pi' & _). specialize (T i m m' E E').
  apply (pose_ok_cancel (nth 0 ms mI)).
  - destruct ms; [contradiction|]. now inversion HP.
  - eapply meq_trans; [|apply meq_sym, Pi']. eapply meq_trans; [|exact T].
    eapply meq_trans; [intros a b _ _; symmetry; apply mmul_assoc|]. apply mmul_ext; [exact Pi|apply meq_refl].
Qed.

(* ---------------- the outputs *)
Definition mats_of (ps : list (ten R)) (ms : list mat) : Prop := Forall2 (fun p m => dims p = [4; 4] /\ forall i j, at_ p [j; i] = m i j) ps ms.
Lemma mats_of_map : forall ms, mats_of (map mat_ten ms) ms.
Proof. induction ms; constructor; [split; reflexivity|exact IHms]. Qed.
Lemma pose_outputs_ok : forall c ps ms, (c_pose c || c_trans c = true -> ms <> [] /\ mats_of ps ms /\ Forall pose_ok ms) ->
  exists a b, pose_outputs c ps ms = Ok (when (c_pose c) (OTen a) ++ when (c_trans c) (OTen b)) /\
    (c_pose c = true -> pose_seq ms a) /\ (c_trans c = true -> transform_seq ms b).
Proof.
  intros c ps ms H. unfold pose_outputs.
  assert (EA : exists a, (if c_pose c then let? s := stack_0 ps in let? s := preprocess_poses s in Ok [OTen s] else Ok []) = Ok (when (c_pose c) (OTen a)) /\ (c_pose c = true -> pose_seq ms a)).
  { destruct (c_pose c).
    - destruct (H eq_refl) as (N & F & P). destruct (pose_stack ps ms N F P) as (s & x & Es & Ex & K). exists x. rewrite Es. cbn [rbind]. rewrite Ex. split; [reflexivity|intros _; exact K].
    - exists (mkTen [] (fun _ => 0%R)). split; [reflexivity|discriminate]. }
  destruct EA as (a & Ea & Ka). rewrite Ea. cbn [rbind].
  assert (EB : exists b, (if c_trans c then let? t := poses_to_transforms ms in let? s := stack_0 (map mat_ten t) in Ok [OTen s] else Ok []) = Ok (when (c_trans c) (OTen b)) /\ (c_trans c = true -> transform_seq ms b)).
  { destruct (c_trans c).
    - rewrite orb_true_r in H. destruct (H eq_refl) as (N & F & P). destruct (trans_stack ms N P) as (s & x & Es & Ex & K). exists x. rewrite Es. cbn [rbind]. rewrite Ex. split; [reflexivity|intros _; exact K].
    - exists (mkTen [] (fun _ => 0%R)). split; [reflexivity|discriminate]. }
  destruct EB as (b & Eb & Kb). rewrite Eb. cbn [rbind]. exists a, b. split; [reflexivity|]. split; assumption.
Qed.
Lemma on_ok : forall b r x, (b = true -> r = Ok x) -> on b r = Ok (when b x).
Proof. intros [] r x H; [rewrite (H eq_refl); reflexivity|reflexivity]. Qed.
Lemma intrinsics_ok : forall c K fx fy cx cy, dims K = [4; 4] -> meq 4 4 (ent K []) (pinhole fx fy cx cy 0) ->
  exists k, item_intrinsics c K = Ok k /\
    camera (fx * (INR (c_width c) / 640)) (fy * (INR (c_height c) / 480)) (cx * (INR (c_width c) / 640)) (cy * (INR (c_height c) / 480)) k.
Proof.
  intros c K fx fy cx cy D E. unfold item_intrinsics.
  destruct (p_scale_entries K (INR (c_height c) / 480) (INR (c_width c) / 640) 4 [] (or_intror eq_refl) D) as (K' & EK & DK & PK).
  rewrite EK. cbn [rbind]. eexists. split; [reflexivity|]. unfold camera, shape, unsqueeze_0. cbn [dims]. rewrite DK, D. split; [reflexivity|].
  intros i j Hi Hj. unfold ent. cbn [at_]. unfold ndim. rewrite DK, D. cbn [length firstn]. change (at_ K' [j; i]) with (ent K' [] i j).
  rewrite (PK [] i j Hi Hj). rewrite (E i j Hi Hj).
  destruct i as [|[|[|[|i]]]]; try lia; destruct j as [|[|[|[|j]]]]; try lia; cbn [pinhole]; lra.
Qed.
Lemma K_of_camera : forall fx fy cx cy, dims (K_of fx fy cx cy) = [4; 4] /\ meq 4 4 (ent (K_of fx fy cx cy) []) (pinhole fx fy cx cy 0).
Proof. intros. split; [reflexivity|]. intros i j Hi Hj. destruct i as [|[|[|[|i]]]]; try lia; destruct j as [|[|[|[|j]]]]; try lia; reflexivity. Qed.

Lemma homogen_ok : forall pq, Forall quat_line pq -> exists ms, homogen_poses pq = Ok ms /\ Forall2 quat_pose pq ms.
Proof.
  intros pq H. unfold homogen_poses.
  assert (E : exists ms, Forall2 (fun q m => (let? m := pointquaternion_to_homogeneous (vec_ten q) (/ 10 ^ 12)%R in Ok (ent m [])) = Ok m /\ quat_pose q m) pq ms).
  { induction H as [|q pq (tx & ty & tz & x & y & z & w & -> & Q) _ IH]; [exists []; constructor|]. destruct IH as (ms & IH).
    destruct (p_pq (vec_ten [tx; ty; tz; x; y; z; w]) (/ 10 ^ 12) []) as (M & EM & DM & PM).
    { apply Rinv_0_lt_compat, pow_lt. lra. } { reflexivity. }
    assert (V : vix [] []) by exact I.
    destruct (PM [] V) as (R1 & R2 & R3).
    { unfold dot. cbn [rsum]. unfold comp, vec_ten. cbn [at_ nth Nat.add].
      assert (B : (2 * / 10 ^ 12 * / 10 ^ 12 <= / 10 ^ 20)%R).
      { apply (Rmult_le_reg_r (10 ^ 24)); [apply pow_lt; lra|]. replace (10 ^ 24)%R with (10 ^ 12 * 10 ^ 12)%R by (rewrite <- pow_add; f_equal).
        replace (2 * / 10 ^ 12 * / 10 ^ 12 * (10 ^ 12 * 10 ^ 12))%R with 2%R by (field; apply pow_nonzero; lra).
        replace (10 ^ 12 * 10 ^ 12)%R with (10 ^ 20 * 10 ^ 4)%R by (rewrite <- !pow_add; f_equal).
        replace (/ 10 ^ 20 * (10 ^ 20 * 10 ^ 4))%R with (10 ^ 4)%R by (field; apply pow_nonzero; lra). lra. }
      lra. }
    exists (ent M [] :: ms). constructor; [|exact IH]. split; [rewrite EM; reflexivity|].
    exists tx, ty, tz, x, y, z, w. split; [reflexivity|]. split; [apply R1|]. split.
    - intros i Hi. rewrite (R2 i Hi). destruct i as [|[|[|i]]]; try lia; reflexivity.
    - split; [|exact R1]. eapply meq_trans; [exact R3|].
      intros i j _ _. unfold rot_of_quat, norm, dot. cbn [rsum]. unfold comp, vec_ten. cbn [at_ nth Nat.add]. reflexivity. }
  destruct E as (ms & E). exists ms. split.
  - apply mapM_Forall2. eapply Forall2_impl'; [|exact E]. intros a b [K _]. exact K.
  - eapply Forall2_impl'; [|exact E]. intros a b [_ K]. exact K.
Qed.
