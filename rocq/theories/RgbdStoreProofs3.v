(* Indexing, reads, setters, conversions at the storage level. *)
From Coq Require Import Reals List Arith Bool ZArith Lia.
From Verif Require Import Res TensorModel RgbdModel RgbdStoreModel RgbdStoreSpec RgbdStoreProofs RgbdStoreProofs2.
From Verif Require StoreModel.
Import ListNotations.
Local Open Scope nat_scope.

Lemma vtake_take kb kl s o :
  r_poses o = None -> r_pix o = None -> r_vm o = None -> r_nm o = None -> r_gvm o = None -> r_gnm o = None ->
  vtake (take_BL kb kl) s slots_rest o =
  (let? p := take_opt kb kl (r_poses s) in
   let? px := take_opt kb kl (r_pix s) in
   let? vm := take_opt kb kl (r_vm s) in
   let? nm := take_opt kb kl (r_nm s) in
   let? gvm := take_opt kb kl (r_gvm s) in
   let? gnm := take_opt kb kl (r_gnm s) in
   Ok (with_maps vm nm gvm gnm (with_pix px (with_poses p o)))).
Proof.
  destruct o as [cf a b c p x vm nm gvm gnm m sh1 sh2 sh3 sh4 B L H W]. cbn [r_poses r_pix r_vm r_nm r_gvm r_gnm].
  intros -> -> -> -> -> ->. unfold slots_rest, vtake, field, take_opt.
  destruct (r_poses s) as [x1|]; [destruct (take_BL kb kl x1); [|reflexivity]|];
  (destruct (r_pix s) as [x2|]; [destruct (take_BL kb kl x2); [|reflexivity]|]);
  (destruct (r_vm s) as [x3|]; [destruct (take_BL kb kl x3); [|reflexivity]|]);
  (destruct (r_nm s) as [x4|]; [destruct (take_BL kb kl x4); [|reflexivity]|]);
  (destruct (r_gvm s) as [x5|]; [destruct (take_BL kb kl x5); [|reflexivity]|]);
  (destruct (r_gnm s) as [x6|]; [destruct (take_BL kb kl x6); [|reflexivity]|]); reflexivity.
Qed.

Section Q.
Variable Q : nat -> Prop.
Variable n : nat.
Hypothesis Qn : forall l, n <= l -> Q l.
Notation okr := (okr Q).
Notation ok := (ok Q).

Lemma simk_guard {A B} h o b e (k : unit -> M (iheap * iobj) A) (k' : unit -> res B) post :
  (b = true -> simk h o (k tt) (k' tt) post) -> simk h o (mbind (lift (guard b e)) k) (rbind (guard b e) k') post.
Proof. intros H. apply simk_lift. intros []. unfold guard. destruct b; [auto|discriminate]. Qed.

Lemma igetitem_sim d h o ix : n <= length h -> ok d h o ->
  simk h o (igetitem ix) (rgbd_getitem ix (iabs h o)) (fun c h' s => iabs h' c = s /\ ok d h' c).
Proof.
  intros L Oo. destruct Oo as (Od & Ot & Om).
  assert (Body : forall e : res (ielem * ielem),
    simk h o (do e <- lift e;
      do o <- geto;
      match o_t o SRgb with
      | None => raise TypeError
      | Some rgb =>
          do kb <- lift (elem_pos (fst e) (o_B o));
          do kl <- lift (elem_pos (snd e) (o_L o));
          do new_rgb <- onh (view_ref (take_BL kb kl) rgb);
          do _ <- lift (guard (negb (length kb =? 0)) IndexError);
          do _ <- lift (guard (negb (length kl =? 0)) IndexError);
          match o_t o SDepth with
          | None => raise TypeError
          | Some depth =>
              do new_depth <- onh (view_ref (take_BL kb kl) depth);
              match o_t o SIntr with
              | None => raise TypeError
              | Some intr =>
                  do new_intr <- onh (view_ref (take_BL kb [0]) intr);
                  do other <- onh (inew (ATen new_rgb) (ATen new_depth) (ATen new_intr) ANone (o_cf o) ANone None);
                  onh (take_slots (view_ref (take_BL kb kl)) o slots_rest other)
              end
          end
      end)
     (let s := iabs h o in
      let? (e0, e1) := e in
      match r_rgb s with
      | None => Err TypeError
      | Some rgb =>
          let? kb := elem_pos e0 (r_B s) in
          let? kl := elem_pos e1 (r_L s) in
          let? new_rgb := take_BL kb kl rgb in
          guard (negb (length kb =? 0)) IndexError ;;?
          guard (negb (length kl =? 0)) IndexError ;;?
          match r_depth s with
          | None => Err TypeError
          | Some depth =>
              let? new_depth := take_BL kb kl depth in
              match r_intr s with
              | None => Err TypeError
              | Some intr =>
                  let? new_intr := take_BL kb [0] intr in
                  let? o := rgbd_new (TTen new_rgb) (TTen new_depth) (TTen new_intr) TNone (r_cf s) TNone in
                  let? p := take_opt kb kl (r_poses s) in
                  let? px := take_opt kb kl (r_pix s) in
                  let? vm := take_opt kb kl (r_vm s) in
                  let? nm := take_opt kb kl (r_nm s) in
                  let? gvm := take_opt kb kl (r_gvm s) in
                  let? gnm := take_opt kb kl (r_gnm s) in
                  Ok (with_maps vm nm gvm gnm (with_pix px (with_poses p o)))
              end
          end
      end) (fun c h' s => iabs h' c = s /\ ok d h' c)).
  { intros e. cbv zeta. apply simk_lift. intros [e0 e1] _. cbn [fst snd]. apply simk_geto.
    change (r_rgb (iabs h o)) with (option_map (rread h) (o_t o SRgb)).
    change (r_depth (iabs h o)) with (option_map (rread h) (o_t o SDepth)).
    change (r_intr (iabs h o)) with (option_map (rread h) (o_t o SIntr)).
    change (r_B (iabs h o)) with (o_B o). change (r_L (iabs h o)) with (o_L o). change (r_cf (iabs h o)) with (o_cf o).
    destruct (o_t o SRgb) as [a|] eqn:Ea; [|apply simk_raise]. cbn [option_map].
    apply simk_lift. intros kb _. apply simk_lift. intros kl _.
    eapply simk_bind; [apply simk_onh; apply (sim_view Q d); apply (Ot _ _ Ea)|].
    intros a' h1 ta _ (-> & Va & Ka).
    apply simk_guard. intros _. apply simk_guard. intros _.
    destruct (o_t o SDepth) as [b|] eqn:Eb; [|apply simk_raise]. cbn [option_map].
    eapply simk_bind; [apply simk_onh; apply (sim_view Q d); apply (Ot _ _ Eb)|].
    intros b' h1 tb _ (-> & Vb & Kb).
    destruct (o_t o SIntr) as [c|] eqn:Ec; [|apply simk_raise]. cbn [option_map].
    eapply simk_bind; [apply simk_onh; apply (sim_view Q d); apply (Ot _ _ Ec)|].
    intros c' h1 tc _ (-> & Vc & Kc).
    eapply simk_bind_eq.
    - apply simk_onh. pose proof (sim_inew Q n Qn d h (ATen a') (ATen b') (ATen c') ANone (o_cf o) ANone None) as S.
      cbn [rdinp] in S. rewrite Va, Vb, Vc in S. apply S; [lia|].
      intros l I. cbn in I. destruct I as [<-|[<-|[<-|[]]]]; assumption.
    - intros other h4 so E4 En [Vo Ko]. subst so. apply simk_onh.
      destruct (rgbd_new_rest _ _ _ _ _ En) as (X1 & X2 & X3 & X4 & X5 & X6 & _).
      rewrite <- vtake_take by assumption. pose proof (ext_len _ _ E4).
      apply (sim_take_slots Q n d h); auto; [lia| |].
      + intros k r _ Ek. apply (Ot k r Ek).
      + intros h5 k r E5 L5 _ Ek. eapply sim_post; [apply (sim_view Q d); eapply okr_ext; eauto|].
        cbn. intros r' h6 t _ (_ & X & Y). auto. }
  destruct ix as [i|l|]; [apply Body|apply Body|apply simk_raise].
Qed.

(* ---- setters: the object, its answer and its value ---- *)
Definition simo {A B} (d : dev) (h : iheap) (o : iobj) (m : M (iheap * iobj) A) (p : M rgbd B) (post : A -> iheap -> B -> Prop) : Prop :=
  let '(a, (h', o')) := m (h, o) in
  ext h h' /\ ok d h' o' /\ iabs h' o' = snd (p (iabs h o)) /\
  match a, fst (p (iabs h o)) with
  | Ok a, Ok b => post a h' b
  | Err e, Err e' => e = e'
  | _, _ => False
  end.
Lemma ok_clear d h k o : ok d h o -> ok d h (set_slot k None o).
Proof. intros H. apply ok_set_slot; [exact H|discriminate]. Qed.
Lemma ok_drop_maps d h o : ok d h o -> ok d h (drop_maps o).
Proof. intros H. unfold drop_maps. now repeat apply ok_clear. Qed.
Lemma ok_drop_global d h o : ok d h o -> ok d h (drop_global o).
Proof. intros H. unfold drop_global. now repeat apply ok_clear. Qed.
Definition arg_okr d h (v : iarg) : Prop := forall r, v = ATen r -> okr d h r.
Lemma ok_set_arg d h k o r : ok d h o -> arg_okr d h (ATen r) -> ok d h (set_slot k (Some r) o).
Proof. intros H A. apply ok_set_slot; [exact H|]. intros r' X. injection X as <-. now apply A. Qed.

Lemma iset_rgb_sim d h o v : ok d h o -> arg_okr d h v -> simo d h o (iset_rgb v) (set_rgb (rdinp h v)) (fun _ _ _ => True).
Proof.
  intros Oo A. unfold simo, iset_rgb, set_rgb. destruct v as [|r|]; cbn -[iabs assert_shape].
  - split; auto. split; [now apply ok_clear|]. auto.
  - change (r_rgbsh (iabs h o)) with (o_rgbsh o). destruct (assert_shape _ _) as [u|e]; cbn; split; auto; split; auto. now apply ok_set_arg.
  - split; auto.
Qed.
Lemma iset_intr_sim d h o v : ok d h o -> arg_okr d h v -> simo d h o (iset_intr v) (set_intr (rdinp h v)) (fun _ _ _ => True).
Proof.
  intros Oo A. unfold simo, iset_intr, set_intr. destruct v as [|r|]; cbn -[iabs assert_shape drop_maps].
  - split; auto. split; [now apply ok_drop_maps, ok_clear|]. auto.
  - change (r_intrsh (iabs h o)) with (o_intrsh o). destruct (assert_shape _ _) as [u|e]; cbn -[drop_maps]; split; auto; split; auto.
    now apply ok_drop_maps, ok_set_arg.
  - split; auto.
Qed.
Lemma iset_poses_sim d h o v : ok d h o -> arg_okr d h v -> simo d h o (iset_poses v) (set_poses (rdinp h v)) (fun _ _ _ => True).
Proof.
  intros Oo A. unfold simo, iset_poses, set_poses. destruct v as [|r|]; cbn -[iabs assert_shape drop_global].
  - split; auto. split; [now apply ok_drop_global, ok_clear|]. auto.
  - change (r_posesh (iabs h o)) with (o_posesh o). destruct (assert_shape _ _) as [u|e]; cbn -[drop_global]; split; auto; split; auto.
    now apply ok_drop_global, ok_set_arg.
  - split; auto.
Qed.
Lemma iset_depth_sim d h o v : ok d h o -> arg_okr d h v -> simo d h o (iset_depth v) (set_depth (rdinp h v)) (fun _ _ _ => True).
Proof.
  intros Oo A. unfold simo, iset_depth, set_depth. destruct v as [|r|]; cbn -[iabs assert_shape drop_maps].
  - split; auto. split; [now apply ok_drop_maps, ok_clear|]. auto.
  - change (r_depsh (iabs h o)) with (o_depsh o). destruct (o_depsh o); cbn -[iabs assert_shape drop_maps]; [|split; auto].
    destruct (assert_shape _ _) as [u|e]; cbn -[drop_maps]; split; auto; split; auto.
    now apply ok_drop_maps, ok_set_arg.
  - change (r_depsh (iabs h o)) with (o_depsh o). destruct (o_depsh o); cbn -[iabs]; split; auto.
Qed.
End Q.
