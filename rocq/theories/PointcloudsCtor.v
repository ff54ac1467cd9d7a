(* Constructor: acceptance and the state it builds. *)
From Coq Require Import List Arith ZArith Bool Lia.
From Verif Require Import Res Fld StructUtilsModel StructUtilsProofs PointcloudsModel PointcloudsSpec
  PointcloudsCtorSpec PointcloudsProofs.
Import ListNotations.
Local Open Scope nat_scope.

Lemma guard_inv {A} b e (k : unit -> res A) r : rbind (guard b e) k = Ok r -> b = true /\ k tt = Ok r.
Proof. destruct b; cbn; [auto|discriminate]. Qed.
Lemma shape_eqb_eq x y : shape_eqb x y = true <-> x = y.
Proof. unfold shape_eqb. destruct (list_eq_dec Nat.eq_dec x y); split; congruence. Qed.
Lemma shapes_eqb_eq x y : shapes_eqb x y = true <-> x = y.
Proof. unfold shapes_eqb. destruct (list_eq_dec _ x y); split; congruence. Qed.

Section Ctor.
Variable F : Fld.
Notation T2 := (t2 F).
Notation T3 := (t3 F).
Notation pc := (pc F).
Notation batch := (batch F).
Implicit Types (s : pc) (a : batch) (P L : list T2).
Notation RepN := (RepN F).
Notation Rep := (Rep F).

Lemma mapM_as_t2 L : mapM (as_t2 F) (map (AT2 F) L) = Ok L.
Proof. induction L as [|y L IH]; cbn; [reflexivity|]. now rewrite IH. Qed.

Definition shapes2 L : list (list nat) := map (fun y => [t2n y; t2c y]) L.
Lemma ashape_map L : map (ashape F) (map (AT2 F) L) = shapes2 L.
Proof. rewrite map_map. reflexivity. Qed.

(* lists whose shapes have rank two *)
Lemma rank2_list (l : list (anyt F)) :
  Forall (real_tensor F) l -> Forall (fun x => length (ashape F x) = 2) l ->
  exists L, l = map (AT2 F) L /\ Forall t2wf L.
Proof.
  induction l as [|x l IH]; intros Hr Hl; [exists []; auto|].
  inversion Hr as [|? ? Hx Hr']; subst. inversion Hl as [|? ? Hx2 Hl']; subst.
  destruct (IH Hr' Hl') as (L & -> & HL).
  destruct x as [y|y|sh]; cbn in *; try discriminate; [|tauto].
  exists (y :: L). split; [reflexivity|]. now constructor.
Qed.

Lemma shapes2_counts L P : shapes2 L = shapes2 P -> counts_of F L = counts_of F P.
Proof.
  intros H. apply (f_equal (map (fun sh => hd 0 sh))) in H. unfold shapes2 in H. rewrite !map_map in H. exact H.
Qed.
Lemma shapes2_cols L P : shapes2 L = shapes2 P -> map t2c L = map t2c P.
Proof.
  intros H. apply (f_equal (map (fun sh => nth 1 sh 0))) in H. unfold shapes2 in H. now rewrite !map_map in H.
Qed.
Lemma shapes2_of L P : counts_of F L = counts_of F P -> map t2c L = map t2c P -> shapes2 L = shapes2 P.
Proof.
  unfold counts_of, shapes2. revert P. induction L as [|y L IH]; intros [|z P]; cbn; intros H1 H2; try discriminate.
  - reflexivity.
  - inversion H1 as [[E1 E2]]. inversion H2 as [[E3 E4]]. f_equal; [unfold t2n; congruence|auto].
Qed.
Lemma wid_ok_intro w L : Forall t2wf L -> Forall (fun y => t2c y = w) L -> wid_ok F w L.
Proof.
  intros H1 H2. unfold wid_ok. rewrite Forall_forall in *. intros y Hy. specialize (H1 y Hy). specialize (H2 y Hy).
  split; [exact H2|]. rewrite <- H2. exact H1.
Qed.
Lemma wid_ok_cols w L : wid_ok F w L -> Forall (fun y => t2c y = w) L.
Proof. intros H. eapply Forall_impl; [|exact H]. cbn. tauto. Qed.
Lemma map_t2c_const w L : Forall (fun y => t2c y = w) L -> map t2c L = repeat w (length L).
Proof. intros H. now apply map_const_repeat. Qed.
Lemma cols_const w L : map t2c L = repeat w (length L) -> Forall (fun y => t2c y = w) L.
Proof.
  induction L as [|y L IH]; cbn; intros H; constructor; injection H; [congruence|]. intros H2 _. now apply IH.
Qed.

Lemma counts_length L P : counts_of F L = counts_of F P -> length L = length P.
Proof. intros H. apply (f_equal (@length nat)) in H. unfold counts_of in H. now rewrite !map_length in H. Qed.

(* the state built from a list batch *)
Definition list_state P a : pc :=
  mkPC F a (mkQ None None None None) None (mkQ None None None None)
    (counts_of F P) (length P) (biggest (counts_of F P)) (Some (all_equal (counts_of F P))).

Lemma list_state_Rep P a : valid_batch F P a -> RepN P a (list_state P a).
Proof.
  intros Hv. constructor; cbn; auto.
  - intros x. left. now destruct x.
  - intros x _. now destruct x.
  - left. split; [reflexivity|]. split; [auto|]. intros fp E. discriminate.
Qed.

Lemma list_nums P : map (fun sh : list nat => hd 0 sh) (shapes2 P) = counts_of F P.
Proof. unfold shapes2. rewrite map_map. reflexivity. Qed.

Lemma lastdim2 y : lastdim (ashape F (AT2 F y)) = t2c y.
Proof. reflexivity. Qed.

Lemma ctor_list_valid P a :
  valid_batch F P a ->
  ctor_list F (map (AT2 F) P) (option_map (map (AT2 F)) (qn a)) (option_map (map (AT2 F)) (qc a))
    (option_map (map (AT2 F)) (qf a)) = Ok (list_state P a).
Proof.
  intros Hv. pose proof (valid_qp _ _ _ Hv) as HqP. unfold ctor_list. rewrite ashape_map.
  assert (G2 : forall L, forallb (fun p => andim F p =? 2) (map (AT2 F) L) = true).
  { intros L. rewrite forallb_forall. intros x Hx. apply in_map_iff in Hx. destruct Hx as (y & <- & _). reflexivity. }
  assert (G3 : forallb (fun sh => lastdim sh =? 3) (shapes2 P) = true).
  { rewrite forallb_forall. intros sh Hs. unfold shapes2 in Hs. apply in_map_iff in Hs.
    destruct Hs as (y & <- & Hy). cbn.
    pose proof (valid_wid _ _ _ Points P Hv HqP) as Hw. unfold wid_ok in Hw. rewrite Forall_forall in Hw.
    destruct (Hw y Hy) as [E _]. cbn in E. now rewrite E. }
  rewrite (G2 P), G3, list_nums. cbn [guard rbind].
  assert (G4 : forall x, x = Normals \/ x = Colors ->
    (match option_map (map (AT2 F)) (qget x a) with
     | None => true | Some n => shapes_eqb (map (ashape F) n) (shapes2 P) end) = true).
  { intros x Hx. destruct (qget x a) as [L|] eqn:E; [|reflexivity]. cbn [option_map]. rewrite ashape_map.
    apply shapes_eqb_eq. apply shapes2_of; [apply (valid_counts _ _ _ _ _ Hv E)|].
    rewrite (map_t2c_const 3 P).
    2:{ apply wid_ok_cols. apply (valid_wid _ _ _ Points P Hv HqP). }
    rewrite (map_t2c_const 3 L).
    2:{ apply wid_ok_cols. pose proof (valid_wid _ _ _ _ _ Hv E) as Hw. destruct Hx as [->| ->]; exact Hw. }
    f_equal. apply (valid_len _ _ _ _ _ Hv E). }
  pose proof (G4 Normals (or_introl eq_refl)) as E1. pose proof (G4 Colors (or_intror eq_refl)) as E2.
  cbn [qget] in E1, E2. rewrite E1, E2. cbn [guard rbind].
  assert (G5 : (match option_map (map (AT2 F)) (qf a) with
     | None => true | Some f => forallb (fun x => andim F x =? 2) f end) = true).
  { destruct (qf a); cbn; [apply G2|reflexivity]. }
  rewrite G5. cbn [guard rbind].
  assert (G6 : (match option_map (map (AT2 F)) (qf a) with
     | None => true
     | Some f => shape_eqb (map (fun x => hd 0 (ashape F x)) f) (counts_of F P) end) = true).
  { destruct (qf a) as [L|] eqn:E; cbn [option_map]; [|reflexivity]. apply shape_eqb_eq. rewrite map_map.
    apply (valid_counts _ _ _ Features _ Hv E). }
  rewrite G6. cbn [guard rbind].
  assert (G7 : (match option_map (map (AT2 F)) (qf a) with
     | None => true
     | Some f => all_equal (map (fun x => lastdim (ashape F x)) f) end) = true).
  { destruct (qf a) as [L|] eqn:E; cbn [option_map]; [|reflexivity]. rewrite map_map.
    apply all_equal_spec. exists (width F a Features). split.
    - pose proof (valid_len _ _ _ Features _ Hv E) as Hl. pose proof (valid_ne _ _ _ Hv) as Hne.
      destruct L; [destruct P; [congruence|discriminate]|discriminate].
    - apply Forall_map. pose proof (valid_wid _ _ _ Features _ Hv E) as Hw. apply wid_ok_cols in Hw. exact Hw. }
  rewrite G7. cbn [guard rbind]. rewrite mapM_as_t2. cbn [rbind].
  assert (G8 : forall o, opt_mapM (mapM (as_t2 F)) (option_map (map (AT2 F)) o) = Ok o).
  { intros [L|]; cbn; [now rewrite mapM_as_t2|reflexivity]. }
  rewrite !G8. cbn [rbind]. unfold list_state. rewrite max_list_biggest. f_equal. f_equal.
  destruct a as [q1 q2 q3 q4]. cbn in *. now rewrite HqP.
Qed.

Lemma as_list_of i o : as_list F i o -> list_of F i = option_map (map (AT2 F)) o.
Proof. destruct o; cbn; intros ->; reflexivity. Qed.
Lemma as_list_kind i o P : as_list F i o -> is_none F i || same_kind F i (IList F (map (AT2 F) P)) = true.
Proof. destruct o; cbn; intros ->; reflexivity. Qed.

Lemma ctor_as_list p n c f P a :
  valid_batch F P a -> as_list F p (qp a) -> as_list F n (qn a) -> as_list F c (qc a) -> as_list F f (qf a) ->
  ctor F p n c f = Ok (list_state P a).
Proof.
  intros Hv Hp Hn Hc Hf. pose proof (valid_qp _ _ _ Hv) as HqP. rewrite HqP in Hp. cbn in Hp. subst p.
  unfold ctor. cbn [guard rbind].
  rewrite (as_list_kind n _ P Hn), (as_list_kind c _ P Hc), (as_list_kind f _ P Hf). cbn [guard rbind inp_len].
  rewrite map_length.
  assert (El : (length P =? 0) = false).
  { pose proof (valid_ne _ _ _ Hv). destruct P; [congruence|reflexivity]. }
  rewrite El. cbn [negb guard rbind].
  rewrite (as_list_of _ _ Hn), (as_list_of _ _ Hc), (as_list_of _ _ Hf). now apply ctor_list_valid.
Qed.

(* the form used by clone and getitem *)
Lemma oin_as_list o : as_list F (oin F (in2 F) o) o.
Proof. destruct o; reflexivity. Qed.

(* ---- tensors ---- *)
Definition slabs (p : T3) : list T2 := map (mkT2 (t3c p)) (t3d p).
Lemma slabs_length p : length (slabs p) = t3b p.
Proof. apply map_length. Qed.
Lemma slabs_counts p : t3wf p -> counts_of F (slabs p) = repeat (t3n p) (t3b p).
Proof.
  intros H. unfold counts_of, slabs. rewrite map_map. cbn. unfold t3b. apply map_const_repeat.
  eapply Forall_impl; [|exact H]. cbn. tauto.
Qed.
Lemma slabs_wid p : t3wf p -> wid_ok F (t3c p) (slabs p).
Proof.
  intros H. unfold wid_ok, slabs. apply Forall_map. eapply Forall_impl; [|exact H]. cbn. tauto.
Qed.
Lemma biggest_repeat n k : 0 < k -> biggest (repeat n k) = n.
Proof.
  intros H. apply biggest_const; [destruct k; [lia|discriminate]|].
  apply Forall_forall. intros m Hm. now apply repeat_spec in Hm.
Qed.
Lemma pad_slabs p : t3wf p -> pad_to F (t3n p) (t3c p) (slabs p) = p.
Proof.
  intros H. destruct p as [N C d]. unfold pad_to, slabs, t3wf in *. cbn in *. f_equal.
  rewrite map_map. cbn. apply map_id_ext. eapply Forall_impl; [|exact H]. cbn. intros m [E _].
  rewrite E, Nat.sub_diag. cbn. apply app_nil_r.
Qed.

Definition tensor_state (B N : nat) (q : quad (option T3)) : pc :=
  mkPC F (mkQ None None None None) q None (mkQ None None None None) (repeat N B) B N (Some true).

Lemma all_equal_repeat n k : 0 < k -> all_equal (repeat n k) = true.
Proof.
  intros H. apply all_equal_spec. exists n. split; [destruct k; [lia|discriminate]|].
  apply Forall_forall. intros m Hm. now apply repeat_spec in Hm.
Qed.

Definition tq (p n c f : option T3) : quad (option T3) := mkQ p n c f.

(* a batch given by tensors *)
Lemma tensor_state_Rep P a (q : quad (option T3)) pp :
  valid_batch F P a -> qp q = Some pp -> P = slabs pp -> t3wf pp ->
  (forall x, match qget x a with
             | None => qget x q = None
             | Some L => exists r, qget x q = Some r /\ t3wf r /\ L = slabs r end) ->
  RepN P a (tensor_state (t3b pp) (t3n pp) q).
Proof.
  intros Hv Hq HP Hwf Hx. subst P.
  pose proof (slabs_counts pp Hwf) as Hc.
  assert (Hpos : 0 < t3b pp).
  { pose proof (valid_ne _ _ _ Hv) as Hne. rewrite <- slabs_length. destruct (slabs pp); [congruence|cbn; lia]. }
  assert (Hb : biggest (counts_of F (slabs pp)) = t3n pp) by (rewrite Hc; now apply biggest_repeat).
  assert (Hpads : forall x, qget x q = padded_view F a x).
  { intros x. specialize (Hx x). destruct (qget x a) as [L|] eqn:E.
    - destruct Hx as (r & Er & Hr & EL). rewrite Er. rewrite (padded_some _ _ _ _ _ Hv E), Hb. f_equal.
      pose proof (valid_counts _ _ _ _ _ Hv E) as HcL. subst L. rewrite slabs_counts, Hc in HcL by assumption.
      assert (Eb : t3b r = t3b pp).
      { apply (f_equal (@length nat)) in HcL. now rewrite !repeat_length in HcL. }
      assert (En : t3n r = t3n pp).
      { rewrite Eb in HcL. destruct (t3b pp); [lia|]. cbn in HcL. congruence. }
      pose proof (valid_wid _ _ _ _ _ Hv E) as Hw.
      assert (Ew : t3c r = width F a x).
      { unfold wid_ok in Hw. destruct (slabs r) as [|y l] eqn:Es.
        - apply (f_equal (@length T2)) in Es. rewrite slabs_length in Es. cbn in Es. lia.
        - inversion Hw as [|? ? [Hy _] _]; subst. unfold slabs in Es. destruct (t3d r); [discriminate|].
          cbn in Es. inversion Es; subst. exact Hy. }
      rewrite <- En, <- Ew. symmetry. now apply pad_slabs.
    - rewrite Hx. symmetry. eapply padded_none; eauto. }
  constructor; cbn; auto.
  - now rewrite slabs_length.
  - rewrite Hc. now rewrite all_equal_repeat.
  - intros x. left. now destruct x.
  - intros x. left. now destruct x.
  - intros x Hn. rewrite Hpads. eapply padded_none; eauto.
Qed.

Lemma as_tensor_of i o : as_tensor F i o ->
  match o with
  | None => tensor_of F i = None /\ i = INone F
  | Some L => exists r, tensor_of F i = Some (AT3 F r) /\ i = ITensor F (AT3 F r) /\ L = slabs r end.
Proof.
  destruct o as [L|]; cbn.
  - intros (r & -> & E). exists r. auto.
  - intros ->. auto.
Qed.

Lemma slabs_eq_shape pp r :
  t3wf pp -> t3wf r -> 0 < t3b pp -> counts_of F (slabs r) = counts_of F (slabs pp) ->
  t3b r = t3b pp /\ t3n r = t3n pp.
Proof.
  intros H1 H2 Hpos H. rewrite !slabs_counts in H by assumption.
  assert (Eb : t3b r = t3b pp) by (apply (f_equal (@length nat)) in H; now rewrite !repeat_length in H).
  split; [exact Eb|]. rewrite Eb in H. destruct (t3b pp); [lia|]. cbn in H. congruence.
Qed.
Lemma slabs_width pp w : t3wf pp -> 0 < t3b pp -> wid_ok F w (slabs pp) -> t3c pp = w.
Proof.
  intros _ Hb Hw. unfold wid_ok, slabs, t3b in *. destruct (t3d pp); [cbn in Hb; lia|].
  cbn in Hw. inversion Hw as [|? ? [E _] _]. exact E.
Qed.

(* ctor on explicit tensors: exact resulting state *)
Lemma ctor_in3 pp on oc of :
  0 < t3b pp -> t3c pp = 3 ->
  (forall r, on = Some r -> t3b r = t3b pp /\ t3n r = t3n pp /\ t3c r = 3) ->
  (forall r, oc = Some r -> t3b r = t3b pp /\ t3n r = t3n pp /\ t3c r = 3) ->
  (forall r, of = Some r -> t3b r = t3b pp /\ t3n r = t3n pp) ->
  ctor F (in3 F pp) (oin F (in3 F) on) (oin F (in3 F) oc) (oin F (in3 F) of) =
  Ok (tensor_state (t3b pp) (t3n pp) (mkQ (Some pp) on oc of)).
Proof.
  intros Hpos Ec3 Hn2 Hc2 Hf2.
  assert (Hne0 : (t3b pp =? 0) = false) by (apply Nat.eqb_neq; lia).
  unfold ctor. cbn [guard rbind in3].
  assert (K : forall o, is_none F (oin F (in3 F) o) || same_kind F (oin F (in3 F) o) (ITensor F (AT3 F pp)) = true)
    by (intros [r|]; reflexivity).
  change (in3 F pp) with (ITensor F (AT3 F pp)). rewrite !K. cbn [guard rbind inp_len ashape]. rewrite Hne0. cbn [negb guard rbind].
  assert (T : forall o, tensor_of F (oin F (in3 F) o) = option_map (AT3 F) o) by (intros [r|]; reflexivity).
  rewrite !T.
  unfold ctor_tensor. cbn [ashape andim length lastdim last hd]. rewrite Ec3, Hne0. cbn [Nat.eqb negb guard rbind].
  assert (S1 : forall o, (forall r, o = Some r -> t3b r = t3b pp /\ t3n r = t3n pp /\ t3c r = 3) ->
     (match option_map (AT3 F) o with None => true | Some n => shape_eqb (ashape F n) [t3b pp; t3n pp; 3] end) = true).
  { intros [r|] Hr; cbn; [|reflexivity]. destruct (Hr r eq_refl) as (-> & -> & ->). now apply shape_eqb_eq. }
  change (andim F (AT3 F pp) =? 3) with true. cbn [guard rbind].
  rewrite (S1 on Hn2), (S1 oc Hc2). cbn [guard rbind].
  assert (S2 : (match option_map (AT3 F) of with None => true | Some f => andim F f =? 3 end) = true)
    by (destruct of; reflexivity).
  rewrite S2. cbn [guard rbind].
  assert (S3 : (match option_map (AT3 F) of with None => true
     | Some f => shape_eqb (removelast (ashape F f)) (removelast [t3b pp; t3n pp; 3]) end) = true).
  { destruct of as [r|]; cbn; [|reflexivity]. destruct (Hf2 r eq_refl) as (-> & ->). now apply shape_eqb_eq. }
  rewrite S3. cbn [guard rbind as_t3].
  assert (S4 : forall o, opt_mapM (as_t3 F) (option_map (AT3 F) o) = Ok o) by (intros [r|]; reflexivity).
  rewrite !S4. reflexivity.
Qed.

Lemma ctor_as_tensor p n c f P a :
  real_inp F p -> real_inp F n -> real_inp F c -> real_inp F f ->
  valid_batch F P a -> as_tensor F p (qp a) -> as_tensor F n (qn a) -> as_tensor F c (qc a) ->
  as_tensor F f (qf a) ->
  exists s, ctor F p n c f = Ok s /\ RepN P a s.
Proof.
  intros Rp Rn Rc Rf Hv Hp Hn Hc Hf. pose proof (valid_qp _ _ _ Hv) as HqP.
  rewrite HqP in Hp. apply as_tensor_of in Hp. destruct Hp as (pp & Ep & -> & EP). cbn in Rp.
  apply as_tensor_of in Hn. apply as_tensor_of in Hc. apply as_tensor_of in Hf.
  assert (Hpos : 0 < t3b pp).
  { pose proof (valid_ne _ _ _ Hv) as Hne. rewrite <- slabs_length, <- EP. destruct P; [congruence|cbn; lia]. }
  assert (Hne0 : (t3b pp =? 0) = false) by (apply Nat.eqb_neq; lia).
  assert (Ec3 : t3c pp = 3).
  { apply slabs_width; auto. rewrite <- EP. apply (valid_wid _ _ _ Points P Hv HqP). }
  assert (Hcnt : forall x L, qget x a = Some L -> counts_of F L = counts_of F (slabs pp)).
  { intros x L E. rewrite <- EP. apply (valid_counts _ _ _ _ _ Hv E). }
  (* each optional argument *)
  assert (Opt : forall x i, real_inp F i ->
     match qget x a with
     | None => tensor_of F i = None /\ i = INone F
     | Some L => exists r, tensor_of F i = Some (AT3 F r) /\ i = ITensor F (AT3 F r) /\ L = slabs r end ->
     exists o, tensor_of F i = option_map (AT3 F) o /\ i = oin F (in3 F) o /\
       (match qget x a with
             | None => o = None
             | Some L => exists r, o = Some r /\ t3wf r /\ L = slabs r end) /\
       (forall r, o = Some r -> t3wf r /\ t3b r = t3b pp /\ t3n r = t3n pp /\ t3c r = width F a x)).
  { intros x i Ri H. destruct (qget x a) as [L|] eqn:E.
    - destruct H as (r & E1 & -> & EL). exists (Some r). cbn in Ri. repeat split; auto.
      + exists r. auto.
      + inversion H; subst; exact Ri.
      + inversion H; subst. apply (slabs_eq_shape pp); auto. eapply Hcnt; eauto.
      + inversion H; subst. apply (slabs_eq_shape pp); auto. eapply Hcnt; eauto.
      + inversion H; subst. apply slabs_width; auto.
        * destruct (slabs_eq_shape pp r0 Rp Ri Hpos (Hcnt _ _ E)) as [-> _]. exact Hpos.
        * apply (valid_wid _ _ _ _ _ Hv E).
    - destruct H as [E1 ->]. exists None. repeat split; auto; discriminate. }
  destruct (Opt Normals n Rn Hn) as (on & En & En' & Hn1 & Hn2).
  destruct (Opt Colors c Rc Hc) as (oc & Ec & Ec' & Hc1 & Hc2).
  destruct (Opt Features f Rf Hf) as (of & Ef & Ef' & Hf1 & Hf2).
  exists (tensor_state (t3b pp) (t3n pp) (mkQ (Some pp) on oc of)). split.
  - rewrite En', Ec', Ef'. apply (ctor_in3 pp on oc of Hpos Ec3).
    + intros r E. apply Hn2 in E. cbn in E. tauto.
    + intros r E. apply Hc2 in E. cbn in E. tauto.
    + intros r E. apply Hf2 in E. tauto.
  - apply (tensor_state_Rep P a _ pp Hv); auto. intros x. destruct x; cbn [qget qp qn qc qf].
    + rewrite HqP. exists pp. auto.
    + exact Hn1.
    + exact Hc1.
    + exact Hf1.
Qed.

Theorem ctor_accepts p n c f a :
  real_inp F p -> real_inp F n -> real_inp F c -> real_inp F f -> Denotes F p n c f a ->
  exists s, ctor F p n c f = Ok s /\ Rep a s.
Proof.
  intros Rp Rn Rc Rf [(-> & -> & -> & -> & ->)|[(P & Hv & H1 & H2 & H3 & H4)|(P & Hv & H1 & H2 & H3 & H4)]].
  - eexists. split; [reflexivity|]. cbn. split; [reflexivity|]. constructor; cbn; auto; intros x; destruct x; auto.
  - exists (list_state P a). split; [eapply ctor_as_list; eauto|]. unfold Rep, PointcloudsProofs.Rep.
    rewrite (valid_qp _ _ _ Hv). now apply list_state_Rep.
  - destruct (ctor_as_tensor p n c f P a) as (s & E & Hr); auto. exists s. split; [exact E|].
    unfold Rep, PointcloudsProofs.Rep. now rewrite (valid_qp _ _ _ Hv).
Qed.

(* ---- and nothing else ---- *)
Lemma kind_list i l : is_none F i || same_kind F i (IList F l) = true ->
  exists o, i = match o with None => INone F | Some l' => IList F l' end /\ list_of F i = o.
Proof. destruct i; cbn; intros H; try discriminate; [exists None|eexists (Some _)]; auto. Qed.
Lemma kind_tensor i l : is_none F i || same_kind F i (ITensor F l) = true ->
  exists o, i = match o with None => INone F | Some l' => ITensor F l' end /\ tensor_of F i = o.
Proof. destruct i; cbn; intros H; try discriminate; [exists None|eexists (Some _)]; auto. Qed.

Lemma all_equal_const l : all_equal l = true -> exists w, Forall (fun x => x = w) l /\ hd 0 l = w.
Proof.
  intros H. apply all_equal_spec in H. destruct H as (w & Hne & H). exists w. split; [exact H|].
  destruct l; [congruence|]. now inversion H.
Qed.

Theorem ctor_only p n c f s :
  real_inp F p -> real_inp F n -> real_inp F c -> real_inp F f ->
  ctor F p n c f = Ok s -> exists a, Denotes F p n c f a.
Proof.
  intros Rp Rn Rc Rf H. unfold ctor in H.
  apply guard_inv in H as [_ H]. apply guard_inv in H as [Kn H]. apply guard_inv in H as [Kc H].
  apply guard_inv in H as [Kf H].
  destruct p as [|l|t|]; [| | |discriminate].
  - (* none *)
    destruct n; cbn in Kn; try discriminate. destruct c; cbn in Kc; try discriminate.
    destruct f; cbn in Kf; try discriminate. exists (no_batch F). left. auto.
  - (* lists *)
    apply kind_list in Kn as (on & -> & En). apply kind_list in Kc as (oc & -> & Ec).
    apply kind_list in Kf as (of & -> & Ef). rewrite En, Ec, Ef in H. cbn [inp_len rbind] in H.
    apply guard_inv in H as [Hlen H]. unfold ctor_list in H.
    apply guard_inv in H as [G1 H]. apply guard_inv in H as [G2 H]. apply guard_inv in H as [G3 H].
    apply guard_inv in H as [G4 H]. apply guard_inv in H as [G5 H]. apply guard_inv in H as [G6 H].
    apply guard_inv in H as [G7 _].
    destruct (rank2_list l Rp) as (P & -> & HwP).
    { rewrite forallb_forall in G1. apply Forall_forall. intros x Hx. apply Nat.eqb_eq. now apply G1. }
    rewrite ashape_map in *. rewrite list_nums in G6.
    assert (WP : wid_ok F 3 P).
    { apply wid_ok_intro; [exact HwP|]. rewrite forallb_forall in G2. apply Forall_forall. intros y Hy.
      apply Nat.eqb_eq. apply (G2 [t2n y; t2c y]). unfold shapes2. apply in_map_iff. eauto. }
    assert (Opt3 : forall o, real_inp F (match o with None => INone F | Some l' => IList F l' end) ->
       (match o with None => true | Some n => shapes_eqb (map (ashape F) n) (shapes2 P) end) = true ->
       exists o', as_list F (match o with None => INone F | Some l' => IList F l' end) o' /\
         forall L, o' = Some L -> counts_of F L = counts_of F P /\ wid_ok F 3 L).
    { intros [l'|] Ro Go; [|exists None; split; [reflexivity|discriminate]].
      apply shapes_eqb_eq in Go. destruct (rank2_list l' Ro) as (L & -> & HwL).
      { apply Forall_forall. intros x Hx. apply (in_map (ashape F)) in Hx. rewrite Go in Hx.
        unfold shapes2 in Hx. apply in_map_iff in Hx. destruct Hx as (y & E & _). now rewrite <- E. }
      rewrite ashape_map in Go. exists (Some L). split; [reflexivity|]. intros L' E. inversion E; subst L'.
      pose proof (shapes2_counts _ _ Go) as HcL. split; [exact HcL|]. apply wid_ok_intro; [exact HwL|].
      apply cols_const. rewrite (shapes2_cols _ _ Go), (map_t2c_const 3 P) by (now apply wid_ok_cols).
      f_equal. symmetry. now apply counts_length. }
    destruct (Opt3 on Rn G3) as (on' & An & Hn'). destruct (Opt3 oc Rc G4) as (oc' & Ac & Hc').
    assert (OptF : exists o' w, as_list F (match of with None => INone F | Some l' => IList F l' end) o' /\
         forall L, o' = Some L -> counts_of F L = counts_of F P /\ wid_ok F w L /\
            match L with y :: _ => t2c y = w | [] => False end).
    { destruct of as [l'|]; [|exists None, 0; split; [reflexivity|discriminate]].
      destruct (rank2_list l' Rf) as (L & -> & HwL).
      { rewrite forallb_forall in G5. apply Forall_forall. intros x Hx. apply Nat.eqb_eq. now apply G5. }
      apply shape_eqb_eq in G6. rewrite map_map in G6.
      destruct (all_equal_const _ G7) as (w & Hw & Hhd). rewrite map_map in Hw, Hhd.
      exists (Some L), w. split; [reflexivity|]. intros L' E. inversion E; subst L'.
      split; [exact G6|]. rewrite Forall_map in Hw.
      split; [now apply wid_ok_intro|].
      destruct L as [|y L]; [cbn in G7; discriminate|]. inversion Hw; assumption. }
    destruct OptF as (of' & w & Af & Hf').
    set (a := mkQ (Some P) on' oc' of').
    exists a. right. left. exists P. split; [|cbn; auto].
    split; [reflexivity|]. split; [destruct P; [discriminate|discriminate]|].
    intros x L HL. destruct x; cbn in HL.
    + inversion HL; subst. split; [reflexivity|exact WP].
    + destruct (Hn' L HL) as [? ?]. split; assumption.
    + destruct (Hc' L HL) as [? ?]. split; assumption.
    + destruct (Hf' L HL) as (H1 & H2 & H3). split; [exact H1|]. cbn. rewrite HL.
      destruct L as [|y L]; [tauto|]. rewrite H3. exact H2.
  - (* tensors *)
    apply kind_tensor in Kn as (on & -> & En). apply kind_tensor in Kc as (oc & -> & Ec).
    apply kind_tensor in Kf as (of & -> & Ef). rewrite En, Ec, Ef in H.
    match type of H with rbind ?r _ = _ => destruct r as [[]|] eqn:Elen; cbn [rbind] in H; [|discriminate] end.
    unfold ctor_tensor in H.
    apply guard_inv in H as [G1 H]. apply guard_inv in H as [G2 H]. apply guard_inv in H as [G0 H].
    apply guard_inv in H as [G3 H].
    apply guard_inv in H as [G4 H]. apply guard_inv in H as [G5 H]. apply guard_inv in H as [G6 _].
    assert (R3 : forall x, real_tensor F x -> length (ashape F x) = 3 -> exists p, x = AT3 F p /\ t3wf p).
    { intros [y|y|sh] Hr Hl; cbn in *; try discriminate; [eauto|tauto]. }
    apply Nat.eqb_eq in G1. destruct (R3 t Rp G1) as (pp & -> & Wp). cbn [ashape lastdim last hd] in *.
    apply Nat.eqb_eq in G2. apply negb_true_iff, Nat.eqb_neq in G0.
    assert (Opt3 : forall o, real_inp F (match o with None => INone F | Some l' => ITensor F l' end) ->
       (match o with None => true | Some n => shape_eqb (ashape F n) [t3b pp; t3n pp; t3c pp] end) = true ->
       exists o', as_tensor F (match o with None => INone F | Some l' => ITensor F l' end) o' /\
         forall L, o' = Some L -> counts_of F L = counts_of F (slabs pp) /\ wid_ok F 3 L).
    { intros [x|] Ro Go; [|exists None; split; [reflexivity|discriminate]].
      apply shape_eqb_eq in Go. destruct (R3 x Ro) as (r & -> & Wr); [now rewrite Go|].
      cbn in Go. inversion Go as [[E1 E2 E3]]. exists (Some (slabs r)). split; [cbn; exists r; auto|].
      intros L E. inversion E; subst L. rewrite !slabs_counts by assumption. split; [now rewrite E1, E2|].
      rewrite <- G2, <- E3. now apply slabs_wid. }
    destruct (Opt3 on Rn G3) as (on' & An & Hn'). destruct (Opt3 oc Rc G4) as (oc' & Ac & Hc').
    assert (OptF : exists o' w, as_tensor F (match of with None => INone F | Some l' => ITensor F l' end) o' /\
         forall L, o' = Some L -> counts_of F L = counts_of F (slabs pp) /\ wid_ok F w L /\
            match L with y :: _ => t2c y = w | [] => False end).
    { destruct of as [x|]; [|exists None, 0; split; [reflexivity|discriminate]].
      apply Nat.eqb_eq in G5. destruct (R3 x Rf G5) as (r & -> & Wr). apply shape_eqb_eq in G6. cbn in G6.
      inversion G6 as [[E1 E2]]. exists (Some (slabs r)), (t3c r). split; [cbn; exists r; auto|].
      intros L E. inversion E; subst L. rewrite !slabs_counts by assumption. split; [now rewrite E1, E2|].
      split; [now apply slabs_wid|]. unfold slabs. destruct (t3d r) eqn:Ed; [|reflexivity].
      unfold t3b in E1. rewrite Ed in E1. cbn in E1. unfold t3b in G0. congruence. }
    destruct OptF as (of' & w & Af & Hf').
    exists (mkQ (Some (slabs pp)) on' oc' of'). right. right. exists (slabs pp).
    split; [|cbn; split; [exists pp; auto|auto]].
    split; [reflexivity|]. split.
    { intros E. apply (f_equal (@length T2)) in E. rewrite slabs_length in E. cbn in E. congruence. }
    intros x L HL. destruct x; cbn in HL.
    + inversion HL; subst. split; [reflexivity|]. cbn. rewrite <- G2. now apply slabs_wid.
    + destruct (Hn' L HL) as [? ?]. split; assumption.
    + destruct (Hc' L HL) as [? ?]. split; assumption.
    + destruct (Hf' L HL) as (H1 & H2 & H3). split; [exact H1|]. cbn. rewrite HL.
      destruct L as [|y L]; [tauto|]. rewrite H3. exact H2.
Qed.

End Ctor.
