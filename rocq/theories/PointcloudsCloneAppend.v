(* append_points to a fresh clone: the flag of equal sizes is not read, so appending is right even when the
   clone carries a wrong flag.  Also: after append_points the list of points is cached. *)
From Coq Require Import List Arith ZArith Bool Lia.
From Verif Require Import Res Fld StructUtilsModel StructUtilsProofs PointcloudsModel PointcloudsSpec
  PointcloudsCtorSpec PointcloudsProofs PointcloudsOps PointcloudsCtor PointcloudsClone PointcloudsAppend.
Import ListNotations.
Local Open Scope nat_scope.

Section CloneAppend.
Variable F : Fld.
Notation T2 := (t2 F).
Notation T3 := (t3 F).
Notation pc := (pc F).
Notation batch := (batch F).
Implicit Types (s : pc) (a : batch) (P L : list T2).
Notation RepN := (RepN F).
Notation Rep := (Rep F).

Definition we (e : option bool) s : pc := mkPC F (lst F s) (pad F s) (mask F s) (flg F s) (num F s) (bat F s) (nmax F s) e.

(* ---------------- operations that neither read nor write the flag *)
Definition blind {A} (m : M pc A) : Prop := forall e s, m (we e s) = (fst (m s), we e (snd (m s))).
Lemma blind_bind {A B} (m : M pc A) (k : A -> M pc B) : blind m -> (forall x, blind (k x)) -> blind (mbind m k).
Proof.
  intros Hm Hk e s. unfold mbind. rewrite Hm. destruct (m s) as [[x|er] s1]; cbn; [apply Hk|reflexivity].
Qed.
Lemma blind_get {B} (k : pc -> M pc B) : (forall e s, k (we e s) = k s) -> (forall s, blind (k s)) -> blind (mbind get k).
Proof. intros H1 H2 e s. unfold mbind, get. rewrite H1. apply H2. Qed.
Lemma blind_ret {A} (x : A) : blind (ret x). Proof. intros e s. reflexivity. Qed.
Lemma blind_raise {A} er : blind (raise er : M pc A). Proof. intros e s. reflexivity. Qed.
Lemma blind_lift {A} (r : res A) : blind (lift r). Proof. intros e s. reflexivity. Qed.
Lemma blind_modify f : (forall e s, f (we e s) = we e (f s)) -> blind (modify f).
Proof. intros H e s. unfold modify. cbn. rewrite H. reflexivity. Qed.
Ltac blind1 := first [apply blind_ret|apply blind_raise|apply blind_lift|apply blind_modify; intros; reflexivity].
Lemma blind_has x : blind (has F x).
Proof.
  apply blind_get; [reflexivity|]. intros s. destruct (qget x (flg F s)); [blind1|]. apply blind_bind; [blind1|]. intros _. blind1.
Qed.
Lemma blind_width : blind (num_features F).
Proof.
  apply blind_bind; [apply blind_has|]. intros [|]; cbn [negb]; [|blind1]. apply blind_get; [reflexivity|]. intros s.
  destruct (qf (pad F s)); [blind1|]. destruct (qf (lst F s)) as [[|]|]; blind1.
Qed.
Lemma blind_list x : blind (get_list F x).
Proof.
  apply blind_get; [reflexivity|]. intros s. destruct (qget x (lst F s)); [blind1|]. destruct (qget x (pad F s)) as [p|]; [|blind1].
  destruct (t3b p =? bat F s); cbn [negb]; [|blind1]. destruct (bat F s <=? length (num F s)); cbn [negb]; [|blind1].
  apply blind_bind; [blind1|]. intros _. blind1.
Qed.

(* the same on pairs; fin: additionally a successful result does not depend on the flag *)
Definition blind2 {A} (m : M2 F A) : Prop := forall e s o, m (we e s, o) = (fst (m (s, o)), (we e (fst (snd (m (s, o)))), snd (snd (m (s, o))))).
Definition fin {A} (m : M2 F A) : Prop := forall e s o, fst (m (we e s, o)) = fst (m (s, o)) /\
  forall r, fst (m (s, o)) = Ok r -> m (we e s, o) = m (s, o).
Lemma b2_on1 {A} (m : M pc A) : blind m -> blind2 (on1 F m).
Proof. intros H e s o. unfold on1. cbn [fst snd]. rewrite H. destruct (m s) as [r s1]. reflexivity. Qed.
Lemma b2_on2 {A} (m : M pc A) : blind2 (on2 F m).
Proof. intros e s o. unfold on2. cbn [fst snd]. destruct (m o) as [r s1]. reflexivity. Qed.
Lemma b2_bind {A B} (m : M2 F A) (k : A -> M2 F B) : blind2 m -> (forall x, blind2 (k x)) -> blind2 (mbind m k).
Proof.
  intros Hm Hk e s o. unfold mbind. rewrite Hm. destruct (m (s, o)) as [[x|er] [s1 o1]]; cbn; [apply Hk|reflexivity].
Qed.
Lemma b2_get {B} (k : pc -> M2 F B) : (forall e s, k (we e s) = k s) -> (forall s, blind2 (k s)) -> blind2 (mbind (on1 F get) k).
Proof. intros H1 H2 e s o. unfold mbind, on1, get. cbn [fst snd]. rewrite H1. apply H2. Qed.
Lemma b2_ret {A} (x : A) : blind2 (ret x). Proof. intros e s o. reflexivity. Qed.
Lemma b2_raise {A} er : blind2 (raise er : M2 F A). Proof. intros e s o. reflexivity. Qed.
Lemma b2_lift {A} (r : res A) : blind2 (lift r). Proof. intros e s o. reflexivity. Qed.
Lemma fin_bind {A B} (m : M2 F A) (k : A -> M2 F B) : blind2 m -> (forall x, fin (k x)) -> fin (mbind m k).
Proof.
  intros Hm Hk e s o. assert (E := Hm e s o). unfold mbind. rewrite E. clear E.
  destruct (m (s, o)) as [[x|er] [s1 o1]]; cbn [fst snd]; [apply Hk|]. split; [reflexivity|discriminate].
Qed.
Lemma fin_get {B} (k : pc -> M2 F B) : (forall e s, k (we e s) = k s) -> (forall s, fin (k s)) -> fin (mbind (on1 F get) k).
Proof. intros H1 H2 e s o. unfold mbind, on1, get. cbn [fst snd]. rewrite H1. apply H2. Qed.
Lemma fin_raise {A} er : fin (raise er : M2 F A). Proof. intros e s o. split; [reflexivity|discriminate]. Qed.
Ltac b21 := first [apply b2_ret|apply b2_raise|apply b2_lift|apply b2_on2|apply b2_on1; first [apply blind_has|apply blind_width|apply blind_list|blind1]].
Lemma b2_append_attr x : blind2 (append_attr F x).
Proof.
  apply b2_bind; [b21|]. intros l1. apply b2_bind; [b21|]. intros l2. apply b2_get; [reflexivity|]. intros s.
  destruct l1 as [l1|]; [destruct l2 as [l2|]|].
  1: apply b2_bind; [b21|]; intros l; apply b2_bind; [b21|]; intros _; b21.
  all: destruct (bat F s =? 0); [|b21]; apply b2_bind; [b21|]; intros _; b21.
Qed.
Lemma b2_opt x : blind2 (do h <- on1 F (has F x); if h then append_attr F x else ret tt).
Proof. apply b2_bind; [b21|]. intros [|]; [apply b2_append_attr|b21]. Qed.

(* append_points when both objects have points *)
Definition append_rest : M2 F unit :=
  do s <- on1 F get; do o <- on2 F get;
  if negb (bat F o =? bat F s) then raise ValueError
  else
  do n1 <- on1 F (has F Normals); do n2 <- on2 F (has F Normals);
  if negb (eqb n1 n2) then raise ValueError
  else
  do c1 <- on1 F (has F Colors); do c2 <- on2 F (has F Colors);
  if negb (eqb c1 c2) then raise ValueError
  else
  do g1 <- on1 F (has F Features); do g2 <- on2 F (has F Features);
  if negb (eqb g1 g2) then raise ValueError
  else
  (if g1 then
     do w1 <- on1 F (num_features F); do w2 <- on2 F (num_features F);
     match w1, w2 with
     | Some w1, Some w2 => if w1 =? w2 then ret tt else raise ValueError
     | None, None => ret tt
     | _, _ => raise ValueError
     end
   else ret tt) ;;;
  append_attr F Points ;;;
  (do h <- on1 F (has F Normals); if h then append_attr F Normals else ret tt) ;;;
  (do h <- on1 F (has F Colors); if h then append_attr F Colors else ret tt) ;;;
  (do h <- on1 F (has F Features); if h then append_attr F Features else ret tt) ;;;
  do s <- on1 F get; do o <- on2 F get;
  do ns <- lift (add_counts (num F s) (num F o));
  on1 F (modify (fun s => with_mask F None
         (with_dims F ns (bat F s) (max_list ns) (Some (all_equal ns)) s))).

Lemma fin_rest : fin append_rest.
Proof.
  unfold append_rest. apply fin_get; [reflexivity|]. intros s. apply fin_bind; [b21|]. intros o.
  destruct (negb (bat F o =? bat F s)); [apply fin_raise|].
  apply fin_bind; [b21|]. intros n1. apply fin_bind; [b21|]. intros n2. destruct (negb (eqb n1 n2)); [apply fin_raise|].
  apply fin_bind; [b21|]. intros c1. apply fin_bind; [b21|]. intros c2. destruct (negb (eqb c1 c2)); [apply fin_raise|].
  apply fin_bind; [b21|]. intros g1. apply fin_bind; [b21|]. intros g2. destruct (negb (eqb g1 g2)); [apply fin_raise|].
  apply fin_bind.
  { destruct g1; [|b21]. apply b2_bind; [b21|]. intros w1. apply b2_bind; [b21|]. intros w2.
    destruct w1 as [w1|], w2 as [w2|]; try b21. destruct (w1 =? w2); b21. }
  intros _. apply fin_bind; [apply b2_append_attr|]. intros _.
  apply fin_bind; [apply b2_opt|]. intros _. apply fin_bind; [apply b2_opt|]. intros _. apply fin_bind; [apply b2_opt|]. intros _.
  apply fin_get; [reflexivity|]. intros s'. apply fin_bind; [b21|]. intros o'. apply fin_bind; [b21|]. intros ns.
  intros e s0 o0. split; [reflexivity|]. intros r _. reflexivity.
Qed.

Lemma append_is_rest s o s1 o1 : has F Points o = (Ok true, o1) -> has F Points s = (Ok true, s1) ->
  append_points F (s, o) = append_rest (s1, o1).
Proof.
  intros E1 E2. unfold append_points. unfold mbind at 1. unfold on2 at 1. cbn [fst snd]. rewrite E1. cbn [negb].
  unfold mbind at 1. unfold on1 at 1. cbn [fst snd]. rewrite E2. reflexivity.
Qed.

Lemma append_we e s o a b P1 P2 : RepN P1 a s -> RepN P2 b o ->
  forall r s' o', append_points F (s, o) = (Ok r, (s', o')) -> append_points F (we e s, o) = (Ok r, (s', o')).
Proof.
  intros H1 H2 r s' o' E.
  destruct (has_ok F P1 a s Points H1) as (f1 & Eh1 & _). rewrite (RepN_hasP _ _ _ _ H1) in Eh1.
  destruct (has_ok F P2 b o Points H2) as (f2 & Eh2 & _). rewrite (RepN_hasP _ _ _ _ H2) in Eh2.
  rewrite (append_is_rest _ _ _ _ Eh2 Eh1) in E.
  assert (Eh3 : has F Points (we e s) = (Ok true, we e (with_flg F f1 s))) by (rewrite blind_has, Eh1; reflexivity).
  rewrite (append_is_rest _ _ _ _ Eh2 Eh3). destruct (fin_rest e (with_flg F f1 s) (with_flg F f2 o)) as [_ Hf].
  rewrite (Hf r); [exact E|]. rewrite E. reflexivity.
Qed.

(* appending to a clone gives the concatenated clouds *)
Lemma clone_append a b s o c s' : Rep a s -> Rep b o -> qp a <> None -> qp b <> None -> same_attrs F a b ->
  clone F s = (Ok c, s') ->
  exists c' o', append_points F (c, o) = (Ok tt, (c', o')) /\ Rep (append_spec F a b) c' /\ Rep b o'.
Proof.
  intros Ha Hb Na Nb Hs Hc. destruct (qp a) as [P1|] eqn:E1; [|congruence]. destruct (qp b) as [P2|] eqn:E2; [|congruence].
  pose proof (Rep_RepN _ _ _ _ E1 Ha) as H1. pose proof (Rep_RepN _ _ _ _ E2 Hb) as H2.
  assert (AR : append_result F a b = append_spec F a b) by (unfold append_result; now rewrite E1, E2).
  destruct (qp (lst F s)) as [l|] eqn:El.
  - destruct (clone_ok F P1 a s H1) as (c0 & s0 & Ec & Hc0 & _); [left; congruence|].
    assert (c0 = c) by congruence. subst c0.
    destruct (append_ok F a b c o) as (c' & o' & E & R1 & R2); [eapply RepN_Rep; eauto|exact Hb|auto|].
    rewrite AR in R1. eauto.
  - destruct (clone_padded F P1 a s H1 El) as (f & c0 & Ec & _ & Hc0 & Hp). assert (c0 = c) by congruence. subst c0.
    set (c1 := we (Some (all_equal (counts_of F P1))) c).
    assert (Hr : RepN P1 a c1).
    { subst c c1. destruct H1. constructor; cbn; auto; intros x; left; now destruct x. }
    destruct (append_ok F a b c1 o) as (c' & o' & E & R1 & R2); [eapply RepN_Rep; eauto|exact Hb|auto|].
    exists c', o'. split; [|rewrite <- AR; auto].
    replace c with (we (equi F c) c1) by (unfold c1, we; destruct c; reflexivity).
    eapply append_we; eassumption.
Qed.
Lemma clone_append_result a b s o c s' r c' o' : Rep a s -> Rep b o -> qp a <> None -> qp b <> None ->
  clone F s = (Ok c, s') -> append_points F (c, o) = (Ok r, (c', o')) -> Rep (append_spec F a b) c'.
Proof.
  intros Ha Hb Na Nb Hc Happ. destruct (qp a) as [P1|] eqn:E1; [|congruence]. destruct (qp b) as [P2|] eqn:E2; [|congruence].
  pose proof (Rep_RepN _ _ _ _ E1 Ha) as H1. pose proof (Rep_RepN _ _ _ _ E2 Hb) as H2.
  assert (K : exists c1, RepN P1 a c1 /\ exists e, c = we e c1).
  { destruct (qp (lst F s)) as [l|] eqn:El.
    - destruct (clone_ok F P1 a s H1) as (c0 & s0 & Ec & Hc0 & _); [left; congruence|].
      assert (c0 = c) by congruence. subst c0. exists c. split; [exact Hc0|]. exists (equi F c). destruct c; reflexivity.
    - destruct (clone_padded F P1 a s H1 El) as (f & c0 & Ec & _ & Hc0 & Hp). assert (c0 = c) by congruence. subst c0.
      exists (we (Some (all_equal (counts_of F P1))) c). split; [|exists (equi F c); destruct c; reflexivity].
      subst c. destruct H1. constructor; cbn; auto; intros x; left; now destruct x. }
  destruct K as (c1 & Hr & e & ->).
  destruct (append_nonempty F P1 P2 a b c1 o Hr H2) as [(_ & s2 & o2 & E & R1 & R2)|(Hn & Ee)].
  - pose proof (append_we e c1 o a b P1 P2 Hr H2 _ _ _ E) as E'. rewrite E' in Happ. injection Happ as _ <- _. eapply RepN_Rep; eauto.
  - exfalso. destruct (has_ok F P1 a c1 Points Hr) as (f1 & Eh1 & _). rewrite (RepN_hasP _ _ _ _ Hr) in Eh1.
    destruct (has_ok F P2 b o Points H2) as (f2 & Eh2 & _). rewrite (RepN_hasP _ _ _ _ H2) in Eh2.
    rewrite (append_is_rest _ _ _ _ Eh2 Eh1) in Ee.
    assert (Eh3 : has F Points (we e c1) = (Ok true, we e (with_flg F f1 c1))) by (rewrite blind_has, Eh1; reflexivity).
    rewrite (append_is_rest _ _ _ _ Eh2 Eh3) in Happ. destruct (fin_rest e (with_flg F f1 c1) (with_flg F f2 o)) as [Hf _].
    destruct Ee as (? & ? & Ee & _). rewrite Happ, Ee in Hf. discriminate.
Qed.

(* ---------------- the list of points is cached afterwards *)
Definition keeps2 {A} (m : M2 F A) : Prop := forall st, qp (lst F (fst st)) <> None -> qp (lst F (fst (snd (m st)))) <> None.
Definition ens {A} (m : M2 F A) : Prop := forall st r st', m st = (Ok r, st') -> qp (lst F (fst st')) <> None.
Lemma k2_bind {A B} (m : M2 F A) (k : A -> M2 F B) : keeps2 m -> (forall x, keeps2 (k x)) -> keeps2 (mbind m k).
Proof. intros Hm Hk st H. unfold mbind. specialize (Hm st H). destruct (m st) as [[x|e] st1]; cbn in *; [now apply Hk|exact Hm]. Qed.
Lemma k2_on2 {A} (m : M pc A) : keeps2 (on2 F m).
Proof. intros [s o] H. unfold on2. cbn [fst snd] in *. destruct (m o). exact H. Qed.
Lemma k2_on1 {A} (m : M pc A) : (forall s, qp (lst F s) <> None -> qp (lst F (snd (m s))) <> None) -> keeps2 (on1 F m).
Proof. intros Hm [s o] H. unfold on1. cbn [fst snd] in *. specialize (Hm s H). destruct (m s). exact Hm. Qed.
Lemma k2_ret {A} (x : A) : keeps2 (ret x). Proof. intros st H. exact H. Qed.
Lemma k2_raise {A} e : keeps2 (raise e : M2 F A). Proof. intros st H. exact H. Qed.
Lemma k2_lift {A} (r : res A) : keeps2 (lift r). Proof. intros st H. exact H. Qed.
Lemma ens_bind {A B} (m : M2 F A) (k : A -> M2 F B) : (forall x, ens (k x)) -> ens (mbind m k).
Proof. intros Hk st r st' E. unfold mbind in E. destruct (m st) as [[x|e] st1]; [eapply Hk; exact E|discriminate]. Qed.
Lemma ens_keep {A B} (m : M2 F A) (k : A -> M2 F B) : ens m -> (forall x, keeps2 (k x)) -> ens (mbind m k).
Proof.
  intros Hm Hk st r st' E. unfold mbind in E. destruct (m st) as [[x|e] st1] eqn:Em; [|discriminate].
  specialize (Hk x st1 (Hm _ _ _ Em)). rewrite E in Hk. exact Hk.
Qed.
Lemma ens_raise {A} e : ens (raise e : M2 F A). Proof. intros st r st' E. discriminate. Qed.

Lemma kl_has x s : qp (lst F s) <> None -> qp (lst F (snd (has F x s))) <> None.
Proof. intros H. unfold has, mbind, get. destruct (qget x (flg F s)); exact H. Qed.
Lemma kl_list x s : qp (lst F s) <> None -> qp (lst F (snd (get_list F x s))) <> None.
Proof.
  intros H. unfold get_list, mbind, get. destruct (qget x (lst F s)); [exact H|]. destruct (qget x (pad F s)) as [p|]; [|exact H].
  destruct (t3b p =? bat F s); cbn [negb]; [|exact H]. destruct (bat F s <=? length (num F s)); cbn [negb]; [|exact H].
  cbn. destruct x; cbn; try exact H; discriminate.
Qed.
Lemma kl_setl x l s : qp (lst F s) <> None -> qp (lst F (snd (modify (set_lst F x (Some l)) s))) <> None.
Proof. intros H. destruct x; cbn; try exact H; discriminate. Qed.
Lemma kl_setp x v s : qp (lst F s) <> None -> qp (lst F (snd (modify (set_pad F x v) s))) <> None.
Proof. intros H. exact H. Qed.
Lemma k2_append_attr x : keeps2 (append_attr F x).
Proof.
  apply k2_bind; [apply k2_on1, kl_list|]. intros l1. apply k2_bind; [apply k2_on2|]. intros l2. apply k2_bind; [apply k2_on1; auto|]. intros s.
  destruct l1 as [l1|]; [destruct l2 as [l2|]|].
  1: apply k2_bind; [apply k2_lift|]; intros l; apply k2_bind; [apply k2_on1, kl_setl|]; intros _; apply k2_on1, kl_setp.
  all: destruct (bat F s =? 0); [|apply k2_raise]; apply k2_bind; [apply k2_on1, kl_setl|]; intros _; apply k2_on1, kl_setp.
Qed.
Lemma k2_copy_attr x : keeps2 (copy_attr F x).
Proof.
  apply k2_bind; [apply k2_on2|]. intros [l|]; [apply k2_on1, kl_setl|apply k2_raise].
Qed.
Lemma ens_append_attr : ens (append_attr F Points).
Proof.
  apply ens_bind. intros l1. apply ens_bind. intros l2. apply ens_bind. intros s. destruct l1 as [l1|]; [destruct l2 as [l2|]|].
  1: apply ens_bind; intros l; apply ens_keep; [|intros _; apply k2_on1, kl_setp]; intros [s0 o0] r st' E; injection E as _ <-; discriminate.
  all: destruct (bat F s =? 0); [|apply ens_raise]; apply ens_keep; [|intros _; apply k2_on1, kl_setp]; intros [s0 o0] r st' E; injection E as _ <-; discriminate.
Qed.
Lemma ens_copy_attr : ens (copy_attr F Points).
Proof.
  apply ens_bind. intros [l|]; [|apply ens_raise]. intros [s0 o0] r st' E. injection E as _ <-. discriminate.
Qed.
Lemma k2_opt x : keeps2 (do h <- on1 F (has F x); if h then append_attr F x else ret tt).
Proof. apply k2_bind; [apply k2_on1, kl_has|]. intros [|]; [apply k2_append_attr|apply k2_ret]. Qed.
Lemma k2_opt2 x : keeps2 (do h <- on2 F (has F x); if h then copy_attr F x else ret tt).
Proof. apply k2_bind; [apply k2_on2|]. intros [|]; [apply k2_copy_attr|apply k2_ret]. Qed.

Lemma append_caches s o o1 r s' o' : has F Points o = (Ok true, o1) -> append_points F (s, o) = (Ok r, (s', o')) -> qp (lst F s') <> None.
Proof.
  intros E1. unfold append_points. unfold mbind at 1. unfold on2 at 1. cbn [fst snd]. rewrite E1. cbn [negb].
  unfold mbind at 1. unfold on1 at 1. cbn [fst snd]. destruct (has F Points s) as [[h|e] s1]; [|discriminate]. destruct h; cbn [negb].
  - change (append_rest (s1, o1) = (Ok r, (s', o')) -> qp (lst F s') <> None). intros E.
    assert (K : ens append_rest).
    { unfold append_rest. apply ens_bind. intros s2. apply ens_bind. intros o2. destruct (negb _); [apply ens_raise|].
      do 2 (apply ens_bind; intros ?). destruct (negb _); [apply ens_raise|].
      do 2 (apply ens_bind; intros ?). destruct (negb _); [apply ens_raise|].
      do 2 (apply ens_bind; intros ?). destruct (negb _); [apply ens_raise|].
      apply ens_bind. intros _. apply ens_keep; [apply ens_append_attr|]. intros _.
      do 3 (apply k2_bind; [apply k2_opt|]; intros _). apply k2_bind; [apply k2_on1; auto|]. intros s3. apply k2_bind; [apply k2_on2|]. intros o3.
      apply k2_bind; [apply k2_lift|]. intros ns. apply k2_on1. intros s4 H4. exact H4. }
    exact (K _ _ _ E).
  - set (m := (copy_attr F Points ;;; _)). assert (K : ens m).
    { apply ens_keep; [apply ens_copy_attr|]. intros _. do 3 (apply k2_bind; [apply k2_opt2|]; intros _).
      apply k2_bind; [apply k2_on2|]. intros o3. apply k2_on1. intros s4 H4. cbn. destruct (qp (lst F s4)); [exact H4|congruence]. }
    intros E. exact (K _ _ _ E).
Qed.
End CloneAppend.
