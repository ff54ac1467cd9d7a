(* freeze and defrost, and attribute access on frozen configurations. *)
From Coq Require Import ZArith String Ascii List Bool Arith Lia.
From Verif Require Import ConfigModel ConfigSpec ConfigHeap ConfigCopy ConfigTree ConfigPaths.
Import ListNotations.
Local Open Scope list_scope.
Local Open Scope nat_scope.

(* only frozen flags of the objects in S change *)
Definition flagged (b : bool) (S : list loc) (h h' : heap) : Prop :=
  length h' = length h /\ forall l o, nth_error h l = Some o -> nth_error h' l = Some o \/
    In l S /\ exists m d, o = ONode m d /\ nth_error h' l = Some (ONode (with_frozen b m) d).
Lemma flagged_refl b S h : flagged b S h h.
Proof. split; auto. Qed.
Lemma flagged_trans b S S' h h1 h2 : flagged b S h h1 -> flagged b S' h1 h2 -> flagged b (S ++ S') h h2.
Proof.
  intros [L1 F1] [L2 F2]. split; [congruence|]. intros l o E. destruct (F1 _ _ E) as [E1|(I1 & m & d & -> & E1)].
  - destruct (F2 _ _ E1) as [E2|(I2 & m & d & -> & E2)]; [auto|]. right. split; [apply in_app_iff; auto|]. eauto.
  - destruct (F2 _ _ E1) as [E2|(I2 & m' & d' & X & E2)]; [right; split; [apply in_app_iff; auto|eauto]|].
    inversion X; subst. right. split; [apply in_app_iff; auto|]. exists m, d'. split; [reflexivity|]. exact E2.
Qed.
Lemma flagged_weaken b S S' h h' : flagged b S h h' -> incl S S' -> flagged b S' h h'.
Proof. intros [L F] I. split; [exact L|]. intros l o E. destruct (F _ _ E) as [?|(X & ?)]; auto. Qed.

Lemma reads_flagged_all b S h h' : flagged b S h h' ->
  (forall v t fp, reads h v t fp -> (forall l, In l fp -> ~ In l S) -> reads h' v t fp) /\
  (forall v t fp, reads_all h v t fp -> (forall l, In l fp -> ~ In l S) -> reads_all h' v t fp) /\
  (forall v t fp, reads_items h v t fp -> (forall l, In l fp -> ~ In l S) -> reads_items h' v t fp).
Proof.
  intros [_ F]. apply reads_ind3.
  - constructor.
  - intros vs ts fp R IH H. constructor. auto.
  - intros l vs ts fp E R IH H. destruct (F _ _ E) as [E'|(_ & m & d & X & _)]; [|discriminate]. econstructor; eauto.
  - intros l d ts fp E N R IH H. destruct (F _ _ E) as [E'|(_ & m & d' & X & _)]; [|discriminate]. econstructor; eauto. apply IH. intros x Hx. apply H. cbn; auto.
  - intros l m d ts fp E N R IH H. destruct (F _ _ E) as [E'|(C & _)]; [|exfalso; apply (H l); cbn; auto]. econstructor; eauto. apply IH. intros x Hx. apply H. cbn; auto.
  - constructor.
  - intros v t fp vs ts fps R IH Rs IHs H. constructor; [apply IH|apply IHs]; intros l Hl; apply H, in_app_iff; auto.
  - constructor.
  - intros k v t fp d ts fps R IH Rs IHs H. constructor; [apply IH|apply IHs]; intros l Hl; apply H, in_app_iff; auto.
Qed.
Lemma reads_flagged b S h h' v t fp : flagged b S h h' -> reads h v t fp -> (forall l, In l fp -> ~ In l S) -> reads h' v t fp.
Proof. intros F. apply (reads_flagged_all b S h h' F). Qed.
Lemma reads_items_flagged b S h h' v t fp : flagged b S h h' -> reads_items h v t fp -> (forall l, In l fp -> ~ In l S) -> reads_items h' v t fp.
Proof. intros F. apply (reads_flagged_all b S h h' F). Qed.

Fixpoint frozen_items (b : bool) (d : list (string * tree)) : list (string * tree) :=
  match d with [] => [] | (k, x) :: r => (k, all_frozen b x) :: frozen_items b r end.
Lemma all_frozen_node b m d : all_frozen b (TNode m d) = TNode (with_frozen b m) (frozen_items b d).
Proof. cbn. f_equal. induction d as [|[k x] d IH]; cbn; congruence. Qed.
Lemma all_frozen_leaf b t : nodeb t = false -> all_frozen b t = t.
Proof. destruct t; [reflexivity..|discriminate]. Qed.

Definition freeze_step (f : nat) (b : bool) (kv : string * val) : M unit :=
  let! isn := get (fun h => is_node h (snd kv)) in if (isn : bool) then immutable_ f b (snd kv) else ret tt.

Lemma immutable_ok b : forall fuel self h t fp, reads h self t fp -> NoDup fp -> nodeb t = true -> tdepth t <= fuel ->
  exists h', immutable_ fuel b self h = (h', Done tt) /\ reads h' self (all_frozen b t) fp /\ flagged b fp h h'.
Proof.
  induction fuel as [|f IH]; intros self h t fp R N Nt D.
  - destruct t; cbn in D; lia.
  - destruct t as [| | | |m ts]; try discriminate. inversion R as [| | | |l ? d ? fp' E ND Ri]; subst.
    inversion N as [|? ? N1 N2]; subst.
    cbn [immutable_]. fold (freeze_step f b).
    set (h1 := upd h l (ONode (mkMeta b (m_new m) (m_dep m) (m_ren m)) d)).
    erewrite (bind_eq (set_frozen (VRef l) b)). 2:{ cbn. unfold bind, load. rewrite E. reflexivity. }
    fold h1. assert (E1 : nth_error h1 l = Some (ONode (with_frozen b m) d)) by (apply upd_same; eapply nth_lt; eauto).
    erewrite bind_eq. 2:{ cbn. unfold bind, load. rewrite E1. reflexivity. }
    assert (F1 : flagged b [l] h h1).
    { split; [apply upd_length|]. intros l' o E'. destruct (Nat.eq_dec l l') as [<-|Hn].
      - right. split; [cbn; auto|]. rewrite E in E'. inversion E'; subst. exists m, d. split; [reflexivity|exact E1].
      - left. unfold h1. rewrite upd_other by auto. exact E'. }
    assert (Ri1 : reads_items h1 d ts fp').
    { eapply reads_items_flagged; eauto. intros x Hx [<-|[]]. contradiction. }
    assert (Dt : forall k t, In (k, t) ts -> tdepth t <= f).
    { intros k t Hin. pose proof (tdepth_node m _ _ _ Hin). lia. }
    assert (L : exists h', mapM (freeze_step f b) d h1 = (h', Done (map (fun _ => tt) d)) /\ reads_items h' d (frozen_items b ts) fp' /\ flagged b fp' h1 h').
    { clear E ND R N Nt E1 F1 D Ri N1. clearbody h1. revert h1 Ri1 N2. revert Dt. revert ts fp'. induction d as [|[k v] d IHd]; intros ts fp' Dt h1 Ri N2.
      - inversion Ri; subst. exists h1. repeat split; auto.
      - inversion Ri as [|? ? t fp ? ts' fps Rv Rs]; subst. apply NoDup_app_iff in N2. destruct N2 as (N2 & N3 & N4).
        assert (Step : exists h2, freeze_step f b (k, v) h1 = (h2, Done tt) /\ reads h2 v (all_frozen b t) fp /\ flagged b fp h1 h2).
        { unfold freeze_step. unfold bind at 1, get at 1. cbn [snd]. rewrite (reads_is_node _ _ _ _ Rv). destruct (nodeb t) eqn:Nt'.
          - apply IH; auto. apply (Dt k). cbn; auto.
          - exists h1. rewrite all_frozen_leaf by auto. repeat split; auto. }
        destruct Step as (h2 & S1 & S2 & S3).
        destruct (IHd ts' fps) with (h1 := h2) as (h3 & S4 & S5 & S6); auto.
        { intros k' t' Hin. apply (Dt k'). cbn; auto. }
        { eapply reads_items_flagged; [exact S3|exact Rs|]. intros x Hx C. apply (N4 x); auto. }
        exists h3. split.
        { cbn [mapM map]. rewrite (bind_eq _ _ _ _ _ S1), (bind_eq _ _ _ _ _ S4). reflexivity. }
        split; [|apply (flagged_trans _ _ _ _ _ _ S3 S6)]. constructor; [|exact S5].
        eapply reads_flagged; [exact S6|exact S2|]. intros x Hx C. apply (N4 x); auto. }
    destruct L as (h' & L1 & L2 & L3). exists h'.
    split. { rewrite (bind_eq _ _ _ _ _ L1). reflexivity. }
    split; [|apply (flagged_trans _ [l] _ _ _ _ F1 L3)].
    rewrite all_frozen_node. econstructor; [|exact ND|exact L2].
    destruct L3 as [_ L3]. destruct (L3 _ _ E1) as [?|(C & _)]; [auto|contradiction].
Qed.

(* ---------------------------------------------------------------- attribute access along a path *)
Lemma getattr_reads h v t fp d k : reads h v t fp -> entries t = Some d -> user_name k ->
  match dget d k with
  | Some c => exists x fpx, getattr_ v k h = (h, Done (Some x)) /\ reads h x c fpx /\ incl fpx fp
  | None => getattr_ v k h = (h, Raise XAttribute)
  end.
Proof.
  intros R E [U1 U2]. destruct (reads_branch _ _ _ _ _ R E) as (l & o & its & fp' & -> & Eo & Ei & ND & Ri & -> & _).
  unfold getattr_. assert (has class_names k = false) as ->. { destruct (has class_names k) eqn:H; [|reflexivity]. apply has_in in H. contradiction. }
  rewrite U2. cbn [orb]. erewrite bind_eq by (cbn; unfold bind, load; rewrite Eo, Ei; reflexivity).
  destruct (dget its k) as [x|] eqn:Ek.
  - destruct (reads_items_split _ _ _ _ _ _ Ri Ek) as (d1 & d2 & ts1 & ts2 & t0 & fa & fk & fb & -> & -> & -> & Ra & Rk & Rb & Na & Nb).
    rewrite dget_split by auto. exists x, fk. repeat split; auto. intros y Hy. right. apply in_app_iff. right. apply in_app_iff. auto.
  - pose proof (reads_items_get _ _ _ _ k Ri) as G. rewrite Ek in G. destruct (dget d k); [contradiction|]. reflexivity.
Qed.

Lemma attr_path_reads p : forall h v t fp c, reads h v t fp -> Forall user_name p -> at_path t p = Some c ->
  exists x fpx, attr_path v p h = (h, Done x) /\ reads h x c fpx /\ incl fpx fp.
Proof.
  induction p as [|k p IH]; intros h v t fp c R U A.
  - cbn in A. inversion A; subst. exists v, fp. repeat split; auto. intros x Hx; exact Hx.
  - inversion U; subst. cbn in A. destruct (entries t) as [d|] eqn:Ed; [|discriminate].
    pose proof (getattr_reads _ _ _ _ _ k R Ed H1) as G. destruct (dget d k) as [c'|]; [|discriminate].
    destruct G as (x & fpx & G1 & G2 & G3). destruct (IH _ _ _ _ _ G2 H2 A) as (y & fpy & Y1 & Y2 & Y3).
    exists y, fpy. cbn [attr_path]. rewrite (bind_eq _ _ _ _ _ G1). repeat split; auto. intros z Hz. apply G3, Y3, Hz.
Qed.

Lemma all_frozen_path b p : forall t c, at_path t p = Some c -> no_plain_dict t -> at_path (all_frozen b t) p = Some (all_frozen b c).
Proof.
  induction p as [|k p IH]; intros t c A N; cbn in A |- *; [inversion A; subst; reflexivity|].
  destruct t as [| | |d|m d]; try discriminate; [exfalso; apply (N [] d); reflexivity|]. cbn [entries] in A.
  rewrite all_frozen_node. cbn [entries]. destruct (dget d k) as [x|] eqn:Ex; [|discriminate].
  assert (dget (frozen_items b d) k = Some (all_frozen b x)) as ->.
  { clear -Ex. induction d as [|[k' y] d IH]; cbn in *; [discriminate|]. destruct (String.eqb k' k); [congruence|auto]. }
  apply IH; auto. exact (no_plain_dict_child (TNode m d) d k x N eq_refl Ex).
Qed.
Lemma setattr_frozen h l m d name value : nth_error h l = Some (ONode m d) -> m_frozen m = true ->
  setattr_ (VRef l) name value h = (h, Raise XAttribute).
Proof. intros E F. unfold setattr_, is_frozen, meta_of, deref, bind, load. rewrite E. cbn. rewrite F. reflexivity. Qed.
Lemma assign_frozen h self t fp p m d name value : reads h self t fp -> Forall user_name p -> at_path t p = Some (TNode m d) -> m_frozen m = true ->
  assign self p name value h = (h, Raise XAttribute).
Proof.
  intros R U A F. destruct (attr_path_reads _ _ _ _ _ _ R U A) as (x & fpx & X1 & X2 & _). unfold assign. rewrite (bind_eq _ _ _ _ _ X1).
  inversion X2; subst. eapply setattr_frozen; eauto.
Qed.
