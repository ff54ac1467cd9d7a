(* Storage-level reasoning about RGBDImages: programs only allocate; what they compute is what RgbdModel says. *)
From Coq Require Import Reals List Arith Bool ZArith Lia.
From Verif Require Import Res TensorModel RgbdModel RgbdStoreModel RgbdStoreSpec.
From Verif Require StoreModel.
Import ListNotations.
Local Open Scope nat_scope.

(* ---- heaps that only grow ---- *)
Definition ext (h h' : iheap) : Prop := exists t, h' = h ++ t.
Lemma ext_refl h : ext h h. Proof. exists []. now rewrite app_nil_r. Qed.
Lemma ext_trans h1 h2 h3 : ext h1 h2 -> ext h2 h3 -> ext h1 h3.
Proof. intros [a ->] [b ->]. exists (a ++ b). now rewrite app_assoc. Qed.
Lemma ext_app h t : ext h (h ++ t). Proof. now exists t. Qed.
Lemma ext_len h h' : ext h h' -> length h <= length h'.
Proof. intros [t ->]. rewrite app_length. lia. Qed.
Lemma ext_nth h h' l : ext h h' -> l < length h -> nth_error h' l = nth_error h l.
Proof. intros [t ->] L. now apply nth_error_app1. Qed.
Lemma ext_rdata h h' l : ext h h' -> l < length h -> rdata h' l = rdata h l.
Proof. intros E L. unfold rdata. now rewrite (ext_nth _ _ _ E L). Qed.
Lemma ext_mdata h h' l : ext h h' -> l < length h -> mdata h' l = mdata h l.
Proof. intros E L. unfold mdata. now rewrite (ext_nth _ _ _ E L). Qed.
Lemma ext_idev h h' l : ext h h' -> l < length h -> idev h' l = idev h l.
Proof. intros E L. unfold idev. now rewrite (ext_nth _ _ _ E L). Qed.
Lemma ext_read h h' r : ext h h' -> rloc r < length h -> rread h' r = rread h r.
Proof. intros E L. unfold rread. now rewrite (ext_rdata _ _ _ E L). Qed.
#[global] Hint Resolve ext_refl ext_app : core.

Lemma dev_eqb_refl d : dev_eqb d d = true.
Proof. destruct d; cbn; auto using Nat.eqb_refl. Qed.
Lemma dev_eqb_eq a b : dev_eqb a b = true -> a = b.
Proof. destruct a, b; cbn; try easy. intros H. apply Nat.eqb_eq in H. now subst. Qed.
Lemma dev_eqb_neq a b : a <> b -> dev_eqb a b = false.
Proof. intros N. destruct (dev_eqb a b) eqn:E; auto. elim N. now apply dev_eqb_eq. Qed.

(* ---- references and objects made of storages in Q, on device d ---- *)
Definition okr (Q : nat -> Prop) (d : dev) (h : iheap) (r : ref) : Prop :=
  Q (rloc r) /\ rloc r < length h /\ idev h (rloc r) = d.
Definition ok (Q : nat -> Prop) (d : dev) (h : iheap) (o : iobj) : Prop :=
  o_dev o = d /\ (forall k r, o_t o k = Some r -> okr Q d h r) /\
  (forall l, o_mask o = Some l -> Q l /\ l < length h /\ idev h l = d).
Lemma okr_ext Q d h h' r : ext h h' -> okr Q d h r -> okr Q d h' r.
Proof.
  intros E (A & B & C). split; [exact A|]. split; [pose proof (ext_len _ _ E); lia|]. now rewrite (ext_idev _ _ _ E B).
Qed.
Lemma ok_ext Q d h h' o : ext h h' -> ok Q d h o -> ok Q d h' o.
Proof.
  intros E (A & B & C). split; [exact A|]. split; [intros k r H; eapply okr_ext; eauto|].
  intros l H. destruct (C l H) as (X & Y & Z). split; [exact X|]. split; [pose proof (ext_len _ _ E); lia|].
  now rewrite (ext_idev _ _ _ E Y).
Qed.
Lemma okr_mono (Q Q' : nat -> Prop) d h r : (forall l, Q l -> Q' l) -> okr Q d h r -> okr Q' d h r.
Proof. intros H (A & B). split; auto. Qed.
Lemma ok_mono (Q Q' : nat -> Prop) d h o : (forall l, Q l -> Q' l) -> ok Q d h o -> ok Q' d h o.
Proof.
  intros H (A & B & C). split; [exact A|]. split; [intros k r E; eapply okr_mono; eauto|].
  intros l E. destruct (C l E) as [X Y]. auto.
Qed.
Lemma ok_valid Q d h o : ok Q d h o <-> o_dev o = d /\ ivalid h o /\ forall l, iuses o l -> Q l.
Proof.
  split.
  - intros (A & B & C). split; [exact A|]. split.
    + intros l [(k & r & E & <-)|E]; [destruct (B k r E) as (X & Y & Z)|destruct (C l E) as (X & Y & Z)]; now rewrite A.
    + intros l [(k & r & E & <-)|E]; [apply (B k r E)|apply (C l E)].
  - intros (A & B & C). split; [exact A|]. subst d. split.
    + intros k r E. assert (U : iuses o (rloc r)) by (left; eauto). destruct (B _ U). split; auto.
    + intros l E. assert (U : iuses o l) by (now right). destruct (B _ U). split; auto.
Qed.
Lemma iabs_ext Q d h h' o : ext h h' -> ok Q d h o -> iabs h' o = iabs h o.
Proof.
  intros E (A & B & C). unfold iabs.
  assert (R : forall k, option_map (rread h') (o_t o k) = option_map (rread h) (o_t o k)).
  { intros k. destruct (o_t o k) as [r|] eqn:Er; [|reflexivity]. cbn. f_equal. apply ext_read; [exact E|]. apply (B k r Er). }
  rewrite !R. f_equal. destruct (o_mask o) as [l|] eqn:El; [|reflexivity]. cbn. f_equal. apply ext_mdata; [exact E|].
  apply (C l eq_refl).
Qed.
(* the value depends on the storages used only *)
Lemma iabs_same h h' o : (forall l, iuses o l -> nth_error h' l = nth_error h l) -> iabs h' o = iabs h o.
Proof.
  intros H. unfold iabs.
  assert (R : forall k, option_map (rread h') (o_t o k) = option_map (rread h) (o_t o k)).
  { intros k. destruct (o_t o k) as [r|] eqn:Er; [|reflexivity]. cbn. f_equal. unfold rread, rdata. rewrite H; [reflexivity|].
    left. eauto. }
  rewrite !R. f_equal. destruct (o_mask o) as [l|] eqn:El; [|reflexivity]. cbn. f_equal. unfold mdata. rewrite H; [reflexivity|].
  now right.
Qed.

(* ---- a program over the heap and the value-level computation it stands for ---- *)
Definition sim {A B} (h : iheap) (m : M iheap A) (r : res B) (post : A -> iheap -> B -> Prop) : Prop :=
  ext h (snd (m h)) /\
  match fst (m h), r with
  | Ok a, Ok b => post a (snd (m h)) b
  | Err e, Err e' => e = e'
  | _, _ => False
  end.
Lemma sim_bind {A B A' B'} h (m : M iheap A) (r : res B) post (k : A -> M iheap A') (k' : B -> res B') post' :
  sim h m r post -> (forall a h' b, ext h h' -> post a h' b -> sim h' (k a) (k' b) post') ->
  sim h (mbind m k) (rbind r k') post'.
Proof.
  intros [E S] H. unfold mbind, rbind, sim. destruct (m h) as [[a|e] h1]; cbn [fst snd] in *; destruct r as [b|e']; try contradiction.
  - destruct (H a h1 b E S) as [E2 S2]. split; [eapply ext_trans; eauto|exact S2].
  - split; auto.
Qed.
Lemma sim_ret {A B} h (a : A) (b : B) (post : A -> iheap -> B -> Prop) : post a h b -> sim h (ret a) (Ok b) post.
Proof. intros P. split; cbn; auto. Qed.
Lemma sim_err {A B} h e (post : A -> iheap -> B -> Prop) : sim h (raise e) (Err e) post.
Proof. split; cbn; auto. Qed.
Lemma sim_lift {A} h (r : res A) : sim h (lift r) r (fun a h' b => h' = h /\ b = a).
Proof. split; cbn; auto. destruct r; auto. Qed.
Lemma sim_post {A B} h (m : M iheap A) (r : res B) (post post' : A -> iheap -> B -> Prop) :
  sim h m r post -> (forall a h' b, ext h h' -> post a h' b -> post' a h' b) -> sim h m r post'.
Proof.
  intros [E S] H. split; [exact E|]. destruct (m h) as [[a|e] h1]; cbn in *; destruct r; auto.
Qed.
Lemma sim_get {A B} h (k : iheap -> M iheap A) (r : res B) post : sim h (k h) r post -> sim h (mbind get k) r post.
Proof. exact (fun x => x). Qed.

Section Q.
Variable Q : nat -> Prop.
Variable n : nat.
Hypothesis Qn : forall l, n <= l -> Q l.

Lemma sim_new d h t : n <= length h ->
  sim h (new_ref d t) (Ok t) (fun r h' t => rread h' r = t /\ okr Q d h' r).
Proof.
  intros L. split; cbn; [apply ext_app|]. unfold rread, okr, rdata, idev. cbn.
  rewrite nth_error_app2, Nat.sub_diag by lia. cbn. split; [reflexivity|]. split; [now apply Qn|].
  rewrite app_length. cbn. split; [lia|reflexivity].
Qed.
Lemma sim_clone_ref d h r : n <= length h -> idev h (rloc r) = d ->
  sim h (clone_ref r) (Ok (rread h r)) (fun r' h' t => rread h' r' = t /\ okr Q d h' r').
Proof. intros L D. unfold clone_ref. apply sim_get. subst d. now apply sim_new. Qed.
Lemma sim_to_ref d h r : n <= length h -> Q (rloc r) -> rloc r < length h ->
  sim h (to_ref d r) (Ok (rread h r)) (fun r' h' t => rread h' r' = t /\ okr Q d h' r').
Proof.
  intros L Ql Lr. unfold to_ref. apply sim_get. destruct (dev_eqb (idev h (rloc r)) d) eqn:E; [|now apply sim_new].
  apply sim_ret. split; [reflexivity|]. apply dev_eqb_eq in E. split; auto.
Qed.
(* moved away: a new storage *)
Lemma sim_to_ref_new d h r : n <= length h -> idev h (rloc r) <> d ->
  sim h (to_ref d r) (Ok (rread h r)) (fun r' h' t => rread h' r' = t /\ okr Q d h' r').
Proof.
  intros L N. unfold to_ref. apply sim_get. rewrite (dev_eqb_neq _ _ N). now apply sim_new.
Qed.
Lemma sim_view d h f r : okr Q d h r ->
  sim h (view_ref f r) (f (rread h r)) (fun r' h' t => h' = h /\ rread h' r' = t /\ okr Q d h' r').
Proof.
  intros (A & B & C). unfold view_ref, sim, mbind, get, lift, ret, rread. cbn.
  destruct (f (rview r (rdata h (rloc r)))) as [t|e] eqn:E; cbn; split; auto.
  rewrite E. repeat split; auto.
Qed.

(* ---- constructor ---- *)
Definition arg_ok (h : iheap) (a : iarg) : Prop := forall l, In l (arg_locs a) -> Q l /\ l < length h.
Lemma sim_take_arg d h a : n <= length h -> arg_ok h a ->
  sim h (take_arg d a) (Ok (ten_of (rdinp h a)))
    (fun r h' t => option_map (rread h') r = t /\ forall r', r = Some r' -> okr Q d h' r').
Proof.
  intros L H. destruct a as [|r|]; cbn [take_arg rdinp ten_of]; try (apply sim_ret; split; [reflexivity|discriminate]).
  destruct (H (rloc r) (or_introl eq_refl)) as [H1 H2].
  destruct (sim_to_ref d h r L H1 H2) as [E S]. unfold sim, mbind. destruct (to_ref d r h) as [[r'|e] h1]; cbn in *; [|contradiction].
  split; [exact E|]. destruct S as [S1 S2]. split; [now rewrite S1|]. intros r'' X. injection X as <-. exact S2.
Qed.
Lemma arg_ok_ext h h' a : ext h h' -> arg_ok h a -> arg_ok h' a.
Proof. intros E H l I. destruct (H l I). split; [auto|]. pose proof (ext_len _ _ E). lia. Qed.
Lemma rdinp_ext h h' a : ext h h' -> arg_ok h a -> rdinp h' a = rdinp h a.
Proof.
  intros E H. destruct a as [|r|]; cbn; auto. f_equal. apply ext_read; [exact E|]. apply (H (rloc r)). now left.
Qed.
End Q.

(* fields of a value-level object after the constructor *)
Lemma rgbd_new_inv a b c p cf x s : rgbd_new a b c p cf x = Ok s ->
  exists ta tb tc, a = TTen ta /\ b = TTen tb /\ c = TTen tc /\ p <> TOther /\ x <> TOther /\
  s = mkRGBD cf (Some ta) (Some tb) (Some tc) (ten_of p) (ten_of x) None None None None None
        (r_rgbsh s) (r_depsh s) (r_intrsh s) (r_posesh s) (r_B s) (r_L s) (r_h s) (r_w s).
Proof.
  unfold rgbd_new. destruct a as [|ta|], b as [|tb|], c as [|tc|]; try (cbn; discriminate).
  { cbn [is_tensor guard rbind]. intros H. exists ta, tb, tc.
    repeat match type of H with rbind (guard ?g _) _ = _ => destruct g eqn:?; cbn [guard rbind] in H; [|discriminate H] end.
    injection H as <-. destruct p, x; try discriminate; repeat split; auto; discriminate. }
  all: cbn; destruct (opt_tensor p), (opt_tensor x); discriminate.
Qed.
