(* Two tables of correspondences with equivalent candidates and an equivalent order are equal. *)
From Coq Require Import Reals List Arith Bool ZArith Lia Lra Sorting.Sorted.
From Verif Require Import Res Fld StructUtilsModel PointcloudsModel PointcloudsSpec MatSpec GeomSpec TensorModel RgbdModel RgbdSpec FusionModel FusionSpec BatchProofs GradSpec.
Import ListNotations.
Local Open Scope nat_scope.

Lemma row_antisym b u k n n' h w : at_least_as_good u k (mkRow b n h w) (mkRow b n' h w) -> at_least_as_good u k (mkRow b n' h w) (mkRow b n h w) -> n = n'.
Proof. unfold at_least_as_good. cbn [rb rn]. unfold frame_point. cbn [rb rh rw]. intros [A|[A [B|[B C]]]] [A'|[A' [B'|[B' C']]]]; try lra. lia. Qed.
Lemma row_once rows n n' h w : StronglySorted before_pixel rows -> forall c, matched rows c n h w -> matched rows c n' h w -> n = n'.
Proof.
  unfold matched. intros H c. induction H as [|r rows H IH HF]; [intros []|]. rewrite Forall_forall in HF. intros [K|K] [K'|K'].
  - congruence.
  - subst r. specialize (HF _ K'). unfold before_pixel in HF. cbn in HF. lia.
  - subst r. specialize (HF _ K). unfold before_pixel in HF. cbn in HF. lia.
  - now apply IH.
Qed.
Lemma table_sub a f T d t rows a' f' T' d' t' rows' b n h w : Correspondences a f T d t rows -> Correspondences a' f' T' d' t' rows' ->
  (forall n h w, candidate a f T d t b n h w <-> candidate a' f' T' d' t' b n h w) ->
  (forall n n' h w, n <> n' -> candidate a f T d t b n h w -> candidate a f T d t b n' h w ->
     at_least_as_good a' f' (mkRow b n h w) (mkRow b n' h w) -> at_least_as_good a f (mkRow b n h w) (mkRow b n' h w)) ->
  matched rows b n h w -> matched rows' b n h w.
Proof.
  intros (_ & P2 & P3 & P4) (_ & Q2 & Q3 & Q4) HC HG M. pose proof (P3 _ _ _ _ M) as C. destruct (proj1 (HC n h w) C) as (R' & Sn' & Sm').
  destruct (Q4 _ _ _ _ R' Sn' Sm') as (n1 & M1 & G1). pose proof (proj2 (HC n1 h w) (Q3 _ _ _ _ M1)) as C1. destruct C1 as (R1 & Sn1 & Sm1).
  destruct (P4 _ _ _ _ R1 Sn1 Sm1) as (n2 & M2 & G2). pose proof (row_once _ _ _ _ _ P2 _ M2 M) as ->.
  destruct (Nat.eq_dec n1 n) as [->|N]; [exact M1|]. apply HG in G1; [|exact N|exact (conj R1 (conj Sn1 Sm1))|exact C].
  exfalso. apply N. symmetry. exact (row_antisym _ _ _ _ _ _ _ G2 G1).
Qed.
Lemma table_same a f T d t rows a' f' T' d' t' rows' b : Correspondences a f T d t rows -> Correspondences a' f' T' d' t' rows' ->
  (forall n h w, candidate a f T d t b n h w <-> candidate a' f' T' d' t' b n h w) ->
  (forall n n' h w, n <> n' -> candidate a f T d t b n h w -> candidate a f T d t b n' h w ->
     at_least_as_good a' f' (mkRow b n h w) (mkRow b n' h w) <-> at_least_as_good a f (mkRow b n h w) (mkRow b n' h w)) ->
  at_b b rows = at_b b rows'.
Proof.
  intros C C' HC HG. pose proof C as (_ & S & _). pose proof C' as (_ & S' & _).
  apply (sorted_unique (fun t t' : nat * (nat * nat) => fst (snd t) < fst (snd t') \/ fst (snd t) = fst (snd t') /\ snd (snd t) < snd (snd t'))).
  - intros; lia.
  - eapply at_b_sorted; [|exact S]. intros r r' E E' [K|K]; cbn; lia.
  - eapply at_b_sorted; [|exact S']. intros r r' E E' [K|K]; cbn; lia.
  - intros (n & h & w). rewrite !at_b_in. split; intros M.
    + eapply (table_sub a f T d t rows a' f' T' d' t' rows'); try eassumption. intros n1 n2 h1 w1 N K K' G. now apply HG.
    + eapply (table_sub a' f' T' d' t' rows' a f T d t rows); try eassumption; [intros; symmetry; apply HC|]. intros n1 n2 h1 w1 N K K' G. apply HG; [exact N|now apply HC|now apply HC|exact G].
Qed.
