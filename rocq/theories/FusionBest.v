(* find_best_unique_correspondences (C39, C40). *)
From Coq Require Import Reals List Arith Bool ZArith Lia Lra Sorting.Sorted.
From Verif Require Import Res Fld StructUtilsModel StructUtilsSpec StructUtilsProofs PointcloudsModel PointcloudsSpec
  PointcloudsCtorSpec PointcloudsSetSpec PointcloudsIndexSpec PointcloudsHist PointcloudsProofs PointcloudsOps
  PointcloudsSet PointcloudsClone PointcloudsAppend PointcloudsHistProofs PointcloudsPropProofs
  MatSpec GeomSpec TensorModel TensorProofs GeomModel GeomProofs GeomPtsProofs RgbdModel RgbdSpec RgbdProofs RgbdCloud FusionModel FusionSpec FusionMap FusionActive FusionSimilar.
Import ListNotations.
Local Open Scope nat_scope.

(* ---------------- the lexicographic order *)
Lemma lex_refl x : lexcmp x x = Eq.
Proof. induction x as [|a x IH]; [reflexivity|]. cbn. destruct (Rlt_dec a a); [lra|exact IH]. Qed.
Lemma lex_eq x : forall y, lexcmp x y = Eq -> x = y.
Proof.
  induction x as [|a x IH]; intros [|b y]; cbn; try discriminate; [reflexivity|].
  destruct (Rlt_dec a b); [discriminate|]. destruct (Rlt_dec b a); [discriminate|]. intros H. f_equal; [lra|auto].
Qed.
Lemma lex_anti x : forall y, lexcmp y x = CompOpp (lexcmp x y).
Proof.
  induction x as [|a x IH]; intros [|b y]; cbn; try reflexivity.
  destruct (Rlt_dec b a), (Rlt_dec a b); try reflexivity; try lra. apply IH.
Qed.
Lemma lex_trans x : forall y z, lexcmp x y = Lt -> lexcmp y z = Lt -> lexcmp x z = Lt.
Proof.
  induction x as [|a x IH]; intros [|b y] [|c z]; cbn; try discriminate; try reflexivity.
  destruct (Rlt_dec a b).
  - intros _. destruct (Rlt_dec b c); [intros _; destruct (Rlt_dec a c); [reflexivity|lra]|].
    destruct (Rlt_dec c b); [discriminate|]. intros _. destruct (Rlt_dec a c); [reflexivity|lra].
  - destruct (Rlt_dec b a); [discriminate|]. intros H. destruct (Rlt_dec b c).
    + intros _. destruct (Rlt_dec a c); [reflexivity|lra].
    + destruct (Rlt_dec c b); [discriminate|]. intros H2. destruct (Rlt_dec a c); [lra|]. destruct (Rlt_dec c a); [lra|].
      eapply IH; eassumption.
Qed.
Definition llt (x y : list R) : Prop := lexcmp x y = Lt.

(* ---------------- torch.unique *)
Lemma insert_in k l x : In x (insert_key k l) <-> x = k \/ In x l.
Proof.
  induction l as [|y l IH]; cbn; [firstorder congruence|]. destruct (lexcmp k y) eqn:E; cbn; [|firstorder congruence|rewrite IH; tauto].
  apply lex_eq in E. subst. firstorder congruence.
Qed.
Lemma insert_sorted k l : StronglySorted llt l -> StronglySorted llt (insert_key k l).
Proof.
  induction l as [|y l IH]; cbn; intros H; [repeat constructor|]. inversion H as [|? ? H1 H2]; subst.
  destruct (lexcmp k y) eqn:E; [exact H| |].
  - constructor; [exact H|]. constructor; [exact E|]. rewrite Forall_forall in *. intros x Hx. eapply lex_trans; [exact E|]. apply H2. exact Hx.
  - constructor; [auto|]. rewrite Forall_forall in *. intros x Hx. apply insert_in in Hx. destruct Hx as [ -> |Hx]; [|auto].
    unfold llt. rewrite lex_anti, E. reflexivity.
Qed.
Lemma unique_in l x : In x (unique_rows l) <-> In x l.
Proof. induction l as [|y l IH]; cbn; [tauto|]. rewrite insert_in. firstorder congruence. Qed.
Lemma unique_sorted l : StronglySorted llt (unique_rows l).
Proof. induction l as [|y l IH]; cbn; [constructor|]. now apply insert_sorted. Qed.

(* ---------------- the first row of every group *)
Definition key (x : list R) : list R := [nth 0 x 0%R; nth 1 x 0%R; nth 2 x 0%R].
Lemma differs_spec x y : differs x y = true <-> key x <> key y.
Proof.
  unfold differs, key. cbn [forallb]. rewrite negb_true_iff.
  destruct (Req_EM_T (nth 0 x 0 - nth 0 y 0)%R 0%R) as [e0|e0]; [|split; [intros _ K; injection K; intros; apply e0; lra|reflexivity]].
  destruct (Req_EM_T (nth 1 x 0 - nth 1 y 0)%R 0%R) as [e1|e1]; [|split; [intros _ K; injection K; intros; apply e1; lra|reflexivity]].
  destruct (Req_EM_T (nth 2 x 0 - nth 2 y 0)%R 0%R) as [e2|e2]; [|split; [intros _ K; injection K; intros; apply e2; lra|reflexivity]].
  cbn. split; [discriminate|]. intros K. exfalso. apply K.
  assert (E : forall u v : R, (u - v)%R = 0%R -> u = v) by (intros; lra). rewrite (E _ _ e0), (E _ _ e1), (E _ _ e2). reflexivity.
Qed.
Lemma lex_key x y : 3 <= length x -> 3 <= length y -> llt x y -> lexcmp (key x) (key y) <> Gt.
Proof.
  destruct x as [|a0 [|a1 [|a2 x]]]; cbn [length]; try lia. destruct y as [|b0 [|b1 [|b2 y]]]; cbn [length]; try lia. intros _ _.
  unfold llt, key. cbn. destruct (Rlt_dec a0 b0); [discriminate|]. destruct (Rlt_dec b0 a0); [discriminate|].
  destruct (Rlt_dec a1 b1); [discriminate|]. destruct (Rlt_dec b1 a1); [discriminate|].
  destruct (Rlt_dec a2 b2); [discriminate|]. destruct (Rlt_dec b2 a2); [discriminate|]. intros _; discriminate.
Qed.
Lemma key_le_trans x y z : lexcmp x y <> Gt -> lexcmp y z = Lt -> lexcmp x z = Lt.
Proof.
  intros H1 H2. destruct (lexcmp x y) eqn:E; [|eapply lex_trans; eassumption|congruence]. apply lex_eq in E. now subst.
Qed.

Definition klt (x y : list R) : Prop := lexcmp (key x) (key y) = Lt.
Lemma firsts_sub l : forall p x, In x (firsts p l) -> In x l.
Proof.
  induction l as [|y l IH]; cbn; [tauto|]. intros p x. destruct (match p with None => true | Some z => differs y z end); cbn.
  - intros [->|H]; [left; reflexivity|right; eauto].
  - intros H. right. eauto.
Qed.
Lemma firsts_spec l : forall p, StronglySorted llt (p :: l) -> Forall (fun x => 3 <= length x) (p :: l) ->
  StronglySorted klt (firsts (Some p) l) /\ Forall (klt p) (firsts (Some p) l) /\
  forall x, In x l -> key x = key p \/ exists y, In y (firsts (Some p) l) /\ key y = key x /\ lexcmp y x <> Gt.
Proof.
  induction l as [|y l IH]; intros p HS HL.
  - cbn. repeat split; try constructor. contradiction.
  - inversion HS as [|? ? HS' HF]; subst. inversion HL as [|? ? L1 L2]; subst.
    destruct (IH y HS' L2) as (A1 & A2 & A3). inversion HF as [|? ? Hpy HF']; subst. inversion L2 as [|? ? L3 L4]; subst.
    pose proof (lex_key p y L1 L3 Hpy) as Hk. cbn [firsts]. destruct (differs y p) eqn:ED.
    + apply differs_spec in ED.
      assert (Hlt : klt p y).
      { unfold klt. destruct (lexcmp (key p) (key y)) eqn:E; [|reflexivity|congruence]. apply lex_eq in E. congruence. }
      repeat split.
      * constructor; assumption.
      * constructor; [exact Hlt|]. rewrite Forall_forall in *. intros x Hx. eapply lex_trans; [exact Hlt|]. apply A2. exact Hx.
      * intros x [ <- |Hx].
        -- right. exists y. rewrite lex_refl. repeat split; [left; reflexivity|discriminate].
        -- right. destruct (A3 x Hx) as [E|(z & Z1 & Z2 & Z3)].
           ++ exists y. repeat split; [left; reflexivity|auto|]. inversion HS' as [|? ? _ Q]; subst. rewrite Forall_forall in Q. rewrite (Q x Hx). discriminate.
           ++ exists z. repeat split; auto. right. exact Z1.
    + assert (ED' : key y = key p).
      { destruct (list_eq_dec Req_EM_T (key y) (key p)) as [E|N]; [exact E|]. apply differs_spec in N. congruence. }
      repeat split; [exact A1| |].
      * rewrite Forall_forall in *. intros x Hx. unfold klt. rewrite <- ED'. apply A2. exact Hx.
      * intros x [ <- |Hx]; [left; exact ED'|]. destruct (A3 x Hx) as [E|H]; [left; congruence|right; exact H].
Qed.
Lemma firsts_ok l : StronglySorted llt l -> Forall (fun x => 3 <= length x) l ->
  StronglySorted klt (firsts None l) /\
  forall x, In x l -> exists y, In y (firsts None l) /\ key y = key x /\ lexcmp y x <> Gt.
Proof.
  destruct l as [|y l]; intros HS HL; cbn.
  - split; [constructor|contradiction].
  - destruct (firsts_spec l y HS HL) as (A1 & A2 & A3). split; [constructor; assumption|].
    intros x [ <- |Hx].
    + exists y. rewrite lex_refl. repeat split; [left; reflexivity|discriminate].
    + destruct (A3 x Hx) as [E|(z & Z1 & Z2 & Z3)].
      * exists y. repeat split; [left; reflexivity|auto|]. inversion HS as [|? ? _ Q]; subst. rewrite Forall_forall in Q. rewrite (Q x Hx). discriminate.
      * exists z. repeat split; auto.
Qed.

(* ---------------- criteria *)
Definition exact_on (rnd : R -> R) (r : row) : Prop :=
  rnd (INR (rb r)) = INR (rb r) /\ rnd (INR (rn r)) = INR (rn r) /\ rnd (INR (rh r)) = INR (rh r) /\ rnd (INR (rw r)) = INR (rw r).
Lemma to_long_INR k : to_long (INR k) = k.
Proof. unfold to_long. rewrite Int_part_INR. apply Nat2Z.id. Qed.
Lemma crit_row rnd feat pts vm r : exact_on rnd r -> row_of_criteria (criteria rnd feat pts vm r) = r.
Proof.
  intros (H1 & H2 & H3 & H4). unfold row_of_criteria, criteria.
  assert (L : forall X (l : list X) (u v d : X), last (l ++ [u; v]) d = v).
  { intros X l u v d. change [u; v] with ([u] ++ [v]). rewrite app_assoc. apply last_last. }
  rewrite app_assoc, L. cbn [app nth]. rewrite H1, H2, H3, H4, !to_long_INR. now destruct r.
Qed.
Lemma crit_key rnd feat pts vm r : key (criteria rnd feat pts vm r) = [rnd (INR (rb r)); rnd (INR (rh r)); rnd (INR (rw r))].
Proof. reflexivity. Qed.
Lemma crit_len rnd feat pts vm r : 3 <= length (criteria rnd feat pts vm r).
Proof. unfold criteria. cbn. lia. Qed.
Lemma key_pixel rnd feat pts vm r r' : exact_on rnd r -> exact_on rnd r' ->
  (key (criteria rnd feat pts vm r) = key (criteria rnd feat pts vm r') <-> same_pixel r r').
Proof.
  intros (H1 & _ & H3 & H4) (K1 & _ & K3 & K4). rewrite !crit_key, H1, H3, H4, K1, K3, K4. unfold same_pixel. split.
  - intros E. injection E. intros. repeat split; apply INR_eq; assumption.
  - intros (-> & -> & ->). reflexivity.
Qed.
Lemma klt_pixel rnd feat pts vm r r' : exact_on rnd r -> exact_on rnd r' ->
  klt (criteria rnd feat pts vm r) (criteria rnd feat pts vm r') -> before_pixel r r'.
Proof.
  intros (H1 & _ & H3 & H4) (K1 & _ & K3 & K4). unfold klt. rewrite !crit_key, H1, H3, H4, K1, K3, K4. cbn [lexcmp]. unfold before_pixel.
  destruct (Rlt_dec (INR (rb r)) (INR (rb r'))) as [Q|Q]; [intros _; left; now apply INR_lt|].
  destruct (Rlt_dec (INR (rb r')) (INR (rb r))); [discriminate|]. assert (E : rb r = rb r') by (apply INR_eq; lra).
  destruct (Rlt_dec (INR (rh r)) (INR (rh r'))) as [Q1|Q1]; [intros _; right; split; [exact E|]; left; now apply INR_lt|].
  destruct (Rlt_dec (INR (rh r')) (INR (rh r))); [discriminate|]. assert (E1 : rh r = rh r') by (apply INR_eq; lra).
  destruct (Rlt_dec (INR (rw r)) (INR (rw r'))) as [Q2|Q2]; [|destruct (Rlt_dec (INR (rw r')) (INR (rw r))); discriminate].
  intros _. right. split; [exact E|]. right. split; [exact E1|]. now apply INR_lt.
Qed.
Lemma recip_lt c c' e : (0 < e)%R -> (0 <= c)%R -> (0 <= c')%R -> (1 / (c + e) < 1 / (c' + e) -> c' < c)%R.
Proof.
  intros He Hc Hc' H. destruct (Rlt_dec c' c); [assumption|]. exfalso.
  assert (1 / (c' + e) <= 1 / (c + e))%R; [|lra]. unfold Rdiv. rewrite !Rmult_1_l. apply Rinv_le_contravar; lra.
Qed.
Lemma recip_eq c c' e : (0 < e)%R -> (0 <= c)%R -> (0 <= c')%R -> (1 / (c + e) = 1 / (c' + e) -> c = c')%R.
Proof.
  intros He Hc Hc' H. unfold Rdiv in H. rewrite !Rmult_1_l in H. apply Rinv_eq_reg in H; [lra|lra|lra] || (apply (f_equal Rinv) in H; rewrite !Rinv_inv in H; lra).
Qed.
Lemma sqrt_mono_inv u v : (0 <= u)%R -> (0 <= v)%R -> (u <= v -> sqrt u <= sqrt v)%R.
Proof. intros. now apply sqrt_le_1. Qed.

(* what the two reals compared after the pixel say *)
Lemma crit_compare rnd feat pts vm r r' : exact_on rnd r -> exact_on rnd r' -> t3c feat = 1 -> same_pixel r r' ->
  lexcmp (criteria rnd feat pts vm r) (criteria rnd feat pts vm r') <> Gt ->
  let c r := (1 / (get3 RF feat (rb r) (rn r) 0 + / 10 ^ 20))%R in
  let d r := rsum 3 (fun c => ((get3 RF pts (rb r) (rn r) c - img_at vm r c) ^ 2)%R) in
  (c r < c r')%R \/ c r = c r' /\ ((d r < d r')%R \/ d r = d r' /\ rn r <= rn r').
Proof.
  intros He He' H1 Hp H. cbv zeta.
  set (c r := (1 / (get3 RF feat (rb r) (rn r) 0 + / 10 ^ 20))%R).
  set (d r := rsum 3 (fun c => ((get3 RF pts (rb r) (rn r) c - img_at vm r c) ^ 2)%R)).
  assert (C : forall r, criteria rnd feat pts vm r = [rnd (INR (rb r)); rnd (INR (rh r)); rnd (INR (rw r)); c r; d r; rnd (INR (rn r))]).
  { intros r0. unfold criteria. rewrite H1. reflexivity. }
  rewrite !C in H. destruct Hp as (Eb & Eh & Ew). rewrite Eb, Eh, Ew in H. cbn [lexcmp] in H.
  destruct (Rlt_dec (rnd (INR (rb r'))) (rnd (INR (rb r')))); [lra|].
  destruct (Rlt_dec (rnd (INR (rh r'))) (rnd (INR (rh r')))); [lra|].
  destruct (Rlt_dec (rnd (INR (rw r'))) (rnd (INR (rw r')))); [lra|].
  destruct (Rlt_dec (c r) (c r')); [left; assumption|]. destruct (Rlt_dec (c r') (c r)); [congruence|].
  right. split; [lra|]. destruct (Rlt_dec (d r) (d r')); [left; assumption|]. destruct (Rlt_dec (d r') (d r)); [congruence|].
  right. split; [lra|]. destruct He as (_ & En & _ & _), He' as (_ & En' & _ & _). rewrite En, En' in H.
  destruct (Rlt_dec (INR (rn r)) (INR (rn r'))) as [L|L]; [apply INR_lt in L; lia|].
  destruct (Rlt_dec (INR (rn r')) (INR (rn r))) as [L'|L']; [congruence|]. apply INR_le. lra.
Qed.

(* the list result of the function for admissible rows *)
Lemma best_run rnd s a g fr q P rows :
  Ready a s -> Inv q g false fr -> fL fr = 1 -> fB fr = len_view RF a -> qp a = Some P -> qf a <> None ->
  Forall (in_map a) rows -> Forall (in_image fr) rows -> rows <> [] ->
  exists fp pp vm s' g', find_best_unique_correspondences rnd (Tbl rows) (s, g) =
      (Ok (map row_of_criteria (firsts None (unique_rows (map (criteria rnd fp pp vm) rows)))), (s', g')) /\
    Ready a s' /\ Inv true g' false fr /\ t3c fp = width RF a Features /\
    (width RF a Features = 1 -> forall r, In r rows -> get3 RF fp (rb r) (rn r) 0 = conf a (rb r) (rn r)) /\
    (forall r c, In r rows -> c < 3 -> get3 RF pp (rb r) (rn r) c = attr_at a Points (rb r) (rn r) c) /\
    (forall r c, In r rows -> c < 3 -> img_at vm r c = frame_point fr r c).
Proof.
  intros HR HI HL HB HP HN HM HF Hne. pose proof (batch_valid s a P (proj1 HR) HP) as Hv.
  pose proof HI as ((A0 & AB & AL & _ & _) & _). pose proof (len_P P a Hv) as HlP.
  destruct (qf a) as [LF|] eqn:EN; [clear HN|congruence].
  unfold find_best_unique_correspondences. cbn [table_type table_rows].
  rewrite (mb_lift _ _ _ tt eq_refl).
  rewrite (mb_ok _ _ _ _ _ (onr_ok get s g _ _ eq_refl)).
  rewrite (mb_lift _ _ _ tt) by (rewrite AL, HL; reflexivity).
  rewrite (mb_lift _ _ _ rows eq_refl).
  destruct (rd_has a s HR Points) as (s1 & E1 & HR1). cbn [qget] in E1. rewrite HP in E1. cbn [is_some] in E1.
  rewrite (mb_ok _ _ _ _ _ (onp_ok _ s g _ _ E1)).
  replace (negb true || (length rows =? 0)) with false by (destruct rows; [congruence|reflexivity]).
  rewrite (mb_ok _ _ _ _ _ (onp_ok get s1 g _ _ eq_refl)).
  rewrite (mb_lift _ _ _ tt) by (rewrite AB, (rd_len a s1 HR1), HB, Nat.eqb_refl; reflexivity).
  destruct (rd_has a s1 HR1 Features) as (s2 & E2 & HR2). cbn [qget] in E2. rewrite EN in E2. cbn [is_some] in E2.
  rewrite (mb_ok _ _ _ _ _ (onp_ok _ s1 g _ _ E2)). rewrite (mb_lift _ _ _ tt eq_refl).
  destruct (rd_padded a s2 HR2 Features) as (s3 & E3 & HR3). rewrite (mb_ok _ _ _ _ _ (onp_ok _ s2 g _ _ E3)).
  destruct (gvertex_read _ _ _ _ HI) as (vm & g1 & Ev & Hvm & HI1).
  rewrite (mb_ok _ _ _ _ _ (onr_ok _ s3 g _ _ Ev)).
  destruct (rd_padded a s3 HR3 Points) as (s4 & E4 & HR4). rewrite (mb_ok _ _ _ _ _ (onp_ok _ s3 g1 _ _ E4)).
  rewrite (padded_some RF P a Points P Hv HP), (padded_some RF P a Features LF Hv EN). cbn [width].
  set (N := biggest (counts_of RF P)).
  pose proof (valid_len _ _ _ Features _ Hv EN) as HlF. rewrite Forall_forall in HM, HF.
  rewrite (mb_lift _ _ _ tt).
  2:{ rewrite forallb_true; [reflexivity|]. intros r Hr. destruct (real_in_pad P a r Hv (HM r Hr)).
      rewrite pad_b. cbn [pad_to t3n]. rewrite andb_true_iff, !Nat.ltb_lt, HlF. auto. }
  rewrite (mb_lift _ _ _ tt) by (rewrite (rows_image_ok fr 3 vm _ rows Hvm HL) by (rewrite Forall_forall; exact HF); reflexivity).
  rewrite (mb_lift _ _ _ tt).
  2:{ rewrite forallb_true; [reflexivity|]. intros r Hr. destruct (real_in_pad P a r Hv (HM r Hr)).
      rewrite pad_b. cbn [pad_to t3n]. rewrite andb_true_iff, !Nat.ltb_lt. auto. }
  rewrite (mb_lift _ _ _ tt) by (rewrite (img_dims _ _ _ _ _ Hvm); reflexivity).
  eexists _, _, vm, s4, g1. split; [reflexivity|]. split; [exact HR4|]. split; [exact HI1|]. split; [reflexivity|].
  split; [|split].
  - intros Hw r Hr. destruct (real_in_pad P a r Hv (HM r Hr)) as [Hb Hn]. destruct (HM r Hr) as [_ Hnp].
    pose proof (padded_entry P a Hv Features LF (rb r) (rn r) 0 EN Hb Hn) as PE. unfold N. cbn [width] in PE |- *.
    rewrite PE by (cbn [width] in Hw; lia). destruct (Nat.ltb_spec (rn r) (npoints a (rb r))); [reflexivity|lia].
  - intros r c Hr Hc. destruct (real_in_pad P a r Hv (HM r Hr)) as [Hb Hn]. destruct (HM r Hr) as [_ Hnp].
    pose proof (padded_entry P a Hv Points P (rb r) (rn r) c HP Hb Hn Hc) as PE. unfold N. cbn [width] in PE.
    rewrite PE. destruct (Nat.ltb_spec (rn r) (npoints a (rb r))); [reflexivity|lia].
  - intros r c Hr Hc. rewrite (img_at_ok fr 3 vm _ r c Hvm HL (HF r Hr) Hc). reflexivity.
Qed.

Lemma sorted_crit rnd fp pp vm rows out : Forall (exact_on rnd) rows ->
  (forall x, In x out -> exists r, In r rows /\ x = criteria rnd fp pp vm r) ->
  StronglySorted klt out -> StronglySorted before_pixel (map row_of_criteria out).
Proof.
  intros HE. rewrite Forall_forall in HE. induction out as [|x out IH]; intros Hin HS; cbn; [constructor|].
  inversion HS as [|? ? H1 H2]; subst. constructor; [apply IH; [intros y Hy; apply Hin; right; exact Hy|exact H1]|].
  rewrite Forall_forall in *. intros y Hy. apply in_map_iff in Hy. destruct Hy as (z & <- & Hz).
  destruct (Hin x (or_introl eq_refl)) as (r & Hr & ->). destruct (Hin z (or_intror Hz)) as (r' & Hr' & ->).
  rewrite !crit_row by auto. eapply klt_pixel; [auto|auto|]. apply H2. exact Hz.
Qed.

(* the rows of the result, for any number of feature channels *)
Lemma best_rows rnd s a g fr q P rows :
  Ready a s -> Inv q g false fr -> fL fr = 1 -> fB fr = len_view RF a -> qp a = Some P -> qf a <> None ->
  Forall (in_map a) rows -> Forall (in_image fr) rows -> Forall (exact_on rnd) rows ->
  exists out s' g', find_best_unique_correspondences rnd (Tbl rows) (s, g) = (Ok out, (s', g')) /\
    Ready a s' /\ (exists q', Inv q' g' false fr) /\
    (forall r, In r out -> In r rows) /\ StronglySorted before_pixel out /\
    (forall r, In r rows -> exists r', In r' out /\ same_pixel r' r) /\
    (width RF a Features = 1 -> (forall r, In r rows -> 0 <= conf a (rb r) (rn r))%R ->
     forall r, In r rows -> exists r', In r' out /\ same_pixel r' r /\ at_least_as_good a fr r' r).
Proof.
  intros HR HI HL HB HP HN HM HF HE. destruct (list_eq_dec (fun x y : row => ltac:(decide equality; apply Nat.eq_dec) : {x = y} + {x <> y}) rows []) as [->|Hne].
  { unfold find_best_unique_correspondences. cbn [table_type table_rows].
    pose proof HI as ((A0 & AB & AL & _ & _) & _).
    rewrite (mb_lift _ _ _ tt eq_refl).
    rewrite (mb_ok _ _ _ _ _ (onr_ok get s g _ _ eq_refl)).
    rewrite (mb_lift _ _ _ tt) by (rewrite AL, HL; reflexivity).
    rewrite (mb_lift _ _ _ [] eq_refl).
    destruct (rd_has a s HR Points) as (s1 & E1 & HR1).
    rewrite (mb_ok _ _ _ _ _ (onp_ok _ s g _ _ E1)). cbn [length Nat.eqb]. rewrite orb_true_r.
    exists [], s1, g. split; [reflexivity|]. split; [exact HR1|]. split; [exists q; exact HI|].
    split; [contradiction|]. split; [constructor|]. split; [contradiction|]. intros _ _ r []. }
  destruct (best_run rnd s a g fr q P rows HR HI HL HB HP HN HM HF Hne) as (fp & pp & vm & s' & g' & E & HR' & HI' & Hw & Hc & Hp & Hvm).
  rewrite Forall_forall in HE.
  set (cr := criteria rnd fp pp vm) in *. set (u := unique_rows (map cr rows)) in *.
  assert (Hu : forall x, In x u -> exists r, In r rows /\ x = cr r).
  { intros x Hx. apply (proj1 (unique_in _ _)) in Hx. apply in_map_iff in Hx. destruct Hx as (r & <- & Hr). exists r. auto. }
  destruct (firsts_ok u (unique_sorted _)) as [S1 S2].
  { rewrite Forall_forall. intros x Hx. destruct (Hu x Hx) as (r & _ & ->). apply crit_len. }
  assert (Hcov : forall r, In r rows -> exists r', In r' (map row_of_criteria (firsts None u)) /\ In r' rows /\ same_pixel r' r /\ lexcmp (cr r') (cr r) <> Gt).
  { intros r Hr. destruct (S2 (cr r)) as (y & Y1 & Y2 & Y3). { apply unique_in. apply List.in_map. exact Hr. }
    destruct (Hu y (firsts_sub _ _ _ Y1)) as (r' & Hr' & ->). exists r'. split; [|split; [exact Hr'|split; [|exact Y3]]].
    - apply in_map_iff. exists (cr r'). split; [apply crit_row; auto|exact Y1].
    - eapply key_pixel; [| |exact Y2]; auto. }
  exists (map row_of_criteria (firsts None u)), s', g'. split; [exact E|]. split; [exact HR'|]. split; [exists true; exact HI'|]. split; [|split; [|split]].
  - intros r Hr. apply in_map_iff in Hr. destruct Hr as (x & <- & Hx). destruct (Hu x (firsts_sub _ _ _ Hx)) as (r' & Hr' & ->).
    unfold cr. rewrite crit_row; auto.
  - eapply sorted_crit; [rewrite Forall_forall; exact HE| |exact S1]. intros x Hx. apply Hu. eapply firsts_sub; exact Hx.
  - intros r Hr. destruct (Hcov r Hr) as (r' & H1 & _ & H2 & _). exists r'. auto.
  - intros Hw1 Hpos r Hr. destruct (Hcov r Hr) as (r' & H1 & H1' & H2 & H3). exists r'. split; [exact H1|]. split; [exact H2|].
    assert (Hcmp := crit_compare rnd fp pp vm r' r (HE _ H1') (HE _ Hr) ltac:(congruence) H2 H3). cbv zeta beta in Hcmp.
    rewrite !(Hc Hw1) in Hcmp by assumption.
    assert (HD : forall r, In r rows -> rsum 3 (fun c => ((get3 RF pp (rb r) (rn r) c - img_at vm r c) ^ 2)%R)
                 = dot 3 (fun k => (attr_at a Points (rb r) (rn r) k - frame_point fr r k)%R) (fun k => (attr_at a Points (rb r) (rn r) k - frame_point fr r k)%R)).
    { intros r0 Hr0. unfold dot. cbn [rsum]. rewrite !Hp, !Hvm by (auto; lia). ring. }
    rewrite !HD in Hcmp by assumption.
    assert (He : (0 < / 10 ^ 20)%R) by (apply Rinv_0_lt_compat, pow_lt; lra).
    unfold at_least_as_good. cbv zeta. destruct Hcmp as [Hl|[Hq Hd]].
    + left. eapply recip_lt; [exact He| | |exact Hl]; auto.
    + right. split; [eapply recip_eq; [exact He| | |exact Hq]; auto|]. unfold distance, norm.
      destruct Hd as [Hd|[Hd Hn]]; [left|right; split; [rewrite Hd; reflexivity|exact Hn]].
      assert (Hsq : forall uu, (0 <= dot 3 uu uu)%R) by (intros uu; unfold dot; cbn [rsum]; pose proof (Rle_0_sqr (uu 0%nat)); pose proof (Rle_0_sqr (uu 1%nat)); pose proof (Rle_0_sqr (uu 2%nat)); unfold Rsqr in *; lra).
      apply sqrt_lt_1; [apply Hsq|apply Hsq|exact Hd].
Qed.
