(* Each operation of a tape: the backward formula is the derivative. *)
From Coq Require Import Reals List Arith Bool Lia Lra.
From Verif Require Import GeomModel TapeModel TapeSpec GradSpec GradProofs TapeProofs.
Import ListNotations.
Local Open Scope R_scope.

Lemma lim_eq f x l l' : l = l' -> derivable_pt_lim f x l -> derivable_pt_lim f x l'.
Proof. now intros ->. Qed.
Lemma lim_diff f x l : derivable_pt_lim f x l -> differentiable f x.
Proof. intros H. exists l. exact H. Qed.
Lemma lim_div f g x a b : derivable_pt_lim f x a -> derivable_pt_lim g x b -> g x <> 0 ->
  derivable_pt_lim (fun t => f t / g t) x (a / g x - f x / g x / g x * b).
Proof.
  intros H H' N. apply lim_eq with ((a * g x - b * f x) / Rsqr (g x)); [unfold Rsqr; field; exact N|]. exact (derivable_pt_lim_div f g x a b H H' N).
Qed.
Lemma lim_sq f x a : derivable_pt_lim f x a -> derivable_pt_lim (fun t => f t * f t) x (2 * f x * a).
Proof. intros H. apply lim_eq with (a * f x + f x * a); [ring|]. exact (derivable_pt_lim_mult f f x a a H H). Qed.
Lemma lim_pow f x a n : derivable_pt_lim f x a -> derivable_pt_lim (fun t => f t ^ n) x (match n with O => 0 | S m => INR n * f x ^ m end * a).
Proof.
  intros H. apply lim_eq with (INR n * f x ^ pred n * a); [destruct n; cbn [INR pred]; [ring|reflexivity]|].
  exact (derivable_pt_lim_comp f (fun y => y ^ n) x a _ H (derivable_pt_lim_pow (f x) n)).
Qed.
Lemma lim_rsq (v : R -> nat -> R) x (d : nat -> R) l :
  (forall i, derivable_pt_lim (fun t => v t i) x (d i)) ->
  derivable_pt_lim (fun t => rsq (v t) l) x (fold_right (fun i s => 2 * v x i * d i + s) 0 l).
Proof.
  intros H. induction l as [|i l IH]; [apply derivable_pt_lim_const|].
  exact (derivable_pt_lim_plus (fun t => v t i * v t i) (fun t => rsq (v t) l) x _ _ (lim_sq _ _ _ (H i)) IH).
Qed.
Lemma near_gt f x r : differentiable f x -> r < f x -> near x (fun y => r < f y).
Proof. intros D H. apply (near_imp x (fun y => 0 < f y - r)); [intros; lra|]. apply (diff_pos (fun y => f y - r)); [|lra]. apply (diff_minus f (fun _ => r)); [exact D|apply diff_const]. Qed.
Lemma near_lt' f x r : differentiable f x -> f x < r -> near x (fun y => f y < r).
Proof. intros D H. apply (near_imp x (fun y => f y - r < 0)); [intros; lra|]. apply (diff_neg (fun y => f y - r)); [|lra]. apply (diff_minus f (fun _ => r)); [exact D|apply diff_const]. Qed.
Lemma near_ne f x r : differentiable f x -> f x <> r -> near x (fun y => f y <> r).
Proof.
  intros D H. destruct (Rtotal_order (f x) r) as [L|[L|L]]; [|contradiction|].
  - apply (near_imp x (fun y => f y < r)); [intros; lra|]. now apply near_lt'.
  - apply (near_imp x (fun y => r < f y)); [intros; lra|]. now apply near_gt.
Qed.
Lemma near_abs f x r : differentiable f x -> Rabs (f x) <> r -> near x (fun y => r < Rabs (f y) <-> r < Rabs (f x)).
Proof.
  intros D H. set (e := Rabs (Rabs (f x) - r)). assert (He : 0 < e) by (apply Rabs_pos_lt; lra).
  apply (near_imp x (fun y => Rabs (f y - f x) < e)); [|apply diff_cont; [exact D|exact He]].
  intros y Hy. assert (B : Rabs (Rabs (f y) - Rabs (f x)) < e) by (apply Rle_lt_trans with (2 := Hy), Rabs_triang_inv2).
  unfold e in *. revert B. unfold Rabs at 1 4. destruct (Rcase_abs _), (Rcase_abs _); split; lra.
Qed.

Section Op.
  Variables (E : R -> list R) (t0 : R) (d : list R).
  Let v t := rget (E t).
  Hypothesis HD : forall i, derivable_pt_lim (fun t => rget (E t) i) t0 (nth i d 0).
  Lemma cond_near c : away c (E t0) -> near t0 (fun t => xcond c (reals (E t)) = xcond c (reals (E t0))).
  Proof.
    intros A. pose proof (fun i => lim_diff _ _ _ (HD i)) as D.
    destruct c; cbn [away xcond] in *.
    - destruct (Rtotal_order (rget (E t0) i) r) as [L|[L|L]]; [|contradiction|].
      + apply (near_imp t0 (fun t => rget (E t) i < r)); [|apply (near_lt' (fun t => rget (E t) i)); [apply D|exact L]].
        intros y H. rewrite !xget_reals. cbn. repeat (destruct (Rlt_dec _ _)); try reflexivity; lra.
      + apply (near_imp t0 (fun t => r < rget (E t) i)); [|apply (near_gt (fun t => rget (E t) i)); [apply D|exact L]].
        intros y H. rewrite !xget_reals. cbn. repeat (destruct (Rlt_dec _ _)); try reflexivity; lra.
    - destruct (Rtotal_order (rget (E t0) i) r) as [L|[L|L]]; [|contradiction|].
      + apply (near_imp t0 (fun t => rget (E t) i < r)); [|apply (near_lt' (fun t => rget (E t) i)); [apply D|exact L]].
        intros y H. rewrite !xget_reals. cbn. repeat (destruct (Rlt_dec _ _)); try reflexivity; lra.
      + apply (near_imp t0 (fun t => r < rget (E t) i)); [|apply (near_gt (fun t => rget (E t) i)); [apply D|exact L]].
        intros y H. rewrite !xget_reals. cbn. repeat (destruct (Rlt_dec _ _)); try reflexivity; lra.
    - apply (near_imp t0 (fun t => r < Rabs (rget (E t) i) <-> r < Rabs (rget (E t0) i))); [|apply (near_abs (fun t => rget (E t) i)); [apply D|exact A]].
      intros y H. rewrite !xget_reals. destruct (Rlt_dec _ _), (Rlt_dec _ _); tauto.
    - apply (near_imp t0 (fun t => rget (E t) i <> 0)); [|apply (near_ne (fun t => rget (E t) i)); [apply D|exact A]].
      intros y H. rewrite !xget_reals. cbn. now rewrite !zero_false.
    - apply (near_imp t0 (fun t => rget (E t) i <> 0)); [|apply (near_ne (fun t => rget (E t) i)); [apply D|exact A]].
      intros y H. rewrite !xget_reals. cbn. now rewrite !zero_false.
  Qed.
  Lemma clamp_near lo hi i : (forall r, lo = Some r -> v t0 i <> r) -> (forall r, hi = Some r -> v t0 i <> r) ->
    derivable_pt_lim (fun t => rclamp lo hi (v t i)) t0 ((if below lo (Fin (v t0 i)) || above hi (Fin (v t0 i)) then 0 else 1) * nth i d 0).
  Proof.
    intros L H. pose proof (fun i => lim_diff _ _ _ (HD i)) as D.
    assert (K : forall c, near t0 (fun t => rclamp lo hi (v t i) = c) -> derivable_pt_lim (fun t => rclamp lo hi (v t i)) t0 (0 * nth i d 0)).
    { intros c N. apply lim_near with (fun _ => c); [exact N|]. apply lim_eq with 0; [ring|]. apply derivable_pt_lim_const. }
    assert (J : near t0 (fun t => rclamp lo hi (v t i) = v t i) -> derivable_pt_lim (fun t => rclamp lo hi (v t i)) t0 (1 * nth i d 0)).
    { intros N. apply lim_near with (fun t => v t i); [exact N|]. apply lim_eq with (nth i d 0); [ring|]. apply HD. }
    assert (NG : forall r, r < v t0 i -> near t0 (fun t => r < v t i)) by (intros r Hr; apply (near_gt (fun t => v t i)); [apply D|exact Hr]).
    assert (NL : forall r, v t0 i < r -> near t0 (fun t => v t i < r)) by (intros r Hr; apply (near_lt' (fun t => v t i)); [apply D|exact Hr]).
    unfold rclamp, xclamp in *. destruct lo as [a|]; cbn [below xlt] in *.
    - specialize (L a eq_refl). destruct (Rlt_dec (v t0 i) a) as [B|B].
      + cbn [orb]. apply (K (match hi with Some b => if Rlt_dec b a then b else a | None => a end)).
        apply (near_imp t0 (fun t => v t i < a)); [|now apply NL]. intros y Hy. destruct (Rlt_dec (v y i) a); [|lra]. destruct hi as [b|]; cbn; [destruct (Rlt_dec b a)|]; reflexivity.
      + assert (B' : a < v t0 i) by lra. cbn [orb]. destruct hi as [b|]; cbn [above xgt] in *.
        * specialize (H b eq_refl). destruct (Rlt_dec b (v t0 i)) as [C|C].
          -- apply (K b). apply (near_imp t0 (fun t => a < v t i /\ b < v t i)); [|apply near_and; [now apply NG|now apply NG]].
             intros y [Hy Hy']. destruct (Rlt_dec (v y i) a); [lra|]. cbn. destruct (Rlt_dec b (v y i)); [reflexivity|lra].
          -- assert (C' : v t0 i < b) by lra. apply J. apply (near_imp t0 (fun t => a < v t i /\ v t i < b)); [|apply near_and; [now apply NG|now apply NL]].
             intros y [Hy Hy']. destruct (Rlt_dec (v y i) a); [lra|]. cbn. destruct (Rlt_dec b (v y i)); [lra|reflexivity].
        * apply J. apply (near_imp t0 (fun t => a < v t i)); [|now apply NG]. intros y Hy. destruct (Rlt_dec (v y i) a); [lra|reflexivity].
    - cbn [orb]. destruct hi as [b|]; cbn [above xgt] in *.
      + specialize (H b eq_refl). destruct (Rlt_dec b (v t0 i)) as [C|C].
        * apply (K b). apply (near_imp t0 (fun t => b < v t i)); [|now apply NG]. intros y Hy. cbn. destruct (Rlt_dec b (v y i)); [reflexivity|lra].
        * assert (C' : v t0 i < b) by lra. apply J. apply (near_imp t0 (fun t => v t i < b)); [|now apply NL]. intros y Hy. cbn. destruct (Rlt_dec b (v y i)); [lra|reflexivity].
      + apply J. apply near_all. reflexivity.
  Qed.
  Lemma atan2_near i j : v t0 j <> 0 -> 0 < v t0 j \/ v t0 i <> 0 ->
    let q := 1 / (v t0 i * v t0 i + v t0 j * v t0 j) in
    derivable_pt_lim (fun t => atan2 (v t i) (v t j)) t0 (v t0 j * q * nth i d 0 + - v t0 i * q * nth j d 0).
  Proof.
    intros J I q. pose proof (fun i => lim_diff _ _ _ (HD i)) as D.
    assert (NG : forall k r, r < v t0 k -> near t0 (fun t => r < v t k)) by (intros k r Hr; apply (near_gt (fun t => v t k)); [apply D|exact Hr]).
    assert (NL : forall k r, v t0 k < r -> near t0 (fun t => v t k < r)) by (intros k r Hr; apply (near_lt' (fun t => v t k)); [apply D|exact Hr]).
    assert (P : derivable_pt_lim (fun t => atan (v t i / v t j)) t0 (v t0 j * q * nth i d 0 + - v t0 i * q * nth j d 0)).
    { pose proof (lim_div (fun t => v t i) (fun t => v t j) t0 _ _ (HD i) (HD j) J) as L. cbn beta in L.
      pose proof (derivable_pt_lim_comp _ atan t0 _ _ L (derivable_pt_lim_atan _)) as C. eapply lim_eq; [|exact C]. unfold q.
      assert (S : 0 < v t0 j * v t0 j) by (pose proof (Rsqr_pos_lt _ J) as S; exact S).
      assert (S' : 0 <= v t0 i * v t0 i) by apply Rle_0_sqr. unfold Rdiv. field. repeat split; try exact J; cbn; lra. }
    assert (S : forall c, near t0 (fun t => atan2 (v t i) (v t j) = atan (v t i / v t j) + c) ->
      derivable_pt_lim (fun t => atan2 (v t i) (v t j)) t0 (v t0 j * q * nth i d 0 + - v t0 i * q * nth j d 0)).
    { intros c N. eapply lim_near; [exact N|]. eapply lim_eq; [|exact (derivable_pt_lim_plus _ (fun _ => c) t0 _ 0 P (derivable_pt_lim_const c t0))]. ring. }
    destruct (Rtotal_order (v t0 j) 0) as [L|[L|L]]; [|contradiction|].
    - assert (I' : v t0 i <> 0) by (destruct I; [lra|assumption]).
      destruct (Rtotal_order (v t0 i) 0) as [M|[M|M]]; [|contradiction|].
      + apply (S (- PI)). apply (near_imp t0 (fun t => v t j < 0 /\ v t i < 0)); [|apply near_and; now apply NL].
        intros y [A B]. unfold atan2. destruct (Rlt_dec 0 (v y j)); [lra|]. destruct (Rlt_dec (v y j) 0); [|lra]. destruct (Rle_dec 0 (v y i)); [lra|]. ring.
      + apply (S PI). apply (near_imp t0 (fun t => v t j < 0 /\ 0 < v t i)); [|apply near_and; [now apply NL|now apply NG]].
        intros y [A B]. unfold atan2. destruct (Rlt_dec 0 (v y j)); [lra|]. destruct (Rlt_dec (v y j) 0); [|lra]. destruct (Rle_dec 0 (v y i)); [|lra]. ring.
    - apply (S 0). apply (near_imp t0 (fun t => 0 < v t j)); [|now apply NG]. intros y A. unfold atan2. destruct (Rlt_dec 0 (v y j)); [|lra]. ring.
  Qed.
  Lemma op_lim o : smooth_op o (E t0) -> exists s, derivable_pt_lim (fun t => rop o (E t)) t0 s /\
    forall g, contrib (rback o (E t0) (rop o (E t0)) g) d = g * s.
  Proof.
    intros [T S]. destruct o; cbn [tame_op rop rback] in *; cbv zeta in *.
    - exists 0. split; [apply derivable_pt_lim_const|]. intros g. cbn. ring.
    - eexists. split; [exact (derivable_pt_lim_plus _ _ t0 _ _ (HD i) (HD j))|]. intros g. cbn. ring.
    - eexists. split; [exact (derivable_pt_lim_plus _ _ t0 _ _ (HD i) (derivable_pt_lim_opp _ t0 _ (HD j)))|]. intros g. cbn. ring.
    - eexists. split; [exact (derivable_pt_lim_mult _ _ t0 _ _ (HD i) (HD j))|]. intros g. cbn. ring.
    - eexists. split; [exact (lim_div _ _ t0 _ _ (HD i) (HD j) T)|]. intros g. cbn. field. exact T.
    - eexists. split; [exact (derivable_pt_lim_plus _ _ t0 _ _ (HD i) (derivable_pt_lim_const r t0))|]. intros g. cbn. ring.
    - eexists. split; [exact (derivable_pt_lim_scal _ r t0 _ (HD i))|]. intros g. cbn. ring.
    - eexists. split; [exact (lim_div (fun _ => 1) _ t0 _ _ (derivable_pt_lim_const 1 t0) (HD i) T)|]. intros g. cbn. field. exact T.
    - eexists. split; [exact (derivable_pt_lim_comp _ sqrt t0 _ _ (HD i) (derivable_pt_lim_sqrt _ T))|]. intros g. cbn.
      assert (N : sqrt (rget (E t0) i) <> 0) by (apply Rgt_not_eq, sqrt_lt_R0, T). field. exact N.
    - eexists. split; [exact (derivable_pt_lim_comp _ exp t0 _ _ (HD i) (derivable_pt_lim_exp _))|]. intros g. cbn. ring.
    - eexists. split; [exact (derivable_pt_lim_comp _ sin t0 _ _ (HD i) (derivable_pt_lim_sin _))|]. intros g. cbn. ring.
    - eexists. split; [exact (derivable_pt_lim_comp _ cos t0 _ _ (HD i) (derivable_pt_lim_cos _))|]. intros g. cbn. ring.
    - destruct S as [SJ SI]. eexists. split; [exact (atan2_near i j SJ SI)|]. intros g. cbn. unfold v. ring.
    - eexists. split; [exact (lim_pow _ t0 _ n (HD i))|]. intros g. cbn [contrib fold_right fst snd]. destruct n; ring.
    - eexists. split; [exact (derivable_pt_lim_comp _ (fun y => Rpower y r) t0 _ _ (HD i) (derivable_pt_lim_power _ r T))|]. intros g. cbn.
      unfold zero. destruct (Req_EM_T r 0) as [->|]; ring.
    - destruct S as (i & Hi & N). pose proof (rsq_pos _ l i Hi N) as P.
      pose proof (lim_rsq v t0 (fun i => nth i d 0) l HD) as L.
      eexists. split; [exact (derivable_pt_lim_comp (fun t => rsq (v t) l) sqrt t0 _ _ L (derivable_pt_lim_sqrt _ P))|]. intros g.
      assert (Q : sqrt (rsq (rget (E t0)) l) <> 0) by (apply Rgt_not_eq, sqrt_lt_R0, P). rewrite (zero_false _ Q).
      fold (v t0) in *. generalize (sqrt (rsq (v t0) l)) as s, Q. clear. intros s Q.
      induction l as [|k l IH]; cbn [map contrib fold_right fst snd]; [ring|]. fold (contrib (map (fun i => (i, v t0 i * (g / s))) l) d). rewrite IH. field. exact Q.
    - pose proof (cond_near c S) as N. destruct (xcond c (reals (E t0))).
      + exists (nth i d 0). split; [|intros g; cbn; ring]. eapply lim_near; [|exact (HD i)]. eapply near_imp; [|exact N]. intros y ->. reflexivity.
      + exists (nth j d 0). split; [|intros g; cbn; ring]. eapply lim_near; [|exact (HD j)]. eapply near_imp; [|exact N]. intros y ->. reflexivity.
    - destruct S as [SL SH]. eexists. split; [exact (clamp_near lo hi i SL SH)|]. intros g. cbn [contrib fold_right fst snd]. unfold v. destruct (_ || _); ring.
  Qed.
End Op.
