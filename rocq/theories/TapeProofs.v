(* Tapes: real inputs give real gradients, which are the derivatives. *)
From Coq Require Import Reals List Arith Bool Lia Lra.
From Verif Require Import GeomModel TapeModel TapeSpec GradSpec GradProofs.
Import ListNotations.
Local Open Scope R_scope.

(* ---------------------------------------------------------------- real versions *)
Definition rsq (v : nat -> R) (l : list nat) : R := fold_right (fun i s => v i * v i + s) 0 l.
Definition rclamp (lo hi : option R) (a : R) : R := real_of (xclamp lo hi (Fin a)).
Definition rop (o : op) (env : list R) : R :=
  let v := rget env in
  match o with
  | OConst r => r
  | OAdd i j => v i + v j
  | OSub i j => v i + - v j
  | OMul i j => v i * v j
  | ODiv i j => v i / v j
  | OAddC r i => v i + r
  | OScale r i => r * v i
  | ORecip i => 1 / v i
  | OSqrt i => sqrt (v i)
  | OExp i => exp (v i)
  | OSin i => sin (v i)
  | OCos i => cos (v i)
  | OAtan2 i j => atan2 (v i) (v j)
  | OPow i n => v i ^ n
  | OPowR i r => Rpower (v i) r
  | ONorm l => sqrt (rsq v l)
  | OWhere c i j => if xcond c (reals env) then v i else v j
  | OClamp lo hi i => rclamp lo hi (v i)
  end.
Definition rback (o : op) (env : list R) (y g : R) : list (nat * R) :=
  let v := rget env in
  match o with
  | OConst _ => []
  | OAdd i j => [(i, g); (j, g)]
  | OSub i j => [(i, g); (j, - g)]
  | OMul i j => [(i, g * v j); (j, g * v i)]
  | ODiv i j => [(i, g / v j); (j, - g * (v i / v j / v j))]
  | OAddC _ i => [(i, g)]
  | OScale r i => [(i, g * r)]
  | ORecip i => [(i, - g * (y * y))]
  | OSqrt i => [(i, g / (2 * y))]
  | OExp i => [(i, g * y)]
  | OSin i => [(i, g * cos (v i))]
  | OCos i => [(i, g * - sin (v i))]
  | OAtan2 i j =>
      let q := 1 / (v i * v i + v j * v j) in
      [(i, g * (v j * q)); (j, g * (- v i * q))]
  | OPow i n => [(i, match n with O => 0 | S m => g * (INR n * v i ^ m) end)]
  | OPowR i r => [(i, if zero r then 0 else g * (r * Rpower (v i) (r - 1)))]
  | ONorm l => map (fun i => (i, v i * (if zero y then 0 else g / y))) l
  | OWhere c i j => if xcond c (reals env) then [(i, g); (j, 0)] else [(i, 0); (j, g)]
  | OClamp lo hi i => [(i, if below lo (Fin (v i)) || above hi (Fin (v i)) then 0 else g)]
  end.
Definition fin2 (kc : nat * R) : nat * xr := (fst kc, Fin (snd kc)).

Lemma xget_reals env i : xget (reals env) i = Fin (rget env i).
Proof. unfold xget, rget, reals. now rewrite map_nth. Qed.
Lemma zero_false r : r <> 0 -> zero r = false.
Proof. intros H. unfold zero. destruct (Req_EM_T r 0); [contradiction|reflexivity]. Qed.
Lemma pos_true r : 0 < r -> pos r = true.
Proof. intros H. unfold pos. destruct (Rlt_dec 0 r); [reflexivity|contradiction]. Qed.
Lemma xpow_fin r n : xpow (Fin r) n = Fin (r ^ n).
Proof. induction n as [|n IH]; cbn; [reflexivity|]. now rewrite IH. Qed.
Lemma xsum_reals env l : xsum (map (fun i => xmul (xget (reals env) i) (xget (reals env) i)) l) = Fin (rsq (rget env) l).
Proof. induction l as [|i l IH]; cbn; [reflexivity|]. now rewrite IH, xget_reals. Qed.
Lemma rsq_nonneg v l : 0 <= rsq v l.
Proof. induction l as [|i l IH]; [cbn; lra|]. change (rsq v (i :: l)) with (v i * v i + rsq v l). pose proof (Rle_0_sqr (v i)) as H. unfold Rsqr in H. lra. Qed.
Lemma rsq_pos v l i : In i l -> v i <> 0 -> 0 < rsq v l.
Proof.
  induction l as [|k l IH]; [intros []|]. change (rsq v (k :: l)) with (v k * v k + rsq v l). intros [->|H] N.
  - pose proof (Rsqr_pos_lt _ N) as S. unfold Rsqr in S. pose proof (rsq_nonneg v l). lra.
  - pose proof (Rle_0_sqr (v k)) as S. unfold Rsqr in S. specialize (IH H N). lra.
Qed.
Lemma xsqrt_fin r : 0 <= r -> xsqrt (Fin r) = Fin (sqrt r).
Proof. intros H. unfold xsqrt. destruct (Rlt_dec r 0); [lra|reflexivity]. Qed.
Lemma xclamp_fin lo hi r : xclamp lo hi (Fin r) = Fin (rclamp lo hi r).
Proof.
  unfold rclamp, xclamp. destruct lo as [a|], hi as [b|]; cbn; try reflexivity.
  - destruct (Rlt_dec r a); cbn; [destruct (Rlt_dec b a)|destruct (Rlt_dec b r)]; reflexivity.
  - destruct (Rlt_dec r a); reflexivity.
  - destruct (Rlt_dec b r); reflexivity.
Qed.
Lemma xop_reals o env : tame_op o env -> xop o (reals env) = Fin (rop o env).
Proof.
  destruct o; cbn [tame_op xop rop]; intros T; rewrite ?xget_reals; try reflexivity.
  - cbn. now rewrite zero_false.
  - cbn. now rewrite zero_false.
  - apply xsqrt_fin. lra.
  - apply xpow_fin.
  - cbn. now rewrite pos_true.
  - rewrite xsum_reals. apply xsqrt_fin, rsq_nonneg.
  - destruct (xcond c (reals env)); apply xget_reals || reflexivity.
  - apply xclamp_fin.
Qed.
Lemma xback_reals o env g : tame_op o env ->
  xback o (reals env) (Fin (rop o env)) (Fin g) = map fin2 (rback o env (rop o env) g).
Proof.
  destruct o; cbn [tame_op xback rback]; intros T; rewrite ?xget_reals; try reflexivity.
  - cbn -[rop]. repeat (rewrite zero_false by exact T; cbn -[rop]). reflexivity.
  - cbn. assert (S : sqrt (rget env i) <> 0) by (apply Rgt_not_eq, sqrt_lt_R0, T). rewrite zero_false by lra. reflexivity.
  - cbn -[rop]. rewrite zero_false; [reflexivity|]. destruct T as [T|T].
    + pose proof (Rsqr_pos_lt _ T) as P. pose proof (Rle_0_sqr (rget env j)) as P'. unfold Rsqr in *. lra.
    + pose proof (Rsqr_pos_lt _ T) as P. pose proof (Rle_0_sqr (rget env i)) as P'. unfold Rsqr in *. lra.
  - destruct n as [|n]; [reflexivity|]. rewrite xpow_fin. reflexivity.
  - cbn -[rop]. destruct (zero r); [reflexivity|]. now rewrite pos_true.
  - rewrite map_map. apply map_ext. intros i. unfold fin2. cbn [fst snd xis0]. rewrite xget_reals.
    destruct (zero (rop (ONorm l) env)) eqn:Z; [reflexivity|]. cbn -[rop]. now rewrite Z.
  - destruct (xcond c (reals env)); reflexivity.
  - cbn [map]. unfold fin2; cbn [fst snd]. destruct (_ || _); reflexivity.
Qed.

Fixpoint rfwd (p : list op) (env : list R) : list R := match p with [] => env | o :: p' => rfwd p' (env ++ [rop o env]) end.
Fixpoint radd_at (k : nat) (c : R) (adj : list R) : list R :=
  match adj with [] => [] | a :: adj' => match k with O => (a + c) :: adj' | S k' => a :: radd_at k' c adj' end end.
Definition raccum (l : list (nat * R)) (adj : list R) : list R := fold_left (fun a kc => radd_at (fst kc) (snd kc) a) l adj.
Fixpoint rbwd (p : list op) (env : list R) : list R :=
  match p with
  | [] => repeat 0 (length env - 1) ++ [1]
  | o :: p' => let y := rop o env in let G := rbwd p' (env ++ [y]) in raccum (rback o env y (last G 0)) (removelast G)
  end.

Lemma add_at_reals k c adj : add_at k (Fin c) (map Fin adj) = map Fin (radd_at k c adj).
Proof. revert k. induction adj as [|a adj IH]; intros [|k]; cbn; try reflexivity. now rewrite IH. Qed.
Lemma accum_reals l adj : accum (map fin2 l) (map Fin adj) = map Fin (raccum l adj).
Proof. unfold accum, raccum. revert adj. induction l as [|[k c] l IH]; intros adj; cbn; [reflexivity|]. now rewrite add_at_reals, IH. Qed.
Lemma last_map {A B} (f : A -> B) l d : last (map f l) (f d) = f (last l d).
Proof. induction l as [|a l IH]; [reflexivity|]. destruct l; [reflexivity|]. exact IH. Qed.
Lemma removelast_map {A B} (f : A -> B) l : removelast (map f l) = map f (removelast l).
Proof. induction l as [|a l IH]; [reflexivity|]. destruct l; [reflexivity|]. cbn [map removelast] in *. now rewrite IH. Qed.

Lemma along_imp (P Q : op -> list R -> Prop) : (forall o env, P o env -> Q o env) -> forall p env, along P p env -> along Q p env.
Proof. intros H p. induction p as [|o p IH]; intros env; cbn; [trivial|]. intros [A B]. auto. Qed.
Lemma smooth_tame p env : smooth p env -> tame p env.
Proof. apply along_imp. intros o e [H _]. exact H. Qed.
Lemma reals_snoc env r : reals env ++ [Fin r] = reals (env ++ [r]).
Proof. unfold reals. now rewrite map_app. Qed.
Lemma xfwd_reals p : forall env, tame p env -> xfwd p (reals env) = reals (rfwd p env).
Proof.
  induction p as [|o p IH]; intros env; cbn [tame along xfwd rfwd]; [reflexivity|]. intros [A B].
  rewrite (xop_reals _ _ A) in *. cbn [real_of] in B. rewrite reals_snoc. now apply IH.
Qed.
Lemma xbwd_reals p : forall env, tame p env -> xbwd p (reals env) = reals (rbwd p env).
Proof.
  induction p as [|o p IH]; intros env; cbn [tame along xbwd rbwd].
  - intros _. unfold reals. rewrite map_length, map_app. f_equal. induction (length env - 1)%nat as [|n IH]; cbn; [reflexivity|]. now rewrite IH.
  - intros [A B]. rewrite (xop_reals _ _ A) in *. cbn [real_of] in B. rewrite reals_snoc, (IH _ B).
    cbv zeta. unfold reals at 1 2 3. rewrite (last_map Fin), removelast_map. fold (reals env). rewrite xback_reals by exact A. apply accum_reals.
Qed.
Lemma xout_reals p env : tame p env -> xout p (reals env) = Fin (last (rfwd p env) 0).
Proof. intros T. unfold xout. rewrite xfwd_reals by exact T. unfold reals. apply (last_map Fin). Qed.

(* ---------------------------------------------------------------- lengths, inner products *)
Lemma radd_at_len k c adj : length (radd_at k c adj) = length adj.
Proof. revert k. induction adj as [|a adj IH]; intros [|k]; cbn; auto. Qed.
Lemma raccum_len l adj : length (raccum l adj) = length adj.
Proof. unfold raccum. revert adj. induction l as [|[k c] l IH]; intros adj; cbn; [reflexivity|]. now rewrite IH, radd_at_len. Qed.
Lemma removelast_len {A} (l : list A) : length (removelast l) = (length l - 1)%nat.
Proof. induction l as [|a l IH]; [reflexivity|]. destruct l; [reflexivity|]. cbn [removelast length] in *. rewrite IH. lia. Qed.
Lemma rbwd_len p : forall env, (0 < length env)%nat \/ p <> [] -> length (rbwd p env) = length env.
Proof.
  induction p as [|o p IH]; intros env H; cbn [rbwd].
  - rewrite app_length, repeat_length. cbn. destruct H as [H|H]; [lia|contradiction].
  - cbv zeta. rewrite raccum_len, removelast_len, IH, app_length; cbn; [lia|]. left. rewrite app_length. cbn. lia.
Qed.
Lemma inner_add_at k c : forall adj d, length adj = length d -> inner (radd_at k c adj) d = inner adj d + c * nth k d 0.
Proof.
  revert k. intros k adj. revert k. induction adj as [|a adj IH]; intros k [|x d]; cbn; try discriminate.
  - intros _. destruct k; cbn; ring.
  - intros E. injection E as E. destruct k; cbn; [ring|]. rewrite IH by exact E. ring.
Qed.
Definition contrib (l : list (nat * R)) (d : list R) : R := fold_right (fun kc s => snd kc * nth (fst kc) d 0 + s) 0 l.
Lemma inner_accum l : forall adj d, length adj = length d -> inner (raccum l adj) d = inner adj d + contrib l d.
Proof.
  unfold raccum. induction l as [|[k c] l IH]; intros adj d E; cbn; [ring|]. rewrite IH by (now rewrite radd_at_len). rewrite inner_add_at by exact E. unfold contrib. ring.
Qed.
Lemma inner_snoc a : forall b x y, length a = length b -> inner (a ++ [x]) (b ++ [y]) = inner a b + x * y.
Proof. induction a as [|h a IH]; intros [|k b] x y; cbn; try discriminate; [intros; ring|]. intros E. injection E as E. rewrite IH by exact E. ring. Qed.
Lemma inner_zeros n : forall d, inner (repeat 0 n) d = 0.
Proof. induction n as [|n IH]; intros [|x d]; cbn; try reflexivity. rewrite IH. ring. Qed.
