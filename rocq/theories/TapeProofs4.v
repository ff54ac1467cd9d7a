(* The formulas of gradslam: values. *)
From Coq Require Import Reals List Arith Bool Lia Lra.
From Verif Require Import MatSpec GeomModel ProjModel FusionModel IcpModel Se3Model TapeModel TapeSpec TapeForms GradSpec GradProofs
  TapeProofs TapeProofs2 TapeProofs3.
Import ListNotations.
Local Open Scope R_scope.

Fixpoint ralong (P : op -> list R -> Prop) (p : list op) (env : list R) : Prop :=
  match p with [] => True | o :: p' => P o env /\ ralong P p' (env ++ [rop o env]) end.
Lemma ralong_along (P : op -> list R -> Prop) : (forall o env, P o env -> tame_op o env) -> forall p env, ralong P p env <-> along P p env.
Proof.
  intros H p. induction p as [|o p IH]; intros env; cbn [ralong along]; [tauto|]. split; intros [A B]; (split; [exact A|]);
  rewrite (xop_reals _ _ (H _ _ A)) in *; now apply IH.
Qed.
Lemma tame_r p env : ralong tame_op p env <-> tame p env.
Proof. apply ralong_along. auto. Qed.
Lemma smooth_r p env : ralong smooth_op p env <-> smooth p env.
Proof. apply ralong_along. intros o e [H _]. exact H. Qed.
Lemma value_of p env f : tame p env -> last (rfwd p env) 0 = f env -> xout p (reals env) = Fin (f env).
Proof. intros T E. rewrite xout_reals by exact T. now rewrite E. Qed.
Lemma right_of p env f : p <> [] -> smooth p env ->
  (forall env', length env' = length env -> tame p env' -> last (rfwd p env') 0 = f env') -> right_gradient p f env.
Proof.
  intros Hp S F. pose proof (smooth_tame _ _ S) as T. exists (rbwd p env). split; [now apply xbwd_reals|]. split; [apply rbwd_len; now right|].
  intros e t0 d E M. assert (LM : length e = length d) by (clear E; induction M; cbn; auto).
  assert (HL : forall t, length (at_time e t) = length e) by (intros t; apply map_length).
  pose proof (tape_lim p (at_time e) t0 d (length e) HL (eq_sym LM) (or_intror Hp) (moves_nth e t0 d M)) as L. rewrite E in L. specialize (L S).
  destruct L as [L N]. eapply lim_near; [|exact L]. eapply near_imp; [|exact N]. intros t Ht. symmetry. apply F; [|exact Ht]. now rewrite HL, <- E, HL.
Qed.
Ltac env2 E := intros [|? [|? [|]]] E; try discriminate E; clear E.
Ltac env1 E := intros [|? [|]] E; try discriminate E; clear E.
Ltac env3 E := intros [|? [|? [|? [|]]]] E; try discriminate E; clear E.
Ltac env4 E := intros [|? [|? [|? [|? [|]]]]] E; try discriminate E; clear E.
Ltac run := cbn [ralong rfwd app tame_op rget nth rop last xcond xget reals map xgt xlt xis0 away]; unfold smooth_op; cbv zeta; cbn [ralong rfwd app tame_op rget nth rop last xcond xget reals map xgt xlt xis0 away].
Ltac specials := repeat (unfold zero, pos, inf_of in |- *; (destruct (Req_EM_T _ _) || destruct (Rlt_dec _ _)); cbn; try lra).
Lemma zero_true : zero 0 = true.
Proof. unfold zero. destruct (Req_EM_T 0 0); [reflexivity|contradiction]. Qed.

(* ---------------------------------------------------------------- unhomogenize *)
Lemma v_unhomog eps x w : 0 <= eps -> xout (t_unhomog eps) (reals [x; w]) = Fin (f_unhomog eps [x; w]).
Proof.
  intros He. unfold f_unhomog, rget, unhomog_scale. cbn [nth]. destruct (Req_EM_T w 0) as [->|N].
  - rewrite Rabs_R0. destruct (Rlt_dec eps 0) as [L|L]; [lra|]. unfold xout, t_unhomog. cbn. rewrite Rabs_R0. destruct (Rlt_dec eps 0); [lra|]. cbn. f_equal. ring.
  - apply (value_of _ _ (fun _ => _)).
    + apply tame_r. unfold t_unhomog. run. tauto.
    + unfold t_unhomog. run. destruct (Rlt_dec eps (Rabs w)); ring.
Qed.
Lemma g_unhomog eps x w : w <> 0 -> Forall is_real (grads (t_unhomog eps) [x; w]).
Proof. intros N. apply p_tame, tame_r. unfold t_unhomog. run. tauto. Qed.
Lemma d_unhomog eps x w : w <> 0 -> Rabs w <> eps -> right_gradient (t_unhomog eps) (f_unhomog eps) [x; w].
Proof.
  intros N A. apply right_of; [discriminate|apply smooth_r; unfold t_unhomog; run; tauto|].
  env2 E. intros _. unfold t_unhomog, f_unhomog, unhomog_scale. run. destruct (Rlt_dec eps (Rabs r0)); ring.
Qed.
Lemma n_unhomog eps x : 0 <= eps -> grads (t_unhomog eps) [x; 0] = [Fin 1; NaN].
Proof.
  intros He. unfold grads, t_unhomog. cbn. rewrite Rabs_R0. destruct (Rlt_dec eps 0); [lra|]. unfold zero, inf_of. destruct (Req_EM_T 0 0); [|lra]. destruct (Req_EM_T 1 0); [lra|]. destruct (Rlt_dec 1 0); [lra|].
  cbn. unfold zero, pos. repeat (destruct (Req_EM_T _ _) || destruct (Rlt_dec _ _); cbn); repeat f_equal; try lra.
Qed.
(* ---------------------------------------------------------------- projection *)
Lemma t_project_tame x z : tame t_project [x; z].
Proof. apply tame_r. unfold t_project. run. unfold zero. destruct (Req_EM_T z 0) as [E|N]; cbn; repeat split; lra || assumption. Qed.
Lemma t_project_value x z : last (rfwd t_project [x; z]) 0 = f_project [x; z].
Proof. unfold t_project, f_project, safe_div. run. unfold zero. destruct (Req_EM_T z 0) as [E|N]; cbn; reflexivity. Qed.
Lemma v_project x z : xout t_project (reals [x; z]) = Fin (f_project [x; z]).
Proof. apply value_of; [apply t_project_tame|apply t_project_value]. Qed.
Lemma g_project x z : Forall is_real (grads t_project [x; z]).
Proof. apply p_tame, t_project_tame. Qed.
Lemma d_project x z : z <> 0 -> right_gradient t_project f_project [x; z].
Proof.
  intros N. apply right_of; [discriminate| |env2 E; intros _; apply t_project_value].
  apply smooth_r. unfold t_project. run. rewrite (zero_false z N). cbn. tauto.
Qed.
(* ---------------------------------------------------------------- intrinsics *)
Lemma v_focal eps fx : fx <> - eps -> xout (t_focal eps) (reals [fx]) = Fin (f_focal eps [fx]).
Proof. intros N. apply value_of; [apply tame_r; unfold t_focal; run; repeat split; lra|]. unfold t_focal, f_focal. run. ring. Qed.
Lemma d_focal eps fx : fx <> - eps -> right_gradient (t_focal eps) (f_focal eps) [fx].
Proof. intros N. apply right_of; [discriminate|apply smooth_r; unfold t_focal; run; repeat split; lra|]. env1 E. intros _. unfold t_focal, f_focal. run. ring. Qed.
Lemma v_centre eps cx fx : fx <> - eps -> xout (t_centre eps) (reals [cx; fx]) = Fin (f_centre eps [cx; fx]).
Proof. intros N. apply value_of; [apply tame_r; unfold t_centre; run; repeat split; lra|]. unfold t_centre, f_centre. run. reflexivity. Qed.
Lemma d_centre eps cx fx : fx <> - eps -> right_gradient (t_centre eps) (f_centre eps) [cx; fx].
Proof. intros N. apply right_of; [discriminate|apply smooth_r; unfold t_centre; run; repeat split; lra|]. env2 E. intros _. unfold t_centre, f_centre. run. reflexivity. Qed.
Lemma n_focal eps : xout (t_focal eps) (reals [- eps]) = PInf.
Proof.
  unfold xout, t_focal. cbn. rewrite Rplus_opp_l. specials. reflexivity.
Qed.
(* ---------------------------------------------------------------- pixel coordinates *)
Lemma v_pixel n x : n <> 1 -> xout (t_pixel n) (reals [x]) = Fin (f_pixel n [x]).
Proof. intros N. apply value_of; [apply tame_r; unfold t_pixel; run; repeat split; lra|]. unfold t_pixel, f_pixel. run. field. lra. Qed.
Lemma d_pixel n x : n <> 1 -> right_gradient (t_pixel n) (f_pixel n) [x].
Proof. intros N. apply right_of; [discriminate|apply smooth_r; unfold t_pixel; run; repeat split; lra|]. env1 E. intros _. unfold t_pixel, f_pixel. run. field. lra. Qed.
Lemma n_pixel x : ~ is_real (xout (t_pixel 1) (reals [x])).
Proof.
  intros (r & H). revert H. unfold xout, t_pixel. cbn. rewrite Rplus_opp_r. specials; discriminate.
Qed.
(* ---------------------------------------------------------------- fusion *)
Lemma t_fuse_tame c a p q : tame t_fuse [c; a; p; q].
Proof. apply tame_r. unfold t_fuse. run. unfold zero. destruct (Req_EM_T (c + a) 0) as [E|N]; cbn; repeat split; lra || assumption. Qed.
Lemma t_fuse_value c a p q : last (rfwd t_fuse [c; a; p; q]) 0 = f_fuse [c; a; p; q].
Proof. unfold t_fuse, f_fuse. run. cbv zeta. unfold zero. destruct (Req_EM_T (c + a) 0) as [E|N]; cbn; ring. Qed.
Lemma v_fuse c a p q : xout t_fuse (reals [c; a; p; q]) = Fin (f_fuse [c; a; p; q]).
Proof. apply value_of; [apply t_fuse_tame|apply t_fuse_value]. Qed.
Lemma g_fuse c a p q : Forall is_real (grads t_fuse [c; a; p; q]).
Proof. apply p_tame, t_fuse_tame. Qed.
Lemma d_fuse c a p q : c + a <> 0 -> right_gradient t_fuse f_fuse [c; a; p; q].
Proof.
  intros N. apply right_of; [discriminate| |env4 E; intros _; apply t_fuse_value].
  apply smooth_r. unfold t_fuse. run. rewrite (zero_false _ N). cbn. tauto.
Qed.
