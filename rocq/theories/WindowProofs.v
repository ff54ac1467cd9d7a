(* Windows, TUM and ICL samples (C56, C57). *)
From Coq Require Import Ascii String List Arith Bool Reals ZArith Lia.
From Verif Require Import Res TextModel DataSpec DatasetSpec DatasetModel TextProofs.
Import ListNotations.
Local Open Scope nat_scope.

Lemma last_idx L d : 0 < L -> last (window_idx L d) 0 = (L - 1) * (d + 1).
Proof. intros H. unfold window_idx. destruct L as [|L]; [lia|]. rewrite seq_S, map_app. cbn [map]. rewrite last_rev_hd. f_equal. cbn. lia. Qed.
Definition win (L d s k : nat) : list nat := map (fun i => k * s + i * (d + 1)) (seq 0 L).
Lemma window_loop_ok L d s n : 0 < L -> forall m k0, exists c, window_loop (map (fun k => k * s) (seq k0 m)) (window_idx L d) n = Ok (map (win L d s) (seq k0 c)) /\
  forall k, k0 <= k -> (k < k0 + c <-> k < k0 + m /\ k * s + (L - 1) * (d + 1) < n).
Proof.
  intros HL. induction m as [|m IH]; intros k0; [exists 0; split; [reflexivity|intros; lia]|].
  cbn [seq map window_loop]. destruct (window_idx L d) as [|i0 ir] eqn:E; [apply (f_equal (@length nat)) in E; unfold window_idx in E; rewrite map_length, seq_length in E; cbn in E; lia|].
  rewrite <- E, (last_idx L d HL). destruct (Nat.leb_spec n (k0 * s + (L - 1) * (d + 1))) as [H|H].
  - exists 0. split; [reflexivity|]. intros k Hk. split; [lia|]. intros [_ K]. assert (k0 * s <= k * s) by (apply Nat.mul_le_mono_r; lia). lia.
  - destruct (IH (S k0)) as (c & Ec & Hc). rewrite <- E in Ec. rewrite Ec. cbn [rbind]. exists (S c). split.
    + cbn [seq map]. f_equal. f_equal. unfold win, window_idx. now rewrite map_map.
    + intros k Hk. destruct (Nat.eq_dec k k0) as [->|N]; [split; [split; [lia|exact H]|lia]|]. specialize (Hc k ltac:(lia)). lia.
Qed.
Theorem p_windows L d s n : 0 < L -> 0 < s -> exists c, windows L d s n = Ok (map (win L d s) (seq 0 c)) /\ forall k, k < c <-> k * s + (L - 1) * (d + 1) < n.
Proof.
  intros HL Hs. unfold windows, range_step. rewrite (proj2 (Nat.eqb_neq s 0)) by lia. cbn [rbind].
  destruct (window_loop_ok L d s n HL ((n + s - 1) / s) 0) as (c & E & H). exists c. split; [exact E|]. intros k. rewrite (H k (Nat.le_0_l _)). cbn [plus]. split; [tauto|].
  intros K. split; [|exact K]. apply Nat.div_le_lower_bound; [lia|]. nia.
Qed.
Theorem p_windows_stride0 L d n : windows L d 0 n = Err ValueError.
Proof. reflexivity. Qed.
Theorem p_windows_empty L d s : 0 < s -> windows L d s 0 = Ok [].
Proof. intros H. unfold windows, range_step. rewrite (proj2 (Nat.eqb_neq s 0)) by lia. cbn [rbind]. rewrite Nat.div_small by lia. reflexivity. Qed.
Theorem p_windows_len0 d s n : 0 < s -> 0 < n -> windows 0 d s n = Err IndexError.
Proof.
  intros H K. unfold windows, range_step. rewrite (proj2 (Nat.eqb_neq s 0)) by lia. cbn [rbind].
  destruct ((n + s - 1) / s) as [|c] eqn:E; [apply Nat.div_small_iff in E; lia|]. reflexivity.
Qed.
(* gathering *)
Lemma gather_ok {A} (l : list A) inds : Forall (fun i => i < length l) inds -> exists x, gather l inds = Ok x /\ Forall2 (fun i y => nth_error l i = Some y) inds x.
Proof.
  induction 1 as [|i inds H F (x & E & K)]; [exists []; split; [reflexivity|constructor]|]. unfold gather in *. cbn [mapM]. unfold item at 1.
  destruct (nth_error l i) as [y|] eqn:Ey; [|apply nth_error_None in Ey; lia]. cbn [rbind]. rewrite E. exists (y :: x). split; [reflexivity|now constructor].
Qed.
Lemma Forall2_map_l {A B C} (f : A -> B) (Q : B -> C -> Prop) l r : Forall2 Q (map f l) r <-> Forall2 (fun x y => Q (f x) y) l r.
Proof.
  revert r. induction l as [|x l IH]; intros r; split; intros H; inversion H; subst; constructor; auto; apply IH; assumption.
Qed.
Lemma Forall2_det {A B} (Q : A -> B -> Prop) l r r' : (forall x y y', Q x y -> Q x y' -> y = y') -> Forall2 Q l r -> Forall2 Q l r' -> r = r'.
Proof. intros D H. revert r'. induction H; intros r' K; inversion K; subst; [reflexivity|]. f_equal; eauto. Qed.
Lemma win_bound L d s n k : 0 < L -> k * s + (L - 1) * (d + 1) < n -> Forall (fun i => i < n) (win L d s k).
Proof. intros HL H. apply Forall_forall. intros i Hi. apply in_map_iff in Hi. destruct Hi as (j & <- & Hj). apply in_seq in Hj. assert (j * (d + 1) <= (L - 1) * (d + 1)) by (apply Nat.mul_le_mono_r; lia). lia. Qed.
Lemma sampled_ok {A} L d s (frames : list A) c : 0 < L -> (forall k, k < c <-> k * s + (L - 1) * (d + 1) < length frames) ->
  exists r, mapM (gather frames) (map (win L d s) (seq 0 c)) = Ok r /\ Sampled L d s frames r.
Proof.
  intros HL Hc.
  assert (G : forall m k0, (forall k, k0 <= k < k0 + m -> k * s + (L - 1) * (d + 1) < length frames) ->
    exists r, mapM (gather frames) (map (win L d s) (seq k0 m)) = Ok r /\ length r = m /\
      forall k x, nth_error r k = Some x -> Forall2 (fun i y => nth_error frames i = Some y) (win L d s (k0 + k)) x).
  { induction m as [|m IH]; intros k0 H; [exists []; repeat split; intros [|k] x E; discriminate|]. cbn [seq map mapM].
    destruct (gather_ok frames (win L d s k0)) as (x0 & E0 & F0); [apply win_bound; [exact HL|apply H; lia]|]. rewrite E0. cbn [rbind].
    destruct (IH (S k0)) as (r & Er & Lr & Fr); [intros; apply H; lia|]. rewrite Er. cbn [rbind]. exists (x0 :: r). repeat split; [cbn; lia|].
    intros [|k] x E; cbn in E; [injection E as <-; now rewrite Nat.add_0_r|]. rewrite Nat.add_succ_r. exact (Fr k x E). }
  destruct (G c 0) as (r & Er & Lr & Fr); [intros; apply Hc; lia|]. exists r. split; [exact Er|].
  intros k x. split.
  - intros E. split; [apply Hc; rewrite <- Lr; apply nth_error_Some; congruence|]. apply Fr in E. cbn [plus] in E. unfold win in E. apply Forall2_map_l in E. exact E.
  - intros [H F]. apply Hc in H. destruct (nth_error r k) as [x'|] eqn:E; [|apply nth_error_None in E; lia]. f_equal.
    apply Fr in E. cbn [plus] in E. unfold win in E. apply Forall2_map_l in E. eapply Forall2_det; [|exact E|exact F]. cbn. intros; congruence.
Qed.
(* names are joined *)
Lemma mapM_bind {A B C} (f : A -> res B) (g : B -> C) l : mapM (fun x => let? y := f x in Ok (g y)) l = (let? r := mapM f l in Ok (map g r)).
Proof. induction l as [|x l IH]; [reflexivity|]. cbn [mapM]. destruct (f x); cbn [rbind]; [|reflexivity]. rewrite IH. destruct (mapM f l); reflexivity. Qed.

(* ---------------- argument validation *)
Theorem p_args_ok L d s st e : args_ok L d s st e ->
  window_args (AInt L) (arg d) (arg s) (arg st) (arg e) = Ok (mkW (Z.to_nat L) (Z.to_nat (def d 0)) (Z.to_nat (def s (L * (def d 0 + 1)))) (Z.to_nat (def st 0)) e).
Proof.
  unfold args_ok. intros (H1 & H2 & H3 & H4 & H5). unfold window_args. cbn [need_int rbind].
  assert (N : forall o, need_opt_int (arg o) = Ok o) by (intros [z|]; reflexivity). rewrite !N. cbn [rbind].
  change (match d with Some d0 => d0 | None => 0%Z end) with (def d 0). change (match s with Some s0 => s0 | None => (L * (def d 0 + 1))%Z end) with (def s (L * (def d 0 + 1))).
  rewrite !(proj2 (Z.ltb_ge _ 0)) by assumption. cbn [negb guard rbind]. rewrite ?N. cbn [rbind]. change (match st with Some st0 => st0 | None => 0%Z end) with (def st 0).
  rewrite ?(proj2 (Z.ltb_ge _ 0)) by assumption. cbn [negb guard rbind]. destruct e as [e|]; [rewrite (proj2 (Z.ltb_lt _ _) H5)|]; reflexivity.
Qed.
Theorem p_args_values L d s st e : ~ args_ok L d s st e -> window_args (AInt L) (arg d) (arg s) (arg st) (arg e) = Err ValueError.
Proof.
  unfold args_ok. intros H. unfold window_args. cbn [need_int rbind].
  assert (N : forall o, need_opt_int (arg o) = Ok o) by (intros [z|]; reflexivity). rewrite !N. cbn [rbind].
  change (match d with Some d0 => d0 | None => 0%Z end) with (def d 0). change (match s with Some s0 => s0 | None => (L * (def d 0 + 1))%Z end) with (def s (L * (def d 0 + 1))).
  destruct (Z.ltb_spec L 0); [reflexivity|]. destruct (Z.ltb_spec (def d 0) 0); [reflexivity|]. destruct (Z.ltb_spec (def s (L * (def d 0 + 1))) 0); [reflexivity|].
  cbn [negb guard rbind]. rewrite ?N. cbn [rbind]. change (match st with Some st0 => st0 | None => 0%Z end) with (def st 0).
  destruct (Z.ltb_spec (def st 0) 0); [reflexivity|]. cbn [negb guard rbind]. destruct e as [e|].
  - destruct (Z.ltb_spec (def st 0) e); [exfalso; apply H; lia|reflexivity].
  - exfalso. apply H. lia.
Qed.
Theorem p_args_types L d s st e : L = ANone \/ L = ABad \/ d = ABad \/ s = ABad -> window_args L d s st e = Err TypeError.
Proof. unfold window_args. intros H. destruct L; cbn [need_int rbind]; try reflexivity. destruct s; cbn [need_opt_int rbind]; try reflexivity; destruct d; cbn [need_opt_int rbind]; try reflexivity; exfalso; destruct H as [H|[H|[H|H]]]; discriminate. Qed.
Theorem p_args_range_types L d s st e : st = ABad \/ e = ABad -> (exists x, window_args (AInt L) (arg d) (arg s) ANone ANone = Ok x) ->
  window_args (AInt L) (arg d) (arg s) st e = Err TypeError.
Proof.
  unfold window_args. intros H (x & E). cbn [need_int rbind] in *.
  assert (N : forall o, need_opt_int (arg o) = Ok o) by (intros [z|]; reflexivity). rewrite !N in *. cbn [rbind] in *.
  destruct (L <? 0)%Z; [discriminate|]. destruct (match d with Some d0 => d0 | None => 0%Z end <? 0)%Z; [discriminate|]. cbn [negb guard rbind] in *.
  match goal with |- context [guard (negb (?a <? 0)%Z)] => destruct (a <? 0)%Z; [discriminate|] end. cbn [negb guard rbind] in *.
  destruct st; cbn [need_opt_int rbind]; try reflexivity; destruct H as [H|H]; try discriminate; subst e; reflexivity.
Qed.

(* ---------------- TUM *)
Lemma prefix_eq (p s : text) : text_eqb (firstn (length p) (p ++ s)) p = true.
Proof. rewrite firstn_app, firstn_all, Nat.sub_diag. cbn [firstn]. rewrite app_nil_r. destruct (text_eqb_spec p p); congruence. Qed.
Lemma tum_files_ok dir name load assoc fs : Forall2 (tum_frame dir name load) assoc fs -> tum_files dir name load assoc = Ok fs.
Proof.
  unfold tum_files. induction 1 as [|[[c d] p] f assoc fs (x & y & q & -> & -> & Hq & ->) F IH]; [reflexivity|]. cbn [mapM].
  change 3 with (length (txt "rgb")). change 5 with (length (txt "depth")). rewrite !prefix_eq. cbn [guard rbind].
  assert (E : (if load then match p with Some q => Ok q | None => Err IndexError end else Ok []) = Ok q) by (destruct load; subst; reflexivity). rewrite E. cbn [rbind].
  change 3 with (length (txt "rgb")) in IH. change 5 with (length (txt "depth")) in IH. rewrite IH. reflexivity.
Qed.
Theorem p_tum_sequence w dir name load assoc stamps fs : 0 < w_len w -> 0 < w_stride w -> length stamps = length assoc ->
  Forall2 (tum_frame dir name load) assoc fs ->
  exists r nm, tum_sequence w dir name load assoc stamps = Ok r /\
    Sampled (w_len w) (w_dil w) (w_stride w) (map (fun f => fst (fst (fst f))) fs) (t_color r) /\
    Sampled (w_len w) (w_dil w) (w_stride w) (map (fun f => snd (fst (fst f))) fs) (t_depth r) /\
    Sampled (w_len w) (w_dil w) (w_stride w) stamps (t_stamps r) /\
    Sampled (w_len w) (w_dil w) (w_stride w) (map snd fs) nm /\ t_names r = map (join (txt ", ")) nm /\
    (if load then Sampled (w_len w) (w_dil w) (w_stride w) (map (fun f => snd (fst f)) fs) (t_poses r) else t_poses r = []).
Proof.
  intros HL Hs Hst F. unfold tum_sequence. rewrite (tum_files_ok _ _ _ _ _ F). cbn [rbind].
  assert (Hl : length fs = length assoc) by (clear - F; induction F; cbn; congruence).
  destruct (p_windows (w_len w) (w_dil w) (w_stride w) (length (map (fun f => fst (fst (fst f))) fs)) HL Hs) as (c & -> & Hc). cbn [rbind]. rewrite map_length in Hc.
  destruct (sampled_ok (w_len w) (w_dil w) (w_stride w) (map (fun f => fst (fst (fst f))) fs) c HL) as (r1 & -> & S1); [now rewrite map_length|]. cbn [rbind].
  destruct (sampled_ok (w_len w) (w_dil w) (w_stride w) (map (fun f => snd (fst (fst f))) fs) c HL) as (r2 & -> & S2); [now rewrite map_length|]. cbn [rbind].
  rewrite mapM_bind. destruct (sampled_ok (w_len w) (w_dil w) (w_stride w) (map snd fs) c HL) as (r3 & -> & S3); [now rewrite map_length|]. cbn [rbind].
  destruct (sampled_ok (w_len w) (w_dil w) (w_stride w) stamps c HL) as (r4 & -> & S4); [now rewrite Hst, <- Hl|]. cbn [rbind].
  destruct load.
  - destruct (sampled_ok (w_len w) (w_dil w) (w_stride w) (map (fun f => snd (fst f)) fs) c HL) as (r5 & -> & S5); [now rewrite map_length|]. cbn [rbind].
    eexists. exists r3. split; [reflexivity|]. cbn. auto 10.
  - cbn [rbind]. eexists. exists r3. split; [reflexivity|]. cbn. auto 10.
Qed.
Lemma text_eqb_false a b : a <> b -> text_eqb a b = false.
Proof. intros H. destruct (text_eqb_spec a b); [contradiction|reflexivity]. Qed.
Theorem p_tum_bad_name w dir name assoc stamps c d p : In (c, d, p) assoc -> ~ ((exists x, c = txt "rgb" ++ x) /\ (exists y, d = txt "depth" ++ y)) ->
  tum_sequence w dir name false assoc stamps = Err ValueError.
Proof.
  intros H N. unfold tum_sequence, tum_files.
  assert (E : (guard (text_eqb (firstn 3 c) (txt "rgb")) ValueError ;;? guard (text_eqb (firstn 5 d) (txt "depth")) ValueError) = Err ValueError).
  { destruct (text_eqb_spec (firstn 3 c) (txt "rgb")) as [E1|_]; [|reflexivity]. destruct (text_eqb_spec (firstn 5 d) (txt "depth")) as [E2|_]; [|reflexivity].
    exfalso. apply N. split; [exists (skipn 3 c)|exists (skipn 5 d)]; [rewrite <- E1|rewrite <- E2]; symmetry; apply firstn_skipn. }
  rewrite (mapM_err _ _ (c, d, p) ValueError H); [reflexivity| |].
  - destruct (text_eqb (firstn 3 c) (txt "rgb")), (text_eqb (firstn 5 d) (txt "depth")); cbn [guard rbind] in *; congruence.
  - intros [[c' d'] p'] e _ E'. destruct (text_eqb (firstn 3 c') (txt "rgb")), (text_eqb (firstn 5 d') (txt "depth")); cbn [guard rbind] in E'; congruence.
Qed.
(* several sequences: one after the other *)
Definition tum_input : Type := (text * text * list (text * text * option (list R)) * list (text * text * option text))%type.
Theorem p_tum_all w load (seqs : list tum_input) rs : Forall2 (fun s r => tum_sequence w (fst (fst (fst s))) (snd (fst (fst s))) load (snd (fst s)) (snd s) = Ok r) seqs rs ->
  tum_all w load seqs = Ok (mkTum (concat (map t_color rs)) (concat (map t_depth rs)) (concat (map t_names rs)) (concat (map t_stamps rs)) (concat (map t_poses rs))).
Proof.
  induction 1 as [|[[[dir name] assoc] stamps] r seqs rs H F IH]; [reflexivity|]. cbn [tum_all]. cbn [fst snd] in H. rewrite H. cbn [rbind]. rewrite IH. reflexivity.
Qed.
