(* The text of a configuration determines it; the properties. *)
From Coq Require Import ZArith String Ascii List Bool Arith Sorted Permutation Lia.
From Verif Require Import ConfigModel ConfigSpec ConfigHeap ConfigCopy ConfigTree PrintModel PrintSpec PrintProofs PrintProofs2.
Import ListNotations.
Local Open Scope string_scope.
Local Open Scope list_scope.
Local Open Scope nat_scope.

(* ---------------- faithfulness *)
Lemma colon_split k : forall k' r r', ~ occurs ":" k -> ~ occurs ":" k' -> (k ++ String ":" r)%string = (k' ++ String ":" r')%string -> k = k' /\ r = r'.
Proof.
  induction k as [|c k IH]; intros [|c' k'] r r' N N' E; cbn in E.
  - injection E as E. auto.
  - injection E as E1 _. exfalso. apply N'. left. now symmetry.
  - injection E as E1 _. exfalso. apply N. left. exact E1.
  - injection E as -> E. destruct (IH k' r r') as [-> ->]; [intros O; apply N; now right|intros O; apply N'; now right|exact E|auto].
Qed.
Definition indented (s : string) : Prop := exists r, s = String " " r.
Lemma split_blocks {A} (P : A -> Prop) a : forall a' r r', Forall P a -> Forall P a' -> (forall x l, r = x :: l -> ~ P x) -> (forall x l, r' = x :: l -> ~ P x) ->
  a ++ r = a' ++ r' -> a = a' /\ r = r'.
Proof.
  induction a as [|x a IH]; intros [|x' a'] r r' F F' N N' E; cbn in E.
  - auto.
  - exfalso. inversion F'; subst. exact (N x' _ eq_refl H1).
  - exfalso. inversion F; subst. exact (N' x _ eq_refl H1).
  - injection E as -> E. inversion F; inversion F'; subst. destruct (IH a' r r') as [-> ->]; auto.
Qed.
Lemma pad_inj l : forall l', map pad l = map pad l' -> l = l'.
Proof. induction l as [|x l IH]; intros [|y l'] E; try discriminate; [reflexivity|]. cbn in E. injection E as E1 E2. f_equal; [exact E1|now apply IH]. Qed.
Lemma block_head text k x : plain_key k -> exists s l, block text (k, x) = s :: l /\ ~ indented s.
Proof.
  intros (_ & _ & N). unfold block, leaf_block. cbn [fst snd].
  assert (G : forall r, ~ indented (k ++ String ":" r)%string).
  { intros r (q & E). destruct k as [|c k]; [discriminate|]. cbn in E. injection E as -> _. exact (N k eq_refl). }
  destruct (nodeb x); [eexists _, _; (split; [reflexivity|]); apply G|]. pose proof (split_ne (text x)). destruct (split_nl (text x)); [congruence|].
  eexists _, _; (split; [reflexivity|]); apply G.
Qed.
Lemma rel_keys {A B} (R : A -> B -> Prop) l l' : Forall2 (fun a b => fst a = fst b /\ R (snd a) (snd b)) l l' -> keys l = keys l'.
Proof. intros G. induction G as [|a b l l' [E _] G IHG]; [reflexivity|]. unfold keys in *. cbn. now rewrite E, IHG. Qed.
Lemma rel_in {A B} (R : A -> B -> Prop) l l' : Forall2 (fun a b => fst a = fst b /\ R (snd a) (snd b)) l l' -> NoDup (keys l) ->
  forall k x x', In (k, x) l -> In (k, x') l' -> R x x'.
Proof.
  intros G. induction G as [|[k1 y] [k2 y'] l l' [E A0] G IHG]; intros Ns k x x' I I'; [destruct I|]. pose proof (rel_keys _ _ _ G) as Ek.
  cbn in E, A0, Ns. subst k2. inversion Ns as [|? ? N1 N2]; subst. destruct I as [I|I], I' as [I'|I'].
  - injection I as -> ->. injection I' as ->. exact A0.
  - injection I as -> ->. exfalso. apply N1. change (map fst l) with (keys l). rewrite Ek. exact (in_map fst _ _ I').
  - injection I' as -> ->. exfalso. apply N1. exact (in_map fst _ _ I).
  - now apply (IHG N2 k).
Qed.
Lemma lines_inj text : forall t t', is_cfg t -> is_cfg t' -> proper t -> proper t' -> keys_are plain_key t -> keys_are plain_key t' -> lines text t = lines text t' -> alike text t t'.
Proof.
  induction t as [a|l _|l _|d _|m d IH] using tree_ind'; intros t' Hc (m' & d' & ->) P P' T T' E; try (destruct Hc as (? & ? & ?); discriminate).
  inversion P as [? Q|? ? N Pd]; subst; [exfalso; apply Q; now eexists _, _|]. inversion P' as [? Q|? ? N' Pd']; subst; [exfalso; apply Q; now eexists _, _|].
  pose proof (keys_node _ _ _ T) as K. pose proof (keys_node _ _ _ T') as K'. rewrite Forall_forall in IH. rewrite !lines_node in E.
  assert (Hd : forall (d : list (string * tree)), (forall k x, In (k, x) d -> plain_key k /\ keys_are plain_key x) -> d <> [] -> [EmptyString] <> concat (map (block text) (sorted d))).
  { clear. intros d K Ne E. pose proof (sorted_perm d) as Pm. destruct (sorted d) as [|[k x] es] eqn:Es; [apply Permutation_sym, Permutation_nil in Pm; congruence|].
    destruct (block_head text k x) as (s & l & Eb & _); [apply (K k x); apply (Permutation_in _ (Permutation_sym Pm)); now left|]. unfold block, leaf_block in E. cbn [map concat fst snd] in E.
    destruct (nodeb x); [destruct k; discriminate|]. pose proof (split_ne (text x)). destruct (split_nl (text x)); [congruence|]. destruct k; discriminate. }
  destruct d as [|e0 d0], d' as [|e0' d0'].
  - apply Al_node; [reflexivity|intros k x x' []].
  - exfalso. exact (Hd _ K' ltac:(discriminate) E).
  - exfalso. exact (Hd _ K ltac:(discriminate) (eq_sym E)).
  - set (d := e0 :: d0) in *. set (d' := e0' :: d0') in *. clear Hd.
    assert (G : forall l l', (forall kx, In kx l -> In kx d) -> (forall kx, In kx l' -> In kx d') -> concat (map (block text) l) = concat (map (block text) l') ->
      Forall2 (fun a b => fst a = fst b /\ alike text (snd a) (snd b)) l l').
    { assert (Nh : forall (d : list (string * tree)), (forall k x, In (k, x) d -> plain_key k /\ keys_are plain_key x) -> forall l, (forall kx, In kx l -> In kx d) ->
        forall s r, concat (map (block text) l) = s :: r -> ~ indented s).
      { clear. intros d K [|[k x] l] H s r E; [discriminate|]. destruct (block_head text k x) as (s0 & l0 & Eb & Ns); [apply (K k x); apply H; now left|].
        cbn in E. rewrite Eb in E. cbn in E. injection E as <- _. exact Ns. }
      induction l as [|[k x] l IHl]; intros [|[k' x'] l'] H H' E'.
      - constructor.
      - cbn in E'. pose proof (block_ne text (k', x')). destruct (block text (k', x')); [congruence|discriminate].
      - cbn in E'. pose proof (block_ne text (k, x)). destruct (block text (k, x)); [congruence|discriminate].
      - assert (I : In (k, x) d) by (apply H; now left). assert (I' : In (k', x') d') by (apply H'; now left).
        destruct (K k x I) as [(_ & Kc & _) Tx]. destruct (K' k' x' I') as [(_ & Kc' & _) Tx'].
        assert (Hl : forall kx, In kx l -> In kx d) by (intros; apply H; now right). assert (Hl' : forall kx, In kx l' -> In kx d') by (intros; apply H'; now right).
        cbn [map concat] in E'. unfold block at 1 3 in E'. cbn [fst snd] in E'. unfold leaf_block in E'.
        pose proof (split_ne (text x)) as Sx. pose proof (split_ne (text x')) as Sx'.
        pose proof (join_split (text x)) as Jx. pose proof (join_split (text x')) as Jx'.
        assert (Ind : forall ls, Forall indented (map pad ls)) by (intros ls; apply Forall_forall; intros s Hs; apply in_map_iff in Hs; destruct Hs as (q & <- & _); now eexists).
        destruct (split_nl (text x)) as [|f r] eqn:Ef; [congruence|]. destruct (split_nl (text x')) as [|f' r'] eqn:Ef'; [congruence|].
        destruct (nodeb x) eqn:Nx; destruct (nodeb x') eqn:Nx'; cbn [app] in E'; injection E' as E1 E2.
        + destruct (colon_split k k' "" "" Kc Kc' E1) as [<- _].
          destruct (split_blocks indented _ _ _ _ (Ind (lines text x)) (Ind (lines text x')) (Nh d K l Hl) (Nh d' K' l' Hl') E2) as [E3 E4]. apply pad_inj in E3.
          constructor; [|now apply IHl]. split; [reflexivity|]. cbn [snd]. apply (IH (k, x) I); [now apply nodeb_cfg|now apply nodeb_cfg|now apply (Pd k)|now apply (Pd' k)|exact Tx|exact Tx'|exact E3].
        + destruct (colon_split k k' "" (" " ++ f') Kc Kc' E1) as [_ F]. discriminate.
        + destruct (colon_split k k' (" " ++ f) "" Kc Kc' E1) as [_ F]. discriminate.
        + destruct (colon_split k k' (" " ++ f) (" " ++ f') Kc Kc' E1) as [<- F]. injection F as <-.
          destruct (split_blocks indented _ _ _ _ (Ind r) (Ind r') (Nh d K l Hl) (Nh d' K' l' Hl') E2) as [E3 E4]. apply pad_inj in E3. subst r'.
          constructor; [|now apply IHl]. split; [reflexivity|]. cbn [snd]. apply Al_leaf; [now apply nodeb_not|now apply nodeb_not|now rewrite <- Jx, <- Jx']. }
    specialize (G (sorted d) (sorted d') (fun kx I => proj1 (sorted_in _ _) I) (fun kx I => proj1 (sorted_in _ _) I) E).
    pose proof (rel_keys _ _ _ G) as Ek.
    apply Al_node.
    + intros k. rewrite <- (sorted_keys_in d), <- (sorted_keys_in d'), Ek. reflexivity.
    + intros k x x' I I'. rewrite <- sorted_in in I, I'. exact (rel_in _ _ _ G (sorted_nodup d N) k x x' I I').
Qed.

(* ---------------- layout *)
Lemma shows_lines text : forall t, is_cfg t -> proper t -> exists ls, Shows text t ls /\ lines text t = map (fun q => (margin (fst q) ++ snd q)%string) ls.
Proof.
  induction t as [a|l _|l _|d _|m d IH] using tree_ind'; intros Hc P; try (destruct Hc as (? & ? & ?); discriminate).
  inversion P as [? Q|? ? N Pd]; subst; [exfalso; apply Q; now eexists _, _|]. rewrite Forall_forall in IH. rewrite lines_node.
  destruct d as [|e0 d0]; [eexists; split; [apply Sh_empty|reflexivity]|]. set (d := e0 :: d0) in *.
  assert (G : forall l, (forall kx, In kx l -> In kx d) -> exists ls, Shows_items text l ls /\ concat (map (block text) l) = map (fun q => (margin (fst q) ++ snd q)%string) ls).
  { induction l as [|[k x] l IHl]; intros H; [exists []; split; [constructor|reflexivity]|]. destruct IHl as (ls & S & E); [intros; apply H; now right|].
    assert (I : In (k, x) d) by (apply H; now left). cbn [map concat]. rewrite E. unfold block. cbn [fst snd]. destruct (nodeb x) eqn:Nx.
    - destruct (IH (k, x) I (proj1 (nodeb_cfg x) Nx) (Pd k x I)) as (lx & Sx & Ex). cbn [snd] in Sx, Ex. eexists. split; [exact (Si_node text k x l lx ls Sx S)|].
      rewrite Ex. cbn [map app fst snd]. rewrite map_app. unfold deeper. rewrite !map_map. reflexivity.
    - unfold leaf_block. pose proof (split_ne (text x)) as Sx. pose proof (join_split (text x)) as J. pose proof (split_lines (text x)) as Fl.
      destruct (split_nl (text x)) as [|f r]; [congruence|].
      eexists. split; [exact (Si_leaf text k x l f r ls (proj1 (nodeb_not x) Nx) (eq_sym J) Fl S)|].
      cbn [map app fst snd]. rewrite map_app. unfold deeper. rewrite !map_map. reflexivity. }
  destruct (G (sorted d) (fun kx I => proj1 (sorted_in _ _) I)) as (ls & S & E). exists ls. split; [|exact E].
  apply Sh_node with (d' := sorted d); [discriminate|apply sorted_perm|exact (sorted_sorted d N)|exact S].
Qed.

(* ---------------- the properties *)
Lemma p_layout : forall str_of text fuel h v t, prints str_of text -> Reads h v t -> is_cfg t -> tdepth t <= fuel -> keys_are one_line t ->
  exists ls, Shows text t ls /\ cfg_str str_of fuel v h = (h, Done (page ls)).
Proof.
  intros str_of text fuel h v t Hp Hr Hc Hd T. destruct (shows_lines text t Hc (reads_proper _ _ _ Hr)) as (ls & S & E). exists ls. split; [exact S|].
  rewrite (run_str str_of text Hp fuel h v t Hr Hc Hd), (pretty_lines text t Hc T), E. reflexivity.
Qed.
Lemma p_same_text : forall str_of text fuel fuel' h h' v v' t t', prints str_of text -> Reads h v t -> Reads h' v' t' -> is_cfg t -> is_cfg t' ->
  tdepth t <= fuel -> tdepth t' <= fuel' -> alike text t t' -> exists s, cfg_str str_of fuel v h = (h, Done s) /\ cfg_str str_of fuel' v' h' = (h', Done s).
Proof.
  intros str_of text fuel fuel' h h' v v' t t' Hp Hr Hr' Hc Hc' Hd Hd' A. exists (pretty text t).
  rewrite (run_str str_of text Hp fuel h v t Hr Hc Hd), (run_str str_of text Hp fuel' h' v' t' Hr' Hc' Hd').
  rewrite <- (alike_pretty text t t' (reads_proper _ _ _ Hr) (reads_proper _ _ _ Hr') A). auto.
Qed.
Lemma p_faithful : forall str_of text fuel fuel' h h' v v' t t' s, prints str_of text -> Reads h v t -> Reads h' v' t' -> is_cfg t -> is_cfg t' ->
  tdepth t <= fuel -> tdepth t' <= fuel' -> keys_are plain_key t -> keys_are plain_key t' ->
  cfg_str str_of fuel v h = (h, Done s) -> cfg_str str_of fuel' v' h' = (h', Done s) -> alike text t t'.
Proof.
  intros str_of text fuel fuel' h h' v v' t t' s Hp Hr Hr' Hc Hc' Hd Hd' T T' E E'.
  rewrite (run_str str_of text Hp fuel h v t Hr Hc Hd) in E. rewrite (run_str str_of text Hp fuel' h' v' t' Hr' Hc' Hd') in E'.
  injection E as E. injection E' as E'. subst s. apply lines_inj; try assumption; [exact (reads_proper _ _ _ Hr)|exact (reads_proper _ _ _ Hr')|].
  apply (keys_mono _ _ (fun k => @proj1 (one_line k) _)) in T, T'.
  rewrite (pretty_lines text t Hc T), (pretty_lines text t' Hc' T') in E'. apply (f_equal split_nl) in E'.
  rewrite !split_join in E'; [now symmetry| | | |]; try apply lines_ne; now apply lines_one.
Qed.
(* str() never changes the object, whatever happens *)
Lemma p_pure : forall str_of fuel v h, fst (cfg_str str_of fuel v h) = h.
Proof.
  intros str_of. induction fuel as [|n IH]; intros v h; [reflexivity|]. cbn [cfg_str]. destruct v as [| |l]; try reflexivity.
  destruct (nth_error h l) as [[| |m d]|]; try reflexivity. unfold bind at 1.
  assert (G : forall l, fst (each (fun k v => fun h => match type_of h v with
                 | TyNode => (let! t := cfg_str str_of n v in ret (indent (k ++ ":" ++ String nl EmptyString ++ t)%string 2)) h
                 | _ => ret (indent (k ++ ":" ++ " " ++ str_of h v)%string 2) h end) l h) = h).
  { induction l0 as [|[k v] l0 IHl]; [reflexivity|]. cbn [each]. unfold bind at 1.
    assert (O : exists o, (match type_of h v with
                 | TyNode => (let! t := cfg_str str_of n v in ret (indent (k ++ ":" ++ String nl EmptyString ++ t)%string 2)) h
                 | _ => ret (indent (k ++ ":" ++ " " ++ str_of h v)%string 2) h end) = (h, o)).
    { destruct (type_of h v); try (eexists; reflexivity). unfold bind. specialize (IH v h). destruct (cfg_str str_of n v h) as [h1 [x|e]]; cbn in IH; subst h1; eexists; reflexivity. }
    destruct O as ([x|e] & ->); [|reflexivity]. unfold bind. destruct (each _ l0 h) as [h1 [y|e]]; cbn in *; exact IHl. }
  specialize (G (sorted d)). destruct (each _ (sorted d) h) as [h1 [y|e]]; cbn in *; exact G.
Qed.
(* a configuration that contains itself cannot be printed *)
Lemma p_cycle : forall str_of fuel m k, cfg_str str_of fuel (VRef 0) [ONode m [(k, VRef 0)]] = ([ONode m [(k, VRef 0)]], Raise XRecursion).
Proof.
  intros str_of fuel m k. induction fuel as [|n IH]; [reflexivity|]. cbn [cfg_str nth_error]. unfold sorted. cbn [fold_right insert each]. unfold bind at 1 2.
  cbn [type_of nth_error]. unfold bind at 1. rewrite IH. reflexivity.
Qed.
(* an int and the str of its digits print the same *)
Definition one_entry (a : atom) : heap := [ONode plain_meta [("a"%string, VAtom a)]].
Lemma p_types : forall str_of, (forall h z, str_of h (VAtom (AInt 1)) = "1"%string /\ str_of h (VAtom (AStr z)) = z) ->
  cfg_str str_of 2 (VRef 0) (one_entry (AInt 1)) = (one_entry (AInt 1), Done "a: 1"%string) /\
  cfg_str str_of 2 (VRef 0) (one_entry (AStr "1")) = (one_entry (AStr "1"), Done "a: 1"%string).
Proof.
  intros str_of H. unfold one_entry. cbn. unfold bind, ret. cbn. rewrite (proj1 (H _ EmptyString)), (proj2 (H _ "1"%string)). split; reflexivity.
Qed.
(* a value with a line break can look like another configuration *)
Definition forged : heap := [ONode plain_meta [("a"%string, VAtom (AStr ("1:" ++ String newline "b: 2")%string))]].
Definition honest : heap := [ONode plain_meta [("a: 1"%string, VRef 1)]; ONode plain_meta [("b"%string, VAtom (AStr "2"))]].
Lemma p_forged : forall str_of, (forall h z, str_of h (VAtom (AStr z)) = z) ->
  exists s, cfg_str str_of 3 (VRef 0) forged = (forged, Done s) /\ cfg_str str_of 3 (VRef 0) honest = (honest, Done s).
Proof.
  intros str_of H. eexists. unfold forged, honest. cbn. unfold bind, ret. cbn. unfold bind, ret. cbn. rewrite !H. split; reflexivity.
Qed.
