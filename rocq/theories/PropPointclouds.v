(* Properties C02-C13: the Pointclouds container.  F is any field with decidable equality.
   Hist s a (PointcloudsHist.v): object s was obtained by some finite sequence of public calls that are
   documented to yield the clouds a.  Shows s a (PointcloudsSpec.v): every view, flag, count and mask
   read from s is the one of clouds a. *)
From Coq Require Import List Arith ZArith Bool QArith Qcanon.
From Verif Require Import Res Fld StructUtilsModel StructUtilsSpec PointcloudsModel PointcloudsSpec
  PointcloudsCtorSpec PointcloudsSetSpec PointcloudsIndexSpec PointcloudsHist PointcloudsPropProofs
  PointcloudsWitness PointcloudsWitnessProofs.
Import ListNotations.
Local Open Scope nat_scope.

(* ------------------------------------------------------------------ C02 *)
Theorem C02_accepts_exactly : forall (F : Fld) (p n c f : inp F),
  real_inp F p -> real_inp F n -> real_inp F c -> real_inp F f ->
  ((exists s, ctor F p n c f = Ok s) <-> exists a, Denotes F p n c f a).
Proof. exact p_accepts. Qed.
Print Assumptions C02_accepts_exactly.

Theorem C02_rejects_with : forall (F : Fld) (p n c f : inp F) e,
  real_inp F p -> real_inp F n -> real_inp F c -> real_inp F f ->
  ctor F p n c f = Err e -> e = TypeError \/ e = ValueError.
Proof. exact p_ctor_errors. Qed.
Print Assumptions C02_rejects_with.

Theorem C02_fresh_object : forall (F : Fld) (p n c f : inp F) a s,
  real_inp F p -> real_inp F n -> real_inp F c -> real_inp F f ->
  Denotes F p n c f a -> ctor F p n c f = Ok s -> Shows F s a.
Proof. exact p_fresh. Qed.
Print Assumptions C02_fresh_object.

Example C02_witness :
  Denotes QcF (inL P21) (inL N21) (INone QcF) (INone QcF) a21 /\
  counts_of QcF P21 = [2; 1] /\
  is_ok (ctor QcF (inL P21) (inL N21) (INone QcF) (INone QcF)) = true /\
  ctor QcF (inL P21) (inL P1) (INone QcF) (INone QcF) = Err ValueError /\
  ctor QcF (inL P21) (ITensor QcF (AT3 QcF NT)) (INone QcF) (INone QcF) = Err TypeError.
Proof. split; [exact d21|]. repeat split. Qed.

(* ------------------------------------------------------------------ C03 *)
(* after any history: each attribute is either absent in both views, or the list view holds, cloud by
   cloud, the first N_b rows of the padded view.  Partial: Hist restricts list setters (see
   C03_stale_padded_refuted), clone (C08) and oversized operands (C04) *)
Theorem C03_views_agree_partial : forall (F : Fld) (s : pc F) a x, Hist F s a ->
  (fst (get_list F x s) = Ok None /\ fst (get_padded F x s) = Ok None) \/
  exists L p, fst (get_list F x s) = Ok (Some L) /\ fst (get_padded F x s) = Ok (Some p) /\
    length L = len F s /\ t3b p = len F s /\ length (num_points F s) = len F s /\
    forall b y m n, nth_error L b = Some y -> nth_error (t3d p) b = Some m ->
      nth_error (num_points F s) b = Some n ->
      length (t2r y) = n /\ t2r y = firstn n m /\ t2c y = t3c p.
Proof. exact p_views_agree. Qed.
Print Assumptions C03_views_agree_partial.

(* more generally: everything an object shows is what its history says *)
Theorem C03_history_determines_views_partial : forall (F : Fld) (s : pc F) a, Hist F s a -> Shows F s a.
Proof. exact p_hist_shows. Qed.
Print Assumptions C03_history_determines_views_partial.

(* normals_list = v after the padded views exist: the padded view keeps the old normals *)
Theorem C03_stale_padded_refuted : exists (s s' : pc QcF) a v,
  Hist QcF s a /\ set_list QcF Normals v s = (Ok tt, s') /\
  rmap num2 (fst (get_list QcF Normals s')) = Ok [[[0; 1; 0]; [0; 1; 0]]; [[0; 0; 1]]]%Q /\
  rmap num3 (fst (get_padded QcF Normals s')) = Ok [[[1; 0; 0]; [0; 1; 0]]; [[0; 0; 1]; [0; 0; 0]]]%Q.
Proof.
  exists (after QcF (RdPadded Normals) s21). eexists. exists a21, (vl N21').
  split; [apply h_read, h21|]. split; [apply okp; vm_compute; reflexivity|].
  split; vm_compute; reflexivity.
Qed.
Print Assumptions C03_stale_padded_refuted.

(* a history of construction, reading, rotation and append, with clouds of different sizes *)
Example C03_witness : exists s a P, Hist QcF s a /\ qp a = Some P /\ counts_of QcF P = [4; 2] /\
  is_some (qn a) = true /\ all_equal (counts_of QcF P) = false.
Proof. exact long_history. Qed.

(* ------------------------------------------------------------------ C04 *)
Theorem C04_padding_zero_partial : forall (F : Fld) (s : pc F) a x p b i j n,
  Hist F s a -> fst (get_padded F x s) = Ok (Some p) ->
  nth_error (num_points F s) b = Some n -> n <= i -> i < t3n p -> j < t3c p ->
  elem3 p b i j = Some f0.
Proof. exact p_padding. Qed.
Print Assumptions C04_padding_zero_partial.

Theorem C04_mask_exact_partial : forall (F : Fld) (s : pc F) a P, Hist F s a -> qp a = Some P ->
  exists m, fst (nonpad_mask F s) = Ok (Some m) /\ length m = len F s /\
  forall b n row, nth_error (num_points F s) b = Some n -> nth_error m b = Some row ->
    length row = biggest (num_points F s) /\
    forall i, i < length row -> nth_error row i = Some (i <? n).
Proof. exact p_mask. Qed.
Print Assumptions C04_mask_exact_partial.

(* an offset whose shape broadcasts beyond (B, N, 3) is accepted: rows appear past the cloud's points,
   and they are not zero *)
Theorem C04_oversized_offset_refuted : exists (s s' : pc QcF) a,
  Hist QcF s a /\ offset_ QcF (ones [1; 2; 3]) s = (Ok tt, s') /\
  num_points QcF s' = [1] /\
  rmap num3 (fst (get_padded QcF Points s')) = Ok [[[2; 3; 4]; [2; 3; 4]]]%Q.
Proof.
  exists s1. eexists. exists a1. split; [exact h1|].
  split; [apply okp; vm_compute; reflexivity|]. split; vm_compute; reflexivity.
Qed.
Print Assumptions C04_oversized_offset_refuted.

(* with a larger batch extent the object cannot be read any more *)
Theorem C04_oversized_batch_refuted : exists (s s' : pc QcF) a,
  Hist QcF s a /\ offset_ QcF (ones [2; 1; 3]) s = (Ok tt, s') /\
  len QcF s' = 1 /\ fst (get_list QcF Points s') = Err RuntimeError.
Proof.
  exists s1. eexists. exists a1. split; [exact h1|].
  split; [apply okp; vm_compute; reflexivity|]. split; vm_compute; reflexivity.
Qed.
Print Assumptions C04_oversized_batch_refuted.

Example C04_witness : exists (s : pc QcF) a,
  Hist QcF s a /\ num_points QcF s = [2; 1] /\
  rmap num3 (fst (get_padded QcF Points s)) = Ok [[[1; 2; 3]; [4; 5; 6]]; [[7; 8; 9]; [0; 0; 0]]]%Q /\
  fst (nonpad_mask QcF s) = Ok (Some [[true; true]; [true; false]]).
Proof. exists s21, a21. split; [exact h21|]. repeat split; vm_compute; reflexivity. Qed.

(* ------------------------------------------------------------------ C05 *)
(* any list of reads, then any read: same answer as without the list *)
Theorem C05_reads_pure_partial : forall (F : Fld) (s : pc F) a rs r, Hist F s a ->
  look F r (fold_left (fun s r => after F r s) rs s) = look F r s.
Proof. exact p_reads_pure. Qed.
Print Assumptions C05_reads_pure_partial.

(* outside these histories reads are not pure: after points_list is assigned, whether normals survive
   depends on whether normals_list or points_padded is read first *)
Theorem C05_read_order_refuted : exists (s s' : pc QcF) a v,
  Hist QcF s a /\ set_list QcF Points v s = (Ok tt, s') /\
  rmap is_some (fst (get_list QcF Normals s')) = Ok true /\
  rmap is_some (fst (get_list QcF Normals (after QcF (RdPadded Points) s'))) = Ok false.
Proof.
  exists sT. eexists. exists aT, (vl (slabs_of PT)). split; [exact hT|]. split; [apply okp; vm_compute; reflexivity|].
  split; vm_compute; reflexivity.
Qed.
Print Assumptions C05_read_order_refuted.

Example C05_witness : exists (s : pc QcF) a, Hist QcF s a /\
  let s' := fold_left (fun s r => after QcF r s) [RdPadded Normals; RdMask; RdHas Colors] s in
  is_some (mask QcF s) = false /\ is_some (mask QcF s') = true /\ is_some (qn (pad QcF s')) = true.
Proof. exists s21, a21. split; [exact h21|]. vm_compute. auto. Qed.

(* ------------------------------------------------------------------ C06 *)
(* an accepted call succeeds and produces exactly the clouds of its mathematical meaning *)
Theorem C06_calls_act_pointwise : forall (F : Fld) m (s : pc F) a a', Hist F s a -> Means F m a a' ->
  exists s', run F m s = (Ok tt, s') /\ Hist F s' a' /\ Shows F s' a'.
Proof. exact p_call. Qed.
Print Assumptions C06_calls_act_pointwise.

(* what the *_spec functions say: point by point, nothing else changes *)
Theorem C06_meaning_is_pointwise : forall (F : Fld) x h (a : batch F) L, qget x a = Some L ->
  exists L', qget x (move_attr F x h a) = Some L' /\ counts_of F L' = counts_of F L /\
  (forall b y i r, nth_error L b = Some y -> nth_error (t2r y) i = Some r ->
     exists y', nth_error L' b = Some y' /\
       nth_error (t2r y') i = Some [h b i (fun j => nth j r f0) 0; h b i (fun j => nth j r f0) 1;
                                    h b i (fun j => nth j r f0) 2]) /\
  (forall z, z <> x -> qget z (move_attr F x h a) = qget z a).
Proof. exact p_move. Qed.
Print Assumptions C06_meaning_is_pointwise.

Example C06_witness : exists (s s' : pc QcF) a a',
  Hist QcF s a /\ Means QcF (Rotate QcF Rz true) a a' /\ rotate_ QcF Rz true s = (Ok tt, s') /\
  rmap num2 (fst (get_list QcF Points s')) = Ok [[[-2; 1; 3]; [-5; 4; 6]]; [[-8; 7; 9]]]%Q.
Proof.
  exists s21, s21r, a21, a21r. split; [exact h21|]. split; [exact m21r|]. split; [exact e21r|].
  vm_compute; reflexivity.
Qed.

(* ------------------------------------------------------------------ C07 *)
(* out-of-place operators and methods: result as in place, receiver unchanged *)
Theorem C07_operators_partial : forall (F : Fld) (s : pc F) a sh el, ReadyToClone F s a ->
  let R (m : M (pc F) (pc F)) r := exists o s', m s = (Ok o, s') /\ Shows F o r /\ Shows F s' a in
  (PointcloudsHist.fits F a sh ->
   R (add F (OT F sh el)) (offset_spec F sh el a) /\
   R (sub F (OT F sh el)) (offset_spec F sh (fun i => fmul (el i) (fopp f1)) a) /\
   R (mul F (OT F sh el)) (scale_spec F sh el a) /\
   R (truediv F (OT F sh el)) (scale_spec F sh (fun i => fdiv f1 (el i)) a)) /\
  (is_mat 3 sh (len_view F a) -> forall pre,
   R (rotate F (OT F sh el) pre) (rotate_spec F sh el pre a) /\
   R (matmul F (OT F sh el)) (rotate_spec F sh el false a)) /\
  (is_mat 4 sh (len_view F a) -> forall pre,
   R (transform F (OT F sh el) pre) (transform_spec F sh el pre a) /\
   R (matmul F (OT F sh el)) (transform_spec F sh el false a) /\
   R (pinhole_projection F (OT F sh el)) (pinhole_spec F sh el a)).
Proof. exact p_ops. Qed.
Print Assumptions C07_operators_partial.

Theorem C07_out_of_place_partial : forall (F : Fld) m (s : pc F) a a', ReadyToClone F s a -> Means F m a a' ->
  exists o s', out_of_place F (run F m) s = (Ok o, s') /\ Hist F o a' /\ Shows F o a' /\ Hist F s' a /\ Shows F s' a.
Proof. exact p_oop. Qed.
Print Assumptions C07_out_of_place_partial.

(* after rotate_ on clouds of different sizes, pc + 1 differs from pc.offset_(1): the padding of the
   shorter cloud becomes points *)
Theorem C07_after_rotate_refuted : exists (s si s' so : pc QcF) a,
  Hist QcF s a /\
  offset_ QcF (scalar QcF (q 1)) s = (Ok tt, si) /\
  add QcF (scalar QcF (q 1)) s = (Ok so, s') /\
  rmap num3 (fst (get_padded QcF Points si)) = Ok [[[-1; 2; 4]; [-4; 5; 7]]; [[-7; 8; 10]; [0; 0; 0]]]%Q /\
  rmap num3 (fst (get_padded QcF Points so)) = Ok [[[-1; 2; 4]; [-4; 5; 7]]; [[-7; 8; 10]; [1; 1; 1]]]%Q.
Proof.
  exists s21r. eexists. eexists.
  exists (match fst (add QcF (scalar QcF (q 1)) s21r) with Ok o => o | Err _ => empty_pc QcF end), a21r.
  split; [exact h21r|]. split; [apply okp; vm_compute; reflexivity|].
  split; [apply okp; apply ok_unwrap; vm_compute; reflexivity|]. split; vm_compute; reflexivity.
Qed.
Print Assumptions C07_after_rotate_refuted.

Example C07_witness : exists (s : pc QcF) a P, ReadyToClone QcF s a /\ qp a = Some P /\
  counts_of QcF P = [2; 1] /\ PointcloudsHist.fits QcF a [2; 1; 3] /\ is_mat 4 [2; 4; 4] (len_view QcF a).
Proof.
  exists (after QcF (RdList Points) s21), a21, P21. split; [left; exists s21; split; [exact h21|reflexivity]|].
  split; [reflexivity|]. split; [reflexivity|]. split; [|now right].
  split; [auto|]. repeat apply Forall_cons; cbn; auto.
Qed.

(* ------------------------------------------------------------------ C08 *)
Theorem C08_clone_equal_partial : forall (F : Fld) (s : pc F) a, ReadyToClone F s a ->
  exists o s', clone F s = (Ok o, s') /\ Hist F o a /\ Shows F o a /\ Hist F s' a /\ Shows F s' a.
Proof. exact p_clone. Qed.
Print Assumptions C08_clone_equal_partial.

Theorem C08_detach_is_clone : forall (F : Fld) (s : pc F) a, Hist F s a -> detach F s = clone F s.
Proof. exact p_detach. Qed.
Print Assumptions C08_detach_is_clone.

(* clone after rotate_, clouds of different sizes: the clone's mask marks padding as points *)
Theorem C08_clone_mask_refuted : exists (s s' o : pc QcF) a,
  Hist QcF s a /\ clone QcF s = (Ok o, s') /\
  fst (nonpad_mask QcF s) = Ok (Some [[true; true]; [true; false]]) /\
  fst (nonpad_mask QcF o) = Ok (Some [[true; true]; [true; true]]).
Proof.
  exists s21r. eexists. exists (match fst (clone QcF s21r) with Ok o => o | Err _ => empty_pc QcF end), a21r.
  split; [exact h21r|]. split; [apply okp; apply ok_unwrap; vm_compute; reflexivity|]. split; vm_compute; reflexivity.
Qed.
Print Assumptions C08_clone_mask_refuted.

Example C08_witness : ReadyToClone QcF sT aT /\ ReadyToClone QcF (after QcF (RdList Points) s21) a21.
Proof.
  split; [right; split; [exact hT|exists (slabs_of PT); split; reflexivity]|].
  left. exists s21. split; [exact h21|reflexivity].
Qed.

(* ------------------------------------------------------------------ C09 *)
Theorem C09_append : forall (F : Fld) (s o : pc F) a b, Hist F s a -> Hist F o b ->
  qp a = None \/ qp b = None \/ same_attrs F a b ->
  exists s' o', append_points F (s, o) = (Ok tt, (s', o')) /\
    Hist F o' b /\ Shows F o' b /\
    let r := match qp a, qp b with None, _ => b | _, None => a | Some _, Some _ => append_spec F a b end in
    Hist F s' r /\ Shows F s' r.
Proof. exact p_append. Qed.
Print Assumptions C09_append.

Theorem C09_append_meaning : forall (F : Fld) (a b : batch F) P Q x,
  qp a = Some P -> qp b = Some Q -> valid_batch F P a -> valid_batch F Q b -> same_attrs F a b ->
  match qget x a, qget x b with
  | Some L1, Some L2 => exists L, qget x (append_spec F a b) = Some L /\ length L = length L1 /\
      forall k y1 y2, nth_error L1 k = Some y1 -> nth_error L2 k = Some y2 ->
        exists y, nth_error L k = Some y /\ t2r y = t2r y1 ++ t2r y2 /\ t2c y = t2c y1 /\ t2c y = t2c y2
  | None, None => qget x (append_spec F a b) = None
  | _, _ => False
  end.
Proof. exact p_append_spec. Qed.
Print Assumptions C09_append_meaning.

Theorem C09_append_rejects : forall (F : Fld) (s o : pc F) a b, Hist F s a -> Hist F o b ->
  qp a <> None -> qp b <> None -> ~ same_attrs F a b ->
  exists s' o', append_points F (s, o) = (Err ValueError, (s', o')) /\ Shows F s' a /\ Shows F o' b.
Proof. exact p_append_rejects. Qed.
Print Assumptions C09_append_rejects.

Example C09_witness : Hist QcF s21 a21 /\ same_attrs QcF a21 a21 /\ ~ same_attrs QcF a21 a21p /\
  Hist QcF s21p a21p.
Proof.
  split; [exact h21|]. split; [split; [reflexivity|]; split; [intros [| | |]; reflexivity|reflexivity]|].
  split; [|exact h21p]. intros (_ & H & _). specialize (H Normals). discriminate.
Qed.

(* ------------------------------------------------------------------ C10 *)
Theorem C10_getitem : forall (F : Fld) (s : pc F) a ix ks, Hist F s a -> Selects ix (len_view F a) ks -> ks <> [] ->
  exists c o s', getitem F ix s = (Ok o, s') /\ Picked F ks a c /\ Hist F o c /\ Shows F o c /\ Shows F s' a.
Proof. exact p_getitem. Qed.
Print Assumptions C10_getitem.

Theorem C10_getitem_rejects : forall (F : Fld) (s : pc F) a ix, Hist F s a ->
  (Selects ix (len_view F a) [] \/ ~ exists ks, Selects ix (len_view F a) ks) ->
  exists e s', getitem F ix s = (Err e, s') /\ (e = IndexError \/ e = ValueError) /\ Shows F s' a.
Proof. exact p_getitem_rejects. Qed.
Print Assumptions C10_getitem_rejects.

Example C10_witness : Hist QcF s21 a21 /\ Selects (XInt (-1)) (len_view QcF a21) [1] /\
  Selects (XList [1; -2]%Z) (len_view QcF a21) [1; 0] /\ ~ (exists ks, Selects (XInt 2) (len_view QcF a21) ks).
Proof.
  split; [exact h21|]. split; [exists 1; split; [split; [auto|right; reflexivity]|reflexivity]|]. split.
  - change (len_view QcF a21) with 2. constructor; [split; [auto|left; reflexivity]|]. constructor; [split; [auto|right; reflexivity]|constructor].
  - intros (ks & k & (Hk & Hz) & _). cbn in Hk, Hz. destruct k as [|[|k]]; [destruct Hz; discriminate|destruct Hz; discriminate|].
    do 2 apply Nat.succ_lt_mono in Hk. inversion Hk.
Qed.

(* ------------------------------------------------------------------ C11 *)
(* padded setter of a present attribute: accepted and read back *)
Theorem C11_set_padded_partial : forall (F : Fld) (s : pc F) a P x v L,
  Hist F s a -> qp a = Some P -> qget x a <> None -> pad_value F P x v L ->
  exists s', set_padded F x v s = (Ok tt, s') /\ Hist F s' (qset x (Some L) a) /\ Shows F s' (qset x (Some L) a) /\
    exists p, v = SP F (AT3 F p) /\ fst (get_padded F x s') = Ok (Some p).
Proof. exact p_set_padded. Qed.
Print Assumptions C11_set_padded_partial.

(* exactly these values are accepted; otherwise the object is unchanged *)
Theorem C11_set_padded_rejects : forall (F : Fld) (s : pc F) a P x v,
  Hist F s a -> qp a = Some P -> real_pad F v -> ~ (exists L, pad_value F P x v L) ->
  exists e s', set_padded F x v s = (Err e, s') /\ (e = TypeError \/ e = ValueError) /\ Shows F s' a.
Proof. exact p_set_padded_rejects. Qed.
Print Assumptions C11_set_padded_rejects.

Theorem C11_set_list_rejects : forall (F : Fld) (s : pc F) a P x v,
  Hist F s a -> qp a = Some P -> real_list F v -> ~ list_shape_ok F P x v ->
  exists e s', set_list F x v s = (Err e, s') /\ (e = TypeError \/ e = ValueError) /\ Shows F s' a.
Proof. exact p_set_list_rejects. Qed.
Print Assumptions C11_set_list_rejects.

(* points_list setter when the list views have been read *)
Theorem C11_set_points_list_partial : forall (F : Fld) (s : pc F) a P v L,
  Hist F s a -> qp a = Some P -> list_value F P Points v L ->
  exists s', set_list F Points v (after_lists F s) = (Ok tt, s') /\
    Hist F s' (qset Points (Some L) a) /\ Shows F s' (qset Points (Some L) a).
Proof. exact p_set_points_list. Qed.
Print Assumptions C11_set_points_list_partial.

(* list setters of any attribute while no padded view has been asked for *)
Theorem C11_set_list_partial : forall (F : Fld) (s : pc F) a P x v L,
  ListOnly F s a -> qp a = Some P -> qget x a <> None -> list_value F P x v L ->
  exists s', set_list F x v s = (Ok tt, s') /\ ListOnly F s' (qset x (Some L) a) /\ Shows F s' (qset x (Some L) a).
Proof. exact p_set_list_listonly. Qed.
Print Assumptions C11_set_list_partial.

(* a new attribute right after construction *)
Theorem C11_add_list_partial : forall (F : Fld) (p n c f : inp F) a P s x v L,
  real_inp F p -> real_inp F n -> real_inp F c -> real_inp F f -> valid_batch F P a ->
  as_list F p (qp a) -> as_list F n (qn a) -> as_list F c (qc a) -> as_list F f (qf a) ->
  ctor F p n c f = Ok s -> x <> Points -> list_value F P x v L ->
  exists s', set_list F x v s = (Ok tt, s') /\ ListOnly F s' (qset x (Some L) a) /\ Shows F s' (qset x (Some L) a).
Proof. exact p_add_list. Qed.
Print Assumptions C11_add_list_partial.

(* features_list accepts clouds of different widths, and then nothing padded can be read *)
Theorem C11_feature_widths_refuted : exists (s s' : pc QcF) a,
  Hist QcF s a /\ set_list QcF Features (vl Fbad) s = (Ok tt, s') /\
  map t2c Fbad = [1; 2] /\ fst (get_padded QcF Points s') = Err RuntimeError.
Proof.
  exists s21p. eexists. exists a21p. split; [exact h21p|].
  split; [apply okp; vm_compute; reflexivity|]. split; vm_compute; reflexivity.
Qed.
Print Assumptions C11_feature_widths_refuted.

Example C11_witness : Hist QcF s21 a21 /\ ListOnly QcF s21 a21 /\ qget Normals a21 <> None /\
  list_value QcF P21 Normals (vl N21') N21' /\
  pad_value QcF P21 Normals (SP QcF (AT3 QcF (pad_to QcF 2 3 N21'))) N21' /\
  ~ list_shape_ok QcF P21 Normals (vl P1).
Proof.
  assert (Hf : fits_clouds QcF P21 Normals 3 N21').
  { split; [reflexivity|]. split; [repeat constructor|reflexivity]. }
  split; [exact h21|]. split; [exact lo21|]. split; [discriminate|]. split; [exists 3; split; [exact Hf|reflexivity]|].
  split; [exists 3; split; [exact Hf|reflexivity]|]. intros (L & E & Hc & _).
  unfold vl in E. injection E as E. destruct L as [|y [|z L]]; cbn in E, Hc; try discriminate.
Qed.

(* ------------------------------------------------------------------ C12 *)
Theorem C12_has_truthful_partial : forall (F : Fld) (s : pc F) a x, Hist F s a ->
  exists b, fst (has F x s) = Ok b /\
    (b = true <-> exists L, fst (get_list F x s) = Ok (Some L)) /\
    (b = true <-> exists p, fst (get_padded F x s) = Ok (Some p)).
Proof. exact p_has. Qed.
Print Assumptions C12_has_truthful_partial.

(* has_normals asked once, then normals assigned: has_normals stays False *)
Theorem C12_stale_flag_refuted : exists (s s' : pc QcF) a,
  Hist QcF s a /\ set_list QcF Normals (vl N21) s = (Ok tt, s') /\
  rmap is_some (fst (get_list QcF Normals s')) = Ok true /\ fst (has QcF Normals s') = Ok false.
Proof.
  exists (after QcF (RdHas Normals) s21p). eexists. exists a21p.
  split; [apply h_read, h21p|]. split; [apply okp; vm_compute; reflexivity|]. split; vm_compute; reflexivity.
Qed.
Print Assumptions C12_stale_flag_refuted.

Example C12_witness : Hist QcF s21 a21 /\ fst (has QcF Normals s21) = Ok true /\ fst (has QcF Colors s21) = Ok false.
Proof. split; [exact h21|]. split; reflexivity. Qed.

(* ------------------------------------------------------------------ C13 *)
Theorem C13_points_padded_keeps : forall (F : Fld) (s : pc F) a P x v L,
  Hist F s a -> qp a = Some P -> x <> Points -> pad_value F P Points v L ->
  exists s', set_padded F Points v s = (Ok tt, s') /\
    fst (get_list F x s') = fst (get_list F x s) /\ fst (get_padded F x s') = fst (get_padded F x s).
Proof. exact p_keeps. Qed.
Print Assumptions C13_points_padded_keeps.

Theorem C13_points_list_keeps_partial : forall (F : Fld) (s : pc F) a P x v L,
  Hist F s a -> qp a = Some P -> x <> Points -> list_value F P Points v L ->
  exists s', set_list F Points v (after_lists F s) = (Ok tt, s') /\
    fst (get_list F x s') = fst (get_list F x s) /\ fst (get_padded F x s') = fst (get_padded F x s).
Proof. exact p_keeps_list. Qed.
Print Assumptions C13_points_list_keeps_partial.

(* an object built from batched tensors: after points_list = v, reading normals_padded gives None *)
Theorem C13_normals_lost_refuted : exists (s s' : pc QcF) a v,
  Hist QcF s a /\ rmap is_some (fst (get_padded QcF Normals s)) = Ok true /\
  set_list QcF Points v s = (Ok tt, s') /\ fst (get_padded QcF Normals s') = Ok None.
Proof.
  exists sT. eexists. exists aT, (vl (slabs_of PT)).
  split; [exact hT|]. split; [vm_compute; reflexivity|]. split; [apply okp|]; vm_compute; reflexivity.
Qed.
Print Assumptions C13_normals_lost_refuted.

Example C13_witness : Hist QcF sT aT /\ pad_value QcF (slabs_of PT) Points (SP QcF (AT3 QcF PT)) (slabs_of PT) /\
  list_value QcF (slabs_of PT) Points (vl (slabs_of PT)) (slabs_of PT).
Proof.
  assert (Hf : fits_clouds QcF (slabs_of PT) Points 3 (slabs_of PT)).
  { split; [reflexivity|]. split; [repeat constructor|reflexivity]. }
  split; [exact hT|]. split; exists 3; (split; [exact Hf|reflexivity]).
Qed.
