(* Histories: the Pointclouds objects a program can obtain through the public API, together with the
   batch of clouds each call is documented to produce.  No implementation detail appears here.
   The side conditions mark where the code departs from its documentation; each one is shown
   necessary by a *_refuted theorem in PropPointclouds.v. *)
From Coq Require Import List Arith ZArith Bool.
From Verif Require Import Res Fld StructUtilsModel PointcloudsModel PointcloudsSpec PointcloudsCtorSpec
  PointcloudsSetSpec PointcloudsIndexSpec.
Import ListNotations.
Local Open Scope nat_scope.

Section Hist.
Variable F : Fld.
Notation T2 := (t2 F).
Notation T3 := (t3 F).
Notation pc := (pc F).
Notation batch := (batch F).

(* every way to look at an object *)
Inductive read := RdList (x : attr) | RdPadded (x : attr) | RdHas (x : attr) | RdMask | RdWidth.
Inductive seen :=
| SeenList (o : option (list T2)) | SeenPadded (o : option T3) | SeenBool (b : bool)
| SeenMask (o : option (list (list bool))) | SeenWidth (o : option nat) | SeenErr (e : exn).
Definition wrap {A} (k : A -> seen) (r : res A) : seen := match r with Ok v => k v | Err e => SeenErr e end.
(* what read r returns *)
Definition look (r : read) (s : pc) : seen :=
  match r with
  | RdList x => wrap SeenList (fst (get_list F x s))
  | RdPadded x => wrap SeenPadded (fst (get_padded F x s))
  | RdHas x => wrap SeenBool (fst (has F x s))
  | RdMask => wrap SeenMask (fst (nonpad_mask F s))
  | RdWidth => wrap SeenWidth (fst (num_features F s))
  end.
(* the object afterwards *)
Definition after (r : read) (s : pc) : pc :=
  match r with
  | RdList x => snd (get_list F x s)
  | RdPadded x => snd (get_padded F x s)
  | RdHas x => snd (has F x s)
  | RdMask => snd (nonpad_mask F s)
  | RdWidth => snd (num_features F s)
  end.
Definition after_lists (s : pc) : pc :=
  after (RdList Features) (after (RdList Colors) (after (RdList Normals) (after (RdList Points) s))).

(* every in-place method and setter *)
Inductive call :=
| Offset (o : operand F) | Scale (o : operand F) | Rotate (o : operand F) (pre : bool)
| Transform (o : operand F) (pre : bool) | Pinhole (o : operand F)
| SetList (x : attr) (v : setval_list F) | SetPadded (x : attr) (v : setval_pad F).
Definition run (m : call) : M pc unit :=
  match m with
  | Offset o => offset_ F o | Scale o => scale_ F o | Rotate o pre => rotate_ F o pre
  | Transform o pre => transform_ F o pre | Pinhole o => pinhole_projection_ F o
  | SetList x v => set_list F x v | SetPadded x v => set_padded F x v
  end.
Definition real_call (m : call) : Prop :=
  match m with SetList _ v => real_list F v | SetPadded _ v => real_pad F v | _ => True end.

(* the shape of a summand or factor broadcasts to the padded shape (B, N, 3) *)
Definition fits (a : batch) (sh : list nat) : Prop :=
  match qp a with None => True | Some P => fits_shape sh (length P) (biggest (counts_of F P)) end.

(* on clouds a, call m means to produce clouds a' *)
Definition Means (m : call) (a a' : batch) : Prop :=
  match m with
  | Offset (OT _ sh el) => fits a sh /\ a' = offset_spec F sh el a
  | Scale (OT _ sh el) => fits a sh /\ a' = scale_spec F sh el a
  | Rotate (OT _ sh el) pre => is_mat 3 sh (len_view F a) /\ a' = rotate_spec F sh el pre a
  | Transform (OT _ sh el) pre => is_mat 4 sh (len_view F a) /\ a' = transform_spec F sh el pre a
  | Pinhole (OT _ sh el) => is_mat 4 sh (len_view F a) /\ a' = pinhole_spec F sh el a
  | SetPadded x v => exists P L, qp a = Some P /\ pad_value F P x v L /\ qget x a <> None /\
                                 a' = qset x (Some L) a
  | SetList x v => False   (* see ListOnly and h_points below *)
  | _ => False
  end.

(* objects that have only been built from, read as, and written as lists *)
Inductive ListOnly : pc -> batch -> Prop :=
| lo_new p n c f a P s :
    real_inp F p -> real_inp F n -> real_inp F c -> real_inp F f ->
    valid_batch F P a ->
    as_list F p (qp a) -> as_list F n (qn a) -> as_list F c (qc a) -> as_list F f (qf a) ->
    ctor F p n c f = Ok s -> ListOnly s a
| lo_read r s a :
    ListOnly s a -> (forall x, r <> RdPadded x) -> ListOnly (after r s) a
| lo_set x v L P s s' a :
    ListOnly s a -> qp a = Some P -> list_value F P x v L -> qget x a <> None ->
    set_list F x v s = (Ok tt, s') -> ListOnly s' (qset x (Some L) a)
| lo_add p n c f a P s x v L s' :      (* a new attribute, given right after construction *)
    real_inp F p -> real_inp F n -> real_inp F c -> real_inp F f ->
    valid_batch F P a ->
    as_list F p (qp a) -> as_list F n (qn a) -> as_list F c (qc a) -> as_list F f (qf a) ->
    ctor F p n c f = Ok s -> x <> Points -> list_value F P x v L ->
    set_list F x v s = (Ok tt, s') -> ListOnly s' (qset x (Some L) a).

Inductive Hist : pc -> batch -> Prop :=
| h_new p n c f a s :
    real_inp F p -> real_inp F n -> real_inp F c -> real_inp F f ->
    Denotes F p n c f a -> ctor F p n c f = Ok s -> Hist s a
| h_list s a : ListOnly s a -> Hist s a
| h_read r s a : Hist s a -> Hist (after r s) a
| h_call m s s' a a' : Hist s a -> Means m a a' -> run m s = (Ok tt, s') -> Hist s' a'
| h_fail m s s' a e : Hist s a -> real_call m -> run m s = (Err e, s') -> Hist s' a
| h_points v L P s s' a :              (* points_list = v, after all list views have been read *)
    Hist s a -> qp a = Some P -> list_value F P Points v L ->
    set_list F Points v (after_lists s) = (Ok tt, s') -> Hist s' (qset Points (Some L) a)
| h_append_self s o a b r s' o' :
    Hist s a -> Hist o b -> append_points F (s, o) = (Ok r, (s', o')) ->
    Hist s' (match qp a, qp b with
             | None, _ => b | _, None => a | Some _, Some _ => append_spec F a b end)
| h_append_fail s o a b e s' o' :
    Hist s a -> Hist o b -> append_points F (s, o) = (Err e, (s', o')) -> Hist s' a
| h_append_other s o a b r s' o' :
    Hist s a -> Hist o b -> append_points F (s, o) = (r, (s', o')) -> Hist o' b
| h_item ix s o s' a c ks :
    Hist s a -> Selects ix (len_view F a) ks -> Picked F ks a c ->
    getitem F ix s = (Ok o, s') -> Hist o c
| h_item_self ix s r s' a : Hist s a -> getitem F ix s = (r, s') -> Hist s' a
| h_clone s o s' a :                   (* points_list is read just before *)
    Hist s a -> clone F (after (RdList Points) s) = (Ok o, s') -> Hist o a
| h_clone_eq s o s' a P :              (* or all clouds have the same number of points *)
    Hist s a -> qp a = Some P -> all_equal (counts_of F P) = true ->
    clone F s = (Ok o, s') -> Hist o a
| h_clone_append s o a b c s' r c' o' :  (* a clone to which points are appended at once *)
    Hist s a -> Hist o b -> qp a <> None -> qp b <> None ->
    clone F s = (Ok c, s') -> append_points F (c, o) = (Ok r, (c', o')) -> Hist c' (append_spec F a b)
| h_clone_append_other s o a b c s' r c' o' :
    Hist s a -> Hist o b -> qp a <> None -> qp b <> None -> same_attrs F a b ->
    clone F s = (Ok c, s') -> append_points F (c, o) = (r, (c', o')) -> Hist o' b
| h_clone_self s r s' a : Hist s a -> clone F s = (r, s') -> Hist s' a.

(* the receivers for which clone is known to be faithful: points_list was read just before, or all
   clouds have the same number of points *)
Definition ReadyToClone (s : pc) (a : batch) : Prop :=
  (exists s0, Hist s0 a /\ s = after (RdList Points) s0) \/
  (Hist s a /\ exists P, qp a = Some P /\ all_equal (counts_of F P) = true).

End Hist.
