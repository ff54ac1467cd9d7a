(* Programs that use Pointclouds objects and tensors, and what "sharing" means. *)
From Coq Require Import List Arith ZArith Bool.
From Verif Require Import Res Fld StructUtilsModel PointcloudsModel PointcloudsSpec StoreModel.
Import ListNotations.
Local Open Scope nat_scope.

Section ST.
Variable F : Fld.
Notation heap := (heap F).
Notation world := (world F).

(* one of the tensors of the object lies in storage l *)
Definition uses (o : obj) (l : nat) : Prop :=
  (exists a vs v, qget a (olst o) = Some vs /\ In v vs /\ v2l v = l) \/
  (exists a v, qget a (opad o) = Some v /\ v3l v = l) \/
  omask o = Some l \/ onum o = l.
(* all its tensors exist and are on its device *)
Definition valid (h : heap) (o : obj) : Prop :=
  forall l, uses o l -> l < length h /\ devof F h l = odev o.
(* no storage in common *)
Definition apart (o o' : obj) : Prop := forall l, uses o l -> uses o' l -> False.

(* ---- the API ---- *)
(* reads, setters and in-place operations *)
Inductive call :=
| CHas (a : attr) | CNumFeatures | CList (a : attr) | CPadded (a : attr) | CMask
| CSetList (a : attr) (v : hset_val) | CSetPadded (a : attr) (v : hset_pval)
| COffset (o : operand F) | CScale (o : operand F)
| CRotate (o : operand F) (pre : bool) | CTransform (o : operand F) (pre : bool) | CPinhole (o : operand F).
(* methods that return a Pointclouds object *)
Inductive make :=
| MClone | MDetach | MTo (d : darg) (copy : bool) | MCpu | MCuda
| MAdd (o : operand F) | MSub (o : operand F) | MMul (o : operand F) | MDiv (o : operand F) | MMatmul (o : operand F)
| MRotate (o : operand F) (pre : bool) | MTransform (o : operand F) (pre : bool) | MPinhole (o : operand F)
| MItem (ix : index).

(* what a call returns *)
Inductive ans :=
| ANone | ABool (b : bool) | ANat (n : option nat)
| AList (l : option (list (t2 F))) | ATen (p : option (t3 F)) | AMask (m : option (list (list bool))).

(* running a call *)
Definition run_call (c : call) : M (heap * obj) ans :=
  match c with
  | CHas a => do b <- hhas F a; ret (ABool b)
  | CNumFeatures => do n <- hnum_features F; ret (ANat n)
  | CList a => do l <- hget_list F a; do h <- geth F; ret (AList (option_map (map (read2 F h)) l))
  | CPadded a => do p <- hget_padded F a; do h <- geth F; ret (ATen (option_map (read3 F h) p))
  | CMask => do m <- hnonpad_mask F; do h <- geth F; ret (AMask (option_map (bdata F h) m))
  | CSetList a v => hset_list F a v ;;; ret ANone
  | CSetPadded a v => hset_padded F a v ;;; ret ANone
  | COffset o => hoffset_ F o ;;; ret ANone
  | CScale o => hscale_ F o ;;; ret ANone
  | CRotate o pre => hrotate_ F o pre ;;; ret ANone
  | CTransform o pre => htransform_ F o pre ;;; ret ANone
  | CPinhole o => hpinhole_projection_ F o ;;; ret ANone
  end.
(* the same call on values *)
Definition sval (h : heap) (v : hset_val) : setval_list F :=
  match v with HSBad => SLBad F | HSL l => SL F (map (rdany F h) l) end.
Definition pval (h : heap) (v : hset_pval) : setval_pad F :=
  match v with HPBad => SPBad F | HP x => SP F (rdany F h x) end.
Definition pure_call (h : heap) (c : call) : M (pc F) ans :=
  match c with
  | CHas a => do b <- has F a; ret (ABool b)
  | CNumFeatures => do n <- num_features F; ret (ANat n)
  | CList a => do l <- get_list F a; ret (AList l)
  | CPadded a => do p <- get_padded F a; ret (ATen p)
  | CMask => do m <- nonpad_mask F; ret (AMask m)
  | CSetList a v => set_list F a (sval h v) ;;; ret ANone
  | CSetPadded a v => set_padded F a (pval h v) ;;; ret ANone
  | COffset o => offset_ F o ;;; ret ANone
  | CScale o => scale_ F o ;;; ret ANone
  | CRotate o pre => rotate_ F o pre ;;; ret ANone
  | CTransform o pre => transform_ F o pre ;;; ret ANone
  | CPinhole o => pinhole_projection_ F o ;;; ret ANone
  end.
(* the tensors passed to a call exist *)
Definition call_args (h : heap) (c : call) : Prop :=
  match c with
  | CSetList _ (HSL l) => forall x, In x l -> anyl x < length h
  | CSetPadded _ (HP x) => anyl x < length h
  | _ => True
  end.

(* the tensor given to a padded setter is on the device of the object *)
Definition on_device (h : heap) (d : dev) (c : call) : Prop :=
  match c with CSetPadded _ (HP x) => devof F h (anyl x) = d | _ => True end.

(* None: the object itself was returned; [cur] is the current cuda device *)
Definition run_make (cur : nat) (m : make) : M (heap * obj) (option obj) :=
  let some (x : M (heap * obj) obj) := (do o <- x; ret (Some o)) in
  match m with
  | MClone => some (hclone F)
  | MDetach => some (hdetach F)
  | MTo d copy => hto F cur d copy
  | MCpu => hcpu F cur
  | MCuda => hcuda F cur
  | MAdd o => some (hadd F o)
  | MSub o => some (hsub F o)
  | MMul o => some (hmul F o)
  | MDiv o => some (htruediv F o)
  | MMatmul o => some (hmatmul F o)
  | MRotate o pre => some (hrotate F o pre)
  | MTransform o pre => some (htransform F o pre)
  | MPinhole o => some (hpinhole_projection F o)
  | MItem ix => some (hgetitem F ix)
  end.
(* the same on values *)
Definition pure_make (m : make) : M (pc F) (pc F) :=
  match m with
  | MClone => clone F
  | MDetach | MTo _ _ | MCpu | MCuda => detach F
  | MAdd o => add F o
  | MSub o => sub F o
  | MMul o => mul F o
  | MDiv o => truediv F o
  | MMatmul o => matmul F o
  | MRotate o pre => rotate F o pre
  | MTransform o pre => transform F o pre
  | MPinhole o => pinhole_projection F o
  | MItem ix => getitem F ix
  end.

(* ---- programs ---- *)
Inductive op :=
| OCall (i : nat) (c : call)                       (* a method of object i *)
| OMake (i : nat) (m : make)                       (* a method of object i that returns a new object *)
| ONew (pa na ca fa : harg) (d : option dev)       (* Pointclouds(...) *)
| OAppend (i j : nat)                              (* object i .append_points(object j) *)
| OTensor (c : cell F)                             (* the program makes a tensor of its own *)
| OWrite (l : nat) (c : cell F).                   (* the program writes into a tensor's storage, in place *)

(* the contents of c in a storage on device d *)
Definition on_dev (d : dev) (c : cell F) : cell F :=
  match c with CF _ _ x => CF F d x | CB _ _ x => CB F d x | CN _ _ x => CN F d x end.
(* an in-place write does not move the storage to another device *)
Definition poke (l : nat) (c : cell F) (h : heap) : heap :=
  match nth_error h l with Some old => upd l (on_dev (cdev F old) c) h | None => h end.
(* the object, if any, that a step returned *)
Definition push (r : res (option obj)) (w : world) : world :=
  match r with Ok (Some o) => mkW F (wheap F w) (wobjs F w ++ [o]) | _ => w end.

(* one step; a step that raises leaves what it had done *)
Definition step (cur : nat) (s : op) (w : world) : world :=
  match s with
  | OCall i c => snd (at_ F i (run_call c) w)
  | OMake i m => let (r, w') := at_ F i (run_make cur m) w in push r w'
  | ONew pa na ca fa d =>
      let (r, h) := hctor F pa na ca fa d (wheap F w) in
      push (match r with Ok o => Ok (Some o) | Err e => Err e end) (mkW F h (wobjs F w))
  | OAppend i j => snd (happend_points F i j w)
  | OTensor c => mkW F (wheap F w ++ [c]) (wobjs F w)
  | OWrite l c => mkW F (poke l c (wheap F w)) (wobjs F w)
  end.
Fixpoint steps (cur : nat) (l : list op) (w : world) : world :=
  match l with [] => w | s :: l' => steps cur l' (step cur s w) end.

(* the tensors of an argument *)
Definition arg_stores (a : harg) : list nat :=
  match a with HList l => map anyl l | HTensor x => [anyl x] | _ => [] end.

(* a step of a program part that works with the objects satisfying O and may read, keep and write the
   storages satisfying P.  Arguments of setters are only read. *)
Definition allowed (O P : nat -> Prop) (w : world) (s : op) : Prop :=
  match s with
  | OCall i c => O i /\ call_args (wheap F w) c
  | OMake i _ => O i
  | ONew pa na ca fa d =>
      forall l, In l (arg_stores pa ++ arg_stores na ++ arg_stores ca ++ arg_stores fa) -> l < length (wheap F w) /\ P l
  | OAppend i j => O i /\ O j
  | OTensor _ => True
  | OWrite l _ => P l
  end.
Fixpoint all_allowed (cur : nat) (O P : nat -> Prop) (l : list op) (w : world) : Prop :=
  match l with [] => True | s :: l' => allowed O P w s /\ all_allowed cur O P l' (step cur s w) end.
End ST.

(* every object of the world is made of existing tensors on its device *)
Definition all_valid (F : Fld) (w : world F) : Prop :=
  forall k o, nth_error (wobjs F w) k = Some o -> valid F (wheap F w) o.
(* the methods documented to return a new object, apart from to(): none of them returns a view *)
Definition owning (F : Fld) (m : make F) : Prop :=
  match m with MDetach _ | MTo _ _ _ | MCpu _ | MCuda _ | MItem _ _ => False | _ => True end.
(* the internal tensors of self, the lists of the clone *)
Definition half_shared (F : Fld) (h : heap F) (o c : obj) : Prop :=
  (forall a v, qget a (opad o) = Some v -> qget a (opad c) = Some v) /\
  (forall m, omask o = Some m -> omask c = Some m) /\
  onum c = onum o /\
  (forall a vs v, qget a (olst c) = Some vs -> In v vs -> length h <= v2l v).
(* the four arguments of the constructor *)
Definition arg_of (pa na ca fa : harg) (a : attr) : harg :=
  match a with Points => pa | Normals => na | Colors => ca | Features => fa end.
(* the view is the tensor given *)
Definition keeps_list (x : harg) (r : option (list view2)) : Prop :=
  match x with HList l => exists vs, r = Some vs /\ map H2 vs = l | _ => r = None end.
Definition keeps_tensor (x : harg) (r : option view3) : Prop :=
  match x with HTensor t => exists v, r = Some v /\ t = H3 v | _ => r = None end.
