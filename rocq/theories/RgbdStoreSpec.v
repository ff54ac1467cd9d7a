(* Programs that use RGBDImages objects and tensors, and what "sharing" means. *)
From Coq Require Import Reals List Arith Bool ZArith.
From Verif Require Import Res TensorModel RgbdModel RgbdStoreModel.
From Verif Require StoreModel.
Import ListNotations.
Local Open Scope nat_scope.

(* one of the tensors of the object lies in storage l *)
Definition iuses (o : iobj) (l : nat) : Prop :=
  (exists k r, o_t o k = Some r /\ rloc r = l) \/ o_mask o = Some l.
(* all its tensors exist and are on its device *)
Definition ivalid (h : iheap) (o : iobj) : Prop :=
  forall l, iuses o l -> l < length h /\ idev h l = o_dev o.

(* ---- the API ---- *)
(* reads, setters and in-place conversions *)
Inductive icall :=
| IRgb | IDepth | IIntr | IPoses | IPix                          (* .rgb_image, .depth_image, ... *)
| IHasPoses | IMask | IVertex | INormal | IGlobalVertex | IGlobalNormal
| ISetRgb (v : iarg) | ISetDepth (v : iarg) | ISetIntr (v : iarg) | ISetPoses (v : iarg)
| ILast_ | IFirst_.                                              (* to_channels_last_, to_channels_first_ *)
(* methods that return an RGBDImages object *)
Inductive imake :=
| JClone | JDetach | JTo (d : darg) (copy : bool) | JCpu | JCuda
| JLast (copy : bool) | JFirst (copy : bool)                     (* to_channels_last, to_channels_first *)
| JItem (ix : rindex).
(* what a call returns *)
Inductive ians := VNone | VTen (t : option (ten R)) | VMask (m : ten bool) | VBool (b : bool).
(* a property that returns a map *)
Definition vten (t : ten R) : ians := VTen (Some t).

(* the same call on values *)
Definition pure_icall (h : iheap) (c : icall) : M rgbd ians :=
  let fld f := (do s <- get; ret (VTen (f s))) in
  let map (m : MR (ten R)) := (do t <- m; ret (vten t)) in
  let unit (m : MR unit) := (m ;;; ret VNone) in
  match c with
  | IRgb => fld r_rgb | IDepth => fld r_depth | IIntr => fld r_intr | IPoses => fld r_poses | IPix => fld r_pix
  | IHasPoses => do s <- get; ret (VBool (match r_poses s with Some _ => true | None => false end))
  | IMask => do m <- valid_depth_mask; ret (VMask m)
  | IVertex => map vertex_map | INormal => map normal_map
  | IGlobalVertex => map global_vertex_map | IGlobalNormal => map global_normal_map
  | ISetRgb v => unit (set_rgb (rdinp h v)) | ISetDepth v => unit (set_depth (rdinp h v))
  | ISetIntr v => unit (set_intr (rdinp h v)) | ISetPoses v => unit (set_poses (rdinp h v))
  | ILast_ => unit to_channels_last_ | IFirst_ => unit to_channels_first_
  end.
(* the same on values; to(device) of another device copies *)
Definition pure_imake (m : imake) (s : rgbd) : res obj :=
  match m with
  | JClone | JDetach | JTo _ _ | JCpu | JCuda => rmap New (rgbd_clone s)
  | JLast copy => to_channels_last copy s
  | JFirst copy => to_channels_first copy s
  | JItem ix => rmap New (rgbd_getitem ix s)
  end.
(* the tensor a setter is given *)
Definition set_arg (c : icall) : iarg :=
  match c with ISetRgb v | ISetDepth v | ISetIntr v | ISetPoses v => v | _ => ANone end.

Section CTG.
Variable ctg : bool -> ref -> bool.
Variable cur : nat.

(* running a call *)
Definition run_icall (c : icall) : M (iheap * iobj) ians :=
  let fld k := (do o <- geto; do h <- geth; ret (VTen (option_map (rread h) (o_t o k)))) in
  let map (m : MR (ten R)) := (do t <- iread m; ret (vten t)) in
  let unit (m : M (iheap * iobj) unit) := (m ;;; ret VNone) in
  match c with
  | IRgb => fld SRgb | IDepth => fld SDepth | IIntr => fld SIntr | IPoses => fld SPoses | IPix => fld SPix
  | IHasPoses => do o <- geto; ret (VBool (match o_t o SPoses with Some _ => true | None => false end))
  | IMask => do m <- iread valid_depth_mask; ret (VMask m)
  | IVertex => map vertex_map | INormal => map normal_map
  | IGlobalVertex => map global_vertex_map | IGlobalNormal => map global_normal_map
  | ISetRgb v => unit (iset_rgb v) | ISetDepth v => unit (iset_depth v)
  | ISetIntr v => unit (iset_intr v) | ISetPoses v => unit (iset_poses v)
  | ILast_ => unit (ito_channels_last_ ctg) | IFirst_ => unit (ito_channels_first_ ctg)
  end.
(* None: the object itself was returned; [cur] is the current cuda device *)
Definition run_imake (m : imake) : M (iheap * iobj) (option iobj) :=
  let some (x : M (iheap * iobj) iobj) := (do o <- x; ret (Some o)) in
  match m with
  | JClone => some iclone | JDetach => some idetach
  | JTo d copy => ito cur d copy | JCpu => icpu cur | JCuda => icuda cur
  | JLast copy => ito_channels_last ctg copy | JFirst copy => ito_channels_first ctg copy
  | JItem ix => some (igetitem ix)
  end.

(* ---- programs ---- *)
Record iworld := mkIW { iwh : iheap; iwo : list iobj }.
Inductive iop :=
| PCall (i : nat) (c : icall)                      (* a method of object i *)
| PMake (i : nat) (m : imake)                      (* a method of object i that returns an object *)
| PNew (rgb depth intr poses : iarg) (cf : bool) (pix : iarg) (d : option dev)    (* RGBDImages(...) *)
| PTensor (c : icell)                              (* the program makes a tensor of its own *)
| PWrite (l : nat) (c : icell).                    (* the program writes into a tensor's storage, in place *)

(* an in-place write changes the elements, not the shape, type or device *)
Definition ipoke (l : nat) (c : icell) (h : iheap) : iheap :=
  match nth_error h l, c with
  | Some (IR d t), IR _ t' => StoreModel.upd l (IR d (mkTen (dims t) (at_ t'))) h
  | Some (IB d t), IB _ t' => StoreModel.upd l (IB d (mkTen (dims t) (at_ t'))) h
  | _, _ => h
  end.
(* the object, if any, that a step returned *)
Definition ipush (r : res (option iobj)) (w : iworld) : iworld :=
  match r with Ok (Some o) => mkIW (iwh w) (iwo w ++ [o]) | _ => w end.
(* a method call on object i *)
Definition iat {A} (i : nat) (m : M (iheap * iobj) A) : M iworld A :=
  fun w => match nth_error (iwo w) i with
           | None => (Err NameError, w)
           | Some o => let '(r, (h, o')) := m (iwh w, o) in (r, mkIW h (StoreModel.upd i o' (iwo w)))
           end.
(* one step; a step that raises leaves what it had done *)
Definition istep (s : iop) (w : iworld) : iworld :=
  match s with
  | PCall i c => snd (iat i (run_icall c) w)
  | PMake i m => let (r, w') := iat i (run_imake m) w in ipush r w'
  | PNew rgb depth intr poses cf pix d =>
      let (r, h) := inew rgb depth intr poses cf pix d (iwh w) in
      ipush (match r with Ok o => Ok (Some o) | Err e => Err e end) (mkIW h (iwo w))
  | PTensor c => mkIW (iwh w ++ [c]) (iwo w)
  | PWrite l c => mkIW (ipoke l c (iwh w)) (iwo w)
  end.
Fixpoint isteps (l : list iop) (w : iworld) : iworld :=
  match l with [] => w | s :: l' => isteps l' (istep s w) end.

(* a step of a program part that works with the objects satisfying O and may read, keep and write the
   storages satisfying P.  A setter is given a tensor on the object's device. *)
Definition iallowed (O P : nat -> Prop) (w : iworld) (s : iop) : Prop :=
  match s with
  | PCall i c => O i /\ forall l, In l (arg_locs (set_arg c)) ->
      l < length (iwh w) /\ P l /\ forall o, nth_error (iwo w) i = Some o -> idev (iwh w) l = o_dev o
  | PMake i _ => O i
  | PNew rgb depth intr poses cf pix d =>
      forall l, In l (arg_locs rgb ++ arg_locs depth ++ arg_locs intr ++ arg_locs poses ++ arg_locs pix) ->
      l < length (iwh w) /\ P l
  | PTensor _ => True
  | PWrite l _ => P l
  end.
Fixpoint iall_allowed (O P : nat -> Prop) (l : list iop) (w : iworld) : Prop :=
  match l with [] => True | s :: l' => iallowed O P w s /\ iall_allowed O P l' (istep s w) end.
End CTG.

(* every object of the world is made of existing tensors on its device *)
Definition iall_valid (w : iworld) : Prop :=
  forall k o, nth_error (iwo w) k = Some o -> ivalid (iwh w) o.
(* the methods whose result, when it is not self, is a copy of an object on device d *)
Definition icopying (cur : nat) (d : dev) (m : imake) : Prop :=
  match m with
  | JClone | JLast _ | JFirst _ => True
  | JTo a _ => resolve cur (spec_of a) <> d
  | JCpu => StoreModel.Cpu <> d
  | JCuda => StoreModel.Cuda cur <> d
  | JDetach | JItem _ => False
  end.
(* the device of the result *)
Definition make_dev (cur : nat) (d : dev) (m : imake) : dev :=
  match m with
  | JTo a _ => resolve cur (spec_of a) | JCpu => StoreModel.Cpu | JCuda => StoreModel.Cuda cur | _ => d
  end.
(* the methods that return the object itself, for an object on device d; to() resolves strings and missing indices first *)
Definition returns_self (cur : nat) (d : dev) (m : imake) : bool :=
  match m with
  | JTo a copy => negb copy && dev_eqb d (resolve cur (spec_of a))
  | JCpu => dev_eqb d StoreModel.Cpu | JCuda => dev_eqb d (StoreModel.Cuda cur)
  | _ => false
  end.
(* the field a setter assigns, and the value *)
Definition setter_slot (c : icall) : option (slot * iarg) :=
  match c with
  | ISetRgb v => Some (SRgb, v) | ISetDepth v => Some (SDepth, v) | ISetIntr v => Some (SIntr, v) | ISetPoses v => Some (SPoses, v)
  | _ => None
  end.
(* the argument of the constructor for a field *)
Definition ctor_arg (rgb depth intr poses pix : iarg) (k : slot) : iarg :=
  match k with SRgb => rgb | SDepth => depth | SIntr => intr | SPoses => poses | SPix => pix | _ => ANone end.
(* the tensor given, if any *)
Definition arg_ref (a : iarg) : option ref := match a with ATen r => Some r | _ => None end.
(* the field in which a computed map is kept *)
Definition map_slot (c : icall) : option slot :=
  match c with IVertex => Some SVm | INormal => Some SNm | IGlobalVertex => Some SGvm | IGlobalNormal => Some SGnm | _ => None end.
