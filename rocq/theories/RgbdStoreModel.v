(* Model of gradslam/structures/rgbdimages.py down to which tensors share memory.
   RgbdModel treats tensors as values on one device.  Here the tensors live in a heap and carry a device; an
   object holds references.  A reference is a storage and the way the tensor is read off it: the whole of
   it, a slice, a permutation.  Methods allocate, share or rebind references as the code does; the numbers
   that go into a new storage are those RgbdModel computes from the numbers read.
   Simplifications: a storage holds one whole tensor (no byte-level layout); autograd not modelled (detach
   only matters for which storage is used); whether .contiguous() of a permuted tensor has to copy is left
   open (parameter [ctg]); arithmetic with tensors on different devices is not modelled. *)
From Coq Require Import Reals List Arith Bool ZArith.
From Verif Require Import Res Fld StructUtilsModel PointcloudsModel MatSpec TensorModel ProjModel GeomModel RgbdModel.
From Verif Require StoreModel.
Import ListNotations.
Local Open Scope nat_scope.
Notation dev := StoreModel.dev.
Notation dev_eqb := StoreModel.dev_eqb.
Notation darg := StoreModel.darg.
Notation resolve := StoreModel.resolve.
Notation spec_of := StoreModel.spec_of.

(* a storage: a tensor of numbers or of booleans, and its device *)
Inductive icell := IR (d : dev) (t : ten R) | IB (d : dev) (t : ten bool).
(* the storages that exist; new ones are added at the end *)
Definition iheap := list icell.
(* storage.device *)
Definition icdev (c : icell) : dev := match c with IR d _ | IB d _ => d end.
(* the tensor in a storage *)
Definition rdata (h : iheap) (l : nat) : ten R :=
  match nth_error h l with Some (IR _ t) => t | _ => mkTen [] (fun _ => 0%R) end.
(* the boolean tensor in a storage *)
Definition mdata (h : iheap) (l : nat) : ten bool :=
  match nth_error h l with Some (IB _ t) => t | _ => mkTen [] (fun _ => false) end.
(* x.device *)
Definition idev (h : iheap) (l : nat) : dev :=
  match nth_error h l with Some c => icdev c | None => StoreModel.Cpu end.

(* a tensor variable: the storage and how the tensor is read off it *)
Record ref := mkRef { rloc : nat; rview : ten R -> ten R }.
(* the value of a tensor variable *)
Definition rread (h : iheap) (r : ref) : ten R := rview r (rdata h (rloc r)).

(* rgbdimages.py:55-65 _INTERNAL_TENSORS *)
Inductive slot := SRgb | SDepth | SIntr | SPoses | SPix | SVm | SNm | SGvm | SGnm.
(* self._INTERNAL_TENSORS, in order *)
Definition slots : list slot := [SRgb; SDepth; SIntr; SPoses; SPix; SVm; SNm; SGvm; SGnm].
(* the same without _rgb_image, _depth_image, _intrinsics *)
Definition slots_rest : list slot := [SPoses; SPix; SVm; SNm; SGvm; SGnm].
(* k == k' *)
Definition slot_eqb (a b : slot) : bool :=
  match a, b with
  | SRgb, SRgb | SDepth, SDepth | SIntr, SIntr | SPoses, SPoses | SPix, SPix
  | SVm, SVm | SNm, SNm | SGvm, SGvm | SGnm, SGnm => true
  | _, _ => false
  end.

(* rgbdimages.py:120-183: the private fields, holding references; o_mask is _valid_depth_mask *)
Record iobj : Type := mkI {
  o_cf : bool;
  o_t : slot -> option ref;
  o_mask : option nat;
  o_rgbsh : list nat; o_depsh : option (list nat); o_intrsh : list nat; o_posesh : list nat;
  o_B : nat; o_L : nat; o_h : nat; o_w : nat;
  o_dev : dev
}.
(* the object as RgbdModel sees it: the values read through the references *)
Definition iabs (h : iheap) (o : iobj) : rgbd :=
  let rd k := option_map (rread h) (o_t o k) in
  mkRGBD (o_cf o) (rd SRgb) (rd SDepth) (rd SIntr) (rd SPoses) (rd SPix) (rd SVm) (rd SNm) (rd SGvm) (rd SGnm)
         (option_map (mdata h) (o_mask o)) (o_rgbsh o) (o_depsh o) (o_intrsh o) (o_posesh o)
         (o_B o) (o_L o) (o_h o) (o_w o).
(* the field of a value-level object *)
Definition field (s : rgbd) (k : slot) : option (ten R) :=
  match k with
  | SRgb => r_rgb s | SDepth => r_depth s | SIntr => r_intr s | SPoses => r_poses s | SPix => r_pix s
  | SVm => r_vm s | SNm => r_nm s | SGvm => r_gvm s | SGnm => r_gnm s
  end.

(* setattr(self, k, v) *)
Definition set_slot (k : slot) (v : option ref) (o : iobj) : iobj :=
  mkI (o_cf o) (fun k' => if slot_eqb k k' then v else o_t o k') (o_mask o) (o_rgbsh o) (o_depsh o) (o_intrsh o)
      (o_posesh o) (o_B o) (o_L o) (o_h o) (o_w o) (o_dev o).
(* assignment of self._valid_depth_mask *)
Definition set_mask (m : option nat) (o : iobj) : iobj :=
  mkI (o_cf o) (o_t o) m (o_rgbsh o) (o_depsh o) (o_intrsh o) (o_posesh o) (o_B o) (o_L o) (o_h o) (o_w o) (o_dev o).
(* assignment of _channels_first and the two image shapes *)
Definition set_layout cf rgbsh depsh (o : iobj) : iobj :=
  mkI cf (o_t o) (o_mask o) rgbsh depsh (o_intrsh o) (o_posesh o) (o_B o) (o_L o) (o_h o) (o_w o) (o_dev o).
(* self.device = d *)
Definition set_dev d (o : iobj) : iobj :=
  mkI (o_cf o) (o_t o) (o_mask o) (o_rgbsh o) (o_depsh o) (o_intrsh o) (o_posesh o) (o_B o) (o_L o) (o_h o) (o_w o) d.

(* ---------------- storage primitives (torch) ---------------- *)
Notation MH := (M iheap).
Notation MO := (M (iheap * iobj)).
(* a new storage *)
Definition ialloc (c : icell) : MH nat := fun h => (Ok (length h), h ++ [c]).
(* a new tensor *)
Definition new_ref (d : dev) (t : ten R) : MH ref := do l <- ialloc (IR d t); ret (mkRef l (fun x => x)).
(* x.clone() *)
Definition clone_ref (r : ref) : MH ref := do h <- get; new_ref (idev h (rloc r)) (rread h r).
(* x.to(d): the tensor itself when it is there already, else a copy *)
Definition to_ref (d : dev) (r : ref) : MH ref :=
  do h <- get; if dev_eqb (idev h (rloc r)) d then ret r else new_ref d (rread h r).
(* a view: f(x), read off the same storage *)
Definition view_ref (f : ten R -> res (ten R)) (r : ref) : MH ref :=
  do h <- get; do _ <- lift (f (rread h r));
  ret (mkRef (rloc r) (fun x => match f (rview r x) with Ok t => t | Err _ => x end)).
(* an allocation inside a method *)
Definition onh {A} (m : MH A) : MO A := fun w => let (r, h) := m (fst w) in (r, (h, snd w)).
(* the object's fields *)
Definition geto : MO iobj := fun w => (Ok (snd w), w).
(* the current heap *)
Definition geth : MO iheap := fun w => (Ok (fst w), w).
(* assignment of fields *)
Definition modo (f : iobj -> iobj) : MO unit := fun w => (Ok tt, (fst w, f (snd w))).

(* ---------------- constructor ---------------- *)
(* an argument: None, a tensor, anything else *)
Inductive iarg := ANone | ATen (r : ref) | AOther.
(* its value *)
Definition rdinp (h : iheap) (a : iarg) : tinp :=
  match a with ANone => TNone | ATen r => TTen (rread h r) | AOther => TOther end.
(* its storage *)
Definition arg_locs (a : iarg) : list nat := match a with ATen r => [rloc r] | _ => [] end.
(* x.to(d) if x is not None *)
Definition take_arg (d : dev) (a : iarg) : MH (option ref) :=
  match a with ATen r => do r' <- to_ref d r; ret (Some r') | _ => ret None end.
(* rgbdimages.py:67-183.  Type and shape checks and sizes are those of RgbdModel.rgbd_new; then all inputs must be
   on one device (lines 149-157), and the tensors are stored, moved only if [device] says so (159-164) *)
Definition inew (rgb depth intr poses : iarg) (cf : bool) (pix : iarg) (device : option dev) : MH iobj :=
  do h <- get;
  do s <- lift (rgbd_new (rdinp h rgb) (rdinp h depth) (rdinp h intr) (rdinp h poses) cf (rdinp h pix));
  let locs := arg_locs rgb ++ arg_locs depth ++ arg_locs intr ++ arg_locs poses ++ arg_locs pix in
  let d0 := idev h (hd 0 locs) in
  if negb (forallb (fun l => dev_eqb (idev h l) d0) locs) then raise ValueError
  else
    let d := match device with Some d => d | None => d0 end in
    do a <- take_arg d rgb; do b <- take_arg d depth; do c <- take_arg d intr;
    do p <- take_arg d poses; do x <- take_arg d pix;
    ret (mkI cf (fun k => match k with SRgb => a | SDepth => b | SIntr => c | SPoses => p | SPix => x | _ => None end)
           None (r_rgbsh s) (r_depsh s) (r_intrsh s) (r_posesh s) (r_B s) (r_L s) (r_h s) (r_w s) d).

(* for k in l: v = getattr(from, k); if torch.is_tensor(v): setattr(to, k, f(v)) *)
Fixpoint take_slots (f : ref -> MH ref) (from : iobj) (l : list slot) (to : iobj) : MH iobj :=
  match l with
  | [] => ret to
  | k :: l' =>
      match o_t from k with
      | None => take_slots f from l' to
      | Some r => do r' <- f r; take_slots f from l' (set_slot k (Some r') to)
      end
  end.

(* ---------------- clone, detach, to ---------------- *)
(* rgbdimages.py:479-497 clone *)
Definition iclone : MO iobj :=
  do o <- geto;
  match o_t o SRgb, o_t o SDepth, o_t o SIntr with
  | Some a, Some b, Some c =>
      onh (do a' <- clone_ref a; do b' <- clone_ref b; do c' <- clone_ref c;
           do other <- inew (ATen a') (ATen b') (ATen c') ANone (o_cf o) ANone None;
           take_slots clone_ref o slots_rest other)
  | _, _, _ => raise AttributeError
  end.
(* rgbdimages.py:465-477 detach: t.detach() is a view of the same storage *)
Definition idetach : MO iobj :=
  do other <- iclone; do o <- geto; onh (take_slots ret o slots other).
(* rgbdimages.py:499-525 to: None stands for self.  torch.Tensor().to(device).device is compared with self.device *)
Definition ito (cur : nat) (a : darg) (copy : bool) : MO (option iobj) :=
  do o <- geto;
  let d := resolve cur (spec_of a) in
  if negb copy && dev_eqb (o_dev o) d then ret None
  else
    do other <- iclone;
    do c <- onh (take_slots (to_ref d) o slots (set_dev d other));
    ret (Some c).
(* rgbdimages.py:527-533 *)
Definition icpu (cur : nat) : MO (option iobj) := ito cur (StoreModel.DDev StoreModel.SCpu) false.
(* rgbdimages.py:535-541 *)
Definition icuda (cur : nat) : MO (option iobj) := ito cur (StoreModel.DDev (StoreModel.SCuda None)) false.

(* ---------------- indexing ---------------- *)
(* rgbdimages.py:185-236 __getitem__: slices of the tensors, not copies *)
Definition igetitem (ix : rindex) : MO iobj :=
  match ix with
  | ROther => raise IndexError
  | _ =>
      do e <- lift match ix with
        | RInt i => Ok (EInt i, ESlice None None None)
        | RTuple (_ :: _ :: _ :: _) => Err IndexError
        | RTuple [a; b] => Ok (a, b)
        | _ => Err IndexError
        end;
      do o <- geto;
      match o_t o SRgb with
      | None => raise TypeError
      | Some rgb =>
          do kb <- lift (elem_pos (fst e) (o_B o));
          do kl <- lift (elem_pos (snd e) (o_L o));
          do new_rgb <- onh (view_ref (take_BL kb kl) rgb);
          do _ <- lift (guard (negb (length kb =? 0)) IndexError);
          do _ <- lift (guard (negb (length kl =? 0)) IndexError);
          match o_t o SDepth with
          | None => raise TypeError
          | Some depth =>
              do new_depth <- onh (view_ref (take_BL kb kl) depth);
              match o_t o SIntr with
              | None => raise TypeError
              | Some intr =>
                  do new_intr <- onh (view_ref (take_BL kb [0]) intr);
                  do other <- onh (inew (ATen new_rgb) (ATen new_depth) (ATen new_intr) ANone (o_cf o) ANone None);
                  onh (take_slots (view_ref (take_BL kb kl)) o slots_rest other)
              end
          end
      end
  end.

(* ---------------- setters ---------------- *)
(* self._vertex_map = ... = None *)
Definition drop_maps (o : iobj) : iobj :=
  set_slot SGnm None (set_slot SGvm None (set_slot SNm None (set_slot SVm None o))).
(* self._global_vertex_map = self._global_normal_map = None *)
Definition drop_global (o : iobj) : iobj := set_slot SGnm None (set_slot SGvm None o).
(* rgbdimages.py:399-411: the tensor given is kept *)
Definition iset_rgb (v : iarg) : MO unit :=
  do o <- geto; do h <- geth;
  match v with
  | AOther => raise TypeError
  | ATen r => lift (assert_shape (rread h r) (o_rgbsh o)) ;;; modo (set_slot SRgb (Some r))
  | ANone => modo (set_slot SRgb None)
  end.
(* rgbdimages.py:413-429 *)
Definition iset_depth (v : iarg) : MO unit :=
  do o <- geto; do h <- geth;
  match v with
  | ANone => modo (fun o => drop_maps (set_slot SDepth None o))
  | _ =>
      match o_depsh o with
      | None => raise AttributeError
      | Some sh =>
          match v with
          | ATen r => lift (assert_shape (rread h r) sh) ;;; modo (fun o => drop_maps (set_slot SDepth (Some r) o))
          | _ => raise TypeError
          end
      end
  end.
(* rgbdimages.py:431-447 *)
Definition iset_intr (v : iarg) : MO unit :=
  do o <- geto; do h <- geth;
  match v with
  | AOther => raise TypeError
  | ATen r => lift (assert_shape (rread h r) (o_intrsh o)) ;;; modo (fun o => drop_maps (set_slot SIntr (Some r) o))
  | ANone => modo (fun o => drop_maps (set_slot SIntr None o))
  end.
(* rgbdimages.py:449-463 *)
Definition iset_poses (v : iarg) : MO unit :=
  do o <- geto; do h <- geth;
  match v with
  | AOther => raise TypeError
  | ATen r => lift (assert_shape (rread h r) (o_posesh o)) ;;; modo (fun o => drop_global (set_slot SPoses (Some r) o))
  | ANone => modo (fun o => drop_global (set_slot SPoses None o))
  end.

(* ---------------- derived maps ---------------- *)
(* the fields that a computation assigned to an empty slot: new tensors *)
Fixpoint fill (l : list slot) (s : rgbd) (o : iobj) : MH iobj :=
  match l with
  | [] => ret o
  | k :: l' =>
      match o_t o k, field s k with
      | None, Some t => do r <- new_ref (o_dev o) t; fill l' s (set_slot k (Some r) o)
      | _, _ => fill l' s o
      end
  end.
(* the same for _valid_depth_mask *)
Definition fill_mask (s : rgbd) (o : iobj) : MH iobj :=
  match o_mask o, r_mask s with
  | None, Some m => do l <- ialloc (IB (o_dev o) m); ret (set_mask (Some l) o)
  | _, _ => ret o
  end.
(* rgbdimages.py:319-397, 643-762: valid_depth_mask, vertex_map, normal_map, global_vertex_map,
   global_normal_map.  They only assign to _pixel_pos, _valid_depth_mask and the four maps, only where there
   was None, and always the result of an operation that makes a new tensor (cat, >, *, einsum, clone, /) *)
Definition iread {A} (m : MR A) : MO A :=
  do o <- geto; do h <- geth;
  let (r, s) := m (iabs h o) in
  do o1 <- onh (fill [SPix; SVm; SNm; SGvm; SGnm] s o);
  do o2 <- onh (fill_mask s o1);
  modo (fun _ => o2) ;;;
  lift r.

(* ---------------- channel order ---------------- *)
Section CTG.
(* tensor.permute(...) of this reference is contiguous already, so that .contiguous() returns the view *)
Variable ctg : bool -> ref -> bool.

(* rgbdimages.py:619-641 _permute_if_not_None *)
Definition ipermute (cf : bool) (p : ten R -> res (ten R)) (x : option ref) : MO (option ref) :=
  match x with
  | None => ret None
  | Some r =>
      do v <- onh (view_ref p r);
      if ctg cf r then ret (Some v) else do v' <- onh (clone_ref v); ret (Some v')
  end.
(* self._x = permute(self._x, ordering), ... *)
Fixpoint permute_slots (cf : bool) (p : ten R -> res (ten R)) (l : list slot) : MO unit :=
  match l with
  | [] => ret tt
  | k :: l' => do o <- geto; do x <- ipermute cf p (o_t o k); modo (set_slot k x) ;;; permute_slots cf p l'
  end.
(* rgbdimages.py:575-617: both in-place conversions *)
Definition iconvert_ (p : ten R -> res (ten R)) (cf : bool) : MO unit :=
  permute_slots cf p [SRgb; SDepth; SVm; SGvm; SNm; SGnm] ;;;
  modo (fun o => set_layout cf (o_rgbsh o) (o_depsh o) o) ;;;
  do o <- geto; do h <- geth;
  match o_t o SRgb with
  | None => raise AttributeError
  | Some a =>
      modo (fun o => set_layout cf (shape (rread h a)) (o_depsh o) o) ;;;
      match o_t o SDepth with
      | None => raise AttributeError
      | Some b => modo (fun o => set_layout cf (o_rgbsh o) (Some (shape (rread h b))) o)
      end
  end.
(* rgbdimages.py:575-595 *)
Definition ito_channels_last_ : MO unit :=
  do o <- geto; if o_cf o then iconvert_ permute_last false else ret tt.
(* rgbdimages.py:597-617 *)
Definition ito_channels_first_ : MO unit :=
  do o <- geto; if o_cf o then ret tt else iconvert_ permute_first true.
(* other.m() on a new object *)
Definition on_new (m : MO unit) (other : iobj) : MO iobj :=
  fun w => match m (fst w, other) with
           | (Ok _, (h, o')) => (Ok o', (h, snd w))
           | (Err e, (h, _)) => (Err e, (h, snd w))
           end.
(* rgbdimages.py:543-557; None stands for self *)
Definition ito_channels_last (copy : bool) : MO (option iobj) :=
  do o <- geto;
  if negb (copy || o_cf o) then ret None
  else do other <- iclone; do c <- on_new ito_channels_last_ other; ret (Some c).
(* rgbdimages.py:559-573 *)
Definition ito_channels_first (copy : bool) : MO (option iobj) :=
  do o <- geto;
  if negb copy && o_cf o then ret None
  else do other <- iclone; do c <- on_new ito_channels_first_ other; ret (Some c).
End CTG.
