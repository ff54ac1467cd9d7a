(* Model of gradslam/structures/pointclouds.py down to the storage of the tensors.
   PointcloudsModel treats tensors as values.  Here a tensor is a strided view (offset, strides,
   extents) of a storage, storages live in a heap and carry a device, and an object holds views.
   Methods allocate, share or rebind views as the code does; the numbers that go into a new storage
   are those PointcloudsModel computes from the numbers read through the views.
   Simplifications: autograd not modelled (detach only matters for which storage is used); operands of
   the arithmetic methods are values that live on the device of the object. *)
From Coq Require Import List Arith ZArith Bool.
From Verif Require Import Res Fld StructUtilsModel PointcloudsModel.
Import ListNotations.
Local Open Scope nat_scope.

(* torch.device of a storage *)
Inductive dev := Cpu | Cuda (i : nat).
(* device equality *)
Definition dev_eqb (a b : dev) : bool :=
  match a, b with Cpu, Cpu => true | Cuda i, Cuda j => i =? j | _, _ => false end.

(* [f(x) for x in l] where f may allocate and raise *)
Fixpoint mmap {S A B} (f : A -> M S B) (l : list A) : M S (list B) :=
  match l with
  | [] => ret []
  | x :: l' => do y <- f x; do ys <- mmap f l'; ret (y :: ys)
  end.
(* None if x is None else f(x) *)
Definition omap {S A B} (f : A -> M S B) (o : option A) : M S (option B) :=
  match o with None => ret None | Some x => do y <- f x; ret (Some y) end.

Section ST.
Variable F : Fld.
Notation T2 := (t2 F).
Notation T3 := (t3 F).

(* a storage: numbers, the boolean mask, or the vector of counts *)
Inductive cell :=
| CF (d : dev) (x : list F)
| CB (d : dev) (x : list (list bool))
| CN (d : dev) (x : list nat).
(* the storages that exist; new ones are added at the end *)
Definition heap := list cell.
(* storage.device *)
Definition cdev (c : cell) : dev := match c with CF d _ | CB d _ | CN d _ => d end.

(* a 2-d tensor: storage, storage_offset, strides, extents *)
Record view2 := mkV2 { v2l : nat; v2o : nat; v2s : nat; v2t : nat; v2n : nat; v2c : nat }.
(* a 3-d tensor *)
Record view3 := mkV3 { v3l : nat; v3o : nat; v3r : nat; v3s : nat; v3t : nat;
                       v3b : nat; v3n : nat; v3c : nat }.

(* the numbers in a storage *)
Definition fdata (h : heap) (l : nat) : list F :=
  match nth_error h l with Some (CF _ x) => x | _ => [] end.
(* the counts in a storage *)
Definition ndata (h : heap) (l : nat) : list nat :=
  match nth_error h l with Some (CN _ x) => x | _ => [] end.
(* the mask in a storage *)
Definition bdata (h : heap) (l : nat) : list (list bool) :=
  match nth_error h l with Some (CB _ x) => x | _ => [] end.
(* x.device *)
Definition devof (h : heap) (l : nat) : dev :=
  match nth_error h l with Some c => cdev c | None => Cpu end.

(* the value of a 2-d tensor *)
Definition read2 (h : heap) (v : view2) : T2 :=
  mkT2 (v2c v) (map (fun i => map (fun j => nth (v2o v + i * v2s v + j * v2t v) (fdata h (v2l v)) f0)
                        (seq 0 (v2c v))) (seq 0 (v2n v))).
(* the value of a 3-d tensor *)
Definition read3 (h : heap) (v : view3) : T3 :=
  mkT3 (v3n v) (v3c v)
    (map (fun b => map (fun i => map (fun j =>
            nth (v3o v + b * v3r v + i * v3s v + j * v3t v) (fdata h (v3l v)) f0)
          (seq 0 (v3c v))) (seq 0 (v3n v))) (seq 0 (v3b v))).

(* pointclouds.py:90-108: the private fields, holding views; device is self.device *)
Record obj : Type := mkO {
  olst : quad (option (list view2));
  opad : quad (option view3);
  omask : option nat;
  oflg : quad (option bool);
  onum : nat;
  obat : nat;
  onmax : nat;
  oequi : option bool;
  odev : dev
}.

(* the object as PointcloudsModel sees it: the values read through the views *)
Definition abs (h : heap) (o : obj) : pc F :=
  mkPC F (qmap (option_map (map (read2 h))) (olst o)) (qmap (option_map (read3 h)) (opad o))
       (option_map (bdata h) (omask o)) (oflg o) (ndata h (onum o)) (obat o) (onmax o) (oequi o).

(* field assignments, as in PointcloudsModel *)
Definition owith_lst l (s : obj) := mkO l (opad s) (omask s) (oflg s) (onum s) (obat s) (onmax s) (oequi s) (odev s).
(* assignment of a padded field *)
Definition owith_pad p (s : obj) := mkO (olst s) p (omask s) (oflg s) (onum s) (obat s) (onmax s) (oequi s) (odev s).
(* assignment of _nonpad_mask *)
Definition owith_mask m (s : obj) := mkO (olst s) (opad s) m (oflg s) (onum s) (obat s) (onmax s) (oequi s) (odev s).
(* assignment of a cached flag *)
Definition owith_flg f (s : obj) := mkO (olst s) (opad s) (omask s) f (onum s) (obat s) (onmax s) (oequi s) (odev s).
(* assignment of _num_points_per_pointcloud, _B, _N, equisized *)
Definition owith_dims n b m e (s : obj) := mkO (olst s) (opad s) (omask s) (oflg s) n b m e (odev s).
(* assignment of device *)
Definition owith_dev d (s : obj) := mkO (olst s) (opad s) (omask s) (oflg s) (onum s) (obat s) (onmax s) (oequi s) d.
(* self._points_list = v, ... *)
Definition oset_lst a v (s : obj) := owith_lst (qset a v (olst s)) s.
(* self._points_padded = v, ... *)
Definition oset_pad a v (s : obj) := owith_pad (qset a v (opad s)) s.
(* self._has_points = v, ... *)
Definition oset_flg a v (s : obj) := owith_flg (qset a v (oflg s)) s.

(* ---------------- storage primitives (torch) ---------------- *)
Notation MH := (M heap).
(* a new storage *)
Definition alloc (c : cell) : MH nat := fun h => (Ok (length h), h ++ [c]).
(* a new contiguous 2-d tensor *)
Definition alloc2 (d : dev) (x : T2) : MH view2 :=
  do l <- alloc (CF d (concat (t2r x)));
  ret (mkV2 l 0 (t2c x) 1 (t2n x) (t2c x)).
(* a new contiguous 3-d tensor *)
Definition alloc3 (d : dev) (x : T3) : MH view3 :=
  do l <- alloc (CF d (concat (map (@concat F) (t3d x))));
  ret (mkV3 l 0 (t3n x * t3c x) (t3c x) 1 (t3b x) (t3n x) (t3c x)).
(* x.clone() *)
Definition clone2 (v : view2) : MH view2 := do h <- get; alloc2 (devof h (v2l v)) (read2 h v).
(* x.clone() *)
Definition clone3 (v : view3) : MH view3 := do h <- get; alloc3 (devof h (v3l v)) (read3 h v).
(* v.clone() of the mask or the counts *)
Definition clone_cell (l : nat) : MH nat :=
  do h <- get; match nth_error h l with Some c => alloc c | None => raise RuntimeError end.
(* x.to(d): the tensor itself when it is there already, else a copy *)
Definition to2 (d : dev) (v : view2) : MH view2 :=
  do h <- get; if dev_eqb (devof h (v2l v)) d then ret v else alloc2 d (read2 h v).
(* x.to(d) *)
Definition to3 (d : dev) (v : view3) : MH view3 :=
  do h <- get; if dev_eqb (devof h (v3l v)) d then ret v else alloc3 d (read3 h v).
(* x.to(d) of the mask or the counts *)
Definition to_cell (d : dev) (l : nat) : MH nat :=
  do h <- get;
  if dev_eqb (devof h l) d then ret l
  else match nth_error h l with
       | Some (CF _ x) => alloc (CF d x)
       | Some (CB _ x) => alloc (CB d x)
       | Some (CN _ x) => alloc (CN d x)
       | None => raise RuntimeError
       end.

(* ---------------- constructor ---------------- *)
(* an argument of the constructor; [Hn sh l]: a tensor whose rank is neither 2 nor 3 *)
Inductive hany := H2 (v : view2) | H3 (v : view3) | Hn (shape : list nat) (l : nat).
(* an argument of the constructor *)
Inductive harg := HNone | HList (l : list hany) | HTensor (x : hany) | HOther.
(* the value of a tensor argument *)
Definition rdany (h : heap) (x : hany) : anyt F :=
  match x with H2 v => AT2 F (read2 h v) | H3 v => AT3 F (read3 h v) | Hn sh _ => ATn F sh end.
(* the value of an argument *)
Definition rdarg (h : heap) (a : harg) : inp F :=
  match a with
  | HNone => INone F | HList l => IList F (map (rdany h) l)
  | HTensor x => ITensor F (rdany h x) | HOther => IOther F
  end.
(* the storage of a tensor argument *)
Definition anyl (x : hany) : nat := match x with H2 v => v2l v | H3 v => v3l v | Hn _ l => l end.

(* a tensor of rank 2 / 3 *)
Definition as_v2 (x : hany) : res view2 := match x with H2 v => Ok v | _ => Err ValueError end.
Definition as_v3 (x : hany) : res view3 := match x with H3 v => Ok v | _ => Err ValueError end.

(* pointclouds.py:121,155-163: [p.to(self.device) for p in points] *)
Definition take_list (d : dev) (a : harg) : MH (option (list view2)) :=
  match a with
  | HList l => do l' <- mmap (fun x => do v <- lift (as_v2 x); to2 d v) l; ret (Some l')
  | _ => ret None
  end.
(* pointclouds.py:206-211: points.to(self.device) *)
Definition take_tensor (d : dev) (a : harg) : MH (option view3) :=
  match a with
  | HTensor x => do v <- lift (as_v3 x); do v' <- to3 d v; ret (Some v')
  | _ => ret None
  end.

(* pointclouds.py:63-237.  Checks and sizes are those of PointcloudsModel.ctor (they depend on the
   shapes only); the tensors are stored without copying when they are on the device *)
Definition hctor (pa na ca fa : harg) (d : option dev) : MH obj :=
  do h <- get;
  do s <- lift (ctor F (rdarg h pa) (rdarg h na) (rdarg h ca) (rdarg h fa));
  let dv := match d with
            | Some d => d
            | None => match pa with
                      | HList (x :: _) => devof h (anyl x)
                      | HTensor x => devof h (anyl x)
                      | _ => Cpu
                      end
            end in
  do pl <- take_list dv pa; do nl <- take_list dv na; do cl <- take_list dv ca; do fl <- take_list dv fa;
  do pp <- take_tensor dv pa; do np <- take_tensor dv na; do cp <- take_tensor dv ca; do fp <- take_tensor dv fa;
  do n <- alloc (CN dv (num F s));
  ret (mkO (mkQ pl nl cl fl) (mkQ pp np cp fp) None (mkQ None None None None) n
           (bat F s) (nmax F s) (equi F s) dv).

(* ---------------- methods of one object ---------------- *)
Notation MO := (M (heap * obj)).
(* an allocation inside a method *)
Definition onh {A} (m : MH A) : MO A := fun w => let (r, h) := m (fst w) in (r, (h, snd w)).
(* the object's fields *)
Definition geto : MO obj := fun w => (Ok (snd w), w).
(* the current heap *)
Definition geth : MO heap := fun w => (Ok (fst w), w).
(* assignment of fields *)
Definition modo (f : obj -> obj) : MO unit := fun w => (Ok tt, (fst w, f (snd w))).

(* pointclouds.py:616-666 *)
Definition hhas (a : attr) : MO bool :=
  do s <- geto;
  match qget a (oflg s) with
  | Some b => ret b
  | None =>
      let b := is_some (qget a (olst s)) || is_some (qget a (opad s)) in
      modo (oset_flg a (Some b)) ;;; ret b
  end.

(* pointclouds.py:668-680 *)
Definition hnum_features : MO (option nat) :=
  do h <- hhas Features;
  if negb h then ret (Some 0)
  else
    do s <- geto;
    match qf (opad s) with
    | Some p => ret (Some (v3c p))
    | None =>
        match qf (olst s) with
        | Some (y :: _) => ret (Some (v2c y))
        | Some [] => raise IndexError
        | None => ret None
        end
    end.

(* p[0, : num[b]] for each p of padded.split([1] * B, 0): views of the padded tensor *)
Definition unpadv (ns : list nat) (p : view3) : list view2 :=
  map (fun q => mkV2 (v3l p) (v3o p + fst q * v3r p) (v3s p) (v3t p) (Nat.min (snd q) (v3n p)) (v3c p))
      (combine (seq 0 (v3b p)) ns).

(* pointclouds.py:682-736 *)
Definition hget_list (a : attr) : MO (option (list view2)) :=
  do s <- geto; do h <- geth;
  match qget a (olst s), qget a (opad s) with
  | None, Some p =>
      if negb (v3b p =? obat s) then raise RuntimeError
      else if negb (obat s <=? length (ndata h (onum s))) then raise IndexError
      else
        let l := unpadv (ndata h (onum s)) p in
        modo (oset_lst a (Some l)) ;;; ret (Some l)
  | l, _ => ret l
  end.

(* structutils.py:47-86: the padded tensor is a new one, on the device of x[0] *)
Definition list_dev (h : heap) (l : list view2) : dev :=
  match l with v :: _ => devof h (v2l v) | [] => Cpu end.

(* pointclouds.py:948-995 _compute_padded, one attribute *)
Definition hpad_attr (a : attr) (width : MO nat) : MO unit :=
  do s <- geto;
  match qget a (olst s) with
  | None => modo (oset_pad a None)
  | Some l =>
      do w <- width;
      do s' <- geto; do h <- geth;
      do p <- lift (list_to_padded (map (read2 h) l) (Some [onmax s'; w]) f0 (truthy (oequi s')));
      do v <- onh (alloc3 (list_dev h l) p);
      modo (oset_pad a (Some v))
  end.

(* pointclouds.py:948-995 _compute_padded *)
Definition hcompute_padded : MO unit :=
  do h <- hhas Points;
  if negb h then ret tt
  else
    do s <- geto;
    if is_some (qp (opad s)) then ret tt
    else
      (match qp (olst s) with None => raise TypeError | Some _ => hpad_attr Points (ret 3) end) ;;;
      hpad_attr Normals (ret 3) ;;;
      hpad_attr Colors (ret 3) ;;;
      hpad_attr Features
        (do w <- hnum_features; match w with Some c => ret c | None => raise TypeError end).

(* pointclouds.py:738-788 *)
Definition hget_padded (a : attr) : MO (option view3) :=
  hcompute_padded ;;; do s <- geto; ret (qget a (opad s)).

(* pointclouds.py:790-809 nonpad_mask: torch.ones(..., device=self.device), then cleared *)
Definition hnonpad_mask : MO (option nat) :=
  do s <- geto;
  match omask s with
  | Some m => ret (Some m)
  | None =>
      do hp <- hhas Points;
      if negb hp then ret None
      else
        do h <- geth;
        let ns := ndata h (onum s) in
        if truthy (oequi s)
        then match ns with
             | [] => raise IndexError
             | n0 :: _ =>
                 do m <- onh (alloc (CB (odev s) (repeat (mask_row n0 (onmax s)) (obat s))));
                 modo (owith_mask (Some m)) ;;; ret (Some m)
             end
        else if negb (obat s <=? length ns) then raise IndexError
        else
          do m <- onh (alloc (CB (odev s) (map (fun n => mask_row n (onmax s)) (firstn (obat s) ns))));
          modo (owith_mask (Some m)) ;;; ret (Some m)
  end.

(* pointclouds.py:1429-1467 _assert_set_list *)
Inductive hset_val := HSBad | HSL (l : list hany).
(* pointclouds.py:1429-1467 _assert_set_list *)
Definition hassert_set_list (v : hset_val) (first_dim_only : bool) : MO (list view2) :=
  match v with
  | HSBad => raise TypeError
  | HSL l =>
      do hp <- hhas Points;
      if negb hp then raise ValueError
      else
        do s <- geto; do h <- geth;
        if negb (obat s =? length l) then raise ValueError
        else if negb (forallb (fun x => andim F (rdany h x) =? 2) l) then raise ValueError
        else
          do pl <- hget_list Points;
          match pl with
          | None => raise TypeError
          | Some pl =>
              if first_dim_only
              then if shape_eqb (map v2n pl) (map (fun x => hd 0 (ashape F (rdany h x))) l)
                   then lift (mapM as_v2 l) else raise ValueError
              else if shapes_eqb (map (fun y => [v2n y; v2c y]) pl) (map (fun x => ashape F (rdany h x)) l)
                   then lift (mapM as_v2 l) else raise ValueError
          end
  end.

(* pointclouds.py:824-878: [v.clone().to(self.device) for v in value] *)
Definition hset_list (a : attr) (v : hset_val) : MO unit :=
  do l <- hassert_set_list v (match a with Features => true | _ => false end);
  do s <- geto;
  do l' <- onh (mmap (fun x => do y <- clone2 x; to2 (odev s) y) l);
  modo (oset_lst a (Some l')) ;;;
  match a with
  | Points => modo (oset_pad Points None)
  | _ => ret tt
  end.

(* pointclouds.py:1385-1427 _assert_set_padded *)
Inductive hset_pval := HPBad | HP (x : hany).
(* pointclouds.py:1385-1427 _assert_set_padded, with the device check of lines 1398-1403 *)
Definition hassert_set_padded (v : hset_pval) (first_2_dims_only : bool) : MO view3 :=
  match v with
  | HPBad => raise TypeError
  | HP x =>
      do hp <- hhas Points;
      if negb hp then raise ValueError
      else
        do s0 <- geto; do h <- geth;
        if negb (dev_eqb (odev s0) (devof h (anyl x))) then raise ValueError
        else if negb (andim F (rdany h x) =? 3) then raise ValueError
        else
          do pp <- hget_padded Points;
          match pp with
          | None => raise AttributeError
          | Some pp =>
              let psh := [v3b pp; v3n pp; v3c pp] in
              let bad := if first_2_dims_only
                         then negb (shape_eqb (removelast psh) (removelast (ashape F (rdany h x))))
                         else negb (shape_eqb psh (ashape F (rdany h x))) in
              if bad then raise ValueError
              else
                do v <- lift (as_v3 x);
                do s <- geto; do h <- geth;
                do z <- lift (padding_zero F (ndata h (onum s)) (read3 h v));
                if negb z then raise ValueError else ret v
          end
  end.

(* pointclouds.py:880-946: value.clone().to(self.device) *)
Definition hset_padded (a : attr) (v : hset_pval) : MO unit :=
  do p <- hassert_set_padded v (match a with Features => true | _ => false end);
  do s <- geto;
  do p' <- onh (do y <- clone3 p; to3 (odev s) y);
  modo (oset_pad a (Some p')) ;;;
  modo (oset_lst a None).

(* pointclouds.py:399-464 offset_ / scale_: self._points_padded is rebound to a new tensor *)
Definition hmasked_update (f : F -> F -> F -> F) (o : operand F) : MO unit :=
  match o with
  | OBad _ => raise TypeError
  | OT _ sh el =>
      do hp <- hhas Points;
      if negb hp then ret tt
      else
        do pp <- hget_padded Points;
        do m <- hnonpad_mask;
        match pp, m with
        | Some pp, Some m =>
            do h <- geth;
            do p' <- lift (bcast_op F f (read3 h pp) sh el (bdata h m) (mask_n (bdata h m)));
            do v <- onh (alloc3 (devof h (v3l pp)) p');
            modo (oset_pad Points (Some v)) ;;;
            modo (oset_lst Points None)
        | _, _ => raise TypeError
        end
  end.
(* pointclouds.py:399-430 *)
Definition hoffset_ (o : operand F) : MO unit := hmasked_update (fun p x m => fadd p (fmul x m)) o.
(* pointclouds.py:432-464 *)
Definition hscale_ (o : operand F) : MO unit := hmasked_update (fun p x m => fmul (fmul p x) m) o.

(* pointclouds.py:466-524 rotate_ *)
Definition hrotate_ (o : operand F) (pre : bool) : MO unit :=
  match o with
  | OBad _ => raise TypeError
  | OT _ sh el =>
      if negb (mat_shape_ok 3 sh) then raise ValueError
      else
        do s <- geto;
        if (length sh =? 3) && negb (hd 0 sh =? obat s) then raise ValueError
        else
          do hp <- hhas Points;
          if negb hp then ret tt
          else
            let r := fun b i j => if pre then mat_el F sh el b j i else mat_el F sh el b i j in
            do pp <- hget_padded Points;
            match pp with
            | None => raise TypeError
            | Some pp =>
                do h <- geth;
                do v <- onh (alloc3 (devof h (v3l pp)) (rot3 F (read3 h pp) r));
                modo (oset_pad Points (Some v)) ;;;
                do np <- hget_padded Normals;
                do h <- geth;
                do nv <- onh (omap (fun n => alloc3 (devof h (v3l n)) (rot3 F (read3 h n) r)) np);
                modo (oset_pad Normals nv) ;;;
                modo (oset_lst Points None) ;;;
                modo (oset_lst Normals None)
            end
  end.

(* pointclouds.py:526-573 transform_ *)
Definition htransform_ (o : operand F) (pre : bool) : MO unit :=
  match o with
  | OBad _ => raise TypeError
  | OT _ sh el =>
      if negb (mat_shape_ok 4 sh) then raise ValueError
      else
        do s <- geto;
        if (length sh =? 3) && negb (hd 0 sh =? obat s) then raise ValueError
        else
          do hp <- hhas Points;
          if negb hp then ret tt
          else
            hget_padded Points ;;;
            let rmat := if length sh =? 2 then OT F [3; 3] el else OT F [hd 0 sh; 3; 3] el in
            let tvec := if length sh =? 2
                        then OT F [1; 1; 3] (fun ix => el [nth 2 ix 0; 3])
                        else OT F [hd 0 sh; 1; 3] (fun ix => el [nth 0 ix 0; nth 2 ix 0; 3]) in
            hrotate_ rmat pre ;;; hoffset_ tvec
  end.

(* pointclouds.py:575-614 pinhole_projection_ *)
Definition hpinhole_projection_ (o : operand F) : MO unit :=
  match o with
  | OBad _ => raise TypeError
  | OT _ sh el =>
      if negb (mat_shape_ok 4 sh) then raise ValueError
      else
        do hp <- hhas Points;
        if negb hp then ret tt
        else
          do pp <- hget_padded Points;
          match pp with
          | None => raise TypeError
          | Some pp =>
              if (length sh =? 3) && negb (hd 0 sh =? v3b pp) then raise ValueError
              else
                do m <- hnonpad_mask;
                match m with
                | None => raise AttributeError
                | Some m =>
                    do h <- geth;
                    let proj := tab3 F (v3b pp) (v3n pp) 3 (fun b i k =>
                      if k =? 2 then f1 else project1 F (mat_el F sh el b) (get3 F (read3 h pp) b i) k) in
                    do p' <- lift (bcast_op F (fun p _ m => fmul p m) proj []
                                     (fun _ => f1) (bdata h m) (mask_n (bdata h m)));
                    do v <- onh (alloc3 (devof h (v3l pp)) p');
                    modo (oset_pad Points (Some v)) ;;;
                    modo (oset_lst Points None)
                end
          end
  end.

(* ---------------- clone, detach, to ---------------- *)
(* an optional list / tensor passed to the constructor *)
Definition hin2 (o : option (list view2)) : harg := match o with None => HNone | Some l => HList (map H2 l) end.
Definition hin3 (o : option view3) : harg := match o with None => HNone | Some v => HTensor (H3 v) end.

(* for k in _INTERNAL_TENSORS: v = getattr(from, k); if tensor: setattr(to, k, f(v)) *)
Definition take_tensors (f3 : view3 -> MH view3) (fc : nat -> MH nat) (from to : obj) : MH obj :=
  do pp <- omap f3 (qp (opad from)); do np <- omap f3 (qn (opad from));
  do cp <- omap f3 (qc (opad from)); do fp <- omap f3 (qf (opad from));
  do m <- omap fc (omask from);
  do n <- fc (onum from);
  ret (mkO (olst to)
         (mkQ (or_else pp (qp (opad to))) (or_else np (qn (opad to)))
              (or_else cp (qc (opad to))) (or_else fp (qf (opad to))))
         (or_else m (omask to)) (oflg to) n (obat to) (onmax to) (oequi to) (odev to)).

(* pointclouds.py:997-1044 clone: the new object *)
Definition hclone : MO obj :=
  do hp <- hhas Points;
  do s <- geto;
  if negb hp then onh (hctor HNone HNone HNone HNone (Some (odev s)))
  else
    do other <-
      match qp (olst s), qp (opad s) with
      | Some pl, _ =>
          onh (do pl' <- mmap clone2 pl; do nl <- omap (mmap clone2) (qn (olst s));
               do cl <- omap (mmap clone2) (qc (olst s)); do fl <- omap (mmap clone2) (qf (olst s));
               hctor (hin2 (Some pl')) (hin2 nl) (hin2 cl) (hin2 fl) None)
      | None, Some pp =>
          onh (do pp' <- clone3 pp; do np <- omap clone3 (qn (opad s));
               do cp <- omap clone3 (qc (opad s)); do fp <- omap clone3 (qf (opad s));
               hctor (hin3 (Some pp')) (hin3 np) (hin3 cp) (hin3 fp) None)
      | None, None => raise UnboundLocalError
      end;
    onh (take_tensors clone3 clone_cell s other).

(* pointclouds.py:1046-1065 detach.  t.detach() is a view of the same storage: the lists are those of
   the clone, the internal tensors those of self *)
Definition hdetach : MO obj :=
  do other <- hclone;
  do s <- geto;
  onh (take_tensors ret ret s other).

(* what the user may pass as a device: torch.device(...) or a string, "cuda" with or without index *)
Inductive dspec := SCpu | SCuda (i : option nat).
Inductive darg := DDev (d : dspec) | DStr (d : dspec).
(* the specification inside *)
Definition spec_of (a : darg) : dspec := match a with DDev d | DStr d => d end.
(* torch.Tensor().to(device).device: [cur] is the current cuda device *)
Definition resolve (cur : nat) (s : dspec) : dev :=
  match s with SCpu => Cpu | SCuda (Some i) => Cuda i | SCuda None => Cuda cur end.
(* self.device == device: a torch.device never equals a str, nor device("cuda") device("cuda:0") *)
Definition same_dev (d : dev) (a : darg) : bool :=
  match d, a with
  | Cpu, DDev SCpu => true
  | Cuda i, DDev (SCuda (Some j)) => i =? j
  | _, _ => false
  end.

(* pointclouds.py:1067-1099 to: None stands for self, Some for the new object *)
Definition hto (cur : nat) (a : darg) (copy : bool) : MO (option obj) :=
  do s0 <- geto;
  if negb copy && same_dev (odev s0) a then ret None
  else
    do other <- hclone;
    if same_dev (odev s0) a then ret (Some other)
    else
      let d := resolve cur (spec_of a) in
      do s <- geto;
      do pl <- onh (omap (mmap (to2 d)) (qp (olst other))); do nl <- onh (omap (mmap (to2 d)) (qn (olst other)));
      do cl <- onh (omap (mmap (to2 d)) (qc (olst other))); do fl <- onh (omap (mmap (to2 d)) (qf (olst other)));
      let other' := owith_dev d (owith_lst (mkQ pl nl cl fl) other) in
      do r <- onh (take_tensors (to3 d) (to_cell d) s other');
      ret (Some r).

(* pointclouds.py:1101-1107 *)
Definition hcpu (cur : nat) : MO (option obj) := hto cur (DDev SCpu) false.
(* pointclouds.py:1109-1115 *)
Definition hcuda (cur : nat) : MO (option obj) := hto cur (DDev (SCuda None)) false.

(* self.clone().op_(...) (pointclouds.py:300-397) *)
Definition hout_of_place (op : MO unit) : MO obj :=
  do other <- hclone;
  fun w => match op (fst w, other) with
           | (Ok _, (h, other')) => (Ok other', (h, snd w))
           | (Err e, (h, _)) => (Err e, (h, snd w))
           end.

(* except TypeError: raise NotImplementedError *)
Definition hcatch_type {A} (m : MO A) : MO A :=
  fun w => match m w with (Err TypeError, w') => (Err NotImplementedError, w') | r => r end.
(* pointclouds.py:302-309 __add__ *)
Definition hadd (o : operand F) : MO obj := hcatch_type (hout_of_place (hoffset_ o)).
(* pointclouds.py:311-325 __sub__ *)
Definition hsub (o : operand F) : MO obj := hcatch_type (hout_of_place (hoffset_ (oneg F o))).
(* pointclouds.py:327-334 __mul__ *)
Definition hmul (o : operand F) : MO obj := hcatch_type (hout_of_place (hscale_ o)).
(* pointclouds.py:336-352 __truediv__ *)
Definition htruediv (o : operand F) : MO obj :=
  match o with OBad _ => raise NotImplementedError | _ => hmul (orecip F o) end.
(* pointclouds.py:387-389 rotate *)
Definition hrotate (o : operand F) (pre : bool) : MO obj := hout_of_place (hrotate_ o pre).
(* pointclouds.py:391-393 transform *)
Definition htransform (o : operand F) (pre : bool) : MO obj := hout_of_place (htransform_ o pre).
(* pointclouds.py:395-397 pinhole_projection *)
Definition hpinhole_projection (o : operand F) : MO obj := hout_of_place (hpinhole_projection_ o).
(* pointclouds.py:354-386 __matmul__ *)
Definition hmatmul (o : operand F) : MO obj :=
  match o with
  | OBad _ => raise NotImplementedError
  | OT _ sh _ =>
      if mat_shape_ok 3 sh then hout_of_place (hrotate_ o false)
      else if mat_shape_ok 4 sh then hout_of_place (htransform_ o false)
      else raise ValueError
  end.

(* ---------------- __getitem__ ---------------- *)
(* the selected views: they are not copied *)
Definition hselect (ix : index) (l : list view2) : res (list view2) :=
  let? zs := select_idx ix (length l) in mapM (py_nth l) zs.
(* pointclouds.py:242-298: one attribute *)
Definition hgetitem_attr (a : attr) (ix : index) : MO (option (list view2)) :=
  do l <- hget_list a;
  match l with
  | None => raise TypeError
  | Some l => do r <- lift (hselect ix l); ret (Some r)
  end.
(* pointclouds.py:242-298 __getitem__ *)
Definition hgetitem (ix : index) : MO obj :=
  do hp <- hhas Points;
  if negb hp then raise IndexError
  else
    do p <- hgetitem_attr Points ix;
    do n <- (do b <- hhas Normals; if b then hgetitem_attr Normals ix else ret None);
    do c <- (do b <- hhas Colors; if b then hgetitem_attr Colors ix else ret None);
    do f <- (do b <- hhas Features; if b then hgetitem_attr Features ix else ret None);
    onh (hctor (hin2 p) (hin2 n) (hin2 c) (hin2 f) None).

(* ---------------- append_points ---------------- *)
(* all objects of a program: method calls go to the object with a given number, so that an object
   may be appended to itself *)
Record world := mkW { wheap : heap; wobjs : list obj }.
(* replace the i-th element *)
Fixpoint upd {X} (i : nat) (x : X) (l : list X) : list X :=
  match l, i with
  | [], _ => []
  | _ :: l', 0 => x :: l'
  | y :: l', S i' => y :: upd i' x l'
  end.
(* a method call on object i *)
Definition at_ {A} (i : nat) (m : MO A) : M world A :=
  fun w => match nth_error (wobjs w) i with
           | None => (Err NameError, w)
           | Some o => let '(r, (h, o')) := m (wheap w, o) in (r, mkW h (upd i o' (wobjs w)))
           end.

(* pointclouds.py:1195-1231: self._X_list = [torch.cat(...) ...]: new tensors *)
Definition happend_attr (a : attr) (i j : nat) : M world unit :=
  do x <- at_ i (hget_list a);
  do y <- at_ j (hget_list a);
  do s <- at_ i geto; do h <- at_ i geth;
  match x, y with
  | Some x, Some y =>
      do l <- lift (cat_lists F (obat s) (map (read2 h) x) (map (read2 h) y));
      do l' <- at_ i (onh (mmap (alloc2 (list_dev h x)) l));
      at_ i (modo (oset_lst a (Some l'))) ;;; at_ i (modo (oset_pad a None))
  | _, _ => if obat s =? 0
            then at_ i (modo (oset_lst a (Some []))) ;;; at_ i (modo (oset_pad a None))
            else raise TypeError
  end.

(* pointclouds.py:1143-1157: [p.clone().to(self.device) for p in pointclouds.points_list] *)
Definition hcopy_attr (a : attr) (i j : nat) : M world unit :=
  do y <- at_ j (hget_list a);
  match y with
  | None => raise TypeError
  | Some y =>
      do s <- at_ i geto;
      do y' <- at_ i (onh (mmap (fun v => do c <- clone2 v; to2 (odev s) c) y));
      at_ i (modo (oset_lst a (Some y')))
  end.

(* pointclouds.py:1117-1237 append_points *)
Definition happend_points (i j : nat) : M world unit :=
  do d1 <- at_ i geto; do d2 <- at_ j geto;
  if negb (dev_eqb (odev d2) (odev d1)) then raise ValueError
  else
  do hp2 <- at_ j (hhas Points);
  if negb hp2 then ret tt
  else
  do hp1 <- at_ i (hhas Points);
  if negb hp1 then
    hcopy_attr Points i j ;;;
    (do h <- at_ j (hhas Normals); if h then hcopy_attr Normals i j else ret tt) ;;;
    (do h <- at_ j (hhas Colors); if h then hcopy_attr Colors i j else ret tt) ;;;
    (do h <- at_ j (hhas Features); if h then hcopy_attr Features i j else ret tt) ;;;
    do o <- at_ j geto;
    do s <- at_ i geto;
    do s' <- at_ i (onh (take_tensors clone3 clone_cell o
           (mkO (olst s) (opad s) (omask s) (oflg o) (onum s) (obat o) (onmax o) (oequi o) (odev s))));
    at_ i (modo (fun _ => s'))
  else
  do s <- at_ i geto; do o <- at_ j geto;
  if negb (obat o =? obat s) then raise ValueError
  else
  do n1 <- at_ i (hhas Normals); do n2 <- at_ j (hhas Normals);
  if negb (eqb n1 n2) then raise ValueError
  else
  do c1 <- at_ i (hhas Colors); do c2 <- at_ j (hhas Colors);
  if negb (eqb c1 c2) then raise ValueError
  else
  do g1 <- at_ i (hhas Features); do g2 <- at_ j (hhas Features);
  if negb (eqb g1 g2) then raise ValueError
  else
  (if g1 then
     do w1 <- at_ i hnum_features; do w2 <- at_ j hnum_features;
     match w1, w2 with
     | Some w1, Some w2 => if w1 =? w2 then ret tt else raise ValueError
     | None, None => ret tt
     | _, _ => raise ValueError
     end
   else ret tt) ;;;
  happend_attr Points i j ;;;
  (do h <- at_ i (hhas Normals); if h then happend_attr Normals i j else ret tt) ;;;
  (do h <- at_ i (hhas Colors); if h then happend_attr Colors i j else ret tt) ;;;
  (do h <- at_ i (hhas Features); if h then happend_attr Features i j else ret tt) ;;;
  do s <- at_ i geto; do o <- at_ j geto; do h <- at_ i geth;
  do ns <- lift (add_counts (ndata h (onum s)) (ndata h (onum o)));
  do n <- at_ i (onh (alloc (CN (devof h (onum s)) ns)));
  at_ i (modo (fun s => owith_mask None
         (owith_dims n (obat s) (max_list ns) (Some (all_equal ns)) s))).

End ST.
