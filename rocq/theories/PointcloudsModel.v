(* Model of gradslam/structures/pointclouds.py.
   Simplifications: one device (device arguments, to/cpu/cuda not modelled); autograd not modelled;
   a list argument contains tensors only; tensors are immutable values (the class never writes into
   a tensor it shares: every update builds a new tensor); open3d/plotly: see ExportModel.v. *)
From Coq Require Import List Arith ZArith Bool.
From Verif Require Import Res Fld StructUtilsModel.
Import ListNotations.
Local Open Scope nat_scope.

(* pointclouds.py:90-106: the four attributes of a cloud *)
Inductive attr := Points | Normals | Colors | Features.

(* the four parallel private fields _points_x, _normals_x, _colors_x, _features_x *)
Record quad (X : Type) : Type := mkQ { qp : X; qn : X; qc : X; qf : X }.
Arguments mkQ {X}. Arguments qp {X}. Arguments qn {X}. Arguments qc {X}. Arguments qf {X}.
(* read one of the four fields _points_X, _normals_X, _colors_X, _features_X (pointclouds.py:90-104) *)
Definition qget {X} (a : attr) (q : quad X) : X :=
  match a with Points => qp q | Normals => qn q | Colors => qc q | Features => qf q end.
(* assign one of the four fields (pointclouds.py:90-104) *)
Definition qset {X} (a : attr) (x : X) (q : quad X) : quad X :=
  match a with
  | Points => mkQ x (qn q) (qc q) (qf q)
  | Normals => mkQ (qp q) x (qc q) (qf q)
  | Colors => mkQ (qp q) (qn q) x (qf q)
  | Features => mkQ (qp q) (qn q) (qc q) x
  end.
(* the same expression for each of the four fields *)
Definition qmap {X Y} (f : X -> Y) (q : quad X) : quad Y :=
  mkQ (f (qp q)) (f (qn q)) (f (qc q)) (f (qf q)).

(* x is not None *)
Definition is_some {X} (o : option X) : bool := match o with Some _ => true | None => false end.

Section PC.
Variable F : Fld.
Notation T2 := (t2 F).
Notation T3 := (t3 F).

(* pointclouds.py:90-106: the private fields.  [equi] is self.equisized (None for the empty object). *)
Record pc : Type := mkPC {
  lst : quad (option (list T2));
  pad : quad (option T3);
  mask : option (list (list bool));
  flg : quad (option bool);
  num : list nat;
  bat : nat;
  nmax : nat;
  equi : option bool
}.

(* assignment of self._points_list, ... (pointclouds.py:90-93) *)
Definition with_lst l (s : pc) := mkPC l (pad s) (mask s) (flg s) (num s) (bat s) (nmax s) (equi s).
(* assignment of self._points_padded, ... (pointclouds.py:95-98) *)
Definition with_pad p (s : pc) := mkPC (lst s) p (mask s) (flg s) (num s) (bat s) (nmax s) (equi s).
(* assignment of self._nonpad_mask (pointclouds.py:99) *)
Definition with_mask m (s : pc) := mkPC (lst s) (pad s) m (flg s) (num s) (bat s) (nmax s) (equi s).
(* assignment of self._has_points, ... (pointclouds.py:101-104) *)
Definition with_flg f (s : pc) := mkPC (lst s) (pad s) (mask s) f (num s) (bat s) (nmax s) (equi s).
(* assignment of _num_points_per_pointcloud, _B, _N, equisized (pointclouds.py:106-108) *)
Definition with_dims n b m e (s : pc) := mkPC (lst s) (pad s) (mask s) (flg s) n b m e.

(* assignment of one list field *)
Definition set_lst a v (s : pc) := with_lst (qset a v (lst s)) s.
(* assignment of one padded field *)
Definition set_pad a v (s : pc) := with_pad (qset a v (pad s)) s.
(* assignment of one cached flag *)
Definition set_flg a v (s : pc) := with_flg (qset a v (flg s)) s.

(* bool(x) of None / False / True *)
Definition truthy (o : option bool) : bool := match o with Some true => true | _ => false end.

(* ---------------- constructor ---------------- *)
(* a tensor of any rank: only ranks 2 and 3 carry data the class can accept *)
Inductive anyt := AT2 (x : T2) | AT3 (x : T3) | ATn (shape : list nat).
(* [ATn sh] stands for a tensor whose rank is neither 2 nor 3 *)
Definition ashape (x : anyt) : list nat :=
  match x with
  | AT2 y => [t2n y; t2c y]
  | AT3 y => [t3b y; t3n y; t3c y]
  | ATn sh => sh
  end.
(* x.ndim *)
Definition andim (x : anyt) : nat := length (ashape x).

(* an argument of the constructor (pointclouds.py:63-70): None, a list of tensors, a tensor, anything else *)
Inductive inp := INone | IList (l : list anyt) | ITensor (x : anyt) | IOther.

(* equality of torch.Size values *)
Definition shape_eqb (a b : list nat) : bool := if list_eq_dec Nat.eq_dec a b then true else false.
(* equality of lists of torch.Size (pointclouds.py:129-150) *)
Definition shapes_eqb (a b : list (list nat)) : bool :=
  if list_eq_dec (list_eq_dec Nat.eq_dec) a b then true else false.

(* isinstance(x, type(points)) for points None / list / tensor *)
Definition same_kind (x points : inp) : bool :=
  match x, points with
  | INone, INone => true
  | IList _, IList _ => true
  | ITensor _, ITensor _ => true
  | _, _ => false
  end.
(* x is None *)
Definition is_none (x : inp) : bool := match x with INone => true | _ => false end.

(* len(points): a 0-d tensor has no len *)
Definition inp_len (x : inp) : res nat :=
  match x with
  | IList l => Ok (length l)
  | ITensor t => match ashape t with [] => Err TypeError | n :: _ => Ok n end
  | _ => Err TypeError
  end.

(* a tensor that passed the check ndim == 2 (pointclouds.py:113) *)
Definition as_t2 (x : anyt) : res T2 := match x with AT2 y => Ok y | _ => Err ValueError end.
(* a tensor that passed the check ndim == 3 (pointclouds.py:179) *)
Definition as_t3 (x : anyt) : res T3 := match x with AT3 y => Ok y | _ => Err ValueError end.
(* None if x is None else [f(y) for y in x] (pointclouds.py:155-163) *)
Definition opt_mapM {X Y} (f : X -> res Y) (o : option X) : res (option Y) :=
  match o with None => Ok None | Some x => rmap Some (f x) end.

(* isinstance(x, list) *)
Definition list_of (x : inp) : option (list anyt) := match x with IList l => Some l | _ => None end.
(* torch.is_tensor(x) *)
Definition tensor_of (x : inp) : option anyt := match x with ITensor t => Some t | _ => None end.

(* len(t.unique()) == 1 *)
Definition all_equal (l : list nat) : bool :=
  match l with [] => false | x :: l' => forallb (Nat.eqb x) l' end.
(* t.max().item() *)
Definition max_list (l : list nat) : nat := fold_left Nat.max l 0.

(* x.shape[-1] *)
Definition lastdim (sh : list nat) : nat := last sh 0.

(* pointclouds.py:110-170: the list branch *)
Definition ctor_list (points : list anyt) (normals colors features : option (list anyt)) : res pc :=
  let pshapes := map ashape points in
  guard (forallb (fun p => andim p =? 2) points) ValueError ;;?
  guard (forallb (fun sh => lastdim sh =? 3) pshapes) ValueError ;;?
  let nums := map (fun sh => hd 0 sh) pshapes in
  guard (match normals with None => true | Some n => shapes_eqb (map ashape n) pshapes end) ValueError ;;?
  guard (match colors with None => true | Some c => shapes_eqb (map ashape c) pshapes end) ValueError ;;?
  guard (match features with None => true | Some f => forallb (fun x => andim x =? 2) f end) ValueError ;;?
  guard (match features with
         | None => true | Some f => shape_eqb (map (fun x => hd 0 (ashape x)) f) nums end) ValueError ;;?
  guard (match features with
         | None => true | Some f => all_equal (map (fun x => lastdim (ashape x)) f) end) ValueError ;;?
  let? pl := mapM as_t2 points in
  let? nl := opt_mapM (mapM as_t2) normals in
  let? cl := opt_mapM (mapM as_t2) colors in
  let? fl := opt_mapM (mapM as_t2) features in
  Ok (mkPC (mkQ (Some pl) nl cl fl) (mkQ None None None None) None (mkQ None None None None)
        nums (length pl) (max_list nums) (Some (all_equal nums))).

(* pointclouds.py:172-220: the tensor branch *)
Definition ctor_tensor (points : anyt) (normals colors features : option anyt) : res pc :=
  let sh := ashape points in
  guard (andim points =? 3) ValueError ;;?
  guard (lastdim sh =? 3) ValueError ;;?
  guard (negb (hd 0 sh =? 0)) ValueError ;;?
  guard (match normals with None => true | Some n => shape_eqb (ashape n) sh end) ValueError ;;?
  guard (match colors with None => true | Some c => shape_eqb (ashape c) sh end) ValueError ;;?
  guard (match features with None => true | Some f => andim f =? 3 end) ValueError ;;?
  guard (match features with
         | None => true | Some f => shape_eqb (removelast (ashape f)) (removelast sh) end) ValueError ;;?
  let? pp := as_t3 points in
  let? np := opt_mapM as_t3 normals in
  let? cp := opt_mapM as_t3 colors in
  let? fp := opt_mapM as_t3 features in
  Ok (mkPC (mkQ None None None None) (mkQ (Some pp) np cp fp) None (mkQ None None None None)
        (repeat (t3n pp) (t3b pp)) (t3b pp) (t3n pp) (Some true)).

(* pointclouds.py:222-237: Pointclouds() *)
Definition empty_pc : pc :=
  mkPC (mkQ None None None None) (mkQ None None None None) None (mkQ None None None None)
       [0] 0 0 None.

(* pointclouds.py:63-237 *)
Definition ctor (points normals colors features : inp) : res pc :=
  guard (match points with IOther => false | _ => true end) TypeError ;;?
  guard (is_none normals || same_kind normals points) TypeError ;;?
  guard (is_none colors || same_kind colors points) TypeError ;;?
  guard (is_none features || same_kind features points) TypeError ;;?
  (match points with
   | INone => Ok tt
   | _ => let? n := inp_len points in guard (negb (n =? 0)) ValueError
   end) ;;?
  match points with
  | IList l => ctor_list l (list_of normals) (list_of colors) (list_of features)
  | ITensor t => ctor_tensor t (tensor_of normals) (tensor_of colors) (tensor_of features)
  | INone => Ok empty_pc
  | IOther => Err ValueError
  end.

(* ---------------- reads ---------------- *)
Notation MPC := (M pc).

(* pointclouds.py:239-240 __len__ *)
Definition len (s : pc) : nat := bat s.

(* pointclouds.py:616-666 has_points / has_normals / has_colors / has_features (cached) *)
Definition has (a : attr) : MPC bool :=
  do s <- get;
  match qget a (flg s) with
  | Some b => ret b
  | None =>
      let b := is_some (qget a (lst s)) || is_some (qget a (pad s)) in
      modify (set_flg a (Some b)) ;;; ret b
  end.

(* pointclouds.py:668-680 num_features; the Python function falls off the end (None) in the last case *)
Definition num_features : MPC (option nat) :=
  do h <- has Features;
  if negb h then ret (Some 0)
  else
    do s <- get;
    match qf (pad s) with
    | Some p => ret (Some (t3c p))
    | None =>
        match qf (lst s) with
        | Some (y :: _) => ret (Some (t2c y))
        | Some [] => raise IndexError
        | None => ret None
        end
    end.

(* p[0, : num[b]] for each slab *)
Definition unpad (ns : list nat) (p : T3) : list T2 :=
  map (fun q => mkT2 (t3c p) (firstn (snd q) (fst q))) (combine (t3d p) ns).

(* pointclouds.py:682-736 points_list, normals_list, colors_list, features_list *)
Definition get_list (a : attr) : MPC (option (list T2)) :=
  do s <- get;
  match qget a (lst s), qget a (pad s) with
  | None, Some p =>
      if negb (t3b p =? bat s) then raise RuntimeError          (* split([1] * B, 0) *)
      else if negb (bat s <=? length (num s)) then raise IndexError
      else
        let l := unpad (num s) p in
        modify (set_lst a (Some l)) ;;; ret (Some l)
  | l, _ => ret l
  end.

(* pointclouds.py:948-995 _compute_padded(refresh=False) *)
Definition pad_attr (a : attr) (width : MPC nat) : MPC unit :=
  do s <- get;
  match qget a (lst s) with
  | None => modify (set_pad a None)
  | Some l =>
      do w <- width;
      do s' <- get;
      do p <- lift (list_to_padded l (Some [nmax s'; w]) f0 (truthy (equi s')));
      modify (set_pad a (Some p))
  end.

(* pointclouds.py:948-995 _compute_padded(refresh=False) *)
Definition compute_padded : MPC unit :=
  do h <- has Points;
  if negb h then ret tt
  else
    do s <- get;
    if is_some (qp (pad s)) then ret tt
    else
      (match qp (lst s) with None => raise TypeError | Some _ => pad_attr Points (ret 3) end) ;;;
      pad_attr Normals (ret 3) ;;;
      pad_attr Colors (ret 3) ;;;
      pad_attr Features
        (do w <- num_features; match w with Some c => ret c | None => raise TypeError end).

(* pointclouds.py:738-788 points_padded, normals_padded, colors_padded, features_padded *)
Definition get_padded (a : attr) : MPC (option T3) :=
  compute_padded ;;; do s <- get; ret (qget a (pad s)).

(* pointclouds.py:790-809 nonpad_mask *)
Definition mask_row (n N : nat) : list bool := map (fun j => j <? n) (seq 0 N).
(* pointclouds.py:790-809 nonpad_mask *)
Definition nonpad_mask : MPC (option (list (list bool))) :=
  do s <- get;
  match mask s with
  | Some m => ret (Some m)
  | None =>
      do h <- has Points;
      if negb h then ret None
      else
        if truthy (equi s)
        then match num s with
             | [] => raise IndexError
             | n0 :: _ =>
                 let m := repeat (mask_row n0 (nmax s)) (bat s) in
                 modify (with_mask (Some m)) ;;; ret (Some m)
             end
        else if negb (bat s <=? length (num s)) then raise IndexError
        else
          let m := map (fun n => mask_row n (nmax s)) (firstn (bat s) (num s)) in
          modify (with_mask (Some m)) ;;; ret (Some m)
  end.

(* pointclouds.py:811-822 *)
Definition num_points (s : pc) : list nat := num s.

(* ---------------- setters ---------------- *)
(* pointclouds.py:1429-1467 _assert_set_list *)
Inductive setval_list := SLBad | SL (l : list anyt).
(* pointclouds.py:1429-1467 _assert_set_list *)
Definition assert_set_list (v : setval_list) (first_dim_only : bool) : MPC (list T2) :=
  match v with
  | SLBad => raise TypeError
  | SL l =>
      do h <- has Points;
      if negb h then raise ValueError
      else
        do s <- get;
        if negb (bat s =? length l) then raise ValueError
        else if negb (forallb (fun x => andim x =? 2) l) then raise ValueError
        else
          do pl <- get_list Points;
          match pl with
          | None => raise TypeError
          | Some pl =>
              if first_dim_only
              then if shape_eqb (map t2n pl) (map (fun x => hd 0 (ashape x)) l)
                   then lift (mapM as_t2 l) else raise ValueError
              else if shapes_eqb (map (fun y => [t2n y; t2c y]) pl) (map ashape l)
                   then lift (mapM as_t2 l) else raise ValueError
          end
  end.

(* pointclouds.py:824-878.  The setters of normals_list, colors_list and features_list assign
   self._noramls_padded (sic), i.e. they do not touch any modelled field besides the list. *)
Definition set_list (a : attr) (v : setval_list) : MPC unit :=
  do l <- assert_set_list v (match a with Features => true | _ => false end);
  modify (set_lst a (Some l)) ;;;
  match a with
  | Points => modify (set_pad Points None)
  | _ => ret tt
  end.

(* pointclouds.py:1385-1427 _assert_set_padded *)
Inductive setval_pad := SPBad | SP (x : anyt).
(* value == 0 (pointclouds.py:1385-1427) *)
Definition is_zero (x : F) : bool := if feq_dec x f0 then true else false.
(* value[b][N_b:].eq(0).all() for b, N_b in enumerate(num): value[b] raises IndexError past the batch *)
Definition padding_zero (ns : list nat) (v : T3) : res bool :=
  if negb (length ns <=? t3b v) then Err IndexError
  else Ok (forallb (fun q => forallb (forallb is_zero) (skipn (snd q) (fst q)))
             (combine (t3d v) ns)).
(* pointclouds.py:1385-1427 _assert_set_padded *)
Definition assert_set_padded (v : setval_pad) (first_2_dims_only : bool) : MPC T3 :=
  match v with
  | SPBad => raise TypeError
  | SP x =>
      do h <- has Points;
      if negb h then raise ValueError
      else if negb (andim x =? 3) then raise ValueError
      else
        do pp <- get_padded Points;
        match pp with
        | None => raise AttributeError
        | Some pp =>
            let psh := [t3b pp; t3n pp; t3c pp] in
            let bad := if first_2_dims_only
                       then negb (shape_eqb (removelast psh) (removelast (ashape x)))
                       else negb (shape_eqb psh (ashape x)) in
            if bad then raise ValueError
            else
              do v <- lift (as_t3 x);
              do s <- get;
              do z <- lift (padding_zero (num s) v);
              if negb z then raise ValueError else ret v
        end
  end.

(* pointclouds.py:880-946 *)
Definition set_padded (a : attr) (v : setval_pad) : MPC unit :=
  do p <- assert_set_padded v (match a with Features => true | _ => false end);
  modify (set_pad a (Some p)) ;;;
  modify (set_lst a None).

(* ---------------- arithmetic ---------------- *)
(* an operand: a tensor given by shape and element function (a Python number has shape []),
   or something that is neither tensor, float nor int *)
Inductive operand := OBad | OT (shape : list nat) (el : list nat -> F).
(* a number used as an operand (pointclouds.py:399-464) *)
Definition scalar (x : F) : operand := OT [] (fun _ => x).

(* broadcasting of one extent *)
Definition bext (a b : nat) : option nat :=
  if a =? b then Some a else if a =? 1 then Some b else if b =? 1 then Some a else None.
(* torch broadcasting: index into an extent of 1 *)
Definition bidx (ext i : nat) : nat := if ext =? 1 then 0 else i.
(* broadcasting fails as soon as one extent does not match *)
Definition obind {X Y} (o : option X) (f : X -> option Y) : option Y :=
  match o with Some x => f x | None => None end.

(* x[b, i, j] *)
Definition get3 (p : T3) (b i j : nat) : F := nth j (nth i (nth b (t3d p) []) []) f0.
(* the (B, N, C) tensor with given entries *)
Definition tab3 (B N C : nat) (f : nat -> nat -> nat -> F) : T3 :=
  mkT3 N C (map (fun b => map (fun i => map (fun j => f b i j) (seq 0 C)) (seq 0 N)) (seq 0 B)).
(* self.nonpad_mask as 0/1 factors (pointclouds.py:399-464) *)
Definition mask_f (m : list (list bool)) (b i : nat) : F :=
  if nth i (nth b m []) false then f1 else f0.
(* the second extent of the mask tensor *)
Definition mask_n (m : list (list bool)) : nat := match m with [] => 0 | r :: _ => length r end.

(* left-pad the operand's shape with ones up to rank 3; None above rank 3 *)
Definition pad_shape3 (sh : list nat) : option (nat * nat * nat) :=
  match sh with
  | [] => Some (1, 1, 1)
  | [c] => Some (1, 1, c)
  | [b; c] => Some (1, b, c)
  | [a; b; c] => Some (a, b, c)
  | _ => None
  end.
(* entry of a broadcast operand at (b, i, j) *)
Definition el3 (sh : list nat) (el : list nat -> F) (a b c : nat) : F :=
  match sh with
  | [] => el []
  | [c0] => el [bidx c0 c]
  | [b0; c0] => el [bidx b0 b; bidx c0 c]
  | [a0; b0; c0] => el [bidx a0 a; bidx b0 b; bidx c0 c]
  | _ => f0
  end.

(* elementwise f padded operand mask, with torch broadcasting of (B,N,3), the operand and (Bm,Nm,1);
   a result of rank above 3 is outside the model *)
Definition bcast_op (f : F -> F -> F -> F) (p : T3) (sh : list nat) (el : list nat -> F)
    (m : list (list bool)) (mN : nat) : res T3 :=
  match pad_shape3 sh with
  | None => Err Unmodelled
  | Some (a, b, c) =>
      match obind (bext a (length m)) (bext (t3b p)),
            obind (bext b mN) (bext (t3n p)),
            bext (t3c p) c with
      | Some rb, Some rn, Some rc =>
          Ok (tab3 rb rn rc (fun x y z =>
                f (get3 p (bidx (t3b p) x) (bidx (t3n p) y) (bidx (t3c p) z))
                  (el3 sh el x y z)
                  (mask_f m (bidx (length m) x) (bidx mN y))))
      | _, _, _ => Err RuntimeError
      end
  end.

(* pointclouds.py:399-464: the common part of offset_ and scale_ *)
Definition masked_update (f : F -> F -> F -> F) (o : operand) : MPC unit :=
  match o with
  | OBad => raise TypeError
  | OT sh el =>
      do h <- has Points;
      if negb h then ret tt
      else
        do pp <- get_padded Points;
        do m <- nonpad_mask;
        match pp, m with
        | Some pp, Some m =>
            do p' <- lift (bcast_op f pp sh el m (mask_n m));
            modify (set_pad Points (Some p')) ;;;
            modify (set_lst Points None)
        | _, _ => raise TypeError
        end
  end.

(* pointclouds.py:399-430 offset_ *)
Definition offset_ (o : operand) : MPC unit :=
  masked_update (fun p x m => fadd p (fmul x m)) o.
(* pointclouds.py:432-464 scale_ *)
Definition scale_ (o : operand) : MPC unit :=
  masked_update (fun p x m => fmul (fmul p x) m) o.

(* sum over j of a 3-vector row times column k *)
Definition dot3 (r m : nat -> F) : F := fadd (fadd (fmul (r 0) (m 0)) (fmul (r 1) (m 1))) (fmul (r 2) (m 2)).

(* torch.einsum("bij,jk->bik", p, r) / ("bij,bjk->bik", p, r); p has 3 columns *)
Definition rot3 (p : T3) (r : nat -> nat -> nat -> F) : T3 :=
  tab3 (t3b p) (t3n p) 3 (fun b i k => dot3 (get3 p b i) (fun j => r b j k)).

(* the matrix argument seen as a function of (batch, row, column) *)
Definition mat_el (sh : list nat) (el : list nat -> F) (b i j : nat) : F :=
  if length sh =? 2 then el [i; j] else el [b; i; j].
(* shape[-n:] *)
Definition lastn {X} (n : nat) (l : list X) : list X := skipn (length l - n) l.

(* pointclouds.py:466-573: the shape checks on the matrix argument *)
Definition mat_shape_ok (k : nat) (sh : list nat) : bool :=
  ((length sh =? 2) || (length sh =? 3)) && shape_eqb (lastn 2 sh) [k; k].

(* pointclouds.py:466-524 rotate_ *)
Definition rotate_ (o : operand) (pre : bool) : MPC unit :=
  match o with
  | OBad => raise TypeError
  | OT sh el =>
      if negb (mat_shape_ok 3 sh) then raise ValueError
      else
        do s <- get;
        if (length sh =? 3) && negb (hd 0 sh =? bat s) then raise ValueError
        else
          do h <- has Points;
          if negb h then ret tt
          else
            let r := fun b i j => if pre then mat_el sh el b j i else mat_el sh el b i j in
            do pp <- get_padded Points;
            match pp with
            | None => raise TypeError
            | Some pp =>
                modify (set_pad Points (Some (rot3 pp r))) ;;;
                do np <- get_padded Normals;
                modify (set_pad Normals (option_map (fun n => rot3 n r) np)) ;;;
                modify (set_lst Points None) ;;;
                modify (set_lst Normals None)
            end
  end.

(* pointclouds.py:526-573 transform_ *)
Definition transform_ (o : operand) (pre : bool) : MPC unit :=
  match o with
  | OBad => raise TypeError
  | OT sh el =>
      if negb (mat_shape_ok 4 sh) then raise ValueError
      else
        do s <- get;
        if (length sh =? 3) && negb (hd 0 sh =? bat s) then raise ValueError
        else
          do h <- has Points;
          if negb h then ret tt
          else
            get_padded Points ;;;
            let rmat := if length sh =? 2 then OT [3; 3] el else OT [hd 0 sh; 3; 3] el in
            let tvec := if length sh =? 2
                        then OT [1; 1; 3] (fun ix => el [nth 2 ix 0; 3])
                        else OT [hd 0 sh; 1; 3] (fun ix => el [nth 0 ix 0; nth 2 ix 0; 3]) in
            rotate_ rmat pre ;;; offset_ tvec
  end.

(* projutils.py:200-228 project_points for 3-D coordinates, one point: rows 0,1,2 of P [p;1] *)
Definition row4 (P : nat -> nat -> F) (k : nat) (p : nat -> F) : F :=
  fadd (fadd (fadd (fmul (P k 0) (p 0)) (fmul (P k 1) (p 1))) (fmul (P k 2) (p 2))) (fmul (P k 3) f1).
(* projutils.py:200-228 project_points for one 3-D point *)
Definition project1 (P : nat -> nat -> F) (p : nat -> F) (k : nat) : F :=
  let z := row4 P 2 p in
  let d := if feq_dec z f0 then f1 else z in
  fdiv (row4 P k p) d.

(* pointclouds.py:575-614 pinhole_projection_ (the batch-size check is project_points', projutils.py:184) *)
Definition pinhole_projection_ (o : operand) : MPC unit :=
  match o with
  | OBad => raise TypeError
  | OT sh el =>
      if negb (mat_shape_ok 4 sh) then raise ValueError
      else
        do h <- has Points;
        if negb h then ret tt
        else
          do pp <- get_padded Points;
          match pp with
          | None => raise TypeError
          | Some pp =>
              if (length sh =? 3) && negb (hd 0 sh =? t3b pp) then raise ValueError
              else
                do m <- nonpad_mask;
                match m with
                | None => raise AttributeError
                | Some m =>
                    let proj := tab3 (t3b pp) (t3n pp) 3 (fun b i k =>
                      if k =? 2 then f1 else project1 (mat_el sh el b) (get3 pp b i) k) in
                    do p' <- lift (bcast_op (fun p _ m => fmul p m) proj []
                                     (fun _ => f1) m (mask_n m));
                    modify (set_pad Points (Some p')) ;;;
                    modify (set_lst Points None)
                end
          end
  end.

(* ---------------- clone, detach ---------------- *)
Definition in2 (l : list T2) : inp := IList (map AT2 l).
(* a padded tensor passed to the constructor (pointclouds.py:997-1044) *)
Definition in3 (p : T3) : inp := ITensor (AT3 p).
(* an optional argument passed to the constructor (pointclouds.py:997-1044) *)
Definition oin {X} (f : X -> inp) (o : option X) : inp := match o with None => INone | Some x => f x end.

(* x if x is not None else d (pointclouds.py:997-1044) *)
Definition or_else {X} (o d : option X) : option X := match o with Some x => Some x | None => d end.
(* for k in _INTERNAL_TENSORS: if tensor, setattr(other, k, v.clone()) *)
Definition copy_tensors (from to : pc) : pc :=
  mkPC (lst to)
       (mkQ (or_else (qp (pad from)) (qp (pad to))) (or_else (qn (pad from)) (qn (pad to)))
            (or_else (qc (pad from)) (qc (pad to))) (or_else (qf (pad from)) (qf (pad to))))
       (or_else (mask from) (mask to)) (flg to) (num from) (bat to) (nmax to) (equi to).

(* pointclouds.py:997-1044 clone *)
Definition clone : MPC pc :=
  do h <- has Points;
  if negb h then ret empty_pc
  else
    do s <- get;
    do other <-
      match qp (lst s), qp (pad s) with
      | Some pl, _ =>
          lift (ctor (in2 pl) (oin in2 (qn (lst s))) (oin in2 (qc (lst s))) (oin in2 (qf (lst s))))
      | None, Some pp =>
          lift (ctor (in3 pp) (oin in3 (qn (pad s))) (oin in3 (qc (pad s))) (oin in3 (qf (pad s))))
      | None, None => raise UnboundLocalError
      end;
    ret (copy_tensors s other).

(* pointclouds.py:1046-1065 detach: clone, then re-assign the (detached) tensors of self *)
Definition detach : MPC pc :=
  do other <- clone;
  do s <- get;
  ret (copy_tensors s other).

(* run a method of another object inside a method of self *)
Definition on_other {S A} (m : M S A) (o : S) : res A * S := m o.

(* out-of-place versions: self.clone().op_(...) (pointclouds.py:300-397).
   The result is the new object together with self (whose caches may have been filled). *)
Definition out_of_place (op : MPC unit) : MPC pc :=
  do other <- clone;
  match op other with
  | (Ok _, other') => ret other'
  | (Err e, _) => raise e
  end.
(* except TypeError: raise NotImplementedError *)
Definition catch_type {A} (m : MPC A) : MPC A :=
  fun s => match m s with (Err TypeError, s') => (Err NotImplementedError, s') | r => r end.
(* -other (pointclouds.py:309-323) *)
Definition oneg (o : operand) : operand :=
  match o with OBad => OBad | OT sh el => OT sh (fun i => fmul (el i) (fopp f1)) end.
(* 1 / other (pointclouds.py:334-351) *)
Definition orecip (o : operand) : operand :=
  match o with OBad => OBad | OT sh el => OT sh (fun i => fdiv f1 (el i)) end.

Definition add (o : operand) : MPC pc := catch_type (out_of_place (offset_ o)).   (* 302-309 *)
Definition sub (o : operand) : MPC pc := catch_type (out_of_place (offset_ (oneg o))).   (* 311-325 *)
Definition mul (o : operand) : MPC pc := catch_type (out_of_place (scale_ o)).   (* 327-334 *)
(* 336-352; the nested NotImplementedError of __mul__ passes through *)
Definition truediv (o : operand) : MPC pc :=
  match o with OBad => raise NotImplementedError | _ => mul (orecip o) end.
(* pointclouds.py:387-389 rotate *)
Definition rotate (o : operand) pre : MPC pc := out_of_place (rotate_ o pre).
(* pointclouds.py:391-393 transform *)
Definition transform (o : operand) pre : MPC pc := out_of_place (transform_ o pre).
(* pointclouds.py:395-397 pinhole_projection *)
Definition pinhole_projection (o : operand) : MPC pc := out_of_place (pinhole_projection_ o).
(* 354-386 __matmul__ *)
Definition matmul (o : operand) : MPC pc :=
  match o with
  | OBad => raise NotImplementedError
  | OT sh _ =>
      if mat_shape_ok 3 sh then out_of_place (rotate_ o false)
      else if mat_shape_ok 4 sh then out_of_place (transform_ o false)
      else raise ValueError
  end.

(* ---------------- append_points ---------------- *)
(* two objects: self and the argument (whose caches may be filled); they are distinct objects *)
Definition M2 (A : Type) := M (pc * pc) A.
(* a method call on self, in append_points *)
Definition on1 {A} (m : MPC A) : M2 A := fun p => let (r, s) := m (fst p) in (r, (s, snd p)).
(* a method call on the argument, in append_points *)
Definition on2 {A} (m : MPC A) : M2 A := fun p => let (r, s) := m (snd p) in (r, (fst p, s)).

(* torch.cat([a, b], 0): equal number of columns (torch also lets a legacy 1-D empty tensor through) *)
Definition cat2 (x y : T2) : res T2 :=
  if t2c x =? t2c y then Ok (mkT2 (t2c x) (t2r x ++ t2r y)) else Err RuntimeError.
(* [cat([xs[b], ys[b]]) for b in range(B)] *)
Definition cat_lists (B : nat) (xs ys : list T2) : res (list T2) :=
  if negb ((B <=? length xs) && (B <=? length ys)) then Err IndexError
  else mapM (fun q => cat2 (fst q) (snd q)) (combine (firstn B xs) (firstn B ys)).

(* pointclouds.py:1117-1237: concatenation of one attribute list *)
Definition append_attr (a : attr) : M2 unit :=
  do x <- on1 (get_list a);
  do y <- on2 (get_list a);
  do s <- on1 get;
  match x, y with
  | Some x, Some y =>
      do l <- lift (cat_lists (bat s) x y);
      on1 (modify (set_lst a (Some l))) ;;; on1 (modify (set_pad a None))
  | _, _ => if bat s =? 0
            then on1 (modify (set_lst a (Some []))) ;;; on1 (modify (set_pad a None))
            else raise TypeError
  end.

(* the copy into an empty self, pointclouds.py:1143-1171 *)
Definition copy_attr (a : attr) : M2 unit :=
  do y <- on2 (get_list a);
  match y with
  | None => raise TypeError
  | Some y => on1 (modify (set_lst a (Some y)))
  end.

Inductive append_arg := AppendBad | AppendPC.   (* the type check, pointclouds.py:1127-1132 *)

(* tensor addition of the two count vectors (equal lengths, or one of length 1) *)
Definition add_counts (x y : list nat) : res (list nat) :=
  if length x =? length y then Ok (map (fun q => fst q + snd q) (combine x y))
  else match x, y with
       | [a], _ => Ok (map (Nat.add a) y)
       | _, [b] => Ok (map (Nat.add b) x)
       | _, _ => Err RuntimeError
       end.

(* pointclouds.py:1117-1237 append_points *)
Definition append_points : M2 unit :=
  do hp2 <- on2 (has Points);
  if negb hp2 then ret tt
  else
  do hp1 <- on1 (has Points);
  if negb hp1 then
    copy_attr Points ;;;
    (do h <- on2 (has Normals); if h then copy_attr Normals else ret tt) ;;;
    (do h <- on2 (has Colors); if h then copy_attr Colors else ret tt) ;;;
    (do h <- on2 (has Features); if h then copy_attr Features else ret tt) ;;;
    do o <- on2 get;
    on1 (modify (fun s => copy_tensors o
           (mkPC (lst s) (pad s) (mask s) (flg o) (num s) (bat o) (nmax o) (equi o))))
  else
  do s <- on1 get; do o <- on2 get;
  if negb (bat o =? bat s) then raise ValueError
  else
  do n1 <- on1 (has Normals); do n2 <- on2 (has Normals);
  if negb (eqb n1 n2) then raise ValueError
  else
  do c1 <- on1 (has Colors); do c2 <- on2 (has Colors);
  if negb (eqb c1 c2) then raise ValueError
  else
  do g1 <- on1 (has Features); do g2 <- on2 (has Features);
  if negb (eqb g1 g2) then raise ValueError
  else
  (if g1 then
     do w1 <- on1 num_features; do w2 <- on2 num_features;
     match w1, w2 with
     | Some w1, Some w2 => if w1 =? w2 then ret tt else raise ValueError
     | None, None => ret tt
     | _, _ => raise ValueError
     end
   else ret tt) ;;;
  append_attr Points ;;;
  (do h <- on1 (has Normals); if h then append_attr Normals else ret tt) ;;;
  (do h <- on1 (has Colors); if h then append_attr Colors else ret tt) ;;;
  (do h <- on1 (has Features); if h then append_attr Features else ret tt) ;;;
  do s <- on1 get; do o <- on2 get;
  do ns <- lift (add_counts (num s) (num o));
  on1 (modify (fun s => with_mask None
         (with_dims ns (bat s) (max_list ns) (Some (all_equal ns)) s))).

(* ---------------- __getitem__ ---------------- *)
Inductive index :=
| XInt (i : Z)
| XSlice (start stop step : option Z)
| XList (l : list Z)
| XIntTensor (dims : nat) (l : list Z)       (* rank and, for rank 1, the entries *)
| XBoolTensor (dims : nat) (l : list bool)
| XFloatTensor
| XOther.

(* Python list indexing *)
Definition py_nth {X} (l : list X) (i : Z) : res X :=
  let n := Z.of_nat (length l) in
  let j := if (i <? 0)%Z then (i + n)%Z else i in
  if ((0 <=? j) && (j <? n))%Z
  then match nth_error l (Z.to_nat j) with Some x => Ok x | None => Err IndexError end
  else Err IndexError.

(* Python slice.indices (CPython PySlice_AdjustIndices) and the indices it enumerates *)
Definition clampZ (lo hi x : Z) : Z := Z.max lo (Z.min hi x).
(* Python slice.indices(n) with its error for step 0 (pointclouds.py:242-298 indexes lists) *)
Definition slice_bounds (start stop step : option Z) (n : Z) : res (Z * Z * Z) :=
  let st := match step with None => 1%Z | Some k => k end in
  if (st =? 0)%Z then Err ValueError
  else
    let adj lo hi x := if (x <? 0)%Z then clampZ lo hi (x + n) else clampZ lo hi x in
    if (0 <? st)%Z
    then Ok (match start with None => 0%Z | Some x => adj 0%Z n x end,
             match stop with None => n | Some x => adj 0%Z n x end, st)
    else Ok (match start with None => (n - 1)%Z | Some x => adj (-1)%Z (n - 1)%Z x end,
             match stop with None => (-1)%Z | Some x => adj (-1)%Z (n - 1)%Z x end, st).
(* len(range(a, b, st)) *)
Definition slice_count (a b st : Z) : nat :=
  if (0 <? st)%Z
  then if (a <? b)%Z then Z.to_nat ((b - a - 1) / st + 1) else 0
  else if (b <? a)%Z then Z.to_nat ((a - b - 1) / (- st) + 1) else 0.
(* the range given by slice.indices(n) *)
Definition slice_idx (start stop step : option Z) (n : nat) : res (list Z) :=
  let? (a, b, st) := slice_bounds start stop step (Z.of_nat n) in
  Ok (map (fun k => (a + Z.of_nat k * st)%Z) (seq 0 (slice_count a b st))).

(* positions of True *)
Definition nonzero (l : list bool) : list Z :=
  map (fun q => Z.of_nat (fst q)) (filter (fun q => snd q) (combine (seq 0 (length l)) l)).

(* the list of selected items of one attribute list *)
Definition select_idx (ix : index) (n : nat) : res (list Z) :=
  match ix with
  | XInt i => Ok [i]
  | XSlice a b c => slice_idx a b c n
  | XList l => Ok l
  | XIntTensor d l => if d =? 1 then Ok l else Err IndexError
  | XBoolTensor d l => if d =? 1 then Ok (nonzero l) else Err IndexError
  | XFloatTensor => Err IndexError
  | XOther => Err IndexError
  end.
(* pointclouds.py:242-298: the elements of a list that the index addresses *)
Definition select (ix : index) (l : list T2) : res (list T2) :=
  let? zs := select_idx ix (length l) in mapM (py_nth l) zs.

(* pointclouds.py:242-298: one attribute list of the result *)
Definition getitem_attr (a : attr) (ix : index) : MPC (option (list T2)) :=
  do l <- get_list a;
  match l with
  | None => raise TypeError
  | Some l => do r <- lift (select ix l); ret (Some r)
  end.

(* pointclouds.py:242-298 __getitem__ *)
Definition getitem (ix : index) : MPC pc :=
  do h <- has Points;
  if negb h then raise IndexError
  else
    do p <- getitem_attr Points ix;
    do n <- (do h <- has Normals; if h then getitem_attr Normals ix else ret None);
    do c <- (do h <- has Colors; if h then getitem_attr Colors ix else ret None);
    do f <- (do h <- has Features; if h then getitem_attr Features ix else ret None);
    lift (ctor (oin in2 p) (oin in2 n) (oin in2 c) (oin in2 f)).

End PC.
