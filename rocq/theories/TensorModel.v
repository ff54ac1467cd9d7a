(* The part of PyTorch that the geometry code uses: n-dimensional tensors with shapes, broadcasting,
   matmul, slicing.  This is a model of an external library, part of the trusted base.

   A tensor is a list of extents and a function from indices to entries.  Both the extents and the
   indices are listed FROM THE LAST DIMENSION TO THE FIRST (torch's -1, -2, ...), because broadcasting
   aligns shapes on the right; [shape] gives the usual order. *)
From Coq Require Import Reals List Arith Bool.
From Verif Require Import Res MatSpec.
Import ListNotations.
Local Open Scope nat_scope.

(* a torch tensor: extents (last dimension first) and entries *)
Record ten (A : Type) : Type := mkTen { dims : list nat; at_ : list nat -> A }.
Arguments mkTen {A} _ _. Arguments dims {A} _. Arguments at_ {A} _ _.

(* x.shape *)
Definition shape {A} (t : ten A) : list nat := rev (dims t).
(* x.ndim *)
Definition ndim {A} (t : ten A) : nat := length (dims t).

(* ix is a legal index of a tensor with extents d *)
Fixpoint vix (d ix : list nat) : Prop :=
  match d, ix with
  | [], [] => True
  | n :: d', i :: ix' => i < n /\ vix d' ix'
  | _, _ => False
  end.

(* equality of tensors: same shape, same entries *)
Definition teq {A} (x y : ten A) : Prop :=
  dims x = dims y /\ forall ix, vix (dims x) ix -> at_ x ix = at_ y ix.

(* x[..., i, j] at batch index r *)
Definition ent {A} (x : ten A) (r : list nat) (i j : nat) : A := at_ x (j :: i :: r).
(* x[..., i] at index r *)
Definition comp {A} (x : ten A) (r : list nat) (i : nat) : A := at_ x (i :: r).

(* x.shape[-1]: IndexError on a 0-d tensor *)
Definition size_m1 {A} (x : ten A) : res nat :=
  match dims x with d :: _ => Ok d | [] => Err IndexError end.
(* x.shape[-2] *)
Definition size_m2 {A} (x : ten A) : res nat :=
  match dims x with _ :: d :: _ => Ok d | _ => Err IndexError end.
(* x.shape[0] *)
Definition size_0 {A} (x : ten A) : res nat :=
  match shape x with d :: _ => Ok d | [] => Err IndexError end.

(* broadcasting of two shapes (RuntimeError when incompatible) *)
Fixpoint bshape (a b : list nat) : res (list nat) :=
  match a, b with
  | [], _ => Ok b
  | _, [] => Ok a
  | x :: a', y :: b' =>
      let? d := (if x =? y then Ok x else if x =? 1 then Ok y else if y =? 1 then Ok x
                 else Err RuntimeError) in
      let? ds := bshape a' b' in Ok (d :: ds)
  end.
(* the entry of a tensor with extents s that is used at index ix of the broadcast result *)
Fixpoint bix (s ix : list nat) : list nat :=
  match s, ix with
  | d :: s', i :: ix' => (if d =? 1 then 0 else i) :: bix s' ix'
  | _, _ => []
  end.

(* pointwise function of one tensor *)
Definition tmap {A B} (f : A -> B) (x : ten A) : ten B := mkTen (dims x) (fun ix => f (at_ x ix)).
(* pointwise function of two tensors with broadcasting *)
Definition tmap2 {A B C} (f : A -> B -> C) (x : ten A) (y : ten B) : res (ten C) :=
  let? s := bshape (dims x) (dims y) in
  Ok (mkTen s (fun ix => f (at_ x (bix (dims x) ix)) (at_ y (bix (dims y) ix)))).

(* unsqueeze(-1), unsqueeze(-2), unsqueeze(-3), unsqueeze(0), squeeze(-1) *)
Definition unsqueeze_m1 {A} (x : ten A) : ten A :=
  mkTen (1 :: dims x) (fun ix => match ix with _ :: r => at_ x r | [] => at_ x [] end).
(* x.unsqueeze(-2) *)
Definition unsqueeze_m2 {A} (x : ten A) : ten A :=
  mkTen (firstn 1 (dims x) ++ 1 :: skipn 1 (dims x)) (fun ix => at_ x (firstn 1 ix ++ skipn 2 ix)).
(* x.unsqueeze(-3) *)
Definition unsqueeze_m3 {A} (x : ten A) : ten A :=
  mkTen (firstn 2 (dims x) ++ 1 :: skipn 2 (dims x)) (fun ix => at_ x (firstn 2 ix ++ skipn 3 ix)).
(* x.unsqueeze(0) *)
Definition unsqueeze_0 {A} (x : ten A) : ten A :=
  mkTen (dims x ++ [1]) (fun ix => at_ x (firstn (ndim x) ix)).
(* unsqueeze(1): the second dimension from the front *)
Definition unsqueeze_1 {A} (x : ten A) : ten A :=
  let k := ndim x - 1 in
  mkTen (firstn k (dims x) ++ 1 :: skipn k (dims x)) (fun ix => at_ x (firstn k ix ++ skipn (S k) ix)).
(* x.squeeze(-1) *)
Definition squeeze_m1 {A} (x : ten A) : ten A :=
  match dims x with
  | 1 :: s => mkTen s (fun r => at_ x (0 :: r))
  | _ => x
  end.

(* x[..., off : off + len] (already clipped) and x[..., off : off + len, :] *)
Definition narrow_m1 {A} (off len : nat) (x : ten A) : ten A :=
  mkTen (len :: tl (dims x)) (fun ix => match ix with i :: r => at_ x (off + i :: r) | [] => at_ x [] end).
(* x[..., off:off+len, :] *)
Definition narrow_m2 {A} (off len : nat) (x : ten A) : ten A :=
  mkTen (firstn 1 (dims x) ++ len :: skipn 2 (dims x))
    (fun ix => match ix with j :: i :: r => at_ x (j :: off + i :: r) | _ => at_ x ix end).
(* x[..., i] *)
Definition select_m1 {A} (i : nat) (x : ten A) : res (ten A) :=
  match dims x with
  | d :: s => if i <? d then Ok (mkTen s (fun r => at_ x (i :: r))) else Err IndexError
  | [] => Err IndexError
  end.
(* torch.transpose(x, -1, -2), at least 2 dimensions *)
Definition transpose_m {A} (x : ten A) : ten A :=
  match dims x with
  | a :: b :: s => mkTen (b :: a :: s) (fun ix => match ix with j :: i :: r => at_ x (i :: j :: r) | _ => at_ x ix end)
  | _ => x
  end.

(* torch.stack of two tensors of the same shape along a new last dimension *)
Definition stack_m1 {A} (x y : ten A) : ten A :=
  mkTen (2 :: dims x) (fun ix => match ix with i :: r => if i =? 0 then at_ x r else at_ y r | [] => at_ x [] end).

(* can a value of extents v be assigned to a destination of extents d (value broadcast to d, extra
   leading extents of the value must be 1) *)
Fixpoint assignable (v d : list nat) : bool :=
  match v, d with
  | [], _ => true
  | x :: v', y :: d' => ((x =? y) || (x =? 1)) && assignable v' d'
  | x :: v', [] => (x =? 1) && assignable v' []
  end.
(* x[..., :3, :3] = v *)
Definition set_block3 {A} (x v : ten A) : res (ten A) :=
  match dims x with
  | d0 :: d1 :: s =>
      if assignable (dims v) (Nat.min 3 d0 :: Nat.min 3 d1 :: s)
      then Ok (mkTen (dims x) (fun ix => match ix with
             | j :: i :: r => if (i <? 3) && (j <? 3) then at_ v (bix (dims v) ix) else at_ x ix
             | _ => at_ x ix end))
      else Err RuntimeError
  | _ => Err IndexError
  end.
(* x[..., :3, 3] = v *)
Definition set_col3 {A} (x v : ten A) : res (ten A) :=
  match dims x with
  | d0 :: d1 :: s =>
      if 3 <? d0 then
        if assignable (dims v) (Nat.min 3 d1 :: s)
        then Ok (mkTen (dims x) (fun ix => match ix with
               | j :: i :: r => if (i <? 3) && (j =? 3) then at_ v (bix (dims v) (i :: r)) else at_ x ix
               | _ => at_ x ix end))
        else Err RuntimeError
      else Err IndexError
  | _ => Err IndexError
  end.
(* x[..., i, j] = c  (i, j already resolved to non-negative positions) *)
Definition set_ent {A} (x : ten A) (i j : nat) (c : list nat -> A) : ten A :=
  mkTen (dims x) (fun ix => match ix with
    | j' :: i' :: r => if (i' =? i) && (j' =? j) then c r else at_ x ix
    | _ => at_ x ix end).

(* torch.zeros_like(x) *)
Definition zeros_like {A} (x : ten A) : ten R := mkTen (dims x) (fun _ => 0%R).

(* torch.matmul: both operands at least 2-d -> batch matmul with broadcast leading dims; 1-d operands are
   treated as a row / column and the added dimension removed. *)
Definition matmul (x y : ten R) : res (ten R) :=
  match dims x, dims y with
  | [], _ => Err RuntimeError
  | _, [] => Err RuntimeError
  | [k], [k'] =>
      if k =? k' then Ok (mkTen [] (fun _ => rsum k (fun l => at_ x [l] * at_ y [l])%R)) else Err RuntimeError
  | [k], p :: k' :: bb =>
      if k =? k' then
        Ok (mkTen (p :: bb) (fun ix => match ix with
             | j :: r => rsum k (fun l => at_ x [l] * at_ y (j :: l :: r))%R | [] => 0%R end))
      else Err RuntimeError
  | k :: n :: ba, [k'] =>
      if k =? k' then
        Ok (mkTen (n :: ba) (fun ix => match ix with
             | i :: r => rsum k (fun l => at_ x (l :: i :: r) * at_ y [l])%R | [] => 0%R end))
      else Err RuntimeError
  | k :: n :: ba, p :: k' :: bb =>
      if k =? k' then
        let? s := bshape ba bb in
        Ok (mkTen (p :: n :: s) (fun ix => match ix with
             | j :: i :: r =>
                 rsum k (fun l => at_ x (l :: i :: bix ba r) * at_ y (j :: l :: bix bb r))%R
             | _ => 0%R end))
      else Err RuntimeError
  end.

(* position k (row-major) of the leading dimensions s of a tensor *)
Fixpoint unravel (s : list nat) (k : nat) : list nat :=
  match s with [] => [] | d :: s' => (k mod d) :: unravel s' (k / d) end.
(* x.numel() *)
Definition prod_list (s : list nat) : nat := fold_right Nat.mul 1 s.
