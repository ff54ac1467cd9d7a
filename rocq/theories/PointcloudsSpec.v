(* What a Pointclouds object means, independently of its caches.
   A batch is, per attribute, the list of per-cloud tensors (None: attribute absent). *)
From Coq Require Import List Arith ZArith Bool.
From Verif Require Import Res Fld StructUtilsModel PointcloudsModel.
Import ListNotations.
Local Open Scope nat_scope.

(* map with index *)
Fixpoint imap_from {X Y} (k : nat) (f : nat -> X -> Y) (l : list X) : list Y :=
  match l with [] => [] | x :: l' => f k x :: imap_from (S k) f l' end.
Definition imap {X Y} (f : nat -> X -> Y) (l : list X) : list Y := imap_from 0 f l.

Section Spec.
Variable F : Fld.
Notation T2 := (t2 F).
Notation T3 := (t3 F).

Definition batch := quad (option (list T2)).
Definition no_batch : batch := mkQ None None None None.

Definition counts_of (l : list T2) : list nat := map (fun y => length (t2r y)) l.

(* number of columns of attribute x *)
Definition width (a : batch) (x : attr) : nat :=
  match x with
  | Features => match qf a with Some (y :: _) => t2c y | _ => 0 end
  | _ => 3
  end.

(* a meaningful non-empty batch with points P: every present attribute has one tensor per cloud, with
   as many rows as the cloud has points, all of the attribute's width *)
Definition valid_batch (P : list T2) (a : batch) : Prop :=
  qp a = Some P /\ P <> [] /\
  forall x L, qget x a = Some L ->
    counts_of L = counts_of P /\
    Forall (fun y => t2c y = width a x /\ Forall (fun r => length r = width a x) (t2r y)) L.

Definition Batch (a : batch) : Prop :=
  match qp a with None => a = no_batch | Some P => valid_batch P a end.

Definition biggest (ns : list nat) : nat := fold_right Nat.max 0 ns.

(* the zero-padded tensor *)
Definition pad_to (N w : nat) (L : list T2) : T3 :=
  mkT3 N w (map (fun y => t2r y ++ repeat (repeat f0 w) (N - length (t2r y))) L).
Definition padded_view (a : batch) (x : attr) : option T3 :=
  match qp a with
  | None => None
  | Some P => option_map (pad_to (biggest (counts_of P)) (width a x)) (qget x a)
  end.
(* true exactly at real points *)
Definition mask_view (a : batch) : option (list (list bool)) :=
  option_map (fun P => map (fun n => repeat true n ++ repeat false (biggest (counts_of P) - n))
                           (counts_of P)) (qp a).
(* Pointclouds() reports one count of zero although its length is zero *)
Definition counts_view (a : batch) : list nat :=
  match qp a with None => [0] | Some P => counts_of P end.
Definition len_view (a : batch) : nat := match qp a with None => 0 | Some P => length P end.

(* everything the API lets one read from s is what batch a says *)
Definition Shows (s : pc F) (a : batch) : Prop :=
  (forall x, fst (get_list F x s) = Ok (qget x a)) /\
  (forall x, fst (get_padded F x s) = Ok (padded_view a x)) /\
  (forall x, fst (has F x s) = Ok (is_some (qget x a))) /\
  fst (nonpad_mask F s) = Ok (mask_view a) /\
  num_points F s = counts_view a /\
  len F s = len_view a.

(* ---- mathematical meaning of the operations ---- *)
(* point i of cloud b with coordinates r becomes the point with coordinates h b i r *)
Definition move (h : nat -> nat -> (nat -> F) -> (nat -> F)) (L : list T2) : list T2 :=
  imap (fun b y => mkT2 3 (imap (fun i r => map (h b i (fun j => nth j r f0)) (seq 0 3)) (t2r y))) L.
Definition move_attr (x : attr) h (a : batch) : batch :=
  qset x (option_map (move h) (qget x a)) a.

(* element of an operand broadcast against (B, N, 3): shapes are aligned on the right, an extent 1 is
   repeated *)
Definition bcast_el (sh : list nat) (el : list nat -> F) (b i j : nat) : F :=
  el (map (fun q => if fst q =? 1 then 0 else snd q)
          (combine sh (lastn (length sh) [b; i; j]))).
(* the shape broadcasts to (B, N, 3) *)
Definition fits_shape (sh : list nat) (B N : nat) : Prop :=
  length sh <= 3 /\
  Forall (fun q => fst q = 1 \/ fst q = snd q) (combine sh (lastn (length sh) [B; N; 3])).

Definition offset_spec (sh : list nat) (el : list nat -> F) (a : batch) : batch :=
  move_attr Points (fun b i r j => fadd (r j) (bcast_el sh el b i j)) a.
Definition scale_spec (sh : list nat) (el : list nat -> F) (a : batch) : batch :=
  move_attr Points (fun b i r j => fmul (r j) (bcast_el sh el b i j)) a.

(* the (b-th) matrix of a (k,k) or (B,k,k) argument *)
Definition mat_of (sh : list nat) (el : list nat -> F) (b i j : nat) : F :=
  match sh with [_; _] => el [i; j] | _ => el [b; i; j] end.
Definition is_mat (k : nat) (sh : list nat) (B : nat) : Prop := sh = [k; k] \/ sh = [B; k; k].
(* column convention: R p ; row convention: p R *)
Definition rot_fun (R : nat -> nat -> F) (pre : bool) (r : nat -> F) (k : nat) : F :=
  if pre
  then fadd (fadd (fmul (R k 0) (r 0)) (fmul (R k 1) (r 1))) (fmul (R k 2) (r 2))
  else fadd (fadd (fmul (r 0) (R 0 k)) (fmul (r 1) (R 1 k))) (fmul (r 2) (R 2 k)).
Definition rotate_spec (sh : list nat) (el : list nat -> F) (pre : bool) (a : batch) : batch :=
  move_attr Normals (fun b i r => rot_fun (mat_of sh el b) pre r)
    (move_attr Points (fun b i r => rot_fun (mat_of sh el b) pre r) a).
(* p |-> R p + t, n |-> R n *)
Definition transform_spec (sh : list nat) (el : list nat -> F) (pre : bool) (a : batch) : batch :=
  move_attr Normals (fun b i r => rot_fun (mat_of sh el b) pre r)
    (move_attr Points (fun b i r k => fadd (rot_fun (mat_of sh el b) pre r k) (mat_of sh el b k 3)) a).
(* p |-> (u, v, 1), (x, y, z, _) = K [p; 1], u = x/z, v = y/z (no division when z = 0) *)
Definition hom_row (K : nat -> nat -> F) (k : nat) (r : nat -> F) : F :=
  fadd (fadd (fadd (fmul (K k 0) (r 0)) (fmul (K k 1) (r 1))) (fmul (K k 2) (r 2))) (K k 3).
Definition pinhole_fun (K : nat -> nat -> F) (r : nat -> F) (k : nat) : F :=
  if k =? 2 then f1
  else fdiv (hom_row K k r) (if feq_dec (hom_row K 2 r) f0 then f1 else hom_row K 2 r).
Definition pinhole_spec (sh : list nat) (el : list nat -> F) (a : batch) : batch :=
  move_attr Points (fun b i r => pinhole_fun (mat_of sh el b) r) a.

(* cloud-by-cloud concatenation *)
Definition cat_cloud (x y : T2) : T2 := mkT2 (t2c x) (t2r x ++ t2r y).
Definition cat_clouds (o1 o2 : option (list T2)) : option (list T2) :=
  match o1, o2 with
  | Some l1, Some l2 => Some (map (fun q => cat_cloud (fst q) (snd q)) (combine l1 l2))
  | _, _ => None
  end.
Definition append_spec (a b : batch) : batch :=
  mkQ (cat_clouds (qp a) (qp b)) (cat_clouds (qn a) (qn b))
      (cat_clouds (qc a) (qc b)) (cat_clouds (qf a) (qf b)).
(* same attributes, same batch size, same feature width *)
Definition same_attrs (a b : batch) : Prop :=
  len_view a = len_view b /\
  (forall x, is_some (qget x a) = is_some (qget x b)) /\
  width a Features = width b Features.

(* selection of clouds by (already resolved) positions *)
Definition pick {X} (ks : list nat) (l : list X) : list (option X) := map (nth_error l) ks.

End Spec.
