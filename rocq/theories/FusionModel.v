(* Model of gradslam/slam/fusionutils.py.
   State: the map (a Pointclouds object over R) and the live frame (an RGBDImages object).
   Simplifications: the map and frame arguments have their documented types and the thresholds are numbers
   (the isinstance checks on them are not modelled); table entries are non-negative; warnings are not
   modelled; when a table names a map point twice, index assignment keeps the last row (torch leaves this
   unspecified).  Scalars are exact reals except for the rounding function [rnd] applied to the index
   columns by .float() in find_best_unique_correspondences. *)
From Coq Require Import Reals List Arith Bool ZArith.
From Flocq Require Import Core.
From Verif Require Import Res Fld StructUtilsModel PointcloudsModel MatSpec TensorModel GeomModel RgbdModel.
Import ListNotations.
Local Open Scope nat_scope.

Notation MS := (M (pc RF * rgbd)).
(* a method of the map, of the frame, of another Pointclouds object *)
Definition onp {A} (m : M (pc RF) A) : MS A := fun s => let (r, p) := m (fst s) in (r, (p, snd s)).
(* an operation on the frame argument *)
Definition onr {A} (m : M rgbd A) : MS A := fun s => let (r, g) := m (snd s) in (r, (fst s, g)).
(* an operation on a local Pointclouds object *)
Definition on_obj {A} (m : M (pc RF) A) (o : pc RF) : MS (A * pc RF) :=
  fun s => match m o with (Ok x, o') => (Ok (x, o'), s) | (Err e, _) => (Err e, s) end.

(* ---------------------------------------------------------------- pointwise tests *)
(* position from the end of Python dimension [dim] of a tensor with n dimensions; shape[dim] raises IndexError *)
Definition dim_pos (dim : Z) (n : nat) : res nat :=
  let k := (if (dim <? 0)%Z then - dim - 1 else Z.of_nat n - 1 - dim)%Z in
  if ((0 <=? k) && (k <? Z.of_nat n))%Z then Ok (Z.to_nat k) else Err IndexError.
(* insert / remove the index at position p *)
Definition ins_at (p v : nat) (ix : list nat) : list nat := firstn p ix ++ v :: skipn p ix.
(* index of the remaining dimensions after x[..., p] / a sum over dimension p *)
Definition del_at (p : nat) (ix : list nat) : list nat := firstn p ix ++ skipn (S p) ix.

(* fusionutils.py:16-73: the sigma argument *)
Inductive sigma_arg := SigBad | SigNum (s : R) | SigTen (nd : nat) (s : R).
(* the number in it *)
Definition sigma_val (s : sigma_arg) : R := match s with SigBad => 0%R | SigNum v => v | SigTen _ v => v end.

(* torch.clamp(x, min, max) *)
Definition clampR (lo hi x : R) : R := Rmin (Rmax x lo) hi.
(* fusionutils.py:69-72 at one vector v *)
Definition alpha_of (sigma eps : R) (v : vec) : R :=
  (clampR eps (101 / 100) (exp (- (rsum 3%nat (fun k => v k ^ 2)) / (2 * (sigma ^ 2)))))%R.
(* fusionutils.py:16-73; eps is a float *)
Definition get_alpha (points : ten R) (sigma : sigma_arg) (dim : Z) (keepdim : bool) (eps : R) : res (ten R) :=
  guard (match sigma with SigBad => false | _ => true end) TypeError ;;?
  let? p := dim_pos dim (ndim points) in
  guard (nth p (dims points) 0 =? 3) ValueError ;;?
  guard (match sigma with SigTen nd _ => nd =? 0 | _ => true end) ValueError ;;?
  let val ix0 := alpha_of (sigma_val sigma) eps (fun k => at_ points (ins_at p k ix0)) in
  Ok (if keepdim then mkTen (set_nth p 1 (dims points)) (fun ix => val (del_at p ix))
      else mkTen (del_at p (dims points)) val).
(* the default eps = 1e-7 (fusionutils.py:16-73) *)
Definition eps7 : R := (/ 10000000)%R.

(* the checks shared by the two comparisons *)
Definition pair_check (t1 t2 : ten R) (dim : Z) : res nat :=
  guard (shape_eqb (dims t1) (dims t2)) ValueError ;;?
  let? p := dim_pos dim (ndim t1) in
  guard (nth p (dims t1) 0 =? 3) ValueError ;;?
  Ok p.
(* fusionutils.py:76-130 *)
Definition are_points_close (t1 t2 : ten R) (dist_th : R) (dim : Z) : res (ten bool) :=
  let? p := pair_check t1 t2 dim in
  Ok (mkTen (del_at p (dims t1)) (fun ix =>
        if Rlt_dec (norm 3 (fun k => (at_ t1 (ins_at p k ix) - at_ t2 (ins_at p k ix))%R)) dist_th
        then true else false)).
(* fusionutils.py:133-195 *)
Definition are_normals_similar (t1 t2 : ten R) (dot_th : R) (dim : Z) : res (ten bool) :=
  let? p := pair_check t1 t2 dim in
  Ok (mkTen (del_at p (dims t1)) (fun ix =>
        if Rlt_dec dot_th (rsum 3 (fun k => (at_ t1 (ins_at p k ix) * at_ t2 (ins_at p k ix))%R))
        then true else false)).

(* ---------------------------------------------------------------- tables of correspondences *)
(* one row (b, n, h, w) of pc2im_bnhw *)
Record row : Type := mkRow { rb : nat; rn : nat; rh : nat; rw : nat }.
(* an argument: not an int64 tensor; an int64 tensor whose shape is not (?, 4); a table *)
Inductive table := TblBad | TblShape | Tbl (rows : list row).
(* torch.is_tensor(pc2im_bnhw) (fusionutils.py:330-340, 460-470) *)
Definition table_type (t : table) : res unit := match t with TblBad => Err TypeError | _ => Ok tt end.
(* pc2im_bnhw as rows (b, n, h, w); shape[1] != 4 raises ValueError *)
Definition table_rows (t : table) : res (list row) :=
  match t with TblBad => Err TypeError | TblShape => Err ValueError | Tbl l => Ok l end.

(* x.squeeze(1) of a (B, 1, 4, 4) tensor *)
Definition squeeze1 (x : ten R) : ten R :=
  match dims x with
  | [d0; d1; 1; b] => mkTen [d0; d1; b] (fun ix => match ix with [j; i; k] => at_ x [j; i; 0; k] | _ => 0%R end)
  | _ => x
  end.
(* a torch tensor as an operand of the Pointclouds methods *)
Definition ten_operand (x : ten R) : operand RF := OT RF (shape x) (fun ix => at_ x (rev ix)).
(* torch.round (half to even), then .long() *)
Definition rint (x : R) : Z :=
  let f := Int_part x in
  let d := (x - IZR f)%R in
  if Rlt_dec d (1 / 2)%R then f
  else if Rlt_dec (1 / 2)%R d then (f + 1)%Z
  else if Z.even f then f else (f + 1)%Z.

(* fusionutils.py:251-258 *)
Definition is_in_frame (height width : nat) (u v : R) : bool :=
  (if Rlt_dec (- (1 / 1000))%R u then true else false) &&
  (if Rlt_dec u (INR width - 999 / 1000)%R then true else false) &&
  (if Rlt_dec (- (1 / 1000))%R v then true else false) &&
  (if Rlt_dec v (INR height - 999 / 1000)%R then true else false).
(* .round().long().clamp(0, n - 1) *)
Definition clamped (n : nat) (x : R) : nat := Z.to_nat (clampZ 0 (Z.of_nat n - 1) (rint x)).

(* fusionutils.py:198-287 *)
Definition find_active_map_points : MS (list row) :=
  do g <- onr get;
  lift (guard (r_L g =? 1) ValueError) ;;;
  do h <- onp (has RF Points);
  if negb h then ret []
  else
  do s <- onp get;
  lift (guard (r_B g =? len RF s) ValueError) ;;;
  match r_poses g with
  | None => raise AttributeError
  | Some poses =>
      do tinv <- lift (kornia_inverse (squeeze1 poses));
      do t0 <- onp (transform RF (ten_operand tinv) true);
      do (cam, t1) <- on_obj (get_padded RF Points) t0;
      match r_intr g with
      | None => raise AttributeError
      | Some K =>
          do (_, t2) <- on_obj (pinhole_projection_ RF (ten_operand (squeeze1 K))) t1;
          do (img, _) <- on_obj (get_padded RF Points) t2;
          do m <- onp (nonpad_mask RF);
          match cam, img, m with
          | Some cam, Some img, Some m =>
              if negb ((length m =? t3b img) && (mask_n m =? t3n img)) then raise Unmodelled
              else
                let ok (q : nat * nat) :=
                  is_in_frame (r_h g) (r_w g) (get3 RF img (fst q) (snd q) 0) (get3 RF img (fst q) (snd q) 1) &&
                  pos_dec (get3 RF cam (fst q) (snd q) 2) &&
                  nth (snd q) (nth (fst q) m []) false in
                (* batch_point_idx.long() *)
                let mg := create_meshgrid (t3b img) (t3n img) false in
                let idx k (q : nat * nat) := Z.to_nat (Int_part (at_ mg [k; snd q; fst q; 0])) in
                let out q := mkRow (idx 0 q) (idx 1 q)
                       (clamped (r_h g) (get3 RF img (fst q) (snd q) 1))
                       (clamped (r_w g) (get3 RF img (fst q) (snd q) 0)) in
                ret (map out (filter ok (list_prod (seq 0 (t3b img)) (seq 0 (t3n img)))))
          | _, _, _ => raise TypeError
          end
      end
  end.

(* ---------------------------------------------------------------- gather and scatter *)
(* x[b, 0, h, w] for each row: (P, last extent of x) *)
Definition rows_in_image {A} (x : ten A) (rows : list row) : bool :=
  match dims x with
  | [_; d1; d2; d3; d4] =>
      forallb (fun r => (rb r <? d4) && (0 <? d3) && (rh r <? d2) && (rw r <? d1)) rows
  | _ => false
  end.
(* image[b, 0, h, w, c] (advanced indexing with the rows of a table) *)
Definition img_at {A} (x : ten A) (r : row) (c : nat) : A := at_ x [c; rw r; rh r; 0; rb r].
(* the last row that names map point (b, n) *)
Definition last_row (rows : list row) (b n : nat) : option row :=
  find (fun r => (rb r =? b) && (rn r =? n)) (rev rows).
(* z = zeros_like(base); z[b, n] = x[b, 0, h, w] *)
Definition scatter (base : t3 R) (x : ten R) (rows : list row) : res (t3 R) :=
  guard (rows_in_image x rows) IndexError ;;?
  guard (forallb (fun r => (rb r <? t3b base) && (rn r <? t3n base)) rows) IndexError ;;?
  let d := hd 0 (dims x) in
  guard ((d =? t3c base) || (d =? 1)) RuntimeError ;;?
  Ok (tab3 RF (t3b base) (t3n base) (t3c base) (fun b n c =>
        match last_row rows b n with Some r => img_at x r (bidx d c) | None => 0%R end)).
(* a padded tensor as a 3-d tensor *)
Definition ten3 (p : t3 R) : ten R :=
  mkTen [t3c p; t3n p; t3b p] (fun ix => match ix with [c; n; b] => get3 RF p b n c | _ => 0%R end).

(* fusionutils.py:290-411 *)
Definition find_similar_map_points (t : table) (dist_th dot_th : R) : MS (list row * list bool) :=
  lift (table_type t) ;;;
  do g <- onr get;
  lift (guard (r_L g =? 1) ValueError) ;;;
  do rows <- lift (table_rows t);
  do h <- onp (has RF Points);
  if negb h || (length rows =? 0) then ret ([], [])
  else
  do s <- onp get;
  lift (guard (r_B g =? len RF s) ValueError) ;;;
  do hn <- onp (has RF Normals);
  lift (guard hn ValueError) ;;;
  do vm <- onr global_vertex_map;
  do nm <- onr global_normal_map;
  do pp <- onp (get_padded RF Points);
  do np <- onp (get_padded RF Normals);
  match pp, np with
  | Some pp, Some np =>
      do fp <- lift (scatter pp vm rows);
      do fn <- lift (scatter np nm rows);
      do cl <- lift (are_points_close (ten3 fp) (ten3 pp) dist_th (-1));
      do si <- lift (are_normals_similar (ten3 fn) (ten3 np) dot_th (-1));
      let mask := map (fun r => at_ cl [rn r; rb r] && at_ si [rn r; rb r]) rows in
      ret (map fst (filter snd (combine rows mask)), mask)
  | _, _ => raise TypeError
  end.

(* ---------------------------------------------------------------- best unique correspondences *)
(* torch.unique(x, dim=0): distinct rows in lexicographic order *)
Fixpoint lexcmp (x y : list R) : comparison :=
  match x, y with
  | [], [] => Eq
  | [], _ => Lt
  | _, [] => Gt
  | a :: x', b :: y' => if Rlt_dec a b then Lt else if Rlt_dec b a then Gt else lexcmp x' y'
  end.
(* torch.unique(dim=0) sorts and removes duplicates: insertion into a sorted list *)
Fixpoint insert_key (k : list R) (l : list (list R)) : list (list R) :=
  match l with
  | [] => [k]
  | x :: l' => match lexcmp k x with Lt => k :: l | Eq => l | Gt => x :: insert_key k l' end
  end.
(* torch.unique(x, dim=0) (fusionutils.py:517-529) *)
Definition unique_rows (l : list (list R)) : list (list R) := fold_right insert_key [] l.

(* an integer as a float32: round to nearest, ties to even (fusionutils.py:487-494, .float()) *)
Definition f32 (x : R) : R := round radix2 (FLT_exp (-149) 24) ZnearestE x.

(* .long(): truncation (the entries are not negative) *)
Definition to_long (x : R) : nat := Z.to_nat (Int_part x).

(* fusionutils.py:487-516: [B, H, W, 1/(ccounts + 1e-20) ..., ray_dists, N] *)
Definition criteria (rnd : R -> R) (feat pts : t3 R) (vm : ten R) (r : row) : list R :=
  [rnd (INR (rb r)); rnd (INR (rh r)); rnd (INR (rw r))] ++
  map (fun c => (1 / (get3 RF feat (rb r) (rn r) c + / 10 ^ 20))%R) (seq 0 (t3c feat)) ++
  [rsum 3 (fun c => ((get3 RF pts (rb r) (rn r) c - img_at vm r c) ^ 2)%R); rnd (INR (rn r))].
(* fusionutils.py:530-536: rows whose first three entries differ from those of the row before *)
Definition differs (x y : list R) : bool :=
  negb (forallb (fun k => if Req_EM_T (nth k x 0 - nth k y 0)%R 0%R then true else false) [0; 1; 2]).
(* fusionutils.py:530-536: rows whose first three entries differ from the row before *)
Fixpoint firsts (prev : option (list R)) (l : list (list R)) : list (list R) :=
  match l with
  | [] => []
  | x :: l' =>
      if match prev with None => true | Some y => differs x y end
      then x :: firsts (Some x) l' else firsts (Some x) l'
  end.
(* fusionutils.py:538-544 *)
Definition row_of_criteria (x : list R) : row :=
  mkRow (to_long (nth 0 x 0%R)) (to_long (last x 0%R)) (to_long (nth 1 x 0%R)) (to_long (nth 2 x 0%R)).

(* fusionutils.py:414-546 *)
Definition find_best_unique_correspondences (rnd : R -> R) (t : table) : MS (list row) :=
  lift (table_type t) ;;;
  do g <- onr get;
  lift (guard (r_L g =? 1) ValueError) ;;;
  do rows <- lift (table_rows t);
  do h <- onp (has RF Points);
  if negb h || (length rows =? 0) then ret []
  else
  do s <- onp get;
  lift (guard (r_B g =? len RF s) ValueError) ;;;
  do hf <- onp (has RF Features);
  lift (guard hf ValueError) ;;;
  do fp <- onp (get_padded RF Features);
  do vm <- onr global_vertex_map;
  do pp <- onp (get_padded RF Points);
  match fp, pp with
  | Some fp, Some pp =>
      lift (guard (forallb (fun r => (rb r <? t3b fp) && (rn r <? t3n fp)) rows) IndexError) ;;;
      lift (guard (rows_in_image vm rows) IndexError) ;;;
      lift (guard (forallb (fun r => (rb r <? t3b pp) && (rn r <? t3n pp)) rows) IndexError) ;;;
      lift (guard (hd 0 (dims vm) =? 3) Unmodelled) ;;;
      ret (map row_of_criteria (firsts None (unique_rows (map (criteria rnd fp pp vm) rows))))
  | _, _ => raise TypeError
  end.

(* fusionutils.py:549-577 *)
Definition find_correspondences (rnd : R -> R) (dist_th dot_th : R) : MS (list row) :=
  do t <- find_active_map_points;
  do (t, _) <- find_similar_map_points (Tbl t) dist_th dot_th;
  find_best_unique_correspondences rnd (Tbl t).

(* ---------------------------------------------------------------- fusion *)
(* elementwise operation on padded tensors of equal batch size and length; the last extents broadcast *)
Definition zip3 (f : R -> R -> R) (x y : t3 R) : res (t3 R) :=
  if negb ((t3b x =? t3b y) && (t3n x =? t3n y)) then Err Unmodelled
  else match bext (t3c x) (t3c y) with
       | None => Err RuntimeError
       | Some c => Ok (tab3 RF (t3b x) (t3n x) c (fun b n k =>
                         f (get3 RF x b n (bidx (t3c x) k)) (get3 RF y b n (bidx (t3c y) k))))
       end.
(* 1 / torch.where(x == 0, 1, x) *)
Definition safe_recip (x : t3 R) : t3 R :=
  tab3 RF (t3b x) (t3n x) (t3c x) (fun b n k =>
    let v := get3 RF x b n k in (1 / (if Req_EM_T v 0 then 1 else v))%R).

(* one attribute: (map_ccounts * attribute) + (frame_alphas * frame_attribute) *)
Definition weighted (counts alphas attr frame : t3 R) : res (t3 R) :=
  let? a := zip3 Rmult counts attr in
  let? b := zip3 Rmult alphas frame in
  zip3 Rplus a b.

(* fusionutils.py:653-698: merge corresponding points (writes into the map that was passed in) *)
Definition merge_points (vm nm rgb al : ten R) (rows : list row) : MS unit :=
  do pp <- onp (get_padded RF Points);
  do np <- onp (get_padded RF Normals);
  do cp <- onp (get_padded RF Colors);
  do fp <- onp (get_padded RF Features);
  match pp, np, cp, fp with
  | Some pp, Some np, Some cp, Some fp =>
      do f1 <- lift (scatter pp vm rows);
      do f2 <- lift (scatter np nm rows);
      do f3 <- lift (scatter cp rgb rows);
      do fa <- lift (scatter fp al rows);
      do counts <- lift (zip3 Rplus fp fa);
      do u1 <- lift (weighted fp fa pp f1);
      do u2 <- lift (weighted fp fa np f2);
      do u3 <- lift (weighted fp fa cp f3);
      let inv := safe_recip counts in
      do v1 <- lift (zip3 Rmult u1 inv);
      onp (set_padded RF Points (SP RF (AT3 RF v1))) ;;;
      do v2 <- lift (zip3 Rmult u2 inv);
      onp (set_padded RF Normals (SP RF (AT3 RF v2))) ;;;
      do v3 <- lift (zip3 Rmult u3 inv);
      onp (set_padded RF Colors (SP RF (AT3 RF v3))) ;;;
      onp (set_padded RF Features (SP RF (AT3 RF counts)))
  | _, _, _, _ => raise TypeError
  end.

(* the result of a map update: the map that was passed in, or a new object *)
Inductive pobj := PSelf | PNew (o : pc RF).
(* if not inplace: pointclouds = pointclouds.clone(); pointclouds.append_points(new) *)
Definition append_to (new : pc RF) (inplace : bool) : MS pobj :=
  if inplace then
    fun s => match append_points RF (fst s, new) with
             | (Ok _, (p, _)) => (Ok PSelf, (p, snd s))
             | (Err e, (p, _)) => (Err e, (p, snd s))
             end
  else
    do o <- onp (clone RF);
    match append_points RF (o, new) with
    | (Ok _, (o', _)) => ret (PNew o')
    | (Err e, _) => raise e
    end.

(* the (time, row, column) positions of one batch element, in row-major order *)
Definition positions (L h w : nat) : list (nat * (nat * nat)) := list_prod (seq 0 L) (pixels h w).
(* x[b][mask[b]] for a channels-last tensor with C channels *)
Definition pick_rows (x : ten R) (C b : nat) (ps : list (nat * (nat * nat))) : t2 R :=
  mkT2 C (map (fun q => map (fun c => at_ x [c; snd (snd q); fst (snd q); fst q; b]) (seq 0 C)) ps).

(* fusionutils.py:580-722.  After get_alpha a channels-first frame (only possible when it is 3 pixels wide) is not modelled. *)
Definition fuse_with_map (t : table) (sigma : sigma_arg) (inplace : bool) : MS pobj :=
  do rows <- lift (table_rows t);
  do h <- onp (has RF Points);
  (if h then
     do a <- onp (has RF Normals); lift (guard a ValueError) ;;;
     do b <- onp (has RF Colors); lift (guard b ValueError) ;;;
     do c <- onp (has RF Features); lift (guard c ValueError)
   else ret tt) ;;;
  do vm <- onr global_vertex_map;
  do nm <- onr global_normal_map;
  do rgb <- onr (do s <- get; match r_rgb s with Some x => ret x | None => raise TypeError end);
  do v <- onr vertex_map;
  do al <- lift (get_alpha v sigma 4 true eps7);
  do g <- onr get;
  if r_cf g then raise Unmodelled
  else
  do h <- onp (has RF Points);
  let matching := h && negb (length rows =? 0) in
  (if matching then merge_points vm nm rgb al rows else ret tt) ;;;
  do h <- onp (has RF Points);
  let matching := h && negb (length rows =? 0) in
  (if matching then lift (guard (rows_in_image vm rows) IndexError) else ret tt) ;;;
  do valid <- onr valid_depth_mask;
  let taken b q := matching && existsb (fun r => (rb r =? b) && (0 =? fst q) && (rh r =? fst (snd q)) && (rw r =? snd (snd q))) rows in
  let ps b := filter (fun q => negb (taken b q) && at_ valid [0; snd (snd q); fst (snd q); fst q; b])
                (positions (r_L g) (r_h g) (r_w g)) in
  let new x C := IList RF (map (fun b => AT2 RF (pick_rows x C b (ps b))) (seq 0 (r_B g))) in
  do np <- lift (ctor RF (new vm 3) (new nm 3) (new rgb 3) (new al 1));
  append_to np inplace.

(* fusionutils.py:725-758 *)
Definition update_map_aggregate (inplace : bool) : MS pobj :=
  do np <- onr (pointclouds_from_rgbdimages true true);
  append_to np inplace.

(* fusionutils.py:761-789 *)
Definition update_map_fusion (rnd : R -> R) (dist_th dot_th : R) (sigma : sigma_arg) (inplace : bool) : MS pobj :=
  do rows <- find_correspondences rnd dist_th dot_th;
  fuse_with_map (Tbl rows) sigma inplace.
