(* Specification vocabulary for windows, poses, scenes and labels (C56-C60). *)
From Coq Require Import Ascii String List Arith Bool Reals ZArith Sorting.Sorted.
From Verif Require Import Res TextModel DataSpec DatasetModel.
Import ListNotations.
Local Open Scope nat_scope.

(* the samples of a sequence of frames: sample k consists of the frames k*stride + i*(dilation+1), i < seqlen, and
   exists as long as its last frame does *)
Definition Sampled {A} (seqlen dilation stride : nat) (frames : list A) (samples : list (list A)) : Prop :=
  forall k x, nth_error samples k = Some x <->
    k * stride + (seqlen - 1) * (dilation + 1) < length frames /\
    Forall2 (fun i y => nth_error frames (k * stride + i * (dilation + 1)) = Some y) (seq 0 seqlen) x.
(* the words of a line *)
Definition Words (line : text) (ws : list text) : Prop := exists ps, Pieces blank line ps /\ ws = filter nonempty ps.
(* the lines of a file that readlines() gives: a terminator does not start a new line *)
Definition FileLines (file : text) (ls : list text) : Prop :=
  exists ps, Lines file ps /\ (ps = ls ++ [[]] \/ (ps = ls /\ exists l x, ls = l ++ [x] /\ x <> [])).

(* a pose: three lines of four numbers starting at line s *)
Definition NumRow (value : text -> res R) (line : text) (r : R * R * R * R) : Prop :=
  exists a b c d x y z w, Words line [a; b; c; d] /\ value a = Ok x /\ value b = Ok y /\ value c = Ok z /\ value d = Ok w /\ r = (x, y, z, w).
Definition PoseAt (value : text -> res R) (lines : list text) (s : nat) (m : list (R * R * R * R)) : Prop :=
  exists l0 l1 l2 r0 r1 r2, nth_error lines s = Some l0 /\ nth_error lines (s + 1) = Some l1 /\ nth_error lines (s + 2) = Some l2 /\
    NumRow value l0 r0 /\ NumRow value l1 r1 /\ NumRow value l2 r2 /\ m = [r0; r1; r2; (0, 0, 0, 1)%R].
(* requested lines in increasing order, with room for a pose between them *)
Inductive Spaced : list nat -> Prop :=
| sp_nil : Spaced []
| sp_one s : Spaced [s]
| sp_cons s t l : s + 3 <= t -> Spaced (t :: l) -> Spaced (s :: t :: l).

(* frame of an ICL associations line: depth file is word 1, colour file is word 3 *)
Definition IclFrame (line color depth : text) : Prop := exists a b r x y, Words line (a :: depth :: b :: color :: r) /\
  color = txt "rgb" ++ x /\ depth = txt "depth" ++ y.
(* a line of a ScanNet scene file *)
Definition SceneLine (line color depth pose label intr : text) : Prop := exists r x0 x1 x2 x3 x4 x5,
  Words line (txt "color" :: color :: txt "depth" :: depth :: txt "pose" :: pose :: txt "label-filt" :: label ::
              x0 :: x1 :: x2 :: x3 :: x4 :: x5 :: txt "intrinsic_depth" :: intr :: r).

(* ---------------- constructor arguments *)
Definition arg (o : option Z) : iarg := match o with Some z => AInt z | None => ANone end.
Definition def (o : option Z) (d : Z) : Z := match o with Some z => z | None => d end.
Definition args_ok (L : Z) (d s st e : option Z) : Prop :=
  (0 <= L /\ 0 <= def d 0 /\ 0 <= def s (L * (def d 0 + 1)) /\ 0 <= def st 0 /\ match e with None => True | Some e => def st 0 < e end)%Z.
(* ---------------- TUM: the files, pose and name of one association *)
Definition tum_frame (dir name : text) (load : bool) (a : text * text * option (list R)) (f : text * text * list R * text) : Prop :=
  let '(c, d, p) := a in exists x y q, c = txt "rgb" ++ x /\ d = txt "depth" ++ y /\ (if load then p = Some q else q = []) /\
    f = (dir ++ txt "/" ++ c, dir ++ txt "/" ++ d, q, name ++ txt "/" ++ firstn (length x - 4) x).
(* ---------------- ICL *)
Definition icl_name (name depth : text) : text := name ++ txt "/" ++ hd [] (split_on "."%char (skipn 6 depth)).
Definition icl_path (dir x : text) : text := dir ++ txt "/" ++ x.
(* the lines used: start .. end of the file; trajectory 0 loses its last line *)
Definition icl_used (tr : icltraj) (w : wargs) (lines : list text) : list text :=
  let lines' := if text_eqb (tr_name tr) (txt "living_room_traj0_frei_png") then removelast lines else lines in
  firstn (match w_end w with Some e => Z.to_nat e | None => length lines end - w_start w) (skipn (w_start w) lines').
(* ---------------- ScanNet *)
Definition scene_frame (basedir line : text) (f : scanframe) : Prop := exists c d p l i, SceneLine line c d p l i /\
  f = mkSF (basedir ++ txt "/" ++ c) (basedir ++ txt "/" ++ d) (basedir ++ txt "/" ++ p) (basedir ++ txt "/" ++ l) (basedir ++ txt "/" ++ i).
Definition frames_of (basedir : text) (start n : nat) (sc : scene) (fs : list scanframe) : Prop :=
  Forall2 (scene_frame basedir) (firstn n (skipn start (sc_lines sc))) fs.
Definition first_intr (fs : list scanframe) : text := match fs with f :: _ => sf_intr f | [] => [] end.
(* ---------------- labels: the class of scannet20 with the same name; 0 if there is none *)
Definition position (name : string) (p : list (string * color3)) : option nat :=
  (fix go n p := match p with [] => None | (m, _) :: p' => if String.eqb name m then Some n else go (S n) p' end) 0 p.
Definition class20 (label : nat) : nat :=
  match nth_error palette_nyu40 label with Some (name, _) => match position name palette_scannet20 with Some k => k | None => 0 end | None => label end.
