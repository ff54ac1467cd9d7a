[
 {
  "file": "StoreModel",
  "definition": "clone2",
  "old": "do h <- get; alloc2 (devof h (v2l v)) (read2 h v).",
  "new": "ret v.",
  "edit": "list tensors not copied by clone",
  "claim": "C85: a clone shares nothing"
 },
 {
  "file": "StoreModel",
  "definition": "clone3",
  "old": "do h <- get; alloc3 (devof h (v3l v)) (read3 h v).",
  "new": "ret v.",
  "edit": "padded tensors not copied by clone",
  "claim": "C85: a clone shares nothing"
 },
 {
  "file": "StoreModel",
  "definition": "clone_cell",
  "old": "do h <- get; match nth_error h l with Some c => alloc c | None => raise RuntimeError end.",
  "new": "ret l.",
  "edit": "counts and mask not copied by clone",
  "claim": "C85: a clone shares nothing"
 },
 {
  "file": "StoreModel",
  "definition": "hset_list",
  "old": "(mmap (fun x => do y <- clone2 x; to2 (odev s) y) l)",
  "new": "(mmap (fun x => to2 (odev s) x) l)",
  "edit": "list setter keeps the tensors it is given",
  "claim": "C85: setters copy"
 },
 {
  "file": "StoreModel",
  "definition": "hset_padded",
  "old": "(do y <- clone3 p; to3 (odev s) y)",
  "new": "(to3 (odev s) p)",
  "edit": "padded setter keeps the tensor it is given",
  "claim": "C85: setters copy"
 },
 {
  "file": "StoreModel",
  "definition": "hclone",
  "old": "onh (take_tensors clone3 clone_cell s other).",
  "new": "onh (take_tensors ret ret s other).",
  "edit": "clone shares the internal tensors",
  "claim": "C85: a clone shares nothing"
 },
 {
  "file": "StoreModel",
  "definition": "hclone",
  "old": "onh (do pl' <- mmap clone2 pl;",
  "new": "onh (do pl' <- ret pl;",
  "edit": "clone shares the list of points",
  "claim": "C85: a clone shares nothing"
 },
 {
  "file": "StoreModel",
  "definition": "hclone",
  "old": "do cl <- omap (mmap clone2) (qc (olst s)); do fl <- omap (mmap clone2) (qf (olst s));",
  "new": "do cl <- ret (qc (olst s)); do fl <- omap (mmap clone2) (qf (olst s));",
  "edit": "clone shares the list of colours",
  "claim": "C85: a clone shares nothing"
 },
 {
  "file": "StoreModel",
  "definition": "hdetach",
  "old": "onh (take_tensors ret ret s other).",
  "new": "onh (take_tensors clone3 clone_cell s other).",
  "edit": "detach copies the internal tensors",
  "claim": "C85: detach shares internal tensors"
 },
 {
  "file": "StoreModel",
  "definition": "hto",
  "old": "do r <- onh (take_tensors (to3 d) (to_cell d) s other');",
  "new": "do r <- onh (take_tensors clone3 clone_cell s other');",
  "edit": "to never moves the internal tensors",
  "claim": "C85: to(d) puts the tensors on d"
 },
 {
  "file": "StoreModel",
  "definition": "hto",
  "old": "do r <- onh (take_tensors (to3 d) (to_cell d) s other');",
  "new": "let r := other' in",
  "edit": "to leaves the clone's internal tensors",
  "claim": "C85: to(d) puts the tensors on d"
 },
 {
  "file": "StoreModel",
  "definition": "hto",
  "old": "if negb copy && same_dev",
  "new": "if same_dev",
  "edit": "to(copy=True) on the same device returns self",
  "claim": "C85: copy=True returns a copy"
 },
 {
  "file": "StoreModel",
  "definition": "same_dev",
  "old": "  | Cpu, DDev SCpu => true",
  "new": "  | Cpu, DDev SCpu | Cpu, DStr SCpu => true",
  "edit": "string cpu recognised",
  "claim": "C85: to(\"cpu\") shares internal tensors, returns another object"
 },
 {
  "file": "StoreModel",
  "definition": "happend_attr",
  "old": "do l' <- at_ i (onh (mmap (alloc2 (list_dev h x)) l));",
  "new": "do l' <- ret x;",
  "edit": "append keeps the old list",
  "claim": "C85: append_points result"
 },
 {
  "file": "StoreModel",
  "definition": "hcopy_attr",
  "old": "(mmap (fun v => do c <- clone2 v; to2 (odev s) c) y)",
  "new": "(mmap (fun v => to2 (odev s) v) y)",
  "edit": "append to empty shares the other cloud's lists",
  "claim": "C85: append_points copies"
 },
 {
  "file": "StoreModel",
  "definition": "happend_points",
  "old": "(take_tensors clone3 clone_cell o\n",
  "new": "(take_tensors ret clone_cell o\n",
  "edit": "append to empty shares the other cloud's padded tensors",
  "claim": "C85: append_points copies"
 },
 {
  "file": "StoreModel",
  "definition": "happend_points",
  "old": "(take_tensors clone3 clone_cell o\n",
  "new": "(take_tensors clone3 ret o\n",
  "edit": "append to empty shares the other cloud's counts",
  "claim": "C85: append_points copies"
 },
 {
  "file": "StoreModel",
  "definition": "happend_points",
  "old": "if negb (dev_eqb (odev d2) (odev d1)) then raise ValueError",
  "new": "if false then raise ValueError",
  "edit": "append ignores devices",
  "claim": "C85: append across devices raises ValueError"
 },
 {
  "file": "StoreModel",
  "definition": "happend_points",
  "old": "do n <- at_ i (onh (alloc (CN (devof h (onum s)) ns)));",
  "new": "do n <- ret (onum o);",
  "edit": "counts of the appended cloud kept",
  "claim": "C85: append_points result"
 },
 {
  "file": "StoreModel",
  "definition": "hgetitem_attr",
  "old": "do r <- lift (hselect ix l); ret (Some r)",
  "new": "do r <- lift (hselect ix l); do r <- onh (mmap clone2 r); ret (Some r)",
  "edit": "indexing copies",
  "claim": "C85: indexing shares the tensors"
 },
 {
  "file": "StoreModel",
  "definition": "take_tensor",
  "old": "do v' <- to3 d v; ret (Some v')",
  "new": "do v' <- clone3 v; ret (Some v')",
  "edit": "constructor copies padded tensors",
  "claim": "C85: constructor shares the tensors it is given"
 },
 {
  "file": "StoreModel",
  "definition": "take_list",
  "old": "do v <- lift (as_v2 x); to2 d v",
  "new": "do v <- lift (as_v2 x); clone2 v",
  "edit": "constructor copies list tensors",
  "claim": "C85: constructor shares the tensors it is given"
 },
 {
  "file": "StoreModel",
  "definition": "hout_of_place",
  "old": "do other <- hclone;\n  fun w",
  "new": "do other <- geto;\n  fun w",
  "edit": "out-of-place arithmetic works on an alias",
  "claim": "C85: arithmetic results are independent"
 },
 {
  "file": "StoreModel",
  "definition": "hmasked_update",
  "old": "do v <- onh (alloc3 (devof h (v3l pp)) p');\n            modo (oset_pad Points (Some v)) ;;;\n            modo (oset_lst Points None)",
  "new": "do v <- onh (alloc3 (devof h (v3l pp)) p');\n            modo (oset_pad Points (Some v))",
  "edit": "stale list after offset_",
  "claim": "C85: refinement of the value-level method"
 },
 {
  "file": "StoreModel",
  "definition": "unpadv",
  "old": "(v3o p + fst q * v3r p)",
  "new": "(v3o p)",
  "edit": "all list views start at the first cloud",
  "claim": "C85: views of the padded tensor"
 },
 {
  "file": "StoreModel",
  "definition": "hnonpad_mask",
  "old": "do m <- onh (alloc (CB (odev s) (map (fun n => mask_row n (onmax s)) (firstn (obat s) ns))));",
  "new": "let m := onum s in",
  "edit": "mask stored in the counts",
  "claim": "C85: mask is a new tensor"
 },
 {
  "file": "StoreModel",
  "definition": "to2",
  "old": "if dev_eqb (devof h (v2l v)) d then ret v else alloc2 d (read2 h v).",
  "new": "alloc2 d (read2 h v).",
  "edit": "to always copies (lists)",
  "claim": "C85: constructor/getitem share"
 },
 {
  "file": "StoreModel",
  "definition": "to3",
  "old": "if dev_eqb (devof h (v3l v)) d then ret v else alloc3 d (read3 h v).",
  "new": "ret v.",
  "edit": "to never moves",
  "claim": "C85: to(d) puts the tensors on d"
 },
 {
  "file": "StoreModel",
  "definition": "hrotate_",
  "old": "do nv <- onh (omap (fun n => alloc3 (devof h (v3l n)) (rot3 F (read3 h n) r)) np);\n                modo (oset_pad Normals nv)",
  "new": "do nv <- onh (omap (fun n => alloc3 (devof h (v3l n)) (rot3 F (read3 h n) r)) np);\n                modo (oset_pad Normals np)",
  "edit": "normals not rotated",
  "claim": "C85: refinement of the value-level method"
 },
 {
  "file": "StoreModel",
  "definition": "hctor",
  "old": "do n <- alloc (CN dv (num F s));",
  "new": "do n <- ret 0;",
  "edit": "counts alias the first storage",
  "claim": "C85: refinement / independence"
 },
 {
  "file": "StoreModel",
  "definition": "hassert_set_padded",
  "old": "if negb (dev_eqb (odev s0) (devof h (anyl x))) then raise ValueError\n        else if",
  "new": "if",
  "edit": "padded setter ignores the device",
  "claim": "C85: padded setter rejects other devices"
 }
]