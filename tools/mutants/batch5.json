[
 {
  "file": "RgbdStoreModel",
  "definition": "clone_ref",
  "old": "do h <- get; new_ref (idev h (rloc r)) (rread h r).",
  "new": "ret r.",
  "edit": "clone copies nothing",
  "claim": "C86: a clone shares nothing"
 },
 {
  "file": "RgbdStoreModel",
  "definition": "clone_ref",
  "old": "new_ref (idev h (rloc r)) (rread h r).",
  "new": "new_ref StoreModel.Cpu (rread h r).",
  "edit": "clones land on the CPU",
  "claim": "C86: a clone is on the device of the object"
 },
 {
  "file": "RgbdStoreModel",
  "definition": "to_ref",
  "old": "if dev_eqb (idev h (rloc r)) d then ret r else new_ref d (rread h r).",
  "new": "ret r.",
  "edit": "to never moves",
  "claim": "C86: to(d) puts the tensors on d"
 },
 {
  "file": "RgbdStoreModel",
  "definition": "to_ref",
  "old": "if dev_eqb (idev h (rloc r)) d then ret r else new_ref d (rread h r).",
  "new": "new_ref d (rread h r).",
  "edit": "to always copies",
  "claim": "C86: to(copy=True) shares, constructor keeps"
 },
 {
  "file": "RgbdStoreModel",
  "definition": "view_ref",
  "old": "ret (mkRef (rloc r) (fun x => match f (rview r x) with Ok t => t | Err _ => x end)).",
  "new": "ret (mkRef (rloc r) (rview r)).",
  "edit": "slices are the whole tensor",
  "claim": "C86: value of a slice"
 },
 {
  "file": "RgbdStoreModel",
  "definition": "view_ref",
  "old": "do h <- get; do _ <- lift (f (rread h r));\n  ret (mkRef",
  "new": "do h <- get; do t <- lift (f (rread h r)); new_ref (idev h (rloc r)) t.\nDefinition view_ref0 (f : ten R -> res (ten R)) (r : ref) : MH ref :=\n  do h <- get; do _ <- lift (f (rread h r));\n  ret (mkRef",
  "edit": "slices are copies",
  "claim": "C86: slices follow the object"
 },
 {
  "file": "RgbdStoreModel",
  "definition": "inew",
  "old": "if negb (forallb (fun l => dev_eqb (idev h l) d0) locs) then raise ValueError\n  else",
  "new": "if false then raise ValueError\n  else",
  "edit": "constructor ignores devices",
  "claim": "C86: mixed devices are rejected"
 },
 {
  "file": "RgbdStoreModel",
  "definition": "inew",
  "old": "let d := match device with Some d => d | None => d0 end in",
  "new": "let d := d0 in",
  "edit": "device argument ignored",
  "claim": "C86: tensors are on the device asked for"
 },
 {
  "file": "RgbdStoreModel",
  "definition": "inew",
  "old": "do p <- take_arg d poses; do x <- take_arg d pix;",
  "new": "do p <- take_arg d0 poses; do x <- take_arg d pix;",
  "edit": "poses not moved to the device",
  "claim": "C86: tensors are on the device asked for"
 },
 {
  "file": "RgbdStoreModel",
  "definition": "inew",
  "old": "arg_locs intr ++ arg_locs poses ++ arg_locs pix in",
  "new": "arg_locs intr ++ arg_locs pix in",
  "edit": "device of poses not checked",
  "claim": "C86: mixed devices are rejected"
 },
 {
  "file": "RgbdStoreModel",
  "definition": "iclone",
  "old": "take_slots clone_ref o slots_rest other)",
  "new": "take_slots ret o slots_rest other)",
  "edit": "clone shares poses and maps",
  "claim": "C86: a clone shares nothing"
 },
 {
  "file": "RgbdStoreModel",
  "definition": "iclone",
  "old": "do a' <- clone_ref a; do b' <- clone_ref b;",
  "new": "do a' <- clone_ref a; do b' <- ret b;",
  "edit": "clone shares the depth image",
  "claim": "C86: a clone shares nothing"
 },
 {
  "file": "RgbdStoreModel",
  "definition": "slots_rest",
  "old": "[SPoses; SPix; SVm; SNm; SGvm; SGnm].",
  "new": "[SPix; SVm; SNm; SGvm; SGnm].",
  "edit": "clone loses the poses",
  "claim": "C86: value of a clone"
 },
 {
  "file": "RgbdStoreModel",
  "definition": "idetach",
  "old": "onh (take_slots ret o slots other).",
  "new": "onh (take_slots clone_ref o slots other).",
  "edit": "detach copies",
  "claim": "C86: detach has the tensors of self"
 },
 {
  "file": "RgbdStoreModel",
  "definition": "ito",
  "old": "if negb copy && dev_eqb (o_dev o) d then ret None",
  "new": "if dev_eqb (o_dev o) d then ret None",
  "edit": "to(copy=True) returns self",
  "claim": "C86: copy=True returns another object"
 },
 {
  "file": "RgbdStoreModel",
  "definition": "ito",
  "old": "if negb copy && dev_eqb (o_dev o) d then ret None",
  "new": "if negb copy then ret None",
  "edit": "to(copy=False) always returns self",
  "claim": "C86: to(d) puts the tensors on d"
 },
 {
  "file": "RgbdStoreModel",
  "definition": "ito",
  "old": "(take_slots (to_ref d) o slots (set_dev d other))",
  "new": "(take_slots (to_ref d) o slots other)",
  "edit": "device of the result not set",
  "claim": "C86: tensors are on the object's device"
 },
 {
  "file": "RgbdStoreModel",
  "definition": "ito",
  "old": "(take_slots (to_ref d) o slots (set_dev d other))",
  "new": "(take_slots (to_ref d) o [SRgb; SDepth; SIntr] (set_dev d other))",
  "edit": "only the three inputs are moved",
  "claim": "C86: to(d) puts the tensors on d"
 },
 {
  "file": "RgbdStoreModel",
  "definition": "icpu",
  "old": "ito cur (StoreModel.DDev StoreModel.SCpu) false.",
  "new": "ito cur (StoreModel.DDev StoreModel.SCpu) true.",
  "edit": "cpu() never returns self",
  "claim": "C86: cpu() returns self on the CPU"
 },
 {
  "file": "RgbdStoreModel",
  "definition": "icuda",
  "old": "ito cur (StoreModel.DDev (StoreModel.SCuda None)) false.",
  "new": "ito cur (StoreModel.DDev (StoreModel.SCuda (Some 0))) false.",
  "edit": "cuda() always uses device 0",
  "claim": "C86: cuda() uses the current device"
 },
 {
  "file": "RgbdStoreModel",
  "definition": "igetitem",
  "old": "do new_intr <- onh (view_ref (take_BL kb [0]) intr);",
  "new": "do new_intr <- onh (view_ref (take_BL kb kl) intr);",
  "edit": "intrinsics sliced along the sequence",
  "claim": "C86: value of a slice"
 },
 {
  "file": "RgbdStoreModel",
  "definition": "igetitem",
  "old": "onh (take_slots (view_ref (take_BL kb kl)) o slots_rest other)",
  "new": "onh (take_slots clone_ref o slots_rest other)",
  "edit": "poses and maps of a slice not sliced",
  "claim": "C86: value of a slice"
 },
 {
  "file": "RgbdStoreModel",
  "definition": "iset_rgb",
  "old": "modo (set_slot SRgb (Some r))",
  "new": "(do c <- onh (clone_ref r); modo (set_slot SRgb (Some c)))",
  "edit": "rgb setter copies",
  "claim": "C86: setters keep the tensor"
 },
 {
  "file": "RgbdStoreModel",
  "definition": "iset_depth",
  "old": "modo (fun o => drop_maps (set_slot SDepth (Some r) o))",
  "new": "modo (fun o => set_slot SDepth (Some r) o)",
  "edit": "depth setter keeps the maps",
  "claim": "C86: refinement: maps are recomputed"
 },
 {
  "file": "RgbdStoreModel",
  "definition": "iset_poses",
  "old": "modo (fun o => drop_global (set_slot SPoses (Some r) o))",
  "new": "modo (fun o => set_slot SPoses (Some r) o)",
  "edit": "pose setter keeps the global maps",
  "claim": "C86: refinement: global maps are recomputed"
 },
 {
  "file": "RgbdStoreModel",
  "definition": "iset_intr",
  "old": "modo (fun o => drop_maps (set_slot SIntr (Some r) o))",
  "new": "modo (fun o => drop_global (set_slot SIntr (Some r) o))",
  "edit": "intrinsics setter keeps the local maps",
  "claim": "C86: refinement: maps are recomputed"
 },
 {
  "file": "RgbdStoreModel",
  "definition": "drop_global",
  "old": "set_slot SGnm None (set_slot SGvm None o).",
  "new": "set_slot SGvm None o.",
  "edit": "global normals kept",
  "claim": "C86: refinement: global maps are recomputed"
 },
 {
  "file": "RgbdStoreModel",
  "definition": "fill",
  "old": "| None, Some t => do r <- new_ref (o_dev o) t; fill l' s (set_slot k (Some r) o)",
  "new": "| None, Some t => fill l' s o",
  "edit": "maps are not kept",
  "claim": "C86: a computed map is kept"
 },
 {
  "file": "RgbdStoreModel",
  "definition": "iread",
  "old": "(fill [SPix; SVm; SNm; SGvm; SGnm] s o)",
  "new": "(fill [SPix; SVm; SNm; SGnm] s o)",
  "edit": "global vertex map not kept",
  "claim": "C86: a computed map is kept"
 },
 {
  "file": "RgbdStoreModel",
  "definition": "iread",
  "old": "do o1 <- onh (fill [SPix; SVm; SNm; SGvm; SGnm] s o);",
  "new": "do o1 <- onh (fill [SPix; SVm; SNm; SGvm; SGnm] s (set_slot SGvm None o));",
  "edit": "global vertex map always recomputed",
  "claim": "C86: a kept map is answered"
 },
 {
  "file": "RgbdStoreModel",
  "definition": "fill_mask",
  "old": "do l <- ialloc (IB (o_dev o) m); ret (set_mask (Some l) o)",
  "new": "do l <- ialloc (IB StoreModel.Cpu m); ret (set_mask (Some l) o)",
  "edit": "mask on the CPU",
  "claim": "C86: tensors are on the object's device"
 },
 {
  "file": "RgbdStoreModel",
  "definition": "ipermute",
  "old": "if ctg cf r then ret (Some v) else do v' <- onh (clone_ref v); ret (Some v')",
  "new": "ret (Some r)",
  "edit": "permutation dropped",
  "claim": "C86: value of to_channels_last_"
 },
 {
  "file": "RgbdStoreModel",
  "definition": "permute_slots / iconvert_",
  "old": "[SRgb; SDepth; SVm; SGvm; SNm; SGnm] ;;;",
  "new": "[SRgb; SDepth; SVm; SGvm; SNm] ;;;",
  "edit": "global normals not permuted",
  "claim": "C86: value of to_channels_last_"
 },
 {
  "file": "RgbdStoreModel",
  "definition": "ito_channels_last",
  "old": "else do other <- iclone; do c <- on_new ito_channels_last_ other; ret (Some c).",
  "new": "else do other <- geto; do c <- on_new ito_channels_last_ other; ret (Some c).",
  "edit": "conversion of an alias",
  "claim": "C86: to_channels_last shares nothing"
 },
 {
  "file": "RgbdStoreModel",
  "definition": "ito_channels_last",
  "old": "if negb (copy || o_cf o) then ret None",
  "new": "if negb (copy && o_cf o) then ret None",
  "edit": "to_channels_last returns self too often",
  "claim": "C86: result of to_channels_last"
 },
 {
  "file": "RgbdStoreModel",
  "definition": "on_new",
  "old": "| (Ok _, (h, o')) => (Ok o', (h, snd w))",
  "new": "| (Ok _, (h, o')) => (Ok o', (h, o'))",
  "edit": "conversion replaces self",
  "claim": "C86: self unchanged"
 },
 {
  "file": "RgbdStoreModel",
  "definition": "take_slots",
  "old": "| Some r => do r' <- f r; take_slots f from l' (set_slot k (Some r') to)",
  "new": "| Some r => do r' <- f r; take_slots f from l' to",
  "edit": "fields not assigned",
  "claim": "C86: value of a clone"
 }
]