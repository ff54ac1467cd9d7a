import json
M=[]
def m(f,d,old,new,edit,claim,**k): M.append(dict(file=f,definition=d,old=old,new=new,edit=edit,claim=claim,**k))
S='RgbdStoreModel'; C='C86: '
m(S,'clone_ref','do h <- get; new_ref (idev h (rloc r)) (rread h r).','ret r.','clone copies nothing',C+'a clone shares nothing')
m(S,'clone_ref','new_ref (idev h (rloc r)) (rread h r).','new_ref StoreModel.Cpu (rread h r).','clones land on the CPU',C+'a clone is on the device of the object')
m(S,'to_ref','if dev_eqb (idev h (rloc r)) d then ret r else new_ref d (rread h r).','ret r.','to never moves',C+'to(d) puts the tensors on d')
m(S,'to_ref','if dev_eqb (idev h (rloc r)) d then ret r else new_ref d (rread h r).','new_ref d (rread h r).','to always copies',C+'to(copy=True) shares, constructor keeps')
m(S,'view_ref','ret (mkRef (rloc r) (fun x => match f (rview r x) with Ok t => t | Err _ => x end)).','ret (mkRef (rloc r) (rview r)).','slices are the whole tensor',C+'value of a slice')
m(S,'view_ref','do h <- get; do _ <- lift (f (rread h r));\n  ret (mkRef','do h <- get; do t <- lift (f (rread h r)); new_ref (idev h (rloc r)) t.\nDefinition view_ref0 (f : ten R -> res (ten R)) (r : ref) : MH ref :=\n  do h <- get; do _ <- lift (f (rread h r));\n  ret (mkRef','slices are copies',C+'slices follow the object')
m(S,'inew','if negb (forallb (fun l => dev_eqb (idev h l) d0) locs) then raise ValueError\n  else','if false then raise ValueError\n  else','constructor ignores devices',C+'mixed devices are rejected')
m(S,'inew','let d := match device with Some d => d | None => d0 end in','let d := d0 in','device argument ignored',C+'tensors are on the device asked for')
m(S,'inew','do p <- take_arg d poses; do x <- take_arg d pix;','do p <- take_arg d0 poses; do x <- take_arg d pix;','poses not moved to the device',C+'tensors are on the device asked for')
m(S,'inew','arg_locs intr ++ arg_locs poses ++ arg_locs pix in','arg_locs intr ++ arg_locs pix in','device of poses not checked',C+'mixed devices are rejected')
m(S,'iclone','take_slots clone_ref o slots_rest other)','take_slots ret o slots_rest other)','clone shares poses and maps',C+'a clone shares nothing')
m(S,'iclone','do a\' <- clone_ref a; do b\' <- clone_ref b;','do a\' <- clone_ref a; do b\' <- ret b;','clone shares the depth image',C+'a clone shares nothing')
m(S,'slots_rest','[SPoses; SPix; SVm; SNm; SGvm; SGnm].','[SPix; SVm; SNm; SGvm; SGnm].','clone loses the poses',C+'value of a clone')
m(S,'idetach','onh (take_slots ret o slots other).','onh (take_slots clone_ref o slots other).','detach copies',C+'detach has the tensors of self')
m(S,'ito','if negb copy && dev_eqb (o_dev o) d then ret None','if dev_eqb (o_dev o) d then ret None','to(copy=True) returns self',C+'copy=True returns another object')
m(S,'ito','if negb copy && dev_eqb (o_dev o) d then ret None','if negb copy then ret None','to(copy=False) always returns self',C+'to(d) puts the tensors on d')
m(S,'ito','(take_slots (to_ref d) o slots (set_dev d other))','(take_slots (to_ref d) o slots other)','device of the result not set',C+'tensors are on the object\'s device')
m(S,'ito','(take_slots (to_ref d) o slots (set_dev d other))','(take_slots (to_ref d) o [SRgb; SDepth; SIntr] (set_dev d other))','only the three inputs are moved',C+'to(d) puts the tensors on d')
m(S,'icpu','ito cur (StoreModel.DDev StoreModel.SCpu) false.','ito cur (StoreModel.DDev StoreModel.SCpu) true.','cpu() never returns self',C+'cpu() returns self on the CPU')
m(S,'icuda','ito cur (StoreModel.DDev (StoreModel.SCuda None)) false.','ito cur (StoreModel.DDev (StoreModel.SCuda (Some 0))) false.','cuda() always uses device 0',C+'cuda() uses the current device')
m(S,'igetitem','do new_intr <- onh (view_ref (take_BL kb [0]) intr);','do new_intr <- onh (view_ref (take_BL kb kl) intr);','intrinsics sliced along the sequence',C+'value of a slice')
m(S,'igetitem','onh (take_slots (view_ref (take_BL kb kl)) o slots_rest other)','onh (take_slots clone_ref o slots_rest other)','poses and maps of a slice not sliced',C+'value of a slice')
m(S,'iset_rgb','modo (set_slot SRgb (Some r))','(do c <- onh (clone_ref r); modo (set_slot SRgb (Some c)))','rgb setter copies',C+'setters keep the tensor')
m(S,'iset_depth','modo (fun o => drop_maps (set_slot SDepth (Some r) o))','modo (fun o => set_slot SDepth (Some r) o)','depth setter keeps the maps',C+'refinement: maps are recomputed')
m(S,'iset_poses','modo (fun o => drop_global (set_slot SPoses (Some r) o))','modo (fun o => set_slot SPoses (Some r) o)','pose setter keeps the global maps',C+'refinement: global maps are recomputed')
m(S,'iset_intr','modo (fun o => drop_maps (set_slot SIntr (Some r) o))','modo (fun o => drop_global (set_slot SIntr (Some r) o))','intrinsics setter keeps the local maps',C+'refinement: maps are recomputed')
m(S,'drop_global','set_slot SGnm None (set_slot SGvm None o).','set_slot SGvm None o.','global normals kept',C+'refinement: global maps are recomputed')
m(S,'fill','| None, Some t => do r <- new_ref (o_dev o) t; fill l\' s (set_slot k (Some r) o)','| None, Some t => fill l\' s o','maps are not kept',C+'a computed map is kept')
m(S,'iread','(fill [SPix; SVm; SNm; SGvm; SGnm] s o)','(fill [SPix; SVm; SNm; SGnm] s o)','global vertex map not kept',C+'a computed map is kept')
m(S,'iread','do o1 <- onh (fill [SPix; SVm; SNm; SGvm; SGnm] s o);','do o1 <- onh (fill [SPix; SVm; SNm; SGvm; SGnm] s (set_slot SGvm None o));','global vertex map always recomputed',C+'a kept map is answered')
m(S,'fill_mask','do l <- ialloc (IB (o_dev o) m); ret (set_mask (Some l) o)','do l <- ialloc (IB StoreModel.Cpu m); ret (set_mask (Some l) o)','mask on the CPU',C+'tensors are on the object\'s device')
m(S,'ipermute','if ctg cf r then ret (Some v) else do v\' <- onh (clone_ref v); ret (Some v\')','ret (Some r)','permutation dropped',C+'value of to_channels_last_')
m(S,'permute_slots / iconvert_','[SRgb; SDepth; SVm; SGvm; SNm; SGnm] ;;;','[SRgb; SDepth; SVm; SGvm; SNm] ;;;','global normals not permuted',C+'value of to_channels_last_')
m(S,'ito_channels_last','else do other <- iclone; do c <- on_new ito_channels_last_ other; ret (Some c).','else do other <- geto; do c <- on_new ito_channels_last_ other; ret (Some c).','conversion of an alias',C+'to_channels_last shares nothing')
m(S,'ito_channels_last','if negb (copy || o_cf o) then ret None','if negb (copy && o_cf o) then ret None','to_channels_last returns self too often',C+'result of to_channels_last')
m(S,'on_new','| (Ok _, (h, o\')) => (Ok o\', (h, snd w))','| (Ok _, (h, o\')) => (Ok o\', (h, o\'))','conversion replaces self',C+'self unchanged')
m(S,'take_slots','| Some r => do r\' <- f r; take_slots f from l\' (set_slot k (Some r\') to)','| Some r => do r\' <- f r; take_slots f from l\' to','fields not assigned',C+'value of a clone')
json.dump(M,open('/verif/tools/mutants/batch5.json','w'),indent=1)
print(len(M))
