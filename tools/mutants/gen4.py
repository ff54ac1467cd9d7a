import json
M=[]
def m(f,d,old,new,edit,claim,**k): M.append(dict(file=f,definition=d,old=old,new=new,edit=edit,claim=claim,**k))
S='StoreModel'; C='C85: '
m(S,'clone2','do h <- get; alloc2 (devof h (v2l v)) (read2 h v).','ret v.','list tensors not copied by clone',C+'a clone shares nothing')
m(S,'clone3','do h <- get; alloc3 (devof h (v3l v)) (read3 h v).','ret v.','padded tensors not copied by clone',C+'a clone shares nothing')
m(S,'clone_cell','do h <- get; match nth_error h l with Some c => alloc c | None => raise RuntimeError end.','ret l.','counts and mask not copied by clone',C+'a clone shares nothing')
m(S,'hset_list','(mmap (fun x => do y <- clone2 x; to2 (odev s) y) l)','(mmap (fun x => to2 (odev s) x) l)','list setter keeps the tensors it is given',C+'setters copy')
m(S,'hset_padded','(do y <- clone3 p; to3 (odev s) y)','(to3 (odev s) p)','padded setter keeps the tensor it is given',C+'setters copy')
m(S,'hclone','onh (take_tensors clone3 clone_cell s other).','onh (take_tensors ret ret s other).','clone shares the internal tensors',C+'a clone shares nothing')
m(S,'hclone','onh (do pl\' <- mmap clone2 pl;','onh (do pl\' <- ret pl;','clone shares the list of points',C+'a clone shares nothing')
m(S,'hclone','do cl <- omap (mmap clone2) (qc (olst s)); do fl <- omap (mmap clone2) (qf (olst s));','do cl <- ret (qc (olst s)); do fl <- omap (mmap clone2) (qf (olst s));','clone shares the list of colours',C+'a clone shares nothing')
m(S,'hdetach','onh (take_tensors ret ret s other).','onh (take_tensors clone3 clone_cell s other).','detach copies the internal tensors',C+'detach shares internal tensors')
m(S,'hto','do r <- onh (take_tensors (to3 d) (to_cell d) s other\');','do r <- onh (take_tensors clone3 clone_cell s other\');','to never moves the internal tensors',C+'to(d) puts the tensors on d')
m(S,'hto','do r <- onh (take_tensors (to3 d) (to_cell d) s other\');','let r := other\' in','to leaves the clone\'s internal tensors',C+'to(d) puts the tensors on d')
m(S,'hto','if negb copy && same_dev','if same_dev','to(copy=True) on the same device returns self',C+'copy=True returns a copy')
m(S,'same_dev','  | Cpu, DDev SCpu => true','  | Cpu, DDev SCpu | Cpu, DStr SCpu => true','string cpu recognised',C+'to("cpu") shares internal tensors, returns another object')
m(S,'happend_attr','do l\' <- at_ i (onh (mmap (alloc2 (list_dev h x)) l));','do l\' <- ret x;','append keeps the old list',C+'append_points result')
m(S,'hcopy_attr','(mmap (fun v => do c <- clone2 v; to2 (odev s) c) y)','(mmap (fun v => to2 (odev s) v) y)','append to empty shares the other cloud\'s lists',C+'append_points copies')
m(S,'happend_points','(take_tensors clone3 clone_cell o\n','(take_tensors ret clone_cell o\n','append to empty shares the other cloud\'s padded tensors',C+'append_points copies')
m(S,'happend_points','(take_tensors clone3 clone_cell o\n','(take_tensors clone3 ret o\n','append to empty shares the other cloud\'s counts',C+'append_points copies')
m(S,'happend_points','if negb (dev_eqb (odev d2) (odev d1)) then raise ValueError','if false then raise ValueError','append ignores devices',C+'append across devices raises ValueError')
m(S,'happend_points','do n <- at_ i (onh (alloc (CN (devof h (onum s)) ns)));','do n <- ret (onum o);','counts of the appended cloud kept',C+'append_points result')
m(S,'hgetitem_attr','do r <- lift (hselect ix l); ret (Some r)','do r <- lift (hselect ix l); do r <- onh (mmap clone2 r); ret (Some r)','indexing copies',C+'indexing shares the tensors')
m(S,'take_tensor','do v\' <- to3 d v; ret (Some v\')','do v\' <- clone3 v; ret (Some v\')','constructor copies padded tensors',C+'constructor shares the tensors it is given')
m(S,'take_list','do v <- lift (as_v2 x); to2 d v','do v <- lift (as_v2 x); clone2 v','constructor copies list tensors',C+'constructor shares the tensors it is given')
m(S,'hout_of_place','do other <- hclone;\n  fun w','do other <- geto;\n  fun w','out-of-place arithmetic works on an alias',C+'arithmetic results are independent')
m(S,'hmasked_update','do v <- onh (alloc3 (devof h (v3l pp)) p\');\n            modo (oset_pad Points (Some v)) ;;;\n            modo (oset_lst Points None)','do v <- onh (alloc3 (devof h (v3l pp)) p\');\n            modo (oset_pad Points (Some v))','stale list after offset_',C+'refinement of the value-level method')
m(S,'unpadv','(v3o p + fst q * v3r p)','(v3o p)','all list views start at the first cloud',C+'views of the padded tensor')
m(S,'hnonpad_mask','do m <- onh (alloc (CB (odev s) (map (fun n => mask_row n (onmax s)) (firstn (obat s) ns))));','let m := onum s in','mask stored in the counts',C+'mask is a new tensor')
m(S,'to2','if dev_eqb (devof h (v2l v)) d then ret v else alloc2 d (read2 h v).','alloc2 d (read2 h v).','to always copies (lists)',C+'constructor/getitem share')
m(S,'to3','if dev_eqb (devof h (v3l v)) d then ret v else alloc3 d (read3 h v).','ret v.','to never moves',C+'to(d) puts the tensors on d')
m(S,'hrotate_','do nv <- onh (omap (fun n => alloc3 (devof h (v3l n)) (rot3 F (read3 h n) r)) np);\n                modo (oset_pad Normals nv)','do nv <- onh (omap (fun n => alloc3 (devof h (v3l n)) (rot3 F (read3 h n) r)) np);\n                modo (oset_pad Normals np)','normals not rotated',C+'refinement of the value-level method')
m(S,'hctor','do n <- alloc (CN dv (num F s));','do n <- ret 0;','counts alias the first storage',C+'refinement / independence')
m(S,'hassert_set_padded','if negb (dev_eqb (odev s0) (devof h (anyl x))) then raise ValueError\n        else if','if','padded setter ignores the device',C+'padded setter rejects other devices')
json.dump(M,open('/verif/tools/mutants/batch4.json','w'),indent=1)
print(len(M))
