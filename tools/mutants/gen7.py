import json
M=[]
def m(d,old,new,edit,claim,**k): M.append(dict(file='ExportModel',definition=d,old=old,new=new,edit=edit,claim=claim,**k))
A='C90: '; B='C91: '
m('upto','else firstn (Z.to_nat k) perm','else firstn (S (Z.to_nat k)) perm','one point too many','C90: at most max_num_points points')
m('upto','else firstn (Z.to_nat k) perm','else skipn (Z.to_nat k) perm','perm[k:] instead of perm[:k]','C90: at most max_num_points points')
m('take_rows','match inds with None => x | Some l =>','match inds with None => mkT2 (t2c x) (tl (t2r x)) | Some l =>','first point lost without a limit',A+'all points are shown')
m('take_rows','nth i (t2r x) []','nth (i - 1) (t2r x) []','rows off by one',A+'distinct points with their own attributes')
m('tmax','fold_left Rmax l a','fold_left Rmin l a','minimum instead of maximum',A+'colour range detection')
m('tmax','[] => Err RuntimeError','[] => Ok 0%R','max of an empty tensor is 0',A+'the refuted empty export (the code raises)')
m('clampR','Rmin hi (Rmax lo x)','Rmax lo x','upper bound of clamp dropped',A+'colours are in range')
m('clampR','Rmin hi (Rmax lo x)','Rmin hi x','lower bound of clamp dropped',A+'colours are in range')
m('clampR','Rmin hi (Rmax lo x)','x','clamp dropped',A+'colours are in range')
m('unit_colors','c / 255','c / 256','division by 256',A+'colours are divided by 255')
m('unit_colors','if Rlt_dec (11 / 10) m then t2map (fun c => c / 255)%R x else x','x','255 range not rescaled',A+'colours are divided by 255')
m('unit_colors','if Rlt_dec (11 / 10) m then t2map (fun c => c / 255)%R x else x','t2map (fun c => c / 255)%R x','always rescaled',A+'unit colours are kept')
m('unit_colors','Rlt_dec (11 / 10) m','Rlt_dec (12 / 10) m','threshold 1.2',A+'colours above 1.1 are divided by 255')
m('byte_colors','c * 255','c * 256','times 256',A+'both exports agree')
m('byte_colors','Rlt_dec m (11 / 10)','Rlt_dec (11 / 10) m','condition inverted',A+'both exports agree')
m('byte_colors','clampR 0 255','clampR 0 1','clamped to 0..1 before the bytes',A+'both exports agree')
m('to_uint8','Int_part x','up x','rounding up',A+'bytes are in range')
m('export','(if hc && include_colors','(if hc','include_colors ignored',A+'no colours when not asked for')
m('export','(if hn && include_normals','(if hn','include_normals ignored',A+'no normals when not asked for')
m('export','lift (paint (take_rows inds x))','lift (paint x)','colours not subsampled',A+'each point has its own colour')
m('export','ret (Some (take_rows inds x))','ret (Some x)','normals not subsampled',A+'each point has its own normal')
m('export','(mkCloud3d (take_rows inds p) c v)','(mkCloud3d p c v)','points not subsampled','C90: at most max_num_points points')
m('export','(m <? Z.of_nat n)%Z','(m <=? Z.of_nat n)%Z','shuffled when the limit equals the size',A+'all points in order when there are no more than max')
m('export','(m <? Z.of_nat n)%Z','(Z.of_nat n <? m)%Z','condition inverted','C90: at most max_num_points points')
m('export','do x <- cloud_of Colors i;','do x <- cloud_of Colors 0;','colours of cloud 0',A+'each point has its own colour')
m('export','do x <- cloud_of Normals i;','do x <- cloud_of Points i;','points exported as normals',A+'each point has its own normal')
m('export','do p <- cloud_of Points i;','do p <- cloud_of Points 0;','points of cloud 0',A+'the points of cloud i')
m('export','| ANotInt => raise TypeError','| ANotInt => raise IndexError','wrong exception',A+'TypeError for a non-integer')
m('plotly','export perm byte_colors ix include_colors max_num_points false','export perm byte_colors ix true max_num_points false','colours always',A+'no colours when not asked for')
m('open3d','export perm unit_colors ix include_colors max_num_points include_normals','export perm unit_colors ix include_colors None include_normals','limit ignored','C90: at most max_num_points points')
m('depth_scale','Int_part (log10 (255 / m))','up (log10 (255 / m))','ceil instead of floor',B+'depths fit a byte')
m('depth_scale','255 / m','m / 255','quotient inverted',B+'depths fit a byte')
m('depth_scale','powerRZ 10','powerRZ 2','powers of two',B+'power of ten')
m('depth_scale','if Req_EM_T m 0 then InfScale else NanScale','Times 1','no depth: scale 1',B+'the refuted all-zero sequence (the code raises)')
m('log10','ln x / ln 10','ln x','natural logarithm',B+'largest power of ten')
m('first_at','ix ++ [i]','ix ++ [0]','always the first frame',B+'frame l shows time l')
m('last_at','(c :: ix)','(S c :: ix)','wrong channel',B+'depth values')
m('tenmax','tmax (entries','tmax (firstn 1 (entries','maximum of the first entry only',B+'scale from the whole sequence',post=None)
m('encodes','=? 3) || (hd 0 (dims img) =? 4)','=? 3)','only 3 channels (equivalent for RGB unless channels-first of width 4)',B+'channels-first images are rejected (equivalent on the stated claim)')
m('encodes','if ndim img =? 2 then Ok img','if ndim img =? 2 then Err ValueError','grey images rejected',B+'depth frames are shown')
m('wrap_uint8','mod 256','mod 128','seven bits',B+'depth values')
m('wrap_uint8','else Int_part x)','else up x)','rounding up',B+'depth rounded down')
m('rgbd_plotly','at_ x j * 255 else','at_ x j else','unit colours not scaled',B+'bytes of the colours')
m('rgbd_plotly','(clampR 0 255 (if','(id (if','no clamp',B+'bytes of the colours')
m('rgbd_plotly','wrap_uint8 (at_ d j * sc)%R','wrap_uint8 (at_ d j)%R','scale not applied',B+'depth times the scale')
m('rgbd_plotly','let x := first_at rgb b in','let x := first_at rgb 0 in','always sequence 0',B+'colours of sequence i')
m('rgbd_plotly','last_at (first_at dep b) 0','last_at (first_at dep 0) 0','depth of sequence 0',B+'depth of sequence i')
m('rgbd_plotly','(combine (seq 0 (length imgs)) (combine imgs deps))','(combine (seq 1 (length imgs)) (combine imgs deps))','names from 1',B+'frames named by time')
m('rgbd_plotly','(combine (seq 0 (length imgs)) imgs)','(combine (seq 0 (length imgs)) (tl imgs))','first frame lost',B+'one frame per time step')
m('rgbd_plotly','(combine imgs deps)','(combine imgs (rev deps))','depth frames in reverse',B+'depth frame l belongs to time l')
for x in M: x.pop('post',None)
# the tenmax mutant needs a closing parenthesis
for x in M:
    if x['definition']=='tenmax': x['old']='tmax (entries (rev (dims t)) (fun ix => at_ t (rev ix)))'; x['new']='tmax (firstn 1 (entries (rev (dims t)) (fun ix => at_ t (rev ix))))'
json.dump(M,open('/verif/tools/mutants/batch7.json','w'),indent=1); print(len(M))
src=open('/verif/rocq/theories/ExportModel.v').read()
for x in M:
    n=src.count(x['old'])
    if n!=1: print(n,x['definition'],x['old'])
for x in M:
    if src.count(x['old'])!=1: x['section']='Definition %s '%x['definition']
json.dump(M,open('/verif/tools/mutants/batch7.json','w'),indent=1)
json.dump(M[::2],open('/tmp/w/b7a.json','w')); json.dump(M[1::2],open('/tmp/w/b7b.json','w'))
