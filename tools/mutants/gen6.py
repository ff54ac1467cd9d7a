import json
M=[]
def m(f,d,old,new,edit,claim,**k): M.append(dict(file=f,definition=d,old=old,new=new,edit=edit,claim=claim,**k))
S='TapeModel'; A='C87: '; B='C88: '
m(S,'xback','(j, xmul (xopp g) (xdiv (xdiv (v i) (v j)) (v j)))','(j, xmul g (xdiv (xdiv (v i) (v j)) (v j)))','sign of the division rule',B+'gradients are derivatives')
m(S,'xback','[(i, xdiv g (xmul (Fin 2) y))]','[(i, xdiv g y)]','sqrt rule without the factor 2',B+'gradients are derivatives')
m(S,'xback','| OWhere c i j => if xcond c env then [(i, g); (j, Fin 0)] else [(i, Fin 0); (j, g)]','| OWhere c i j => [(i, g); (j, Fin 0)]','where always sends the gradient to the first branch',B+'gradients are derivatives')
m(S,'xback','if below lo (v i) || above hi (v i) then Fin 0 else g','g','clamp passes the gradient everywhere',B+'gradients are derivatives')
m(S,'xback','| OMul i j => [(i, xmul g (v j)); (j, xmul g (v i))]','| OMul i j => [(i, xmul g (v i)); (j, xmul g (v j))]','product rule with swapped factors',B+'gradients are derivatives')
m(S,'xback','| OSub i j => [(i, g); (j, xopp g)]','| OSub i j => [(i, g); (j, g)]','sign of the difference rule',B+'gradients are derivatives')
m(S,'xback','[(i, xmul (xopp g) (xmul y y))]','[(i, xmul (xopp g) y)]','reciprocal rule with y instead of y^2',B+'gradients are derivatives')
m(S,'xback','[(i, xmul g (xopp (xfun sin (v i))))]','[(i, xmul g (xfun sin (v i)))]','cosine rule without the sign',B+'gradients are derivatives')
m(S,'xback','[(i, xmul g (xmul (v j) q)); (j, xmul g (xmul (xopp (v i)) q))]','[(i, xmul g (xmul (v i) q)); (j, xmul g (xmul (xopp (v j)) q))]','atan2 rule with swapped arguments',B+'gradients are derivatives')
m(S,'xback','xmul g (xmul (Fin (INR n)) (xpow (v i) m))','xmul g (xmul (Fin (INR m)) (xpow (v i) m))','power rule with exponent n-1 as factor',B+'gradients are derivatives')
m(S,'xback','xmul g (xmul (Fin r) (xpowr (r - 1) (v i)))','xmul g (xmul (Fin r) (xpowr r (v i)))','real power rule without lowering the exponent',B+'gradients are derivatives')
m(S,'xback','(if xis0 y then Fin 0 else xdiv g y)','(xdiv g y)','norm without the subgradient at 0',A+'zero quaternions and vanishing normals have real gradients')
m(S,'xback','map (fun i => (i, xmul (v i) (if xis0 y then Fin 0 else xdiv g y))) l','map (fun i => (i, if xis0 y then Fin 0 else xdiv g y)) l','norm rule without the entry',B+'gradients are derivatives')
m(S,'accum','fold_left (fun a kc => add_at (fst kc) (snd kc) a) l adj.','fold_right (fun kc a => add_at (fst kc) (snd kc) a) adj (firstn 1 l).','only the first operand receives gradient',B+'gradients are derivatives')
m(S,'add_at','O => xadd a c :: adj','O => c :: adj','gradients overwrite instead of accumulate',B+'gradients are derivatives')
m(S,'xbwd','repeat (Fin 0) (length env - 1) ++ [Fin 1]','repeat (Fin 1) (length env)','every result seeded with gradient 1',B+'gradients are derivatives')
m(S,'xmul','if zero r then NaN else if pos r then i else xopp i','if zero r then Fin 0 else if pos r then i else xopp i','0 * inf is 0',A+'refuted cases are nan')
m(S,'xdiv','if zero s then (if zero r then NaN else inf_of r) else Fin (r / s)','Fin (r / s)','division by zero is a number',A+'refuted cases are not real')
m(S,'xclamp','if above hi b then match hi with Some r => Fin r | None => b end else b.','b.','upper bound ignored',B+'formula')
m(S,'t_unhomog','OWhere (CAbsGt 1 eps) 3 4','OWhere (CGt 1 eps) 3 4','points with negative w are not divided',A+'value of unhomogenize_points')
m(S,'t_unhomog','OWhere (CAbsGt 1 eps) 3 4','OWhere (CAbsGt 1 eps) 4 3','branches swapped',A+'value of unhomogenize_points')
m(S,'t_project','[OConst 1; OWhere (CNe0 1) 1 2; ODiv 0 3]','[OConst 1; OConst 1; ODiv 0 1]','z = 0 not masked',A+'project_points is always real')
m(S,'t_focal','[OAddC eps 0; ORecip 1; OScale 1 2]','[OAddC 0 0; ORecip 1; OScale 1 2]','eps not added',A+'value of inverse_intrinsics')
m(S,'t_centre','[OScale (-1) 0; OAddC eps 1; ODiv 2 3]','[OScale 1 0; OAddC eps 1; ODiv 2 3]','sign of cx',A+'value of inverse_intrinsics')
m(S,'t_axisangle','OWhere (CLt 3 0) 12 13; OScale 2 14;','OWhere (CLt 3 0) 13 13; OScale 2 14;','negative qw not treated',A+'value of quaternion_to_axisangle')
m(S,'t_axisangle','OWhere (CGt 8 0) 16 18; OMul j 19','OWhere (CGt 8 0) 16 16; OMul j 19','identity rotation not treated',A+'quaternion_to_axisangle is always real')
m(S,'t_axisangle','OWhere (CGt 8 0) 16 18; OMul j 19','OWhere (CGt 8 0) 16 17; OMul j 19','k is 1 instead of 2 near the identity',A+'value of quaternion_to_axisangle')
m(S,'t_normalize','OClamp (Some eps) None 4','OClamp None None 4','norm not clamped',A+'normalize_quaternion is always real')
m(S,'t_normal','OWhere (CEq0 3) 4 3','OWhere (CEq0 3) 3 3','zero norm not masked',A+'normal maps are always real')
m(S,'t_rodB','OScale (-1) 4; OAddC 1 5; OPow 3 2','OScale (-1) 4; OAddC 1 5; OPow 3 1','B divided by theta',A+'value of the Rodrigues coefficients')
m(S,'t_rodC','OSub 3 4; OPow 3 3','OSub 4 3; OPow 3 3','C with the wrong sign',A+'value of the Rodrigues coefficients')
m(S,'t_alpha','OClamp (Some eps) (Some (101 / 100)) 13','OClamp None (Some (101 / 100)) 13','alpha without lower bound',A+'value of get_alpha')
m(S,'t_alpha','OPow 3 2; OScale 2 10','OPow 3 2; OScale 1 10','alpha with sigma^2 instead of 2 sigma^2',A+'value of get_alpha')
m(S,'t_fuse','OWhere (CEq0 7) 8 7','OWhere (CEq0 7) 7 7','zero counts not masked',A+'fusion is always real')
m(S,'t_fuse','OMul 0 2; OMul 1 3','OMul 1 2; OMul 0 3','weights swapped',A+'value of fusion')
m(S,'t_damp','OClamp (Some (-70)) (Some 70) 3; OScale (- B) 4','OClamp (Some (-70)) None 3; OScale (- B) 4','error difference not clamped above',A+'value of damp')
m(S,'t_gate','OScale (- B2) 4','OScale B2 4','gate opens on growing errors',A+'value of gate')
m(S,'t_pixel','OAddC (-1) 1; ORecip 2','OAddC 0 1; ORecip 2','pixel normalized by n',A+'value of normalize_pixel_coords')
S='VertexTape'; C='C89: '
m(S,'t_vertex3','OWhere (CGt 0 0) 28 29','OWhere (CGt 0 0) 28 28','depth mask always 1',C+'missing pixels send no gradient')
m(S,'t_vertex3','OWhere (CGt 0 0) 28 29','OWhere (CNe0 0) 28 29','negative depths kept',C+'missing pixels send no gradient')
m(S,'t_pose','OAdd 41 8; OMul 42 30]','OAdd 41 8]','global vertices of missing pixels not masked',C+'missing pixels send no gradient')
m(S,'t_pose','OAdd 41 8; OMul 42 30]','OMul 41 30; OAdd 42 8]','translation added after the mask',C+'value; missing pixels send no gradient')
m(S,'t_pose','[OMul 5 32; OMul 6 34;','[OMul 6 32; OMul 5 34;','pose row permuted',C+'value')
m(S,'t_ray','OScale (-1) 3; OAddC eps6 1; ODiv 15 16','OScale (-1) 3; OAddC eps6 2; ODiv 15 16','cx divided by fy',C+'value')
m(S,'t_ray','OScale p1 14; OScale p2 20','OScale p0 14; OScale p2 20','row and column swapped',C+'value')
m(S,'t_vertex3','OMul 27 0; OMul 35 30]','OMul 27 0; OMul 27 30]','z is 1',C+'value')
json.dump(M,open('/verif/tools/mutants/batch6.json','w'),indent=1)
print(len(M))
import re
for x in M:
    s=open('/verif/rocq/theories/%s.v'%x['file']).read()
    if s.count(x['old'])!=1: print(s.count(x['old']),x['definition'],x['old'])
