import json
M=[]
def m(d,old,new,edit,claim,**k): M.append(dict(file='NormalTape',definition=d,old=old,new=new,edit=edit,claim=claim,**k))
V='C93: the value is the normal'
m('t_intr','OAddC eps6 3; ORecip 7;','OAddC 0 3; ORecip 7;','epsilon dropped',V)
m('t_intr','OScale 1 8; ','OScale 1 7; ','focal length not inverted',V)
m('t_intr','OScale (-1) 5; OAddC','OScale 1 5; OAddC','sign of the principal point',V)
m('t_intr','OScale (-1) 6; OAddC eps6 4','OScale (-1) 6; OAddC eps6 3','cy divided by fx',V)
m('t_vtx','OScale (p 2%nat) 18;','OScale (p 2%nat) 15;','cx used for the row coordinate',V)
m('t_vtx','OConst 1; OConst 0; OWhere','OConst 0; OConst 1; OWhere','mask inverted','C93: pixels without depth')
m('t_vtx','OWhere (CGt i 0) (B + 7) (B + 8)','OWhere (CGt i (-1)) (B + 7) (B + 8)','zero depth counts as depth','C93: pixels without depth')
m('t_vtx','OMul (B + 10) (B + 9);','OMul (B + 10) (B + 7);','x not masked','C93: a neighbour without depth receives no gradient')
m('t_vtx','OMul (B + 6) i; OMul (B + 14) (B + 9)','OMul (B + 6) i; OMul (B + 14) (B + 7)','z not masked','C93: a neighbour without depth receives no gradient')
m('t_vtx','OMul (B + 5) i;','OMul (B + 2) i;','y computed from the column',V)
m('t_front','t_vtx 35 1 q','t_vtx 35 1 p','neighbour uses the position of the pixel',V)
m('t_front','t_vtx 51 2 s','t_vtx 51 1 s','wrong depth for the neighbour in the column',V)
m('sub_if','if last then OSub j i else OSub i j','OSub i j','sign in the last column and row',V)
m('t_back','sub_if lastrow 66 34;      (* 70','sub_if lastcol 66 34;      (* 70','row flag mistaken for the column flag',V)
m('t_back','OMul 69 71; OSub 73 74','OMul 69 71; OSub 74 73','cross product component negated',V)
m('t_back','OMul 69 70;','OMul 69 71;','cross product component wrong',V)
m('t_back','ONorm [75%nat; 78%nat; 81%nat]','ONorm [75%nat; 78%nat]','norm of two components','C93: unit normal')
m('t_back','OWhere (CEq0 82) 83 82','OWhere (CGt 82 0) 83 82','division by the norm when it is 0','C93: real values at degenerate pixels')
m('t_back','ODiv (75 + 3 * j) 84','ODiv (75 + 3 * j) 82','division by a vanishing norm','C93: real values at degenerate pixels')
m('t_back','OMul 85 28','OMul 85 44','masked by the neighbour','C93: pixels without depth')
m('t_back','OMul 85 28','OMul 85 83','not masked','C93: pixels without depth')
F=lambda *a,**k:M.append(dict(file='NormalForms',definition=a[0],old=a[1],new=a[2],edit=a[3],claim=a[4],**k))
F('t_pixel_normal','(negb (S w <? fW fr)%nat) (negb (S h <? fH fr)%nat) j','(negb (S h <? fH fr)%nat) (negb (S w <? fW fr)%nat) j','flags of last row and column swapped',V)
F('beside','if (S h <? n)%nat then S h else (h - 1)%nat','S h','no neighbour in the last row and column',V)
json.dump(M,open('/verif/tools/mutants/batch9.json','w'),indent=1); print(len(M))
for x in M:
    src=open('/verif/rocq/theories/%s.v'%x['file']).read()
    n=src.count(x['old'])
    if n!=1: print(n,x['definition'],x['old'])
