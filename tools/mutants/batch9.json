[
 {
  "file": "NormalTape",
  "definition": "t_intr",
  "old": "OAddC eps6 3; ORecip 7;",
  "new": "OAddC 0 3; ORecip 7;",
  "edit": "epsilon dropped",
  "claim": "C93: the value is the normal"
 },
 {
  "file": "NormalTape",
  "definition": "t_intr",
  "old": "OScale 1 8; ",
  "new": "OScale 1 7; ",
  "edit": "focal length not inverted",
  "claim": "C93: the value is the normal"
 },
 {
  "file": "NormalTape",
  "definition": "t_intr",
  "old": "OScale (-1) 5; OAddC",
  "new": "OScale 1 5; OAddC",
  "edit": "sign of the principal point",
  "claim": "C93: the value is the normal"
 },
 {
  "file": "NormalTape",
  "definition": "t_intr",
  "old": "OScale (-1) 6; OAddC eps6 4",
  "new": "OScale (-1) 6; OAddC eps6 3",
  "edit": "cy divided by fx",
  "claim": "C93: the value is the normal"
 },
 {
  "file": "NormalTape",
  "definition": "t_vtx",
  "old": "OScale (p 2%nat) 18;",
  "new": "OScale (p 2%nat) 15;",
  "edit": "cx used for the row coordinate",
  "claim": "C93: the value is the normal"
 },
 {
  "file": "NormalTape",
  "definition": "t_vtx",
  "old": "OConst 1; OConst 0; OWhere",
  "new": "OConst 0; OConst 1; OWhere",
  "edit": "mask inverted",
  "claim": "C93: pixels without depth"
 },
 {
  "file": "NormalTape",
  "definition": "t_vtx",
  "old": "OWhere (CGt i 0) (B + 7) (B + 8)",
  "new": "OWhere (CGt i (-1)) (B + 7) (B + 8)",
  "edit": "zero depth counts as depth",
  "claim": "C93: pixels without depth"
 },
 {
  "file": "NormalTape",
  "definition": "t_vtx",
  "old": "OMul (B + 10) (B + 9);",
  "new": "OMul (B + 10) (B + 7);",
  "edit": "x not masked",
  "claim": "C93: a neighbour without depth receives no gradient"
 },
 {
  "file": "NormalTape",
  "definition": "t_vtx",
  "old": "OMul (B + 6) i; OMul (B + 14) (B + 9)",
  "new": "OMul (B + 6) i; OMul (B + 14) (B + 7)",
  "edit": "z not masked",
  "claim": "C93: a neighbour without depth receives no gradient"
 },
 {
  "file": "NormalTape",
  "definition": "t_vtx",
  "old": "OMul (B + 5) i;",
  "new": "OMul (B + 2) i;",
  "edit": "y computed from the column",
  "claim": "C93: the value is the normal"
 },
 {
  "file": "NormalTape",
  "definition": "t_front",
  "old": "t_vtx 35 1 q",
  "new": "t_vtx 35 1 p",
  "edit": "neighbour uses the position of the pixel",
  "claim": "C93: the value is the normal"
 },
 {
  "file": "NormalTape",
  "definition": "t_front",
  "old": "t_vtx 51 2 s",
  "new": "t_vtx 51 1 s",
  "edit": "wrong depth for the neighbour in the column",
  "claim": "C93: the value is the normal"
 },
 {
  "file": "NormalTape",
  "definition": "sub_if",
  "old": "if last then OSub j i else OSub i j",
  "new": "OSub i j",
  "edit": "sign in the last column and row",
  "claim": "C93: the value is the normal"
 },
 {
  "file": "NormalTape",
  "definition": "t_back",
  "old": "sub_if lastrow 66 34;      (* 70",
  "new": "sub_if lastcol 66 34;      (* 70",
  "edit": "row flag mistaken for the column flag",
  "claim": "C93: the value is the normal"
 },
 {
  "file": "NormalTape",
  "definition": "t_back",
  "old": "OMul 69 71; OSub 73 74",
  "new": "OMul 69 71; OSub 74 73",
  "edit": "cross product component negated",
  "claim": "C93: the value is the normal"
 },
 {
  "file": "NormalTape",
  "definition": "t_back",
  "old": "OMul 69 70;",
  "new": "OMul 69 71;",
  "edit": "cross product component wrong",
  "claim": "C93: the value is the normal"
 },
 {
  "file": "NormalTape",
  "definition": "t_back",
  "old": "ONorm [75%nat; 78%nat; 81%nat]",
  "new": "ONorm [75%nat; 78%nat]",
  "edit": "norm of two components",
  "claim": "C93: unit normal"
 },
 {
  "file": "NormalTape",
  "definition": "t_back",
  "old": "OWhere (CEq0 82) 83 82",
  "new": "OWhere (CGt 82 0) 83 82",
  "edit": "division by the norm when it is 0",
  "claim": "C93: real values at degenerate pixels"
 },
 {
  "file": "NormalTape",
  "definition": "t_back",
  "old": "ODiv (75 + 3 * j) 84",
  "new": "ODiv (75 + 3 * j) 82",
  "edit": "division by a vanishing norm",
  "claim": "C93: real values at degenerate pixels"
 },
 {
  "file": "NormalTape",
  "definition": "t_back",
  "old": "OMul 85 28",
  "new": "OMul 85 44",
  "edit": "masked by the neighbour",
  "claim": "C93: pixels without depth"
 },
 {
  "file": "NormalTape",
  "definition": "t_back",
  "old": "OMul 85 28",
  "new": "OMul 85 83",
  "edit": "not masked",
  "claim": "C93: pixels without depth"
 },
 {
  "file": "NormalForms",
  "definition": "t_pixel_normal",
  "old": "(negb (S w <? fW fr)%nat) (negb (S h <? fH fr)%nat) j",
  "new": "(negb (S h <? fH fr)%nat) (negb (S w <? fW fr)%nat) j",
  "edit": "flags of last row and column swapped",
  "claim": "C93: the value is the normal"
 },
 {
  "file": "NormalForms",
  "definition": "beside",
  "old": "if (S h <? n)%nat then S h else (h - 1)%nat",
  "new": "S h",
  "edit": "no neighbour in the last row and column",
  "claim": "C93: the value is the normal"
 }
]