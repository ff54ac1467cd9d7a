[
 {
  "file": "TapeModel",
  "definition": "xback",
  "old": "(j, xmul (xopp g) (xdiv (xdiv (v i) (v j)) (v j)))",
  "new": "(j, xmul g (xdiv (xdiv (v i) (v j)) (v j)))",
  "edit": "sign of the division rule",
  "claim": "C88: gradients are derivatives"
 },
 {
  "file": "TapeModel",
  "definition": "xback",
  "old": "[(i, xdiv g (xmul (Fin 2) y))]",
  "new": "[(i, xdiv g y)]",
  "edit": "sqrt rule without the factor 2",
  "claim": "C88: gradients are derivatives"
 },
 {
  "file": "TapeModel",
  "definition": "xback",
  "old": "| OWhere c i j => if xcond c env then [(i, g); (j, Fin 0)] else [(i, Fin 0); (j, g)]",
  "new": "| OWhere c i j => [(i, g); (j, Fin 0)]",
  "edit": "where always sends the gradient to the first branch",
  "claim": "C88: gradients are derivatives"
 },
 {
  "file": "TapeModel",
  "definition": "xback",
  "old": "if below lo (v i) || above hi (v i) then Fin 0 else g",
  "new": "g",
  "edit": "clamp passes the gradient everywhere",
  "claim": "C88: gradients are derivatives"
 },
 {
  "file": "TapeModel",
  "definition": "xback",
  "old": "| OMul i j => [(i, xmul g (v j)); (j, xmul g (v i))]",
  "new": "| OMul i j => [(i, xmul g (v i)); (j, xmul g (v j))]",
  "edit": "product rule with swapped factors",
  "claim": "C88: gradients are derivatives"
 },
 {
  "file": "TapeModel",
  "definition": "xback",
  "old": "| OSub i j => [(i, g); (j, xopp g)]",
  "new": "| OSub i j => [(i, g); (j, g)]",
  "edit": "sign of the difference rule",
  "claim": "C88: gradients are derivatives"
 },
 {
  "file": "TapeModel",
  "definition": "xback",
  "old": "[(i, xmul (xopp g) (xmul y y))]",
  "new": "[(i, xmul (xopp g) y)]",
  "edit": "reciprocal rule with y instead of y^2",
  "claim": "C88: gradients are derivatives"
 },
 {
  "file": "TapeModel",
  "definition": "xback",
  "old": "[(i, xmul g (xopp (xfun sin (v i))))]",
  "new": "[(i, xmul g (xfun sin (v i)))]",
  "edit": "cosine rule without the sign",
  "claim": "C88: gradients are derivatives"
 },
 {
  "file": "TapeModel",
  "definition": "xback",
  "old": "[(i, xmul g (xmul (v j) q)); (j, xmul g (xmul (xopp (v i)) q))]",
  "new": "[(i, xmul g (xmul (v i) q)); (j, xmul g (xmul (xopp (v j)) q))]",
  "edit": "atan2 rule with swapped arguments",
  "claim": "C88: gradients are derivatives"
 },
 {
  "file": "TapeModel",
  "definition": "xback",
  "old": "xmul g (xmul (Fin (INR n)) (xpow (v i) m))",
  "new": "xmul g (xmul (Fin (INR m)) (xpow (v i) m))",
  "edit": "power rule with exponent n-1 as factor",
  "claim": "C88: gradients are derivatives"
 },
 {
  "file": "TapeModel",
  "definition": "xback",
  "old": "xmul g (xmul (Fin r) (xpowr (r - 1) (v i)))",
  "new": "xmul g (xmul (Fin r) (xpowr r (v i)))",
  "edit": "real power rule without lowering the exponent",
  "claim": "C88: gradients are derivatives"
 },
 {
  "file": "TapeModel",
  "definition": "xback",
  "old": "(if xis0 y then Fin 0 else xdiv g y)",
  "new": "(xdiv g y)",
  "edit": "norm without the subgradient at 0",
  "claim": "C87: zero quaternions and vanishing normals have real gradients"
 },
 {
  "file": "TapeModel",
  "definition": "xback",
  "old": "map (fun i => (i, xmul (v i) (if xis0 y then Fin 0 else xdiv g y))) l",
  "new": "map (fun i => (i, if xis0 y then Fin 0 else xdiv g y)) l",
  "edit": "norm rule without the entry",
  "claim": "C88: gradients are derivatives"
 },
 {
  "file": "TapeModel",
  "definition": "accum",
  "old": "fold_left (fun a kc => add_at (fst kc) (snd kc) a) l adj.",
  "new": "fold_right (fun kc a => add_at (fst kc) (snd kc) a) adj (firstn 1 l).",
  "edit": "only the first operand receives gradient",
  "claim": "C88: gradients are derivatives"
 },
 {
  "file": "TapeModel",
  "definition": "add_at",
  "old": "O => xadd a c :: adj",
  "new": "O => c :: adj",
  "edit": "gradients overwrite instead of accumulate",
  "claim": "C88: gradients are derivatives"
 },
 {
  "file": "TapeModel",
  "definition": "xbwd",
  "old": "repeat (Fin 0) (length env - 1) ++ [Fin 1]",
  "new": "repeat (Fin 1) (length env)",
  "edit": "every result seeded with gradient 1",
  "claim": "C88: gradients are derivatives"
 },
 {
  "file": "TapeModel",
  "definition": "xmul",
  "old": "if zero r then NaN else if pos r then i else xopp i",
  "new": "if zero r then Fin 0 else if pos r then i else xopp i",
  "edit": "0 * inf is 0",
  "claim": "C87: refuted cases are nan"
 },
 {
  "file": "TapeModel",
  "definition": "xdiv",
  "old": "if zero s then (if zero r then NaN else inf_of r) else Fin (r / s)",
  "new": "Fin (r / s)",
  "edit": "division by zero is a number",
  "claim": "C87: refuted cases are not real"
 },
 {
  "file": "TapeModel",
  "definition": "xclamp",
  "old": "if above hi b then match hi with Some r => Fin r | None => b end else b.",
  "new": "b.",
  "edit": "upper bound ignored",
  "claim": "C88: formula"
 },
 {
  "file": "TapeModel",
  "definition": "t_unhomog",
  "old": "OWhere (CAbsGt 1 eps) 3 4",
  "new": "OWhere (CGt 1 eps) 3 4",
  "edit": "points with negative w are not divided",
  "claim": "C87: value of unhomogenize_points"
 },
 {
  "file": "TapeModel",
  "definition": "t_unhomog",
  "old": "OWhere (CAbsGt 1 eps) 3 4",
  "new": "OWhere (CAbsGt 1 eps) 4 3",
  "edit": "branches swapped",
  "claim": "C87: value of unhomogenize_points"
 },
 {
  "file": "TapeModel",
  "definition": "t_project",
  "old": "[OConst 1; OWhere (CNe0 1) 1 2; ODiv 0 3]",
  "new": "[OConst 1; OConst 1; ODiv 0 1]",
  "edit": "z = 0 not masked",
  "claim": "C87: project_points is always real"
 },
 {
  "file": "TapeModel",
  "definition": "t_focal",
  "old": "[OAddC eps 0; ORecip 1; OScale 1 2]",
  "new": "[OAddC 0 0; ORecip 1; OScale 1 2]",
  "edit": "eps not added",
  "claim": "C87: value of inverse_intrinsics"
 },
 {
  "file": "TapeModel",
  "definition": "t_centre",
  "old": "[OScale (-1) 0; OAddC eps 1; ODiv 2 3]",
  "new": "[OScale 1 0; OAddC eps 1; ODiv 2 3]",
  "edit": "sign of cx",
  "claim": "C87: value of inverse_intrinsics"
 },
 {
  "file": "TapeModel",
  "definition": "t_axisangle",
  "old": "OWhere (CLt 3 0) 12 13; OScale 2 14;",
  "new": "OWhere (CLt 3 0) 13 13; OScale 2 14;",
  "edit": "negative qw not treated",
  "claim": "C87: value of quaternion_to_axisangle"
 },
 {
  "file": "TapeModel",
  "definition": "t_axisangle",
  "old": "OWhere (CGt 8 0) 16 18; OMul j 19",
  "new": "OWhere (CGt 8 0) 16 16; OMul j 19",
  "edit": "identity rotation not treated",
  "claim": "C87: quaternion_to_axisangle is always real"
 },
 {
  "file": "TapeModel",
  "definition": "t_axisangle",
  "old": "OWhere (CGt 8 0) 16 18; OMul j 19",
  "new": "OWhere (CGt 8 0) 16 17; OMul j 19",
  "edit": "k is 1 instead of 2 near the identity",
  "claim": "C87: value of quaternion_to_axisangle"
 },
 {
  "file": "TapeModel",
  "definition": "t_normalize",
  "old": "OClamp (Some eps) None 4",
  "new": "OClamp None None 4",
  "edit": "norm not clamped",
  "claim": "C87: normalize_quaternion is always real"
 },
 {
  "file": "TapeModel",
  "definition": "t_normal",
  "old": "OWhere (CEq0 3) 4 3",
  "new": "OWhere (CEq0 3) 3 3",
  "edit": "zero norm not masked",
  "claim": "C87: normal maps are always real"
 },
 {
  "file": "TapeModel",
  "definition": "t_rodB",
  "old": "OScale (-1) 4; OAddC 1 5; OPow 3 2",
  "new": "OScale (-1) 4; OAddC 1 5; OPow 3 1",
  "edit": "B divided by theta",
  "claim": "C87: value of the Rodrigues coefficients"
 },
 {
  "file": "TapeModel",
  "definition": "t_rodC",
  "old": "OSub 3 4; OPow 3 3",
  "new": "OSub 4 3; OPow 3 3",
  "edit": "C with the wrong sign",
  "claim": "C87: value of the Rodrigues coefficients"
 },
 {
  "file": "TapeModel",
  "definition": "t_alpha",
  "old": "OClamp (Some eps) (Some (101 / 100)) 13",
  "new": "OClamp None (Some (101 / 100)) 13",
  "edit": "alpha without lower bound",
  "claim": "C87: value of get_alpha"
 },
 {
  "file": "TapeModel",
  "definition": "t_alpha",
  "old": "OPow 3 2; OScale 2 10",
  "new": "OPow 3 2; OScale 1 10",
  "edit": "alpha with sigma^2 instead of 2 sigma^2",
  "claim": "C87: value of get_alpha"
 },
 {
  "file": "TapeModel",
  "definition": "t_fuse",
  "old": "OWhere (CEq0 7) 8 7",
  "new": "OWhere (CEq0 7) 7 7",
  "edit": "zero counts not masked",
  "claim": "C87: fusion is always real"
 },
 {
  "file": "TapeModel",
  "definition": "t_fuse",
  "old": "OMul 0 2; OMul 1 3",
  "new": "OMul 1 2; OMul 0 3",
  "edit": "weights swapped",
  "claim": "C87: value of fusion"
 },
 {
  "file": "TapeModel",
  "definition": "t_damp",
  "old": "OClamp (Some (-70)) (Some 70) 3; OScale (- B) 4",
  "new": "OClamp (Some (-70)) None 3; OScale (- B) 4",
  "edit": "error difference not clamped above",
  "claim": "C87: value of damp"
 },
 {
  "file": "TapeModel",
  "definition": "t_gate",
  "old": "OScale (- B2) 4",
  "new": "OScale B2 4",
  "edit": "gate opens on growing errors",
  "claim": "C87: value of gate"
 },
 {
  "file": "TapeModel",
  "definition": "t_pixel",
  "old": "OAddC (-1) 1; ORecip 2",
  "new": "OAddC 0 1; ORecip 2",
  "edit": "pixel normalized by n",
  "claim": "C87: value of normalize_pixel_coords"
 },
 {
  "file": "VertexTape",
  "definition": "t_vertex3",
  "old": "OWhere (CGt 0 0) 28 29",
  "new": "OWhere (CGt 0 0) 28 28",
  "edit": "depth mask always 1",
  "claim": "C89: missing pixels send no gradient"
 },
 {
  "file": "VertexTape",
  "definition": "t_vertex3",
  "old": "OWhere (CGt 0 0) 28 29",
  "new": "OWhere (CNe0 0) 28 29",
  "edit": "negative depths kept",
  "claim": "C89: missing pixels send no gradient"
 },
 {
  "file": "VertexTape",
  "definition": "t_pose",
  "old": "OAdd 41 8; OMul 42 30]",
  "new": "OAdd 41 8]",
  "edit": "global vertices of missing pixels not masked",
  "claim": "C89: missing pixels send no gradient"
 },
 {
  "file": "VertexTape",
  "definition": "t_pose",
  "old": "OAdd 41 8; OMul 42 30]",
  "new": "OMul 41 30; OAdd 42 8]",
  "edit": "translation added after the mask",
  "claim": "C89: value; missing pixels send no gradient"
 },
 {
  "file": "VertexTape",
  "definition": "t_pose",
  "old": "[OMul 5 32; OMul 6 34;",
  "new": "[OMul 6 32; OMul 5 34;",
  "edit": "pose row permuted",
  "claim": "C89: value"
 },
 {
  "file": "VertexTape",
  "definition": "t_ray",
  "old": "OScale (-1) 3; OAddC eps6 1; ODiv 15 16",
  "new": "OScale (-1) 3; OAddC eps6 2; ODiv 15 16",
  "edit": "cx divided by fy",
  "claim": "C89: value"
 },
 {
  "file": "VertexTape",
  "definition": "t_ray",
  "old": "OScale p1 14; OScale p2 20",
  "new": "OScale p0 14; OScale p2 20",
  "edit": "row and column swapped",
  "claim": "C89: value"
 },
 {
  "file": "VertexTape",
  "definition": "t_vertex3",
  "old": "OMul 27 0; OMul 35 30]",
  "new": "OMul 27 0; OMul 27 30]",
  "edit": "z is 1",
  "claim": "C89: value"
 }
]