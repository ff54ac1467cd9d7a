[
 {
  "file": "DatasetModel",
  "definition": "palette_scannet20",
  "old": "(\"showercurtain\", (158, 218, 229)); (\"toilet\", (44, 160, 44)); (\"sink\", (112, 128, 144))",
  "new": "(\"showercurtain\", (158, 218, 229)); (\"toilet\", (112, 128, 144)); (\"sink\", (44, 160, 44))",
  "edit": "two colours swapped",
  "claim": "C60: palettes agree"
 },
 {
  "file": "TumModel",
  "definition": "associate",
  "old": "Ok (sort text_pair_le (greedy (sort match_le pm) first second)).",
  "new": "Ok (greedy (sort match_le pm) first second).",
  "edit": "result not sorted",
  "claim": "C55: order of the result"
 },
 {
  "file": "ConfigModel",
  "definition": "getattr_",
  "old": "match dget d name with Some v => ret (Some v) | None => throw XAttribute end",
  "new": "match dget d name with Some v => ret (Some v) | None => ret (Some (VAtom ANone)) end",
  "edit": "missing attribute reads as None",
  "claim": "C69: missing attribute raises AttributeError"
 },
 {
  "file": "ConfigModel",
  "definition": "override",
  "old": "let! value := decode fuel v in\n       let! orig",
  "new": "let! _ := decode fuel v in let! value := ret v in\n       let! orig",
  "edit": "values not decoded",
  "claim": "C66: values are decoded"
 },
 {
  "file": "GeomModel",
  "definition": "transform_pts_3d",
  "old": "(if d =? 3 then homogenize_points pts_b else Ok pts_b)",
  "new": "(homogenize_points pts_b)",
  "edit": "homogeneous inputs homogenised again",
  "claim": "C20: transform of homogeneous points"
 }
]