[
 {
  "file": "ExportModel",
  "definition": "upto",
  "old": "else firstn (Z.to_nat k) perm",
  "new": "else firstn (S (Z.to_nat k)) perm",
  "edit": "one point too many",
  "claim": "C90: at most max_num_points points"
 },
 {
  "file": "ExportModel",
  "definition": "upto",
  "old": "else firstn (Z.to_nat k) perm",
  "new": "else skipn (Z.to_nat k) perm",
  "edit": "perm[k:] instead of perm[:k]",
  "claim": "C90: at most max_num_points points"
 },
 {
  "file": "ExportModel",
  "definition": "take_rows",
  "old": "match inds with None => x | Some l =>",
  "new": "match inds with None => mkT2 (t2c x) (tl (t2r x)) | Some l =>",
  "edit": "first point lost without a limit",
  "claim": "C90: all points are shown"
 },
 {
  "file": "ExportModel",
  "definition": "take_rows",
  "old": "nth i (t2r x) []",
  "new": "nth (i - 1) (t2r x) []",
  "edit": "rows off by one",
  "claim": "C90: distinct points with their own attributes"
 },
 {
  "file": "ExportModel",
  "definition": "tmax",
  "old": "fold_left Rmax l a",
  "new": "fold_left Rmin l a",
  "edit": "minimum instead of maximum",
  "claim": "C90: colour range detection"
 },
 {
  "file": "ExportModel",
  "definition": "tmax",
  "old": "[] => Err RuntimeError",
  "new": "[] => Ok 0%R",
  "edit": "max of an empty tensor is 0",
  "claim": "C90: the refuted empty export (the code raises)"
 },
 {
  "file": "ExportModel",
  "definition": "clampR",
  "old": "Rmin hi (Rmax lo x)",
  "new": "Rmax lo x",
  "edit": "upper bound of clamp dropped",
  "claim": "C90: colours are in range"
 },
 {
  "file": "ExportModel",
  "definition": "clampR",
  "old": "Rmin hi (Rmax lo x)",
  "new": "Rmin hi x",
  "edit": "lower bound of clamp dropped",
  "claim": "C90: colours are in range"
 },
 {
  "file": "ExportModel",
  "definition": "clampR",
  "old": "Rmin hi (Rmax lo x)",
  "new": "x",
  "edit": "clamp dropped",
  "claim": "C90: colours are in range"
 },
 {
  "file": "ExportModel",
  "definition": "unit_colors",
  "old": "c / 255",
  "new": "c / 256",
  "edit": "division by 256",
  "claim": "C90: colours are divided by 255"
 },
 {
  "file": "ExportModel",
  "definition": "unit_colors",
  "old": "if Rlt_dec (11 / 10) m then t2map (fun c => c / 255)%R x else x",
  "new": "x",
  "edit": "255 range not rescaled",
  "claim": "C90: colours are divided by 255"
 },
 {
  "file": "ExportModel",
  "definition": "unit_colors",
  "old": "if Rlt_dec (11 / 10) m then t2map (fun c => c / 255)%R x else x",
  "new": "t2map (fun c => c / 255)%R x",
  "edit": "always rescaled",
  "claim": "C90: unit colours are kept"
 },
 {
  "file": "ExportModel",
  "definition": "unit_colors",
  "old": "Rlt_dec (11 / 10) m",
  "new": "Rlt_dec (12 / 10) m",
  "edit": "threshold 1.2",
  "claim": "C90: colours above 1.1 are divided by 255"
 },
 {
  "file": "ExportModel",
  "definition": "byte_colors",
  "old": "c * 255",
  "new": "c * 256",
  "edit": "times 256",
  "claim": "C90: both exports agree"
 },
 {
  "file": "ExportModel",
  "definition": "byte_colors",
  "old": "Rlt_dec m (11 / 10)",
  "new": "Rlt_dec (11 / 10) m",
  "edit": "condition inverted",
  "claim": "C90: both exports agree",
  "section": "Definition byte_colors "
 },
 {
  "file": "ExportModel",
  "definition": "byte_colors",
  "old": "clampR 0 255",
  "new": "clampR 0 1",
  "edit": "clamped to 0..1 before the bytes",
  "claim": "C90: both exports agree",
  "section": "Definition byte_colors "
 },
 {
  "file": "ExportModel",
  "definition": "to_uint8",
  "old": "Int_part x",
  "new": "up x",
  "edit": "rounding up",
  "claim": "C90: bytes are in range",
  "section": "Definition to_uint8 "
 },
 {
  "file": "ExportModel",
  "definition": "export",
  "old": "(if hc && include_colors",
  "new": "(if hc",
  "edit": "include_colors ignored",
  "claim": "C90: no colours when not asked for"
 },
 {
  "file": "ExportModel",
  "definition": "export",
  "old": "(if hn && include_normals",
  "new": "(if hn",
  "edit": "include_normals ignored",
  "claim": "C90: no normals when not asked for"
 },
 {
  "file": "ExportModel",
  "definition": "export",
  "old": "lift (paint (take_rows inds x))",
  "new": "lift (paint x)",
  "edit": "colours not subsampled",
  "claim": "C90: each point has its own colour"
 },
 {
  "file": "ExportModel",
  "definition": "export",
  "old": "ret (Some (take_rows inds x))",
  "new": "ret (Some x)",
  "edit": "normals not subsampled",
  "claim": "C90: each point has its own normal"
 },
 {
  "file": "ExportModel",
  "definition": "export",
  "old": "(mkCloud3d (take_rows inds p) c v)",
  "new": "(mkCloud3d p c v)",
  "edit": "points not subsampled",
  "claim": "C90: at most max_num_points points"
 },
 {
  "file": "ExportModel",
  "definition": "export",
  "old": "(m <? Z.of_nat n)%Z",
  "new": "(m <=? Z.of_nat n)%Z",
  "edit": "shuffled when the limit equals the size",
  "claim": "C90: all points in order when there are no more than max"
 },
 {
  "file": "ExportModel",
  "definition": "export",
  "old": "(m <? Z.of_nat n)%Z",
  "new": "(Z.of_nat n <? m)%Z",
  "edit": "condition inverted",
  "claim": "C90: at most max_num_points points"
 },
 {
  "file": "ExportModel",
  "definition": "export",
  "old": "do x <- cloud_of Colors i;",
  "new": "do x <- cloud_of Colors 0;",
  "edit": "colours of cloud 0",
  "claim": "C90: each point has its own colour"
 },
 {
  "file": "ExportModel",
  "definition": "export",
  "old": "do x <- cloud_of Normals i;",
  "new": "do x <- cloud_of Points i;",
  "edit": "points exported as normals",
  "claim": "C90: each point has its own normal"
 },
 {
  "file": "ExportModel",
  "definition": "export",
  "old": "do p <- cloud_of Points i;",
  "new": "do p <- cloud_of Points 0;",
  "edit": "points of cloud 0",
  "claim": "C90: the points of cloud i"
 },
 {
  "file": "ExportModel",
  "definition": "export",
  "old": "| ANotInt => raise TypeError",
  "new": "| ANotInt => raise IndexError",
  "edit": "wrong exception",
  "claim": "C90: TypeError for a non-integer",
  "section": "Definition export "
 },
 {
  "file": "ExportModel",
  "definition": "plotly",
  "old": "export perm byte_colors ix include_colors max_num_points false",
  "new": "export perm byte_colors ix true max_num_points false",
  "edit": "colours always",
  "claim": "C90: no colours when not asked for"
 },
 {
  "file": "ExportModel",
  "definition": "open3d",
  "old": "export perm unit_colors ix include_colors max_num_points include_normals",
  "new": "export perm unit_colors ix include_colors None include_normals",
  "edit": "limit ignored",
  "claim": "C90: at most max_num_points points"
 },
 {
  "file": "ExportModel",
  "definition": "depth_scale",
  "old": "Int_part (log10 (255 / m))",
  "new": "up (log10 (255 / m))",
  "edit": "ceil instead of floor",
  "claim": "C91: depths fit a byte"
 },
 {
  "file": "ExportModel",
  "definition": "depth_scale",
  "old": "255 / m",
  "new": "m / 255",
  "edit": "quotient inverted",
  "claim": "C91: depths fit a byte"
 },
 {
  "file": "ExportModel",
  "definition": "depth_scale",
  "old": "powerRZ 10",
  "new": "powerRZ 2",
  "edit": "powers of two",
  "claim": "C91: power of ten"
 },
 {
  "file": "ExportModel",
  "definition": "depth_scale",
  "old": "if Req_EM_T m 0 then InfScale else NanScale",
  "new": "Times 1",
  "edit": "no depth: scale 1",
  "claim": "C91: the refuted all-zero sequence (the code raises)"
 },
 {
  "file": "ExportModel",
  "definition": "log10",
  "old": "ln x / ln 10",
  "new": "ln x",
  "edit": "natural logarithm",
  "claim": "C91: largest power of ten"
 },
 {
  "file": "ExportModel",
  "definition": "first_at",
  "old": "ix ++ [i]",
  "new": "ix ++ [0]",
  "edit": "always the first frame",
  "claim": "C91: frame l shows time l"
 },
 {
  "file": "ExportModel",
  "definition": "last_at",
  "old": "(c :: ix)",
  "new": "(S c :: ix)",
  "edit": "wrong channel",
  "claim": "C91: depth values"
 },
 {
  "file": "ExportModel",
  "definition": "tenmax",
  "old": "tmax (entries (rev (dims t)) (fun ix => at_ t (rev ix)))",
  "new": "tmax (firstn 1 (entries (rev (dims t)) (fun ix => at_ t (rev ix))))",
  "edit": "maximum of the first entry only",
  "claim": "C91: scale from the whole sequence"
 },
 {
  "file": "ExportModel",
  "definition": "encodes",
  "old": "=? 3) || (hd 0 (dims img) =? 4)",
  "new": "=? 3)",
  "edit": "only 3 channels (equivalent for RGB unless channels-first of width 4)",
  "claim": "C91: channels-first images are rejected (equivalent on the stated claim)"
 },
 {
  "file": "ExportModel",
  "definition": "encodes",
  "old": "if ndim img =? 2 then Ok img",
  "new": "if ndim img =? 2 then Err ValueError",
  "edit": "grey images rejected",
  "claim": "C91: depth frames are shown"
 },
 {
  "file": "ExportModel",
  "definition": "wrap_uint8",
  "old": "mod 256",
  "new": "mod 128",
  "edit": "seven bits",
  "claim": "C91: depth values"
 },
 {
  "file": "ExportModel",
  "definition": "wrap_uint8",
  "old": "else Int_part x)",
  "new": "else up x)",
  "edit": "rounding up",
  "claim": "C91: depth rounded down"
 },
 {
  "file": "ExportModel",
  "definition": "rgbd_plotly",
  "old": "at_ x j * 255 else",
  "new": "at_ x j else",
  "edit": "unit colours not scaled",
  "claim": "C91: bytes of the colours"
 },
 {
  "file": "ExportModel",
  "definition": "rgbd_plotly",
  "old": "(clampR 0 255 (if",
  "new": "(id (if",
  "edit": "no clamp",
  "claim": "C91: bytes of the colours"
 },
 {
  "file": "ExportModel",
  "definition": "rgbd_plotly",
  "old": "wrap_uint8 (at_ d j * sc)%R",
  "new": "wrap_uint8 (at_ d j)%R",
  "edit": "scale not applied",
  "claim": "C91: depth times the scale"
 },
 {
  "file": "ExportModel",
  "definition": "rgbd_plotly",
  "old": "let x := first_at rgb b in",
  "new": "let x := first_at rgb 0 in",
  "edit": "always sequence 0",
  "claim": "C91: colours of sequence i"
 },
 {
  "file": "ExportModel",
  "definition": "rgbd_plotly",
  "old": "last_at (first_at dep b) 0",
  "new": "last_at (first_at dep 0) 0",
  "edit": "depth of sequence 0",
  "claim": "C91: depth of sequence i"
 },
 {
  "file": "ExportModel",
  "definition": "rgbd_plotly",
  "old": "(combine (seq 0 (length imgs)) (combine imgs deps))",
  "new": "(combine (seq 1 (length imgs)) (combine imgs deps))",
  "edit": "names from 1",
  "claim": "C91: frames named by time"
 },
 {
  "file": "ExportModel",
  "definition": "rgbd_plotly",
  "old": "(combine (seq 0 (length imgs)) imgs)",
  "new": "(combine (seq 0 (length imgs)) (tl imgs))",
  "edit": "first frame lost",
  "claim": "C91: one frame per time step"
 },
 {
  "file": "ExportModel",
  "definition": "rgbd_plotly",
  "old": "(combine imgs deps)",
  "new": "(combine imgs (rev deps))",
  "edit": "depth frames in reverse",
  "claim": "C91: depth frame l belongs to time l"
 }
]