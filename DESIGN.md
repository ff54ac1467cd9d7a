# Formal model of gradslam in Rocq (Coq 8.16.1)

## 1. Method

* The code is read as text; each model definition carries a comment `(* file:lines *)` naming the
  code in /repo it mirrors, and says where it simplifies.
* Exceptions are values: a function that may raise returns `res A` = `Ok a | Err e`, where `e` is the
  Python exception class (`ValueError`, `TypeError`, `IndexError`, `KeyError`, `AttributeError`,
  `AssertionError`, `RuntimeError`, ...). Messages are not modelled.
* Objects with caches (Pointclouds, RGBDImages, CfgNode) are records of their private fields, methods are
  functions `state -> state * result`.
* Model files (`*Model.v`) hold no proofs. Specifications (`*Spec.v`) are small and do not use the
  model's helpers. Proof files (`*Proofs.v`) hold lemmas. Property files (`Prop*.v`) hold the property
  theorems, each closed by `exact`, with `Print Assumptions` below and a non-vacuity `Example` beside.
* Where the code violates the English property the file contains a `..._refuted` theorem (a concrete
  reachable witness) next to the strongest true statement proved (`..._partial`).
* Numbers: tensors of floats are modelled by exact arithmetic — an arbitrary (computable) field for the
  data-structure part (instances: Qc and R), Coq's reals R for geometry, any mathcomp `realFieldType` for
  the linear solve. Rounding, overflow, NaN and inf are not modelled except where the property is
  about them (C40: float32 representation of indices).

## 2. Per property: what is modelled, how it is proved

The theorem names are in MANIFEST.json; each `Prop*.v` file states them with a witness beside.
"Refuted" parts are statements that are false of the code; the witness is a concrete reachable state.

### Structures — `StructUtilsModel`, `PointcloudsModel` (any field), `PropStructUtils`, `PropPointclouds`
A padded tensor (B,N,C) is a list of B lists of N rows; a Pointclouds object is a record of its private fields
(four optional list fields, four optional padded fields, mask, flags, sizes). `PointcloudsSpec` is the meaning: a list
of clouds, each a list of point records. `Hist` (PointcloudsHist) is the set of objects that any sequence of modelled
public calls can produce, apart from calls that a refuted theorem shows to break the property.
* C01 list induction. C02 iff-characterisation of the constructor by an independent consistency predicate.
* C03, C04, C05, C12 invariant of every state in `Hist`, by induction over histories; refuted for the typo
  `_noramls_padded`, oversized broadcast operands, `points_list` assigned to a padded-only object, stale `_has_*`.
* C06–C11, C13 refinement: each call changes the meaning as the specification says (pointwise map, concatenation, selection).
* C08 absence of sharing is by construction in a value model and is not claimed.

### Geometry — `TensorModel` (n-d tensors with broadcasting), `ProjModel`, `GeomModel`, `Se3Model`, `DataUtilsModel`, `GTOdomModel`; `PropGeometry`
Over Coq's reals. Specifications in `MatSpec`, `GeomSpec`, `ShapeSpec`.
* C14, C15, C17, C18, C21–C23, C25–C28 algebra (ring, field, nra) and trigonometry; C24 characterises exp by its one-parameter group
  and derivative. C16, C19, C20 shapes for every rank and extent. Refuted: eps in `inverse_intrinsics`, batched inverse/compose,
  small angles in `se3_exp`, quaternions shorter than 1e-12.

### RGB-D — `RgbdModel`; `PropRgbd`
State machine over the private fields of RGBDImages; `RHist` all histories of constructor, reads, setters, conversions, slices.
* C29–C31 entries of the maps for every index; C32–C34 invariant over `RHist`; C35 row-major filter of valid pixels.

### Fusion and SLAM — `FusionModel`, `SlamModel`; `PropFusion`, `PropSlam`
* C36 real analysis of exp; C37, C38 set characterisation of tables; C39 selection against an order; C40 Flocq rounding to float32;
  C41, C42 weighted average per matched point, conservation of confidence over any number of frames; C43 which arguments change;
  C44–C46 induction over frames; step as a state machine on (map, live frame, previous frame).

### Odometry — `SolveModel`, `IcpModel`; `PropOdometry`
* C47 Gaussian elimination solves the damped normal equations and the solution is the unique minimiser. C48 rows are the
  derivative of the residual along the exponential curve. C49 filter. C50–C52 loop invariants over any number of iterations, the
  nearest-neighbour search being any function that returns a closest target point. C53, C54 lists.
* C75 (`IcpFixSpec`, `PropFix`) at a balanced position the zero twist solves the normal equations; induction over the iterations.
* C76, C77 (`StillSpec`, `PropStill`) re-projection error bound for the +1e-6 focal lengths; induction over the frames with the invariant that the map positions are those of the first frame (C76, with C75) and that the fused map is the running average (C77).
* C78 (`BatchSpec`, `PropBatch`) relation between two runs (same cloud at b and b', same poses) kept by every step; the correspondence table of one sequence is the restriction of the batch's table, hence the choice of the best match is the same; errors of registration are per sequence.
* C79 (`HullSpec`, `PropHull`) invariant of a run: every attribute of every map point is in the convex set, confidences are in [1e-7, number of frames]; strict convexity for the shrinking of normals.
* C80 (`ChanSpec`, `PropChan`) the SLAM loop invariant, generic in the layout for aggregation; the mask and the map of a channels-first frame never fit, so registration raises; the confidence of a channels-first vertex map looks at the wrong axis, so fusion raises.
* C81 (`ColourSpec`, `PropColour`) the relational argument of C78 with colours left out of the relation; each fusion step writes u * old colour + v * pixel colour with weights (u + v = 1) that depend on the geometry only, induction over the frames.
* C82 (`GradSpec`, `PropGrad`) derivatives in the sense of the reals (`derivable_pt_lim`), not of autograd: rules of calculus give the maps of RGBDImages; for the fusion all decisions are strict inequalities between continuous functions at a generic input, hence locally constant, so near it the step is a fixed smooth formula; induction over the frames (the intermediate maps, unique for every parameter, are turned into functions of the parameter by `UniqueProofs`, which uses completeness of the reals instead of a choice axiom). Differentiability at depth 0 and across changes of association is refuted.
* C83 (`SimSpec`, `PropSim`) a relation between two runs: vertices scale, normals do not change, so visibility, similarity and the order of the candidates are the same in both runs (`TableProofs.table_same`), and weighted means commute with affine maps; induction over the frames.
* C84 (`RotSpec`, `PropRot`) one damped Gauss-Newton step commutes with an orthogonal change of coordinates (twists transform as (Q v, det Q · Q w), the exponential is conjugated), so by induction over iterations the two runs stay related; distances, residuals and decisions are equal. Whole runs: visible points, thinned clouds and fused maps are related by the lemmas of C83. The dependence on the origin is a counterexample computed in closed form.
* C85 (`StoreModel`, `StoreSpec`, `PropStore`) a second model of `Pointclouds` in which tensors are views (storage, offset, strides) into a heap and objects hold views; every method is written again at this level (a method that returns `x.to(d)` returns the same view when the device is the same, `clone` allocates, `unpad` makes views). Each heap method is proved to refine the value-level method (so C01–C12 carry over), with a footprint: storages it may keep. An invariant over programs gives non-interference; the sharing of `detach`/`to` is exhibited by programs. Autograd graphs, `requires_grad` and data types of tensors are not modelled.
* C86 (`RgbdStoreModel`, `RgbdStoreSpec`, `PropRgbdStore`) the same for `RGBDImages`: an object holds references (a storage and the way the tensor is read off it: whole, slice, permutation). Every method is written again on the heap and proved to refine `RgbdModel` with a footprint; an invariant over programs gives non-interference; what `to(copy=True)`, `detach`, `[]`, the setters and the constructor share is proved exactly (equality of references). Whether `.contiguous()` of a permuted tensor copies is a parameter of all theorems. Arithmetic between devices is not modelled.
* C87 (`TapeModel`, `TapeForms`, `TapeSpec`, `PropTape`) numbers with inf and nan; a formula is the list of PyTorch operations that compute it (a tape), with their forward semantics on special values and the backward formulas of derivatives.yaml; reverse-mode accumulation is written out. Finite values: a tape none of whose operations is singular stays real, forward and backward, by induction; the special cases (w = 0, zero rotation, ...) by computation. Two gradients are nan: refuted.
* C88 (same files) reverse-mode accumulation over any tape computes the derivative (induction on the tape, chain rule for each operation, `derivable_pt_lim` along curves), instantiated for every formula; the formulas are stated with the functions of the value-level models.
* C89 `VertexTape` (operations), `VertexForms`, `VertexProofs`; `PropVertex`: one entry of the global vertex map as a tape in 9 inputs; derivative by C88's induction, zero gradient of missing pixels by reverse mode = forward mode (`fwd_rev`) and a symbolic forward run; nan depth refuted.
* C90 `ExportModel` (open3d, plotly), `ExportSpec`, `ExportProofs`, `ExportPropProofs`; `PropExport`: torch.randperm is an arbitrary function to permutations; the object is any reachable one (`Hist`); rows are compared with the batch it means; empty selection, negative limit, sample-dependent colour and the 1.1 threshold refuted.
* C91 `ExportModel` (rgbd_plotly), `PictureSpec`, `PictureProofs(2)`; `PropExport`: log10/floor/power as in the code, wrap-around of uint8 modelled; all-zero depth and channels-first refuted.
* C92 `PrintModel`, `PrintSpec`, `PrintProofs(2,3)`; `PropPrint`: `__str__` on the config heap; the text is computed by structural recursion on the tree (`pretty`); sorting is unique; lines are recovered by splitting, blocks by their indentation, keys by the first colon.
* C93 `NormalTape`, `NormalForms`, `NormalProofs(2,3,4,5)`; `PropNormal`: the tape of one normal entry, with three vertices; the value is linked to `normal` of `RgbdSpec`; right gradients by `right_of`, zero gradients by the forward mode; nan of a neighbour refuted.

### Datasets — `TextModel`, `TumModel`, `DatasetModel`, `ImageModel`; `PropData`
Files are lists of characters; conversion of a token to a number (`float`) is an arbitrary function.
* C55 greedy matching over a sorted candidate list. C56–C59 index arithmetic for every length, stride, dilation. C60 finite table,
  any image. C61 images of any rank; the rounding of the division is any monotone function. C62 parsing of any text.

### Dataset items — `ItemModel`; `PropItem`
Decoding of images, np.loadtxt and cv2.resize are oracles; what is used of the resize is stated in `ItemSpec`.
* C71 the tuple per option and its shapes. C72 relative poses and transforms and their agreement. C73 pixels, depth values, camera;
  frame f of item k end to end for TUM.
* C74 (`DirModel`, `PropDir`) the disk is a listing, isfile and contents; acceptance characterised by iff, then the constructors as a whole.

### Config — `ConfigModel`; `PropConfig`
A heap of lists, dicts and CfgNodes; values are atoms, tuples or references; `copy.deepcopy` with its memo. Functions take a fuel
that stands for the recursion limit; theorems say what happens when it suffices, and that it suffices above the depth of the tree.
`yaml` and `literal_eval` are oracles.
* C63 freeze reaches all nodes, histories of assignments. C64, C65 merge = recursive override on trees, separation between the two
  configurations. C66 fold over the pairs. C67 registries. C68 deepcopy is an isomorphic disjoint copy; dump/load under `yaml_faithful`.
  C69 attribute = item. C70 constructor.

## 3. Trusted base

1. Coq 8.16.1's kernel and the standard library's axioms. `Print Assumptions` runs under every property theorem; ASSUMPTIONS.md
   (generated by tools/assumptions.py) lists the result theorem by theorem. Only these occur:
   `ClassicalDedekindReals.sig_forall_dec`, `ClassicalDedekindReals.sig_not_dec`,
   `FunctionalExtensionality.functional_extensionality_dep` (construction of the reals) and `Classical_Prop.classic`
   (through Coq.Reals, Flocq and Coquelicot lemmas). About 140 theorems use none. No axiom of our own, no functor, no module type,
   no kernel switch. (A scan by symbol also shows `Rdefinitions.RbaseSymbolsImpl.*` and `ssr.ssrunder.*`: opaque module
   fields of the standard library with definitions behind them.)
2. The reading of the code embodied by the `*Model.v` files (each definition cites its lines).
3. The models of external functions: PyTorch broadcasting, matmul, einsum, slicing, advanced indexing, `unique(dim=0)`,
   `nn.functional.normalize/pad/grid`, `torch.inverse` (cofactors for 4x4, Gaussian elimination for the normal equations; a
   singular matrix raises), kornia-like `create_meshgrid`; chamferdist `knn_points` (any nearest-neighbour function); numpy
   `astype`, `arange`; `copy.deepcopy`; Python slices, dicts, sorting; `float()`, yaml, `ast.literal_eval` as oracles.
4. Numbers. Floats are exact: an arbitrary field (structures) or R. Rounding, overflow, NaN and inf are not modelled, except C40
   (float32 rounding of indices, Flocq), C61 (any rounding), C62 (NaN tokens), C52 (range of exponents), C87 (inf and nan, element-wise formulas). Division by zero, which
   yields inf or NaN in PyTorch, is Coq's total division here; theorems that divide carry the hypothesis that excludes it.

### Modelled
structures: structutils.py (list_to_padded, padded_to_list), pointclouds.py (all; devices and aliasing in StoreModel), rgbdimages.py (all
but the layout of figures; devices and aliasing in RgbdStoreModel), utils.py. geometry: all of projutils.py, geometryutils.py, se3utils.py. odometry: all. slam: all.
datasets: datautils.py, tumutils.py, argument checks, choice of directories, windows, associations, pose parsing, scene lists, label maps and items of the
three datasets. config: cfgnode.py but `__repr__`.

### Not modelled
The layout (axes, sliders, buttons) of plotly figures, `numpy_to_plotly_image` and `img_to_b64str` (JPEG); device checks outside the two structures; dtypes (except where a check
raises); autograd except for the element-wise formulas of C87/C88; warnings, logging, messages of exceptions; examples/, setup.py; image decoding and resizing (cv2, imageio);
glob and natsorted (an ordered list of names is given). Tensor aliasing (views that share storage) is modelled only where a theorem is about it: map
and frames in SLAM, and the config heap.
Config: keys that are not strings, double-underscore names, Python-2 branches.

## 4. Testing the theorems

`tools/mutate.py` edits a model definition in a scratch copy, rebuilds, and records which theorems fail; seeded/LOG.jsonl is the
log (mutants in tools/mutants/). A surviving mutant whose English claim is broken leads to a tightened theorem, named in the log.
