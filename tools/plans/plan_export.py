import sys; sys.path.insert(0,'/verif/tools')
from genprop import gen
H=lambda t:('h',t)
def Tm(th,lem,f,com=''): return ('t',th,lem,f,com)
def sec(c): return H('(* ------------------------------------------------------------------ %s *)'%c)
P,Q,Q2='ExportPropProofs','PictureProofs','PictureProofs2'
plan=[H(r'''(* Properties C90 and C91: Pointclouds.open3d, Pointclouds.plotly and RGBDImages.plotly.
   Vocabulary: ExportModel.v (open3d, plotly, rgbd_plotly; AInt i: the index i; the permutation drawn by torch.randperm is the parameter perm),
   ExportSpec.v (shuffles, chosen: which points, rows_of: attribute rows, Unit: colours in 0..1, Bytes: colours in 0..255), PictureSpec.v.
   Hist / RHist (PointcloudsHist.v, RgbdSpec.v): the object was obtained by public calls and means the clouds / frames a;
   resolves n i k: integer i addresses item k of n (negative ones count from the end). *)
From Coq Require Import List Arith ZArith Reals Bool Permutation Lia Lra.
From Verif Require Import Res Fld TensorModel StructUtilsModel PointcloudsModel PointcloudsSpec PointcloudsCtorSpec PointcloudsIndexSpec PointcloudsHist
  ExportModel ExportSpec ExportProofs ExportPropProofs.
Import ListNotations.
Local Open Scope nat_scope.
'''),
sec('C90'),
Tm('C90_open3d','p_open3d',P,'at most max_num_points distinct points of the cloud, with their own normals and colours; the object still means the same'),
Tm('C90_plotly','p_plotly',P),
Tm('C90_unit_range','p_unit_range',P,'colours for open3d are between 0 and 1'),
Tm('C90_unit_kept','p_unit_kept',P,'colours that are already between 0 and 1 are exported unchanged'),
Tm('C90_unit_scaled','p_unit_scaled',P,'colours between 0 and 255, one of them above 1.1, are divided by 255'),
Tm('C90_bytes_range','p_bytes_range',P,'colours for plotly are bytes'),
Tm('C90_agree','p_agree',P,'both exports show the same colours, unless the largest value is exactly 1.1'),
Tm('C90_not_int','p_not_int',P),
Tm('C90_bad_index','p_bad_index',P),
Tm('C90_no_points_refuted','p_no_points',P,'nothing to export (an empty cloud, max_num_points = 0): an exception if there are colours'),
Tm('C90_negative_refuted','p_negative',P,'a negative max_num_points is not rejected: that many points are left out'),
Tm('C90_sample_colour_refuted','p_sample_colour',P,'the colour of a point depends on which other points are exported'),
Tm('C90_threshold_refuted','p_threshold',P,'a largest value of 1.1: white in open3d, black in plotly'),
H(r'''Local Open Scope R_scope.
Example C90_witness : exists s, Hist RF s dark /\ resolves 1 (-1) 0 /\ size_of dark 0 = 2%nat /\ shuffles (fun n => seq 0 n) /\
  rows_of dark Colors 0 [1%nat] = Some [[200; 200; 200]] /\ Unit [[1; 1; 1]; [200; 200; 200]] [[1 / 255; 1 / 255; 1 / 255]; [200 / 255; 200 / 255; 200 / 255]].
Proof.
  destruct have_dark as (s & H). exists s. split; [exact H|]. split; [split; [lia|right; reflexivity]|]. split; [reflexivity|]. split; [exact shuffle_seq|].
  split; [reflexivity|]. left. split.
  - exists [200; 200; 200], 200. split; [right; now left|]. split; [now left|lra].
  - unfold into. cbn. repeat match goal with |- context [Rlt_dec ?a ?b] => destruct (Rlt_dec a b); try lra end. reflexivity.
Qed.
Local Close Scope R_scope.
From Verif Require Import RgbdModel RgbdSpec RgbdWitness RgbdWitnessProofs PictureSpec PictureProofs PictureProofs2.
'''),
sec('C91'),
Tm('C91_frames','p_frames',Q,'one frame per time step: its colours as bytes, its depth times the largest power of ten that fits a byte'),
Tm('C91_rgb_only','p_frames_rgb',Q2),
Tm('C91_rejects','p_pic_rejects',Q2),
Tm('C91_no_depth_refuted','p_no_depth',Q2,'a sequence without any depth: OverflowError'),
Tm('C91_channels_first_refuted','p_channels_first',Q2,'channels-first images cannot be shown'),
Tm('C91_channels_first_small_refuted','p_channels_first_small',Q2,'unless they are 3 or 4 wide: then the pictures have three rows and the columns as channels'),
H(r'''Local Open Scope R_scope.
Example C91_witness : exists s, RHist false s false (wfr 1 2 3) /\ resolves (fB (wfr 1 2 3)) 0 0 /\
  (forall l h w, inside (wfr 1 2 3) 0 l h w -> 0 <= fdep (wfr 1 2 3) 0 l h w) /\ inside (wfr 1 2 3) 0 0 1 2 /\ 0 < fdep (wfr 1 2 3) 0 0 1 2.
Proof.
  destruct (w_hist 1 2 3) as (s & _ & H). exists s. split; [exact H|]. split; [split; [cbn; lia|left; reflexivity]|].
  split; [intros l h w _; cbn [fdep wfr]; apply pos_INR|]. split; [repeat split; cbn; lia|cbn; lra].
Qed.
Local Close Scope R_scope.
'''),
]
gen('/verif/rocq/theories/PropExport.v',plan)
