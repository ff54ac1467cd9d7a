import sys; sys.path.insert(0,'/verif/tools')
from genprop import gen
H=lambda t:('h',t)
def Tm(th,lem,f,com=''): return ('t',th,lem,f,com)
def sec(c): return H('(* ------------------------------------------------------------------ %s *)'%c)
P='IcpFixPropProofs'
plan=[H(r'''(* Property C75: registration of aligned clouds.
   Vocabulary (IcpSpec.v, IcpFixSpec.v): pts_of x = the points of a (1, N, 3) tensor; moved T s = every point transformed; plane_res n d p = n . (p - d);
   match_of = the nearest target point; takes_part = not dropped by the threshold; plane_err = sum of squared residuals;
   balanced = residual forces and torques sum to zero; on_target = every source position is a target position. *)
From Coq Require Import Reals List Arith ZArith Bool Lia Lra.
From Verif Require Import Res Fld StructUtilsModel PointcloudsModel PointcloudsSpec PointcloudsHist MatSpec GeomSpec TensorModel RgbdModel
  FusionModel FusionSpec FusionMap FusionPropProofs2 FusionWitness Se3Model SolveModel IcpModel IcpSpec OdomSpec IcpFixSpec
  IcpGnProofs IcpArgProofs IcpPropProofs IcpFixProofs IcpFixPropProofs.
Import ListNotations.
Local Open Scope R_scope.
'''),
sec('C75'),
Tm('C75_icp','p_fix_icp',P,'any number of iterations, any damping: a balanced start is returned as it is, with its correspondences'),
Tm('C75_gradicp','p_fix_grad',P),
Tm('C75_zero_error','p_fix_zero_error',P,'zero error: every point that takes part lies on the plane of its match, and the start is balanced'),
Tm('C75_on_target','p_fix_on_target',P,'source positions that are target positions (a cloud against itself, any normals, any threshold): zero error, balanced'),
Tm('C75_none_kept','p_fix_none_kept',P,'no source point within the threshold: balanced, so the initial transform is returned without a sign of failure'),
Tm('C75_providers','p_fix_provide',P,'both providers: a frame all of whose points are map points gets the identity'),
H(r'''Local Open Scope R_scope.
Example C75_witness : icp_input first_closest (one_pt 1 2 3) (one_pt 1 2 3) (one_pt 0 0 1) 1 1 ThrNone /\ mat44 eye4 /\
  on_target 1 1 (pts_of (one_pt 1 2 3)) (moved (ent eye4 []) (pts_of (one_pt 1 2 3))) /\
  (* on the plane z = 3 but at another place *)
  plane_err first_closest (keep_sq ThrNone) 1 1 (pts_of (one_pt 1 2 3)) (pts_of (one_pt 0 0 1)) (pts_of (one_pt 5 6 3)) = 0 /\
  (forall i, ~ takes_part first_closest (keep_sq (Thr 1)) 1 1 (pts_of (one_pt 1 2 3)) (pts_of (one_pt 5 6 3)) i) /\
  (exists s t, Hist RF s m1 /\ Hist RF t m1 /\ qp m1 <> None /\ qn m1 <> None /\ nearest first_closest /\ good_method (MIcp (IntV 20) 1 ThrNone)) /\
  (* balanced although the error is not zero: two points at distance 1 on the two sides of one plane *)
  (let two := fun i => match i with O => vec3 0 0 1 | _ => vec3 0 0 (-1) end in
   balanced first_closest (keep_sq ThrNone) 2 1 (fun _ => vec3 0 0 0) (fun _ => vec3 0 0 1) two /\
   plane_err first_closest (keep_sq ThrNone) 2 1 (fun _ => vec3 0 0 0) (fun _ => vec3 0 0 1) two = 2).
Proof.
  split; [apply one_input|]. split; [exact eye_mat44|].
  split; [intros i Hi; exists 0%nat; split; [lia|]; assert (i = 0%nat) as -> by lia; apply (moved_id 1); [intros p q Hp Hq; reflexivity|lia]|].
  split; [unfold plane_err, plane_res, dot; cbn; lra|].
  split; [intros i [Hi K]; assert (i = 0%nat) as -> by lia; cbn in K; unfold dist2 in K; cbn in K; destruct (Rlt_dec _ _) as [Hl|]; [lra|discriminate]|].
  split.
  - destruct (map_exists _ _ m1_valid) as (s & Hs). apply ready_iff in Hs. destruct Hs as [Hs _]. exists s, s.
    split; [exact Hs|]. split; [exact Hs|]. repeat (split; [discriminate|]). split; [exact first_closest_nearest|]. cbn. split; [lia|split; [lra|discriminate]].
  - cbv zeta. split; [|unfold plane_err, plane_res, dot; cbn; lra].
    intros k Hk. cbv zeta. unfold plane_res, dot, cross, vec3. cbn [rsum keep_sq]. destruct k as [|[|[|k]]]; [| | |lia]; cbn; split; lra.
Qed.
'''),
]
gen('/verif/rocq/theories/PropFix.v',plan)
