(* A concrete instance that meets the hypotheses of the item theorems: two frames of 2x2 pixels, a nearest-neighbour resize. *)
From Coq Require Import Reals ZArith Ascii String List Arith Bool Lia Lra.
From Verif Require Import Res MatSpec TextModel TumModel TensorModel LinAlgModel DataUtilsModel ImageModel GeomSpec GeomModel IcpModel DatasetModel
  MatProofs GeomProofs GeomMiscProofs QuatProofs DataSpec DatasetSpec PoseFileProofs SceneProofs DataPropProofs ItemModel ItemSpec ItemProofs ItemPropProofs.
Import ListNotations.
Local Open Scope nat_scope.

(* resize that takes the pixel (i * H / h, j * W / w) *)
Definition w_nearest (w h : nat) (x : ten R) : res (ten R) :=
  match dims x with
  | [W; H] => Ok (mkTen [w; h] (fun ix => match ix with [j; i] => at_ x [j * W / w; i * H / h] | _ => 0%R end))
  | _ => Err RuntimeError
  end.
Definition w_linear (w h : nat) (x : ten R) : res (ten R) :=
  match dims x with
  | [ch; W; H] => Ok (mkTen [ch; w; h] (fun ix => match ix with [k; j; i] => at_ x [k; j * W / w; i * H / h] | _ => 0%R end))
  | _ => Err RuntimeError
  end.
Definition w_labels (w h : nat) (x : list (list nat)) : res (list (list nat)) :=
  Ok (map (fun i => let r := nth (i * length x / h) x [] in map (fun j => nth (j * length r / w) r 0) (seq 0 w)) (seq 0 h)).
(* color images 3x3 with value 10*k + 3*i + j in channel k; depth images with value 1000 * (3*i + j) (the first pixel has no depth);
   labels 14 (desk in nyu40) *)
Definition w_color : ten R := mkTen [3; 3; 3] (fun ix => match ix with [k; j; i] => INR (10 * k + 3 * i + j) | _ => 0%R end).
Definition w_depth : ten R := mkTen [3; 3] (fun ix => match ix with [j; i] => (1000 * INR (3 * i + j))%R | _ => 0%R end).
Definition w_pose : ten R := mkTen [4; 4] (fun ix => match ix with [j; i] => mI i j | _ => 0%R end).
Definition w_intr : ten R := mkTen [4; 4] (fun ix => match ix with [j; i] => pinhole 500 400 300 200 0 i j | _ => 0%R end).
Definition w_io : io := mkIo (fun _ => Ok w_color) (fun _ => Ok w_depth) (fun _ => Ok [[14; 0]; [14; 14]])
  (fun p => if text_eqb p (txt "short") then Ok (txt "1 0 0 0" ++ [newline] ++ txt "0 1 0 0" ++ [newline] ++ txt "0 0 1 0" ++ [newline] ++ [newline]) else Ok two_poses)
  (fun p => if text_eqb p (txt "k") then Ok w_intr else Ok w_pose) w_linear w_nearest w_labels.
(* height, width, channels_first, normalize_color, then everything is returned *)
Definition w_conf (first norm last : bool) : conf := mkConf 2 2 first norm true true true true true last.

Lemma div_lt a W w : a < w -> 0 < W -> a * W / w < W.
Proof. intros. apply Nat.div_lt_upper_bound; [lia|]. nia. Qed.
Lemma w_nearest_ok : nearest_ok w_io.
Proof.
  intros w h x W H Hw Hh HW HH D. cbn. unfold w_nearest. rewrite D. eexists. split; [reflexivity|]. split; [reflexivity|]. split.
  - intros i j Hi Hj. exists (i * H / h), (j * W / w). split; [apply div_lt; assumption|]. split; [apply div_lt; assumption|reflexivity].
  - intros -> ->. split; [symmetry; exact D|]. intros ix V. cbn in *. destruct ix as [|j [|i [|? ?]]]; cbn in V; try (exfalso; tauto).
    rewrite !Nat.div_mul by lia. reflexivity.
Qed.
Lemma w_linear_ok : linear_ok w_io.
Proof.
  intros w h x W H ch Hw Hh HW HH D. cbn. unfold w_linear. rewrite D. eexists. split; [reflexivity|]. split; [reflexivity|]. split.
  - intros k a b Hk B i j Hi Hj. apply B; apply div_lt; assumption.
  - intros -> ->. split; [symmetry; exact D|]. intros ix V. cbn in *. destruct ix as [|k [|j [|i [|? ?]]]]; cbn in V; try (exfalso; tauto).
    rewrite !Nat.div_mul by lia. reflexivity.
Qed.
Lemma nth_map_seq {A} (f : nat -> A) n i d : i < n -> nth i (map f (seq 0 n)) d = f i.
Proof. intros H. rewrite (nth_indep _ d (f 0)) by (rewrite map_length, seq_length; exact H). rewrite map_nth, seq_nth by exact H. reflexivity. Qed.
Lemma w_labels_ok : labels_ok w_io.
Proof.
  intros w h x W H Hw Hh HW HH L F. rewrite Forall_forall in F. cbn. unfold w_labels. eexists. split; [reflexivity|].
  assert (Lr : forall i, i < H -> length (nth i x []) = W) by (intros i Hi; apply F, nth_In; lia).
  split; [rewrite map_length, seq_length; reflexivity|]. split; [|split].
  - apply Forall_forall. intros r Hr. apply in_map_iff in Hr. destruct Hr as (i & <- & _). rewrite map_length, seq_length. reflexivity.
  - intros i j Hi Hj. rewrite nth_map_seq by exact Hi. rewrite nth_map_seq by exact Hj. rewrite L.
    assert (Q : i * H / h < H) by (apply div_lt; assumption). rewrite Lr by exact Q.
    exists (i * H / h), (j * W / w). split; [exact Q|]. split; [apply div_lt; assumption|reflexivity].
  - intros E1 E2. apply nth_ext with (d := []) (d' := []); [rewrite map_length, seq_length; lia|]. intros i Hi. rewrite map_length, seq_length in Hi.
    rewrite nth_map_seq by exact Hi. rewrite L, <- E2, Nat.div_mul by lia. rewrite Lr by lia.
    apply nth_ext with (d := 0) (d' := 0); [rewrite map_length, seq_length, Lr by lia; lia|]. intros j Hj. rewrite map_length, seq_length in Hj.
    rewrite nth_map_seq by exact Hj. rewrite E1, Nat.div_mul by lia. reflexivity.
Qed.
Lemma w_readable first norm last : images_readable w_io (w_conf first norm last) 3 3 [txt "a"; txt "b"] [txt "c"; txt "d"] [w_color; w_color] [w_depth; w_depth].
Proof.
  split; [exact w_linear_ok|]. split; [exact w_nearest_ok|]. repeat (split; [cbn; lia|]). split; [discriminate|].
  split; [repeat constructor|]. intros _. split; [reflexivity|repeat constructor].
Qed.
(* TUM: two frames, moved by (1, 2, 3) and turned by 180 degrees about z *)
Definition w_quats : list (list R) := [[0; 0; 0; 0; 0; 0; 1]; [1; 2; 3; 0; 0; 1; 0]]%R.
Lemma w_quats_ok : Forall quat_line w_quats.
Proof.
  assert (Q : (/ 10 ^ 20 <= 1)%R) by (rewrite <- Rinv_1; apply Rinv_le_contravar; [lra|]; apply pow_R1_Rle; lra).
  repeat constructor; do 7 eexists; (split; [reflexivity|]); (eapply Rle_trans; [exact Q|]); lra.
Qed.
Definition w_tum : tumdata := mkTum [[txt "a"; txt "b"]] [[txt "c"; txt "d"]] [txt "n"] [[(txt "1", txt "2", Some (txt "3")); (txt "4", txt "5", None)]] [w_quats].
(* ICL *)
Definition w_icl (file : text) : icldata := mkIcl [[txt "a"; txt "b"]] [[txt "c"; txt "d"]] [txt "n"] [(file, [0; 4])].
Lemma pose_mat : forall r, (r = pose0 \/ r = pose1) -> exists m, rows_pose r m /\ det3 (rot_of m) <> 0%R.
Proof.
  intros r H. exists (rows_mat r). split.
  - intros i a b c d E. unfold rows_mat, row4. rewrite E. auto.
  - destruct H as [ -> | -> ]; unfold det3, rot_of, rows_mat, pose0, pose1; cbn [nth_error]; lra.
Qed.
Lemma w_short_file : FileLines (txt "1 0 0 0" ++ [newline] ++ txt "0 1 0 0" ++ [newline] ++ txt "0 0 1 0" ++ [newline] ++ [newline]) [txt "1 0 0 0"; txt "0 1 0 0"; txt "0 0 1 0"; []].
Proof. apply filelines_eq'. vm_compute. reflexivity. Qed.
Lemma w_short_pose : PoseAt small_value [txt "1 0 0 0"; txt "0 1 0 0"; txt "0 0 1 0"; []] 0 pose0.
Proof. unfold PoseAt. do 6 eexists. split; [reflexivity|]. split; [reflexivity|]. split; [reflexivity|]. split; [|split; [|split; [|reflexivity]]]; numrow. Qed.
(* ScanNet *)
Definition w_frame (a c : text) : scanframe := mkSF a c (txt "p") (txt "l") (txt "k").
Definition w_scan : scandata := mkScan 2 [[w_frame (txt "a") (txt "c"); w_frame (txt "b") (txt "d")]] [txt "k"] [txt "n"].
Lemma w_pose_ok : pose_ok (ent w_pose []).
Proof. split; [repeat split|]. unfold det3, rot_of, ent, w_pose, mI. cbn. lra. Qed.
