(* Programs with RGBDImages objects. *)
From Coq Require Import Reals List Arith Bool ZArith Lia Lra.
From Verif Require Import Res TensorModel RgbdModel RgbdStoreModel RgbdStoreSpec RgbdStorePropProofs.
From Verif Require StoreModel.
Import ListNotations.
Local Open Scope nat_scope.

Definition cpu := StoreModel.Cpu.
(* a tensor of the given shape, filled with x *)
Definition full (sh : list nat) (x : R) : icell := IR cpu (mkTen (rev sh) (fun _ => x)).
Definition whole (l : nat) : iarg := ATen (mkRef l (fun x => x)).
Definition no_objects : iworld := mkIW [] [].
(* two frames of one pixel: rgb (storage 0), depth (1), intrinsics (2), poses (3) *)
Definition two_frames : list iop :=
  [PTensor (full [1; 2; 1; 1; 3] 1); PTensor (full [1; 2; 1; 1; 1] 1); PTensor (full [1; 1; 4; 4] 1); PTensor (full [1; 2; 4; 4] 1);
   PNew (whole 0) (whole 1) (whole 2) (whole 3) false ANone None].
(* frames.poses.zero_() *)
Definition zero_poses : iop := PWrite 3 (full [1; 2; 4; 4] 0).
(* what a read of object i answers *)
Definition isees (ctg : bool -> ref -> bool) (w : iworld) (i : nat) (c : icall) : res ians :=
  match nth_error (iwo w) i with Some o => fst (run_icall ctg c (iwh w, o)) | None => Err NameError end.
(* an entry of the answer *)
Definition entry (a : res ians) : R := match a with Ok (VTen (Some t)) => at_ t [0; 0; 0; 0] | _ => 5%R end.

(* frames.detach(), frames.to("cpu", copy=True), frames[0], frames[:, 1]: follow a write into frames.poses;
   frames.clone(), frames.to_channels_last(copy=True): do not *)
Lemma p_follows ctg cur m :
  In m [JDetach; JTo (StoreModel.DStr StoreModel.SCpu) true; JItem (RInt 0);
        JItem (RTuple [ESlice None None None; EInt 1])] ->
  let w := isteps ctg cur (two_frames ++ [PMake 0 m]) no_objects in
  let w' := istep ctg cur zero_poses w in
  entry (isees ctg w 1 IPoses) = 1%R /\ entry (isees ctg w' 1 IPoses) = 0%R.
Proof. intros [<-|[<-|[<-|[<-|[]]]]]; split; reflexivity. Qed.
Lemma p_does_not_follow ctg cur m :
  In m [JClone; JLast true; JTo (StoreModel.DStr (StoreModel.SCuda None)) false] ->
  let w := isteps ctg cur (two_frames ++ [PMake 0 m]) no_objects in
  let w' := istep ctg cur zero_poses w in
  entry (isees ctg w' 0 IPoses) = 0%R /\ entry (isees ctg w 1 IPoses) = 1%R /\ entry (isees ctg w' 1 IPoses) = 1%R.
Proof. intros [<-|[<-|[<-|[]]]]; repeat split; reflexivity. Qed.
