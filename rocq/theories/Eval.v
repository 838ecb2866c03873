(** Comparing a layer with ground truth:
    /repo/voxblox/include/voxblox/utils/evaluation_utils.h and
    /repo/voxblox/src/utils/evaluation_utils.cc. Definitions only. *)
From Coq Require Import ZArith List Bool.
From Verif Require Import F32 Types Index Voxel Assoc Layer Planning Interp.
Import ListNotations.
Open Scope Z_scope.

(** evaluation_utils.h:18-23 *)
Inductive emode := EAll | EBehindTest | EBehindGt | EBehindBoth.
(** evaluation_utils.h:16, with the error *)
Inductive vresult := RNoOverlap | RIgnored | REvaluated (e : f32).
(** evaluation_utils.h:25-33 *)
Record edetails := MkDet {
  ed_rmse : f32; ed_max : f32; ed_min : f32;
  ed_evaluated : Z; ed_ignored : Z; ed_overlapping : Z; ed_non_overlapping : Z }.
Definition det0 : edetails := MkDet f0 f0 f0 0 0 0 0.

(** [computeVoxelError], evaluation_utils.cc:10-36 and 38-64; the program has the
    TSDF and the ESDF version, which differ only in the type *)
Definition computeVoxelError (k : vkind) (gt test : vox k) (m : emode) : vresult :=
  if negb (isObservedVoxel k gt) || negb (isObservedVoxel k test) then RNoOverlap
  else
    let ign_test := match m with EBehindTest | EBehindBoth => true | _ => false end in
    let ign_gt := match m with EBehindGt | EBehindBoth => true | _ => false end in
    if (ign_test && flt (getVoxelSdf k test) f0) || (ign_gt && flt (getVoxelSdf k gt) f0) then RIgnored
    else REvaluated (fsub (getVoxelSdf k test) (getVoxelSdf k gt)).
(** [setVoxelSdf(d)] and [setVoxelWeight(1.0)], evaluation_utils.cc:95-117 *)
Definition set_error (k : vkind) (d : f32) : vox k -> vox k :=
  match k with
  | KTsdf => fun v => MkTsdf d f1 (t_color v)
  | KEsdf => fun v => MkEsdf d true (e_hallucinated v) (e_in_queue v) (e_fixed v) (e_parent v)
  | _ => fun v => v
  end.
(** [getVoxelByLinearIndex] without its debug check *)
Definition read_voxel {k} (b : Block k) (i : nat) : res (vox k) := of_opt (nth_error (b_voxels b) i).

(** the loop state: sum of squares, details, voxels of the error block *)
Record eloop (k : vkind) := MkLoop { el_total : f64; el_det : edetails; el_err : option (list (vox k)) }.
Arguments MkLoop {k}. Arguments el_total {k}. Arguments el_det {k}. Arguments el_err {k}.
Definition add_non (d : edetails) : edetails :=
  MkDet (ed_rmse d) (ed_max d) (ed_min d) (ed_evaluated d) (ed_ignored d) (ed_overlapping d) (ed_non_overlapping d + 1).
(** 96-104 and 151-158: voxels of a block the other layer lacks *)
Definition solo_block {k} (n : nat) (b : Block k) (d : edetails) : res edetails :=
  rfold (fun d i => rbind (read_voxel b i) (fun v => Ok (if isObservedVoxel k v then add_non d else d))) (seq 0 n) d.
(** 113-147: one voxel of a block both layers have; [error * error] is a float *)
Definition eval_voxel {k} (m : emode) (gt test : Block k) (s : eloop k) (i : nat) : res (eloop k) :=
  rbind (read_voxel gt i) (fun vg => rbind (read_voxel test i) (fun vt =>
    let d := el_det s in
    match computeVoxelError k vg vt m with
    | REvaluated e =>
        let d' := MkDet (ed_rmse d)
                    (if flt (ed_max d) (fabs e) then fabs e else ed_max d)
                    (if flt (fabs e) (ed_min d) then fabs e else ed_min d)
                    (ed_evaluated d + 1) (ed_ignored d) (ed_overlapping d + 1) (ed_non_overlapping d) in
        let t' := dadd (el_total s) (f64_of_f32 (fmul e e)) in
        match el_err s with
        | None => Ok (MkLoop t' d' None)
        | Some vs => rbind (of_opt (nth_error vs i)) (fun v =>
                     Ok (MkLoop t' d' (Some (Threads.set_th i (set_error k (fabs e) v) vs))))
        end
    | RIgnored =>
        Ok (MkLoop (el_total s)
             (MkDet (ed_rmse d) (ed_max d) (ed_min d) (ed_evaluated d) (ed_ignored d + 1) (ed_overlapping d + 1) (ed_non_overlapping d))
             (el_err s))
    | RNoOverlap => Ok (MkLoop (el_total s) (add_non d) (el_err s))
    end)).
(** 91-148: one block of the test layer; the error layer is another layer than the
    two compared, so its block can be written back at the end *)
Definition eval_block {k} (n : nat) (m : emode) (gt test : Layer k) (s : f64 * edetails * option (Layer k)) (i : idx3)
  : res (f64 * edetails * option (Layer k)) :=
  let '(t, d, el) := s in
  rbind (of_opt (l_get test i)) (fun tb =>
    match l_get gt i with
    | None => rbind (solo_block n tb d) (fun d' => Ok (t, d', el))
    | Some gb =>
        let el1 := option_map (fun l => allocateBlockPtrByIndex l i) el in
        let eb := match el1 with Some l => l_get l i | None => None end in
        rbind (rfold (eval_voxel m gb tb) (seq 0 n) (MkLoop t d (option_map b_voxels eb))) (fun s' =>
        Ok (el_total s', el_det s',
            match el1, el_err s' with
            | Some l, Some vs => Some (set_block l i (set_voxels vs))
            | _, _ => el1
            end))
    end).
(** [evaluateLayersRmse], evaluation_utils.h:74-185: the details and the error
    layer *)
Definition evaluateLayersRmse {k} (gt test : Layer k) (m : emode) (el : option (Layer k))
  : res (edetails * option (Layer k)) :=
  let n := num_voxels (l_vps test) in
  rbind (rfold (eval_block n m gt test) (getAllAllocatedBlocks test) (d0, det0, el)) (fun s =>
  let '(t, d, el') := s in
  rbind (rfold (fun d i => rbind (of_opt (l_get gt i)) (fun gb =>
                  if hasBlock test i then Ok d else solo_block n gb d)) (getAllAllocatedBlocks gt) d) (fun d' =>
  let rmse := if ed_evaluated d' =? 0 then f0
              else f32_of_f64 (dsqrt (ddiv t (f64_of_Z (ed_evaluated d')))) in
  Ok (MkDet rmse (ed_max d') (ed_min d') (ed_evaluated d') (ed_ignored d') (ed_overlapping d') (ed_non_overlapping d'), el'))).
