(** Plane slices through a map: /repo/voxblox/src/core/esdf_map.cc:129-194
    [coordPlaneSliceGetDistance] and /repo/voxblox/src/core/tsdf_map.cc:5-79
    [coordPlaneSliceGetDistanceWeight]. Definitions only. *)
From Coq Require Import ZArith List Bool.
From Verif Require Import F32 Types Assoc Index Voxel Layer Update Ray Interp Grad.
Import ListNotations.
Open Scope Z_scope.

(** write into a vector, [None] outside *)
Fixpoint put {A} (n : nat) (x : A) (l : list A) : option (list A) :=
  match l, n with
  | [], _ => None
  | _ :: l', O => Some (x :: l')
  | y :: l', S n' => option_map (cons y) (put n' x l')
  end.
(** the local variables and the caller's arrays. [count] is an unsigned int in the code; here it is a natural number *)
Record slice : Type := MkSlice { sl_count : nat; sl_fit : bool; sl_positions : list dpt; sl_distances : list f64; sl_weights : list f64 }.
(** block_inl.h:30-35, block.h:104-107 [computeCoordinatesFromLinearIndex] *)
Definition coordinates_of {k} (b : Block k) (lin : nat) : res pt3 :=
  rbind (of_opt (computeVoxelIndexFromLinearIndex (b_vps b) (Z.of_nat lin))) (fun v =>
  Ok (computeCoordinatesFromVoxelIndex (b_origin b) (b_size b) v)).
(** esdf_map.cc:151-154, tsdf_map.cc:40-43: the float coordinate is converted to double *)
Definition far_block {k} (axis : nat) (plane : f64) (b : Block k) : bool :=
  dgt (dabs (dsub (f64_of_f32 (get3 axis (b_origin b))) plane)) (f64_of_f32 (block_size_of (b_vps b) (b_size b))).
Definition near_plane (axis : nat) (plane : f64) (size : f32) (coord : pt3) : bool :=
  dle (dabs (dsub (f64_of_f32 (get3 axis coord)) plane)) (f64_of_f32 size).

Section Loops.
  Context {k : vkind}.
  (** which blocks and voxels are skipped, and the two writes *)
  Variable skip : Block k -> bool.
  Variable ignored : vox k -> bool.
  Variable store : nat -> vox k -> slice -> res slice.
  Variable axis : nat.
  Variable plane : f64.
  Variable max_points : nat.

  (** esdf_map.cc:170-175: the position *)
  Definition store_position (coord : pt3) (st : slice) : slice :=
    match put (A := dpt) (sl_count st) (map3 f64_of_f32 coord) (sl_positions st) with
    | Some ps => MkSlice (sl_count st) (sl_fit st) ps (sl_distances st) (sl_weights st)
    | None => MkSlice (sl_count st) false (sl_positions st) (sl_distances st) (sl_weights st)
    end.
  (** esdf_map.cc:156-186: the voxels of a block; [true]: return *)
  Fixpoint slice_voxels (b : Block k) (lins : list nat) (st : slice) : res (bool * slice) :=
    match lins with
    | [] => Ok (false, st)
    | lin :: lins' =>
        rbind (coordinates_of b lin) (fun coord =>
        rbind (of_opt (nth_error (b_voxels b) lin)) (fun v =>
        if near_plane axis plane (b_size b) coord && negb (ignored v) then
          let st := store_position coord st in
          rbind (store (sl_count st) v st) (fun st =>
          let st := MkSlice (S (sl_count st)) (sl_fit st) (sl_positions st) (sl_distances st) (sl_weights st) in
          if (max_points <=? sl_count st)%nat then Ok (true, st) else slice_voxels b lins' st)
        else slice_voxels b lins' st))
    end.
  (** esdf_map.cc:147-188: the blocks *)
  Fixpoint slice_blocks (l : Layer k) (blocks : list idx3) (st : slice) : res (bool * slice) :=
    match blocks with
    | [] => Ok (false, st)
    | i :: blocks' =>
        match l_get l i with
        | None => Abort
        | Some b =>
            if skip b || far_block axis plane b then slice_blocks l blocks' st
            else rbind (slice_voxels b (seq 0 (Z.to_nat (l_vps l * l_vps l * l_vps l))) st) (fun r =>
                 if fst r then Ok r else slice_blocks l blocks' (snd r))
        end
    end.
  (** the value returned ([None]: the exception) and the arrays *)
  Definition slice_run (l : Layer k) (positions : list dpt) (distances weights : list f64) : res (option nat * slice) :=
    rbind (slice_blocks l (getAllAllocatedBlocks l) (MkSlice 0 true positions distances weights)) (fun r =>
    Ok (if fst r then Some (sl_count (snd r)) else if sl_fit (snd r) then Some (sl_count (snd r)) else None, snd r)).
End Loops.

(** esdf_map.cc:176-180 *)
Definition store_distance (n : nat) (d : f32) (st : slice) : res slice :=
  match put n (f64_of_f32 d) (sl_distances st) with
  | Some ds => Ok (MkSlice (sl_count st) (sl_fit st) (sl_positions st) ds (sl_weights st))
  | None => Ok (MkSlice (sl_count st) false (sl_positions st) (sl_distances st) (sl_weights st))
  end.
(** tsdf_map.cc:59-64: the weight is written without a check of its own (the vector indexing is unchecked in release
    builds) *)
Definition store_distance_weight (n : nat) (v : TsdfVoxel) (st : slice) : res slice :=
  match put n (f64_of_f32 (t_distance v)) (sl_distances st) with
  | Some ds =>
      rbind (of_opt (put n (f64_of_f32 (t_weight v)) (sl_weights st))) (fun ws =>
      Ok (MkSlice (sl_count st) (sl_fit st) (sl_positions st) ds ws))
  | None => Ok (MkSlice (sl_count st) false (sl_positions st) (sl_distances st) (sl_weights st))
  end.
(** esdf_map.cc:129-194 [coordPlaneSliceGetDistance]; [axis] is 0, 1 or 2 *)
Definition esdf_slice (l : Layer KEsdf) (axis : nat) (plane : f64) (positions : list dpt) (distances : list f64) (max_points : nat) : res (option nat * slice) :=
  slice_run (k := KEsdf) (fun _ => false) (fun v => negb (e_observed v)) (fun n v st => store_distance n (e_distance v) st) axis plane max_points l positions distances [].
(** tsdf_map.cc:5-79 [coordPlaneSliceGetDistanceWeight] *)
Definition tsdf_slice (l : Layer KTsdf) (axis : nat) (plane : f64) (positions : list dpt) (distances weights : list f64) (max_points : nat) : res (option nat * slice) :=
  slice_run (k := KTsdf) (fun b => negb (b_has_data b)) (fun _ => false) store_distance_weight axis plane max_points l positions distances weights.
