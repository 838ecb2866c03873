(** /repo/voxblox/include/voxblox/interpolator/interpolator_inl.h. Definitions only.
    A query answers [Ok None] for [return false]. *)
From Coq Require Import ZArith List Bool.
From Verif Require Import F32 Types Index Voxel Layer.
Import ListNotations.
Open Scope Z_scope.

(** evaluation_utils.cc:70-83 [isObservedVoxel]; the weight is compared with the
    double 1e-6 *)
Definition d1em6 : f64 := dbits 0x3eb0c6f7a0b5ed8d.
Definition isObservedVoxel (k : vkind) : vox k -> bool :=
  match k with
  | KTsdf => fun v => dgt (f64_of_f32 (t_weight v)) d1em6
  | KEsdf => fun v => e_observed v
  | _ => fun _ => false
  end.
(** interpolator_inl.h:395-404 [getVoxelSdf]; the program has it for these two types
    only, the value for the others is never used *)
Definition getVoxelSdf (k : vkind) : vox k -> f32 :=
  match k with
  | KTsdf => fun v => t_distance v
  | KEsdf => fun v => e_distance v
  | _ => fun _ => f0
  end.

(** interpolator_inl.h:171-183, one axis: move to the lower neighbour when the
    point lies below the voxel's centre, into the block before if needed *)
Definition set_axis (vps : Z) (off : f32) (b v : Z) : Z * Z :=
  if flt off f0 then
    if v - 1 <? 0 then (b - 1, v - 1 + vps) else (b, v - 1)
  else (b, v).
(** interpolator_inl.h:155-198 [setIndexes]: the block index and the voxel index of
    the lowest of the eight voxels; the others are offsets added to it *)
Definition setIndexes {k} (l : Layer k) (pos : pt3) : res (option (idx3 * idx3)) :=
  rbind (of_opt (computeBlockIndexFromCoordinates (l_vps l) (l_size l) pos)) (fun bi =>
    match l_get l bi with
    | None => Ok None
    | Some b =>
        rbind (of_opt (computeTruncatedVoxelIndexFromCoordinates (b_vps b) (b_origin b) (inv_of (b_size b)) pos)) (fun v =>
          let off := pt_sub pos (computeCoordinatesFromVoxelIndex (b_origin b) (b_size b) v) in
          let ax := set_axis (b_vps b) (vx off) (vx bi) (vx v) in
          let ay := set_axis (b_vps b) (vy off) (vy bi) (vy v) in
          let az := set_axis (b_vps b) (vz off) (vz bi) (vz v) in
          Ok (Some (V3 (fst ax) (fst ay) (fst az), V3 (snd ax) (snd ay) (snd az))))
    end).
(** interpolator_inl.h:188-193, the columns of the table *)
Definition interp_offsets : list idx3 :=
  [V3 0 0 0; V3 0 0 1; V3 0 1 0; V3 0 1 1; V3 1 0 0; V3 1 0 1; V3 1 1 0; V3 1 1 1].
(** interpolator_inl.h:235-242: a voxel index that is too large belongs to the next
    block *)
Definition wrap_axis (vps b v : Z) : Z * Z := if vps <=? v then (b + 1, v - vps) else (b, v).
(** interpolator_inl.h:200-223 [getQVector]: the offset in voxels; CHECK that no
    component is negative (or NaN) *)
Definition voxel_offset (voxel_pos pos : pt3) (inv : f32) : pt3 :=
  map3 (fun x => fmul x inv) (pt_sub pos voxel_pos).
Definition q_vector (o : pt3) : list f32 :=
  [f1; vx o; vy o; vz o; fmul (vx o) (vy o); fmul (vy o) (vz o); fmul (vz o) (vx o);
   fmul (fmul (vx o) (vy o)) (vz o)].
Definition getQVector (voxel_pos pos : pt3) (inv : f32) : res pt3 :=
  let o := voxel_offset voxel_pos pos inv in
  if fge (vx o) f0 && fge (vy o) f0 && fge (vz o) f0 then Ok o else Abort.
(** interpolator_inl.h:225-270 [getVoxelsAndQVector]: the loop. The result is the
    offset vector (of which the Q vector is a function) and the voxels. *)
Fixpoint fetch_voxels {k} (l : Layer k) (bi v : idx3) (pos : pt3) (cols : list idx3) (first : bool) (q : pt3)
  : res (option (pt3 * list (vox k))) :=
  match cols with
  | [] => Ok (Some (q, []))
  | c :: cols' =>
      match l_get l bi with
      | None => Ok None
      | Some b0 =>
          let w := idx_add v c in
          let ax := wrap_axis (b_vps b0) (vx bi) (vx w) in
          let ay := wrap_axis (b_vps b0) (vy bi) (vy w) in
          let az := wrap_axis (b_vps b0) (vz bi) (vz w) in
          match l_get l (V3 (fst ax) (fst ay) (fst az)) with
          | None => Ok None
          | Some b =>
              let w := V3 (snd ax) (snd ay) (snd az) in
              rbind (if first then getQVector (computeCoordinatesFromVoxelIndex (b_origin b) (b_size b) w) pos (inv_of (b_size b))
                     else Ok q) (fun q' =>
                rbind (of_opt (nth_error (b_voxels b) (Z.to_nat (computeLinearIndexFromVoxelIndex (b_vps b) w)))) (fun x =>
                  if isObservedVoxel k x then
                    rbind (fetch_voxels l bi v pos cols' false q') (fun r =>
                      match r with
                      | None => Ok None
                      | Some (q'', xs) => Ok (Some (q'', x :: xs))
                      end)
                  else Ok None))
          end
      end
  end.
(** interpolator_inl.h:272-283 *)
Definition getVoxelsAndQVector {k} (l : Layer k) (pos : pt3) : res (option (pt3 * list (vox k))) :=
  rbind (setIndexes l pos) (fun r =>
    match r with
    | None => Ok None
    | Some (bi, v) => fetch_voxels l bi v pos interp_offsets true (V3 f0 f0 f0)
    end).

(** interpolator_inl.h:457-470, the table *)
Definition interp_table : list (list Z) :=
  [[1; 0; 0; 0; 0; 0; 0; 0];
   [-1; 0; 0; 0; 1; 0; 0; 0];
   [-1; 0; 1; 0; 0; 0; 0; 0];
   [-1; 1; 0; 0; 0; 0; 0; 0];
   [1; 0; -1; 0; -1; 0; 1; 0];
   [1; -1; -1; 1; 0; 0; 0; 0];
   [1; -1; 0; 0; -1; 1; 0; 0];
   [-1; 1; 1; -1; 1; -1; -1; 1]].
(** The products of Eigen vectors add eight terms in an order that depends on the
    vectorisation. An order is a binary tree over the numbers of the terms (adding
    to a zero accumulator is exact and left out). *)
Inductive sum_order : Type := Term (i : nat) | Plus (a b : sum_order).
Fixpoint terms (t : sum_order) : list nat :=
  match t with Term i => [i] | Plus a b => terms a ++ terms b end.
Fixpoint ordered_sum (t : sum_order) (x : nat -> f32) : f32 :=
  match t with Term i => x i | Plus a b => fadd (ordered_sum a x) (ordered_sum b x) end.
(** interpolator_inl.h:446-474 [interpMember]: row products in the orders [rows],
    the final product in the order [top] *)
Definition interpMember (rows : nat -> sum_order) (top : sum_order) (q : list f32) (data : list f32) : f32 :=
  let row j := ordered_sum (rows j) (fun i => fmul (f32_of_Z (nth i (nth j interp_table []) 0)) (nth i data f0)) in
  ordered_sum top (fun j => fmul (nth j q f0) (row j)).
(** interpolator_inl.h:285-299 [getInterpDistance] *)
Definition getInterpDistance {k} (rows : nat -> sum_order) (top : sum_order) (l : Layer k) (pos : pt3) : res (option f32) :=
  rbind (getVoxelsAndQVector l pos) (fun r =>
    match r with
    | None => Ok None
    | Some (o, xs) => Ok (Some (interpMember rows top (q_vector o) (map (getVoxelSdf k) xs)))
    end).
(** interpolator_inl.h:301-317 [getNearestDistance]: the distance (written even
    when the answer is false) and the answer *)
Definition getNearestVoxel {k} (l : Layer k) (pos : pt3) : res (option (vox k)) :=
  rbind (of_opt (computeBlockIndexFromCoordinates (l_vps l) (l_size l) pos)) (fun bi =>
    match l_get l bi with
    | None => Ok None
    | Some b =>
        rbind (of_opt (computeTruncatedVoxelIndexFromCoordinates (b_vps b) (b_origin b) (inv_of (b_size b)) pos)) (fun v =>
          rbind (of_opt (nth_error (b_voxels b) (Z.to_nat (computeLinearIndexFromVoxelIndex (b_vps b) v)))) (fun x => Ok (Some x)))
    end).
Definition getNearestDistance {k} (l : Layer k) (pos : pt3) : res (option f32) :=
  rbind (getNearestVoxel l pos) (fun r =>
    match r with
    | Some x => if isObservedVoxel k x then Ok (Some (getVoxelSdf k x)) else Ok None
    | None => Ok None
    end).
