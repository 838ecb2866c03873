(** Vocabulary for the statements about interpolation. *)
From Coq Require Import ZArith List Bool Reals Permutation.
From Verif Require Import F32 F32_lemmas Index_float Types Index Voxel Layer Mesh_spec Interp.
Import ListNotations.
Open Scope Z_scope.

(** the corners of a unit cube in the order in which the eight voxels are numbered:
    z changes fastest *)
Definition corner_no (x y z : nat) : nat := 4 * x + 2 * y + z.
(** linear interpolation between [a] (at 0) and [b] (at 1) *)
Definition lerp (t a b : R) : R := ((1 - t) * a + t * b)%R.
(** trilinear interpolation of the corner values [d] *)
Definition trilinear (d : nat -> R) (x y z : R) : R :=
  lerp x (lerp y (lerp z (d (corner_no 0 0 0)) (d (corner_no 0 0 1))) (lerp z (d (corner_no 0 1 0)) (d (corner_no 0 1 1))))
         (lerp y (lerp z (d (corner_no 1 0 0)) (d (corner_no 1 0 1))) (lerp z (d (corner_no 1 1 0)) (d (corner_no 1 1 1)))).
(** the value of the two matrix products in exact arithmetic *)
Definition rsum (l : list R) : R := fold_right Rplus 0%R l.
Definition exact_q (x y z : R) : list R :=
  [1; x; y; z; x * y; y * z; z * x; x * y * z]%R.
Definition exact_interp (x y z : R) (d : nat -> R) : R :=
  rsum (map (fun j => nth j (exact_q x y z) 0 * rsum (map (fun i => IZR (nth i (nth j interp_table []) 0%Z) * d i) (seq 0 8)))%R (seq 0 8)).
(** an order of summation adds each of the eight terms once *)
Definition complete_order (t : sum_order) : Prop := Permutation (terms t) (seq 0 8).

(** A layer as the API builds it: every block has the layer's geometry, all its
    voxels, and the origin given to a block allocated at its index. *)
Definition built_layer {k} (l : Layer k) : Prop :=
  sane_size (l_size l) /\ 1 <= l_vps l <= 2 ^ 10 /\
  forall i b, l_get l i = Some b ->
    b_vps b = l_vps l /\ b_size b = l_size l /\ b_origin b = new_block_origin (l_vps l) (l_size l) i /\
    Z.of_nat (length (b_voxels b)) = l_vps l * l_vps l * l_vps l.
(** finite coordinates within 2^16 voxels of the origin *)
Definition point_in_range (s : f32) (p : pt3) : Prop :=
  all3 (fun x => ffin x = true /\ (Rabs (FR x / FR s) <= 65536)%R) p.
(** how far rounding can move a voxel border, in voxels, for a coordinate at [t]
    voxels from the origin: a little relative to [t], and the 1e-6 the code adds to
    block coordinates *)
Definition border_tol (vps : Z) (t : R) : R := (/ 1048576 * Rabs t + / 131072 * IZR vps + / 65536)%R.
(** per axis: the centres of the voxels [g] and [g + 1] surround the point *)
Definition surrounded (vps : Z) (s : f32) (x : f32) (g : Z) : Prop :=
  let t := (FR x / FR s)%R in
  (IZR g + / 2 - border_tol vps t <= t <= IZR g + 1 + / 2 + border_tol vps t)%R.
(** the voxel at corner [c] above [g], with its value when observed *)
Definition observed_at {k} (l : Layer k) (g : idx3) : option (vox k) :=
  match voxel_at l g with
  | Some v => if isObservedVoxel k v then Some v else None
  | None => None
  end.
(** the offset used by the interpolation is that of the point from the centre of
    the lowest voxel [g], in voxels, up to rounding, and never negative *)
Definition off_tol (vps : Z) (t : R) : R := (/ 4000000 * Rabs t + / 500000 * IZR vps)%R.
Definition offset_ok (vps : Z) (s x : f32) (g : Z) (o : f32) : Prop :=
  ffin o = true /\ (0 <= FR o <= 1.125)%R /\
  (Rabs (FR o - (FR x / FR s - (IZR g + / 2))) <= off_tol vps (FR x / FR s))%R.
(** the eight voxels from [g] on, in the order of [corner_no], if all are observed *)
Definition eight_corners : list idx3 :=
  [V3 0 0 0; V3 0 0 1; V3 0 1 0; V3 0 1 1; V3 1 0 0; V3 1 0 1; V3 1 1 0; V3 1 1 1].
Definition eight_voxels {k} (l : Layer k) (g : idx3) : option (list (vox k)) :=
  collect (map (fun c => observed_at l (idx_add g c)) eight_corners).
(** per axis: the point lies in the cell of voxel [g], up to rounding *)
Definition in_cell (vps : Z) (s : f32) (x : f32) (g : Z) : Prop :=
  let t := (FR x / FR s)%R in
  (IZR g - border_tol vps t <= t <= IZR g + 1 + border_tol vps t)%R.
