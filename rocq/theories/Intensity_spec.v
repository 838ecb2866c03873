(** Vocabulary for C53 and C67. *)
From Coq Require Import ZArith Reals List.
From Verif Require Import F32 Types Index Voxel Serialize Assoc Layer Threads Planning Ray Intensity.
Import ListNotations.
Open Scope Z_scope.

(** what is stored at an address; a voxel of a missing block has never been seen *)
Definition content (l : Layer KInt) (a : addr) : IntensityVoxel :=
  match vat l a with Some v => v | None => vdefault KInt end.
(** all blocks have the shape and place the layer gives them *)
Definition regular {k} (l : Layer k) : Prop :=
  forall i b, l_get l i = Some b ->
    b_vps b = l_vps l /\ b_size b = l_size l /\ b_origin b = new_block_origin (l_vps l) (l_size l) i /\
    length (b_voxels b) = num_voxels (l_vps l).
(** the address of [p] clamped into block [bi] of a layer *)
Definition clamped_addr {k} (l : Layer k) (bi : idx3) (p : pt3) (a : addr) : Prop :=
  exists v, computeTruncatedVoxelIndexFromCoordinates (l_vps l) (new_block_origin (l_vps l) (l_size l) bi)
              (inv_of (l_size l)) p = Some v /\
            a = (bi, Z.to_nat (computeLinearIndexFromVoxelIndex (l_vps l) v)).
(** the address of the voxel that contains [p]: in the block that contains it *)
Definition home {k} (l : Layer k) (p : pt3) (a : addr) : Prop :=
  exists bi, computeBlockIndexFromCoordinates (l_vps l) (l_size l) p = Some bi /\ clamped_addr l bi p a.
(** weights are whole numbers up to 100 *)
Definition weight_is (v : IntensityVoxel) (n : Z) : Prop :=
  ffin (i_weight v) = true /\ FR (i_weight v) = IZR n.
Definition weights_ok (l : Layer KInt) : Prop :=
  forall a, exists n, 0 <= n <= 100 /\ weight_is (content l a) n.
(** an observed voxel closer to the surface than a voxel side *)
Definition near_surface (l : Layer KTsdf) (p : pt3) : Prop :=
  exists a v, home l p a /\ vat l a = Some v /\
    dlt (f64_of_f32 (t_weight v)) (dbits 0x3eb0c6f7a0b5ed8d) = false /\  (* 1e-6 *)
    flt (t_distance v) (l_size l) = true.
(** the point ([x], [y], [z]) lies in the closed cube of the voxel at [a] *)
Definition in_voxel {k} (l : Layer k) (a : addr) (x y z : R) : Prop :=
  exists v, all3 (fun c => 0 <= c < l_vps l) v /\
    snd a = Z.to_nat (vx v + l_vps l * (vy v + vz v * l_vps l)) /\
    let side (b c : Z) (q : R) :=
      (IZR (b * l_vps l + c) * FR (l_size l) <= q <= IZR (b * l_vps l + c + 1) * FR (l_size l))%R in
    side (vx (fst a)) (vx v) x /\ side (vy (fst a)) (vy v) y /\ side (vz (fst a)) (vz v) z.
