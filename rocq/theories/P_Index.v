(** Properties C01 - C04 and C58: indices and coordinates. *)
From Coq Require Import ZArith Reals Lia Lra.
From Flocq Require Import Core.
From Verif Require Import F32 F32_lemmas Types Index Index_proofs Index_float.
Open Scope Z_scope.

(** C01. The full statement ranges over all (int64) global indices; it holds
    up to 2^24 per axis and fails beyond ([C01_refuted]). *)
Theorem C01_split_then_join_partial : forall (k : Z) (g : idx3),
  0 <= k <= 30 -> all3 (fun c => Z.abs c <= 2 ^ 24) g ->
  exists b v, getBlockAndVoxelIndexFromGlobalVoxelIndex g (2 ^ k) = Ok (b, v) /\
    all3 (fun c => 0 <= c < 2 ^ k) v /\
    getGlobalVoxelIndexFromBlockAndVoxelIndex b v (2 ^ k) = g.
Proof. intros; apply split_join; auto. Qed.
Print Assumptions C01_split_then_join_partial.

Theorem C01_join_then_split_partial : forall (k : Z) (b v : idx3),
  0 <= k <= 30 -> all3 (fun c => 0 <= c < 2 ^ k) v ->
  all3 (fun c => Z.abs c <= 2 ^ 24) (getGlobalVoxelIndexFromBlockAndVoxelIndex b v (2 ^ k)) ->
  getBlockAndVoxelIndexFromGlobalVoxelIndex
    (getGlobalVoxelIndexFromBlockAndVoxelIndex b v (2 ^ k)) (2 ^ k) = Ok (b, v).
Proof. intros; apply join_split; auto. Qed.
Print Assumptions C01_join_then_split_partial.

(** What a layer consults for a global index: floor division and remainder. *)
Theorem C01_layer_address_partial : forall (k : Z) (g : idx3),
  0 <= k <= 24 -> all3 (fun c => Z.abs c <= 2 ^ 24) g ->
  layerAddressOfGlobalIndex g (2 ^ k) =
  Ok (map3 (fun c => c / 2 ^ k) g, map3 (fun c => c mod 2 ^ k) g).
Proof. exact (fun k g H1 H2 => layer_split_spec g k H1 H2). Qed.
Print Assumptions C01_layer_address_partial.

(** The mask computing the local index alone is right on (almost) all of int64. *)
Theorem C01_local_index : forall (k : Z) (g : idx3), 0 <= k <= 30 ->
  all3 (fun c => - 2 ^ 63 + 2 ^ 31 <= c < 2 ^ 63) g ->
  getLocalFromGlobalVoxelIndex g (2 ^ k) = Ok (map3 (fun c => c mod 2 ^ k) g).
Proof. exact (fun k g H1 H2 => localIndex_spec g k H1 H2). Qed.
Print Assumptions C01_local_index.

(** Beyond 2^24 a global index is split into the address of another voxel. *)
Theorem C01_refuted : exists (g b v : idx3),
  all3 (fun c => Z.abs c <= 2 ^ 24 + 1) g /\
  getBlockAndVoxelIndexFromGlobalVoxelIndex g 16 = Ok (b, v) /\
  getGlobalVoxelIndexFromBlockAndVoxelIndex b v 16 <> g.
Proof.
  exists (V3 (-16777217) 0 0), (V3 (-1048576) 0 0), (V3 15 0 0).
  split; [repeat split; simpl; lia|]. split; [vm_compute; reflexivity|discriminate].
Qed.
Print Assumptions C01_refuted.

Example C01_example :
  getBlockAndVoxelIndexFromGlobalVoxelIndex (V3 (-1) 37 (-16)) 16 =
    Ok (V3 (-1) 2 (-1), V3 15 5 0).
Proof. vm_compute. reflexivity. Qed.

(** C02. [vps^3 <= 2^31]: the code stores the linear index in an [int]. *)
Theorem C02_linear_of_voxel : forall vps i, 0 < vps -> vps * vps * vps <= 2 ^ 31 ->
  all3 (fun c => 0 <= c < vps) i ->
  0 <= computeLinearIndexFromVoxelIndex vps i < vps * vps * vps /\
  computeVoxelIndexFromLinearIndex vps (computeLinearIndexFromVoxelIndex vps i) = Some i.
Proof.
  intros vps i H1 H2 H3. split; [|apply linear_roundtrip; auto].
  apply linear_lt; auto. lia.
Qed.
Print Assumptions C02_linear_of_voxel.

Theorem C02_voxel_of_linear : forall vps l, 0 < vps -> vps * vps * vps <= 2 ^ 31 ->
  0 <= l < vps * vps * vps ->
  exists i, computeVoxelIndexFromLinearIndex vps l = Some i /\
    all3 (fun c => 0 <= c < vps) i /\ computeLinearIndexFromVoxelIndex vps i = l.
Proof. exact linear_inverse. Qed.
Print Assumptions C02_voxel_of_linear.

(** A block with more than 2^31 voxels breaks the bijection. *)
Theorem C02_refuted_huge_blocks : exists l i,
  0 <= l < 1291 * 1291 * 1291 /\
  computeVoxelIndexFromLinearIndex 1291 l = Some i /\ vz i < 0.
Proof.
  exists (2 ^ 31). eexists. split; [lia|]. split; [vm_compute; reflexivity|reflexivity].
Qed.
Print Assumptions C02_refuted_huge_blocks.

Example C02_example : computeLinearIndexFromVoxelIndex 16 (V3 3 5 15) = 3923 /\
  computeVoxelIndexFromLinearIndex 16 3923 = Some (V3 3 5 15).
Proof. split; vm_compute; reflexivity. Qed.

(** C03. For every float whatsoever the looked-up voxel is inside the block. *)
Theorem C03_lookup_stays_inside : forall vps origin inv c i, 0 < vps ->
  computeTruncatedVoxelIndexFromCoordinates vps origin inv c = Some i ->
  all3 (fun n => 0 <= n < vps) i.
Proof.
  intros vps origin inv c i Hv H. unfold computeTruncatedVoxelIndexFromCoordinates in H.
  destruct (computeVoxelIndexFromCoordinates origin inv c); [|discriminate].
  injection H as <-. repeat split; simpl; apply clamp_axis_range; auto.
Qed.
Print Assumptions C03_lookup_stays_inside.

(** With [t] the exact position in voxel units: the containing voxel if [t] is
    further than [ltol] from a voxel boundary, the border voxel if outside. *)
Theorem C03_lookup_is_nearest : forall vps o c s, sane_size s -> 1 <= vps <= 2 ^ 16 ->
  all3 (fun x => ffin x = true) o -> all3 (fun x => ffin x = true) c ->
  all3 (fun t => Rabs t <= bpow radix2 23)%R
       (zip3 (fun ci oi => (FR ci - FR oi) / FR s)%R c o) ->
  exists i, computeTruncatedVoxelIndexFromCoordinates vps o (inv_of s) c = Some i /\
    all3 (fun n => 0 <= n < vps) i /\
    all3 (fun nt : Z * R =>
      let (n, t) := nt in
      (forall v, 0 <= v < vps ->
         (IZR v + (7 * / 16777216 * IZR vps + / 131072) <= t
          < IZR v + 1 - (7 * / 16777216 * IZR vps + / 131072))%R -> n = v) /\
      ((t < 0)%R -> n = 0) /\
      ((IZR vps + (7 * / 16777216 * IZR vps + / 131072) <= t)%R -> n = vps - 1))
     (zip3 pair i (zip3 (fun ci oi => (FR ci - FR oi) / FR s)%R c o)).
Proof. exact truncated_contains. Qed.
Print Assumptions C03_lookup_is_nearest.

(** A point far outside the block: clamped on each axis (voxel size 0.25). *)
Example C03_example :
  computeTruncatedVoxelIndexFromCoordinates 16 (V3 f0 f0 f0) (inv_of (f32_lit 1 (-2)))
    (V3 (f32_lit (-100) 0) (f32_lit 5 (-1)) (f32_lit 1000 0)) = Some (V3 0 10 15).
Proof. vm_compute. reflexivity. Qed.

Example C03_hypotheses : sane_size (f32_lit 1 (-2)).
Proof.
  assert (E : FR (f32_lit 1 (-2)) = (1 * bpow radix2 (-2))%R).
  { destruct (f32_lit_R 1 (-2)) as (E & _); rewrite rnd32_exact in * by lia; auto.
    rewrite Rmult_1_l, Rabs_pos_eq by apply bpow_ge_0. apply bpow_lt; lia. }
  split; [reflexivity|]. rewrite E, Rmult_1_l. split; apply bpow_le; lia.
Qed.

(** C04, grid level. *)
Theorem C04_centre_maps_back : forall i s, sane_size s ->
  all3 (fun c => Z.abs c <= 2 ^ 20) i ->
  getGridIndexFromPoint (getCenterPointFromGridIndex i s) (inv_of s) = Some i.
Proof. exact grid_center_back. Qed.
Print Assumptions C04_centre_maps_back.

(** C04, layer level: the centre of voxel [v] of block [b] is found again in
    block [b] at voxel [v]. *)
Theorem C04_layer_voxel_maps_back : forall vps s b v, sane_size s -> 1 <= vps <= 2 ^ 10 ->
  all3 (fun c => Z.abs c * vps <= 2 ^ 19) b -> all3 (fun c => 0 <= c < vps) v ->
  let c := computeCoordinatesFromVoxelIndex (new_block_origin vps s b) s v in
  computeBlockIndexFromCoordinates vps s c = Some b /\
  computeTruncatedVoxelIndexFromCoordinates vps (new_block_origin vps s b) (inv_of s) c = Some v.
Proof. exact layer_voxel_back. Qed.
Print Assumptions C04_layer_voxel_maps_back.

Example C04_example :
  getGridIndexFromPoint (getCenterPointFromGridIndex (V3 (-1048576) 7 1048575) (fbits 0x3dcccccd))
    (inv_of (fbits 0x3dcccccd)) = Some (V3 (-1048576) 7 1048575).
Proof. vm_compute. reflexivity. Qed.

(** C58. The index recovered from the origin of a block is the index the block
    was created for. *)
Theorem C58_block_index_of_origin : forall vps s b, sane_size s -> 1 <= vps <= 2 ^ 16 ->
  all3 (fun c => Z.abs c <= 2 ^ 20) b ->
  block_index vps s (new_block_origin vps s b) = Some b.
Proof. exact origin_back. Qed.
Print Assumptions C58_block_index_of_origin.

Example C58_example :
  block_index 16 (fbits 0x3dcccccd) (new_block_origin 16 (fbits 0x3dcccccd) (V3 (-1048576) 12345 1))
   = Some (V3 (-1048576) 12345 1).
Proof. vm_compute. reflexivity. Qed.
