(** Vocabulary for the statements about transforming layers. *)
From Coq Require Import ZArith List Bool Reals.
From Flocq Require Import Core.
From Verif Require Import F32 F32_lemmas Index_float Types Index Voxel Layer Mesh_spec Interp Interp_spec Transform.
Import ListNotations.
Open Scope Z_scope.

(** the block of the voxel with global index [g], and the voxel's centre as the API
    computes it (C04, C58) *)
Definition block_of (n : Z) (g : idx3) : idx3 := map3 (fun c => c / n) g.
Definition place (n : Z) (s : f32) (g : idx3) : pt3 :=
  computeCoordinatesFromVoxelIndex (new_block_origin n s (block_of n g)) s (map3 (fun c => c mod n) g).
(** the voxel, or the default voxel of a block that does not exist yet *)
Definition old_voxel_at (l : Layer KTsdf) (g : idx3) : TsdfVoxel :=
  match voxel_at l g with Some v => v | None => vdefault KTsdf end.

(** the points the loops visit along an axis: from [lo] in steps, below [hi] *)
Inductive visited (hi step : f32) : f32 -> f32 -> Prop :=
| visit_here lo : flt lo hi = true -> visited hi step lo lo
| visit_next lo x : flt lo hi = true -> visited hi step (fadd lo step) x -> visited hi step lo x.
(** the blocks of the output that are considered: those of the points of a grid, as
    wide as an output block, over a box around the transformed centre of an input block *)
Definition considered (lin : Layer KTsdf) (T : pt3 -> pt3) (bs_out : f32) (bi : idx3) : Prop :=
  exists i b p, l_get lin i = Some b /\
    (let c := T (getCenterPointFromGridIndex i (l_block_size lin)) in
     let r := mark_offset (l_block_size lin) in
     visited (fadd (vx c) r) bs_out (fsub (vx c) r) (vx p) /\
     visited (fadd (vy c) r) bs_out (fsub (vy c) r) (vy p) /\
     visited (fadd (vz c) r) bs_out (fsub (vz c) r) (vz p)) /\
    getGridIndexFromPoint p (fdiv f1 bs_out) = Some bi.

(** a quantity of the eight voxels [xs], blended at the offset [o] *)
Definition blend (f : TsdfVoxel -> R) (xs : list TsdfVoxel) (o : pt3) : R :=
  trilinear (fun i => f (nth i xs (vdefault KTsdf))) (FR (vx o)) (FR (vy o)) (FR (vz o)).
(** [w] is the blend of [xs], when distances are at most [D] and weights at most [W];
    colours are truncated to whole numbers *)
Definition near_blend (B : R) (f : TsdfVoxel -> f32) (xs : list TsdfVoxel) (o : pt3) (x : f32) : Prop :=
  ffin x = true /\ (Rabs (FR x - blend (fun v => FR (f v)) xs o) <= / 2 ^ 14 * B + bpow radix2 (-140))%R.
Definition near_byte (f : Color -> Z) (xs : list TsdfVoxel) (o : pt3) (w : TsdfVoxel) : Prop :=
  0 <= f (t_color w) <= 255 /\ (Rabs (IZR (f (t_color w)) - blend (fun v => IZR (f (t_color v))) xs o) <= 1 + / 32)%R.
Definition blended (D W : R) (xs : list TsdfVoxel) (o : pt3) (w : TsdfVoxel) : Prop :=
  near_blend D t_distance xs o (t_distance w) /\ near_blend W t_weight xs o (t_weight w) /\
  near_byte cr xs o w /\ near_byte cg xs o w /\ near_byte cb xs o w /\ near_byte ca xs o w.

(** What the layer [lin] says about the point [p], written to a voxel that was [old]:
    the blend of the eight voxels around [p] if they are all observed, otherwise the
    voxel [p] lies in, otherwise nothing. [got]: the result counts as data. *)
Definition carried (D W : R) (lin : Layer KTsdf) (p : pt3) (old new : TsdfVoxel) (got : bool) : Prop :=
  let n := l_vps lin in let s := l_size lin in
  exists g o,
    (surrounded n s (vx p) (vx g) /\ surrounded n s (vy p) (vy g) /\ surrounded n s (vz p) (vz g)) /\
    (offset_ok n s (vx p) (vx g) (vx o) /\ offset_ok n s (vy p) (vy g) (vy o) /\ offset_ok n s (vz p) (vz g) (vz o)) /\
    match eight_voxels lin g with
    | Some xs => got = true /\ blended D W xs o new
    | None =>
        exists h, (in_cell n s (vx p) (vx h) /\ in_cell n s (vy p) (vy h) /\ in_cell n s (vz p) (vz h)) /\
        match voxel_at lin h with
        | Some v => new = v /\ got = isObservedVoxel KTsdf v
        | None => new = old /\ got = false
        end
    end.

(** An input layer as the API builds it, with at most 32 voxels per side, distances
    at most [D] and weights at most [W]. *)
Record transformable (D W : R) (lin : Layer KTsdf) : Prop := {
  tf_built : built_layer lin;
  tf_small : l_vps lin <= 32;
  tf_values : forall g v, voxel_at lin g = Some v ->
    ffin (t_distance v) = true /\ (Rabs (FR (t_distance v)) <= D)%R /\ ffin (t_weight v) = true /\ (Rabs (FR (t_weight v)) <= W)%R /\
    0 <= cr (t_color v) <= 255 /\ 0 <= cg (t_color v) <= 255 /\ 0 <= cb (t_color v) <= 255 /\ 0 <= ca (t_color v) <= 255;
  tf_D : (0 <= D <= bpow radix2 100)%R;
  tf_W : (0 <= W <= bpow radix2 100)%R }.
(** finite and within 512 voxels of the origin: further away rounding of coordinates
    can push a blended colour out of a byte, and the conversion is undefined *)
Definition close_by (s : f32) (p : pt3) : Prop :=
  all3 (fun x => ffin x = true /\ (Rabs (FR x / FR s) <= 512)%R) p.
(** the iteration order of a hash set after some insertions *)
Definition set_order (order : list idx3 -> list idx3) : Prop :=
  forall m, NoDup (order m) /\ forall i, In i (order m) <-> In i m.

(** does the block exist and is it flagged to have data? *)
Definition had (l : Layer KTsdf) (bi : idx3) : bool := match l_get l bi with Some b => b_has_data b | None => false end.
(** What happens to a considered block [bi] of an output layer ([n] voxels of size [s]
    per side) that was [l] and is then [l']: every voxel takes what [lin] says about the
    place its centre comes from. The block is kept, and flagged, if it had data or took
    any; otherwise it does not exist afterwards. *)
Definition reworked (D W : R) (lin : Layer KTsdf) (Tinv : pt3 -> pt3) (n : Z) (s : f32) (l l' : Layer KTsdf) (bi : idx3) : Prop :=
  exists (new : idx3 -> TsdfVoxel) (got : idx3 -> bool),
    (forall g, block_of n g = bi -> carried D W lin (Tinv (place n s g)) (old_voxel_at l g) (new g) (got g)) /\
    ((had l bi = true \/ exists g, block_of n g = bi /\ got g = true) /\
       (exists b, l_get l' bi = Some b /\ b_has_data b = true) /\ (forall g, block_of n g = bi -> voxel_at l' g = Some (new g)) \/
     (had l bi = false /\ forall g, block_of n g = bi -> got g = false) /\ l_get l' bi = None).

(** every input block lands within 65536 output blocks of the origin on every axis, and
    is at most 1000 times as large as an output block *)
Definition in_reach (lin : Layer KTsdf) (T : pt3 -> pt3) (bs_out : f32) : Prop :=
  (FR (l_block_size lin) <= 1000 * FR bs_out)%R /\
  forall i b, l_get lin i = Some b ->
    all3 (fun x => ffin x = true /\ (Rabs (FR x / FR bs_out) <= 65536)%R) (T (getCenterPointFromGridIndex i (l_block_size lin))).

(** a transformation that leaves every finite point where it is *)
Definition still (T : pt3 -> pt3) : Prop :=
  forall p, all3 (fun x => ffin x = true) p ->
    all3 (fun x => ffin x = true) (T p) /\ FR (vx (T p)) = FR (vx p) /\ FR (vy (T p)) = FR (vy p) /\ FR (vz (T p)) = FR (vz p).
