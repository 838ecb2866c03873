(** Voxel types, voxel merging and colour blending. Definitions only. *)
From Coq Require Import ZArith List Bool String Ascii.
From Verif Require Import F32 Types.
Import ListNotations.
Open Scope Z_scope.

(** common.h:94-104 [Color]; the channels are uint8 ([color_ok]). *)
Record Color : Type := MkColor { cr : Z; cg : Z; cb : Z; ca : Z }.
Definition is_byte (z : Z) : Prop := 0 <= z < 256.
Definition color_ok (c : Color) : Prop :=
  is_byte (cr c) /\ is_byte (cg c) /\ is_byte (cb c) /\ is_byte (ca c).
Definition color0 : Color := MkColor 0 0 0 0.

(** voxel.h:12-16 *)
Record TsdfVoxel : Type := MkTsdf { t_distance : f32; t_weight : f32; t_color : Color }.
(** voxel.h:18-37 *)
Record EsdfVoxel : Type := MkEsdf {
  e_distance : f32; e_observed : bool; e_hallucinated : bool;
  e_in_queue : bool; e_fixed : bool; e_parent : idx3 }.
(** voxel.h:39-42 *)
Record OccupancyVoxel : Type := MkOcc { o_log : f32; o_observed : bool }.
(** voxel.h:44-47 *)
Record IntensityVoxel : Type := MkInt { i_intensity : f32; i_weight : f32 }.

(** The four serializable instantiations of the template parameter. *)
Inductive vkind : Type := KTsdf | KEsdf | KOcc | KInt.
Definition vox (k : vkind) : Type :=
  match k with
  | KTsdf => TsdfVoxel | KEsdf => EsdfVoxel | KOcc => OccupancyVoxel | KInt => IntensityVoxel
  end.
(** default member initialisers, voxel.h:12-47 *)
Definition vdefault (k : vkind) : vox k :=
  match k with
  | KTsdf => MkTsdf f0 f0 color0
  | KEsdf => MkEsdf f0 false false false false (V3 0 0 0)
  | KOcc => MkOcc f0 false
  | KInt => MkInt f0 f0
  end.
(** values a C++ object can hold: uint8 channels, int32 parent components *)
Definition vox_ok (k : vkind) : vox k -> Prop :=
  match k with
  | KTsdf => fun v => color_ok (t_color v)
  | KEsdf => fun v => all3 is_int32 (e_parent v)
  | KOcc => fun _ => True
  | KInt => fun _ => True
  end.
(** voxel.h:50-81 [getVoxelType] *)
Definition voxel_type (k : vkind) : string :=
  match k with
  | KTsdf => "tsdf" | KEsdf => "esdf" | KOcc => "occupancy" | KInt => "intensity"
  end.

(** common.h:105-125 [Color::blendTwoColors]: one channel. [uint8 * float] is a
    float product of the converted integer; [round] then a cast to uint8, which
    is undefined (None) outside 0..255 and for NaN. *)
Definition blend_channel (a : Z) (wa : f32) (b : Z) (wb : f32) : option Z :=
  to_uint8 (froundZ (fadd (fmul (f32_of_Z a) wa) (fmul (f32_of_Z b) wb))).
Definition blendTwoColors (c1 : Color) (w1 : f32) (c2 : Color) (w2 : f32) : option Color :=
  let total := fadd w1 w2 in
  let w1 := fdiv w1 total in
  let w2 := fdiv w2 total in
  match blend_channel (cr c1) w1 (cr c2) w2, blend_channel (cg c1) w1 (cg c2) w2,
        blend_channel (cb c1) w1 (cb c2) w2, blend_channel (ca c1) w1 (ca c2) w2 with
  | Some r, Some g, Some b, Some a => Some (MkColor r g b a)
  | _, _, _, _ => None
  end.

(** src/utils/voxel_utils.cc:9-22 *)
Definition merge_tsdf (a b : TsdfVoxel) : option TsdfVoxel :=
  let w := fadd (t_weight a) (t_weight b) in
  if flt f0 w then
    let d := fdiv (fadd (fmul (t_distance a) (t_weight a))
                        (fmul (t_distance b) (t_weight b))) w in
    match blendTwoColors (t_color a) (t_weight a) (t_color b) (t_weight b) with
    | Some c => Some (MkTsdf d w c)
    | None => None
    end
  else Some b.
(** src/utils/voxel_utils.cc:24-32 *)
Definition merge_esdf (a b : EsdfVoxel) : EsdfVoxel :=
  let d :=
    if e_observed a && e_observed b then
      fdiv (fadd (e_distance a) (e_distance b)) (f32_of_Z 2)
    else if e_observed a && negb (e_observed b) then e_distance a
    else e_distance b in
  MkEsdf d (e_observed b || e_observed a) (e_hallucinated b) (e_in_queue b)
         (e_fixed b) (e_parent b).
(** src/utils/voxel_utils.cc:34-39 *)
Definition merge_occ (a b : OccupancyVoxel) : OccupancyVoxel :=
  MkOcc (fadd (o_log b) (o_log a)) (o_observed b || o_observed a).

(** voxel_utils.h:9-20 [mergeVoxelAIntoVoxelB]: there is no specialization for
    [IntensityVoxel], a program using it does not link; [None] stands for that
    and for undefined colour casts. *)
Definition merge_vox (k : vkind) : vox k -> vox k -> option (vox k) :=
  match k with
  | KTsdf => merge_tsdf
  | KEsdf => fun a b => Some (merge_esdf a b)
  | KOcc => fun a b => Some (merge_occ a b)
  | KInt => fun _ _ => None
  end.
