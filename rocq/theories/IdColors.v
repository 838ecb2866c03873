(** /repo/voxblox/include/voxblox/utils/color_maps.h:122-163 [ExponentialOffsetIdColorMap].
    Definitions only. *)
From Coq Require Import ZArith Bool.
From Verif Require Import F32 Types Voxel ColorMap.
Open Scope Z_scope.

(** [std::floor(std::log2(revolution))] and [std::exp2(current_episode)] of integers below 2^24
    are exact in double precision; [log2(0)] is infinite and its cast undefined *)
Definition episode_of (revolution : Z) : option Z := if 1 <=? revolution then Some (Z.log2 revolution) else None.
(** 143-152: the offset of a revolution, where [items] is [items_per_revolution_] (a float) *)
Definition offset_of (items : f32) (revolution : Z) : option f32 :=
  obind (episode_of revolution) (fun current_episode =>
    let episode_start := u64 (2 ^ current_episode) in
    let current_subdivision := u64 (revolution - episode_start) in
    let step := fdiv f1 (fmul (fmul items (f32_of_Z 2)) (f32_of_Z episode_start)) in
    Some (fmul (f32_of_Z (u64 (2 * current_subdivision + 1))) step)).
(** 134-154 [colorLookup]: the hue, then its colour; [None] is an undefined cast *)
Definition exponential_hue (items : f32) (value : Z) : option f32 :=
  let x := fdiv (f32_of_Z value) items in
  obind (to_uint64 (ftruncZ x)) (fun revolution =>
  obind (fmod1 x) (fun progress =>
  obind (if flt items (f32_of_Z (u64 (value + 1))) then offset_of items revolution else Some f0) (fun offset =>
    Some (fadd progress offset)))).
Definition exponential_id (items : f32) (value : Z) : option Color :=
  obind (exponential_hue items value) (fun h => rainbowColorMap (f64_of_f32 h)).
(** 128-130: ten items by default; [setItemsPerRevolution] converts an unsigned int *)
Definition default_items : f32 := f32_of_Z 10.
