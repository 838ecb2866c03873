(** Neighbourhoods: /repo/voxblox/include/voxblox/utils/neighbor_tools.h and
    /repo/voxblox/src/utils/neighbor_tools.cc. Definitions only. *)
From Coq Require Import ZArith List Bool.
From Verif Require Import F32 Types.
Import ListNotations.
Open Scope Z_scope.

(** neighbor_tools.cc:17-34 [kOffsets] (same table as [kLongOffsets]), by column *)
Definition kOffsets : list idx3 :=
  [ V3 (-1) 0 0; V3 1 0 0; V3 0 (-1) 0; V3 0 1 0; V3 0 0 (-1); V3 0 0 1;
    V3 (-1) (-1) 0; V3 (-1) 1 0; V3 1 (-1) 0; V3 1 1 0;
    V3 0 (-1) (-1); V3 0 (-1) 1; V3 0 1 (-1); V3 0 1 1;
    V3 (-1) 0 (-1); V3 1 0 (-1); V3 (-1) 0 1; V3 1 0 1;
    V3 (-1) (-1) (-1); V3 (-1) (-1) 1; V3 (-1) 1 (-1); V3 (-1) 1 1;
    V3 1 (-1) (-1); V3 1 (-1) 1; V3 1 1 (-1); V3 1 1 1 ].

(** neighbor_tools.cc:5-15 [kDistances]: [std::sqrt(2)] and [std::sqrt(3)] are
    computed in double and narrowed to float. *)
Definition sqrt2f : f32 := f32_of_f64 (dsqrt (f64_of_Z 2)).
Definition sqrt3f : f32 := f32_of_f64 (dsqrt (f64_of_Z 3)).
Definition kDistances : list f32 :=
  repeat f1 6 ++ repeat sqrt2f 12 ++ repeat sqrt3f 8.

(** neighbor_tools.h:9-13 [Connectivity]: 6, 18 or 26 *)
Inductive connectivity := kSix | kEighteen | kTwentySix.
Definition conn_num (c : connectivity) : nat :=
  match c with kSix => 6 | kEighteen => 18 | kTwentySix => 26 end.

(** neighbor_tools.h:46-52 [getFromGlobalIndex] *)
Definition getFromGlobalIndex (c : connectivity) (g : idx3) : list idx3 :=
  map (idx_add g) (firstn (conn_num c) kOffsets).

(** neighbor_tools.h:71-81: the two while loops of one axis. [None] means the
    fuel ran out (a loop that would not terminate). *)
Fixpoint carry_up (fuel : nat) (vps b v : Z) : option (Z * Z) :=
  if v <? 0 then
    match fuel with O => None | S f => carry_up f vps (b - 1) (v + vps) end
  else Some (b, v).
Fixpoint carry_down (fuel : nat) (vps b v : Z) : option (Z * Z) :=
  if vps <=? v then
    match fuel with O => None | S f => carry_down f vps (b + 1) (v - vps) end
  else Some (b, v).
Definition carry_axis (vps b v : Z) : option (Z * Z) :=
  match carry_up (Z.to_nat (Z.abs v)) vps b v with
  | Some (b', v') => carry_down (Z.to_nat (Z.abs v')) vps b' v'
  | None => None
  end.

(** neighbor_tools.h:60-82 [getFromBlockAndVoxelIndexAndDirection]. int32
    overflow of block indices is not modelled. *)
Definition getFromBlockAndVoxelIndexAndDirection (b v d : idx3) (vps : Z)
  : res (option (idx3 * idx3)) :=
  if vps <=? 0 then Abort
  else
    let v' := idx_add v d in
    match carry_axis vps (vx b) (vx v'), carry_axis vps (vy b) (vy v'),
          carry_axis vps (vz b) (vz v') with
    | Some (bx, nx), Some (by_, ny), Some (bz, nz) =>
        Ok (Some (V3 bx by_ bz, V3 nx ny nz))
    | _, _, _ => Ok None
    end.

(** neighbor_tools.h:90-102 [getFromBlockAndVoxelIndex] *)
Definition getFromBlockAndVoxelIndex (c : connectivity) (b v : idx3) (vps : Z)
  : list (res (option (idx3 * idx3))) :=
  map (fun d => getFromBlockAndVoxelIndexAndDirection b v d vps)
      (firstn (conn_num c) kOffsets).

(** neighbor_tools.h:105-113 [getOffsetBetweenVoxels]; int32 overflow not
    modelled. *)
Definition getOffsetBetweenVoxels (sb sv eb ev : idx3) (vps : Z) : res idx3 :=
  if vps =? 0 then Abort
  else Ok (idx_add (idx_sub ev sv) (map3 (fun c => c * vps) (idx_sub eb sb))).
