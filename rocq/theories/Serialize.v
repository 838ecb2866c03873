(** Block voxel serialization to 32-bit words,
    /repo/voxblox/src/core/block.cc. Definitions only. *)
From Coq Require Import ZArith List Bool.
From Verif Require Import F32 Types Voxel.
Import ListNotations.
Open Scope Z_scope.

(** block.cc:27-32: clamp to int8 range (the DCHECKs at 14-21 vanish in release
    builds) *)
Definition clamp_i8 (z : Z) : Z := Z.min 127 (Z.max z (-128)).
(** block.cc:8-40 [serializeDirection] on [*data == 0]. [int8 << n] is computed
    in [int] after sign extension and converted to uint32; the left shift of a
    negative value, formally undefined before C++20, is two's complement as
    defined by the compilers used. *)
Definition serializeDirection (p : idx3) : Z :=
  Z.lor (Z.lor (u32 (Z.shiftl (clamp_i8 (vx p)) 24))
               (u32 (Z.shiftl (clamp_i8 (vy p)) 16)))
        (u32 (Z.shiftl (clamp_i8 (vz p)) 8)).
(** conversion of a byte to int8 *)
Definition sext8 (b : Z) : Z := if b <? 128 then b else b - 256.
(** block.cc:42-62 [deserializeDirection] *)
Definition deserializeDirection (d : Z) : idx3 :=
  V3 (sext8 (Z.land (Z.shiftr d 24) 255))
     (sext8 (Z.land (Z.shiftr d 16) 255))
     (sext8 (Z.land (Z.shiftr d 8) 255)).

(** block.cc:159-183, one voxel *)
Definition ser_tsdf (v : TsdfVoxel) : list Z :=
  let c := t_color v in
  [fword (t_distance v); fword (t_weight v);
   Z.lor (Z.lor (Z.lor (ca c) (Z.shiftl (cb c) 8)) (Z.shiftl (cg c) 16))
         (Z.shiftl (cr c) 24)].
(** block.cc:65-90, one voxel *)
Definition deser_tsdf (w1 w2 w3 : Z) : TsdfVoxel :=
  MkTsdf (fbits w1) (fbits w2)
    (MkColor (Z.shiftr w3 24 mod 256)
             (Z.shiftr (Z.land w3 0xFF0000) 16 mod 256)
             (Z.shiftr (Z.land w3 0xFF00) 8 mod 256)
             (Z.land w3 0xFF mod 256)).
(** block.cc:185-201 *)
Definition ser_occ (v : OccupancyVoxel) : list Z :=
  [fword (o_log v); if o_observed v then 1 else 0].
(** block.cc:92-109 *)
Definition deser_occ (w1 w2 : Z) : OccupancyVoxel :=
  MkOcc (fbits w1) (negb (Z.land w2 0xFF =? 0)).
(** block.cc:203-234 *)
Definition ser_esdf (v : EsdfVoxel) : list Z :=
  let flag := Z.lor (Z.lor (Z.lor (if e_observed v then 1 else 0)
                                  (if e_hallucinated v then 2 else 0))
                           (if e_in_queue v then 4 else 0))
                    (if e_fixed v then 8 else 0) in
  [fword (e_distance v); Z.lor (serializeDirection (e_parent v)) (Z.land flag 0xFF)].
(** block.cc:111-137 *)
Definition deser_esdf (w1 w2 : Z) : EsdfVoxel :=
  MkEsdf (fbits w1) (negb (Z.land w2 1 =? 0)) (negb (Z.land w2 2 =? 0))
    (negb (Z.land w2 4 =? 0)) (negb (Z.land w2 8 =? 0)) (deserializeDirection w2).
(** block.cc:236-255 *)
Definition ser_int (v : IntensityVoxel) : list Z :=
  [fword (i_intensity v); fword (i_weight v)].
(** block.cc:139-156 *)
Definition deser_int (w1 w2 : Z) : IntensityVoxel := MkInt (fbits w1) (fbits w2).

(** [kNumDataPacketsPerVoxel] *)
Definition wpv (k : vkind) : nat := match k with KTsdf => 3 | _ => 2 end.
Definition ser_vox (k : vkind) : vox k -> list Z :=
  match k with KTsdf => ser_tsdf | KEsdf => ser_esdf | KOcc => ser_occ | KInt => ser_int end.

(** block.cc:159-255 [serializeToIntegers] (the final CHECK_EQ on the size
    cannot fail: every voxel pushes [wpv] words) *)
Definition serializeToIntegers (k : vkind) (vs : list (vox k)) : list Z :=
  flat_map (ser_vox k) vs.

(** the deserialization loops: [n] voxels, [wpv] words each *)
Fixpoint deser3 {A} (f : Z -> Z -> Z -> A) (n : nat) (d : list Z) : list A :=
  match n, d with
  | S n', w1 :: w2 :: w3 :: d' => f w1 w2 w3 :: deser3 f n' d'
  | _, _ => []
  end.
Fixpoint deser2 {A} (f : Z -> Z -> A) (n : nat) (d : list Z) : list A :=
  match n, d with
  | S n', w1 :: w2 :: d' => f w1 w2 :: deser2 f n' d'
  | _, _ => []
  end.
Definition deser_loop (k : vkind) : nat -> list Z -> list (vox k) :=
  match k with
  | KTsdf => deser3 deser_tsdf
  | KEsdf => deser2 deser_esdf
  | KOcc => deser2 deser_occ
  | KInt => deser2 deser_int
  end.
(** block.cc:65-156 [deserializeFromIntegers] into a block of [n] voxels: every
    member of every voxel is overwritten, so the result is the new voxel array *)
Definition deserializeFromIntegers (k : vkind) (n : nat) (data : list Z)
  : res (list (vox k)) :=
  if Nat.eqb (n * wpv k) (length data) then Ok (deser_loop k n data) else Abort.
