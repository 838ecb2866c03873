(** /repo/voxblox/include/voxblox/utils/layer_utils.h and
    /repo/voxblox/src/utils/layer_utils.cc. Definitions only; logging is left out. *)
From Coq Require Import ZArith List Bool.
From Verif Require Import F32 Types Index Voxel Serialize Assoc Layer.
Import ListNotations.
Open Scope Z_scope.

(** [kTolerance] = 1e-10 (a double) *)
Definition d1em10 : f64 := dbits 0x3ddb7cdfd9d7bdbb.
(** [std::abs(a - b) < kTolerance]: float difference, compared as double *)
Definition near (a b : f32) : bool := dlt (f64_of_f32 (fabs (fsub a b))) d1em10.
Definition color_eqb (a b : Color) : bool :=
  (cr a =? cr b) && (cg a =? cg b) && (cb a =? cb b) && (ca a =? ca b).
(** layer_utils.cc:7-52 [isSameVoxel]; the general template (layer_utils.h:15-20)
    is a LOG(FATAL). [hallucinated] is not compared. *)
Definition isSameVoxel (k : vkind) : vox k -> vox k -> res bool :=
  match k with
  | KTsdf => fun a b => Ok (near (t_distance a) (t_distance b) && near (t_weight a) (t_weight b) && color_eqb (t_color a) (t_color b))
  | KEsdf => fun a b => Ok (near (e_distance a) (e_distance b) && eqb (e_observed a) (e_observed b) && eqb (e_in_queue a) (e_in_queue b)
                            && eqb (e_fixed a) (e_fixed b) && idx_eqb (e_parent a) (e_parent b))
  | KOcc => fun a b => Ok (near (o_log a) (o_log b) && eqb (o_observed a) (o_observed b))
  | KInt => fun _ _ => Abort
  end.
(** layer_utils.h:44-47: the loop over the voxels of the first block; the second
    block is read at the same positions *)
Fixpoint same_voxels (k : vkind) (a b : list (vox k)) (acc : bool) : res bool :=
  match a, b with
  | [], _ => Ok acc
  | x :: a', y :: b' => rbind (isSameVoxel k x y) (fun s => same_voxels k a' b' (acc && s))
  | _ :: _, [] => UB
  end.
(** layer_utils.h:22-50 *)
Definition isSameBlock {k} (a b : Block k) : res bool :=
  same_voxels k (b_voxels a) (b_voxels b)
    (near (b_size a) (b_size b) && near (block_size_of (b_vps a) (b_size a)) (block_size_of (b_vps b) (b_size b))
     && (b_vps a =? b_vps b)
     && near (vx (b_origin a)) (vx (b_origin b)) && near (vy (b_origin a)) (vy (b_origin b)) && near (vz (b_origin a)) (vz (b_origin b))
     && Nat.eqb (length (b_voxels a)) (length (b_voxels b))).
(** block_inl.h:131-150 [getMemorySize]: the sizes of the members (x86-64) *)
Definition voxel_bytes (k : vkind) : Z := match k with KTsdf => 12 | KEsdf => 20 | KOcc => 8 | KInt => 8 end.
Definition block_bytes {k} (b : Block k) : Z := u64 (49 + Z.of_nat (length (b_voxels b)) * voxel_bytes k).
(** layer_inl.h:272-289 [getMemorySize]: all blocks count as the first one *)
Definition layer_bytes {k} (l : Layer k) : Z :=
  match l_blocks l with
  | [] => 20
  | (_, b) :: _ => u64 (20 + Z.of_nat (length (l_blocks l)) * block_bytes b)
  end.
(** layer_utils.h:72-90: for every index of the list, the blocks of both layers; the
    result is [None] for the early [return false] *)
Fixpoint same_blocks {k} (is : list idx3) (a b : Layer k) (acc : bool) : res (option bool) :=
  match is with
  | [] => Ok (Some acc)
  | i :: is' =>
      match l_get a i, l_get b i with
      | Some x, Some y => rbind (isSameBlock x y) (fun s => same_blocks is' a b (acc && s))
      | _, _ => Ok None
      end
  end.
(** layer_utils.h:52-110; the second loop (91-106) takes the block called [block_B]
    from the first layer, so it compares the same pairs in the same order *)
Definition isSameLayer {k} (a b : Layer k) : res bool :=
  let s0 := near (l_size a) (l_size b) && near (l_block_size a) (l_block_size b) && (l_vps a =? l_vps b)
            && Nat.eqb (getNumberOfAllocatedBlocks a) (getNumberOfAllocatedBlocks b) in
  rbind (same_blocks (getAllAllocatedBlocks a) a b s0) (fun o1 =>
    match o1 with
    | None => Ok false
    | Some s1 =>
        rbind (same_blocks (getAllAllocatedBlocks b) a b s1) (fun o2 =>
          match o2 with
          | None => Ok false
          | Some s2 => Ok (s2 && (layer_bytes a =? layer_bytes b))
          end)
    end).

(** [0.5f] *)
Definition half1 : f32 := fbits 0x3f000000.
(** ** centerBlocksOfLayer, layer_utils.h:121-176 *)
(** 131-137: sum of the block origins over their number *)
Definition centroid {k} (l : Layer k) : pt3 :=
  let s := fold_left (fun c kb => pt_add c (b_origin (snd kb))) (l_blocks l) (V3 f0 f0 f0) in
  map3 (fun x => fdiv x (f32_of_Z (Z.of_nat (length (l_blocks l))))) s.
(** 139-142: in blocks, plus one half, cast to int (undefined for NaN and outside
    the range) *)
Definition index_centroid {k} (l : Layer k) : option idx3 :=
  seq3 (map3 (fun x => to_int32 (ftruncZ (fadd (fdiv x (l_block_size l)) half1))) (centroid l)).
(** 159-168: [block_index - index_centroid] overflows as an int: undefined *)
Fixpoint shifted {k} (s : idx3) (o : pt3) (m : amap (Block k)) (acc : amap (Block k)) : res (amap (Block k)) :=
  match m with
  | [] => Ok acc
  | (i, b) :: m' =>
      rbind (of_opt (seq3 (map3 (fun z => to_int32 (Some z)) (idx_sub i s)))) (fun j =>
        shifted s o m' (ainsert j (set_origin (pt_sub (b_origin b) o) b) acc))
  end.
Definition centerBlocksOfLayer {k} (l : Layer k) : res (Layer k * pt3) :=
  rbind (of_opt (index_centroid l)) (fun s =>
    let o := map3 (fun z => fmul (f32_of_Z z) (l_block_size l)) s in
    rbind (shifted s o (l_blocks l) []) (fun m =>
      let l' := fold_left (fun t kb => insertBlock t (fst kb) (snd kb)) m (removeAllBlocks l) in
      if Nat.eqb (getNumberOfAllocatedBlocks l') (getNumberOfAllocatedBlocks l) then Ok (l', o) else Abort)).
