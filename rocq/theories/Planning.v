(** /repo/voxblox/include/voxblox/utils/planning_utils_inl.h. Definitions only. *)
From Coq Require Import ZArith List Bool.
From Verif Require Import F32 Types Index Voxel Serialize Assoc Layer Threads.
Import ListNotations.
Open Scope Z_scope.

(** ** Voxels as memory locations: a block and an offset in its array *)
Definition addr : Type := (idx3 * nat)%type.
Section At.
  Context {k : vkind}.
  (** the voxel a pointer designates *)
  Definition vat (l : Layer k) (a : addr) : option (vox k) :=
    match l_get l (fst a) with Some b => nth_error (b_voxels b) (snd a) | None => None end.
  (** dereference *)
  Definition vget (l : Layer k) (a : addr) : res (vox k) := of_opt (vat l a).
  (** store through the pointer *)
  Definition vset (l : Layer k) (a : addr) (v : vox k) : Layer k :=
    match l_get l (fst a) with
    | Some b => with_blocks l (aset (fst a) (set_voxels (set_th (snd a) v (b_voxels b)) b) (l_blocks l))
    | None => l
    end.
  (** layer.h:215-239 [getVoxelPtrByGlobalIndex]: the pointer itself ([Ok None] is
      nullptr); a pointer past the array is undefined when formed, for the callers
      dereference it at once *)
  Definition voxel_ptr (l : Layer k) (g : idx3) : res (option addr) :=
    rbind (of_opt (getBlockIndexFromGlobalVoxelIndex g (vps_inv_layer (l_vps l)))) (fun bi =>
      match l_get l bi with
      | None => Ok None
      | Some b =>
          rbind (getLocalFromGlobalVoxelIndex g (l_vps l)) (fun v =>
            let n := Z.to_nat (computeLinearIndexFromVoxelIndex (b_vps b) v) in
            match nth_error (b_voxels b) n with
            | Some _ => Ok (Some (bi, n))
            | None => UB
            end)
      end).
  (** modify the flags of a block *)
  Definition set_block (l : Layer k) (i : idx3) (f : Block k -> Block k) : Layer k :=
    match l_get l i with Some b => with_blocks l (aset i (f b) (l_blocks l)) | None => l end.
End At.

(** a loop body applied to each element in turn *)
Fixpoint rfold {A S} (f : S -> A -> res S) (xs : list A) (s : S) : res S :=
  match xs with
  | [] => Ok s
  | x :: xs' => rbind (f s x) (fun s' => rfold f xs' s')
  end.

(** ** Spheres *)
(** 25-27 [for (float x = -r; x <= r; x++)]: the values of [x]; [None]: the loop
    does not end within [fuel] iterations ([x + 1 = x] for large [x]) *)
Fixpoint frange (fuel : nat) (x hi : f32) : option (list f32) :=
  if fle x hi then
    match fuel with
    | O => None
    | S f => match frange f (fadd x f1) hi with Some xs => Some (x :: xs) | None => None end
    end
  else Some [].
(** Eigen [norm] of a float vector *)
Definition fnorm (p : pt3) : f32 := fsqrt (sqnorm p).
(** the voxel offsets of the sphere, 25-36: floors of the points of the float grid
    whose norm is at most the radius *)
Definition sphere_offsets (fuel : nat) (r : f32) : res (option (list idx3)) :=
  match frange fuel (fneg r) r with
  | None => Ok None
  | Some xs =>
      let pts := flat_map (fun x => flat_map (fun y => map (fun z => V3 x y z) xs) xs) xs in
      rbind (of_opt (fold_right (fun p acc =>
               match seq3 (map3 (fun c => to_int64 (ffloorZ c)) p), acc with
               | Some i, Some is => Some (i :: is)
               | _, _ => None
               end) (Some []) (filter (fun p => fle (fnorm p) r) pts)))
        (fun is => Ok (Some is))
  end.
(** [block_voxel_list\[block\].push_back(voxel)], 43: a new block goes to the end of the
    (unspecified) iteration order *)
Definition hier_add (m : amap (list idx3)) (b v : idx3) : amap (list idx3) :=
  match alookup b m with
  | Some vs => aset b (vs ++ [v]) m
  | None => m ++ [(b, [v])]
  end.
(** [getSphereAroundPoint], 14-48; [voxel_size_inv = 1.0 / voxel_size], 20. int64
    overflow of the index sum is not modelled. *)
Definition getSphereAroundPoint (fuel : nat) {k} (l : Layer k) (c : pt3) (r : f32)
  : res (option (amap (list idx3))) :=
  rbind (of_opt (getGlobalGridIndexFromPoint c (inv_of (l_size l)))) (fun ci =>
  rbind (sphere_offsets fuel (fdiv r (l_size l))) (fun o =>
    match o with
    | None => Ok None
    | Some offs =>
        rbind (rfold (fun m off =>
                 rbind (getBlockAndVoxelIndexFromGlobalVoxelIndex (idx_add off ci) (l_vps l))
                   (fun bv => Ok (hier_add m (fst bv) (snd bv)))) offs [])
          (fun m => Ok (Some m))
    end)).
(** [getAndAllocateSphereAroundPoint], 51-61 *)
Definition getAndAllocateSphereAroundPoint (fuel : nat) {k} (l : Layer k) (c : pt3) (r : f32)
  : res (option (Layer k * amap (list idx3))) :=
  rbind (getSphereAroundPoint fuel l c r) (fun o =>
    match o with
    | None => Ok None
    | Some m => Ok (Some (fold_left (fun l kv => allocateBlockPtrByIndex l (fst kv)) m l, m))
    end).
(** the voxels of a hierarchical list, in iteration order *)
Definition hier_list (m : amap (list idx3)) : list (idx3 * idx3) :=
  flat_map (fun kv => map (fun v => (fst kv, v)) (snd kv)) m.
(** the pointer [&block->getVoxelByVoxelIndex(v)] *)
Definition voxel_of {k} (l : Layer k) (b v : idx3) : res (addr * Block k) :=
  match l_get l b with
  | None => UB
  | Some bl => Ok ((b, Z.to_nat (computeLinearIndexFromVoxelIndex (b_vps bl) v)), bl)
  end.
(** one voxel of [fillSphereAroundPoint], 79-98 ([std::max(a, b)] is
    [a < b ? b : a]) *)
Definition fill_voxel (c : pt3) (r mx : f32) (l : Layer KEsdf) (bv : idx3 * idx3) : res (Layer KEsdf) :=
  rbind (voxel_of l (fst bv) (snd bv)) (fun ab =>
    let '(a, bl) := ab in
    let p := computeCoordinatesFromVoxelIndex (b_origin bl) (b_size bl) (snd bv) in
    rbind (vget l a) (fun v =>
      let nd := fmax (fsub (fnorm (pt_sub p c)) r) (fneg mx) in
      if negb (e_observed v) || flt nd (e_distance v) then
        Ok (set_block (vset l a (MkEsdf nd true true (e_in_queue v) true (e_parent v))) (fst bv)
              (fun b => set_has_data true (set_updated upd_all b)))
      else Ok l)).
(** [fillSphereAroundPoint], 67-100 *)
Definition fillSphereAroundPoint (fuel : nat) (c : pt3) (r mx : f32) (l : Layer KEsdf)
  : res (option (Layer KEsdf)) :=
  rbind (getAndAllocateSphereAroundPoint fuel l c r) (fun o =>
    match o with
    | None => Ok None
    | Some (l', m) => rbind (rfold (fill_voxel c r mx) (hier_list m) l') (fun l'' => Ok (Some l''))
    end).
(** one voxel of [clearSphereAroundPoint], 116-133 ([std::min(a, b)] is
    [b < a ? b : a]) *)
Definition clear_voxel (c : pt3) (r mx : f32) (l : Layer KEsdf) (bv : idx3 * idx3) : res (Layer KEsdf) :=
  rbind (voxel_of l (fst bv) (snd bv)) (fun ab =>
    let '(a, bl) := ab in
    let p := computeCoordinatesFromVoxelIndex (b_origin bl) (b_size bl) (snd bv) in
    rbind (vget l a) (fun v =>
      let nd := fmin (fsub r (fnorm (pt_sub p c))) mx in
      if negb (e_observed v) || fgt nd (e_distance v) then
        Ok (set_block (vset l a (MkEsdf nd true true (e_in_queue v) true (e_parent v))) (fst bv)
              (fun b => set_has_data true (set_updated upd_all b)))
      else Ok l)).
(** [clearSphereAroundPoint], 104-135 *)
Definition clearSphereAroundPoint (fuel : nat) (c : pt3) (r mx : f32) (l : Layer KEsdf)
  : res (option (Layer KEsdf)) :=
  rbind (getAndAllocateSphereAroundPoint fuel l c r) (fun o =>
    match o with
    | None => Ok None
    | Some (l', m) => rbind (rfold (clear_voxel c r mx) (hier_list m) l') (fun l'' => Ok (Some l''))
    end).
