(** The intensity server: /repo/voxblox_ros/include/voxblox_ros/intensity_vis.h:14-42 and
    /repo/voxblox_ros/src/intensity_server.cc. Definitions only. *)
From Coq Require Import ZArith List Bool.
From Verif Require Import F32 Types Index Voxel Assoc Layer Threads Planning Ray Interp Intensity MeshInt MeshMsg ColorMap.
Import ListNotations.
Open Scope Z_scope.

(** [std::vector::resize] of a vector of bytes: new elements are zero *)
Definition resize (n : nat) (l : list Z) : list Z := firstn n l ++ repeat 0 (n - length l).
(** intensity_vis.h:31-32: the three 16-bit numbers of a vertex as a point *)
Definition raw_point (x y z : Z) : pt3 := V3 (f32_of_Z x) (f32_of_Z y) (f32_of_Z z).
(** intensity_vis.h:25-39: one vertex. layer.h:241-248 [getVoxelPtrByCoordinates] looks a voxel up
    exactly as [getNearestVoxel] does (interpolator_inl.h:301-309). [cm] is the colour map: the
    abstract [ColorMap::colorLookup], [None] where a cast in it is undefined. *)
Definition recolor_vertex (cm : f32 -> option Color) (l : Layer KInt) (b : mesh_block) (n : nat) : res mesh_block :=
  let k := length (mb_x b) in
  let r := resize k (mb_r b) in let g := resize k (mb_g b) in let bl := resize k (mb_b b) in
  match nth_error (mb_x b) n, nth_error (mb_y b) n, nth_error (mb_z b) n with
  | Some x, Some y, Some z =>
      rbind (getNearestVoxel l (raw_point x y z)) (fun o =>
        match o with
        | Some v =>
            if dgt (f64_of_f32 (i_weight v)) d0 then
              rbind (of_opt (cm (i_intensity v))) (fun c =>
                Ok (MkMB (mb_index b) (mb_x b) (mb_y b) (mb_z b)
                         (set_th n (cr c) r) (set_th n (cg c) g) (set_th n (cb c) bl)))
            else Ok (MkMB (mb_index b) (mb_x b) (mb_y b) (mb_z b) r g bl)
        | None => Ok (MkMB (mb_index b) (mb_x b) (mb_y b) (mb_z b) r g bl)
        end)
  | _, _, _ => UB
  end.
(** 23-40: the loop over the vertices of a block *)
Definition recolor_block (cm : f32 -> option Color) (l : Layer KInt) (b : mesh_block) : res mesh_block :=
  rfold (recolor_vertex cm l) (seq 0 (length (mb_x b))) b.
(** 14-42 [recolorVoxbloxMeshMsgByIntensity] *)
Definition recolorVoxbloxMeshMsgByIntensity (l : Layer KInt) (cm : f32 -> option Color) (msg : mesh_msg) : res mesh_msg :=
  rbind (rmap (recolor_block cm l) (mm_blocks msg)) (fun bs => Ok (MkMM (mm_edge msg) bs)).
(** intensity_server.cc:42-44,52-61 [updateMesh]: the published intensity mesh, with the
    [IronbowColorMap] of the configured range *)
Definition intensity_mesh (lo hi : f32) (l : Layer KInt) (msg : mesh_msg) : res mesh_msg :=
  recolorVoxbloxMeshMsgByIntensity l (ironbow lo hi) msg.

(** ** The camera *)
(** intensity_server.cc:93-94: [rows / 2.0] narrowed to float *)
Definition half_of (n : Z) : f32 := f32_of_f64 (ddiv (f64_of_Z n) (f64_of_Z 2)).
(** 110-112: the bearing of pixel ([i], [j]); [rot] is the rotation of the pose (minkindr's
    arithmetic is not modelled: any function) *)
Definition pixel_bearing (rot : pt3 -> pt3) (f : f32) (rows cols i j : Z) : pt3 :=
  rot (normalized3 (V3 (fsub (f32_of_Z j) (half_of cols)) (fsub (f32_of_Z i) (half_of rows)) f)).
(** 106-118: one row, from pixel number [m] *)
Fixpoint row_pixels (rot : pt3 -> pt3) (f : f32) (rows cols sub i j m : Z) (px : list f32) : list (pt3 * f32) :=
  match px with
  | [] => []
  | x :: r => (if m mod sub =? 0 then [(pixel_bearing rot f rows cols i j, x)] else [])
              ++ row_pixels rot f rows cols sub i (j + 1) (m + 1) r
  end.
(** 104-119: all rows *)
Fixpoint image_pixels (rot : pt3 -> pt3) (f : f32) (rows cols sub i m : Z) (img : list (list f32)) : list (pt3 * f32) :=
  match img with
  | [] => []
  | row :: r => row_pixels rot f rows cols sub i 0 m row
                ++ image_pixels rot f rows cols sub (i + 1) (m + Z.of_nat (length row)) r
  end.
(** 78-124 [intensityImageCallback]. [pose]: the pose found, as rotation and position. The image is
    its rows of float pixels (other encodings are not modelled). Line 91 divides by the subsampling
    factor; a negative factor is not modelled (it makes [reserve] fail in general). *)
Definition intensityImageCallback (fuel : nat) (tl : Layer KTsdf) (max_d f : f32) (sub cols : Z) (l : Layer KInt)
  (pose : option ((pt3 -> pt3) * pt3)) (img : list (list f32)) : res (option (Layer KInt)) :=
  match pose with
  | None => Ok (Some l)
  | Some (rot, pos) =>
      if sub =? 0 then UB else if sub <? 0 then Abort else
      let bxs := image_pixels rot f (Z.of_nat (length img)) cols sub 0 0 img in
      addIntensityBearingVectors fuel tl max_d l pos (map fst bxs) (map snd bxs)
  end.
