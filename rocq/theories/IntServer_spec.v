(** Vocabulary for C95 and C96. *)
From Coq Require Import ZArith Reals List.
From Flocq Require Import Core.
From Verif Require Import F32 Types Index Index_float Voxel Assoc Layer Planning Interp Interp_spec Intensity Intensity_spec MeshMsg MeshMsg_spec
  ColorMap_spec IntServer.
Import ListNotations.
Open Scope Z_scope.

(** something was measured in the voxel *)
Definition measured (v : IntensityVoxel) : Prop := ffin (i_weight v) = true /\ (0 < FR (i_weight v))%R.
(** a layer as the server builds it, with voxels of at least 1/32 m and blocks of at least four voxels
    per side *)
Definition intensity_map (l : Layer KInt) : Prop :=
  built_layer l /\ weights_ok l /\ (/ 32 <= FR (l_size l))%R /\ 4 <= l_vps l.
(** every vertex of the block has three 16-bit numbers *)
Definition aligned (b : mesh_block) : Prop :=
  length (mb_y b) = length (mb_x b) /\ length (mb_z b) = length (mb_x b) /\
  Forall word16 (mb_x b) /\ Forall word16 (mb_y b) /\ Forall word16 (mb_z b).
(** the colour of vertex [n]; black where no colour was given *)
Definition color_of (b : mesh_block) (n : nat) : idx3 := V3 (nth n (mb_r b) 0) (nth n (mb_g b) 0) (nth n (mb_b b) 0).
(** the heat colour of a value in a range, from black through purple, orange and yellow to white *)
Definition heat (lo hi v : f32) (c : idx3) : Prop :=
  shows (/ 2 + / 40) (MkColor (vx c) (vy c) (vz c) 255)
    (through 0 145 255 255 255 (share lo hi v) / 255) (through 0 20 138 230 255 (share lo hi v) / 255)
    (through 0 145 0 40 255 (share lo hi v) / 255).
(** [b'] has the vertices of [b], a colour for each, and the colours of [b] except that vertex [n] has
    the colour of the intensity that was measured in the voxel which a lookup finds at the position [pos b n] *)
Definition recolored (lo hi : f32) (l : Layer KInt) (pos : mesh_block -> nat -> pt3) (b b' : mesh_block) : Prop :=
  mb_index b' = mb_index b /\ mb_x b' = mb_x b /\ mb_y b' = mb_y b /\ mb_z b' = mb_z b /\
  (mb_x b = [] -> b' = b) /\
  (mb_x b <> [] -> length (mb_r b') = length (mb_x b) /\ length (mb_g b') = length (mb_x b) /\ length (mb_b b') = length (mb_x b)) /\
  forall n, (n < length (mb_x b))%nat ->
    exists o, getNearestVoxel l (pos b n) = Ok o /\
      (forall v, o = Some v -> measured v -> heat lo hi (i_intensity v) (color_of b' n)) /\
      ((forall v, o = Some v -> ~ measured v) -> color_of b' n = color_of b n).
(** where vertex [n] of a block is, for blocks of edge [edge] *)
Definition vertex_position (edge : f32) (b : mesh_block) (n : nat) : pt3 :=
  decode_vertex edge (mb_index b) (V3 (nth n (mb_x b) 0) (nth n (mb_y b) 0) (nth n (mb_z b) 0)).
(** its 16-bit numbers, taken as metres *)
Definition vertex_numbers (b : mesh_block) (n : nat) : pt3 :=
  V3 (f32_of_Z (nth n (mb_x b) 0)) (f32_of_Z (nth n (mb_y b) 0)) (f32_of_Z (nth n (mb_z b) 0)).

(** ** The camera *)
(** the pixels that are kept, numbered along the rows: every [sub]-th *)
Definition kept (sub : Z) (total : nat) : list nat := filter (fun m => Z.of_nat m mod sub =? 0) (seq 0 total).
(** the viewing direction of pixel ([i], [j]) in the frame of a pinhole camera with focal length [f]
    (in pixels) and its optical axis through the middle of the image *)
Definition pixel_ray (f : f32) (rows cols i j : Z) : v3 R :=
  V3 (IZR j - IZR cols / 2)%R (IZR i - IZR rows / 2)%R (FR f).
