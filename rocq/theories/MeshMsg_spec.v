(** Vocabulary for C55 and C70. *)
From Coq Require Import ZArith Reals List.
From Flocq Require Import Core.
From Verif Require Import F32 Types Index Index_float Voxel Assoc Layer Marching MeshInt Mesh_spec Intensity_spec MeshMsg.
Import ListNotations.
Open Scope R_scope.

(** coordinate [v] of a vertex lies in the reach of a block of edge [bs] with index [i]: a
    little above its lower face, and at most 9/64 of an edge beyond its upper face *)
Definition axis_in (bs v : f32) (i : Z) : Prop :=
  ffin v = true /\ (Z.abs i <= 8192)%Z /\
  (IZR (Z.abs i) + 2) * / 2097152 <= FR v / FR bs - IZR i <= 73 / 64.
Definition vertex_in (bs : f32) (i : idx3) (v : pt3) : Prop :=
  axis_in bs (vx v) (vx i) /\ axis_in bs (vy v) (vy i) /\ axis_in bs (vz v) (vz i).
(** one quantisation step (2 / 65535 of an edge) plus float rounding of the position *)
Definition step (bs : f32) (i : Z) : R := FR bs * (2 / 65535 + (IZR (Z.abs i) + 2) * / 1048576).
Definition near_vertex (bs : f32) (i : idx3) (p v : pt3) : Prop :=
  Rabs (FR (vx p) - FR (vx v)) <= step bs (vx i) /\ Rabs (FR (vy p) - FR (vy v)) <= step bs (vy i) /\
  Rabs (FR (vz p) - FR (vz v)) <= step bs (vz i).
(** what a viewer shows at a block *)
Definition shown (w : viewer) (i : idx3) : list pt3 := match alookup i w with Some l => l | None => [] end.
(** the mesh of a block as the viewer should show it *)
Definition mesh_shown (bs : f32) (w : viewer) (mm : mesh_map) (i : idx3) : Prop :=
  match alookup i mm with
  | Some m => Forall2 (near_vertex bs i) (shown w i) (m_vertices m)
  | None => shown w i = []
  end.

(** what the message must say about the colours *)
Definition byte (z : Z) : Prop := (0 <= z <= 255)%Z.
Definition byte_color (c : Color) : Prop := byte (cr c) /\ byte (cg c) /\ byte (cb c).
Definition colors_sendable (mode : color_mode) (m : mesh) : Prop :=
  mode = kColor -> length (m_colors m) = length (m_vertices m) /\ Forall byte_color (m_colors m).
Definition colors_sent (mode : color_mode) (m : mesh) (b : mesh_block) : Prop :=
  match mode with
  | kColor => mb_r b = map cr (m_colors m) /\ mb_g b = map cg (m_colors m) /\ mb_b b = map cb (m_colors m)
  | kNormals => mb_r b = [] /\ mb_g b = [] /\ mb_b b = []
  | kGray => let gray := map (fun _ => 127%Z) (m_vertices m) in mb_r b = gray /\ mb_g b = gray /\ mb_b b = gray
  end.
(** a mesh the server can send *)
Definition sendable (mode : color_mode) (bs : f32) (i : idx3) (m : mesh) : Prop :=
  Forall (vertex_in bs i) (m_vertices m) /\ colors_sendable mode m.
(** block [b] of a message describes mesh [m]: a receiver gets every vertex, in order, within
    one step, from 16-bit numbers *)
Definition word16 (z : Z) : Prop := (0 <= z <= 65535)%Z.
Definition describes (mode : color_mode) (bs : f32) (b : mesh_block) (m : mesh) : Prop :=
  Forall word16 (mb_x b) /\ Forall word16 (mb_y b) /\ Forall word16 (mb_z b) /\
  length (mb_x b) = length (m_vertices m) /\ length (mb_y b) = length (m_vertices m) /\
  length (mb_z b) = length (m_vertices m) /\
  (exists ps, decode_block bs b = Ok ps /\ Forall2 (near_vertex bs (mb_index b)) ps (m_vertices m)) /\
  colors_sent mode m b.
(** the mesh kept by the server once it was sent: nothing is pending, an empty mesh is dropped *)
Definition after_sending (o : option mesh) : option mesh :=
  match o with
  | Some m => if m_updated m then (if nonempty (m_vertices m) then Some (sent m) else None) else Some m
  | None => None
  end.

(** ** The meshes the server builds *)
(** every usable distance of the layer is a number of ordinary size *)
Definition sane_sdf {k} (l : Layer k) (mw : f32) : Prop :=
  forall g s, sdf_at l mw g = Some s -> ffin s = true /\ Rabs (FR s) <= bpow radix2 100.
(** the block edge and index range for which every mesh vertex can be sent *)
Definition sendable_block {k} (l : Layer k) (i : idx3) : Prop :=
  all3 (fun c => ((Z.abs c + 2) * l_vps l <= 32768)%Z) i.
Definition sendable_layer {k} (l : Layer k) : Prop :=
  sane_size (l_size l) /\ (4 <= l_vps l)%Z /\ forall i b, l_get l i = Some b -> sendable_block l i.

(** ** A server and a viewer of its meshes
    [session cfg mode mm w]: the states (meshes of the server, contents of the viewer) reached
    from empty by any interleaving of meshing any sendable layer with blocks of edge [bs],
    clearing distant meshes, and sending one message that the viewer receives. *)
Definition sendable_source {k} (cfg : MeshConfig) (mode : color_mode) (bs : f32) (l : Layer k) : Prop :=
  layer_wf l /\ regular l /\ NoDup (akeys (l_blocks l)) /\ sane_sdf l (mc_min_weight cfg) /\ sendable_layer l /\
  l_block_size l = bs.
Definition byte_meshes (mm : mesh_map) : Prop := forall i m, alookup i mm = Some m -> Forall byte_color (m_colors m).
Inductive session (cfg : MeshConfig) (mode : color_mode) (bs : f32) : mesh_map -> viewer -> Prop :=
| s_start : session cfg mode bs [] []
| s_mesh : forall k (l l' : Layer k) only_updated clear mm mm' w,
    session cfg mode bs mm w -> sendable_source cfg mode bs l ->
    generateMesh cfg only_updated clear l mm = Ok (l', mm') -> byte_meshes mm' ->
    session cfg mode bs mm' w
| s_clear : forall c d mm w, session cfg mode bs mm w -> session cfg mode bs (clearDistantMesh c d mm) w
| s_send : forall mm w msg mm' w', session cfg mode bs mm w ->
    generateVoxbloxMeshMsg mode bs mm = Ok (msg, mm') -> setMessage msg w = Ok w' ->
    session cfg mode bs mm' w'.
