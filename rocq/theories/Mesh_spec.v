(** Vocabulary for the statements about marching cubes and meshes. *)
From Coq Require Import ZArith List Bool Reals.
From Verif Require Import F32 Types Index Voxel Layer Marching MeshInt.
Import ListNotations.
Open Scope Z_scope.

(** voxel at corner [i] (0..7) of the cube whose lowest voxel is [c] *)
Definition corner (c : idx3) (i : nat) : idx3 := idx_add c (corner_offset i).
(** values of a scalar field at the corners of cube [c] *)
Definition cube_sdf (f : idx3 -> f32) (c : idx3) (i : nat) : f32 := f (corner c i).
(** the edge of the voxel grid that is edge [e] (0..11) of cube [c]: the pair of
    its end points, lower one first *)
Definition edge_ends (e : nat) : nat * nat := nth e kEdgeIndexPairs (0%nat, 0%nat).
Definition grid_edge := (idx3 * idx3)%type.
Definition edge_at (c : idx3) (e : nat) : grid_edge :=
  (zip3 Z.min (corner c (fst (edge_ends e))) (corner c (snd (edge_ends e))),
   zip3 Z.max (corner c (fst (edge_ends e))) (corner c (snd (edge_ends e)))).

(** the triangles listed in a table row, as triples of cube edges in the order in
    which their vertices are emitted *)
Fixpoint row_triangles (row : list Z) : list (nat * nat * nat) :=
  match row with
  | e0 :: e1 :: e2 :: rest =>
      if e0 =? -1 then [] else (Z.to_nat e2, Z.to_nat e1, Z.to_nat e0) :: row_triangles rest
  | _ => []
  end.
Definition cube_triangles (s : nat -> f32) : list (nat * nat * nat) :=
  row_triangles (nth (Z.to_nat (calculateVertexConfiguration s)) kTriangleTable []).

(** the three points emitted for a triangle: one per listed edge *)
Definition edge_point (x : nat -> pt3) (s : nat -> f32) (e : nat) : pt3 :=
  let '(a, b) := edge_ends e in interpolateVertex (x a) (x b) (s a) (s b).
Definition triangle_points (x : nat -> pt3) (s : nat -> f32) (t : nat * nat * nat) : list pt3 :=
  let '(a, b, c) := t in [edge_point x s a; edge_point x s b; edge_point x s c].
Definition triangle_edges (t : nat * nat * nat) : list nat :=
  let '(a, b, c) := t in [a; b; c].
Definition inside (s : f32) : Prop := flt s f0 = true.
(** one end of the edge is negative, the other is not *)
Definition sign_change (s : nat -> f32) (e : nat) : Prop :=
  let '(a, b) := edge_ends e in
  (inside (s a) /\ ~ inside (s b)) \/ (~ inside (s a) /\ inside (s b)).

(** the directed sides of the triangles placed in cube [c] of a field, between
    grid edges *)
Definition triangle_sides (c : idx3) (t : nat * nat * nat) : list (grid_edge * grid_edge) :=
  let '(a, b, d) := t in
  [(edge_at c a, edge_at c b); (edge_at c b, edge_at c d); (edge_at c d, edge_at c a)].
Definition sides (f : idx3 -> f32) (c : idx3) : list (grid_edge * grid_edge) :=
  flat_map (triangle_sides c) (cube_triangles (cube_sdf f c)).

(** arrays of a mesh are consistent *)
Definition consistent (m : mesh) : Prop :=
  length (m_normals m) = length (m_vertices m) /\
  length (m_indices m) = length (m_vertices m) /\
  (exists n, length (m_vertices m) = (3 * n)%nat) /\
  Forall (fun i => 0 <= i < Z.of_nat (length (m_vertices m))) (m_indices m).

(** triangle i is made of the vertices 3i, 3i+1, 3i+2 *)
Definition sequential (m : mesh) : Prop :=
  m_indices m = map Z.of_nat (seq 0 (length (m_vertices m))).

(** A layer as the API builds it: voxels_per_side in range, every block has the
    layer's geometry, all its voxels, and an origin that maps back to its index
    (which holds for allocated blocks, see C58). *)
Definition layer_wf {k} (l : Layer k) : Prop :=
  0 < l_vps l <= 1024 /\
  forall i b, l_get l i = Some b ->
    b_vps b = l_vps l /\ Z.of_nat (length (b_voxels b)) = l_vps l * l_vps l * l_vps l /\
    block_index (b_vps b) (b_size b) (b_origin b) = Some i.
(** the voxel with global index [g] in a layer, if its block exists *)
Definition voxel_at {k} (l : Layer k) (g : idx3) : option (vox k) :=
  let n := l_vps l in
  match l_get l (map3 (fun c => c / n) g) with
  | Some b => nth_error (b_voxels b)
                (Z.to_nat (vx g mod n + n * (vy g mod n + n * (vz g mod n))))
  | None => None
  end.
(** its distance, if it is sufficiently observed *)
Definition sdf_at {k} (l : Layer k) (min_weight : f32) (g : idx3) : option f32 :=
  match voxel_at l g with Some v => getSdfIfValid k min_weight v | None => None end.
Fixpoint collect {A} (l : list (option A)) : option (list A) :=
  match l with
  | [] => Some []
  | None :: _ => None
  | Some a :: l' => match collect l' with Some r => Some (a :: r) | None => None end
  end.
Definition global_of (vps : Z) (b v : idx3) : idx3 := zip3 (fun bc vc => bc * vps + vc) b v.
(** the eight values of the cube at voxel [v] of block [bi], if all are usable *)
Definition cube_values {k} (l : Layer k) (mw : f32) (bi v : idx3) : option (list f32) :=
  collect (map (fun i => sdf_at l mw (corner (global_of (l_vps l) bi v) i)) eight).
(** the vertices a cube contributes to the mesh of its block *)
Definition cube_points {k} (l : Layer k) (mw : f32) (b : Block k) (bi v : idx3) : list pt3 :=
  match cube_values l mw bi v with
  | Some ss =>
      flat_map (triangle_points (corner_coords (l_size l)
                  (computeCoordinatesFromVoxelIndex (b_origin b) (b_size b) v)) (nth_sdf ss))
        (cube_triangles (nth_sdf ss))
  | None => []
  end.
(** all vertices of the mesh of block [bi], cube after cube *)
Definition block_points {k} (l : Layer k) (mw : f32) (bi : idx3) : list pt3 :=
  match l_get l bi with
  | Some b => flat_map (cube_points l mw b bi) (map snd (visit_order (l_vps l)))
  | None => []
  end.
(** no usable voxel of the layer has a NaN distance *)
Definition no_nan_sdf {k} (l : Layer k) (mw : f32) : Prop :=
  forall g s, sdf_at l mw g = Some s -> fnan s = false.

(** consecutive groups of three *)
Fixpoint triples {A} (l : list A) : list (A * A * A) :=
  match l with a :: b :: c :: l' => (a, b, c) :: triples l' | _ => [] end.
Definition point0 : pt3 := V3 f0 f0 f0.
Definition vertex_of (m : mesh) (i : Z) : pt3 := nth (Z.to_nat i) (m_vertices m) point0.
(** the triangles of a mesh as points *)
Definition triangles_of (m : mesh) : list (pt3 * pt3 * pt3) :=
  match m_vertices m with
  | [] => []
  | _ => map (fun t => let '(i, j, k) := t in (vertex_of m i, vertex_of m j, vertex_of m k))
           (triples (m_indices m))
  end.
(** the three corners lie in three different tolerance cells *)
Definition distinct_cells (inv : f64) (t : pt3 * pt3 * pt3) : bool :=
  let '(a, b, c) := t in
  match vertex_cell inv a, vertex_cell inv b, vertex_cell inv c with
  | Some i, Some j, Some k => negb (idx_eqb i j || idx_eqb j k || idx_eqb i k)
  | _, _, _ => false
  end.
Definition same_cells (inv : f64) (t t' : pt3 * pt3 * pt3) : Prop :=
  let '(a, b, c) := t in let '(a', b', c') := t' in
  vertex_cell inv a = vertex_cell inv a' /\ vertex_cell inv b = vertex_cell inv b' /\
  vertex_cell inv c = vertex_cell inv c'.

(** the update flag of a block, cleared *)
Definition mesh_flag_cleared {k} (b : Block k) : Block k := set_updated (upd_reset (b_updated b) kMesh) b.
(** the blocks a mesh generation works on *)
Definition to_mesh {k} (only_updated : bool) (l : Layer k) (i : idx3) : bool :=
  match l_get l i with Some b => negb only_updated || upd_get (b_updated b) kMesh | None => false end.
(** a mesh holds the surface of block [i] of layer [l] as it is now *)
Definition up_to_date {k} (cfg : MeshConfig) (l : Layer k) (i : idx3) (m : mesh) : Prop :=
  m_vertices m = block_points l (mc_min_weight cfg) i /\ consistent m /\ sequential m /\ m_updated m = true /\
  length (m_colors m) = if mc_use_color cfg then length (m_vertices m) else 0%nat.
(** a mesh that all other meshes can be combined with: normals everywhere and
    colours either in all of them or in none *)
Definition combinable (colors : bool) (m : mesh) : Prop :=
  consistent m /\ (if colors then length (m_colors m) = length (m_vertices m) else m_colors m = []).
