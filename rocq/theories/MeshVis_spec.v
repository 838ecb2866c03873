(** What a displayed mesh should look like. *)
From Coq Require Import ZArith Reals List Bool.
From Flocq Require Import Core.
From Verif Require Import F32 Types Index Voxel Assoc Layer Marching MeshInt MeshVis ColorMap_spec.
Import ListNotations.
Open Scope R_scope.

(** all vertices of all meshes, block by block: the mesh and the number of the vertex in it *)
Definition corners (mm : mesh_map) : list (mesh * nat) :=
  flat_map (fun kv => map (pair (snd kv)) (seq 0 (length (m_vertices (snd kv))))) mm.

(** the two lights: unit vectors along (0.8, -0.2, 0.7) and (-0.5, 0.2, 0.2) *)
Definition light1 : v3 R := V3 (8 / 10 / sqrt (117 / 100)) (- (2 / 10) / sqrt (117 / 100)) (7 / 10 / sqrt (117 / 100)).
Definition light2 : v3 R := V3 (- (5 / 10) / sqrt (33 / 100)) (2 / 10 / sqrt (33 / 100)) (2 / 10 / sqrt (33 / 100)).
Definition lit (d : pt3) (l : v3 R) : R := Rmax 0 (FR (vx d) * vx l + FR (vy d) * vy l + FR (vz d) * vz l).
(** Lambert shading of a surface of brightness [c] and normal [d], with ambient light 1/5 *)
Definition shade (c : R) (d : pt3) : R := Rmin 1 (c * lit d light1 + c * lit d light2 + / 5).
(** the height of a vertex, -1 m to 10 m mapped to 0..1 *)
Definition level (v : pt3) : R := ramp ((FR (vz v) + 1) / 11).
Definition chan (c : Color) : v3 R := map3 (fun z => IZR z / 255) (V3 (cr c) (cg c) (cb c)).

(** the colour of a vertex in a mode *)
Definition wanted (mode : ColorMode) (m : mesh) (n : nat) (w : v3 R) : Prop :=
  match mode with
  | CColor => exists c, nth_error (m_colors m) n = Some c /\ w = chan c
  | CHeight => exists v, nth_error (m_vertices m) n = Some v /\
      w = V3 (red (6 * level v)) (green (6 * level v)) (blue (6 * level v))
  | CNormals => exists d, nth_error (m_normals m) n = Some d /\ w = map3 (fun x => (FR x + 1) / 2) d
  | CGray => w = V3 (/ 2) (/ 2) (/ 2)
  | CLambert => exists d, nth_error (m_normals m) n = Some d /\
      w = V3 (shade (127 / 255) d) (shade (127 / 255) d) (shade (127 / 255) d)
  | CLambertColor => exists c d, nth_error (m_colors m) n = Some c /\ nth_error (m_normals m) n = Some d /\
      w = map3 (fun x => shade x d) (chan c)
  end.
(** rounding of floats, and in the height mode of the rainbow's bytes *)
Definition tolerance (mode : ColorMode) : R := match mode with CHeight => / 250 | _ => / 10000 end.
Definition near (e : R) (a b : v3 R) : Prop :=
  Rabs (vx a - vx b) <= e /\ Rabs (vy a - vy b) <= e /\ Rabs (vz a - vz b) <= e.

(** a mesh with what the mode needs: one colour per vertex, one normal per vertex, with
    components up to 1 (and a little more: float normals), heights that are numbers *)
Definition unit_normal (d : pt3) : Prop := all3 (fun x => ffin x = true /\ Rabs (FR x) <= 1 + / 1000) d.
Definition drawable (mode : ColorMode) (m : mesh) : Prop :=
  (mode = CColor \/ mode = CLambertColor ->
     length (m_colors m) = length (m_vertices m) /\ Forall color_ok (m_colors m)) /\
  (mode = CNormals \/ mode = CLambert \/ mode = CLambertColor ->
     length (m_normals m) = length (m_vertices m) /\ Forall unit_normal (m_normals m)) /\
  (mode = CHeight -> Forall (fun v => ffin (vz v) = true) (m_vertices m)).
(** opacity: that of the colour in the colour mode, otherwise 1 *)
Definition opacity (mode : ColorMode) (m : mesh) (n : nat) (a : R) : Prop :=
  match mode with
  | CColor => exists c, nth_error (m_colors m) n = Some c /\ Rabs (a - IZR (ca c) / 255) <= / 1000000
  | _ => a = 1
  end.
