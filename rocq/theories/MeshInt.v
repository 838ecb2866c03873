(** Extraction of block meshes from an SDF layer. Definitions only. *)
From Coq Require Import ZArith List Bool.
From Verif Require Import F32 Types Index Voxel Serialize Assoc Layer Ray Marching.
Import ListNotations.
Open Scope Z_scope.

(** utils/meshing_utils.h:12-41 [getSdfIfValid]: specialised for TSDF and ESDF
    voxels; the other kinds do not compile and are given [None] here *)
Definition getSdfIfValid (k : vkind) (min_weight : f32) : vox k -> option f32 :=
  match k return vox k -> option f32 with
  | KTsdf => fun v => if fle (t_weight v) min_weight then None else Some (t_distance v)
  | KEsdf => fun v => if negb (e_observed v) then None else Some (e_distance v)
  | _ => fun _ => None
  end.
(** utils/meshing_utils.h:43-69 [getColorIfValid]; [Color(r,g,b)] is opaque
    (common.h:96-97) *)
Definition getColorIfValid (k : vkind) (min_weight : f32) : vox k -> option Color :=
  match k return vox k -> option Color with
  | KTsdf => fun v => if fle (t_weight v) min_weight then None else Some (t_color v)
  | KEsdf => fun v => if negb (e_observed v) then None else Some (MkColor 255 255 255 255)
  | _ => fun _ => None
  end.

(** block.h:101-103 [getVoxelByVoxelIndex] *)
Definition getVoxelByVoxelIndex {k} (b : Block k) (i : idx3) : res (vox k) :=
  of_opt (nth_error (b_voxels b) (Z.to_nat (computeLinearIndexFromVoxelIndex (b_vps b) i))).

(** mesh_integrator.h:273-285, 307-352: corner values read in order until one is
    not usable ([Ok None]) *)
Fixpoint read_corners (read : nat -> res (option f32)) (is : list nat) : res (option (list f32)) :=
  match is with
  | [] => Ok (Some [])
  | i :: is' =>
      rbind (read i) (fun o =>
        match o with
        | None => Ok None
        | Some s =>
            rbind (read_corners read is') (fun r =>
              Ok (match r with Some ss => Some (s :: ss) | None => None end))
        end)
  end.
Definition eight : list nat := [0; 1; 2; 3; 4; 5; 6; 7]%nat.

(** mesh_integrator.h:269-270, 283: [coords + cube_index_offsets.cast * voxel_size] *)
Definition corner_coords (vs : f32) (coords : pt3) (i : nat) : pt3 :=
  pt_add coords (map3 (fun o => fmul (f32_of_Z o) vs) (corner_offset i)).
Definition nth_sdf (ss : list f32) (i : nat) : f32 := nth i ss f0.

(** mesh_integrator.h:274-281: corner [i] of a cube inside the block *)
Definition inside_corner {k} (mw : f32) (b : Block k) (index : idx3) (i : nat) : res (option f32) :=
  rbind (getVoxelByVoxelIndex b (idx_add index (corner_offset i))) (fun v =>
    Ok (getSdfIfValid k mw v)).
(** mesh_integrator.h:321-331: one axis of the move into a neighbouring block.
    [IndexElement] is int; [corner + voxels_per_side_] is computed in size_t and
    narrowed *)
Definition wrap_axis (vps c : Z) : Z * Z :=
  if c <? 0 then (wrap32 (u64 (c + vps)), -1)
  else if wrap32 vps <=? c then (wrap32 (u64 (c - vps)), 1)
  else (c, 0).
(** mesh_integrator.h:308-351: corner [i] of a cube on the border. The int
    addition of block indices is not checked for overflow. *)
Definition border_corner {k} (l : Layer k) (mw : f32) (b : Block k) (index : idx3) (i : nat)
  : res (option f32) :=
  let c := idx_add index (corner_offset i) in
  if isValidVoxelIndex (b_vps b) c then
    rbind (getVoxelByVoxelIndex b c) (fun v => Ok (getSdfIfValid k mw v))
  else
    let w := map3 (wrap_axis (l_vps l)) c in
    rbind (of_opt (block_index (b_vps b) (b_size b) (b_origin b))) (fun bi =>
      match l_get l (idx_add bi (map3 snd w)) with
      | None => Ok None
      | Some nb =>
          if isValidVoxelIndex (b_vps nb) (map3 fst w) then
            rbind (getVoxelByVoxelIndex nb (map3 fst w)) (fun v => Ok (getSdfIfValid k mw v))
          else Abort
      end).

(** mesh_integrator.h:263-290 [extractMeshInsideBlock] and 292-360
    [extractMeshOnBorder] *)
Definition extract_cube {k} (l : Layer k) (mw : f32) (b : Block k) (border : bool) (index : idx3)
  (mn : mesh * Z) : res (mesh * Z) :=
  let coords := computeCoordinatesFromVoxelIndex (b_origin b) (b_size b) index in
  rbind (read_corners (if border then border_corner l mw b index else inside_corner mw b index) eight)
    (fun o =>
       match o with
       | None => Ok mn
       | Some ss => meshCube (corner_coords (l_size l) coords) (nth_sdf ss) (snd mn) (fst mn)
       end).

(** [for (i = 0; i < n; ++i)] *)
Definition zrange (n : Z) : list Z := map Z.of_nat (seq 0 (Z.to_nat n)).
(** mesh_integrator.h:186-239: the voxel indices visited by [extractBlockMesh] in
    order, with [true] for the calls of [extractMeshOnBorder] *)
Definition visit_order (vps : Z) : list (bool * idx3) :=
  flat_map (fun x => flat_map (fun y => map (fun z => (false, V3 x y z)) (zrange (vps - 1)))
                       (zrange (vps - 1))) (zrange (vps - 1))
  ++ flat_map (fun z => map (fun y => (true, V3 (vps - 1) y z)) (zrange vps)) (zrange vps)
  ++ flat_map (fun z => map (fun x => (true, V3 x (vps - 1) z)) (zrange (vps - 1))) (zrange vps)
  ++ flat_map (fun y => map (fun x => (true, V3 x y (vps - 1))) (zrange (vps - 1)))
       (zrange (vps - 1)).

Fixpoint extract_cubes {k} (l : Layer k) (mw : f32) (b : Block k) (vis : list (bool * idx3))
  (mn : mesh * Z) : res (mesh * Z) :=
  match vis with
  | [] => Ok mn
  | (border, i) :: vis' => rbind (extract_cube l mw b border i mn) (extract_cubes l mw b vis')
  end.
(** mesh_integrator.h:186-239 [extractBlockMesh] *)
Definition extractBlockMesh {k} (l : Layer k) (mw : f32) (b : Block k) (m : mesh) : res mesh :=
  rbind (extract_cubes l mw b (visit_order (wrap32 (b_vps b))) (m, 0)) (fun mn => Ok (fst mn)).

(** mesh_integrator.h:369-381: colour of one vertex; a null neighbour block is
    dereferenced. A voxel without valid colour leaves the default colour of
    [resize] (common.h:95, all channels 0). *)
Definition vertex_color {k} (l : Layer k) (mw : f32) (b : Block k) (p : pt3) : res Color :=
  let pick v := match getColorIfValid k mw v with Some c => Ok c | None => Ok color0 end in
  rbind (of_opt (computeVoxelIndexFromCoordinates (b_origin b) (inv_of (b_size b)) p)) (fun i =>
    if isValidVoxelIndex (b_vps b) i then rbind (getVoxelByVoxelIndex b i) pick
    else
      rbind (of_opt (computeBlockIndexFromCoordinates (l_vps l) (l_size l) p)) (fun bi =>
        match l_get l bi with
        | None => UB
        | Some nb =>
            rbind (of_opt (computeTruncatedVoxelIndexFromCoordinates (b_vps nb) (b_origin nb)
                             (inv_of (b_size nb)) p)) (fun j =>
              rbind (getVoxelByVoxelIndex nb j) pick)
        end)).
Fixpoint rmap {A B} (f : A -> res B) (l : list A) : res (list B) :=
  match l with
  | [] => Ok []
  | a :: l' => rbind (f a) (fun b => rbind (rmap f l') (fun bs => Ok (b :: bs)))
  end.
(** mesh_integrator.h:362-382 [updateMeshColor]: the array is sized by the number
    of indices and written for each vertex (out of bounds if there are more
    vertices) *)
Definition updateMeshColor {k} (l : Layer k) (mw : f32) (b : Block k) (m : mesh) : res mesh :=
  rbind (rmap (vertex_color l mw b) (m_vertices m)) (fun cs =>
    if (length (m_indices m) <? length (m_vertices m))%nat then UB
    else Ok (MkMesh (m_vertices m) (m_indices m) (m_normals m)
               (cs ++ repeat color0 (length (m_indices m) - length (m_vertices m)))
               (m_origin m) (m_updated m))).

(** mesh_integrator.h:32-58 [MeshIntegratorConfig], without the thread count *)
Record MeshConfig : Type := MkMeshConfig { mc_use_color : bool; mc_min_weight : f32 }.

(** mesh_layer.h: map from block index to mesh *)
Definition mesh_map := amap mesh.
(** mesh_layer.h:83-91, 113-122 [allocateMeshPtrByIndex], [allocateNewBlock] *)
Definition allocateMesh (bs : f32) (i : idx3) (mm : mesh_map) : mesh_map :=
  ainsert i (new_mesh (map3 (fun c => fmul (f32_of_Z c) bs) i)) mm.

(** mesh_integrator.h:241-261 [updateMeshForBlock]; the mesh is looked up and
    cleared before the block is, a missing mesh is a null dereference *)
Definition updateMeshForBlock {k} (cfg : MeshConfig) (l : Layer k) (i : idx3) (mm : mesh_map)
  : res mesh_map :=
  match alookup i mm with
  | None => UB
  | Some m0 =>
      let m := clear_mesh m0 in
      match l_get l i with
      | None => Ok (aset i m mm)
      | Some b =>
          rbind (extractBlockMesh l (mc_min_weight cfg) b m) (fun m1 =>
            rbind (if mc_use_color cfg then updateMeshColor l (mc_min_weight cfg) b m1 else Ok m1)
              (fun m2 =>
                 Ok (aset i (MkMesh (m_vertices m2) (m_indices m2) (m_normals m2) (m_colors m2)
                               (m_origin m2) true) mm)))
      end
  end.

(** mesh_integrator.h:165-184 [generateMeshBlocksFunction]. Each list entry is
    handed to exactly one thread (C19) and entries only write their own mesh and
    their own block's flag, which no entry reads; the model processes them in
    list order. *)
Definition clear_flag {k} (bit : ubit) (i : idx3) (l : Layer k) : Layer k :=
  match l_get l i with
  | None => l
  | Some b => with_blocks l (aset i (set_updated (upd_reset (b_updated b) bit) b) (l_blocks l))
  end.
Fixpoint mesh_blocks {k} (cfg : MeshConfig) (clear : bool) (is : list idx3) (l : Layer k)
  (mm : mesh_map) : res (Layer k * mesh_map) :=
  match is with
  | [] => Ok (l, mm)
  | i :: is' =>
      rbind (updateMeshForBlock cfg l i mm) (fun mm' =>
        mesh_blocks cfg clear is' (if clear then clear_flag kMesh i l else l) mm')
  end.
(** mesh_integrator.h:133-163 [generateMesh] (with a mutable layer) *)
Definition generateMesh {k} (cfg : MeshConfig) (only_updated clear : bool) (l : Layer k)
  (mm : mesh_map) : res (Layer k * mesh_map) :=
  let is := if only_updated then getAllUpdatedBlocks l kMesh else getAllAllocatedBlocks l in
  mesh_blocks cfg clear is l (fold_left (fun m i => allocateMesh (l_block_size l) i m) is mm).

(** mesh_layer.h:132-142 [clearDistantMesh] *)
Definition clearDistantMesh (c : pt3) (d : f64) (mm : mesh_map) : mesh_map :=
  map (fun kv =>
         if dgt (f64_of_f32 (sqnorm (pt_sub (m_origin (snd kv)) c))) (dmul d d)
         then (fst kv, MkMesh [] [] [] [] (m_origin (snd kv)) true) else kv) mm.

(** mesh.h:55-58 *)
Definition nonempty {A} (l : list A) : bool := match l with [] => false | _ => true end.
(** mesh.h:128-150 [concatenateMesh] *)
Definition concatenateMesh (m other : mesh) : res mesh :=
  if eqb (nonempty (m_colors other)) (nonempty (m_colors m)) &&
     eqb (nonempty (m_normals other)) (nonempty (m_normals m)) &&
     eqb (nonempty (m_indices other)) (nonempty (m_indices m)) then
    let n := Z.of_nat (length (m_vertices m)) in
    Ok (MkMesh (m_vertices m ++ m_vertices other)
          (m_indices m ++ map (fun i => i + n) (m_indices other))
          (m_normals m ++ m_normals other) (m_colors m ++ m_colors other)
          (m_origin m) (m_updated m))
  else Abort.

Definition firstn_skipn3 {A} (l : list A) : option (list A * list A) :=
  match l with a :: b :: c :: l' => Some ([a; b; c], l') | _ => None end.
(** mesh_layer.h:212-238: the copy of one mesh, three vertices at a time *)
Fixpoint copy_triples (hc hn hi : bool) (vs ns : list pt3) (cs : list Color)
  (size next : Z) (out : mesh) : res (mesh * Z) :=
  match vs with
  | [] => Ok (out, next)
  | v0 :: v1 :: v2 :: vs' =>
      if next + 2 <? size then
        match (if hc then firstn_skipn3 cs else Some ([], cs)),
              (if hn then firstn_skipn3 ns else Some ([], ns)) with
        | Some (c3, cs'), Some (n3, ns') =>
            copy_triples hc hn hi vs' ns' cs' size (next + 3)
              (MkMesh (m_vertices out ++ [v0; v1; v2])
                 (m_indices out ++ if hi then [next; next + 1; next + 2] else [])
                 (m_normals out ++ n3) (m_colors out ++ c3) (m_origin out) (m_updated out))
        | _, _ => UB
        end
      else Abort
  | _ => if next + 2 <? size then UB else Abort
  end.

(** mesh_layer.h:177-191: configuration of the first non-empty mesh *)
Definition first_nonempty (ms : list mesh) : option mesh :=
  find (fun m => nonempty (m_vertices m)) ms.
Fixpoint copy_meshes (hc hn hi : bool) (ms : list mesh) (size next : Z) (out : mesh) : res mesh :=
  match ms with
  | [] => Ok out
  | m :: ms' =>
      if negb (nonempty (m_vertices m)) ||
         (eqb hc (nonempty (m_colors m)) && eqb hn (nonempty (m_normals m)) &&
          eqb hi (nonempty (m_indices m))) then
        rbind (copy_triples hc hn hi (m_vertices m) (m_normals m) (m_colors m) size next out)
          (fun on => copy_meshes hc hn hi ms' size (snd on) (fst on))
      else Abort
  end.
(** mesh_layer.h:167-251 [getMesh] *)
Definition getMesh (mm : mesh_map) (out : mesh) : res mesh :=
  let ms := map snd mm in
  let '(hc, hn, hi) :=
    match first_nonempty ms with
    | Some m => (nonempty (m_colors m), nonempty (m_normals m), nonempty (m_indices m))
    | None => (false, false, false)
    end in
  let size := fold_left (fun a m => a + Z.of_nat (length (m_vertices m))) ms 0 in
  rbind (copy_meshes hc hn hi ms size 0 out) (fun o =>
    let n := length (m_vertices o) in
    if (negb (nonempty (m_colors o)) || Nat.eqb n (length (m_colors o))) &&
       (negb (nonempty (m_normals o)) || Nat.eqb n (length (m_normals o))) &&
       Nat.eqb n (length (m_indices o)) then Ok o else Abort).

(** mesh_utils.h:52-61: the tolerance cell of a vertex, in double *)
Definition cell_axis (inv : f64) (x : f32) : option Z := to_int64 (droundZ (dmul (f64_of_f32 x) inv)).
Definition vertex_cell (inv : f64) (p : pt3) : option idx3 := seq3 (map3 (cell_axis inv) p).

(** state of the merge: output mesh and the table of cells already seen; the
    vertex counter [new_vertex_index] is checked to be the number of vertices *)
Record cstate : Type := MkC { c_mesh : mesh; c_uniques : amap Z; c_next : Z }.
Definition upd_nth {A} (n : nat) (f : A -> A) (l : list A) : option (list A) :=
  match nth_error l n with
  | Some a => Some (firstn n l ++ f a :: skipn (S n) l)
  | None => None
  end.
(** mesh_utils.h:48-112: one vertex of an input mesh; the result is its new index *)
Definition add_vertex (inv : f64) (m : mesh) (old : nat) (st : cstate) : res (Z * cstate) :=
  let out := c_mesh st in
  rbind (of_opt (nth_error (m_vertices m) old)) (fun v =>
  rbind (of_opt (vertex_cell inv v)) (fun cell =>
  rbind
    (match alookup cell (c_uniques st) with
     | None =>
         rbind (if nonempty (m_colors m) then
                  match nth_error (m_colors m) old with Some c => Ok [c] | None => Abort end
                else Ok []) (fun c1 =>
         rbind (if nonempty (m_normals m) then
                  match nth_error (m_normals m) old with Some n => Ok [n] | None => Abort end
                else Ok []) (fun n1 =>
         Ok (c_next st,
             MkC (MkMesh (m_vertices out ++ [v]) (m_indices out) (m_normals out ++ n1)
                    (m_colors out ++ c1) (m_origin out) (m_updated out))
                 (ainsert cell (c_next st) (c_uniques st)) (c_next st + 1))))
     | Some j =>
         match nth_error (m_normals m) old with
         | None => UB
         | Some n =>
             match upd_nth (Z.to_nat j) (fun n0 => pt_add n0 n) (m_normals out) with
             | None => UB
             | Some ns => Ok (j, MkC (MkMesh (m_vertices out) (m_indices out) ns (m_colors out)
                                        (m_origin out) (m_updated out)) (c_uniques st) (c_next st))
             end
         end
     end) (fun r =>
  if Z.of_nat (length (m_vertices (c_mesh (snd r)))) =? c_next (snd r) then Ok r else Abort))).
Fixpoint add_vertices (inv : f64) (m : mesh) (olds : list nat) (st : cstate)
  : res (list Z * cstate) :=
  match olds with
  | [] => Ok ([], st)
  | o :: olds' =>
      rbind (add_vertex inv m o st) (fun r =>
        rbind (add_vertices inv m olds' (snd r)) (fun rs => Ok (fst r :: fst rs, snd rs)))
  end.
(** mesh_utils.h:115-122: renormalisation of all normals of the output so far *)
Definition renormalize (n : pt3) : pt3 :=
  let len := fsqrt (sqnorm n) in
  if fgt len kEpsilon then map3 (fun c => fdiv c len) n else V3 f0 f0 f1.
(** mesh_utils.h:131-173: the triangles, remapped; a triangle with two equal
    vertices is dropped *)
Definition remap (o2n : list Z) (next i : Z) : res Z :=
  if i <? Z.of_nat (length o2n) then
    rbind (of_opt (nth_error o2n (Z.to_nat i))) (fun j => if j <? next then Ok j else Abort)
  else Abort.
Fixpoint add_triangles (o2n : list Z) (next : Z) (is : list Z) : res (list Z) :=
  match is with
  | [] => Ok []
  | i0 :: i1 :: i2 :: is' =>
      rbind (remap o2n next i0) (fun j0 =>
      rbind (remap o2n next i1) (fun j1 =>
      rbind (remap o2n next i2) (fun j2 =>
      rbind (add_triangles o2n next is') (fun rest =>
        Ok (if (j0 =? j1) || (j1 =? j2) || (j0 =? j2) then rest else j0 :: j1 :: j2 :: rest)))))
  | _ => Abort
  end.
(** mesh_utils.h:30-175: one input mesh *)
Definition connect_mesh (inv : f64) (m : mesh) (st : cstate) : res cstate :=
  if negb (nonempty (m_vertices m)) then Ok st
  else if Nat.eqb (length (m_vertices m)) (length (m_indices m)) &&
          Nat.eqb (length (m_vertices m) mod 3) 0 then
    rbind (add_vertices inv m (seq 0 (length (m_vertices m))) st) (fun r =>
      let st1 := snd r in
      let out := c_mesh st1 in
      rbind (add_triangles (fst r) (c_next st1) (m_indices m)) (fun tris =>
        Ok (MkC (MkMesh (m_vertices out) (m_indices out ++ tris) (map renormalize (m_normals out))
                   (m_colors out) (m_origin out) (m_updated out)) (c_uniques st1) (c_next st1))))
  else Abort.
Fixpoint connect_meshes (inv : f64) (ms : list mesh) (st : cstate) : res cstate :=
  match ms with
  | [] => Ok st
  | m :: ms' => rbind (connect_mesh inv m st) (connect_meshes inv ms')
  end.
(** mesh_utils.h:19-185 [createConnectedMesh]; [out] is the mesh passed in *)
Definition createConnectedMesh (ms : list mesh) (threshold : f32) (out : mesh) : res mesh :=
  rbind (connect_meshes (ddiv d1 (f64_of_f32 threshold)) ms (MkC out [] 0)) (fun st =>
    let o := c_mesh st in
    let n := length (m_vertices o) in
    if (negb (nonempty (m_colors o)) || Nat.eqb n (length (m_colors o))) &&
       (negb (nonempty (m_normals o)) || Nat.eqb n (length (m_normals o))) then Ok o else Abort).
