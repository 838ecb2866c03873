(** Properties C33 to C39 and C62: marching cubes, mesh extraction, mesh layers. *)
From Coq Require Import ZArith Reals List Bool Lia Lra.
From Flocq Require Import Core.
From Verif Require Import F32 F32_lemmas F32_err Types Index Voxel Assoc Assoc_lemmas Layer Ray Marching MeshInt Mesh_spec
  Mesh_proofs Water_proofs Vertex_proofs MeshInt_proofs Connect_proofs Connect_spec Connect_normals MeshLayer_proofs.
Import ListNotations.
Open Scope Z_scope.

(** C33. For any eight corner values without NaN, adding a cube to a mesh succeeds
    and appends the interpolated points of the triangles of its sign pattern. *)
Theorem C33_cube_appended : forall x s m, (forall i, (i < 8)%nat -> fnan (s i) = false) ->
  exists m',
    meshCube x s (Z.of_nat (length (m_vertices m))) m = Ok (m', Z.of_nat (length (m_vertices m'))) /\
    m_vertices m' = m_vertices m ++ flat_map (triangle_points x s) (cube_triangles s) /\
    (exists ns, m_normals m' = m_normals m ++ ns /\
                length ns = length (flat_map (triangle_points x s) (cube_triangles s))) /\
    m_indices m' = m_indices m ++ map Z.of_nat (seq (length (m_vertices m))
                     (length (flat_map (triangle_points x s) (cube_triangles s)))).
Proof.
  intros x s m H. destruct (meshCube_ok x s m H) as (m' & A & B & _ & _ & _ & C & D). exists m'. auto.
Qed.
Print Assumptions C33_cube_appended.

(** Every vertex of these triangles is on a cube edge with a sign change, every
    edge with a sign change is used, there are at most five triangles, and none
    if all corners are on one side. *)
Theorem C33_edges : forall s,
  (forall t e, In t (cube_triangles s) -> In e (triangle_edges t) -> (e < 12)%nat /\ sign_change s e) /\
  (forall e, (e < 12)%nat -> sign_change s e -> exists t, In t (cube_triangles s) /\ In e (triangle_edges t)) /\
  (length (cube_triangles s) <= 5)%nat /\
  ((forall i, (i < 8)%nat -> inside (s i)) \/ (forall i, (i < 8)%nat -> ~ inside (s i)) -> cube_triangles s = []).
Proof.
  intros s. split; [apply cube_edges|]. split; [apply cube_all_edges|]. split; [apply cube_five|apply uniform_none].
Qed.
Print Assumptions C33_edges.

Definition ex_s (i : nat) : f32 := if (i <? 2)%nat then f32_lit (-1) 0 else if (i =? 2)%nat then f32_lit 0 0 else f1.
Definition ex_x (i : nat) : pt3 := map3 f32_of_Z (corner_offset i).
Example C33_example :
  forallb (fun i => negb (fnan (ex_s i))) (seq 0 8) = true /\
  cube_triangles ex_s = [(3, 8, 1); (1, 8, 9)]%nat /\
  match meshCube ex_x ex_s 0 (new_mesh point0) with Ok (m, n) => n = 6 /\ m_indices m = [0; 1; 2; 3; 4; 5] | _ => False end.
Proof. repeat split; vm_compute; reflexivity. Qed.

(** With a NaN corner a vertex is read that was never computed. *)
Theorem C33_nan_refuted : exists s, cube_triangles s <> [] /\
  forall x m, meshCube x s (Z.of_nat (length (m_vertices m))) m = UB.
Proof.
  exists (fun i => if (i =? 0)%nat then f32_lit (-1) 0 else nan32). split; [vm_compute; discriminate|].
  intros x m. unfold meshCube.
  replace (calculateVertexConfiguration _) with 1 by (vm_compute; reflexivity).
  cbn [Z.eqb]. change (nth_error kTriangleTable (Z.to_nat 1))
    with (Some [0; 8; 3; (-1); (-1); (-1); (-1); (-1); (-1); (-1); (-1); (-1); (-1); (-1); (-1); (-1)]).
  reflexivity.
Qed.
Print Assumptions C33_nan_refuted.

(** C34. The surface is closed: for any scalar field on the grid, each directed
    side of a triangle occurs once in its cube and in no other cube, and there is
    exactly one cube in which its reverse occurs. *)
Theorem C34_watertight : forall f c u v, In (u, v) (sides f c) ->
  u <> v /\ NoDup (sides f c) /\ (forall c', In (u, v) (sides f c') -> c' = c) /\
  exists c', In (v, u) (sides f c') /\ forall c'', In (v, u) (sides f c'') -> c'' = c'.
Proof. exact watertight. Qed.
Print Assumptions C34_watertight.
Definition ex_field (g : idx3) : f32 := if (vx g <=? 0) && negb (vy g =? 1) then f32_lit (-1) 0 else f1.
Example C34_example : length (sides ex_field (V3 0 0 0)) = 6%nat /\ length (sides ex_field (V3 (-1) 0 0)) = 6%nat.
Proof. split; vm_compute; reflexivity. Qed.

(** C35. Extraction visits every voxel index of the block once. *)
Theorem C35_each_cube_once : forall vps,
  NoDup (map snd (visit_order vps)) /\
  forall i, In i (map snd (visit_order vps)) <-> 0 <= vx i < vps /\ 0 <= vy i < vps /\ 0 <= vz i < vps.
Proof. intros vps. split; [apply visit_NoDup|apply visit_In]. Qed.
Print Assumptions C35_each_cube_once.
Example C35_example : map snd (visit_order 1) = [V3 0 0 0] /\ length (visit_order 4) = 64%nat.
Proof. split; vm_compute; reflexivity. Qed.

(** C36. Each cube visited is read from the voxels with the eight global indices
    of its corners, whichever block they are in ... *)
(** "Sufficiently observed": weight above the threshold (TSDF) or observed (ESDF). *)
Theorem C36_usable :
  (forall (l : Layer KTsdf) mw g d, ffin mw = true -> (forall v, voxel_at (k := KTsdf) l g = Some v -> ffin (t_weight v) = true) ->
     (sdf_at l mw g = Some d <-> exists v, voxel_at (k := KTsdf) l g = Some v /\ (FR mw < FR (t_weight v))%R /\ d = t_distance v)) /\
  (forall (l : Layer KEsdf) mw g d,
     sdf_at l mw g = Some d <-> exists v, voxel_at (k := KEsdf) l g = Some v /\ e_observed v = true /\ d = e_distance v).
Proof.
  split.
  - intros l mw g d M W. unfold sdf_at. destruct (voxel_at l g) as [v|] eqn:E; cbn [getSdfIfValid].
    + specialize (W v eq_refl). pose proof (fle_R _ _ W M) as X. destruct (fle (t_weight v) mw).
      * assert (Y : (FR (t_weight v) <= FR mw)%R) by now apply X. split; [discriminate|]. intros (v' & V & L & _). injection V as <-. exfalso. apply (Rlt_not_le _ _ L Y).
      * split.
        -- intros D. injection D as <-. exists v. split; [reflexivity|]. split; [|reflexivity]. apply Rnot_le_lt. intros Y. apply X in Y. discriminate.
        -- intros (v' & V & _ & ->). injection V as <-. reflexivity.
    + split; [discriminate|]. intros (v & V & _). discriminate.
  - intros l mw g d. unfold sdf_at. destruct (voxel_at l g) as [v|] eqn:E; cbn [getSdfIfValid].
    + destruct (e_observed v) eqn:O; cbn [negb].
      * split; [intros D; injection D as <-; exists v; auto|]. intros (v' & V & _ & ->). injection V as <-. reflexivity.
      * split; [discriminate|]. intros (v' & V & L & _). injection V as <-. congruence.
    + split; [discriminate|]. intros (v & V & _). discriminate.
Qed.
Print Assumptions C36_usable.
Theorem C36_cube_reads : forall k (l : Layer k) mw b bi, layer_wf l -> l_get l bi = Some b ->
  forall border v, In (border, v) (visit_order (l_vps l)) ->
  read_corners (if border then border_corner l mw b v else inside_corner mw b v) eight = Ok (cube_values l mw bi v).
Proof. intros k l mw b bi W E border v H. now apply cube_read. Qed.
Print Assumptions C36_cube_reads.
(** ... it is left out iff one of these is missing or not sufficiently observed ... *)
Theorem C36_skipped_iff : forall k (l : Layer k) mw bi v,
  cube_values l mw bi v = None <->
  exists i, (i < 8)%nat /\ sdf_at l mw (corner (global_of (l_vps l) bi v) i) = None.
Proof.
  intros k l mw bi v. unfold cube_values.
  assert (G : forall (h : nat -> option f32) is, collect (map h is) = None <-> exists i, In i is /\ h i = None).
  { intros h is. induction is as [|i is IH]; cbn [map collect].
    - split; [discriminate|]. intros [i [[] _]].
    - destruct (h i) as [a|] eqn:E.
      + destruct (collect (map h is)); split; intros H; try discriminate.
        * destruct H as [j [[->|H] Hj]]; [congruence|]. destruct IH as [_ IH]. discriminate IH; eauto.
        * destruct IH as [IH _]. destruct (IH eq_refl) as [j [X Y]]. exists j. split; [now right|exact Y].
        * reflexivity.
      + split; [|auto]. intros _. exists i. split; [now left|exact E]. }
  rewrite G. split; intros [i [H1 H2]]; exists i; (split; [|exact H2]).
  - cbn in H1. lia.
  - cbn. lia.
Qed.
Print Assumptions C36_skipped_iff.
(** ... and the mesh of the block consists of the triangles of its cubes. *)
Theorem C36_block_mesh : forall k (l : Layer k) mw b bi, layer_wf l -> l_get l bi = Some b -> no_nan_sdf l mw ->
  forall origin updated, exists m,
    extractBlockMesh l mw b (MkMesh [] [] [] [] origin updated) = Ok m /\
    m_vertices m = flat_map (cube_points l mw b bi) (map snd (visit_order (l_vps l))) /\
    consistent m /\ sequential m.
Proof.
  intros k l mw b bi W E N o u. destruct (extractBlockMesh_ok l mw b bi W E N o u) as (m & A & B & (C & D) & _).
  exists m. auto.
Qed.
Print Assumptions C36_block_mesh.

(** a layer with eight blocks of one voxel, built by the layer's own calls *)
Definition ex_cells : list idx3 :=
  [V3 0 0 0; V3 1 0 0; V3 1 1 0; V3 0 1 0; V3 0 0 1; V3 1 0 1; V3 1 1 1; V3 0 1 1].
Definition ex_put (d : idx3 -> Z) (flags : idx3 -> upd) (l : Layer KTsdf) (i : idx3) : Layer KTsdf :=
  let l1 := allocateBlockPtrByIndex l i in
  match l_get l1 i with
  | Some b => with_blocks l1 (aset i (set_updated (flags i)
                (set_voxels (k := KTsdf) [MkTsdf (f32_lit (d i) 0) f1 color0] b)) (l_blocks l1))
  | None => l1
  end.
Definition ex_layer (d : idx3 -> Z) (flags : idx3 -> upd) : Layer KTsdf :=
  fold_left (ex_put d flags) ex_cells (MkLayer (k := KTsdf) f1 1 []).
Definition ex_l : Layer KTsdf := ex_layer (fun i => if vx i =? 0 then -1 else 1) (fun _ => upd_all).

Definition wf_check {k} (l : Layer k) : bool :=
  (0 <? l_vps l) && (l_vps l <=? 1024) &&
  forallb (fun kv => let b := snd kv in
     (b_vps b =? l_vps l) && (Z.of_nat (length (b_voxels b)) =? l_vps l * l_vps l * l_vps l) &&
     match block_index (b_vps b) (b_size b) (b_origin b) with Some i => idx_eqb i (fst kv) | None => false end)
    (l_blocks l).
Lemma wf_check_ok : forall k (l : Layer k), wf_check l = true -> layer_wf l.
Proof.
  intros k l H. unfold wf_check in H. rewrite !andb_true_iff in H. destruct H as [[H1 H2] H3].
  split; [lia|]. intros i b E. apply alookup_In in E. rewrite forallb_forall in H3. specialize (H3 (i, b) E).
  cbn [fst snd] in H3. rewrite !andb_true_iff in H3. destruct H3 as [[A B] C]. split; [lia|]. split; [lia|].
  destruct (block_index _ _ _) as [j|] eqn:EB; [|discriminate]. destruct (idx_eqb_spec j i) as [Ej|]; [now rewrite Ej|discriminate].
Qed.
Lemma nan_check_ok : forall (l : Layer KTsdf) mw,
  forallb (fun kv : idx3 * Block KTsdf => forallb (fun v => negb (fnan (t_distance v))) (b_voxels (k := KTsdf) (snd kv))) (l_blocks l) = true -> no_nan_sdf l mw.
Proof.
  intros l mw H g s E. unfold sdf_at, voxel_at in E. destruct (l_get l _) as [b|] eqn:Eb; [|discriminate].
  destruct (nth_error (b_voxels b) _) as [v|] eqn:Ev; [|discriminate]. apply alookup_In in Eb. apply nth_error_In in Ev.
  rewrite forallb_forall in H. specialize (H _ Eb). cbn [snd] in H. rewrite forallb_forall in H. specialize (H _ Ev).
  cbn in E. destruct (fle _ _) in E; [discriminate|]. injection E as <-. now apply negb_true_iff in H.
Qed.
Lemma ex_layer_ok : layer_wf ex_l /\ no_nan_sdf ex_l f0 /\ NoDup (akeys (l_blocks ex_l)).
Proof.
  split; [apply wf_check_ok; vm_compute; reflexivity|].
  split; [apply nan_check_ok; vm_compute; reflexivity|].
  replace (akeys (l_blocks ex_l)) with ex_cells by (vm_compute; reflexivity).
  repeat constructor; cbn; intuition discriminate.
Qed.
Example C36_example : layer_wf ex_l /\ no_nan_sdf ex_l f0 /\ hasBlock ex_l (V3 0 0 0) = true /\
  length (block_points ex_l f0 (V3 0 0 0)) = 6%nat /\ length (block_points ex_l f0 (V3 1 0 0)) = 0%nat.
Proof.
  destruct ex_layer_ok as (A & B & _). split; [exact A|]. split; [exact B|].
  split; [vm_compute; reflexivity|]. split; vm_compute; reflexivity.
Qed.

(** C37. The vertex interpolated between corners [p] and [q] with values of
    different sign is, up to rounding, the point at parameter [tau] of the segment
    from [p] to [q], where [tau] is the linear zero crossing, or 1/2 if the two
    values differ by less than 1e-6. A coordinate in which [p] and [q] agree is
    reproduced exactly. *)
Definition coord_ok (c : f32) : Prop := ffin c = true /\ (Rabs (FR c) <= bpow radix2 100)%R.
Definition pt_ok (p : pt3) : Prop := coord_ok (vx p) /\ coord_ok (vy p) /\ coord_ok (vz p).
Definition opposite (s1 s2 : f32) : Prop := (inside s1 /\ ~ inside s2) \/ (~ inside s1 /\ inside s2).
Definition on_segment (tau : R) (a b r : f32) : Prop :=
  ffin r = true /\
  (Rabs (FR r - (FR a + tau * (FR b - FR a))) <= / IZR (2 ^ 21) * (Rabs (FR a) + Rabs (FR b)) + bpow radix2 (-149))%R /\
  (FR a = FR b -> FR r = FR a).
Lemma slack_is : forall a b, (edge_slack a b = / IZR (2 ^ 21) * (Rabs a + Rabs b) + bpow radix2 (-149))%R.
Proof.
  intros a b. unfold edge_slack, u32r, t32r. replace (bpow radix2 (-149)) with (2 * bpow radix2 (-150))%R.
  2:{ change (-149)%Z with (1 + -150)%Z. rewrite bpow_plus. reflexivity. }
  change (2 ^ 21)%Z with 2097152%Z. lra.
Qed.
Lemma opposite_R : forall s1 s2, ffin s1 = true -> ffin s2 = true -> opposite s1 s2 ->
  ((FR s1 < 0 /\ 0 <= FR s2) \/ (0 <= FR s1 /\ FR s2 < 0))%R.
Proof. intros s1 s2 F1 F2. unfold opposite. rewrite !inside_R by assumption. lra. Qed.
Lemma interp_axes : forall p q s1 s2, interpolateVertex p q s1 s2 = zip3 (axis_of s1 s2) p q.
Proof. intros. unfold interpolateVertex, axis_of. now destruct (fge _ _). Qed.

Theorem C37_vertex_on_edge : forall p q s1 s2, pt_ok p -> pt_ok q -> coord_ok s1 -> coord_ok s2 -> opposite s1 s2 ->
  exists tau : R, (0 <= tau <= 1)%R /\
    (tau = FR s1 / (FR s1 - FR s2) \/ (tau = / 2 /\ Rabs (FR s1 - FR s2) < FR kEpsilon))%R /\
    let r := interpolateVertex p q s1 s2 in
    on_segment tau (vx p) (vx q) (vx r) /\ on_segment tau (vy p) (vy q) (vy r) /\ on_segment tau (vz p) (vz q) (vz r).
Proof.
  intros p q s1 s2 (P1 & P2 & P3) (Q1 & Q2 & Q3) (F1 & B1) (F2 & B2) O. apply opposite_R in O; auto.
  exists (param_of s1 s2). split; [now apply param_range|]. split; [now apply param_cases|].
  cbv zeta. rewrite interp_axes. unfold zip3. cbn [vx vy vz]. unfold on_segment, coord_ok in *.
  rewrite <- !slack_is. split; [|split]; apply axis_of_ok; tauto.
Qed.
Print Assumptions C37_vertex_on_edge.
Lemma ex_lit : forall z, -1000 <= z <= 1000 -> coord_ok (f32_lit z (-2)).
Proof.
  intros z Hz. assert (E : rnd32 (IZR z * bpow radix2 (-2)) = (IZR z * bpow radix2 (-2))%R) by (apply rnd32_exact; lia).
  assert (B : (IZR (-1000) <= IZR z <= IZR 1000)%R) by (split; apply IZR_le; lia).
  assert (K : (1024 <= bpow radix2 100)%R) by (change 1024%R with (bpow radix2 10); apply bpow_le; lia).
  destruct (f32_lit_R z (-2)) as (F & R).
  - rewrite E. unfold max32. apply Rle_lt_trans with (bpow radix2 10); [|apply bpow_lt; lia].
    change (bpow radix2 (-2)) with (/ 4)%R. change (bpow radix2 10) with 1024%R. apply Rabs_le. lra.
  - split; auto. rewrite F, E. change (bpow radix2 (-2)) with (/ 4)%R. apply Rabs_le. lra.
Qed.
Definition ex_v (x y z : Z) : pt3 := V3 (f32_lit x (-2)) (f32_lit y (-2)) (f32_lit z (-2)).
Example C37_example : pt_ok (ex_v 0 0 4) /\ pt_ok (ex_v 4 0 4) /\ coord_ok (f32_lit 4 (-2)) /\ coord_ok (f32_lit (-12) (-2)) /\
  opposite (f32_lit 4 (-2)) (f32_lit (-12) (-2)) /\
  map3 fword (interpolateVertex (ex_v 0 0 4) (ex_v 4 0 4) (f32_lit 4 (-2)) (f32_lit (-12) (-2))) = map3 fword (ex_v 1 0 4).
Proof.
  unfold pt_ok, ex_v. cbn [vx vy vz].
  split; [repeat split; apply ex_lit; lia|]. split; [repeat split; apply ex_lit; lia|].
  split; [apply ex_lit; lia|]. split; [apply ex_lit; lia|].
  split; [|vm_compute; reflexivity]. right. unfold inside. split; vm_compute; congruence.
Qed.

(** Two cubes sharing an edge may interpolate it from opposite ends. The two
    vertices agree up to twice the rounding error ... *)
Theorem C37_both_ends_agree : forall p q s1 s2, pt_ok p -> pt_ok q -> coord_ok s1 -> coord_ok s2 -> opposite s1 s2 ->
  let r := interpolateVertex p q s1 s2 in let r' := interpolateVertex q p s2 s1 in
  let near (a b c c' : f32) := (Rabs (FR c - FR c') <=
     2 * (/ IZR (2 ^ 21) * (Rabs (FR a) + Rabs (FR b)) + bpow radix2 (-149)))%R in
  near (vx p) (vx q) (vx r) (vx r') /\ near (vy p) (vy q) (vy r) (vy r') /\ near (vz p) (vz q) (vz r) (vz r').
Proof.
  intros p q s1 s2 (P1 & P2 & P3) (Q1 & Q2 & Q3) (F1 & B1) (F2 & B2) O. apply opposite_R in O; auto.
  cbv zeta. rewrite !interp_axes. unfold zip3. cbn [vx vy vz]. unfold coord_ok in *.
  rewrite <- !slack_is. split; [|split]; apply both_ends; tauto.
Qed.
Print Assumptions C37_both_ends_agree.
(** ... but are not always the same floats. *)
Theorem C37_shared_vertex_identical_refuted : exists p q s1 s2, pt_ok p /\ pt_ok q /\ coord_ok s1 /\ coord_ok s2 /\ opposite s1 s2 /\
  fword (vx (interpolateVertex p q s1 s2)) <> fword (vx (interpolateVertex q p s2 s1)).
Proof.
  exists (ex_v 0 0 0), (ex_v 1 0 0), (f32_lit 1 (-2)), (f32_lit (-12) (-2)).
  unfold pt_ok, ex_v. cbn [vx vy vz].
  split; [repeat split; apply ex_lit; lia|]. split; [repeat split; apply ex_lit; lia|].
  split; [apply ex_lit; lia|]. split; [apply ex_lit; lia|].
  split; [|vm_compute; discriminate]. right. unfold inside. split; vm_compute; congruence.
Qed.
Print Assumptions C37_shared_vertex_identical_refuted.

(** C38. Any sequence of cubes meshed into a consistent mesh leaves it consistent ... *)
Fixpoint mesh_cubes (cs : list ((nat -> pt3) * (nat -> f32))) (mn : mesh * Z) : res (mesh * Z) :=
  match cs with
  | [] => Ok mn
  | (x, s) :: cs' => rbind (meshCube x s (snd mn) (fst mn)) (mesh_cubes cs')
  end.
Theorem C38_cubes_consistent : forall cs m, consistent m ->
  (forall x s, In (x, s) cs -> forall i, (i < 8)%nat -> fnan (s i) = false) ->
  exists m', mesh_cubes cs (m, Z.of_nat (length (m_vertices m))) = Ok (m', Z.of_nat (length (m_vertices m'))) /\
    consistent m' /\ exists vs, m_vertices m' = m_vertices m ++ vs.
Proof.
  induction cs as [|[x s] cs IH]; intros m Hc Hn.
  - exists m. split; [reflexivity|]. split; [exact Hc|]. exists []. now rewrite app_nil_r.
  - assert (Hs : forall i, (i < 8)%nat -> fnan (s i) = false) by (apply (Hn x); now left).
    destruct (meshCube_ok x s m Hs) as (m1 & A & B & _).
    destruct (IH m1) as (m2 & E & C & vs & V).
    + eapply meshCube_consistent; [exact Hs|exact Hc|exact A].
    + intros x' s' H. apply (Hn x'). now right.
    + exists m2. cbn [mesh_cubes fst snd]. rewrite A. cbn [rbind]. split; [exact E|]. split; [exact C|].
      rewrite V, B, <- app_assoc. eauto.
Qed.
Print Assumptions C38_cubes_consistent.
(** ... concatenation of consistent meshes is consistent when it succeeds, and
    succeeds if both have triangles and agree on having colours; otherwise it
    aborts on a check ... *)
Theorem C38_concatenate : forall a b, consistent a -> consistent b ->
  (forall m, concatenateMesh a b = Ok m ->
     consistent m /\ m_vertices m = m_vertices a ++ m_vertices b /\ m_normals m = m_normals a ++ m_normals b /\
     m_colors m = m_colors a ++ m_colors b /\
     triples (m_indices m) = triples (m_indices a) ++
       map (fun t => let '(i, j, k) := t in
          let n := Z.of_nat (length (m_vertices a)) in (i + n, j + n, k + n)) (triples (m_indices b))) /\
  (m_vertices a <> [] -> m_vertices b <> [] -> nonempty (m_colors a) = nonempty (m_colors b) ->
     exists m, concatenateMesh a b = Ok m).
Proof.
  intros a b Ha Hb. split.
  - intros m E. split; [exact (concat_consistent a b m Ha Hb E)|]. destruct (concat_result a b m E) as (A & B & C).
    split; [exact A|]. split; [exact B|]. split; [exact C|].
    unfold concatenateMesh in E. destruct (_ && _) in E; [|discriminate]. injection E as <-. cbn [m_indices].
    destruct Ha as (_ & Ha & (n & Hn) & _).
    rewrite (triples_app _ n) by (now rewrite Ha). f_equal. generalize (Z.of_nat (length (m_vertices a))). intros d.
    destruct Hb as (_ & Hb & (k & Hk) & _). rewrite Hk in Hb. clear -Hb. revert Hb. generalize (m_indices b).
    induction k as [|k IH]; intros is H; [destruct is; [reflexivity|cbn in H; lia]|].
    destruct is as [|x [|y [|z is]]]; cbn [length] in H; try lia. cbn [map triples]. rewrite IH by lia. reflexivity.
  - intros Na Nb C. unfold concatenateMesh. rewrite C, eqb_reflx.
    destruct Ha as (A1 & A2 & _), Hb as (B1 & B2 & _).
    destruct (m_vertices a); [congruence|]. destruct (m_vertices b); [congruence|].
    destruct (m_normals a); [discriminate|]. destruct (m_normals b); [discriminate|].
    destruct (m_indices a); [discriminate|]. destruct (m_indices b); [discriminate|].
    cbn [nonempty eqb andb]. eauto.
Qed.
Print Assumptions C38_concatenate.
(** ... and the mesh of a whole layer is the concatenation of its block meshes,
    with one index per vertex in order. *)
Theorem C38_whole_mesh : forall colors mm origin updated, Forall (combinable colors) (map snd mm) ->
  exists out, getMesh mm (MkMesh [] [] [] [] origin updated) = Ok out /\
    m_vertices out = flat_map m_vertices (map snd mm) /\ m_normals out = flat_map m_normals (map snd mm) /\
    m_colors out = flat_map m_colors (map snd mm) /\ sequential out /\ consistent out.
Proof.
  intros colors mm o u H. rewrite (getMesh_ok colors) by exact H. eexists. split; [reflexivity|].
  unfold sequential, consistent. cbn [m_vertices m_normals m_colors m_indices].
  do 3 (split; [reflexivity|]). split; [reflexivity|].
  rewrite map_length, seq_length. generalize (map snd mm) H. clear H. intros ms H.
  assert (G : length (flat_map m_normals ms) = length (flat_map m_vertices ms) /\
              exists n, length (flat_map m_vertices ms) = (3 * n)%nat).
  { induction H as [|m ms ((A & _ & (n & B) & _) & _) _ (IH & n' & IH')]; [split; [reflexivity|now exists 0%nat]|].
    cbn [flat_map]. rewrite !app_length. split; [lia|]. exists (n + n')%nat. lia. }
  destruct G as (G1 & G2). split; [exact G1|]. split; [reflexivity|]. split; [exact G2|].
  apply Forall_forall. intros i Hi. apply in_map_iff in Hi. destruct Hi as (j & <- & Hj). apply in_seq in Hj. lia.
Qed.
Print Assumptions C38_whole_mesh.
Definition ex_mesh (a b c : pt3) : mesh := let up := V3 f0 f0 f1 in MkMesh [a; b; c] [0; 1; 2] [up; up; up] [] point0 true.
Definition ex_p (x y : Z) : pt3 := V3 (f32_of_Z x) (f32_of_Z y) f0.
Definition ex_m1 := ex_mesh (ex_p 0 0) (ex_p 1 0) (ex_p 0 1).
Definition ex_m2 := ex_mesh (ex_p 1 0) (ex_p 1 1) (ex_p 0 1).
Lemma ex_mesh_ok : forall a b c, combinable false (ex_mesh a b c).
Proof.
  intros. split; [|reflexivity]. split; [reflexivity|]. split; [reflexivity|]. split; [now exists 1%nat|].
  repeat constructor; cbn; lia.
Qed.
Example C38_example : Forall (combinable false) [ex_m1; ex_m2] /\ m_vertices ex_m1 <> [] /\
  (exists m, concatenateMesh ex_m1 ex_m2 = Ok m /\ m_indices m = [0; 1; 2; 3; 4; 5]) /\
  exists m, getMesh [(V3 0 0 0, ex_m1); (V3 1 0 0, new_mesh point0); (V3 2 0 0, ex_m2)] (new_mesh point0) = Ok m /\
     length (m_vertices m) = 6%nat.
Proof.
  split; [repeat constructor; try apply ex_mesh_ok; cbn; try lia; now exists 1%nat|].
  split; [discriminate|]. split; eexists; split; reflexivity.
Qed.
(** an empty mesh cannot be concatenated with a non-empty one *)
Theorem C38_concatenate_empty_refuted : forall a, m_vertices a <> [] -> consistent a ->
  concatenateMesh a (new_mesh point0) = Abort /\ concatenateMesh (new_mesh point0) a = Abort.
Proof.
  intros a N (A & B & _). unfold concatenateMesh, new_mesh. cbn [m_colors m_normals m_indices nonempty].
  destruct (m_vertices a); [congruence|]. destruct (m_normals a); [discriminate|]. destruct (m_indices a); [discriminate|].
  cbn [nonempty]. destruct (nonempty (m_colors a)); split; reflexivity.
Qed.
Print Assumptions C38_concatenate_empty_refuted.

(** C39. What [createConnectedMesh] returns: valid indices in groups of three; all
    vertices in different tolerance cells, all taken from the input; a vertex in
    the cell of every input vertex; and exactly the input triangles with three
    different cells, in order, each corner replaced by the vertex of its cell. *)
Theorem C39_connected : forall ms threshold origin updated out,
  createConnectedMesh ms threshold (MkMesh [] [] [] [] origin updated) = Ok out ->
  let inv := ddiv d1 (f64_of_f32 threshold) in
  Forall (fun i => 0 <= i < Z.of_nat (length (m_vertices out))) (m_indices out) /\
  (exists q, length (m_indices out) = (3 * q)%nat) /\
  NoDup (map (vertex_cell inv) (m_vertices out)) /\
  (forall v, In v (m_vertices out) -> exists m, In m ms /\ In v (m_vertices m)) /\
  (forall m v, In m ms -> In v (m_vertices m) ->
     exists w, In w (m_vertices out) /\ vertex_cell inv v = vertex_cell inv w /\ vertex_cell inv v <> None) /\
  Forall2 (same_cells inv) (triangles_of out) (filter (distinct_cells inv) (flat_map triangles_of ms)).
Proof. exact connected_ok. Qed.
Print Assumptions C39_connected.
(** It succeeds for consistent meshes with colours in all or none of them, if the
    coordinates divided by the threshold fit 64-bit integers. *)
Theorem C39_succeeds : forall colors ms threshold origin updated,
  Forall (combinable colors) ms ->
  (forall m v, In m ms -> In v (m_vertices m) -> vertex_cell (ddiv d1 (f64_of_f32 threshold)) v <> None) ->
  exists out, createConnectedMesh ms threshold (MkMesh [] [] [] [] origin updated) = Ok out /\
    length (m_normals out) = length (m_vertices out) /\
    length (m_colors out) = (if colors then length (m_vertices out) else 0)%nat.
Proof.
  intros colors ms thr o u H C. apply connected_succeeds. rewrite Forall_forall in *. intros m Hm.
  destruct (H m Hm) as (A & B). split; [exact A|]. split; [exact B|]. intros v. now apply C.
Qed.
Print Assumptions C39_succeeds.
(** Every vertex keeps the colour it came with, and every normal has length 1 up to
    rounding, also after merging any number of vertices. *)
Theorem C39_attributes : forall colors ms threshold origin updated out,
  Forall (combinable colors) ms -> Forall (fun m => Forall modest (m_normals m)) ms ->
  createConnectedMesh ms threshold (MkMesh [] [] [] [] origin updated) = Ok out ->
  Forall unit_length (m_normals out) /\ colored_from ms out.
Proof. exact connected_n. Qed.
Print Assumptions C39_attributes.
Definition ex_thr : f32 := f32_lit 1 (-10).
Example C39_example : Forall (combinable false) [ex_m1; ex_m2] /\
  forallb (fun v => match vertex_cell (ddiv d1 (f64_of_f32 ex_thr)) v with Some _ => true | None => false end)
    (flat_map m_vertices [ex_m1; ex_m2]) = true /\
  match createConnectedMesh [ex_m1; ex_m2] ex_thr (new_mesh point0) with
  | Ok m => length (m_vertices m) = 4%nat /\ m_indices m = [0; 1; 2; 1; 3; 2]
  | _ => False
  end.
Proof.
  split; [apply C38_example|]. split; [vm_compute; reflexivity|]. vm_compute. auto.
Qed.
Example C39_attributes_example : Forall (fun m => Forall modest (m_normals m)) [ex_m1; ex_m2].
Proof.
  assert (M : modest (V3 f0 f0 f1)).
  { unfold modest, all3. cbn [vx vy vz]. change (FR f0) with 0%R. replace (FR f1) with 1%R by (symmetry; apply (f32_of_Z_R 1); lia).
    repeat split; apply Rabs_le; lra. }
  repeat (apply Forall_cons || apply Forall_nil); exact M.
Qed.
(** Meshes without normals are not supported once two vertices coincide. *)
Theorem C39_no_normals_refuted : exists ms, Forall (fun m => m_normals m = [] /\ m_indices m = [0; 1; 2]) ms /\
  createConnectedMesh ms ex_thr (new_mesh point0) = UB.
Proof.
  exists [MkMesh [ex_p 0 0; ex_p 1 0; ex_p 0 1] [0; 1; 2] [] [] point0 true;
          MkMesh [ex_p 1 0; ex_p 1 1; ex_p 0 1] [0; 1; 2] [] [] point0 true].
  split; [repeat constructor|vm_compute; reflexivity].
Qed.
Print Assumptions C39_no_normals_refuted.

(** C62 (partial). A mesh generation updates exactly the meshes of the blocks it
    works on, to the current surface, and touches nothing else; with [clear] it
    clears the mesh flags of those blocks and no other flag ... *)
Theorem C62_generate : forall k cfg (only_updated clear : bool) (l : Layer k) mm l' mm',
  layer_wf l -> NoDup (akeys (l_blocks l)) -> no_nan_sdf l (mc_min_weight cfg) ->
  generateMesh cfg only_updated clear l mm = Ok (l', mm') ->
  (forall i, l_get l' i = if clear && to_mesh only_updated l i then option_map mesh_flag_cleared (l_get l i) else l_get l i) /\
  (forall i, to_mesh only_updated l i = true -> exists m, alookup i mm' = Some m /\ up_to_date cfg l i m) /\
  (forall i, to_mesh only_updated l i = false -> alookup i mm' = alookup i mm).
Proof.
  intros k cfg only clear l mm l' mm' W ND N E.
  destruct (generateMesh_ok cfg only clear l mm l' mm' W ND N E) as (A & B & C & _). auto.
Qed.
Print Assumptions C62_generate.
Theorem C62_generate_succeeds : forall k cfg (only_updated clear : bool) (l : Layer k) mm, mc_use_color cfg = false ->
  layer_wf l -> NoDup (akeys (l_blocks l)) -> no_nan_sdf l (mc_min_weight cfg) ->
  exists r, generateMesh cfg only_updated clear l mm = Ok r.
Proof. intros k cfg only clear l mm. apply generateMesh_succeeds. Qed.
Print Assumptions C62_generate_succeeds.
(** ... so incremental generation leaves all meshes up to date, provided every
    block without the flag already had an up-to-date mesh (in particular, none of
    its cubes changed). Missing: that the integrators set the flag for all blocks
    whose surface changes, which is false. *)
Theorem C62_incremental_partial : forall k cfg clear (l : Layer k) mm l' mm',
  layer_wf l -> NoDup (akeys (l_blocks l)) -> no_nan_sdf l (mc_min_weight cfg) ->
  (forall i b, l_get l i = Some b -> upd_get (b_updated b) kMesh = false ->
     exists m, alookup i mm = Some m /\ up_to_date cfg l i m) ->
  generateMesh cfg true clear l mm = Ok (l', mm') ->
  forall i, hasBlock l i = true -> exists m, alookup i mm' = Some m /\ up_to_date cfg l i m.
Proof.
  intros k cfg clear l mm l' mm' W ND N H E i Hi.
  destruct (C62_generate k cfg true clear l mm l' mm' W ND N E) as (_ & B & C).
  destruct (to_mesh true l i) eqn:T; [now apply B|]. rewrite C by exact T.
  unfold hasBlock in Hi. unfold to_mesh in T. destruct (l_get l i) as [b|] eqn:Eb; [|discriminate]. now apply (H i b).
Qed.
Print Assumptions C62_incremental_partial.

(** The block at the origin is meshed; then the voxel of block (1,0,0) changes, and
    with it the flags of that block. The next incremental mesh generation leaves the
    mesh of block (0,0,0) as it was, although its surface has moved. *)
Definition ex_cfg : MeshConfig := MkMeshConfig false f0.
Definition ex_later : Layer KTsdf :=
  ex_layer (fun i => if vx i =? 0 then -1 else if idx_eqb i (V3 1 0 0) then 3 else 1)
           (fun i => if idx_eqb i (V3 1 0 0) then upd_all else MkUpd true false true).
Example C62_example : layer_wf ex_l /\ NoDup (akeys (l_blocks ex_l)) /\ no_nan_sdf ex_l (mc_min_weight ex_cfg) /\
  match generateMesh ex_cfg true true ex_l [] with
  | Ok (l1, mm1) => length mm1 = 8%nat /\ forallb (fun kv => negb (upd_get (b_updated (snd kv)) kMesh) &&
                        upd_get (b_updated (snd kv)) kEsdf) (l_blocks l1) = true
  | _ => False
  end.
Proof.
  destruct ex_layer_ok as (A & B & C). split; [exact A|]. split; [exact C|]. split; [exact B|]. vm_compute. auto.
Qed.
Fixpoint same_words (a b : list idx3) : bool :=
  match a, b with [], [] => true | x :: a', y :: b' => idx_eqb x y && same_words a' b' | _, _ => false end.
Definition words (m : mesh) := map (map3 fword) (m_vertices m).
Lemma stale_witness : forall (g1 : res (Layer KTsdf * mesh_map)) (g2 g3 : mesh_map -> res (Layer KTsdf * mesh_map)),
  match g1 with
  | Ok (_, mm) =>
      match g2 mm, g3 mm with
      | Ok (_, mm2), Ok (_, mm3) =>
          match alookup (V3 0 0 0) mm2, alookup (V3 0 0 0) mm3 with
          | Some m2, Some m3 => negb (same_words (words m2) (words m3))
          | _, _ => false
          end
      | _, _ => false
      end
  | _ => false
  end = true ->
  exists l1 mm1 l2 mm2 mm3 l3 m2 m3, g1 = Ok (l1, mm1) /\ g2 mm1 = Ok (l2, mm2) /\ g3 mm1 = Ok (l3, mm3) /\
    alookup (V3 0 0 0) mm2 = Some m2 /\ alookup (V3 0 0 0) mm3 = Some m3 /\ words m2 <> words m3.
Proof.
  intros g1 g2 g3 P. destruct g1 as [[l1 mm1]| |]; try discriminate.
  destruct (g2 mm1) as [[l2 mm2]| |] eqn:E2; try discriminate.
  destruct (g3 mm1) as [[l3 mm3]| |] eqn:E3; try discriminate.
  destruct (alookup (V3 0 0 0) mm2) as [m2|] eqn:A2; try discriminate.
  destruct (alookup (V3 0 0 0) mm3) as [m3|] eqn:A3; try discriminate.
  exists l1, mm1, l2, mm2, mm3, l3, m2, m3. repeat (split; [first [reflexivity|assumption]|]).
  intros W. rewrite W in P. clear -P. revert P. generalize (words m3). intros w. induction w as [|a w IH]; cbn; [discriminate|].
  rewrite idx_eqb_refl. exact IH.
Qed.
Theorem C62_stale_neighbour_refuted :
  (* only block (1,0,0) differs between the two layers, and it carries the flag *)
  (forall i, i <> V3 1 0 0 -> option_map b_voxels (l_get ex_later i) = option_map b_voxels (l_get ex_l i)) /\
  to_mesh true ex_later (V3 1 0 0) = true /\
  exists l1 mm1 l2 mm2 mm3 l3 m2 m3,
    generateMesh ex_cfg true true ex_l [] = Ok (l1, mm1) /\
    generateMesh ex_cfg true true ex_later mm1 = Ok (l2, mm2) /\
    generateMesh ex_cfg false true ex_later mm1 = Ok (l3, mm3) /\
    alookup (V3 0 0 0) mm2 = Some m2 /\ alookup (V3 0 0 0) mm3 = Some m3 /\ words m2 <> words m3.
Proof.
  split.
  { intros i Hi. unfold l_get.
    assert (K : akeys (l_blocks ex_later) = ex_cells /\ akeys (l_blocks ex_l) = ex_cells) by (split; vm_compute; reflexivity).
    destruct K as (K1 & K2).
    assert (G : forallb (fun j => if idx_eqb j (V3 1 0 0) then true else
        match alookup j (l_blocks ex_later), alookup j (l_blocks ex_l) with
        | Some b, Some b' => match b_voxels b, b_voxels b' with
            | [v], [v'] => (fword (t_distance v) =? fword (t_distance v')) | _, _ => false end
        | _, _ => false end) ex_cells = true) by (vm_compute; reflexivity).
    destruct (in_dec (fun x y => Bool.reflect_dec _ _ (idx_eqb_spec x y)) i ex_cells) as [H|H].
    2:{ assert (X : alookup i (l_blocks ex_later) = None) by (apply alookup_None; now rewrite K1).
        assert (Y : alookup i (l_blocks ex_l) = None) by (apply alookup_None; now rewrite K2).
        now rewrite X, Y. }
    clear G. cbn in H.
    repeat match goal with H : _ \/ _ |- _ => destruct H as [<-|H] end; try tauto; vm_compute; reflexivity. }
  split; [vm_compute; reflexivity|].
  apply (stale_witness (generateMesh ex_cfg true true ex_l []) (generateMesh ex_cfg true true ex_later)
    (generateMesh ex_cfg false true ex_later)).
  vm_compute. reflexivity.
Qed.
Print Assumptions C62_stale_neighbour_refuted.
