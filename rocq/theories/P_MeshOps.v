(** C100 (meshes): reported memory. C101: recolouring and the polygon export of a mesh. *)
From Coq Require Import ZArith List Bool Lia.
From Verif Require Import F32 Types Index Voxel Serialize Assoc Layer Marching MeshInt Mesh_spec Ply MeshOps P_Mesh.
Import ListNotations.
Open Scope Z_scope.

(** ** C100, meshes *)
(** the members of a mesh and the contents of its four arrays *)
Definition bytes_of_mesh (m : mesh) : Z :=
  4 * 24 + 4 + 3 * 4 + 1 + Z.of_nat (length (m_vertices m)) * (3 * 4) + Z.of_nat (length (m_normals m)) * (3 * 4) +
  Z.of_nat (length (m_colors m)) * 4 + Z.of_nat (length (m_indices m)) * 8.
Definition bytes_of_meshes (mm : mesh_map) : Z := 2 * 4 + fold_right Z.add 0 (map (fun im => bytes_of_mesh (snd im)) mm).
Definition coloured (m : mesh) : Prop := length (m_colors m) = length (m_vertices m).
Lemma mesh_nonneg : forall m, 0 <= bytes_of_mesh m. Proof. intros m. unfold bytes_of_mesh. lia. Qed.
Lemma meshes_nonneg : forall mm : mesh_map, 0 <= fold_right Z.add 0 (map (fun im => bytes_of_mesh (snd im)) mm).
Proof. induction mm as [|im mm IH]; cbn [map fold_right]; [lia|]. pose proof (mesh_nonneg (snd im)). lia. Qed.
(** The reported memory of a mesh layer whose meshes have a colour per vertex counts every
    array of every mesh. *)
Theorem C100_mesh_partial : forall mm, Forall (fun im => coloured (snd im)) mm -> bytes_of_meshes mm < 2 ^ 64 ->
  mesh_layer_memory mm = bytes_of_meshes mm.
Proof.
  assert (M : forall m, coloured m -> bytes_of_mesh m < 2 ^ 64 -> mesh_memory m = bytes_of_mesh m).
  { intros m C B. unfold mesh_memory, u64, bytes_of_mesh, coloured in *. rewrite C in *. rewrite Z.mod_small; lia. }
  assert (G : forall (mm : mesh_map) s, Forall (fun im => coloured (snd im)) mm -> 0 <= s -> s + fold_right Z.add 0 (map (fun im => bytes_of_mesh (snd im)) mm) < 2 ^ 64 ->
    fold_left (fun s im => u64 (s + mesh_memory (snd im))) mm s = s + fold_right Z.add 0 (map (fun im => bytes_of_mesh (snd im)) mm)).
  { induction mm as [|im mm IH]; intros s H S0 B; cbn [fold_left map fold_right] in *; [lia|]. inversion H as [|? ? C H']; subst.
    pose proof (mesh_nonneg (snd im)) as P. pose proof (meshes_nonneg mm) as Q. rewrite (M _ C) by lia. unfold u64. rewrite (Z.mod_small (s + bytes_of_mesh (snd im))) by lia.
    rewrite IH; [lia|exact H'|lia|lia]. }
  intros mm H B. unfold mesh_layer_memory, bytes_of_meshes in *. rewrite G; [reflexivity|exact H|lia|lia].
Qed.
Print Assumptions C100_mesh_partial.
(** Missing: meshes without colours. The code counts a colour for every vertex. *)
Theorem C100_mesh_refuted : exists m, combinable false m /\ m_vertices m <> [] /\
  mesh_layer_memory [(V3 0 0 0, m)] = bytes_of_meshes [(V3 0 0 0, m)] + 4 * Z.of_nat (length (m_vertices m)).
Proof. exists ex_m1. split; [apply ex_mesh_ok|]. split; [discriminate|reflexivity]. Qed.
Print Assumptions C100_mesh_refuted.

(** ** C101 *)
(** Recolouring gives every vertex the colour and changes nothing else. *)
Theorem C101_colour : forall m c, let m' := colorizeMesh m c in
  (forall n, nth_error (m_colors m') n = match nth_error (m_vertices m) n with Some _ => Some c | None => None end) /\
  m_vertices m' = m_vertices m /\ m_normals m' = m_normals m /\ m_indices m' = m_indices m /\ m_origin m' = m_origin m /\ triangles_of m' = triangles_of m.
Proof.
  intros m c m'. split; [|repeat split]. intros n. unfold m', colorizeMesh. cbn [m_colors]. generalize (m_vertices m). intros vs. revert n.
  induction vs as [|v vs IH]; intros [|n]; cbn [length repeat nth_error]; try reflexivity. apply IH.
Qed.
Print Assumptions C101_colour.

(** the three corners of a polygon of an exported mesh *)
Definition corners (ps : list pt3) (p : list Z) : list pt3 := map (fun i => nth (Z.to_nat i) ps point0) p.
Lemma polygons_triples : forall n is, length is = (3 * n)%nat -> Forall (fun i => 0 <= i < 2 ^ 32) is ->
  polygons_from [] is = map (fun t => let '(a, b, c) := t in [a; b; c]) (triples is).
Proof.
  assert (U : forall i, 0 <= i < 2 ^ 32 -> u32 i = i) by (intros i H; unfold u32; apply Z.mod_small, H).
  induction n as [|n IH]; intros is L H; [destruct is; [reflexivity|cbn in L; lia]|].
  destruct is as [|a [|b [|c is]]]; cbn [length] in L; try lia. inversion H as [|? ? A H1]; subst. inversion H1 as [|? ? B H2]; subst. inversion H2 as [|? ? C H3]; subst.
  cbn [polygons_from app length Nat.eqb triples map]. rewrite !U by assumption. f_equal. apply IH; [lia|exact H3].
Qed.
(** The polygon mesh of a layer exported without merging has the vertices of all meshes of
    the layer, one polygon for every three, at the same places in the same order. *)
Theorem C101_polygons : forall colors mm t, Forall (combinable colors) (map snd mm) ->
  Z.of_nat (length (flat_map m_vertices (map snd mm))) <= 2 ^ 32 ->
  exists ps polys, toPCLPolygonMesh mm false t = Ok (ps, polys) /\ ps = flat_map m_vertices (map snd mm) /\
    Forall (fun p => length p = 3%nat /\ Forall (fun i => 0 <= i < Z.of_nat (length ps)) p) polys /\
    map (corners ps) polys = map (fun t => let '(a, b, c) := t in [a; b; c]) (triples ps).
Proof.
  intros colors mm t H B. destruct (C38_whole_mesh colors mm (V3 f0 f0 f0) false H) as (m & E & V & _ & _ & SQ & Q & L & (n & N) & R).
  unfold toPCLPolygonMesh, convertMeshLayerToMesh, new_mesh. rewrite E. cbn [rbind snd]. rewrite <- V in B.
  exists (m_vertices m), (polygons_from [] (m_indices m)). split; [reflexivity|]. split; [exact V|].
  assert (W : Forall (fun i => 0 <= i < 2 ^ 32) (m_indices m)) by (eapply Forall_impl; [|exact R]; cbn beta; intros; lia).
  rewrite (polygons_triples n) by (congruence || exact W). split.
  - apply Forall_forall. intros p Hp. apply in_map_iff in Hp. destruct Hp as (((a, b), c) & <- & I). split; [reflexivity|].
    assert (T : forall (l : list Z), Forall (fun i => 0 <= i < Z.of_nat (length (m_vertices m))) l -> In (a, b, c) (triples l) -> Forall (fun i => 0 <= i < Z.of_nat (length (m_vertices m))) [a; b; c]).
    { intros l. assert (G : forall k l, (length l <= k)%nat -> Forall (fun i => 0 <= i < Z.of_nat (length (m_vertices m))) l -> In (a, b, c) (triples l) -> Forall (fun i => 0 <= i < Z.of_nat (length (m_vertices m))) [a; b; c]).
      { induction k as [|k IH]; intros [|x [|y [|z l']]] Lk F J; cbn [triples In length] in *; try contradiction; try lia.
        inversion F as [|? ? X F1]; subst. inversion F1 as [|? ? Y F2]; subst. inversion F2 as [|? ? Z0 F3]; subst. destruct J as [J|J]; [injection J as -> -> ->; repeat constructor; lia|]. apply (IH l'); [lia|exact F3|exact J]. }
      apply (G (length l)). apply Nat.le_refl. }
    apply (T (m_indices m)); [exact R|exact I].
  - rewrite SQ. rewrite map_map.
    assert (G : forall k vs pre, length vs = (3 * k)%nat -> map (fun x => corners (pre ++ vs) (let '(a, b, c) := x in [a; b; c])) (triples (map Z.of_nat (seq (length pre) (length vs)))) = map (fun t => let '(a, b, c) := t in [a; b; c]) (triples vs)).
    { induction k as [|k IH]; intros vs pre Lk; [destruct vs; [reflexivity|cbn in Lk; lia]|]. destruct vs as [|x [|y [|z vs]]]; cbn [length] in Lk; try lia.
      cbn [length seq map triples]. f_equal.
      - unfold corners. cbn [map]. rewrite !Nat2Z.id.
        replace (pre ++ x :: y :: z :: vs) with ((pre ++ [x]) ++ y :: z :: vs) by (rewrite <- app_assoc; reflexivity).
        rewrite (app_nth1 (pre ++ [x])) by (rewrite app_length; cbn; lia). rewrite (app_nth2 pre [x]) by lia. rewrite Nat.sub_diag. cbn [nth].
        rewrite (app_nth2 (pre ++ [x])) by (rewrite app_length; cbn; lia). rewrite (app_nth2 (pre ++ [x])) by (rewrite app_length; cbn; lia). rewrite app_length. cbn [length].
        replace (S (length pre) - (length pre + 1))%nat with 0%nat by lia. replace (S (S (length pre)) - (length pre + 1))%nat with 1%nat by lia. reflexivity.
      - specialize (IH vs (pre ++ [x; y; z]) ltac:(lia)). rewrite <- IH. rewrite app_length. cbn [length]. replace (length pre + 3)%nat with (S (S (S (length pre)))) by lia. rewrite <- app_assoc. reflexivity. }
    exact (G n (m_vertices m) [] N).
Qed.
Print Assumptions C101_polygons.
(** two triangles: two polygons *)
Example C101_example : Forall (combinable false) (map snd [(V3 0 0 0, ex_m1); (V3 1 0 0, ex_m2)]) /\
  match toPCLPolygonMesh [(V3 0 0 0, ex_m1); (V3 1 0 0, ex_m2)] false f1 with Ok (ps, polys) => length ps = 6%nat /\ polys = [[0; 1; 2]; [3; 4; 5]] | _ => False end.
Proof. split; [cbn [map snd]; constructor; [apply ex_mesh_ok|constructor; [apply ex_mesh_ok|constructor]]|]. vm_compute. split; reflexivity. Qed.
