(** Proofs about marching cubes: table checks and mesh arrays. *)
From Coq Require Import ZArith List Bool Lia.
From Verif Require Import F32 F32_lemmas Types Index Voxel Layer Ray Marching MeshInt Mesh_spec.
Import ListNotations.
Open Scope Z_scope.

Definition pats : list Z := map Z.of_nat (seq 0 256).
Lemma pats_In : forall p, 0 <= p < 256 -> In p pats.
Proof.
  intros p H. unfold pats. rewrite in_map_iff. exists (Z.to_nat p).
  split; [lia|]. rewrite in_seq. lia.
Qed.

(** the configuration is a pattern of eight bits *)
Lemma corner_bit_b : forall s i, corner_bit s i = if flt s f0 then Z.shiftl 1 i else 0.
Proof. reflexivity. Qed.
Lemma config_bits : forall s,
  0 <= calculateVertexConfiguration s < 256 /\
  forall i, (i < 8)%nat -> Z.testbit (calculateVertexConfiguration s) (Z.of_nat i) = flt (s i) f0.
Proof.
  intros s. unfold calculateVertexConfiguration. rewrite !corner_bit_b.
  generalize (eq_refl (flt (s 0%nat) f0)).
  destruct (flt (s 0%nat) f0) eqn:E0, (flt (s 1%nat) f0) eqn:E1, (flt (s 2%nat) f0) eqn:E2,
    (flt (s 3%nat) f0) eqn:E3; intros _;
  destruct (flt (s 4%nat) f0) eqn:E4, (flt (s 5%nat) f0) eqn:E5, (flt (s 6%nat) f0) eqn:E6,
    (flt (s 7%nat) f0) eqn:E7; vm_compute (Z.lor _ _);
  (split; [lia|]; intros i Hi;
   destruct i as [|[|[|[|[|[|[|[|i]]]]]]]]; [..|lia];
   first [rewrite E0|rewrite E1|rewrite E2|rewrite E3|rewrite E4|rewrite E5|rewrite E6|rewrite E7];
   reflexivity).
Qed.

Definition inside_b (p : Z) (i : nat) : bool := Z.testbit p (Z.of_nat i).
Definition row_of (p : Z) : list Z := nth (Z.to_nat p) kTriangleTable [].
Definition tris (p : Z) := row_triangles (row_of p).
Definition cross_b (p : Z) (e : nat) : bool :=
  xorb (inside_b p (fst (edge_ends e))) (inside_b p (snd (edge_ends e))).

(** a row is well formed: groups of three edges in range, then -1 *)
Fixpoint row_ok (row : list Z) : bool :=
  match row with
  | [] => false
  | e0 :: row1 =>
      if e0 =? -1 then true
      else match row1 with
           | e1 :: e2 :: rest =>
               (0 <=? e0) && (e0 <? 12) && (0 <=? e1) && (e1 <? 12) && (0 <=? e2) && (e2 <? 12)
               && row_ok rest
           | _ => false
           end
  end.
Definition table_check (p : Z) : bool :=
  row_ok (row_of p) && (length (tris p) <=? 5)%nat &&
  forallb (fun t => forallb (fun e => (e <? 12)%nat && cross_b p e) (triangle_edges t)) (tris p) &&
  forallb (fun e => implb (cross_b p e)
                      (existsb (fun t => existsb (Nat.eqb e) (triangle_edges t)) (tris p)))
    (seq 0 12).
Lemma table_checked : forallb table_check pats = true.
Proof. vm_compute. reflexivity. Qed.
Lemma table_rows : length kTriangleTable = 256%nat. Proof. reflexivity. Qed.
Lemma pairs_small : forall e, (e < 12)%nat -> (fst (edge_ends e) < 8)%nat /\ (snd (edge_ends e) < 8)%nat
  /\ nth_error kEdgeIndexPairs e = Some (edge_ends e).
Proof. intros e H. do 12 (destruct e as [|e]; [cbn; repeat split; lia|]). lia. Qed.

Section Cube.
  Variable s : nat -> f32.
  Let p := calculateVertexConfiguration s.
  Lemma cube_tris : cube_triangles s = tris p. Proof. reflexivity. Qed.
  Lemma cube_check : table_check p = true.
  Proof.
    pose proof table_checked as H. rewrite forallb_forall in H. apply H.
    apply pats_In. apply config_bits.
  Qed.
  Lemma inside_bit : forall i, (i < 8)%nat -> inside_b p i = flt (s i) f0.
  Proof. intros i H. unfold inside_b. now apply config_bits. Qed.
  Lemma cross_iff : forall e, (e < 12)%nat -> (cross_b p e = true <-> sign_change s e).
  Proof.
    intros e He. destruct (pairs_small e He) as [H1 [H2 _]]. unfold cross_b, sign_change.
    rewrite !inside_bit by assumption. destruct (edge_ends e) as [a b]. cbn [fst snd].
    unfold inside. destruct (flt (s a) f0), (flt (s b) f0); cbn; intuition congruence.
  Qed.
  Lemma cube_edges : forall t e, In t (cube_triangles s) -> In e (triangle_edges t) ->
    (e < 12)%nat /\ sign_change s e.
  Proof.
    intros t e Ht He. pose proof cube_check as C. unfold table_check in C.
    rewrite !andb_true_iff in C. destruct C as [[[_ _] C] _].
    rewrite forallb_forall in C. specialize (C t Ht). rewrite forallb_forall in C.
    specialize (C e He). apply andb_true_iff in C. destruct C as [C1 C2].
    apply Nat.ltb_lt in C1. split; [exact C1|]. now apply cross_iff.
  Qed.
  Lemma cube_all_edges : forall e, (e < 12)%nat -> sign_change s e ->
    exists t, In t (cube_triangles s) /\ In e (triangle_edges t).
  Proof.
    intros e He Hs. pose proof cube_check as C. unfold table_check in C.
    rewrite !andb_true_iff in C. destruct C as [_ C].
    rewrite forallb_forall in C. assert (In e (seq 0 12)) by (apply in_seq; lia).
    specialize (C e H). apply cross_iff in Hs; [|exact He]. rewrite Hs in C. cbn [implb] in C.
    apply existsb_exists in C. destruct C as [t [Ht C]]. apply existsb_exists in C.
    destruct C as [e' [He' C]]. apply Nat.eqb_eq in C. subst e'. exists t. auto.
  Qed.
  Lemma cube_five : (length (cube_triangles s) <= 5)%nat.
  Proof.
    pose proof cube_check as C. unfold table_check in C.
    rewrite !andb_true_iff in C. destruct C as [[[_ C] _] _]. now apply Nat.leb_le in C.
  Qed.
  Lemma cube_row : row_ok (row_of p) = true.
  Proof.
    pose proof cube_check as C. unfold table_check in C.
    rewrite !andb_true_iff in C. tauto.
  Qed.
  Lemma uniform_none : (forall i, (i < 8)%nat -> inside (s i)) \/ (forall i, (i < 8)%nat -> ~ inside (s i)) ->
    cube_triangles s = [].
  Proof.
    intros H. destruct (cube_triangles s) as [|t ts] eqn:E; [reflexivity|exfalso].
    destruct (cube_edges t (fst (fst t))) as [He Hs].
    { rewrite E; now left. }
    { destruct t as [[a b] c]. now left. }
    unfold sign_change in Hs. destruct (pairs_small _ He) as [H1 [H2 _]].
    destruct (edge_ends (fst (fst t))) as [a b]. cbn [fst snd] in *.
    destruct H as [H|H]; pose proof (H a H1); pose proof (H b H2); tauto.
  Qed.
End Cube.

(** emission *)
Lemma emit_ok : forall p q r m, exists n,
  emit_triangle p q r (Z.of_nat (length (m_vertices m))) m =
  Ok (MkMesh (m_vertices m ++ [p; q; r])
        (m_indices m ++ [Z.of_nat (length (m_vertices m)); Z.of_nat (length (m_vertices m)) + 1;
                         Z.of_nat (length (m_vertices m)) + 2])
        (m_normals m ++ [n; n; n]) (m_colors m) (m_origin m) (m_updated m),
      Z.of_nat (length (m_vertices m ++ [p; q; r]))).
Proof.
  intros p q r m. unfold emit_triangle.
  set (k := length (m_vertices m)).
  replace (Z.to_nat (Z.of_nat k)) with (k + 0)%nat by lia.
  replace (Z.to_nat (Z.of_nat k + 1)) with (k + 1)%nat by lia.
  replace (Z.to_nat (Z.of_nat k + 2)) with (k + 2)%nat by lia.
  rewrite !nth_error_app2 by lia. fold k. rewrite !(Nat.add_comm k), !Nat.add_sub. cbn [nth_error].
  eexists. rewrite app_length. cbn [length]. f_equal. f_equal. lia.
Qed.

Lemma read_edge_ok : forall x s e, 0 <= e < 12 -> sign_change s (Z.to_nat e) ->
  (forall i, (i < 8)%nat -> fnan (s i) = false) ->
  read_edge (edge_vertex x s) e = Some (edge_point x s (Z.to_nat e)).
Proof.
  intros x s e He Hs Hn. unfold read_edge. rewrite (proj2 (Z.ltb_ge e 0)) by lia.
  assert (L : (Z.to_nat e < 12)%nat) by lia. destruct (pairs_small _ L) as [H1 [H2 H3]].
  unfold edge_vertex. rewrite H3. unfold sign_change in Hs. unfold edge_point.
  destruct (edge_ends (Z.to_nat e)) as [a b]. cbn [fst snd] in *.
  assert (F : forall z, fnan z = false -> flt z f0 = false -> fge z f0 = true).
  { intros z Hz Hl. unfold fge. apply fle_iff. apply flt_false_iff in Hl.
    destruct Hl as [Hl|[Hl|Hl]]; [congruence|discriminate Hl|]. auto. }
  unfold crosses, inside in *.
  destruct (flt (s a) f0) eqn:Ea, (flt (s b) f0) eqn:Eb;
    try (exfalso; intuition congruence).
  - rewrite (F (s b)) by auto. reflexivity.
  - rewrite (F (s a)) by auto. rewrite orb_true_r. reflexivity.
Qed.

Lemma mesh_row_ok : forall x s, (forall i, (i < 8)%nat -> fnan (s i) = false) ->
  forall n row, (length row <= n)%nat -> row_ok row = true ->
  (forall t e, In t (row_triangles row) -> In e (triangle_edges t) -> sign_change s e) ->
  forall m, exists m',
    mesh_row row (edge_vertex x s) (Z.of_nat (length (m_vertices m))) m =
      Ok (m', Z.of_nat (length (m_vertices m'))) /\
    m_vertices m' = m_vertices m ++ flat_map (triangle_points x s) (row_triangles row) /\
    m_colors m' = m_colors m /\ m_origin m' = m_origin m /\ m_updated m' = m_updated m /\
    (exists ns, m_normals m' = m_normals m ++ ns /\
                length ns = length (flat_map (triangle_points x s) (row_triangles row))) /\
    m_indices m' = m_indices m ++ map Z.of_nat (seq (length (m_vertices m))
                     (length (flat_map (triangle_points x s) (row_triangles row)))).
Proof.
  intros x s Hn. induction n as [|n IH]; intros row Hlen Hok Hs m.
  { destruct row; [discriminate Hok|cbn in Hlen; lia]. }
  destruct row as [|e0 row]; [discriminate Hok|]. cbn [row_ok] in Hok. cbn [mesh_row].
  destruct (e0 =? -1) eqn:E0.
  { exists m. replace (row_triangles (e0 :: row)) with (@nil (nat * nat * nat)).
    2:{ cbn [row_triangles]. rewrite E0. destruct row as [|? [|]]; reflexivity. }
    cbn [flat_map length seq map]. rewrite !app_nil_r. repeat split.
    exists []. now rewrite app_nil_r. }
  destruct row as [|e1 [|e2 row]]; try discriminate Hok.
  rewrite !andb_true_iff, !Z.leb_le, !Z.ltb_lt in Hok.
  assert (T : row_triangles (e0 :: e1 :: e2 :: row) =
              (Z.to_nat e2, Z.to_nat e1, Z.to_nat e0) :: row_triangles row).
  { cbn [row_triangles]. now rewrite E0. }
  rewrite T in *.
  assert (S0 : forall e, In e [Z.to_nat e2; Z.to_nat e1; Z.to_nat e0] -> sign_change s e).
  { intros e He. eapply Hs; [now left|exact He]. }
  rewrite (read_edge_ok x s e2), (read_edge_ok x s e1), (read_edge_ok x s e0);
    [| lia | apply S0; cbn; tauto | exact Hn | lia | apply S0; cbn; tauto | exact Hn
     | lia | apply S0; cbn; tauto | exact Hn].
  destruct (emit_ok (edge_point x s (Z.to_nat e2)) (edge_point x s (Z.to_nat e1))
              (edge_point x s (Z.to_nat e0)) m) as [nn En].
  rewrite En. cbn [rbind fst snd].
  match goal with |- context [mesh_row row _ _ ?m1] => set (m1' := m1) end.
  assert (L : m_vertices m ++ [edge_point x s (Z.to_nat e2); edge_point x s (Z.to_nat e1);
                edge_point x s (Z.to_nat e0)] = m_vertices m1') by reflexivity.
  rewrite L.
  destruct (IH row ltac:(cbn in Hlen; lia) ltac:(tauto)
              ltac:(intros t e Ht He; eapply Hs; [right; exact Ht|exact He]) m1')
    as [m' [A [B [C [D [E [[ns [F1 F2]] G]]]]]]].
  exists m'. split; [exact A|]. split.
  { rewrite B, <- L. cbn [flat_map triangle_points]. rewrite <- app_assoc. reflexivity. }
  split; [exact C|]. split; [exact D|]. split; [exact E|]. split.
  { exists ([nn; nn; nn] ++ ns). rewrite F1. split.
    - unfold m1'. cbn [m_normals]. now rewrite <- app_assoc.
    - rewrite app_length, F2. reflexivity. }
  rewrite G. rewrite <- L. unfold m1'. cbn [m_indices]. rewrite <- app_assoc. f_equal.
  cbn [flat_map triangle_points app length]. rewrite app_length. cbn [length].
  cbn [seq map]. replace (length (m_vertices m) + 3)%nat with (S (S (S (length (m_vertices m))))) by lia.
  cbn [app]. repeat (f_equal; try lia).
Qed.

(** [meshCube] appends the interpolated points of the listed edges *)
Lemma meshCube_ok : forall x s m, (forall i, (i < 8)%nat -> fnan (s i) = false) ->
  exists m',
    meshCube x s (Z.of_nat (length (m_vertices m))) m = Ok (m', Z.of_nat (length (m_vertices m'))) /\
    m_vertices m' = m_vertices m ++ flat_map (triangle_points x s) (cube_triangles s) /\
    m_colors m' = m_colors m /\ m_origin m' = m_origin m /\ m_updated m' = m_updated m /\
    (exists ns, m_normals m' = m_normals m ++ ns /\
                length ns = length (flat_map (triangle_points x s) (cube_triangles s))) /\
    m_indices m' = m_indices m ++ map Z.of_nat (seq (length (m_vertices m))
                     (length (flat_map (triangle_points x s) (cube_triangles s)))).
Proof.
  intros x s m Hn. unfold meshCube. destruct (config_bits s) as [Hp _].
  assert (R : nth_error kTriangleTable (Z.to_nat (calculateVertexConfiguration s)) =
              Some (row_of (calculateVertexConfiguration s))).
  { unfold row_of. apply nth_error_nth'. rewrite table_rows. lia. }
  destruct (Z.eqb_spec (calculateVertexConfiguration s) 0) as [E|E].
  - exists m. unfold cube_triangles. rewrite E.
    change (row_triangles (nth (Z.to_nat 0) kTriangleTable [])) with (@nil (nat * nat * nat)).
    cbn [flat_map length seq map]. rewrite !app_nil_r. repeat split.
    exists []. now rewrite app_nil_r.
  - rewrite R. apply mesh_row_ok with (n := length (row_of (calculateVertexConfiguration s))); auto.
    + apply cube_row.
    + intros t e Ht He. apply (cube_edges s t e); assumption.
Qed.

Lemma triangle_points_len : forall x s ts,
  length (flat_map (triangle_points x s) ts) = (3 * length ts)%nat.
Proof.
  intros x s ts. induction ts as [|[[a b] c] ts IH]; [reflexivity|].
  cbn [flat_map triangle_points app length]. rewrite IH. lia.
Qed.

Lemma meshCube_consistent : forall x s m m' n', (forall i, (i < 8)%nat -> fnan (s i) = false) ->
  consistent m -> meshCube x s (Z.of_nat (length (m_vertices m))) m = Ok (m', n') ->
  consistent m' /\ n' = Z.of_nat (length (m_vertices m')).
Proof.
  intros x s m m' n' Hn Hc E. destruct (meshCube_ok x s m Hn) as [m1 [A [B [_ [_ [_ [[ns [F1 F2]] G]]]]]]].
  rewrite E in A. injection A as -> ->. split; [|reflexivity].
  destruct Hc as [C1 [C2 [[k C3] C4]]].
  rewrite triangle_points_len in F2, G.
  assert (LV : length (m_vertices m1) = (length (m_vertices m) + 3 * length (cube_triangles s))%nat).
  { rewrite B, app_length, triangle_points_len. reflexivity. }
  unfold consistent. rewrite LV. split; [rewrite F1, app_length; lia|]. split.
  { rewrite G, app_length, map_length, seq_length. lia. }
  split; [exists (k + length (cube_triangles s))%nat; lia|].
  rewrite G. apply Forall_app. split.
  - eapply Forall_impl; [|exact C4]. cbn. lia.
  - apply Forall_forall. intros i Hi. rewrite in_map_iff in Hi. destruct Hi as [j [<- Hj]].
    apply in_seq in Hj. lia.
Qed.
