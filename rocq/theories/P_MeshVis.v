(** Property C92: displayed meshes. *)
From Coq Require Import ZArith Reals List Bool Lia Lra.
From Flocq Require Import Core.
From Verif Require Import F32 F32_lemmas Types Index Voxel Assoc Layer Marching MeshInt MeshMsg MeshMsg_proofs ColorMap_spec
  MeshVis MeshVis_spec MeshVis_proofs.
Import ListNotations.
Open Scope R_scope.

(** C92. In every mode the marker shows every vertex of every mesh once, block by block
    and in the order of the mesh, at its exact position and in the colour of the mode,
    up to rounding; channels are in 0..1 up to 1/500. *)
Theorem C92_marker : forall mode mm, (forall i m, In (i, m) mm -> drawable mode m) ->
  exists shown, fillMarkerWithMesh mode mm = Ok shown /\
    Forall2 (fun mn p =>
      (exists v, nth_error (m_vertices (fst mn)) (snd mn) = Some v /\ fst p = map3 f64_of_f32 v) /\
      (exists w, wanted mode (fst mn) (snd mn) w /\ near (tolerance mode) (map3 FR (ch_rgb (snd p))) w) /\
      opacity mode (fst mn) (snd mn) (FR (ch_a (snd p))) /\
      all3 (fun x => ffin x = true /\ - / 500 <= FR x <= 1 + / 500) (ch_rgb (snd p)))
      (corners mm) shown.
Proof.
  intros mode mm D. apply each_mesh_ok. intros i m Hin NE. pose proof (D i m Hin) as DM. split; [apply checks_ok; auto|].
  intros n v E. assert (Hn : (n < length (m_vertices m))%nat) by (apply nth_error_Some; congruence).
  destruct (vertex_ok mode m n DM Hn) as (msg & w & -> & W & N & O & F & _). cbn [rbind].
  eexists. split; [reflexivity|]. cbn [fst snd]. split; [eauto|]. split; [eauto|]. split; [exact O|exact F].
Qed.
Print Assumptions C92_marker.

(** The same for the point cloud, whose channels are bytes within 255/250 + 1 steps of
    the colour in the height mode and otherwise within 1.1 steps. *)
Theorem C92_pointcloud : forall mode mm, (forall i m, In (i, m) mm -> drawable mode m) ->
  exists shown, fillPointcloudWithMesh mode mm = Ok shown /\
    Forall2 (fun mn p =>
      nth_error (m_vertices (fst mn)) (snd mn) = Some (fst p) /\
      exists w, wanted mode (fst mn) (snd mn) w /\
        let '(r, g, b) := snd p in
        (0 <= r <= 255)%Z /\ (0 <= g <= 255)%Z /\ (0 <= b <= 255)%Z /\
        near (255 * tolerance mode + 1 + / 1000) (map3 IZR (V3 r g b)) (map3 (Rmult 255) w))
      (corners mm) shown.
Proof.
  intros mode mm D. apply each_mesh_ok. intros i m Hin NE. pose proof (D i m Hin) as DM. split; [apply checks_ok; auto|].
  intros n v E. assert (Hn : (n < length (m_vertices m))%nat) by (apply nth_error_Some; congruence).
  destruct (vertex_ok mode m n DM Hn) as (msg & w & -> & W & (N1 & N2 & N3) & _ & ((A1 & A2) & (B1 & B2) & (C1 & C2)) & (D1 & D2)). cbn [rbind].
  unfold colorMsgToVoxblox.
  destruct (back_ok _ A1 A2) as (r & -> & R1 & R2). destruct (back_ok _ B1 B2) as (g & -> & G1 & G2).
  destruct (back_ok _ C1 C2) as (b & -> & S1 & S2). destruct (back_ok _ D1 D2) as (a & -> & _ & _).
  cbn [ColorMap.obind of_opt rbind cr cg cb]. eexists. split; [reflexivity|]. cbn [fst snd]. split; [exact E|]. exists w. split; [exact W|].
  split; [exact R1|]. split; [exact G1|]. split; [exact S1|]. unfold near, map3 in *. cbn [vx vy vz] in *.
  apply Rabs_le_inv in N1, N2, N3, R2, G2, S2. repeat split; apply Rabs_le; lra.
Qed.
Print Assumptions C92_pointcloud.

(** A mesh that lacks what the mode needs aborts. *)
Theorem C92_missing : forall mode mm i m, In (i, m) mm -> m_vertices m <> [] ->
  (mode = CColor \/ mode = CLambertColor) /\ m_colors m = [] \/
  (mode = CNormals \/ mode = CLambert \/ mode = CLambertColor) /\ m_normals m = [] ->
  (forall j m', In (j, m') mm -> m' = m \/ drawable mode m') ->
  fillMarkerWithMesh mode mm = Abort.
Proof.
  intros mode mm i m Hin NE MISS OTHER.
  assert (CK : color_checks mode m = false).
  { unfold color_checks. destruct MISS as [([-> | ->] & ->)|([-> | [-> | ->]] & ->)]; cbn [nonempty andb]; rewrite ?andb_false_r; reflexivity. }
  unfold fillMarkerWithMesh. set (put := fun m n v => _). clear MISS. revert Hin OTHER. induction mm as [|[j c] mm IH]; intros Hin OTHER; [destruct Hin|].
  cbn [each_mesh]. destruct (OTHER j c (or_introl eq_refl)) as [-> |D].
  - destruct (m_vertices m) as [|v vs]; [contradiction|]. cbn [nonempty]. now rewrite CK.
  - assert (T : each_mesh put mode mm = Abort \/ In (i, m) mm -> each_mesh put mode mm = Abort).
    { intros [A|A]; [exact A|]. apply IH; [exact A|]. intros j' m' H. apply (OTHER j' m'). now right. }
    destruct Hin as [X|Hin].
    + assert (c = m) as -> by congruence. destruct (m_vertices m) as [|v vs]; [contradiction|]. cbn [nonempty]. now rewrite CK.
    + rewrite (T (or_intror Hin)). destruct (nonempty (m_vertices c)) eqn:V; [|reflexivity].
      assert (NC : m_vertices c <> []) by (intros X; rewrite X in V; discriminate V).
      rewrite (checks_ok mode c D NC).
      destruct (each_vertex_ok _ put (fun _ _ => True) c) with (vs := m_vertices c) (n := 0%nat) as (r & -> & _); [|auto|reflexivity].
      intros n v E. assert (Hn : (n < length (m_vertices c))%nat) by (apply nth_error_Some; congruence).
      destruct (vertex_ok mode c n D Hn) as (msg & w & G & _). unfold put. rewrite G. cbn [rbind]. eauto.
Qed.
Print Assumptions C92_missing.

(** The checks look for an empty list only: with too few colours or normals for the
    vertices, drawing a vertex beyond them is undefined. *)
Theorem C92_short : forall mode m n,
  (mode = CColor \/ mode = CLambertColor) /\ (length (m_colors m) <= n)%nat \/
  (mode = CNormals \/ mode = CLambert \/ mode = CLambertColor) /\ (length (m_normals m) <= n)%nat ->
  getVertexColor m mode n = UB.
Proof.
  intros mode m n H. unfold getVertexColor.
  destruct H as [([-> | ->] & L)|([-> | [-> | ->]] & L)]; apply nth_error_None in L; rewrite L; try reflexivity.
  destruct (nth_error (m_colors m) n); reflexivity.
Qed.
Print Assumptions C92_short.

(** A colour survives the way through a message exactly, so the point cloud in the colour
    mode has the stored colours. *)
Theorem C92_color_exact : forall c, color_ok c -> colorMsgToVoxblox (colorVoxbloxToMsg c) = Some c.
Proof.
  assert (T : forallb (fun n => match channel_back (channel_msg (Z.of_nat n)) with Some y => Z.eqb y (Z.of_nat n) | None => false end)
     (seq 0 256) = true) by (vm_compute; reflexivity).
  assert (G : forall z, (0 <= z < 256)%Z -> channel_back (channel_msg z) = Some z).
  { intros z H. rewrite forallb_forall in T. specialize (T (Z.to_nat z)). rewrite Z2Nat.id in T by lia.
    destruct (channel_back (channel_msg z)) as [y|].
    - f_equal. apply Z.eqb_eq. apply T. apply in_seq. lia.
    - assert (false = true) as X by (apply T; apply in_seq; lia). discriminate X. }
  intros [r g b a] (C1 & C2 & C3 & C4). unfold is_byte in *. cbn [cr cg cb ca] in *.
  unfold colorMsgToVoxblox, colorVoxbloxToMsg. cbn [ch_rgb ch_a vx vy vz cr cg cb ca].
  rewrite !G by lia. reflexivity.
Qed.
Print Assumptions C92_color_exact.
Theorem C92_pointcloud_colors : forall mm, (forall i m, In (i, m) mm -> drawable CColor m) ->
  exists shown, fillPointcloudWithMesh CColor mm = Ok shown /\
    Forall2 (fun mn p =>
      nth_error (m_vertices (fst mn)) (snd mn) = Some (fst p) /\
      exists c, nth_error (m_colors (fst mn)) (snd mn) = Some c /\ snd p = (cr c, cg c, cb c))
      (corners mm) shown.
Proof.
  intros mm D. apply each_mesh_ok. intros i m Hin NE. pose proof (D i m Hin) as DM. split; [apply checks_ok; auto|].
  intros n v E. assert (Hn : (n < length (m_vertices m))%nat) by (apply nth_error_Some; congruence).
  destruct DM as (DC & _ & _). destruct (DC (or_introl eq_refl)) as (L & CO).
  destruct (nth_some _ (m_colors m) n ltac:(lia)) as (c & EC). cbn [getVertexColor]. rewrite EC. cbn [rbind].
  rewrite (C92_color_exact c (nth_all _ _ _ _ _ CO EC)). cbn [of_opt rbind]. eexists. split; [reflexivity|]. cbn [fst snd]. eauto.
Qed.
Print Assumptions C92_pointcloud_colors.

(** a mesh of one triangle with colours and normals, between two empty ones *)
Definition tri : mesh :=
  MkMesh [V3 f0 f0 f0; V3 f1 f0 f0; V3 f0 f1 f0] [0; 1; 2]%Z [V3 f0 f0 f1; V3 f0 f0 f1; V3 f0 f0 f1]
    [MkColor 1 2 3 255; MkColor 200 100 0 255; MkColor 255 255 255 128] (V3 f0 f0 f0) true.
Definition tri_map : mesh_map := [(V3 1 0 0, new_mesh (V3 f0 f0 f0)); (V3 0 0 0, tri); (V3 2 0 0, new_mesh (V3 f0 f0 f0))]%Z.
Example C92_case : (forall mode i m, In (i, m) tri_map -> drawable mode m) /\ length (corners tri_map) = 3%nat /\
  exists shown, fillPointcloudWithMesh CColor tri_map = Ok shown /\ map snd shown = [(1, 2, 3); (200, 100, 0); (255, 255, 255)]%Z.
Proof.
  split; [|split; [reflexivity|]].
  - assert (U : unit_normal (V3 f0 f0 f1)).
    { unfold unit_normal, all3. cbn [vx vy vz]. rewrite one_R. change (FR f0) with 0. rewrite Rabs_R0, Rabs_R1. repeat split; lra. }
    assert (DE : forall mode, drawable mode (new_mesh (V3 f0 f0 f0))).
    { intros mode. unfold drawable. cbn [new_mesh m_colors m_normals m_vertices length].
      repeat split; intros; try apply Forall_nil; try contradiction; try reflexivity. }
    assert (DT : forall mode, drawable mode tri).
    { intros mode. assert (Forall color_ok (m_colors tri)).
      { unfold tri. cbn [m_colors]. repeat apply Forall_cons; try apply Forall_nil; repeat split; cbn [cr cg cb ca]; lia. }
      assert (Forall unit_normal (m_normals tri)).
      { unfold tri. cbn [m_normals]. repeat apply Forall_cons; try apply Forall_nil; exact U. }
      assert (Forall (fun v => ffin (vz v) = true) (m_vertices tri)).
      { unfold tri. cbn [m_vertices]. repeat apply Forall_cons; try apply Forall_nil; reflexivity. }
      unfold drawable. repeat split; auto. }
    intros mode i m [X|[X|[X|[]]]]; assert (E : m = snd (i, m)) by reflexivity; rewrite <- X in E; cbn [snd] in E; subst m; auto.
  - assert (match fillPointcloudWithMesh CColor tri_map with Ok shown => map snd shown = [(1, 2, 3); (200, 100, 0); (255, 255, 255)]%Z | _ => False end) as A by (vm_compute; reflexivity).
    destruct (fillPointcloudWithMesh CColor tri_map) as [r| |]; try contradiction. eauto.
Qed.
