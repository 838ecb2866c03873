(** Property C107: the PLY file exported for a layer. *)
From Coq Require Import String ZArith Reals List Bool Lia Lra.
From Flocq Require Import Core Binary.
From Verif Require Import F32 F32_lemmas Types Index Index_float Voxel Assoc Assoc_lemmas Layer Merge_proofs Marching
  MeshInt Mesh_spec MeshInt_proofs MeshLayer_proofs Connect_spec Connect_proofs Facing_spec Facing_proofs P_Mesh Ply Ply_spec Ply_proofs P_Ply
  MeshMsg_spec Interp_spec VoxCloud VoxCloud_spec P_VoxCloud MeshColor_spec MeshColor_proofs P_MeshColor LayerPly LayerPly_spec LayerPly_proofs.
Import ListNotations.
Open Scope Z_scope.
Ltac Zify.zify_post_hook ::= idtac.

(** ** the meshes of all blocks *)
Definition normal_map (mm : mesh_map) : Prop :=
  NoDup (akeys mm) /\ forall i m, alookup i mm = Some m -> normals_of fn_rel (m_vertices m) (m_normals m).
Lemma aset_normal : forall mm i m, normal_map mm -> normals_of fn_rel (m_vertices m) (m_normals m) -> normal_map (aset i m mm).
Proof.
  intros mm i m (N & H) Hm. split; [now apply NoDup_aset|]. intros j m' E. rewrite alookup_aset in E.
  destruct (idx_eqb j i); [|eapply H; exact E]. injection E as <-. exact Hm.
Qed.
Lemma update_normal : forall k cfg (l : Layer k) i mm mm', normal_map mm -> updateMeshForBlock cfg l i mm = Ok mm' -> normal_map mm'.
Proof.
  intros k cfg l i mm mm' N E. unfold updateMeshForBlock in E. destruct (alookup i mm) as [m0|]; [|discriminate E].
  destruct (l_get l i) as [b|]; [|injection E as <-; apply aset_normal; [exact N|constructor]].
  apply rbind_ok in E. destruct E as (m1 & E1 & E). apply rbind_ok in E. destruct E as (m2 & E2 & E).
  assert (V : m_vertices m2 = m_vertices m1 /\ m_normals m2 = m_normals m1).
  { destruct (mc_use_color cfg); [|injection E2 as <-; auto]. unfold updateMeshColor in E2. apply rbind_ok in E2. destruct E2 as (cs & _ & E2).
    destruct (_ <? _)%nat; [discriminate E2|]. injection E2 as <-. auto. }
  injection E as <-. apply aset_normal; [exact N|]. cbn [m_vertices m_normals]. destruct V as (-> & ->). eapply block_normals. exact E1.
Qed.
Lemma blocks_normal : forall k cfg clear is (l : Layer k) mm l' mm', normal_map mm -> mesh_blocks cfg clear is l mm = Ok (l', mm') -> normal_map mm'.
Proof.
  intros k cfg clear is. induction is as [|i is IH]; intros l mm l' mm' N E; cbn [mesh_blocks] in E.
  - injection E as _ <-. exact N.
  - apply rbind_ok in E. destruct E as (m1 & E1 & E). eapply IH; [|exact E]. eapply update_normal; eauto.
Qed.
Lemma alloc_normal : forall bs is mm, normal_map mm -> normal_map (fold_left (fun m i => allocateMesh bs i m) is mm).
Proof.
  intros bs is. induction is as [|i is IH]; intros mm (N & H); [split; assumption|]. cbn [fold_left]. apply IH. unfold allocateMesh.
  split; [now apply NoDup_ainsert|]. intros j m E. rewrite alookup_ainsert in E. destruct (alookup j mm) as [m'|] eqn:Ej.
  - injection E as <-. eapply H. exact Ej.
  - destruct (idx_eqb _ _); [|discriminate E]. injection E as <-. constructor.
Qed.
(** what the mesh layer holds after meshing all blocks of a layer from scratch *)
Lemma meshed : forall k cfg (l : Layer k), built_layer l -> blocks_in_range l -> sane_sdf l (mc_min_weight cfg) -> NoDup (akeys (l_blocks l)) ->
  exists l' mm, generateMesh cfg false false l [] = Ok (l', mm) /\ normal_map mm /\ blocks_of l (akeys mm) /\
    forall i m, In (i, m) mm -> done_ok cfg l i m.
Proof.
  intros k cfg l BL BR SD ND. unfold generateMesh. set (is := getAllAllocatedBlocks l).
  assert (AK : is = akeys (l_blocks l)) by reflexivity.
  assert (GK : forall i, In i is <-> l_get l i <> None).
  { intros i. rewrite AK, akeys_In. unfold l_get. split; [intros (b & ->); discriminate|]. destruct (alookup i (l_blocks l)) as [b|]; [now exists b|congruence]. }
  set (m0 := fold_left (fun m i => allocateMesh (l_block_size l) i m) is []).
  assert (AL : forall i, alookup i m0 <> None <-> In i is).
  { intros i. unfold m0. rewrite alloc_all. cbn [alookup]. rewrite <- mem_spec. destruct (existsb (idx_eqb i) is); split; congruence. }
  destruct (blocks_done cfg false is l m0) as (l' & mm & E & A & B).
  - split; [exact BL|]. split; assumption.
  - apply Forall_forall. intros i Hi. now apply GK.
  - apply Forall_forall. intros i Hi. now apply AL.
  - assert (N : normal_map mm). { eapply blocks_normal; [|exact E]. apply alloc_normal. split; [constructor|discriminate]. }
    exists l', mm. split; [exact E|]. split; [exact N|].
    assert (KE : forall i, In i (akeys mm) <-> In i is).
    { intros i. rewrite akeys_In. split.
      - intros (m & Em). destruct (existsb (idx_eqb i) is) eqn:M; [now apply mem_spec|]. exfalso.
        assert (NI : ~ In i is) by (rewrite <- mem_spec; congruence). rewrite (B i NI) in Em. apply NI, AL. congruence.
      - intros Hi. destruct (A i Hi) as (m & Em & _). now exists m. }
    split. { split; [apply N|]. intros i. rewrite KE. apply GK. }
    intros i m Hm. pose proof (alookup_NoDup _ _ _ (proj1 N) Hm) as Em. assert (Hi : In i is) by (apply KE, akeys_In; now exists m).
    destruct (A i Hi) as (m' & Em' & D). congruence.
Qed.

(** ** triangles of sequential meshes *)
Lemma seq_triples : forall (f : Z -> pt3) q s,
  map (fun t => let '(i, j, k) := t in (f i, f j, f k)) (triples (map Z.of_nat (seq s (3 * q)))) = triples (map (fun i => f (Z.of_nat i)) (seq s (3 * q))).
Proof.
  intros f q. induction q as [|q IH]; intros s; [reflexivity|]. replace (3 * S q)%nat with (S (S (S (3 * q)))) by lia.
  cbn [seq map triples]. f_equal. apply IH.
Qed.
Lemma sequential_triangles : forall m q, sequential m -> length (m_vertices m) = (3 * q)%nat -> triangles_of m = triples (m_vertices m).
Proof.
  intros m q H L. unfold triangles_of. destruct (m_vertices m) as [|v vs] eqn:V; [reflexivity|]. rewrite <- V in *. rewrite H, L, seq_triples.
  f_equal. rewrite <- L. clear. unfold vertex_of. set (vs := m_vertices m).
  transitivity (map (fun i => nth i vs point0) (seq 0 (length vs))); [apply map_ext; intros i; now rewrite Nat2Z.id|].
  clearbody vs. clear m. induction vs as [|a vs IH]; [reflexivity|]. cbn [length seq map nth]. f_equal. rewrite <- seq_shift, map_map. exact IH.
Qed.
Lemma surface_triangles : forall ms, Forall (fun m => sequential m /\ exists q, length (m_vertices m) = (3 * q)%nat) ms ->
  flat_map triangles_of ms = triples (flat_map m_vertices ms).
Proof.
  intros ms H. induction H as [|m ms (S & q & L) _ IH]; [reflexivity|]. cbn [flat_map]. rewrite (triples_app _ q) by exact L.
  rewrite IH, (sequential_triangles m q S L). reflexivity.
Qed.
Lemma Forall2_nth : forall A B (R : A -> B -> Prop) l l', length l = length l' ->
  (forall j a b, nth_error l j = Some a -> nth_error l' j = Some b -> R a b) -> Forall2 R l l'.
Proof.
  intros A B R l. induction l as [|a l IH]; intros [|b l'] L H; try discriminate L; constructor.
  - exact (H 0%nat a b eq_refl eq_refl).
  - apply IH; [cbn in L; lia|]. intros j x y X Y. exact (H (S j) x y X Y).
Qed.
Lemma Forall2_at : forall A B (R : A -> B -> Prop) l l', Forall2 R l l' -> forall j a b, nth_error l j = Some a -> nth_error l' j = Some b -> R a b.
Proof.
  intros A B R l l' H. induction H as [|x y l l' XY _ IH]; intros [|j] a b X Y; cbn in X, Y; try discriminate X.
  - congruence.
  - eapply IH; eauto.
Qed.
Lemma Forall2_flat : forall A B C (R : A -> B -> Prop) (f : C -> list A) (g : C -> list B) l, Forall (fun c => Forall2 R (f c) (g c)) l ->
  Forall2 R (flat_map f l) (flat_map g l).
Proof. intros A B C R f g l H. induction H; cbn [flat_map]; [constructor|]. now apply Forall2_app. Qed.

Definition default_weight : f32 := mc_min_weight default_mesh_config.
Definition cell (v : pt3) : option idx3 := vertex_cell (ddiv d1 (f64_of_f32 default_threshold)) v.

Lemma mesh_facts : forall k (l : Layer k) mm, exportable l default_weight -> normal_map mm ->
  (forall i m, In (i, m) mm -> done_ok default_mesh_config l i m) ->
  flat_map m_vertices (map snd mm) = surface l default_weight (akeys mm) /\
  Forall (fun m => (combinable true m /\ finite_mesh m /\ Forall modest (m_normals m)) /\
                   (sequential m /\ exists q, length (m_vertices m) = (3 * q)%nat) /\
                   Forall2 (coloured_by l default_weight) (m_vertices m) (m_colors m) /\
                   normals_of (fun p q r n => modest n /\ (wide_triangle p q r -> unit_normal p q r n)) (m_vertices m) (m_normals m)) (map snd mm).
Proof.
  intros k l mm (BL & SZ & BR & SD & ND & BC) (NM & NN) D. split.
  - unfold surface, akeys. clear NM NN. induction mm as [|(i, m) mm IH]; [reflexivity|]. cbn [map flat_map fst snd].
    rewrite IH by (intros j x Hx; apply D; now right). f_equal. apply (D i m). now left.
  - apply Forall_forall. intros m Hm. apply in_map_iff in Hm. destruct Hm as ((i & m') & X & Hm). cbn [snd] in X. subst m'.
    destruct (D i m Hm) as ((VP & CS & SQ & _ & CL) & CO). specialize (CO eq_refl). fold default_weight in VP, CO.
    assert (UP : Forall (all3 (fin_upto 20)) (m_vertices m)) by (rewrite VP; now apply block_upto).
    pose proof (NN i m (alookup_NoDup _ _ _ NM Hm)) as NR. pose proof (normals_modest _ _ NR UP) as MO.
    split; [|split; [|split]].
    + split; [split; [exact CS|exact CL]|]. split; [|exact MO]. split; [|split].
      * eapply Forall_impl; [|exact UP]. intros p ((A & _) & (B & _) & (C & _)). split; [|split]; assumption.
      * eapply Forall_impl; [|exact MO]. intros p ((A & _) & (B & _) & (C & _)). split; [|split]; assumption.
      * clear - CO BC. induction CO as [|p c ps cs (g & v & Ev & Vc & _) _ IH]; constructor; [|exact IH]. eapply BC; eauto.
    + split; [exact SQ|apply CS].
    + exact CO.
    + clear - NR UP. induction NR as [|p q r n vs ns EQ _ IH]; [constructor|].
      inversion UP as [|? ? Hp F1]; subst. inversion F1 as [|? ? Hq F2]; subst. inversion F2 as [|? ? Hr F3]; subst.
      constructor; [|now apply IH]. red in EQ. subst n. split; [now apply face_modest|apply normal_ok].
Qed.
Ltac pick F := eapply Forall_impl; [|exact F]; cbv beta; intros ? ((? & ? & ?) & ? & ? & ?); assumption.
Lemma normals_flat : forall P ms, Forall (fun m => normals_of P (m_vertices m) (m_normals m)) ms ->
  normals_of P (flat_map m_vertices ms) (flat_map m_normals ms).
Proof. intros P ms H. induction H; cbn [flat_map]; [constructor|]. now apply normals_app. Qed.
Lemma named : forall filename, filename <> ""%string -> String.eqb filename "" = false.
Proof. intros f H. apply String.eqb_neq. exact H. Qed.
Lemma nil_flat : forall ms, Forall (fun m => m_vertices m = []) ms <-> flat_map m_vertices ms = [].
Proof. intros ms. symmetry. apply flat_nil. Qed.

(** C107. Exporting the surface of a layer: the file, if there is any surface, is a valid PLY file
    with the triangles of all blocks of the layer and, at every vertex, the colour of the observed
    voxel it lies in; normals are finite, and unit normals of triangles that are wide enough. *)
Theorem C107_surface : forall k (l : Layer k) range max, exportable l default_weight ->
  exists order, blocks_of l order /\
  let pts := surface l default_weight order in
  Z.of_nat (length pts) <= 2147483648 -> forall filename, filename <> ""%string ->
  (pts = [] -> outputLayerAsPly true filename 1 l range max = Ok None) /\
  (pts <> [] -> exists f m, outputLayerAsPly true filename 1 l range max = Ok (Some f) /\ depicts f m /\
     m_vertices m = pts /\ sequential m /\ Forall2 (coloured_by l default_weight) pts (m_colors m) /\
     normals_of (fun p q r n => modest n /\ (wide_triangle p q r -> unit_normal p q r n)) pts (m_normals m)).
Proof.
  intros k l range max EX. pose proof EX as (BL & SZ & BR & SD & ND & BC).
  destruct (meshed k default_mesh_config l BL BR SD ND) as (l' & mm & E & NM & BO & D).
  destruct (mesh_facts k l mm EX NM D) as (FV & FA). exists (akeys mm). split; [exact BO|]. cbv zeta. rewrite <- FV. intros LE fn HF.
  assert (OUT : outputLayerAsPly true fn 1 l range max = outputMeshLayerAsPly true false mm).
  { unfold outputLayerAsPly, outputMeshLayerAsPly, convertLayerToMesh_default, convertLayerToMesh. rewrite (named fn HF), E. reflexivity. }
  rewrite OUT. destruct (C82_layer_plain true mm) as (P1 & P2).
  - pick FA.
  - pick FA.
  - exact LE.
  - split; intros H.
    + apply P1. now apply nil_flat.
    + destruct P2 as (f & m & O & DP & V & N & C & S); [intros X; apply H; now apply nil_flat|].
      exists f, m. split; [exact O|]. split; [exact DP|]. split; [exact V|]. split; [exact S|]. rewrite C, N. split.
      * apply Forall2_flat. pick FA.
      * apply normals_flat. pick FA.
Qed.
Print Assumptions C107_surface.

(** With connected vertices: the vertices are vertices of the surface, no two of them in one cell of
    the 1e-10 grid, and the triangles are those of the surface that have three different corners. *)
Theorem C107_connected : forall k (l : Layer k) range max, exportable l default_weight ->
  exists order, blocks_of l order /\
  let pts := surface l default_weight order in
  Z.of_nat (length pts) <= 2147483648 -> forall filename, filename <> ""%string ->
  (pts = [] -> outputLayerAsPly true filename 2 l range max = Ok None) /\
  (pts <> [] -> exists f m, outputLayerAsPly true filename 2 l range max = Ok (Some f) /\ depicts f m /\
     NoDup (map cell (m_vertices m)) /\ incl (m_vertices m) pts /\
     (forall v, In v pts -> exists w, In w (m_vertices m) /\ cell v = cell w /\ cell v <> None) /\
     Forall2 (same_cells (ddiv d1 (f64_of_f32 default_threshold))) (triangles_of m)
       (filter (distinct_cells (ddiv d1 (f64_of_f32 default_threshold))) (triples pts)) /\
     Forall2 (coloured_by l default_weight) (m_vertices m) (m_colors m) /\ Forall unit_length (m_normals m)).
Proof.
  intros k l range max EX. pose proof EX as (BL & SZ & BR & SD & ND & BC).
  destruct (meshed k default_mesh_config l BL BR SD ND) as (l' & mm & E & NM & BO & D).
  destruct (mesh_facts k l mm EX NM D) as (FV & FA). exists (akeys mm). split; [exact BO|]. cbv zeta.
  assert (UP : Forall (all3 (fin_upto 20)) (surface l default_weight (akeys mm))).
  { unfold surface. apply Forall_forall. intros p Hp. apply in_flat_map in Hp. destruct Hp as (i & _ & Hp).
    pose proof (block_upto l default_weight BL BR SD SZ i) as F. rewrite Forall_forall in F. now apply F. }
  rewrite <- FV in UP |- *. intros LE fn HF.
  assert (OUT : outputLayerAsPly true fn 2 l range max = outputMeshLayerAsPly true true mm).
  { unfold outputLayerAsPly, outputMeshLayerAsPly, convertLayerToMesh_default, convertLayerToMesh. rewrite (named fn HF), E. reflexivity. }
  rewrite OUT.
  assert (CO : Forall (combinable true) (map snd mm)) by (pick FA).
  assert (FM : Forall finite_mesh (map snd mm)) by (pick FA).
  assert (MO : Forall (fun m => Forall modest (m_normals m)) (map snd mm)) by (pick FA).
  destruct (C39_succeeds true (map snd mm) default_threshold (V3 f0 f0 f0) false CO) as (m & EC & LN & LC).
  { intros m v Hm Hv. rewrite Forall_forall in UP. destruct (UP v) as (U1 & U2 & U3); [apply in_flat_map; now exists m|].
    unfold vertex_cell, seq3, map3. pose proof (cell_fits _ U1) as K1. pose proof (cell_fits _ U2) as K2. pose proof (cell_fits _ U3) as K3.
    cbn [vx vy vz]. destruct (cell_axis _ (vx v)); [|congruence]. destruct (cell_axis _ (vy v)); [|congruence]. destruct (cell_axis _ (vz v)); congruence. }
  destruct (C82_layer_connected true mm CO FM MO LE m EC) as (P1 & P2).
  destruct (C39_connected _ _ _ _ _ EC) as (_ & _ & NDC & VI & VO & TR).
  destruct (C39_attributes true _ _ _ _ _ CO MO EC) as (UN & CF).
  split; intros H; [apply P1; now apply nil_flat|]. destruct P2 as (f & O & DP); [intros X; apply H; now apply nil_flat|].
  exists f, m. split; [exact O|]. split; [exact DP|]. split; [exact NDC|]. split.
  { intros v Hv. destruct (VI v Hv) as (x & Hx & Hvx). apply in_flat_map. now exists x. }
  split. { intros v Hv. apply in_flat_map in Hv. destruct Hv as (x & Hx & Hvx). exact (VO x v Hx Hvx). }
  split. { rewrite surface_triangles in TR; [exact TR|]. pick FA. }
  split; [|exact UN]. apply Forall2_nth; [symmetry; exact LC|]. intros j v c Hv Hc. destruct (CF j v c Hv Hc) as (x & i & Hx & X1 & X2).
  rewrite Forall_forall in FA. destruct (FA x Hx) as (_ & _ & FC & _). exact (Forall2_at _ _ _ _ _ FC i v c X1 X2).
Qed.
Print Assumptions C107_connected.

(** The distances of a layer: one point for every observed voxel in the range, at its centre, coloured by its distance. *)
Lemma cloud_file : forall k (l : Layer k) accept (c : list (pt3 * Color)), proper l -> near_origin l -> pictures l accept c ->
  (forall g v a, accept g v a -> color_ok a) -> Z.of_nat (length c) <= 2147483648 ->
  exists f, outputMeshAsPly true (MkMesh (map fst c) [] [] (map snd c) (V3 f0 f0 f0) false) = Ok (Some f) /\
    depicts f (MkMesh (map fst c) [] [] (map snd c) (V3 f0 f0 f0) false).
Proof.
  intros k l accept c P O (gs & _ & _ & F) CK LE. apply output_ok. unfold printable. cbn [m_vertices m_normals m_colors m_indices].
  split; [now left|]. split; [right; now rewrite !map_length|]. split; [now exists 0%nat|]. split; [constructor|]. split; [now rewrite map_length|].
  split; [|split; [constructor|]].
  - clear - F P O. induction F as [|g p gs c (Ep & v & Ev & _) _ IH]; cbn [map]; constructor; [|exact IH]. rewrite Ep.
    pose proof (C83_centre k l g v P O Ev) as H.
    split; [|split]; [apply (H 0%nat)|apply (H 1%nat)|apply (H 2%nat)]; lia.
  - clear - F CK. induction F as [|g p gs c (_ & v & _ & A) _ IH]; cbn [map]; constructor; [|exact IH]. eapply CK. exact A.
Qed.
(** the points of [c] written to a file *)
Definition file_of_points (r : res (option file)) (c : list (pt3 * Color)) : Prop :=
  (c = [] -> r = Ok None) /\
  (c <> [] -> exists f m, r = Ok (Some f) /\ depicts f m /\ m_vertices m = map fst c /\ m_colors m = map snd c /\
     m_normals m = [] /\ m_indices m = []).
Theorem C107_distances : forall range max filename, ffin range = true -> (0 < FR range)%R -> ffin max = true -> filename <> ""%string ->
  (forall l : Layer KTsdf, proper l -> near_origin l -> numbers (k := KTsdf) l tsdf_vals ->
     exists c, pictures l (fun _ (v : TsdfVoxel) a => ((FR kEpsilon < FR (t_weight v))%R /\ in_range max (t_distance v)) /\ hue_shown range (t_distance v) a) c /\
       (Z.of_nat (length c) <= 2147483648 -> file_of_points (outputLayerAsPly (k := KTsdf) true filename 0 l range max) c)) /\
  (forall l : Layer KEsdf, proper l -> near_origin l -> numbers (k := KEsdf) l esdf_vals ->
     exists c, pictures l (fun _ (v : EsdfVoxel) a => (e_observed v = true /\ in_range max (e_distance v)) /\ hue_shown range (e_distance v) a) c /\
       (Z.of_nat (length c) <= 2147483648 -> file_of_points (outputLayerAsPly (k := KEsdf) true filename 0 l range max) c)).
Proof.
  intros range max fn F P M HF. destruct (C83_sdf range max F P M) as (T & Es). split; intros l PR NO NU.
  - destruct (T l [] PR NU) as (c & some & E & S & PI). exists c. split; [exact PI|]. intros LE. cbn [app] in E, S.
    unfold file_of_points, outputLayerAsPly. rewrite (named fn HF). cbn [Z.eqb getColorFromVoxel]. rewrite E. cbn [rbind fst snd]. split; intros H.
    + destruct some; [|reflexivity]. exfalso. now apply S.
    + replace some with true by (symmetry; now apply S).
      destruct (cloud_file KTsdf l _ c PR NO PI ltac:(intros g v a (_ & _ & X & _); exact X) LE) as (f & O & D).
      exists f. eexists. split; [exact O|]. split; [exact D|]. cbn [m_vertices m_normals m_colors m_indices]. auto.
  - destruct (Es l [] PR NU) as (c & some & E & S & PI). exists c. split; [exact PI|]. intros LE. cbn [app] in E, S.
    unfold file_of_points, outputLayerAsPly. rewrite (named fn HF). cbn [Z.eqb getColorFromVoxel]. rewrite E. cbn [rbind fst snd]. split; intros H.
    + destruct some; [|reflexivity]. exfalso. now apply S.
    + replace some with true by (symmetry; now apply S).
      destruct (cloud_file KEsdf l _ c PR NO PI ltac:(intros g v a (_ & _ & X & _); exact X) LE) as (f & O & D).
      exists f. eexists. split; [exact O|]. split; [exact D|]. cbn [m_vertices m_normals m_colors m_indices]. auto.
Qed.
Print Assumptions C107_distances.

(** No file name or an unknown kind of output stops the program; a file that cannot be opened is reported as [false]. *)
Theorem C107_refused : forall k (l : Layer k) opens filename type range max,
  (filename = ""%string \/ ~ (0 <= type <= 2) -> outputLayerAsPly opens filename type l range max = Abort) /\
  forall f, outputLayerAsPly false filename type l range max <> Ok (Some f).
Proof.
  intros k l opens fn type range max. split.
  - unfold outputLayerAsPly. intros [-> | H]; [reflexivity|]. destruct (String.eqb fn ""); [reflexivity|].
    destruct (Z.eqb_spec type 0); [lia|]. destruct (Z.eqb_spec type 1); [lia|]. destruct (Z.eqb_spec type 2); [lia|]. reflexivity.
  - intros f E. unfold outputLayerAsPly in E. destruct (String.eqb fn ""); [discriminate E|].
    destruct (type =? 0); [|destruct (type =? 1); [|destruct (type =? 2); [|discriminate E]]];
      apply rbind_ok in E; destruct E as (r & _ & E); destruct (fst r); cbn in E; discriminate E.
Qed.
Print Assumptions C107_refused.

(** the layer of C106: two triangles at x = 1.25 m, blue *)
Lemma cx_sane : forall mw, sane_sdf cx_layer mw.
Proof.
  intros mw g d E. unfold sdf_at, voxel_at in E. destruct (l_get cx_layer _) as [b|] eqn:Eb; [|discriminate E].
  destruct (cx_get _ b Eb) as (-> & _). destruct (nth_error _ _) as [v|] eqn:Ev; [|discriminate E]. apply nth_error_In in Ev.
  cbn [cx_block b_voxels] in Ev. destruct Ev as [Ev|[]]. unfold getSdfIfValid in E. destruct (fle (t_weight v) _) in E; [discriminate E|].
  assert (D : d = f32_of_Z (-3) \/ d = f32_of_Z 1) by (rewrite <- Ev in E; destruct (_ =? 0); [left|right]; cbn [t_distance] in E; congruence).
  destruct (f32_of_Z_R (-3) ltac:(lia)) as (A & B). destruct (f32_of_Z_R 1 ltac:(lia)) as (A' & B').
  assert (P : (4 <= bpow radix2 100)%R) by (change 4%R with (bpow radix2 2); apply bpow_le; lia).
  destruct D as [-> | ->]; (split; [assumption|]); rewrite ?A, ?A'; apply Rabs_le; lra.
Qed.
Definition rows_in (r : res (option file)) : option (nat * list row) :=
  match r with
  | Ok (Some f) => match read_ply f with Some t => Some (length (rows_of "vertex" t), rows_of "face" t) | None => None end
  | _ => None
  end.
Example C107_example : exportable cx_layer default_weight /\
  rows_in (outputLayerAsPly true "a.ply" 1 cx_layer f1 f1) =
    Some (6%nat, [[("vertex_indices"%string, [Num 0; Num 1; Num 2])]; [("vertex_indices"%string, [Num 3; Num 4; Num 5])]]) /\
  rows_in (outputLayerAsPly true "a.ply" 2 cx_layer f1 f1) =
    Some (4%nat, [[("vertex_indices"%string, [Num 0; Num 1; Num 2])]; [("vertex_indices"%string, [Num 0; Num 3; Num 1])]]) /\
  option_map fst (rows_in (outputLayerAsPly true "a.ply" 0 cx_layer f1 f1)) = Some 4%nat.
Proof.
  destruct C106_example as (B & R & _ & N & _).
  split; [|split; [vm_compute; reflexivity|split; vm_compute; reflexivity]].
  split; [exact B|]. split. { change (l_size cx_layer) with f1. replace (FR f1) with 1%R by (symmetry; apply (f32_of_Z_R 1); lia). lra. }
  split; [exact R|]. split; [apply cx_sane|]. split; [exact N|].
  intros g v c mw E (_ & ->). unfold voxel_at in E. destruct (l_get cx_layer _) as [b|] eqn:Eb; [|discriminate E].
  destruct (cx_get _ b Eb) as (-> & _). apply nth_error_In in E. cbn [cx_block b_voxels] in E. destruct E as [E|[]].
  rewrite <- E. destruct (_ =? 0); cbn; repeat split; cbn; lia.
Qed.
