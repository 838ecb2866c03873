(** C109: a mesh layer is a map from blocks to meshes. *)
From Coq Require Import ZArith List Bool Reals Lra Lia.
From Flocq Require Import Core.
From Verif Require Import F32 F32_lemmas F32_err Types Index Index_float Voxel Assoc Assoc_lemmas Layer Marching MeshInt MeshStore MeshStore_spec.
Import ListNotations.
Open Scope Z_scope.

Lemma inside_axis : forall bs x i, wide_size bs -> inside_block bs x i -> grid_axis x (inv_of bs) = Some i.
Proof.
  intros bs x i W (F & Hi & L & U). set (t := (FR x / FR bs)%R) in *.
  assert (G : (gtol t <= / 1048576 * Rabs t + / 131072)%R).
  { unfold gtol, u. pose proof (Rabs_pos t). replace (bpow radix2 (-24)) with (/ 16777216)%R by (cbn; lra). nra. }
  apply grid_axis_margin; auto. lia. fold t. lra.
Qed.
Lemma place_spec : forall bs x i, wide_size bs -> place_of bs x i -> mesh_block_of bs x = Ok i.
Proof.
  intros bs x i W H. destruct H as [i|p i Hx Hy Hz]; [reflexivity|]. unfold mesh_block_of, getGridIndexFromPoint, map3, seq3. cbn [vx vy vz].
  rewrite (inside_axis _ _ _ W Hx), (inside_axis _ _ _ W Hy), (inside_axis _ _ _ W Hz). destruct i; reflexivity.
Qed.
Lemma place_unique : forall bs x i j, wide_size bs -> place_of bs x i -> place_of bs x j -> i = j.
Proof. intros bs x i j W A B. pose proof (place_spec _ _ _ W A). pose proof (place_spec _ _ _ W B). congruence. Qed.

Definition holds (mm : mesh_map) (m : mmap) : Prop := NoDup (akeys mm) /\ forall i, alookup i mm = m i.
Lemma idx_eqb_sym : forall a b, idx_eqb a b = idx_eqb b a.
Proof. intros a b. destruct (idx_eqb_spec a b), (idx_eqb_spec b a); congruence. Qed.
Lemma allocate_holds : forall bs i mm m, holds mm m ->
  holds (allocateNewMesh bs i mm) (put i (Some match m i with Some v => v | None => fresh bs i end) m).
Proof.
  intros bs i mm m (N & H). split. apply NoDup_ainsert; auto. intros j. unfold allocateNewMesh, put. rewrite alookup_ainsert, !H, (idx_eqb_sym i j).
  destruct (idx_eqb_spec j i) as [-> | Hn]. destruct (m i); reflexivity. destruct (m j); reflexivity.
Qed.
Lemma clear_keys : forall c d mm, akeys (clearDistantMesh c d mm) = akeys mm.
Proof. intros c d mm. unfold clearDistantMesh, akeys. rewrite map_map. apply map_ext. intros [k v]. cbn [fst snd]. destruct (dgt _ _); reflexivity. Qed.
Lemma clear_lookup : forall c d mm i, alookup i (clearDistantMesh c d mm) =
  option_map (fun v => if further c d v then MkMesh [] [] [] [] (m_origin v) true else v) (alookup i mm).
Proof.
  intros c d mm i. induction mm as [|[k v] mm IH]; [reflexivity|]. unfold clearDistantMesh in *. cbn [map fst snd alookup].
  change (dgt (f64_of_f32 (sqnorm (pt_sub (m_origin v) c))) (dmul d d)) with (further c d v).
  destruct (further c d v) eqn:F; cbn [alookup]; destruct (idx_eqb i k) eqn:E; cbn [option_map]; try rewrite F; auto.
Qed.

Lemma keys_in : forall mm m i, holds mm m -> (In i (akeys mm) <-> m i <> None).
Proof.
  intros mm m i (N & H). rewrite akeys_In. rewrite <- H. split. intros (b & ->). discriminate.
  destruct (alookup i mm) as [b|]. intros _. exists b; reflexivity. intros F. destruct F. reflexivity.
Qed.
Lemma updated_in : forall mm m i, holds mm m ->
  (In i (getAllUpdatedMeshes mm) <-> exists v, m i = Some v /\ m_updated v = true).
Proof.
  intros mm m i (N & H). unfold getAllUpdatedMeshes. rewrite in_map_iff. split.
  - intros ((k & v) & E & I). apply filter_In in I. destruct I as (I & U). cbn [fst snd] in *. subst k.
    exists v. split; auto. rewrite <- H. apply alookup_NoDup; auto.
  - intros (v & E & U). exists (i, v). split; [reflexivity|]. apply filter_In. split; auto. apply alookup_In. rewrite H. exact E.
Qed.
Lemma step_spec : forall bs mm m o, wide_size bs -> holds mm m -> proper bs o ->
  (exists mm' v m', mop_step bs mm o = Ok (mm', v) /\ does bs m o m' v /\ holds mm' m') \/
  (mop_step bs mm o = Abort /\ exists i, o = MRef i /\ m i = None).
Proof.
  intros bs mm m o W Hm P. pose proof Hm as (N & H). destruct o as [x|x|x|x|i|x f| |c d| | |]; cbn [proper] in P.
  - left. destruct P as (i & P). unfold mop_step. rewrite (place_spec _ _ _ W P). cbn [rbind].
    eexists _, _, _. split; [reflexivity|]. pose proof (allocate_holds bs i _ _ Hm) as A. unfold allocateMeshPtr.
    destruct (alookup i mm) as [b|] eqn:E.
    + pose proof E as E'. rewrite E. rewrite H in E'. replace (OMesh (Some b)) with (OMesh (Some match m i with Some v => v | None => fresh bs i end)) by (rewrite E'; reflexivity).
      split. apply (d_allocate bs m x i P). split; auto. intros j. unfold put. destruct (idx_eqb_spec i j) as [<- |]; auto. rewrite E', E. reflexivity.
    + destruct A as (A1 & A2). rewrite (A2 i). split; [|split; auto]. unfold put at 2. rewrite idx_eqb_refl. apply (d_allocate bs m x i P).
  - left. destruct P as (i & P). unfold mop_step. rewrite (place_spec _ _ _ W P). cbn [rbind].
    eexists _, _, _. split; [reflexivity|]. destruct (allocate_holds bs i _ _ Hm) as (A1 & A2). rewrite (A2 i). split; [|split; auto].
    unfold put at 2. rewrite idx_eqb_refl. apply (d_allocate_new bs m x i P).
  - left. destruct P as (i & P). unfold mop_step. rewrite (place_spec _ _ _ W P). cbn [rbind].
    eexists _, _, _. split; [reflexivity|]. split. apply (d_remove bs m x i P). split. apply NoDup_aerase; auto.
    intros j. rewrite alookup_aerase. unfold put. rewrite (idx_eqb_sym i j), H. reflexivity.
  - left. destruct P as (i & P). unfold mop_step. rewrite (place_spec _ _ _ W P). cbn [rbind].
    eexists _, _, _. split; [reflexivity|]. rewrite H. split; [apply (d_get bs m x i P)|exact Hm].
  - unfold mop_step. destruct (alookup i mm) as [b|] eqn:E; rewrite H in E.
    + left. eexists _, _, _. split; [reflexivity|]. split; [apply d_ref; exact E|exact Hm].
    + right. split; [reflexivity|]. exists i. auto.
  - left. destruct P as (i & P). unfold mop_step. rewrite (place_spec _ _ _ W P). cbn [rbind]. destruct (alookup i mm) as [b|] eqn:E.
    + eexists _, _, _. split; [reflexivity|]. split. apply (d_edit bs m x i f P). split. apply NoDup_aset; auto.
      intros j. rewrite alookup_aset, H. unfold put. rewrite (idx_eqb_sym i j), <- (H i), E. reflexivity.
    + eexists _, _, _. split; [reflexivity|]. split. apply (d_edit bs m x i f P). split; auto.
      intros j. unfold put. rewrite <- (H i), E, <- (H j). destruct (idx_eqb_spec i j) as [<- |]; auto.
  - left. eexists _, _, _. split; [reflexivity|]. split. apply d_clear. split. constructor. reflexivity.
  - left. eexists _, _, _. split; [reflexivity|]. split. apply d_distant. split. rewrite clear_keys; auto.
    intros j. rewrite clear_lookup, H. reflexivity.
  - left. eexists _, _, _. split; [reflexivity|]. split; [|exact Hm]. apply d_all; auto. intros i. apply keys_in; auto.
  - left. eexists _, _, _. split; [reflexivity|]. split; [|exact Hm]. apply d_updated. apply NoDup_map_filter; auto. intros i. apply updated_in; auto.
  - left. eexists _, _, _. split; [reflexivity|]. split; [|exact Hm]. replace (length mm) with (length (akeys mm)) by apply map_length.
    apply d_count; auto. intros i. apply keys_in; auto.
Qed.

(** Whatever program uses a mesh layer, what it sees is what the map from blocks to meshes would
    show; it is stopped only where it demands the mesh of a block that has none. *)
Theorem C109_mesh_layer : forall bs ops m mm, wide_size bs -> Forall (proper bs) ops ->
  NoDup (akeys mm) -> (forall i, alookup i mm = m i) ->
  (exists mm' vs m', mop_run bs mm ops = Ok (mm', vs) /\ does_all bs m ops m' vs /\
     NoDup (akeys mm') /\ forall i, alookup i mm' = m' i) \/
  (mop_run bs mm ops = Abort /\
   exists before i after vs m1, ops = before ++ MRef i :: after /\ does_all bs m before m1 vs /\ m1 i = None).
Proof.
  intros bs ops m mm W P N H. revert m mm P N H. induction ops as [|o os IH]; intros m mm P N H.
  - left. exists mm, [], m. repeat split; auto. constructor.
  - inversion P as [|o' os' Po Pos]; subst o' os'. cbn [mop_run].
    destruct (step_spec bs mm m o W (conj N H) Po) as [(mm1 & v & m1 & E & D & N1 & H1) | (E & i & -> & Hi)]; rewrite E; cbn [rbind fst snd].
    + destruct (IH m1 mm1 Pos N1 H1) as [(mm2 & vs & m2 & E2 & D2 & N2 & H2) | (E2 & b & i & a & vs & m2 & -> & D2 & Hi)]; rewrite E2; cbn [rbind fst snd].
      * left. exists mm2, (v :: vs), m2. split; [reflexivity|]. split; [econstructor; eauto|]. split; auto.
      * right. split; [reflexivity|]. exists (o :: b), i, a, (v :: vs), m2. split; [reflexivity|]. split; [econstructor; eauto|exact Hi].
    + right. split; [reflexivity|]. exists [], i, os, [], m. split; [reflexivity|]. split; [constructor|exact Hi].
Qed.
Print Assumptions C109_mesh_layer.
(** A point is well inside one block only. *)
Theorem C109_one_block : forall bs x i j, wide_size bs -> place_of bs x i -> place_of bs x j -> i = j.
Proof. exact place_unique. Qed.
Print Assumptions C109_one_block.

(** a program on an empty layer with blocks of side 2 *)
Definition ms_bs : f32 := f32_of_Z 2.
Definition ms_pt (x y z : Z) : pt3 := V3 (f32_of_Z x) (f32_of_Z y) (f32_of_Z z).
Definition ms_touch (m : mesh) : mesh := MkMesh (m_vertices m) (m_indices m) (m_normals m) (m_colors m) (m_origin m) true.
Definition ms_prog : list mop :=
  [ MAllocate (AtPoint (ms_pt 1 1 (-1))); MAllocateNew (AtIndex (V3 0 0 (-1))); MAllocate (AtIndex (V3 7 0 0)); MCount;
    MEdit (AtPoint (ms_pt 15 1 1)) ms_touch; MUpdated; MGet (AtPoint (ms_pt 3 1 1)); MRemove (AtPoint (ms_pt 1 1 (-1))); MAll ].
Lemma ms_inside : forall a i, Z.abs a <= 100 -> a = 2 * i + 1 -> inside_block ms_bs (f32_of_Z a) i.
Proof.
  intros a i Ha ->. unfold inside_block, ms_bs. destruct (f32_of_Z_R (2 * i + 1) ltac:(lia)) as (E & F). destruct (f32_of_Z_R 2 ltac:(lia)) as (E2 & _).
  rewrite E, E2. split; auto. split; [lia|]. replace (IZR (2 * i + 1) / 2)%R with (IZR i + / 2)%R by (rewrite plus_IZR, mult_IZR; lra).
  assert (B : (-51 <= IZR i <= 51)%R) by (split; apply IZR_le; lia).
  assert (A : (Rabs (IZR i + / 2) <= 52)%R) by (apply Rabs_le; lra). lra.
Qed.
Example C109_example : wide_size ms_bs /\ Forall (proper ms_bs) ms_prog /\
  match mop_run ms_bs [] ms_prog with
  | Ok (mm, [OMesh (Some _); OMesh (Some _); OMesh (Some _); OCount 2; ONone; OList [u]; OMesh None; ONone; OList [a]]) =>
      idx_eqb u (V3 7 0 0) && idx_eqb a (V3 7 0 0)
  | _ => false
  end = true /\
  mop_run ms_bs [] (ms_prog ++ [MRef (V3 0 0 (-1))]) = Abort.
Proof.
  split; [|split; [|split; vm_compute; reflexivity]].
  - split; [vm_compute; reflexivity|]. unfold ms_bs. destruct (f32_of_Z_R 2 ltac:(lia)) as (-> & _). cbn. lra.
  - assert (Q : forall a b c i j k, Z.abs a <= 100 -> Z.abs b <= 100 -> Z.abs c <= 100 -> a = 2 * i + 1 -> b = 2 * j + 1 -> c = 2 * k + 1 ->
      exists n, place_of ms_bs (AtPoint (ms_pt a b c)) n).
    { intros a b c i j k Ha Hb Hc Ea Eb Ec. exists (V3 i j k). constructor; cbn [vx vy vz]; apply ms_inside; auto. }
    repeat constructor; cbn [proper]; try exact I; try (eexists; constructor; fail).
    + apply (Q 1 1 (-1) 0 0 (-1)); reflexivity || lia.
    + apply (Q 15 1 1 7 0 0); reflexivity || lia.
    + apply (Q 3 1 1 1 0 0); reflexivity || lia.
    + apply (Q 1 1 (-1) 0 0 (-1)); reflexivity || lia.
Qed.
