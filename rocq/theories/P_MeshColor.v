(** Property C106: coloured meshing succeeds, and vertices have the colour of the voxel they lie in. *)
From Coq Require Import ZArith Reals List Bool Lia Lra.
From Flocq Require Import Core Binary.
From Verif Require Import F32 F32_lemmas Types Index Index_proofs Index_float Voxel Assoc Assoc_lemmas Layer Marching
  MeshInt Mesh_spec MeshInt_proofs MeshLayer_proofs P_Mesh P_Index MeshMsg_spec Interp_spec MeshColor_spec MeshColor_proofs.
Import ListNotations.
Open Scope Z_scope.
Ltac Zify.zify_post_hook ::= idtac.

Lemma built_wf : forall k (l : Layer k), built_layer l -> blocks_in_range l -> layer_wf l.
Proof.
  intros k l (Hs & Hn & HB) BR. split; [lia|]. intros i b E. destruct (HB i b E) as (Bv & Bs & Bo & Bl).
  split; [exact Bv|]. split; [exact Bl|]. rewrite Bv, Bs, Bo. apply C58_block_index_of_origin; [exact Hs|lia|].
  destruct (BR i b E) as (B1 & B2 & B3). split; [|split]; nia.
Qed.
Lemma sane_no_nan : forall k (l : Layer k) mw, sane_sdf l mw -> no_nan_sdf l mw.
Proof. intros k l mw H g s E. destruct (H g s E) as (F & _). destruct s; try discriminate F; reflexivity. Qed.
Lemma rmap_colours : forall k (l : Layer k) mw b vs, Forall (fun p => exists col, vertex_color l mw b p = Ok col /\ coloured_by l mw p col) vs ->
  exists cs, rmap (vertex_color l mw b) vs = Ok cs /\ Forall2 (coloured_by l mw) vs cs.
Proof.
  intros k l mw b vs H. induction H as [|p vs (c & E & C) _ (cs & ES & F)]; cbn [rmap].
  - exists []. split; [reflexivity|constructor].
  - exists (c :: cs). rewrite E. cbn [rbind]. rewrite ES. cbn [rbind]. split; [reflexivity|]. constructor; auto.
Qed.
Section Gen.
  Context {k : vkind}.
  Variable cfg : MeshConfig.
  Let mw := mc_min_weight cfg.
  Definition source (l : Layer k) : Prop := built_layer l /\ blocks_in_range l /\ sane_sdf l mw.
  Definition done_ok (l : Layer k) (i : idx3) (m : mesh) : Prop :=
    up_to_date cfg l i m /\ (mc_use_color cfg = true -> Forall2 (coloured_by l mw) (m_vertices m) (m_colors m)).
  Lemma update_done : forall l i mm m0 b, source l -> l_get l i = Some b -> alookup i mm = Some m0 ->
    exists m, updateMeshForBlock cfg l i mm = Ok (aset i m mm) /\ done_ok l i m.
  Proof.
    intros l i mm m0 b (BL & BR & SD) Eb Em. pose proof (built_wf _ _ BL BR) as W. pose proof (sane_no_nan _ _ _ SD) as N.
    destruct (extractBlockMesh_ok l mw b i W Eb N (m_origin m0) (m_updated m0)) as (m & A & B & (C1 & C2) & D1 & D2 & D3).
    assert (BP : m_vertices m = block_points l mw i) by (unfold block_points; rewrite Eb; exact B).
    destruct (rmap_colours k l mw b (block_points l mw i) (block_colours l mw BL BR SD i b Eb)) as (cs & EC & FC).
    assert (EE : exists mm', updateMeshForBlock cfg l i mm = Ok mm' /\ forall m', mm' = aset i m' mm -> True).
    { exists (match updateMeshForBlock cfg l i mm with Ok x => x | _ => mm end).
      unfold updateMeshForBlock. rewrite Em, Eb. unfold clear_mesh. fold mw. rewrite A. cbn [rbind].
      destruct (mc_use_color cfg); cbn [rbind].
      - unfold updateMeshColor. rewrite BP, EC. cbn [rbind]. destruct C1 as (_ & CI & _). rewrite BP in CI. rewrite CI, Nat.ltb_irrefl. cbn [rbind]. auto.
      - auto. }
    destruct EE as (mm' & E & _). destruct (update_ok cfg l i mm mm' b W N Eb E) as (m1 & -> & U).
    exists m1. split; [exact E|]. split; [exact U|]. intros UC.
    assert (K : m_colors m1 = cs /\ m_vertices m1 = block_points l mw i).
    { split; [|exact (proj1 U)]. unfold updateMeshForBlock in E. rewrite Em, Eb in E. unfold clear_mesh in E. fold mw in E. rewrite A in E. cbn [rbind] in E.
      rewrite UC in E. unfold updateMeshColor in E. rewrite BP, EC in E. cbn [rbind] in E. destruct C1 as (_ & CI & _). rewrite BP in CI.
      rewrite CI, Nat.ltb_irrefl, Nat.sub_diag in E. cbn [rbind repeat m_vertices m_indices m_normals m_colors m_origin] in E. rewrite app_nil_r in E.
      assert (E' : alookup i (aset i m1 mm) = alookup i (aset i (MkMesh (block_points l mw i) (m_indices m) (m_normals m) cs (m_origin m) true) mm)) by congruence.
      rewrite !alookup_aset, idx_eqb_refl in E'. assert (E2 : m1 = MkMesh (block_points l mw i) (m_indices m) (m_normals m) cs (m_origin m) true) by congruence. rewrite E2. reflexivity. }
    destruct K as (-> & ->). exact FC.
  Qed.
  Lemma same_source : forall l l' : Layer k, same_map l l' -> source l -> source l'.
  Proof.
    intros l l' SM ((Hs & Hn & HB) & BR & SD). pose proof SM as (E1 & E2 & _). split; [|split].
    - split; [rewrite E1; exact Hs|]. split; [rewrite E2; exact Hn|]. intros i b' Eb'. pose proof (same_get l l' i SM) as G. rewrite Eb' in G.
      destruct (l_get l i) as [b|] eqn:Eb; [|destruct G]. destruct G as (G1 & G2 & G3 & G4). rewrite G1, G2, G3, G4, E1, E2. exact (HB i b Eb).
    - intros i b' Eb'. pose proof (same_get l l' i SM) as G. rewrite Eb' in G. destruct (l_get l i) as [b|] eqn:Eb; [|destruct G]. rewrite E2. exact (BR i b Eb).
    - intros g d E. rewrite (same_sdf l l' mw g SM) in E. exact (SD g d E).
  Qed.
  Lemma same_coloured : forall (l l' : Layer k) p c, same_map l l' -> coloured_by l' mw p c -> coloured_by l mw p c.
  Proof.
    intros l l' p c SM (g & v & E & V & L). exists g, v. rewrite (same_voxel l l' g SM) in E. split; [exact E|]. split; [exact V|].
    destruct SM as (E1 & E2 & _). unfold lies_in in *. rewrite E1, E2 in L. exact L.
  Qed.
  Lemma same_done : forall (l l' : Layer k) i m, same_map l l' -> done_ok l' i m -> done_ok l i m.
  Proof.
    intros l l' i m SM ((U1 & U2) & C). split.
    - split; [|exact U2]. rewrite U1. now apply same_points.
    - intros UC. specialize (C UC). clear - C SM. induction C; constructor; auto. eapply same_coloured; eauto.
  Qed.
  Lemma blocks_done : forall clear is (l : Layer k) mm, source l ->
    Forall (fun i => l_get l i <> None) is -> Forall (fun i => alookup i mm <> None) is ->
    exists l' mm', mesh_blocks cfg clear is l mm = Ok (l', mm') /\
      (forall i, In i is -> exists m, alookup i mm' = Some m /\ done_ok l i m) /\ (forall i, ~ In i is -> alookup i mm' = alookup i mm).
  Proof.
    intros clear is. induction is as [|j is IH]; intros l mm SO F G; cbn [mesh_blocks].
    - exists l, mm. split; [reflexivity|]. split; [intros i []|auto].
    - inversion F as [|? ? Fj F']; subst. inversion G as [|? ? Gj G']; subst.
      destruct (l_get l j) as [b|] eqn:Eb; [|congruence]. destruct (alookup j mm) as [m0|] eqn:Em; [|congruence].
      destruct (update_done l j mm m0 b SO Eb Em) as (m & E1 & D1). rewrite E1. cbn [rbind].
      set (l1 := if clear then clear_flag kMesh j l else l) in *.
      assert (SM : same_map l l1) by (unfold l1; destruct clear; [apply clear_same|apply same_refl]).
      destruct (IH l1 (aset j m mm) (same_source _ _ SM SO)) as (l' & mm' & E & A & B).
      { eapply Forall_impl; [|exact F']. cbn. intros i Hi X. apply Hi. pose proof (same_get l l1 i SM) as Y.
        rewrite X in Y. destruct (l_get l i); [tauto|reflexivity]. }
      { eapply Forall_impl; [|exact G']. cbn. intros i Hi. rewrite alookup_aset. destruct (idx_eqb i j); [discriminate|exact Hi]. }
      exists l', mm'. split; [exact E|]. split.
      + intros i Hi. destruct (existsb (idx_eqb i) is) eqn:M.
        * apply mem_spec in M. destruct (A i M) as (m' & X & Y). exists m'. split; [exact X|]. eapply same_done; eauto.
        * assert (NI : ~ In i is) by (rewrite <- mem_spec; congruence). destruct Hi as [->|Hi]; [|tauto]. exists m. split; [|exact D1].
          rewrite (B i NI), alookup_aset, idx_eqb_refl. reflexivity.
      + intros i Hi. rewrite B by (intros X; apply Hi; now right). rewrite alookup_aset.
        destruct (idx_eqb_spec i j) as [->|]; [|reflexivity]. exfalso. apply Hi. now left.
  Qed.
End Gen.

(** C106. Generating meshes of a layer whose blocks have up to 1024 voxels per side, within 32768
    voxels of the origin and with sane distances, succeeds, with colours or without: no vertex is
    looked up in a missing block. The mesh of every block asked for is up to date, and every vertex
    has the colour of an observed voxel, the one it lies in. *)
Theorem C106_generate : forall k cfg (only_updated clear : bool) (l : Layer k) mm,
  built_layer l -> blocks_in_range l -> sane_sdf l (mc_min_weight cfg) -> NoDup (akeys (l_blocks l)) ->
  exists l' mm', generateMesh cfg only_updated clear l mm = Ok (l', mm') /\
    forall i, to_mesh only_updated l i = true ->
      exists m, alookup i mm' = Some m /\ up_to_date cfg l i m /\
        (mc_use_color cfg = true -> Forall2 (coloured_by l (mc_min_weight cfg)) (m_vertices m) (m_colors m)).
Proof.
  intros k cfg only clear l mm BL BR SD ND. unfold generateMesh.
  set (is := if only then getAllUpdatedBlocks l kMesh else getAllAllocatedBlocks l).
  assert (CH : forall i, In i is <-> selected only l i = true) by (intros i; now apply chosen).
  destruct (blocks_done cfg clear is l (fold_left (fun m i => allocateMesh (l_block_size l) i m) is mm)) as (l' & mm' & E & A & _).
  - split; [exact BL|]. split; assumption.
  - apply Forall_forall. intros i Hi X. apply CH in Hi. unfold selected in Hi. rewrite X in Hi. discriminate.
  - apply Forall_forall. intros i Hi. rewrite alloc_all, (proj2 (mem_spec i is) Hi). now destruct (alookup i mm).
  - exists l', mm'. split; [exact E|]. intros i Hi. apply CH in Hi. exact (A i Hi).
Qed.
Print Assumptions C106_generate.

(** eight blocks of one voxel each; inside (distance -3, red) for x = 0, outside (distance 1, blue) for x = 1:
    the surface is at x = 1.25 m, in the blocks next to those that own its cubes *)
Definition cx_red : Color := MkColor 255 0 0 255.
Definition cx_blue : Color := MkColor 0 0 255 255.
Definition cx_block (i : idx3) : Block KTsdf :=
  MkBlock (k := KTsdf) 1 f1 (new_block_origin 1 f1 i) true upd_all
    [if vx i =? 0 then MkTsdf (f32_of_Z (-3)) f1 cx_red else MkTsdf (f32_of_Z 1) f1 cx_blue].
Definition cx_layer : Layer KTsdf := MkLayer (k := KTsdf) f1 1 (map (fun i => (i, cx_block i)) ex_cells).
Definition cx_cfg : MeshConfig := MkMeshConfig true f0.
Lemma cx_get : forall i b, l_get cx_layer i = Some b -> b = cx_block i /\ In i ex_cells.
Proof.
  unfold l_get, cx_layer. cbn [l_blocks]. generalize ex_cells. induction l as [|j js IH]; intros i b H; cbn [map alookup] in H; [discriminate H|].
  destruct (idx_eqb_spec i j) as [->|N]; [split; [congruence|now left]|]. destruct (IH i b H). split; [assumption|now right].
Qed.
Example C106_example : built_layer cx_layer /\ blocks_in_range cx_layer /\ sane_sdf cx_layer (mc_min_weight cx_cfg) /\ NoDup (akeys (l_blocks cx_layer)) /\
  match generateMesh cx_cfg true true cx_layer [] with
  | Ok (_, mm) => match alookup (V3 0 0 0) mm with
                  | Some m => length (m_vertices m) = 6%nat /\ m_colors m = repeat cx_blue 6 /\
                              map (fun p => fword (vx p)) (m_vertices m) = repeat 0x3fa00000 6
                  | None => False
                  end
  | _ => False
  end.
Proof.
  assert (E1 : FR f1 = 1%R) by (apply (f32_of_Z_R 1); lia).
  split; [|split; [|split; [|split]]].
  - split; [|split; [cbn; lia|]].
    + split; [reflexivity|]. change (l_size cx_layer) with f1. rewrite E1. split; [apply (bpow_le radix2 (-40) 0)|apply (bpow_le radix2 0 40)]; lia.
    + intros i b H. destruct (cx_get i b H) as (-> & _). repeat split; reflexivity.
  - intros i b H. destruct (cx_get i b H) as (_ & I). cbn [l_vps cx_layer].
    cbn in I. repeat (destruct I as [<- | I]; [unfold all3; cbn [vx vy vz]; lia|]). destruct I.
  - intros g d E. unfold sdf_at, voxel_at in E. destruct (l_get cx_layer _) as [b|] eqn:Eb; [|discriminate E].
    destruct (cx_get _ b Eb) as (-> & _). destruct (nth_error _ _) as [v|] eqn:Ev; [|discriminate E]. apply nth_error_In in Ev.
    cbn [cx_block b_voxels] in Ev. destruct Ev as [Ev|[]]. unfold getSdfIfValid in E. destruct (fle (t_weight v) _) in E; [discriminate E|].
    assert (D : d = f32_of_Z (-3) \/ d = f32_of_Z 1) by (rewrite <- Ev in E; destruct (_ =? 0); [left|right]; cbn [t_distance] in E; congruence).
    destruct (f32_of_Z_R (-3) ltac:(lia)) as (A & B). destruct (f32_of_Z_R 1 ltac:(lia)) as (A' & B').
    assert (P : (4 <= bpow radix2 100)%R) by (change 4%R with (bpow radix2 2); apply bpow_le; lia).
    destruct D as [-> | ->]; (split; [assumption|]); rewrite ?A, ?A'; apply Rabs_le; lra.
  - replace (akeys (l_blocks cx_layer)) with ex_cells by (vm_compute; reflexivity). repeat constructor; cbn; intuition discriminate.
  - vm_compute. auto.
Qed.
