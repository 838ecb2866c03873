(** C55, C70: mesh messages and their viewers. *)
From Coq Require Import ZArith Reals List Bool Lia Lra.
From Flocq Require Import Core Binary.
From Verif Require Import F32 F32_lemmas Types Index Index_float Voxel Assoc Assoc_lemmas Layer Planning Marching
  MeshInt Mesh_spec Intensity_spec Intensity_proofs P_Mesh P_Sphere MeshMsg MeshMsg_spec MeshMsg_proofs MeshReach_proofs MeshView_proofs.
Import ListNotations.
Open Scope Z_scope.

(** C55. If the vertices of all meshes to send lie in the reach of their blocks, the message is
    generated without aborting. It holds one entry per updated mesh, from which a receiver gets
    every vertex, in order, within one quantisation step, and the exact colours; afterwards
    nothing is left to send, empty meshes are dropped and nothing else changed. *)
Theorem C55_message : forall mode bs mm, wide_size bs -> NoDup (akeys mm) ->
  (forall i m, alookup i mm = Some m -> m_updated m = true -> sendable mode bs i m) ->
  exists msg mm', generateVoxbloxMeshMsg mode bs mm = Ok (msg, mm') /\ mm_edge msg = bs /\
    NoDup (map mb_index (mm_blocks msg)) /\
    (forall i, In i (map mb_index (mm_blocks msg)) <-> exists m, alookup i mm = Some m /\ m_updated m = true) /\
    Forall (fun b => exists m, alookup (mb_index b) mm = Some m /\ describes mode bs b m) (mm_blocks msg) /\
    forall i, alookup i mm' = after_sending (alookup i mm).
Proof. exact message_ok. Qed.
Print Assumptions C55_message.

(** The vertices of every mesh built from a layer lie in the reach of its block, if a block has
    at least four voxels per side and is not too far away. Missing: smaller blocks, for which
    the claim is false. *)
Theorem C55_reach_partial : forall k (l : Layer k) mw bi, regular l -> sane_sdf l mw -> sendable_layer l ->
  Forall (vertex_in (l_block_size l) bi) (block_points l mw bi).
Proof. exact block_points_in. Qed.
Print Assumptions C55_reach_partial.

(** With one voxel per block, the message of an ordinary mesh aborts the server ... *)
Definition ex_corner : Layer KTsdf := ex_layer (fun i => if idx_eqb i (V3 1 1 1) then -1 else 1) (fun _ => upd_all).
Lemma take_abort {A B} (g : res (A * B)) (f : B -> bool) :
  match g with Ok (_, m) => f m | _ => false end = true -> exists a m, g = Ok (a, m) /\ f m = true.
Proof. destruct g as [[a m]| |]; try discriminate. intros H. now exists a, m. Qed.
Definition aborts {A} (r : res A) : bool := match r with Abort => true | _ => false end.
Lemma aborts_ok {A} (r : res A) : aborts r = true -> r = Abort.
Proof. now destruct r. Qed.
Theorem C55_small_blocks_refuted : exists (l : Layer KTsdf) l' mm,
  layer_wf l /\ no_nan_sdf l f0 /\ generateMesh ex_cfg false true l [] = Ok (l', mm) /\
  generateVoxbloxMeshMsg kNormals (l_block_size l) mm = Abort.
Proof.
  destruct (take_abort (generateMesh ex_cfg false true ex_corner [])
              (fun mm => aborts (generateVoxbloxMeshMsg kNormals (l_block_size ex_corner) mm))) as (l' & mm & E & A);
    [vm_compute; reflexivity|].
  exists ex_corner, l', mm. split; [apply wf_check_ok; vm_compute; reflexivity|].
  split; [apply nan_check_ok; vm_compute; reflexivity|]. split; [exact E|].
  apply aborts_ok. exact A.
Qed.
Print Assumptions C55_small_blocks_refuted.
(** ... and the resolution promised by the message definition (vertices rounded to the nearest
    1/65535 of the block edge) is not met: the steps are twice as wide and vertices are rounded
    down. *)
Definition ex_vertex : f32 := f32_lit 1 (-15).
Theorem C55_documented_resolution_refuted : exists bs v i q, axis_in bs v i /\ wide_size bs /\
  quantize (normalize_axis (inv_of bs) v i) = Some q /\
  (Rabs (FR (decode_axis bs i q) - FR v) > FR bs / 65535)%R.
Proof.
  assert (E1 : FR f1 = 1%R) by (apply (f32_of_Z_R 1); lia).
  assert (Ev : FR ex_vertex = (/ 32768)%R) by (unfold ex_vertex, f32_lit, FR; cbn; unfold F2R; cbn; lra).
  exists f1, ex_vertex, 0, 0. split.
  - split; [reflexivity|]. split; [cbn; lia|]. rewrite E1, Ev. cbn [Z.abs]. lra.
  - split; [split; [reflexivity|]; rewrite E1; split; [apply (bpow_le radix2 (-60) 0)|apply (bpow_le radix2 0 60)]; lia|].
    split; [vm_compute; reflexivity|].
    replace (decode_axis f1 0 0) with f0 by (apply P_Sphere.fword_inj; vm_compute; reflexivity).
    rewrite E1, Ev. change (FR f0) with 0%R. rewrite Rabs_left; lra.
Qed.
Print Assumptions C55_documented_resolution_refuted.

(** An example: a block of 4x4x4 voxels with a surface inside, in front of it in x. *)
Definition ex_voxels : list TsdfVoxel :=
  map (fun n => MkTsdf (f32_lit (if n mod 4 <? 2 then -1 else 1) 0) f1 color0) (zrange 64).
Definition ex_block : Layer KTsdf :=
  let l1 := allocateBlockPtrByIndex (MkLayer (k := KTsdf) f1 4 []) (V3 1 0 (-1)) in
  match l_get l1 (V3 1 0 (-1)) with
  | Some b => with_blocks l1 (aset (V3 1 0 (-1)) (set_updated upd_all (set_voxels (k := KTsdf) ex_voxels b)) (l_blocks l1))
  | None => l1
  end.
Definition ex_edge : f32 := l_block_size ex_block.
Lemma ex_block_source : sendable_source ex_cfg kNormals ex_edge ex_block.
Proof.
  assert (K : akeys (l_blocks ex_block) = [V3 1 0 (-1)]) by (vm_compute; reflexivity).
  assert (In1 : forall i b, l_get ex_block i = Some b -> In (i, b) (l_blocks ex_block)) by (intros i b H; now apply alookup_In).
  assert (Ik : forall i b, l_get ex_block i = Some b -> i = V3 1 0 (-1)).
  { intros i b H. apply In1 in H. apply (in_map fst) in H. unfold akeys in K. rewrite K in H. cbn [fst] in H. destruct H as [<- | []]. reflexivity. }
  split; [apply wf_check_ok; vm_compute; reflexivity|]. split.
  { intros i b H. pose proof (Ik i b H) as ->. unfold ex_block, with_blocks in H. cbn in H. injection H as <-. repeat split. }
  split; [rewrite K; constructor; [intros []|constructor]|]. split.
  { intros g s E. unfold sdf_at, voxel_at in E. destruct (l_get ex_block _) as [b|] eqn:Eb; [|discriminate].
    destruct (nth_error (b_voxels b) _) as [v|] eqn:Ev; [|discriminate]. pose proof (Ik _ _ Eb) as Ei. rewrite Ei in Eb. clear Ei.
    assert (Vb : b_voxels b = ex_voxels) by (unfold ex_block, with_blocks in Eb; cbn in Eb; injection Eb as <-; reflexivity).
    rewrite Vb in Ev. apply nth_error_In in Ev. unfold ex_voxels in Ev. apply in_map_iff in Ev. destruct Ev as (n & <- & _).
    cbn [getSdfIfValid t_weight t_distance] in E. destruct (fle _ _) in E; [discriminate|]. injection E as <-.
    destruct (n mod 4 <? 2).
    - split; [reflexivity|]. replace (FR (f32_lit (-1) 0)) with (-1)%R by (unfold f32_lit, FR; cbn; unfold F2R; cbn; lra).
      rewrite Rabs_left by lra. replace (- -1)%R with (bpow radix2 0) by (simpl; lra). apply bpow_le; lia.
    - split; [reflexivity|]. replace (FR (f32_lit 1 0)) with 1%R by (unfold f32_lit, FR; cbn; unfold F2R; cbn; lra).
      rewrite Rabs_pos_eq by lra. change 1%R with (bpow radix2 0). apply bpow_le; lia. }
  split; [|reflexivity]. split.
  - assert (E1 : FR (l_size ex_block) = 1%R) by (apply (f32_of_Z_R 1); lia).
    split; [reflexivity|]. rewrite E1. split; [apply (bpow_le radix2 (-40) 0)|apply (bpow_le radix2 0 40)]; lia.
  - split; [cbn; lia|]. intros i b H. rewrite (Ik i b H). repeat split; cbn; lia.
Qed.
Lemma ex_edge_wide : wide_size ex_edge.
Proof.
  assert (E4 : FR ex_edge = 4%R).
  { replace ex_edge with (f32_of_Z 4) by (apply P_Sphere.fword_inj; vm_compute; reflexivity). apply (f32_of_Z_R 4); lia. }
  split; [reflexivity|]. rewrite E4. change 4%R with (bpow radix2 2). split; apply bpow_le; lia.
Qed.
Example C55_example : regular ex_block /\ sane_sdf ex_block f0 /\ sendable_layer ex_block /\
  match generateMesh ex_cfg false true ex_block [] with
  | Ok (_, mm) =>
      match generateVoxbloxMeshMsg kNormals ex_edge mm with
      | Ok (msg, mm') => map mb_index (mm_blocks msg) = [V3 1 0 (-1)] /\ map (fun b => length (mb_x b)) (mm_blocks msg) = [54%nat] /\
          map (fun b => hd 0 (mb_x b)) (mm_blocks msg) = [16383]
      | _ => False
      end
  | _ => False
  end.
Proof.
  destruct ex_block_source as (_ & A & _ & B & C & _). split; [exact A|]. split; [exact B|]. split; [exact C|].
  vm_compute. auto.
Qed.

(** C70. A server that meshes, clears distant meshes and sends messages in any order, and a
    viewer that receives every message: each further message can be sent and shown, and then
    the viewer shows for every block the mesh of the server, each vertex in order within one
    quantisation step, and nothing for blocks without a mesh; the server has nothing pending. *)
Theorem C70_viewer_in_sync : forall cfg mode bs mm w, wide_size bs -> (mode = kColor -> mc_use_color cfg = true) ->
  session cfg mode bs mm w ->
  exists msg mm' w', generateVoxbloxMeshMsg mode bs mm = Ok (msg, mm') /\ setMessage msg w = Ok w' /\
    (forall i, mesh_shown bs w' mm i) /\ (forall i, mesh_shown bs w' mm' i) /\
    (forall i m, alookup i mm' = Some m -> m_updated m = false) /\ session cfg mode bs mm' w'.
Proof.
  intros cfg mode bs mm w W UC H. pose proof (session_synced cfg mode bs W UC mm w H) as S.
  destruct (send_synced mode bs W mm w S) as (msg & mm' & w' & E & Ew & G & A & B).
  exists msg, mm', w'. split; [exact E|]. split; [exact Ew|]. split; [exact A|]. split; [exact B|]. split.
  - intros i m Em. rewrite G in Em. unfold after_sending in Em. destruct (alookup i mm) as [m0|]; [|discriminate].
    destruct (m_updated m0) eqn:U; [destruct (nonempty _); [injection Em as <-; reflexivity|discriminate]|congruence].
  - eapply s_send; [exact H|exact E|exact Ew].
Qed.
Print Assumptions C70_viewer_in_sync.
Definition ex_one (mm : mesh_map) : bool :=
  match mm with [(i, m)] => idx_eqb i (V3 1 0 (-1)) && Nat.eqb (length (m_vertices m)) 54 &&
                 match m_colors m with [] => true | _ => false end | _ => false end.
Lemma ex_one_ok mm : ex_one mm = true -> exists m, mm = [(V3 1 0 (-1), m)] /\ length (m_vertices m) = 54%nat /\ m_colors m = [].
Proof.
  destruct mm as [|[i m] [|? ?]]; try discriminate. cbn [ex_one]. rewrite !andb_true_iff. intros ((T1 & T2) & T3).
  destruct (idx_eqb_spec i (V3 1 0 (-1))) as [-> |]; [|discriminate]. apply Nat.eqb_eq in T2. exists m.
  split; [reflexivity|]. split; [exact T2|]. now destruct (m_colors m).
Qed.
Example C70_example : exists mm msg mm' w', session ex_cfg kNormals ex_edge mm [] /\
  generateVoxbloxMeshMsg kNormals ex_edge mm = Ok (msg, mm') /\ setMessage msg [] = Ok w' /\
  length (shown w' (V3 1 0 (-1))) = 54%nat.
Proof.
  destruct (take_abort (generateMesh ex_cfg false true ex_block []) ex_one) as (l' & mm & E & T); [vm_compute; reflexivity|].
  destruct (ex_one_ok mm T) as (m & -> & T2 & T3). clear T.
  assert (S : session ex_cfg kNormals ex_edge [(V3 1 0 (-1), m)] []).
  { eapply s_mesh; [apply s_start|apply ex_block_source|exact E|]. intros i m' Em. cbn in Em.
    destruct (idx_eqb i _); [|discriminate]. injection Em as <-. rewrite T3. constructor. }
  destruct (C70_viewer_in_sync ex_cfg kNormals ex_edge _ [] ex_edge_wide ltac:(discriminate) S) as (msg & mm' & w' & Em & Ew & A & _).
  exists [(V3 1 0 (-1), m)], msg, mm', w'. split; [exact S|]. split; [exact Em|]. split; [exact Ew|].
  specialize (A (V3 1 0 (-1))). unfold mesh_shown in A. cbn [alookup] in A. rewrite idx_eqb_refl in A.
  apply Forall2_len in A. congruence.
Qed.
