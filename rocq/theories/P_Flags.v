(** C43: update flags. *)
From Coq Require Import ZArith List Bool Lia Reals.
From Verif Require Import F32 F32_lemmas Types Index Voxel Serialize Assoc Assoc_lemmas Layer Threads Marching MeshInt Mesh_spec Queue Planning Esdf Esdf_spec
  Esdf_proofs Esdf_float Flags Flags_spec Flags_proofs P_Mesh Connect_proofs P_Sphere.
Import ListNotations.
Open Scope Z_scope.

(** After any sequence of voxel updates, block removals, mesh generations and ESDF
    updates: a block written to since the last mesh generation that clears flags is
    meshed by the next incremental mesh generation. *)
Theorem C43_mesh : forall mc ec fuel ks w w1 w2 clear i, do_calls mc ec fuel w ks = Ok w1 ->
  stale clears_mesh (l_vps (w_tsdf w)) i ks -> do_call mc ec fuel w1 (CMesh true clear) = Ok w2 ->
  layer_wf (w_tsdf w1) -> NoDup (akeys (l_blocks (w_tsdf w1))) -> no_nan_sdf (w_tsdf w1) (mc_min_weight mc) ->
  exists m, alookup i (w_mesh w2) = Some m /\ up_to_date mc (w_tsdf w1) i m.
Proof.
  intros mc ec fuel ks w w1 w2 clear i H S HM W ND NN.
  assert (HC : forall k, clears_mesh k = false -> (kMesh = kMesh -> clears_mesh k = false) /\ (kMesh = kEsdf -> clears_esdf k = false)) by (split; [auto | discriminate]).
  destruct (stale_flag mc ec fuel kMesh clears_mesh ks w w1 i HC H S) as (b & Hb & Hf).
  cbn [do_call] in HM; apply rbind_ok in HM; destruct HM as ((l, mm) & HM & K); injection K as <-; cbn [w_mesh snd].
  destruct (C62_generate KTsdf mc true clear _ _ _ _ W ND NN HM) as (_ & B & _); apply B.
  unfold to_mesh; rewrite Hb; exact Hf.
Qed.
Print Assumptions C43_mesh.
(** ... and a block written to since the last ESDF update that clears flags is
    propagated by the next ESDF update. *)
Theorem C43_esdf : forall mc ec fuel ks w w1 w2 clear i, do_calls mc ec fuel w ks = Ok w1 ->
  stale clears_esdf (l_vps (w_tsdf w)) i ks -> do_call mc ec fuel w1 (CEsdf clear) = Ok w2 ->
  regular (w_tsdf w1) -> regular (es_layer (w_esdf w1)) -> ffin (ec_min_diff ec) = true -> (0 <= FR (ec_min_diff ec))%R ->
  propagated ec (w_tsdf w1) (es_layer (w_esdf w2)) i.
Proof.
  intros mc ec fuel ks w w1 w2 clear i H S HM R1 R2 Fm Pm.
  assert (HC : forall k, clears_esdf k = false -> (kEsdf = kMesh -> clears_mesh k = false) /\ (kEsdf = kEsdf -> clears_esdf k = false)) by (split; [discriminate | auto]).
  pose proof (stale_flag mc ec fuel kEsdf clears_esdf ks w w1 i HC H S) as F.
  cbn [do_call] in HM; apply rbind_ok in HM; destruct HM as ([(t, e)|] & HM & K); [|discriminate]; injection K as <-; cbn [w_esdf].
  apply (update_notes ec (conj Fm Pm) fuel clear _ _ _ _ i R1 R2 F HM).
Qed.
Print Assumptions C43_esdf.
(** Mesh generation and ESDF updates leave the other flags alone, and without
    clearing leave all flags alone. *)
Theorem C43_independent : forall mc ec fuel w k w' bit i b, do_call mc ec fuel w k = Ok w' ->
  (exists only clear, k = CMesh only clear /\ (bit <> kMesh \/ clear = false)) \/ (exists clear, k = CEsdf clear /\ (bit <> kEsdf \/ clear = false)) ->
  l_get (w_tsdf w) i = Some b -> upd_get (b_updated b) bit = true ->
  exists b', l_get (w_tsdf w') i = Some b' /\ upd_get (b_updated b') bit = true.
Proof.
  intros mc ec fuel w k w' bit i b H [(only & clear & -> & N)|(clear & -> & N)] Hb Hf; cbn [do_call] in H.
  - apply rbind_ok in H; destruct H as ((l, mm) & H & K); injection K as <-.
    apply (mesh_call_flags mc only clear _ _ _ _ bit H N); exists b; auto.
  - apply rbind_ok in H; destruct H as ([(l, e)|] & H & K); [|discriminate]; injection K as <-.
    apply (esdf_call_flags ec fuel clear _ _ _ _ bit H N); exists b; auto.
Qed.
Print Assumptions C43_independent.

(** A history: write a voxel, mesh and clear, write into the next block, update the
    ESDF; block (0,0,0) is stale for the ESDF until then, block (1,0,0) for the mesh. *)
Definition f_ec : econfig := MkEC false (fbits 0x40000000) (fbits 0x3e800000) (fbits 0x40000000) (fbits 0x3a800000) (fbits 0x358637bd) 20 false false f0 f0.
Definition f_vs : f32 := fbits 0x3e000000.
Definition f_w : world := MkWorld (MkLayer (k := KTsdf) f_vs 2 []) []
  (MkES (MkLayer (k := KEsdf) f_vs 2 []) (bq_setNum (bq_new 0 d0) 20 (f64_of_f32 (fbits 0x40000000))) [] []).
Definition f_write (d : f32) (v : TsdfVoxel) : TsdfVoxel := MkTsdf d f1 (t_color v).
Definition f_ks : list call :=
  [CIntegrate (V3 0 0 0) (f_write (fbits 0x3e000000)); CMesh true true; CIntegrate (V3 2 0 1) (f_write (fbits 0x3e000000))].
Definition f_mc : MeshConfig := MkMeshConfig false f0.
Definition f_check : bool :=
  match do_calls f_mc f_ec 50 f_w f_ks with
  | Ok w1 =>
      match do_call f_mc f_ec 50 w1 (CMesh true true), do_call f_mc f_ec 50 w1 (CEsdf true) with
      | Ok w2, Ok w3 =>
          (match getAllUpdatedBlocks (w_tsdf w1) kMesh with [i] => idx_eqb i (V3 1 0 0) | _ => false end) &&
          Nat.eqb (length (getAllUpdatedBlocks (w_tsdf w1) kEsdf)) 2 &&
          Nat.eqb (length (getAllUpdatedBlocks (w_tsdf w2) kMesh)) 0 &&
          Nat.eqb (length (getAllUpdatedBlocks (w_tsdf w3) kEsdf)) 0 &&
          (match vat (es_layer (w_esdf w3)) (V3 0 0 0, 0%nat) with Some v => e_observed (v : EsdfVoxel) && e_fixed (v : EsdfVoxel) | None => false end)
      | _, _ => false
      end
  | _ => false
  end.
Example C43_example : stale clears_esdf 2 (V3 0 0 0) f_ks /\ stale clears_mesh 2 (V3 1 0 0) f_ks /\ f_check = true.
Proof.
  split; [|split].
  - exists [], (V3 0 0 0), (f_write (fbits 0x3e000000)); eexists; split; [reflexivity|]; split; [vm_compute; reflexivity|].
    repeat constructor; discriminate.
  - exists [CIntegrate (V3 0 0 0) (f_write (fbits 0x3e000000)); CMesh true true], (V3 2 0 1), (f_write (fbits 0x3e000000)), []; split; [reflexivity|]; split; [vm_compute; reflexivity|].
    constructor.
  - vm_compute; reflexivity.
Qed.

(** "The ESDF agrees with the TSDF in the fixed band" is false without the premise that
    the ESDF voxel is fixed: a voxel that enters the band at about the distance it had
    by propagation is left unfixed (esdf_integrator.cc 220-285 has no branch for it), and
    when its parent goes away it is reset to the default distance.  Voxel (0,0,0) at 0.125
    gives its neighbour (1,0,0) 0.25; the neighbour's TSDF distance becomes 0.2495; then
    the first voxel's becomes 1.  The ESDF update that follows leaves the neighbour at 2
    although its TSDF distance, inside the band, says 0.2495. *)
Definition f_band : list call :=
  [CIntegrate (V3 0 0 0) (f_write (fbits 0x3e000000)); CIntegrate (V3 1 0 0) (f_write (fbits 0x3f000000)); CEsdf true;
   CIntegrate (V3 1 0 0) (f_write (fbits 0x3e7f7cee)); CEsdf true;
   CIntegrate (V3 0 0 0) (f_write (fbits 0x3f800000))].
Theorem C43_band_refuted : exists w1 w2 tv v,
  do_calls f_mc f_ec 50 f_w f_band = Ok w1 /\ stale clears_esdf 2 (V3 0 0 0) f_band /\ do_call f_mc f_ec 50 w1 (CEsdf true) = Ok w2 /\
  vat (w_tsdf w1) (V3 0 0 0, 1%nat) = Some tv /\ vat (es_layer (w_esdf w2)) (V3 0 0 0, 1%nat) = Some v /\
  seen f_ec tv /\ isFixed f_ec (t_distance tv) = true /\ e_fixed v = false /\
  t_distance tv = fbits 0x3e7f7cee /\ e_distance v = fbits 0x40000000.
Proof.
  assert (K : match do_calls f_mc f_ec 50 f_w f_band with
              | Ok w1 => match do_call f_mc f_ec 50 w1 (CEsdf true) with
                         | Ok w2 => match vat (w_tsdf w1) (V3 0 0 0, 1%nat), vat (es_layer (w_esdf w2)) (V3 0 0 0, 1%nat) with
                                    | Some tv, Some v => (negb (flt (t_weight tv) (ec_min_weight f_ec)) && isFixed f_ec (t_distance tv) && negb (e_fixed v) &&
                                         (fword (t_distance tv) =? 0x3e7f7cee)%Z && (fword (e_distance v) =? 0x40000000)%Z)%bool
                                    | _, _ => false end
                         | _ => false end
              | _ => false end = true) by (vm_compute; reflexivity).
  destruct (do_calls f_mc f_ec 50 f_w f_band) as [w1| |] eqn:E1; try discriminate K.
  destruct (do_call f_mc f_ec 50 w1 (CEsdf true)) as [w2| |] eqn:E2; try discriminate K.
  destruct (vat (w_tsdf w1) (V3 0 0 0, 1%nat)) as [tv|] eqn:E3; try discriminate K.
  destruct (vat (es_layer (w_esdf w2)) (V3 0 0 0, 1%nat)) as [v|] eqn:E4; try discriminate K.
  apply andb_prop in K; destruct K as (K & K5); apply andb_prop in K; destruct K as (K & K4); apply andb_prop in K; destruct K as (K & K3);
    apply andb_prop in K; destruct K as (K1 & K2).
  apply negb_true_iff in K1, K3; apply Z.eqb_eq in K4, K5.
  exists w1, w2, tv, v; split; [reflexivity|]; split.
  - exists [CIntegrate (V3 0 0 0) (f_write (fbits 0x3e000000)); CIntegrate (V3 1 0 0) (f_write (fbits 0x3f000000)); CEsdf true;
            CIntegrate (V3 1 0 0) (f_write (fbits 0x3e7f7cee)); CEsdf true], (V3 0 0 0), (f_write (fbits 0x3f800000)), [].
    split; [reflexivity|]; split; [vm_compute; reflexivity | constructor].
  - repeat (split; [first [reflexivity | exact E2 | exact E3 | exact E4 | exact K1 | exact K2 | exact K3]|]).
    split; apply P_Sphere.fword_inj; [rewrite K4 | rewrite K5]; vm_compute; reflexivity.
Qed.
Print Assumptions C43_band_refuted.
