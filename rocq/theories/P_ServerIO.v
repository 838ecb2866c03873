(** Property C90: the map files of a server. *)
From Coq Require Import ZArith List Bool Lia Reals FinFun.
From Flocq Require Import Core.
From Verif Require Import F32 F32_lemmas Types Index Index_float Voxel Serialize Serialize_proofs Assoc Assoc_lemmas
  Layer Proto LayerIO LayerIO_proofs ServerIO ServerIO_spec ServerIO_proofs P_LayerIO.
Import ListNotations.
Open Scope Z_scope.

Lemma kinds_differ : forall (e0 : Layer KEsdf) (t : Layer KTsdf), isCompatible_layer e0 (layer_getProto t) = false.
Proof.
  intros. unfold isCompatible_layer. cbn [layer_getProto lp_type].
  replace (bytes_eqb (type_bytes KEsdf) (type_bytes KTsdf)) with false by reflexivity. apply andb_false_r.
Qed.
Lemma restored_of : forall k (l l0 l' : Layer k), parents_survive l ->
  l_size l' = l_size l -> l_vps l' = l_vps l ->
  (forall j, l_get l' j = match l_get l j with Some b => Some (stored b) | None => l_get l0 j end) ->
  restored l l0 l'.
Proof.
  intros k l l0 l' HP S1 S2 G. split; [exact S1|]. split; [exact S2|]. intros i. rewrite G.
  destruct (l_get l i) as [b|] eqn:A; [|reflexivity].
  exists (stored b). split; [reflexivity|]. apply stored_same. apply (HP i). exact A.
Qed.

(** C90. Whatever the file and the loading server hold beforehand, [loadMap] of a TSDF
    server gives back every saved block and leaves the blocks at other places alone. *)
Theorem C90_tsdf : forall (l l0 : Layer KTsdf) old, layer_wf l -> same_grid l l0 ->
  exists file l', TsdfServer_saveMap l old = Ok file /\
    TsdfServer_loadMap file l0 = Some (Ok (true, l')) /\ restored l l0 l'.
Proof.
  intros l l0 old WF (E1 & E2). unfold TsdfServer_saveMap, TsdfServer_loadMap.
  destruct (replace_first KTsdf l l0 true [] (length (layer_bytes l)) WF E1 E2) as (l' & H & S1 & S2 & G).
  rewrite app_nil_r in H. exists (layer_bytes l), l'. split; [rewrite save_all by auto; reflexivity|].
  split; [exact H|]. apply restored_of; auto. apply C10_no_condition. discriminate.
Qed.
Print Assumptions C90_tsdf.

(** An ESDF server restores both maps when the ESDF takes at least 8192 bytes in the
    file and its parents are ones C08 preserves. *)
Theorem C90_esdf_partial : forall (s s0 : EsdfServer) old,
  layer_wf (s_tsdf s) -> layer_wf (s_esdf s) ->
  same_grid (s_tsdf s) (s_tsdf s0) -> same_grid (s_esdf s) (s_esdf s0) ->
  parents_survive (s_esdf s) -> 8192 <= Z.of_nat (length (layer_bytes (s_esdf s))) ->
  exists file s', EsdfServer_saveMap s old = Ok file /\
    EsdfServer_loadMap file s0 = Some (Ok (true, s')) /\
    restored (s_tsdf s) (s_tsdf s0) (s_tsdf s') /\ restored (s_esdf s) (s_esdf s0) (s_esdf s').
Proof.
  intros [t e] [t0 e0] old WT WE (E1 & E2) (E3 & E4) HP HC. cbn [s_tsdf s_esdf] in *.
  destruct (replace_first KTsdf t t0 true (layer_bytes e) (length (layer_bytes t ++ layer_bytes e)) WT E1 E2)
    as (t' & H1 & S1 & S2 & G1).
  destruct (replace_among KEsdf e e0 [existT _ KTsdf t]) as (e' & H2 & S3 & S4 & G2); auto.
  { constructor; [|constructor]. split; [exact WT|]. unfold compatible. cbn [projT2]. rewrite kinds_differ. discriminate. }
  cbn [flat_map] in H2. rewrite app_nil_r in H2. change (any_bytes (existT _ KTsdf t)) with (layer_bytes t) in H2.
  exists (layer_bytes t ++ layer_bytes e), (MkServer t' e').
  split; [|split; [|split]].
  - unfold EsdfServer_saveMap, TsdfServer_saveMap. cbn [s_tsdf s_esdf]. rewrite save_all by auto. cbn [rbind app].
    rewrite save_all by auto. reflexivity.
  - unfold EsdfServer_loadMap, TsdfServer_loadMap. cbn [s_tsdf s_esdf].
    unfold LoadBlocksFromFile at 1. rewrite H1, H2. reflexivity.
  - cbn [s_tsdf]. apply restored_of; auto. apply C10_no_condition. discriminate.
  - cbn [s_esdf]. apply restored_of; auto.
Qed.
Print Assumptions C90_esdf_partial.

(** What the loading ESDF server answers when it fails: the TSDF is loaded all the same. *)
Theorem C90_tsdf_first : forall (s s0 s' : EsdfServer) old file ok,
  layer_wf (s_tsdf s) -> layer_wf (s_esdf s) -> same_grid (s_tsdf s) (s_tsdf s0) ->
  EsdfServer_saveMap s old = Ok file -> EsdfServer_loadMap file s0 = Some (Ok (ok, s')) ->
  restored (s_tsdf s) (s_tsdf s0) (s_tsdf s').
Proof.
  intros [t e] [t0 e0] s' old file ok WT WE (E1 & E2) SV LD. cbn [s_tsdf s_esdf] in *.
  unfold EsdfServer_saveMap, TsdfServer_saveMap in SV. cbn [s_tsdf s_esdf] in SV.
  rewrite save_all in SV by auto. cbn [rbind app] in SV. rewrite save_all in SV by auto. injection SV as <-.
  destruct (replace_first KTsdf t t0 true (layer_bytes e) (length (layer_bytes t ++ layer_bytes e)) WT E1 E2)
    as (t' & H1 & S1 & S2 & G1).
  unfold EsdfServer_loadMap, TsdfServer_loadMap in LD. cbn [s_tsdf s_esdf] in LD.
  unfold LoadBlocksFromFile at 1 in LD. cbn [app] in LD. rewrite H1 in LD.
  destruct (LoadBlocksFromFile (layer_bytes t ++ layer_bytes e) kReplace true e0) as [[[o e']| |]|]; try discriminate LD.
  assert (s' = MkServer t' e') as -> by congruence. cbn [s_tsdf].
  apply restored_of; auto. apply C10_no_condition. discriminate.
Qed.
Print Assumptions C90_tsdf_first.

(** Full C90 is false: [loadMap] of a small map, just saved by the same server, fails and
    leaves the ESDF empty, because skipping the TSDF layer already reaches the end of
    the file's only chunk (C12). *)
Theorem C90_small_refuted : exists (s s0 s' : EsdfServer) file,
  layer_wf (s_tsdf s) /\ layer_wf (s_esdf s) /\ same_grid (s_tsdf s) (s_tsdf s0) /\ same_grid (s_esdf s) (s_esdf s0) /\
  l_blocks (s_esdf s) <> [] /\
  EsdfServer_saveMap s [] = Ok file /\ EsdfServer_loadMap file s0 = Some (Ok (false, s')) /\ l_blocks (s_esdf s') = [].
Proof.
  exists (MkServer ex_layer ex_esdf), (MkServer (MkLayer ex_size 2 []) (MkLayer ex_size 1 [])).
  assert (match EsdfServer_saveMap (MkServer ex_layer ex_esdf) [] with
          | Ok f => match EsdfServer_loadMap f (MkServer (MkLayer ex_size 2 []) (MkLayer ex_size 1 [])) with
                    | Some (Ok (false, s')) => l_blocks (s_esdf s') = []
                    | _ => False end
          | _ => False end) as A by (vm_compute; reflexivity).
  destruct (EsdfServer_saveMap (MkServer ex_layer ex_esdf) []) as [f| |] eqn:E1; try contradiction.
  destruct (EsdfServer_loadMap f _) as [[[[|] s']| |]|] eqn:E2; try contradiction.
  exists s', f. cbn [s_tsdf s_esdf]. split; [apply ex_layer_wf|]. split; [apply ex_esdf_wf|].
  split; [split; reflexivity|]. split; [split; reflexivity|]. split; [intros H; discriminate H|].
  split; [reflexivity|]. split; [exact E2|exact A].
Qed.
Print Assumptions C90_small_refuted.

(** an ESDF of 300 blocks, whose parents point one voxel up, takes more than 8192 bytes *)
Definition big_esdf : Layer KEsdf :=
  MkLayer ex_size 1 (map (fun n => (V3 (Z.of_nat n) 0 0,
     MkBlock 1 ex_size (new_block_origin 1 ex_size (V3 (Z.of_nat n) 0 0)) true upd_none
       [MkEsdf f1 true false false false (V3 0 0 1) : vox KEsdf])) (seq 0 300)).
Lemma big_esdf_wf : layer_wf big_esdf.
Proof.
  unfold layer_wf, big_esdf. cbn [l_size l_vps l_blocks].
  split; [apply ex_size_sane|]. split; [lia|]. split.
  { unfold akeys. rewrite map_map. cbn [fst]. apply Injective_map_NoDup; [|apply seq_NoDup].
    intros a b H. injection H as H. lia. }
  split; [|rewrite map_length, seq_length; cbn; lia].
  intros i b H. apply in_map_iff in H. destruct H as (n & H & Hn). apply in_seq in Hn.
  injection H as <- <-. split; [repeat split; cbn [vx vy vz]; lia|].
  split; [reflexivity|split; [reflexivity|split; [reflexivity|split; [reflexivity|]]]].
  repeat constructor; cbn; unfold is_int32; lia.
Qed.
Example C90_case : layer_wf ex_layer /\ layer_wf big_esdf /\ parents_survive big_esdf /\
  8192 <= Z.of_nat (length (layer_bytes big_esdf)) /\
  same_grid ex_layer ex_layer /\ l_blocks ex_layer <> [].
Proof.
  split; [apply ex_layer_wf|]. split; [apply big_esdf_wf|]. split; [|split; [|split; [split; reflexivity|intros H; discriminate H]]].
  - intros i b H. unfold l_get in H. apply alookup_In in H. unfold big_esdf in H. cbn [l_blocks] in H.
    apply in_map_iff in H. destruct H as (n & H & _). assert (b = snd (i, b)) as -> by reflexivity. rewrite <- H.
    cbn [snd b_voxels]. vm_compute. reflexivity.
  - vm_compute. intros H; discriminate H.
Qed.
