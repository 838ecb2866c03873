(** Properties C10 to C13: map files. *)
From Coq Require Import ZArith List Bool Lia Reals FinFun.
From Coq Require Import Lra.
From Flocq Require Import Core Binary.
From Verif Require Import F32 F32_lemmas F32_err Types Index Index_float Voxel Serialize Serialize_proofs Assoc Assoc_lemmas
  Layer Proto LayerIO LayerIO_proofs.
Import ListNotations.
Open Scope Z_scope.

(** [layer_wf] (LayerIO_proofs.v): sane voxel size, 1..480 voxels per side (2 GB
    protobuf limit), every block with the layer's geometry, the origin of its
    index and one voxel per cell, indices up to 2^20.

    [same_content old new]: the property's notion of "same block". *)
Definition same_content {k} (b b' : Block k) : Prop :=
  b_vps b' = b_vps b /\ b_size b' = b_size b /\ b_origin b' = b_origin b /\
  b_has_data b' = b_has_data b /\ b_voxels b' = b_voxels b.
(** ESDF parents that survive serialization (C08) *)
Definition parents_survive {k} (l : Layer k) : Prop :=
  forall i b, l_get l i = Some b -> map (vox_after k) (b_voxels b) = b_voxels b.

Lemma stored_same : forall k (b : Block k), map (vox_after k) (b_voxels b) = b_voxels b -> same_content b (stored b).
Proof. intros k b H. unfold same_content, stored. cbn. rewrite H. auto 10. Qed.

(** C10. For TSDF, occupancy and intensity layers the third hypothesis holds by
    itself ([C10_no_condition]); for ESDF layers it is needed. *)
Theorem C10_save_load_partial : forall k (l l0 : Layer k) file st multi old,
  layer_wf l -> parents_survive l ->
  l_size l0 = l_size l -> l_vps l0 = l_vps l -> l_blocks l0 = [] ->
  saveToFile l old true = Ok file ->
  exists l', LoadBlocksFromFile file st multi l0 = Some (Ok (true, l')) /\
    l_size l' = l_size l /\ l_vps l' = l_vps l /\
    forall i, match l_get l i, l_get l' i with
              | Some b, Some b' => same_content b b'
              | None, None => True
              | _, _ => False
              end.
Proof.
  intros k l l0 file st multi old WF HP E1 E2 E3 HS. rewrite save_all in HS by auto.
  injection HS as <-. cbn [app]. pose proof WF as (Hs & Hv & ND & Hb & Hl).
  destruct (load_selection k l l0 (l_blocks l) st multi [] (length (layer_bytes l))) as (l' & H & S1 & S2 & G); auto.
  { intros i _. unfold l_get. rewrite E3. reflexivity. }
  rewrite app_nil_r in H. exists l'. split; [exact H|]. repeat split; auto.
  intros i. rewrite G. unfold l_get at 1. destruct (alookup i (l_blocks l)) eqn:A.
  - apply stored_same. apply (HP i). exact A.
  - unfold l_get. rewrite E3. exact I.
Qed.
Print Assumptions C10_save_load_partial.

Theorem C10_no_condition : forall k (l : Layer k), k <> KEsdf -> parents_survive l.
Proof. intros [] l H i b _; try contradiction; apply map_id. Qed.
Print Assumptions C10_no_condition.

Theorem C10_save_LoadLayer_partial : forall k (l : Layer k) file multi old,
  layer_wf l -> parents_survive l -> saveToFile l old true = Ok file ->
  exists l', LoadLayer k file multi = Some (Ok (true, Some l')) /\
    l_size l' = l_size l /\ l_vps l' = l_vps l /\
    forall i, match l_get l i, l_get l' i with
              | Some b, Some b' => same_content b b'
              | None, None => True
              | _, _ => False
              end.
Proof.
  intros k l file multi old WF HP HS. rewrite save_all in HS by auto.
  injection HS as <-. cbn [app]. pose proof WF as (Hs & Hv & ND & Hb & Hl).
  destruct (loadLayer_selection k l (l_blocks l) multi [] (length (layer_bytes l)) None) as (l' & H & S1 & S2 & G); auto.
  rewrite app_nil_r in H. exists l'. split; [exact H|]. repeat split; auto.
  intros i. rewrite G. unfold l_get at 1. destruct (alookup i (l_blocks l)) eqn:A; auto.
  apply stored_same. apply (HP i). exact A.
Qed.
Print Assumptions C10_save_LoadLayer_partial.

(** saving a subset and loading it yields exactly that subset *)
Theorem C10_save_subset : forall k (l l0 : Layer k) file st multi old inc,
  layer_wf l -> parents_survive l ->
  l_size l0 = l_size l -> l_vps l0 = l_vps l -> l_blocks l0 = [] ->
  saveSubsetToFile l old inc false true = Ok file ->
  exists l', LoadBlocksFromFile file st multi l0 = Some (Ok (true, l')) /\
    forall i, match l_get l' i with
              | Some b' => In i inc /\ exists b, l_get l i = Some b /\ same_content b b'
              | None => ~ In i inc \/ l_get l i = None
              end.
Proof.
  intros k l l0 file st multi old inc WF HP E1 E2 E3 HS. rewrite save_shape in HS by auto.
  injection HS as <-. cbn [app]. pose proof WF as (Hs & Hv & ND & Hb & Hl).
  destruct (selected_wf k false inc l WF) as (W1 & W2 & W3 & W4).
  destruct (load_selection k l l0 (selected false inc (l_blocks l)) st multi []
     (length (writeProtoMsgCount (1 + Z.of_nat (length (selected false inc (l_blocks l)))) ++
      writeProtoMsg (lp_fields (layer_getProto l)) ++ write_blocks (selected false inc (l_blocks l))))) as (l' & H & S1 & S2 & G); auto.
  { intros i _. unfold l_get. rewrite E3. reflexivity. }
  rewrite app_nil_r in H. exists l'. split; [exact H|].
  intros i. rewrite G, W4. unfold l_get at 2. rewrite E3. cbn [alookup orb].
  destruct (idx_in i inc) eqn:I1.
  - apply idx_in_spec in I1. destruct (l_get l i) eqn:A; auto. split; auto. exists b; split; auto.
    apply stored_same. apply (HP i). exact A.
  - left. rewrite <- idx_in_spec. congruence.
Qed.
Print Assumptions C10_save_subset.

(** a concrete layer: two blocks of 2^3 TSDF voxels at 10 cm *)
Definition ex_size : f32 := fbits 0x3dcccccd.
Definition ex_block (i : idx3) (h : bool) (d : f32) : Block KTsdf :=
  MkBlock 2 ex_size (new_block_origin 2 ex_size i) h upd_none
    (repeat (MkTsdf d f1 (MkColor 1 2 3 255) : vox KTsdf) 8).
Definition ex_layer : Layer KTsdf :=
  MkLayer ex_size 2 [(V3 0 (-5) 7, ex_block (V3 0 (-5) 7) true nan32);
                     (V3 1 1 1, ex_block (V3 1 1 1) false (fbits 0x80000000))].

Lemma ex_size_sane : sane_size ex_size.
Proof.
  split; [vm_compute; reflexivity|]. unfold ex_size, FR. split.
  - apply Rle_trans with (bpow radix2 (-4)); [apply bpow_le; lia|].
    assert (E : (bpow radix2 (-4) = FR (f32_lit 1 (-4)))%R).
    { destruct (f32_lit_R 1 (-4)) as (E & _). { rewrite rnd32_exact by lia. unfold max32. rewrite Rmult_1_l, Rabs_pos_eq by apply bpow_ge_0. apply bpow_lt; lia. }
      rewrite E, rnd32_exact by lia. ring. }
    rewrite E. apply fle_R; vm_compute; reflexivity.
  - apply Rle_trans with 1%R; [|change 1%R with (bpow radix2 0); apply bpow_le; lia].
    assert (E : (1 = FR f1)%R) by (unfold f1; rewrite (proj1 (f32_of_Z_R 1 ltac:(lia))); reflexivity).
    rewrite E. apply fle_R; vm_compute; reflexivity.
Qed.
Lemma ex_layer_wf : layer_wf ex_layer.
Proof.
  unfold layer_wf, ex_layer. cbn [l_size l_vps l_blocks akeys map fst length].
  split; [apply ex_size_sane|]. split; [lia|]. split.
  { repeat constructor; cbn; intuition discriminate. }
  split; [|lia].
  intros i b [H|[H|[]]]; injection H as <- <-; (split; [repeat split; cbn; lia|]);
    (split; [reflexivity|split; [reflexivity|split; [reflexivity|split; [vm_compute; reflexivity|]]]]);
    apply Forall_forall; intros v Hv; apply repeat_spec in Hv; subst v;
    unfold vox_ok, color_ok, is_byte; cbn; lia.
Qed.
Example C10_example : layer_wf ex_layer /\ parents_survive ex_layer /\
  exists file, saveToFile ex_layer [] true = Ok file /\ length file = 375%nat.
Proof.
  split; [apply ex_layer_wf|]. split; [apply C10_no_condition; discriminate|].
  eexists; split; [vm_compute; reflexivity|vm_compute; reflexivity].
Qed.

Definition ex_esdf : Layer KEsdf :=
  MkLayer ex_size 1 [(V3 0 0 0, MkBlock 1 ex_size (new_block_origin 1 ex_size (V3 0 0 0)) true upd_none
     [MkEsdf f1 true false false false (V3 1 (-1) 0) : vox KEsdf])].
Lemma ex_esdf_wf : layer_wf ex_esdf.
Proof.
  unfold layer_wf, ex_esdf. cbn [l_size l_vps l_blocks akeys map fst length].
  split; [apply ex_size_sane|]. split; [lia|]. split.
  { repeat constructor; cbn; intuition discriminate. }
  split; [|lia].
  intros i b [H|[]]; injection H as <- <-; (split; [repeat split; cbn; lia|]).
  split; [reflexivity|split; [reflexivity|split; [reflexivity|split; [reflexivity|]]]].
  repeat constructor; cbn; unfold is_int32; lia.
Qed.
(** Full C10 fails for an ESDF layer: a diagonal parent is altered (C08). *)
Theorem C10_refuted_esdf : exists (l l0 l' : Layer KEsdf) file i b b',
  saveToFile l [] true = Ok file /\ l_blocks l0 = [] /\
  LoadBlocksFromFile file kProhibit false l0 = Some (Ok (true, l')) /\
  l_get l i = Some b /\ l_get l' i = Some b' /\ b_voxels b' <> b_voxels b.
Proof.
  exists ex_esdf, (MkLayer ex_size 1 []). pose proof ex_esdf_wf as WF.
  pose proof WF as (Hs & Hv & ND & Hb & Hl).
  destruct (load_selection KEsdf ex_esdf (MkLayer ex_size 1 []) (l_blocks ex_esdf) kProhibit false []
     (length (layer_bytes ex_esdf))) as (l' & H & S1 & S2 & G); auto.
  rewrite app_nil_r in H. exists l', (layer_bytes ex_esdf), (V3 0 0 0). eexists. eexists.
  split; [apply save_all, WF|]. split; [reflexivity|]. split; [exact H|]. split; [reflexivity|].
  split; [rewrite G; reflexivity|]. discriminate.
Qed.
Print Assumptions C10_refuted_esdf.

(** C11: loading a proper prefix of a saved file (into any layer) never returns
    true; it returns false or aborts. The second theorem is the other loader. *)
Theorem C11_truncated_never_loads : forall k k0 (l : Layer k0) (target : Layer k) old file p q st multi,
  layer_wf l -> 1 <= l_vps target <= 480 ->
  saveToFile l old true = Ok file -> file = p ++ q -> q <> [] ->
  exists r, LoadBlocksFromFile p st multi target = Some r /\ forall l', r <> Ok (true, l').
Proof.
  intros k k0 l target old file p q st multi WF Hv HS E N. rewrite save_all in HS by auto.
  injection HS as <-. cbn [app] in E. apply (truncated_layer k k0 l target st multi p q); auto.
Qed.
Print Assumptions C11_truncated_never_loads.

Theorem C11_truncated_never_loads_layer : forall k k0 (l : Layer k0) old file p q multi,
  layer_wf l -> saveToFile l old true = Ok file -> file = p ++ q -> q <> [] ->
  exists r, LoadLayer k p multi = Some r /\ forall l', r <> Ok (true, l').
Proof.
  intros k k0 l old file p q multi WF HS E N. rewrite save_all in HS by auto.
  injection HS as <-. cbn [app] in E. apply (truncated_layer2 k k0 l None multi p q); auto.
Qed.
Print Assumptions C11_truncated_never_loads_layer.

(** loading terminates on every byte sequence *)
Theorem C11_load_terminates : forall k file st multi (l : Layer k),
  exists r, LoadBlocksFromFile file st multi l = Some r.
Proof. intros. apply load_terminates. lia. Qed.
Print Assumptions C11_load_terminates.

(** the call returned false *)
Definition returns_false {A} (r : option (res (bool * A))) : bool :=
  match r with Some (Ok (false, _)) => true | _ => false end.
(** cut inside the second block, at a field boundary: the word count is wrong
    and the process aborts; cut inside a varint: false *)
Example C11_example : exists file,
  saveToFile ex_layer [] true = Ok file /\
  LoadBlocksFromFile (firstn 370 file) kProhibit false (MkLayer ex_size 2 [] : Layer KTsdf) = Some Abort /\
  returns_false (LoadBlocksFromFile (firstn 371 file) kProhibit false (MkLayer ex_size 2 [] : Layer KTsdf)) = true.
Proof.
  eexists; split; [vm_compute; reflexivity|]. split; vm_compute; reflexivity.
Qed.

(** C12. Several layers appended to one file; [pre] are the layers before the
    first compatible one. The hypothesis on the length is needed, see below. *)
Theorem C12_finds_layer_partial : forall k (l l0 : Layer k) st pre post file,
  Forall (fun a => layer_wf (projT2 a)) (pre ++ existT _ k l :: post) ->
  save_list (pre ++ existT _ k l :: post) [] = Ok file ->
  Forall (fun a => isCompatible_layer l0 (layer_getProto (projT2 a)) = false) pre ->
  l_size l0 = l_size l -> l_vps l0 = l_vps l -> l_blocks l0 = [] -> parents_survive l ->
  8192 <= Z.of_nat (length (flat_map any_bytes (existT _ k l :: post))) ->
  exists l', LoadBlocksFromFile file st true l0 = Some (Ok (true, l')) /\
    forall i, match l_get l i, l_get l' i with
              | Some b, Some b' => same_content b b'
              | None, None => True
              | _, _ => False
              end.
Proof.
  intros k l l0 st pre post file WF HS HN E1 E2 E3 HP HC.
  rewrite save_list_bytes in HS by auto. injection HS as <-. cbn [app].
  apply Forall_app in WF. destruct WF as [W1 W2]. inversion W2 as [|? ? WL W3]; subst. cbn [projT2] in WL.
  rewrite flat_map_app. cbn [flat_map] in *. change (any_bytes (existT _ k l)) with (layer_bytes l) in *.
  destruct (load_among k l l0 st pre post) as (l' & H & S1 & S2 & G); auto.
  { rewrite Forall_forall in *. intros a Ha. split; auto. unfold compatible. rewrite HN by auto. discriminate. }
  { intros i _. unfold l_get. rewrite E3. reflexivity. }
  exists l'. split; [exact H|]. intros i. rewrite G. destruct (l_get l i) eqn:A.
  - apply stored_same. apply (HP i). exact A.
  - unfold l_get. rewrite E3. exact I.
Qed.
Print Assumptions C12_finds_layer_partial.

Theorem C12_LoadLayer_finds_layer_partial : forall k (l : Layer k) pre post file,
  Forall (fun a => layer_wf (projT2 a)) (pre ++ existT _ k l :: post) ->
  save_list (pre ++ existT _ k l :: post) [] = Ok file ->
  Forall (fun a => projT1 a <> k) pre -> parents_survive l ->
  8192 <= Z.of_nat (length (flat_map any_bytes (existT _ k l :: post))) ->
  exists l', LoadLayer k file true = Some (Ok (true, Some l')) /\
    l_size l' = l_size l /\ l_vps l' = l_vps l /\
    forall i, match l_get l i, l_get l' i with
              | Some b, Some b' => same_content b b'
              | None, None => True
              | _, _ => False
              end.
Proof.
  intros k l pre post file WF HS HN HP HC.
  rewrite save_list_bytes in HS by auto. injection HS as <-. cbn [app].
  apply Forall_app in WF. destruct WF as [W1 W2]. inversion W2 as [|? ? WL W3]; subst. cbn [projT2] in WL.
  rewrite flat_map_app. cbn [flat_map] in *. change (any_bytes (existT _ k l)) with (layer_bytes l) in *.
  destruct (loadLayer_among k l pre post) as (l' & H & S1 & S2 & G); auto.
  { rewrite Forall_forall in *. intros a Ha. split; auto. }
  exists l'. split; [exact H|]. repeat split; auto. intros i. rewrite G. destruct (l_get l i) eqn:A; auto.
  apply stored_same. apply (HP i). exact A.
Qed.
Print Assumptions C12_LoadLayer_finds_layer_partial.

(** Full C12 is false: when what follows the skipped layer is smaller than the
    reader's 8 kB buffer, reading the skipped layer already raises the stream's
    end-of-file flag, the search loop stops and loading reports failure. *)
Theorem C12_refuted_small_file : exists file,
  save_list [existT _ KOcc (MkLayer ex_size 2 [] : Layer KOcc); existT _ KTsdf ex_layer] [] = Ok file /\
  returns_false (LoadBlocksFromFile file kProhibit true (MkLayer ex_size 2 [] : Layer KTsdf)) = true.
Proof. eexists. split; [vm_compute; reflexivity|]. vm_compute; reflexivity. Qed.
Print Assumptions C12_refuted_small_file.

(** a file with an occupancy layer before a TSDF layer with 60 blocks of 8 voxels *)
Definition ex_big : Layer KTsdf :=
  MkLayer ex_size 2 (map (fun n => (V3 (Z.of_nat n) 0 0, ex_block (V3 (Z.of_nat n) 0 0) true f1)) (seq 0 60)).
Lemma ex_big_wf : layer_wf ex_big.
Proof.
  unfold layer_wf, ex_big. cbn [l_size l_vps l_blocks].
  split; [apply ex_size_sane|]. split; [lia|]. split.
  { unfold akeys. rewrite map_map. cbn [fst]. apply Injective_map_NoDup; [|apply seq_NoDup].
    intros a b H. injection H as H. lia. }
  split; [|rewrite map_length, seq_length; cbn; lia].
  intros i b H. apply in_map_iff in H. destruct H as (n & H & Hn). apply in_seq in Hn.
  injection H as <- <-. split; [repeat split; cbn [vx vy vz]; lia|].
  split; [reflexivity|split; [reflexivity|split; [reflexivity|split; [vm_compute; reflexivity|]]]].
  apply Forall_forall; intros v Hv; apply repeat_spec in Hv; subst v;
    unfold vox_ok, color_ok, is_byte; cbn; lia.
Qed.
Example C12_example :
  let occ := existT _ KOcc (MkLayer ex_size 2 [] : Layer KOcc) : any_layer in
  let big := existT _ KTsdf ex_big : any_layer in
  Forall (fun a => layer_wf (projT2 a)) ([occ] ++ [big]) /\
  Forall (fun a => isCompatible_layer (MkLayer ex_size 2 [] : Layer KTsdf) (layer_getProto (projT2 a)) = false) [occ] /\
  8192 <= Z.of_nat (length (flat_map any_bytes [big])).
Proof.
  split; [|split].
  - apply Forall_cons; [|apply Forall_cons; [apply ex_big_wf|constructor]].
    unfold layer_wf; cbn [projT2 l_size l_vps l_blocks akeys map length].
    split; [apply ex_size_sane|]. split; [lia|]. split; [constructor|]. split; [intros i b []|lia].
  - repeat constructor.
  - vm_compute. discriminate.
Qed.

(** C13. [b] is the block stored in the message, [i] its index. *)
Theorem C13_prohibit : forall k (l : Layer k) p b i,
  isCompatible_block l p = true -> block_of_proto k p = Ok b ->
  getGridIndexFromOriginPoint (b_origin b) (inv_of (l_block_size l)) = Some i ->
  match l_get l i with
  | Some _ => addBlockFromProto l p kProhibit = Abort
  | None => exists l', addBlockFromProto l p kProhibit = Ok (true, l') /\
      l_get l' i = Some (set_updated upd_all b) /\
      (forall j, j <> i -> l_get l' j = l_get l j) /\ l_size l' = l_size l /\ l_vps l' = l_vps l
  end.
Proof.
  intros k l p b i C B I. unfold addBlockFromProto. rewrite C, B. cbn [rbind]. rewrite I. cbn [of_opt rbind].
  destruct (l_get l i) eqn:G; [reflexivity|]. cbn [rbind]. eexists; split; [reflexivity|].
  unfold l_get, mark_updated. cbn [with_blocks l_blocks l_size l_vps]. rewrite alookup_aset, idx_eqb_refl. split; [|split; [|auto]].
  - rewrite alookup_aset, idx_eqb_refl. reflexivity.
  - intros j N. rewrite !alookup_aset, idx_eqb_neq by auto. reflexivity.
Qed.
Print Assumptions C13_prohibit.

Theorem C13_replace : forall k (l : Layer k) p b i,
  isCompatible_block l p = true -> block_of_proto k p = Ok b ->
  getGridIndexFromOriginPoint (b_origin b) (inv_of (l_block_size l)) = Some i ->
  exists l', addBlockFromProto l p kReplace = Ok (true, l') /\
      l_get l' i = Some (set_updated upd_all b) /\
      (forall j, j <> i -> l_get l' j = l_get l j) /\ l_size l' = l_size l /\ l_vps l' = l_vps l.
Proof.
  intros k l p b i C B I. unfold addBlockFromProto. rewrite C, B. cbn [rbind]. rewrite I. cbn [of_opt rbind].
  eexists; split; [reflexivity|].
  unfold l_get, mark_updated. cbn [with_blocks l_blocks l_size l_vps]. rewrite alookup_aset, idx_eqb_refl. split; [|split; [|auto]].
  - rewrite alookup_aset, idx_eqb_refl. reflexivity.
  - intros j N. rewrite !alookup_aset, idx_eqb_neq by auto. reflexivity.
Qed.
Print Assumptions C13_replace.

Theorem C13_discard : forall k (l : Layer k) p b i,
  isCompatible_block l p = true -> block_of_proto k p = Ok b ->
  getGridIndexFromOriginPoint (b_origin b) (inv_of (l_block_size l)) = Some i ->
  exists l', addBlockFromProto l p kDiscard = Ok (true, l') /\
      l_get l' i = Some (set_updated upd_all (match l_get l i with Some old => old | None => b end)) /\
      (forall j, j <> i -> l_get l' j = l_get l j) /\ l_size l' = l_size l /\ l_vps l' = l_vps l.
Proof.
  intros k l p b i C B I. unfold addBlockFromProto. rewrite C, B. cbn [rbind]. rewrite I. cbn [of_opt rbind].
  eexists; split; [reflexivity|].
  unfold l_get, mark_updated. cbn [with_blocks l_blocks l_size l_vps].
  assert (A : alookup i (ainsert i b (l_blocks l)) = Some (match alookup i (l_blocks l) with Some o => o | None => b end)).
  { rewrite alookup_ainsert, idx_eqb_refl. destruct (alookup i (l_blocks l)); reflexivity. }
  rewrite A. split; [|split; [|auto]].
  - rewrite alookup_aset, idx_eqb_refl. reflexivity.
  - intros j N. rewrite !alookup_aset, alookup_ainsert, idx_eqb_neq by auto. destruct (alookup j (l_blocks l)); reflexivity.
Qed.
Print Assumptions C13_discard.

(** with kMerge the result at [i] is [mergeBlock] of the two, which is specified
    by C13_merge_voxels below *)
Theorem C13_merge : forall k (l : Layer k) p b i,
  isCompatible_block l p = true -> block_of_proto k p = Ok b ->
  getGridIndexFromOriginPoint (b_origin b) (inv_of (l_block_size l)) = Some i ->
  match l_get l i with
  | None => exists l', addBlockFromProto l p kMerge = Ok (true, l') /\
      l_get l' i = Some (set_updated upd_all b) /\
      (forall j, j <> i -> l_get l' j = l_get l j)
  | Some old => forall nb, mergeBlock old b = Ok nb ->
      exists l', addBlockFromProto l p kMerge = Ok (true, l') /\
      l_get l' i = Some (set_updated upd_all nb) /\
      (forall j, j <> i -> l_get l' j = l_get l j)
  end.
Proof.
  intros k l p b i C B I. unfold addBlockFromProto. rewrite C, B. cbn [rbind]. rewrite I. cbn [of_opt rbind].
  destruct (l_get l i) as [old|] eqn:G.
  - intros nb M. rewrite M. cbn [rbind]. eexists; split; [reflexivity|].
    unfold l_get, mark_updated. cbn [with_blocks l_blocks l_size l_vps]. rewrite alookup_aset, idx_eqb_refl. split.
    + rewrite alookup_aset, idx_eqb_refl. reflexivity.
    + intros j N. rewrite !alookup_aset, idx_eqb_neq by auto. reflexivity.
  - cbn [rbind]. eexists; split; [reflexivity|].
    unfold l_get, mark_updated. cbn [with_blocks l_blocks l_size l_vps]. rewrite alookup_aset, idx_eqb_refl. split.
    + rewrite alookup_aset, idx_eqb_refl. reflexivity.
    + intros j N. rewrite !alookup_aset, idx_eqb_neq by auto. reflexivity.
Qed.
Print Assumptions C13_merge.

(** merging a block with data merges each voxel; a block whose has_data flag is
    not set is ignored *)
Theorem C13_merge_voxels : forall k (this other nb : Block k), mergeBlock this other = Ok nb ->
  b_size nb = b_size this /\ b_vps nb = b_vps this /\ b_origin nb = b_origin this /\
  if b_has_data other then
    b_has_data nb = true /\ b_updated nb = upd_all /\
    length (b_voxels nb) = length (b_voxels this) /\
    (forall n v, nth_error (b_voxels nb) n = Some v ->
       exists a b, nth_error (b_voxels other) n = Some a /\ nth_error (b_voxels this) n = Some b /\
         merge_vox k a b = Some v)
  else nb = this.
Proof.
  intros k this other nb H. unfold mergeBlock in H. destruct (_ && _); [|discriminate].
  destruct (b_has_data other); cbn [negb] in H; [|injection H as <-; auto].
  destruct (merge_voxels k (b_voxels other) (b_voxels this)) as [vs|] eqn:M; [|discriminate].
  injection H as <-. cbn [set_voxels set_updated set_has_data b_size b_vps b_origin b_has_data b_updated b_voxels].
  repeat (split; [reflexivity|]).
  revert M. generalize (b_voxels other), (b_voxels this). intros A B. revert B vs.
  induction A as [|x A IH]; intros [|y B] vs M; cbn [merge_voxels] in M; try discriminate.
  - injection M as <-. split; [reflexivity|]. intros [|n] v E; discriminate.
  - destruct (merge_vox k x y) as [z|] eqn:Z1; [|discriminate].
    destruct (merge_voxels k A B) as [c|] eqn:Z2; [|discriminate]. injection M as <-.
    destruct (IH B c Z2) as [L Hn]. split; [cbn; lia|].
    intros [|n] v E; cbn [nth_error] in *.
    + injection E as <-. eauto.
    + apply Hn; auto.
Qed.
Print Assumptions C13_merge_voxels.

Theorem C13_incompatible : forall k (l : Layer k) p st,
  isCompatible_block l p = false -> addBlockFromProto l p st = Ok (false, l).
Proof. intros k l p st H. unfold addBlockFromProto. rewrite H. reflexivity. Qed.
Print Assumptions C13_incompatible.

Example C13_example : let p := block_getProto (ex_block (V3 1 1 1) true f1) in
  isCompatible_block ex_layer p = true /\
  rbind (block_of_proto KTsdf p) (fun b => of_opt (getGridIndexFromOriginPoint (b_origin b) (inv_of (l_block_size ex_layer)))) = Ok (V3 1 1 1) /\
  addBlockFromProto ex_layer p kProhibit = Abort /\
  isCompatible_block (MkLayer f1 2 [] : Layer KTsdf) p = false.
Proof.
  split; [vm_compute; reflexivity|]. split; [vm_compute; reflexivity|].
  split; vm_compute; reflexivity.
Qed.
(** What "compatible" means: the stored voxel size differs by less than the float epsilon
    2^-23 (up to one rounding of the difference), the voxels per side are equal. *)
Lemma eps_pow : DR d_eps32 = bpow radix2 (-23) /\ dfin d_eps32 = true.
Proof. split; [|reflexivity]. change (DR d_eps32) with (IZR 4503599627370496 * bpow radix2 (-75))%R. change (IZR 4503599627370496) with (bpow radix2 52). rewrite <- bpow_plus. reflexivity. Qed.
Lemma gap_ok : forall v s, dfin v = true -> ffin s = true -> (Rabs (DR v) <= bpow radix2 1000)%R ->
  let g := dabs (dsub v (f64_of_f32 s)) in
  dfin g = true /\ DR g = Rabs (rnd64 (DR v - FR s)).
Proof.
  intros v s Fv Fs B g. destruct (f64_of_f32_R s Fs) as (E & F). pose proof (FR_lt_max s) as M.
  assert (MB : (max32 <= bpow radix2 128)%R) by (unfold max32; apply Rle_refl).
  destruct (dsub_R v (f64_of_f32 s) Fv F) as (E2 & F2).
  { rewrite E. apply rnd64_small. unfold Rminus. eapply Rle_trans; [apply Rabs_triang|]. rewrite Rabs_Ropp.
    apply Rle_trans with (bpow radix2 1000 + bpow radix2 1000)%R; [apply Rplus_le_compat; [exact B|]; apply Rle_trans with (bpow radix2 128); [lra|apply bpow_le; lia]|].
    replace (bpow radix2 1000 + bpow radix2 1000)%R with (bpow radix2 1001); [apply bpow_le; lia|]. change 1001 with (1 + 1000). rewrite bpow_plus. change (bpow radix2 1) with 2%R. lra. }
  rewrite E in E2. unfold g. split; [rewrite <- F2; apply (is_finite_Babs 53 1024)|]. rewrite <- E2. apply (B2R_Babs 53 1024).
Qed.
Theorem C13_compatible : forall k (l : Layer k) p, dfin (bp_voxel_size p) = true -> ffin (l_size l) = true ->
  (Rabs (DR (bp_voxel_size p)) <= bpow radix2 1000)%R -> 0 <= l_vps l < 2 ^ 31 ->
  let gap := Rabs (DR (bp_voxel_size p) - FR (l_size l)) in
  (isCompatible_block l p = true -> (gap < bpow radix2 (-23))%R /\ bp_vps p = l_vps l) /\
  ((gap <= bpow radix2 (-24))%R -> bp_vps p = l_vps l -> isCompatible_block l p = true).
Proof.
  intros k l p Fv Fs B V gap. destruct (gap_ok _ _ Fv Fs B) as (Fg & Eg). destruct eps_pow as (Ee & Fe).
  assert (W : wrap32 (l_vps l) = l_vps l) by (unfold wrap32; rewrite Z.mod_small; lia).
  assert (X : forall e, (-1000 <= e <= 1000)%Z -> rnd64 (bpow radix2 e) = bpow radix2 e).
  { intros e H. rewrite <- (Rmult_1_l (bpow radix2 e)). apply (rnd64_exact 1 e); lia. }
  unfold isCompatible_block. rewrite W. split.
  - intros H. apply andb_true_iff in H. destruct H as (H1 & H2). apply Z.eqb_eq in H2. split; [|exact H2].
    apply dlt_R in H1; [|exact Fg|exact Fe]. rewrite Eg, Ee in H1. apply Rnot_le_lt. intros N.
    apply rnd64_le in N. rewrite X in N by lia. unfold gap in N. rewrite <- rnd64_abs in H1. lra.
  - intros G E. rewrite E, Z.eqb_refl, andb_true_r. apply dlt_R; [exact Fg|exact Fe|]. rewrite Eg, Ee, <- rnd64_abs.
    apply rnd64_le in G. rewrite X in G by lia. apply Rle_lt_trans with (bpow radix2 (-24)); [exact G|apply bpow_lt; lia].
Qed.
Print Assumptions C13_compatible.
