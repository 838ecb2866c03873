(** Loading with replacement into a layer that may have blocks. *)
From Coq Require Import ZArith List Bool Lia Reals.
From Flocq Require Import Core.
From Verif Require Import F32 F32_lemmas Types Index Index_proofs Index_float Voxel Serialize Serialize_proofs
  Assoc Assoc_lemmas Layer Proto Proto_proofs LayerIO LayerIO_proofs.
Import ListNotations.
Open Scope Z_scope.

Lemma add_replace : forall k (l : Layer k) b i, sane_size (l_size l) -> 1 <= l_vps l <= 480 ->
  all3 (fun c => Z.abs c <= 2 ^ 20) i -> block_wf (l_size l) (l_vps l) i b ->
  exists m, addBlockFromProto l (block_getProto b) kReplace = Ok (true, with_blocks l m) /\
    forall j, alookup j m = if idx_eqb j i then Some (stored b) else l_get l j.
Proof.
  intros k l b i Hs Hv Hi Hb. pose proof Hb as (E1 & E2 & E3 & E4 & E5).
  unfold addBlockFromProto. rewrite compat_block by auto.
  rewrite (block_of_stored k b (l_size l) (l_vps l) i) by auto. cbn [rbind b_origin].
  unfold l_block_size. rewrite block_index_back by auto. cbn [of_opt rbind].
  set (nb := MkBlock _ _ _ _ _ _).
  assert (S : set_updated upd_all nb = stored b).
  { unfold nb, stored, set_updated, set_voxels; cbn. rewrite E1, E2, E3. reflexivity. }
  eexists. split; [reflexivity|].
  intros j. unfold mark_updated. rewrite alookup_aset, idx_eqb_refl, !alookup_aset, S.
  destruct (idx_eqb_spec j i) as [->|]; reflexivity.
Qed.

Lemma replace_stream : forall k (m : amap (Block k)) (l : Layer k) r,
  sane_size (l_size l) -> 1 <= l_vps l <= 480 -> blocks_wf (l_size l) (l_vps l) m ->
  NoDup (akeys m) ->
  exists l', loadBlocks (length m) kReplace (write_blocks m ++ r) l = Ok (true, r, l') /\
    l_size l' = l_size l /\ l_vps l' = l_vps l /\
    forall j, l_get l' j = match alookup j m with Some b => Some (stored b) | None => l_get l j end.
Proof.
  induction m as [|[i b] m IH]; intros l r Hs Hv Hwf ND.
  - exists l. cbn. auto.
  - destruct (Hwf i b ltac:(left; auto)) as (Hi & Hb).
    destruct (block_proto_ok _ _ _ _ _ Hv Hb) as (OK & NE & MOK).
    cbn [length loadBlocks].
    change (write_blocks ((i, b) :: m)) with (writeProtoMsg (bp_fields (block_getProto b)) ++ write_blocks m).
    rewrite <- app_assoc.
    destruct (read_write_msg _ (write_blocks m ++ r) MOK) as (eof & -> & _).
    rewrite bp_back by auto.
    destruct (add_replace k l b i Hs Hv Hi Hb) as (m1 & -> & Hm1).
    cbn [rbind]. inversion ND as [|? ? NI ND']; subst.
    destruct (IH (with_blocks l m1) r) as (l' & -> & S1 & S2 & G); auto.
    { intros j c HI. apply Hwf. right; auto. }
    exists l'. repeat split; auto. intros j. rewrite G. cbn [alookup].
    unfold l_get at 1. cbn [with_blocks l_blocks]. rewrite Hm1.
    destruct (idx_eqb_spec j i) as [->|]; auto.
    replace (alookup i m) with (@None (Block k)); auto. symmetry. apply alookup_None. auto.
Qed.

Lemma replace_first : forall k (l l0 : Layer k) multi r fuel, layer_wf l ->
  l_size l0 = l_size l -> l_vps l0 = l_vps l ->
  exists l', loadLoop (S fuel) kReplace multi (layer_bytes l ++ r) l0 = Some (Ok (true, l')) /\
    l_size l' = l_size l /\ l_vps l' = l_vps l /\
    forall j, l_get l' j = match l_get l j with Some b => Some (stored b) | None => l_get l0 j end.
Proof.
  intros k l l0 multi r fuel (Hs & Hv & ND & Hb & Hl) E1 E2. unfold layer_bytes. rewrite <- !app_assoc.
  cbn [loadLoop]. rewrite count_back by lia.
  destruct (Z.eqb_spec (1 + Z.of_nat (length (l_blocks l))) 0); [lia|].
  destruct (read_write_msg _ (write_blocks (l_blocks l) ++ r) (lp_msg_ok _ (layer_proto_ok k l Hv))) as (eof & -> & _).
  rewrite lp_back by (apply layer_proto_ok; auto).
  rewrite compat_layer by auto.
  replace (Z.to_nat (1 + Z.of_nat (length (l_blocks l)) - 1)) with (length (l_blocks l)) by lia.
  destruct (replace_stream k (l_blocks l) l0 r) as (l' & -> & S1 & S2 & G); rewrite ?E1, ?E2; auto.
  cbn [rbind]. exists l'. rewrite S1, S2. auto.
Qed.

Lemma replace_among : forall k (l l0 : Layer k) pre,
  Forall (fun a : any_layer => layer_wf (projT2 a) /\ ~ compatible l0 (projT2 a)) pre ->
  layer_wf l -> l_size l0 = l_size l -> l_vps l0 = l_vps l ->
  kChunk <= Z.of_nat (length (layer_bytes l)) ->
  exists l', LoadBlocksFromFile (flat_map any_bytes pre ++ layer_bytes l) kReplace true l0
     = Some (Ok (true, l')) /\ l_size l' = l_size l /\ l_vps l' = l_vps l /\
    forall j, l_get l' j = match l_get l j with Some b => Some (stored b) | None => l_get l0 j end.
Proof.
  intros k l l0 pre HF WF E1 E2 HC.
  unfold LoadBlocksFromFile.
  assert (FL : exists f, S (length (flat_map any_bytes pre ++ layer_bytes l)) = (length pre + S f)%nat).
  { pose proof (flat_any_length pre). rewrite app_length.
    exists (length (flat_map any_bytes pre) - length pre + length (layer_bytes l))%nat. lia. }
  destruct FL as (f & ->). rewrite skip_layers by auto.
  rewrite <- (app_nil_r (layer_bytes l)). apply replace_first; auto.
Qed.
