(** Proofs about saving and loading. *)
From Coq Require Import ZArith List Bool Lia Reals Lra.
From Flocq Require Import Core IEEE754.Binary.
From Verif Require Import F32 F32_lemmas Types Index Index_proofs Index_float Voxel Serialize
  Serialize_proofs Assoc Assoc_lemmas Layer Proto Proto_proofs LayerIO.
Import ListNotations.
Open Scope Z_scope.

(** A block as every layer operation creates them: geometry of the layer, origin
    of its index, one voxel per cell. *)
Definition block_wf {k} (s : f32) (vps : Z) (i : idx3) (b : Block k) : Prop :=
  b_vps b = vps /\ b_size b = s /\ b_origin b = new_block_origin vps s i /\
  length (b_voxels b) = num_voxels vps /\ Forall (vox_ok k) (b_voxels b).
(** A layer: positive sane voxel size, blocks of at most 480^3 voxels (protobuf
    messages are limited to 2 GB), block indices up to 2^20. *)
Definition layer_wf {k} (l : Layer k) : Prop :=
  sane_size (l_size l) /\ 1 <= l_vps l <= 480 /\ NoDup (akeys (l_blocks l)) /\
  (forall i b, In (i, b) (l_blocks l) ->
     all3 (fun c => Z.abs c <= 2 ^ 20) i /\ block_wf (l_size l) (l_vps l) i b) /\
  Z.of_nat (length (l_blocks l)) < 2 ^ 32 - 1.

(** ESDF parents are altered by a round trip, see C08 *)
Definition vox_after (k : vkind) : vox k -> vox k :=
  match k with KEsdf => esdf_after | _ => fun v => v end.
(** what a stored block looks like after loading *)
Definition stored {k} (b : Block k) : Block k :=
  set_updated upd_all (set_voxels (map (vox_after k) (b_voxels b)) b).

Lemma num_voxels_pos : forall vps, 1 <= vps <= 480 -> (1 <= num_voxels vps)%nat /\
  Z.of_nat (num_voxels vps) = vps * vps * vps.
Proof.
  intros. assert (1 <= vps * vps * vps <= 480 * 480 * 480) by nia.
  unfold num_voxels, u64. rewrite Z.mod_small by lia. rewrite Z2Nat.id by lia. lia.
Qed.

Lemma roundtrip_after : forall k vs, Forall (vox_ok k) vs ->
  deserializeFromIntegers k (length vs) (serializeToIntegers k vs) = Ok (map (vox_after k) vs).
Proof.
  intros k vs H. destruct k; try (rewrite roundtrip_lossless by (auto; discriminate);
    cbn [vox_after]; rewrite map_id; reflexivity).
  apply roundtrip_esdf.
Qed.

Lemma sane_nnan : forall s, sane_size s -> fnan s = false.
Proof. intros s (F & _). apply ffin_nnan; auto. Qed.

Lemma origin_axis_fin : forall c vps s, sane_size s -> 1 <= vps <= 2 ^ 16 -> Z.abs c <= 2 ^ 20 ->
  ffin (fmul (f32_of_Z c) (block_size_of vps s)) = true.
Proof.
  intros c vps s Hs Hv Hc. destruct (block_size_R vps s Hs Hv) as (d & _ & _ & W).
  destruct (origin_R c _ W Hc) as (d' & e & _ & _ & _ & F). exact F.
Qed.

Lemma vps_small : forall vps, 1 <= vps <= 480 -> wrap32 vps = vps /\ u64 (wrap32 vps) = vps /\ u32 vps = vps.
Proof.
  intros. assert (E : wrap32 vps = vps) by (unfold wrap32; rewrite Z.mod_small by lia; lia).
  rewrite E. unfold u64, u32. rewrite !Z.mod_small by lia. auto.
Qed.

(** ** one block *)
Lemma block_of_stored : forall k (b : Block k) s vps i, sane_size s -> 1 <= vps <= 480 ->
  all3 (fun c => Z.abs c <= 2 ^ 20) i -> block_wf s vps i b ->
  block_of_proto k (block_getProto b) =
    Ok (MkBlock vps s (new_block_origin vps s i) (b_has_data b) upd_none (map (vox_after k) (b_voxels b))).
Proof.
  intros k b s vps i Hs Hv Hi (E1 & E2 & E3 & E4 & E5).
  destruct (vps_small vps Hv) as (W1 & W2 & W3).
  unfold block_of_proto, block_getProto.
  cbn [bp_vps bp_voxel_size bp_x bp_y bp_z bp_has_data bp_data].
  rewrite E1, E2, E3, W2. rewrite <- E4. rewrite roundtrip_after by auto. cbn [rbind].
  unfold set_voxels, set_has_data, new_block. cbn [b_vps b_size b_origin b_has_data b_updated b_voxels].
  f_equal. rewrite narrow_widen by (apply sane_nnan; auto).
  destruct i as [x y z]. destruct Hi as (Hx & Hy & Hz). cbn [vx vy vz] in *.
  unfold new_block_origin, getOriginPointFromGridIndex, map3. cbn [vx vy vz].
  assert (Hv' : 1 <= vps <= 2 ^ 16) by lia.
  rewrite !narrow_widen; try (apply ffin_nnan, origin_axis_fin; auto). reflexivity.
Qed.

Lemma dsub_self : forall x, dfin x = true -> dlt (dabs (dsub x x)) d_eps32 = true.
Proof.
  intros x F.
  assert (R0 : rnd64 (DR x - DR x) = 0%R) by (rewrite Rminus_diag_eq by auto; unfold rnd64; apply round_0; typeclasses eauto).
  destruct (dsub_R x x F F) as (E & F2).
  { rewrite R0, Rabs_R0. unfold max64. apply bpow_gt_0. }
  assert (Fa : dfin (dabs (dsub x x)) = true) by (rewrite <- F2; apply (is_finite_Babs 53 1024)).
  assert (Ea : DR (dabs (dsub x x)) = 0%R).
  { replace (DR (dabs (dsub x x))) with (Rabs (DR (dsub x x))) by (symmetry; apply (B2R_Babs 53 1024)).
    rewrite E, R0. apply Rabs_R0. }
  apply dlt_R; auto. rewrite Ea. change 0%R with (DR d0). apply dlt_R; vm_compute; reflexivity.
Qed.

Lemma compat_block : forall k (l : Layer k) (b : Block k), sane_size (l_size l) ->
  b_size b = l_size l -> b_vps b = l_vps l -> isCompatible_block l (block_getProto b) = true.
Proof.
  intros k l b Hs E1 E2. unfold isCompatible_block, block_getProto. cbn [bp_voxel_size bp_vps].
  rewrite E1, E2, Z.eqb_refl, andb_true_r. apply dsub_self. apply f64_of_f32_R. apply Hs.
Qed.

Lemma bytes_eqb_spec : forall a b, reflect (a = b) (bytes_eqb a b).
Proof.
  induction a as [|x a IH]; intros [|y b]; cbn; try (constructor; congruence).
  destruct (Z.eqb_spec x y); cbn; [|constructor; congruence].
  destruct (IH b); constructor; congruence.
Qed.
Lemma type_bytes_inj : forall k k', type_bytes k = type_bytes k' -> k = k'.
Proof. destruct k, k'; intros H; try reflexivity; vm_compute in H; discriminate. Qed.
Lemma type_bytes_nonempty : forall k, type_bytes k <> [].
Proof. destruct k; vm_compute; discriminate. Qed.

Lemma compat_layer : forall k (l l' : Layer k), sane_size (l_size l) -> 1 <= l_vps l <= 480 ->
  l_size l' = l_size l -> l_vps l' = l_vps l -> isCompatible_layer l' (layer_getProto l) = true.
Proof.
  intros k l l' Hs Hv E1 E2. unfold isCompatible_layer, layer_getProto. cbn [lp_voxel_size lp_vps lp_type].
  destruct (vps_small _ Hv) as (_ & _ & ->). rewrite E1, E2, Z.eqb_refl, andb_true_r.
  rewrite dsub_self by (apply f64_of_f32_R; apply Hs).
  destruct (bytes_eqb_spec (type_bytes k) (type_bytes k)); [reflexivity|congruence].
Qed.

Lemma block_index_back : forall vps s i, sane_size s -> 1 <= vps <= 480 ->
  all3 (fun c => Z.abs c <= 2 ^ 20) i ->
  getGridIndexFromOriginPoint (new_block_origin vps s i) (inv_of (block_size_of vps s)) = Some i.
Proof. intros. apply (origin_back vps s i); auto. lia. Qed.

(** adding a stored block at a free index, whatever the strategy *)
Lemma add_fresh : forall k (l : Layer k) b i st, sane_size (l_size l) -> 1 <= l_vps l <= 480 ->
  all3 (fun c => Z.abs c <= 2 ^ 20) i -> block_wf (l_size l) (l_vps l) i b ->
  l_get l i = None ->
  exists m, addBlockFromProto l (block_getProto b) st = Ok (true, with_blocks l m) /\
    forall j, alookup j m = if idx_eqb j i then Some (stored b) else l_get l j.
Proof.
  intros k l b i st Hs Hv Hi Hb Hn. pose proof Hb as (E1 & E2 & E3 & E4 & E5).
  unfold addBlockFromProto. rewrite compat_block by auto.
  rewrite (block_of_stored k b (l_size l) (l_vps l) i) by auto. cbn [rbind b_origin].
  unfold l_block_size. rewrite block_index_back by auto. cbn [of_opt rbind].
  rewrite Hn. set (nb := MkBlock _ _ _ _ _ _).
  assert (S : set_updated upd_all nb = stored b).
  { unfold nb, stored, set_updated, set_voxels; cbn. rewrite E1, E2, E3. reflexivity. }
  assert (A : ainsert i nb (l_blocks l) = aset i nb (l_blocks l)).
  { unfold ainsert. unfold l_get in Hn. rewrite Hn. clear - Hn. induction (l_blocks l) as [|[j c] m IH]; cbn in *; auto.
    destruct (idx_eqb i j); [discriminate|]. rewrite IH; auto. }
  exists (mark_updated i (aset i nb (l_blocks l))). split.
  - destruct st; cbn [rbind]; rewrite ?A; reflexivity.
  - intros j. unfold mark_updated. rewrite alookup_aset, idx_eqb_refl, !alookup_aset, S.
    destruct (idx_eqb_spec j i) as [->|]; reflexivity.
Qed.

(** ** messages fit *)
Lemma length_bp_data : forall k (b : Block k), length (bp_data (block_getProto b)) = (length (b_voxels b) * wpv k)%nat.
Proof. intros. apply serialize_length. Qed.

Lemma enc_data_length : forall d, (length (enc_fields (map (FVar 7) d)) <= 11 * length d)%nat.
Proof.
  induction d as [|w d IH]; [simpl; lia|]. unfold enc_fields in *. cbn [map flat_map enc_field].
  rewrite !app_length. change (length (enc_varint (8 * 7))) with 1%nat.
  pose proof (enc_varint_length w). cbn [length]. lia.
Qed.
(** a 32-bit word takes at most 5 bytes *)
Lemma enc_word_length : forall w, 0 <= w < 2 ^ 32 -> (length (enc_varint w) <= 5)%nat.
Proof.
  intros w Hw. unfold enc_varint.
  assert (G : forall n m z, 0 <= z < 128 ^ Z.of_nat m -> (1 <= m)%nat -> (length (enc_var n z) <= m)%nat).
  { induction n; intros m z Hz Hm; cbn [enc_var length]; [lia|].
    destruct (Z.ltb_spec z 128); cbn [length]; [lia|].
    destruct m as [|m]; [lia|]. rewrite Nat2Z.inj_succ, Z.pow_succ_r in Hz by lia.
    destruct m; [simpl in Hz; lia|].
    assert (length (enc_var n (z / 128)) <= S m)%nat; [|lia].
    apply IHn; [|lia]. split; [apply Z.div_pos; lia|apply Z.div_lt_upper_bound; lia]. }
  apply G; [|lia]. change (128 ^ Z.of_nat 5) with (2 ^ 35). lia.
Qed.
Lemma enc_data_length6 : forall d, Forall (fun w => 0 <= w < 2 ^ 32) d ->
  (length (enc_fields (map (FVar 7) d)) <= 6 * length d)%nat.
Proof.
  induction d as [|w d IH]; intros HF; [simpl; lia|]. inversion HF; subst. unfold enc_fields in *. cbn [map flat_map enc_field].
  rewrite !app_length. change (length (enc_varint (8 * 7))) with 1%nat.
  pose proof (enc_word_length w ltac:(auto)). specialize (IH ltac:(auto)). cbn [length]. lia.
Qed.

Lemma block_proto_ok : forall k s vps i (b : Block k), 1 <= vps <= 480 -> block_wf s vps i b ->
  bp_ok (block_getProto b) /\ bp_data (block_getProto b) <> [] /\ msg_ok (bp_fields (block_getProto b)).
Proof.
  intros k s vps i b Hv (E1 & E2 & E3 & E4 & E5).
  destruct (num_voxels_pos vps Hv) as (NV & NV2).
  assert (OK : bp_ok (block_getProto b)).
  { split.
    - cbn [bp_vps block_getProto]. rewrite E1. destruct (vps_small vps Hv) as (-> & _). unfold is_int32. lia.
    - cbn [bp_data block_getProto]. apply (ser_words_ok k); auto. }
  assert (L : length (bp_data (block_getProto b)) = (num_voxels vps * wpv k)%nat) by (rewrite length_bp_data, E4; auto).
  assert (W : (2 <= wpv k <= 3)%nat) by (destruct k; cbn; lia).
  split; auto. split.
  { intros E. rewrite E in L. cbn [length] in L. nia. }
  split; [apply bp_fields_ok; auto|]. split; [unfold bp_fields; discriminate|].
  unfold bp_fields, enc_fields. rewrite flat_map_app, app_length. cbn [flat_map enc_field].
  rewrite !app_length, !enc_le_length. cbn [length].
  pose proof (enc_data_length6 (bp_data (block_getProto b)) (proj2 OK)) as D. rewrite L in D.
  unfold enc_fields in D.
  repeat match goal with |- context [length (enc_varint ?z)] =>
      pose proof (enc_varint_length z); generalize dependent (length (enc_varint z)); intros end.
  assert (Z.of_nat (num_voxels vps) <= 480 * 480 * 480) by (rewrite NV2; nia).
  rewrite !Nat2Z.inj_add. nia.
Qed.

Lemma layer_proto_ok : forall k (l : Layer k), 1 <= l_vps l <= 480 -> lp_ok (layer_getProto l).
Proof.
  intros k l H. split; cbn [lp_vps lp_type layer_getProto].
  - destruct (vps_small _ H) as (_ & _ & ->). lia.
  - destruct k; vm_compute; reflexivity.
Qed.

(** ** streams of blocks *)
Definition write_blocks {k} (m : amap (Block k)) : bytes :=
  flat_map (fun kv => writeProtoMsg (bp_fields (block_getProto (snd kv)))) m.
Definition blocks_wf {k} (s : f32) (vps : Z) (m : amap (Block k)) : Prop :=
  forall i b, In (i, b) m -> all3 (fun c => Z.abs c <= 2 ^ 20) i /\ block_wf s vps i b.

Lemma load_stream : forall k st (m : amap (Block k)) (l : Layer k) r,
  sane_size (l_size l) -> 1 <= l_vps l <= 480 -> blocks_wf (l_size l) (l_vps l) m ->
  NoDup (akeys m) -> (forall i, In i (akeys m) -> l_get l i = None) ->
  exists l', loadBlocks (length m) st (write_blocks m ++ r) l = Ok (true, r, l') /\
    l_size l' = l_size l /\ l_vps l' = l_vps l /\
    forall j, l_get l' j = match alookup j m with Some b => Some (stored b) | None => l_get l j end.
Proof.
  induction m as [|[i b] m IH]; intros l r Hs Hv Hwf ND Hfree.
  - exists l. cbn. auto.
  - destruct (Hwf i b ltac:(left; auto)) as (Hi & Hb).
    destruct (block_proto_ok _ _ _ _ _ Hv Hb) as (OK & NE & MOK).
    cbn [length loadBlocks].
    change (write_blocks ((i, b) :: m)) with (writeProtoMsg (bp_fields (block_getProto b)) ++ write_blocks m).
    rewrite <- app_assoc.
    destruct (read_write_msg _ (write_blocks m ++ r) MOK) as (eof & -> & _).
    rewrite bp_back by auto.
    destruct (add_fresh k l b i st Hs Hv Hi Hb) as (m1 & -> & Hm1).
    { apply Hfree. left; auto. }
    cbn [rbind]. inversion ND as [|? ? NI ND']; subst.
    destruct (IH (with_blocks l m1) r) as (l' & -> & S1 & S2 & G); auto.
    { intros j c HI. apply Hwf. right; auto. }
    { intros j HI. unfold l_get. cbn [with_blocks l_blocks]. rewrite Hm1.
      rewrite idx_eqb_neq. { apply Hfree. right; auto. }
      intros ->. contradiction. }
    exists l'. repeat split; auto. intros j. rewrite G. cbn [alookup].
    unfold l_get at 1. cbn [with_blocks l_blocks]. rewrite Hm1.
    destruct (idx_eqb_spec j i) as [->|]; auto.
    replace (alookup i m) with (@None (Block k)); auto. symmetry. apply alookup_None. auto.
Qed.

Lemma skip_stream : forall k (m : amap (Block k)) s vps r eof, 1 <= vps <= 480 -> blocks_wf s vps m ->
  kChunk <= Z.of_nat (length r) -> eof = false ->
  skipBlocks (length m) (write_blocks m ++ r) eof = Some (r, false).
Proof.
  induction m as [|[i b] m IH]; intros s vps r eof Hv Hwf Hr He.
  - cbn. subst; auto.
  - destruct (Hwf i b ltac:(left; auto)) as (Hi & Hb).
    destruct (block_proto_ok _ _ _ _ _ Hv Hb) as (OK & NE & MOK).
    cbn [length skipBlocks].
    change (write_blocks ((i, b) :: m)) with (writeProtoMsg (bp_fields (block_getProto b)) ++ write_blocks m).
    rewrite <- app_assoc.
    destruct (read_write_msg _ (write_blocks m ++ r) MOK) as (eof' & -> & He').
    apply (IH s vps); auto.
    { intros j c HI. apply Hwf. right; auto. }
    apply He'. rewrite app_length. lia.
Qed.

Lemma filter_length_le : forall A (f : A -> bool) l, (length (filter f l) <= length l)%nat.
Proof. induction l as [|a l IH]; cbn; auto. destruct (f a); cbn; lia. Qed.

(** ** saving *)
Lemma selected_wf : forall k all inc (l : Layer k), layer_wf l ->
  blocks_wf (l_size l) (l_vps l) (selected all inc (l_blocks l)) /\
  NoDup (akeys (selected all inc (l_blocks l))) /\
  Z.of_nat (length (selected all inc (l_blocks l))) < 2 ^ 32 - 1 /\
  (forall j, alookup j (selected all inc (l_blocks l)) = if all || idx_in j inc then l_get l j else None).
Proof.
  intros k all inc l (Hs & Hv & ND & Hb & Hl). split; [|split; [|split]].
  - intros i b H. apply filter_In in H. apply Hb. apply H.
  - apply NoDup_map_filter; auto.
  - assert (length (selected all inc (l_blocks l)) <= length (l_blocks l))%nat by apply filter_length_le. lia.
  - intros j. unfold selected, l_get. apply (alookup_filter (fun i => all || idx_in i inc)).
Qed.

Lemma num_blocks_selected : forall k all inc (m : amap (Block k)),
  num_blocks_to_write all inc m = length (selected all inc m).
Proof.
  intros. unfold num_blocks_to_write. destruct m as [|kv m]; cbn [selected filter length].
  - destruct (all && false || _); reflexivity.
  - destruct inc as [|i inc]; [|rewrite orb_true_r; reflexivity].
    rewrite andb_true_r, orb_false_r. destruct all; [reflexivity|].
    unfold selected. cbn [filter orb idx_in existsb].
    induction m; cbn [filter]; auto.
Qed.

Lemma idx_in_spec : forall i l, idx_in i l = true <-> In i l.
Proof.
  intros. unfold idx_in. rewrite existsb_exists. split.
  - intros (x & H & E). destruct (idx_eqb_spec i x); [subst; auto|discriminate].
  - intros H. exists i. rewrite idx_eqb_refl. auto.
Qed.

Lemma save_shape : forall k (l : Layer k) old inc all clear, layer_wf l ->
  saveSubsetToFile l old inc all clear =
  Ok ((if clear then [] else old) ++
      writeProtoMsgCount (1 + Z.of_nat (length (selected all inc (l_blocks l)))) ++
      writeProtoMsg (lp_fields (layer_getProto l)) ++
      write_blocks (selected all inc (l_blocks l))).
Proof.
  intros k l old inc all clear H. destruct (selected_wf k all inc l H) as (_ & ND & _ & _).
  unfold saveSubsetToFile. rewrite num_blocks_selected.
  match goal with |- (if ?c then _ else _) = _ => assert (C : c = true); [|rewrite C; reflexivity] end.
  destruct all.
  - apply Nat.eqb_eq. unfold selected. cbn [orb].
    generalize (l_blocks l). intros m. induction m; cbn [filter length]; auto.
  - apply andb_true_iff. split; apply Nat.leb_le.
    + apply filter_length_le.
    + rewrite <- (map_length fst). apply NoDup_incl_length; auto.
      intros i Hi. apply in_map_iff in Hi. destruct Hi as ([j b] & <- & Hi). apply filter_In in Hi.
      cbn [fst orb] in *. apply idx_in_spec. tauto.
Qed.

(** ** whole files *)
Definition layer_bytes {k} (l : Layer k) : bytes :=
  writeProtoMsgCount (1 + Z.of_nat (length (l_blocks l))) ++
  writeProtoMsg (lp_fields (layer_getProto l)) ++ write_blocks (l_blocks l).

Lemma selected_all : forall k (m : amap (Block k)) inc, selected true inc m = m.
Proof. intros. unfold selected. cbn [orb]. induction m; cbn; congruence. Qed.

Lemma save_all : forall k (l : Layer k) old clear, layer_wf l ->
  saveToFile l old clear = Ok ((if clear then [] else old) ++ layer_bytes l).
Proof.
  intros. unfold saveToFile. rewrite save_shape by auto. rewrite selected_all. reflexivity.
Qed.

Lemma layer_wf_blocks : forall k (l : Layer k), layer_wf l -> blocks_wf (l_size l) (l_vps l) (l_blocks l).
Proof. intros k l (_ & _ & _ & H & _). exact H. Qed.

Lemma count_back : forall n r, 0 <= n < 2 ^ 32 -> readProtoMsgCount (writeProtoMsgCount n ++ r) = Some (n, r).
Proof.
  intros. unfold readProtoMsgCount, writeProtoMsgCount, u32. rewrite Z.mod_small by lia. apply dec_varint32_enc; auto.
Qed.

(** a stored selection, loaded into a layer that has none of its blocks *)
Lemma load_selection : forall k (l l0 : Layer k) m st multi r fuel,
  sane_size (l_size l) -> 1 <= l_vps l <= 480 -> blocks_wf (l_size l) (l_vps l) m -> NoDup (akeys m) ->
  Z.of_nat (length m) < 2 ^ 32 - 1 ->
  l_size l0 = l_size l -> l_vps l0 = l_vps l -> (forall i, In i (akeys m) -> l_get l0 i = None) ->
  exists l', loadLoop (S fuel) st multi
      (writeProtoMsgCount (1 + Z.of_nat (length m)) ++ writeProtoMsg (lp_fields (layer_getProto l)) ++ write_blocks m ++ r) l0
    = Some (Ok (true, l')) /\
    l_size l' = l_size l /\ l_vps l' = l_vps l /\
    forall j, l_get l' j = match alookup j m with Some b => Some (stored b) | None => l_get l0 j end.
Proof.
  intros k l l0 m st multi r fuel Hs Hv Hwf ND Hl E1 E2 Hfree.
  cbn [loadLoop]. rewrite count_back by lia.
  destruct (Z.eqb_spec (1 + Z.of_nat (length m)) 0); [lia|].
  destruct (read_write_msg _ (write_blocks m ++ r) (lp_msg_ok _ (layer_proto_ok k l Hv))) as (eof & -> & _).
  rewrite lp_back by (apply layer_proto_ok; auto).
  rewrite compat_layer by auto.
  replace (Z.to_nat (1 + Z.of_nat (length m) - 1)) with (length m) by lia.
  destruct (load_stream k st m l0 r) as (l' & -> & S1 & S2 & G); rewrite ?E1, ?E2; auto.
  cbn [rbind]. exists l'. rewrite S1, S2. auto.
Qed.

Lemma loadLayer_selection : forall k (l : Layer k) m multi r fuel cur,
  sane_size (l_size l) -> 1 <= l_vps l <= 480 -> blocks_wf (l_size l) (l_vps l) m -> NoDup (akeys m) ->
  Z.of_nat (length m) < 2 ^ 32 - 1 ->
  exists l', loadLayerLoop k (S fuel) multi
      (writeProtoMsgCount (1 + Z.of_nat (length m)) ++ writeProtoMsg (lp_fields (layer_getProto l)) ++ write_blocks m ++ r) cur
    = Some (Ok (true, Some l')) /\
    l_size l' = l_size l /\ l_vps l' = l_vps l /\
    forall j, l_get l' j = match alookup j m with Some b => Some (stored b) | None => None end.
Proof.
  intros k l m multi r fuel cur Hs Hv Hwf ND Hl.
  cbn [loadLayerLoop]. rewrite count_back by lia.
  destruct (Z.eqb_spec (1 + Z.of_nat (length m)) 0); [lia|].
  destruct (read_write_msg _ (write_blocks m ++ r) (lp_msg_ok _ (layer_proto_ok k l Hv))) as (eof & -> & _).
  rewrite lp_back by (apply layer_proto_ok; auto).
  destruct (vps_small _ Hv) as (_ & _ & U).
  cbn [layer_getProto lp_voxel_size lp_vps lp_type]. rewrite U.
  destruct (f64_of_f32_R (l_size l) (proj1 Hs)) as (E & F).
  pose proof (sane_pos _ Hs) as P.
  assert (L0 : dlt d0 (f64_of_f32 (l_size l)) = true).
  { apply dlt_R; auto. rewrite E. exact P. }
  assert (L1 : dle (f64_of_f32 (l_size l)) d0 = false).
  { apply not_true_iff_false. intros C. apply dle_R in C; auto. rewrite E in C.
    change (DR d0) with 0%R in C. lra. }
  rewrite L1. destruct (Z.eqb_spec (l_vps l) 0); [lia|]. cbn [orb].
  destruct (bytes_eqb_spec (type_bytes k) (type_bytes k)) as [_|C]; [|congruence].
  unfold layer_of_proto, layer_getProto. cbn [lp_voxel_size lp_vps lp_type]. rewrite U, L0, narrow_widen by (apply sane_nnan; auto).
  destruct (bytes_eqb_spec (type_bytes k) (type_bytes k)) as [_|C]; [|congruence].
  assert (BS : flt f0 (block_size_of (l_vps l) (l_size l)) = true).
  { destruct (block_size_R (l_vps l) (l_size l) Hs ltac:(lia)) as (d & _ & _ & W).
    apply flt_R; auto. apply W. apply (wide_pos _ W). }
  rewrite BS. destruct (Z.ltb_spec 0 (l_vps l)); [|lia]. cbn [andb rbind].
  replace (Z.to_nat (1 + Z.of_nat (length m) - 1)) with (length m) by lia.
  destruct (load_stream k kProhibit m (MkLayer (l_size l) (l_vps l) []) r) as (l' & -> & S1 & S2 & G); auto.
  cbn [rbind]. exists l'. repeat split; auto.
Qed.

(** ** truncated files *)
Lemma load_empty : forall k n st (l : Layer k), (0 < n)%nat -> loadBlocks n st [] l = Ok (false, [], l).
Proof. destruct n; intros; [lia|reflexivity]. Qed.

Lemma add_short : forall k (l : Layer k) (p : BlockProto) st, 
  (length (bp_data p) <> num_voxels (u64 (bp_vps p)) * wpv k)%nat ->
  forall r, addBlockFromProto l p st = Ok r -> fst r = false.
Proof.
  intros k l p st H r E. unfold addBlockFromProto in E. destruct (isCompatible_block l p).
  - unfold block_of_proto, deserializeFromIntegers in E.
    destruct (Nat.eqb_spec (num_voxels (u64 (bp_vps p)) * wpv k) (length (bp_data p))); [lia|]. discriminate.
  - injection E as <-. reflexivity.
Qed.

(** the number of voxels announced by a truncated block message: either the vps
    field is there, or it is 0 and the block does not match the layer *)
Lemma truncated_block : forall k (l : Layer k) s vps i (b : Block k) fs1 fs2 st,
  1 <= vps <= 480 -> 1 <= l_vps l <= 480 -> block_wf s vps i b ->
  bp_fields (block_getProto b) = fs1 ++ fs2 -> fs2 <> [] ->
  forall r, addBlockFromProto l (bp_of_fields fs1) st = Ok r -> fst r = false.
Proof.
  intros k l s vps i b fs1 fs2 st Hv Hlv Hb E N.
  destruct (block_proto_ok _ _ _ _ _ Hv Hb) as (OK & NE & MOK).
  pose proof (bp_prefix_short _ _ _ NE E N) as Sh.
  destruct Hb as (E1 & E2 & E3 & E4 & E5).
  destruct fs1 as [|f fs1].
  - intros r Hr. unfold addBlockFromProto in Hr.
    assert (C : isCompatible_block l (bp_of_fields []) = false).
    { unfold isCompatible_block. cbn [bp_of_fields fold_left bp_default bp_vps].
      destruct (vps_small _ Hlv) as (-> & _). destruct (Z.eqb_spec 0 (l_vps l)); [lia|apply andb_false_r]. }
    rewrite C in Hr. injection Hr as <-. reflexivity.
  - assert (V : bp_vps (bp_of_fields (f :: fs1)) = vps).
    { destruct (vps_small vps Hv) as (W1 & W2 & W3).
      unfold bp_fields in E. cbn [app] in E. injection E as <- E. unfold bp_of_fields. cbn [fold_left].
      cbn [block_getProto bp_vps]. rewrite E1, W1.
      assert (G : forall fs p, Forall (fun f => match f with FVar 1 _ => False | _ => True end) fs ->
        bp_vps (fold_left bp_merge fs p) = bp_vps p).
      { induction fs as [|f fs IH]; intros p HF; cbn [fold_left]; auto. inversion HF; subst.
        rewrite IH by auto. destruct f as [n v|n v|n bb|n v]; cbn [bp_merge];
        repeat match goal with |- context [match ?n with _ => _ end] => is_var n; destruct n end;
        cbn [bp_vps]; auto; try tauto. }
      rewrite G.
      - cbn [bp_merge bp_vps]. rewrite wrap32_u64 by (unfold is_int32; lia). reflexivity.
      - assert (A : Forall (fun f => match f with FVar 1 _ => False | _ => True end) (fs1 ++ fs2)).
        { rewrite <- E. repeat constructor. apply Forall_forall. intros f Hf.
          apply in_map_iff in Hf. destruct Hf as (w & <- & _). exact I. }
        apply Forall_app in A. apply A. }
    apply add_short. rewrite V.
    replace (u64 vps) with vps by (symmetry; unfold u64; apply Z.mod_small; lia).
    rewrite length_bp_data, E4 in Sh. lia.
Qed.

Definition never_ok {A} (r : res (bool * A)) : Prop := forall a, r <> Ok (true, a).

Lemma truncated_stream : forall k st (m : amap (Block k)) (l : Layer k) p q s vps,
  1 <= vps <= 480 -> 1 <= l_vps l <= 480 -> blocks_wf s vps m -> q <> [] -> p ++ q = write_blocks m ->
  forall rest l', loadBlocks (length m) st p l <> Ok (true, rest, l').
Proof.
  induction m as [|[i b] m IH]; intros l p q s vps Hv Hlv Hwf N E rest l' H.
  - cbn in E. apply app_eq_nil in E. destruct E; contradiction.
  - destruct (Hwf i b ltac:(left; auto)) as (Hi & Hb).
    destruct (block_proto_ok _ _ _ _ _ Hv Hb) as (OK & NE & MOK).
    cbn [length loadBlocks] in H.
    change (write_blocks ((i, b) :: m)) with (writeProtoMsg (bp_fields (block_getProto b)) ++ write_blocks m) in E.
    destruct (prefix_split _ _ _ _ _ E N) as [(p' & -> & E')|(a2 & N2 & E')].
    + destruct (read_write_msg _ p' MOK) as (eof & R & _). rewrite R in H.
      destruct (addBlockFromProto l (bp_of_fields (bp_fields (block_getProto b))) st) as [[ok l1]| |] eqn:A;
        cbn [rbind] in H; try discriminate.
      destruct ok; [|discriminate].
      assert (L1 : l_vps l1 = l_vps l).
      { revert A. unfold addBlockFromProto. destruct (isCompatible_block _ _); [|intros A; injection A; congruence].
        repeat match goal with |- context [rbind ?x] => destruct x; cbn [rbind]; try discriminate end.
        intros A; injection A as <-; reflexivity. }
      apply (IH l1 p' q s vps) in H; auto; [rewrite L1; auto|intros j c HI; apply Hwf; right; auto].
    + destruct (read_msg_prefix _ p a2 MOK N2 E') as [R | (fs1 & fs2 & E2 & N3 & R)]; rewrite R in H; [discriminate|].
      destruct (addBlockFromProto l (bp_of_fields fs1) st) as [[ok l1]| |] eqn:A; cbn [rbind] in H; try discriminate.
      pose proof (truncated_block k l s vps i b fs1 fs2 st Hv Hlv Hb E2 N3 _ A) as F. cbn [fst] in F.
      subst ok. discriminate.
Qed.

Lemma truncated_skip : forall k q (m : amap (Block k)) s vps p eof, q <> [] -> 1 <= vps <= 480 ->
  p ++ q = write_blocks m -> blocks_wf s vps m ->
  skipBlocks (length m) p eof = None \/ exists r3, skipBlocks (length m) p eof = Some (r3, true).
Proof.
  induction m as [|[i b] m IH]; intros s vps p2 eof N Hv E Hwf.
  - cbn in E. apply app_eq_nil in E. destruct E; contradiction.
  - destruct (Hwf i b ltac:(left; auto)) as (Hi & Hb).
    destruct (block_proto_ok _ _ _ _ _ Hv Hb) as (OK & NE & MOK).
    cbn [length skipBlocks].
    change (write_blocks ((i, b) :: m)) with (writeProtoMsg (bp_fields (block_getProto b)) ++ write_blocks m) in E.
    destruct (prefix_split _ _ _ _ _ E N) as [(p' & -> & E')|(a2 & N2 & E')].
    + destruct (read_write_msg _ p' MOK) as (eof1 & -> & _). apply (IH s vps); auto.
      intros j c HI; apply Hwf; right; auto.
    + destruct (read_msg_prefix _ p2 a2 MOK N2 E') as [-> | (fs1 & fs2 & E2 & N3 & ->)]; [left; auto|].
      destruct m as [|kv m]; [right; eexists; reflexivity|left; reflexivity].
Qed.

(** prefix of one layer's bytes: never reported as loaded, and with multi-layer
    support the search does not go on either *)
Lemma truncated_layer : forall k k0 (l : Layer k0) (l0 : Layer k) st multi p q fuel,
  layer_wf l -> 1 <= l_vps l0 <= 480 -> q <> [] -> p ++ q = layer_bytes l ->
  exists r, loadLoop (S fuel) st multi p l0 = Some r /\ never_ok r.
Proof.
  intros k k0 l l0 st multi p q fuel WF Hv0 N E.
  pose proof WF as (Hs & Hv & ND & Hb & Hl).
  unfold layer_bytes in E. cbn [loadLoop].
  assert (FALSE : never_ok (Ok (false, l0))) by (intros a H; discriminate).
  destruct (prefix_split _ _ _ _ _ E N) as [(p1 & -> & E1)|(a2 & N2 & E1)].
  2: { unfold readProtoMsgCount. unfold writeProtoMsgCount in E1. rewrite (dec_varint32_prefix _ _ _ N2 E1). eauto. }
  rewrite count_back by lia. destruct (Z.eqb_spec (1 + Z.of_nat (length (l_blocks l))) 0); [lia|].
  replace (Z.to_nat (1 + Z.of_nat (length (l_blocks l)) - 1)) with (length (l_blocks l)) by lia.
  destruct (prefix_split _ _ _ _ _ E1 N) as [(p2 & -> & E2)|(a2 & N2 & E2)].
  - destruct (read_write_msg _ p2 (lp_msg_ok _ (layer_proto_ok k0 l Hv))) as (eof & -> & _).
    rewrite lp_back by (apply layer_proto_ok; auto).
    destruct (isCompatible_layer l0 (layer_getProto l)) eqn:C.
    + eexists; split; [reflexivity|]. intros a H.
      assert (K : k = k0).
      { unfold isCompatible_layer in C. apply andb_true_iff in C. destruct C as [_ C].
        cbn [lp_type layer_getProto] in C. destruct (bytes_eqb_spec (type_bytes k) (type_bytes k0)); [|discriminate].
        apply type_bytes_inj; auto. }
      subst k0. destruct (loadBlocks (length (l_blocks l)) st p2 l0) as [[[ok rest] l']| |] eqn:LB; cbn [rbind] in H; try discriminate.
      injection H as -> ->. revert LB.
      apply (truncated_stream k st (l_blocks l) l0 p2 q (l_size l) (l_vps l)); auto.
    + destruct multi; cbn [negb]; [|eauto].
      pose proof (truncated_skip k0 q (l_blocks l) (l_size l) (l_vps l) p2 eof N Hv E2 Hb) as SK.
      destruct SK as [-> | (r3 & ->)]; eauto.
  - destruct (read_msg_prefix _ p1 a2 (lp_msg_ok _ (layer_proto_ok k0 l Hv)) N2 E2) as [-> | (fs1 & fs2 & E3 & N3 & ->)]; [eauto|].
    pose proof (lp_prefix_type _ _ _ E3 N3) as T.
    assert (C : isCompatible_layer l0 (lp_of_fields fs1) = false).
    { unfold isCompatible_layer. rewrite T. destruct (bytes_eqb_spec (type_bytes k) []) as [C|C]; [|apply andb_false_r].
      exfalso. apply (type_bytes_nonempty k); auto. }
    rewrite C. destruct multi; cbn [negb]; [|eauto].
    destruct (length (l_blocks l)) as [|n0]; cbn [skipBlocks]; eauto.
    replace (readProtoMsg []) with (@None (list field * bytes * bool)) by reflexivity. eauto.
Qed.

Lemma truncated_layer2 : forall k k0 (l : Layer k0) cur multi p q fuel,
  layer_wf l -> q <> [] -> p ++ q = layer_bytes l ->
  exists r, loadLayerLoop k (S fuel) multi p cur = Some r /\ never_ok r.
Proof.
  intros k k0 l cur multi p q fuel WF N E.
  pose proof WF as (Hs & Hv & ND & Hb & Hl).
  unfold layer_bytes in E. cbn [loadLayerLoop].
  assert (FALSE : never_ok (Ok (false, cur))) by (intros a H; discriminate).
  destruct (prefix_split _ _ _ _ _ E N) as [(p1 & -> & E1)|(a2 & N2 & E1)].
  2: { unfold readProtoMsgCount. unfold writeProtoMsgCount in E1. rewrite (dec_varint32_prefix _ _ _ N2 E1). eauto. }
  rewrite count_back by lia. destruct (Z.eqb_spec (1 + Z.of_nat (length (l_blocks l))) 0); [lia|].
  replace (Z.to_nat (1 + Z.of_nat (length (l_blocks l)) - 1)) with (length (l_blocks l)) by lia.
  destruct (prefix_split _ _ _ _ _ E1 N) as [(p2 & -> & E2)|(a2 & N2 & E2)].
  - destruct (read_write_msg _ p2 (lp_msg_ok _ (layer_proto_ok k0 l Hv))) as (eof & -> & _).
    rewrite lp_back by (apply layer_proto_ok; auto).
    destruct (dle _ _ || _); [eauto|].
    destruct (bytes_eqb_spec (type_bytes k) (lp_type (layer_getProto l))) as [K|K].
    + apply type_bytes_inj in K. subst k0. eexists; split; [reflexivity|]. intros a H.
      destruct (layer_of_proto k (layer_getProto l)) as [l0| |] eqn:L0; cbn [rbind] in H; try discriminate.
      assert (V0 : l_vps l0 = l_vps l).
      { unfold layer_of_proto in L0. destruct (_ && _); [|discriminate]. injection L0 as <-.
        cbn [l_vps layer_getProto lp_vps]. apply (vps_small _ Hv). }
      destruct (loadBlocks (length (l_blocks l)) kProhibit p2 l0) as [[[ok rest] l']| |] eqn:LB; cbn [rbind] in H; try discriminate.
      injection H as -> H. revert LB.
      apply (truncated_stream k kProhibit (l_blocks l) l0 p2 q (l_size l) (l_vps l)); auto. rewrite V0; auto.
    + destruct multi; cbn [negb]; [|eauto].
      pose proof (truncated_skip k0 q (l_blocks l) (l_size l) (l_vps l) p2 eof N Hv E2 Hb) as SK.
      destruct SK as [-> | (r3 & ->)]; eauto.
  - destruct (read_msg_prefix _ p1 a2 (lp_msg_ok _ (layer_proto_ok k0 l Hv)) N2 E2) as [-> | (fs1 & fs2 & E3 & N3 & ->)]; [eauto|].
    pose proof (lp_prefix_type _ _ _ E3 N3) as T. rewrite T.
    destruct (dle _ _ || _); [eauto|].
    destruct (bytes_eqb_spec (type_bytes k) []) as [C|C]; [exfalso; apply (type_bytes_nonempty k); auto|].
    destruct multi; cbn [negb]; [|eauto].
    destruct (length (l_blocks l)) as [|n0]; cbn [skipBlocks]; eauto.
    replace (readProtoMsg []) with (@None (list field * bytes * bool)) by reflexivity. eauto.
Qed.

(** ** several layers in one file *)
Definition any_layer : Type := {k : vkind & Layer k}.
Definition any_bytes (a : any_layer) : bytes := layer_bytes (projT2 a).
(** appending layer after layer, as [saveToFile(path, clear_file = false)] does *)
Fixpoint save_list (ls : list any_layer) (old : bytes) : res bytes :=
  match ls with
  | [] => Ok old
  | a :: ls' => rbind (saveToFile (projT2 a) old false) (save_list ls')
  end.

Lemma save_list_bytes : forall ls old, Forall (fun a => layer_wf (projT2 a)) ls ->
  save_list ls old = Ok (old ++ flat_map any_bytes ls).
Proof.
  induction ls as [|a ls IH]; intros old HF; cbn [save_list flat_map]; [rewrite app_nil_r; auto|].
  inversion HF; subst. rewrite save_all by auto. cbn [rbind]. rewrite IH by auto.
  rewrite <- app_assoc. reflexivity.
Qed.

Definition compatible {k k0} (l0 : Layer k) (l : Layer k0) : Prop :=
  isCompatible_layer l0 (layer_getProto l) = true.

Lemma skip_layers : forall k (l0 : Layer k) st ls r fuel,
  Forall (fun a : any_layer => layer_wf (projT2 a) /\ ~ compatible l0 (projT2 a)) ls ->
  kChunk <= Z.of_nat (length r) ->
  loadLoop (length ls + fuel) st true (flat_map any_bytes ls ++ r) l0 = loadLoop fuel st true r l0.
Proof.
  induction ls as [|a ls IH]; intros r fuel HF Hr; [reflexivity|].
  inversion HF as [|? ? [WF NC] HF']; subst. destruct a as [k0 l]. cbn [projT1 projT2] in *.
  pose proof WF as (Hs & Hv & ND & Hb & Hl).
  cbn [length plus loadLoop flat_map]. change (any_bytes (existT _ k0 l)) with (layer_bytes l).
  unfold layer_bytes. rewrite <- !app_assoc. rewrite count_back by lia.
  destruct (Z.eqb_spec (1 + Z.of_nat (length (l_blocks l))) 0); [lia|].
  replace (Z.to_nat (1 + Z.of_nat (length (l_blocks l)) - 1)) with (length (l_blocks l)) by lia.
  destruct (read_write_msg _ (write_blocks (l_blocks l) ++ flat_map any_bytes ls ++ r) (lp_msg_ok _ (layer_proto_ok k0 l Hv)))
    as (eof & -> & He).
  rewrite lp_back by (apply layer_proto_ok; auto).
  unfold compatible in NC. apply not_true_iff_false in NC. rewrite NC. cbn [negb].
  rewrite (skip_stream k0 (l_blocks l) (l_size l) (l_vps l)); auto.
  - rewrite app_length. lia.
  - apply He. rewrite !app_length. lia.
Qed.

Lemma skip_layers2 : forall k cur ls r fuel,
  Forall (fun a : any_layer => layer_wf (projT2 a) /\ projT1 a <> k) ls ->
  kChunk <= Z.of_nat (length r) ->
  loadLayerLoop k (length ls + fuel) true (flat_map any_bytes ls ++ r) cur = loadLayerLoop k fuel true r cur.
Proof.
  induction ls as [|a ls IH]; intros r fuel HF Hr; [reflexivity|].
  inversion HF as [|? ? [WF NC] HF']; subst. destruct a as [k0 l]. cbn [projT1 projT2] in *.
  pose proof WF as (Hs & Hv & ND & Hb & Hl).
  cbn [length plus loadLayerLoop flat_map]. change (any_bytes (existT _ k0 l)) with (layer_bytes l).
  unfold layer_bytes. rewrite <- !app_assoc. rewrite count_back by lia.
  destruct (Z.eqb_spec (1 + Z.of_nat (length (l_blocks l))) 0); [lia|].
  replace (Z.to_nat (1 + Z.of_nat (length (l_blocks l)) - 1)) with (length (l_blocks l)) by lia.
  destruct (read_write_msg _ (write_blocks (l_blocks l) ++ flat_map any_bytes ls ++ r) (lp_msg_ok _ (layer_proto_ok k0 l Hv)))
    as (eof & -> & He).
  rewrite lp_back by (apply layer_proto_ok; auto).
  destruct (vps_small _ Hv) as (_ & _ & U).
  cbn [layer_getProto lp_voxel_size lp_vps lp_type]. rewrite U.
  assert (L1 : dle (f64_of_f32 (l_size l)) d0 = false).
  { apply not_true_iff_false. intros C. destruct (f64_of_f32_R (l_size l) (proj1 Hs)) as (E & F).
    apply dle_R in C; auto. rewrite E in C.
    pose proof (sane_pos _ Hs) as P. change (DR d0) with 0%R in C. lra. }
  rewrite L1. destruct (Z.eqb_spec (l_vps l) 0); [lia|]. cbn [orb].
  destruct (bytes_eqb_spec (type_bytes k) (type_bytes k0)) as [C|C]; [apply type_bytes_inj in C; congruence|]. cbn [negb].
  rewrite (skip_stream k0 (l_blocks l) (l_size l) (l_vps l)); auto.
  - rewrite app_length. lia.
  - apply He. rewrite !app_length. lia.
Qed.

Lemma layer_bytes_nonempty : forall k (l : Layer k), (1 <= length (layer_bytes l))%nat.
Proof.
  intros. unfold layer_bytes, writeProtoMsgCount, enc_varint.
  pose proof (enc_var_nonempty 10 (u32 (1 + Z.of_nat (length (l_blocks l)))) ltac:(lia)).
  destruct (enc_var 10 _); [contradiction|cbn; lia].
Qed.
Lemma flat_any_length : forall ls, (length ls <= length (flat_map any_bytes ls))%nat.
Proof.
  induction ls as [|[k l] ls IH]; [auto|]. cbn [flat_map length]. rewrite app_length.
  pose proof (layer_bytes_nonempty k l). change (any_bytes (existT _ k l)) with (layer_bytes l). lia.
Qed.

Lemma load_among : forall k (l l0 : Layer k) st pre post,
  Forall (fun a : any_layer => layer_wf (projT2 a) /\ ~ compatible l0 (projT2 a)) pre ->
  layer_wf l -> l_size l0 = l_size l -> l_vps l0 = l_vps l ->
  (forall i, In i (akeys (l_blocks l)) -> l_get l0 i = None) ->
  kChunk <= Z.of_nat (length (layer_bytes l ++ flat_map any_bytes post)) ->
  exists l', LoadBlocksFromFile (flat_map any_bytes pre ++ layer_bytes l ++ flat_map any_bytes post) st true l0
     = Some (Ok (true, l')) /\ l_size l' = l_size l /\ l_vps l' = l_vps l /\
    forall j, l_get l' j = match l_get l j with Some b => Some (stored b) | None => l_get l0 j end.
Proof.
  intros k l l0 st pre post HF WF E1 E2 Hfree HC.
  unfold LoadBlocksFromFile.
  set (r := layer_bytes l ++ flat_map any_bytes post) in *.
  assert (FL : exists f, S (length (flat_map any_bytes pre ++ r)) = (length pre + S f)%nat).
  { pose proof (flat_any_length pre). rewrite app_length.
    exists (length (flat_map any_bytes pre) - length pre + length r)%nat. lia. }
  destruct FL as (f & ->). rewrite skip_layers by auto. unfold r, layer_bytes. rewrite <- !app_assoc.
  pose proof WF as (Hs & Hv & ND & Hb & Hl).
  apply (load_selection k l l0 (l_blocks l)); auto.
Qed.

Lemma loadLayer_among : forall k (l : Layer k) pre post,
  Forall (fun a : any_layer => layer_wf (projT2 a) /\ projT1 a <> k) pre -> layer_wf l ->
  kChunk <= Z.of_nat (length (layer_bytes l ++ flat_map any_bytes post)) ->
  exists l', LoadLayer k (flat_map any_bytes pre ++ layer_bytes l ++ flat_map any_bytes post) true
     = Some (Ok (true, Some l')) /\ l_size l' = l_size l /\ l_vps l' = l_vps l /\
    forall j, l_get l' j = match l_get l j with Some b => Some (stored b) | None => None end.
Proof.
  intros k l pre post HF WF HC.
  unfold LoadLayer.
  set (r := layer_bytes l ++ flat_map any_bytes post) in *.
  assert (FL : exists f, S (length (flat_map any_bytes pre ++ r)) = (length pre + S f)%nat).
  { pose proof (flat_any_length pre). rewrite app_length.
    exists (length (flat_map any_bytes pre) - length pre + length r)%nat. lia. }
  destruct FL as (f & ->). rewrite skip_layers2 by auto. unfold r, layer_bytes. rewrite <- !app_assoc.
  pose proof WF as (Hs & Hv & ND & Hb & Hl).
  apply (loadLayer_selection k l (l_blocks l)); auto.
Qed.

(** the loops never run out of fuel *)
Lemma dec_var_rest : forall n bs v r, dec_var n bs = Some (v, r) -> (length r < length bs)%nat.
Proof.
  induction n; intros [|b bs] v r H; cbn in H; try discriminate.
  destruct (b <? 128). { injection H as <- <-. cbn; lia. }
  destruct (dec_var n bs) as [[v' r']|] eqn:E; [|discriminate]. injection H as <- <-. apply IHn in E. cbn; lia.
Qed.
Lemma read_msg_rest : forall bs fs r e, readProtoMsg bs = Some (fs, r, e) -> (length r <= length bs)%nat.
Proof.
  intros bs fs r e H. unfold readProtoMsg in H. unfold dec_varint32 in H.
  destruct (dec_var 10 bs) as [[v r1]|] eqn:E; [|discriminate]. apply dec_var_rest in E.
  destruct (_ =? 0); [discriminate|]. destruct (parse _); [|discriminate]. injection H as _ <- _.
  rewrite skipn_length. lia.
Qed.
Lemma skip_rest : forall n bs e r e', skipBlocks n bs e = Some (r, e') -> (length r <= length bs)%nat.
Proof.
  induction n; intros bs e r e' H; cbn [skipBlocks] in H. { injection H as <- <-; lia. }
  destruct (readProtoMsg bs) as [[[fs r1] e1]|] eqn:E; [|discriminate]. apply read_msg_rest in E. apply IHn in H. lia.
Qed.
Lemma load_terminates : forall k fuel st multi bs (l : Layer k), (length bs < fuel)%nat ->
  exists r, loadLoop fuel st multi bs l = Some r.
Proof.
  induction fuel; intros st multi bs l H; [lia|]. cbn [loadLoop].
  destruct (readProtoMsgCount bs) as [[num r1]|] eqn:E1; [|eauto].
  destruct (num =? 0); [eauto|].
  destruct (readProtoMsg r1) as [[[fs r2] e]|] eqn:E2; [|eauto].
  destruct (isCompatible_layer _ _); [eauto|]. destruct multi; cbn [negb]; [|eauto].
  destruct (skipBlocks _ r2 e) as [[r3 e3]|] eqn:E3; [|eauto]. destruct e3; [eauto|].
  apply IHfuel. apply read_msg_rest in E2. apply skip_rest in E3.
  unfold readProtoMsgCount, dec_varint32 in E1. destruct (dec_var 10 bs) as [[v r]|] eqn:E; [|discriminate].
  injection E1 as _ ->. apply dec_var_rest in E. lia.
Qed.
