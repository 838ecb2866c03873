(** Comparing layers (C44) and centring a layer (C42). *)
From Coq Require Import ZArith List Bool Reals Lra Lia.
From Flocq Require Import Core.
From Verif Require Import F32 F32_lemmas F32_err Types Index Voxel Assoc Assoc_lemmas Layer LayerUtils LayerUtils_spec LayerUtils_proofs Center_proofs.
Import ListNotations.
Open Scope Z_scope.

(** ** C44 *)
(** The answer is true exactly when the layers have the same geometry, the same
    block indices and the same voxels up to the tolerance. *)
Theorem C44_answer : forall k (a b : Layer k) r, regular a -> regular b -> isSameLayer a b = Ok r ->
  (r = true <-> same_layer a b).
Proof. exact isSameLayer_iff. Qed.
Print Assumptions C44_answer.
(** With equal voxels_per_side the comparison always answers, except for the voxel
    type it is not implemented for. *)
Theorem C44_answers : forall k (a b : Layer k), k <> KInt -> regular a -> regular b -> l_vps a = l_vps b ->
  exists r, isSameLayer a b = Ok r.
Proof. exact isSameLayer_ok. Qed.
Print Assumptions C44_answers.
Theorem C44_symmetric : forall k (a b : Layer k) r r', regular a -> regular b ->
  isSameLayer a b = Ok r -> isSameLayer b a = Ok r' -> r = r'.
Proof.
  intros k a b r r' Ha Hb E E'. apply isSameLayer_iff in E; auto. apply isSameLayer_iff in E'; auto.
  assert (S : same_layer a b <-> same_layer b a) by (split; apply same_layer_sym).
  destruct r, r'; auto.
  - assert (false = true) by (apply E'; apply S; apply E; auto). congruence.
  - assert (false = true) by (apply E; apply S; apply E'; auto). congruence.
Qed.
Print Assumptions C44_symmetric.
(** A layer is the same as itself when its content is finite. *)
Theorem C44_reflexive_partial : forall k (a : Layer k), k <> KInt -> regular a -> finite_layer a ->
  isSameLayer a a = Ok true.
Proof.
  intros k a K R F. destruct (isSameLayer_ok k a a K R R eq_refl) as (r & E). rewrite E. f_equal.
  apply (isSameLayer_iff k a a r R R E). apply same_layer_refl. exact F.
Qed.
Print Assumptions C44_reflexive_partial.
(** what "up to the tolerance" amounts to for the real values *)
Theorem C44_tolerance : forall a b,
  (close a b -> (Rabs (FR a - FR b) < / 10000000000 * (1 + / 1000000))%R) /\
  (ffin a = true -> ffin b = true -> (Rabs (FR a - FR b) <= / 10000000000 * (1 - / 1000000))%R -> close a b).
Proof. intros a b. split; [apply close_bound|apply close_enough]. Qed.
Print Assumptions C44_tolerance.

Definition one_vox (d : f32) : TsdfVoxel := MkTsdf d f1 (MkColor 1 2 3 255).
Definition one_block (d : f32) (i : idx3) : Block KTsdf :=
  set_voxels (k := KTsdf) [one_vox d] (new_block (k := KTsdf) 1 f1 (new_block_origin 1 f1 i)).
Definition one_layer (d : f32) : Layer KTsdf :=
  MkLayer (k := KTsdf) f1 1 [(V3 0 0 0, one_block f0 (V3 0 0 0)); (V3 (-3) 0 2, one_block d (V3 (-3) 0 2))].
Lemma one_regular : forall d, regular (one_layer d).
Proof.
  intros d. split.
  - cbn. repeat constructor; cbn; intuition discriminate.
  - intros i b H. apply alookup_In in H. destruct H as [H|[H|[]]]; injection H as <- <-; reflexivity.
Qed.
(** the theorems apply to a layer of two blocks, and the answer is not constant *)
Example C44_example : regular (one_layer f1) /\ finite_layer (one_layer f1) /\
  isSameLayer (one_layer f1) (one_layer f1) = Ok true /\ isSameLayer (one_layer f1) (one_layer f0) = Ok false.
Proof.
  split; [apply one_regular|]. split; [|split; vm_compute; reflexivity].
  split; [reflexivity|]. split; [vm_compute; reflexivity|].
  intros i b H. apply alookup_In in H. destruct H as [H|[H|[]]]; injection H as <- <-;
    (split; [reflexivity|split; [vm_compute; reflexivity|split; [vm_compute; auto|repeat constructor]]]).
Qed.
(** A layer with a NaN (or infinite) distance is not the same as itself. *)
Theorem C44_reflexive_refuted : exists a : Layer KTsdf, regular a /\ isSameLayer a a = Ok false.
Proof. exists (one_layer nan32). split; [apply one_regular|vm_compute; reflexivity]. Qed.
Print Assumptions C44_reflexive_refuted.
(** With different voxels_per_side the comparison reads past the end of the
    smaller block, instead of answering false. *)
Definition two_layer : Layer KTsdf := MkLayer (k := KTsdf) f1 2 [(V3 0 0 0, new_block (k := KTsdf) 2 f1 (V3 f0 f0 f0))].
Theorem C44_answers_refuted : exists a b : Layer KTsdf, regular a /\ regular b /\
  isSameLayer a b = UB /\ isSameLayer b a <> UB.
Proof.
  exists two_layer, (one_layer f0). split; [|split; [apply one_regular|split; vm_compute; [reflexivity|discriminate]]].
  split; [repeat constructor; intros []|]. intros i b H. apply alookup_In in H. destruct H as [H|[]]; injection H as <- <-. reflexivity.
Qed.
Print Assumptions C44_answers_refuted.

(** ** C42 *)
(** All blocks move by the same index offset [s]; nothing is lost or added; voxels,
    flags and geometry are kept; the reported translation is [s] block sizes. *)
Theorem C42_shift : forall k (l l' : Layer k) o, NoDup (getAllAllocatedBlocks l) -> centerBlocksOfLayer l = Ok (l', o) ->
  exists s, o = map3 (fun z => fmul (f32_of_Z z) (l_block_size l)) s /\
    l_size l' = l_size l /\ l_vps l' = l_vps l /\
    getNumberOfAllocatedBlocks l' = getNumberOfAllocatedBlocks l /\
    forall i, match l_get l i, l_get l' (idx_sub i s) with
              | None, None => True
              | Some b, Some b' => moved o b b'
              | _, _ => False
              end.
Proof.
  intros k l l' o N E. destruct (center_shape k l l' o N E) as (s & _ & Eo & ->). exists s. split; [exact Eo|].
  split; [reflexivity|]. split; [reflexivity|]. split; [apply map_length|].
  intros i. unfold l_get. cbn [with_blocks l_blocks]. rewrite alookup_shift. destruct (alookup i (l_blocks l)); cbn [option_map]; [|auto].
  repeat split.
Qed.
Print Assumptions C42_shift.
(** The call succeeds for every non-empty layer of moderate extent. *)
Theorem C42_succeeds : forall k (l : Layer k), moderate l -> exists l' o, centerBlocksOfLayer l = Ok (l', o).
Proof.
  intros k l M. destruct (moderate_centroid k l M) as (s & E & (X & Y & Z)). destruct M as (N & _ & _ & _ & _ & H).
  apply (center_total k l s N E). intros i b B. destruct (H i b B) as ((P & Q & R) & _).
  unfold all3, idx_sub, zip3. cbn [vx vy vz]. lia.
Qed.
Print Assumptions C42_succeeds.
(** Adding the reported translation to the new origin of a block gives back the old
    origin, up to one rounding. *)
Theorem C42_undo : forall k (l l' : Layer k) o, moderate l -> centerBlocksOfLayer l = Ok (l', o) ->
  exists s, forall i b b', l_get l i = Some b -> l_get l' (idx_sub i s) = Some b' ->
    forall c, In c [vx; vy; vz] ->
      ffin (c o) = true /\ ffin (c (b_origin b')) = true /\
      (Rabs (FR (c (b_origin b')) + FR (c o) - FR (c (b_origin b))) <= / 2 ^ 24 * Rabs (FR (c (b_origin b)) - FR (c o)))%R.
Proof.
  intros k l l' o M E. destruct (moderate_centroid k l M) as (s & Es & (X & Y & Z)).
  pose proof M as (N & _ & _ & Fb & Bb & H).
  destruct (center_shape k l l' o N E) as (s' & Es' & Eo & ->). assert (s' = s) by congruence. subst s'. exists s.
  intros i b b' G G' c C. unfold l_get in G'. cbn [with_blocks l_blocks] in G'. rewrite alookup_shift in G'.
  unfold l_get in G. rewrite G in G'. cbn [option_map] in G'. injection G' as <-.
  destruct (H i b G) as (_ & (P & Q & R)).
  assert (Ax : forall z x, Z.abs z <= 2 ^ 23 -> ffin x = true /\ (Rabs (FR x) <= 2 ^ 20 * FR (l_block_size l))%R ->
    let t := fmul (f32_of_Z z) (l_block_size l) in
    ffin t = true /\ ffin (fsub x t) = true /\ (Rabs (FR (fsub x t) + FR t - FR x) <= / 2 ^ 24 * Rabs (FR x - FR t))%R).
  { clear -Fb Bb. intros z x Bz (Fx & Bx) t.
    destruct (f32_of_Z_R z) as (Ez & Fz); [lia|].
    assert (B1 : (Rabs (FR (f32_of_Z z) * FR (l_block_size l)) <= bpow radix2 63)%R).
    { apply Rabs_mul_bpow with 23 40; [| |lia].
      - rewrite Ez, <- abs_IZR. change (bpow radix2 23) with (IZR (2 ^ 23)). apply IZR_le. auto.
      - rewrite Rabs_pos_eq; [cbn; lra|]. destruct Bb as (Bb & _). apply Rle_trans with (2 := Bb). lra. }
    assert (M1 : (bpow radix2 63 <= bpow radix2 127)%R) by (apply bpow_le; lia).
    destruct (fmul_rel (f32_of_Z z) (l_block_size l) Fz Fb) as (Ft & d & e & Bd & Be & Et); [lra|].
    destruct (fmul_R (f32_of_Z z) (l_block_size l) Fz Fb) as (Et2 & _). { apply rnd32_small. lra. }
    fold t in Ft, Et, Et2. split; [auto|].
    assert (Bt : (Rabs (FR t) <= bpow radix2 63)%R). { rewrite Et2. apply Rabs_rnd_bpow; [lia|auto]. }
    assert (B2 : (Rabs (FR x - FR t) <= bpow radix2 64)%R).
    { apply Rabs_sub_bpow with 63 63; auto; try lia. apply Rle_trans with (1 := Bx). cbn. lra. }
    destruct (fsub_rel x t Fx Ft) as (Fs & r & Br & Er). { apply Rle_trans with (1 := B2). apply bpow_le. lia. }
    split; [auto|]. rewrite Er. replace ((FR x - FR t) * (1 + r) + FR t - FR x)%R with (r * (FR x - FR t))%R by ring.
    rewrite Rabs_mult. apply Rmult_le_compat_r; [apply Rabs_pos|]. unfold u32r in Br. lra. }
  subst o. destruct C as [<-|[<-|[<-|[]]]]; [apply (Ax _ _ X P)|apply (Ax _ _ Y Q)|apply (Ax _ _ Z R)].
Qed.
Print Assumptions C42_undo.

Definition far_layer : Layer KTsdf :=
  MkLayer (k := KTsdf) f1 1 [(V3 7 0 (-2), one_block f1 (V3 7 0 (-2))); (V3 4 0 (-2), one_block f0 (V3 4 0 (-2)))].
Lemma word_eq : forall x y, fword x = fword y -> x = y.
Proof. intros x y H. rewrite <- (fbits_fword x), <- (fbits_fword y), H. reflexivity. Qed.
Lemma word3_eq : forall p q, map3 fword p = map3 fword q -> p = q.
Proof.
  intros [a b c] [d e f] H. unfold map3 in H. cbn [vx vy vz] in H.
  f_equal; apply word_eq; [apply (f_equal vx) in H|apply (f_equal vy) in H|apply (f_equal vz) in H]; exact H.
Qed.
Example C42_example : moderate far_layer /\
  match centerBlocksOfLayer far_layer with
  | Ok (l', o) => getAllAllocatedBlocks l' = [V3 1 0 (-1); V3 (-2) 0 (-1)] /\ map3 fword o = map3 fword (V3 (f32_of_Z 6) f0 (f32_of_Z (-1)))
  | _ => False
  end.
Proof.
  assert (F1 : FR (l_block_size far_layer) = 1%R).
  { replace (l_block_size far_layer) with (f32_of_Z 1) by (apply word_eq; vm_compute; reflexivity). apply (f32_of_Z_R 1). lia. }
  assert (Fz : forall z, Z.abs z <= 8 -> ffin (f32_of_Z z) = true /\ (Rabs (FR (f32_of_Z z)) <= 2 ^ 20 * FR (l_block_size far_layer))%R).
  { intros z B. destruct (f32_of_Z_R z) as (E & F); [lia|]. split; [auto|]. rewrite F1, E, <- abs_IZR.
    apply Rle_trans with (IZR 8); [apply IZR_le; auto|]. cbn. lra. }
  split; [|vm_compute; auto]. split; [|split; [|split; [|split; [|split]]]].
  - unfold getAllAllocatedBlocks, far_layer. cbn [l_blocks akeys map fst]. constructor; [intros [H|[]]; discriminate H|constructor; [intros []|constructor]].
  - cbn. lia.
  - vm_compute. discriminate.
  - vm_compute. reflexivity.
  - rewrite F1. cbn. lra.
  - intros i b H. apply alookup_In in H. destruct H as [H|[H|[]]]; injection H as <- <-.
    + split; [vm_compute; repeat split; discriminate|].
      replace (b_origin (one_block f1 (V3 7 0 (-2)))) with (V3 (f32_of_Z 7) (f32_of_Z 0) (f32_of_Z (-2))) by (apply word3_eq; vm_compute; reflexivity).
      repeat split; apply Fz; lia.
    + split; [vm_compute; repeat split; discriminate|].
      replace (b_origin (one_block f0 (V3 4 0 (-2)))) with (V3 (f32_of_Z 4) (f32_of_Z 0) (f32_of_Z (-2))) by (apply word3_eq; vm_compute; reflexivity).
      repeat split; apply Fz; lia.
Qed.
(** On an empty layer the centroid is 0/0, and its cast to an index is undefined.
    That is why C42 asks for a non-empty layer. *)
Example C42_empty : centerBlocksOfLayer (MkLayer (k := KTsdf) f1 1 []) = UB.
Proof. vm_compute. reflexivity. Qed.

(** ** C100 *)
(** [getMemorySize] of a layer counts every block with all its voxels, although the code
    only looks at one block: all blocks of a layer have the same number of voxels. *)
Lemma same_blocks_bytes : forall k n (m : amap (Block k)), Forall (fun kb => length (b_voxels (snd kb)) = n) m ->
  fold_right Z.add 0 (map (fun kb => bytes_of_block (snd kb)) m) = Z.of_nat (length m) * (49 + Z.of_nat n * voxel_bytes k).
Proof.
  intros k n m H. induction H as [|kb m E H IH]; [reflexivity|]. cbn [map fold_right length]. rewrite IH. unfold bytes_of_block. rewrite E.
  replace (bytes_of_voxel k) with (voxel_bytes k) by (destruct k; reflexivity). rewrite Nat2Z.inj_succ. ring.
Qed.
Theorem C100_memory : forall k (l : Layer k) n, Forall (fun kb => length (b_voxels (snd kb)) = n) (l_blocks l) ->
  bytes_of_layer l < 2 ^ 64 -> layer_bytes l = bytes_of_layer l.
Proof.
  intros k l n H L. unfold bytes_of_layer in *. rewrite (same_blocks_bytes k n _ H) in *. unfold layer_bytes. destruct (l_blocks l) as [|(i, b) m] eqn:E; [reflexivity|].
  pose proof (Forall_inv H) as B. cbn [snd] in B. unfold block_bytes. rewrite B.
  assert (V : 0 < voxel_bytes k) by (destruct k; reflexivity). cbn [length] in *. rewrite Nat2Z.inj_succ in *.
  set (w := 49 + Z.of_nat n * voxel_bytes k) in *. assert (W : 0 <= w) by (unfold w; nia). assert (K : 0 <= Z.of_nat (length m)) by lia.
  assert (w <= Z.succ (Z.of_nat (length m)) * w) by nia. unfold u64. rewrite (Z.mod_small w) by lia. rewrite Z.mod_small by lia. lia.
Qed.
Print Assumptions C100_memory.
(** A new block adds exactly its own size, and removing all blocks leaves the empty layer's. *)
Theorem C100_grows : forall k (l : Layer k) n i b, Forall (fun kb => length (b_voxels (snd kb)) = n) (l_blocks l) -> length (b_voxels b) = n ->
  l_get l i = None -> bytes_of_layer l + bytes_of_block b < 2 ^ 64 ->
  layer_bytes (insertBlock l i b) = layer_bytes l + bytes_of_block b /\ layer_bytes (removeAllBlocks l) = layer_bytes (MkLayer (k := k) (l_size l) (l_vps l) []).
Proof.
  intros k l n i b H B N L. split; [|reflexivity].
  assert (P : 0 <= bytes_of_block b) by (unfold bytes_of_block; destruct k; cbn [bytes_of_voxel]; lia).
  assert (E : l_blocks (insertBlock l i b) = l_blocks l ++ [(i, b)]) by (unfold insertBlock, ainsert, l_get in *; cbn [l_blocks with_blocks]; rewrite N; reflexivity).
  assert (S : bytes_of_layer (insertBlock l i b) = bytes_of_layer l + bytes_of_block b).
  { unfold bytes_of_layer. rewrite E, map_app, fold_right_app. cbn [map fold_right snd]. rewrite Z.add_0_r.
    assert (G : forall zs a, fold_right Z.add a zs = fold_right Z.add 0 zs + a) by (induction zs as [|z zs IH]; intros a; cbn [fold_right]; [lia|rewrite (IH a); lia]).
    rewrite (G _ (bytes_of_block b)). lia. }
  rewrite (C100_memory k l n H), <- S by lia. apply (C100_memory k _ n); [|lia]. rewrite E. apply Forall_app. split; [exact H|]. repeat constructor. exact B.
Qed.
Print Assumptions C100_grows.
(** a TSDF layer of two blocks of 2 x 2 x 2 voxels *)
Example C100_example : let b := new_block (k := KTsdf) 2 f1 (V3 f0 f0 f0) in
  let l := MkLayer (k := KTsdf) f1 2 [(V3 0 0 0, b); (V3 1 0 0, b)] in
  Forall (fun kb => length (b_voxels (snd kb)) = 8%nat) (l_blocks l) /\ bytes_of_layer l < 2 ^ 64 /\
  layer_bytes l = 20 + 2 * (49 + 8 * 12) /\ l_get l (V3 0 1 0) = None.
Proof. repeat split; repeat constructor. Qed.
