(** Proofs about [Index]. *)
From Coq Require Import ZArith List Bool Lia Reals Lra Psatz ZifyBool.
From Flocq Require Import Core.
From Verif Require Import F32 F32_lemmas Types Index.
Open Scope Z_scope.
Ltac Zify.zify_post_hook ::= Z.div_mod_to_equations.

Lemma v3_eq : forall A (a b : v3 A), vx a = vx b -> vy a = vy b -> vz a = vz b -> a = b.
Proof. intros A [a b c] [d e f]; simpl; intros; subst; reflexivity. Qed.

Lemma seq3_Some : forall A (v : v3 (option A)) w, seq3 v = Some w <->
  vx v = Some (vx w) /\ vy v = Some (vy w) /\ vz v = Some (vz w).
Proof.
  intros A [a b c] [x y z]; unfold seq3; simpl.
  destruct a, b, c; split; intros H; try discriminate; try (destruct H as (?&?&?); discriminate).
  - injection H as -> -> ->. auto.
  - destruct H as (H1&H2&H3). congruence.
Qed.

Lemma wrap32_id : forall z, - 2 ^ 31 <= z < 2 ^ 31 -> wrap32 z = z.
Proof. intros z H. unfold wrap32. rewrite Z.mod_small; lia. Qed.

(** *** power-of-two local index *)
Lemma land_pow2 : forall a k, 0 <= k -> Z.land a (2 ^ k - 1) = a mod 2 ^ k.
Proof. intros. rewrite <- Z.land_ones by auto. f_equal. rewrite Z.ones_equiv. lia. Qed.

Lemma isPowerOfTwo_pow2 : forall k, 0 <= k -> isPowerOfTwo (2 ^ k) = true.
Proof.
  intros k Hk. unfold isPowerOfTwo. rewrite land_pow2 by auto.
  rewrite Z.mod_same; auto. apply Z.pow_nonzero; lia.
Qed.

Lemma local_axis_spec : forall g k, 0 <= k <= 30 ->
  - 2 ^ 63 + 2 ^ 31 <= g < 2 ^ 63 -> local_axis g (2 ^ k) = Some (g mod 2 ^ k).
Proof.
  intros g k Hk Hg. unfold local_axis, in_range.
  replace ((- 2 ^ 63 <=? g + - 2 ^ 31) && (g + - 2 ^ 31 <=? 2 ^ 63 - 1))%bool with true by lia.
  rewrite land_pow2 by lia. f_equal.
  assert (E: (g + - 2 ^ 31) mod 2 ^ k = g mod 2 ^ k).
  { replace (- 2 ^ 31) with ((- 2 ^ (31 - k)) * 2 ^ k).
    - apply Z.mod_add. apply Z.pow_nonzero; lia.
    - rewrite Z.mul_opp_l, <- Z.pow_add_r by lia. repeat f_equal. lia. }
  rewrite E. apply wrap32_id.
  pose proof (Z.mod_pos_bound g (2 ^ k) ltac:(apply Z.pow_pos_nonneg; lia)).
  assert (2 ^ k <= 2 ^ 30) by (apply Z.pow_le_mono_r; lia). lia.
Qed.

(** *** block index through floats *)
Lemma vps_inv_common_R : forall k, 0 <= k <= 30 ->
  FR (vps_inv_common (2 ^ k)) = bpow radix2 (- k) /\ ffin (vps_inv_common (2 ^ k)) = true.
Proof.
  intros k Hk. unfold vps_inv_common.
  assert (P: 0 < 2 ^ k <= 2 ^ 30).
  { split. apply Z.pow_pos_nonneg; lia. apply Z.pow_le_mono_r; lia. }
  destruct (f64_of_Z_R 1) as (E1 & F1). { lia. }
  destruct (f64_of_Z_R (2 ^ k)) as (E2 & F2). { lia. }
  change (f64_of_Z 1) with d1 in *.
  assert (B: (DR d1 / DR (f64_of_Z (2 ^ k)) = bpow radix2 (- k))%R).
  { rewrite E1, E2. rewrite bpow_opp. rewrite <- IZR_Zpower by lia.
    change (radix2 : Z) with 2. unfold Rdiv. ring. }
  assert (X: (rnd64 (bpow radix2 (-k)) = bpow radix2 (-k))%R).
  { pose proof (rnd64_exact 1 (-k) ltac:(lia) ltac:(lia)) as X.
    rewrite Rmult_1_l in X. exact X. }
  assert (X': (rnd32 (bpow radix2 (-k)) = bpow radix2 (-k))%R).
  { pose proof (rnd32_exact 1 (-k) ltac:(lia) ltac:(lia)) as X'.
    rewrite Rmult_1_l in X'. exact X'. }
  destruct (ddiv_R d1 (f64_of_Z (2 ^ k))) as (E3 & F3); auto.
  - rewrite E2. apply not_0_IZR. lia.
  - rewrite B, X. rewrite Rabs_pos_eq by apply bpow_ge_0. apply bpow_lt. lia.
  - rewrite B, X in E3.
    destruct (f32_of_f64_R _ F3) as (E4 & F4).
    + rewrite E3, X'. rewrite Rabs_pos_eq by apply bpow_ge_0. apply bpow_lt. lia.
    + split; auto. rewrite E4, E3. exact X'.
Qed.

Lemma vps_inv_layer_R : forall k, 0 <= k <= 24 ->
  FR (vps_inv_layer (2 ^ k)) = bpow radix2 (- k) /\ ffin (vps_inv_layer (2 ^ k)) = true.
Proof.
  intros k Hk. unfold vps_inv_layer.
  assert (P: 0 < 2 ^ k <= 2 ^ 24).
  { split. apply Z.pow_pos_nonneg; lia. apply Z.pow_le_mono_r; lia. }
  destruct (f32_of_Z_R 1) as (E1 & F1). { lia. }
  destruct (f32_of_Z_R (2 ^ k)) as (E2 & F2). { lia. }
  change (f32_of_Z 1) with f1 in *.
  assert (B: (FR f1 / FR (f32_of_Z (2 ^ k)) = bpow radix2 (- k))%R).
  { rewrite E1, E2. rewrite bpow_opp. rewrite <- IZR_Zpower by lia.
    change (radix2 : Z) with 2. unfold Rdiv. ring. }
  assert (X': (rnd32 (bpow radix2 (-k)) = bpow radix2 (-k))%R).
  { pose proof (rnd32_exact 1 (-k) ltac:(lia) ltac:(lia)) as X'.
    rewrite Rmult_1_l in X'. exact X'. }
  destruct (fdiv_R f1 (f32_of_Z (2 ^ k))) as (E3 & F3); auto.
  - rewrite E2. apply not_0_IZR. lia.
  - rewrite B, X'. rewrite Rabs_pos_eq by apply bpow_ge_0. apply bpow_lt. lia.
  - rewrite B, X' in E3. auto.
Qed.

Lemma block_axis_spec : forall g k inv, 0 <= k <= 30 -> Z.abs g <= 2 ^ 24 ->
  FR inv = bpow radix2 (- k) -> ffin inv = true ->
  block_axis g inv = Some (g / 2 ^ k).
Proof.
  intros g k inv Hk Hg E F. unfold block_axis.
  destruct (f32_of_Z_R g Hg) as (Eg & Fg).
  assert (X: (rnd32 (IZR g * bpow radix2 (- k)) = IZR g * bpow radix2 (- k))%R)
    by (apply rnd32_exact; lia).
  destruct (fmul_R (f32_of_Z g) inv Fg F) as (E1 & F1).
  - rewrite Eg, E, X. rewrite Rabs_mult, (Rabs_pos_eq (bpow _ _)) by apply bpow_ge_0.
    eapply Rle_lt_trans.
    + apply Rmult_le_compat; [apply Rabs_pos|apply bpow_ge_0|apply (IZR_lt_bpow g 24 Hg); lia|].
      apply (bpow_le radix2 (-k) 0). lia.
    + rewrite <- bpow_plus. apply bpow_lt. lia.
  - rewrite Eg, E, X in E1. rewrite ffloorZ_R by auto. rewrite E1.
    rewrite <- Zfloor_me_spec. unfold Zfloor_me.
    assert (Q: (if 0 <=? - k then g * 2 ^ - k else g / 2 ^ - - k) = g / 2 ^ k).
    { destruct (Z.leb_spec 0 (-k)).
      - replace k with 0 by lia. simpl. rewrite Z.div_1_r. lia.
      - rewrite Z.opp_involutive. reflexivity. }
    rewrite Q. apply in_range_Some. split; auto.
    assert (1 <= 2 ^ k) by (apply (Z.pow_le_mono_r 2 0 k); lia).
    assert (- 2 ^ 24 <= g / 2 ^ k).
    { apply Z.div_le_lower_bound; [lia|]. nia. }
    assert (g / 2 ^ k <= 2 ^ 24).
    { apply Z.div_le_upper_bound; [lia|]. nia. }
    lia.
Qed.

Lemma blockIndex_spec : forall g k inv, 0 <= k <= 30 ->
  all3 (fun c => Z.abs c <= 2 ^ 24) g ->
  FR inv = bpow radix2 (- k) -> ffin inv = true ->
  getBlockIndexFromGlobalVoxelIndex g inv = Some (map3 (fun c => c / 2 ^ k) g).
Proof.
  intros [x y z] k inv Hk (Hx & Hy & Hz) E F. unfold getBlockIndexFromGlobalVoxelIndex.
  apply seq3_Some; simpl in *. repeat split; apply block_axis_spec; auto.
Qed.

Lemma localIndex_spec : forall g k, 0 <= k <= 30 ->
  all3 (fun c => - 2 ^ 63 + 2 ^ 31 <= c < 2 ^ 63) g ->
  getLocalFromGlobalVoxelIndex g (2 ^ k) = Ok (map3 (fun c => c mod 2 ^ k) g).
Proof.
  intros [x y z] k Hk (Hx & Hy & Hz). unfold getLocalFromGlobalVoxelIndex.
  rewrite isPowerOfTwo_pow2 by lia. simpl in *.
  assert (S: seq3 (map3 (fun c => local_axis c (2 ^ k)) (V3 x y z)) =
             Some (map3 (fun c => c mod 2 ^ k) (V3 x y z))).
  { apply seq3_Some; simpl; repeat split; apply local_axis_spec; auto. }
  unfold map3 in *; simpl in *. rewrite S. reflexivity.
Qed.

Lemma split_spec : forall g k, 0 <= k <= 30 ->
  all3 (fun c => Z.abs c <= 2 ^ 24) g ->
  getBlockAndVoxelIndexFromGlobalVoxelIndex g (2 ^ k) =
  Ok (map3 (fun c => c / 2 ^ k) g, map3 (fun c => c mod 2 ^ k) g).
Proof.
  intros g k Hk Hg. unfold getBlockAndVoxelIndexFromGlobalVoxelIndex.
  destruct (vps_inv_common_R k Hk) as (E & F).
  rewrite (blockIndex_spec g k _ Hk Hg E F). simpl.
  rewrite localIndex_spec; auto.
  destruct Hg as (?&?&?). repeat split; lia.
Qed.

Lemma layer_split_spec : forall g k, 0 <= k <= 24 ->
  all3 (fun c => Z.abs c <= 2 ^ 24) g ->
  layerAddressOfGlobalIndex g (2 ^ k) =
  Ok (map3 (fun c => c / 2 ^ k) g, map3 (fun c => c mod 2 ^ k) g).
Proof.
  intros g k Hk Hg. unfold layerAddressOfGlobalIndex.
  destruct (vps_inv_layer_R k Hk) as (E & F).
  rewrite (blockIndex_spec g k _ ltac:(lia) Hg E F). simpl.
  rewrite localIndex_spec; auto. lia.
  destruct Hg as (?&?&?). repeat split; lia.
Qed.

Lemma pow2_pos : forall k, 0 <= k -> 0 < 2 ^ k.
Proof. intros. apply Z.pow_pos_nonneg; lia. Qed.

Lemma split_join : forall g k, 0 <= k <= 30 ->
  all3 (fun c => Z.abs c <= 2 ^ 24) g ->
  exists b v, getBlockAndVoxelIndexFromGlobalVoxelIndex g (2 ^ k) = Ok (b, v) /\
    all3 (fun c => 0 <= c < 2 ^ k) v /\
    getGlobalVoxelIndexFromBlockAndVoxelIndex b v (2 ^ k) = g.
Proof.
  intros g k Hk Hg. rewrite split_spec by auto.
  do 2 eexists. split; [reflexivity|].
  pose proof (pow2_pos k ltac:(lia)).
  destruct g as [x y z]. split.
  - repeat split; simpl; apply Z.mod_pos_bound; auto.
  - apply v3_eq; simpl;
    match goal with |- ?c / _ * _ + _ = _ => pose proof (Z.div_mod c (2 ^ k) ltac:(lia)); lia end.
Qed.

Lemma join_split : forall b v k, 0 <= k <= 30 ->
  all3 (fun c => 0 <= c < 2 ^ k) v ->
  all3 (fun c => Z.abs c <= 2 ^ 24) (getGlobalVoxelIndexFromBlockAndVoxelIndex b v (2 ^ k)) ->
  getBlockAndVoxelIndexFromGlobalVoxelIndex
    (getGlobalVoxelIndexFromBlockAndVoxelIndex b v (2 ^ k)) (2 ^ k) = Ok (b, v).
Proof.
  intros [bx by_ bz] [x y z] k Hk (Hx & Hy & Hz) Hg. simpl in *.
  rewrite split_spec by auto. pose proof (pow2_pos k ltac:(lia)).
  assert (D: forall b x, 0 <= x < 2 ^ k -> (b * 2 ^ k + x) / 2 ^ k = b).
  { intros. rewrite Z.div_add_l by lia. rewrite Z.div_small by auto. lia. }
  assert (M: forall b x, 0 <= x < 2 ^ k -> (b * 2 ^ k + x) mod 2 ^ k = x).
  { intros. rewrite Z.add_comm, Z.mod_add by lia. apply Z.mod_small; auto. }
  f_equal; f_equal; apply v3_eq; simpl; auto.
Qed.

(** *** linear index *)
Lemma linear_range : forall vps i, 0 < vps -> all3 (fun c => 0 <= c < vps) i ->
  0 <= vx i + vps * (vy i + vz i * vps) < vps * vps * vps.
Proof. intros vps [x y z] Hv (Hx & Hy & Hz). simpl in *. nia. Qed.

Lemma linear_lt : forall vps i, 0 < vps -> vps * vps * vps <= 2 ^ 64 ->
  all3 (fun c => 0 <= c < vps) i ->
  computeLinearIndexFromVoxelIndex vps i = vx i + vps * (vy i + vz i * vps) /\
  0 <= computeLinearIndexFromVoxelIndex vps i < vps * vps * vps.
Proof.
  intros vps i Hv H3 Hi. pose proof (linear_range vps i Hv Hi).
  unfold computeLinearIndexFromVoxelIndex, u64. rewrite Z.mod_small by lia. auto.
Qed.

Lemma linear_roundtrip : forall vps i, 0 < vps -> vps * vps * vps <= 2 ^ 31 ->
  all3 (fun c => 0 <= c < vps) i ->
  computeVoxelIndexFromLinearIndex vps (computeLinearIndexFromVoxelIndex vps i) = Some i.
Proof.
  intros vps i Hv H3 Hi.
  destruct (linear_lt vps i Hv ltac:(lia) Hi) as (E & R).
  destruct i as [x y z]. destruct Hi as (Hx & Hy & Hz). simpl in *.
  assert (vps <= vps * vps) by nia. assert (vps * vps <= vps * vps * vps) by nia.
  assert (S: vps < 2 ^ 31 /\ vps * vps < 2 ^ 31).
  { destruct (Z.eq_dec vps 1). subst; lia.
    assert (2 * (vps * vps) <= vps * vps * vps) by nia. lia. }
  unfold computeVoxelIndexFromLinearIndex.
  rewrite (wrap32_id (computeLinearIndexFromVoxelIndex _ _)) by lia.
  unfold u64. rewrite (Z.mod_small (vps * vps)) by lia.
  rewrite !wrap32_id by lia.
  replace ((vps * vps =? 0) || (vps =? 0))%bool with false by lia.
  rewrite E. f_equal.
  set (l := x + vps * (y + z * vps)) in *.
  assert (Q: Z.quot l (vps * vps) = z).
  { rewrite Z.quot_div_nonneg by lia. symmetry.
    apply Z.div_unique with (r := x + vps * y). left; nia. unfold l; nia. }
  assert (M: Z.rem l (vps * vps) = x + vps * y).
  { rewrite Z.rem_mod_nonneg by lia. symmetry.
    apply Z.mod_unique with (q := z). left; nia. unfold l; nia. }
  rewrite Q, M. f_equal.
  - rewrite Z.rem_mod_nonneg by nia. symmetry. apply Z.mod_unique with (q := y). left; nia. nia.
  - rewrite Z.quot_div_nonneg by nia. symmetry. apply Z.div_unique with (r := x). left; nia. nia.
Qed.

Lemma linear_inverse : forall vps l, 0 < vps -> vps * vps * vps <= 2 ^ 31 ->
  0 <= l < vps * vps * vps ->
  exists i, computeVoxelIndexFromLinearIndex vps l = Some i /\
    all3 (fun c => 0 <= c < vps) i /\ computeLinearIndexFromVoxelIndex vps i = l.
Proof.
  intros vps l Hv H3 Hl.
  set (i := V3 (l mod (vps * vps) mod vps) (l mod (vps * vps) / vps) (l / (vps * vps))).
  assert (0 < vps * vps) by nia.
  pose proof (Z.mod_pos_bound l (vps * vps) H) as B1.
  pose proof (Z.mod_pos_bound (l mod (vps * vps)) vps Hv) as B2.
  pose proof (Z.div_mod l (vps * vps) ltac:(lia)) as D1.
  pose proof (Z.div_mod (l mod (vps * vps)) vps ltac:(lia)) as D2.
  assert (I: all3 (fun c => 0 <= c < vps) i).
  { unfold i; repeat split; simpl; try lia.
    - apply Z.div_pos; lia.
    - apply Z.div_lt_upper_bound; lia.
    - apply Z.div_pos; lia.
    - apply Z.div_lt_upper_bound; lia. }
  assert (E: computeLinearIndexFromVoxelIndex vps i = l).
  { destruct (linear_lt vps i Hv ltac:(lia) I) as (E & _). rewrite E. unfold i; simpl. lia. }
  exists i. split; auto. rewrite <- E at 1. apply linear_roundtrip; auto.
Qed.

(** *** truncated lookup *)
Lemma clamp_axis_range : forall vps i, 0 < vps -> 0 <= clamp_axis vps i < vps.
Proof. intros. unfold clamp_axis. lia. Qed.
Lemma clamp_axis_id : forall vps i, 0 <= i < vps -> clamp_axis vps i = i.
Proof. intros. unfold clamp_axis. lia. Qed.
