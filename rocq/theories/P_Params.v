(** C112: the settings read from the parameters. *)
From Coq Require Import ZArith String List Bool Reals Lra Lia.
From Flocq Require Import Core.
From Verif Require Import F32 F32_lemmas F32_err Proto_proofs Types Index Index_proofs Index_float Voxel Layer Update Cloud MeshInt Queue Esdf Esdf_spec P_EvalPoses Sim_proofs Params Params_spec.
From Verif Require Icp P_Icp.
Import ListNotations.
Open Scope string_scope.
Open Scope Z_scope.
Ltac Zify.zify_post_hook ::= idtac.

(** ** voxels per side *)
Lemma power_iff : forall n, 0 < n -> (isPowerOfTwo n = true <-> power_of_two n).
Proof.
  intros n H. split.
  - intros E. unfold isPowerOfTwo in E. apply Z.eqb_eq in E. exists (Z.log2 n). split; [apply Z.log2_nonneg|].
    destruct (Z.log2_spec n H) as (L & U). destruct (Z.eq_dec n (2 ^ Z.log2 n)) as [|N]; auto. exfalso.
    assert (Q : Z.log2 (n - 1) = Z.log2 n) by (apply Z.log2_unique; [apply Z.log2_nonneg | lia]).
    assert (P : 0 < 2 ^ Z.log2 n) by (apply Z.pow_pos_nonneg; [lia | apply Z.log2_nonneg]).
    assert (B : Z.testbit (Z.land n (n - 1)) (Z.log2 n) = true).
    { rewrite Z.land_spec, (Z.bit_log2 n H). rewrite <- Q. apply Z.bit_log2. lia. }
    rewrite E, Z.bits_0 in B. discriminate B.
  - intros (k & K & ->). apply isPowerOfTwo_pow2. exact K.
Qed.
Lemma power_neg : forall n, - 2 ^ 31 <= n < 0 -> isPowerOfTwo n = false.
Proof.
  intros n H. unfold isPowerOfTwo. apply Z.eqb_neq. intros E.
  assert (B : Z.land n (n - 1) < 0) by (apply Z.land_neg; lia). lia.
Qed.
(** The number of voxels per side is always a power of two: the one given if it is one, and
    16 otherwise. Missing: zero, which is let through, and the smallest int. *)
Theorem C112_sides_partial : forall P,
  (forall n, p_int P "tsdf_voxels_per_side" = Some n -> is_int n /\ n <> 0 /\ n <> - 2 ^ 31) ->
  exists size sides, tsdf_map_config P = Ok (size, sides) /\ power_of_two sides /\ 1 <= sides <= 2 ^ 30 /\
    match p_int P "tsdf_voxels_per_side" with
    | Some n => (power_of_two n -> sides = n) /\ (~ power_of_two n -> sides = 16)
    | None => sides = 16
    end.
Proof.
  intros P H. assert (P16 : power_of_two 16) by (exists 4; split; [lia | reflexivity]).
  unfold tsdf_map_config, int32, or_default. destruct (p_int P "tsdf_voxels_per_side") as [n|] eqn:E.
  - destruct (H n eq_refl) as (I & N0 & Nm). unfold is_int in I. destruct (Z.eqb_spec n (- 2 ^ 31)); [lia|].
    eexists _, _. split; [reflexivity|]. destruct (Z_lt_le_dec n 0) as [L|L].
    + rewrite power_neg by lia. split; auto. split; [lia|]. split; [|auto]. intros (k & K & ->). pose proof (Z.pow_nonneg 2 k). lia.
    + destruct (isPowerOfTwo n) eqn:B.
      * apply power_iff in B; [|lia]. split; auto. split; [|split; [auto | intros F; contradiction]]. destruct B as (k & K & ->).
        assert (k < 31). { apply (Z.pow_lt_mono_r_iff 2); lia. } split; [lia|]. apply Z.pow_le_mono_r; lia.
      * split; auto. split; [lia|]. split; auto. intros Q. apply power_iff in Q; [|lia]. congruence.
  - cbn. eexists _, _. split; [reflexivity|]. split; auto. split; [lia | reflexivity].
Qed.
Print Assumptions C112_sides_partial.
(** Not so: any int is replaced unless it is a power of two. Zero is kept, and no layer can be
    made with it; the check of the smallest int overflows. *)
Theorem C112_sides_refuted : forall P,
  (p_int P "tsdf_voxels_per_side" = Some 0 -> exists size, tsdf_map_config P = Ok (size, 0) /\ new_layer KTsdf size 0 = Abort) /\
  (p_int P "tsdf_voxels_per_side" = Some (- 2 ^ 31) -> tsdf_map_config P = UB).
Proof.
  intros P. unfold tsdf_map_config, int32, or_default. split; intros ->.
  - eexists. split; [reflexivity|]. unfold new_layer. change (0 <? 0) with false. rewrite andb_false_r. reflexivity.
  - reflexivity.
Qed.
Print Assumptions C112_sides_refuted.

(** ** each setting is the parameter of its name *)
Lemma dec_ok : forall x m e d, fword x = fword (f32_lit m e) -> Z.abs m < 2 ^ 24 -> -149 <= e <= 104 ->
  (Rabs (IZR m * bpow radix2 e - d) <= d * bpow radix2 (-24))%R -> ffin x = true /\ (Rabs (FR x - d) <= d * bpow radix2 (-24))%R.
Proof.
  intros x m e d W M E H. assert (X : x = f32_lit m e) by (rewrite <- (fbits_fword x), W; apply fbits_fword). subst x.
  destruct (f32_lit_R m e) as (R & F). 1:{ rewrite rnd32_exact by lia. rewrite Rabs_mult, (Rabs_pos_eq (bpow radix2 e)) by apply bpow_ge_0. unfold max32.
    apply Rlt_le_trans with (bpow radix2 24 * bpow radix2 e)%R. apply Rmult_lt_compat_r. apply bpow_gt_0. rewrite <- abs_IZR. change (bpow radix2 24) with (IZR (2 ^ 24)). apply IZR_lt; lia.
    rewrite <- bpow_plus. apply bpow_le. lia. }
  rewrite rnd32_exact in R by lia. split; auto. rewrite R. exact H.
Qed.
Lemma num_reads : forall P k x dec, (ffin x = true /\ Rabs (FR x - dec) <= dec * bpow radix2 (-24))%R -> reads P k dec (num32 P k x).
Proof.
  intros P k x dec H. unfold reads, num32. destruct (p_num P k) as [d|]; [|exact H]. intros F B.
  destruct (f32_of_f64_R d F) as (R & G). apply rnd32_small. apply Rle_trans with (1 := B). change (bpow radix2 127) with (IZR (2 ^ 127)).
  rewrite (pow_IZR 10 30). apply IZR_le. vm_compute. discriminate. auto.
Qed.

Ltac dec m e := apply (dec_ok _ m e); [vm_compute; reflexivity | lia | lia | apply Rabs_le; cbn; lra].
Lemma c02 : (ffin (fbits 0x3e4ccccd) = true /\ Rabs (FR (fbits 0x3e4ccccd) - 2 / 10) <= 2 / 10 * bpow radix2 (-24))%R. Proof. dec 13421773 (-26). Qed.
Lemma c01 : (ffin (fbits 0x3dcccccd) = true /\ Rabs (FR (fbits 0x3dcccccd) - 1 / 10) <= 1 / 10 * bpow radix2 (-24))%R. Proof. dec 13421773 (-27). Qed.
Lemma c5 : (ffin (fbits 0x40a00000) = true /\ Rabs (FR (fbits 0x40a00000) - 5) <= 5 * bpow radix2 (-24))%R. Proof. dec 10485760 (-21). Qed.
Lemma c1 : (ffin (fbits 0x3f800000) = true /\ Rabs (FR (fbits 0x3f800000) - 1) <= 1 * bpow radix2 (-24))%R. Proof. dec 8388608 (-23). Qed.
Lemma c2 : (ffin (fbits 0x40000000) = true /\ Rabs (FR (fbits 0x40000000) - 2) <= 2 * bpow radix2 (-24))%R. Proof. dec 8388608 (-22). Qed.
Lemma c15 : (ffin (fbits 0x3fc00000) = true /\ Rabs (FR (fbits 0x3fc00000) - 15 / 10) <= 15 / 10 * bpow radix2 (-24))%R. Proof. dec 12582912 (-23). Qed.
Lemma c001 : (ffin (fbits 0x3a83126f) = true /\ Rabs (FR (fbits 0x3a83126f) - 1 / 1000) <= 1 / 1000 * bpow radix2 (-24))%R. Proof. dec 8589935 (-33). Qed.
Lemma c6 : (ffin (fbits 0x358637bd) = true /\ Rabs (FR (fbits 0x358637bd) - 1 / 1000000) <= 1 / 1000000 * bpow radix2 (-24))%R. Proof. dec 8796093 (-43). Qed.
Lemma c4 : (ffin (fbits 0x38d1b717) = true /\ Rabs (FR (fbits 0x38d1b717) - 1 / 10000) <= 1 / 10000 * bpow radix2 (-24))%R. Proof. dec 13743895 (-37). Qed.
Lemma c10k : (ffin (fbits 0x461c4000) = true /\ Rabs (FR (fbits 0x461c4000) - 10000) <= 10000 * bpow radix2 (-24))%R. Proof. dec 10240000 (-10). Qed.
Lemma fin_nnan : forall x, ffin x = true -> fnan x = false.
Proof. intros x H. destruct x; try discriminate H; reflexivity. Qed.
Lemma num64_reads : forall P k x dec, (ffin x = true /\ Rabs (FR x - dec) <= dec * bpow radix2 (-24))%R -> reads P k dec (f32_of_f64 (num64 P k (f64_of_f32 x))).
Proof.
  intros P k x dec H. replace (f32_of_f64 (num64 P k (f64_of_f32 x))) with (num32 P k x). apply num_reads; auto.
  unfold num32, num64, or_default. destruct (p_num P k); [reflexivity|]. symmetry. apply narrow_widen. apply fin_nnan. apply H.
Qed.
Lemma flag_reads : forall P k d, reads_flag P k d (flag P k d).
Proof. intros P k d. unfold reads_flag, flag, or_default. destruct (p_bool P k); reflexivity. Qed.
Lemma int_reads : forall P k d, reads_int P k d (int32 P k d).
Proof. intros P k d. unfold reads_int, int32, or_default. destruct (p_int P k); reflexivity. Qed.

Lemma quad_exact : forall x, (rnd32 (FR x * 4) = 4 * FR x)%R.
Proof.
  intros x. rewrite Rmult_comm. apply round_generic; [apply valid_rnd_N|]. apply generic_format_FLT.
  pose proof (FR_format x) as GF. apply FLT_format_generic in GF; [|reflexivity].
  destruct GF as [f E1 E2 E3]. exists (Float radix2 (Fnum f) (Fexp f + 2)); cbn [Fnum Fexp].
  - rewrite E1; unfold F2R; cbn [Fnum Fexp]. rewrite bpow_plus. change (bpow radix2 2) with 4%R. ring.
  - exact E2.
  - lia.
Qed.
(** Every setting is the parameter of its documented name, or its documented default. *)
Theorem C112_map : forall P size sides, tsdf_map_config P = Ok (size, sides) -> reads P "tsdf_voxel_size" (2 / 10) size /\ esdf_map_config P = Ok (size, sides).
Proof.
  intros P size sides H. split; [|exact H]. unfold tsdf_map_config in H. destruct (_ =? - 2 ^ 31); [discriminate H|].
  assert (E : size = f32_of_f64 (num64 P "tsdf_voxel_size" (f64_of_f32 (fbits 0x3e4ccccd)))) by congruence.
  rewrite E. apply num64_reads. exact c02.
Qed.
Print Assumptions C112_map.
Theorem C112_tsdf : forall P size sides c, tsdf_map_config P = Ok (size, sides) -> tsdf_integrator_config P = Ok c ->
  let cc := ic_cloud c in let t := cc_tsdf cc in
  (p_num P "truncation_distance" = None -> ffin size = true -> (Rabs (FR size) <= bpow radix2 120)%R -> ffin (c_trunc t) = true /\ FR (c_trunc t) = (4 * FR size)%R) /\
  (p_num P "truncation_distance" <> None -> reads P "truncation_distance" 0 (c_trunc t)) /\
  reads P "max_weight" 10000 (c_max_weight t) /\ reads_flag P "use_const_weight" false (c_const_weight t) /\ reads_flag P "use_weight_dropoff" true (c_dropoff t) /\
  reads_flag P "use_sparsity_compensation_factor" false (c_sparsity t) /\ reads P "sparsity_compensation_factor" 1 (c_factor t) /\
  reads P "min_ray_length_m" (1 / 10) (cc_min_ray cc) /\ reads P "max_ray_length_m" 5 (cc_max_ray cc) /\
  reads_flag P "allow_clear" true (cc_allow_clear cc) /\ reads_flag P "voxel_carving_enabled" true (cc_carving cc) /\ reads_flag P "anti_grazing" false (cc_anti_grazing cc) /\
  reads P "start_voxel_subsampling_factor" 2 (cc_subsampling cc) /\ reads_int P "max_consecutive_ray_collisions" 2 (cc_collisions cc) /\
  reads_int P "clear_checks_every_n_frames" 1 (ic_every c) /\
  match p_str P "integration_order_mode" with Some o => ic_order c = o | None => ic_order c = "mixed" end.
Proof.
  intros P size sides c M T cc t. unfold tsdf_integrator_config in T. rewrite M in T. cbn [rbind fst] in T.
  assert (X : c = match tsdf_integrator_config P with Ok c => c | _ => c end) by (unfold tsdf_integrator_config; rewrite M; cbn [rbind fst]; congruence).
  unfold tsdf_integrator_config in X. rewrite M in X. cbn [rbind fst] in X. unfold t, cc. rewrite X. cbn [ic_cloud ic_every ic_order cc_tsdf c_trunc c_max_weight c_const_weight c_dropoff c_sparsity c_factor cc_min_ray cc_max_ray cc_allow_clear cc_carving cc_anti_grazing cc_subsampling cc_collisions].
  split; [|split].
  - intros N F B. unfold num64, or_default. rewrite N. destruct (f32_of_Z_R 4 ltac:(lia)) as (E4 & F4).
    destruct (fmul_R size (f32_of_Z 4) F F4) as (R & G).
    { rewrite E4. apply rnd32_small. rewrite Rabs_mult, (Rabs_pos_eq 4) by lra. apply Rle_trans with (bpow radix2 120 * bpow radix2 2)%R.
      change (bpow radix2 2) with 4%R. apply Rmult_le_compat_r; lra. rewrite <- bpow_plus. apply bpow_le. lia. }
    rewrite E4, quad_exact in R.
    rewrite narrow_widen by (apply fin_nnan; exact G). split; auto.
  - intros N. unfold reads, num64, or_default. destruct (p_num P "truncation_distance") as [d|]; [|congruence]. intros Fd B.
    destruct (f32_of_f64_R d Fd) as (R & G); [|auto]. apply rnd32_small. apply Rle_trans with (1 := B). change (bpow radix2 127) with (IZR (2 ^ 127)).
    rewrite (pow_IZR 10 30). apply IZR_le. vm_compute. discriminate.
  - repeat (split; [first [apply flag_reads | apply int_reads | apply num64_reads; exact c10k | apply num_reads; first [exact c1 | exact c01 | exact c5 | exact c2]]|]).
    unfold or_default. destruct (p_str P "integration_order_mode"); reflexivity.
Qed.
Print Assumptions C112_tsdf.

Theorem C112_mesh : forall P, reads_flag P "mesh_use_color" true (mc_use_color (mesh_integrator_config P)) /\ reads P "mesh_min_weight" (1 / 10000) (mc_min_weight (mesh_integrator_config P)).
Proof. intros P. split; [apply flag_reads | apply num_reads; exact c4]. Qed.
Print Assumptions C112_mesh.
Lemma c08 : (ffin (fbits 0x3f4ccccd) = true /\ Rabs (FR (fbits 0x3f4ccccd) - 8 / 10) <= 8 / 10 * bpow radix2 (-24))%R. Proof. dec 13421773 (-24). Qed.
Lemma c05 : (ffin (fbits 0x3f000000) = true /\ Rabs (FR (fbits 0x3f000000) - 5 / 10) <= 5 / 10 * bpow radix2 (-24))%R. Proof. dec 8388608 (-24). Qed.
Lemma c100 : (ffin (fbits 0x42c80000) = true /\ Rabs (FR (fbits 0x42c80000) - 100) <= 100 * bpow radix2 (-24))%R. Proof. dec 13107200 (-17). Qed.
(** The alignment settings likewise. *)
Theorem C112_icp : forall P c, icp_config_of P = c ->
  reads_flag P "icp_refine_roll_pitch" false (icp_roll_pitch c) /\ reads_int P "icp_mini_batch_size" 20 (icp_batch c) /\
  reads P "icp_min_match_ratio" (8 / 10) (icp_match_ratio c) /\ reads P "icp_subsample_keep_ratio" (5 / 10) (icp_keep_ratio c) /\
  reads P "icp_inital_translation_weighting" 100 (icp_translation c) /\ reads P "icp_inital_rotation_weighting" 100 (icp_rotation c).
Proof.
  intros P c <-. split; [apply flag_reads|]. split; [apply int_reads|]. split; [apply num_reads; exact c08|]. split; [apply num_reads; exact c05|].
  split; apply num_reads; exact c100.
Qed.
Print Assumptions C112_icp.
Lemma read_ratio : forall P k x dec, (0 <= dec <= 9 / 10)%R -> reads P k dec x ->
  (forall d, p_num P k = Some d -> dfin d = true /\ 0 <= DR d <= 1)%R -> ffin x = true /\ (0 <= FR x <= 1)%R.
Proof.
  intros P k x dec D R H. unfold reads in R. destruct (p_num P k) as [d|].
  - destruct (H d eq_refl) as (F & B). destruct R as (G & E); auto.
    { rewrite Rabs_pos_eq by lra. apply Rle_trans with 1%R; [lra|]. rewrite (pow_IZR 10 30). apply IZR_le. vm_compute. discriminate. }
    split; auto. rewrite E. split.
    + rewrite <- rnd32_0. apply rnd32_le. lra.
    + rewrite <- (rnd32_Z 1) by lia. apply rnd32_le. lra.
  - destruct R as (F & R). split; auto. apply Rabs_le_inv in R.
    assert (0 < bpow radix2 (-24) <= / 16)%R by (split; [apply bpow_gt_0 | change (/ 16)%R with (bpow radix2 (-4)); apply bpow_le; lia]). nra.
Qed.
(** Whatever ratio between 0 and 1 and whatever batch up to 2^20 points are set, a step asks for a
    fixed number of matches, at least three; with neither set, for 16 matches out of 20. *)
Theorem C112_icp_usable : forall P c, icp_config_of P = c ->
  (forall d, p_num P "icp_min_match_ratio" = Some d -> dfin d = true /\ 0 <= DR d <= 1)%R ->
  (forall n, p_int P "icp_mini_batch_size" = Some n -> 0 <= n <= 2 ^ 20) ->
  (exists k, Icp.min_matches (icp_batch c) (icp_match_ratio c) = Some k /\ 3 <= k /\
     (Rmax 3 (IZR (icp_batch c) * FR (icp_match_ratio c)) - (1 + / 15) <= IZR k <= Rmax 3 (IZR (icp_batch c) * FR (icp_match_ratio c)) + / 15)%R) /\
  (p_num P "icp_min_match_ratio" = None -> p_int P "icp_mini_batch_size" = None -> Icp.min_matches (icp_batch c) (icp_match_ratio c) = Some 16).
Proof.
  intros P c C Hr Hb. destruct (C112_icp P c C) as (_ & I & R & _). split.
  - destruct (read_ratio P "icp_min_match_ratio" (icp_match_ratio c) (8 / 10)%R ltac:(lra) R Hr) as (F & B). apply P_Icp.C57_threshold; auto.
    unfold reads_int in I. destruct (p_int P "icp_mini_batch_size") as [n|]; rewrite I; [apply Hb; reflexivity | lia].
  - intros E1 E2. rewrite <- C. unfold icp_config_of, int32, num32. cbn [icp_batch icp_match_ratio]. rewrite E1, E2. vm_compute. reflexivity.
Qed.
Print Assumptions C112_icp_usable.
(** The ESDF settings likewise; the default distance is raised to the maximum distance, and the
    fixed band is half the truncation distance unless given. *)
Theorem C112_esdf : forall P t c, tsdf_integrator_config P = Ok t -> esdf_integrator_config P = Ok c ->
  let trunc := c_trunc (cc_tsdf (ic_cloud t)) in
  reads_flag P "esdf_euclidean_distance" false (ec_full c) /\ reads P "esdf_max_distance_m" 2 (ec_max c) /\
  (p_num P "esdf_min_distance_m" = None -> ffin trunc = true -> (bpow radix2 (-100) <= FR trunc <= bpow radix2 100)%R -> ffin (ec_min c) = true /\ (FR (ec_min c) = FR trunc / 2)%R) /\
  (p_num P "esdf_min_distance_m" <> None -> reads P "esdf_min_distance_m" 0 (ec_min c)) /\
  (exists given, reads P "esdf_default_distance_m" 2 given /\ (ffin given = true -> ffin (ec_max c) = true -> ffin (ec_default c) = true /\ FR (ec_default c) = Rmax (FR given) (FR (ec_max c)))) /\
  reads P "esdf_min_diff_m" (1 / 1000) (ec_min_diff c) /\ (ffin (ec_min_weight c) = true /\ Rabs (FR (ec_min_weight c) - 1 / 1000000) <= 1 / 1000000 * bpow radix2 (-24))%R /\
  ec_buckets c = 20 /\ ec_multi c = false /\ reads_flag P "esdf_add_occupied_crust" false (ec_crust c) /\
  reads P "clear_sphere_radius" (15 / 10) (ec_clear_r c) /\ reads P "occupied_sphere_radius" 5 (ec_occ_r c).
Proof.
  intros P t c T C trunc.
  assert (X : c = match esdf_integrator_config P with Ok c => c | _ => c end) by (rewrite C; reflexivity).
  unfold esdf_integrator_config in X. rewrite T in X. cbn [rbind] in X. fold trunc in X. rewrite X. clear X C.
  cbn [ec_full ec_max ec_min ec_default ec_min_diff ec_min_weight ec_buckets ec_multi ec_crust ec_clear_r ec_occ_r].
  split; [apply flag_reads|]. split; [apply num_reads; exact c2|]. split; [|split; [|split]].
  - intros N F B. unfold num32. rewrite N. apply (half_float trunc F B).
  - intros N. unfold reads, num32. destruct (p_num P "esdf_min_distance_m") as [d|] eqn:E; [|congruence]. intros Fd B.
    pose proof (num_reads P "esdf_min_distance_m" (fbits 0x40000000) 2 c2) as Q. unfold reads, num32 in Q. rewrite E in Q. auto.
  - exists (num32 P "esdf_default_distance_m" (fbits 0x40000000)). split; [apply num_reads; exact c2|].
    set (a := num32 P "esdf_default_distance_m" _). set (b := num32 P "esdf_max_distance_m" _). intros Fa Fb.
    destruct (flt a b) eqn:L; (split; [auto|]); symmetry.
    + apply flt_R in L; auto. apply Rmax_right. lra.
    + apply Rmax_left. destruct (Rle_or_lt (FR b) (FR a)) as [|Q]; auto. apply (flt_R a b Fa Fb) in Q. congruence.
  - split; [apply num_reads; exact c001|]. split; [exact c6|]. split; [reflexivity|]. split; [reflexivity|]. split; [apply flag_reads|].
    split; apply num_reads; [exact c15 | exact c5].
Qed.
Print Assumptions C112_esdf.

(** The TSDF and ESDF maps made from the same parameters are never refused by each other. *)
Theorem C112_layers : forall P size sides c, tsdf_map_config P = Ok (size, sides) -> esdf_integrator_config P = Ok c ->
  sane_size size -> (FR size <= 1000)%R -> 1 <= sides <= 2 ^ 16 ->
  exists t e st, new_layer KTsdf size sides = Ok t /\
    (exists size' sides', esdf_map_config P = Ok (size', sides') /\ new_layer KEsdf size' sides' = Ok e) /\ esdf_new c t e = Ok st.
Proof.
  intros P size sides c M C S B N. pose proof (sane_pos _ S) as Sp. pose proof S as (F & _).
  assert (A : forall k, new_layer k size sides = Ok (MkLayer size sides [])).
  { intros k. unfold new_layer. destruct (block_size_R sides size S N) as (d & Hd & E & G).
    assert (X : flt f0 size = true) by (apply flt_R; [reflexivity | exact F | exact Sp]). assert (Y : flt f0 (block_size_of sides size) = true).
    { apply flt_R; [reflexivity | apply G | apply (wide_pos _ G)]. }
    rewrite X, Y. destruct (Z.ltb_spec 0 sides); [reflexivity | lia]. }
  exists (MkLayer size sides []), (MkLayer size sides []).
  pose proof (C103_esdf c (MkLayer size sides []) (MkLayer size sides [])) as Q. cbn [l_size l_vps] in Q.
  assert (U : usual_size size) by (split; auto; lra). specialize (Q U U). destruct (esdf_new c _ _) as [st| |] eqn:E.
  - exists st. split; [apply A|]. split; [|reflexivity]. exists size, sides. split; [exact M | apply A].
  - exfalso. destruct Q as [Q | Q]; [congruence|]. rewrite Rminus_eq_0, Rabs_R0 in Q. lra.
  - contradiction.
Qed.
Print Assumptions C112_layers.

Lemma two_R : ffin (fbits 0x40000000) = true /\ FR (fbits 0x40000000) = 2%R.
Proof.
  assert (X : fbits 0x40000000 = f32_of_Z 2) by (rewrite <- (fbits_fword (f32_of_Z 2)); reflexivity). rewrite X. destruct (f32_of_Z_R 2 ltac:(lia)); auto.
Qed.
Lemma plain_esdf : forall P size sides c, tsdf_map_config P = Ok (size, sides) -> esdf_integrator_config P = Ok c ->
  (forall k, In k ["truncation_distance"; "esdf_max_distance_m"; "esdf_min_distance_m"; "esdf_default_distance_m"; "esdf_min_diff_m"] -> p_num P k = None) ->
  ffin size = true -> (bpow radix2 (-60) <= FR size <= bpow radix2 60)%R ->
  (ffin (ec_max c) = true /\ FR (ec_max c) = 2 /\ ffin (ec_min c) = true /\ FR (ec_min c) = 2 * FR size /\ ffin (ec_default c) = true /\ FR (ec_default c) = 2 /\
   ffin (ec_min_diff c) = true /\ 0 <= FR (ec_min_diff c))%R /\ ec_buckets c = 20.
Proof.
  intros P size sides c M C H F B.
  destruct (tsdf_integrator_config P) as [t| |] eqn:T; try (unfold esdf_integrator_config in C; rewrite T in C; discriminate C).
  destruct (C112_tsdf P size sides t M T) as (A & _).
  destruct (A (H "truncation_distance" ltac:(cbn; tauto)) F) as (Ft & Et). { rewrite Rabs_pos_eq. apply Rle_trans with (bpow radix2 60); [apply B | apply bpow_le; lia]. pose proof (bpow_gt_0 radix2 (-60)). lra. }
  destruct (C112_esdf P t c T C) as (_ & _ & Mi & _ & _ & Di & _ & Bu & _).
  assert (Bt : (bpow radix2 (-100) <= 4 * FR size <= bpow radix2 100)%R).
  { assert (bpow radix2 (-100) <= bpow radix2 (-60))%R by (apply bpow_le; lia). assert (4 * bpow radix2 60 <= bpow radix2 100)%R.
    { change 4%R with (bpow radix2 2). rewrite <- bpow_plus. apply bpow_le. lia. } pose proof (bpow_gt_0 radix2 (-60)). lra. }
  destruct (Mi (H "esdf_min_distance_m" ltac:(cbn; tauto)) Ft ltac:(rewrite Et; exact Bt)) as (Fm & Em). rewrite Et in Em.
  unfold reads in Di. rewrite (H "esdf_min_diff_m" ltac:(cbn; tauto)) in Di. destruct Di as (Fd & Ed).
  assert (X : c = match esdf_integrator_config P with Ok c => c | _ => c end) by (rewrite C; reflexivity).
  unfold esdf_integrator_config in X. rewrite T in X. cbn [rbind] in X.
  assert (Xm : ec_max c = fbits 0x40000000). { rewrite X. cbn [ec_max]. unfold num32. rewrite (H "esdf_max_distance_m") by (cbn; tauto). reflexivity. }
  assert (Xd : ec_default c = fbits 0x40000000).
  { rewrite X. cbn [ec_default]. unfold num32. rewrite (H "esdf_max_distance_m"), (H "esdf_default_distance_m") by (cbn; tauto). destruct (flt _ _); reflexivity. }
  destruct two_R as (F2 & E2). rewrite Xm, Xd. split; [|exact Bu].
  repeat (split; [auto; try lra|]). apply Rabs_le_inv in Ed. assert (bpow radix2 (-24) <= 1)%R by (apply (bpow_le radix2 (-24) 0); lia). lra.
Qed.
(** With voxels of at most a metre the default ESDF settings are usable. *)
Theorem C112_usable : forall P size sides c, tsdf_map_config P = Ok (size, sides) -> esdf_integrator_config P = Ok c ->
  (forall k, In k ["truncation_distance"; "esdf_max_distance_m"; "esdf_min_distance_m"; "esdf_default_distance_m"; "esdf_min_diff_m"] -> p_num P k = None) ->
  ffin size = true -> (bpow radix2 (-60) <= FR size <= 1)%R -> valid_config c size.
Proof.
  intros P size sides c M C H F B. assert (Bo : (1 <= bpow radix2 60)%R) by (apply (bpow_le radix2 0 60); lia). pose proof (bpow_gt_0 radix2 (-60)).
  destruct (plain_esdf P size sides c M C H F ltac:(lra)) as ((A1 & A2 & A3 & A4 & A5 & A6 & A7 & A8) & A9).
  assert (T126 : (2 < bpow radix2 126)%R) by (apply (bpow_lt radix2 1 126); lia).
  constructor.
  - auto.
  - split; [auto | lra].
  - split; [auto | lra].
  - split; [auto | lra].
  - rewrite A9. lia.
  - split; [auto | lra].
Qed.
Print Assumptions C112_usable.
(** Not so: the default settings suit every voxel size. With voxels of more than a metre the
    fixed band is wider than the maximum distance. *)
Theorem C112_large_refuted : forall P size sides c, tsdf_map_config P = Ok (size, sides) -> esdf_integrator_config P = Ok c ->
  (forall k, In k ["truncation_distance"; "esdf_max_distance_m"; "esdf_min_distance_m"; "esdf_default_distance_m"; "esdf_min_diff_m"] -> p_num P k = None) ->
  ffin size = true -> (1 < FR size <= bpow radix2 60)%R -> (FR (ec_max c) < FR (ec_min c))%R /\ ~ valid_config c size.
Proof.
  intros P size sides c M C H F B. assert (Bo : (bpow radix2 (-60) <= 1)%R) by (apply (bpow_le radix2 (-60) 0); lia).
  destruct (plain_esdf P size sides c M C H F ltac:(lra)) as ((A1 & A2 & A3 & A4 & A5 & A6 & A7 & A8) & A9).
  split; [lra|]. intros V. destruct (vc_min _ _ V). lra.
Qed.
Print Assumptions C112_large_refuted.

(** a parameter server with voxels of 5 cm, 24 voxels per side, and an ESDF of 3 m *)
Definition some_params : params := MkParams
  (fun k => if k =? "tsdf_voxel_size" then Some (dbits 0x3fa999999999999a) else if k =? "esdf_max_distance_m" then Some (f64_of_Z 3) else None)%string
  (fun k => if k =? "tsdf_voxels_per_side" then Some 24 else None)%string (fun k => if k =? "allow_clear" then Some false else None)%string (fun _ => None).
Example C112_example :
  match tsdf_map_config some_params, tsdf_integrator_config some_params, esdf_integrator_config some_params with
  | Ok (s, n), Ok t, Ok c =>
      (fword s =? 0x3d4ccccd) && (n =? 16) && negb (cc_allow_clear (ic_cloud t)) && cc_carving (ic_cloud t) &&
      (fword (c_trunc (cc_tsdf (ic_cloud t))) =? 0x3e4ccccd) && (fword (ec_min c) =? 0x3dcccccd) && (fword (ec_max c) =? fword (f32_of_Z 3)) && (fword (ec_default c) =? fword (f32_of_Z 3))
  | _, _, _ => false
  end = true.
Proof. vm_compute. reflexivity. Qed.
Example C112_default_example : exists size sides c,
  tsdf_map_config (MkParams (fun _ => None) (fun _ => None) (fun _ => None) (fun _ => None)) = Ok (size, sides) /\ sides = 16 /\
  esdf_integrator_config (MkParams (fun _ => None) (fun _ => None) (fun _ => None) (fun _ => None)) = Ok c /\ valid_config c size.
Proof.
  set (P := MkParams _ _ _ _). destruct (tsdf_map_config P) as [[size sides]| |] eqn:M; try discriminate M.
  destruct (esdf_integrator_config P) as [c| |] eqn:C; try discriminate C. exists size, sides, c. split; [reflexivity|].
  assert (E : sides = 16).
  { destruct (C112_sides_partial P) as (s' & n' & E1 & _ & _ & E2). intros n Hn. discriminate Hn. cbn in E2. congruence. }
  split; [exact E|]. split; [reflexivity|]. destruct (C112_map P size sides M) as (R & _). cbn [reads p_num P] in R.
  unfold reads, P in R. cbn [p_num] in R. destruct R as (F & R). apply Rabs_le_inv in R.
  apply (C112_usable P size sides c M C); auto. assert (bpow radix2 (-60) <= / 16)%R by (change (/ 16)%R with (bpow radix2 (-4)); apply bpow_le; lia).
  assert (0 < bpow radix2 (-24) <= / 16)%R by (split; [apply bpow_gt_0 | change (/ 16)%R with (bpow radix2 (-4)); apply bpow_le; lia]). lra.
Qed.
Definition icp_params : params := MkParams
  (fun k => if k =? "icp_min_match_ratio" then Some (dbits 0x3fe0000000000000) else None)%string
  (fun k => if k =? "icp_mini_batch_size" then Some 30 else None)%string (fun k => if k =? "icp_refine_roll_pitch" then Some true else None)%string (fun _ => None).
Example C112_icp_example : let c := icp_config_of icp_params in
  icp_roll_pitch c && (icp_batch c =? 30) && (fword (icp_match_ratio c) =? 0x3f000000) && (fword (icp_keep_ratio c) =? 0x3f000000) &&
  (fword (icp_translation c) =? fword (f32_of_Z 100)) && match Icp.min_matches (icp_batch c) (icp_match_ratio c) with Some k => k =? 15 | None => false end = true.
Proof. vm_compute. reflexivity. Qed.
