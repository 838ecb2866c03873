(** C71. The weights of observations. *)
From Coq Require Import ZArith List Bool Lia Reals Lra.
From Flocq Require Import Core Binary.
From Verif Require Import F32 F32_lemmas F32_err Types Voxel Merge_proofs Update Update_spec Update_proofs Dist_proofs Sim_geom Weight_spec.
Import ListNotations.
Open Scope R_scope.

(** constant weights *)
Theorem C71_constant : forall cfg p, c_const_weight cfg = true -> FR (getVoxelWeight cfg p) = 1.
Proof. intros cfg p H. unfold getVoxelWeight. rewrite H. apply (f32_of_Z_R 1). lia. Qed.
Print Assumptions C71_constant.
(** otherwise the weight falls with the square of the depth; points at depth (almost) zero have
    none *)
Theorem C71_depth : forall cfg p, c_const_weight cfg = false -> ffin (vz p) = true ->
  (Rabs (FR (vz p)) <= FR kEpsilon -> FR (getVoxelWeight cfg p) = 0) /\
  (FR kEpsilon < Rabs (FR (vz p)) <= bpow radix2 60 ->
   ffin (getVoxelWeight cfg p) = true /\ Rabs (FR (getVoxelWeight cfg p) * (FR (vz p) * FR (vz p)) - 1) <= bpow radix2 (-22)).
Proof.
  intros cfg p HC Fz. unfold getVoxelWeight. rewrite HC. destruct kEpsilon_pos as (Ep & Ef).
  pose proof (fabs_R (vz p)) as Ea. assert (Fa : ffin (fabs (vz p)) = true) by (rewrite fabs_fin; exact Fz).
  set (z := fabs (vz p)) in *. cbv zeta. split.
  - intros H. replace (fgt z kEpsilon) with false; [reflexivity|]. symmetry. apply not_true_is_false. intros X. unfold fgt in X. apply flt_R in X; [|assumption|assumption]. lra.
  - intros (H1 & H2). replace (fgt z kEpsilon) with true by (symmetry; unfold fgt; apply flt_R; [assumption|assumption|lra]).
    assert (E2 : FR (vz p) * FR (vz p) = FR z * FR z) by (rewrite Ea, <- Rabs_mult; symmetry; apply Rabs_pos_eq; apply Rle_0_sqr). rewrite E2, <- Ea in *.
    assert (Ke : bpow radix2 (-20) <= FR kEpsilon) by (change (FR kEpsilon) with (IZR 8796093 * bpow radix2 (-43)); cbn; lra).
    assert (L : bpow radix2 (-40) <= FR z * FR z) by (change (-40)%Z with (-20 + -20)%Z; rewrite bpow_plus; pose proof (bpow_gt_0 radix2 (-20)); apply Rmult_le_compat; lra).
    assert (U : FR z * FR z <= bpow radix2 120) by (change 120%Z with (60 + 60)%Z; rewrite bpow_plus; apply Rmult_le_compat; lra).
    pose proof (bpow_gt_0 radix2 (-40)) as P40.
    assert (B1 : Rabs (FR z * FR z) <= bpow radix2 127) by (rewrite Rabs_pos_eq by lra; eapply Rle_trans; [exact U|apply bpow_le; lia]).
    destruct (fmul_R z z Fa Fa (rnd32_small _ B1)) as (Em & Fm).
    destruct (rnd32_rel (FR z * FR z)) as (d1 & D1 & Er); [rewrite Rabs_pos_eq by lra; eapply Rle_trans; [|exact L]; apply bpow_le; lia|]. rewrite Er in Em.
    change (bpow radix2 (-24)) with (/ 16777216) in D1. apply Rabs_le_inv in D1.
    destruct (f32_of_Z_R 1 ltac:(lia)) as (F1 & G1). fold f1 in F1, G1.
    set (q := FR z * FR z) in *. assert (Pm : 0 < FR (fmul z z)) by (rewrite Em; apply Rmult_lt_0_compat; lra).
    assert (Iq : bpow radix2 (-121) <= 1 / FR (fmul z z) <= bpow radix2 41).
    { rewrite Em. split.
      - apply Rmult_le_reg_r with (q * (1 + d1)); [apply Rmult_lt_0_compat; lra|]. replace (1 / (q * (1 + d1)) * (q * (1 + d1))) with 1 by (field; split; lra).
        apply Rle_trans with (bpow radix2 (-121) * (bpow radix2 120 * 2)); [|change (bpow radix2 (-121)) with (/ bpow radix2 121); change 121%Z with (120 + 1)%Z; rewrite bpow_plus; change (bpow radix2 1) with 2; pose proof (bpow_gt_0 radix2 120); right; field; lra].
        apply Rmult_le_compat_l; [apply bpow_ge_0|]. apply Rmult_le_compat; lra.
      - apply Rmult_le_reg_r with (q * (1 + d1)); [apply Rmult_lt_0_compat; lra|]. replace (1 / (q * (1 + d1)) * (q * (1 + d1))) with 1 by (field; split; lra).
        apply Rle_trans with (bpow radix2 41 * (bpow radix2 (-40) * / 2)); [change 41%Z with (40 + 1)%Z; rewrite bpow_plus; change (bpow radix2 1) with 2; change (bpow radix2 (-40)) with (/ bpow radix2 40); pose proof (bpow_gt_0 radix2 40); right; field; lra|].
        apply Rmult_le_compat_l; [apply bpow_ge_0|]. apply Rmult_le_compat; lra. }
    pose proof (bpow_gt_0 radix2 (-121)) as P121.
    destruct (fdiv_R f1 (fmul z z) G1 ltac:(lra)) as (Ed & Fd).
    { rewrite F1. apply rnd32_small. rewrite Rabs_pos_eq by lra. eapply Rle_trans; [apply Iq|apply bpow_le; lia]. }
    split; [exact Fd|]. rewrite Ed, F1. destruct (rnd32_rel (1 / FR (fmul z z))) as (d2 & D2 & E3); [rewrite Rabs_pos_eq by lra; eapply Rle_trans; [|apply Iq]; apply bpow_le; lia|].
    rewrite E3, Em. change (bpow radix2 (-24)) with (/ 16777216) in D2.
    replace (1 / (q * (1 + d1)) * (1 + d2) * q) with (/ (1 + d1) * (1 + d2)) by (field; split; lra).
    eapply Rle_trans; [apply near_mul; [apply near_inv; [apply near_1p, Rabs_le, D1|lra]|apply near_1p, D2]|]. change (bpow radix2 (-22)) with (/ 4194304). lra.
Qed.
Print Assumptions C71_depth.

(** what a voxel gets of an observation *)
Theorem C71_voxel : forall cfg vs q, cfg_ok cfg -> FR (c_trunc cfg) <= bpow radix2 40 -> ffin vs = true -> 0 < FR vs ->
  bpow radix2 (-30) <= FR (c_trunc cfg) - FR vs ->
  ffin (c_factor cfg) = true -> 0 <= FR (c_factor cfg) <= bpow radix2 20 ->
  fin_upto 40 (q_weight q) -> 0 <= FR (q_weight q) -> fin_upto 40 (req_sdf vs q) ->
  let exact := weightR cfg (FR vs) (FR (req_sdf vs q)) (FR (q_weight q)) in
  ffin (req_weight cfg vs q) = true /\ Rabs (FR (req_weight cfg vs q) - exact) <= bpow radix2 (-21) * exact + bpow radix2 (-90).
Proof.
  intros cfg vs q (FT & PT & _ & _) HT Fv Pv Hd Ff (Pf & Uf) (Fw & Uw) Pw (Fs & Us). unfold req_weight, weightR. cbv zeta.
  set (sdf := req_sdf vs q) in *. set (T := c_trunc cfg) in *. set (w := q_weight q) in *. set (k := c_factor cfg) in *.
  pose proof (bpow_gt_0 radix2 (-30)) as P30. rewrite Rabs_pos_eq in Uw by exact Pw. apply Rabs_le_inv in Us.
  set (w1 := if c_dropoff cfg && flt sdf (fneg vs) then fmax (fdiv (fmul w (fadd T sdf)) (fsub T vs)) f0 else w).
  set (x1 := if c_dropoff cfg then if Rlt_dec (FR sdf) (- FR vs) then Rmax 0 (FR w * ((FR T + FR sdf) / (FR T - FR vs))) else FR w else FR w).
  assert (K1 : ffin w1 = true /\ 0 <= x1 <= bpow radix2 72 /\ Rabs (FR w1 - x1) <= / 3000000 * x1 + bpow radix2 (-118)).
  { assert (Triv : ffin w = true /\ 0 <= FR w <= bpow radix2 72 /\ Rabs (FR w - FR w) <= / 3000000 * FR w + bpow radix2 (-118)).
    { split; [exact Fw|]. split; [split; [exact Pw|eapply Rle_trans; [exact Uw|apply bpow_le; lia]]|]. rewrite Rminus_eq_0, Rabs_R0. pose proof (bpow_gt_0 radix2 (-118)). lra. }
    unfold w1, x1. destruct (c_dropoff cfg); cbn [andb]; [|exact Triv].
    assert (Fn : ffin (fneg vs) = true) by (rewrite fneg_fin; exact Fv).
    destruct (flt sdf (fneg vs)) eqn:EL.
    2:{ destruct (Rlt_dec (FR sdf) (- FR vs)) as [X|X]; [|exact Triv]. exfalso. assert (flt sdf (fneg vs) = true) by (apply flt_R; [assumption|assumption|rewrite fneg_R; exact X]). congruence. }
    apply flt_R in EL; [|assumption|assumption]. rewrite fneg_R in EL. destruct (Rlt_dec (FR sdf) (- FR vs)) as [_|X]; [|contradiction].
    assert (P40 : bpow radix2 40 = 1099511627776) by (cbn; lra). assert (P127 : bpow radix2 100 <= bpow radix2 127) by (apply bpow_le; lia).
    assert (P100 : bpow radix2 40 * 2 <= bpow radix2 100) by (apply Rle_trans with (bpow radix2 41); [change 41%Z with (40 + 1)%Z; rewrite bpow_plus; right; reflexivity|apply bpow_le; lia]).
    destruct (fadd_rel T sdf FT Fs) as (Fa & e1 & He1 & Ea); [apply Rabs_le; lra|].
    destruct (fsub_rel T vs FT Fv) as (Fb & e3 & He3 & Eb); [apply Rabs_le; lra|].
    set (s := FR T + FR sdf) in *. set (D := FR T - FR vs) in *. unfold u32r in He1, He3. apply Rabs_le_inv in He1. apply Rabs_le_inv in He3.
    assert (Bs : Rabs s <= bpow radix2 41) by (unfold s; apply Rabs_le; change 41%Z with (40 + 1)%Z; rewrite bpow_plus; change (bpow radix2 1) with 2; lra).
    destruct (fmul_rel w (fadd T sdf) Fw Fa) as (Fm & d2 & e2 & Hd2 & He2 & Em).
    { apply Rabs_mul_bpow with 40%Z 42%Z; [rewrite Rabs_pos_eq; assumption| |lia]. rewrite Ea. apply Rabs_mul_bpow with 41%Z 1%Z; [exact Bs| |lia]. apply Rabs_le. change (bpow radix2 1) with 2. lra. }
    assert (Db : 0 < D * (1 + e3)) by (apply Rmult_lt_0_compat; lra).
    set (X := (1 + e1) * (1 + d2) * / (1 + e3)).
    assert (Em2 : FR (fmul w (fadd T sdf)) / (D * (1 + e3)) = FR w * (s / D) * X + e2 / (D * (1 + e3))).
    { rewrite Em, Ea. unfold X. field. split; lra. }
    assert (NX : Rabs (X - 1) <= / 5000000).
    { unfold X. unfold u32r in Hd2. eapply Rle_trans; [apply near_mul; [apply near_mul; [apply near_1p, Rabs_le, He1|apply near_1p, Hd2]|apply near_inv; [apply near_1p, Rabs_le, He3|lra]]|]. lra. }
    assert (Ie : Rabs (e2 / (D * (1 + e3))) <= bpow radix2 (-119)).
    { unfold Rdiv. rewrite Rabs_mult. rewrite (Rabs_pos_eq (/ _)) by (left; apply Rinv_0_lt_compat, Db).
      apply Rle_trans with (bpow radix2 (-150) * bpow radix2 31); [|rewrite <- bpow_plus; apply bpow_le; lia].
      apply Rmult_le_compat; [apply Rabs_pos|left; apply Rinv_0_lt_compat, Db|exact He2|].
      replace (bpow radix2 31) with (/ (bpow radix2 (-30) * / 2)) by (change 31%Z with (30 + 1)%Z; rewrite bpow_plus; change (bpow radix2 1) with 2; change (bpow radix2 (-30)) with (/ bpow radix2 30); pose proof (bpow_gt_0 radix2 30); field; lra).
      apply Rinv_le; [lra|]. apply Rmult_le_compat; lra. }
    apply Rabs_le_inv in NX.
    assert (Bx : Rabs (FR w * (s / D)) <= bpow radix2 111).
    { unfold Rdiv. rewrite <- Rmult_assoc. apply Rabs_mul_bpow with 81%Z 30%Z; [apply Rabs_mul_bpow with 40%Z 41%Z; [rewrite Rabs_pos_eq; assumption|exact Bs|lia]| |lia].
      rewrite Rabs_pos_eq by (left; apply Rinv_0_lt_compat; lra). rewrite <- (Rinv_inv (bpow radix2 30)). apply Rinv_le; [apply Rinv_0_lt_compat, bpow_gt_0|exact Hd]. }
    set (x := FR w * (s / D)) in *.
    assert (P119 : bpow radix2 (-119) <= 1 /\ 0 < bpow radix2 (-119)) by (split; [apply (bpow_le radix2 (-119) 0); lia|apply bpow_gt_0]).
    assert (P118 : bpow radix2 (-118) = 2 * bpow radix2 (-119)) by (change (-118)%Z with (1 + -119)%Z; rewrite bpow_plus; reflexivity).
    destruct (fdiv_rel (fmul w (fadd T sdf)) (fsub T vs) Fm) as (Fr & d4 & e4 & Hd4 & He4 & Er).
    { rewrite Eb. lra. }
    { rewrite Eb, Em2. apply Rabs_add_bpow with 113%Z 0%Z; [apply Rabs_mul_bpow with 111%Z 1%Z; [exact Bx|apply Rabs_le; change (bpow radix2 1) with 2; lra|lia]| |lia|lia].
      eapply Rle_trans; [exact Ie|]. apply P119. }
    rewrite Eb, Em2 in Er. set (r := fdiv (fmul w (fadd T sdf)) (fsub T vs)) in *. unfold u32r in Hd4.
    assert (Tt : t32r <= bpow radix2 (-121)) by (apply bpow_le; lia).
    assert (P121 : bpow radix2 (-119) = 4 * bpow radix2 (-121)) by (change (-119)%Z with (2 + -121)%Z; rewrite bpow_plus; reflexivity).
    set (y := e2 / (D * (1 + e3))) in *. set (Z := X * (1 + d4)). set (y2 := y * (1 + d4) + e4).
    assert (Er2 : FR r = x * Z + y2) by (rewrite Er; unfold Z, y2; ring).
    assert (NZ : Rabs (Z - 1) <= / 3000000) by (unfold Z; eapply Rle_trans; [apply near_mul; [apply Rabs_le; exact NX|apply near_1p, Hd4]|]; lra).
    assert (By : Rabs y2 <= bpow radix2 (-118)).
    { unfold y2. eapply Rle_trans; [apply Rabs_triang|]. apply Rabs_le_inv in Hd4. rewrite Rabs_mult.
      assert (Rabs y * Rabs (1 + d4) <= bpow radix2 (-119) * (5 / 4)) by (apply Rmult_le_compat; [apply Rabs_pos|apply Rabs_pos|exact Ie|apply Rabs_le; lra]). lra. }
    apply Rabs_le_inv in NZ. apply Rabs_le_inv in By.
    destruct (fmax_R r f0 Fr eq_refl) as (Fx & Ex). change (FR f0) with 0 in Ex. split; [exact Fx|]. rewrite Ex.
    assert (Hs : s / D <= 1) by (apply Rmult_le_reg_r with D; [lra|]; unfold Rdiv; rewrite Rmult_assoc, Rinv_l by lra; unfold s, D; lra).
    assert (Ux : x <= bpow radix2 72) by (unfold x; apply Rle_trans with (FR w * 1); [apply Rmult_le_compat_l; assumption|]; rewrite Rmult_1_r; eapply Rle_trans; [exact Uw|apply bpow_le; lia]).
    split; [split; [apply Rmax_l|apply Rmax_lub; [apply bpow_ge_0|exact Ux]]|].
    destruct (Rle_lt_dec 0 x) as [Xp|Xn].
    - rewrite (Rmax_right 0 x) by exact Xp.
      assert (B : Rabs (FR r - x) <= / 3000000 * x + bpow radix2 (-118)).
      { replace (FR r - x) with (x * (Z - 1) + y2) by (rewrite Er2; ring). eapply Rle_trans; [apply Rabs_triang|]. rewrite Rabs_mult, (Rabs_pos_eq x) by exact Xp.
        assert (x * Rabs (Z - 1) <= x * / 3000000) by (apply Rmult_le_compat_l; [exact Xp|apply Rabs_le; lra]). assert (Rabs y2 <= bpow radix2 (-118)) by (apply Rabs_le; lra). lra. }
      apply Rabs_le_inv in B. apply Rabs_le. unfold Rmax. destruct (Rle_dec (FR r) 0); lra.
    - rewrite (Rmax_left 0 x) by lra. assert (x * Z <= 0) by (assert (0 <= - x * Z) by (apply Rmult_le_pos; lra); lra).
      apply Rabs_le. unfold Rmax. destruct (Rle_dec (FR r) 0); lra. }
  clearbody w1 x1. destruct K1 as (F1 & (Px & Ux) & B1).
  assert (P21 : bpow radix2 (-21) = / 2097152) by reflexivity. assert (P90 : bpow radix2 (-90) = 268435456 * bpow radix2 (-118)) by (change (-90)%Z with (28 + -118)%Z; rewrite bpow_plus; f_equal; cbn; lra).
  pose proof (bpow_gt_0 radix2 (-118)) as P118.
  assert (Triv : ffin w1 = true /\ Rabs (FR w1 - x1) <= bpow radix2 (-21) * x1 + bpow radix2 (-90)) by (split; [exact F1|]; eapply Rle_trans; [exact B1|]; rewrite P21, P90; lra).
  destruct (c_sparsity cfg); cbn [andb]; [|exact Triv].
  pose proof (fabs_R sdf) as Eab. assert (Fab : ffin (fabs sdf) = true) by (rewrite fabs_fin; exact Fs).
  destruct (flt (fabs sdf) T) eqn:EL.
  2:{ destruct (Rlt_dec (Rabs (FR sdf)) (FR T)) as [X|X]; [|exact Triv]. exfalso. assert (flt (fabs sdf) T = true) by (apply flt_R; [assumption|assumption|rewrite Eab; exact X]). congruence. }
  apply flt_R in EL; [|assumption|assumption]. rewrite Eab in EL. destruct (Rlt_dec (Rabs (FR sdf)) (FR T)) as [_|X]; [|contradiction].
  set (d := FR w1 - x1) in *.
  assert (Bw : Rabs (FR w1) <= bpow radix2 75).
  { replace (FR w1) with (x1 + d) by (unfold d; ring). eapply Rle_trans; [apply Rabs_triang|]. rewrite (Rabs_pos_eq x1) by exact Px.
    change 75%Z with (3 + 72)%Z. rewrite bpow_plus. change (bpow radix2 3) with 8. assert (bpow radix2 (-118) <= bpow radix2 72) by (apply bpow_le; lia). lra. }
  destruct (fmul_rel w1 k F1 Ff) as (Fm & d5 & e5 & Hd5 & He5 & Em).
  { apply Rabs_mul_bpow with 75%Z 20%Z; [exact Bw|rewrite Rabs_pos_eq; assumption|lia]. }
  split; [exact Fm|]. rewrite Em. unfold u32r in Hd5. assert (Tt : t32r <= bpow radix2 (-118)) by (apply bpow_le; lia).
  replace (FR w1 * FR k * (1 + d5) + e5 - x1 * FR k) with (FR k * (d * (1 + d5) + x1 * d5) + e5) by (unfold d; ring).
  apply Rabs_le_inv in Hd5.
  assert (C1 : Rabs (d * (1 + d5) + x1 * d5) <= / 2500000 * x1 + 2 * bpow radix2 (-118)).
  { eapply Rle_trans; [apply Rabs_triang|]. rewrite !Rabs_mult, (Rabs_pos_eq x1) by exact Px.
    assert (Rabs d * Rabs (1 + d5) <= (/ 3000000 * x1 + bpow radix2 (-118)) * (1 + / 1000000)) by (apply Rmult_le_compat; [apply Rabs_pos|apply Rabs_pos|exact B1|apply Rabs_le; lra]).
    assert (x1 * Rabs d5 <= x1 * / 16000000) by (apply Rmult_le_compat_l; [exact Px|apply Rabs_le; lra]). lra. }
  eapply Rle_trans; [apply Rabs_triang|]. rewrite Rabs_mult, (Rabs_pos_eq (FR k)) by exact Pf.
  assert (C2 : FR k * Rabs (d * (1 + d5) + x1 * d5) <= FR k * (/ 2500000 * x1 + 2 * bpow radix2 (-118))) by (apply Rmult_le_compat_l; assumption).
  assert (C3 : FR k * bpow radix2 (-118) <= 1048576 * bpow radix2 (-118)) by (apply Rmult_le_compat_r; [lra|exact Uf]).
  assert (C4 : 0 <= x1 * FR k) by (apply Rmult_le_pos; assumption).
  rewrite P21, P90. assert (FR k * (/ 2500000 * x1 + 2 * bpow radix2 (-118)) = / 2500000 * (x1 * FR k) + 2 * (FR k * bpow radix2 (-118))) by ring. lra.
Qed.
Print Assumptions C71_voxel.
(** a voxel 2.5 voxels behind the surface, truncation at 4 voxels: half of the weight, doubled by
    the sparsity factor; a point at depth 2 has weight 1/4 *)
Definition w_cfg : TsdfConfig := MkTC (f32_of_Z 4) (f32_of_Z 100) false true true (f32_of_Z 2).
Definition w_req : request := MkReq (V3 f0 f0 f0) (V3 (f32_of_Z 2) f0 f0) (V3 4 0 0)%Z (MkColor 0 0 0 0)%Z f1.
Example C71_hyps : cfg_ok w_cfg /\ FR (c_trunc w_cfg) <= bpow radix2 40 /\ ffin f1 = true /\ 0 < FR f1 /\
  bpow radix2 (-30) <= FR (c_trunc w_cfg) - FR f1 /\ ffin (c_factor w_cfg) = true /\ 0 <= FR (c_factor w_cfg) <= bpow radix2 20 /\
  fin_upto 40 (q_weight w_req) /\ 0 <= FR (q_weight w_req) /\ fin_upto 40 (req_sdf f1 w_req).
Proof.
  destruct (f32_of_Z_R 1 ltac:(lia)) as (A1 & B1), (f32_of_Z_R 2 ltac:(lia)) as (A2 & B2), (f32_of_Z_R 4 ltac:(lia)) as (A4 & B4), (f32_of_Z_R 100 ltac:(lia)) as (A5 & B5).
  unfold cfg_ok, w_cfg, w_req. cbn [c_trunc c_max_weight c_factor q_weight]. unfold f1, fin_upto. rewrite A1, A2, A4, A5.
  assert (P1 : 4 <= bpow radix2 40) by (cbn; lra). assert (P2 : bpow radix2 (-30) <= 3) by (cbn; lra). assert (P3 : 2 <= bpow radix2 20) by (cbn; lra).
  assert (S : ffin (req_sdf (f32_of_Z 1) (MkReq (V3 f0 f0 f0) (V3 (f32_of_Z 2) f0 f0) (V3 4 0 0)%Z (MkColor 0 0 0 0)%Z (f32_of_Z 1))) = true /\
              fle (fabs (req_sdf (f32_of_Z 1) (MkReq (V3 f0 f0 f0) (V3 (f32_of_Z 2) f0 f0) (V3 4 0 0)%Z (MkColor 0 0 0 0)%Z (f32_of_Z 1)))) (f32_of_Z 4) = true) by (vm_compute; split; reflexivity).
  destruct S as (S1 & S2). fold f1 in *. set (x := req_sdf _ _) in *. clearbody x. apply fle_R in S2; [|rewrite fabs_fin; exact S1|exact B4]. rewrite fabs_R, A4 in S2.
  rewrite (Rabs_pos_eq 1) by lra. repeat split; auto; lra.
Qed.
Example C71_values : fword (req_weight w_cfg f1 w_req) = fword f1 /\ fword (getVoxelWeight w_cfg (V3 f0 f0 (f32_of_Z 2))) = fword (f32_lit 1 (-2)).
Proof. vm_compute. split; reflexivity. Qed.
