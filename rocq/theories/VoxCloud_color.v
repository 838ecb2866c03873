(** The colours of distances in [VoxCloud]. *)
From Coq Require Import ZArith List Bool Reals Lra Lia.
From Flocq Require Import Core IEEE754.Binary IEEE754.Bits.
From Verif Require Import F32 F32_lemmas F32_err Index_float Types Voxel ColorMap ColorMap_spec ColorMap_proofs P_ColorMap VoxCloud VoxCloud_spec.
Import ListNotations.
Open Scope R_scope.
Ltac Zify.zify_post_hook ::= idtac.

Lemma rnd32_close : forall x, Rabs x <= 2 -> Rabs (rnd32 x - x) <= / 8000000.
Proof.
  intros x B. destruct (rnd32_err x) as (d & e & D & E & R).
  rewrite R. replace (x * (1 + d) + e - x) with (x * d + e) by ring.
  assert (A1 : Rabs (x * d) <= 2 * bpow radix2 (-24)) by (apply Rabs_prod; assumption).
  assert (A2 : bpow radix2 (-24) = / 16777216) by reflexivity.
  assert (A3 : Rabs e <= / 1000000000). { eapply Rle_trans; [exact E|]. apply Rle_trans with (bpow radix2 (-30)); [apply bpow_le; lia|]. change (bpow radix2 (-30)) with (/ 1073741824). lra. }
  eapply Rle_trans; [apply Rabs_tri; [exact A1|exact A3]|]. lra.
Qed.
Lemma small32 : forall x, Rabs x <= 2 -> Rabs (rnd32 x) < max32.
Proof. intros x B. apply rnd32_small. apply Rle_trans with 2; [exact B|]. change 2 with (bpow radix2 1). apply bpow_le. lia. Qed.
Lemma rnd32_le_Z : forall x m, (Z.abs m <= 2 ^ 24)%Z -> x <= IZR m -> rnd32 x <= IZR m.
Proof. intros x m B H. rewrite <- (rnd32_Z m B). apply rnd32_le. exact H. Qed.
Lemma rnd32_ge_Z : forall x m, (Z.abs m <= 2 ^ 24)%Z -> IZR m <= x -> IZR m <= rnd32 x.
Proof. intros x m B H. rewrite <- (rnd32_Z m B). apply rnd32_le. exact H. Qed.
Lemma hue_color : forall d x, dfin d = true -> 0 <= DR d <= 1 -> 0 <= x <= 1 -> Rabs (DR d - x) <= / 500000 ->
  exists c, rainbowColorMap d = Some c /\ saturated c /\ color_ok c /\ shows (1 + / 100) c (red (6 * x)) (green (6 * x)) (blue (6 * x)).
Proof.
  intros d x Fd Rd _ Nd. destruct (rainbow_spec d Fd) as (c & A & B & C & (D & E1 & E2 & E3)). exists c. split; [exact A|]. split; [exact B|]. split; [exact C|]. split; [exact D|].
  destruct (turn (DR d) Rd) as (T1 & T2 & T3). rewrite T1 in E1. rewrite T2 in E2. rewrite T3 in E3. unfold about in *.
  pose proof (red_lip (6 * DR d) (6 * x)) as L1. pose proof (green_lip (6 * DR d) (6 * x)) as L2. pose proof (blue_lip (6 * DR d) (6 * x)) as L3.
  assert (AL : Rabs (6 * DR d - 6 * x) <= / 80000). { apply Rabs_le_inv in Nd. apply Rabs_le. lra. }
  assert (X : forall z u w, Rabs (IZR z - 255 * u) <= 1 + / 10000 -> Rabs (u - w) <= / 80000 -> Rabs (IZR z - 255 * w) <= 1 + / 100).
  { intros z u w P Q. apply Rabs_le_inv in P. apply Rabs_le_inv in Q. apply Rabs_le. lra. }
  split; [|split]; (eapply X; [eassumption|]); eapply Rle_trans; eassumption.
Qed.
Lemma c66 : ffin (fbits 0x3f28f5c3) = true /\ FR (fbits 0x3f28f5c3) = IZR 11072963 * / 16777216.
Proof. split; [reflexivity|]. unfold FR. cbn. unfold F2R. cbn [Fnum Fexp bpow]. change (Z.pow_pos radix2 24) with 16777216%Z. lra. Qed.
Lemma chalf : ffin (fbits 0x3f000000) = true /\ FR (fbits 0x3f000000) = / 2.
Proof. split; [reflexivity|]. unfold FR. cbn. unfold F2R. cbn [Fnum Fexp bpow]. change (Z.pow_pos radix2 24) with 16777216%Z. lra. Qed.
Lemma sdf_color_spec : forall range d, ffin range = true -> 0 < FR range -> ffin d = true ->
  exists c, sdf_color range d = Ok (Some c) /\ saturated c /\ color_ok c /\
    let h := 0.33 * (1 - cut_share (FR range) (FR d)) in shows (1 + / 100) c (red (6 * h)) (green (6 * h)) (blue (6 * h)).
Proof.
  intros range d Fr Pr Fd. unfold sdf_color.
  set (t := fmin (fmax d (fneg range)) range).
  assert (T : ffin t = true /\ FR t = FR range * cut_share (FR range) (FR d)).
  { assert (Fn : ffin (fneg range) = true) by (rewrite fneg_fin; exact Fr).
    assert (En : FR (fneg range) = - FR range) by apply fneg_R.
    assert (Q : FR range * (FR d / FR range) = FR d) by (field; lra).
    assert (IP : 0 < / FR range) by (apply Rinv_0_lt_compat; exact Pr).
    assert (H1 : FR d < - FR range -> FR d / FR range < -1).
    { intros H. apply (Rmult_lt_reg_l (FR range)); [exact Pr|]. lra. }
    assert (H2 : - FR range <= FR d -> -1 <= FR d / FR range).
    { intros H. apply (Rmult_le_reg_l (FR range)); [exact Pr|]. lra. }
    assert (H3 : FR range < FR d -> 1 < FR d / FR range).
    { intros H. apply (Rmult_lt_reg_l (FR range)); [exact Pr|]. lra. }
    assert (H4 : FR d <= FR range -> FR d / FR range <= 1).
    { intros H. apply (Rmult_le_reg_l (FR range)); [exact Pr|]. lra. }
    unfold t, cut_share, fmax. destruct (flt d (fneg range)) eqn:L.
    - apply (flt_R d (fneg range) Fd Fn) in L. rewrite En in L. specialize (H1 L).
      unfold fmin. destruct (flt range (fneg range)) eqn:K; [apply (flt_R range _ Fr Fn) in K; lra|]. split; [exact Fn|].
      rewrite Rmin_right, Rmax_left, En by lra. lra.
    - assert (L' : - FR range <= FR d). { destruct (Rle_or_lt (- FR range) (FR d)) as [H | H]; [exact H|]. rewrite <- En in H. apply (flt_R d _ Fd Fn) in H. congruence. }
      specialize (H2 L'). unfold fmin. destruct (flt range d) eqn:K.
      + apply (flt_R range d Fr Fd) in K. specialize (H3 K). split; [exact Fr|]. rewrite Rmin_left, Rmax_right by lra. lra.
      + assert (K' : FR d <= FR range). { destruct (Rle_or_lt (FR d) (FR range)) as [H | H]; [exact H|]. apply (flt_R range d Fr Fd) in H. congruence. }
        specialize (H4 K'). split; [exact Fd|]. rewrite Rmin_right, Rmax_right by lra. lra. }
  destruct T as (Ft & Et). clearbody t. set (x := cut_share (FR range) (FR d)) in *.
  assert (X : -1 <= x <= 1).
  { unfold x, cut_share. split; [apply Rmax_l|]. apply Rmax_lub; [lra|apply Rmin_l]. }
  assert (Q : FR t / FR range = x) by (rewrite Et; field; lra).
  destruct (fdiv_R t range Ft (Rgt_not_eq _ _ Pr)) as (E1 & F1); [apply small32; rewrite Q; apply Rabs_le; lra|]. rewrite Q in E1.
  pose proof (rnd32_close x ltac:(apply Rabs_le; lra)) as N1.
  assert (R1 : -1 <= FR (fdiv t range) <= 1).
  { rewrite E1. split; [apply rnd32_ge_Z|apply rnd32_le_Z]; try lia; lra. }
  set (q := fdiv t range) in *. assert (F1' : ffin f1 = true) by reflexivity. assert (E1' : FR f1 = 1) by (apply (f32_of_Z_R 1); lia).
  destruct (fadd_R f1 q F1' F1) as (E2 & F2); [apply small32; rewrite E1'; apply Rabs_le; lra|]. rewrite E1' in E2.
  pose proof (rnd32_close (1 + FR q) ltac:(apply Rabs_le; lra)) as N2.
  assert (R2 : 0 <= FR (fadd f1 q) <= 2).
  { rewrite E2. split; [apply rnd32_ge_Z|apply rnd32_le_Z]; try lia; lra. }
  set (a := fadd f1 q) in *. destruct chalf as (FH & EH).
  destruct (fmul_R _ a FH F2) as (E3 & F3); [apply small32; rewrite EH; apply Rabs_le; lra|]. rewrite EH in E3.
  pose proof (rnd32_close (/ 2 * FR a) ltac:(apply Rabs_le; lra)) as N3.
  assert (R3 : 0 <= FR (fmul (fbits 0x3f000000) a) <= 1).
  { rewrite E3. split; [apply rnd32_ge_Z|apply rnd32_le_Z]; try lia; lra. }
  set (f := fmul (fbits 0x3f000000) a) in *.
  assert (C1 : fle f f1 = true) by (apply fle_R; [exact F3|exact F1'|]; lra).
  assert (C2 : fge f f0 = true) by (apply fle_R; [reflexivity|exact F3|]; change (FR f0) with 0; lra).
  rewrite C1, C2. cbn [andb]. destruct c66 as (FC & EC). set (c := fbits 0x3f28f5c3) in *.
  assert (BC : 0.6599 <= FR c <= 0.6601) by (rewrite EC; lra).
  assert (BF : 0 <= FR c * FR f <= 0.6601) by (split; nra).
  destruct (fmul_R c f FC F3) as (E4 & F4); [apply small32; apply Rabs_le; lra|].
  pose proof (rnd32_close (FR c * FR f) ltac:(apply Rabs_le; lra)) as N4.
  assert (R4 : 0 <= FR (fmul c f) <= FR c).
  { rewrite E4. split; [apply rnd32_ge_Z; [lia|lra]|]. rewrite <- (rnd32_FR c) at 2. apply rnd32_le. nra. }
  set (m := fmul c f) in *.
  destruct (fsub_R c m FC F4) as (E5 & F5); [apply small32; apply Rabs_le; lra|].
  pose proof (rnd32_close (FR c - FR m) ltac:(apply Rabs_le; lra)) as N5.
  assert (R5 : 0 <= FR (fsub c m) <= 1).
  { rewrite E5. split; [apply rnd32_ge_Z|apply rnd32_le_Z]; try lia; lra. }
  destruct (f64_of_f32_R _ F5) as (ED & FD).
  destruct (hue_color (f64_of_f32 (fsub c m)) (0.33 * (1 - x)) FD) as (col & EK & S1 & S2 & S3).
  - rewrite ED. exact R5.
  - lra.
  - rewrite ED, E5. apply Rabs_le_inv in N1, N2, N3, N4, N5. rewrite <- E1 in N1. rewrite <- E2 in N2. rewrite <- E3 in N3. rewrite <- E4 in N4. rewrite <- E5 in N5. rewrite <- E5.
    assert (N6 : Rabs (FR f - / 2 * (1 + x)) <= / 3000000) by (apply Rabs_le; lra).
    apply Rabs_le_inv in N6.
    assert (N7 : Rabs (FR c * FR f - 0.33 * (1 + x)) <= / 1500000).
    { replace (FR c * FR f - 0.33 * (1 + x)) with (FR c * (FR f - / 2 * (1 + x)) + (FR c - 0.66) * (/ 2 * (1 + x))) by (unfold Rdiv; lra).
      assert (Z1 : Rabs (FR c * (FR f - / 2 * (1 + x))) <= 0.6601 * / 3000000) by (apply Rabs_prod; apply Rabs_le; lra).
      assert (Z2 : Rabs ((FR c - 0.66) * (/ 2 * (1 + x))) <= / 10000000 * 1) by (apply Rabs_prod; apply Rabs_le; [rewrite EC|]; lra).
      eapply Rle_trans; [apply Rabs_tri; [exact Z1|exact Z2]|]. lra. }
    apply Rabs_le_inv in N7. assert (N8 : Rabs (FR c - 0.66) <= / 10000000) by (rewrite EC; apply Rabs_le; lra). apply Rabs_le_inv in N8.
    apply Rabs_le. lra.
  - rewrite EK. cbn [of_opt rbind]. exists col. auto.
Qed.
