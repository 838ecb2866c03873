(** Lemmas about slices of a layer. *)
From Coq Require Import ZArith List Bool Reals Lra Lia.
From Flocq Require Import Core IEEE754.Binary IEEE754.Bits.
From Verif Require Import F32 F32_lemmas F32_err Types Index Index_float Voxel Layer Ray Mesh_spec Interp_spec Interp_axis Ply Ply_proofs VoxCloud VoxCloud_spec VoxCloud_proofs.
Import ListNotations.
Open Scope R_scope.
Ltac Zify.zify_post_hook ::= idtac.

Lemma mant_lt : forall m e, SpecFloat.bounded 24 128 m e = true -> (Zpos m < 16777216)%Z /\ (-149 <= e)%Z.
Proof.
  intros m e B. apply andb_prop in B. destruct B as (B & _). unfold SpecFloat.canonical_mantissa in B. apply Zeq_bool_eq in B.
  rewrite Digits.Zpos_digits2_pos in B. unfold SpecFloat.fexp, SpecFloat.emin in B.
  assert (D : (Digits.Zdigits radix2 (Zpos m) <= 24)%Z) by lia. split; [|lia].
  pose proof (Digits.Zpower_gt_Zdigits radix2 24 (Zpos m) D) as X. exact X.
Qed.
Lemma exact_rem : forall X Y n, (0 < Y)%Z -> (2 * Z.abs (X - n * Y) <= Y)%Z -> (Z.abs X < 16777216 \/ Y < 16777216)%Z -> (Z.abs (X - n * Y) < 16777216)%Z.
Proof.
  intros X Y n P H [B | B]; [|lia]. destruct (Z.eq_dec n 0) as [-> | N]; [lia|].
  assert (A : (Y <= Z.abs (n * Y))%Z) by (rewrite Z.abs_mul, (Z.abs_eq Y) by lia; nia). lia.
Qed.
Lemma fremainder_spec : forall x y, ffin x = true -> ffin y = true -> 0 < FR y ->
  exists n, Rabs (IZR n - FR x / FR y) <= / 2 /\ ffin (fremainder x y) = true /\ FR (fremainder x y) = FR x - IZR n * FR y.
Proof.
  intros x y Fx Fy Py. destruct y as [sy|sy|sy pl Hpl|sy my ey By]; try discriminate; [unfold FR in Py; cbn in Py; lra|].
  assert (sy = false) as ->. { destruct sy; [|reflexivity]. exfalso. unfold FR in Py. cbn in Py. pose proof (F2R_lt_0 radix2 (Float radix2 (Zneg my) ey) eq_refl) as X. cbn in *. lra. }
  destruct x as [sx|sx|sx pl Hpl|sx mx ex Bx]; try discriminate.
  - exists 0%Z. cbn [fremainder]. split; [|split; [reflexivity|]].
    + unfold FR at 1. cbn. unfold Rdiv. rewrite Rmult_0_l. rewrite Rminus_0_r, Rabs_R0. lra.
    + unfold FR at 1 2. cbn. lra.
  - destruct (mant_lt _ _ Bx) as (Mx & Ex), (mant_lt _ _ By) as (My & Ey). cbn [fremainder]. set (e := Z.min ex ey).
    set (X := ((if sx then -1 else 1) * Zpos mx * 2 ^ (ex - e))%Z). set (Y := (Zpos my * 2 ^ (ey - e))%Z).
    assert (PX : IZR X * bpow radix2 e = FR (B754_finite 24 128 sx mx ex Bx)).
    { unfold X. rewrite mult_IZR. change 2%Z with (radix_val radix2). rewrite IZR_Zpower by lia. rewrite Rmult_assoc, <- bpow_plus. replace (ex - e + e)%Z with ex by lia.
      unfold FR. cbn. unfold F2R. cbn [Fnum Fexp]. f_equal. f_equal. destruct sx; reflexivity. }
    assert (PY : IZR Y * bpow radix2 e = FR (B754_finite 24 128 false my ey By)).
    { unfold Y. rewrite mult_IZR. change 2%Z with (radix_val radix2). rewrite IZR_Zpower by lia. rewrite Rmult_assoc, <- bpow_plus. replace (ey - e + e)%Z with ey by lia. reflexivity. }
    assert (YP : (0 < Y)%Z) by (unfold Y; apply Z.mul_pos_pos; [reflexivity|apply Z.pow_pos_nonneg; lia]).
    pose proof (quot_even_near X Y YP) as Q. set (n := quot_even X Y) in *.
    assert (YR : 0 < IZR Y) by (apply IZR_lt; exact YP). pose proof (bpow_gt_0 radix2 e) as EP.
    assert (T : FR (B754_finite 24 128 sx mx ex Bx) / FR (B754_finite 24 128 false my ey By) = IZR X / IZR Y) by (rewrite <- PX, <- PY; field; lra).
    exists n. rewrite T. split; [exact Q|].
    assert (H : (2 * Z.abs (X - n * Y) <= Y)%Z).
    { apply le_IZR. rewrite mult_IZR, abs_IZR, minus_IZR, mult_IZR. replace (IZR X - IZR n * IZR Y) with (- (IZR Y * (IZR n - IZR X / IZR Y))) by (field; lra).
      rewrite Rabs_Ropp, Rabs_mult, (Rabs_pos_eq (IZR Y)) by lra. pose proof (Rmult_le_compat_l (IZR Y) _ _ (Rlt_le _ _ YR) Q). lra. }
    assert (S : (Z.abs X < 16777216 \/ Y < 16777216)%Z).
    { destruct (Z.le_ge_cases ex ey) as [L | L].
      - left. unfold X, e. rewrite Z.min_l by lia. rewrite Z.sub_diag. rewrite Z.mul_1_r. destruct sx; lia.
      - right. unfold Y, e. rewrite Z.min_r by lia. rewrite Z.sub_diag. lia. }
    pose proof (exact_rem X Y n YP H S) as R. set (r := (X - n * Y)%Z) in *.
    pose proof (binary_normalize_correct 24 128 Hprec32 Hmax32 mode_NE r e sx) as P.
    change (round radix2 (SpecFloat.fexp 24 128) (BinarySingleNaN.round_mode mode_NE)) with rnd32 in P.
    change (F2R (Float radix2 r e)) with (IZR r * bpow radix2 e) in P.
    assert (EX : rnd32 (IZR r * bpow radix2 e) = IZR r * bpow radix2 e) by (apply rnd32_exact; lia).
    assert (VAL : IZR r * bpow radix2 e = FR (B754_finite 24 128 sx mx ex Bx) - IZR n * FR (B754_finite 24 128 false my ey By)).
    { rewrite <- PX, <- PY. unfold r. rewrite minus_IZR, mult_IZR. ring. }
    rewrite EX in P. rewrite Rlt_bool_true in P.
    2:{ apply Rle_lt_trans with (FR (B754_finite 24 128 false my ey By)).
        - rewrite Rabs_mult, (Rabs_pos_eq (bpow radix2 e)), <- PY by lra. apply Rmult_le_compat_r; [lra|]. rewrite <- abs_IZR. apply IZR_le. lia.
        - eapply Rle_lt_trans; [apply Rle_abs|]. apply FR_lt_max. }
    destruct P as (P1 & P2 & _). split; [exact P2|]. rewrite <- VAL. exact P1.
Qed.

Lemma floor_parts : forall t, t = IZR (Zfloor t) + (t - IZR (Zfloor t)) /\ 0 <= t - IZR (Zfloor t) < 1.
Proof. intros t. pose proof (Zfloor_lb t). pose proof (Zfloor_ub t). split; [ring|lra]. Qed.
Lemma nearest_low : forall t n, Rabs (IZR n - t) <= / 2 -> t - IZR (Zfloor t) < / 2 -> n = Zfloor t.
Proof.
  intros t n H L. destruct (floor_parts t) as (_ & B). apply Rabs_le_inv in H.
  assert (A1 : (n < Zfloor t + 1)%Z) by (apply lt_IZR; rewrite plus_IZR; lra).
  assert (A2 : (Zfloor t - 1 < n)%Z) by (apply lt_IZR; rewrite minus_IZR; lra). lia.
Qed.
Lemma nearest_high : forall t n, Rabs (IZR n - t) <= / 2 -> / 2 < t - IZR (Zfloor t) -> n = (Zfloor t + 1)%Z.
Proof.
  intros t n H L. destruct (floor_parts t) as (_ & B). apply Rabs_le_inv in H.
  assert (A1 : (n < Zfloor t + 2)%Z) by (apply lt_IZR; rewrite plus_IZR; lra).
  assert (A2 : (Zfloor t < n)%Z) by (apply lt_IZR; lra). lia.
Qed.
Lemma scale_R : forall x s, 0 < s -> x = s * (x / s). Proof. intros. field. lra. Qed.

Section Plane.
  Variables (s plane : f32).
  Hypothesis S : sane_size s.
  Hypothesis F : ffin plane = true.
  Notation t := (FR plane / FR s).
  Hypothesis T : Rabs t <= 65536.
  Notation k := (Zfloor t).
  Notation theta := (t - IZR k).
  Notation eps := (FR kEpsilon / FR s).
  Hypothesis E : 10 * FR kEpsilon <= FR s.
  Lemma s_pos : 0 < FR s. Proof. apply sane_pos. exact S. Qed.
  Lemma eps_range : 0 <= eps <= / 10.
  Proof.
    pose proof s_pos as P. destruct kEpsilon_R as ((K0 & _) & _). split.
    - apply Rmult_le_pos; [exact K0|]. apply Rlt_le, Rinv_0_lt_compat, P.
    - apply (Rmult_le_reg_l (FR s)); [exact P|]. replace (FR s * (FR kEpsilon / FR s)) with (FR kEpsilon) by (field; lra). lra.
  Qed.
  (** the plane moved up by half a voxel *)
  Definition moved : f32 := f32_of_f64 (dadd (f64_of_f32 plane) (ddiv (f64_of_f32 s) (f64_of_Z 2))).
  Lemma half_near : dfin (ddiv (f64_of_f32 s) (f64_of_Z 2)) = true /\
    exists d, Rabs d <= / 1000000000 /\ DR (ddiv (f64_of_f32 s) (f64_of_Z 2)) = FR s * (/ 2 + d).
  Proof.
    pose proof s_pos as P. destruct S as (Fs & L & U). destruct (f64_of_f32_R s Fs) as (E1 & F1). destruct (f64_of_Z_R 2 ltac:(lia)) as (E2 & F2).
    assert (SB : bpow radix2 40 <= IZR 1099511627776) by (right; reflexivity).
    destruct (ddiv_R (f64_of_f32 s) (f64_of_Z 2) F1) as (E3 & F3).
    { rewrite E2. lra. }
    { rewrite E1, E2. apply rnd64_small. rewrite Rabs_pos_eq by lra. apply Rle_trans with (bpow radix2 40); [lra|]. apply bpow_le. lia. }
    split; [exact F3|]. rewrite E1, E2 in E3. destruct (rnd64_rel (FR s / 2)) as (d & D & R).
    { rewrite Rabs_pos_eq by lra. apply Rle_trans with (bpow radix2 (-40) * / 2); [|lra]. change (/ 2) with (bpow radix2 (-1)). rewrite <- bpow_plus. apply bpow_le. lia. }
    exists (d / 2). split.
    - unfold Rdiv. rewrite Rabs_mult, (Rabs_pos_eq (/ 2)) by lra. assert (B : bpow radix2 (-53) <= bpow radix2 (-30)) by (apply bpow_le; lia). change (bpow radix2 (-30)) with (/ 1073741824) in B. lra.
    - rewrite E3, R. lra.
  Qed.
  Lemma moved_near : ffin moved = true /\ Rabs (FR moved / FR s - (t + / 2)) <= / 200.
  Proof.
    pose proof s_pos as P. destruct half_near as (Fh & d & D & Eh). destruct (f64_of_f32_R plane F) as (Ep & Fp).
    pose proof (scale_R (FR plane) (FR s) P) as SP. set (tt := t) in *. clearbody tt.
    assert (SB : 0 < FR s <= IZR 1099511627776) by (split; [exact P|]; destruct S as (_ & _ & U); exact U).
    assert (SL : / 1099511627776 <= FR s) by (destruct S as (_ & L & _); exact L).
    assert (T' : -65536 <= tt <= 65536) by (apply Rabs_le_inv; exact T). apply Rabs_le_inv in D.
    set (w := tt + / 2 + d). assert (W : FR plane + FR s * (/ 2 + d) = FR s * w) by (unfold w; rewrite SP at 1; ring).
    assert (BW : Rabs w <= 65537) by (apply Rabs_le; unfold w; lra).
    destruct (dadd_R _ _ Fp Fh) as (E1 & F1).
    { rewrite Ep, Eh, W. apply rnd64_small. rewrite Rabs_mult, (Rabs_pos_eq (FR s)) by lra. apply Rle_trans with (bpow radix2 40 * bpow radix2 17); [|rewrite <- bpow_plus; apply bpow_le; lia].
      apply Rmult_le_compat; [lra|apply Rabs_pos|exact (proj2 SB)|]. change (bpow radix2 17) with (IZR 131072). lra. }
    rewrite Ep, Eh, W in E1. destruct (rnd64_err (FR s * w)) as (d1 & e1 & D1 & Er1 & R1). rewrite R1 in E1.
    assert (U64 : u64r <= / 1000000000) by (unfold u64r; lra). assert (T64 : t64r <= / 1000000000 * / 1099511627776).
    { apply Rle_trans with (bpow radix2 (-70)); [|change (bpow radix2 (-70)) with (/ 1180591620717411303424); lra]. unfold t64r. apply bpow_le. lia. }
    assert (V1 : exists w1, FR s * w1 = DR (dadd (f64_of_f32 plane) (ddiv (f64_of_f32 s) (f64_of_Z 2))) /\ Rabs (w1 - w) <= / 10000).
    { exists (w * (1 + d1) + e1 / FR s). split; [rewrite E1; field; lra|].
      replace (w * (1 + d1) + e1 / FR s - w) with (w * d1 + e1 / FR s) by ring.
      apply Rle_trans with (65537 * / 1000000000 + / 1000000000); [|lra]. apply Rabs_tri.
      - apply Rabs_prod; [exact BW|lra].
      - unfold Rdiv. rewrite Rabs_mult, (Rabs_pos_eq (/ FR s)) by (apply Rlt_le, Rinv_0_lt_compat; lra).
        apply (Rmult_le_reg_r (FR s)); [lra|]. rewrite Rmult_assoc, Rinv_l, Rmult_1_r by lra. nra. }
    destruct V1 as (w1 & V1 & N1). rewrite <- V1 in E1. 
    assert (BW1 : Rabs w1 <= 65538) by (apply Rabs_le_inv in BW; apply Rabs_le_inv in N1; apply Rabs_le; lra).
    destruct (f32_of_f64_R _ F1) as (E2 & F2).
    { rewrite <- V1. apply rnd32_small. rewrite Rabs_mult, (Rabs_pos_eq (FR s)) by lra. apply Rle_trans with (bpow radix2 40 * bpow radix2 17); [|rewrite <- bpow_plus; apply bpow_le; lia].
      apply Rmult_le_compat; [lra|apply Rabs_pos|exact (proj2 SB)|]. change (bpow radix2 17) with (IZR 131072). lra. }
    split; [exact F2|]. unfold moved. rewrite E2, <- V1. destruct (rnd32_err (FR s * w1)) as (d2 & e2 & D2 & Er2 & R2). rewrite R2.
    change (bpow radix2 (-24)) with (/ 16777216) in D2.
    assert (T32 : bpow radix2 (-150) <= / 1000000000 * / 1099511627776).
    { apply Rle_trans with (bpow radix2 (-70)); [apply bpow_le; lia|]. change (bpow radix2 (-70)) with (/ 1180591620717411303424). lra. }
    replace ((FR s * w1 * (1 + d2) + e2) / FR s - (tt + / 2)) with ((w1 - w) + (d + (w1 * d2 + e2 / FR s))) by (unfold w; field; lra).
    apply Rle_trans with (/ 10000 + (/ 1000000000 + (65538 * / 16777216 + / 1000000000))); [|lra].
    apply Rabs_tri; [exact N1|]. apply Rabs_tri; [apply Rabs_le; lra|]. apply Rabs_tri; [apply Rabs_prod; assumption|].
    unfold Rdiv. rewrite Rabs_mult, (Rabs_pos_eq (/ FR s)) by (apply Rlt_le, Rinv_0_lt_compat; lra).
    apply (Rmult_le_reg_r (FR s)); [lra|]. rewrite Rmult_assoc, Rinv_l, Rmult_1_r by lra. nra.
  Qed.
  Lemma plane_low : theta < / 2 -> FR kEpsilon <= theta * FR s -> slice_plane s plane = plane.
  Proof.
    intros L K. pose proof s_pos as P. destruct (fremainder_spec plane s F (proj1 S) P) as (n & N & FR1 & ER).
    rewrite (nearest_low _ _ N L) in ER. unfold slice_plane. destruct (flt (fremainder plane s) kEpsilon) eqn:C; [|reflexivity].
    apply (flt_R _ kEpsilon FR1 eq_refl) in C. rewrite ER in C. exfalso.
    assert (X : theta * FR s = FR plane - IZR k * FR s) by (field; lra). lra.
  Qed.
  Lemma plane_moved : theta < / 2 /\ theta * FR s < FR kEpsilon \/ / 2 < theta -> slice_plane s plane = moved.
  Proof.
    intros H. pose proof s_pos as P. destruct (fremainder_spec plane s F (proj1 S) P) as (n & N & FR1 & ER).
    unfold slice_plane. replace (flt (fremainder plane s) kEpsilon) with true; [reflexivity|]. symmetry. apply (flt_R _ kEpsilon FR1 eq_refl). rewrite ER.
    destruct H as [(L & H) | H].
    - rewrite (nearest_low _ _ N L). assert (X : theta * FR s = FR plane - IZR k * FR s) by (field; lra). lra.
    - rewrite (nearest_high _ _ N H). destruct kEpsilon_R as ((K0 & _) & _). assert (X : theta * FR s = FR plane - IZR k * FR s) by (field; lra).
      assert (KP : 0 < FR kEpsilon). { change (FR kEpsilon) with (IZR 8796093 * bpow radix2 (-43)). apply Rmult_lt_0_compat; [lra|apply bpow_gt_0]. }
      rewrite plus_IZR. destruct (floor_parts t) as (_ & B). assert (Y : (theta - 1) * FR s <= 0) by nra. lra.
  Qed.
End Plane.

(** which voxels lie in a slice at the effective plane [p]: those of the layer of voxels that holds it *)
Lemma in_slice_iff : forall (s p c : f32) axis coord (m m0 : Z), sane_size s -> 10 * FR kEpsilon <= FR s -> ffin p = true -> ffin c = true -> get3 axis coord = c ->
  Rabs (FR c / FR s - (IZR m + / 2)) <= 0.064 -> Rabs (IZR m) <= 140000 ->
  IZR m0 + FR kEpsilon / FR s + 0.07 <= FR p / FR s <= IZR m0 + 1 - FR kEpsilon / FR s - 0.07 -> Rabs (IZR m0) <= 70000 ->
  (in_slice axis p s coord = true <-> m = m0).
Proof.
  intros s p c axis coord m m0 S E Fp Fc G C BM B BM0. pose proof (sane_pos s S) as P. unfold in_slice. rewrite G.
  pose proof (scale_R (FR p) (FR s) P) as Sp. pose proof (scale_R (FR c) (FR s) P) as Sc.
  pose proof (eps_range s S E) as Ep. set (ep := FR kEpsilon / FR s) in *.
  set (tp := FR p / FR s) in *. set (tc := FR c / FR s) in *. clearbody tp tc.
  apply Rabs_le_inv in C. apply Rabs_le_inv in BM. apply Rabs_le_inv in BM0.
  assert (SB : FR s <= IZR 1099511627776) by (destruct S as (_ & _ & U); exact U).
  assert (SL : / 1099511627776 <= FR s) by (destruct S as (_ & L & _); exact L).
  assert (DF : FR c - FR p = FR s * (tc - tp)) by (rewrite Sp, Sc at 1; ring).
  destruct (fsub_rel c p Fc Fp) as (F1 & e & He & E1).
  { rewrite DF, Rabs_mult, (Rabs_pos_eq (FR s)) by lra. apply Rle_trans with (bpow radix2 40 * bpow radix2 18); [|rewrite <- bpow_plus; apply bpow_le; lia].
    apply Rmult_le_compat; [lra|apply Rabs_pos|exact SB|]. change (bpow radix2 18) with (IZR 262144). apply Rabs_le. lra. }
  assert (F1' : ffin (fabs (fsub c p)) = true) by (rewrite fabs_fin; exact F1).
  destruct (f64_of_f32_R _ F1') as (E2 & F2). rewrite fabs_R, E1, DF in E2.
  assert (A : Rabs (FR s * (tc - tp) * (1 + e)) = FR s * (Rabs (tc - tp) * (1 + e))).
  { unfold u32r in He. apply Rabs_le_inv in He. rewrite !Rabs_mult, (Rabs_pos_eq (FR s)), (Rabs_pos_eq (1 + e)) by lra. ring. }
  rewrite A in E2. destruct (half_near s p S) as (Fh & d & D & Eh). destruct (f64_of_f32_R kEpsilon eq_refl) as (Ek & Fk).
  assert (KE : FR kEpsilon = FR s * ep) by (unfold ep; field; lra). apply Rabs_le_inv in D.
  destruct (dadd_R _ _ Fh Fk) as (E3 & F3).
  { rewrite Eh, Ek, KE. apply rnd64_small. replace (FR s * (/ 2 + d) + FR s * ep) with (FR s * (/ 2 + d + ep)) by ring.
    rewrite Rabs_mult, (Rabs_pos_eq (FR s)) by lra. apply Rle_trans with (bpow radix2 40 * bpow radix2 1); [|rewrite <- bpow_plus; apply bpow_le; lia].
    apply Rmult_le_compat; [lra|apply Rabs_pos|exact SB|]. change (bpow radix2 1) with 2. apply Rabs_le. lra. }
  rewrite Eh, Ek, KE in E3. replace (FR s * (/ 2 + d) + FR s * ep) with (FR s * (/ 2 + d + ep)) in E3 by ring.
  destruct (rnd64_rel (FR s * (/ 2 + d + ep))) as (d2 & D2 & R2).
  { rewrite Rabs_pos_eq by nra. apply Rle_trans with (bpow radix2 (-40) * bpow radix2 (-2)); [rewrite <- bpow_plus; apply bpow_le; lia|].
    apply Rmult_le_compat; [apply bpow_ge_0|apply bpow_ge_0|exact SL|]. change (bpow radix2 (-2)) with (/ 4). lra. }
  assert (D2' : Rabs d2 <= / 1000000000). { eapply Rle_trans; [exact D2|]. apply Rle_trans with (bpow radix2 (-30)); [apply bpow_le; lia|]. change (bpow radix2 (-30)) with (/ 1073741824). lra. }
  apply Rabs_le_inv in D2'. rewrite R2, Rmult_assoc in E3.
  rewrite (dle_R _ _ F2 F3), E2, E3. set (h := (/ 2 + d + ep) * (1 + d2)) in *.
  assert (H : / 2 + ep - / 1000 <= h <= / 2 + ep + / 1000) by (unfold h; nra).
  unfold u32r in He. apply Rabs_le_inv in He.
  assert (X : FR s * (Rabs (tc - tp) * (1 + e)) <= FR s * h <-> Rabs (tc - tp) * (1 + e) <= h).
  { split; intros Y; [apply (Rmult_le_reg_l (FR s)); [exact P|exact Y]|apply Rmult_le_compat_l; [lra|exact Y]]. }
  rewrite X. clear X. split; intros Y.
  - assert (Z1 : Rabs (tc - tp) <= / 2 + ep + / 500) by nra. apply Rabs_le_inv in Z1.
    assert (A1 : (m < m0 + 1)%Z) by (apply lt_IZR; rewrite plus_IZR; lra).
    assert (A2 : (m0 - 1 < m)%Z) by (apply lt_IZR; rewrite minus_IZR; lra). lia.
  - subst m. assert (Z1 : Rabs (tc - tp) <= / 2 - 0.006) by (apply Rabs_le; lra). nra.
Qed.
