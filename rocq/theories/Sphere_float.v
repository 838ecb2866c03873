(** The float loops of [getSphereAroundPoint]. *)
From Coq Require Import ZArith List Bool Reals Lra Lia Psatz.
From Flocq Require Import Core.
From Verif Require Import F32 F32_lemmas F32_err Types Index Index_float Voxel Layer Planning Dist_proofs Interp_axis Neighbor_proofs Sphere_spec.
Import ListNotations.
Open Scope R_scope.
Ltac Zify.zify_post_hook ::= idtac.

Lemma pow2_bpow : forall e, (0 <= e)%Z -> IZR (2 ^ e) = bpow radix2 e.
Proof. intros. apply (IZR_Zpower radix2); auto. Qed.
(** floats of moderate size as integer multiples of a power of two not above 1 *)
Lemma float_repr : forall x, ffin x = true -> 0 <= FR x <= bpow radix2 20 ->
  exists m e, FR x = IZR m * bpow radix2 e /\ (0 <= m < 2 ^ 24)%Z /\ (-149 <= e <= 0)%Z.
Proof.
  intros x F (P & B). destruct (FLT_format_generic radix2 (-149) 24 (FR x) (FR_format x)) as [f E M X].
  destruct f as [m e]. cbn [Fnum Fexp] in *. unfold F2R in E. cbn [Fnum Fexp] in E. change (radix2 ^ 24)%Z with (2 ^ 24)%Z in M.
  assert (M0 : (0 <= m)%Z).
  { apply le_IZR. pose proof (bpow_gt_0 radix2 e). rewrite E in P. apply Rmult_le_reg_r with (bpow radix2 e); auto. lra. }
  destruct (Z_le_gt_dec e 0) as [L|G].
  - exists m, e. repeat split; auto; lia.
  - exists (m * 2 ^ e)%Z, 0%Z. rewrite mult_IZR, (pow2_bpow e) by lia. change (bpow radix2 0) with 1. rewrite Rmult_1_r.
    split; [exact E|]. split; [|lia]. split; [apply Z.mul_nonneg_nonneg; [lia|apply Z.pow_nonneg; lia]|].
    apply lt_IZR. rewrite mult_IZR, (pow2_bpow e) by lia. rewrite <- E. change (IZR (2 ^ 24)) with 16777216.
    eapply Rle_lt_trans; [exact B|]. cbn. lra.
Qed.

Section range.
  Variable r : f32.
  Hypothesis Fr : ffin r = true.
  Hypothesis Br : 0 <= FR r <= bpow radix2 16.
  Let R0 := FR r.
  Variable n : nat.
  Hypothesis Hn : INR n <= 2 * R0 < INR n + 1.

  Lemma lattice_value : forall k x, (k <= n)%nat -> ffin x = true -> FR x = - R0 + INR k ->
    ffin (fadd x f1) = true /\
    ((S k <= n)%nat -> FR (fadd x f1) = - R0 + INR (S k)) /\ ((n < S k)%nat -> R0 < FR (fadd x f1)).
  Proof.
    intros k x Hk Fx Ex.
    assert (B20 : 0 <= FR r <= bpow radix2 20). { split; [apply Br|]. eapply Rle_trans; [apply Br|]. apply bpow_le. lia. }
    destruct (float_repr r Fr B20) as (m & e & Em & Hm & He). fold R0 in Em.
    pose proof (bpow_gt_0 radix2 e) as Pe.
    assert (V : FR x + FR f1 = IZR (- m + Z.of_nat (S k) * 2 ^ (- e)) * bpow radix2 e).
    { rewrite Ex, f1_R, plus_IZR, mult_IZR, opp_IZR, pow2_bpow by lia.
      rewrite Rmult_plus_distr_r, Rmult_assoc, <- bpow_plus. replace (- e + e)%Z with 0%Z by lia. change (bpow radix2 0) with 1.
      rewrite Em, <- INR_IZR_INZ, S_INR. ring. }
    assert (SV : FR x + FR f1 = - R0 + INR (S k)) by (rewrite Ex, f1_R, S_INR; ring).
    assert (Kn : INR (S k) <= INR n + 1) by (rewrite S_INR; apply le_INR in Hk; lra).
    assert (Bx : Rabs (FR x + FR f1) <= bpow radix2 20).
    { rewrite SV. apply Rabs_le. pose proof (pos_INR (S k)). destruct Br as (R1 & R2). fold R0 in R1, R2. cbn in *. lra. }
    assert (F1 : ffin f1 = true) by reflexivity.
    destruct (fadd_R x f1 Fx F1) as (E & F). { apply rnd32_small. eapply Rle_trans; [exact Bx|]. apply bpow_le; lia. }
    split; [exact F|]. rewrite E, V. split.
    - intros L. assert (IN : INR (S k) <= INR n) by (apply le_INR; lia).
      assert (Q : (Z.abs (- m + Z.of_nat (S k) * 2 ^ (- e)) <= m)%Z).
      { apply le_IZR. rewrite abs_IZR. apply Rmult_le_reg_r with (bpow radix2 e); auto.
        rewrite <- (Rabs_pos_eq (bpow radix2 e)) at 1 by lra. rewrite <- Rabs_mult, <- V, <- Em, SV. apply Rabs_le.
        pose proof (pos_INR (S k)). lra. }
      rewrite rnd32_exact by lia.
      rewrite <- V. exact SV.
    - intros L. assert (k = n) by lia. subst k. rewrite S_INR in SV.
      assert (Q : (m < - m + Z.of_nat (S n) * 2 ^ (- e))%Z).
      { apply lt_IZR. apply Rmult_lt_reg_r with (bpow radix2 e); auto. rewrite <- V, <- Em, SV. lra. }
      apply Rlt_le_trans with (IZR (m + 1) * bpow radix2 e).
      { rewrite plus_IZR. rewrite Em. lra. }
      rewrite <- (rnd32_exact (m + 1) e) by lia. apply rnd32_le. apply Rmult_le_compat_r; [lra|]. apply IZR_le. lia.
  Qed.

  Lemma frange_stop : forall fuel x, ffin x = true -> R0 < FR x -> frange fuel x r = Some [].
  Proof.
    intros fuel x Fx L. assert (H : fle x r = false).
    { destruct (fle x r) eqn:E; auto. apply fle_R in E; auto. fold R0 in E. lra. }
    destruct fuel; cbn [frange]; rewrite H; reflexivity.
  Qed.
  Lemma frange_from : forall j fuel k x, (k + j = S n)%nat -> (j < fuel)%nat -> ffin x = true ->
    ((k <= n)%nat -> FR x = - R0 + INR k) -> ((n < k)%nat -> R0 < FR x) ->
    exists xs, frange fuel x r = Some xs /\ Forall2 (fun i y => ffin y = true /\ FR y = - R0 + INR i) (seq k j) xs.
  Proof.
    induction j as [|j IH]; intros fuel k x Hk Hf Fx Lx Gx.
    - exists []. split; [|constructor]. apply frange_stop; auto. apply Gx. lia.
    - destruct fuel as [|fuel]; [lia|]. cbn [frange seq].
      assert (Kn : (k <= n)%nat) by lia. specialize (Lx Kn).
      assert (H : fle x r = true). { apply fle_R; auto. rewrite Lx. fold R0. apply le_INR in Kn. lra. }
      rewrite H. destruct (lattice_value k x Kn Fx Lx) as (F' & L' & G').
      destruct (IH fuel (S k) (fadd x f1)) as (xs & E & A); auto; try lia. rewrite E.
      exists (x :: xs). split; [reflexivity|]. constructor; auto.
  Qed.
  Lemma frange_all : forall fuel, (S n < fuel)%nat ->
    exists xs, frange fuel (fneg r) r = Some xs /\ Forall2 (fun i y => ffin y = true /\ FR y = - R0 + INR i) (seq 0 (S n)) xs.
  Proof.
    intros fuel Hf. apply frange_from; auto.
    - unfold fneg. rewrite <- Fr. apply Binary.is_finite_Bopp.
    - intros _. rewrite fneg_R. cbn [INR]. unfold R0. lra.
    - lia.
  Qed.
End range.

(** the float norm *)
Lemma fnorm_err : forall p, all3 (fun c => ffin c = true /\ Rabs (FR c) <= bpow radix2 17) p ->
  ffin (fnorm p) = true /\
  nrm (FR (vx p)) (FR (vy p)) (FR (vz p)) * (1 - 5 * u) - / 1000000 <= FR (fnorm p)
    <= nrm (FR (vx p)) (FR (vy p)) (FR (vz p)) * (1 + 5 * u) + / 1000000.
Proof.
  intros [px py pz] ((Fx & Bx) & (Fy & By) & (Fz & Bz)). cbn [vx vy vz] in *.
  assert (SQ : forall c, ffin c = true -> Rabs (FR c) <= bpow radix2 17 -> exists d e,
    ffin (fmul c c) = true /\ Rabs d <= u /\ Rabs e <= t32r /\ FR (fmul c c) = FR c * FR c * (1 + d) + e /\ 0 <= FR c * FR c <= bpow radix2 34).
  { intros c F B. assert (Q : Rabs (FR c * FR c) <= bpow radix2 34) by (apply (Rabs_mul_bpow _ _ 17 17); auto; lia).
    destruct (fmul_rel c c F F) as (F' & d & e & Hd & He & E). { eapply Rle_trans; [exact Q|]. apply bpow_le; lia. }
    exists d, e. change u32r with u in Hd. repeat split; auto. { nra. } apply Rabs_le_inv in Q. lra. }
  destruct (SQ px Fx Bx) as (d1 & e1 & F1 & D1 & E1 & V1 & P1). destruct (SQ py Fy By) as (d2 & e2 & F2 & D2 & E2 & V2 & P2).
  destruct (SQ pz Fz Bz) as (d3 & e3 & F3 & D3 & E3 & V3 & P3).
  set (X := FR px * FR px) in *. set (Y := FR py * FR py) in *. set (Z := FR pz * FR pz) in *.
  assert (T : t32r <= / 10000000000000000). { unfold t32r. apply Rle_trans with (bpow radix2 (-60)); [apply bpow_le; lia|cbn; lra]. }
  pose proof t32r_pos as T0.
  assert (NR : forall a d e, 0 <= a -> Rabs d <= u -> Rabs e <= t32r -> a * (1 - u) - t32r <= a * (1 + d) + e <= a * (1 + u) + t32r).
  { intros a d e A D E. apply Rabs_le_inv in D, E. split; nra. }
  pose proof (NR X d1 e1 (proj1 P1) D1 E1) as N1. pose proof (NR Y d2 e2 (proj1 P2) D2 E2) as N2. pose proof (NR Z d3 e3 (proj1 P3) D3 E3) as N3.
  rewrite <- V1 in N1. rewrite <- V2 in N2. rewrite <- V3 in N3. change (bpow radix2 34) with 17179869184 in *.
  set (a := fmul px px) in *. set (b := fmul py py) in *. set (c := fmul pz pz) in *.
  destruct (fadd_rel b c F2 F3) as (F4 & d4 & D4 & V4).
  { apply Rle_trans with (bpow radix2 40); [|apply bpow_le; lia]. change (bpow radix2 40) with 1099511627776. apply Rabs_le. unfold u in *. lra. }
  assert (N4 : (Y + Z) * (1 - 2.001 * u) - 3 * t32r <= FR (fadd b c) <= (Y + Z) * (1 + 2.001 * u) + 3 * t32r).
  { replace (FR (fadd b c)) with (FR b + FR c + (FR b + FR c) * d4) by (rewrite V4; ring). change u32r with u in D4. assert (B4 : Rabs (FR b + FR c) <= (Y + Z) * (1 + u) + 2 * t32r) by (apply Rabs_le; unfold u in *; lra).
    pose proof (Rabs_prod _ _ _ _ B4 D4) as Q. apply Rabs_le_inv in Q. unfold u in *. lra. }
  destruct (fadd_rel a (fadd b c) F1 F4) as (F5 & d5 & D5 & V5).
  { apply Rle_trans with (bpow radix2 40); [|apply bpow_le; lia]. change (bpow radix2 40) with 1099511627776. apply Rabs_le. unfold u in *. lra. }
  set (s := fadd a (fadd b c)) in *. set (N := X + Y + Z).
  assert (N5 : N * (1 - 4 * u) - 6 * t32r <= FR s <= N * (1 + 4 * u) + 6 * t32r).
  { replace (FR s) with (FR a + FR (fadd b c) + (FR a + FR (fadd b c)) * d5) by (rewrite V5; ring). change u32r with u in D5.
    assert (B5 : Rabs (FR a + FR (fadd b c)) <= N * (1 + 3 * u) + 5 * t32r) by (unfold N; apply Rabs_le; unfold u in *; lra).
    pose proof (Rabs_prod _ _ _ _ B5 D5) as Q. apply Rabs_le_inv in Q. unfold N in *. unfold u in *. lra. }
  assert (Sp : 0 <= FR s).
  { assert (0 <= FR a). { unfold a. destruct (fmul_R px px Fx Fx) as (E & _).
      { apply rnd32_small. fold X. rewrite Rabs_pos_eq by lra. apply Rle_trans with (bpow radix2 34); [cbn; lra|apply bpow_le; lia]. }
      rewrite E. apply rnd32_pos. fold X. lra. }
    assert (0 <= FR b). { unfold b. destruct (fmul_R py py Fy Fy) as (E & _).
      { apply rnd32_small. fold Y. rewrite Rabs_pos_eq by lra. apply Rle_trans with (bpow radix2 34); [cbn; lra|apply bpow_le; lia]. }
      rewrite E. apply rnd32_pos. fold Y. lra. }
    assert (0 <= FR c). { unfold c. destruct (fmul_R pz pz Fz Fz) as (E & _).
      { apply rnd32_small. fold Z. rewrite Rabs_pos_eq by lra. apply Rle_trans with (bpow radix2 34); [cbn; lra|apply bpow_le; lia]. }
      rewrite E. apply rnd32_pos. fold Z. lra. }
    rewrite V5. apply Rabs_le_inv in D5, D4. unfold u32r in D4, D5. assert (0 <= FR (fadd b c)) by (rewrite V4; apply Rmult_le_pos; lra).
    apply Rmult_le_pos; lra. }
  destruct (fsqrt_rel s F5 Sp) as (F6 & d6 & D6 & V6).
  change (fnorm {| vx := px; vy := py; vz := pz |}) with (fsqrt s). split; [exact F6|].
  change (nrm (FR px) (FR py) (FR pz)) with (sqrt N).
  assert (NP : 0 <= N <= 51539607552) by (unfold N; lra).
  set (q := sqrt N). assert (q0 : 0 <= q) by apply sqrt_pos. assert (qq : q * q = N) by (apply sqrt_sqrt; lra).
  assert (qb : q <= 300000). { apply Rsqr_incr_0_var; [|lra]. unfold Rsqr. rewrite qq. lra. }
  set (w := sqrt (FR s)) in *. assert (w0 : 0 <= w) by apply sqrt_pos. assert (ww : w * w = FR s) by (apply sqrt_sqrt; lra).
  apply Rabs_le_inv in D6. unfold u32r in D6.
  assert (UP : w <= q * (1 + 3 * u) + / 2000000).
  { apply Rsqr_incr_0_var; [|unfold u; lra]. unfold Rsqr. rewrite ww.
    apply Rle_trans with (q * q * (1 + 4 * u) + 6 * t32r); [rewrite qq; lra|].
    set (h := / 2000000) in *. set (A := q * (1 + 3 * u)) in *. assert (A2 : q * q * (1 + 4 * u) <= A * A).
    { unfold A. replace (q * (1 + 3 * u) * (q * (1 + 3 * u))) with (q * q * ((1 + 3 * u) * (1 + 3 * u))) by ring.
      apply Rmult_le_compat_l; [rewrite qq; lra|]. unfold u. lra. }
    assert (H2 : 0 <= A * h) by (apply Rmult_le_pos; [apply Rmult_le_pos; [lra|unfold u; lra]|unfold h; lra]).
    assert (HT : 6 * t32r <= h * h) by (unfold h; lra).
    replace ((A + h) * (A + h)) with (A * A + 2 * (A * h) + h * h) by ring. lra. }
  assert (LO : q * (1 - 3 * u) - / 2000000 <= w).
  { destruct (Rle_lt_dec (q * (1 - 3 * u) - / 2000000) 0) as [L|G]; [lra|].
    apply Rsqr_incr_0_var; [|lra]. unfold Rsqr. rewrite ww.
    apply Rle_trans with (q * q * (1 - 4 * u) - 6 * t32r); [|rewrite qq; lra].
    set (h := / 2000000) in *. set (A := q * (1 - 3 * u)) in *. assert (A2 : A * A <= q * q * (1 - 4 * u)).
    { unfold A. replace (q * (1 - 3 * u) * (q * (1 - 3 * u))) with (q * q * ((1 - 3 * u) * (1 - 3 * u))) by ring.
      apply Rmult_le_compat_l; [rewrite qq; lra|]. unfold u. lra. }
    assert (H2 : h * h <= A * h) by (apply Rmult_le_compat_r; unfold h in *; lra).
    assert (HT : 6 * t32r <= h * h) by (unfold h; lra).
    replace ((A - h) * (A - h)) with (A * A - 2 * (A * h) + h * h) by ring. lra. }
  assert (WB : Rabs w <= q * (1 + 3 * u) + / 2000000) by (rewrite Rabs_pos_eq; lra).
  assert (D6' : Rabs d6 <= u) by (apply Rabs_le; unfold u; lra).
  pose proof (Rabs_prod _ _ _ _ WB D6') as Q. apply Rabs_le_inv in Q. rewrite V6. replace (w * (1 + d6)) with (w + w * d6) by ring.
  unfold u in *. lra.
Qed.
