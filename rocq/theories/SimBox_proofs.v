(** Ray intersections of simulated boxes against real geometry. *)
From Coq Require Import ZArith Reals List Bool Lia Lra Psatz.
From Flocq Require Import Core Binary.
From Verif Require Import F32 F32_lemmas F32_err Types Index Voxel Serialize Assoc Layer Update Update_spec
  Merge_proofs Dist_proofs Timing_proofs Index_float Sim Sim_spec Sim_geom SimHit_spec SimHit_proofs.
Import ListNotations.
Open Scope R_scope.

(** ** The intervals of the three axes *)
Lemma flt_ER a b : fnan a = false -> fnan b = false -> (flt a b = true <-> ER a < ER b).
Proof. intros A B. rewrite flt_iff. tauto. Qed.
Lemma flt_ER_false a b : fnan a = false -> fnan b = false -> (flt a b = false <-> ER b <= ER a).
Proof.
  intros A B. split; intros H.
  - apply Rnot_lt_le. intros L. apply flt_ER in L; auto. congruence.
  - destruct (flt a b) eqn:E; [|reflexivity]. apply flt_ER in E; auto. lra.
Qed.
Definition slabs (xs ys zs : f32 * f32) (m : f32) : option f32 :=
  let '(tmin, tmax) := xs in let '(tymin, tymax) := ys in
  if fgt tmin tymax || fgt tymin tmax then None
  else
    let tmin := if fgt tymin tmin then tymin else tmin in
    let tmax := if flt tymax tmax then tymax else tmax in
    let '(tzmin, tzmax) := zs in
    if fgt tmin tzmax || fgt tzmin tmax then None
    else
      let tmin := if fgt tzmin tmin then tzmin else tmin in
      let tmax := if flt tzmax tmax then tzmax else tmax in
      let t := if flt tmin f0 then tmax else tmin in
      if flt t f0 then None else if fgt t m then None else Some t.
Definition nn (x : f32) : Prop := fnan x = false.
Definition interval (p : f32 * f32) : Prop := nn (fst p) /\ nn (snd p) /\ ER (fst p) <= ER (snd p).
Lemma pick_max a b : nn a -> nn b -> nn (if fgt a b then a else b) /\ ER (if fgt a b then a else b) = Rmax (ER a) (ER b) /\
  ((if fgt a b then a else b) = a \/ (if fgt a b then a else b) = b).
Proof.
  intros A B. unfold fgt. destruct (flt b a) eqn:E.
  - apply flt_ER in E; auto. rewrite Rmax_left by lra. auto.
  - apply flt_ER_false in E; auto. rewrite Rmax_right by lra. auto.
Qed.
Lemma pick_min a b : nn a -> nn b -> nn (if flt a b then a else b) /\ ER (if flt a b then a else b) = Rmin (ER a) (ER b) /\
  ((if flt a b then a else b) = a \/ (if flt a b then a else b) = b).
Proof.
  intros A B. destruct (flt a b) eqn:E.
  - apply flt_ER in E; auto. rewrite Rmin_left by lra. auto.
  - apply flt_ER_false in E; auto. rewrite Rmin_right by lra. auto.
Qed.
Lemma slabs_sound xs ys zs m t : interval xs -> interval ys -> interval zs -> nn m -> slabs xs ys zs m = Some t ->
  nn t /\ 0 <= ER t <= ER m /\ ER (fst xs) <= ER t <= ER (snd xs) /\ ER (fst ys) <= ER t <= ER (snd ys) /\ ER (fst zs) <= ER t <= ER (snd zs) /\
  (t = fst xs \/ t = snd xs \/ t = fst ys \/ t = snd ys \/ t = fst zs \/ t = snd zs).
Proof.
  destruct xs as [ax bx], ys as [ay by_], zs as [az bz]. unfold interval. cbn [fst snd]. intros (X1 & X2 & X3) (Y1 & Y2 & Y3) (Z1 & Z2 & Z3) Nm H.
  unfold slabs in H.
  destruct (fgt ax by_ || fgt ay bx) eqn:E1; [discriminate H|]. apply orb_false_iff in E1. destruct E1 as (E1 & E2).
  unfold fgt in E1, E2. apply flt_ER_false in E1; auto. apply flt_ER_false in E2; auto.
  destruct (pick_max ay ax Y1 X1) as (P1 & P2 & P3). destruct (pick_min by_ bx Y2 X2) as (Q1 & Q2 & Q3).
  set (t1 := if fgt ay ax then ay else ax) in *. set (t2 := if flt by_ bx then by_ else bx) in *. cbv zeta in H.
  destruct (fgt t1 bz || fgt az t2) eqn:E3; [discriminate H|]. apply orb_false_iff in E3. destruct E3 as (E3 & E4).
  unfold fgt in E3, E4. apply flt_ER_false in E3; auto. apply flt_ER_false in E4; auto.
  destruct (pick_max az t1 Z1 P1) as (P4 & P5 & P6). destruct (pick_min bz t2 Z2 Q1) as (Q4 & Q5 & Q6).
  set (t3 := if fgt az t1 then az else t1) in *. set (t4 := if flt bz t2 then bz else t2) in *.
  assert (N0 : nn f0) by reflexivity. assert (Z0 : ER f0 = 0) by reflexivity.
  assert (LE : ER t3 <= ER t4).
  { rewrite P5, P2, Q5, Q2. rewrite P2 in E3. rewrite Q2 in E4. unfold Rmax, Rmin in *. repeat destruct (Rle_dec _ _); lra. }
  assert (A3 : ER ax <= ER t3 /\ ER ay <= ER t3 /\ ER az <= ER t3) by (rewrite P5, P2; unfold Rmax; repeat destruct (Rle_dec _ _); lra).
  assert (B4 : ER t4 <= ER bx /\ ER t4 <= ER by_ /\ ER t4 <= ER bz) by (rewrite Q5, Q2; unfold Rmin; repeat destruct (Rle_dec _ _); lra).
  revert H. destruct (flt t3 f0) eqn:L; intros H.
  - destruct (flt t4 f0) eqn:L4; [discriminate H|]. apply flt_ER_false in L4; auto. destruct (fgt t4 m) eqn:L5; [discriminate H|]. unfold fgt in L5. apply flt_ER_false in L5; auto.
    injection H as <-. rewrite Z0 in L4. split; [exact Q4|]. repeat split; try lra.
    destruct Q6 as [->| ->]; [tauto|]. destruct Q3 as [->| ->]; tauto.
  - rewrite L in H. destruct (fgt t3 m) eqn:L5; [discriminate H|]. unfold fgt in L5. apply flt_ER_false in L5; auto. apply flt_ER_false in L; auto. rewrite Z0 in L.
    injection H as <-. split; [exact P4|]. repeat split; try lra.
    destruct P6 as [->| ->]; [tauto|]. destruct P3 as [->| ->]; tauto.
Qed.
Lemma slabs_complete xs ys zs m tau : interval xs -> interval ys -> interval zs -> nn m -> 0 <= tau <= ER m ->
  ER (fst xs) <= tau <= ER (snd xs) -> ER (fst ys) <= tau <= ER (snd ys) -> ER (fst zs) <= tau <= ER (snd zs) ->
  0 < ER (fst xs) \/ 0 < ER (fst ys) \/ 0 < ER (fst zs) -> exists t, slabs xs ys zs m = Some t /\ ER t <= tau.
Proof.
  destruct xs as [ax bx], ys as [ay by_], zs as [az bz]. unfold interval. cbn [fst snd]. intros (X1 & X2 & X3) (Y1 & Y2 & Y3) (Z1 & Z2 & Z3) Nm T TX TY TZ P.
  unfold slabs. assert (F : forall a b, nn a -> nn b -> ER a <= ER b -> fgt a b = false) by (intros a b A B L; unfold fgt; apply flt_ER_false; auto).
  rewrite (F ax by_), (F ay bx) by (auto; lra). cbn [orb].
  destruct (pick_max ay ax Y1 X1) as (P1 & P2 & P3). destruct (pick_min by_ bx Y2 X2) as (Q1 & Q2 & Q3).
  set (t1 := if fgt ay ax then ay else ax) in *. set (t2 := if flt by_ bx then by_ else bx) in *. cbv zeta.
  assert (A1 : ER t1 <= tau) by (rewrite P2; apply Rmax_lub; lra). assert (A2 : tau <= ER t2) by (rewrite Q2; apply Rmin_glb; lra).
  rewrite (F t1 bz), (F az t2) by (auto; lra). cbn [orb].
  destruct (pick_max az t1 Z1 P1) as (P4 & P5 & P6).
  set (t3 := if fgt az t1 then az else t1) in *.
  assert (A3 : ER t3 <= tau) by (rewrite P5; apply Rmax_lub; lra).
  assert (G : 0 < ER t3) by (rewrite P5, P2; unfold Rmax; repeat destruct (Rle_dec _ _); lra).
  assert (L : flt t3 f0 = false) by (apply flt_ER_false; [exact P4|reflexivity|change (ER f0) with 0; lra]). rewrite L, L, (F t3 m) by (auto; lra). eauto.
Qed.

(** ** One axis *)
Definition span (lo hi o d : f32) : f32 * f32 :=
  let inv := f32_of_f64 (ddiv d1 (f64_of_f32 d)) in
  if flt inv f0 then (fmul (fsub hi o) inv, fmul (fsub lo o) inv) else (fmul (fsub lo o) inv, fmul (fsub hi o) inv).
Definition low_face (c s : f32) : f32 := fsub c (fdiv s (f32_of_Z 2)).
Definition high_face (c s : f32) : f32 := fadd c (fdiv s (f32_of_Z 2)).
Lemma cube_hit_slabs c s o d m : cube_hit c s o d m =
  slabs (span (low_face (vx c) (vx s)) (high_face (vx c) (vx s)) (vx o) (vx d))
        (span (low_face (vy c) (vy s)) (high_face (vy c) (vy s)) (vy o) (vy d))
        (span (low_face (vz c) (vz s)) (high_face (vz c) (vz s)) (vz o) (vz d)) m.
Proof.
  unfold cube_hit, slabs, zip3. cbn [vx vy vz].
  fold (low_face (vx c) (vx s)) (high_face (vx c) (vx s)) (low_face (vy c) (vy s)) (high_face (vy c) (vy s)) (low_face (vz c) (vz s)) (high_face (vz c) (vz s)).
  cbv zeta. fold (span (low_face (vx c) (vx s)) (high_face (vx c) (vx s)) (vx o) (vx d)).
  fold (span (low_face (vy c) (vy s)) (high_face (vy c) (vy s)) (vy o) (vy d)). fold (span (low_face (vz c) (vz s)) (high_face (vz c) (vz s)) (vz o) (vz d)).
  reflexivity.
Qed.
Lemma inv_R d : ffin d = true -> bpow radix2 (-80) <= Rabs (FR d) -> Rabs (FR d) <= 1 + / 1000 ->
  let inv := f32_of_f64 (ddiv d1 (f64_of_f32 d)) in ffin inv = true /\ exists e, Rabs e <= / 10000000 /\ FR inv = / FR d * (1 + e).
Proof.
  intros F L U inv. destruct (f64_of_f32_R d F) as (Ed & Fd). destruct (f64_of_Z_R 1 ltac:(lia)) as (E1 & F1). fold d1 in E1, F1.
  pose proof (bpow_gt_0 radix2 (-80)) as B80. assert (NZ : FR d <> 0) by (intros Z; rewrite Z, Rabs_R0 in L; lra).
  assert (IB : / (1 + / 1000) <= Rabs (/ FR d) <= bpow radix2 80).
  { rewrite Rabs_inv. split; [apply Rinv_le; lra|]. apply Rle_trans with (/ bpow radix2 (-80)); [apply Rinv_le; lra|]. rewrite <- bpow_opp. apply bpow_le. lia. }
  set (w := / FR d) in *. assert (W : 9 / 10 <= Rabs w) by lra.
  destruct (ddiv_R d1 (f64_of_f32 d) F1) as (Eq & Fq); [rewrite Ed; exact NZ|rewrite Ed, E1; unfold Rdiv; rewrite Rmult_1_l; apply rnd64_small; fold w; eapply Rle_trans; [apply IB|apply bpow_le; lia]|].
  rewrite Ed, E1 in Eq. unfold Rdiv in Eq. rewrite Rmult_1_l in Eq. fold w in Eq.
  destruct (rnd64_err w) as (a & b & Ha & Hb & E). rewrite E in Eq. pose proof u64_small. pose proof t64_small.
  set (q := DR (ddiv d1 (f64_of_f32 d))) in *.
  assert (WP : w <> 0) by (intros Z; rewrite Z, Rabs_R0 in W; lra).
  assert (BW : forall y, Rabs y <= / 1000000000000 -> Rabs (y * / w) <= / 500000000000).
  { intros y Hy. rewrite Rabs_mult, Rabs_inv. assert (/ Rabs w <= 10 / 9) by (replace (10 / 9) with (/ (9 / 10)) by field; apply Rinv_le; lra).
    apply Rle_trans with (/ 1000000000000 * (10 / 9)); [apply Rmult_le_compat; auto using Rabs_pos; left; apply Rinv_0_lt_compat; lra|lra]. }
  assert (Eq' : q = w * (1 + (a + b * / w))) by (rewrite Eq; field; exact WP).
  assert (A1 : Rabs (a + b * / w) <= / 100000000000) by (eapply Rle_trans; [apply Rabs_triang|]; pose proof (BW b ltac:(lra)); lra).
  set (x := a + b * / w) in *.
  assert (QB : Rabs q <= bpow radix2 81).
  { rewrite Eq', Rabs_mult. replace (bpow radix2 81) with (bpow radix2 80 * 2) by (change 2 with (bpow radix2 1); rewrite <- bpow_plus; reflexivity).
    apply Rmult_le_compat; try apply Rabs_pos; [apply IB|]. apply Rabs_le_inv in A1. apply Rabs_le. lra. }
  destruct (f32_of_f64_R _ Fq) as (Ei & Fi); [apply rnd32_small; fold q; eapply Rle_trans; [exact QB|apply bpow_le; lia]|].
  fold inv in Ei, Fi. fold q in Ei. split; [exact Fi|]. destruct (rnd32_err' q) as (a' & b' & Ha' & Hb' & E'). rewrite E' in Ei. pose proof u_small. pose proof t_small.
  exists ((1 + x) * (1 + a') - 1 + b' * / w). split; [|rewrite Ei, Eq'; fold w; field; exact WP].
  pose proof (BW b' ltac:(lra)) as W'. assert (XA : Rabs (x * a') <= / 100000000000 * u32r) by (apply mul_bound; assumption).
  assert (/ 100000000000 * u32r <= / 100000000000 * (6 / 100000000)) by (apply Rmult_le_compat_l; lra).
  apply Rabs_le_inv in A1. apply Rabs_le_inv in Ha'. apply Rabs_le_inv in W'. apply Rabs_le_inv in XA. apply Rabs_le. lra.
Qed.
(** a direction that is zero *)
Lemma zero_of d : ffin d = true -> FR d = 0 -> exists sg, d = B754_zero 24 128 sg.
Proof.
  intros F Z. destruct d as [sg|sg|sg pl H|sg m e H]; try discriminate F; [eauto|]. exfalso. unfold FR in Z. cbn [B2R] in Z.
  apply eq_0_F2R in Z. cbn in Z. destruct sg; discriminate Z.
Qed.
Lemma inv_zero sg : f32_of_f64 (ddiv d1 (f64_of_f32 (B754_zero 24 128 sg))) = B754_infinity 24 128 sg.
Proof. destruct sg; reflexivity. Qed.
Lemma mul_inf x sg : ffin x = true -> (0 < FR x -> fmul x (B754_infinity 24 128 sg) = B754_infinity 24 128 sg) /\
  (FR x < 0 -> fmul x (B754_infinity 24 128 sg) = B754_infinity 24 128 (negb sg)).
Proof.
  Transparent fmul. intros F. destruct x as [s|s|s pl H|s m e H]; try discriminate F.
  - unfold FR. cbn [B2R]. split; intros; lra.
  - split; intros L; unfold FR in L; cbn [B2R] in L.
    + assert (s = false) by (destruct s; [exfalso|reflexivity]; cbn [cond_Zopp] in L; apply gt_0_F2R in L; cbn in L; lia). subst s. destruct sg; reflexivity.
    + assert (s = true) by (destruct s; [reflexivity|exfalso]; cbn [cond_Zopp] in L; apply lt_0_F2R in L; cbn in L; lia). subst s. destruct sg; reflexivity.
Qed.
Opaque fmul.
Lemma max32_big : bpow radix2 38 < max32.
Proof. unfold max32. apply bpow_lt. lia. Qed.
Section axis.
  Variables (M : R) (c s o d : f32).
  Hypotheses (M1 : 1 <= M) (M2 : M <= bpow radix2 38) (C : bounded M c) (S : bounded M s) (O : bounded M o) (SP : 0 <= FR s) (D : bounded (1 + / 1000) d).
  Let lo := low_face c s.
  Let hi := high_face c s.
  Lemma faces : ap lo (FR c - FR s / 2) (/ 5000000 * M) /\ ap hi (FR c + FR s / 2) (/ 5000000 * M) /\ FR lo <= FR hi.
  Proof.
    destruct C as (Fc & Bc), S as (Fs & Bs). destruct (f32_of_Z_R 2 ltac:(lia)) as (E2 & F2). pose proof u_small. pose proof t_small. rewrite Rabs_pos_eq in Bs by exact SP.
    assert (B38 : 2 * bpow radix2 38 <= bpow radix2 126) by (change 2 with (bpow radix2 1); rewrite <- bpow_plus; apply bpow_le; lia).
    assert (HB : Rabs (FR s / 2) <= bpow radix2 126) by (rewrite Rabs_pos_eq by lra; lra).
    destruct (fdiv_R s (f32_of_Z 2) Fs) as (Eh & Fh); [rewrite E2; lra|rewrite E2; apply rnd32_small; eapply Rle_trans; [exact HB|apply bpow_le; lia]|].
    rewrite E2 in Eh. unfold lo, hi, low_face, high_face. set (h := fdiv s (f32_of_Z 2)) in *.
    assert (AH : ap h (FR s / 2) (/ 30000000 * M)).
    { split; [exact Fh|]. rewrite Eh. destruct (rnd32_err' (FR s / 2)) as (a & b & Ha & Hb & ->). replace (FR s / 2 * (1 + a) + b - FR s / 2) with (FR s / 2 * a + b) by ring.
      eapply Rle_trans; [apply Rabs_triang|]. assert (W : Rabs (FR s / 2) <= M / 2) by (rewrite Rabs_pos_eq by lra; lra). pose proof (mul_bound _ _ _ _ W Ha).
      assert (M / 2 * u32r <= M / 2 * (6 / 100000000)) by (apply Rmult_le_compat_l; lra). lra. }
    assert (HN0 : 0 <= FR h) by (rewrite Eh; assert (Z : rnd32 0 = 0) by (apply round_0, valid_rnd_N); rewrite <- Z; apply rnd32_le; lra).
    assert (UB : u32r * (16 / 10 * M) <= 6 / 100000000 * (16 / 10 * M)) by (apply Rmult_le_compat_r; lra).
    assert (SA : Rabs (FR s / 2) <= M / 2) by (rewrite Rabs_pos_eq by lra; lra).
    pose proof (ap_sub _ _ _ _ _ _ (16 / 10 * M) (ap_exact c Fc) AH ltac:(lra) ltac:(lra)) as Q1.
    pose proof (ap_add _ _ _ _ _ _ (16 / 10 * M) (ap_exact c Fc) AH ltac:(lra) ltac:(lra)) as Q2.
    split; [eapply ap_le; [exact Q1|lra]|]. split; [eapply ap_le; [exact Q2|lra]|].
    assert (HH : Rabs (FR h) <= M) by (pose proof (ap_abs _ _ _ AH); lra). apply Rabs_le_inv in HH. apply Rabs_le_inv in Bc.
    destruct (fsub_R c h Fc Fh) as (E3 & _); [apply rnd32_small; eapply Rle_trans; [|eapply Rle_trans; [exact B38|apply bpow_le; lia]]; apply Rabs_le; lra|].
    destruct (fadd_R c h Fc Fh) as (E4 & _); [apply rnd32_small; eapply Rle_trans; [|eapply Rle_trans; [exact B38|apply bpow_le; lia]]; apply Rabs_le; lra|].
    rewrite E3, E4. apply rnd32_le. lra.
  Qed.
  Let inv := f32_of_f64 (ddiv d1 (f64_of_f32 d)).
  Let K := / 1000000 * M.
  (** the parameter of one face *)
  Lemma face_t L : ffin L = true -> Rabs (FR L) <= 16 / 10 * M -> bpow radix2 (-80) <= Rabs (FR d) ->
    ffin (fsub L o) = true /\ FR (fsub L o) = rnd32 (FR L - FR o) /\ ffin (fmul (fsub L o) inv) = true /\ FR (fmul (fsub L o) inv) = rnd32 (FR (fsub L o) * FR inv) /\
    Rabs (FR o + FR (fmul (fsub L o) inv) * FR d - FR L) <= 7 / 10000000 * M.
  Proof.
    intros FL BL B80. destruct O as (Fo & Bo), D as (Fd & Bd). destruct (inv_R d Fd B80 Bd) as (Fi & e & He & Ei). fold inv in Fi, Ei. pose proof u_small. pose proof t_small.
    assert (NZ : FR d <> 0) by (intros Z; rewrite Z, Rabs_R0 in B80; pose proof (bpow_gt_0 radix2 (-80)); lra).
    assert (W : Rabs (FR L - FR o) <= 26 / 10 * M) by (unfold Rminus; eapply Rle_trans; [apply Rabs_triang|]; rewrite Rabs_Ropp; lra).
    assert (B38 : 4 * bpow radix2 38 <= bpow radix2 40) by (change 4 with (bpow radix2 2); rewrite <- bpow_plus; apply bpow_le; lia).
    assert (W40 : Rabs (FR L - FR o) <= bpow radix2 40) by lra.
    destruct (fsub_R L o FL Fo) as (Es & _); [apply rnd32_small; eapply Rle_trans; [exact W40|apply bpow_le; lia]|].
    destruct (fsub_rel L o FL Fo) as (Fs & a & Ha & Es'); [eapply Rle_trans; [exact W40|apply bpow_le; lia]|].
    assert (BS : Rabs (FR (fsub L o)) <= bpow radix2 40) by (rewrite Es; apply Rabs_rnd_bpow; [lia|exact W40]).
    assert (BI : Rabs (FR inv) <= bpow radix2 81).
    { rewrite Ei, Rabs_mult. replace (bpow radix2 81) with (bpow radix2 80 * 2) by (change 2 with (bpow radix2 1); rewrite <- bpow_plus; reflexivity).
      apply Rmult_le_compat; try apply Rabs_pos; [rewrite Rabs_inv; apply Rle_trans with (/ bpow radix2 (-80)); [apply Rinv_le; [apply bpow_gt_0|exact B80]|rewrite <- bpow_opp; apply bpow_le; lia]|].
      apply Rabs_le_inv in He. apply Rabs_le. lra. }
    assert (BP : Rabs (FR (fsub L o) * FR inv) <= bpow radix2 127) by (eapply Rle_trans; [apply mul_bound; [exact BS|exact BI]|]; rewrite <- bpow_plus; apply bpow_le; lia).
    destruct (fmul_R (fsub L o) inv Fs Fi) as (Em & Fm); [apply rnd32_small, BP|].
    destruct (fmul_rel (fsub L o) inv Fs Fi BP) as (_ & x & y & Hx & Hy & Em').
    split; [exact Fs|]. split; [exact Es|]. split; [exact Fm|]. split; [exact Em|].
    rewrite Em', Es', Ei.
    replace (FR o + ((FR L - FR o) * (1 + a) * (/ FR d * (1 + e)) * (1 + x) + y) * FR d - FR L)
      with ((FR L - FR o) * ((1 + a) * (1 + e) * (1 + x) - 1) + y * FR d) by (field; exact NZ).
    assert (G : Rabs ((1 + a) * (1 + e) * (1 + x) - 1) <= 23 / 100000000).
    { assert (A1 : Rabs (a * e) <= 6 / 100000000 * / 10000000) by (apply mul_bound; lra). assert (A2 : Rabs (a * x) <= 6 / 100000000 * (6 / 100000000)) by (apply mul_bound; lra).
      assert (A3 : Rabs (e * x) <= / 10000000 * (6 / 100000000)) by (apply mul_bound; lra). assert (A4 : Rabs (a * e * x) <= 6 / 100000000 * / 10000000 * (6 / 100000000)) by (apply mul_bound; lra).
      replace ((1 + a) * (1 + e) * (1 + x) - 1) with (a + e + x + a * e + a * x + e * x + a * e * x) by ring.
      assert (Ha' : Rabs a <= 6 / 100000000) by lra. assert (Hx' : Rabs x <= 6 / 100000000) by lra.
      apply Rabs_le_inv in A1. apply Rabs_le_inv in A2. apply Rabs_le_inv in A3. apply Rabs_le_inv in A4. apply Rabs_le_inv in Ha'. apply Rabs_le_inv in He. apply Rabs_le_inv in Hx'. apply Rabs_le. lra. }
    eapply Rle_trans; [apply Rabs_triang|]. pose proof (mul_bound _ _ _ _ W G). assert (Rabs (y * FR d) <= / 1000000000000 * (1 + / 1000)) by (apply mul_bound; lra). lra.
  Qed.
  Definition axis_good (p : f32 * f32) : Prop := interval p /\
    (forall t, Rabs t <= M -> ER (fst p) <= t <= ER (snd p) -> Rabs (FR o + t * FR d - FR c) <= FR s / 2 + K) /\
    (forall t, Rabs t <= M -> Rabs (FR o + t * FR d - FR c) <= FR s / 2 - K -> ER (fst p) <= t <= ER (snd p)) /\
    (forall x, (x = fst p \/ x = snd p) -> ffin x = true -> Rabs (Rabs (FR o + FR x * FR d - FR c) - FR s / 2) <= K).
  Lemma fin_nn x : ffin x = true -> nn x. Proof. destruct x; intros H; try discriminate H; reflexivity. Qed.
  Lemma axis_moving : bpow radix2 (-80) <= Rabs (FR d) -> axis_good (span lo hi o d).
  Proof.
    intros B80. destruct faces as (AL & AH & LH). pose proof (ap_abs _ _ _ AL) as BL. pose proof (ap_abs _ _ _ AH) as BH. destruct AL as (FL & AL), AH as (FH & AH).
    destruct C as (Fc & Bc), S as (Fs & Bs). rewrite Rabs_pos_eq in Bs by exact SP.
    assert (BL' : Rabs (FR lo) <= 16 / 10 * M) by (eapply Rle_trans; [exact BL|]; unfold Rminus; pose proof (Rabs_triang (FR c) (- (FR s / 2))) as W; rewrite Rabs_Ropp, (Rabs_pos_eq (FR s / 2)) in W by lra; lra).
    assert (BH' : Rabs (FR hi) <= 16 / 10 * M) by (eapply Rle_trans; [exact BH|]; pose proof (Rabs_triang (FR c) (FR s / 2)) as W; rewrite (Rabs_pos_eq (FR s / 2)) in W by lra; lra).
    destruct (face_t lo FL BL' B80) as (L1 & L2 & L3 & L4 & L5). destruct (face_t hi FH BH' B80) as (H1 & H2 & H3 & H4 & H5).
    destruct D as (Fd & Bd). destruct (inv_R d Fd B80 Bd) as (Fi & e & He & Ei). fold inv in Fi, Ei. apply Rabs_le_inv in He.
    assert (SUB : FR (fsub lo o) <= FR (fsub hi o)) by (rewrite L2, H2; apply rnd32_le; lra).
    set (a := fmul (fsub lo o) inv) in *. set (b := fmul (fsub hi o) inv) in *.
    apply Rabs_le_inv in L5. apply Rabs_le_inv in H5. apply Rabs_le_inv in AL. apply Rabs_le_inv in AH.
    unfold axis_good, interval, span, K. fold inv. fold a. fold b.
    assert (CASE : (0 < FR d /\ 0 < FR inv) \/ (FR d < 0 /\ FR inv < 0)).
    { pose proof (bpow_gt_0 radix2 (-80)). destruct (Rlt_dec 0 (FR d)) as [P|P].
      - left. split; [exact P|]. rewrite Ei. apply Rmult_lt_0_compat; [apply Rinv_0_lt_compat, P|lra].
      - right. assert (N : FR d < 0) by (unfold Rabs in B80; destruct (Rcase_abs (FR d)); lra). split; [exact N|]. rewrite Ei.
        pose proof (Rinv_lt_0_compat _ N). assert (0 < - / FR d * (1 + e)) by (apply Rmult_lt_0_compat; lra). lra. }
    destruct CASE as [(DP & IP)|(DN & IN)].
    - rewrite (flt_false' inv f0); [|exact Fi|reflexivity|change (FR f0) with 0; lra]. cbn [fst snd]. rewrite (ER_fin a L3), (ER_fin b H3).
      split; [split; [apply fin_nn, L3|split; [apply fin_nn, H3|rewrite L4, H4; apply rnd32_le, Rmult_le_compat_r; lra]]|]. split; [|split].
      + intros t _ (T1 & T2). assert (FR a * FR d <= t * FR d) by (apply Rmult_le_compat_r; lra). assert (t * FR d <= FR b * FR d) by (apply Rmult_le_compat_r; lra). apply Rabs_le. lra.
      + intros t _ T. apply Rabs_le_inv in T. split; apply Rnot_lt_le; intros N.
        * assert (t * FR d < FR a * FR d) by (apply Rmult_lt_compat_r; lra). lra.
        * assert (FR b * FR d < t * FR d) by (apply Rmult_lt_compat_r; lra). lra.
      + intros x [->| ->] _; unfold Rabs; repeat destruct (Rcase_abs _); lra.
    - rewrite (proj2 (flt_R inv f0 Fi (proj1 f0_R))) by (change (FR f0) with 0; lra). cbn [fst snd]. rewrite (ER_fin a L3), (ER_fin b H3).
      split; [split; [apply fin_nn, H3|split; [apply fin_nn, L3|rewrite L4, H4; apply rnd32_le]]|].
      { assert (FR (fsub lo o) * - FR inv <= FR (fsub hi o) * - FR inv) by (apply Rmult_le_compat_r; lra). lra. }
      split; [|split].
      + intros t _ (T1 & T2). assert (FR b * - FR d <= t * - FR d) by (apply Rmult_le_compat_r; lra). assert (t * - FR d <= FR a * - FR d) by (apply Rmult_le_compat_r; lra). apply Rabs_le. lra.
      + intros t _ T. apply Rabs_le_inv in T. split; apply Rnot_lt_le; intros N.
        * assert (t * - FR d < FR b * - FR d) by (apply Rmult_lt_compat_r; lra). lra.
        * assert (FR a * - FR d < t * - FR d) by (apply Rmult_lt_compat_r; lra). lra.
      + intros x [->| ->] _; unfold Rabs; repeat destruct (Rcase_abs _); lra.
  Qed.
  Lemma axis_still : FR d = 0 -> K < Rabs (FR o - (FR c - FR s / 2)) -> K < Rabs (FR o - (FR c + FR s / 2)) -> axis_good (span lo hi o d).
  Proof.
    intros Z NL NH. destruct faces as (AL & AH & LH). pose proof (ap_abs _ _ _ AL) as BL. pose proof (ap_abs _ _ _ AH) as BH. destruct AL as (FL & AL), AH as (FH & AH).
    destruct C as (Fc & Bc), S as (Fs & Bs), O as (Fo & Bo), D as (Fd & Bd). rewrite Rabs_pos_eq in Bs by exact SP.
    destruct (zero_of d Fd Z) as (sg & Ed).
    assert (SI : forall L, ffin L = true -> Rabs (FR L) <= 16 / 10 * M -> ffin (fsub L o) = true /\ (FR o < FR L -> 0 < FR (fsub L o)) /\ (FR L < FR o -> FR (fsub L o) < 0)).
    { intros L FLL BLL. assert (W : Rabs (FR L - FR o) <= bpow radix2 127).
      { apply Rle_trans with (bpow radix2 40); [|apply bpow_le; lia]. assert (B38 : 4 * bpow radix2 38 <= bpow radix2 40) by (change 4 with (bpow radix2 2); rewrite <- bpow_plus; apply bpow_le; lia).
        unfold Rminus. eapply Rle_trans; [apply Rabs_triang|]. rewrite Rabs_Ropp. lra. }
      destruct (fsub_rel L o FLL Fo W) as (F & e & He & E). split; [exact F|]. pose proof u_small. assert (He' : Rabs e <= / 2) by lra. apply Rabs_le_inv in He'. rewrite E. split; intros LT.
      - apply Rmult_lt_0_compat; lra.
      - assert (0 < - (FR L - FR o) * (1 + e)) by (apply Rmult_lt_0_compat; lra). lra. }
    assert (BL' : Rabs (FR lo) <= 16 / 10 * M) by (eapply Rle_trans; [exact BL|]; unfold Rminus; pose proof (Rabs_triang (FR c) (- (FR s / 2))) as W; rewrite Rabs_Ropp, (Rabs_pos_eq (FR s / 2)) in W by lra; lra).
    assert (BH' : Rabs (FR hi) <= 16 / 10 * M) by (eapply Rle_trans; [exact BH|]; pose proof (Rabs_triang (FR c) (FR s / 2)) as W; rewrite (Rabs_pos_eq (FR s / 2)) in W by lra; lra).
    destruct (SI lo FL BL') as (F1 & P1 & N1). destruct (SI hi FH BH') as (F2 & P2 & N2). clear SI.
    apply Rabs_le_inv in AL. apply Rabs_le_inv in AH.
    assert (CL : (FR o < FR lo /\ FR o < FR c - FR s / 2 - K) \/ (FR lo < FR o /\ FR c - FR s / 2 + K < FR o)) by (unfold K in *; unfold Rabs in NL; destruct (Rcase_abs _); [left|right]; lra).
    assert (CH : (FR o < FR hi /\ FR o < FR c + FR s / 2 - K) \/ (FR hi < FR o /\ FR c + FR s / 2 + K < FR o)) by (unfold K in *; unfold Rabs in NH; destruct (Rcase_abs _); [left|right]; lra).
    assert (KP : 0 < K) by (unfold K; lra). pose proof max32_big as MB.
    assert (MT : forall t, Rabs t <= M -> - max32 < t < max32) by (intros t T; apply Rabs_le_inv in T; lra).
    unfold axis_good, interval, span. rewrite Ed. rewrite inv_zero. change (FR (B754_zero 24 128 sg)) with 0.
    assert (GL := fun (sx : bool) => mul_inf (fsub lo o) sx F1). assert (GH := fun (sx : bool) => mul_inf (fsub hi o) sx F2).
    assert (NF : forall sx, nn (B754_infinity 24 128 sx)) by reflexivity.
    assert (EP : ER (B754_infinity 24 128 false) = max32) by reflexivity. assert (EN : ER (B754_infinity 24 128 true) = - max32) by reflexivity.
    assert (FI : forall sx, ffin (B754_infinity 24 128 sx) = false) by reflexivity.
    assert (S0 : flt (B754_infinity 24 128 sg) f0 = sg) by (destruct sg; reflexivity). rewrite S0.
    assert (Q : forall x, FR o + x * 0 - FR c = FR o - FR c) by (intros; ring).
    destruct CL as [(CL & CL')|(CL & CL')]; destruct CH as [(CH & CH')|(CH & CH')]; try (exfalso; lra).
    - destruct (GL sg) as (GL1 & _). rewrite (GL1 (P1 CL)). destruct (GH sg) as (GH1 & _). rewrite (GH1 (P2 CH)).
      destruct sg; cbn [fst snd]; rewrite ?EP, ?EN.
      all: split; [split; [apply NF|split; [apply NF|lra]]|]; split; [|split].
      all: try (intros t T TT; pose proof (MT t T); exfalso; lra).
      all: try (intros t T TT; rewrite Q in TT; apply Rabs_le_inv in TT; exfalso; lra).
      all: intros x [->| ->] X; rewrite FI in X; discriminate X.
    - destruct (GL sg) as (_ & GL1). rewrite (GL1 (N1 CL)). destruct (GH sg) as (GH1 & _). rewrite (GH1 (P2 CH)).
      destruct sg; cbn [negb fst snd]; rewrite ?EP, ?EN.
      all: split; [split; [apply NF|split; [apply NF|lra]]|]; split; [|split].
      all: try (intros t T _; rewrite Q; apply Rabs_le; lra).
      all: try (intros t T _; pose proof (MT t T); lra).
      all: intros x [->| ->] X; rewrite FI in X; discriminate X.
    - destruct (GL sg) as (_ & GL1). rewrite (GL1 (N1 CL)). destruct (GH sg) as (_ & GH1). rewrite (GH1 (N2 CH)).
      destruct sg; cbn [negb fst snd]; rewrite ?EP, ?EN.
      all: split; [split; [apply NF|split; [apply NF|lra]]|]; split; [|split].
      all: try (intros t T TT; pose proof (MT t T); exfalso; lra).
      all: try (intros t T TT; rewrite Q in TT; apply Rabs_le_inv in TT; exfalso; lra).
      all: intros x [->| ->] X; rewrite FI in X; discriminate X.
  Qed.
End axis.

(** ** The box *)
Section box.
  Variables (M : R) (c s o d : pt3) (m : f32).
  Hypotheses (M1 : 1 <= M) (M2 : M <= bpow radix2 38) (C : all3 (bounded M) c) (S : all3 (bounded M) s) (O : all3 (bounded M) o) (BM : bounded M m)
    (SX : 0 <= FR (vx s)) (SY : 0 <= FR (vy s)) (SZ : 0 <= FR (vz s)) (D : all3 (bounded (1 + / 1000)) d)
    (DX : off_faces M (vx c) (vx s) (vx o) (vx d)) (DY : off_faces M (vy c) (vy s) (vy o) (vy d)) (DZ : off_faces M (vz c) (vz s) (vz o) (vz d)).
  Lemma axis_any cx sx ox dx : bounded M cx -> bounded M sx -> bounded M ox -> 0 <= FR sx -> bounded (1 + / 1000) dx -> off_faces M cx sx ox dx ->
    axis_good M cx sx ox dx (span (low_face cx sx) (high_face cx sx) ox dx).
  Proof. intros A B E P F [G|(G1 & G2 & G3)]; [apply axis_moving; assumption|apply axis_still; assumption]. Qed.
  Lemma box_sound t : cube_hit c s o d m = Some t ->
    ffin t = true /\ 0 <= FR t <= FR m /\ box_grown (V3R c) (V3R s) (/ 1000000 * M) (on_ray o d (FR t)) /\ at_face (V3R c) (V3R s) (/ 1000000 * M) (on_ray o d (FR t)).
  Proof.
    intros H. rewrite cube_hit_slabs in H. destruct C as (C1 & C2 & C3), S as (S1 & S2 & S3), O as (O1 & O2 & O3), D as (D1 & D2 & D3). destruct BM as (Fm & Bm).
    destruct (axis_any _ _ _ _ C1 S1 O1 SX D1 DX) as (IX & X1 & X2 & X3). destruct (axis_any _ _ _ _ C2 S2 O2 SY D2 DY) as (IY & Y1 & Y2 & Y3). destruct (axis_any _ _ _ _ C3 S3 O3 SZ D3 DZ) as (IZ & Z1 & Z2 & Z3).
    destruct (slabs_sound _ _ _ _ _ IX IY IZ (fin_nn m Fm) H) as (Nt & (T0 & T1) & TX & TY & TZ & W). rewrite (ER_fin m Fm) in T1.
    assert (Ft : ffin t = true).
    { destruct t as [sg|sg|sg pl Hp|sg mm e Hm]; try reflexivity; [|discriminate Nt]. exfalso. apply Rabs_le_inv in Bm. pose proof max32_big. pose proof max32_pos. destruct sg; cbn [ER] in T0, T1; lra. }
    rewrite (ER_fin t Ft) in *. apply Rabs_le_inv in Bm. assert (TB : Rabs (FR t) <= M) by (rewrite Rabs_pos_eq; lra).
    split; [exact Ft|]. split; [lra|]. unfold box_grown, at_face, on_ray, V3R. cbn [vx vy vz]. split.
    - split; [apply X1; assumption|]. split; [apply Y1; assumption|apply Z1; assumption].
    - destruct W as [W|[W|[W|[W|[W|W]]]]]; [left|left|right; left|right; left|right; right|right; right].
      + apply X3; [left; exact W|exact Ft]. + apply X3; [right; exact W|exact Ft]. + apply Y3; [left; exact W|exact Ft]. + apply Y3; [right; exact W|exact Ft]. + apply Z3; [left; exact W|exact Ft]. + apply Z3; [right; exact W|exact Ft].
  Qed.
  Lemma box_complete tau : ~ box_grown (V3R c) (V3R s) (/ 1000000 * M) (on_ray o d 0) -> 0 <= tau <= FR m ->
    box_grown (V3R c) (V3R s) (- (/ 1000000 * M)) (on_ray o d tau) -> exists t, cube_hit c s o d m = Some t /\ FR t <= tau.
  Proof.
    intros N T (BX & BY & BZ). rewrite cube_hit_slabs. destruct C as (C1 & C2 & C3), S as (S1 & S2 & S3), O as (O1 & O2 & O3), D as (D1 & D2 & D3). destruct BM as (Fm & Bm).
    destruct (axis_any _ _ _ _ C1 S1 O1 SX D1 DX) as (IX & X1 & X2 & X3). destruct (axis_any _ _ _ _ C2 S2 O2 SY D2 DY) as (IY & Y1 & Y2 & Y3). destruct (axis_any _ _ _ _ C3 S3 O3 SZ D3 DZ) as (IZ & Z1 & Z2 & Z3).
    unfold on_ray, V3R in BX, BY, BZ. cbn [vx vy vz] in BX, BY, BZ. apply Rabs_le_inv in Bm. assert (TB : Rabs tau <= M) by (rewrite Rabs_pos_eq; lra).
    assert (TX := X2 tau TB ltac:(lra)). assert (TY := Y2 tau TB ltac:(lra)). assert (TZ := Z2 tau TB ltac:(lra)).
    assert (Z0 : Rabs 0 <= M) by (rewrite Rabs_R0; lra).
    set (px := span _ _ (vx o) _) in *. set (py := span _ _ (vy o) _) in *. set (pz := span _ _ (vz o) _) in *.
    assert (P : 0 < ER (fst px) \/ 0 < ER (fst py) \/ 0 < ER (fst pz)).
    { destruct (Rlt_dec 0 (ER (fst px))) as [?|NX]; [auto|]. destruct (Rlt_dec 0 (ER (fst py))) as [?|NY]; [auto|]. destruct (Rlt_dec 0 (ER (fst pz))) as [?|NZ]; [auto|].
      exfalso. apply N. unfold box_grown, on_ray, V3R. cbn [vx vy vz]. split; [apply X1; [exact Z0|lra]|]. split; [apply Y1; [exact Z0|lra]|apply Z1; [exact Z0|lra]]. }
    destruct (slabs_complete px py pz m tau IX IY IZ (fin_nn m Fm) ltac:(rewrite (ER_fin m Fm); exact T) TX TY TZ P) as (t & H & L).
    exists t. split; [exact H|]. destruct (slabs_sound _ _ _ _ _ IX IY IZ (fin_nn m Fm) H) as (Nt & (T0 & T1) & _). rewrite (ER_fin m Fm) in T1.
    assert (Ft : ffin t = true).
    { destruct t as [sg|sg|sg pl Hp|sg mm e Hm]; try reflexivity; [|discriminate Nt]. exfalso. pose proof max32_big. pose proof max32_pos. destruct sg; cbn [ER] in T0, T1; lra. }
    rewrite (ER_fin t Ft) in L. exact L.
  Qed.
End box.
