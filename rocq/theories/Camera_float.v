(** The camera planes in floats: how far the computed test can be from the exact one. *)
From Coq Require Import ZArith Reals List Bool Lia Lra.
From Flocq Require Import Core.
From Verif Require Import F32 F32_lemmas F32_err Types Layer Ray Update_spec Merge_proofs Dist_proofs Vec_proofs Marching Facing_spec Facing_proofs Camera Camera_spec.
Import ListNotations.
Open Scope R_scope.

Lemma plane_normal : forall p1 p2 p3, pl_normal (setFromPoints floats p1 p2 p3) = face_normal p1 p2 p3.
Proof. reflexivity. Qed.
Lemma plane_distance : forall p1 p2 p3, pl_distance (setFromPoints floats p1 p2 p3) = pdot floats (face_normal p1 p2 p3) p1.
Proof. reflexivity. Qed.

Lemma u_pos : 0 < u32r. Proof. unfold u32r; lra. Qed.
Lemma t_le_u : forall M, 1 <= M -> 1000 * t32r <= u32r * M.
Proof. intros M HM. pose proof t32r_small. pose proof t32r_pos. unfold u32r. lra. Qed.

Lemma prod_err : forall a n M, ffin a = true -> ffin n = true -> 1 <= M <= bpow radix2 20 -> Rabs (FR a) <= M -> Rabs (FR n) <= 9 / 8 ->
  ffin (fmul a n) = true /\ Rabs (FR (fmul a n) - FR a * FR n) <= 5 / 4 * u32r * M /\ Rabs (FR (fmul a n)) <= 5 / 4 * M.
Proof.
  intros a n M Fa Fn HM Ha Hn.
  assert (P : Rabs (FR a * FR n) <= 9 / 8 * M) by (rewrite Rabs_mult, Rmult_comm; apply Rmult_le_compat; auto using Rabs_pos).
  assert (B : bpow radix2 20 * 2 <= bpow radix2 127) by (change 2 with (bpow radix2 1); rewrite <- bpow_plus; apply bpow_le; lia).
  destruct (fmul_rel a n Fa Fn) as (F & d & e & Hd & He & E); [lra|]. split; [exact F|].
  assert (D : Rabs (FR (fmul a n) - FR a * FR n) <= 5 / 4 * u32r * M).
  { rewrite E. replace (FR a * FR n * (1 + d) + e - FR a * FR n) with (FR a * FR n * d + e) by ring.
    eapply Rle_trans; [apply Rabs_triang|]. rewrite (Rabs_mult _ d). pose proof (t_le_u M (proj1 HM)) as T. pose proof t32r_pos. pose proof u_pos.
    assert (Rabs (FR a * FR n) * Rabs d <= 9 / 8 * M * u32r) by (apply Rmult_le_compat; auto using Rabs_pos). lra. }
  split; [exact D|]. replace (FR (fmul a n)) with (FR a * FR n + (FR (fmul a n) - FR a * FR n)) by ring. eapply Rle_trans; [apply Rabs_triang|]. unfold u32r in D. lra.
Qed.
Lemma sum_err : forall a b X Y A B k j M, ffin a = true -> ffin b = true -> 1 <= M <= bpow radix2 20 -> Rabs (FR a) <= A * M -> Rabs (FR b) <= B * M ->
  0 <= A -> 0 <= B -> A + B <= 5 -> Rabs (FR a - X) <= k * u32r * M -> Rabs (FR b - Y) <= j * u32r * M ->
  ffin (fadd a b) = true /\ Rabs (FR (fadd a b) - (X + Y)) <= (k + j + (A + B)) * u32r * M /\ Rabs (FR (fadd a b)) <= (A + B + 1 / 8) * M.
Proof.
  intros a b X Y A B k j M Fa Fb HM Ha Hb A0 B0 AB Hx Hy.
  assert (S : Rabs (FR a + FR b) <= (A + B) * M) by (eapply Rle_trans; [apply Rabs_triang|]; lra).
  assert (S5 : (A + B) * M <= 5 * M) by (apply Rmult_le_compat_r; lra).
  assert (Q : bpow radix2 20 * 8 <= bpow radix2 127) by (change 8 with (bpow radix2 3); rewrite <- bpow_plus; apply bpow_le; lia).
  destruct (fadd_rel a b Fa Fb) as (F & e & He & E); [lra|]. split; [exact F|].
  assert (R : Rabs ((FR a + FR b) * e) <= (A + B) * u32r * M).
  { rewrite Rabs_mult. replace ((A + B) * u32r * M) with ((A + B) * M * u32r) by ring. apply Rmult_le_compat; auto using Rabs_pos. }
  split.
  - rewrite E. replace ((FR a + FR b) * (1 + e) - (X + Y)) with ((FR a - X) + (FR b - Y) + (FR a + FR b) * e) by ring.
    eapply Rle_trans; [apply Rabs_triang|]. eapply Rle_trans; [apply Rplus_le_compat_r; apply Rabs_triang|]. lra.
  - rewrite E. replace ((FR a + FR b) * (1 + e)) with ((FR a + FR b) + (FR a + FR b) * e) by ring. eapply Rle_trans; [apply Rabs_triang|].
    assert ((A + B) * u32r * M <= 1 / 8 * M). { apply Rmult_le_compat_r; [lra|]. unfold u32r. lra. } lra.
Qed.
Definition upto (M : R) (p : pt3) : Prop := all3 (fun c => ffin c = true /\ Rabs (FR c) <= M) p.
Lemma pdot_err : forall q n M, 1 <= M <= bpow radix2 20 -> upto M q -> upto (9 / 8) n ->
  ffin (pdot floats q n) = true /\ Rabs (FR (pdot floats q n) - dotR (vecR q) (vecR n)) <= 11 * u32r * M.
Proof.
  intros q n M HM ((Fx & Bx) & (Fy & By) & (Fz & Bz)) ((Gx & Cx) & (Gy & Cy) & (Gz & Cz)). unfold pdot, dotR, vecR, map3. cbn [vx vy vz floats a_add a_mul].
  destruct (prod_err _ _ M Fx Gx HM Bx Cx) as (P1 & P2 & P3). destruct (prod_err _ _ M Fy Gy HM By Cy) as (Q1 & Q2 & Q3). destruct (prod_err _ _ M Fz Gz HM Bz Cz) as (R1 & R2 & R3).
  destruct (sum_err _ _ _ _ (5 / 4) (5 / 4) (5 / 4) (5 / 4) M Q1 R1 HM Q3 R3 ltac:(lra) ltac:(lra) ltac:(lra) Q2 R2) as (S1 & S2 & S3).
  destruct (sum_err _ _ _ _ (5 / 4) (5 / 4 + 5 / 4 + 1 / 8) (5 / 4) (5 / 4 + 5 / 4 + (5 / 4 + 5 / 4)) M P1 S1 HM P3 S3 ltac:(lra) ltac:(lra) ltac:(lra) P2 S2) as (U1 & U2 & U3).
  split; [exact U1|]. replace (FR (vx q) * FR (vx n) + FR (vy q) * FR (vy n) + FR (vz q) * FR (vz n)) with (FR (vx q) * FR (vx n) + (FR (vy q) * FR (vy n) + FR (vz q) * FR (vz n))) by ring.
  eapply Rle_trans; [exact U2|]. pose proof u_pos. assert (0 < u32r * M) by (apply Rmult_lt_0_compat; lra). lra.
Qed.
Lemma pdot_swap : forall q n M, 1 <= M <= bpow radix2 20 -> upto M q -> upto (9 / 8) n ->
  ffin (pdot floats n q) = true /\ Rabs (FR (pdot floats n q) - dotR (vecR q) (vecR n)) <= 11 * u32r * M.
Proof.
  intros q n M HM ((Fx & Bx) & (Fy & By) & (Fz & Bz)) ((Gx & Cx) & (Gy & Cy) & (Gz & Cz)). unfold pdot, dotR, vecR, map3. cbn [vx vy vz floats a_add a_mul].
  assert (W : forall a b, ffin a = true -> ffin b = true -> Rabs (FR a) <= M -> Rabs (FR b) <= 9 / 8 ->
    ffin (fmul b a) = true /\ Rabs (FR (fmul b a) - FR a * FR b) <= 5 / 4 * u32r * M /\ Rabs (FR (fmul b a)) <= 5 / 4 * M).
  { intros a n' Fa Fn Ha Hn. assert (P : Rabs (FR n' * FR a) <= 9 / 8 * M) by (rewrite Rabs_mult; apply Rmult_le_compat; auto using Rabs_pos).
    assert (B : bpow radix2 20 * 2 <= bpow radix2 127) by (change 2 with (bpow radix2 1); rewrite <- bpow_plus; apply bpow_le; lia).
    destruct (fmul_rel n' a Fn Fa) as (F & d & e & Hd & He & E); [lra|]. split; [exact F|].
    assert (D : Rabs (FR (fmul n' a) - FR a * FR n') <= 5 / 4 * u32r * M).
    { rewrite E. replace (FR n' * FR a * (1 + d) + e - FR a * FR n') with (FR n' * FR a * d + e) by ring.
      eapply Rle_trans; [apply Rabs_triang|]. rewrite (Rabs_mult _ d). pose proof (t_le_u M (proj1 HM)) as T. pose proof t32r_pos. pose proof u_pos.
      assert (Rabs (FR n' * FR a) * Rabs d <= 9 / 8 * M * u32r) by (apply Rmult_le_compat; auto using Rabs_pos). lra. }
    split; [exact D|]. replace (FR (fmul n' a)) with (FR n' * FR a + (FR (fmul n' a) - FR a * FR n')) by ring. eapply Rle_trans; [apply Rabs_triang|]. unfold u32r in D. lra. }
  destruct (W _ _ Fx Gx Bx Cx) as (P1 & P2 & P3). destruct (W _ _ Fy Gy By Cy) as (Q1 & Q2 & Q3). destruct (W _ _ Fz Gz Bz Cz) as (R1 & R2 & R3).
  destruct (sum_err _ _ _ _ (5 / 4) (5 / 4) (5 / 4) (5 / 4) M Q1 R1 HM Q3 R3 ltac:(lra) ltac:(lra) ltac:(lra) Q2 R2) as (S1 & S2 & S3).
  destruct (sum_err _ _ _ _ (5 / 4) (5 / 4 + 5 / 4 + 1 / 8) (5 / 4) (5 / 4 + 5 / 4 + (5 / 4 + 5 / 4)) M P1 S1 HM P3 S3 ltac:(lra) ltac:(lra) ltac:(lra) P2 S2) as (U1 & U2 & U3).
  split; [exact U1|]. replace (FR (vx q) * FR (vx n) + FR (vy q) * FR (vy n) + FR (vz q) * FR (vz n)) with (FR (vx q) * FR (vx n) + (FR (vy q) * FR (vy n) + FR (vz q) * FR (vz n))) by ring.
  eapply Rle_trans; [exact U2|]. pose proof u_pos. assert (0 < u32r * M) by (apply Rmult_lt_0_compat; lra). lra.
Qed.

(** one plane *)
Lemma plane_float : forall p1 p2 p3 q M, 1 <= M <= bpow radix2 20 -> wide_triangle p1 p2 p3 -> upto M p1 -> upto M q ->
  let N := normal_dir p1 p2 p3 in let depth := dotR (sub3R q p1) N / normR N in
  let slack := bpow radix2 (-16) * M * (normR (sub3R p2 p1) * normR (sub3R p3 p1)) / normR N in
  (slack <= depth -> isPointInside floats (setFromPoints floats p1 p2 p3) q = true) /\
  (depth < - slack -> isPointInside floats (setFromPoints floats p1 p2 p3) q = false).
Proof.
  intros p1 p2 p3 q M HM W Up Uq N depth slack. pose proof (normal_ok _ _ _ W) as (FN & E1 & E2 & E3). fold N in E1, E2, E3. set (n := face_normal p1 p2 p3) in *.
  destruct W as (_ & _ & _ & K & Wd). fold N in K, Wd. set (ab := normR (sub3R p2 p1) * normR (sub3R p3 p1)) in *.
  assert (N0 : 0 < normR N) by (pose proof (bpow_gt_0 radix2 (-40)); lra). assert (I0 : 0 < / normR N) by (apply Rinv_0_lt_compat; exact N0).
  set (s := ab / normR N). set (sl := bpow radix2 (-19) * ab / normR N) in *.
  assert (A0 : 0 <= ab) by (apply Rmult_le_pos; apply norm_nn).
  assert (LAG : normR N <= ab).
  { unfold ab. apply Rsqr_incr_0_var; [|exact A0]. unfold Rsqr. rewrite norm_sq. set (a := sub3R p2 p1) in *. set (b := sub3R p3 p1) in *.
    replace (normR a * normR b * (normR a * normR b)) with ((normR a * normR a) * (normR b * normR b)) by ring. rewrite !norm_sq.
    assert (L : dotR N N = dotR a a * dotR b b - dotR a b * dotR a b) by (unfold N, normal_dir; fold a b; unfold dotR, crossR; cbn [vx vy vz]; ring). rewrite L. nra. }
  assert (S1 : 1 <= s). { unfold s, Rdiv. apply (Rmult_le_reg_r (normR N)); [exact N0|]. rewrite Rmult_assoc, Rinv_l by lra. lra. }
  assert (S2 : s <= 65536). { unfold s, Rdiv. apply (Rmult_le_reg_r (normR N)); [exact N0|]. rewrite Rmult_assoc, Rinv_l by lra. replace (bpow radix2 (-16)) with (/ 65536) in Wd by (cbn; lra). lra. }
  assert (SL : sl = 32 * u32r * s). { unfold sl, s, Rdiv. replace (bpow radix2 (-19)) with (32 * u32r) by (unfold u32r; cbn; lra). ring. }
  assert (SK : slack = 256 * u32r * M * s). { unfold slack, s, Rdiv. replace (bpow radix2 (-16)) with (256 * u32r) by (unfold u32r; cbn; lra). ring. }
  assert (SL8 : sl <= 1 / 8) by (rewrite SL; unfold u32r; lra).
  assert (UC : forall c, Rabs c <= normR N -> Rabs (c / normR N) <= 1).
  { intros c H. unfold Rdiv. rewrite Rabs_mult, (Rabs_pos_eq (/ normR N)) by lra. apply (Rmult_le_reg_r (normR N)); [exact N0|]. rewrite Rmult_assoc, Rinv_l by lra. lra. }
  destruct FN as (G1 & G2 & G3).
  assert (CN : Rabs (vx N) <= normR N /\ Rabs (vy N) <= normR N /\ Rabs (vz N) <= normR N).
  { repeat split; rewrite <- (Rabs_pos_eq (normR N)) by lra; apply Rsqr_le_abs_0; unfold Rsqr; rewrite norm_sq; unfold dotR; nra. }
  destruct CN as (C1 & C2 & C3).
  assert (NB : forall c m, Rabs (c - m / normR N) <= sl -> Rabs m <= normR N -> Rabs c <= 9 / 8).
  { intros c m H Hm. replace c with (m / normR N + (c - m / normR N)) by ring. eapply Rle_trans; [apply Rabs_triang|]. pose proof (UC m Hm). lra. }
  assert (Un : upto (9 / 8) n) by (repeat split; eauto).
  destruct (pdot_err q n M HM Uq Un) as (Fq & Dq). destruct (pdot_swap p1 n M HM Up Un) as (Fp & Dp).
  set (tilt := dotR (vecR q) (vecR n) - dotR (vecR p1) (vecR n) - depth).
  assert (TI : Rabs tilt <= 192 * u32r * M * s).
  { assert (TE : tilt = (FR (vx q) - FR (vx p1)) * (FR (vx n) - vx N / normR N) + (FR (vy q) - FR (vy p1)) * (FR (vy n) - vy N / normR N) + (FR (vz q) - FR (vz p1)) * (FR (vz n) - vz N / normR N)).
    { unfold tilt, depth, dotR, sub3R, vecR, map3, Rdiv. cbn [vx vy vz]. ring. }
    assert (ST : forall a b e, Rabs a <= M -> Rabs b <= M -> Rabs e <= sl -> Rabs ((a - b) * e) <= 2 * M * sl).
    { intros a b e Ha Hb He. rewrite Rabs_mult. apply Rmult_le_compat; auto using Rabs_pos. apply Rabs_le_inv in Ha. apply Rabs_le_inv in Hb. apply Rabs_le. lra. }
    destruct Up as ((_ & U1) & (_ & U2) & (_ & U3)). destruct Uq as ((_ & V1) & (_ & V2) & (_ & V3')).
    pose proof (ST _ _ _ V1 U1 E1). pose proof (ST _ _ _ V2 U2 E2). pose proof (ST _ _ _ V3' U3 E3).
    rewrite TE. eapply Rle_trans; [apply Rabs_triang|]. eapply Rle_trans; [apply Rplus_le_compat_r; apply Rabs_triang|].
    replace (192 * u32r * M * s) with (3 * (2 * M * sl)) by (rewrite SL; ring). lra. }
  assert (UM : 0 < u32r * M) by (apply Rmult_lt_0_compat; [apply u_pos|lra]). assert (UMs : u32r * M * 1 <= u32r * M * s) by (apply Rmult_le_compat_l; lra).
  apply Rabs_le_inv in Dq. apply Rabs_le_inv in Dp. apply Rabs_le_inv in TI. unfold tilt in TI.
  unfold isPointInside. rewrite plane_normal, plane_distance. fold n. cbn [floats a_le].
  split; intros H.
  - apply fle_R; auto. lra.
  - destruct (fle (pdot floats n p1) (pdot floats q n)) eqn:L; [|reflexivity]. exfalso. apply fle_R in L; auto. lra.
Qed.
