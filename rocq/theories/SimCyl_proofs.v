(** Ray intersections of simulated cylinders against real geometry. *)
From Coq Require Import ZArith Reals List Bool Lia Lra Psatz.
From Flocq Require Import Core Binary.
From Verif Require Import F32 F32_lemmas F32_err Types Index Voxel Serialize Assoc Layer Update Update_spec
  Merge_proofs Update_proofs Dist_proofs Timing_proofs Index_float Sim Sim_spec Sim_proofs Sim_geom SimHit_spec SimHit_proofs SimBox_proofs.
Import ListNotations.
Open Scope R_scope.

(** error of a product and of a sum, the bounds as multiples of a scale *)
Lemma mul_ap a b x y ea eb X Y e : ap a x ea -> ap b y eb -> 0 <= ea -> 0 <= eb -> Rabs x + ea <= X -> Rabs y + eb <= Y -> X * Y <= bpow radix2 126 ->
  ea * Y + eb * X + 6 / 100000000 * (X * Y) + / 1000000000000 <= e -> ap (fmul a b) (x * y) e.
Proof.
  intros A B Pa Pb HX HY HB HE. eapply ap_le; [exact (ap_mul a b x y ea eb X Y A B Pa Pb HX HY HB)|]. pose proof u_small as (U0 & U). pose proof t_small as (T0 & T).
  assert (0 <= X * Y). { pose proof (Rabs_pos x). pose proof (Rabs_pos y). apply Rmult_le_pos; lra. }
  assert (u32r * (X * Y) <= 6 / 100000000 * (X * Y)) by (apply Rmult_le_compat_r; lra). lra.
Qed.
Lemma add_ap a b x y ea eb X e : ap a x ea -> ap b y eb -> 0 <= X -> Rabs x + Rabs y + ea + eb <= X -> X <= bpow radix2 126 -> ea + eb + 6 / 100000000 * X <= e -> ap (fadd a b) (x + y) e.
Proof.
  intros A B X0 HX HB HE. eapply ap_le; [exact (ap_add a b x y ea eb X A B HX HB)|]. pose proof u_small as (U0 & U). assert (u32r * X <= 6 / 100000000 * X) by (apply Rmult_le_compat_r; lra). lra.
Qed.
Lemma sub_ap' a b x y ea eb X e : ap a x ea -> ap b y eb -> 0 <= X -> Rabs x + Rabs y + ea + eb <= X -> X <= bpow radix2 126 -> ea + eb + 6 / 100000000 * X <= e -> ap (fsub a b) (x - y) e.
Proof.
  intros A B X0 HX HB HE. eapply ap_le; [exact (ap_sub a b x y ea eb X A B HX HB)|]. pose proof u_small as (U0 & U). assert (u32r * X <= 6 / 100000000 * X) by (apply Rmult_le_compat_r; lra). lra.
Qed.
Lemma big_bound : 1000 * bpow radix2 76 <= bpow radix2 126 /\ 1000 * bpow radix2 76 <= bpow radix2 125 /\ bpow radix2 38 <= bpow radix2 76.
Proof. split; [|split]; [apply Rle_trans with (bpow radix2 10 * bpow radix2 76); [apply Rmult_le_compat_r; [apply bpow_ge_0|change (bpow radix2 10) with 1024; lra]|rewrite <- bpow_plus; apply bpow_le; lia]|apply Rle_trans with (bpow radix2 10 * bpow radix2 76); [apply Rmult_le_compat_r; [apply bpow_ge_0|change (bpow radix2 10) with 1024; lra]|rewrite <- bpow_plus; apply bpow_le; lia]|apply bpow_le; lia]. Qed.
Lemma int_ap n : (Z.abs n <= 100)%Z -> ap (f32_of_Z n) (IZR n) 0.
Proof. intros H. destruct (f32_of_Z_R n ltac:(lia)) as (E & F). split; [exact F|]. rewrite E, Rminus_eq_0, Rabs_R0. lra. Qed.

Lemma eps_tight : 9 / 10000000 <= FR kEpsilon /\ FR kEpsilon <= 11 / 10000000.
Proof.
  assert (E : FR kEpsilon = IZR 8796093 * bpow radix2 (-43)) by reflexivity. rewrite E.
  assert (B : bpow radix2 (-43) = / IZR (2 ^ 43)) by reflexivity. rewrite B. change (2 ^ 43)%Z with 8796093022208%Z. lra.
Qed.
Lemma sum_sq_nonneg u v B : ffin u = true -> Rabs (FR u) <= B -> ffin v = true -> Rabs (FR v) <= B -> 0 <= B -> B * B <= bpow radix2 125 -> 0 <= FR (fadd (fmul u u) (fmul v v)).
Proof.
  intros Fu Hu Fv Hv B0 K.
  assert (Q : forall w, ffin w = true -> Rabs (FR w) <= B -> ffin (fmul w w) = true /\ 0 <= FR (fmul w w) <= bpow radix2 125).
  { intros w F H. pose proof (mul_bound _ _ _ _ H H) as W. destruct (fmul_R w w F F) as (E & G); [apply rnd32_small; apply Rle_trans with (bpow radix2 125); [lra|apply bpow_le; lia]|].
    split; [exact G|]. rewrite E. split; [apply rnd32_nonneg, Rle_0_sqr|]. replace (bpow radix2 125) with (rnd32 (bpow radix2 125)); [apply rnd32_le; apply Rabs_le_inv in W; lra|].
    rewrite <- (Rmult_1_l (bpow radix2 125)). apply (rnd32_exact 1 125); lia. }
  destruct (Q u Fu Hu) as (F1 & N1). destruct (Q v Fv Hv) as (F2 & N2).
  destruct (fadd_R _ _ F1 F2) as (E & _). { apply rnd32_small. rewrite Rabs_pos_eq by lra. replace (bpow radix2 127) with (4 * bpow radix2 125) by (change 4 with (bpow radix2 2); rewrite <- bpow_plus; reflexivity). pose proof (bpow_ge_0 radix2 125). lra. }
  rewrite E. apply rnd32_nonneg. lra.
Qed.
Section cylinder.
  Variables (M : R) (c : pt3) (r h : f32) (o d : pt3) (m : f32).
  Hypotheses (M1 : 1 <= M) (M2 : M <= bpow radix2 38) (C : all3 (bounded M) c) (O : all3 (bounded M) o) (BM : bounded M m) (BR : bounded M r) (BH : bounded M h)
    (HP : 0 <= FR h) (D : all3 (bounded (1 + / 1000)) d).
  Let e := pt_sub o c.
  Let f2 := f32_of_Z 2.
  Let a := fadd (fmul (vx d) (vx d)) (fmul (vy d) (vy d)).
  Let b := fadd (fmul (fmul f2 (vx e)) (vx d)) (fmul (fmul f2 (vy e)) (vy d)).
  Let cc := fsub (fadd (fmul (vx e) (vx e)) (fmul (vy e) (vy e))) (fmul r r).
  Let under := fsub (fmul b b) (fmul (fmul (f32_of_Z 4) a) cc).
  Let x := FR (vx o) - FR (vx c).
  Let y := FR (vy o) - FR (vy c).
  Let z := FR (vz o) - FR (vz c).
  Let A0 := FR (vx d) * FR (vx d) + FR (vy d) * FR (vy d).
  Let B0 := 2 * x * FR (vx d) + 2 * y * FR (vy d).
  Let C0 := x * x + y * y - FR r * FR r.
  Let U0 := B0 * B0 - 4 * A0 * C0.
  Lemma e_ap : ap (vx e) x (/ 8000000 * M) /\ ap (vy e) y (/ 8000000 * M) /\ ap (vz e) z (/ 8000000 * M) /\ Rabs x <= 2 * M /\ Rabs y <= 2 * M /\ Rabs z <= 2 * M.
  Proof.
    destruct C as (C1 & C2 & C3), O as (O1 & O2 & O3).
    destruct (sub_ap M _ _ M1 M2 O1 C1) as (S1 & _ & R1). destruct (sub_ap M _ _ M1 M2 O2 C2) as (S2 & _ & R2). destruct (sub_ap M _ _ M1 M2 O3 C3) as (S3 & _ & R3). tauto.
  Qed.
  Lemma a_ap : ap a A0 (/ 3000000) /\ 0 <= A0 <= 201 / 100.
  Proof.
    destruct D as ((F1 & D1) & (F2 & D2) & _). destruct big_bound as (BB & BB25 & BB'). pose proof (bpow_ge_0 radix2 76). assert (B1 : 10 <= bpow radix2 126) by (apply Rle_trans with (bpow radix2 4); [change (bpow radix2 4) with 16; lra|apply bpow_le; lia]).
    assert (Q1 : ap (fmul (vx d) (vx d)) (FR (vx d) * FR (vx d)) (/ 14000000)) by (apply (mul_ap _ _ _ _ 0 0 (1 + / 1000) (1 + / 1000)); try apply ap_exact; try assumption; lra).
    assert (Q2 : ap (fmul (vy d) (vy d)) (FR (vy d) * FR (vy d)) (/ 14000000)) by (apply (mul_ap _ _ _ _ 0 0 (1 + / 1000) (1 + / 1000)); try apply ap_exact; try assumption; lra).
    assert (P1 := mul_bound _ _ _ _ D1 D1). assert (P2 := mul_bound _ _ _ _ D2 D2).
    split; [apply (add_ap _ _ _ _ (/ 14000000) (/ 14000000) (21 / 10)); try assumption; lra|].
    rewrite Rabs_pos_eq in P1, P2 by apply Rle_0_sqr. pose proof (Rle_0_sqr (FR (vx d))). pose proof (Rle_0_sqr (FR (vy d))). unfold A0, Rsqr in *. lra.
  Qed.
  Lemma b_ap : ap b B0 (/ 400000 * M) /\ Rabs B0 <= 801 / 100 * M.
  Proof.
    destruct D as ((F1 & D1) & (F2 & D2) & _). destruct big_bound as (BB & BB25 & BB'). destruct e_ap as (E1 & E2 & _ & X & Y & _).
    assert (S1 : ap (fmul f2 (vx e)) (2 * x) (51 / 100000000 * M)) by (apply (mul_ap _ _ _ _ 0 (/ 8000000 * M) 2 (201 / 100 * M)); [exact (int_ap 2 ltac:(lia))|exact E1|lra|lra|rewrite Rabs_pos_eq; lra|lra|lra|lra]).
    assert (S2 : ap (fmul f2 (vy e)) (2 * y) (51 / 100000000 * M)) by (apply (mul_ap _ _ _ _ 0 (/ 8000000 * M) 2 (201 / 100 * M)); [exact (int_ap 2 ltac:(lia))|exact E2|lra|lra|rewrite Rabs_pos_eq; lra|lra|lra|lra]).
    assert (X2 : Rabs (2 * x) <= 4 * M) by (rewrite Rabs_mult, Rabs_pos_eq by lra; lra). assert (Y2 : Rabs (2 * y) <= 4 * M) by (rewrite Rabs_mult, Rabs_pos_eq by lra; lra).
    assert (Q1 : ap (fmul (fmul f2 (vx e)) (vx d)) (2 * x * FR (vx d)) (8 / 10000000 * M)) by (apply (mul_ap _ _ _ _ (51 / 100000000 * M) 0 (401 / 100 * M) (1 + / 1000)); [exact S1|apply ap_exact, F1|lra|lra|lra|lra|lra|lra]).
    assert (Q2 : ap (fmul (fmul f2 (vy e)) (vy d)) (2 * y * FR (vy d)) (8 / 10000000 * M)) by (apply (mul_ap _ _ _ _ (51 / 100000000 * M) 0 (401 / 100 * M) (1 + / 1000)); [exact S2|apply ap_exact, F2|lra|lra|lra|lra|lra|lra]).
    assert (P1 := mul_bound _ _ _ _ X2 D1). assert (P2 := mul_bound _ _ _ _ Y2 D2).
    split; [apply (add_ap _ _ _ _ (8 / 10000000 * M) (8 / 10000000 * M) (81 / 10 * M)); [exact Q1|exact Q2|lra|lra|lra|lra]|]. unfold B0. eapply Rle_trans; [apply Rabs_triang|]. lra.
  Qed.
  Lemma sq_ap v w : ap v w (/ 8000000 * M) -> Rabs w <= 2 * M -> ap (fmul v v) (w * w) (8 / 10000000 * (M * M)) /\ 0 <= w * w <= 4 * (M * M).
  Proof.
    intros A B. destruct (m_bound M M1 M2) as (MM & MM1). destruct big_bound as (BB & BB25 & BB').
    split; [apply (mul_ap _ _ _ _ (/ 8000000 * M) (/ 8000000 * M) (201 / 100 * M) (201 / 100 * M)); try assumption; try lra|].
    pose proof (mul_bound _ _ _ _ B B) as W. rewrite Rabs_pos_eq in W by apply Rle_0_sqr. split; [apply Rle_0_sqr|lra].
  Qed.
  Lemma c_ap : ap cc C0 (/ 300000 * (M * M)) /\ Rabs C0 <= 9 * (M * M).
  Proof.
    destruct (m_bound M M1 M2) as (MM & MM1). destruct big_bound as (BB & BB25 & BB'). destruct e_ap as (E1 & E2 & _ & X & Y & _). destruct BR as (Fr & Br).
    destruct (sq_ap _ _ E1 X) as (S1 & P1). destruct (sq_ap _ _ E2 Y) as (S2 & P2).
    assert (S3 : ap (fmul r r) (FR r * FR r) (7 / 100000000 * (M * M))) by (apply (mul_ap _ _ _ _ 0 0 M M); try apply ap_exact; try assumption; try lra).
    assert (P3 := mul_bound _ _ _ _ Br Br). rewrite Rabs_pos_eq in P3 by apply Rle_0_sqr. pose proof (Rle_0_sqr (FR r)) as P3'. unfold Rsqr in P3'.
    assert (S4 : ap (fadd (fmul (vx e) (vx e)) (fmul (vy e) (vy e))) (x * x + y * y) (22 / 10000000 * (M * M))).
    { apply (add_ap _ _ _ _ (8 / 10000000 * (M * M)) (8 / 10000000 * (M * M)) (81 / 10 * (M * M))); [exact S1|exact S2|lra|rewrite !Rabs_pos_eq by lra; lra|lra|lra]. }
    split; [|unfold C0; apply Rabs_le; lra].
    apply (sub_ap' _ _ _ _ (22 / 10000000 * (M * M)) (7 / 100000000 * (M * M)) (91 / 10 * (M * M))); [exact S4|exact S3|lra|rewrite !Rabs_pos_eq by lra; lra|lra|lra].
  Qed.
  Lemma u_ap : ap under U0 (/ 9000 * (M * M)) /\ Rabs U0 <= 138 * (M * M).
  Proof.
    destruct (m_bound M M1 M2) as (MM & MM1). destruct big_bound as (BB & BB25 & BB'). destruct a_ap as (A & AB). destruct b_ap as (B & BBd). destruct c_ap as (K & KB).
    assert (S1 : ap (fmul b b) (B0 * B0) (45 / 1000000 * (M * M))) by (apply (mul_ap _ _ _ _ (/ 400000 * M) (/ 400000 * M) (802 / 100 * M) (802 / 100 * M)); [exact B|exact B|lra|lra|lra|lra|lra|lra]).
    assert (S2 : ap (fmul (f32_of_Z 4) a) (4 * A0) (19 / 10000000)).
    { apply (mul_ap _ _ _ _ 0 (/ 3000000) 4 (202 / 100)); [exact (int_ap 4 ltac:(lia))|exact A|lra|lra|rewrite Rabs_pos_eq; lra|rewrite Rabs_pos_eq by lra; lra|lra|lra]. }
    assert (A4 : Rabs (4 * A0) <= 804 / 100) by (rewrite Rabs_pos_eq; lra).
    assert (S3 : ap (fmul (fmul (f32_of_Z 4) a) cc) (4 * A0 * C0) (49 / 1000000 * (M * M))) by (apply (mul_ap _ _ _ _ (19 / 10000000) (/ 300000 * (M * M)) (805 / 100) (901 / 100 * (M * M))); [exact S2|exact K|lra|lra|lra|lra|lra|lra]).
    assert (P1 := mul_bound _ _ _ _ BBd BBd). assert (P2 := mul_bound _ _ _ _ A4 KB).
    split; [apply (sub_ap' _ _ _ _ (45 / 1000000 * (M * M)) (49 / 1000000 * (M * M)) (139 * (M * M))); [exact S1|exact S3|lra|lra|lra|lra]|].
    unfold U0, Rminus. eapply Rle_trans; [apply Rabs_triang|]. rewrite Rabs_Ropp. lra.
  Qed.
  (** a root: a float quotient of [num] by twice [a] *)
  Lemma root_residual num s q : ap num (- FR b + s) (/ 700000 * M) -> Rabs s <= 12 * M -> Rabs (s - q) <= / 1300000 * M -> Rabs q <= 12 * M ->
    FR kEpsilon <= Rabs (FR a) -> let t := fdiv num (fmul f2 a) in 0 <= FR t <= M ->
    ffin t = true /\ Rabs (2 * A0 * FR t + B0 - q) <= / 130000 * M.
  Proof.
    intros N SB SQ QB AE t TB. destruct a_ap as (A & AB). destruct b_ap as (B & BBd). pose proof (ap_abs _ _ _ B) as BF. destruct eps_R as (_ & EE). destruct big_bound as (BB & BB25 & BB').
    pose proof (ap_abs _ _ _ A) as AF. rewrite (Rabs_pos_eq A0) in AF by lra. destruct A as (Fa & A), B as (Fb & B), N as (Fn & N).
    destruct (int_ap 2 ltac:(lia)) as (F2 & E2). fold f2 in F2, E2. apply Rabs_le_inv in E2.
    assert (G2 : FR f2 = 2) by lra.
    destruct (fmul_R f2 a F2 Fa) as (Ed & Fd); [rewrite G2; apply rnd32_small; rewrite Rabs_mult, Rabs_pos_eq by lra; apply Rle_trans with (bpow radix2 4); [change (bpow radix2 4) with 16; lra|apply bpow_le; lia]|].
    rewrite G2 in Ed. destruct (rnd32_err' (2 * FR a)) as (p1 & p2 & Hp1 & Hp2 & Ep). rewrite Ep in Ed. pose proof u_small. pose proof t_small.
    set (den := fmul f2 a) in *.
    assert (DL : / 1000000 <= Rabs (FR den)).
    { rewrite Ed. assert (Rabs (2 * FR a * p1) <= 2 * Rabs (FR a) * u32r) by (rewrite !Rabs_mult, (Rabs_pos_eq 2) by lra; apply Rmult_le_compat_l; [pose proof (Rabs_pos (FR a)); lra|exact Hp1]).
      assert (2 * Rabs (FR a) * u32r <= 2 * Rabs (FR a) * (6 / 100000000)) by (apply Rmult_le_compat_l; [pose proof (Rabs_pos (FR a)); lra|lra]).
      pose proof (Rabs_triang_inv (2 * FR a) (- (2 * FR a * p1 + p2))) as W. rewrite Rabs_Ropp in W. pose proof (Rabs_triang (2 * FR a * p1) p2) as W2.
      replace (2 * FR a - - (2 * FR a * p1 + p2)) with (2 * FR a * (1 + p1) + p2) in W by ring. rewrite (Rabs_mult 2 (FR a)), (Rabs_pos_eq 2) in W by lra.
      destruct eps_tight as (ET & _). lra. }
    assert (NZ : FR den <> 0) by (intros Z; rewrite Z, Rabs_R0 in DL; lra).
    assert (NB : Rabs (FR num) <= 21 * M).
    { assert (Rabs (- FR b + s) <= 202 / 10 * M) by (eapply Rle_trans; [apply Rabs_triang|]; rewrite Rabs_Ropp; lra). pose proof (ap_abs num _ _ (conj Fn N)). lra. }
    assert (QQ : Rabs (FR num / FR den) <= bpow radix2 127).
    { unfold Rdiv. rewrite Rabs_mult, Rabs_inv. apply Rle_trans with (bpow radix2 43 * bpow radix2 20).
      - apply Rmult_le_compat; try apply Rabs_pos; [left; apply Rinv_0_lt_compat; lra| |].
        + replace (bpow radix2 43) with (32 * bpow radix2 38) by (change 32 with (bpow radix2 5); rewrite <- bpow_plus; reflexivity). lra.
        + apply Rle_trans with (/ / 1000000); [apply Rinv_le; lra|]. rewrite Rinv_inv. change (bpow radix2 20) with 1048576. lra.
      - rewrite <- bpow_plus. apply bpow_le. lia. }
    destruct (fdiv_rel num den Fn NZ QQ) as (Ft & g1 & g2 & Hg1 & Hg2 & Et). fold t in Ft, Et. split; [exact Ft|].
    assert (TD : FR t * FR den = FR num * (1 + g1) + g2 * FR den) by (rewrite Et; field; exact NZ).
    assert (DB : Rabs (FR den) <= 5). { rewrite Ed. eapply Rle_trans; [apply Rabs_triang|]. assert (Rabs (2 * FR a * (1 + p1)) <= 405 / 100 * (11 / 10)) by (apply mul_bound; [rewrite Rabs_mult, Rabs_pos_eq by lra; lra|assert (Hp1' : Rabs p1 <= / 10) by lra; apply Rabs_le_inv in Hp1'; apply Rabs_le; lra]). lra. }
    replace (2 * A0 * FR t + B0 - q) with
      ((FR num - (- FR b + s)) + (s - q) - (FR b - B0) + FR num * g1 + g2 * FR den - FR t * (2 * FR a * p1) - FR t * p2 - 2 * FR t * (FR a - A0)).
    2:{ replace (FR num * g1) with (FR t * FR den - g2 * FR den - FR num) by (rewrite TD; ring). rewrite Ed. ring. }
    assert (TA : Rabs (FR t) <= M) by (rewrite Rabs_pos_eq; lra).
    assert (V1 : Rabs (FR num * g1) <= 21 * M * (6 / 100000000)) by (apply mul_bound; lra).
    assert (V2 : Rabs (g2 * FR den) <= / 1000000000000 * 5) by (apply mul_bound; lra).
    assert (V3_ : Rabs (FR t * (2 * FR a * p1)) <= M * (405 / 100 * (6 / 100000000))) by (apply mul_bound; [exact TA|]; apply mul_bound; [rewrite Rabs_mult, Rabs_pos_eq by lra|]; lra).
    assert (V4 : Rabs (FR t * p2) <= M * / 1000000000000) by (apply mul_bound; lra).
    assert (V5 : Rabs (2 * FR t * (FR a - A0)) <= 2 * M * / 3000000) by (apply mul_bound; [rewrite Rabs_mult, Rabs_pos_eq by lra; lra|exact A]).
    apply Rabs_le_inv in N. apply Rabs_le_inv in SQ. apply Rabs_le_inv in B. apply Rabs_le_inv in V1. apply Rabs_le_inv in V2. apply Rabs_le_inv in V3_. apply Rabs_le_inv in V4. apply Rabs_le_inv in V5. apply Rabs_le. lra.
  Qed.
  Lemma side_eq t : 4 * A0 * side_level (V3R c) (FR r) (on_ray o d t) = (2 * A0 * t + B0) * (2 * A0 * t + B0) - U0.
  Proof. unfold side_level, on_ray, V3R, A0, U0, B0, C0, A0, x, y. cbn [vx vy vz]. ring. Qed.
  Lemma sqrt_ok : 0 <= FR under -> let q := sqrt (FR under) in
    ffin (fsqrt under) = true /\ Rabs (FR (fsqrt under) - q) <= / 1300000 * M /\ 0 <= q <= 118 / 10 * M /\ q * q = FR under.
  Proof.
    intros P q. destruct (m_bound M M1 M2) as (MM & MM1). destruct u_ap as ((F & E) & B). destruct (fsqrt_R under F P) as (G & K).
    assert (Q2 : q * q = FR under) by (apply sqrt_sqrt, P). assert (Q0 : 0 <= q) by apply sqrt_pos.
    assert (Q8 : q <= 118 / 10 * M). { apply Rabs_le_inv in E. apply Rabs_le_inv in B. apply Rnot_lt_le. intros L. assert (139 * (M * M) < q * q) by nra. lra. }
    split; [exact K|]. split; [|split; [lra|exact Q2]].
    rewrite G. destruct (rnd32_err' (sqrt (FR under))) as (e1 & e2 & H1 & H2 & ->). fold q. replace (q * (1 + e1) + e2 - q) with (q * e1 + e2) by ring.
    eapply Rle_trans; [apply Rabs_triang|]. pose proof u_small. pose proof t_small. assert (W : Rabs q <= 118 / 10 * M) by (rewrite Rabs_pos_eq; lra).
    pose proof (mul_bound _ _ _ _ W H1). assert (118 / 10 * M * u32r <= 118 / 10 * M * (6 / 100000000)) by (apply Rmult_le_compat_l; lra). lra.
  Qed.
  Definition side_near (t : f32) : Prop :=
    (FR (vx d) * FR (vx d) + FR (vy d) * FR (vy d)) * Rabs (side_level (V3R c) (FR r) (on_ray o d (FR t))) <= / 10000 * (M * M).
  Lemma residual_side t q : Rabs (2 * A0 * FR t + B0 - q) <= / 130000 * M -> Rabs q <= 12 * M -> Rabs (q * q - U0) <= 12 / 100000 * (M * M) -> side_near t.
  Proof.
    intros T Q U. destruct (m_bound M M1 M2) as (MM & MM1). unfold side_near. fold A0. destruct a_ap as (_ & AB).
    rewrite <- (Rabs_pos_eq A0) by lra. rewrite <- Rabs_mult.
    assert (W : Rabs (2 * A0 * FR t + B0) <= (12 + / 100) * M) by (apply Rabs_le_inv in T; apply Rabs_le_inv in Q; apply Rabs_le; lra).
    pose proof (sq_near _ _ _ ((12 + / 100) * M) T W ltac:(lra) ltac:(lra)) as S. pose proof (side_eq (FR t)) as E.
    apply Rabs_le_inv in S. apply Rabs_le_inv in U. apply Rabs_le. lra.
  Qed.
  Let t1 := fdiv (fadd (fneg b) (fsqrt under)) (fmul f2 a).
  Let t2 := fdiv (fsub (fneg b) (fsqrt under)) (fmul f2 a).
  Let t0 := fdiv (fneg b) (fmul f2 a).
  Lemma nb_ap : ap (fneg b) (- FR b) 0 /\ Rabs (FR b) <= 802 / 100 * M.
  Proof.
    destruct b_ap as (B & BBd). pose proof (ap_abs _ _ _ B) as BF. destruct B as (Fb & B). split; [|lra].
    split; [rewrite fneg_fin; exact Fb|rewrite fneg_R, Rminus_eq_0, Rabs_R0; lra].
  Qed.
  Lemma t1_side : FR kEpsilon <= Rabs (FR a) -> 0 <= FR under -> 0 <= FR t1 <= M -> side_near t1.
  Proof.
    intros AE P T. destruct (sqrt_ok P) as (Fs & Es & Q & Q2). set (q := sqrt (FR under)) in *. destruct nb_ap as (NB & BB). destruct big_bound as (BB1 & BB25 & BB2). destruct (m_bound M M1 M2) as (MM & MM1). destruct u_ap as ((Fu & U) & _).
    assert (SB : Rabs (FR (fsqrt under)) <= 12 * M) by (apply Rabs_le_inv in Es; apply Rabs_le; lra).
    assert (N : ap (fadd (fneg b) (fsqrt under)) (- FR b + FR (fsqrt under)) (/ 700000 * M)).
    { apply (add_ap _ _ _ _ 0 0 (201 / 10 * M)); [exact NB|apply ap_exact, Fs|lra|rewrite Rabs_Ropp; lra|lra|lra]. }
    assert (QB : Rabs q <= 12 * M) by (rewrite Rabs_pos_eq; lra).
    destruct (root_residual _ (FR (fsqrt under)) q N SB Es QB AE T) as (_ & RR). apply (residual_side t1 q RR QB). rewrite Q2. lra.
  Qed.
  Lemma t2_side : FR kEpsilon <= Rabs (FR a) -> 0 <= FR under -> 0 <= FR t2 <= M -> side_near t2.
  Proof.
    intros AE P T. destruct (sqrt_ok P) as (Fs & Es & Q & Q2). set (q := sqrt (FR under)) in *. destruct nb_ap as (NB & BB). destruct big_bound as (BB1 & BB25 & BB2). destruct (m_bound M M1 M2) as (MM & MM1). destruct u_ap as ((Fu & U) & _).
    assert (SB : Rabs (- FR (fsqrt under)) <= 12 * M) by (rewrite Rabs_Ropp; apply Rabs_le_inv in Es; apply Rabs_le; lra).
    assert (N : ap (fsub (fneg b) (fsqrt under)) (- FR b + - FR (fsqrt under)) (/ 700000 * M)).
    { apply (sub_ap' _ _ _ _ 0 0 (201 / 10 * M)); [exact NB|apply ap_exact, Fs|lra|rewrite Rabs_Ropp in *; lra|lra|lra]. }
    assert (QB : Rabs (- q) <= 12 * M) by (rewrite Rabs_Ropp, Rabs_pos_eq; lra).
    assert (Es' : Rabs (- FR (fsqrt under) - - q) <= / 1300000 * M) by (replace (- FR (fsqrt under) - - q) with (- (FR (fsqrt under) - q)) by ring; rewrite Rabs_Ropp; exact Es).
    destruct (root_residual _ (- FR (fsqrt under)) (- q) N SB Es' QB AE T) as (_ & RR). apply (residual_side t2 (- q) RR QB). replace (- q * - q) with (q * q) by ring. rewrite Q2. lra.
  Qed.
  Lemma t0_side : FR kEpsilon <= Rabs (FR a) -> 0 <= FR under -> FR under <= FR kEpsilon -> 0 <= FR t0 <= M -> side_near t0.
  Proof.
    intros AE P PE T. destruct nb_ap as (NB & BB). destruct (m_bound M M1 M2) as (MM & MM1). destruct u_ap as ((Fu & U) & _). destruct eps_tight as (_ & ET).
    assert (N : ap (fneg b) (- FR b + 0) (/ 700000 * M)) by (rewrite Rplus_0_r; eapply ap_le; [exact NB|lra]).
    destruct (root_residual _ 0 0 N ltac:(rewrite Rabs_R0; lra) ltac:(rewrite Rminus_0_r, Rabs_R0; lra) ltac:(rewrite Rabs_R0; lra) AE T) as (_ & RR).
    apply (residual_side t0 0 RR); [rewrite Rabs_R0; lra|]. apply Rabs_le_inv in U. apply Rabs_le. lra.
  Qed.
  Lemma half_ap : apd (dhalf_of h) (FR h / 2) (/ 10000000000 * M) /\ apd (dhalf_of (fneg h)) (- (FR h / 2)) (/ 10000000000 * M).
  Proof.
    split; [exact (half_err M h M1 M2 BH)|]. destruct (half_err M (fneg h) M1 M2) as (F & E); [destruct BH as (F & B); split; [rewrite fneg_fin; exact F|rewrite fneg_R, Rabs_Ropp; exact B]|].
    split; [exact F|]. rewrite fneg_R in E. replace (- (FR h / 2)) with (- FR h / 2) by field. exact E.
  Qed.
  (** a coordinate of the point at parameter [t], relative to the centre *)
  Lemma coord_ap t v w k : ffin t = true -> 0 <= FR t <= M -> ap v w (/ 8000000 * M) -> Rabs w <= 2 * M -> bounded (1 + / 1000) k ->
    ap (fadd v (fmul t k)) (w + FR t * FR k) (/ 2600000 * M) /\ Rabs (w + FR t * FR k) <= 301 / 100 * M.
  Proof.
    intros Ft T V W (Fk & K). destruct big_bound as (BB1 & BB25 & BB2). assert (TA : Rabs (FR t) <= M) by (rewrite Rabs_pos_eq; lra). pose proof (mul_bound _ _ _ _ TA K) as TK.
    assert (S : ap (fmul t k) (FR t * FR k) (61 / 1000000000 * M)) by (apply (mul_ap _ _ _ _ 0 0 M (1 + / 1000)); [apply ap_exact, Ft|apply ap_exact, Fk|lra|lra|lra|lra|lra|lra]).
    split; [apply (add_ap _ _ _ _ (/ 8000000 * M) (61 / 1000000000 * M) (302 / 100 * M)); [exact V|exact S|lra|lra|lra|lra]|]. eapply Rle_trans; [apply Rabs_triang|]. lra.
  Qed.
  Lemma side_height t : ffin t = true -> 0 <= FR t <= M -> dge (f64_of_f32 (fadd (vz e) (fmul t (vz d)))) (dhalf_of (fneg h)) = true ->
    dle (f64_of_f32 (fadd (vz e) (fmul t (vz d)))) (dhalf_of h) = true -> Rabs (z + FR t * FR (vz d)) <= FR h / 2 + / 1000000 * M.
  Proof.
    intros Ft T G L. destruct e_ap as (_ & _ & E & _ & _ & Z). destruct D as (_ & _ & D3). destruct (coord_ap t _ _ _ Ft T E Z D3) as ((Fz & Ez) & _).
    destruct (f64_of_f32_R _ Fz) as (Gz & Hz). destruct half_ap as ((F1 & H1) & (F2 & H2)). unfold dge in G. apply dle_R in G; [|exact F2|exact Hz]. apply dle_R in L; [|exact Hz|exact F1].
    rewrite Gz in G, L. apply Rabs_le_inv in H1. apply Rabs_le_inv in H2. apply Rabs_le_inv in Ez. apply Rabs_le. lra.
  Qed.
  Lemma cap_height hh H : apd hh H (/ 10000000000 * M) -> Rabs H <= / 2 * M -> FR kEpsilon < Rabs (FR (vz d)) ->
    let t := f32_of_f64 (ddiv (dsub hh (f64_of_f32 (vz e))) (f64_of_f32 (vz d))) in
    ffin t = true /\ Rabs (z + FR t * FR (vz d) - H) <= / 1000000 * M.
  Proof.
    intros (Fh & Eh) HB DE t. destruct e_ap as (_ & _ & (Fz & Ez) & _ & _ & Z). destruct D as (_ & _ & (Fd & Db)). destruct eps_tight as (ET & _).
    destruct (f64_of_f32_R _ Fz) as (Gz & Hz). destruct (f64_of_f32_R _ Fd) as (Gd & Hd).
    assert (XY : Rabs (H - z) <= 5 * M) by (apply Rabs_le_inv in HB; apply Rabs_le_inv in Z; apply Rabs_le; lra).
    destruct (dsub_close M hh (f64_of_f32 (vz e)) H z (/ 10000000000) (/ 8000000) M1 M2 Fh Hz Eh ltac:(rewrite Gz; exact Ez) ltac:(lra) XY) as (Fn & En).
    set (n := dsub hh (f64_of_f32 (vz e))) in *.
    assert (NB : Rabs (DR n) <= 3 * M) by (apply Rabs_le_inv in En; apply Rabs_le_inv in HB; apply Rabs_le_inv in Z; apply Rabs_le; lra).
    assert (NZ : FR (vz d) <> 0) by (intros Q; rewrite Q, Rabs_R0 in DE; lra).
    assert (IB : Rabs (/ FR (vz d)) <= bpow radix2 21).
    { rewrite Rabs_inv. apply Rle_trans with (/ (9 / 10000000)); [apply Rinv_le; lra|]. change (bpow radix2 21) with 2097152. lra. }
    assert (QB : Rabs (DR n / FR (vz d)) <= bpow radix2 61).
    { unfold Rdiv. rewrite Rabs_mult. apply Rle_trans with (bpow radix2 40 * bpow radix2 21); [|rewrite <- bpow_plus; apply bpow_le; lia].
      apply Rmult_le_compat; try apply Rabs_pos; [|exact IB]. replace (bpow radix2 40) with (4 * bpow radix2 38) by (change 4 with (bpow radix2 2); rewrite <- bpow_plus; reflexivity). lra. }
    destruct (ddiv_R n (f64_of_f32 (vz d)) Fn) as (Ew & Fw); [rewrite Gd; exact NZ|rewrite Gd; apply rnd64_small; eapply Rle_trans; [exact QB|apply bpow_le; lia]|].
    rewrite Gd in Ew. set (w := ddiv n (f64_of_f32 (vz d))) in *.
    destruct (rnd64_err (DR n / FR (vz d))) as (p1 & p2 & HP1 & HP2 & E1). rewrite E1 in Ew. pose proof u64_small. pose proof t64_small. pose proof u_small. pose proof t_small.
    assert (WB : Rabs (DR w) <= bpow radix2 127).
    { rewrite Ew. eapply Rle_trans; [apply Rabs_triang|]. apply Rle_trans with (bpow radix2 61 * 2 + 1); [|apply Rle_trans with (bpow radix2 63); [|apply bpow_le; lia]].
      - apply Rplus_le_compat; [apply mul_bound; [exact QB|]|lra]. assert (Hp : Rabs p1 <= 1) by lra. apply Rabs_le_inv in Hp. apply Rabs_le. lra.
      - replace (bpow radix2 63) with (4 * bpow radix2 61) by (change 4 with (bpow radix2 2); rewrite <- bpow_plus; reflexivity). pose proof (bpow_le radix2 0 61 ltac:(lia)). change (bpow radix2 0) with 1 in *. lra. }
    destruct (f32_of_f64_R w Fw (rnd32_small _ WB)) as (Et & Ft). fold t in Et, Ft. split; [exact Ft|].
    destruct (rnd32_err' (DR w)) as (g1 & g2 & HG3 & HG4 & E3). rewrite E3 in Et.
    assert (WD : DR w * FR (vz d) = DR n + (DR n * p1 + p2 * FR (vz d))) by (rewrite Ew; field; exact NZ).
    assert (V1 : Rabs (DR n * p1) <= 3 * M * / 1000000000000000) by (apply mul_bound; lra).
    assert (V2 : Rabs (p2 * FR (vz d)) <= / 1000000000000 * (1 + / 1000)) by (apply mul_bound; lra).
    assert (WB2 : Rabs (DR w * FR (vz d)) <= 31 / 10 * M) by (rewrite WD; apply Rabs_le_inv in V1; apply Rabs_le_inv in V2; apply Rabs_le_inv in NB; apply Rabs_le; lra).
    assert (V3_ : Rabs (DR w * FR (vz d) * g1) <= 31 / 10 * M * (6 / 100000000)) by (apply mul_bound; lra).
    assert (V4 : Rabs (g2 * FR (vz d)) <= / 1000000000000 * (1 + / 1000)) by (apply mul_bound; lra).
    replace (z + FR t * FR (vz d) - H) with ((DR n - (H - z)) + (DR n * p1 + p2 * FR (vz d)) + DR w * FR (vz d) * g1 + g2 * FR (vz d)) by (rewrite Et; replace ((DR w * (1 + g1) + g2) * FR (vz d)) with (DR w * FR (vz d) + DR w * FR (vz d) * g1 + g2 * FR (vz d)) by ring; rewrite WD at 2; ring).
    apply Rabs_le_inv in En. apply Rabs_le_inv in V1. apply Rabs_le_inv in V2. apply Rabs_le_inv in V3_. apply Rabs_le_inv in V4. apply Rabs_le. lra.
  Qed.
  Lemma cap_inside t : ffin t = true -> 0 <= FR t <= M ->
    flt (fsqrt (fadd (fmul (fadd (vx e) (fmul t (vx d))) (fadd (vx e) (fmul t (vx d)))) (fmul (fadd (vy e) (fmul t (vy d))) (fadd (vy e) (fmul t (vy d)))))) r = true ->
    side_level (V3R c) (FR r) (on_ray o d (FR t)) <= / 10000 * (M * M).
  Proof.
    intros Ft T L. destruct (m_bound M M1 M2) as (MM & MM1). destruct big_bound as (BB1 & BB25 & BB2). destruct e_ap as (E1 & E2 & _ & X & Y & _). destruct D as (D1 & D2 & _). destruct BR as (Fr & Br).
    destruct (coord_ap t _ _ _ Ft T E1 X D1) as (K1 & B1). destruct (coord_ap t _ _ _ Ft T E2 Y D2) as (K2 & B2).
    set (u := fadd (vx e) (fmul t (vx d))) in *. set (v := fadd (vy e) (fmul t (vy d))) in *. set (ur := x + FR t * FR (vx d)) in *. set (vr := y + FR t * FR (vy d)) in *.
    assert (S1 : ap (fmul u u) (ur * ur) (3 / 1000000 * (M * M))) by (apply (mul_ap _ _ _ _ (/ 2600000 * M) (/ 2600000 * M) (302 / 100 * M) (302 / 100 * M)); [exact K1|exact K1|lra|lra|lra|lra|lra|lra]).
    assert (S2 : ap (fmul v v) (vr * vr) (3 / 1000000 * (M * M))) by (apply (mul_ap _ _ _ _ (/ 2600000 * M) (/ 2600000 * M) (302 / 100 * M) (302 / 100 * M)); [exact K2|exact K2|lra|lra|lra|lra|lra|lra]).
    assert (P1 := mul_bound _ _ _ _ B1 B1). assert (P2 := mul_bound _ _ _ _ B2 B2).
    assert (S3 : ap (fadd (fmul u u) (fmul v v)) (ur * ur + vr * vr) (8 / 1000000 * (M * M))) by (apply (add_ap _ _ _ _ (3 / 1000000 * (M * M)) (3 / 1000000 * (M * M)) (183 / 10 * (M * M))); [exact S1|exact S2|lra|lra|lra|lra]).
    set (w := fadd (fmul u u) (fmul v v)) in *.
    assert (W0 : 0 <= FR w) by (apply (sum_sq_nonneg u v (302 / 100 * M)); [exact (proj1 K1)|pose proof (ap_abs _ _ _ K1); lra|exact (proj1 K2)|pose proof (ap_abs _ _ _ K2); lra|lra|lra]).
    destruct S3 as (Fw & S3). destruct (fsqrt_R w Fw W0) as (Es & Fs). apply flt_R in L; [|exact Fs|exact Fr]. rewrite Es in L.
    assert (Q2 : sqrt (FR w) * sqrt (FR w) = FR w) by (apply sqrt_sqrt, W0). assert (Q0 : 0 <= sqrt (FR w)) by apply sqrt_pos. set (q := sqrt (FR w)) in *.
    assert (R0 : 0 <= rnd32 q) by (apply rnd32_nonneg, Q0).
    assert (Q8 : q <= 44 / 10 * M). { apply Rabs_le_inv in S3. apply Rabs_le_inv in P1. apply Rabs_le_inv in P2. apply Rnot_lt_le. intros G. assert (19 * (M * M) < q * q) by nra. lra. }
    destruct (rnd32_err' q) as (g1 & g2 & HG1 & HG2 & E3). rewrite E3 in L, R0. pose proof u_small. pose proof t_small.
    assert (V : Rabs (q * g1) <= 44 / 10 * M * (6 / 100000000)) by (apply mul_bound; [rewrite Rabs_pos_eq|]; lra). apply Rabs_le_inv in V. apply Rabs_le_inv in HG2. apply Rabs_le_inv in Br.
    assert (QR : q <= FR r + 3 / 10000000 * M) by lra.
    assert (QQ : q * q <= (FR r + 3 / 10000000 * M) * (FR r + 3 / 10000000 * M)) by (apply Rmult_le_compat; lra).
    assert (RM : FR r * M <= M * M) by (apply Rmult_le_compat_r; lra).
    assert (SE : side_level (V3R c) (FR r) (on_ray o d (FR t)) = ur * ur + vr * vr - FR r * FR r) by (unfold side_level, on_ray, V3R, ur, vr, x, y; cbn [vx vy vz]; ring).
    rewrite SE. apply Rabs_le_inv in S3. lra.
  Qed.
  Lemma cylinder_sound t' : cylinder_hit c r h o d m = Some t' ->
    ffin t' = true /\ 0 <= FR t' < FR m /\
    (side_near t' /\ Rabs (vz (on_ray o d (FR t')) - FR (vz c)) <= FR h / 2 + / 1000000 * M \/
     Rabs (Rabs (vz (on_ray o d (FR t')) - FR (vz c)) - FR h / 2) <= / 1000000 * M /\ side_level (V3R c) (FR r) (on_ray o d (FR t')) <= / 10000 * (M * M)).
  Proof.
    intros H. unfold cylinder_hit in H. cbv zeta in H. fold e in H. fold f2 in H. fold a in H. fold b in H. fold cc in H. fold under in H. fold t1 in H. fold t2 in H. fold t0 in H.
    destruct a_ap as ((Fa & _) & _). destruct u_ap as ((Fu & _) & _). destruct BM as (Fm & Bm). apply Rabs_le_inv in Bm. destruct eps_R as (Fe & _).
    destruct (flt (fabs a) kEpsilon) eqn:L1; [discriminate H|]. apply flt_false in L1; [|rewrite fabs_fin; exact Fa|exact Fe]. rewrite fabs_R in L1.
    destruct (flt under f0) eqn:L2; [discriminate H|]. apply flt_false in L2; [|exact Fu|reflexivity]. change (FR f0) with 0 in L2.
    set (ok := fun t => fge t f0 = true -> flt t m = true -> ffin t = true /\ 0 <= FR t < FR m).
    assert (OK : forall t, ok t).
    { intros t G L. unfold fge in G. apply fle_iff in G. apply flt_iff in L. destruct G as (_ & Nt & G), L as (_ & _ & L). rewrite (ER_fin f0 eq_refl) in G. rewrite (ER_fin m Fm) in L. change (FR f0) with 0 in G.
      assert (Ft : ffin t = true) by (destruct t as [s|s|s pl Hpl|s mm ee He]; [reflexivity| |discriminate Nt|reflexivity]; rewrite ER_inf in G, L; pose proof (FR_lt_max m) as LM; apply Rabs_def2 in LM; destruct s; lra). rewrite (ER_fin t Ft) in G, L. auto. }
    assert (SD : forall t, (0 <= FR t <= M -> side_near t) -> fge t f0 && dge (f64_of_f32 (fadd (vz e) (fmul t (vz d)))) (dhalf_of (fneg h)) && dle (f64_of_f32 (fadd (vz e) (fmul t (vz d)))) (dhalf_of h) = true -> flt t m = true ->
      ffin t = true /\ 0 <= FR t < FR m /\ (side_near t /\ Rabs (vz (on_ray o d (FR t)) - FR (vz c)) <= FR h / 2 + / 1000000 * M \/
       Rabs (Rabs (vz (on_ray o d (FR t)) - FR (vz c)) - FR h / 2) <= / 1000000 * M /\ side_level (V3R c) (FR r) (on_ray o d (FR t)) <= / 10000 * (M * M))).
    { intros t S G L. apply andb_true_iff in G. destruct G as (G & G3). apply andb_true_iff in G. destruct G as (G1 & G2). destruct (OK t G1 L) as (Ft & T). split; [exact Ft|]. split; [exact T|]. left. split; [apply S; lra|].
      pose proof (side_height t Ft ltac:(lra) G2 G3) as Q. unfold on_ray. cbn [vz]. replace (FR (vz o) + FR t * FR (vz d) - FR (vz c)) with (z + FR t * FR (vz d)) by (unfold z; ring). exact Q. }
    assert (CP : forall hh HH, apd hh HH (/ 10000000000 * M) -> Rabs HH = FR h / 2 -> let t := f32_of_f64 (ddiv (dsub hh (f64_of_f32 (vz e))) (f64_of_f32 (vz d))) in
      fgt (fabs (vz d)) kEpsilon && fge t f0 && flt (fsqrt (fadd (fmul (fadd (vx e) (fmul t (vx d))) (fadd (vx e) (fmul t (vx d)))) (fmul (fadd (vy e) (fmul t (vy d))) (fadd (vy e) (fmul t (vy d)))))) r = true -> flt t m = true ->
      ffin t = true /\ 0 <= FR t < FR m /\ (side_near t /\ Rabs (vz (on_ray o d (FR t)) - FR (vz c)) <= FR h / 2 + / 1000000 * M \/
       Rabs (Rabs (vz (on_ray o d (FR t)) - FR (vz c)) - FR h / 2) <= / 1000000 * M /\ side_level (V3R c) (FR r) (on_ray o d (FR t)) <= / 10000 * (M * M))).
    { intros hh HH A E t G L. apply andb_true_iff in G. destruct G as (G & G3). apply andb_true_iff in G. destruct G as (G1 & G2). destruct (OK t G2 L) as (Ft & T). split; [exact Ft|]. split; [exact T|]. right.
      unfold fgt in G1. destruct D as (_ & _ & (Fd & _)). apply flt_R in G1; [|exact Fe|rewrite fabs_fin; exact Fd]. rewrite fabs_R in G1. destruct BH as (_ & Bh). rewrite Rabs_pos_eq in Bh by exact HP.
      destruct (cap_height hh HH A ltac:(lra) G1) as (_ & Q). fold t in Q. split; [|apply cap_inside; [exact Ft|lra|exact G3]].
      unfold on_ray. cbn [vz]. replace (FR (vz o) + FR t * FR (vz d) - FR (vz c)) with (z + FR t * FR (vz d)) by (unfold z; ring). rewrite <- E. eapply Rle_trans; [apply Rabs_triang_inv2|exact Q]. }
    destruct half_ap as (HA1 & HA2).
    assert (K : forall ta tb, (0 <= FR ta <= M -> side_near ta) -> (0 <= FR tb <= M -> side_near tb) ->
      (let ts := filter (fun t : bool * f32 => fst t)
        [(fge ta f0 && dge (f64_of_f32 (fadd (vz e) (fmul ta (vz d)))) (dhalf_of (fneg h)) && dle (f64_of_f32 (fadd (vz e) (fmul ta (vz d)))) (dhalf_of h), ta);
         (fge tb f0 && dge (f64_of_f32 (fadd (vz e) (fmul tb (vz d)))) (dhalf_of (fneg h)) && dle (f64_of_f32 (fadd (vz e) (fmul tb (vz d)))) (dhalf_of h), tb);
         (let t := f32_of_f64 (ddiv (dsub (dhalf_of (fneg h)) (f64_of_f32 (vz e))) (f64_of_f32 (vz d))) in
          (fgt (fabs (vz d)) kEpsilon && fge t f0 && flt (fsqrt (fadd (fmul (fadd (vx e) (fmul t (vx d))) (fadd (vx e) (fmul t (vx d)))) (fmul (fadd (vy e) (fmul t (vy d))) (fadd (vy e) (fmul t (vy d)))))) r, t));
         (let t := f32_of_f64 (ddiv (dsub (dhalf_of h) (f64_of_f32 (vz e))) (f64_of_f32 (vz d))) in
          (fgt (fabs (vz d)) kEpsilon && fge t f0 && flt (fsqrt (fadd (fmul (fadd (vx e) (fmul t (vx d))) (fadd (vx e) (fmul t (vx d)))) (fmul (fadd (vy e) (fmul t (vy d))) (fadd (vy e) (fmul t (vy d)))))) r, t))] in
       match ts with [] => None | _ => let t := fold_left (fun m x => fmin m (snd x)) ts m in if fge t m then None else Some t end) = Some t' ->
      ffin t' = true /\ 0 <= FR t' < FR m /\ (side_near t' /\ Rabs (vz (on_ray o d (FR t')) - FR (vz c)) <= FR h / 2 + / 1000000 * M \/
       Rabs (Rabs (vz (on_ray o d (FR t')) - FR (vz c)) - FR h / 2) <= / 1000000 * M /\ side_level (V3R c) (FR r) (on_ray o d (FR t')) <= / 10000 * (M * M))).
    { intros ta tb Sa Sb K. cbv zeta in K. match type of K with match filter ?f ?l with _ => _ end = _ => set (ts := filter f l) in K end.
      assert (St : (let t := fold_left (fun m x => fmin m (snd x)) ts m in if fge t m then None else Some t) = Some t') by (clearbody ts; destruct ts; [discriminate K|exact K]). clear K. cbv zeta in St.
      destruct (fge _ m) eqn:G in St; [discriminate St|]. assert (E : fold_left (fun m x => fmin m (snd x)) ts m = t') by congruence. rewrite E in G. clear St.
      destruct (fold_fmin_in ts m) as [Q|(w & I & Q)]; cbv zeta in Q; rewrite E in Q.
      { exfalso. subst t'. rewrite Q in G. unfold fge in G. rewrite (proj2 (fle_iff m m)) in G by (pose proof (ffin_nnan m Fm); repeat split; auto; lra). discriminate G. }
      apply filter_In in I. destruct I as (I1 & I2). cbn [In] in I1.
      assert (LT : fge (snd w) f0 = true -> flt (snd w) m = true).
      { intros P. unfold fge in P. apply fle_iff in P. destruct P as (_ & P & _). rewrite <- Q in *. unfold fge in G. apply flt_iff. pose proof (ffin_nnan m Fm). repeat split; auto. apply Rnot_le_lt. intros N. rewrite (proj2 (fle_iff m t')) in G by auto. discriminate G. }
      rewrite Q. destruct I1 as [<-|[<-|[<-|[<-|[]]]]]; cbn [fst snd] in *.
      - apply SD; [exact Sa|exact I2|]. apply LT. apply andb_true_iff in I2. destruct I2 as (I2 & _). apply andb_true_iff in I2. apply I2.
      - apply SD; [exact Sb|exact I2|]. apply LT. apply andb_true_iff in I2. destruct I2 as (I2 & _). apply andb_true_iff in I2. apply I2.
      - apply (CP _ _ HA2); [rewrite Rabs_Ropp, Rabs_pos_eq; lra|exact I2|]. apply LT. apply andb_true_iff in I2. destruct I2 as (I2 & _). apply andb_true_iff in I2. apply I2.
      - apply (CP _ _ HA1); [rewrite Rabs_pos_eq; lra|exact I2|]. apply LT. apply andb_true_iff in I2. destruct I2 as (I2 & _). apply andb_true_iff in I2. apply I2. }
    destruct (fle under kEpsilon) eqn:L3.
    - apply fle_R in L3; [|exact Fu|exact Fe]. refine (K t0 (f32_of_Z (-1)) _ _ H); [intros T; apply t0_side; assumption|].
      intros T. exfalso. destruct (f32_of_Z_R (-1) ltac:(lia)) as (E & _). rewrite E in T. lra.
    - refine (K t1 t2 _ _ H); intros T; [apply t1_side|apply t2_side]; assumption.
  Qed.
End cylinder.
