(** The running weighted mean of MergedTsdfIntegrator::integrateVoxel, in floats. *)
From Coq Require Import ZArith Reals List Bool Lia Lra.
From Flocq Require Import Core Binary.
From Verif Require Import F32 F32_lemmas F32_err Types Merge_proofs Update_proofs.
Import ListNotations.
Open Scope R_scope.

Lemma u_eq : u32r = / 16777216. Proof. reflexivity. Qed.
Lemma dev3 : forall a b c, Rabs a <= u32r -> Rabs b <= u32r -> Rabs c <= u32r -> Rabs ((1 + a) * (1 + b) * (1 + c) - 1) <= 7 / 2 * u32r.
Proof.
  intros a b c Ha Hb Hc. pose proof u_eq as U.
  replace ((1 + a) * (1 + b) * (1 + c) - 1) with (a + b + c + (a * b + a * c + b * c) + a * b * c) by ring.
  assert (P : forall x y, Rabs x <= u32r -> Rabs y <= u32r -> Rabs (x * y) <= u32r * u32r) by (intros; rewrite Rabs_mult; apply Rmult_le_compat; auto; apply Rabs_pos).
  pose proof (P a b Ha Hb). pose proof (P a c Ha Hc). pose proof (P b c Hb Hc).
  assert (Rabs (a * b * c) <= u32r * u32r * u32r) by (rewrite Rabs_mult; apply Rmult_le_compat; auto; apply Rabs_pos).
  assert (u32r * u32r = / 281474976710656) as E2 by (rewrite U; lra). rewrite E2 in *.
  assert (/ 281474976710656 * u32r <= / 281474976710656) by (rewrite U; lra).
  rewrite U in *. repeat match goal with H : Rabs _ <= _ |- _ => apply Rabs_le_inv in H end. apply Rabs_le. lra.
Qed.
Lemma dev2 : forall b c, Rabs b <= u32r -> Rabs c <= u32r -> Rabs ((1 + b) * (1 + c)) <= 2.
Proof.
  intros b c Hb Hc. pose proof u_eq as U. rewrite Rabs_mult. replace 2 with (2 * 1) by ring.
  assert (Rabs (1 + b) <= 9 / 8) by (apply Rabs_le_inv in Hb; apply Rabs_le; rewrite U in *; lra).
  assert (Rabs (1 + c) <= 9 / 8) by (apply Rabs_le_inv in Hc; apply Rabs_le; rewrite U in *; lra).
  pose proof (Rmult_le_compat _ _ _ _ (Rabs_pos (1 + b)) (Rabs_pos (1 + c)) H H0). lra.
Qed.

(** one step, over the reals *)
Lemma mean_real : forall B a m p w d1 t1 d2 t2 d3 d4 t4 m',
  bpow radix2 (-40) <= B -> Rabs a <= 17 / 16 * B -> Rabs p <= B -> 0 <= m -> bpow radix2 (-20) <= w ->
  0 < m' <= bpow radix2 60 ->
  Rabs d1 <= u32r -> Rabs d2 <= u32r -> Rabs d3 <= u32r -> Rabs d4 <= u32r -> Rabs t1 <= t32r -> Rabs t2 <= t32r -> Rabs t4 <= t32r ->
  Rabs ((((a * m * (1 + d1) + t1 + (p * w * (1 + d2) + t2)) * (1 + d3)) / m' * (1 + d4) + t4) * m' - (a * m + p * w)) <= 4 * u32r * B * (m + w).
Proof.
  intros B a m p w d1 t1 d2 t2 d3 d4 t4 m' HB Ha Hp Hm Hw (M0 & M1) D1 D2 D3 D4 T1 T2 T4.
  pose proof u_eq as U. assert (U0 : 0 < u32r) by (rewrite U; lra).
  pose proof (bpow_gt_0 radix2 (-40)) as B0. pose proof (bpow_gt_0 radix2 (-20)) as W0.
  replace ((((a * m * (1 + d1) + t1 + (p * w * (1 + d2) + t2)) * (1 + d3)) / m' * (1 + d4) + t4) * m' - (a * m + p * w))
    with (a * m * ((1 + d1) * (1 + d3) * (1 + d4) - 1) + p * w * ((1 + d2) * (1 + d3) * (1 + d4) - 1) + (t1 + t2) * ((1 + d3) * (1 + d4)) + t4 * m') by (field; lra).
  assert (A1 : Rabs (a * m * ((1 + d1) * (1 + d3) * (1 + d4) - 1)) <= 17 / 16 * B * m * (7 / 2 * u32r)).
  { rewrite !Rabs_mult, (Rabs_pos_eq m) by lra. apply Rmult_le_compat; [apply Rmult_le_pos; [apply Rabs_pos|lra]|apply Rabs_pos|apply Rmult_le_compat_r; lra|].
    apply dev3; assumption. }
  assert (A2 : Rabs (p * w * ((1 + d2) * (1 + d3) * (1 + d4) - 1)) <= B * w * (7 / 2 * u32r)).
  { rewrite !Rabs_mult, (Rabs_pos_eq w) by lra. apply Rmult_le_compat; [apply Rmult_le_pos; [apply Rabs_pos|lra]|apply Rabs_pos|apply Rmult_le_compat_r; lra|].
    apply dev3; assumption. }
  assert (TE : t32r = bpow radix2 (-150)) by reflexivity.
  assert (A3 : Rabs ((t1 + t2) * ((1 + d3) * (1 + d4))) <= bpow radix2 (-150) * 4).
  { rewrite Rabs_mult. replace (bpow radix2 (-150) * 4) with (bpow radix2 (-150) * 2 * 2) by ring. apply Rmult_le_compat; try apply Rabs_pos; [|apply dev2; assumption].
    eapply Rle_trans; [apply Rabs_triang|]. rewrite <- TE. lra. }
  assert (A4 : Rabs (t4 * m') <= bpow radix2 (-90)).
  { replace (-90)%Z with (-150 + 60)%Z by lia. rewrite bpow_plus, Rabs_mult, (Rabs_pos_eq m') by lra. rewrite <- TE. apply Rmult_le_compat; try lra. apply Rabs_pos. }
  assert (BW : bpow radix2 (-60) <= B * w) by (replace (-60)%Z with (-40 + -20)%Z by lia; rewrite bpow_plus; apply Rmult_le_compat; lra).
  assert (SM : bpow radix2 (-150) * 4 + bpow radix2 (-90) <= / 4 * u32r * bpow radix2 (-60)).
  { rewrite <- bpow_m24. replace (-150)%Z with (-90 + -60)%Z by lia. rewrite (bpow_plus radix2 (-90) (-60)).
    replace (bpow radix2 (-90)) with (bpow radix2 (-30) * bpow radix2 (-60)) by (rewrite <- bpow_plus; reflexivity).
    pose proof (bpow_gt_0 radix2 (-60)) as P60. assert (bpow radix2 (-60) <= / 8) by (change (bpow radix2 (-60)) with (/ 1152921504606846976); lra).
    replace (bpow radix2 (-30)) with (/ 64 * bpow radix2 (-24)) by (cbn; lra). pose proof (bpow_gt_0 radix2 (-24)).
    set (x := bpow radix2 (-60)) in *. set (y := bpow radix2 (-24)) in *.
    assert (/ 64 * y * x * x * 4 <= / 64 * y * x * / 8 * 4) by (apply Rmult_le_compat_r; [lra|]; apply Rmult_le_compat_l; [apply Rmult_le_pos; [lra|lra]|lra]).
    assert (0 < y * x) by (apply Rmult_lt_0_compat; lra). lra. }
  assert (UB : u32r * bpow radix2 (-60) <= u32r * (B * w)) by (apply Rmult_le_compat_l; lra).
  assert (P1 : 0 <= u32r * (B * m)) by (apply Rmult_le_pos; [lra|apply Rmult_le_pos; lra]).
  assert (P2 : 0 <= u32r * (B * w)) by (apply Rmult_le_pos; [lra|apply Rmult_le_pos; lra]).
  eapply Rle_trans; [apply Rabs_triang|]. eapply Rle_trans; [apply Rplus_le_compat_r, Rabs_triang|]. eapply Rle_trans; [apply Rplus_le_compat_r, Rplus_le_compat_r, Rabs_triang|].
  replace (4 * u32r * B * (m + w)) with (4 * (u32r * (B * m)) + 4 * (u32r * (B * w))) by ring.
  replace (17 / 16 * B * m * (7 / 2 * u32r)) with (119 / 32 * (u32r * (B * m))) in A1 by field.
  replace (B * w * (7 / 2 * u32r)) with (7 / 2 * (u32r * (B * w))) in A2 by field. lra.
Qed.

(** ** the loop *)
Definition mean_step (a m p w : f32) : f32 := fdiv (fadd (fmul a m) (fmul p w)) (fadd m w).
Fixpoint mean_run (l : list (f32 * f32)) (a m : f32) : f32 * f32 :=
  match l with [] => (a, m) | (p, w) :: l' => mean_run l' (mean_step a m p w) (fadd m w) end.
Fixpoint wsum (l : list (f32 * f32)) : R := match l with [] => 0 | (_, w) :: l' => FR w + wsum l' end.
Fixpoint psum (l : list (f32 * f32)) : R := match l with [] => 0 | (p, w) :: l' => FR w * FR p + psum l' end.

Definition item (B : R) (pw : f32 * f32) : Prop :=
  ffin (fst pw) = true /\ Rabs (FR (fst pw)) <= B /\ ffin (snd pw) = true /\ bpow radix2 (-20) <= FR (snd pw) <= bpow radix2 41.
Record mean_ok (B : R) (k : nat) (S W : R) (a m : f32) : Prop := {
  mo_a : ffin a = true; mo_m : ffin m = true; mo_m0 : 0 <= FR m; mo_ab : Rabs (FR a) <= 17 / 16 * B;
  mo_W : 0 <= W <= INR k * bpow radix2 41; mo_S : Rabs S <= B * W;
  mo_w : Rabs (FR m - W) <= INR k * (2 * u32r) * W;
  mo_p : Rabs (FR a * FR m - S) <= INR k * (5 * u32r) * B * FR m }.
Lemma mean_next : forall B k S W a m p w, bpow radix2 (-40) <= B <= bpow radix2 20 -> (Z.of_nat k < 2 ^ 16)%Z ->
  mean_ok B k S W a m -> item B (p, w) -> mean_ok B (Datatypes.S k) (S + FR w * FR p) (W + FR w) (mean_step a m p w) (fadd m w).
Proof.
  intros B k S W a m p w (HB & HB2) HK [Fa Fm M0 AB (W0 & W1) S1 E1 E2] (Fp & Pp & Fw & Lw & Uw). cbn [fst snd] in *.
  pose proof u_eq as U. assert (U0 : 0 < u32r) by (rewrite U; lra). assert (B0 : 0 < B) by (pose proof (bpow_gt_0 radix2 (-40)); lra).
  pose proof (bpow_gt_0 radix2 (-20)) as P20.
  assert (K0 : 0 <= INR k <= 65535). { split; [apply pos_INR|]. rewrite INR_IZR_INZ. apply IZR_le. lia. }
  assert (KU : INR k * (2 * u32r) <= / 128) by (rewrite U; lra).
  assert (KU0 : 0 <= INR k * (2 * u32r)) by (apply Rmult_le_pos; lra).
  assert (MW : Rabs (FR m - W) <= / 128 * W) by (eapply Rle_trans; [exact E1|]; apply Rmult_le_compat_r; lra).
  apply Rabs_le_inv in MW.
  assert (WB : W <= bpow radix2 57). { eapply Rle_trans; [exact W1|]. replace (bpow radix2 57) with (65536 * bpow radix2 41) by (cbn; lra). apply Rmult_le_compat_r; [apply bpow_ge_0|lra]. }
  assert (Mb : FR m <= bpow radix2 58) by (replace (bpow radix2 58) with (2 * bpow radix2 57) by (cbn; lra); pose proof (bpow_gt_0 radix2 57); lra).
  assert (Ab : Rabs (FR a) <= bpow radix2 21) by (replace (bpow radix2 21) with (2 * bpow radix2 20) by (cbn; lra); pose proof (bpow_gt_0 radix2 20); lra).
  (* the sum of the weights *)
  assert (Wb : bpow radix2 41 <= bpow radix2 58) by (apply bpow_le; lia).
  destruct (fadd_rel m w Fm Fw) as (Fmw & d5 & D5 & Em).
  { rewrite Rabs_pos_eq by lra. change (bpow radix2 127) with (bpow radix2 (58 + 69)). rewrite bpow_plus. assert (2 <= bpow radix2 69) by (change 2 with (bpow radix2 1); apply bpow_le; lia).
    pose proof (bpow_gt_0 radix2 58). assert (bpow radix2 58 * 2 <= bpow radix2 58 * bpow radix2 69) by (apply Rmult_le_compat_l; lra). lra. }
  set (m' := fadd m w) in *.
  assert (D5' := D5). apply Rabs_le_inv in D5'. rewrite U in D5'.
  assert (MM : FR m <= FR m' /\ FR w <= FR m').
  { assert (ERN : FR m' = rnd32 (FR m + FR w)).
    { unfold m'. apply fadd_R; auto. apply rnd32_small. rewrite Rabs_pos_eq by lra. change (bpow radix2 127) with (bpow radix2 (58 + 69)). rewrite bpow_plus. assert (2 <= bpow radix2 69) by (change 2 with (bpow radix2 1); apply bpow_le; lia).
      pose proof (bpow_gt_0 radix2 58). assert (bpow radix2 58 * 2 <= bpow radix2 58 * bpow radix2 69) by (apply Rmult_le_compat_l; lra). lra. }
    rewrite ERN. split; [rewrite <- (rnd32_FR m) at 1|rewrite <- (rnd32_FR w) at 1]; apply rnd32_le; lra. }
  destruct MM as (MM1 & MM2).
  assert (M'b : FR m' <= bpow radix2 60). { rewrite Em. replace (bpow radix2 60) with (4 * bpow radix2 58) by (cbn; lra).
    assert (FR m + FR w <= 2 * bpow radix2 58) by lra. assert (0 <= FR m + FR w) by lra.
    assert ((FR m + FR w) * (1 + d5) <= (2 * bpow radix2 58) * 2) by (apply Rmult_le_compat; lra). lra. }
  assert (M'0 : 0 < FR m') by lra.
  (* the products *)
  destruct (fmul_rel a m Fa Fm) as (Fx & d1 & t1 & D1 & T1 & Ex).
  { apply (Rabs_mul_bpow _ _ 21 58); [exact Ab|rewrite Rabs_pos_eq; lra|lia]. }
  destruct (fmul_rel p w Fp Fw) as (Fy & d2 & t2 & D2 & T2 & Ey).
  { apply (Rabs_mul_bpow _ _ 20 58); [lra|rewrite Rabs_pos_eq; lra|lia]. }
  set (x := fmul a m) in *. set (y := fmul p w) in *.
  assert (TS : t32r <= bpow radix2 20) by (pose proof t32r_small; change (bpow radix2 20) with 1048576; lra).
  assert (AM : Rabs (FR a * FR m) <= bpow radix2 79) by (apply (Rabs_mul_bpow _ _ 21 58); [exact Ab|rewrite Rabs_pos_eq; lra|lia]).
  assert (PW : Rabs (FR p * FR w) <= bpow radix2 79) by (apply (Rabs_mul_bpow _ _ 20 58); [lra|rewrite Rabs_pos_eq; lra|lia]).
  assert (BIG : forall r d t, Rabs r <= bpow radix2 79 -> Rabs d <= u32r -> Rabs t <= t32r -> Rabs (r * (1 + d) + t) <= bpow radix2 81).
  { intros r d t Hr Hd Ht. replace (bpow radix2 81) with (4 * bpow radix2 79) by (cbn; lra). assert (bpow radix2 20 <= bpow radix2 79) by (apply bpow_le; lia).
    eapply Rle_trans; [apply Rabs_triang|]. rewrite Rabs_mult. assert (Rabs (1 + d) <= 2) by (apply Rabs_le_inv in Hd; apply Rabs_le; rewrite U in *; lra).
    assert (Rabs r * Rabs (1 + d) <= bpow radix2 79 * 2) by (apply Rmult_le_compat; auto; apply Rabs_pos). lra. }
  pose proof (BIG _ _ _ AM D1 T1) as Xb. rewrite <- Ex in Xb. pose proof (BIG _ _ _ PW D2 T2) as Yb. rewrite <- Ey in Yb.
  assert (XY : Rabs (FR x + FR y) <= bpow radix2 82) by (replace (bpow radix2 82) with (bpow radix2 81 + bpow radix2 81) by (cbn; lra); eapply Rle_trans; [apply Rabs_triang|]; lra).
  destruct (fadd_rel x y Fx Fy) as (Fz & d3 & D3 & Ez). { eapply Rle_trans; [exact XY|]. apply bpow_le. lia. }
  set (z := fadd x y) in *.
  assert (Zb : Rabs (FR z) <= bpow radix2 83). { rewrite Ez, Rabs_mult. replace (bpow radix2 83) with (bpow radix2 82 * 2) by (cbn; lra). apply Rmult_le_compat; auto using Rabs_pos. apply Rabs_le_inv in D3. apply Rabs_le. rewrite U in *. lra. }
  destruct (fdiv_rel z m' Fz) as (Fq & d4 & t4 & D4 & T4 & Eq); [lra| |].
  { unfold Rdiv. rewrite Rabs_mult, Rabs_inv, (Rabs_pos_eq (FR m')) by lra. change (bpow radix2 127) with (bpow radix2 (83 + 44)). rewrite bpow_plus.
    apply Rmult_le_compat; auto using Rabs_pos. left; apply Rinv_0_lt_compat; lra. apply Rle_trans with (/ bpow radix2 (-20)); [apply Rinv_le; lra|]. rewrite <- bpow_opp. apply bpow_le. lia. }
  change (mean_step a m p w) with (fdiv z m'). set (q := fdiv z m') in *.
  assert (ST : Rabs (FR q * FR m' - (FR a * FR m + FR p * FR w)) <= 4 * u32r * B * (FR m + FR w)).
  { rewrite Eq, Ez, Ex, Ey. apply mean_real; auto. }
  assert (MP : FR m + FR w <= FR m' * (1 + / 8)). { rewrite Em. assert (0 <= FR m + FR w) by lra. replace (FR m + FR w) with ((FR m + FR w) * 1) at 1 by ring. rewrite Rmult_assoc. apply Rmult_le_compat_l; lra. }
  assert (ST' : Rabs (FR q * FR m' - (FR a * FR m + FR p * FR w)) <= 5 * u32r * B * FR m').
  { eapply Rle_trans; [exact ST|]. replace (5 * u32r * B * FR m') with (4 * u32r * B * (FR m' * (5 / 4))) by field. apply Rmult_le_compat_l; [apply Rmult_le_pos; lra|lra]. }
  assert (E2' : Rabs (FR q * FR m' - (S + FR w * FR p)) <= INR (Datatypes.S k) * (5 * u32r) * B * FR m').
  { replace (FR q * FR m' - (S + FR w * FR p)) with ((FR q * FR m' - (FR a * FR m + FR p * FR w)) + (FR a * FR m - S)) by ring.
    eapply Rle_trans; [apply Rabs_triang|]. rewrite S_INR.
    assert (INR k * (5 * u32r) * B * FR m <= INR k * (5 * u32r) * B * FR m') by (apply Rmult_le_compat_l; [apply Rmult_le_pos; [apply Rmult_le_pos; lra|lra]|lra]).
    replace ((INR k + 1) * (5 * u32r) * B * FR m') with (5 * u32r * B * FR m' + INR k * (5 * u32r) * B * FR m') by ring. lra. }
  assert (E1' : Rabs (FR m' - (W + FR w)) <= INR (Datatypes.S k) * (2 * u32r) * (W + FR w)).
  { rewrite Em, S_INR. replace ((FR m + FR w) * (1 + d5) - (W + FR w)) with ((FR m - W) + (FR m + FR w) * d5) by ring.
    eapply Rle_trans; [apply Rabs_triang|]. rewrite Rabs_mult, (Rabs_pos_eq (FR m + FR w)) by lra.
    assert (P1 : (FR m + FR w) * Rabs d5 <= (2 * (W + FR w)) * u32r) by (apply Rmult_le_compat; [lra|apply Rabs_pos|lra|exact D5]).
    assert (P2 : 0 <= INR k * (2 * u32r) * FR w) by (apply Rmult_le_pos; lra).
    replace ((INR k + 1) * (2 * u32r) * (W + FR w)) with (INR k * (2 * u32r) * W + (2 * (W + FR w)) * u32r + INR k * (2 * u32r) * FR w) by ring. lra. }
  assert (S' : Rabs (S + FR w * FR p) <= B * (W + FR w)).
  { eapply Rle_trans; [apply Rabs_triang|]. rewrite Rabs_mult, (Rabs_pos_eq (FR w)) by lra. assert (FR w * Rabs (FR p) <= FR w * B) by (apply Rmult_le_compat_l; lra). lra. }
  assert (W' : 0 <= W + FR w <= INR (Datatypes.S k) * bpow radix2 41) by (rewrite S_INR; split; lra).
  assert (KS : INR (Datatypes.S k) <= 65536) by (rewrite S_INR; lra).
  constructor; auto; try lra.
  (* the size of the mean *)
  assert (WM : W + FR w <= FR m' * (1 + / 50)).
  { apply Rabs_le_inv in E1'. assert (INR (Datatypes.S k) * (2 * u32r) * (W + FR w) <= / 128 * (W + FR w)).
    { apply Rmult_le_compat_r; [lra|]. rewrite U. lra. } lra. }
  assert (Q : Rabs (FR q * FR m') <= 17 / 16 * B * FR m').
  { replace (FR q * FR m') with ((FR q * FR m' - (S + FR w * FR p)) + (S + FR w * FR p)) by ring. eapply Rle_trans; [apply Rabs_triang|].
    assert (INR (Datatypes.S k) * (5 * u32r) * B * FR m' <= / 50 * B * FR m').
    { apply Rmult_le_compat_r; [lra|]. apply Rmult_le_compat_r; [lra|]. rewrite U. lra. }
    assert (B * (W + FR w) <= B * (FR m' * (1 + / 50))) by (apply Rmult_le_compat_l; lra).
    assert (0 < B * FR m') by (apply Rmult_lt_0_compat; lra). lra. }
  rewrite Rabs_mult, (Rabs_pos_eq (FR m')) in Q by lra. apply Rmult_le_reg_r with (FR m'); lra.
Qed.
Lemma mean_all : forall B l k S W a m, bpow radix2 (-40) <= B <= bpow radix2 20 -> (Z.of_nat (k + length l) <= 2 ^ 16)%Z ->
  mean_ok B k S W a m -> Forall (item B) l -> mean_ok B (k + length l) (S + psum l) (W + wsum l) (fst (mean_run l a m)) (snd (mean_run l a m)).
Proof.
  intros B l. induction l as [|(p, w) l IH]; intros k S W a m HB HK OK F; cbn [mean_run psum wsum length] in *.
  - rewrite Nat.add_0_r, !Rplus_0_r. exact OK.
  - inversion F; subst. replace (S + (FR w * FR p + psum l)) with (S + FR w * FR p + psum l) by ring. replace (W + (FR w + wsum l)) with (W + FR w + wsum l) by ring.
    replace (k + Datatypes.S (length l))%nat with (Datatypes.S k + length l)%nat by lia. apply IH; auto; [lia|]. apply mean_next; auto. lia.
Qed.
(** started from zero *)
Lemma mean_zero : forall B l, bpow radix2 (-40) <= B <= bpow radix2 20 -> (Z.of_nat (length l) <= 2 ^ 16)%Z -> Forall (item B) l ->
  let '(a, m) := mean_run l f0 f0 in
  Rabs (FR m - wsum l) <= INR (length l) * bpow radix2 (-23) * wsum l /\
  Rabs (FR a * wsum l - psum l) <= INR (length l) * bpow radix2 (-21) * B * wsum l.
Proof.
  intros B l HB HK F. destruct (mean_run l f0 f0) as (a, m) eqn:E.
  assert (B0 : 0 < B) by (pose proof (bpow_gt_0 radix2 (-40)); lra).
  assert (I : mean_ok B 0 0 0 f0 f0).
  { assert (Z : FR f0 = 0) by reflexivity. constructor; try reflexivity; rewrite ?Z; cbn [INR]; rewrite ?Rabs_R0; try lra; rewrite ?Rmult_0_l, ?Rminus_0_r, ?Rabs_R0; lra. }
  destruct (mean_all B l 0 0 0 f0 f0 HB HK I F) as [Fa Fm M0 AB (W0 & W1) S1 E1 E2]. rewrite E in *. cbn [fst snd] in *. rewrite Nat.add_0_l, !Rplus_0_l in *.
  pose proof u_eq as U. assert (U0 : 0 < u32r) by (rewrite U; lra).
  assert (K0 : 0 <= INR (length l) <= 65536). { split; [apply pos_INR|]. rewrite INR_IZR_INZ. apply IZR_le. lia. }
  assert (E23 : bpow radix2 (-23) = 2 * u32r) by (rewrite U; cbn; lra). assert (E21 : bpow radix2 (-21) = 8 * u32r) by (rewrite U; cbn; lra).
  rewrite E23, E21. split; [exact E1|].
  assert (KU : INR (length l) * (2 * u32r) * wsum l <= / 128 * wsum l) by (apply Rmult_le_compat_r; [lra|rewrite U; lra]).
  assert (MW : FR m <= 129 / 128 * wsum l) by (apply Rabs_le_inv in E1; lra).
  replace (FR a * wsum l - psum l) with ((FR a * FR m - psum l) - FR a * (FR m - wsum l)) by ring. eapply Rle_trans; [apply Rabs_triang|]. rewrite Rabs_Ropp, Rabs_mult.
  assert (X1 : INR (length l) * (5 * u32r) * B * FR m <= INR (length l) * (5 * u32r) * B * (129 / 128 * wsum l)) by (apply Rmult_le_compat_l; [apply Rmult_le_pos; [apply Rmult_le_pos; lra|lra]|lra]).
  assert (X2 : Rabs (FR a) * Rabs (FR m - wsum l) <= 17 / 16 * B * (INR (length l) * (2 * u32r) * wsum l)) by (apply Rmult_le_compat; auto using Rabs_pos).
  assert (X3 : 0 <= INR (length l) * u32r * B * wsum l) by (apply Rmult_le_pos; [apply Rmult_le_pos; [apply Rmult_le_pos; lra|lra]|lra]).
  replace (INR (length l) * (5 * u32r) * B * (129 / 128 * wsum l)) with (645 / 128 * (INR (length l) * u32r * B * wsum l)) in X1 by field.
  replace (17 / 16 * B * (INR (length l) * (2 * u32r) * wsum l)) with (17 / 8 * (INR (length l) * u32r * B * wsum l)) in X2 by field.
  replace (INR (length l) * (8 * u32r) * B * wsum l) with (8 * (INR (length l) * u32r * B * wsum l)) by ring. lra.
Qed.
