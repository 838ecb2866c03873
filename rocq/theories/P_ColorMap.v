(** C80: colour maps. *)
From Coq Require Import ZArith List Bool Reals Lra Lia.
From Flocq Require Import Core.
From Verif Require Import F32 F32_lemmas F32_err Voxel Neighbor_proofs ColorMap ColorMap_spec ColorMap_proofs.
From Verif Require P_Sphere.
Import ListNotations.
Open Scope R_scope.

(** C80. Every finite number has a rainbow colour: opaque, fully saturated, and that of
    its fraction on the colour circle up to one step per channel. *)
Theorem C80_rainbow : forall h, dfin h = true -> exists c, rainbowColorMap h = Some c /\ saturated c /\ color_ok c /\
  shows (1 + / 10000) c (red (6 * frac (DR h))) (green (6 * frac (DR h))) (blue (6 * frac (DR h))).
Proof. exact rainbow_spec. Qed.
Print Assumptions C80_rainbow.

Lemma turn : forall x, 0 <= x <= 1 -> red (6 * frac x) = red (6 * x) /\ green (6 * frac x) = green (6 * x) /\ blue (6 * frac x) = blue (6 * x).
Proof.
  intros x H. destruct (Req_dec x 1) as [-> | N].
  - unfold frac. change 1 with (IZR 1) at 2 5 8. rewrite !Zfloor_IZR. unfold red, green, blue.
    replace (6 * (1 - 1)) with 0 by ring. rewrite !(Rabs_left (0 - _)) by lra. rewrite !Rabs_pos_eq by lra.
    rewrite !(ramp_high (- (0 - 3) - 1)), !(ramp_high (6 * 1 - 3 - 1)), !ramp_low by lra. repeat split.
  - unfold frac. rewrite (Zfloor_imp 0) by (cbn [Z.add]; lra). rewrite Rminus_0_r. repeat split.
Qed.
(** C80. With a usable range, every value (also an infinite one or one that is no
    number) has a colour in every map, the one of its place in the range; smaller
    numbers are as for the lower end, larger as for the upper end. *)
Theorem C80_gray : forall lo hi v, span lo hi ->
  (exists z, grayscale lo hi v = Some (MkColor z z z 255) /\ (0 <= z <= 255)%Z /\ about (/ 2 + / 1000) z (share lo hi v) /\
     (share lo hi v = 0 -> z = 0%Z) /\ (share lo hi v = 1 -> z = 255%Z)) /\
  (exists z, inverse_grayscale lo hi v = Some (MkColor z z z 255) /\ (0 <= z <= 255)%Z /\ about (/ 2 + / 1000) z (1 - share lo hi v) /\
     (share lo hi v = 0 -> z = 255%Z) /\ (share lo hi v = 1 -> z = 0%Z)).
Proof.
  intros lo hi v S. destruct (scaled_spec lo hi S v) as (F & R & N). destruct (scaled_ends lo hi S v) as (E0 & E1). destruct (f64_of_f32_R _ F) as (ED & FD).
  unfold grayscale, inverse_grayscale. set (n := scaled lo hi v) in *.
  destruct (gray_spec (f64_of_f32 n) FD ltac:(lra)) as (z & EZ & RZ & _ & NZ). rewrite ED in NZ.
  destruct (one_minus (f64_of_f32 n) FD ltac:(lra)) as (FO & RO & NO).
  destruct (gray_spec (dsub d1 (f64_of_f32 n)) FO RO) as (w & EW & RW & _ & NW). rewrite ED in NO.
  apply Rabs_le_inv in N. apply Rabs_le_inv in NZ. apply Rabs_le_inv in NO. apply Rabs_le_inv in NW. unfold about.
  split; [exists z | exists w]; (split; [assumption|]); (split; [assumption|]); (split; [apply Rabs_le; lra|]).
  - split; intros H; [rewrite (E0 H) in NZ | rewrite (E1 H) in NZ].
    + assert (z < 1)%Z by (apply lt_IZR; lra). lia.
    + assert (254 < z)%Z by (apply lt_IZR; lra). lia.
  - split; intros H; [rewrite (E0 H) in NO | rewrite (E1 H) in NO].
    + assert (254 < w)%Z by (apply lt_IZR; lra). lia.
    + assert (w < 1)%Z by (apply lt_IZR; lra). lia.
Qed.
Print Assumptions C80_gray.
(** C80. Larger values are not darker, and with the inverse map not brighter. *)
Theorem C80_monotone : forall lo hi v w, span lo hi -> share lo hi v <= share lo hi w ->
  (forall y z, grayscale lo hi v = Some (MkColor y y y 255) -> grayscale lo hi w = Some (MkColor z z z 255) -> (y <= z)%Z) /\
  (forall y z, inverse_grayscale lo hi v = Some (MkColor y y y 255) -> inverse_grayscale lo hi w = Some (MkColor z z z 255) -> (z <= y)%Z).
Proof.
  intros lo hi v w S H. pose proof (scaled_mono lo hi S v w H) as M. destruct (scaled_spec lo hi S v) as (F & R & _). destruct (scaled_spec lo hi S w) as (G & Q & _).
  destruct (f64_of_f32_R _ F) as (ED & FD). destruct (f64_of_f32_R _ G) as (EG & FG).
  destruct (one_minus _ FD ltac:(rewrite ED; lra)) as (FO & RO & _). destruct (one_minus _ FG ltac:(rewrite EG; lra)) as (GO & QO & _).
  split; intros y z EY EZ.
  - eapply gray_mono; [exact FD|exact FG|lra|lra|exact EY|exact EZ].
  - eapply gray_mono; [exact GO|exact FO| |lra|exact EZ|exact EY]. split; [lra|]. destruct d1_R as (E1 & F1).
    destruct (dsub_R d1 _ F1 FD) as (A & _); [apply small64; rewrite E1; apply Rabs_le; lra|]. destruct (dsub_R d1 _ F1 FG) as (B & _); [apply small64; rewrite E1; apply Rabs_le; lra|].
    rewrite A, B. apply rnd64_le. lra.
Qed.
Print Assumptions C80_monotone.
Theorem C80_hue : forall lo hi v, span lo hi ->
  (exists c, rainbow lo hi v = Some c /\ saturated c /\ color_ok c /\ shows (1 + / 100) c (red (6 * share lo hi v)) (green (6 * share lo hi v)) (blue (6 * share lo hi v))) /\
  (exists c, inverse_rainbow lo hi v = Some c /\ saturated c /\ color_ok c /\ shows (1 + / 100) c (red (6 * (1 - share lo hi v))) (green (6 * (1 - share lo hi v))) (blue (6 * (1 - share lo hi v)))).
Proof.
  intros lo hi v S. destruct (scaled_spec lo hi S v) as (F & R & N). destruct (f64_of_f32_R _ F) as (ED & FD). unfold rainbow, inverse_rainbow. set (n := scaled lo hi v) in *.
  destruct (one_minus (f64_of_f32 n) FD ltac:(lra)) as (FO & RO & NO). rewrite ED in NO.
  assert (G : forall d x, dfin d = true -> 0 <= DR d <= 1 -> Rabs (DR d - x) <= / 500000 ->
     exists c, rainbowColorMap d = Some c /\ saturated c /\ color_ok c /\ shows (1 + / 100) c (red (6 * x)) (green (6 * x)) (blue (6 * x))).
  { intros d x Fd Rd Nd. destruct (rainbow_spec d Fd) as (c & A & B & C & (D & E1 & E2 & E3)). exists c. split; [exact A|]. split; [exact B|]. split; [exact C|]. split; [exact D|].
    destruct (turn (DR d) Rd) as (T1 & T2 & T3). rewrite T1 in E1. rewrite T2 in E2. rewrite T3 in E3. unfold about in *.
    pose proof (red_lip (6 * DR d) (6 * x)) as L1. pose proof (green_lip (6 * DR d) (6 * x)) as L2. pose proof (blue_lip (6 * DR d) (6 * x)) as L3.
    assert (AL : Rabs (6 * DR d - 6 * x) <= / 80000). { apply Rabs_le_inv in Nd. apply Rabs_le. lra. }
    assert (X : forall z u w, Rabs (IZR z - 255 * u) <= 1 + / 10000 -> Rabs (u - w) <= / 80000 -> Rabs (IZR z - 255 * w) <= 1 + / 100).
    { intros z u w P Q. apply Rabs_le_inv in P. apply Rabs_le_inv in Q. apply Rabs_le. lra. }
    split; [|split]; (eapply X; [eassumption|]); eapply Rle_trans; eassumption. }
  split; apply G; auto; try lra.
  - rewrite ED. apply Rabs_le_inv in N. apply Rabs_le. lra.
  - apply Rabs_le_inv in N. apply Rabs_le_inv in NO. apply Rabs_le. lra.
Qed.
Print Assumptions C80_hue.
Theorem C80_ironbow : forall lo hi v, span lo hi -> exists c, ironbow lo hi v = Some c /\ color_ok c /\
  shows (/ 2 + / 40) c (through 0 145 255 255 255 (share lo hi v) / 255) (through 0 20 138 230 255 (share lo hi v) / 255) (through 0 145 0 40 255 (share lo hi v) / 255).
Proof. exact ironbow_spec. Qed.
Print Assumptions C80_ironbow.

(** a range, and colours in it *)
Lemma span_02 : span f0 (f32_of_Z 2).
Proof. destruct (f32_of_Z_R 2 ltac:(lia)) as (E & F). unfold span. rewrite E, F. change (FR f0) with 0. split; [reflexivity|]. split; [reflexivity|]. split; [lra|]. change 2 with (bpow radix2 1). rewrite Rminus_0_r. apply bpow_le. lia. Qed.
Example colours_02 :
  grayscale f0 (f32_of_Z 2) f1 = Some (MkColor 128 128 128 255) /\ grayscale f0 (f32_of_Z 2) nan32 = Some (MkColor 0 0 0 255) /\ grayscale f0 (f32_of_Z 2) finf = Some (MkColor 255 255 255 255) /\
  rainbow f0 (f32_of_Z 2) f1 = Some (MkColor 0 255 255 255) /\ inverse_rainbow f0 (f32_of_Z 2) f0 = Some (MkColor 255 0 0 255) /\
  ironbow f0 (f32_of_Z 2) f1 = Some (MkColor 255 138 0 255) /\ ironbow f0 (f32_of_Z 2) (f32_of_Z 7) = Some (MkColor 255 255 255 255).
Proof. vm_compute. repeat split. Qed.

(** Not so: an empty range is harmless. The value scaled by it is no number, and casting
    that to a byte is undefined. *)
Theorem C80_empty_range_refuted : forall v, ffin v = true -> grayscale v v v = None.
Proof.
  intros v F. unfold grayscale, scaled. assert (E : fmin v (fmax v v) = v) by (assert (M : fmax v v = v) by (unfold fmax; destruct (flt v v); reflexivity); rewrite M; unfold fmin; destruct (flt v v); reflexivity). rewrite E.
  assert (N : fnan (fdiv (fsub v v) (fsub v v)) = true).
  { destruct (fsub_R v v F F) as (A & B); [rewrite Rminus_diag_eq, rnd32_0, Rabs_R0 by reflexivity; apply max32_pos|]. rewrite Rminus_diag_eq, rnd32_0 in A by reflexivity.
    destruct (fsub v v) as [s|s|s p Hp|s m e He]; try discriminate B; [reflexivity|]. exfalso. unfold FR in A. cbn in A. apply eq_0_F2R in A. destruct s; discriminate A. }
  destruct (fdiv (fsub v v) (fsub v v)); try discriminate N. reflexivity.
Qed.
Print Assumptions C80_empty_range_refuted.
(** Not so: different ids have different colours. *)
Theorem C80_ids_refuted : irrational_id irrational_base 0 = irrational_id irrational_base 1065 /\ irrational_id irrational_base 0 = Some (MkColor 255 0 0 255).
Proof. vm_compute. split; reflexivity. Qed.
Print Assumptions C80_ids_refuted.
