(** Proofs about displayed meshes. *)
From Coq Require Import ZArith Reals List Bool Lia Lra.
From Flocq Require Import Core.
From Verif Require Import F32 F32_lemmas F32_err Types Index Voxel Assoc Layer Update Ray Marching MeshInt MeshMsg
  ColorMap ColorMap_spec ColorMap_proofs P_ColorMap MeshVis MeshVis_spec.
Import ListNotations.
Open Scope R_scope.

Definition dl : R := / 2000000.
Lemma rnd32_near : forall x, Rabs x <= 8 -> Rabs (rnd32 x - x) <= dl.
Proof.
  intros x H. assert (exists d e, Rabs d <= u32r /\ Rabs e <= t32r /\ rnd32 x = x * (1 + d) + e) as (d & e & D & E & ->) by apply rnd32_err.
  replace (x * (1 + d) + e - x) with (x * d + e) by ring.
  eapply Rle_trans; [apply Rabs_triang|]. rewrite Rabs_mult. pose proof t32r_small. pose proof (Rabs_pos d). pose proof (Rabs_pos x).
  assert (Rabs x * Rabs d <= 8 * u32r) by (apply Rmult_le_compat; auto). unfold u32r, dl in *. lra.
Qed.
Lemma small4 : forall x, Rabs x <= 8 -> Rabs (rnd32 x) < max32.
Proof. intros x H. apply rnd32_small. eapply Rle_trans; [exact H|]. change 8 with (bpow radix2 3). apply bpow_le. lia. Qed.
Lemma mul_near : forall a b, ffin a = true -> ffin b = true -> Rabs (FR a * FR b) <= 8 ->
  ffin (fmul a b) = true /\ Rabs (FR (fmul a b) - FR a * FR b) <= dl.
Proof. intros a b A B H. destruct (fmul_R a b A B (small4 _ H)) as (-> & F). split; [exact F|]. apply rnd32_near; auto. Qed.
Lemma add_near : forall a b, ffin a = true -> ffin b = true -> Rabs (FR a + FR b) <= 8 ->
  ffin (fadd a b) = true /\ Rabs (FR (fadd a b) - (FR a + FR b)) <= dl.
Proof. intros a b A B H. destruct (fadd_R a b A B (small4 _ H)) as (-> & F). split; [exact F|]. apply rnd32_near; auto. Qed.
Lemma rnd32_01 : forall x, 0 <= x <= 1 -> 0 <= rnd32 x <= 1.
Proof.
  intros x (A & B). split.
  - rewrite <- rnd32_0. apply rnd32_le. lra.
  - replace 1 with (rnd32 1); [apply rnd32_le; lra|]. pose proof (rnd32_exact 1 0 ltac:(cbn; lia) ltac:(lia)) as H. cbn [bpow] in H. rewrite Rmult_1_r in H. exact H.
Qed.
Lemma chan_near : forall z, (0 <= z <= 255)%Z -> ffin (channel_msg z) = true /\
  Rabs (FR (channel_msg z) - IZR z / 255) <= 2 * dl /\ 0 <= FR (channel_msg z) <= 1.
Proof.
  intros z Hz. assert (Z0 : 0 <= IZR z) by (apply IZR_le; lia). assert (Z1 : IZR z <= 255) by (apply IZR_le; lia).
  destruct (f64_of_Z_R z ltac:(lia)) as (E1 & F1). destruct (f64_of_Z_R 255 ltac:(lia)) as (E2 & F2).
  assert (Q : 0 <= IZR z / 255 <= 1) by (split; [apply Rmult_le_pos; lra|apply (Rmult_le_reg_r 255); [lra|]; unfold Rdiv; rewrite Rmult_assoc, Rinv_l; lra]).
  assert (A : Rabs (IZR z / 255) <= 512) by (rewrite Rabs_pos_eq; lra).
  destruct (ddiv_R (f64_of_Z z) (f64_of_Z 255) F1) as (E3 & F3); rewrite ?E1, ?E2 in *; [lra|apply small64, A|].
  pose proof (rnd64_near _ A) as N. pose proof (rnd64_in (IZR z / 255) 0 1 ltac:(lia) ltac:(lia) Q) as R.
  unfold channel_msg. set (q := ddiv _ _) in *. rewrite <- E3 in N, R.
  assert (A4 : Rabs (DR q) <= 8) by (rewrite Rabs_pos_eq; lra).
  destruct (f32_of_f64_R q F3 (small4 _ A4)) as (E4 & F4). split; [exact F4|]. rewrite E4.
  pose proof (rnd32_near _ A4) as M. split; [|apply rnd32_01; exact R].
  apply Rabs_le. apply Rabs_le_inv in N. apply Rabs_le_inv in M. unfold dl in *. lra.
Qed.

(** ** the lights *)
Lemma fbits_same : forall x k, fword x = fword (fbits k) -> x = fbits k.
Proof.
  intros x k H. unfold fword in H. apply (f_equal IEEE754.Bits.b32_of_bits) in H. unfold IEEE754.Bits.b32_of_bits, IEEE754.Bits.bits_of_b32 in H.
  rewrite !IEEE754.Bits.binary_float_of_bits_of_binary_float in H. exact H.
Qed.
Definition close (x : f32) (r : R) : Prop := ffin x = true /\ Rabs (FR x - r) <= / 1000000 /\ Rabs (FR x) <= 1.
Lemma between : forall lo hi s k, 0 < lo -> lo <= s <= hi -> 0 <= k -> k / hi <= k / s <= k / lo.
Proof.
  intros lo hi s k L (A & B) K. unfold Rdiv. split; apply Rmult_le_compat_l; auto; apply Rinv_le; lra.
Qed.
Lemma root1 : 1.0816653 <= sqrt (117 / 100) <= 1.0816654.
Proof.
  split.
  - rewrite <- (sqrt_square 1.0816653) by lra. apply sqrt_le_1_alt. lra.
  - rewrite <- (sqrt_square 1.0816654) by lra. apply sqrt_le_1_alt. lra.
Qed.
Lemma root2 : 0.5744562 <= sqrt (33 / 100) <= 0.5744563.
Proof.
  split.
  - rewrite <- (sqrt_square 0.5744562) by lra. apply sqrt_le_1_alt. lra.
  - rewrite <- (sqrt_square 0.5744563) by lra. apply sqrt_le_1_alt. lra.
Qed.

Ltac lights k m e := 
  match goal with |- close ?x _ => replace x with (fbits k) by (symmetry; apply fbits_same; vm_compute; reflexivity) end;
  assert (E : FR (fbits k) = (IZR m * bpow radix2 e)%R) by reflexivity;
  split; [reflexivity|]; rewrite E; change (bpow radix2 (-24)) with (/ 16777216); change (bpow radix2 (-25)) with (/ 33554432); change (bpow radix2 (-26)) with (/ 67108864).
Lemma light1_ok : close (vx light_dir) (vx light1) /\ close (vy light_dir) (vy light1) /\ close (vz light_dir) (vz light1).
Proof.
  pose proof root1 as H. unfold light1. cbn [vx vy vz]. set (s := sqrt (117 / 100)) in *.
  pose proof (between 1.0816653 1.0816654 s (8 / 10) ltac:(lra) H ltac:(lra)) as A. pose proof (between 1.0816653 1.0816654 s (2 / 10) ltac:(lra) H ltac:(lra)) as B.
  pose proof (between 1.0816653 1.0816654 s (7 / 10) ltac:(lra) H ltac:(lra)) as C.
  replace (- (2 / 10) / s) with (- (2 / 10 / s)) by (unfold Rdiv; ring).
  split; [|split].
  - lights 0x3f3d5671%Z 12408433%Z (-24)%Z. split; apply Rabs_le; lra.
  - lights 0xbe3d5671%Z (-12408433)%Z (-26)%Z. split; apply Rabs_le; lra.
  - lights 0x3f25aba3%Z 10857379%Z (-24)%Z. split; apply Rabs_le; lra.
Qed.
Lemma light2_ok : close (vx light_dir2) (vx light2) /\ close (vy light_dir2) (vy light2) /\ close (vz light_dir2) (vz light2).
Proof.
  pose proof root2 as H. unfold light2. cbn [vx vy vz]. set (s := sqrt (33 / 100)) in *.
  pose proof (between 0.5744562 0.5744563 s (5 / 10) ltac:(lra) H ltac:(lra)) as A. pose proof (between 0.5744562 0.5744563 s (2 / 10) ltac:(lra) H ltac:(lra)) as B.
  replace (- (5 / 10) / s) with (- (5 / 10 / s)) by (unfold Rdiv; ring).
  split; [|split].
  - lights 0xbf5ed1c4%Z (-14602692)%Z (-24)%Z. split; apply Rabs_le; lra.
  - lights 0x3eb2416a%Z 11682154%Z (-25)%Z. split; apply Rabs_le; lra.
  - lights 0x3eb2416a%Z 11682154%Z (-25)%Z. split; apply Rabs_le; lra.
Qed.

(** ** shading *)
Lemma term_near : forall x l r, ffin x = true -> Rabs (FR x) <= 1 + / 1000 -> close l r ->
  ffin (fmul x l) = true /\ Rabs (FR (fmul x l) - FR x * r) <= dl + 2 / 1000000 /\ Rabs (FR (fmul x l)) <= 1.01.
Proof.
  intros x l r Fx Bx (Fl & Cl & Bl).
  assert (P : Rabs (FR x * FR l) <= 1 + / 1000).
  { rewrite Rabs_mult. replace (1 + / 1000) with ((1 + / 1000) * 1) by ring. apply Rmult_le_compat; auto using Rabs_pos. }
  destruct (mul_near x l Fx Fl ltac:(lra)) as (F & E). split; [exact F|].
  assert (D : Rabs (FR x * FR l - FR x * r) <= 2 / 1000000).
  { replace (FR x * FR l - FR x * r) with (FR x * (FR l - r)) by ring. rewrite Rabs_mult. pose proof (Rabs_pos (FR x)). pose proof (Rabs_pos (FR l - r)). nra. }
  apply Rabs_le_inv in E. apply Rabs_le_inv in D. apply Rabs_le_inv in P. unfold dl in *. split; apply Rabs_le; lra.
Qed.
Lemma dot_near : forall d l r, unit_normal d -> close (vx l) (vx r) -> close (vy l) (vy r) -> close (vz l) (vz r) ->
  ffin (dot3 d l) = true /\
  Rabs (FR (dot3 d l) - (FR (vx d) * vx r + FR (vy d) * vy r + FR (vz d) * vz r)) <= / 100000 /\ Rabs (FR (dot3 d l)) <= 3.2.
Proof.
  intros d l r ((A1 & A2) & (B1 & B2) & (C1 & C2)) Lx Ly Lz. unfold dot3.
  destruct (term_near _ _ _ A1 A2 Lx) as (F1 & E1 & N1). destruct (term_near _ _ _ B1 B2 Ly) as (F2 & E2 & N2). destruct (term_near _ _ _ C1 C2 Lz) as (F3 & E3 & N3).
  set (p := fmul (vx d) _) in *. set (q := fmul (vy d) _) in *. set (w := fmul (vz d) _) in *.
  apply Rabs_le_inv in E1, E2, E3, N1, N2, N3.
  destruct (add_near q w F2 F3 ltac:(apply Rabs_le; lra)) as (F4 & E4). apply Rabs_le_inv in E4. unfold dl in *.
  destruct (add_near p _ F1 F4 ltac:(apply Rabs_le; lra)) as (F5 & E5). apply Rabs_le_inv in E5. unfold dl in *.
  split; [exact F5|]. split; apply Rabs_le; lra.
Qed.
Lemma lit_near : forall d l r, unit_normal d -> close (vx l) (vx r) -> close (vy l) (vy r) -> close (vz l) (vz r) ->
  ffin (fmax (dot3 d l) f0) = true /\ Rabs (FR (fmax (dot3 d l) f0) - lit d r) <= / 100000 /\
  0 <= FR (fmax (dot3 d l) f0) <= 3.2 .
Proof.
  intros d l r U A B C. destruct (dot_near d l r U A B C) as (F & E & N). unfold lit, fmax.
  pose proof (flt_R (dot3 d l) f0 F eq_refl) as K. change (FR f0) with 0 in K.
  set (t := FR (vx d) * vx r + FR (vy d) * vy r + FR (vz d) * vz r) in *. apply Rabs_le_inv in E, N.
  unfold Rmax. destruct (Rle_dec 0 t) as [T|T]; destruct (flt (dot3 d l) f0).
  - assert (FR (dot3 d l) < 0) by (apply K; reflexivity). change (FR f0) with 0. split; [reflexivity|]. split; [apply Rabs_le|]; lra.
  - assert (~ FR (dot3 d l) < 0) by (intros H; apply K in H; discriminate H). split; [exact F|]. split; [apply Rabs_le|]; lra.
  - change (FR f0) with 0. split; [reflexivity|]. split; [apply Rabs_le|]; lra.
  - assert (~ FR (dot3 d l) < 0) by (intros H; apply K in H; discriminate H). split; [exact F|]. split; [apply Rabs_le|]; lra.
Qed.
Lemma amb : FR ambient = (IZR 13421773 * bpow radix2 (-26))%R.
Proof. reflexivity. Qed.
Lemma one_R : FR f1 = 1. Proof. apply (f32_of_Z_R 1). lia. Qed.
Lemma min1_near : forall x r e, ffin x = true -> Rabs (FR x - r) <= e -> 0 <= FR x ->
  ffin (fmin x f1) = true /\ Rabs (FR (fmin x f1) - Rmin 1 r) <= e /\ 0 <= FR (fmin x f1) <= 1.
Proof.
  intros x r e F E P. unfold fmin. pose proof (flt_R f1 x eq_refl F) as K. rewrite one_R in K. apply Rabs_le_inv in E.
  unfold Rmin. destruct (flt f1 x); destruct (Rle_dec 1 r).
  - assert (1 < FR x) by (apply K; reflexivity). rewrite one_R. split; [reflexivity|]. split; [apply Rabs_le|]; lra.
  - assert (1 < FR x) by (apply K; reflexivity). rewrite one_R. split; [reflexivity|]. split; [apply Rabs_le|]; lra.
  - assert (~ 1 < FR x) by (intros H; apply K in H; discriminate H). split; [exact F|]. split; [apply Rabs_le|]; lra.
  - assert (~ 1 < FR x) by (intros H; apply K in H; discriminate H). split; [exact F|]. split; [apply Rabs_le|]; lra.
Qed.
Lemma lit_le : forall d r, unit_normal d -> Rabs (vx r) + Rabs (vy r) + Rabs (vz r) <= 1.6 -> 0 <= lit d r <= 1.7.
Proof.
  intros d r ((_ & A) & (_ & B) & (_ & C)) S. unfold lit.
  assert (T : FR (vx d) * vx r + FR (vy d) * vy r + FR (vz d) * vz r <= 1.7).
  { assert (G : forall x y, Rabs x <= 1 + / 1000 -> x * y <= (1 + / 1000) * Rabs y).
    { intros x y H. eapply Rle_trans; [apply Rle_abs|]. rewrite Rabs_mult. apply Rmult_le_compat_r; auto using Rabs_pos. }
    pose proof (G _ (vx r) A). pose proof (G _ (vy r) B). pose proof (G _ (vz r) C). lra. }
  unfold Rmax. destruct (Rle_dec _ _); lra.
Qed.
Lemma lights_le : (Rabs (vx light1) + Rabs (vy light1) + Rabs (vz light1) <= 1.6) /\ (Rabs (vx light2) + Rabs (vy light2) + Rabs (vz light2) <= 1.6).
Proof.
  unfold light1, light2. cbn [vx vy vz]. pose proof root1 as H1. pose proof root2 as H2.
  set (s := sqrt (117 / 100)) in *. set (t := sqrt (33 / 100)) in *.
  pose proof (between 1.0816653 1.0816654 s (8 / 10) ltac:(lra) H1 ltac:(lra)). pose proof (between 1.0816653 1.0816654 s (2 / 10) ltac:(lra) H1 ltac:(lra)).
  pose proof (between 1.0816653 1.0816654 s (7 / 10) ltac:(lra) H1 ltac:(lra)).
  pose proof (between 0.5744562 0.5744563 t (5 / 10) ltac:(lra) H2 ltac:(lra)). pose proof (between 0.5744562 0.5744563 t (2 / 10) ltac:(lra) H2 ltac:(lra)).
  replace (- (2 / 10) / s) with (- (2 / 10 / s)) by (unfold Rdiv; ring). replace (- (5 / 10) / t) with (- (5 / 10 / t)) by (unfold Rdiv; ring).
  rewrite !Rabs_Ropp. rewrite !Rabs_pos_eq by lra. split; lra.
Qed.
Lemma scale_near : forall f L ch c, ffin f = true -> ffin ch = true -> Rabs (FR f - L) <= / 100000 -> 0 <= L <= 1.7 -> 0 <= FR f ->
  Rabs (FR ch - c) <= 2 * dl -> 0 <= FR ch <= 1 -> 0 <= c <= 1 ->
  ffin (fmul f ch) = true /\ Rabs (FR (fmul f ch) - c * L) <= 2 / 100000 /\ 0 <= FR (fmul f ch) <= 1.8.
Proof.
  intros f L ch c Ff Fc Ef HL Pf Ec Hc H1.
  assert (P : 0 <= FR f * FR ch <= 1.75) by (apply Rabs_le_inv in Ef; split; [apply Rmult_le_pos; lra|nra]).
  destruct (mul_near f ch Ff Fc ltac:(rewrite Rabs_pos_eq; lra)) as (F & E). split; [exact F|].
  assert (D : Rabs (FR f * FR ch - c * L) <= / 100000 + 4 * dl).
  { replace (FR f * FR ch - c * L) with ((FR f - L) * FR ch + (FR ch - c) * L) by ring.
    eapply Rle_trans; [apply Rabs_triang|]. rewrite !Rabs_mult, (Rabs_pos_eq (FR ch)), (Rabs_pos_eq L) by lra.
    pose proof (Rabs_pos (FR f - L)). pose proof (Rabs_pos (FR ch - c)). unfold dl in *. nra. }
  assert (N : 0 <= FR (fmul f ch)).
  { destruct (fmul_R f ch Ff Fc) as (-> & _); [apply small4; rewrite Rabs_pos_eq; lra|]. rewrite <- rnd32_0. apply rnd32_le. lra. }
  apply Rabs_le_inv in E, D. unfold dl in *. split; [apply Rabs_le; lra|]. lra.
Qed.
Lemma shade_near : forall d ch c, unit_normal d -> ffin ch = true ->
  Rabs (FR ch - c) <= 2 * dl -> 0 <= FR ch <= 1 -> 0 <= c <= 1 ->
  let x := fmin (fadd (fadd (fmul (fmax (dot3 d light_dir) f0) ch) (fmul (fmax (dot3 d light_dir2) f0) ch)) ambient) f1 in
  ffin x = true /\ Rabs (FR x - shade c d) <= / 10000 /\ 0 <= FR x <= 1.
Proof.
  intros d ch c U Fc Ec Hc H1 x. unfold x, shade. clear x.
  destruct light1_ok as (A1 & A2 & A3). destruct light2_ok as (B1 & B2 & B3). destruct lights_le as (L1 & L2).
  destruct (lit_near d _ _ U A1 A2 A3) as (F1 & E1 & R1). destruct (lit_near d _ _ U B1 B2 B3) as (F2 & E2 & R2).
  destruct (scale_near _ _ ch c F1 Fc E1 (lit_le d light1 U L1) ltac:(lra) Ec Hc H1) as (G1 & D1 & S1).
  destruct (scale_near _ _ ch c F2 Fc E2 (lit_le d light2 U L2) ltac:(lra) Ec Hc H1) as (G2 & D2 & S2).
  set (p := fmul (fmax (dot3 d light_dir) f0) ch) in *. set (q := fmul (fmax (dot3 d light_dir2) f0) ch) in *.
  assert (AM : Rabs (FR ambient - / 5) <= / 10000000 /\ ffin ambient = true).
  { split; [|reflexivity]. rewrite amb. change (bpow radix2 (-26)) with (/ 67108864). apply Rabs_le; lra. }
  destruct AM as (AM & FA). apply Rabs_le_inv in D1, D2, AM.
  destruct (add_near p q G1 G2 ltac:(apply Rabs_le; lra)) as (F3 & E3). apply Rabs_le_inv in E3. unfold dl in *.
  destruct (add_near (fadd p q) ambient F3 FA ltac:(apply Rabs_le; lra)) as (F4 & E4). apply Rabs_le_inv in E4. unfold dl in *.
  apply min1_near; [exact F4|apply Rabs_le; lra|]. lra.
Qed.

(** ** normals *)
Lemma half_R : DR dhalf = / 2 /\ dfin dhalf = true.
Proof. split; [|reflexivity]. change (DR dhalf) with (IZR 4503599627370496 * bpow radix2 (-53)). change (bpow radix2 (-53)) with (/ 9007199254740992). lra. Qed.
Lemma normal_near : forall x, ffin x = true -> Rabs (FR x) <= 1 + / 1000 ->
  let y := f32_of_f64 (dadd (dmul (f64_of_f32 x) dhalf) dhalf) in
  ffin y = true /\ Rabs (FR y - (FR x + 1) / 2) <= / 10000 /\ - / 1000 <= FR y <= 1 + / 1000.
Proof.
  intros x F B y. destruct (f64_of_f32_R x F) as (E1 & F1). destruct half_R as (E2 & F2). apply Rabs_le_inv in B.
  assert (A1 : Rabs (FR x * / 2) <= 512) by (apply Rabs_le; lra).
  destruct (dmul_R _ dhalf F1 F2) as (E3 & F3); rewrite ?E1, ?E2; [apply small64, A1|]. rewrite E1, E2 in E3.
  pose proof (rnd64_near _ A1) as N1. rewrite <- E3 in N1. apply Rabs_le_inv in N1.
  assert (A2 : Rabs (DR (dmul (f64_of_f32 x) dhalf) + / 2) <= 512) by (apply Rabs_le; lra).
  destruct (dadd_R _ dhalf F3 F2) as (E4 & F4); rewrite ?E2; [apply small64, A2|]. rewrite E2 in E4.
  pose proof (rnd64_near _ A2) as N2. rewrite <- E4 in N2. apply Rabs_le_inv in N2. unfold y.
  set (q := dadd _ _) in *. assert (A3 : Rabs (DR q) <= 8) by (apply Rabs_le; lra).
  destruct (f32_of_f64_R q F4 (small4 _ A3)) as (E5 & F5). split; [exact F5|].
  pose proof (rnd32_near _ A3) as N3. rewrite <- E5 in N3. apply Rabs_le_inv in N3. unfold dl in *. split; [apply Rabs_le|]; lra.
Qed.

(** ** heights *)
Lemma clamp_ramp : forall x, ffin x = true -> ffin (fmin (fmax x f0) f1) = true /\ FR (fmin (fmax x f0) f1) = ramp (FR x).
Proof.
  intros x F. assert (A : ffin (fmax x f0) = true /\ FR (fmax x f0) = Rmax 0 (FR x)).
  { unfold fmax. pose proof (flt_R x f0 F eq_refl) as K. change (FR f0) with 0 in K. unfold Rmax. destruct (flt x f0).
    - assert (FR x < 0) by (apply K; reflexivity). change (FR f0) with 0. split; [reflexivity|]. destruct (Rle_dec 0 (FR x)); lra.
    - assert (~ FR x < 0) by (intros H; apply K in H; discriminate H). split; [exact F|]. destruct (Rle_dec 0 (FR x)); lra. }
  destruct A as (G & E). destruct (min1_near (fmax x f0) (Rmax 0 (FR x)) 0 G) as (H & N & R).
  { rewrite E, Rminus_diag_eq, Rabs_R0 by reflexivity. lra. }
  { rewrite E. apply Rmax_l. }
  split; [exact H|]. apply Rabs_le_inv in N. unfold ramp.
  assert (Rmax 0 (Rmin 1 (FR x)) = Rmin 1 (Rmax 0 (FR x))) as ->; [|lra].
  unfold Rmax, Rmin. destruct (Rle_dec 0 (FR x)); destruct (Rle_dec 1 (FR x)); destruct (Rle_dec 1 0); destruct (Rle_dec 0 1); try lra; destruct (Rle_dec 0 (FR x)); lra.
Qed.
Lemma height_near : forall z, ffin z = true ->
  let t := fmin (fmax (f32_of_f64 (ddiv (dsub (f64_of_f32 z) (f64_of_Z (-1))) (dsub (f64_of_Z 10) (f64_of_Z (-1))))) f0) f1 in
  ffin t = true /\ Rabs (FR t - ramp ((FR z + 1) / 11)) <= / 1000000 /\ 0 <= FR t <= 1.
Proof.
  intros z F t. destruct (f64_of_f32_R z F) as (E1 & F1). destruct (f64_of_Z_R (-1) ltac:(lia)) as (E2 & F2).
  assert (E11 : DR (dsub (f64_of_Z 10) (f64_of_Z (-1))) = 11).
  { destruct (f64_of_Z_R 10 ltac:(lia)) as (E3 & F3). destruct (dsub_R _ _ F3 F2) as (E & _); rewrite E2, E3 in *.
    - apply small64. apply Rabs_le; lra.
    - rewrite E. replace (10 - -1) with (IZR 11) by lra. apply rnd64_Z. cbn; lia. }
  assert (MX : Rabs (FR z) < bpow radix2 128) by apply Binary.abs_B2R_lt_emax.
  assert (P128 : bpow radix2 129 = 2 * bpow radix2 128) by (change 129%Z with (1 + 128)%Z; rewrite bpow_plus; reflexivity).
  assert (P126 : bpow radix2 129 = 8 * bpow radix2 126) by (change 129%Z with (3 + 126)%Z; rewrite bpow_plus; reflexivity).
  assert (B1 : 1 <= bpow radix2 126) by (change 1 with (bpow radix2 0); apply bpow_le; lia).
  assert (A1 : Rabs (FR z - -1) <= bpow radix2 129).
  { apply Rabs_lt_inv in MX. apply Rabs_le. lra. }
  destruct (dsub_R _ _ F1 F2) as (E3 & F3); rewrite ?E1, ?E2.
  { apply rnd64_small. eapply Rle_trans; [exact A1|]. apply bpow_le. lia. }
  rewrite E1, E2 in E3. set (a := dsub (f64_of_f32 z) _) in *.
  assert (A2 : Rabs (DR a) <= bpow radix2 129).
  { rewrite E3, <- rnd64_abs. rewrite <- (Rmult_1_l (bpow radix2 129)). change 1 with (IZR 1). rewrite <- (rnd64_exact 1 129) by (cbn; lia). apply rnd64_le. cbn [Rmult]. rewrite Rmult_1_l. exact A1. }
  assert (A3 : Rabs (DR a / 11) <= bpow radix2 126).
  { unfold Rdiv. rewrite Rabs_mult, (Rabs_pos_eq (/ 11)) by lra. pose proof (Rabs_pos (DR a)). lra. }
  destruct (ddiv_R a (dsub (f64_of_Z 10) (f64_of_Z (-1))) F3) as (E4 & F4); rewrite ?E11; [lra| |].
  { apply rnd64_small. eapply Rle_trans; [exact A3|]. apply bpow_le. lia. }
  rewrite E11 in E4. unfold t. set (q := ddiv a _) in *.
  assert (A4 : Rabs (DR q) <= bpow radix2 127).
  { rewrite E4, <- rnd64_abs. apply Rle_trans with (bpow radix2 126); [|apply bpow_le; lia].
    rewrite <- (Rmult_1_l (bpow radix2 126)). change 1 with (IZR 1). rewrite <- (rnd64_exact 1 126) by (cbn; lia). apply rnd64_le. rewrite Rmult_1_l. exact A3. }
  destruct (f32_of_f64_R q F4 (rnd32_small _ A4)) as (E5 & F5).
  destruct (clamp_ramp _ F5) as (F6 & E6). split; [exact F6|]. rewrite E6. split; [|apply ramp_range]. rewrite E5.
  destruct (Rle_lt_dec (FR z + 1) (-1)) as [L|L]; [|destruct (Rle_lt_dec 12 (FR z + 1)) as [H|H]].
  - assert (DR a <= -1) by (rewrite E3; apply Rle_trans with (rnd64 (IZR (-1))); [apply rnd64_le; lra|rewrite rnd64_Z by (cbn; lia); lra]).
    assert (DR q <= 0) by (rewrite E4, <- rnd64_0; apply rnd64_le; lra).
    assert (rnd32 (DR q) <= 0) by (rewrite <- rnd32_0; apply rnd32_le; assumption).
    rewrite !ramp_low by lra. rewrite Rminus_diag_eq, Rabs_R0 by reflexivity. lra.
  - assert (12 <= DR a) by (rewrite E3; apply Rle_trans with (rnd64 (IZR 12)); [rewrite rnd64_Z by (cbn; lia); lra|apply rnd64_le; lra]).
    assert (1 <= DR q) by (rewrite E4; apply Rle_trans with (rnd64 (IZR 1)); [rewrite rnd64_Z by (cbn; lia); lra|apply rnd64_le; lra]).
    assert (1 <= rnd32 (DR q)).
    { pose proof (rnd32_exact 1 0 ltac:(cbn; lia) ltac:(lia)) as X. cbn [bpow] in X. rewrite Rmult_1_r in X. rewrite <- X at 1. apply rnd32_le. assumption. }
    rewrite !ramp_high by lra. rewrite Rminus_diag_eq, Rabs_R0 by reflexivity. lra.
  - assert (N1 : Rabs (DR a - (FR z - -1)) <= / 1000000000) by (rewrite E3; apply rnd64_near; apply Rabs_le; lra). apply Rabs_le_inv in N1.
    assert (N2 : Rabs (DR q - DR a / 11) <= / 1000000000) by (rewrite E4; apply rnd64_near; apply Rabs_le; lra). apply Rabs_le_inv in N2.
    assert (N3 : Rabs (rnd32 (DR q) - DR q) <= dl) by (apply rnd32_near; apply Rabs_le; lra). apply Rabs_le_inv in N3.
    eapply Rle_trans; [apply ramp_lip|]. unfold dl in *. apply Rabs_le. lra.
Qed.

(** ** bytes *)
Lemma back_ok : forall x, ffin x = true -> - / 500 <= FR x <= 1 + / 500 -> exists z, channel_back x = Some z /\ (0 <= z <= 255)%Z /\
  Rabs (IZR z - 255 * FR x) <= 1 + / 1000.
Proof.
  intros x F B. destruct (f64_of_f32_R x F) as (E1 & F1). destruct (f64_of_Z_R 255 ltac:(lia)) as (E2 & F2).
  assert (A : Rabs (FR x * 255) <= 512) by (apply Rabs_le; lra).
  destruct (dmul_R _ _ F1 F2) as (E3 & F3); rewrite ?E1, ?E2; [apply small64, A|]. rewrite E1, E2 in E3.
  pose proof (rnd64_near _ A) as N. rewrite <- E3 in N. apply Rabs_le_inv in N.
  unfold channel_back. set (q := dmul _ _) in *. rewrite (dtruncZ_R q F3).
  assert (T : (0 <= Ztrunc (DR q) <= 255)%Z /\ Rabs (IZR (Ztrunc (DR q)) - DR q) <= 1).
  { destruct (Rle_lt_dec 0 (DR q)) as [P|P].
    - rewrite Ztrunc_floor by exact P. pose proof (Zfloor_lb (DR q)). pose proof (Zfloor_ub (DR q)). split; [|apply Rabs_le; lra].
      split; [apply (Zfloor_lub 0); exact P|]. assert (Zfloor (DR q) < 256)%Z; [|lia]. apply lt_IZR. lra.
    - rewrite Ztrunc_ceil by lra. assert (Zceil (DR q) = 0%Z) as ->; [|split; [lia|apply Rabs_le; lra]].
      apply Zceil_imp. cbn [Z.sub Z.add Z.opp]. split; lra. }
  destruct T as (T1 & T2). exists (Ztrunc (DR q)). split.
  - unfold to_uint8, in_range. destruct (Z.leb_spec 0 (Ztrunc (DR q))); [|lia]. destruct (Z.leb_spec (Ztrunc (DR q)) 255); [reflexivity|lia].
  - split; [exact T1|]. apply Rabs_le_inv in T2. apply Rabs_le. lra.
Qed.

(** ** one vertex *)
Lemma rainbow_near : forall d x, dfin d = true -> 0 <= DR d <= 1 -> Rabs (DR d - x) <= / 500000 ->
  exists c, rainbowColorMap d = Some c /\ color_ok c /\ shows (1 + / 100) c (red (6 * x)) (green (6 * x)) (blue (6 * x)).
Proof.
  intros d x Fd Rd Nd. destruct (rainbow_spec d Fd) as (c & A & _ & C & (D & E1 & E2 & E3)). exists c. split; [exact A|]. split; [exact C|]. split; [exact D|].
  destruct (turn (DR d) Rd) as (T1 & T2 & T3). rewrite T1 in E1. rewrite T2 in E2. rewrite T3 in E3. unfold about in *.
  pose proof (red_lip (6 * DR d) (6 * x)) as L1. pose proof (green_lip (6 * DR d) (6 * x)) as L2. pose proof (blue_lip (6 * DR d) (6 * x)) as L3.
  assert (AL : Rabs (6 * DR d - 6 * x) <= / 80000). { apply Rabs_le_inv in Nd. apply Rabs_le. lra. }
  assert (X : forall z u w, Rabs (IZR z - 255 * u) <= 1 + / 10000 -> Rabs (u - w) <= / 80000 -> Rabs (IZR z - 255 * w) <= 1 + / 100).
  { intros z u w P Q. apply Rabs_le_inv in P. apply Rabs_le_inv in Q. apply Rabs_le. lra. }
  split; [|split]; (eapply X; [eassumption|]); eapply Rle_trans; eassumption.
Qed.
(** a channel that can be shown *)
Definition fits (x : f32) : Prop := ffin x = true /\ - / 500 <= FR x <= 1 + / 500.
Lemma chan_fits : forall z, (0 <= z <= 255)%Z -> fits (channel_msg z).
Proof. intros z H. destruct (chan_near z H) as (F & _ & B). split; [exact F|]. lra. Qed.
Lemma nth_all : forall A (P : A -> Prop) l n x, Forall P l -> nth_error l n = Some x -> P x.
Proof. intros A P l n x F E. rewrite Forall_forall in F. apply F. eapply nth_error_In; eauto. Qed.
Lemma nth_some : forall A (l : list A) n, (n < length l)%nat -> exists x, nth_error l n = Some x.
Proof. intros A l n H. destruct (nth_error l n) eqn:E; [eauto|]. apply nth_error_None in E. lia. Qed.
Lemma one255 : FR (channel_msg 255) = 1.
Proof. replace (channel_msg 255) with (fbits 0x3f800000) by (symmetry; apply fbits_same; vm_compute; reflexivity). change (FR (fbits 0x3f800000)) with (IZR 8388608 * bpow radix2 (-23)). change (bpow radix2 (-23)) with (/ 8388608). lra. Qed.
Lemma lambert_near : forall c d, color_ok c -> unit_normal d ->
  let m := lambertColorFromColorAndNormal c d in
  near (/ 10000) (map3 FR (ch_rgb m)) (map3 (fun x => shade x d) (chan c)) /\ all3 fits (ch_rgb m).
Proof.
  intros c d (C1 & C2 & C3 & _) U. unfold lambertColorFromColorAndNormal, lambertShading, chan. cbn zeta. cbn [ch_rgb].
  unfold near, all3, map3, zip3. cbn [vx vy vz].
  assert (G : forall z, (0 <= z <= 255)%Z -> 
     let x := fmin (fadd (fadd (fmul (fmax (dot3 d light_dir) f0) (channel_msg z)) (fmul (fmax (dot3 d light_dir2) f0) (channel_msg z))) ambient) f1 in
     Rabs (FR x - shade (IZR z / 255) d) <= / 10000 /\ fits x).
  { intros z Hz. destruct (chan_near z Hz) as (F & N & B). 
    assert (Q : 0 <= IZR z / 255 <= 1).
    { assert (0 <= IZR z) by (apply IZR_le; lia). assert (IZR z <= 255) by (apply IZR_le; lia). lra. }
    destruct (shade_near d _ _ U F N B Q) as (G & E & R). split; [exact E|]. split; [exact G|]. lra. }
  unfold is_byte in *. destruct (G (cr c) ltac:(lia)) as (A1 & B1). destruct (G (cg c) ltac:(lia)) as (A2 & B2). destruct (G (cb c) ltac:(lia)) as (A3 & B3). auto 10.
Qed.
Lemma vertex_ok : forall mode m n, drawable mode m -> (n < length (m_vertices m))%nat ->
  exists msg w, getVertexColor m mode n = Ok msg /\ wanted mode m n w /\ near (tolerance mode) (map3 FR (ch_rgb msg)) w /\
    opacity mode m n (FR (ch_a msg)) /\ all3 fits (ch_rgb msg) /\ fits (ch_a msg).
Proof.
  intros mode m n (DC & DN & DH) Hn.
  assert (F1 : fits f1) by (split; [reflexivity|]; rewrite one_R; lra).
  destruct mode; cbn [getVertexColor wanted tolerance opacity].
  - destruct (DC (or_introl eq_refl)) as (L & CO). destruct (nth_some _ (m_colors m) n ltac:(lia)) as (c & E). rewrite E.
    pose proof (nth_all _ _ _ _ _ CO E) as (C1 & C2 & C3 & C4). unfold is_byte in *.
    exists (colorVoxbloxToMsg c), (chan c). split; [reflexivity|]. split; [eauto|].
    destruct (chan_near (cr c) ltac:(lia)) as (_ & N1 & _). destruct (chan_near (cg c) ltac:(lia)) as (_ & N2 & _). destruct (chan_near (cb c) ltac:(lia)) as (_ & N3 & _). destruct (chan_near (ca c) ltac:(lia)) as (_ & N4 & _).
    unfold colorVoxbloxToMsg, near, chan, map3, all3. cbn [ch_rgb ch_a vx vy vz]. unfold dl in *.
    split; [repeat split; lra|]. split; [exists c; split; [reflexivity|lra]|]. split; [|apply chan_fits; lia].
    repeat split; try (apply chan_fits; lia).
  - pose proof (DH eq_refl) as VO. destruct (nth_some _ (m_vertices m) n Hn) as (v & E). rewrite E.
    pose proof (nth_all _ _ _ _ _ VO E) as Fz. cbn beta in Fz. unfold heightColorFromVertex. cbn zeta.
    destruct (height_near (vz v) Fz) as (Ft & Nt & Rt). set (t := fmin _ f1) in *. destruct (f64_of_f32_R t Ft) as (ED & FD).
    destruct (rainbow_near (f64_of_f32 t) (level v) FD) as (c & A & (C1 & C2 & C3 & C4) & (S0 & S1 & S2 & S3)); rewrite ?ED; [exact Rt|unfold level; lra|].
    rewrite A. cbn [obind of_opt]. exists (colorVoxbloxToMsg c). eexists. split; [reflexivity|]. split; [eauto|].
    unfold is_byte in *. destruct (chan_near (cr c) ltac:(lia)) as (_ & N1 & _). destruct (chan_near (cg c) ltac:(lia)) as (_ & N2 & _). destruct (chan_near (cb c) ltac:(lia)) as (_ & N3 & _).
    unfold colorVoxbloxToMsg, near, map3, all3. cbn [ch_rgb ch_a vx vy vz]. unfold about in *. rewrite S0.
    apply Rabs_le_inv in N1, N2, N3, S1, S2, S3. unfold dl in *.
    split; [repeat split; apply Rabs_le; lra|]. split; [apply one255|]. split; [|apply chan_fits; lia].
    repeat split; try (apply chan_fits; lia).
  - destruct (DN (or_introl eq_refl)) as (L & NO). destruct (nth_some _ (m_normals m) n ltac:(lia)) as (d & E). rewrite E.
    pose proof (nth_all _ _ _ _ _ NO E) as ((X1 & X2) & (Y1 & Y2) & (Z1 & Z2)).
    exists (normalColorFromNormal d). eexists. split; [reflexivity|]. split; [eauto|].
    destruct (normal_near _ X1 X2) as (P1 & P2 & P3). destruct (normal_near _ Y1 Y2) as (Q1 & Q2 & Q3). destruct (normal_near _ Z1 Z2) as (R1 & R2 & R3).
    unfold normalColorFromNormal, near, map3, all3. cbn [ch_rgb ch_a vx vy vz].
    split; [auto|]. split; [apply one_R|]. split; [|exact F1]. unfold fits. repeat split; try assumption; lra.
  - exists (MkRgba (V3 fhalf fhalf fhalf) f1). eexists. split; [reflexivity|]. split; [reflexivity|].
    assert (H : FR fhalf = / 2). { change (FR fhalf) with (IZR 8388608 * bpow radix2 (-24)). change (bpow radix2 (-24)) with (/ 16777216). lra. }
    unfold near, map3, all3, fits. cbn [ch_rgb ch_a vx vy vz]. rewrite H. rewrite Rminus_diag_eq, Rabs_R0 by reflexivity.
    split; [repeat split; lra|]. split; [apply one_R|]. split; [|exact F1]. repeat split; try reflexivity; lra.
  - destruct (DN (or_intror (or_introl eq_refl))) as (L & NO). destruct (nth_some _ (m_normals m) n ltac:(lia)) as (d & E). rewrite E.
    pose proof (nth_all _ _ _ _ _ NO E) as U. unfold lambertColorFromNormal.
    destruct (lambert_near (MkColor 127 127 127 255) d) as (N & FF); [unfold color_ok, is_byte; cbn; lia|exact U|].
    eexists. eexists. split; [reflexivity|]. split; [eauto|]. split; [exact N|]. split; [apply one_R|]. split; [exact FF|exact F1].
  - destruct (DC (or_intror eq_refl)) as (L & CO). destruct (DN (or_intror (or_intror eq_refl))) as (L2 & NO).
    destruct (nth_some _ (m_colors m) n ltac:(lia)) as (c & E). destruct (nth_some _ (m_normals m) n ltac:(lia)) as (d & E2). rewrite E, E2.
    destruct (lambert_near c d) as (N & FF); [exact (nth_all _ _ _ _ _ CO E)|exact (nth_all _ _ _ _ _ NO E2)|].
    eexists. eexists. split; [reflexivity|]. split; [eauto 10|]. split; [exact N|]. split; [apply one_R|]. split; [exact FF|exact F1].
Qed.

(** ** all vertices *)
Lemma each_vertex_ok : forall A (put : mesh -> nat -> pt3 -> res A) (P : mesh * nat -> A -> Prop) m,
  (forall n v, nth_error (m_vertices m) n = Some v -> exists a, put m n v = Ok a /\ P (m, n) a) ->
  forall vs n, (forall k v, nth_error vs k = Some v -> nth_error (m_vertices m) (n + k) = Some v) ->
  exists r, each_vertex put m n vs = Ok r /\ Forall2 P (map (pair m) (seq n (length vs))) r.
Proof.
  intros A put P m H. induction vs as [|v vs IH]; intros n Hv; cbn [each_vertex length seq map].
  - exists []. auto.
  - destruct (H n v) as (a & -> & Pa). { rewrite <- (Nat.add_0_r n). apply Hv. reflexivity. }
    cbn [rbind]. destruct (IH (S n)) as (r & -> & R). { intros k w E. replace (S n + k)%nat with (n + S k)%nat by lia. apply Hv. exact E. }
    cbn [rbind]. exists (a :: r). auto.
Qed.
Lemma each_mesh_ok : forall A (put : mesh -> nat -> pt3 -> res A) (P : mesh * nat -> A -> Prop) mode mm,
  (forall i m, In (i, m) mm -> m_vertices m <> [] -> color_checks mode m = true /\
     forall n v, nth_error (m_vertices m) n = Some v -> exists a, put m n v = Ok a /\ P (m, n) a) ->
  exists r, each_mesh put mode mm = Ok r /\ Forall2 P (corners mm) r.
Proof.
  intros A put P mode. induction mm as [|[i m] mm IH]; intros H; cbn [each_mesh].
  - exists []. split; [reflexivity|constructor].
  - destruct IH as (r & E & R). { intros j c Hin. apply (H j c). now right. }
    unfold corners. cbn [flat_map snd]. fold (corners mm).
    destruct (m_vertices m) as [|v vs] eqn:V; cbn [nonempty length seq map app].
    + exists r. auto.
    + destruct (H i m (or_introl eq_refl)) as (C & G); [rewrite V; intros X; discriminate X|]. rewrite C, <- V.
      destruct (each_vertex_ok A put P m G (m_vertices m) 0) as (a & -> & Ra); [auto|]. cbn [rbind]. rewrite E. cbn [rbind].
      exists (a ++ r). split; [reflexivity|].
      rewrite V in Ra. cbn [length seq map] in Ra. exact (Forall2_app Ra R).
Qed.
Lemma checks_ok : forall mode m, drawable mode m -> m_vertices m <> [] -> color_checks mode m = true.
Proof.
  intros mode m (DC & DN & _) NE. unfold color_checks.
  assert (X : forall A (l : list A), length l = length (m_vertices m) -> nonempty l = true).
  { intros A [|a l] E; [|reflexivity]. destruct (m_vertices m); [contradiction|discriminate E]. }
  apply andb_true_intro. split; destruct mode; try reflexivity; apply X; first [apply DC; tauto|apply DN; tauto].
Qed.
