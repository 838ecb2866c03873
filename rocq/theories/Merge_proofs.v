(** Proofs about merging voxels, blocks and layers, and about distances of blocks. *)
From Coq Require Import ZArith List Bool Lia Reals Lra.
From Flocq Require Import Core IEEE754.Binary IEEE754.Bits.
From Verif Require Import F32 F32_lemmas F32_err Types Index Index_float Voxel Serialize Assoc Assoc_lemmas Layer Merge.
Import ListNotations.

(** ** squared norm *)
Open Scope R_scope.
Definition sqR (x : R) : R := x * x.
Definition dist2 (p q : pt3) : R :=
  sqR (FR (vx p) - FR (vx q)) + sqR (FR (vy p) - FR (vy q)) + sqR (FR (vz p) - FR (vz q)).
Definition fin_upto (e : Z) (x : f32) : Prop := ffin x = true /\ Rabs (FR x) <= bpow radix2 e.

Lemma sq_pos : forall x, 0 <= sqR x.
Proof. intros. unfold sqR. nra. Qed.

Lemma sq_err : forall a b, fin_upto 40 a -> fin_upto 40 b ->
  let d := fsub a b in let q := fmul d d in
  ffin q = true /\ Rabs (FR q) <= bpow radix2 84 /\ 0 <= FR q /\
  sqR (FR a - FR b) * (1 - 4 * u32r) - t32r <= FR q <= sqR (FR a - FR b) * (1 + 4 * u32r) + t32r.
Proof.
  intros a b (Fa & Ha) (Fb & Hb) d q.
  assert (B1 : Rabs (FR a - FR b) <= bpow radix2 41) by (eapply Rabs_sub_bpow; eauto; lia).
  destruct (fsub_rel a b Fa Fb) as (Fd & e & He & Ed).
  { eapply Rle_trans; [exact B1|]. apply bpow_le; lia. }
  fold d in Fd, Ed.
  assert (B2 : Rabs (FR d) <= bpow radix2 42).
  { rewrite Ed. replace 42%Z with (41 + 1)%Z by lia. apply (Rabs_mul_bpow _ _ 41 1); auto; [|lia].
    change (bpow radix2 1) with 2. unfold u32r in He. apply Rabs_le. apply Rabs_le_inv in He. lra. }
  assert (B3 : Rabs (FR d * FR d) <= bpow radix2 84) by (eapply (Rabs_mul_bpow _ _ 42 42); auto; lia).
  destruct (fmul_R d d Fd Fd) as (E & F). { apply rnd32_small. eapply Rle_trans; [exact B3|]. apply bpow_le; lia. }
  fold q in E, F.
  destruct (rnd32_err (FR d * FR d)) as (d1 & e1 & Hd1 & He1 & Eq). rewrite bpow_m24 in Hd1. fold t32r in He1.
  split; [auto|]. split; [rewrite E; apply Rabs_rnd_bpow; auto; lia|]. split.
  { rewrite E. rewrite <- rnd32_0. apply rnd32_le. nra. }
  rewrite E, Eq, Ed.
  assert (S : 0 <= sqR (FR a - FR b)) by apply sq_pos.
  replace ((FR a - FR b) * (1 + e) * ((FR a - FR b) * (1 + e)) * (1 + d1)) with
    (sqR (FR a - FR b) * (1 + ((1 + e) * (1 + e) * (1 + d1) - 1))) by (unfold sqR; ring).
  apply Rabs_le_inv in He1.
  assert (K : Rabs ((1 + e) * (1 + e) * (1 + d1) - 1) <= 4 * u32r).
  { apply Rabs_le_inv in He. apply Rabs_le_inv in Hd1. unfold u32r in *. apply Rabs_le. split; nra. }
  pose proof (rel_up _ _ _ _ S (Rle_refl _) K). pose proof (rel_lo _ _ _ _ (Rle_refl _) S K).
  unfold u32r in *. lra.
Qed.

Lemma sqnorm_err : forall p q, all3 (fin_upto 40) p -> all3 (fin_upto 40) q ->
  ffin (sqnorm (pt_sub p q)) = true /\
  dist2 p q * (1 - 8 * u32r) - 4 * t32r <= FR (sqnorm (pt_sub p q)) <= dist2 p q * (1 + 8 * u32r) + 4 * t32r.
Proof.
  intros p q (P1 & P2 & P3) (Q1 & Q2 & Q3). unfold sqnorm, pt_sub, zip3. cbn [vx vy vz].
  destruct (sq_err _ _ P1 Q1) as (F1 & A1 & N1 & L1). destruct (sq_err _ _ P2 Q2) as (F2 & A2 & N2 & L2).
  destruct (sq_err _ _ P3 Q3) as (F3 & A3 & N3 & L3). cbn zeta in *.
  set (q1 := fmul (fsub (vx p) (vx q)) _) in *. set (q2 := fmul (fsub (vy p) (vy q)) _) in *.
  set (q3 := fmul (fsub (vz p) (vz q)) _) in *.
  assert (B : Rabs (FR q2 + FR q3) <= bpow radix2 85) by (eapply Rabs_add_bpow; eauto; lia).
  destruct (fadd_rel q2 q3 F2 F3) as (F4 & e & He & E4). { eapply Rle_trans; [exact B|]. apply bpow_le; lia. }
  assert (B4 : Rabs (FR (fadd q2 q3)) <= bpow radix2 86).
  { rewrite E4. apply (Rabs_mul_bpow _ _ 85 1); auto; [|lia].
    change (bpow radix2 1) with 2. unfold u32r in He. apply Rabs_le. apply Rabs_le_inv in He. lra. }
  destruct (fadd_rel q1 (fadd q2 q3) F1 F4) as (F5 & e5 & He5 & E5).
  { eapply Rle_trans; [apply (Rabs_add_bpow _ _ 84 86 87); auto; lia|]. apply bpow_le; lia. }
  split; auto. rewrite E5. unfold dist2. pose proof t32r_pos.
  assert (N4 : 0 <= FR (fadd q2 q3)).
  { rewrite E4. apply rel_pos with (u := u32r); auto; [lra|unfold u32r; lra]. }
  assert (U4 : FR (fadd q2 q3) <= (FR q2 + FR q3) * (1 + u32r)) by (rewrite E4; apply rel_up; auto; lra).
  assert (O4 : (FR q2 + FR q3) * (1 - u32r) <= FR (fadd q2 q3)).
  { rewrite E4. apply rel_lo; auto; try lra. unfold u32r; lra. }
  assert (U5 : (FR q1 + FR (fadd q2 q3)) * (1 + e5) <= (FR q1 + FR (fadd q2 q3)) * (1 + u32r)) by (apply rel_up; auto; lra).
  assert (O5 : (FR q1 + FR (fadd q2 q3)) * (1 - u32r) <= (FR q1 + FR (fadd q2 q3)) * (1 + e5)).
  { apply rel_lo; auto; try lra. unfold u32r; lra. }
  pose proof (sq_pos (FR (vx p) - FR (vx q))). pose proof (sq_pos (FR (vy p) - FR (vy q))). pose proof (sq_pos (FR (vz p) - FR (vz q))).
  set (a1 := sqR (FR (vx p) - FR (vx q))) in *. set (a2 := sqR (FR (vy p) - FR (vy q))) in *. set (a3 := sqR (FR (vz p) - FR (vz q))) in *.
  unfold u32r in *. lra.
Qed.

Lemma distant_iff : forall k (b : Block k) c d, all3 (fin_upto 40) (b_origin b) -> all3 (fin_upto 40) c ->
  dfin d = true -> Rabs (DR d) <= bpow radix2 40 ->
  (DR d * DR d * (1 + bpow radix2 (-20)) + bpow radix2 (-140) < dist2 (b_origin b) c -> is_distant c d b = true) /\
  (dist2 (b_origin b) c < DR d * DR d * (1 - bpow radix2 (-20)) - bpow radix2 (-140) -> is_distant c d b = false).
Proof.
  intros k b c d Hb Hc Fd Hd. destruct (sqnorm_err _ _ Hb Hc) as (F & L & U).
  destruct (f64_of_f32_R _ F) as (E & FD).
  destruct (dmul_rel d d Fd Fd) as (Fm & d1 & e1 & Hd1 & He1 & Em).
  { apply (Rabs_mul_bpow _ _ 40 40); auto. lia. }
  assert (T1 : bpow radix2 (-140) = 1024 * t32r).
  { unfold t32r. change (-140)%Z with (10 + -150)%Z. rewrite bpow_plus. reflexivity. }
  assert (T2 : bpow radix2 (-20) = 16 * u32r) by (unfold u32r; cbn; lra).
  assert (T3 : t64r <= t32r) by (apply bpow_le; lia).
  assert (S : 0 <= DR d * DR d) by nra.
  assert (M : DR d * DR d * (1 - u64r) - t64r <= DR (dmul d d) <= DR d * DR d * (1 + u64r) + t64r).
  { rewrite Em. apply Rabs_le_inv in He1.
    pose proof (rel_up _ _ _ _ S (Rle_refl _) Hd1). pose proof (rel_lo _ _ _ _ (Rle_refl _) S Hd1). unfold u64r in *. lra. }
  assert (D : 0 <= dist2 (b_origin b) c).
  { unfold dist2. pose proof (sq_pos (FR (vx (b_origin b)) - FR (vx c))). pose proof (sq_pos (FR (vy (b_origin b)) - FR (vy c))).
    pose proof (sq_pos (FR (vz (b_origin b)) - FR (vz c))). lra. }
  pose proof t32r_pos as TP. rewrite T1, T2. unfold is_distant, dgt. split; intros H.
  - apply dlt_R; auto. rewrite E. unfold u32r, u64r in *. lra.
  - apply not_true_iff_false. rewrite dlt_R by auto. rewrite E. unfold u32r, u64r in *. lra.
Qed.

(** ** float operations are commutative on numbers *)
Lemma fadd_comm : forall a b, fnan a = false -> fnan b = false -> fadd a b = fadd b a.
Proof.
  intros a b Ha Hb. unfold fadd, b32_plus, Bplus.
  destruct a as [sa|sa|sa pa Ha'|sa ma ea Ha']; try discriminate;
  destruct b as [sb|sb|sb pb Hb'|sb mb eb Hb']; try discriminate; cbn; auto.
  all: try (destruct sa, sb; reflexivity).
  rewrite (Z.min_comm ea eb). unfold BinarySingleNaN.Fplus_naive. rewrite Z.add_comm. reflexivity.
Qed.
Lemma fmul_fin_nnan : forall a b, ffin a = true -> ffin b = true -> fnan (fmul a b) = false.
Proof.
  intros a b Ha Hb. pose proof (Bmult_correct 24 128 Hprec32 Hmax32 binop_nan_pl32 mode_NE a b) as H.
  unfold fnan, fmul, b32_mult. destruct (Rlt_bool _ _).
  - destruct H as (_ & H & _). apply ffin_nnan. unfold ffin. etransitivity; [exact H|]. unfold ffin in *. rewrite Ha, Hb. reflexivity.
  - change (Bmult 24 128 eq_refl eq_refl binop_nan_pl32 mode_NE a b) with
      (Bmult 24 128 Hprec32 Hmax32 binop_nan_pl32 mode_NE a b).
    destruct (Bmult 24 128 Hprec32 Hmax32 binop_nan_pl32 mode_NE a b); auto.
    cbn in H. destruct (xorb _ _); discriminate.
Qed.
Lemma fmul_nan_default : forall a b, fnan a = false -> fnan b = false -> fnan (fmul a b) = true -> fmul a b = nan32.
Proof.
  intros a b Ha Hb H. destruct (ffin a) eqn:Fa; destruct (ffin b) eqn:Fb.
  { rewrite fmul_fin_nnan in H by auto. discriminate. }
  all: destruct a as [sa|sa|sa pa Ha'|sa ma ea Ha']; try discriminate;
  destruct b as [sb|sb|sb pb Hb'|sb mb eb Hb']; try discriminate; cbn in *; auto; try discriminate.
Qed.
Close Scope R_scope.
Open Scope Z_scope.

(** sum of two values that are numbers or the default NaN *)
Definition nan_or_default (a : f32) : Prop := fnan a = true -> a = nan32.
Lemma fadd_comm_default : forall a b, nan_or_default a -> nan_or_default b -> fadd a b = fadd b a.
Proof.
  intros a b Ha Hb. destruct (fnan a) eqn:Na; destruct (fnan b) eqn:Nb.
  - rewrite (Ha Na), (Hb Nb). reflexivity.
  - rewrite (Ha Na). destruct b; try discriminate; reflexivity.
  - rewrite (Hb Nb). destruct a; try discriminate; reflexivity.
  - apply fadd_comm; auto.
Qed.

(** ** colour blending *)
Open Scope R_scope.
Lemma fdiv_pos_nnan : forall a t, ffin a = true -> flt f0 t = true -> fnan (fdiv a t) = false.
Proof.
  intros a t Ha Ht. destruct (ffin t) eqn:Ft.
  - assert (NZ : FR t <> 0). { apply flt_R in Ht; auto. unfold f0, FR in *. cbn in Ht. lra. }
    pose proof (Bdiv_correct 24 128 Hprec32 Hmax32 binop_nan_pl32 mode_NE a t NZ) as H.
    unfold fnan, fdiv, b32_div. destruct (Rlt_bool _ _).
    + destruct H as (_ & H & _). apply ffin_nnan. unfold ffin. etransitivity; [exact H|]. exact Ha.
    + change (Bdiv 24 128 eq_refl eq_refl binop_nan_pl32 mode_NE a t) with
        (Bdiv 24 128 Hprec32 Hmax32 binop_nan_pl32 mode_NE a t).
      destruct (Bdiv 24 128 Hprec32 Hmax32 binop_nan_pl32 mode_NE a t); auto.
      cbn in H. destruct (xorb _ _); discriminate.
  - destruct t as [s|s|s p Hp|s m e He]; try discriminate. destruct a; try discriminate; reflexivity.
Qed.
Lemma fdiv_pos_fin : forall a t, ffin a = true -> flt f0 t = true -> fle f0 a = true -> fle a t = true -> ffin (fdiv a t) = true.
Proof.
  intros a t Ha Ht H0 H1. destruct (ffin t) eqn:Ft.
  - assert (P : 0 < FR t). { apply flt_R in Ht; auto. }
    apply fle_R in H1; auto. apply fle_R in H0; auto. change (FR f0) with 0 in H0.
    apply (fdiv_R a t Ha); [lra|]. apply rnd32_small. apply Rle_trans with 1.
    + rewrite Rabs_pos_eq. { apply (Rmult_le_reg_r (FR t)); auto. unfold Rdiv. rewrite Rmult_assoc, Rinv_l by lra. lra. }
      unfold Rdiv. apply Rmult_le_pos; auto. apply Rlt_le, Rinv_0_lt_compat; auto.
    + change 1 with (bpow radix2 0). apply bpow_le. lia.
  - destruct t as [s|s|s p Hp|s m e He]; try discriminate. destruct a; try discriminate; reflexivity.
Qed.

Lemma byte_R : forall c, is_byte c -> FR (f32_of_Z c) = IZR c /\ ffin (f32_of_Z c) = true /\ 0 <= IZR c <= 255.
Proof.
  intros c H. unfold is_byte in H. destruct (f32_of_Z_R c) as (A & B); [lia|]. split; [auto|]. split; [auto|].
  split; apply IZR_le; lia.
Qed.

Lemma blend_between : forall a b w1 w2, is_byte a -> is_byte b -> ffin w1 = true -> ffin w2 = true ->
  0 <= FR w1 <= 2 -> 0 <= FR w2 <= 2 -> Rabs (FR w1 + FR w2 - 1) <= / 10000 ->
  exists z, blend_channel a w1 b w2 = Some z /\ (Z.min a b <= z <= Z.max a b)%Z.
Proof.
  intros a b w1 w2 Ba Bb F1 F2 H1 H2 HS. unfold blend_channel.
  destruct (byte_R a Ba) as (Ea & Fa & Ra). destruct (byte_R b Bb) as (Eb & Fb & Rb).
  assert (B2 : forall x, 0 <= x <= 2 -> Rabs x <= bpow radix2 1) by (intros; change (bpow radix2 1) with 2; rewrite Rabs_pos_eq; lra).
  assert (B8 : forall x, 0 <= x <= 255 -> Rabs x <= bpow radix2 8).
  { intros. change (bpow radix2 8) with 256. rewrite Rabs_pos_eq; lra. }
  destruct (fmul_rel (f32_of_Z a) w1 Fa F1) as (P1 & d1 & e1 & D1 & T1 & E1).
  { rewrite Ea. eapply Rle_trans; [apply (Rabs_mul_bpow _ _ 8 1 9); auto; lia|apply bpow_le; lia]. }
  destruct (fmul_rel (f32_of_Z b) w2 Fb F2) as (P2 & d2 & e2 & D2 & T2 & E2).
  { rewrite Eb. eapply Rle_trans; [apply (Rabs_mul_bpow _ _ 8 1 9); auto; lia|apply bpow_le; lia]. }
  rewrite Ea in E1. rewrite Eb in E2.
  pose proof t32r_small as TS. pose proof t32r_pos as TP.
  set (x := IZR a * FR w1) in *. set (y := IZR b * FR w2) in *.
  assert (X : 0 <= x <= 510) by (unfold x; nra). assert (Y : 0 <= y <= 510) by (unfold y; nra).
  pose proof (rel_up x d1 x u32r (proj1 X) (Rle_refl _) D1). pose proof (rel_lo x d1 x u32r (Rle_refl _) (proj1 X) D1 ltac:(unfold u32r; lra)).
  pose proof (rel_up y d2 y u32r (proj1 Y) (Rle_refl _) D2). pose proof (rel_lo y d2 y u32r (Rle_refl _) (proj1 Y) D2 ltac:(unfold u32r; lra)).
  apply Rabs_le_inv in T1. apply Rabs_le_inv in T2.
  assert (DV : Rabs (FR (fmul (f32_of_Z a) w1) + FR (fmul (f32_of_Z b) w2) - (x + y)) <= / 1000).
  { rewrite E1, E2. apply Rabs_le. unfold u32r in *. lra. }
  apply Rabs_le_inv in DV.
  destruct (fadd_rel _ _ P1 P2) as (P3 & e3 & D3 & E3).
  { apply Rle_trans with 2048; [apply Rabs_le; lra|]. change 2048 with (bpow radix2 11). apply bpow_le; lia. }
  set (s := FR (fmul (f32_of_Z a) w1) + FR (fmul (f32_of_Z b) w2)) in *.
  assert (DV2 : Rabs (FR (fadd (fmul (f32_of_Z a) w1) (fmul (f32_of_Z b) w2)) - (x + y)) <= / 400).
  { rewrite E3. replace (s * (1 + e3) - (x + y)) with ((s - (x + y)) + s * e3) by ring.
    assert (Rabs (s * e3) <= 2000 * u32r).
    { rewrite Rabs_mult. apply Rmult_le_compat; auto using Rabs_pos. apply Rabs_le; lra. }
    unfold u32r in *. eapply Rle_trans; [apply Rabs_triang|].
    assert (Rabs (s - (x + y)) <= / 1000) by (apply Rabs_le; lra). lra. }
  apply Rabs_le_inv in HS.
  assert (LO : IZR (Z.min a b) - 255 / 10000 <= x + y).
  { assert (IZR (Z.min a b) <= IZR a) by (apply IZR_le; lia). assert (IZR (Z.min a b) <= IZR b) by (apply IZR_le; lia).
    assert (0 <= IZR (Z.min a b)) by (apply IZR_le; unfold is_byte in *; lia). unfold x, y. nra. }
  assert (HI : x + y <= IZR (Z.max a b) + 255 / 10000).
  { assert (IZR a <= IZR (Z.max a b)) by (apply IZR_le; lia). assert (IZR b <= IZR (Z.max a b)) by (apply IZR_le; lia).
    assert (IZR (Z.max a b) <= 255) by (apply IZR_le; unfold is_byte in *; lia).
    assert (x <= IZR (Z.max a b) * FR w1) by (unfold x; apply Rmult_le_compat_r; lra).
    assert (y <= IZR (Z.max a b) * FR w2) by (unfold y; apply Rmult_le_compat_r; lra).
    assert (0 <= IZR (Z.max a b)) by lra. nra. }
  set (f := fadd (fmul (f32_of_Z a) w1) (fmul (f32_of_Z b) w2)) in *.
  assert (RH : exists z, froundZ f = Some z /\ Rabs (FR f - IZR z) <= / 2).
  { clear - P3. destruct f as [sg|sg|sg p Hp|sg m e He]; try discriminate; cbn [froundZ].
    - exists 0%Z. split; auto. unfold FR; cbn. rewrite Rminus_0_r, Rabs_R0. lra.
    - eexists. split; [reflexivity|]. unfold FR. cbn [B2R]. rewrite <- sgnm_F2R. apply Zround_me_half. }
  destruct RH as (z & Ez & Hz). apply Rabs_le_inv in DV2. apply Rabs_le_inv in Hz.
  assert (IZR (Z.min a b) - 1 < IZR z) by lra. assert (IZR z < IZR (Z.max a b) + 1) by lra.
  rewrite <- minus_IZR in *. rewrite <- plus_IZR in *.
  repeat match goal with H : IZR _ < IZR _ |- _ => apply lt_IZR in H end.
  exists z. split; [|lia]. unfold to_uint8. apply in_range_Some. split; auto. unfold is_byte in *. lia.
Qed.

(** normalised weights *)
Lemma norm_weights : forall w1 w2, ffin w1 = true -> ffin w2 = true -> 0 <= FR w1 -> 0 <= FR w2 ->
  0 < FR w1 + FR w2 -> FR w1 + FR w2 <= bpow radix2 127 ->
  let t := fadd w1 w2 in
  ffin (fdiv w1 t) = true /\ ffin (fdiv w2 t) = true /\ 0 <= FR (fdiv w1 t) <= 2 /\ 0 <= FR (fdiv w2 t) <= 2 /\
  Rabs (FR (fdiv w1 t) + FR (fdiv w2 t) - 1) <= / 10000.
Proof.
  intros w1 w2 F1 F2 H1 H2 HS HM t. destruct (fadd_rel w1 w2 F1 F2) as (Ft & e & He & Et).
  { rewrite Rabs_pos_eq by lra. auto. }
  fold t in Ft, Et. pose proof He as He'. apply Rabs_le_inv in He'.
  assert (P : 0 < FR t). { rewrite Et. apply Rmult_lt_0_compat; auto. unfold u32r in *. lra. }
  assert (D : forall w, ffin w = true -> 0 <= FR w <= FR w1 + FR w2 -> ffin (fdiv w t) = true /\ 0 <= FR (fdiv w t) <= 2 /\
     Rabs (FR (fdiv w t) - FR w / (FR w1 + FR w2)) <= / 100000).
  { intros w Fw Hw. set (S := FR w1 + FR w2) in *. pose proof t32r_small as TS. pose proof t32r_pos as TP.
    assert (Q : 0 <= FR w / S <= 1).
    { split; [apply Rmult_le_pos; [lra|apply Rlt_le, Rinv_0_lt_compat; auto]|].
      apply (Rmult_le_reg_r S); auto. unfold Rdiv. rewrite Rmult_assoc, Rinv_l by lra. lra. }
    assert (Q2 : FR w / FR t = FR w / S * / (1 + e)).
    { rewrite Et. unfold u32r in *. field. split; lra. }
    assert (I : 1 - 2 * u32r <= / (1 + e) <= 1 + 2 * u32r).
    { unfold u32r in *. split.
      - apply (Rmult_le_reg_r (1 + e)); [lra|]. rewrite Rinv_l by lra. nra.
      - apply (Rmult_le_reg_r (1 + e)); [lra|]. rewrite Rinv_l by lra. nra. }
    set (i := / (1 + e)) in *. set (q := FR w / S) in *.
    assert (Q3 : 0 <= FR w / FR t <= 1 + 2 * u32r) by (rewrite Q2; unfold u32r in *; split; nra).
    destruct (fdiv_rel w t Fw) as (Fd & d1 & e1 & D1 & T1 & E1); [lra| |].
    { apply Rle_trans with 2; [rewrite Rabs_pos_eq; unfold u32r in *; lra|]. change 2 with (bpow radix2 1). apply bpow_le; lia. }
    assert (LB : 0 <= FR (fdiv w t)).
    { destruct (fdiv_R w t Fw) as (E & _); [lra| |].
      { apply rnd32_small. apply Rle_trans with 2; [rewrite Rabs_pos_eq; unfold u32r in *; lra|]. change 2 with (bpow radix2 1). apply bpow_le; lia. }
      rewrite E. rewrite <- rnd32_0. apply rnd32_le. lra. }
    apply Rabs_le_inv in D1. apply Rabs_le_inv in T1.
    split; auto. rewrite E1, Q2 in *. split.
    - split; auto. unfold u32r in *. nra.
    - apply Rabs_le. unfold u32r in *. split; nra. }
  destruct (D w1 F1) as (A1 & A2 & A3); [lra|]. destruct (D w2 F2) as (B1 & B2 & B3); [lra|].
  split; [auto|]. split; [auto|]. split; [auto|]. split; [auto|].
  assert (ONE : FR w1 / (FR w1 + FR w2) + FR w2 / (FR w1 + FR w2) = 1) by (field; lra).
  apply Rabs_le_inv in A3. apply Rabs_le_inv in B3. apply Rabs_le. lra.
Qed.

Lemma blend_colors : forall c1 c2 w1 w2, color_ok c1 -> color_ok c2 ->
  ffin w1 = true -> ffin w2 = true -> 0 <= FR w1 -> 0 <= FR w2 ->
  0 < FR w1 + FR w2 -> FR w1 + FR w2 <= bpow radix2 127 ->
  exists c, blendTwoColors c1 w1 c2 w2 = Some c /\
    (Z.min (cr c1) (cr c2) <= cr c <= Z.max (cr c1) (cr c2))%Z /\
    (Z.min (cg c1) (cg c2) <= cg c <= Z.max (cg c1) (cg c2))%Z /\
    (Z.min (cb c1) (cb c2) <= cb c <= Z.max (cb c1) (cb c2))%Z /\
    (Z.min (ca c1) (ca c2) <= ca c <= Z.max (ca c1) (ca c2))%Z.
Proof.
  intros c1 c2 w1 w2 (A1 & A2 & A3 & A4) (B1 & B2 & B3 & B4) F1 F2 H1 H2 HS HM.
  destruct (norm_weights w1 w2 F1 F2 H1 H2 HS HM) as (N1 & N2 & N3 & N4 & N5). cbn zeta in *.
  unfold blendTwoColors. set (v1 := fdiv w1 _) in *. set (v2 := fdiv w2 _) in *.
  destruct (blend_between _ _ v1 v2 A1 B1 N1 N2 N3 N4 N5) as (z1 & -> & Z1).
  destruct (blend_between _ _ v1 v2 A2 B2 N1 N2 N3 N4 N5) as (z2 & -> & Z2).
  destruct (blend_between _ _ v1 v2 A3 B3 N1 N2 N3 N4 N5) as (z3 & -> & Z3).
  destruct (blend_between _ _ v1 v2 A4 B4 N1 N2 N3 N4 N5) as (z4 & -> & Z4).
  eexists; split; [reflexivity|]. auto.
Qed.

(** ** merging TSDF voxels *)
Lemma blend_comm : forall c1 c2 w1 w2, color_ok c1 -> color_ok c2 ->
  ffin w1 = true -> ffin w2 = true -> flt f0 (fadd w1 w2) = true ->
  fle f0 w1 = true -> fle f0 w2 = true -> fle w1 (fadd w1 w2) = true -> fle w2 (fadd w1 w2) = true ->
  blendTwoColors c1 w1 c2 w2 = blendTwoColors c2 w2 c1 w1.
Proof.
  intros c1 c2 w1 w2 (A1 & A2 & A3 & A4) (B1 & B2 & B3 & B4) F1 F2 HP P1 P2 L1 L2. unfold blendTwoColors.
  rewrite (fadd_comm w2 w1) by (apply ffin_nnan; auto).
  assert (N1 : ffin (fdiv w1 (fadd w1 w2)) = true) by (apply fdiv_pos_fin; auto).
  assert (N2 : ffin (fdiv w2 (fadd w1 w2)) = true) by (apply fdiv_pos_fin; auto).
  set (v1 := fdiv w1 _) in *. set (v2 := fdiv w2 _) in *.
  assert (C : forall a b, is_byte a -> is_byte b -> blend_channel a v1 b v2 = blend_channel b v2 a v1).
  { intros a b Ha Hb. unfold blend_channel. rewrite fadd_comm; auto; apply fmul_fin_nnan; auto; apply byte_R; auto. }
  rewrite (C _ _ A1 B1), (C _ _ A2 B2), (C _ _ A3 B3), (C _ _ A4 B4). reflexivity.
Qed.

(** weights: finite, nonnegative *)
Definition weight_ok (w : f32) : Prop := ffin w = true /\ 0 <= FR w <= bpow radix2 126.
Lemma weights_sum : forall w1 w2, weight_ok w1 -> weight_ok w2 ->
  ffin (fadd w1 w2) = true /\ FR (fadd w1 w2) = rnd32 (FR w1 + FR w2) /\
  FR w1 <= FR (fadd w1 w2) /\ FR w2 <= FR (fadd w1 w2).
Proof.
  intros w1 w2 (F1 & H1) (F2 & H2).
  assert (S : Rabs (FR w1 + FR w2) <= bpow radix2 127).
  { rewrite Rabs_pos_eq by lra. change 127%Z with (126 + 1)%Z. rewrite bpow_plus. change (bpow radix2 1) with 2. lra. }
  destruct (fadd_R w1 w2 F1 F2 (rnd32_small _ S)) as (E & F). split; auto. split; auto. rewrite E. split.
  - rewrite <- (rnd32_FR w1) at 1. apply rnd32_le. lra.
  - rewrite <- (rnd32_FR w2) at 1. apply rnd32_le. lra.
Qed.

Lemma merge_tsdf_comm : forall a b, color_ok (t_color a) -> color_ok (t_color b) ->
  ffin (t_distance a) = true -> ffin (t_distance b) = true -> weight_ok (t_weight a) -> weight_ok (t_weight b) ->
  flt f0 (fadd (t_weight a) (t_weight b)) = true -> merge_tsdf a b = merge_tsdf b a.
Proof.
  intros a b Ca Cb Da Db Wa Wb H. pose proof Wa as (Fa & Pa). pose proof Wb as (Fb & Pb).
  destruct (weights_sum _ _ Wa Wb) as (Fs & Es & L1 & L2).
  unfold merge_tsdf. rewrite (fadd_comm (t_weight b)) by (apply ffin_nnan; auto). rewrite H.
  rewrite (fadd_comm (fmul (t_distance b) _)) by (apply fmul_fin_nnan; auto).
  rewrite (blend_comm (t_color b)); auto; rewrite ?(fadd_comm (t_weight b)) by (apply ffin_nnan; auto); auto;
    apply fle_R; auto; try (change (FR f0) with 0; lra).
Qed.

Definition mean (da wa db wb : R) : R := (da * wa + db * wb) / (wa + wb).

Lemma mean_between : forall da wa db wb, 0 <= wa -> 0 <= wb -> 0 < wa + wb ->
  Rmin da db <= mean da wa db wb <= Rmax da db.
Proof.
  intros. pose proof (Rmin_l da db). pose proof (Rmin_r da db). pose proof (Rmax_l da db). pose proof (Rmax_r da db).
  unfold mean. split; apply (Rmult_le_reg_r (wa + wb)); auto; unfold Rdiv; rewrite Rmult_assoc, Rinv_l by lra; nra.
Qed.

Lemma merge_distance : forall da wa db wb,
  fin_upto 40 da -> fin_upto 40 db -> fin_upto 40 wa -> fin_upto 40 wb ->
  0 <= FR wa -> 0 <= FR wb -> bpow radix2 (-20) <= FR wa + FR wb ->
  let r := fdiv (fadd (fmul da wa) (fmul db wb)) (fadd wa wb) in
  ffin r = true /\
  Rabs (FR r - mean (FR da) (FR wa) (FR db) (FR wb)) <=
    bpow radix2 (-20) * Rmax (Rabs (FR da)) (Rabs (FR db)) + bpow radix2 (-120).
Proof.
  intros da wa db wb (Fda & Bda) (Fdb & Bdb) (Fwa & Bwa) (Fwb & Bwb) Pa Pb HW r.
  set (M := Rmax (Rabs (FR da)) (Rabs (FR db))). set (W := FR wa + FR wb) in *.
  assert (Ma : Rabs (FR da) <= M) by apply Rmax_l. assert (Mb : Rabs (FR db) <= M) by apply Rmax_r.
  assert (M0 : 0 <= M) by (eapply Rle_trans; [apply Rabs_pos|exact Ma]).
  assert (WP : 0 < W) by (eapply Rlt_le_trans; [apply (bpow_gt_0 radix2 (-20))|auto]).
  pose proof t32r_pos as TP. pose proof t32r_small as TS.
  destruct (fmul_rel da wa Fda Fwa) as (F1 & d1 & e1 & D1 & T1 & E1).
  { eapply Rle_trans; [apply (Rabs_mul_bpow _ _ 40 40 80); auto; lia|apply bpow_le; lia]. }
  destruct (fmul_rel db wb Fdb Fwb) as (F2 & d2 & e2 & D2 & T2 & E2).
  { eapply Rle_trans; [apply (Rabs_mul_bpow _ _ 40 40 80); auto; lia|apply bpow_le; lia]. }
  assert (R1 : Rabs (FR (fmul da wa)) <= bpow radix2 80).
  { destruct (fmul_R da wa Fda Fwa) as (E & _). { apply rnd32_small. eapply Rle_trans; [apply (Rabs_mul_bpow _ _ 40 40 80); auto; lia|apply bpow_le; lia]. }
    rewrite E. apply Rabs_rnd_bpow; [lia|]. apply (Rabs_mul_bpow _ _ 40 40); auto; lia. }
  assert (R2 : Rabs (FR (fmul db wb)) <= bpow radix2 80).
  { destruct (fmul_R db wb Fdb Fwb) as (E & _). { apply rnd32_small. eapply Rle_trans; [apply (Rabs_mul_bpow _ _ 40 40 80); auto; lia|apply bpow_le; lia]. }
    rewrite E. apply Rabs_rnd_bpow; [lia|]. apply (Rabs_mul_bpow _ _ 40 40); auto; lia. }
  destruct (fadd_rel _ _ F1 F2) as (F3 & e3 & D3 & E3).
  { eapply Rle_trans; [apply (Rabs_add_bpow _ _ 80 80 81); auto; lia|apply bpow_le; lia]. }
  destruct (fadd_rel wa wb Fwa Fwb) as (F4 & e4 & D4 & E4).
  { eapply Rle_trans; [apply (Rabs_add_bpow _ _ 40 40 41); auto; lia|apply bpow_le; lia]. }
  fold W in E4. set (N := FR da * FR wa + FR db * FR wb) in *.
  assert (A1 : Rabs (FR da * FR wa) <= M * FR wa).
  { rewrite Rabs_mult, (Rabs_pos_eq (FR wa)) by auto. apply Rmult_le_compat_r; auto. }
  assert (A2 : Rabs (FR db * FR wb) <= M * FR wb).
  { rewrite Rabs_mult, (Rabs_pos_eq (FR wb)) by auto. apply Rmult_le_compat_r; auto. }
  assert (G1 : Rabs (FR da * FR wa * d1) <= M * FR wa * u32r).
  { rewrite Rabs_mult. apply Rmult_le_compat; auto using Rabs_pos. }
  assert (G2 : Rabs (FR db * FR wb * d2) <= M * FR wb * u32r).
  { rewrite Rabs_mult. apply Rmult_le_compat; auto using Rabs_pos. }
  assert (MW : 0 <= M * W) by (apply Rmult_le_pos; lra).
  set (P := FR (fmul da wa) + FR (fmul db wb)) in *.
  assert (HP : Rabs (P - N) <= M * W * u32r + 2 * t32r).
  { unfold P, N. rewrite E1, E2.
    replace (FR da * FR wa * (1 + d1) + e1 + (FR db * FR wb * (1 + d2) + e2) - (FR da * FR wa + FR db * FR wb))
      with ((FR da * FR wa * d1 + FR db * FR wb * d2) + (e1 + e2)) by ring.
    eapply Rle_trans; [apply Rabs_triang|]. apply Rplus_le_compat.
    - eapply Rle_trans; [apply Rabs_triang|]. unfold W. replace (M * (FR wa + FR wb) * u32r) with (M * FR wa * u32r + M * FR wb * u32r) by ring. lra.
    - eapply Rle_trans; [apply Rabs_triang|]. lra. }
  assert (HN : Rabs N <= M * W).
  { unfold N, W. eapply Rle_trans; [apply Rabs_triang|]. lra. }
  assert (HP2 : Rabs P <= 2 * (M * W) + 2 * t32r).
  { replace P with ((P - N) + N) by ring. eapply Rle_trans; [apply Rabs_triang|]. unfold u32r in *. lra. }
  set (Q := FR (fadd (fmul da wa) (fmul db wb))) in *.
  assert (HQ : Rabs (Q - N) <= M * W * (3 * u32r) + 3 * t32r).
  { rewrite E3. replace (P * (1 + e3) - N) with ((P - N) + P * e3) by ring.
    eapply Rle_trans; [apply Rabs_triang|].
    assert (Rabs (P * e3) <= (2 * (M * W) + 2 * t32r) * u32r).
    { rewrite Rabs_mult. apply Rmult_le_compat; auto using Rabs_pos. }
    unfold u32r in *. lra. }
  set (tt := FR (fadd wa wb)) in *.
  pose proof D4 as D4'. apply Rabs_le_inv in D4'.
  assert (TPos : 0 < tt) by (rewrite E4; apply Rmult_lt_0_compat; auto; unfold u32r in *; lra).
  assert (I : 1 - 2 * u32r <= / (1 + e4) <= 1 + 2 * u32r).
  { unfold u32r in *. split; apply (Rmult_le_reg_r (1 + e4)); try lra; rewrite Rinv_l by lra; nra. }
  set (i := / (1 + e4)) in *.
  assert (Qt : Q / tt = (N / W + (Q - N) / W) * i).
  { unfold i. rewrite E4. field. unfold u32r in *. split; lra. }
  set (m := mean (FR da) (FR wa) (FR db) (FR wb)). assert (Em : N / W = m) by reflexivity.
  assert (Hm : Rabs m <= M).
  { rewrite <- Em. unfold Rdiv. rewrite Rabs_mult, (Rabs_pos_eq (/ W)) by (apply Rlt_le, Rinv_0_lt_compat; auto).
    apply (Rmult_le_reg_r W); auto. rewrite Rmult_assoc, Rinv_l by lra. lra. }
  set (T := t32r * bpow radix2 20).
  assert (T0 : 0 < T) by (apply Rmult_lt_0_compat; auto; apply bpow_gt_0).
  assert (TW : t32r / W <= T).
  { unfold T, Rdiv. apply Rmult_le_compat_l; [lra|].
    assert (bpow radix2 20 = / bpow radix2 (-20)) as -> by (rewrite <- bpow_opp; reflexivity).
    apply Rinv_le; auto. apply bpow_gt_0. }
  assert (Hq : Rabs ((Q - N) / W) <= M * (3 * u32r) + 3 * T).
  { unfold Rdiv. rewrite Rabs_mult, (Rabs_pos_eq (/ W)) by (apply Rlt_le, Rinv_0_lt_compat; auto).
    apply Rle_trans with ((M * W * (3 * u32r) + 3 * t32r) * / W).
    - apply Rmult_le_compat_r; auto. apply Rlt_le, Rinv_0_lt_compat; auto.
    - replace ((M * W * (3 * u32r) + 3 * t32r) * / W) with (M * (3 * u32r) + 3 * (t32r / W)) by (field; lra). lra. }
  set (q := (Q - N) / W) in *. rewrite Em in Qt.
  assert (HM40 : M <= bpow radix2 40) by (unfold M; apply Rmax_lub; auto).
  assert (T1s : T < 1).
  { unfold T, t32r. rewrite <- bpow_plus. change 1 with (bpow radix2 0). apply bpow_lt; lia. }
  assert (HQt : Rabs (Q / tt) <= bpow radix2 50).
  { rewrite Qt. apply (Rabs_mul_bpow _ _ 43 1); [| |lia].
    - eapply Rle_trans; [apply Rabs_triang|]. change 43%Z with (40 + 3)%Z. rewrite bpow_plus. change (bpow radix2 3) with 8.
      assert (1 <= bpow radix2 40) by (change 1 with (bpow radix2 0); apply bpow_le; lia).
      generalize dependent (bpow radix2 40). intros B40 HB1 HB2 HB3 HB4 HB5 HB6. clearbody m q T. clear - Hm Hq T1s HB5 HB6 M0. clearbody M. unfold u32r in *. lra.
    - change (bpow radix2 1) with 2. unfold u32r in *. apply Rabs_le. lra. }
  destruct (fdiv_rel (fadd (fmul da wa) (fmul db wb)) (fadd wa wb) F3) as (F5 & d5 & e5 & D5 & T5 & E5).
  { fold tt. lra. }
  { fold Q. fold tt. eapply Rle_trans; [exact HQt|apply bpow_le; lia]. }
  fold Q in E5. fold tt in E5. fold r in F5, E5. split; auto.
  rewrite E5, Qt. apply Rabs_le_inv in D5. apply Rabs_le_inv in T5. apply Rabs_le_inv in Hq. 
  (* collect *)
  set (g := i * (1 + d5) - 1).
  assert (HG : Rabs g <= 4 * u32r). { unfold g, u32r in *. apply Rabs_le. split; nra. }
  replace ((m + q) * i * (1 + d5) + e5 - m) with (m * g + q * (1 + g) + e5) by (unfold g; ring).
  assert (K1 : Rabs (m * g) <= M * (4 * u32r)) by (rewrite Rabs_mult; apply Rmult_le_compat; auto using Rabs_pos).
  assert (K2 : Rabs (q * (1 + g)) <= (M * (3 * u32r) + 3 * T) * 2).
  { rewrite Rabs_mult. apply Rmult_le_compat; auto using Rabs_pos. { apply Rabs_le; auto. }
    apply Rabs_le_inv in HG. apply Rabs_le. unfold u32r in *. lra. }
  assert (TL : t32r <= T).
  { unfold T. rewrite <- (Rmult_1_r t32r) at 1. apply Rmult_le_compat_l; [lra|]. change 1 with (bpow radix2 0). apply bpow_le; lia. }
  assert (TE : bpow radix2 (-120) = 1024 * T).
  { unfold T, t32r. rewrite <- bpow_plus. change (-120)%Z with (10 + (-150 + 20))%Z. rewrite bpow_plus. reflexivity. }
  assert (UE : bpow radix2 (-20) = 16 * u32r) by (unfold u32r; cbn; lra).
  rewrite TE, UE. eapply Rle_trans; [apply Rabs_triang|].
  assert (Rabs e5 <= t32r) by (apply Rabs_le; auto).
  eapply Rle_trans; [apply Rplus_le_compat_r, Rabs_triang|]. unfold u32r in *. lra.
Qed.

Lemma merge_neutral_color : forall c1 c2 w2 w1, color_ok c1 -> color_ok c2 -> ffin w2 = true -> 0 < FR w2 ->
  ffin w1 = true -> FR w1 = 0 ->
  blendTwoColors c1 w1 c2 w2 = Some c2.
Proof.
  intros c1 c2 w2 w1 (A1 & A2 & A3 & A4) (B1 & B2 & B3 & B4) F2 P2 F1 Z1. unfold blendTwoColors.
  assert (S : Rabs (rnd32 (FR w1 + FR w2)) < max32).
  { rewrite Z1, Rplus_0_l, rnd32_FR. apply FR_lt_max. }
  destruct (fadd_R w1 w2 F1 F2 S) as (E & F). rewrite Z1, Rplus_0_l, rnd32_FR in E.
  set (t := fadd w1 w2) in *.
  destruct (fdiv_R w1 t F1) as (E1 & G1); [lra| |].
  { rewrite Z1. unfold Rdiv. rewrite Rmult_0_l, rnd32_0, Rabs_R0. apply max32_pos. }
  rewrite Z1 in E1. unfold Rdiv in E1. rewrite Rmult_0_l, rnd32_0 in E1.
  destruct (fdiv_R w2 t F2) as (E2 & G2); [lra| |].
  { rewrite E. unfold Rdiv. rewrite Rinv_r by lra. replace 1 with (IZR 1 * bpow radix2 0) by (cbn; lra). rewrite rnd32_exact by lia.
    cbn. rewrite Rmult_1_r, Rabs_R1. unfold max32. lra. }
  rewrite E in E2. unfold Rdiv in E2. rewrite Rinv_r in E2 by lra.
  assert (R1 : rnd32 1 = 1) by (apply (rnd32_Z 1); lia). rewrite R1 in E2.
  set (v1 := fdiv w1 t) in *. set (v2 := fdiv w2 t) in *.
  assert (C : forall a b, is_byte a -> is_byte b -> blend_channel a v1 b v2 = Some b).
  { intros a b Ha Hb. unfold blend_channel. destruct (byte_R a Ha) as (Ea & Fa & _). destruct (byte_R b Hb) as (Eb & Fb & Rb).
    assert (RZ : forall z, is_byte z -> rnd32 (IZR z) = IZR z) by (intros; apply rnd32_Z; unfold is_byte in *; lia).
    destruct (fmul_R (f32_of_Z a) v1 Fa G1) as (M1 & N1). { rewrite E1, Rmult_0_r, rnd32_0, Rabs_R0. apply max32_pos. }
    rewrite E1, Rmult_0_r, rnd32_0 in M1.
    destruct (fmul_R (f32_of_Z b) v2 Fb G2) as (M2 & N2). { rewrite E2, Rmult_1_r, rnd32_FR. apply FR_lt_max. }
    rewrite E2, Rmult_1_r, rnd32_FR in M2.
    destruct (fadd_R _ _ N1 N2) as (M3 & N3). { rewrite M1, M2, Rplus_0_l, rnd32_FR. apply FR_lt_max. }
    rewrite M1, M2, Rplus_0_l, rnd32_FR, Eb in M3.
    unfold to_uint8. apply in_range_Some. split; [|unfold is_byte in Hb; lia].
    apply froundZ_near; auto. rewrite M3. unfold Rminus. rewrite Rplus_opp_r, Rabs_R0. lra. }
  rewrite !C by auto. destruct c2; reflexivity.
Qed.

Lemma fadd_zero_l : forall w1 w2, ffin w1 = true -> FR w1 = 0 -> ffin w2 = true -> 0 < FR w2 -> fadd w1 w2 = w2.
Proof.
  intros w1 w2 F1 Z1 F2 P2. unfold fadd, b32_plus.
  destruct w1 as [s|s|s p Hp|s m e He]; try discriminate.
  - destruct w2 as [s2|s2|s2 p2 Hp2|s2 m2 e2 He2]; try discriminate.
    + unfold FR in P2; cbn in P2. lra.
    + reflexivity.
  - exfalso. unfold FR in Z1. cbn [B2R] in Z1. apply eq_0_F2R in Z1. destruct s; discriminate.
Qed.
Close Scope R_scope.

(** ** merging layers *)
Open Scope Z_scope.
Definition fresh_block {k} (l : Layer k) (i : idx3) : Block k :=
  new_block (l_vps l) (l_size l) (new_block_origin (l_vps l) (l_size l) i).
Lemma merge_loop_get : forall k (is : list idx3) (src lb lb' : Layer k), NoDup is ->
  merge_loop is src lb = Ok lb' ->
  l_size lb' = l_size lb /\ l_vps lb' = l_vps lb /\
  forall j, if in_dec idx_eq_dec j is then
      match l_get src j with
      | Some ba => exists nb, mergeBlock (match l_get lb j with Some b => b | None => fresh_block lb j end) ba = Ok nb /\
                     l_get lb' j = Some nb
      | None => l_get lb' j = Some (match l_get lb j with Some b => b | None => fresh_block lb j end)
      end
    else l_get lb' j = l_get lb j.
Proof.
  induction is as [|i is IH]; intros src lb lb' ND H; cbn [merge_loop] in H.
  { injection H as <-. repeat split; auto. }
  inversion ND as [|? ? N1 ND']; subst.
  set (lb1 := match l_get lb i with Some _ => lb | None => allocateBlockPtrByIndex lb i end) in H.
  assert (G1 : forall j, l_get lb1 j = if idx_eqb j i then Some (match l_get lb i with Some b => b | None => fresh_block lb i end) else l_get lb j).
  { intros j. unfold lb1. destruct (l_get lb i) eqn:E.
    - destruct (idx_eqb_spec j i) as [->|]; auto.
    - unfold allocateBlockPtrByIndex. rewrite E. unfold allocateNewBlock, l_get. cbn [with_blocks l_blocks].
      rewrite alookup_ainsert. destruct (idx_eqb_spec j i) as [->|].
      + unfold l_get in E. rewrite E. reflexivity.
      + destruct (alookup j (l_blocks lb)); reflexivity. }
  assert (S1 : l_size lb1 = l_size lb /\ l_vps lb1 = l_vps lb).
  { unfold lb1, allocateBlockPtrByIndex. destruct (l_get lb i); auto. }
  assert (FB : forall j, fresh_block lb1 j = fresh_block lb j). { intros. unfold fresh_block. destruct S1 as [-> ->]. reflexivity. }
  assert (FR1 : l_get lb1 i = Some (match l_get lb i with Some b => b | None => fresh_block lb i end)).
  { rewrite G1, idx_eqb_refl. reflexivity. }
  rewrite FR1 in H. destruct (l_get src i) as [ba|] eqn:Es.
  - destruct (mergeBlock _ ba) as [nb| |] eqn:M; cbn [rbind] in H; try discriminate.
    destruct (IH _ _ _ ND' H) as (A1 & A2 & A3). cbn [with_blocks l_size l_vps] in A1, A2.
    split; [rewrite A1; tauto|]. split; [rewrite A2; tauto|].
    assert (G2 : forall j, l_get (with_blocks lb1 (aset i nb (l_blocks lb1))) j = if idx_eqb j i then Some nb else l_get lb1 j).
    { intros j. unfold l_get. cbn [with_blocks l_blocks]. apply alookup_aset. }
    intros j. specialize (A3 j). destruct (in_dec idx_eq_dec j (i :: is)) as [HI|HI]; destruct (in_dec idx_eq_dec j is) as [HJ|HJ].
    + assert (j <> i) by (intros ->; contradiction).
      rewrite G2, G1, idx_eqb_neq in A3 by auto.
      change (fresh_block (with_blocks lb1 _) j) with (fresh_block lb1 j) in A3. rewrite FB in A3. exact A3.
    + assert (j = i) as -> by (destruct HI; [auto|contradiction]). rewrite Es. exists nb. split; auto.
      rewrite A3, G2, idx_eqb_refl. reflexivity.
    + exfalso. apply HI. right. auto.
    + assert (j <> i) by (intros ->; apply HI; left; auto). rewrite A3, G2, G1, !idx_eqb_neq by auto. reflexivity.
  - destruct (IH _ _ _ ND' H) as (A1 & A2 & A3). split; [rewrite A1; tauto|]. split; [rewrite A2; tauto|].
    intros j. specialize (A3 j). destruct (in_dec idx_eq_dec j (i :: is)) as [HI|HI]; destruct (in_dec idx_eq_dec j is) as [HJ|HJ].
    + assert (j <> i) by (intros ->; contradiction). rewrite G1, idx_eqb_neq in A3 by auto. rewrite FB in A3. exact A3.
    + assert (j = i) as -> by (destruct HI; [auto|contradiction]). rewrite Es, A3, FR1. reflexivity.
    + exfalso. apply HI. right. auto.
    + assert (j <> i) by (intros ->; apply HI; left; auto). rewrite A3, G1, idx_eqb_neq by auto. reflexivity.
Qed.

Lemma mergeBlock_spec : forall k (this other nb : Block k), mergeBlock this other = Ok nb ->
  b_size nb = b_size this /\ b_vps nb = b_vps this /\ b_origin nb = b_origin this /\
  if b_has_data other then
    b_has_data nb = true /\ b_updated nb = upd_all /\
    length (b_voxels nb) = length (b_voxels this) /\
    (forall n v, nth_error (b_voxels nb) n = Some v ->
       exists a b, nth_error (b_voxels other) n = Some a /\ nth_error (b_voxels this) n = Some b /\
         merge_vox k a b = Some v)
  else nb = this.
Proof.
  intros k this other nb H. unfold mergeBlock in H. destruct (_ && _); [|discriminate].
  destruct (b_has_data other); cbn [negb] in H; [|injection H as <-; auto].
  destruct (merge_voxels k (b_voxels other) (b_voxels this)) as [vs|] eqn:M; [|discriminate].
  injection H as <-. cbn [set_voxels set_updated set_has_data b_size b_vps b_origin b_has_data b_updated b_voxels].
  repeat (split; [reflexivity|]).
  revert M. generalize (b_voxels other), (b_voxels this). intros A B. revert B vs.
  induction A as [|x A IH]; intros [|y B] vs M; cbn [merge_voxels] in M; try discriminate.
  - injection M as <-. split; [reflexivity|]. intros [|n] v E; discriminate.
  - destruct (merge_vox k x y) as [z|] eqn:Z1; [|discriminate].
    destruct (merge_voxels k A B) as [c|] eqn:Z2; [|discriminate]. injection M as <-.
    destruct (IH B c Z2) as [L Hn]. split; [cbn; lia|].
    intros [|n] v E; cbn [nth_error] in *.
    + injection E as <-. eauto.
    + apply Hn; auto.
Qed.
