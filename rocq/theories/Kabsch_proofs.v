(** Least squares alignment: proofs. *)
From Coq Require Import ZArith List Bool Reals Lra Lia.
From Flocq Require Import Core.
From Verif Require Import Types Kabsch Kabsch_spec.
Import ListNotations.
Open Scope R_scope.

Lemma v3_eq : forall A (a b c a' b' c' : A), a = a' -> b = b' -> c = c' -> V3 a b c = V3 a' b' c'.
Proof. intros; subst; reflexivity. Qed.
Ltac mats := repeat match goal with
  | m : v3 (v3 R) |- _ => let a := fresh "k" in let b := fresh "k" in let c := fresh "k" in destruct m as [a b c]
  | m : mat3 |- _ => let a := fresh "k" in let b := fresh "k" in let c := fresh "k" in destruct m as [a b c]
  | p : v3 R |- _ => let a := fresh "e" in let b := fresh "e" in let c := fresh "e" in destruct p as [a b c] end.
Definition mul (a b : v3 (v3 R)) : v3 (v3 R) := map3 (fun r => map3 (ip r) (columns b)) a.
Definition ident : v3 (v3 R) := V3 (V3 1 0 0) (V3 0 1 0) (V3 0 0 1).
Ltac mring := unfold mul, columns, map3, ip, volume; cbn [vx vy vz]; repeat apply v3_eq; ring.
Lemma mul_assoc : forall a b c, mul a (mul b c) = mul (mul a b) c.
Proof. intros. mats. mring. Qed.
Lemma columns_mul : forall a b, columns (mul a b) = mul (columns b) (columns a).
Proof. intros. mats. mring. Qed.
Lemma columns_columns : forall a, columns (columns a) = a.
Proof. intros. mats. reflexivity. Qed.
Lemma volume_mul : forall a b, volume (mul a b) = volume a * volume b.
Proof. intros. mats. unfold mul, columns, map3, ip, volume; cbn [vx vy vz]. ring. Qed.
Lemma volume_columns : forall a, volume (columns a) = volume a.
Proof. intros. mats. unfold columns, volume; cbn [vx vy vz]. ring. Qed.
Lemma mul_ident : forall a, mul a ident = a.
Proof. intros. mats. unfold ident. mring. Qed.
Lemma ip_sym : forall a b, ip a b = ip b a.
Proof. intros. unfold ip. ring. Qed.
Lemma unit_mul : forall a, unit_rows a -> mul a (columns a) = ident.
Proof.
  intros a (A1 & A2 & A3 & A4 & A5 & A6). unfold mul. rewrite columns_columns. unfold map3, ident. cbn [vx vy vz].
  rewrite A1, A2, A3, A4, A5, A6, (ip_sym (vy a) (vx a)), (ip_sym (vz a) (vx a)), (ip_sym (vz a) (vy a)), A4, A5, A6. reflexivity.
Qed.
Lemma mul_unit : forall a, mul a (columns a) = ident -> unit_rows a.
Proof.
  intros a E. unfold mul in E. rewrite columns_columns in E. unfold map3, ident in E. cbn [vx vy vz] in E.
  injection E; intros. repeat split; assumption.
Qed.
Lemma orth_columns : forall a, orthogonal a -> orthogonal (columns a).
Proof. intros a (A & B). split; [exact B|rewrite columns_columns; exact A]. Qed.
Lemma orth_mul : forall a b, orthogonal a -> orthogonal b -> orthogonal (mul a b).
Proof.
  assert (G : forall a b, unit_rows a -> unit_rows b -> unit_rows (mul a b)).
  { intros a b A B. apply mul_unit. rewrite columns_mul, mul_assoc, <- (mul_assoc a b), (unit_mul b B), mul_ident. apply unit_mul. exact A. }
  intros a b (A1 & A2) (B1 & B2). split; [apply G; assumption|]. rewrite columns_mul. apply G; assumption.
Qed.
Lemma orth_volume : forall a, orthogonal a -> volume a = 1 \/ volume a = -1.
Proof.
  intros a (A & _). apply unit_mul in A. assert (E : volume (mul a (columns a)) = 1) by (rewrite A; unfold volume, ident; cbn [vx vy vz]; ring).
  rewrite volume_mul, volume_columns in E. assert (F : (volume a - 1) * (volume a + 1) = 0) by lra. apply Rmult_integral in F. destruct F; [left | right]; lra.
Qed.
(** a matrix that mirrors has trace at most 1 *)
Lemma cofactor : forall w, unit_rows w -> volume w = -1 ->
  vx (vx w) = - (vy (vy w) * vz (vz w) - vz (vy w) * vy (vz w)) /\
  vy (vx w) = - (vz (vy w) * vx (vz w) - vx (vy w) * vz (vz w)) /\
  vz (vx w) = - (vx (vy w) * vy (vz w) - vy (vy w) * vx (vz w)).
Proof.
  intros w (A1 & A2 & A3 & A4 & A5 & A6) D. destruct w as [[r r0 r1] [r2 r3 r4] [r5 r6 r7]]. unfold ip, volume in *. cbn [vx vy vz] in *.
  set (c1 := r3 * r7 - r4 * r6) in *. set (c2 := r4 * r5 - r2 * r7) in *. set (c3 := r2 * r6 - r3 * r5) in *.
  assert (L : c1 * c1 + c2 * c2 + c3 * c3 = 1).
  { unfold c1, c2, c3. transitivity ((r2 * r2 + r3 * r3 + r4 * r4) * (r5 * r5 + r6 * r6 + r7 * r7) - (r2 * r5 + r3 * r6 + r4 * r7) * (r2 * r5 + r3 * r6 + r4 * r7)); [ring|]. rewrite A2, A3, A6. ring. }
  assert (S : (r + c1) * (r + c1) + (r0 + c2) * (r0 + c2) + (r1 + c3) * (r1 + c3) = 0).
  { transitivity ((r * r + r0 * r0 + r1 * r1) + 2 * (r * c1 + r0 * c2 + r1 * c3) + (c1 * c1 + c2 * c2 + c3 * c3)); [ring|]. rewrite A1, D, L. ring. }
  assert (Z : forall x y z : R, x * x + y * y + z * z = 0 -> x = 0 /\ y = 0 /\ z = 0).
  { intros x y z E. pose proof (Rle_0_sqr x) as X. pose proof (Rle_0_sqr y) as Y. pose proof (Rle_0_sqr z) as W. unfold Rsqr in *.
    repeat split; apply Rsqr_0_uniq; unfold Rsqr; lra. }
  destruct (Z _ _ _ S) as (Z1 & Z2 & Z3). repeat split; lra.
Qed.
Lemma mirror_trace : forall w, orthogonal w -> volume w = -1 -> vx (vx w) + vy (vy w) + vz (vz w) <= 1.
Proof.
  intros w (U & C) D. pose proof (cofactor w U D) as (K1 & _ & _).
  assert (K2 : vy (vy w) = - (vz (vz w) * vx (vx w) - vx (vz w) * vz (vx w)) /\ vz (vz w) = - (vx (vx w) * vy (vy w) - vy (vx w) * vx (vy w))).
  { (* the same for the rows taken in turn *)
    pose proof (cofactor (V3 (vy w) (vz w) (vx w))) as Q2. pose proof (cofactor (V3 (vz w) (vx w) (vy w))) as Q3.
    destruct U as (A1 & A2 & A3 & A4 & A5 & A6).
    destruct Q2 as (_ & Q2 & _). { repeat split; cbn [vx vy vz]; try assumption; rewrite ip_sym; assumption. } { rewrite <- D. unfold volume. cbn [vx vy vz]. ring. }
    destruct Q3 as (_ & _ & Q3). { repeat split; cbn [vx vy vz]; try assumption; rewrite ip_sym; assumption. } { rewrite <- D. unfold volume. cbn [vx vy vz]. ring. }
    cbn [vx vy vz] in Q2, Q3. split; assumption. }
  destruct K2 as (K2 & K3). destruct U as (A1 & A2 & A3 & _). destruct C as (C1 & C2 & C3 & _). destruct w as [[a b c] [d e f] [g h i]]. unfold ip, columns in *. cbn [vx vy vz] in *.
  set (t0 := 1 - (a + e + i)). assert (P1 : t0 * (1 - a + e + i) = (h - f) * (h - f)).
  { transitivity ((1 - a) * (1 - a) - (e * e + i * i) - 2 * (e * i)); [unfold t0; ring|].
    assert (E1 : e * i = f * h - a) by lra. assert (E2 : e * e + i * i + f * f + h * h = 1 + a * a) by lra. replace ((h - f) * (h - f)) with (f * f + h * h - 2 * (f * h)) by ring. lra. }
  assert (P2 : t0 * (1 - e + a + i) = (g - c) * (g - c)).
  { transitivity ((1 - e) * (1 - e) - (a * a + i * i) - 2 * (i * a)); [unfold t0; ring|].
    assert (E1 : i * a = g * c - e) by lra. assert (E2 : a * a + i * i + g * g + c * c = 1 + e * e) by lra. replace ((g - c) * (g - c)) with (g * g + c * c - 2 * (g * c)) by ring. lra. }
  assert (P3 : t0 * (1 - i + a + e) = (d - b) * (d - b)).
  { transitivity ((1 - i) * (1 - i) - (a * a + e * e) - 2 * (a * e)); [unfold t0; ring|].
    assert (E1 : a * e = b * d - i) by lra. assert (E2 : a * a + e * e + b * b + d * d = 1 + i * i) by lra. replace ((d - b) * (d - b)) with (d * d + b * b - 2 * (b * d)) by ring. lra. }
  assert (SQ : forall x : R, 0 <= x * x) by (intros; apply Rle_0_sqr).
  pose proof (SQ (h - f)) as S1. pose proof (SQ (g - c)) as S2. pose proof (SQ (d - b)) as S3. rewrite <- P1 in S1. rewrite <- P2 in S2. rewrite <- P3 in S3.
  destruct (Rle_dec 0 t0) as [G | G]; [unfold t0 in G; lra|]. exfalso.
  assert (N : forall x, 0 <= t0 * x -> x <= 0).
  { intros x X. destruct (Rle_dec x 0) as [Y | Y]; [exact Y|]. assert (0 < (- t0) * x) by (apply Rmult_lt_0_compat; lra). lra. }
  apply N in S1. apply N in S2. apply N in S3. unfold t0 in G. lra.
Qed.
Lemma diag_le : forall w, unit_rows w -> vx (vx w) <= 1 /\ vy (vy w) <= 1 /\ vz (vz w) <= 1.
Proof.
  intros w (A1 & A2 & A3 & _). unfold ip in *. assert (G : forall x y z : R, x * x + (y * y + z * z) = 1 -> x <= 1).
  { intros x y z E. destruct (Rle_dec x 1); [assumption|]. pose proof (Rle_0_sqr y). pose proof (Rle_0_sqr z). unfold Rsqr in *. nra. }
  split; [|split]; [eapply G with (y := vy (vx w)) (z := vz (vx w))|eapply G with (y := vx (vy w)) (z := vz (vy w))|eapply G with (y := vx (vz w)) (z := vy (vz w))]; lra.
Qed.
Lemma weighted_trace : forall w s1 s2 s3, orthogonal w -> s1 >= s2 -> s2 >= s3 -> s3 >= 0 ->
  s1 * vx (vx w) + s2 * vy (vy w) + s3 * vz (vz w) <= s1 + s2 + volume w * s3.
Proof.
  intros w s1 s2 s3 O H1 H2 H3. destruct (diag_le w (proj1 O)) as (D1 & D2 & D3). destruct (orth_volume w O) as [V | V]; rewrite V.
  - assert (M : forall s x, 0 <= s -> x <= 1 -> s * x <= s * 1) by (intros; apply Rmult_le_compat_l; assumption).
    pose proof (M s1 _ ltac:(lra) D1). pose proof (M s2 _ ltac:(lra) D2). pose proof (M s3 _ ltac:(lra) D3). lra.
  - pose proof (mirror_trace w O V) as T. set (a := vx (vx w)) in *. set (b := vy (vy w)) in *. set (c := vz (vz w)) in *.
    replace (s1 * a + s2 * b + s3 * c) with ((s1 - s2) * a + (s2 - s3) * (a + b) + s3 * (a + b + c)) by ring.
    assert (M : forall s x k, 0 <= s -> x <= k -> s * x <= s * k) by (intros; apply Rmult_le_compat_l; assumption).
    pose proof (M (s1 - s2) a 1 ltac:(lra) D1). pose proof (M (s2 - s3) (a + b) 2 ltac:(lra) ltac:(lra)). pose proof (M s3 _ 1 ltac:(lra) T). lra.
Qed.

(** the part of the error that depends on the rotation *)
Definition gain (r h : v3 (v3 R)) : R := ip (vx r) (vx (columns h)) + ip (vy r) (vy (columns h)) + ip (vz r) (vz (columns h)).
Lemma gain_svd : forall r u v s1 s2 s3, let e a b := s1 * (vx a * vx b) + s2 * (vy a * vy b) + s3 * (vz a * vz b) in
  gain r (map3 (fun a => map3 (e a) v) u) = let w := mul (mul (columns v) r) u in s1 * vx (vx w) + s2 * vy (vy w) + s3 * vz (vz w).
Proof. intros. mats. unfold e, gain, mul, columns, map3, ip. cbn [vx vy vz]. ring. Qed.
Lemma mul_t_mul : forall v u, m3_mul_t v u = mul v (columns u).
Proof. intros. mats. unfold m3_mul_t, row_dot. mring. Qed.
Lemma det_volume : forall m, m3_det m = volume m.
Proof. intros. mats. unfold m3_det, volume. cbn [vx vy vz]. ring. Qed.
Lemma flip_mul : forall v, m3_flip v = mul v (m3_flip ident).
Proof. intros. mats. unfold m3_flip, ident. mring. Qed.
Lemma flip_orth : orthogonal (m3_flip ident) /\ volume (m3_flip ident) = -1.
Proof. unfold orthogonal, unit_rows, m3_flip, ident, columns, ip, volume, map3. cbn [vx vy vz]. repeat split; ring. Qed.
Lemma rotation3_best : forall svd l u v, svd (H3 l) = (u, v) -> svd_of (H3 l) u v ->
  rotation (rotation3 svd l) /\ forall r, rotation r -> gain r (H3 l) <= gain (rotation3 svd l) (H3 l).
Proof.
  intros svd l u v E (OU & OV & s1 & s2 & s3 & H1 & H2 & H3' & HE). cbn zeta in HE. unfold rotation3. rewrite E, !det_volume. set (h := H3 l) in *. rewrite HE. clear E HE h. destruct flip_orth as (FO & FV).
  set (v' := if Rlt_bool (volume u * volume v) 0 then m3_flip v else v).
  assert (V' : orthogonal v' /\ volume v' * volume u = 1 /\ mul (columns v) v' = V3 (V3 1 0 0) (V3 0 1 0) (V3 0 0 (volume v * volume u))).
  { pose proof (unit_mul (columns v) (proj2 OV)) as I. rewrite columns_columns in I.
    unfold v'. destruct (orth_volume u OU) as [EU | EU]; destruct (orth_volume v OV) as [EV | EV]; rewrite EU, EV; match goal with |- context [Rlt_bool ?x 0] => destruct (Rlt_bool_spec x 0) as [L | L] end; try (exfalso; lra).
    all: try (split; [exact OV|]; split; [rewrite EV; ring|rewrite I; unfold ident; repeat apply v3_eq; ring]).
    all: rewrite (flip_mul v); split; [apply orth_mul; assumption|]; split; [rewrite volume_mul, FV, EV; ring|]; rewrite mul_assoc, I; unfold ident, m3_flip; mring. }
  destruct V' as (O' & D' & I'). rewrite mul_t_mul. split.
  - split; [apply orth_mul; [exact O'|apply orth_columns, OU]|]. rewrite volume_mul, volume_columns. exact D'.
  - intros r (RO & RV). rewrite !gain_svd. cbn zeta.
    pose proof (unit_mul (columns u) (proj2 OU)) as IU. rewrite columns_columns in IU.
    rewrite (mul_assoc (columns v) v' (columns u)), <- (mul_assoc (mul (columns v) v') (columns u) u), IU, mul_ident, I'. cbn [vx vy vz].
    set (w := mul (mul (columns v) r) u). assert (W : orthogonal w) by (apply orth_mul; [apply orth_mul; [apply orth_columns, OV|exact RO]|exact OU]).
    pose proof (weighted_trace w s1 s2 s3 W H1 H2 H3') as T. assert (VW : volume w = volume v * volume u) by (unfold w; rewrite !volume_mul, volume_columns, RV; ring). rewrite VW in T. lra.
Qed.

(** yaw only *)
Lemma orth2 : forall m : mat2, fst (fst m) * fst (fst m) + snd (fst m) * snd (fst m) = 1 -> fst (snd m) * fst (snd m) + snd (snd m) * snd (snd m) = 1 ->
  fst (fst m) * fst (snd m) + snd (fst m) * snd (snd m) = 0 -> exists a b e, (e = 1 \/ e = -1) /\ a * a + b * b = 1 /\ m = ((a, b), (- e * b, e * a)).
Proof.
  intros ((a & b) & (c & d)). cbn [fst snd]. intros H1 H2 H3. exists a, b, (a * d - b * c).
  assert (E2 : (a * d - b * c) * (a * d - b * c) = 1).
  { transitivity ((a * a + b * b) * (c * c + d * d) - (a * c + b * d) * (a * c + b * d)); [ring|]. rewrite H1, H2, H3. ring. }
  split; [|split; [exact H1|]].
  - assert (F : (a * d - b * c - 1) * (a * d - b * c + 1) = 0) by lra. apply Rmult_integral in F. destruct F; [left | right]; lra.
  - f_equal. f_equal.
    + transitivity (c * (a * a + b * b) - a * (a * c + b * d)); [rewrite H1, H3; ring|ring].
    + transitivity (d * (a * a + b * b) - b * (a * c + b * d)); [rewrite H1, H3; ring|ring].
Qed.
Lemma angle_le : forall a b a' b' c s, a * a + b * b = 1 -> a' * a' + b' * b' = 1 -> c * c + s * s = 1 -> c * (a * a' + b * b') + s * (a * b' - b * a') <= 1.
Proof.
  intros a b a' b' c s H1 H2 H3. set (x := a * a' + b * b'). set (y := a * b' - b * a').
  assert (X : x * x + y * y = 1) by (unfold x, y; transitivity ((a * a + b * b) * (a' * a' + b' * b')); [ring|rewrite H1, H2; ring]).
  pose proof (Rle_0_sqr (c - x)) as Q1. pose proof (Rle_0_sqr (s - y)) as Q2. unfold Rsqr in *. lra.
Qed.
Lemma rotation2_best : forall svd l u v, svd (H2 l) = (u, v) -> svd2_of (H2 l) u v ->
  yaw (rotation2 svd l) /\ forall r, yaw r -> gain r (H3 l) <= gain (rotation2 svd l) (H3 l).
Proof.
  intros svd l u v E ((U1 & U2 & U3) & (V1 & V2 & V3') & s1 & s2 & S1 & S2 & HE). unfold rotation2. rewrite E. clear E.
  destruct (orth2 u U1 U2 U3) as (a & b & e & He & Ha & ->). destruct (orth2 v V1 V2 V3') as (a' & b' & e' & He' & Ha' & ->). clear U1 U2 U3 V1 V2 V3'.
  unfold H2 in HE. cbn [fst snd] in HE. injection HE. intros E4 E3 E2 E1. clear HE.
  unfold m2_det. cbn [fst snd].
  replace ((a * (e * a) - b * (- e * b)) * (a' * (e' * a') - b' * (- e' * b'))) with (e * e') by (transitivity (e * (a * a + b * b) * (e' * (a' * a' + b' * b'))); [rewrite Ha, Ha'; ring|ring]).
  unfold yaw, gain, H3, columns, ip, m2_mul_t, m2_flip. cbn [fst snd vx vy vz].
  set (xx := h_entry vx vx l) in *. set (xy := h_entry vx vy l) in *. set (yx := h_entry vy vx l) in *. set (yy := h_entry vy vy l) in *.
  set (zz := h_entry vz vz l) in *.
  assert (X : forall k x, 0 <= k -> x <= 1 -> zz + k * x <= zz + k * 1) by (intros k x K L; assert (k * x <= k * 1) by (apply Rmult_le_compat_l; assumption); lra).
  assert (Hb : a * a + - b * - b = 1) by lra.
  Ltac yaw_witness Ha Ha' := match goal with |- exists c s, _ /\ V3 (V3 ?x _ _) (V3 ?y _ _) _ = _ => exists x, y; split; [|repeat apply v3_eq; ring] end;
    match type of Ha with ?A = 1 => match type of Ha' with ?B = 1 => transitivity (A * B); [ring|rewrite Ha, Ha'; ring] end end.
  destruct He as [-> | ->]; destruct He' as [-> | ->]; match goal with |- context [Rlt_bool ?x 0] => destruct (Rlt_bool_spec x 0) as [L | L] end; try (exfalso; lra); cbn [fst snd vx vy vz].
  all: split; [yaw_witness Ha Ha'|]; intros r (c & s & Hc & ->); cbn [vx vy vz]; rewrite E1, E2, E3, E4;
    assert (Hs : c * c + - s * - s = 1) by lra.
  - pose proof (X (s1 + s2) _ ltac:(lra) (angle_le a b a' b' c (- s) Ha Ha' Hs)) as Q. replace 1 with ((a * a + b * b) * (a' * a' + b' * b')) in Q by (rewrite Ha, Ha'; ring). lra.
  - pose proof (X (s1 - s2) _ ltac:(lra) (angle_le a (- b) a' b' c s Hb Ha' Hc)) as Q. replace 1 with ((a * a + b * b) * (a' * a' + b' * b')) in Q by (rewrite Ha, Ha'; ring). lra.
  - pose proof (X (s1 - s2) _ ltac:(lra) (angle_le a (- b) a' b' c (- s) Hb Ha' Hs)) as Q. replace 1 with ((a * a + b * b) * (a' * a' + b' * b')) in Q by (rewrite Ha, Ha'; ring). lra.
  - pose proof (X (s1 + s2) _ ltac:(lra) (angle_le a b a' b' c s Ha Ha' Hc)) as Q. replace 1 with ((a * a + b * b) * (a' * a' + b' * b')) in Q by (rewrite Ha, Ha'; ring). lra.
Qed.
Lemma yaw_rotation : forall r, yaw r -> rotation r.
Proof.
  intros r (c & s & H & ->). unfold rotation, orthogonal, unit_rows, columns, ip, volume. cbn [vx vy vz]. repeat split; try ring; try lra.
Qed.

(** the error, split into what depends on the rotation and what depends on the translation *)
Definition sumf (f : matched -> R) (l : list matched) : R := rsum (map f l).
Lemma keeps_length : forall r p, orthogonal r -> ip (rotate r p) (rotate r p) = ip p p.
Proof.
  intros r p (_ & (C1 & C2 & C3 & C4 & C5 & C6)). destruct r as [[a b c] [d e f] [g h i]]. destruct p as [x y z]. unfold rotate, row_dot, map3, ip, columns in *. cbn [vx vy vz] in *.
  transitivity (x * x * (a * a + d * d + g * g) + y * y * (b * b + e * e + h * h) + z * z * (c * c + f * f + i * i) + 2 * (x * y) * (a * b + d * e + g * h) + 2 * (x * z) * (a * c + d * f + g * i) + 2 * (y * z) * (b * c + e * f + h * i)); [ring|].
  rewrite C1, C2, C3, C4, C5, C6. ring.
Qed.
Lemma remaining_split : forall r t l, orthogonal r ->
  remaining r t l = sumf (fun m => ip (fst m) (fst m) + ip (snd m) (snd m)) l - 2 * gain r (H3 l) +
    2 * ip t (zip3 Rminus (rotate r (V3 (sumf (fun m => vx (fst m)) l) (sumf (fun m => vy (fst m)) l) (sumf (fun m => vz (fst m)) l)))
                         (V3 (sumf (fun m => vx (snd m)) l) (sumf (fun m => vy (snd m)) l) (sumf (fun m => vz (snd m)) l))) + INR (length l) * ip t t.
Proof.
  intros r t l O. induction l as [|[p q] l IH].
  - unfold sumf, gain, H3, h_entry, columns, rotate, row_dot, map3, zip3, ip. cbn. ring.
  - cbn [remaining length]. rewrite IH. clear IH. rewrite S_INR. pose proof (keeps_length r p O) as K.
    set (x := zip3 Rminus (moved r t p) q).
    assert (X : ip x x = ip p p + ip q q - 2 * ip (rotate r p) q + 2 * ip t (zip3 Rminus (rotate r p) q) + ip t t).
    { rewrite <- K. unfold x, moved, rotate, row_dot, map3, zip3, ip. cbn [vx vy vz]. ring. }
    rewrite X. clear x X K. unfold sumf, rsum, gain, H3, h_entry, columns, rotate, row_dot, map3, zip3, ip. cbn [map fold_right vx vy vz fst snd]. unfold rsum. cbn [map fold_right vx vy vz fst snd]. ring.
Qed.
Lemma remaining_shift : forall r t (a b : v3 R) l,
  remaining r t l = remaining r (zip3 Rminus (zip3 Rplus (rotate r a) t) b) (map (fun m => (demean a (fst m), demean b (snd m))) l).
Proof.
  intros r t a b l. induction l as [|[p q] l IH]; [reflexivity|]. cbn [map remaining fst snd]. rewrite IH. f_equal.
  unfold moved, rotate, row_dot, demean, map3, zip3, ip. cbn [vx vy vz]. ring.
Qed.
Lemma sum_demeaned : forall (f g : v3 R -> R) (pick : matched -> v3 R) l, l <> [] ->
  sumf (fun m => f (pick m) - mean_of f (map pick l)) l = 0.
Proof.
  intros f g pick l NE. assert (G : forall k l', sumf (fun m => f (pick m) - k) l' = rsum (map f (map pick l')) - INR (length l') * k).
  { intros k l'. induction l' as [|m l' IH]; [unfold sumf; cbn; ring|]. cbn [length]. rewrite S_INR. unfold sumf in *. cbn [map rsum fold_right] in *. unfold rsum in *. rewrite IH. ring. }
  rewrite G. unfold mean_of. rewrite map_length. assert (0 < INR (length l)). { apply lt_0_INR. destruct l; [congruence|cbn; lia]. } field. lra.
Qed.
Lemma demeaned_zero : forall l, l <> [] ->
  V3 (sumf (fun m => vx (fst m)) (demeaned l)) (sumf (fun m => vy (fst m)) (demeaned l)) (sumf (fun m => vz (fst m)) (demeaned l)) = V3 0 0 0 /\
  V3 (sumf (fun m => vx (snd m)) (demeaned l)) (sumf (fun m => vy (snd m)) (demeaned l)) (sumf (fun m => vz (snd m)) (demeaned l)) = V3 0 0 0.
Proof.
  intros l NE. unfold demeaned, sumf. rewrite !map_map. cbn [fst snd]. unfold demean, zip3, center. cbn [vx vy vz].
  split; apply v3_eq; match goal with |- rsum (map (fun m => ?f (?p m) - _) l) = 0 => apply (sum_demeaned f f p l NE) end.
Qed.
Lemma remaining_centered : forall r t l, l <> [] -> orthogonal r ->
  let e := zip3 Rminus (zip3 Rplus (rotate r (center (map fst l))) t) (center (map snd l)) in
  remaining r t l = sumf (fun m => ip (fst m) (fst m) + ip (snd m) (snd m)) (demeaned l) - 2 * gain r (H3 (demeaned l)) + INR (length l) * ip e e.
Proof.
  intros r t l NE O e. rewrite (remaining_shift r t (center (map fst l)) (center (map snd l)) l). fold e. change (map (fun m => (demean (center (map fst l)) (fst m), demean (center (map snd l)) (snd m))) l) with (demeaned l).
  rewrite (remaining_split r e _ O). destruct (demeaned_zero l NE) as (-> & ->). assert (LE : @length (v3 R * v3 R) (demeaned l) = @length (v3 R * v3 R) l) by (unfold demeaned; apply map_length). rewrite LE.
  unfold rotate, row_dot, zip3, map3. cbn [vx vy vz]. set (g := gain _ _). set (k := sumf _ _). set (n := INR _). unfold ip. cbn [vx vy vz]. ring.
Qed.

Lemma mean_center : forall ps, center ps = mean ps.
Proof.
  intros ps. unfold center, mean, mean_of, map3. assert (E : rsum (map vx ps) = vx (total ps) /\ rsum (map vy ps) = vy (total ps) /\ rsum (map vz ps) = vz (total ps)).
  { induction ps as [|p ps (I1 & I2 & I3)]; [repeat split|]. unfold rsum in *. cbn [map fold_right total]. unfold zip3. cbn [vx vy vz]. rewrite I1, I2, I3. repeat split. }
  destruct E as (-> & -> & ->). reflexivity.
Qed.
Lemma scatter_H3 : forall l, scatter l = H3 (demeaned l).
Proof.
  intros l. unfold scatter, demeaned. rewrite <- !mean_center. set (a := center (map fst l)). set (b := center (map snd l)). clearbody a b.
  induction l as [|[p q] l IH]; [reflexivity|]. cbn [products]. rewrite IH. unfold H3, h_entry, rsum, demean, zip3, map3. cbn [map fold_right vx vy vz fst snd]. reflexivity.
Qed.
Lemma flat_H2 : forall l, flat (scatter l) = H2 (demeaned l).
Proof. intros l. rewrite scatter_H3. reflexivity. Qed.
