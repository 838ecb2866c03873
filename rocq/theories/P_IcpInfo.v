(** C114: how much an alignment step counts. *)
From Coq Require Import ZArith List Bool Reals Lra Lia.
From Flocq Require Import Core.
From Verif Require Import F32 F32_lemmas F32_err Types IcpInfo IcpInfo_spec Esdf_range.
Import ListNotations.
Open Scope R_scope.

Lemma rnd_bpow : forall e, (-149 <= e)%Z -> rnd32 (bpow radix2 e) = bpow radix2 e.
Proof. intros e He. pose proof (rnd32_exact 1 e ltac:(lia) He) as E. rewrite Rmult_1_l in E. exact E. Qed.
Lemma small_rnd : forall x hi, 0 <= x <= hi -> hi <= bpow radix2 127 -> rnd32 hi = hi -> Rabs (rnd32 x) < max32 /\ 0 <= rnd32 x <= hi.
Proof.
  intros x hi (X0 & X1) H E. split; [apply rnd32_small; rewrite Rabs_pos_eq; lra|]. split; [rewrite <- rnd32_0|rewrite <- E]; apply rnd32_le; assumption.
Qed.
(** products that are not negative *)
Lemma mul_pos : forall a b x y, ffin a = true -> ffin b = true -> 0 <= FR a * FR b -> Rabs (FR a) <= bpow radix2 x -> Rabs (FR b) <= bpow radix2 y ->
  (-149 <= x + y <= 127)%Z -> between 0 (bpow radix2 (x + y)) (fmul a b).
Proof.
  intros a b x y Fa Fb P A B L.
  assert (U : FR a * FR b <= bpow radix2 (x + y)). { rewrite bpow_plus. rewrite <- (Rabs_pos_eq (FR a * FR b)) by exact P. rewrite Rabs_mult. apply Rmult_le_compat; auto using Rabs_pos. }
  destruct (small_rnd (FR a * FR b) (bpow radix2 (x + y))) as (S1 & S2); [lra|apply bpow_le; lia|apply rnd_bpow; lia|].
  destruct (fmul_R a b Fa Fb S1) as (E & F). split; [exact F|]. rewrite E. exact S2.
Qed.
Lemma mul_sign : forall a b x y, ffin a = true -> ffin b = true -> 0 <= FR a -> Rabs (FR a) <= bpow radix2 x -> Rabs (FR b) <= bpow radix2 y ->
  (-149 <= x + y <= 127)%Z -> ffin (fmul a b) = true /\ Rabs (FR (fmul a b)) <= bpow radix2 (x + y) /\ 0 <= FR (fmul a b) * FR b.
Proof.
  intros a b x y Fa Fb P A B L.
  assert (U : Rabs (FR a * FR b) <= bpow radix2 (x + y)). { rewrite bpow_plus, Rabs_mult. apply Rmult_le_compat; auto using Rabs_pos. }
  destruct (small_rnd (Rabs (FR a * FR b)) (bpow radix2 (x + y))) as (S1 & S2); [split; [apply Rabs_pos|exact U]|apply bpow_le; lia|apply rnd_bpow; lia|].
  rewrite rnd32_abs in S1, S2. rewrite Rabs_pos_eq in S1 by apply Rabs_pos.
  destruct (fmul_R a b Fa Fb S1) as (E & F). split; [exact F|]. rewrite E. split; [apply S2|].
  destruct (Rle_dec 0 (FR b)) as [Q | Q].
  - apply Rmult_le_pos; [|exact Q]. rewrite <- rnd32_0. apply rnd32_le. apply Rmult_le_pos; assumption.
  - assert (N : rnd32 (FR a * FR b) <= 0). { rewrite <- rnd32_0. apply rnd32_le. assert (0 <= FR a * - FR b) by (apply Rmult_le_pos; lra). lra. }
    assert (0 <= - rnd32 (FR a * FR b) * - FR b) by (apply Rmult_le_pos; lra). lra.
Qed.
Lemma sq_between : forall p n, ffin p = true -> Rabs (FR p) <= bpow radix2 20 -> ffin n = true -> Rabs (FR n) <= 2 -> between 0 (bpow radix2 42) (fmul (fmul (fmul p p) n) n).
Proof.
  intros p n Fp Bp Fn Bn. change 2 with (bpow radix2 1) in Bn. destruct (mul_pos p p 20 20 Fp Fp (Rle_0_sqr _) Bp Bp ltac:(lia)) as (F1 & L1 & U1).
  destruct (mul_sign (fmul p p) n (20 + 20) 1 F1 Fn L1) as (F2 & U2 & S2); [rewrite Rabs_pos_eq; assumption|exact Bn|lia|].
  exact (mul_pos (fmul (fmul p p) n) n (20 + 20 + 1) 1 F2 Fn S2 U2 Bn ltac:(lia)).
Qed.
Lemma add_between : forall a b k j e, (-149 <= e <= 90)%Z -> (0 <= k)%Z -> (0 <= j)%Z -> (k + j <= 2 ^ 24)%Z -> between 0 (IZR k * bpow radix2 e) a -> between 0 (IZR j * bpow radix2 e) b ->
  between 0 (IZR (k + j) * bpow radix2 e) (fadd a b) /\ FR a <= FR (fadd a b) /\ FR b <= FR (fadd a b).
Proof.
  intros a b k j e He Hk Hj Hs (Fa & La & Ua) (Fb & Lb & Ub). pose proof (bpow_gt_0 radix2 e) as BP.
  assert (Big : IZR (k + j) * bpow radix2 e <= bpow radix2 127).
  { apply Rle_trans with (bpow radix2 24 * bpow radix2 90); [|rewrite <- bpow_plus; apply bpow_le; lia].
    apply Rmult_le_compat; [apply IZR_le; lia|lra| |apply bpow_le; lia]. change (bpow radix2 24) with (IZR (2 ^ 24)). apply IZR_le. exact Hs. }
  destruct (small_rnd (FR a + FR b) (IZR (k + j) * bpow radix2 e)) as (S1 & S2); [rewrite plus_IZR; lra|exact Big|apply rnd32_exact; lia|].
  destruct (fadd_R a b Fa Fb S1) as (E & F). split; [split; [exact F|rewrite E; exact S2]|]. rewrite E.
  split; [rewrite <- (rnd32_FR a) at 1|rewrite <- (rnd32_FR b) at 1]; apply rnd32_le; lra.
Qed.
Lemma twice_between : forall x e, (-149 <= e <= 100)%Z -> between 0 (bpow radix2 e) x -> between 0 (bpow radix2 (1 + e)) (twice x).
Proof.
  intros x e He (F & L & U). unfold twice. destruct (f32_of_Z_R 2 ltac:(lia)) as (E2 & F2). apply mul_pos; auto; rewrite ?E2; try lia.
  - apply Rmult_le_pos; lra.
  - rewrite Rabs_pos_eq by lra. cbn; lra.
  - rewrite Rabs_pos_eq; assumption.
Qed.
Lemma lever_between : forall p q m n, ffin p = true -> Rabs (FR p) <= bpow radix2 20 -> ffin q = true -> Rabs (FR q) <= bpow radix2 20 ->
  ffin m = true -> Rabs (FR m) <= 2 -> ffin n = true -> Rabs (FR n) <= 2 -> between 0 (bpow radix2 44) (twice (lever p q m n)).
Proof.
  intros p q m n Fp Bp Fq Bq Fm Bm Fn Bn. apply (twice_between _ 43); [lia|]. unfold lever.
  destruct (add_between (fmul (fmul (fmul p p) n) n) (fmul (fmul (fmul q q) m) m) 1 1 42) as ((F & L) & _); try lia; try (rewrite Rmult_1_l; apply sq_between; assumption).
  split; [exact F|]. change (IZR (1 + 1)) with (bpow radix2 1) in L. rewrite <- bpow_plus in L. exact L.
Qed.
Lemma square_between : forall n, ffin n = true -> Rabs (FR n) <= 2 -> between 0 (bpow radix2 44) (twice (fmul n n)).
Proof.
  intros n F B. change 2 with (bpow radix2 1) in B. destruct (mul_pos n n 1 1 F F (Rle_0_sqr _) B B ltac:(lia)) as (F1 & L1 & U1).
  destruct (twice_between (fmul n n) 2 ltac:(lia)) as (F2 & L2 & U2); [split; [exact F1|split; assumption]|]. split; [exact F2|]. split; [exact L2|]. eapply Rle_trans; [exact U2|]. apply bpow_le. lia.
Qed.

(** one matched point adds to every entry *)
Definition upto_k (k : Z) (i : info6) : Prop := each (between 0 (IZR k * bpow radix2 44)) i.
Lemma info_step : forall m i k, usable_match m -> (0 <= k)%Z -> (k + 1 <= 2 ^ 24)%Z -> upto_k k i ->
  upto_k (k + 1) (addNormalizedPointInfo (fst m) (snd m) i) /\ rel no_less i (addNormalizedPointInfo (fst m) (snd m) i).
Proof.
  intros m i k (((Px & Bx) & (Py & By) & (Pz & Bz)) & ((Nx & Cx) & (Ny & Cy) & (Nz & Cz))) Hk Hk1 ((I1 & I2 & I3) & (I4 & I5 & I6)).
  assert (A : forall s x, between 0 (IZR k * bpow radix2 44) s -> between 0 (bpow radix2 44) x -> between 0 (IZR (k + 1) * bpow radix2 44) (fadd s x) /\ no_less s (fadd s x)).
  { intros s x S X. destruct (add_between s x k 1 44) as (Q1 & Q2 & _); try lia; auto. rewrite Rmult_1_l. exact X. }
  destruct (A _ _ I1 (square_between _ Nx Cx)) as (U1 & V1). destruct (A _ _ I2 (square_between _ Ny Cy)) as (U2 & V2). destruct (A _ _ I3 (square_between _ Nz Cz)) as (U3 & V3').
  destruct (A _ _ I4 (lever_between _ _ _ _ Py By Pz Bz Ny Cy Nz Cz)) as (U4 & V4). destruct (A _ _ I5 (lever_between _ _ _ _ Px Bx Pz Bz Nx Cx Nz Cz)) as (U5 & V5).
  destruct (A _ _ I6 (lever_between _ _ _ _ Px Bx Py By Nx Cx Ny Cy)) as (U6 & V6).
  unfold addNormalizedPointInfo, upto_k, each, rel, entries, zip3, map3. cbn [fst snd vx vy vz]. split; [repeat split; (apply U1 || apply U2 || apply U3 || apply U4 || apply U5 || apply U6)|].
  repeat (apply Forall2_cons; [assumption|]). apply Forall2_nil.
Qed.
Lemma rel_refl : forall i, rel no_less i i.
Proof. intros i. unfold rel, no_less. induction (entries i); constructor; auto. lra. Qed.
Lemma rel_trans : forall a b c, rel no_less a b -> rel no_less b c -> rel no_less a c.
Proof.
  intros a b c. unfold rel. generalize (entries a) (entries b) (entries c). intros x y z H. revert z. induction H as [|p q x y H1 H2 IH]; intros z Q; inversion Q; subst; constructor; auto.
  unfold no_less in *. lra.
Qed.
Lemma info_fold : forall ms i k, Forall usable_match ms -> (0 <= k)%Z -> (k + Z.of_nat (length ms) <= 2 ^ 24)%Z -> upto_k k i ->
  let r := fold_left (fun i m => addNormalizedPointInfo (fst m) (snd m) i) ms i in upto_k (k + Z.of_nat (length ms)) r /\ rel no_less i r.
Proof.
  induction ms as [|m ms IH]; intros i k U Hk HL B; cbn [fold_left].
  - cbn [length]. rewrite Z.add_0_r. split; [exact B|apply rel_refl].
  - inversion U; subst. cbn [length] in *. destruct (info_step m i k H1 Hk ltac:(lia) B) as (S1 & S2).
    destruct (IH _ (k + 1)%Z H2 ltac:(lia) ltac:(lia) S1) as (R1 & R2). replace (k + Z.of_nat (Datatypes.S (length ms)))%Z with (k + 1 + Z.of_nat (length ms))%Z by lia. split; [exact R1|]. eapply rel_trans; eassumption.
Qed.
Lemma eps_between : between (/ 2097152) 1 kEpsilon.
Proof. split; [reflexivity|]. unfold kEpsilon, fbits, FR. cbn. unfold F2R. cbn. lra. Qed.
Lemma start_upto : upto_k 1 (V3 kEpsilon kEpsilon kEpsilon, V3 kEpsilon kEpsilon kEpsilon).
Proof.
  destruct eps_between as (F & L). assert (B : 1 <= IZR 1 * bpow radix2 44) by (rewrite Rmult_1_l; change 1 with (bpow radix2 0); apply bpow_le; lia).
  repeat split; cbn [fst snd vx vy vz]; try exact F; lra.
Qed.
(** C114. The information of a mini-batch is finite and positive in all six directions, and
    every further matched point adds to it. *)
Theorem C114_information : forall ms ms', Forall usable_match (ms ++ ms') -> (length (ms ++ ms') <= 2 ^ 20)%nat ->
  each (between (/ 2097152) (bpow radix2 66)) (batch_info ms) /\ rel no_less (batch_info ms) (batch_info (ms ++ ms')).
Proof.
  intros ms ms' U L. apply Forall_app in U. destruct U as (U1 & U2). assert (LZ : (Z.of_nat (length ms) + Z.of_nat (length ms') <= 2 ^ 20)%Z).
  { rewrite app_length in L. apply inj_le in L. rewrite Nat2Z.inj_add, Nat2Z.inj_pow in L. exact L. } clear L.
  destruct (info_fold ms _ 1 U1 ltac:(lia) ltac:(lia) start_upto) as (B & R). cbn zeta in B, R. fold (batch_info ms) in B, R.
  split.
  - assert (T : IZR (1 + Z.of_nat (length ms)) * bpow radix2 44 <= bpow radix2 66).
    { change 66%Z with (22 + 44)%Z. rewrite bpow_plus. apply Rmult_le_compat_r; [apply bpow_ge_0|]. change (bpow radix2 22) with (IZR (2 ^ 22)). apply IZR_le. lia. }
    destruct eps_between as (_ & E). destruct B as ((B1 & B2 & B3) & (B4 & B5 & B6)). unfold rel, entries, no_less in R. cbn [fst snd vx vy vz] in R.
    inversion R as [|? ? ? ? R1 R']; subst. inversion R' as [|? ? ? ? R2 R'']; subst. inversion R'' as [|? ? ? ? R3 R3']; subst. inversion R3' as [|? ? ? ? R4 R4']; subst. inversion R4' as [|? ? ? ? R5 R5']; subst. inversion R5' as [|? ? ? ? R6 R6']; subst.
    unfold between in *. unfold each, all3. intuition lra.
  - unfold batch_info at 2. rewrite fold_left_app. fold (batch_info ms). apply (info_fold ms' (batch_info ms) (1 + Z.of_nat (length ms))); auto; lia.
Qed.
Print Assumptions C114_information.

(** how close the increments are *)
Definition apx (k : R) (X : R) (x : f32) : Prop := ffin x = true /\ 0 <= X <= bpow radix2 60 /\ Rabs (FR x - X) <= k * (u32r * X + t32r).
Lemma uu : 0 < u32r /\ u32r <= / 1000000 / 16 /\ 0 < t32r /\ t32r < / 1000000000000.
Proof. repeat split; try apply t32r_pos; try apply t32r_small; unfold u32r; lra. Qed.
Lemma big60 : 16 * bpow radix2 60 <= bpow radix2 127 /\ 1 <= bpow radix2 60.
Proof. split; [change 16 with (bpow radix2 4); rewrite <- bpow_plus; apply bpow_le; lia|change 1 with (bpow radix2 0); apply bpow_le; lia]. Qed.
Lemma apx_mag : forall k X x, 0 <= k <= 64 -> apx k X x -> Rabs (FR x) <= 2 * X + 64 * t32r.
Proof.
  intros k X x K (_ & HX & E). destruct uu as (U1 & U2 & T1 & T2). replace (FR x) with (X + (FR x - X)) by ring. eapply Rle_trans; [apply Rabs_triang|]. rewrite (Rabs_pos_eq X) by lra.
  assert (A : k * (u32r * X + t32r) <= 64 * (u32r * X + t32r)). { apply Rmult_le_compat_r; [|lra]. assert (0 <= u32r * X) by (apply Rmult_le_pos; lra). lra. }
  assert (u32r * X <= / 64 * X) by (apply Rmult_le_compat_r; lra). lra.
Qed.
Lemma apx_square : forall n, ffin n = true -> Rabs (FR n) <= bpow radix2 20 -> apx 1 (FR n * FR n) (fmul n n).
Proof.
  intros n F B. assert (S0 : 0 <= FR n * FR n) by apply Rle_0_sqr. assert (S1 : FR n * FR n <= bpow radix2 40).
  { rewrite <- (Rabs_pos_eq (FR n * FR n)) by exact S0. rewrite Rabs_mult. change 40%Z with (20 + 20)%Z. rewrite bpow_plus. apply Rmult_le_compat; auto using Rabs_pos. }
  assert (L : bpow radix2 40 <= bpow radix2 60) by (apply bpow_le; lia). destruct big60 as (G1 & G2).
  destruct (fmul_rel n n F F) as (FF & d & e & Hd & He & E); [rewrite Rabs_pos_eq; lra|].
  split; [exact FF|]. split; [lra|]. rewrite E. replace (FR n * FR n * (1 + d) + e - FR n * FR n) with (FR n * FR n * d + e) by ring.
  eapply Rle_trans; [apply Rabs_triang|]. rewrite (Rabs_mult (FR n * FR n)), (Rabs_pos_eq (FR n * FR n)) by exact S0.
  assert (FR n * FR n * Rabs d <= FR n * FR n * u32r) by (apply Rmult_le_compat_l; assumption). lra.
Qed.
Lemma apx_chain : forall p n, ffin p = true -> Rabs (FR p) <= bpow radix2 20 -> ffin n = true -> Rabs (FR n) <= 2 ->
  apx 13 (FR p * FR p * (FR n * FR n)) (fmul (fmul (fmul p p) n) n).
Proof.
  intros p n Fp Bp Fn Bn. destruct (apx_square p Fp Bp) as (F1 & X1 & E1). set (a := fmul p p) in *. set (P := FR p * FR p) in *. destruct uu as (U1 & U2 & T1 & T2). destruct big60 as (G1 & G2).
  assert (P40 : P <= bpow radix2 40). { unfold P. rewrite <- (Rabs_pos_eq (FR p * FR p)) by apply Rle_0_sqr. rewrite Rabs_mult. change 40%Z with (20 + 20)%Z. rewrite bpow_plus. apply Rmult_le_compat; auto using Rabs_pos. }
  assert (Big : 16 * bpow radix2 40 <= bpow radix2 60) by (change 16 with (bpow radix2 4); rewrite <- bpow_plus; apply bpow_le; lia). assert (B40 : 1 <= bpow radix2 40) by (change 1 with (bpow radix2 0); apply bpow_le; lia).
  assert (Ma : Rabs (FR a) <= 2 * P + 64 * t32r) by (apply (apx_mag 1); [lra|split; [exact F1|split; assumption]]).
  assert (M1 : Rabs (FR a * FR n) <= (2 * P + 64 * t32r) * 2) by (rewrite Rabs_mult; apply Rmult_le_compat; auto using Rabs_pos).
  destruct (fmul_rel a n F1 Fn) as (F2 & d2 & e2 & Hd2 & He2 & E2); [lra|]. set (b := fmul a n) in *.
  assert (D2 : Rabs (1 + d2) <= 1 + u32r) by (eapply Rle_trans; [apply Rabs_triang|]; rewrite Rabs_R1; lra).
  assert (Mb : Rabs (FR b) <= (2 * P + 64 * t32r) * 4).
  { rewrite E2. eapply Rle_trans; [apply Rabs_triang|]. rewrite Rabs_mult. assert (Rabs (FR a * FR n) * Rabs (1 + d2) <= (2 * P + 64 * t32r) * 2 * (1 + u32r)) by (apply Rmult_le_compat; auto using Rabs_pos).
    assert ((2 * P + 64 * t32r) * 2 * (1 + u32r) <= (2 * P + 64 * t32r) * 2 * (3 / 2)) by (apply Rmult_le_compat_l; lra). lra. }
  assert (M2 : Rabs (FR b * FR n) <= (2 * P + 64 * t32r) * 4 * 2) by (rewrite Rabs_mult; apply Rmult_le_compat; auto using Rabs_pos).
  destruct (fmul_rel b n F2 Fn) as (F3 & d3 & e3 & Hd3 & He3 & E3); [lra|].
  assert (D3 : Rabs (1 + d3) <= 1 + u32r) by (eapply Rle_trans; [apply Rabs_triang|]; rewrite Rabs_R1; lra).
  set (N := FR n * FR n) in *. assert (N0 : 0 <= N) by apply Rle_0_sqr. assert (N4 : N <= 4).
  { unfold N. rewrite <- (Rabs_pos_eq (FR n * FR n)) by exact N0. rewrite Rabs_mult. replace 4 with (2 * 2) by ring. apply Rmult_le_compat; auto using Rabs_pos. }
  assert (PN : 0 <= P * N) by (apply Rmult_le_pos; lra).
  split; [exact F3|]. split; [split; [exact PN|]; apply Rle_trans with (P * 4); [apply Rmult_le_compat_l; lra|lra]|].
  rewrite E3, E2.
  replace (((FR a * FR n * (1 + d2) + e2) * FR n) * (1 + d3) + e3 - P * N) with
    ((FR a - P) * (N * ((1 + d2) * (1 + d3))) + P * N * (d2 + d3 + d2 * d3) + e2 * (FR n * (1 + d3)) + e3) by (unfold N; ring).
  assert (DD : Rabs ((1 + d2) * (1 + d3)) <= 2). { rewrite Rabs_mult. apply Rle_trans with ((1 + u32r) * (1 + u32r)); [apply Rmult_le_compat; auto using Rabs_pos|]. nra. }
  assert (Dq : Rabs (d2 + d3 + d2 * d3) <= 3 * u32r).
  { eapply Rle_trans; [apply Rabs_triang|]. eapply Rle_trans; [apply Rplus_le_compat_r; apply Rabs_triang|]. rewrite Rabs_mult. assert (Rabs d2 * Rabs d3 <= u32r * 1) by (apply Rmult_le_compat; auto using Rabs_pos; lra). lra. }
  assert (A1 : Rabs ((FR a - P) * (N * ((1 + d2) * (1 + d3)))) <= (u32r * P + t32r) * (N * 2)).
  { rewrite Rabs_mult. apply Rmult_le_compat; auto using Rabs_pos; [lra|]. rewrite Rabs_mult, (Rabs_pos_eq N) by exact N0. apply Rmult_le_compat_l; assumption. }
  assert (A2 : Rabs (P * N * (d2 + d3 + d2 * d3)) <= P * N * (3 * u32r)) by (rewrite Rabs_mult, (Rabs_pos_eq (P * N)) by exact PN; apply Rmult_le_compat_l; assumption).
  assert (A3 : Rabs (e2 * (FR n * (1 + d3))) <= t32r * 4).
  { rewrite Rabs_mult. apply Rmult_le_compat; auto using Rabs_pos. rewrite Rabs_mult. apply Rle_trans with (2 * 2); [|lra]. apply Rmult_le_compat; auto using Rabs_pos. lra. }
  eapply Rle_trans; [apply Rabs_triang|]. eapply Rle_trans; [apply Rplus_le_compat_r; apply Rabs_triang|]. eapply Rle_trans; [apply Rplus_le_compat_r; apply Rplus_le_compat_r; apply Rabs_triang|].
  assert (t32r * (N * 2) <= t32r * 8) by (apply Rmult_le_compat_l; lra).
  replace ((u32r * P + t32r) * (N * 2)) with (2 * (u32r * (P * N)) + t32r * (N * 2)) in A1 by ring. replace (P * N * (3 * u32r)) with (3 * (u32r * (P * N))) in A2 by ring.
  assert (0 <= u32r * (P * N)) by (apply Rmult_le_pos; lra). lra.
Qed.
Lemma apx_add : forall a b k j X Y, 0 <= k -> 0 <= j -> k + j <= 62 -> X + Y <= bpow radix2 60 -> apx k X a -> apx j Y b -> apx (k + j + 2) (X + Y) (fadd a b).
Proof.
  intros a b k j X Y Hk Hj KJ XY Ha Hb. pose proof (apx_mag k X a ltac:(lra) Ha) as Ma. pose proof (apx_mag j Y b ltac:(lra) Hb) as Mb.
  destruct Ha as (Fa & HX & Ea), Hb as (Fb & HY & Eb). destruct uu as (U1 & U2 & T1 & T2). destruct big60 as (G1 & G2).
  assert (S : Rabs (FR a + FR b) <= 4 * bpow radix2 60) by (eapply Rle_trans; [apply Rabs_triang|]; lra).
  destruct (fadd_rel a b Fa Fb ltac:(lra)) as (F & e & He & E). split; [exact F|]. split; [lra|]. rewrite E.
  replace ((FR a + FR b) * (1 + e) - (X + Y)) with ((FR a - X) * (1 + e) + (FR b - Y) * (1 + e) + (X + Y) * e) by ring.
  assert (D : Rabs (1 + e) <= 1 + u32r) by (eapply Rle_trans; [apply Rabs_triang|]; rewrite Rabs_R1; lra).
  eapply Rle_trans; [apply Rabs_triang|]. eapply Rle_trans; [apply Rplus_le_compat_r; apply Rabs_triang|]. rewrite !Rabs_mult. rewrite (Rabs_pos_eq (X + Y)) by lra.
  set (x := u32r * X + t32r) in *. set (y := u32r * Y + t32r) in *.
  assert (x0 : 0 <= x) by (unfold x; assert (0 <= u32r * X) by (apply Rmult_le_pos; lra); lra). assert (y0 : 0 <= y) by (unfold y; assert (0 <= u32r * Y) by (apply Rmult_le_pos; lra); lra).
  assert (A1 : Rabs (FR a - X) * Rabs (1 + e) <= k * x * (1 + u32r)) by (apply Rmult_le_compat; auto using Rabs_pos).
  assert (A2 : Rabs (FR b - Y) * Rabs (1 + e) <= j * y * (1 + u32r)) by (apply Rmult_le_compat; auto using Rabs_pos).
  assert (A3 : (X + Y) * Rabs e <= (X + Y) * u32r) by (apply Rmult_le_compat_l; lra).
  set (z := u32r * (X + Y) + t32r). assert (XZ : x <= z) by (unfold x, z; assert (0 <= u32r * Y) by (apply Rmult_le_pos; lra); lra). assert (YZ : y <= z) by (unfold y, z; assert (0 <= u32r * X) by (apply Rmult_le_pos; lra); lra).
  assert (K1 : k * x <= k * z) by (apply Rmult_le_compat_l; lra). assert (K2 : j * y <= j * z) by (apply Rmult_le_compat_l; lra).
  assert (K3 : (k * x + j * y) * u32r <= (62 * z) * (/ 62)).
  { apply Rmult_le_compat; try lra. assert (0 <= k * x) by (apply Rmult_le_pos; lra). assert (0 <= j * y) by (apply Rmult_le_pos; lra). lra. assert ((k + j) * z <= 62 * z) by (apply Rmult_le_compat_r; lra). lra. }
  assert (A4 : (X + Y) * u32r <= z) by (unfold z; lra). lra.
Qed.
Lemma apx_twice : forall x k X, 0 <= k <= 60 -> 2 * X <= bpow radix2 60 -> apx k X x -> apx (2 * k + 2) (2 * X) (twice x).
Proof.
  intros x k X K HX2 Hx. pose proof (apx_mag k X x ltac:(lra) Hx) as Mx. destruct Hx as (F & HX & E). destruct uu as (U1 & U2 & T1 & T2). destruct big60 as (G1 & G2).
  destruct (f32_of_Z_R 2 ltac:(lia)) as (E2 & F2). unfold twice.
  assert (TW : rnd32 (FR (f32_of_Z 2) * FR x) = 2 * FR x) by (rewrite E2; apply double_exact).
  assert (M : Rabs (FR (f32_of_Z 2) * FR x) <= bpow radix2 127) by (rewrite E2, Rabs_mult, (Rabs_pos_eq 2) by lra; lra).
  destruct (fmul_R (f32_of_Z 2) x F2 F (rnd32_small _ M)) as (EE & FF). split; [exact FF|]. split; [lra|]. rewrite EE, TW.
  replace (2 * FR x - 2 * X) with (2 * (FR x - X)) by ring. rewrite Rabs_mult, (Rabs_pos_eq 2) by lra.
  assert (0 <= u32r * X) by (apply Rmult_le_pos; lra). assert (0 <= k * (u32r * X)) by (apply Rmult_le_pos; lra). assert (0 <= k * t32r) by (apply Rmult_le_pos; lra). lra.
Qed.
Lemma apx_about : forall b k x X, 0 <= k <= 58 -> between 0 (bpow radix2 59) b -> X <= bpow radix2 50 -> apx k X x -> about (fadd b x) (FR b + X).
Proof.
  intros b k x X K (F & B) HX A. destruct uu as (U1 & U2 & T1 & T2). destruct A as (FA & A0 & AE).
  assert (L : bpow radix2 59 + bpow radix2 50 <= bpow radix2 60).
  { apply Rle_trans with (bpow radix2 59 + bpow radix2 59); [apply Rplus_le_compat_l; apply bpow_le; lia|]. right. change 60%Z with (1 + 59)%Z. rewrite bpow_plus. change (bpow radix2 1) with 2. ring. }
  assert (B0 : apx 0 (FR b) b). { split; [exact F|]. split; [|replace (FR b - FR b) with 0 by ring; rewrite Rabs_R0; lra]. pose proof (bpow_gt_0 radix2 50). lra. }
  destruct (apx_add b x 0 k (FR b) X ltac:(lra) ltac:(lra) ltac:(lra) ltac:(lra) B0 (conj FA (conj A0 AE))) as (_ & _ & E). unfold about. eapply Rle_trans; [exact E|].
  assert (Z0 : 0 <= FR b + X) by lra. set (Z := FR b + X) in *. assert (UZ : 0 <= u32r * Z) by (apply Rmult_le_pos; lra).
  assert (K1 : (0 + k + 2) * (u32r * Z + t32r) <= 60 * (u32r * Z + t32r)) by (apply Rmult_le_compat_r; lra).
  assert (K2 : 60 * (u32r * Z) <= / 250000 * Z) by (rewrite <- Rmult_assoc; apply Rmult_le_compat_r; [exact Z0|unfold u32r; lra]).
  assert (K3 : 60 * t32r <= bpow radix2 (-140)). { unfold t32r. change (-140)%Z with (10 + -150)%Z. rewrite (bpow_plus radix2 10). pose proof (bpow_gt_0 radix2 (-150)). apply Rmult_le_compat_r; [lra|]. cbn; lra. }
  lra.
Qed.
(** C114. What a matched point adds is twice its squared normal for the translation and
    twice its squared lever arms for the rotation, up to rounding. *)
Theorem C114_content : forall p n i, usable_match (p, n) -> each (between 0 (bpow radix2 59)) i ->
  Forall (fun '(old, c, new) => about new (FR old + c)) (combine (combine (entries i) (content p n)) (entries (addNormalizedPointInfo p n i))).
Proof.
  intros p n i (((Px & Bx) & (Py & By) & (Pz & Bz)) & ((Nx & Cx) & (Ny & Cy) & (Nz & Cz))) ((I1 & I2 & I3) & (I4 & I5 & I6)). cbn [fst snd] in *.
  assert (SQ : forall x y e, Rabs (FR x) <= bpow radix2 e -> y = (e + e)%Z -> FR x * FR x <= bpow radix2 y).
  { intros x y e H ->. rewrite <- (Rabs_pos_eq (FR x * FR x)) by apply Rle_0_sqr. rewrite Rabs_mult, bpow_plus. apply Rmult_le_compat; auto using Rabs_pos. }
  assert (B20 : 2 <= bpow radix2 20) by (cbn; lra). assert (N2 : forall x, Rabs (FR x) <= 2 -> FR x * FR x <= 4).
  { intros x H. change 4 with (bpow radix2 2). apply (SQ x 2%Z 1%Z); [exact H|reflexivity]. }
  assert (B50 : 64 * bpow radix2 40 <= bpow radix2 50) by (change 64 with (bpow radix2 6); rewrite <- bpow_plus; apply bpow_le; lia). assert (B40 : 1 <= bpow radix2 40) by (change 1 with (bpow radix2 0); apply bpow_le; lia).
  assert (B60 : bpow radix2 50 <= bpow radix2 60) by (apply bpow_le; lia).
  assert (T : forall b c, between 0 (bpow radix2 59) b -> ffin c = true -> Rabs (FR c) <= 2 -> about (fadd b (twice (fmul c c))) (FR b + 2 * (FR c * FR c))).
  { intros b c Hb Fc Bc. pose proof (N2 c Bc). apply (apx_about b (2 * 1 + 2)); [lra|exact Hb|lra|]. apply apx_twice; [lra|lra|]. apply apx_square; [exact Fc|lra]. }
  assert (R : forall b p q m k, between 0 (bpow radix2 59) b -> ffin p = true -> Rabs (FR p) <= bpow radix2 20 -> ffin q = true -> Rabs (FR q) <= bpow radix2 20 ->
    ffin m = true -> Rabs (FR m) <= 2 -> ffin k = true -> Rabs (FR k) <= 2 ->
    about (fadd b (twice (lever p q m k))) (FR b + 2 * (FR p * FR p * (FR k * FR k) + FR q * FR q * (FR m * FR m)))).
  { intros b p' q m k Hb Fp Hp Fq Hq Fm Hm Fk Hk.
    assert (Q : forall x y, Rabs (FR x) <= bpow radix2 20 -> Rabs (FR y) <= 2 -> FR x * FR x * (FR y * FR y) <= bpow radix2 40 * 4).
    { intros x y Hx Hy. apply Rmult_le_compat; try apply Rle_0_sqr; [apply (SQ x 40%Z 20%Z); [exact Hx|reflexivity]|apply N2; exact Hy]. }
    pose proof (Q p' k Hp Hk) as Q1. pose proof (Q q m Hq Hm) as Q2.
    apply (apx_about b (2 * (13 + 13 + 2) + 2)); [lra|exact Hb|lra|]. apply apx_twice; [lra|lra|]. unfold lever. apply apx_add; try lra; apply apx_chain; assumption. }
  unfold addNormalizedPointInfo, content, entries, zip3, map3. cbn [fst snd vx vy vz combine].
  apply Forall_cons; [apply T; assumption|]. apply Forall_cons; [apply T; assumption|]. apply Forall_cons; [apply T; assumption|].
  apply Forall_cons; [apply R; assumption|]. apply Forall_cons; [apply R; assumption|]. apply Forall_cons; [apply R; assumption|]. apply Forall_nil.
Qed.
Print Assumptions C114_content.
(** one entry of an update *)
Lemma one_weight : forall b e, between 0 (bpow radix2 100) b -> between (/ 2097152) (bpow radix2 66) e ->
  between 0 1 (fdiv e (fadd b e)) /\ (FR b = 0 -> FR (fdiv e (fadd b e)) = 1) /\
  (FR e <= FR b -> FR (fdiv e (fadd b e)) <= / 2) /\ (FR b <= FR e -> / 2 <= FR (fdiv e (fadd b e))).
Proof.
  intros b e (Fb & Lb & Ub) (Fe & Le & Ue).
  assert (S : Rabs (rnd32 (FR b + FR e)) < max32).
  { apply rnd32_small. rewrite Rabs_pos_eq by lra. apply Rle_trans with (bpow radix2 100 + bpow radix2 100). apply Rplus_le_compat; [exact Ub|]. eapply Rle_trans; [exact Ue|apply bpow_le; lia].
    replace (bpow radix2 100 + bpow radix2 100) with (bpow radix2 101) by (change 101%Z with (1 + 100)%Z; rewrite bpow_plus; change (bpow radix2 1) with 2; ring). apply bpow_le; lia. }
  destruct (fadd_R b e Fb Fe S) as (E & F).
  pose proof (double_exact e) as D2.
  assert (LO : FR e <= FR (fadd b e)) by (rewrite E, <- (rnd32_FR e) at 1; apply rnd32_le; lra).
  set (s := fadd b e) in *. assert (S0 : 0 < FR s) by lra. assert (I0 : 0 < / FR s) by (apply Rinv_0_lt_compat; exact S0).
  assert (Q : forall c, c * FR s <= FR e -> c <= FR e / FR s). { intros c H. apply (Rmult_le_reg_r (FR s)); [exact S0|]. unfold Rdiv. rewrite Rmult_assoc, Rinv_l by lra. lra. }
  assert (Q' : forall c, FR e <= c * FR s -> FR e / FR s <= c). { intros c H. apply (Rmult_le_reg_r (FR s)); [exact S0|]. unfold Rdiv. rewrite Rmult_assoc, Rinv_l by lra. lra. }
  destruct (small_rnd (FR e / FR s) 1) as (S1 & S2); [split; [apply Q|apply Q']; lra|change 1 with (bpow radix2 0); apply bpow_le; lia|apply (rnd32_Z 1); lia|].
  destruct (fdiv_R e s Fe ltac:(lra) S1) as (ED & FD). assert (H2 : rnd32 (/ 2) = / 2) by (change (/ 2) with (bpow radix2 (-1)); apply rnd_bpow; lia).
  split; [split; [exact FD|rewrite ED; exact S2]|]. rewrite ED. split; [|split]; intros H.
  - rewrite E, H, Rplus_0_l, rnd32_FR. unfold Rdiv. rewrite Rinv_r by lra. apply (rnd32_Z 1). lia.
  - rewrite <- H2. apply rnd32_le. apply Q'. assert (2 * FR e <= FR s) by (rewrite E, <- D2; apply rnd32_le; lra). lra.
  - rewrite <- H2. apply rnd32_le. apply Q. assert (FR s <= 2 * FR e) by (rewrite E, <- D2; apply rnd32_le; lra). lra.
Qed.
Lemma each_forall : forall P v, each P v <-> Forall P (entries v).
Proof.
  intros P v. unfold each, entries, all3. split.
  - intros ((A & B & C) & (D & E & F)). repeat (constructor; [assumption|]). constructor.
  - intros H. repeat match goal with H : Forall _ (_ :: _) |- _ => inversion H; subst; clear H end. tauto.
Qed.
Lemma entries_zip : forall f a b, entries (zip6 f a b) = map (fun x => f (fst x) (snd x)) (combine (entries a) (entries b)).
Proof. reflexivity. Qed.

(** C114. Every update is weighted between none and all in each direction: all if nothing
    was known, at most half if the step brings no more information than there was, at least
    half if it brings no less. The information afterwards is no less than before and no less
    than the step brought. *)
Theorem C114_weights : forall base est, each (between 0 (bpow radix2 100)) base -> each (between (/ 2097152) (bpow radix2 66)) est ->
  each (between 0 1) (update_weight base est) /\
  fair base est (update_weight base est) /\
  rel no_less base (update_base base est) /\ rel no_less est (update_base base est).
Proof.
  intros base est ((B1 & B2 & B3) & (B4 & B5 & B6)) ((E1 & E2 & E3) & (E4 & E5 & E6)).
  destruct (one_weight _ _ B1 E1) as (P1 & Q1). destruct (one_weight _ _ B2 E2) as (P2 & Q2). destruct (one_weight _ _ B3 E3) as (P3 & Q3).
  destruct (one_weight _ _ B4 E4) as (P4 & Q4). destruct (one_weight _ _ B5 E5) as (P5 & Q5). destruct (one_weight _ _ B6 E6) as (P6 & Q6).
  assert (G : forall b e, between 0 (bpow radix2 100) b -> between (/ 2097152) (bpow radix2 66) e -> no_less b (fadd b e) /\ no_less e (fadd b e)).
  { intros b e (Fb & Lb & Ub) (Fe & Le & Ue). destruct (small_rnd (FR b + FR e) (bpow radix2 101)) as (S1 & S2).
    - split; [lra|]. apply Rle_trans with (bpow radix2 100 + bpow radix2 100); [apply Rplus_le_compat; [exact Ub|]; eapply Rle_trans; [exact Ue|apply bpow_le; lia]|].
      right. change 101%Z with (1 + 100)%Z. rewrite bpow_plus. change (bpow radix2 1) with 2. ring.
    - apply bpow_le; lia.
    - apply rnd_bpow; lia.
    - destruct (fadd_R b e Fb Fe S1) as (E & F). unfold no_less. rewrite E. split; [rewrite <- (rnd32_FR b) at 1|rewrite <- (rnd32_FR e) at 1]; apply rnd32_le; lra. }
  split; [unfold update_weight, zip6, zip3, each, all3; cbn [fst snd vx vy vz]; tauto|]. split.
  - unfold fair, update_weight, zip6, zip3, entries. cbn [fst snd vx vy vz combine]. repeat (apply Forall_cons; [assumption|]). apply Forall_nil.
  - unfold rel, update_base, zip6, zip3, entries. cbn [fst snd vx vy vz]. split; repeat (apply Forall2_cons; [apply G; assumption|]); apply Forall2_nil.
Qed.
Print Assumptions C114_weights.

(** C114. Over a whole run, from initial weightings that are not negative, every weight lies
    between 0 and 1, and the information never shrinks. *)
Lemma updates_ok : forall ests base k, (0 <= k)%Z -> (k + Z.of_nat (length ests) <= 2 ^ 24)%Z -> each (between 0 (IZR k * bpow radix2 66)) base -> Forall (each (between (/ 2097152) (bpow radix2 66))) ests ->
  let (ws, last) := updates base ests in
  length ws = length ests /\ Forall (each (between 0 1)) ws /\ each (between 0 (bpow radix2 90)) last /\ rel no_less base last /\ Forall (fun e => rel no_less e last) ests.
Proof.
  induction ests as [|e ests IH]; intros base k Hk HL B E; cbn [updates].
  - assert (T : IZR k * bpow radix2 66 <= bpow radix2 90).
    { change 90%Z with (24 + 66)%Z. rewrite bpow_plus. apply Rmult_le_compat_r; [apply bpow_ge_0|]. change (bpow radix2 24) with (IZR (2 ^ 24)). apply IZR_le. cbn [length] in HL. lia. }
    split; [reflexivity|]. split; [constructor|]. split; [|split; [apply rel_refl|constructor]].
    apply each_forall. apply each_forall in B. eapply Forall_impl; [|exact B]. intros x (F & L). split; [exact F|lra].
  - inversion E as [|? ? E1 E2]; subst. cbn [length] in HL.
    assert (T : IZR k * bpow radix2 66 <= bpow radix2 100).
    { apply Rle_trans with (bpow radix2 24 * bpow radix2 66); [|rewrite <- bpow_plus; apply bpow_le; lia]. apply Rmult_le_compat_r; [apply bpow_ge_0|]. change (bpow radix2 24) with (IZR (2 ^ 24)). apply IZR_le. lia. }
    assert (B' : each (between 0 (bpow radix2 100)) base) by (apply each_forall; apply each_forall in B; eapply Forall_impl; [|exact B]; intros x (F & L); split; [exact F|lra]).
    destruct (C114_weights base e B' E1) as (W & _ & R1 & R2).
    assert (N : each (between 0 (IZR (k + 1) * bpow radix2 66)) (update_base base e)).
    { assert (A : forall b x, between 0 (IZR k * bpow radix2 66) b -> between (/ 2097152) (bpow radix2 66) x -> between 0 (IZR (k + 1) * bpow radix2 66) (fadd b x)).
      { intros b x Hb (Fx & Lx & Ux). apply (add_between b x k 1 66); try lia; auto. rewrite Rmult_1_l. split; [exact Fx|lra]. }
      destruct B as ((B1 & B2 & B3) & (B4 & B5 & B6)). destruct E1 as ((X1 & X2 & X3) & (X4 & X5 & X6)).
      unfold update_base, zip6, zip3, each, all3. cbn [fst snd vx vy vz]. repeat split; apply A; assumption. }
    specialize (IH (update_base base e) (k + 1)%Z ltac:(lia) ltac:(lia) N E2). destruct (updates (update_base base e) ests) as (ws, last). destruct IH as (I1 & I2 & I3 & I4 & I5).
    split; [cbn [length]; congruence|]. split; [constructor; assumption|]. split; [exact I3|]. split; [eapply rel_trans; eassumption|]. constructor; [eapply rel_trans; eassumption|exact I5].
Qed.
Lemma updates_at : forall pre base e post, nth_error (fst (updates base (pre ++ e :: post))) (length pre) = Some (update_weight (snd (updates base pre)) e).
Proof.
  induction pre as [|x pre IH]; intros base e post; cbn [updates app length].
  - destruct (updates (update_base base e) post). reflexivity.
  - specialize (IH (update_base base x) e post). destruct (updates (update_base base x) (pre ++ e :: post)) as (ws, b). cbn [fst nth_error] in *. rewrite IH.
    destruct (updates (update_base base x) pre). reflexivity.
Qed.
Theorem C114_run : forall translation rotation ests, between 0 (bpow radix2 66) translation -> between 0 (bpow radix2 66) rotation ->
  (length ests <= 2 ^ 20)%nat -> Forall (each (between (/ 2097152) (bpow radix2 66))) ests ->
  let start := initial_base translation rotation in
  let (ws, last) := updates start ests in
  length ws = length ests /\ Forall (each (between 0 1)) ws /\ each (between 0 (bpow radix2 90)) last /\
  rel no_less start last /\ Forall (fun e => rel no_less e last) ests /\
  (forall before e after, ests = before ++ e :: after ->
    exists w, nth_error ws (length before) = Some w /\ fair (snd (updates start before)) e w).
Proof.
  intros t r ests T R L E start.
  assert (LZ : (1 + Z.of_nat (length ests) <= 2 ^ 24)%Z) by (apply inj_le in L; rewrite Nat2Z.inj_pow in L; change (Z.of_nat 2 ^ Z.of_nat 20)%Z with (2 ^ 20)%Z in L; lia).
  assert (S0 : each (between 0 (IZR 1 * bpow radix2 66)) start) by (unfold start, initial_base, each, all3; cbn [fst snd vx vy vz]; rewrite Rmult_1_l; tauto).
  pose proof (updates_ok ests start 1 ltac:(lia) LZ S0 E) as U. destruct (updates start ests) as (ws, last) eqn:EU. destruct U as (U1 & U2 & U3 & U4 & U5).
  split; [exact U1|]. split; [exact U2|]. split; [exact U3|]. split; [exact U4|]. split; [exact U5|].
  intros before e after ->. exists (update_weight (snd (updates start before)) e). split; [change ws with (fst (ws, last)); rewrite <- EU; exact (updates_at before start e after)|].
  apply Forall_app in E. destruct E as (E1 & E2). inversion E2 as [|? ? E3 _]; subst. rewrite app_length in LZ.
  pose proof (updates_ok before start 1 ltac:(lia) ltac:(lia) S0 E1) as Q. destruct (updates start before) as (ws', b). destruct Q as (_ & _ & Q & _). cbn [snd].
  apply C114_weights; [|exact E3]. apply each_forall. apply each_forall in Q. eapply Forall_impl; [|exact Q]. intros x (F & B). split; [exact F|]. assert (bpow radix2 90 <= bpow radix2 100) by (apply bpow_le; lia). lra.
Qed.
Print Assumptions C114_run.

(** The default weighting of 100, a point at (3, 0, 1) on a floor and one at (0, 4, 0) on a
    wall: the information, and the weights in units of 1/8000. *)
Definition zpt (x y z : Z) : pt3 := V3 (f32_of_Z x) (f32_of_Z y) (f32_of_Z z).
Definition seen2 : list (pt3 * pt3) := [(zpt 3 0 1, zpt 0 0 1); (zpt 0 4 0, zpt 1 0 0)].
Example C114_case : Forall usable_match seen2 /\ (length seen2 <= 2 ^ 20)%nat /\
  map (fun x => ftruncZ (fmul x (f32_of_Z 1000))) (entries (batch_info seen2)) = map Some [2000; 0; 2000; 0; 18000; 32000]%Z /\
  map (fun x => ftruncZ (fmul x (f32_of_Z 8000))) (entries (update_weight (initial_base (f32_of_Z 100) (f32_of_Z 100)) (batch_info seen2))) = map Some [156; 0; 156; 0; 1220; 1939]%Z.
Proof.
  split; [|split; [apply Nat.leb_le; vm_compute; reflexivity|split; vm_compute; reflexivity]].
  assert (G : forall z, (Z.abs z <= 4)%Z -> ffin (f32_of_Z z) = true /\ Rabs (FR (f32_of_Z z)) <= 4 /\ ((Z.abs z <= 2)%Z -> Rabs (FR (f32_of_Z z)) <= 2)).
  { intros z Hz. destruct (f32_of_Z_R z ltac:(lia)) as (E & F). rewrite E, <- abs_IZR. split; [exact F|]. split; [apply IZR_le; exact Hz|]. intros H. apply IZR_le. exact H. }
  assert (B : 4 <= bpow radix2 20) by (cbn; lra).
  assert (K : forall x y z a b c, (Z.abs x <= 4)%Z -> (Z.abs y <= 4)%Z -> (Z.abs z <= 4)%Z -> (Z.abs a <= 2)%Z -> (Z.abs b <= 2)%Z -> (Z.abs c <= 2)%Z -> usable_match (zpt x y z, zpt a b c)).
  { intros. unfold usable_match, zpt, all3. cbn [fst snd vx vy vz].
    destruct (G x) as (X1 & X2 & _), (G y) as (Y1 & Y2 & _), (G z) as (Z1 & Z2 & _), (G a) as (A1 & _ & A2), (G b) as (B1 & _ & B2), (G c) as (C1 & _ & C2); try lia.
    repeat split; try assumption; try lra; auto. }
  unfold seen2. apply Forall_cons; [apply K; lia|]. apply Forall_cons; [apply K; lia|]. apply Forall_nil.
Qed.
