(** Error of normalised float vectors. *)
From Coq Require Import ZArith Reals List Bool Lia Lra.
From Flocq Require Import Core.
From Verif Require Import F32 F32_lemmas F32_err Types Layer Update Ray Update_spec Merge_proofs Dist_proofs.
Import ListNotations.
Open Scope R_scope.

Definition vecR (v : pt3) : v3 R := map3 FR v.

Lemma dot_nn : forall a, 0 <= dotR a a.
Proof. intros. unfold dotR. nra. Qed.
Lemma norm_sq : forall a, normR a * normR a = dotR a a.
Proof. intros. unfold normR. apply sqrt_sqrt, dot_nn. Qed.
Lemma norm_nn : forall a, 0 <= normR a. Proof. intros. apply sqrt_pos. Qed.
Lemma comp_le_norm : forall a, Rabs (vx a) <= normR a /\ Rabs (vy a) <= normR a /\ Rabs (vz a) <= normR a.
Proof.
  intros a. assert (H : forall x y z : R, Rabs x <= sqrt (x * x + y * y + z * z)).
  { intros x y z. rewrite <- sqrt_Rsqr_abs. apply sqrt_le_1_alt. unfold Rsqr. nra. }
  unfold normR, dotR. split; [apply H|split].
  - replace (vx a * vx a + vy a * vy a + vz a * vz a) with (vy a * vy a + vx a * vx a + vz a * vz a) by ring. apply H.
  - replace (vx a * vx a + vy a * vy a + vz a * vz a) with (vz a * vz a + vx a * vx a + vy a * vy a) by ring. apply H.
Qed.

Lemma square_err : forall a, fin_upto 45 a ->
  ffin (fmul a a) = true /\ Rabs (FR (fmul a a)) <= bpow radix2 91 /\
  Rabs (FR (fmul a a) - FR a * FR a) <= u32r * (FR a * FR a) + t32r.
Proof.
  intros a (F & B).
  assert (P : Rabs (FR a * FR a) <= bpow radix2 90).
  { rewrite Rabs_mult. replace 90%Z with (45 + 45)%Z by lia. rewrite bpow_plus. apply Rmult_le_compat; auto using Rabs_pos. }
  destruct (fmul_rel a a F F) as (G & d & e & Hd & He & E). { eapply Rle_trans; [exact P|]. apply bpow_le. lia. }
  split; auto. assert (Q : 0 <= FR a * FR a) by nra.
  assert (X : Rabs (FR (fmul a a) - FR a * FR a) <= u32r * (FR a * FR a) + t32r).
  { rewrite E. replace (FR a * FR a * (1 + d) + e - FR a * FR a) with (d * (FR a * FR a) + e) by ring.
    eapply Rle_trans; [apply Rabs_triang|]. rewrite Rabs_mult, (Rabs_pos_eq (FR a * FR a)) by auto.
    apply Rplus_le_compat; auto. apply Rmult_le_compat_r; auto. }
  split; auto. replace (FR (fmul a a)) with (FR a * FR a + (FR (fmul a a) - FR a * FR a)) by ring.
  eapply Rle_trans; [apply Rabs_triang|]. rewrite (Rabs_pos_eq (FR a * FR a)) in * by auto.
  replace 91%Z with (90 + 1)%Z by lia. rewrite (bpow_plus radix2 90 1). change (bpow radix2 1) with 2.
  assert (1 <= bpow radix2 90) by (change 1 with (bpow radix2 0); apply bpow_le; lia). pose proof t32r_small. unfold u32r in X. lra.
Qed.
Lemma sqnorm_gen : forall v, all3 (fin_upto 45) v ->
  ffin (sqnorm v) = true /\ Rabs (FR (sqnorm v) - dotR (vecR v) (vecR v)) <= 4 * u32r * dotR (vecR v) (vecR v) + 4 * t32r.
Proof.
  intros v (H1 & H2 & H3).
  destruct (square_err _ H1) as (F1 & B1 & E1), (square_err _ H2) as (F2 & B2 & E2), (square_err _ H3) as (F3 & B3 & E3).
  unfold sqnorm, vecR, dotR. unfold map3. cbn [vx vy vz].
  set (t1 := fmul _ _) in F1, B1, E1 |- *. set (t2 := fmul _ _) in F2, B2, E2 |- *. set (t3 := fmul _ _) in F3, B3, E3 |- *.
  assert (L : bpow radix2 91 <= bpow radix2 100) by (apply bpow_le; lia).
  destruct (add_err t2 t3 _ _ _ _ F2 F3 ltac:(lra) ltac:(lra) E2 E3) as (F23 & E23).
  assert (Q1 : 0 <= FR (vx v) * FR (vx v)) by nra. assert (Q2 : 0 <= FR (vy v) * FR (vy v)) by nra. assert (Q3 : 0 <= FR (vz v) * FR (vz v)) by nra.
  assert (B23 : Rabs (FR (fadd t2 t3)) <= bpow radix2 100).
  { destruct (fadd_rel t2 t3 F2 F3) as (_ & e & He & E).
    { eapply Rle_trans; [apply Rabs_triang|]. apply Rle_trans with (bpow radix2 91 * 2); [lra|].
      change 2 with (bpow radix2 1). rewrite <- bpow_plus. apply bpow_le. lia. }
    rewrite E, Rabs_mult. apply Rle_trans with ((bpow radix2 91 + bpow radix2 91) * 2).
    - apply Rmult_le_compat; auto using Rabs_pos.
      + eapply Rle_trans; [apply Rabs_triang|]. lra.
      + apply Rabs_le_inv in He. apply Rabs_le. unfold u32r in *. lra.
    - apply Rle_trans with (bpow radix2 93); [|apply bpow_le; lia].
      replace 93%Z with (91 + 2)%Z by lia. rewrite (bpow_plus radix2 91 2). change (bpow radix2 2) with 4. lra. }
  destruct (add_err t1 (fadd t2 t3) _ _ _ _ F1 F23 ltac:(lra) B23 E1 E23) as (F & E).
  split; auto. rewrite Rplus_assoc. eapply Rle_trans; [exact E|]. clear E E23.
  rewrite !Rabs_pos_eq by lra. pose proof t32r_pos. unfold u32r. lra.
Qed.

Lemma tiny_norm : forall D, bpow radix2 (-100) <= D -> 4 * t32r <= u32r * D.
Proof.
  intros D H. apply Rle_trans with (u32r * bpow radix2 (-100)); [|apply Rmult_le_compat_l; [unfold u32r; lra|auto]].
  rewrite <- bpow_m24, <- bpow_plus. unfold t32r. apply Rle_trans with (bpow radix2 (-148)); [|apply bpow_le; lia].
  replace (-148)%Z with (-150 + 2)%Z by lia. rewrite (bpow_plus radix2 (-150) 2). change (bpow radix2 2) with 4. lra.
Qed.
Lemma norm_gen : forall v, all3 (fin_upto 45) v -> bpow radix2 (-50) <= normR (vecR v) ->
  ffin (norm3 v) = true /\ fgt (sqnorm v) f0 = true /\
  exists e, Rabs e <= 7 * u32r /\ FR (norm3 v) = normR (vecR v) * (1 + e).
Proof.
  intros v H L. destruct (sqnorm_gen v H) as (F & E). set (D := dotR (vecR v) (vecR v)) in *. set (s := sqnorm v) in *.
  assert (DD : bpow radix2 (-100) <= D).
  { unfold D. rewrite <- norm_sq. replace (bpow radix2 (-100)) with (bpow radix2 (-50) * bpow radix2 (-50)) by (rewrite <- bpow_plus; reflexivity).
    apply Rmult_le_compat; auto using bpow_ge_0. }
  pose proof (tiny_norm D DD) as TT. assert (DP : 0 < D) by (pose proof (bpow_gt_0 radix2 (-100)); lra).
  apply Rabs_le_inv in E. assert (SP : 0 < FR s) by (unfold u32r in *; lra).
  destruct (fsqrt_rel s F ltac:(lra)) as (FQ & e & He & EQ).
  split; [exact FQ|]. split. { apply flt_R; [reflexivity|exact F|]. change (FR f0) with 0. exact SP. }
  assert (Q : exists th, Rabs th <= 5 * u32r /\ FR s = D * (1 + th)).
  { exists (FR s / D - 1). split; [|field; lra]. apply Rabs_le.
    assert (I : FR s / D * D = FR s) by (field; lra). split; apply (Rmult_le_reg_r D); try lra. }
  destruct Q as (th & Hth & Es).
  exists (sqrt (1 + th) * (1 + e) - 1). split.
  - eapply Rle_trans; [apply near_mul; [apply near_sqrt|apply near_1p]|].
    + apply Rabs_le_inv in Hth. unfold u32r in Hth. lra.
    + apply near_1p. exact Hth.
    + exact He.
    + unfold u32r. lra.
  - unfold norm3. fold s. rewrite EQ, Es. rewrite sqrt_mult_alt by lra. unfold normR. fold D. ring.
Qed.

Lemma div_close : forall c q N e, ffin c = true -> 0 < N -> Rabs (FR c) <= N -> Rabs e <= 7 * u32r -> FR q = N * (1 + e) ->
  ffin (fdiv c q) = true /\ Rabs (FR (fdiv c q) - FR c / N) <= 9 * u32r.
Proof.
  intros c q N e Fc NP B He E.
  assert (E1 : 0 < 1 + e) by (apply Rabs_le_inv in He; unfold u32r in He; lra).
  assert (Q : FR q <> 0) by (rewrite E; apply Rgt_not_eq; apply Rmult_lt_0_compat; auto).
  assert (I : Rabs (/ (1 + e) - 1) <= 7 * u32r + 2 * (7 * u32r) * (7 * u32r)).
  { apply near_inv; [apply near_1p; exact He|unfold u32r; lra]. }
  assert (X : FR c / FR q = FR c / N * / (1 + e)) by (rewrite E; field; lra).
  assert (B1 : Rabs (FR c / N) <= 1).
  { unfold Rdiv. rewrite Rabs_mult, (Rabs_pos_eq (/ N)) by (left; apply Rinv_0_lt_compat; auto).
    apply (Rmult_le_reg_r N); auto. rewrite Rmult_assoc, Rinv_l by lra. lra. }
  destruct (fdiv_rel c q Fc Q) as (F & d & t & Hd & Ht & Eq).
  { rewrite X, Rabs_mult. apply Rle_trans with (1 * 2); [|change (1 * 2) with (1 * bpow radix2 1); rewrite Rmult_1_l; apply bpow_le; lia].
    apply Rmult_le_compat; auto using Rabs_pos. apply Rabs_le_inv in I. apply Rabs_le. unfold u32r in I. lra. }
  split; auto. rewrite Eq, X.
  assert (J : Rabs (/ (1 + e) * (1 + d) - 1) <= 8 * u32r + u32r / 2).
  { eapply Rle_trans; [apply near_mul; [exact I|apply near_1p; exact Hd]|]. unfold u32r. lra. }
  replace (FR c / N * / (1 + e) * (1 + d) + t - FR c / N) with (FR c / N * (/ (1 + e) * (1 + d) - 1) + t) by ring.
  eapply Rle_trans; [apply Rabs_triang|]. rewrite Rabs_mult.
  assert (Rabs (FR c / N) * Rabs (/ (1 + e) * (1 + d) - 1) <= 1 * (8 * u32r + u32r / 2)) by (apply Rmult_le_compat; auto using Rabs_pos).
  assert (t32r <= u32r / 4). { rewrite <- bpow_m24. unfold t32r. apply Rle_trans with (bpow radix2 (-26)); [apply bpow_le; lia|].
    replace (-24)%Z with (-26 + 2)%Z by lia. rewrite (bpow_plus radix2 (-26) 2). change (bpow radix2 2) with 4. lra. }
  assert (0 < u32r) by (unfold u32r; lra). lra.
Qed.
(** [v] scaled to length one *)
Definition unitR (a : v3 R) : v3 R := map3 (fun c => c / normR a) a.
Definition near3 (eps : R) (p : pt3) (a : v3 R) : Prop :=
  all3 (fun c => ffin c = true) p /\ Rabs (FR (vx p) - vx a) <= eps /\ Rabs (FR (vy p) - vy a) <= eps /\ Rabs (FR (vz p) - vz a) <= eps.
Lemma normalized_err : forall v, all3 (fin_upto 45) v -> bpow radix2 (-50) <= normR (vecR v) ->
  near3 (9 * u32r) (normalized3 v) (unitR (vecR v)).
Proof.
  intros v H L. destruct (norm_gen v H L) as (F & G & e & He & E).
  assert (NP : 0 < normR (vecR v)) by (pose proof (bpow_gt_0 radix2 (-50)); lra).
  destruct (comp_le_norm (vecR v)) as (B1 & B2 & B3). destruct H as ((F1 & _) & (F2 & _) & (F3 & _)).
  unfold normalized3. rewrite G. unfold norm3 in E. unfold near3, unitR, all3.
  change (vx (vecR v)) with (FR (vx v)) in B1. change (vy (vecR v)) with (FR (vy v)) in B2. change (vz (vecR v)) with (FR (vz v)) in B3.
  destruct (div_close _ _ _ _ F1 NP B1 He E) as (G1 & D1), (div_close _ _ _ _ F2 NP B2 He E) as (G2 & D2), (div_close _ _ _ _ F3 NP B3 He E) as (G3 & D3).
  unfold map3 at 1 2 3 4 5 6 7 8 9. cbn [vx vy vz]. repeat split; assumption.
Qed.
