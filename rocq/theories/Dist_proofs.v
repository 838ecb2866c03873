(** Accuracy of the projective distance. *)
From Coq Require Import ZArith List Bool Reals Lra Lia Psatz.
From Flocq Require Import Core Relative IEEE754.Binary IEEE754.Bits.
From Verif Require Import F32 F32_lemmas F32_err Types Index Index_float Voxel Layer Layer_spec Merge_proofs Update Update_spec Update_proofs.
Open Scope R_scope.

Lemma fsqrt_R : forall a, ffin a = true -> 0 <= FR a ->
  FR (fsqrt a) = rnd32 (sqrt (FR a)) /\ ffin (fsqrt a) = true.
Proof.
  intros a F P. pose proof (Bsqrt_correct 24 128 Hprec32 Hmax32 unop_nan_pl32 mode_NE a) as (H1 & H2 & _).
  change (Bsqrt 24 128 Hprec32 Hmax32 unop_nan_pl32 mode_NE a) with (fsqrt a) in *.
  split; [exact H1|]. unfold ffin. etransitivity; [exact H2|].
  destruct a as [s|s|s p Hp|s m e Hm]; try discriminate; auto. destruct s; auto. pose proof (neg_sign m e Hm). lra.
Qed.

Lemma fsqrt_rel : forall a, ffin a = true -> 0 <= FR a ->
  ffin (fsqrt a) = true /\ exists e, Rabs e <= u32r /\ FR (fsqrt a) = sqrt (FR a) * (1 + e).
Proof.
  intros a F P. destruct (fsqrt_R a F P) as (E & FF). split; auto. rewrite E.
  destruct (Rle_lt_or_eq_dec 0 (FR a) P) as [L|L].
  - destruct (rnd32_rel (sqrt (FR a))) as (d & Hd & Er).
    + rewrite Rabs_pos_eq by apply sqrt_pos. pose proof (pos_float_min a L) as M.
      apply Rle_trans with (sqrt (bpow radix2 (-149))); [|apply sqrt_le_1_alt; auto].
      apply Rsqr_incr_0_var; [|apply sqrt_pos]. rewrite Rsqr_sqrt by apply bpow_ge_0. unfold Rsqr. rewrite <- bpow_plus. apply bpow_le. lia.
    + exists d. rewrite bpow_m24 in Hd. auto.
  - exists 0. rewrite <- L, sqrt_0, rnd32_0, Rabs_R0. unfold u32r. split; lra.
Qed.

(** products of factors close to one *)
Lemma near_mul : forall x y a b, Rabs (x - 1) <= a -> Rabs (y - 1) <= b -> Rabs (x * y - 1) <= a + b + a * b.
Proof.
  intros x y a b Hx Hy. replace (x * y - 1) with ((x - 1) + (y - 1) + (x - 1) * (y - 1)) by ring.
  eapply Rle_trans; [apply Rabs_triang|]. eapply Rle_trans; [apply Rplus_le_compat_r; apply Rabs_triang|].
  rewrite Rabs_mult. pose proof (Rabs_pos (x - 1)). pose proof (Rabs_pos (y - 1)).
  assert (Rabs (x - 1) * Rabs (y - 1) <= a * b) by (apply Rmult_le_compat; auto). lra.
Qed.
Lemma near_inv : forall x a, Rabs (x - 1) <= a -> a <= / 2 -> Rabs (/ x - 1) <= a + 2 * a * a.
Proof.
  intros x a Hx Ha. assert (A0 : 0 <= a) by (eapply Rle_trans; [apply Rabs_pos|eauto]). apply Rabs_le_inv in Hx.
  assert (I : / x * x = 1) by (apply Rinv_l; lra). assert (IP : 0 < / x) by (apply Rinv_0_lt_compat; lra).
  apply Rabs_le. split.
  - apply Rle_trans with (- a); [nra|]. apply (Rmult_le_reg_r x); [lra|]. nra.
  - apply (Rmult_le_reg_r x); [lra|]. replace ((/ x - 1) * x) with (1 - x) by nra. nra.
Qed.
Lemma near_sqrt : forall x a, 0 <= x -> Rabs (x - 1) <= a -> Rabs (sqrt x - 1) <= a.
Proof.
  intros x a Hx H. pose proof (sqrt_pos x) as SP. assert (S2 : sqrt x * sqrt x = x) by (apply sqrt_sqrt; auto).
  replace (Rabs (x - 1)) with (Rabs (sqrt x - 1) * (sqrt x + 1)) in H.
  - pose proof (Rabs_pos (sqrt x - 1)). nra.
  - rewrite <- (Rabs_pos_eq (sqrt x + 1)) by lra. rewrite <- Rabs_mult. f_equal. nra.
Qed.
Lemma near_1p : forall e a, Rabs e <= a -> Rabs (1 + e - 1) <= a.
Proof. intros. replace (1 + e - 1) with e by ring. auto. Qed.

Definition adotR (a b : v3 R) : R := Rabs (vx a * vx b) + Rabs (vy a * vy b) + Rabs (vz a * vz b).

Lemma dotR_pos : forall a, 0 <= dotR a a.
Proof. intros. unfold dotR. nra. Qed.

Lemma cauchy_abs : forall a b, adotR a b <= normR a * normR b.
Proof.
  intros a b. unfold normR. rewrite <- sqrt_mult_alt by apply dotR_pos.
  apply Rsqr_incr_0_var; [|apply sqrt_pos]. rewrite Rsqr_sqrt by (apply Rmult_le_pos; apply dotR_pos).
  unfold adotR. rewrite !Rabs_mult. unfold dotR.
  set (x := Rabs (vx a)). set (y := Rabs (vy a)). set (z := Rabs (vz a)).
  set (x' := Rabs (vx b)). set (y' := Rabs (vy b)). set (z' := Rabs (vz b)).
  assert (Q : forall r, r * r = Rabs r * Rabs r). { intros r. rewrite <- Rabs_mult. rewrite Rabs_pos_eq; nra. }
  rewrite (Q (vx a)), (Q (vy a)), (Q (vz a)), (Q (vx b)), (Q (vy b)), (Q (vz b)). fold x y z x' y' z'.
  unfold Rsqr. pose proof (Rle_0_sqr (x * y' - y * x')). pose proof (Rle_0_sqr (x * z' - z * x')). pose proof (Rle_0_sqr (y * z' - z * y')).
  unfold Rsqr in *. nra.
Qed.
Lemma dot_adot : forall a b, Rabs (dotR a b) <= adotR a b.
Proof.
  intros. unfold dotR, adotR. eapply Rle_trans; [apply Rabs_triang|]. apply Rplus_le_compat_r. apply Rabs_triang.
Qed.
Lemma adot_pos : forall a b, 0 <= adotR a b.
Proof. intros. unfold adotR. pose proof (Rabs_pos (vx a * vx b)). pose proof (Rabs_pos (vy a * vy b)). pose proof (Rabs_pos (vz a * vz b)). lra. Qed.

Lemma sub40 : forall a b, fin_upto 40 a -> fin_upto 40 b ->
  ffin (fsub a b) = true /\ Rabs (FR a - FR b) <= bpow radix2 41 /\ exists e, Rabs e <= u32r /\ FR (fsub a b) = (FR a - FR b) * (1 + e).
Proof.
  intros a b (Fa & Ba) (Fb & Bb).
  assert (B : Rabs (FR a - FR b) <= bpow radix2 41).
  { replace (FR a - FR b) with (FR a + - FR b) by ring. eapply Rle_trans; [apply Rabs_triang|]. rewrite Rabs_Ropp.
    replace 41%Z with (40 + 1)%Z by lia. rewrite (bpow_plus radix2 40 1). change (bpow radix2 1) with 2. lra. }
  destruct (fsub_rel a b Fa Fb) as (F & e & He & E). { eapply Rle_trans; [exact B|]. apply bpow_le. lia. }
  eauto.
Qed.

(** one term of the dot product *)
Lemma term_err : forall a o b p, fin_upto 40 a -> fin_upto 40 o -> fin_upto 40 b -> fin_upto 40 p ->
  let x := (FR a - FR o) * (FR b - FR p) in
  let t := fmul (fsub a o) (fsub b p) in
  ffin t = true /\ Rabs (FR t) <= bpow radix2 84 /\ Rabs (FR t - x) <= 4 * u32r * Rabs x + t32r.
Proof.
  intros a o b p A O B P x t.
  destruct (sub40 a o A O) as (F1 & B1 & e1 & H1 & E1). destruct (sub40 b p B P) as (F2 & B2 & e2 & H2 & E2).
  assert (XB : Rabs x <= bpow radix2 82).
  { unfold x. rewrite Rabs_mult. replace 82%Z with (41 + 41)%Z by lia. rewrite bpow_plus. apply Rmult_le_compat; auto using Rabs_pos. }
  assert (N : Rabs ((1 + e1) * (1 + e2) - 1) <= 3 * u32r).
  { eapply Rle_trans; [apply near_mul; apply near_1p; eassumption|]. unfold u32r. lra. }
  assert (PB : Rabs (FR (fsub a o) * FR (fsub b p)) <= bpow radix2 83).
  { rewrite E1, E2. replace ((FR a - FR o) * (1 + e1) * ((FR b - FR p) * (1 + e2))) with (x * ((1 + e1) * (1 + e2))) by (unfold x; ring).
    rewrite Rabs_mult. replace 83%Z with (82 + 1)%Z by lia. rewrite (bpow_plus radix2 82 1). change (bpow radix2 1) with 2.
    apply Rmult_le_compat; auto using Rabs_pos. apply Rabs_le_inv in N. apply Rabs_le. unfold u32r in N. lra. }
  destruct (fmul_rel (fsub a o) (fsub b p) F1 F2) as (F & d & e & Hd & He & E).
  { eapply Rle_trans; [exact PB|]. apply bpow_le. lia. }
  split; [exact F|].
  assert (N3 : Rabs ((1 + e1) * (1 + e2) * (1 + d) - 1) <= 4 * u32r + u32r / 2).
  { eapply Rle_trans; [apply near_mul; [exact N|apply near_1p; exact Hd]|]. unfold u32r. lra. }
  assert (N4 : Rabs ((1 + e1) * (1 + e2) * (1 + d) - 1) <= 4 * u32r).
  { assert (N' : Rabs ((1 + e1) * (1 + e2) - 1) <= 2 * u32r + u32r * u32r).
    { eapply Rle_trans; [apply near_mul; apply near_1p; eassumption|]. lra. }
    eapply Rle_trans; [apply near_mul; [exact N'|apply near_1p; exact Hd]|]. unfold u32r. lra. }
  assert (TX : FR t - x = x * ((1 + e1) * (1 + e2) * (1 + d) - 1) + e).
  { unfold t. rewrite E, E1, E2. unfold x. ring. }
  assert (TE : Rabs (FR t - x) <= 4 * u32r * Rabs x + t32r).
  { rewrite TX. eapply Rle_trans; [apply Rabs_triang|]. rewrite Rabs_mult.
    pose proof (Rabs_pos x). assert (Rabs x * Rabs ((1 + e1) * (1 + e2) * (1 + d) - 1) <= Rabs x * (4 * u32r)) by (apply Rmult_le_compat_l; auto). lra. }
  split; [|exact TE].
  replace (FR t) with (x + (FR t - x)) by ring. eapply Rle_trans; [apply Rabs_triang|].
  replace 84%Z with (82 + 2)%Z by lia. rewrite (bpow_plus radix2 82 2). change (bpow radix2 2) with 4.
  assert (1 <= bpow radix2 82) by (change 1 with (bpow radix2 0); apply bpow_le; lia). pose proof t32r_small.
  pose proof (Rabs_pos x). unfold u32r in TE. lra.
Qed.

Lemma add_err : forall s t x y rx ry, ffin s = true -> ffin t = true ->
  Rabs (FR s) <= bpow radix2 100 -> Rabs (FR t) <= bpow radix2 100 ->
  Rabs (FR s - x) <= rx -> Rabs (FR t - y) <= ry ->
  ffin (fadd s t) = true /\ Rabs (FR (fadd s t) - (x + y)) <= (rx + ry) * (1 + u32r) + u32r * Rabs (x + y).
Proof.
  intros s t x y rx ry Fs Ft Bs Bt Hx Hy.
  destruct (fadd_rel s t Fs Ft) as (F & e & He & E).
  { eapply Rle_trans; [apply Rabs_triang|]. apply Rle_trans with (bpow radix2 100 + bpow radix2 100); [lra|].
    apply Rle_trans with (bpow radix2 101); [|apply bpow_le; lia].
    replace 101%Z with (100 + 1)%Z by lia. rewrite (bpow_plus radix2 100 1). change (bpow radix2 1) with 2. lra. }
  split; auto. rewrite E.
  replace ((FR s + FR t) * (1 + e) - (x + y)) with ((FR s - x + (FR t - y)) * (1 + e) + e * (x + y)) by ring.
  eapply Rle_trans; [apply Rabs_triang|]. rewrite !Rabs_mult. apply Rplus_le_compat.
  - apply Rmult_le_compat; auto using Rabs_pos.
    + eapply Rle_trans; [apply Rabs_triang|]. lra.
    + apply Rabs_le_inv in He. apply Rabs_le. unfold u32r in *. lra.
  - apply Rmult_le_compat_r; auto using Rabs_pos.
Qed.

Lemma dot_err : forall p q o, all3 (fin_upto 40) p -> all3 (fin_upto 40) q -> all3 (fin_upto 40) o ->
  let r := dot3 (pt_sub p o) (pt_sub q o) in
  let A := sub3R p o in let B := sub3R q o in
  ffin r = true /\ Rabs (FR r - dotR A B) <= 7 * u32r * adotR A B + 4 * t32r.
Proof.
  intros p q o (P1 & P2 & P3) (Q1 & Q2 & Q3) (O1 & O2 & O3) r A B.
  destruct (term_err _ _ _ _ P1 O1 Q1 O1) as (F1 & B1 & E1).
  destruct (term_err _ _ _ _ P2 O2 Q2 O2) as (F2 & B2 & E2).
  destruct (term_err _ _ _ _ P3 O3 Q3 O3) as (F3 & B3 & E3).
  unfold r, dot3, pt_sub, zip3. cbn [vx vy vz].
  change ((FR (vx p) - FR (vx o)) * (FR (vx q) - FR (vx o))) with (vx A * vx B) in E1.
  change ((FR (vy p) - FR (vy o)) * (FR (vy q) - FR (vy o))) with (vy A * vy B) in E2.
  change ((FR (vz p) - FR (vz o)) * (FR (vz q) - FR (vz o))) with (vz A * vz B) in E3.
  set (t1 := fmul _ _) in E1, F1, B1 |- *. set (t2 := fmul _ _) in E2, F2, B2 |- *. set (t3 := fmul _ _) in E3, F3, B3 |- *.
  assert (L : bpow radix2 84 <= bpow radix2 100) by (apply bpow_le; lia).
  destruct (add_err t2 t3 _ _ _ _ F2 F3 ltac:(lra) ltac:(lra) E2 E3) as (F23 & E23).
  assert (B23 : Rabs (FR (fadd t2 t3)) <= bpow radix2 100).
  { destruct (fadd_rel t2 t3 F2 F3) as (_ & e & He & E).
    { eapply Rle_trans; [apply Rabs_triang|]. apply Rle_trans with (bpow radix2 84 + bpow radix2 84); [lra|].
      apply Rle_trans with (bpow radix2 85); [|apply bpow_le; lia].
      replace 85%Z with (84 + 1)%Z by lia. rewrite (bpow_plus radix2 84 1). change (bpow radix2 1) with 2. lra. }
    rewrite E, Rabs_mult. apply Rle_trans with ((bpow radix2 84 + bpow radix2 84) * 2).
    - apply Rmult_le_compat; auto using Rabs_pos.
      + eapply Rle_trans; [apply Rabs_triang|]. lra.
      + apply Rabs_le_inv in He. apply Rabs_le. unfold u32r in *. lra.
    - apply Rle_trans with (bpow radix2 86); [|apply bpow_le; lia].
      replace 86%Z with (84 + 2)%Z by lia. rewrite (bpow_plus radix2 84 2). change (bpow radix2 2) with 4. lra. }
  destruct (add_err t1 (fadd t2 t3) _ _ _ _ F1 F23 ltac:(lra) B23 E1 E23) as (F & E).
  split; auto. unfold dotR, adotR. rewrite Rplus_assoc. eapply Rle_trans; [exact E|]. clear E.
  set (x := vx A * vx B). set (y := vy A * vy B). set (z := vz A * vz B).
  pose proof (Rabs_triang y z) as T1. pose proof (Rabs_triang x (y + z)) as T2.
  pose proof (Rabs_pos x). pose proof (Rabs_pos y). pose proof (Rabs_pos z). pose proof t32r_pos.
  pose proof (Rabs_pos (y + z)). pose proof (Rabs_pos (x + (y + z))). unfold u32r. lra.
Qed.

Lemma dist2_dot : forall p o, dist2 p o = dotR (sub3R p o) (sub3R p o).
Proof. intros. unfold dist2, dotR, sub3R, sqR. cbn [vx vy vz]. ring. Qed.

Lemma norm_err : forall p o, all3 (fin_upto 40) p -> all3 (fin_upto 40) o ->
  bpow radix2 (-30) <= normR (sub3R p o) ->
  ffin (norm3 (pt_sub p o)) = true /\
  exists e, Rabs e <= 11 * u32r /\ FR (norm3 (pt_sub p o)) = normR (sub3R p o) * (1 + e).
Proof.
  intros p o P O L. destruct (sqnorm_err p o P O) as (F & E). rewrite dist2_dot in E.
  set (s := sqnorm (pt_sub p o)) in *. set (D := dotR (sub3R p o) (sub3R p o)) in *.
  assert (DD : bpow radix2 (-60) <= D).
  { unfold normR in L. fold D in L. replace (bpow radix2 (-60)) with (bpow radix2 (-30) * bpow radix2 (-30)) by (rewrite <- bpow_plus; reflexivity).
    rewrite <- (sqrt_sqrt D) by apply dotR_pos. apply Rmult_le_compat; auto using bpow_ge_0. }
  assert (TT : 4 * t32r <= u32r * D).
  { apply Rle_trans with (u32r * bpow radix2 (-60)); [|apply Rmult_le_compat_l; [unfold u32r; lra|auto]].
    rewrite <- bpow_m24, <- bpow_plus. unfold t32r. apply Rle_trans with (bpow radix2 (-148)); [|apply bpow_le; lia].
    replace (-148)%Z with (-150 + 2)%Z by lia. rewrite (bpow_plus radix2 (-150) 2). change (bpow radix2 2) with 4. lra. }
  assert (DP : 0 < D) by (pose proof (bpow_gt_0 radix2 (-60)); lra).
  assert (SP : 0 <= FR s) by (unfold u32r in *; lra).
  destruct (fsqrt_rel s F SP) as (FQ & e & He & EQ).
  split; [exact FQ|].
  assert (Q : exists th, Rabs th <= 9 * u32r /\ FR s = D * (1 + th)).
  { exists (FR s / D - 1). split; [|field; lra]. apply Rabs_le.
    assert (I : FR s / D * D = FR s) by (field; lra). split; apply (Rmult_le_reg_r D); try lra. }
  destruct Q as (th & Hth & Es).
  exists (sqrt (1 + th) * (1 + e) - 1). split.
  - eapply Rle_trans; [apply near_mul; [apply near_sqrt|apply near_1p]|].
    + apply Rabs_le_inv in Hth. unfold u32r in Hth. lra.
    + apply near_1p. exact Hth.
    + exact He.
    + unfold u32r. lra.
  - unfold norm3. fold s. rewrite EQ, Es. rewrite sqrt_mult_alt by lra. unfold normR. fold D. ring.
Qed.

Lemma normR_upto : forall p o, all3 (fin_upto 40) p -> all3 (fin_upto 40) o -> normR (sub3R p o) <= bpow radix2 42.
Proof.
  intros p o (P1 & P2 & P3) (O1 & O2 & O3).
  destruct (sub40 _ _ P1 O1) as (_ & B1 & _). destruct (sub40 _ _ P2 O2) as (_ & B2 & _). destruct (sub40 _ _ P3 O3) as (_ & B3 & _).
  unfold normR. apply Rsqr_incr_0_var; [|apply bpow_ge_0]. rewrite Rsqr_sqrt by apply dotR_pos.
  assert (Q : forall r b, Rabs r <= b -> r * r <= b * b). { intros r b H. rewrite <- (Rabs_pos_eq (r * r)) by nra. rewrite Rabs_mult. apply Rmult_le_compat; auto using Rabs_pos. }
  apply Q in B1. apply Q in B2. apply Q in B3. unfold dotR, sub3R. cbn [vx vy vz].
  replace (Rsqr (bpow radix2 42)) with (4 * (bpow radix2 41 * bpow radix2 41)).
  2:{ unfold Rsqr. replace 42%Z with (41 + 1)%Z by lia. rewrite (bpow_plus radix2 41 1). change (bpow radix2 1) with 2. ring. }
  assert (0 <= bpow radix2 41 * bpow radix2 41) by (apply Rmult_le_pos; apply bpow_ge_0). lra.
Qed.

Lemma computeDistance_err : forall o p c, all3 (fin_upto 40) o -> all3 (fin_upto 40) p -> all3 (fin_upto 40) c ->
  bpow radix2 (-30) <= normR (sub3R p o) -> bpow radix2 (-30) <= normR (sub3R c o) ->
  ffin (computeDistance o p c) = true /\
  Rabs (FR (computeDistance o p c) - projective o p c) <= bpow radix2 (-19) * (normR (sub3R p o) + normR (sub3R c o)).
Proof.
  intros o p c O P C LN LA. destruct (norm_err p o P O LN) as (FN & en & Hen & EN).
  destruct (dot_err c p o C P O) as (FS & ES).
  pose proof (normR_upto p o P O) as UN. pose proof (normR_upto c o C O) as UA.
  pose proof (cauchy_abs (sub3R c o) (sub3R p o)) as CS. pose proof (dot_adot (sub3R c o) (sub3R p o)) as DA.
  unfold computeDistance, projective. set (n := norm3 (pt_sub p o)) in *. set (s := dot3 (pt_sub c o) (pt_sub p o)) in *.
  set (N := normR (sub3R p o)) in *. set (A := normR (sub3R c o)) in *. set (d := dotR (sub3R c o) (sub3R p o)) in *.
  set (ad := adotR (sub3R c o) (sub3R p o)) in *.
  pose proof (bpow_gt_0 radix2 (-30)) as P30. assert (NP : 0 < N) by lra. assert (AP : 0 < A) by lra.
  assert (TT : 4 * t32r <= u32r * (A * N)).
  { apply Rle_trans with (u32r * bpow radix2 (-60)).
    - rewrite <- bpow_m24, <- bpow_plus. unfold t32r. apply Rle_trans with (bpow radix2 (-148)); [|apply bpow_le; lia].
      replace (-148)%Z with (-150 + 2)%Z by lia. rewrite (bpow_plus radix2 (-150) 2). change (bpow radix2 2) with 4. lra.
    - apply Rmult_le_compat_l; [unfold u32r; lra|]. replace (bpow radix2 (-60)) with (bpow radix2 (-30) * bpow radix2 (-30)) by (rewrite <- bpow_plus; reflexivity).
      apply Rmult_le_compat; lra. }
  assert (TA : t32r <= u32r * A).
  { apply Rle_trans with (u32r * bpow radix2 (-30)); [|apply Rmult_le_compat_l; [unfold u32r; lra|auto]].
    rewrite <- bpow_m24, <- bpow_plus. unfold t32r. apply bpow_le. lia. }
  assert (SD : Rabs (FR s - d) <= 8 * u32r * (A * N)).
  { eapply Rle_trans; [exact ES|]. assert (7 * u32r * ad <= 7 * u32r * (A * N)) by (apply Rmult_le_compat_l; [unfold u32r; lra|auto]). lra. }
  assert (RD : forall x b, Rabs x <= b * N -> Rabs (x / N) <= b).
  { intros x b H. unfold Rdiv. rewrite Rabs_mult, (Rabs_pos_eq (/ N)) by (left; apply Rinv_0_lt_compat; auto).
    apply (Rmult_le_reg_r N); auto. rewrite Rmult_assoc, Rinv_l by lra. lra. }
  assert (Q1 : Rabs (FR s / N - d / N) <= 8 * u32r * A).
  { replace (FR s / N - d / N) with ((FR s - d) / N) by (field; lra). apply RD. lra. }
  assert (Q2 : Rabs (d / N) <= A) by (apply RD; lra).
  assert (Q3 : Rabs (FR s / N) <= A * (1 + 8 * u32r)).
  { replace (FR s / N) with (d / N + (FR s / N - d / N)) by ring. eapply Rle_trans; [apply Rabs_triang|]. lra. }
  assert (K : Rabs (/ (1 + en) - 1) <= 12 * u32r).
  { eapply Rle_trans; [apply near_inv; [apply near_1p; exact Hen|unfold u32r; lra]|]. unfold u32r. lra. }
  pose proof Hen as Hen'. apply Rabs_le_inv in Hen'.
  assert (NN : FR n <> 0). { rewrite EN. apply Rmult_integral_contrapositive. split; unfold u32r in *; lra. }
  assert (Q4 : FR s / FR n = FR s / N * / (1 + en)). { rewrite EN. field. split; unfold u32r in *; lra. }
  assert (Q5 : Rabs (FR s / FR n - d / N) <= 21 * u32r * A).
  { rewrite Q4. replace (FR s / N * / (1 + en) - d / N) with (FR s / N * (/ (1 + en) - 1) + (FR s / N - d / N)) by ring.
    eapply Rle_trans; [apply Rabs_triang|]. rewrite Rabs_mult.
    assert (Rabs (FR s / N) * Rabs (/ (1 + en) - 1) <= A * (1 + 8 * u32r) * (12 * u32r)) by (apply Rmult_le_compat; auto using Rabs_pos).
    assert (A * (1 + 8 * u32r) * (12 * u32r) <= 13 * u32r * A). { unfold u32r. nra. } lra. }
  assert (P43 : 2 * bpow radix2 42 = bpow radix2 43). { replace 43%Z with (42 + 1)%Z by lia. rewrite (bpow_plus radix2 42 1). change (bpow radix2 1) with 2. ring. }
  assert (Q6 : Rabs (FR s / FR n) <= 2 * A).
  { replace (FR s / FR n) with (d / N + (FR s / FR n - d / N)) by ring. eapply Rle_trans; [apply Rabs_triang|]. unfold u32r in *. lra. }
  destruct (fdiv_rel s n FS NN) as (FQ & dd & ee & Hd & He & EQ).
  { eapply Rle_trans; [exact Q6|]. apply Rle_trans with (bpow radix2 43); [lra|apply bpow_le; lia]. }
  set (q := fdiv s n) in *.
  assert (Q7 : Rabs (FR q - d / N) <= 25 * u32r * A).
  { rewrite EQ. replace (FR s / FR n * (1 + dd) + ee - d / N) with (FR s / FR n - d / N + FR s / FR n * dd + ee) by ring.
    eapply Rle_trans; [apply Rabs_triang|]. eapply Rle_trans; [apply Rplus_le_compat_r; apply Rabs_triang|]. rewrite Rabs_mult.
    assert (Rabs (FR s / FR n) * Rabs dd <= 2 * A * u32r) by (apply Rmult_le_compat; auto using Rabs_pos). pose proof t32r_pos. lra. }
  assert (Q8 : Rabs (FR n - N) <= 11 * u32r * N).
  { rewrite EN. replace (N * (1 + en) - N) with (N * en) by ring. rewrite Rabs_mult, (Rabs_pos_eq N) by lra.
    assert (N * Rabs en <= N * (11 * u32r)) by (apply Rmult_le_compat_l; lra). lra. }
  assert (Q9 : Rabs (FR n - FR q - (N - d / N)) <= 11 * u32r * N + 25 * u32r * A).
  { replace (FR n - FR q - (N - d / N)) with ((FR n - N) + - (FR q - d / N)) by ring. eapply Rle_trans; [apply Rabs_triang|]. rewrite Rabs_Ropp. lra. }
  assert (Q10 : Rabs (N - d / N) <= N + A).
  { unfold Rminus. eapply Rle_trans; [apply Rabs_triang|]. rewrite Rabs_Ropp, (Rabs_pos_eq N) by lra. lra. }
  assert (Q11 : Rabs (FR n - FR q) <= 2 * (N + A)).
  { replace (FR n - FR q) with ((N - d / N) + (FR n - FR q - (N - d / N))) by ring. eapply Rle_trans; [apply Rabs_triang|]. unfold u32r in *. lra. }
  destruct (fsub_rel n q FN FQ) as (FF & e & He' & EE).
  { eapply Rle_trans; [exact Q11|]. apply Rle_trans with (bpow radix2 45); [|apply bpow_le; lia].
    replace 45%Z with (43 + 2)%Z by lia. rewrite (bpow_plus radix2 43 2). change (bpow radix2 2) with 4. lra. }
  split; [exact FF|]. rewrite EE.
  replace ((FR n - FR q) * (1 + e) - (N - d / N)) with ((FR n - FR q - (N - d / N)) + (FR n - FR q) * e) by ring.
  eapply Rle_trans; [apply Rabs_triang|]. rewrite Rabs_mult.
  assert (Rabs (FR n - FR q) * Rabs e <= 2 * (N + A) * u32r) by (apply Rmult_le_compat; auto using Rabs_pos).
  change (bpow radix2 (-19)) with (/ 524288).
  unfold u32r in *. lra.
Qed.
