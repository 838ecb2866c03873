(** Rounding error bounds used by several proofs. *)
From Coq Require Import ZArith Reals Lra Lia.
From Flocq Require Import Core Plus_error Relative IEEE754.Binary.
From Verif Require Import F32 F32_lemmas.
Open Scope R_scope.

Definition u32r : R := / 16777216.   (* 2^-24 *)
Definition t32r : R := bpow radix2 (-150).

Lemma bpow_m24 : bpow radix2 (-24) = u32r.
Proof. unfold u32r. reflexivity. Qed.
Lemma t32r_pos : 0 < t32r.
Proof. apply bpow_gt_0. Qed.
Lemma t32r_small : t32r < / 1000000000000.
Proof.
  unfold t32r. apply Rlt_trans with (bpow radix2 (-50)); [apply bpow_lt; lia|].
  cbn. lra.
Qed.

Lemma rnd32_small : forall x, Rabs x <= bpow radix2 127 -> Rabs (rnd32 x) < max32.
Proof.
  intros x H. rewrite <- rnd32_abs. apply Rle_lt_trans with (bpow radix2 127).
  - apply rnd32_le in H. replace (rnd32 (bpow radix2 127)) with (bpow radix2 127) in H; auto.
    rewrite <- (Rmult_1_l (bpow radix2 127)). symmetry. apply (rnd32_exact 1 127); lia.
  - unfold max32. apply bpow_lt. lia.
Qed.
Lemma rnd64_small : forall x, Rabs x <= bpow radix2 1023 -> Rabs (rnd64 x) < max64.
Proof.
  intros x H. rewrite <- rnd64_abs. apply Rle_lt_trans with (bpow radix2 1023).
  - apply rnd64_le in H. replace (rnd64 (bpow radix2 1023)) with (bpow radix2 1023) in H; auto.
    rewrite <- (Rmult_1_l (bpow radix2 1023)). symmetry. apply (rnd64_exact 1 1023); lia.
  - unfold max64. apply bpow_lt. lia.
Qed.

Lemma u_ro_32 : u_ro radix2 24 = u32r.
Proof. unfold u_ro, u32r. cbn. lra. Qed.

(** sums and differences have a purely relative error *)
Lemma fadd_rel : forall a b, ffin a = true -> ffin b = true -> Rabs (FR a + FR b) <= bpow radix2 127 ->
  ffin (fadd a b) = true /\ exists e, Rabs e <= u32r /\ FR (fadd a b) = (FR a + FR b) * (1 + e).
Proof.
  intros a b Ha Hb H. destruct (fadd_R a b Ha Hb (rnd32_small _ H)) as (E & F). split; auto.
  destruct (FLT_plus_error_N_ex radix2 (-149) 24 (fun z => negb (Z.even z)) (FR a) (FR b)
     (FR_format a) (FR_format b)) as (e & He & Ee).
  exists e. split.
  - eapply Rle_trans; [exact He|]. rewrite u_ro_32. unfold u32r. lra.
  - rewrite E. exact Ee.
Qed.
Lemma fsub_rel : forall a b, ffin a = true -> ffin b = true -> Rabs (FR a - FR b) <= bpow radix2 127 ->
  ffin (fsub a b) = true /\ exists e, Rabs e <= u32r /\ FR (fsub a b) = (FR a - FR b) * (1 + e).
Proof.
  intros a b Ha Hb H. destruct (fsub_R a b Ha Hb (rnd32_small _ H)) as (E & F). split; auto.
  destruct (FLT_plus_error_N_ex radix2 (-149) 24 (fun z => negb (Z.even z)) (FR a) (- FR b)
     (FR_format a) (generic_format_opp _ _ _ (FR_format b))) as (e & He & Ee).
  exists e. split.
  - eapply Rle_trans; [exact He|]. rewrite u_ro_32. unfold u32r. lra.
  - rewrite E. exact Ee.
Qed.
Lemma fmul_rel : forall a b, ffin a = true -> ffin b = true -> Rabs (FR a * FR b) <= bpow radix2 127 ->
  ffin (fmul a b) = true /\ exists d e, Rabs d <= u32r /\ Rabs e <= t32r /\ FR (fmul a b) = (FR a * FR b) * (1 + d) + e.
Proof.
  intros a b Ha Hb H. destruct (fmul_R a b Ha Hb (rnd32_small _ H)) as (E & F). split; auto.
  rewrite E. apply rnd32_err.
Qed.
Lemma fdiv_rel : forall a b, ffin a = true -> FR b <> 0 -> Rabs (FR a / FR b) <= bpow radix2 127 ->
  ffin (fdiv a b) = true /\ exists d e, Rabs d <= u32r /\ Rabs e <= t32r /\ FR (fdiv a b) = (FR a / FR b) * (1 + d) + e.
Proof.
  intros a b Ha Hb H. destruct (fdiv_R a b Ha Hb (rnd32_small _ H)) as (E & F). split; auto.
  rewrite E. apply rnd32_err.
Qed.

Definition u64r : R := / 9007199254740992.   (* 2^-53 *)
Definition t64r : R := bpow radix2 (-1075).
Lemma rnd64_err : forall x, exists d e, Rabs d <= u64r /\ Rabs e <= t64r /\ rnd64 x = x * (1 + d) + e.
Proof.
  intros x.
  destruct (error_N_FLT radix2 (-1074) 53 ltac:(reflexivity) (fun z => negb (Z.even z)) x)
    as (d & e & Hd & He & _ & E).
  exists d, e. split; [|split].
  - eapply Rle_trans; [exact Hd|]. unfold u64r. change (/ 2 * bpow radix2 (-53 + 1) <= / 9007199254740992).
    rewrite half_bpow. right. reflexivity.
  - eapply Rle_trans; [exact He|]. unfold t64r. change (-1074)%Z with (-1075 + 1)%Z. rewrite half_bpow. lra.
  - exact E.
Qed.
Lemma dmul_rel : forall a b, dfin a = true -> dfin b = true -> Rabs (DR a * DR b) <= bpow radix2 1023 ->
  dfin (dmul a b) = true /\ exists d e, Rabs d <= u64r /\ Rabs e <= t64r /\ DR (dmul a b) = (DR a * DR b) * (1 + d) + e.
Proof.
  intros a b Ha Hb H. destruct (dmul_R a b Ha Hb (rnd64_small _ H)) as (E & F). split; auto.
  rewrite E. apply rnd64_err.
Qed.

(** enlarging a nonnegative bound by a relative error *)
Lemma rel_up : forall q e X u, 0 <= q -> q <= X -> Rabs e <= u -> q * (1 + e) <= X * (1 + u).
Proof.
  intros q e X u H1 H2 H3. apply Rabs_le_inv in H3. assert (0 <= X) by lra.
  apply Rle_trans with (q * (1 + u)); [apply Rmult_le_compat_l; lra|].
  apply Rmult_le_compat_r; [|auto]. destruct H3 as [A B]. assert (-u <= u) by lra. lra.
Qed.
Lemma rel_lo : forall q e X u, X <= q -> 0 <= q -> Rabs e <= u -> u <= 1 -> X * (1 - u) <= q * (1 + e).
Proof.
  intros q e X u H1 H2 H3 Hu. apply Rabs_le_inv in H3.
  apply Rle_trans with (q * (1 - u)); [apply Rmult_le_compat_r; lra|apply Rmult_le_compat_l; lra].
Qed.
Lemma rel_pos : forall q e u, 0 <= q -> Rabs e <= u -> u <= 1 -> 0 <= q * (1 + e).
Proof. intros q e u H1 H2 H3. apply Rabs_le_inv in H2. apply Rmult_le_pos; lra. Qed.
Lemma Rabs_dev : forall x y e, Rabs e <= y -> Rabs (x * e) <= Rabs x * y.
Proof. intros. rewrite Rabs_mult. apply Rmult_le_compat_l; auto. apply Rabs_pos. Qed.

(** products and sums of bounds that are powers of two *)
Lemma Rabs_mul_bpow : forall x y a b c, Rabs x <= bpow radix2 a -> Rabs y <= bpow radix2 b -> (a + b <= c)%Z ->
  Rabs (x * y) <= bpow radix2 c.
Proof.
  intros. rewrite Rabs_mult. apply Rle_trans with (bpow radix2 a * bpow radix2 b).
  - apply Rmult_le_compat; auto using Rabs_pos.
  - rewrite <- bpow_plus. apply bpow_le; auto.
Qed.
Lemma Rabs_add_bpow : forall x y a b c, Rabs x <= bpow radix2 a -> Rabs y <= bpow radix2 b -> (a < c)%Z -> (b < c)%Z ->
  Rabs (x + y) <= bpow radix2 c.
Proof.
  intros. eapply Rle_trans; [apply Rabs_triang|].
  assert (bpow radix2 a <= bpow radix2 (c - 1)) by (apply bpow_le; lia).
  assert (bpow radix2 b <= bpow radix2 (c - 1)) by (apply bpow_le; lia).
  assert (bpow radix2 c = 2 * bpow radix2 (c - 1)).
  { replace c with (c - 1 + 1)%Z at 1 by lia. rewrite bpow_plus. change (bpow radix2 1) with 2. ring. }
  lra.
Qed.
Lemma Rabs_sub_bpow : forall x y a b c, Rabs x <= bpow radix2 a -> Rabs y <= bpow radix2 b -> (a < c)%Z -> (b < c)%Z ->
  Rabs (x - y) <= bpow radix2 c.
Proof. intros. unfold Rminus. eapply Rabs_add_bpow; eauto. rewrite Rabs_Ropp. auto. Qed.
Lemma Rabs_rnd_bpow : forall x e, (-149 <= e <= 127)%Z -> Rabs x <= bpow radix2 e -> Rabs (rnd32 x) <= bpow radix2 e.
Proof.
  intros x e He H. rewrite <- rnd32_abs. apply rnd32_le in H.
  replace (rnd32 (bpow radix2 e)) with (bpow radix2 e) in H; auto.
  rewrite <- (Rmult_1_l (bpow radix2 e)). symmetry. apply (rnd32_exact 1 e); lia.
Qed.
