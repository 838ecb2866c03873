(** C111: colours of ids. *)
From Coq Require Import ZArith Reals Lra Lia Bool.
From Flocq Require Import Core.
From Verif Require Import F32 F32_lemmas F32_err Types Neighbor_proofs Voxel ColorMap ColorMap_spec ColorMap_proofs P_ColorMap IdColors IdColors_spec.
Open Scope R_scope.

(** ** the hues *)
(** the turn of a revolution below 2^k, as a multiple of 1/2^k *)
Definition ticks (k r : Z) : Z := (if (r =? 0) then 0 else (2 * (r - 2 ^ Z.log2 r) + 1) * 2 ^ (k - Z.log2 r - 1))%Z.
Lemma log2_lt : forall r k, (0 < r < 2 ^ k)%Z -> (0 <= Z.log2 r < k)%Z.
Proof. intros r k H. split. apply Z.log2_nonneg. apply Z.log2_lt_pow2; lia. Qed.
Lemma ticks_turned : forall k r, (0 <= k)%Z -> (0 <= r < 2 ^ k)%Z -> turned r * IZR (2 ^ k) = IZR (ticks k r).
Proof.
  intros k r K H. unfold turned, ticks. destruct (Z.eqb_spec r 0) as [-> | N]. ring.
  pose proof (log2_lt r k ltac:(lia)) as L. set (e := Z.log2 r) in *. rewrite (mult_IZR _ (2 ^ (k - e - 1))).
  replace (2 ^ k)%Z with (2 ^ (e + 1) * 2 ^ (k - e - 1))%Z by (rewrite <- Z.pow_add_r by lia; f_equal; lia). rewrite mult_IZR.
  assert (P : 0 < IZR (2 ^ (e + 1))) by (apply IZR_lt; apply Z.pow_pos_nonneg; lia). field. lra.
Qed.
Lemma log2_part : forall r, (0 < r)%Z -> (0 <= r - 2 ^ Z.log2 r < 2 ^ Z.log2 r)%Z.
Proof. intros r H. pose proof (Z.log2_spec r H) as L. rewrite Z.pow_succ_r in L by apply Z.log2_nonneg. lia. Qed.
Lemma ticks_range : forall k r, (0 <= k)%Z -> (0 <= r < 2 ^ k)%Z -> (0 <= ticks k r < 2 ^ k)%Z.
Proof.
  intros k r K H. unfold ticks. destruct (Z.eqb_spec r 0) as [-> | N]. lia.
  pose proof (log2_lt r k ltac:(lia)) as L. pose proof (log2_part r ltac:(lia)) as S. set (e := Z.log2 r) in *.
  assert (E : (2 ^ k = 2 * 2 ^ e * 2 ^ (k - e - 1))%Z). { rewrite <- Z.pow_succ_r by lia. rewrite <- Z.pow_add_r by lia. f_equal. lia. }
  rewrite E. assert (0 < 2 ^ (k - e - 1))%Z by (apply Z.pow_pos_nonneg; lia). split. nia. apply Z.mul_lt_mono_pos_r; lia.
Qed.
Lemma odd_even : forall a b j, (0 < j)%Z -> ((2 * a + 1) * 2 ^ j)%Z <> (2 * b + 1)%Z.
Proof.
  intros a b j J F. replace (2 ^ j)%Z with (2 * 2 ^ (j - 1))%Z in F by (rewrite <- Z.pow_succ_r by lia; f_equal; lia).
  assert (Q : (2 * ((2 * a + 1) * 2 ^ (j - 1)) = 2 * b + 1)%Z) by (rewrite <- F; ring). lia.
Qed.
Lemma ticks_lt : forall k r r', (0 < r < 2 ^ k)%Z -> (0 < r' < 2 ^ k)%Z -> (Z.log2 r < Z.log2 r')%Z -> ticks k r <> ticks k r'.
Proof.
  intros k r r' H H' L F. unfold ticks in F. destruct (Z.eqb_spec r 0); [lia|]. destruct (Z.eqb_spec r' 0); [lia|].
  pose proof (log2_lt r k H). pose proof (log2_lt r' k H'). set (e := Z.log2 r) in *. set (e' := Z.log2 r') in *.
  replace (2 ^ (k - e - 1))%Z with (2 ^ (e' - e) * 2 ^ (k - e' - 1))%Z in F by (rewrite <- Z.pow_add_r by lia; f_equal; lia).
  rewrite Z.mul_assoc in F. apply Z.mul_reg_r in F. 2: apply Z.pow_nonzero; lia. apply odd_even in F; lia.
Qed.
Lemma ticks_inj : forall k r r', (0 <= r < 2 ^ k)%Z -> (0 <= r' < 2 ^ k)%Z -> ticks k r = ticks k r' -> r = r'.
Proof.
  intros k r r' H H' F.
  assert (Z0 : forall x, (0 < x < 2 ^ k)%Z -> ticks k x <> 0%Z).
  { intros x Hx. unfold ticks. destruct (Z.eqb_spec x 0); [lia|]. pose proof (log2_part x ltac:(lia)). pose proof (log2_lt x k Hx).
    apply Z.neq_mul_0. split; [lia|]. apply Z.pow_nonzero; lia. }
  destruct (Z.eq_dec r 0) as [-> | N]; destruct (Z.eq_dec r' 0) as [-> | N']; auto.
  - exfalso. apply (Z0 r'); [lia|]. rewrite <- F. reflexivity.
  - exfalso. apply (Z0 r); [lia|]. rewrite F. reflexivity.
  - destruct (Z.lt_trichotomy (Z.log2 r) (Z.log2 r')) as [L | [L | L]].
    + exfalso. apply (ticks_lt k r r'); auto; lia.
    + pose proof (log2_lt r k ltac:(lia)). unfold ticks in F. destruct (Z.eqb_spec r 0); [lia|]. destruct (Z.eqb_spec r' 0); [lia|]. rewrite <- L in F.
      apply Z.mul_reg_r in F. 2: apply Z.pow_nonzero; lia. lia.
    + exfalso. apply (ticks_lt k r' r); auto; lia.
Qed.
(** With [n] items per revolution the hues of the first [n 2^k] ids are distinct multiples of
    1/(n 2^k) of the circle: they are spread evenly. *)
Theorem C111_spread : forall n k, (1 <= n)%Z -> (0 <= k)%Z ->
  forall v, (0 <= v < n * 2 ^ k)%Z -> exists t, (0 <= t < n * 2 ^ k)%Z /\ hue_of n v = IZR t / IZR (n * 2 ^ k) /\
  forall w, (0 <= w < n * 2 ^ k)%Z -> w <> v -> / IZR (n * 2 ^ k) <= Rabs (hue_of n v - hue_of n w).
Proof.
  intros n k Hn K.
  assert (P : (0 < 2 ^ k)%Z) by (apply Z.pow_pos_nonneg; lia).
  assert (T : forall v, (0 <= v < n * 2 ^ k)%Z -> hue_of n v = IZR (v mod n * 2 ^ k + ticks k (v / n)) / IZR (n * 2 ^ k) /\ (0 <= v / n < 2 ^ k)%Z /\ (0 <= v mod n < n)%Z).
  { intros v Hv. assert (R : (0 <= v / n < 2 ^ k)%Z) by (split; [apply Z.div_pos; lia | apply Z.div_lt_upper_bound; lia]).
    split; [|split; auto; apply Z.mod_pos_bound; lia]. unfold hue_of. rewrite plus_IZR, !mult_IZR, <- ticks_turned by auto.
    assert (0 < IZR n) by (apply IZR_lt; lia). assert (0 < IZR (2 ^ k)) by (apply IZR_lt; lia). field. split; lra. }
  intros v Hv. destruct (T v Hv) as (Ev & Rv & Mv). pose proof (ticks_range k _ K Rv) as Tv. exists (v mod n * 2 ^ k + ticks k (v / n))%Z.
  split. nia. split; auto. intros w Hw N. destruct (T w Hw) as (Ew & Rw & Mw). pose proof (ticks_range k _ K Rw) as Tw. rewrite Ev, Ew.
  set (a := (v mod n * 2 ^ k + ticks k (v / n))%Z). set (b := (w mod n * 2 ^ k + ticks k (w / n))%Z).
  assert (D : a <> b).
  { unfold a, b. intros F. assert (Q : (v mod n = w mod n)%Z).
    { rewrite (Z.div_unique (v mod n * 2 ^ k + ticks k (v / n)) (2 ^ k) (v mod n) (ticks k (v / n))) by lia. rewrite F. symmetry. apply (Z.div_unique _ (2 ^ k) (w mod n) (ticks k (w / n))); lia. }
    assert (Q2 : (v / n = w / n)%Z). { apply (ticks_inj k); auto. rewrite Q in F. lia. }
    apply N. rewrite (Z.div_mod v n), (Z.div_mod w n) by lia. rewrite Q, Q2. reflexivity. }
  assert (X : 0 < IZR (n * 2 ^ k)) by (apply IZR_lt; nia).
  replace (IZR a / IZR (n * 2 ^ k) - IZR b / IZR (n * 2 ^ k)) with (IZR (a - b) * / IZR (n * 2 ^ k)) by (rewrite minus_IZR; field; lra).
  rewrite Rabs_mult, (Rabs_pos_eq (/ _)) by (left; apply Rinv_0_lt_compat; auto). rewrite <- (Rmult_1_l (/ _)) at 1.
  apply Rmult_le_compat_r. left; apply Rinv_0_lt_compat; auto. rewrite <- abs_IZR. apply IZR_le. lia.
Qed.
Print Assumptions C111_spread.

(** ** the program *)
Lemma u24 : bpow radix2 (-24) = / 16777216. Proof. cbn. lra. Qed.
Lemma t150 : 0 < bpow radix2 (-150) <= / 1099511627776 * / 1099511627776.
Proof.
  split; [apply bpow_gt_0|]. replace (/ 1099511627776) with (bpow radix2 (-40)) by (cbn; lra). rewrite <- bpow_plus. apply bpow_le. lia.
Qed.
Lemma big127 : forall x, Rabs x <= 33554432 -> Rabs x <= bpow radix2 127.
Proof. intros x H. eapply Rle_trans; [exact H|]. replace 33554432 with (bpow radix2 25) by (cbn; lra). apply bpow_le. lia. Qed.
Lemma near32 : forall x c, 0 <= x <= c -> c <= 33554432 -> Rabs (rnd32 x - x) <= c * / 16777216 + / 1099511627776 * / 1099511627776.
Proof.
  intros x c H C. destruct (rnd32_err x) as (d & e & Hd & He & ->). rewrite u24 in Hd. pose proof t150 as T.
  replace (x * (1 + d) + e - x) with (x * d + e) by ring. eapply Rle_trans; [apply Rabs_triang|]. rewrite Rabs_mult, (Rabs_pos_eq x) by lra.
  assert (x * Rabs d <= c * / 16777216) by (apply Rmult_le_compat; try lra; apply Rabs_pos). lra.
Qed.
Lemma of_Z24 : forall z, (0 <= z <= 2 ^ 24)%Z -> FR (f32_of_Z z) = IZR z /\ ffin (f32_of_Z z) = true.
Proof. intros z H. apply f32_of_Z_R. lia. Qed.
Lemma u64_id : forall z, (0 <= z <= 2 ^ 25)%Z -> u64 z = z.
Proof. intros z H. unfold u64. apply Z.mod_small. lia. Qed.
Lemma flt_Z : forall a b, (0 <= a <= 2 ^ 24)%Z -> (0 <= b <= 2 ^ 24)%Z -> flt (f32_of_Z a) (f32_of_Z b) = (a <? b)%Z.
Proof.
  intros a b A B. destruct (of_Z24 a A) as (Ea & Fa). destruct (of_Z24 b B) as (Eb & Fb). apply eq_true_iff_eq.
  rewrite flt_R, Ea, Eb, Z.ltb_lt by auto. split; [apply lt_IZR | apply IZR_lt].
Qed.

Lemma quotient : forall n v, (1 <= n <= 2 ^ 20)%Z -> (0 <= v < 2 ^ 23)%Z ->
  let x := fdiv (f32_of_Z v) (f32_of_Z n) in
  ffin x = true /\ Rabs (FR x - IZR v / IZR n) <= (IZR v / IZR n) * / 16777216 + / 1099511627776 * / 1099511627776 /\
  ftruncZ x = Some (v / n)%Z /\ IZR (v / n) <= FR x < IZR (v / n) + 1.
Proof.
  intros n v Hn Hv x. destruct (of_Z24 v ltac:(lia)) as (Ev & Fv). destruct (of_Z24 n ltac:(lia)) as (En & Fn).
  assert (N : 1 <= IZR n <= 1048576) by (split; apply IZR_le; lia). assert (V : 0 <= IZR v <= 8388607) by (split; apply IZR_le; lia).
  assert (In : 0 < / IZR n <= 1). { split. apply Rinv_0_lt_compat; lra. rewrite <- Rinv_1. apply Rinv_le; lra. }
  assert (Q : 0 <= IZR v / IZR n <= 8388607). { unfold Rdiv. split. apply Rmult_le_pos; lra. replace 8388607 with (8388607 * 1) by ring. apply Rmult_le_compat; lra. }
  destruct (fdiv_R (f32_of_Z v) (f32_of_Z n) Fv) as (E & F). rewrite En; lra.
  { rewrite Ev, En. apply rnd32_small. apply big127. apply Rabs_le. lra. }
  rewrite Ev, En in E. fold x in E, F. pose proof (near32 _ (IZR v / IZR n) (conj (proj1 Q) (Rle_refl _)) ltac:(lra)) as A. rewrite <- E in A.
  pose proof (Z.div_mod v n ltac:(lia)) as DM. pose proof (Z.mod_pos_bound v n ltac:(lia)) as MB.
  assert (R0 : (0 <= v / n <= 2 ^ 23)%Z). { split. apply Z.div_pos; lia. apply Z.div_le_upper_bound; nia. }
  assert (QR : IZR v / IZR n = IZR (v / n) + IZR (v mod n) * / IZR n).
  { rewrite DM at 1. rewrite plus_IZR, mult_IZR. field. lra. }
  assert (M : 0 <= IZR (v mod n) <= IZR n - 1). { split. apply IZR_le; lia. rewrite <- minus_IZR. apply IZR_le. lia. }
  assert (L : IZR (v / n) <= FR x).
  { rewrite E. rewrite <- (rnd32_Z (v / n)) at 1 by lia. apply rnd32_le. rewrite QR. assert (0 <= IZR (v mod n) * / IZR n) by (apply Rmult_le_pos; lra). lra. }
  assert (U : FR x < IZR (v / n) + 1).
  { apply Rabs_le_inv in A. apply Rle_lt_trans with (IZR v / IZR n + (IZR v / IZR n * / 16777216 + / 1099511627776 * / 1099511627776)); [lra|]. rewrite QR at 1.
    assert (B : IZR (v mod n) * / IZR n <= 1 - / IZR n).
    { replace (1 - / IZR n) with ((IZR n - 1) * / IZR n) by (field; lra). apply Rmult_le_compat_r; lra. }
    assert (C : IZR v / IZR n * / 16777216 <= / IZR n * / 2). { unfold Rdiv. rewrite (Rmult_comm (IZR v)), Rmult_assoc. apply Rmult_le_compat_l; lra. }
    assert (D : / 1048576 <= / IZR n) by (apply Rinv_le; lra). lra. }
  split; auto. split; auto. split; auto. rewrite ftruncZ_R by auto. f_equal. rewrite Ztrunc_floor by (pose proof (IZR_le 0 _ (proj1 R0)); lra).
  apply Zfloor_imp. rewrite plus_IZR. auto.
Qed.

Lemma offset_spec : forall n v, (1 <= n <= 2 ^ 20)%Z -> (n <= v < 2 ^ 23)%Z -> exists o, offset_of (f32_of_Z n) (v / n) = Some o /\
  ffin o = true /\ 0 <= turned (v / n) / IZR n <= 1 /\ Rabs (FR o - turned (v / n) / IZR n) <= 3 * / 16777216.
Proof.
  intros n v Hn Hv. pose proof (Z.div_mod v n ltac:(lia)) as DM. pose proof (Z.mod_pos_bound v n ltac:(lia)) as MB. set (r := (v / n)%Z) in *.
  assert (R1 : (1 <= r)%Z). { unfold r. apply Z.div_le_lower_bound; lia. }
  pose proof (log2_part r ltac:(lia)) as S. pose proof (Z.log2_nonneg r) as E0. unfold offset_of, episode_of. destruct (Z.leb_spec 1 r); [|lia]. cbn [obind].
  unfold turned. destruct (Z.eqb_spec r 0); [lia|]. rewrite Z.pow_add_r, Z.pow_1_r by lia. set (p := (2 ^ Z.log2 r)%Z) in *. set (s := (r - p)%Z) in *.
  assert (P : (1 <= p <= r)%Z) by lia. assert (RN : (n * r < 2 ^ 23)%Z) by lia. assert (PN : (n * p < 2 ^ 23)%Z) by nia. assert (RB : (r < 2 ^ 23)%Z) by nia.
  rewrite (u64_id p) by lia. rewrite (u64_id (r - p)) by lia. fold s. rewrite (u64_id (2 * s + 1)) by lia.
  destruct (of_Z24 n ltac:(lia)) as (En & Fn). destruct (of_Z24 2 ltac:(lia)) as (E2 & F2). destruct (of_Z24 p ltac:(lia)) as (Ep & Fp). destruct (of_Z24 (2 * s + 1) ltac:(lia)) as (Es & Fs).
  assert (ex : forall a b, ffin a = true -> ffin b = true -> forall x y, FR a = IZR x -> FR b = IZR y -> (0 <= x * y <= 2 ^ 24)%Z -> FR (fmul a b) = IZR (x * y) /\ ffin (fmul a b) = true).
  { intros a b Fa Fb x y Ea Eb B. assert (X : FR a * FR b = IZR (x * y)) by (rewrite Ea, Eb, mult_IZR; ring).
    destruct (fmul_R a b Fa Fb) as (G1 & G2). rewrite X. apply rnd32_small. apply big127. rewrite <- abs_IZR. apply IZR_le; lia.
    rewrite X, rnd32_Z in G1 by lia. auto. }
  destruct (ex _ _ Fn F2 n 2%Z En E2 ltac:(lia)) as (E3 & F3). destruct (ex _ _ F3 Fp (n * 2)%Z p E3 Ep ltac:(nia)) as (E4 & F4).
  set (m := (n * 2 * p)%Z) in *. assert (Mz : (2 <= m <= 2 ^ 24)%Z) by (unfold m; nia).
  assert (M : 2 <= IZR m <= 16777216) by (split; apply IZR_le; lia).
  assert (I : / 16777216 <= / IZR m <= / 2) by (split; apply Rinv_le; lra).
  assert (F1 : ffin f1 = true) by reflexivity.
  destruct (fdiv_rel f1 (fmul (fmul (f32_of_Z n) (f32_of_Z 2)) (f32_of_Z p)) F1) as (F5 & d & e & Hd & He & E5). rewrite E4; lra.
  { rewrite f1_R, E4. apply big127. unfold Rdiv. rewrite Rmult_1_l. apply Rabs_le. lra. }
  rewrite f1_R, E4 in E5. unfold Rdiv in E5. rewrite Rmult_1_l in E5. set (st := fdiv f1 _) in *.
  set (T := IZR (2 * s + 1)) in *.
  assert (TB : 1 <= T). { unfold T. apply (IZR_le 1). lia. }
  assert (TM : T * / IZR m <= 1).
  { apply Rmult_le_reg_r with (IZR m). lra. rewrite Rmult_assoc, Rinv_l, Rmult_1_r, Rmult_1_l by lra. apply IZR_le. unfold m. nia. }
  assert (T23 : T <= 16777216) by (unfold T; apply IZR_le; lia).
  unfold u32r, t32r in *. pose proof t150 as T150.
  assert (Hd' : Rabs d <= / 16777216) by (rewrite <- u24; exact Hd). assert (He' : Rabs e <= / 1099511627776 * / 1099511627776) by lra.
  apply Rabs_le_inv in Hd'. apply Rabs_le_inv in He'.
  assert (A : Rabs (T * FR st - T * / IZR m) <= / 16777216 + / 1000000000).
  { rewrite E5. replace (T * (/ IZR m * (1 + d) + e) - T * / IZR m) with ((T * / IZR m) * d + T * e) by ring.
    assert (P0 : 0 <= T * / IZR m) by (apply Rmult_le_pos; lra). apply Rabs_le. split; nra. }
  assert (P0 : 0 <= T * / IZR m) by (apply Rmult_le_pos; lra). apply Rabs_le_inv in A.
  destruct (fmul_rel (f32_of_Z (2 * s + 1)) st Fs F5) as (F6 & d2 & e2 & Hd2 & He2 & E6).
  { rewrite Es. fold T. apply big127. apply Rabs_le. lra. }
  rewrite Es in E6. fold T in E6. unfold u32r, t32r in *.
  assert (Hd2' : Rabs d2 <= / 16777216) by (rewrite <- u24; exact Hd2). assert (He2' : Rabs e2 <= / 1099511627776 * / 1099511627776) by lra.
  apply Rabs_le_inv in Hd2'. apply Rabs_le_inv in He2'.
  exists (fmul (f32_of_Z (2 * s + 1)) st). split; [reflexivity|]. split; [exact F6|].
  replace (T / IZR (p * 2) / IZR n) with (T * / IZR m).
  2:{ unfold m. rewrite !mult_IZR. assert (0 < IZR p) by (apply IZR_lt; lia). assert (0 < IZR n) by (apply IZR_lt; lia). field. lra. }
  split; [lra|]. rewrite E6. apply Rabs_le. set (w := T * FR st) in *. nra.
Qed.

Lemma hue_spec : forall n v, (1 <= n <= 2 ^ 20)%Z -> (0 <= v < 2 ^ 23)%Z -> exists h, exponential_hue (f32_of_Z n) v = Some h /\ ffin h = true /\
  Rabs (FR h - hue_of n v) <= hue_err n v /\ 0 <= hue_of n v < 1.
Proof.
  intros n v Hn Hv. destruct (quotient n v Hn Hv) as (Fx & Ax & Tx & Bx). unfold exponential_hue. set (x := fdiv (f32_of_Z v) (f32_of_Z n)) in *.
  rewrite Tx. assert (R0 : (0 <= v / n <= 2 ^ 23)%Z). { split. apply Z.div_pos; lia. apply Z.div_le_upper_bound; nia. }
  unfold to_uint64, in_range. destruct (Z.leb_spec 0 (v / n)); [|lia]. destruct (Z.leb_spec (v / n) (2 ^ 64 - 1)); [|lia]. cbn [andb obind].
  unfold fmod1. rewrite Tx. cbn [obind]. destruct (of_Z24 (v / n) ltac:(lia)) as (Er & Fr).
  destruct (fsub_R x (f32_of_Z (v / n)) Fx Fr) as (Ep & Fp). { rewrite Er. apply rnd32_small. apply big127. apply Rabs_le. lra. }
  rewrite Er in Ep. pose proof (near32 (FR x - IZR (v / n)) 1 ltac:(lra) ltac:(lra)) as Ap. rewrite <- Ep in Ap. set (pr := fsub x _) in *.
  assert (N : 1 <= IZR n <= 1048576) by (split; apply IZR_le; lia).
  pose proof (Z.div_mod v n ltac:(lia)) as DM. pose proof (Z.mod_pos_bound v n ltac:(lia)) as MB.
  assert (In : 0 < / IZR n <= 1). { split. apply Rinv_0_lt_compat; lra. rewrite <- Rinv_1. apply Rinv_le; lra. }
  assert (QR : IZR v / IZR n = IZR (v / n) + IZR (v mod n) / IZR n).
  { rewrite DM at 1. rewrite plus_IZR, mult_IZR. field. lra. }
  assert (V : 0 <= IZR v <= 8388607) by (split; apply IZR_le; lia).
  assert (Qp : 0 <= IZR v / IZR n <= 8388607). { unfold Rdiv. split. apply Rmult_le_pos; lra. replace 8388607 with (8388607 * 1) by ring. apply Rmult_le_compat; lra. }
  assert (HB : 0 <= hue_of n v < 1).
  { destruct (C111_spread n 23 ltac:(lia) ltac:(lia) v) as (t & Ht & -> & _). nia.
    assert (X : 0 < IZR (n * 2 ^ 23)) by (apply IZR_lt; lia). split.
    apply Rmult_le_pos. apply IZR_le; lia. left; apply Rinv_0_lt_compat; auto.
    apply Rmult_lt_reg_r with (IZR (n * 2 ^ 23)); auto. unfold Rdiv. rewrite Rmult_assoc, Rinv_l, Rmult_1_r, Rmult_1_l by lra. apply IZR_lt. lia. }
  apply Rabs_le_inv in Ax. apply Rabs_le_inv in Ap.
  assert (O : exists o, (if flt (f32_of_Z n) (f32_of_Z (u64 (v + 1))) then offset_of (f32_of_Z n) (v / n) else Some f0) = Some o /\
     ffin o = true /\ 0 <= turned (v / n) / IZR n <= 1 /\ Rabs (FR o - turned (v / n) / IZR n) <= 3 * / 16777216).
  { rewrite u64_id, flt_Z by lia. destruct (Z.ltb_spec n (v + 1)).
    - apply offset_spec; lia.
    - exists f0. split; [reflexivity|]. split; [reflexivity|]. assert (Z0 : (v / n = 0)%Z) by (apply Z.div_small; lia). rewrite Z0. unfold turned. cbn [Z.eqb].
      change (FR f0) with 0. replace (0 / IZR n) with 0 by (field; lra). rewrite Rminus_0_r, Rabs_R0. lra. }
  destruct O as (o & -> & Fo & To & Ao). cbn [obind]. apply Rabs_le_inv in Ao.
  destruct (fadd_rel pr o Fp Fo) as (Fh & e & He & Eh). { apply big127. apply Rabs_le. lra. }
  assert (He' : Rabs e <= / 16777216) by (rewrite <- u24; exact He). apply Rabs_le_inv in He'.
  exists (fadd pr o). split; [reflexivity|]. split; [exact Fh|]. split; [|exact HB].
  assert (HU : hue_of n v = IZR v / IZR n - IZR (v / n) + turned (v / n) / IZR n) by (unfold hue_of; rewrite QR; field; lra).
  unfold hue_err. rewrite Eh. set (w := FR pr + FR o) in *. set (q := IZR v / IZR n) in *. rewrite HU.
  assert (W : -1 <= w <= 3) by (unfold w; lra). assert (We : -3 * / 16777216 <= w * e <= 3 * / 16777216) by nra.
  apply Rabs_le. replace (w * (1 + e)) with (w + w * e) by ring. unfold w in *. lra.
Qed.

Lemma circle : forall f x y e, (forall a b, Rabs (f a - f b) <= Rabs (a - b)) -> f 0 = f 6 -> -1 <= x < 2 -> 0 <= y < 1 -> Rabs (x - y) <= e ->
  Rabs (f (6 * frac x) - f (6 * y)) <= 6 * e.
Proof.
  intros f x y e L W X Y E. apply Rabs_le_inv in E. unfold frac.
  assert (T : forall a b c, Rabs (f a - f b) <= Rabs (a - b) -> Rabs (f b - f c) <= Rabs (b - c) -> Rabs (f a - f c) <= Rabs (a - b) + Rabs (b - c)).
  { intros a b c P Q. replace (f a - f c) with ((f a - f b) + (f b - f c)) by ring. eapply Rle_trans; [apply Rabs_triang|]. lra. }
  destruct (Rlt_or_le x 0) as [Lo|Lo]; [|destruct (Rlt_or_le x 1) as [Hi|Hi]].
  - rewrite (Zfloor_imp (-1)) by (change (-1 + 1)%Z with 0%Z; lra). pose proof (L (6 * (x - IZR (-1))) 6) as A. pose proof (L 0 (6 * y)) as B. rewrite W in B.
    replace (f (6 * (x - IZR (-1))) - f (6 * y)) with ((f (6 * (x - IZR (-1))) - f 6) + (f 6 - f (6 * y))) by ring. eapply Rle_trans; [apply Rabs_triang|].
    change (IZR (-1)) with (-1) in *. rewrite (Rabs_left1 (6 * (x - -1) - 6)) in A by lra. rewrite (Rabs_left1 (0 - 6 * y)) in B by lra. lra.
  - rewrite (Zfloor_imp 0) by (cbn [Z.add]; lra). eapply Rle_trans; [apply L|]. apply Rabs_le. lra.
  - rewrite (Zfloor_imp 1 x) by (change (1 + 1)%Z with 2%Z; lra). pose proof (L (6 * (x - IZR 1)) 0) as A. pose proof (L 6 (6 * y)) as B. rewrite <- W in B.
    replace (f (6 * (x - IZR 1)) - f (6 * y)) with ((f (6 * (x - IZR 1)) - f 0) + (f 0 - f (6 * y))) by ring. eapply Rle_trans; [apply Rabs_triang|].
    rewrite (Rabs_pos_eq (6 * (x - IZR 1) - 0)) in A by lra. rewrite (Rabs_pos_eq (6 - 6 * y)) in B by lra. lra.
Qed.
Lemma ends6 : red 0 = red 6 /\ green 0 = green 6 /\ blue 0 = blue 6.
Proof.
  unfold red, green, blue. repeat split.
  - rewrite (Rabs_left (0 - 3)), (Rabs_pos_eq (6 - 3)) by lra. f_equal. lra.
  - rewrite (Rabs_left (0 - 2)), (Rabs_pos_eq (6 - 2)) by lra. rewrite !ramp_low by lra. reflexivity.
  - rewrite (Rabs_left (0 - 4)), (Rabs_pos_eq (6 - 4)) by lra. rewrite !ramp_low by lra. reflexivity.
Qed.
(** Every id has the opaque, fully saturated colour of its hue, up to rounding. *)
Theorem C111_color : forall n v, (1 <= n <= 2 ^ 20)%Z -> (0 <= v < 2 ^ 23)%Z ->
  exists c, exponential_id (f32_of_Z n) v = Some c /\ saturated c /\ color_ok c /\
    shows (1 + / 1000 + 1530 * hue_err n v) c (red (6 * hue_of n v)) (green (6 * hue_of n v)) (blue (6 * hue_of n v)).
Proof.
  intros n v Hn Hv. destruct (hue_spec n v Hn Hv) as (h & E & F & A & B). unfold exponential_id. rewrite E. cbn [obind].
  destruct (f64_of_f32_R h F) as (Ed & Fd). destruct (C80_rainbow (f64_of_f32 h) Fd) as (c & Ec & S & O & (Al & H1 & H2 & H3)). rewrite Ed in *.
  exists c. split; [exact Ec|]. split; [exact S|]. split; [exact O|].
  assert (X : hue_err n v <= 9 / 10).
  { unfold hue_err. assert (IZR v / IZR n <= 8388607).
    { assert (1 <= IZR n) by (apply IZR_le; lia). assert (0 <= IZR v <= 8388607) by (split; apply IZR_le; lia). apply Rmult_le_reg_r with (IZR n); [lra|].
      unfold Rdiv. rewrite Rmult_assoc, Rinv_l by lra. nra. } lra. }
  assert (R : -1 <= FR h < 2) by (apply Rabs_le_inv in A; lra). destruct ends6 as (Y1 & Y2 & Y3).
  pose proof (circle red _ _ _ red_lip Y1 R B A) as L1. pose proof (circle green _ _ _ green_lip Y2 R B A) as L2. pose proof (circle blue _ _ _ blue_lip Y3 R B A) as L3.
  assert (Q : forall z a b, about (1 + / 10000) z a -> Rabs (a - b) <= 6 * hue_err n v -> about (1 + / 1000 + 1530 * hue_err n v) z b).
  { intros z a b P K. unfold about in *. apply Rabs_le_inv in P. apply Rabs_le_inv in K. apply Rabs_le. lra. }
  split; [exact Al|]. split; [|split]; eapply Q; eassumption.
Qed.
Print Assumptions C111_color.

(** Not so: unique ids have unique colours. Hues are distinct, but there are far fewer colours. *)
Theorem C111_unique_refuted : exponential_id default_items 423 = Some (MkColor 0 255 0 255) /\ exponential_id default_items 853 = Some (MkColor 0 255 0 255).
Proof. vm_compute. split; reflexivity. Qed.
Print Assumptions C111_unique_refuted.
(** Not so: any number of items per revolution will do. With none every id is undefined. *)
Theorem C111_no_items_refuted : forall v, (0 <= v < 2 ^ 24)%Z -> exponential_id (f32_of_Z 0) v = None.
Proof.
  intros v Hv. destruct (of_Z24 v ltac:(lia)) as (Ev & Fv). unfold exponential_id, exponential_hue.
  assert (E : ftruncZ (fdiv (f32_of_Z v) (f32_of_Z 0)) = None); [|rewrite E; reflexivity].
  change (f32_of_Z 0) with f0. destruct (f32_of_Z v) as [s|s|s p Hp|s m e He]; try discriminate Fv; reflexivity.
Qed.
Print Assumptions C111_no_items_refuted.
(** the first ids of the default map: red, then around the circle in steps of a tenth *)
Example C111_example : exponential_id default_items 0 = Some (MkColor 255 0 0 255) /\ exponential_id default_items 1 = Some (MkColor 255 153 0 255) /\
  exponential_id default_items 5 = Some (MkColor 0 255 255 255) /\ exponential_id default_items 10 = Some (MkColor 255 76 0 255) /\ hue_of 10 10 = 1 / 20 /\ hue_of 10 25 = 21 / 40 /\ hue_of 10 30 = 3 / 40.
Proof.
  split; [vm_compute; reflexivity|]. split; [vm_compute; reflexivity|]. split; [vm_compute; reflexivity|]. split; [vm_compute; reflexivity|].
  unfold hue_of, turned. cbn. lra.
Qed.
