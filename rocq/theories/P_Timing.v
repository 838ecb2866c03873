(** C48: timing statistics and timer handles. *)
From Coq Require Import String ZArith List Bool Reals Lra Lia Permutation.
From Flocq Require Import Core.
From Verif Require Import F32 F32_lemmas F32_err Types Timing Timing_spec Timing_proofs.
Import ListNotations.
Open Scope R_scope.

Lemma len_31 : forall (xs : list f64), (Z.of_nat (length xs) < 2 ^ 31)%Z -> INR (length xs) <= 2147483648.
Proof. intros xs H. rewrite INR_IZR_INZ. apply IZR_le. lia. Qed.
Lemma ddiv_Z : forall a k, dfin a = true -> (0 < k <= 2 ^ 31)%Z -> Rabs (DR a) <= bpow radix2 1000 ->
  dfin (ddiv a (f64_of_Z k)) = true /\ Rabs (DR (ddiv a (f64_of_Z k)) - DR a / IZR k) <= u64r * Rabs (DR a / IZR k) + t64r.
Proof.
  intros a k Fa Hk B. destruct (f64_of_Z_R k ltac:(lia)) as (Ek & _). pose proof (IZR_lt _ _ (proj1 Hk)) as KP.
  assert (K1 : 1 <= IZR k) by (apply IZR_le; lia).
  assert (BB : Rabs (DR a / IZR k) <= bpow radix2 1023).
  { unfold Rdiv. rewrite Rabs_mult, (Rabs_pos_eq (/ IZR k)) by (left; apply Rinv_0_lt_compat; exact KP).
    apply Rle_trans with (bpow radix2 1000 * 1). 2:{ rewrite Rmult_1_r. apply bpow_le. lia. }
    apply Rmult_le_compat; auto using Rabs_pos; [left; apply Rinv_0_lt_compat; exact KP|]. rewrite <- Rinv_1. apply Rinv_le_contravar; lra. }
  rewrite <- Ek in *. destruct (ddiv_R a (f64_of_Z k) Fa ltac:(lra) (rnd64_small _ BB)) as (E & F). split; [exact F|].
  destruct (rnd64_err (DR a / DR (f64_of_Z k))) as (d & e & Hd & He & Q). rewrite E, Q.
  set (q := DR a / DR (f64_of_Z k)) in *. replace (q * (1 + d) + e - q) with (q * d + e) by ring.
  eapply Rle_trans; [apply Rabs_triang|]. rewrite Rabs_mult. pose proof (Rmult_le_compat_l _ _ _ (Rabs_pos q) Hd). lra.
Qed.

(** C48. After any sequence of fewer than 2^31 finite samples of magnitude at most
    [M]: the count is exact; the sum, the mean and the rolling mean over the last 50
    samples are those of the samples up to the stated rounding errors. *)
Theorem C48_statistics : forall M xs, bpow radix2 (-1000) <= M <= bpow radix2 900 -> samples_ok M xs -> xs <> [] ->
  (Z.of_nat (length xs) < 2 ^ 31)%Z ->
  exists a, acc_adds acc_new xs = Ok a /\ ac_total a = Z.of_nat (length xs) /\
    let n := INR (length xs) in let k := INR (Nat.min (length xs) 50) in
    Rabs (DR (ac_sum a) - rsum xs) <= n * n * (/ 2 ^ 52 * M) /\
    Rabs (DR (acc_mean a) - rsum xs / n) <= (n + 2) * (/ 2 ^ 52 * M) /\
    Rabs (DR (acc_rolling a) - rsum (lastn 50 xs) / k) <= n * (/ 2 ^ 46 * M).
Proof.
  intros M xs (ML & MU) H NE L. destruct (adds_ok xs [] acc_new counted_new ltac:(cbn [length Nat.add]; exact L)) as (a & E & C & W).
  cbn [app] in C. exists a. split; [exact E|]. split; [apply (ct_total _ _ C)|]. cbn zeta.
  pose proof (len_31 xs L) as L'. pose proof (M_pos M ML) as MP. pose proof (tiny_M M ML) as TM.
  destruct (sum_err M ML MU xs H L') as (FS & ES). rewrite <- (ct_sum _ _ C) in FS, ES.
  destruct (window_err M ML MU xs [] d0 H L' eq_refl) as (FW & EW).
  { cbn. rewrite Rminus_0_r, Rabs_R0. lra. }
  change (ac_wsum acc_new) with d0 in W. rewrite <- W in FW, EW. cbn [app] in EW.
  assert (N1 : (1 <= length xs)%nat) by (destruct xs; [congruence|cbn; lia]). assert (N1' := le_INR _ _ N1). change (INR 1) with 1 in N1'.
  set (n := INR (length xs)) in *. replace (2 ^ 52) with 4503599627370496 by ring. replace (2 ^ 46) with 70368744177664 by ring.
  split; [exact ES|]. pose proof (rsum_bound M xs H) as RB. fold n in RB.
  assert (NN : n * n * (/ 4503599627370496 * M) <= n * (/ 2097152 * M)).
  { rewrite (Rmult_assoc n n). apply Rmult_le_compat_l; [lra|]. replace (n * (/ 4503599627370496 * M)) with (n * / 4503599627370496 * M) by ring.
    apply Rmult_le_compat_r; lra. }
  assert (BIG : forall c, Rabs c <= 4294967296 * M -> Rabs c <= bpow radix2 1000).
  { intros c Hc. eapply Rle_trans; [exact Hc|]. apply Rle_trans with (bpow radix2 32 * bpow radix2 900).
    - apply Rmult_le_compat; try lra. change (bpow radix2 32) with 4294967296. lra.
    - rewrite <- bpow_plus. apply bpow_le. lia. }
  assert (NM : n * M <= 2147483648 * M) by (apply Rmult_le_compat_r; lra).
  assert (NP : 0 < / n) by (apply Rinv_0_lt_compat; lra).
  split.
  - assert (SB : Rabs (DR (ac_sum a)) <= n * ((1 + / 2097152) * M)).
    { replace (DR (ac_sum a)) with ((DR (ac_sum a) - rsum xs) + rsum xs) by ring. eapply Rle_trans; [apply Rabs_triang|]. lra. }
    unfold acc_mean. rewrite (ct_total _ _ C).
    destruct (ddiv_Z (ac_sum a) (Z.of_nat (length xs)) FS ltac:(lia)) as (_ & ED); [apply BIG; lra|].
    rewrite <- INR_IZR_INZ in ED. fold n in ED.
    assert (Q1 : Rabs (DR (ac_sum a) / n) <= (1 + / 2097152) * M).
    { unfold Rdiv. rewrite Rabs_mult, (Rabs_pos_eq (/ n)) by lra. replace ((1 + / 2097152) * M) with (n * ((1 + / 2097152) * M) * / n) by (field; lra).
      apply Rmult_le_compat_r; [lra|exact SB]. }
    assert (Q2 : Rabs (DR (ac_sum a) / n - rsum xs / n) <= n * (/ 4503599627370496 * M)).
    { replace (DR (ac_sum a) / n - rsum xs / n) with ((DR (ac_sum a) - rsum xs) * / n) by (field; lra). rewrite Rabs_mult, (Rabs_pos_eq (/ n)) by lra.
      replace (n * (/ 4503599627370496 * M)) with (n * n * (/ 4503599627370496 * M) * / n) by (field; lra). apply Rmult_le_compat_r; [lra|exact ES]. }
    set (r := DR (ddiv _ _)) in *. replace (r - rsum xs / n) with ((r - DR (ac_sum a) / n) + (DR (ac_sum a) / n - rsum xs / n)) by ring.
    eapply Rle_trans; [apply Rabs_triang|]. pose proof (Rmult_le_compat_l u64r _ _ ltac:(unfold u64r; lra) Q1). unfold u64r in *. lra.
  - assert (I50 : INR 50 = 50) by (rewrite INR_IZR_INZ; reflexivity).
    assert (K : 1 <= INR (Nat.min (length xs) 50)) by (change 1 with (INR 1); apply le_INR; lia).
    pose proof (rsum_bound M _ (lastn_ok M 50 xs H)) as RW. pose proof (le_INR _ _ (lastn_len _ 50 xs)) as LB. rewrite I50 in LB.
    assert (RW' : Rabs (rsum (lastn 50 xs)) <= 50 * M) by (eapply Rle_trans; [exact RW|]; apply Rmult_le_compat_r; lra).
    assert (NM2 : n * (/ 140737488355328 * M) <= M).
    { replace (n * (/ 140737488355328 * M)) with (n * / 140737488355328 * M) by ring. rewrite <- (Rmult_1_l M) at 2. apply Rmult_le_compat_r; lra. }
    assert (WB : Rabs (DR (ac_wsum a)) <= 51 * M).
    { replace (DR (ac_wsum a)) with ((DR (ac_wsum a) - rsum (lastn 50 xs)) + rsum (lastn 50 xs)) by ring. eapply Rle_trans; [apply Rabs_triang|]. lra. }
    unfold acc_rolling. rewrite (ct_window _ _ C). unfold kWindow.
    replace (Z.min (Z.of_nat (length xs)) 50) with (Z.of_nat (Nat.min (length xs) 50)) by lia.
    destruct (ddiv_Z (ac_wsum a) (Z.of_nat (Nat.min (length xs) 50)) FW ltac:(lia)) as (_ & ED); [apply BIG; lra|].
    rewrite <- INR_IZR_INZ in ED. set (k := INR (Nat.min (length xs) 50)) in *.
    assert (KP : 0 < / k <= 1). { split; [apply Rinv_0_lt_compat; lra|]. rewrite <- Rinv_1. apply Rinv_le_contravar; lra. }
    assert (DK : forall x, Rabs (x / k) <= Rabs x).
    { intros x. unfold Rdiv. rewrite Rabs_mult, (Rabs_pos_eq (/ k)) by lra. rewrite <- (Rmult_1_r (Rabs x)) at 2. apply Rmult_le_compat_l; [apply Rabs_pos|lra]. }
    set (r := DR (ddiv _ _)) in *. replace (r - rsum (lastn 50 xs) / k) with ((r - DR (ac_wsum a) / k) + (DR (ac_wsum a) - rsum (lastn 50 xs)) / k) by (field; lra).
    eapply Rle_trans; [apply Rabs_triang|]. pose proof (DK (DR (ac_wsum a) - rsum (lastn 50 xs))). pose proof (DK (DR (ac_wsum a))) as D1.
    assert (U : u64r * Rabs (DR (ac_wsum a) / k) <= u64r * (51 * M)) by (apply Rmult_le_compat_l; [unfold u64r; lra|lra]).
    assert (M <= n * M) by (rewrite <- (Rmult_1_l M) at 1; apply Rmult_le_compat_r; lra).
    unfold u64r in *. lra.
Qed.
Print Assumptions C48_statistics.

(** The minimum is a smallest sample; the maximum is a largest one, provided some
    sample is at least 2^-1022. *)
Theorem C48_min_max_partial : forall xs a, Forall (fun x => dfin x = true) xs -> acc_adds acc_new xs = Ok a ->
  (Z.of_nat (length xs) < 2 ^ 31)%Z ->
  (xs <> [] -> (exists x, In x xs /\ DR (ac_min a) = DR x) /\ forall x, In x xs -> DR (ac_min a) <= DR x) /\
  ((exists x, In x xs /\ bpow radix2 (-1022) <= DR x) ->
     (exists x, In x xs /\ DR (ac_max a) = DR x) /\ forall x, In x xs -> DR x <= DR (ac_max a)).
Proof.
  intros xs a F E L. destruct (adds_ok xs [] acc_new counted_new ltac:(cbn [length Nat.add]; exact L)) as (a' & E' & C & _).
  assert (a' = a) by congruence. subst a'. cbn [app] in C. destruct dmax_R as (FM & _). destruct dmin_R as (Fm & Em). split.
  - intros NE. destruct (fold_min xs dbl_max FM F) as (_ & O & _ & A). rewrite <- (ct_min _ _ C) in O, A. rewrite Forall_forall in A, F.
    split; [|exact A]. destruct O as [O|O]; [|exists (ac_min a); auto].
    destruct xs as [|x xs]; [congruence|]. exists x. split; [now left|]. specialize (A x (or_introl eq_refl)). rewrite O in *.
    apply Rle_antisym; [exact A|]. apply dfin_le_max, F. now left.
  - intros (x & I & B). destruct (fold_max xs dbl_min Fm F) as (_ & O & _ & A). rewrite <- (ct_max _ _ C) in O, A. rewrite Forall_forall in A.
    split; [|exact A]. destruct O as [O|O]; [|exists (ac_max a); auto].
    exists x. split; [exact I|]. specialize (A x I). rewrite O in *. lra.
Qed.
Print Assumptions C48_min_max_partial.

(** The variance is computed over exactly the last 50 samples, in some order. *)
Theorem C48_variance : forall xs a, acc_adds acc_new xs = Ok a -> (Z.of_nat (length xs) < 2 ^ 31)%Z -> xs <> [] ->
  exists ys, Permutation ys (lastn 50 xs) /\
    acc_variance a = Ok (ddiv (fold_left (fun v x => dadd v (dmul (dsub x (acc_rolling a)) (dsub x (acc_rolling a)))) ys d0)
                              (f64_of_Z (Z.of_nat (length ys)))).
Proof.
  intros xs a E L NE. destruct (adds_ok xs [] acc_new counted_new ltac:(cbn [length Nat.add]; exact L)) as (a' & E' & C & _).
  assert (a' = a) by congruence. subst a'. cbn [app] in C. destruct (ct_slots _ _ C) as (ys & F & P). exists ys. split; [exact P|].
  assert (N1 : (1 <= length xs)%nat) by (destruct xs; [congruence|cbn; lia]).
  assert (LY : length ys = Nat.min (length xs) 50). { rewrite (Permutation_length P). unfold lastn. rewrite skipn_length. lia. }
  unfold acc_variance. rewrite (ct_window _ _ C). unfold kWindow. destruct (Z.eqb_spec (Z.of_nat (length xs)) 0) as [Q|Q]; [lia|].
  replace (Z.min (Z.of_nat (length xs)) 50) with (Z.of_nat (length ys)) by lia. rewrite Nat2Z.id, var_loop_ok by (rewrite LY; exact F).
  reflexivity.
Qed.
Print Assumptions C48_variance.

(** Two calls of GetHandle return the same handle exactly if they name the same tag
    and no reset happened between them, in every history that does not hit undefined
    behaviour. *)
Theorem C48_handles : forall cs st outs i j t t' h h', timing_run timing_new cs = Ok (st, outs) ->
  nth_error cs i = Some (CHandle t) -> nth_error outs i = Some (Some h) ->
  nth_error cs j = Some (CHandle t') -> nth_error outs j = Some (Some h') ->
  h = h' <-> (t = t' /\ resets_before i cs = resets_before j cs).
Proof.
  intros cs st outs i j t t' h h' E. eapply run_handles; [|exact E]. constructor; discriminate.
Qed.
Print Assumptions C48_handles.
(** The tag of a handle is the one it was asked for, until a reset. *)
Theorem C48_tag : forall cs st outs i t h, timing_run timing_new cs = Ok (st, outs) ->
  nth_error cs i = Some (CHandle t) -> nth_error outs i = Some (Some h) ->
  resets_before i cs = resets_before (length cs) cs -> tag_of h (tm_tags st) = t.
Proof.
  intros cs st outs i t h E Hc Ho Hr. destruct (run_tags cs timing_new st outs) as ((N & _) & _ & H); [split; [constructor|intros ? ? []]|exact E|].
  apply tag_of_in; [exact N|]. eapply H; eassumption.
Qed.
Print Assumptions C48_tag.
(** A timer holds exactly the samples added through its handle, in their order. *)
Theorem C48_samples : forall cs st outs h a, timing_run timing_new cs = Ok (st, outs) ->
  nth_error (tm_timers st) h = Some a -> acc_adds acc_new (samples_for h cs) = Ok a.
Proof. intros cs st outs h a E H. eapply run_all; [exact E| |exact H]. destruct h; reflexivity. Qed.
Print Assumptions C48_samples.

(** The rate of a timer ([GetHz]) is the inverse of the mean of its last 50 samples, if they
    are spread over no more than a factor 1024 and are not more than about a million. *)
Lemma rsum_low : forall m xs, Forall (fun x => m <= DR x) xs -> INR (length xs) * m <= rsum xs.
Proof.
  intros m xs H. induction H as [|x xs B H IH]; [cbn; lra|]. change (rsum (x :: xs)) with (DR x + rsum xs). cbn [length]. rewrite S_INR. lra.
Qed.
Theorem C48_rate : forall M cs st outs h, bpow radix2 (-1000) <= M <= bpow radix2 900 -> timing_run timing_new cs = Ok (st, outs) ->
  let xs := samples_for h cs in (0 < length xs)%nat -> INR (length xs) <= 2 ^ 20 -> (h < length (tm_timers st))%nat ->
  Forall (fun x => dfin x = true /\ / 1024 * M <= DR x <= M) xs ->
  let mean := rsum (lastn 50 xs) / INR (Nat.min (length xs) 50) in
  exists f, get_hz st h = Ok f /\ dfin f = true /\ Rabs (DR f * mean - 1) <= / 2 ^ 15.
Proof.
  intros M cs st outs h ML R xs NE NB HL H mean. destruct (nth_error (tm_timers st) h) as [a|] eqn:T; [|apply nth_error_None in T; lia].
  pose proof (C48_samples cs st outs h a R T) as A. fold xs in A.
  assert (MP : 0 < M) by (pose proof (bpow_gt_0 radix2 (-1000)); lra).
  assert (SO : samples_ok M xs).
  { unfold samples_ok. eapply Forall_impl; [|exact H]. cbn beta. intros x (F & B). split; [exact F|]. rewrite Rabs_pos_eq; lra. }
  replace (2 ^ 20) with 1048576 in NB by ring. replace (2 ^ 15) with 32768 by ring.
  assert (L31 : (Z.of_nat (length xs) < 2 ^ 31)%Z) by (rewrite INR_IZR_INZ in NB; apply le_IZR in NB; lia).
  destruct (C48_statistics M xs ML SO ltac:(intros E; rewrite E in NE; cbn in NE; lia) L31) as (a' & A' & _ & ST). assert (a' = a) by congruence. subst a'. cbn zeta in ST.
  destruct ST as (_ & _ & ST). fold mean in ST. replace (2 ^ 46) with 70368744177664 in ST by ring.
  set (n := INR (length xs)) in *.
  assert (KL : length (lastn 50 xs) = Nat.min (length xs) 50) by (unfold lastn; rewrite skipn_length; lia).
  assert (KP : 1 <= INR (Nat.min (length xs) 50)) by (change 1 with (INR 1); apply le_INR; lia).
  assert (LF : Forall (fun x => / 1024 * M <= DR x) (lastn 50 xs)).
  { unfold lastn. rewrite <- (firstn_skipn (length xs - 50) xs), Forall_app in H. eapply Forall_impl; [|exact (proj2 H)]. cbn beta. intros; lra. }
  pose proof (rsum_low _ _ LF) as RL. rewrite KL in RL. pose proof (rsum_bound M (lastn 50 xs) (lastn_ok M 50 xs SO)) as RU. rewrite KL in RU. apply Rabs_le_inv in RU.
  set (k := INR (Nat.min (length xs) 50)) in *.
  assert (ME : / 1024 * M <= mean <= M).
  { unfold mean, Rdiv. assert (KI : 0 < / k) by (apply Rinv_0_lt_compat; lra). split.
    - apply (Rmult_le_compat_r (/ k)) in RL; [|lra]. replace (k * (/ 1024 * M) * / k) with (/ 1024 * M) in RL by (field; lra). exact RL.
    - destruct RU as (_ & RU). apply (Rmult_le_compat_r (/ k)) in RU; [|lra]. replace (k * M * / k) with M in RU by (field; lra). exact RU. }
  assert (ER : Rabs (DR (acc_rolling a) - mean) <= / 65536 * mean).
  { eapply Rle_trans; [exact ST|]. assert (n * (/ 70368744177664 * M) <= 1048576 * (/ 70368744177664 * M)) by (apply Rmult_le_compat_r; lra). lra. }
  apply Rabs_le_inv in ER. set (rho := DR (acc_rolling a)) in *.
  assert (RP : / 2048 * M <= rho) by lra.
  assert (FR_ : dfin (acc_rolling a) = true).
  { unfold rho, DR in *. destruct (acc_rolling a); try reflexivity; cbn in RP; lra. }
  unfold get_hz. rewrite T. cbn [of_opt rbind]. unfold dgt. rewrite (proj2 (dlt_R d0 (acc_rolling a) eq_refl FR_)) by (change (DR d0) with 0; fold rho; lra).
  assert (ONE : DR d1 = 1) by (apply (f64_of_Z_R 1); lia).
  assert (IB : Rabs (1 / rho) <= bpow radix2 1023).
  { unfold Rdiv. rewrite Rmult_1_l, Rabs_inv, Rabs_pos_eq by lra. apply Rle_trans with (/ (/ 2048 * bpow radix2 (-1000))); [apply Rinv_le; [pose proof (bpow_gt_0 radix2 (-1000)); lra|lra]|].
    rewrite Rinv_mult, Rinv_inv, <- bpow_opp. change 2048 with (bpow radix2 11). rewrite <- bpow_plus. apply bpow_le. lia. }
  destruct (ddiv_R d1 (acc_rolling a) eq_refl) as (E & F); [fold rho; lra|rewrite ONE; fold rho; apply rnd64_small, IB|]. rewrite ONE in E. fold rho in E.
  exists (ddiv d1 (acc_rolling a)). split; [reflexivity|]. split; [exact F|]. rewrite E.
  destruct (rnd64_err (1 / rho)) as (d & e & Hd & He & ->).
  replace ((1 / rho * (1 + d) + e) * mean - 1) with ((mean - rho) / rho + mean / rho * d + e * mean) by (field; lra).
  assert (Q1 : Rabs ((mean - rho) / rho) <= / 60000).
  { unfold Rdiv. rewrite Rabs_mult, Rabs_inv, (Rabs_pos_eq rho) by lra. apply Rmult_le_reg_r with rho; [lra|]. rewrite Rmult_assoc, Rinv_l, Rmult_1_r by lra. apply Rabs_le. lra. }
  assert (Q2 : Rabs (mean / rho) <= 2).
  { unfold Rdiv. rewrite Rabs_mult, Rabs_inv, (Rabs_pos_eq rho), (Rabs_pos_eq mean) by lra. apply Rmult_le_reg_r with rho; [lra|]. rewrite Rmult_assoc, Rinv_l, Rmult_1_r by lra. lra. }
  assert (Q3 : Rabs (mean / rho * d) <= 2 * / 1000000000000).
  { rewrite Rabs_mult. apply Rmult_le_compat; try apply Rabs_pos; [exact Q2|]. eapply Rle_trans; [exact Hd|]. unfold u64r. lra. }
  assert (Q4 : Rabs (e * mean) <= / 1000000).
  { rewrite Rabs_mult. apply Rle_trans with (bpow radix2 (-1075) * bpow radix2 900).
    - apply Rmult_le_compat; try apply Rabs_pos; [exact He|rewrite Rabs_pos_eq; lra].
    - rewrite <- bpow_plus. apply Rle_trans with (bpow radix2 (-20)); [apply bpow_le; lia|]. assert (B : bpow radix2 (-20) = / IZR (2 ^ 20)) by reflexivity. rewrite B. change (2 ^ 20)%Z with 1048576%Z. lra. }
  eapply Rle_trans; [apply Rabs_triang|]. eapply Rle_trans; [apply Rplus_le_compat_r, Rabs_triang|]. lra.
Qed.
Print Assumptions C48_rate.

(** 60 samples 1, 2, ..., 60: all statistics *)
Definition sixty : list f64 := map (fun i => f64_of_Z (Z.of_nat i)) (seq 1 60).
Example sixty_ok : samples_ok 64 sixty.
Proof.
  unfold samples_ok, sixty. apply Forall_forall. intros x I. apply in_map_iff in I. destruct I as (i & <- & I). apply in_seq in I.
  destruct (f64_of_Z_R (Z.of_nat i) ltac:(lia)) as (E & F). split; [exact F|]. rewrite E, Rabs_pos_eq by (apply IZR_le; lia). apply IZR_le. lia.
Qed.
(** the hypotheses of [C48_rate]: a timer with these samples *)
Definition sixty_calls : list tcall := CHandle "a" :: map (CAdd 0) sixty.
Example C48_rate_meets : (exists st outs, timing_run timing_new sixty_calls = Ok (st, outs) /\ (0 < length (tm_timers st))%nat) /\
  samples_for 0 sixty_calls = sixty /\ Forall (fun x => dfin x = true /\ / 1024 * 64 <= DR x <= 64) sixty.
Proof.
  split; [|split; [reflexivity|]].
  - assert (B : match timing_run timing_new sixty_calls with Ok (st, _) => (0 <? length (tm_timers st))%nat | _ => false end = true) by (vm_compute; reflexivity).
    destruct (timing_run timing_new sixty_calls) as [(st, outs)| |]; try discriminate B. exists st, outs. split; [reflexivity|]. apply Nat.ltb_lt, B.
  - unfold sixty. apply Forall_forall. intros x I. apply in_map_iff in I. destruct I as (i & <- & I). apply in_seq in I.
    destruct (f64_of_Z_R (Z.of_nat i) ltac:(lia)) as (E & F). split; [exact F|]. rewrite E.
    assert (1 <= IZR (Z.of_nat i)) by (apply (IZR_le 1); lia). assert (IZR (Z.of_nat i) <= 64) by (apply IZR_le; lia). lra.
Qed.
Example sixty_stats : match acc_adds acc_new sixty with
  | Ok a => (ac_total a =? 60)%Z && (dword (ac_sum a) =? dword (f64_of_Z 1830))%Z && (dword (acc_rolling a) =? dword (f64_lit 71 (-1)))%Z
            && (dword (ac_min a) =? dword d1)%Z && (dword (ac_max a) =? dword (f64_of_Z 60))%Z
  | _ => false end = true.
Proof. vm_compute. reflexivity. Qed.
Example handles_demo : match timing_run timing_new [CHandle "a"; CHandle "b"; CAdd 0 d1; CHandle "a"; CReset; CHandle "b"; CAdd 2 d1] with
  | Ok (st, outs) => match outs with
       | [Some 0; Some 1; None; Some 0; None; Some 2; None]%nat => (length (tm_timers st) =? 3)%nat
       | _ => false end
  | _ => false end = true.
Proof. vm_compute. reflexivity. Qed.

(** The maximum starts at the least positive number instead of the least number: if
    all samples are 0, the maximum is not one of them. *)
Theorem C48_max_refuted : ~ forall xs a, Forall (fun x => dfin x = true) xs -> xs <> [] -> acc_adds acc_new xs = Ok a ->
  exists x, In x xs /\ DR (ac_max a) = DR x.
Proof.
  intros H. set (a := MkAcc 1 1 d0 d0 d0 dbl_min (Some d0 :: repeat None 49)).
  assert (X : acc_adds acc_new [d0] = Ok a) by reflexivity.
  assert (F : Forall (fun x => dfin x = true) [d0]) by (repeat constructor).
  destruct (H [d0] a F ltac:(intros N; discriminate N) X) as (x & [<-|[]] & D). change (ac_max a) with dbl_min in D.
  rewrite (proj2 dmin_R) in D. change (DR d0) with 0 in D. pose proof (bpow_gt_0 radix2 (-1022)). lra.
Qed.
Print Assumptions C48_max_refuted.
(** The rolling mean keeps the rounding errors of samples that left the window: after
    one sample of 2^60 and fifty of 1 it is 0 instead of 1, and GetHz aborts. *)
Theorem C48_rolling_refuted :
  match acc_adds acc_new (f64_of_Z (2 ^ 60) :: repeat d1 50) with
  | Ok a => deq (acc_rolling a) d0 = true /\ get_hz (MkTiming [] [a]) 0 = Abort
  | _ => False
  end.
Proof. vm_compute. split; reflexivity. Qed.
Print Assumptions C48_rolling_refuted.
(** The counters are ints: sample number 2^31 is undefined behaviour. *)
Theorem C48_count_refuted : forall xs x, Z.of_nat (length xs) = (2 ^ 31 - 1)%Z -> acc_adds acc_new (xs ++ [x]) = UB.
Proof.
  intros xs x L. destruct (adds_ok xs [] acc_new counted_new ltac:(cbn [length Nat.add]; lia)) as (a & E & C & _).
  rewrite adds_app, E. cbn [rbind acc_adds app] in *. unfold acc_add. rewrite (ct_window _ _ C), L. reflexivity.
Qed.
Print Assumptions C48_count_refuted.
