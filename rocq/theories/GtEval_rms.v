(** The root mean square of a list of terms, for C108. *)
From Coq Require Import ZArith List Bool Reals Lra Lia Psatz.
From Flocq Require Import Core.
From Verif Require Import F32 F32_lemmas F32_err Types GtEval_spec Eval_proofs.
Import ListNotations.
Open Scope R_scope.

(** a term of the sum, and the error of which it is the square up to rounding *)
Definition term_ok (t : f64 * R) : Prop :=
  dfin (fst t) = true /\ 0 <= DR (fst t) /\ Rabs (snd t) <= 2 ^ 60 /\
  Rabs (DR (fst t) - snd t * snd t) <= / 16777216 * (snd t * snd t) + K150.
Definition sq_of (es : list R) : R := fold_right (fun e s => e * e + s) 0 es.
Definition add_up (ts : list (f64 * R)) : f64 := fold_left (fun a t => dadd a (fst t)) ts d0.
Lemma sq_app : forall a b, sq_of (a ++ b) = sq_of a + sq_of b.
Proof. induction a as [|x a IH]; intros b; [change (sq_of b = 0 + sq_of b); ring|]. change (x * x + sq_of (a ++ b) = x * x + sq_of a + sq_of b). rewrite IH. ring. Qed.
Lemma sq_pos : forall es, 0 <= sq_of es.
Proof. induction es as [|x es IH]; [apply Rle_refl|]. change (0 <= x * x + sq_of es). pose proof (Rle_0_sqr x). unfold Rsqr in *. lra. Qed.
Lemma sq_bound : forall es B, Forall (fun e => e * e <= B) es -> sq_of es <= INR (length es) * B.
Proof.
  intros es B H. induction H as [|x es H0 H IH]; [cbn; lra|]. change (sq_of (x :: es)) with (x * x + sq_of es). cbn [length]. rewrite S_INR. lra.
Qed.
Lemma sq_120 : forall x, Rabs x <= 2 ^ 60 -> x * x <= 2 ^ 120.
Proof.
  intros x B. replace (2 ^ 120) with (2 ^ 60 * 2 ^ 60) by ring. rewrite <- (Rabs_pos_eq (x * x)) by apply Rle_0_sqr. rewrite Rabs_mult. apply Rmult_le_compat; auto using Rabs_pos.
Qed.
Lemma add_up_err : forall ts, Forall term_ok ts -> INR (length ts) <= 536870912 ->
  dfin (add_up ts) = true /\ 0 <= DR (add_up ts) /\
  Rabs (DR (add_up ts) - sq_of (map snd ts)) <= (/ 16777216 + INR (length ts) * / 4503599627370496) * sq_of (map snd ts) + 2 * INR (length ts) * K150.
Proof.
  pose proof t64_K as TK. destruct K_small as (KP & KS).
  intros ts. induction ts as [|[q x0] ts IH] using rev_ind; intros H L.
  - cbn. split; [reflexivity|]. rewrite Rminus_0_r, Rabs_R0. lra.
  - rewrite app_length in *. cbn [length] in *. rewrite Nat.add_1_r, S_INR in *. rewrite Forall_app in H. destruct H as (H & He).
    apply Forall_inv in He. destruct He as (Fq & Pq & Be & Eq). cbn [fst snd] in *. destruct (IH H ltac:(lra)) as (F & P & E).
    unfold add_up. rewrite fold_left_app, map_app, sq_app. cbn [fold_left map fst snd]. fold (add_up ts).
    change (sq_of [x0]) with (x0 * x0 + 0). set (t := add_up ts) in *.
    pose proof (sq_pos (map snd ts)) as SP. pose proof (Rle_0_sqr x0) as EP. unfold Rsqr in EP.
    pose proof (pos_INR (length ts)) as NP. set (n := INR (length ts)) in *. set (S0 := sq_of (map snd ts)) in *.
    pose proof (sq_120 _ Be) as E2B. set (e2 := x0 * x0) in *.
    assert (SB : S0 <= n * 2 ^ 120).
    { unfold S0, n. rewrite <- (map_length snd ts). apply sq_bound. apply Forall_map. eapply Forall_impl; [|exact H]. intros y (_ & _ & By & _). apply sq_120, By. }
    assert (NS : n * / 4503599627370496 * S0 <= / 8388608 * S0) by (apply Rmult_le_compat_r; lra).
    assert (NK : n * K150 <= 536870912 * K150) by (apply Rmult_le_compat_r; lra).
    assert (SUM : Rabs (DR t + DR q) <= 2 * (S0 + e2) + 2 * n * K150 + K150).
    { replace (DR t + DR q) with ((DR t - S0) + ((DR q - e2) + (S0 + e2))) by ring. eapply Rle_trans; [apply Rabs_triang|].
      pose proof (Rabs_triang (DR q - e2) (S0 + e2)) as Q1. rewrite (Rabs_pos_eq (S0 + e2)) in Q1 by lra. lra. }
    assert (FIN : Rabs (DR t + DR q) <= bpow radix2 1023).
    { eapply Rle_trans; [exact SUM|]. apply Rle_trans with (2 ^ 200).
      - assert (n * 2 ^ 120 <= 536870912 * 2 ^ 120) by (apply Rmult_le_compat_r; [apply pow_le; lra|lra]).
        replace (2 ^ 200) with (2 ^ 80 * 2 ^ 120) by ring. assert (1 <= 2 ^ 120) by (apply pow_R1_Rle; lra). lra.
      - replace (2 ^ 200) with (bpow radix2 200) by (cbn; lra). apply bpow_le. lia. }
    destruct (dadd_R t q F Fq (rnd64_small _ FIN)) as (ER & F'). split; [exact F'|]. split.
    { rewrite ER, <- rnd64_0. apply rnd64_le. lra. }
    destruct (rnd64_err (DR t + DR q)) as (d & x & Hd & Hx & Q). rewrite ER, Q.
    replace ((DR t + DR q) * (1 + d) + x - (S0 + (e2 + 0))) with ((DR t - S0) + ((DR q - e2) + ((DR t + DR q) * d + x))) by ring.
    eapply Rle_trans; [apply Rabs_triang|]. eapply Rle_trans; [apply Rplus_le_compat_l, Rabs_triang|].
    assert (U : Rabs ((DR t + DR q) * d + x) <= u64r * (2 * (S0 + e2) + 2 * n * K150 + K150) + u64r * K150).
    { eapply Rle_trans; [apply Rabs_triang|]. rewrite Rabs_mult.
      assert (Rabs (DR t + DR q) * Rabs d <= (2 * (S0 + e2) + 2 * n * K150 + K150) * u64r) by (apply Rmult_le_compat; auto using Rabs_pos). lra. }
    unfold u64r in *.
    replace ((/ 16777216 + (n + 1) * / 4503599627370496) * (S0 + (e2 + 0)) + 2 * (n + 1) * K150) with
      ((/ 16777216 + n * / 4503599627370496) * S0 + / 4503599627370496 * S0 + / 16777216 * e2 + (n * e2) * / 4503599627370496 + / 4503599627370496 * e2 + 2 * n * K150 + 2 * K150) by ring.
    assert (0 <= n * e2) by (apply Rmult_le_pos; lra). lra.
Qed.
Lemma mean_root : forall ts, Forall term_ok ts -> ts <> [] -> (Z.of_nat (length ts) <= 2 ^ 29)%Z ->
  let r := dsqrt (ddiv (add_up ts) (f64_of_Z (Z.of_nat (length ts)))) in
  dfin r = true /\ Rabs (DR r - rms_of (map snd ts)) <= / 1048576 * rms_of (map snd ts) + bpow radix2 (-70).
Proof.
  intros ts H NE L r. pose proof t64_K as TK. destruct K_small as (KP & KS).
  assert (N1 : (1 <= length ts)%nat) by (destruct ts; [congruence|cbn; lia]). assert (N1' := le_INR _ _ N1). change (INR 1) with 1 in N1'.
  assert (L' : INR (length ts) <= 536870912) by (rewrite INR_IZR_INZ; apply IZR_le; lia).
  destruct (add_up_err ts H L') as (F & P & E). set (t := add_up ts) in *. pose proof (sq_pos (map snd ts)) as SP.
  destruct (f64_of_Z_R (Z.of_nat (length ts)) ltac:(lia)) as (Ek & _). rewrite <- INR_IZR_INZ in Ek.
  change (rms_of (map snd ts)) with (sqrt (sq_of (map snd ts) / INR (length (map snd ts)))). rewrite map_length. set (n := INR (length ts)) in *. set (MS := sq_of (map snd ts) / n).
  assert (NI : 0 < / n <= 1). { split; [apply Rinv_0_lt_compat; lra|]. rewrite <- Rinv_1. apply Rinv_le_contravar; lra. }
  assert (MSP : 0 <= MS) by (unfold MS, Rdiv; apply Rmult_le_pos; lra).
  assert (MSB : MS <= 2 ^ 120).
  { unfold MS, Rdiv. replace (2 ^ 120) with (n * 2 ^ 120 * / n) by (field; lra). apply Rmult_le_compat_r; [lra|]. unfold n. rewrite <- (map_length snd ts). apply sq_bound.
    apply Forall_map. eapply Forall_impl; [|exact H]. intros y (_ & _ & By & _). apply sq_120, By. }
  assert (Q1 : Rabs (DR t / n - MS) <= / 4194304 * MS + 2 * K150).
  { replace (DR t / n - MS) with ((DR t - sq_of (map snd ts)) * / n) by (unfold MS; field; lra). rewrite Rabs_mult, (Rabs_pos_eq (/ n)) by lra.
    replace (/ 4194304 * MS + 2 * K150) with ((/ 4194304 * sq_of (map snd ts) + 2 * n * K150) * / n) by (unfold MS; field; lra).
    apply Rmult_le_compat_r; [lra|]. eapply Rle_trans; [exact E|]. apply Rplus_le_compat_r, Rmult_le_compat_r; [exact SP|]. lra. }
  assert (QP : 0 <= DR t / n) by (unfold Rdiv; apply Rmult_le_pos; lra).
  assert (QB : DR t / n <= 2 * 2 ^ 120 + 1).
  { replace (DR t / n) with ((DR t / n - MS) + MS) by ring. pose proof (Rle_abs (DR t / n - MS)). lra. }
  assert (BIG : Rabs (DR t / DR (f64_of_Z (Z.of_nat (length ts)))) <= bpow radix2 1023).
  { rewrite Ek, Rabs_pos_eq by exact QP. eapply Rle_trans; [exact QB|]. apply Rle_trans with (2 ^ 122).
    - replace (2 ^ 122) with (4 * 2 ^ 120) by ring. assert (1 <= 2 ^ 120) by (apply pow_R1_Rle; lra). lra.
    - replace (2 ^ 122) with (bpow radix2 122) by (cbn; lra). apply bpow_le. lia. }
  destruct (ddiv_R t (f64_of_Z (Z.of_nat (length ts))) F ltac:(rewrite Ek; lra) (rnd64_small _ BIG)) as (EQ & FQ).
  set (q := ddiv t _) in *. rewrite Ek in EQ.
  assert (PQ : 0 <= DR q) by (rewrite EQ, <- rnd64_0; apply rnd64_le; exact QP).
  assert (Q2 : Rabs (DR q - MS) <= / 2097152 * MS + bpow radix2 (-74) * bpow radix2 (-74)).
  { destruct (rnd64_err (DR t / n)) as (d & x & Hd & Hx & Q). rewrite EQ, Q. replace (DR t / n * (1 + d) + x - MS) with ((DR t / n - MS) + (DR t / n * d + x)) by ring.
    eapply Rle_trans; [apply Rabs_triang|]. pose proof (Rabs_triang (DR t / n * d) x) as T. rewrite Rabs_mult, (Rabs_pos_eq _ QP) in T.
    assert (D1 : DR t / n * Rabs d <= (2 * MS + 2 * K150) * u64r).
    { apply Rmult_le_compat; auto using Rabs_pos. pose proof (Rle_abs (DR t / n - MS)). lra. }
    rewrite <- bpow_plus. change (-74 + -74)%Z with (2 + -150)%Z. rewrite bpow_plus. change (bpow radix2 2) with 4. unfold u64r in *. lra. }
  pose proof (sqrt_near (DR q) MS (/ 2097152) (bpow radix2 (-74)) PQ MSP ltac:(lra) (bpow_ge_0 _ _) Q2) as Q3.
  destruct (dsqrt_R q FQ PQ) as (ES & FS). pose proof (sqrt_pos MS) as RP. set (rm := sqrt MS) in *.
  assert (KT : K150 <= u64r * bpow radix2 (-74)) by (replace u64r with (bpow radix2 (-53)) by reflexivity; rewrite <- bpow_plus; apply bpow_le; lia).
  pose proof (bpow_gt_0 radix2 (-74)) as TP. set (tau := bpow radix2 (-74)) in *.
  split; [exact FS|]. unfold r. fold q.
  destruct (rnd64_err (sqrt (DR q))) as (d & x & Hd & Hx & Q). rewrite ES, Q.
  replace (sqrt (DR q) * (1 + d) + x - rm) with ((sqrt (DR q) - rm) + (sqrt (DR q) * d + x)) by ring.
  eapply Rle_trans; [apply Rabs_triang|]. pose proof (Rabs_triang (sqrt (DR q) * d) x) as T. rewrite Rabs_mult, (Rabs_pos_eq _ (sqrt_pos (DR q))) in T.
  assert (D1 : sqrt (DR q) * Rabs d <= (2 * rm + tau) * u64r).
  { apply Rmult_le_compat; auto using Rabs_pos, sqrt_pos. pose proof (Rle_abs (sqrt (DR q) - rm)). lra. }
  change (-70)%Z with (4 + -74)%Z. rewrite bpow_plus. fold tau. change (bpow radix2 4) with 16. unfold u64r in *. lra.
Qed.
Lemma fraction : forall a b, (0 <= a <= b)%Z -> (1 <= b <= 2 ^ 29)%Z ->
  Rabs (DR (ddiv (f64_of_Z a) (f64_of_Z b)) - IZR a / IZR b) <= / 1048576.
Proof.
  intros a b A B. destruct (f64_of_Z_R a ltac:(lia)) as (Ea & Fa). destruct (f64_of_Z_R b ltac:(lia)) as (Eb & Fb).
  assert (Pb : 1 <= IZR b) by (apply IZR_le; lia). assert (Pa : 0 <= IZR a) by (apply IZR_le; lia). assert (AB : IZR a <= IZR b) by (apply IZR_le; lia).
  assert (Q : 0 <= IZR a / IZR b <= 1).
  { split; [apply Rmult_le_pos; [exact Pa|left; apply Rinv_0_lt_compat; lra]|]. apply (Rmult_le_reg_r (IZR b)); [lra|]. unfold Rdiv. rewrite Rmult_assoc, Rinv_l by lra. lra. }
  destruct (ddiv_R (f64_of_Z a) (f64_of_Z b) Fa ltac:(rewrite Eb; lra)) as (E & _).
  { rewrite Ea, Eb. apply rnd64_small. rewrite Rabs_pos_eq by lra. apply Rle_trans with 1; [lra|]. change 1 with (bpow radix2 0). apply bpow_le. lia. }
  rewrite E, Ea, Eb. set (x := IZR a / IZR b) in *. destruct (rnd64_err x) as (d & e & Hd & He & ->).
  replace (x * (1 + d) + e - x) with (x * d + e) by ring. eapply Rle_trans; [apply Rabs_triang|]. rewrite Rabs_mult, (Rabs_pos_eq x) by lra.
  pose proof t64_K as TK. destruct K_small as (KP & KS).
  assert (x * Rabs d <= 1 * u64r) by (apply Rmult_le_compat; auto using Rabs_pos; lra). unfold u64r in *. lra.
Qed.
