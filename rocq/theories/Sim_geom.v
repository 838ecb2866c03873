(** Distances of simulated objects against real geometry. *)
From Coq Require Import ZArith Reals List Bool Lia Lra.
From Flocq Require Import Core Binary.
From Verif Require Import F32 F32_lemmas F32_err Types Index Voxel Serialize Assoc Layer Update Update_spec
  Merge_proofs Dist_proofs Timing_proofs Index_float Sim Sim_spec.
Import ListNotations.
Open Scope R_scope.

Lemma fsub_f0 a : ffin a = true -> fsub a f0 = a.
Proof. intros F. Transparent fsub. destruct a as [s|s|s p Hp|s m e Hm]; try discriminate; try reflexivity. destruct s; reflexivity. Qed.
Opaque fsub.

(** the float norm of a difference, however small *)
Lemma norm_abs p o : all3 (fin_upto 40) p -> all3 (fin_upto 40) o ->
  ffin (norm3 (pt_sub p o)) = true /\ 0 <= FR (norm3 (pt_sub p o)) /\
  Rabs (FR (norm3 (pt_sub p o)) - normR (sub3R p o)) <= 11 * u32r * normR (sub3R p o) + bpow radix2 (-28).
Proof.
  intros P O. destruct (sqnorm_err p o P O) as (F & E1 & E2).
  assert (N0 : 0 <= normR (sub3R p o)) by apply sqrt_pos.
  assert (S0 : 0 <= FR (sqnorm (pt_sub p o))).
  { destruct P as (P1 & P2 & P3), O as (O1 & O2 & O3).
    destruct (sq_err _ _ P1 O1) as (F1 & A1 & N1 & L1). destruct (sq_err _ _ P2 O2) as (F2 & A2 & N2 & L2).
    destruct (sq_err _ _ P3 O3) as (F3 & A3 & N3 & L3). cbn zeta in *.
    unfold sqnorm, pt_sub, zip3 in *. cbn [vx vy vz] in *.
    set (q1 := fmul (fsub (vx p) (vx o)) _) in *. set (q2 := fmul (fsub (vy p) (vy o)) _) in *.
    set (q3 := fmul (fsub (vz p) (vz o)) _) in *.
    assert (B : Rabs (FR q2 + FR q3) <= bpow radix2 85) by (eapply Rabs_add_bpow; eauto; lia).
    destruct (fadd_R q2 q3 F2 F3) as (E4 & F4). { apply rnd32_small. eapply Rle_trans; [exact B|apply bpow_le; lia]. }
    assert (P4 : 0 <= FR (fadd q2 q3)) by (rewrite E4, <- rnd32_0; apply rnd32_le; lra).
    assert (U4 : FR (fadd q2 q3) <= bpow radix2 86).
    { destruct (fadd_rel q2 q3 F2 F3) as (_ & e & He & Q). { eapply Rle_trans; [exact B|apply bpow_le; lia]. }
      rewrite Q. rewrite Rabs_pos_eq in B by lra. apply Rabs_le_inv in He. unfold u32r in He.
      replace (bpow radix2 86) with (bpow radix2 85 * 2) by (change 2 with (bpow radix2 1); rewrite <- bpow_plus; reflexivity).
      nra. }
    destruct (fadd_R q1 (fadd q2 q3) F1 F4) as (E5 & F5).
    { apply rnd32_small. rewrite Rabs_pos_eq by lra. rewrite Rabs_pos_eq in A1 by lra.
      apply Rle_trans with (bpow radix2 86 + bpow radix2 86).
      - apply Rplus_le_compat; [eapply Rle_trans; [exact A1|apply bpow_le; lia]|exact U4].
      - replace (bpow radix2 86 + bpow radix2 86) with (bpow radix2 87) by (change 87%Z with (1 + 86)%Z; rewrite bpow_plus; simpl; lra).
        apply bpow_le; lia. }
    rewrite E5, <- rnd32_0. apply rnd32_le. lra. }
  destruct (fsqrt_rel _ F S0) as (Fn & e & He & En).
  change (fsqrt (sqnorm (pt_sub p o))) with (norm3 (pt_sub p o)) in *.
  assert (Np : 0 <= FR (norm3 (pt_sub p o))).
  { rewrite En. apply Rabs_le_inv in He. unfold u32r in He. apply Rmult_le_pos; [apply sqrt_pos|lra]. }
  split; [exact Fn|]. split; [exact Np|].
  destruct (Rle_lt_dec (bpow radix2 (-30)) (normR (sub3R p o))) as [L|L].
  - destruct (norm_err p o P O L) as (_ & e' & He' & E'). rewrite E'.
    replace (normR (sub3R p o) * (1 + e') - normR (sub3R p o)) with (normR (sub3R p o) * e') by ring.
    rewrite Rabs_mult, (Rabs_pos_eq (normR _)) by exact N0. pose proof (bpow_gt_0 radix2 (-28)). nra.
  - rewrite dist2_dot in E2.
    assert (D : dotR (sub3R p o) (sub3R p o) <= bpow radix2 (-60)).
    { unfold normR in L. rewrite <- (sqrt_sqrt (dotR _ _)) by apply dotR_pos.
      replace (bpow radix2 (-60)) with (bpow radix2 (-30) * bpow radix2 (-30)) by (rewrite <- bpow_plus; reflexivity).
      apply Rmult_le_compat; try apply sqrt_pos; lra. }
    assert (S1 : FR (sqnorm (pt_sub p o)) <= bpow radix2 (-58)).
    { eapply Rle_trans; [exact E2|].
      assert (T : t32r <= bpow radix2 (-60)) by (apply bpow_le; lia).
      replace (bpow radix2 (-58)) with (bpow radix2 (-60) * 4) by (change 4 with (bpow radix2 2); rewrite <- bpow_plus; reflexivity).
      assert (T2 : 8 * t32r <= bpow radix2 (-60)).
      { unfold t32r. change 8 with (bpow radix2 3). rewrite <- bpow_plus. apply bpow_le; lia. }
      pose proof (dotR_pos (sub3R p o)). unfold u32r. nra. }
    assert (Sq : sqrt (FR (sqnorm (pt_sub p o))) <= bpow radix2 (-29)).
    { rewrite <- (sqrt_square (bpow radix2 (-29))) by apply bpow_ge_0. apply sqrt_le_1_alt.
      rewrite <- bpow_plus. exact S1. }
    assert (U : FR (norm3 (pt_sub p o)) <= bpow radix2 (-28)).
    { rewrite En. apply Rabs_le_inv in He. unfold u32r in He.
      replace (bpow radix2 (-28)) with (bpow radix2 (-29) * 2) by (change 2 with (bpow radix2 1); rewrite <- bpow_plus; reflexivity).
      pose proof (sqrt_pos (FR (sqnorm (pt_sub p o)))). nra. }
    assert (N28 : normR (sub3R p o) <= bpow radix2 (-28)).
    { apply Rle_trans with (bpow radix2 (-30)); [lra|apply bpow_le; lia]. }
    unfold u32r. apply Rabs_le. lra.
Qed.
Lemma norm_vec v : all3 (fin_upto 40) v ->
  ffin (norm3 v) = true /\ 0 <= FR (norm3 v) /\
  let n := sqrt (FR (vx v) * FR (vx v) + FR (vy v) * FR (vy v) + FR (vz v) * FR (vz v)) in
  Rabs (FR (norm3 v) - n) <= 11 * u32r * n + bpow radix2 (-28).
Proof.
  intros V. assert (Z : all3 (fin_upto 40) (V3 f0 f0 f0)).
  { assert (H : fin_upto 40 f0) by (split; [reflexivity|change (FR f0) with 0; rewrite Rabs_R0; apply bpow_ge_0]). exact (conj H (conj H H)). }
  pose proof (norm_abs v (V3 f0 f0 f0) V Z) as H.
  assert (E : pt_sub v (V3 f0 f0 f0) = v).
  { destruct v as [a b c]. destruct V as ((A & _) & (B & _) & (C & _)). unfold pt_sub, zip3. cbn [vx vy vz] in *.
    rewrite !fsub_f0 by assumption. reflexivity. }
  rewrite E in H. unfold normR, dotR, sub3R in H. cbn [vx vy vz] in H. change (FR f0) with 0 in H.
  rewrite !Rminus_0_r in H. exact H.
Qed.

(** ** Sphere *)
Lemma radial_ok n r D : ffin n = true -> 0 <= FR n -> fin_upto 40 r -> 0 <= D -> D <= bpow radix2 43 ->
  Rabs (FR n - D) <= 11 * u32r * D + bpow radix2 (-28) ->
  let d := fsub n r in
  ffin d = true /\ Rabs (FR d - (D - FR r)) <= / 1000000 * (D + Rabs (FR r)) + / 100000000.
Proof.
  intros F N0 (Fr & Br) D0 DB E d.
  assert (B28 : bpow radix2 (-28) <= / 200000000) by (simpl; lra).
  assert (Bn : Rabs (FR n) <= bpow radix2 44).
  { rewrite Rabs_pos_eq by exact N0. apply Rabs_le_inv in E. unfold u32r in E.
    replace (bpow radix2 44) with (bpow radix2 43 * 2) by (change 2 with (bpow radix2 1); rewrite <- bpow_plus; reflexivity).
    assert (1 <= bpow radix2 43) by (change 1 with (bpow radix2 0); apply bpow_le; lia). lra. }
  destruct (fsub_rel n r F Fr) as (Fd & e & He & Ed).
  { apply Rle_trans with (bpow radix2 44 + bpow radix2 40); [unfold Rminus; eapply Rle_trans; [apply Rabs_triang|]; rewrite Rabs_Ropp; lra|].
    apply Rle_trans with (bpow radix2 44 + bpow radix2 44); [apply Rplus_le_compat_l, bpow_le; lia|].
    replace (bpow radix2 44 + bpow radix2 44) with (bpow radix2 45) by (change 45%Z with (1 + 44)%Z; rewrite bpow_plus; simpl; lra).
    apply bpow_le; lia. }
  fold d in Fd, Ed. split; [exact Fd|]. rewrite Ed.
  assert (M : Rabs ((FR n - FR r) * e) <= (2 * D + / 1000 + Rabs (FR r)) * / 16777216).
  { rewrite Rabs_mult. apply Rmult_le_compat; try apply Rabs_pos; [|exact He].
    unfold Rminus. eapply Rle_trans; [apply Rabs_triang|]. rewrite Rabs_Ropp, (Rabs_pos_eq (FR n)) by exact N0.
    apply Rabs_le_inv in E. unfold u32r in E. lra. }
  apply Rabs_le_inv in M. apply Rabs_le_inv in E. unfold u32r in E. pose proof (Rabs_pos (FR r)).
  apply Rabs_le. lra.
Qed.
Lemma dist_upto c p : all3 (fin_upto 40) c -> all3 (fin_upto 40) p -> normR (sub3R c p) <= bpow radix2 43.
Proof. intros C P. eapply Rle_trans; [apply normR_upto; assumption|apply bpow_le; lia]. Qed.
Lemma sphere_ok c r p : all3 (fin_upto 40) c -> all3 (fin_upto 40) p -> fin_upto 40 r ->
  let D := distR (V3R p) (V3R c) in
  let d := obj_dist (Sphere c r) p in
  ffin d = true /\ Rabs (FR d - (D - FR r)) <= / 1000000 * (D + Rabs (FR r)) + / 100000000.
Proof.
  intros C P R D d. destruct (norm_abs c p C P) as (F & N0 & E).
  assert (DD : normR (sub3R c p) = D).
  { unfold D, normR, distR, dotR, sub3R, V3R. cbn [vx vy vz]. f_equal. ring. }
  pose proof (dist_upto c p C P) as U. rewrite DD in E, U.
  apply radial_ok; auto. rewrite <- DD. apply sqrt_pos.
Qed.

(** ** Cube *)
Lemma fmax_R a b : ffin a = true -> ffin b = true -> ffin (fmax a b) = true /\ FR (fmax a b) = Rmax (FR a) (FR b).
Proof.
  intros A B. unfold fmax. destruct (flt a b) eqn:E.
  - apply (flt_R a b A B) in E. rewrite Rmax_right by lra. auto.
  - split; [exact A|]. rewrite Rmax_left; [reflexivity|]. apply Rnot_lt_le. intros L.
    apply (flt_R a b A B) in L. congruence.
Qed.
Lemma dmax_R a b : dfin a = true -> dfin b = true -> dfin (dmax a b) = true /\ DR (dmax a b) = Rmax (DR a) (DR b).
Proof.
  intros A B. unfold dmax. destruct (dlt a b) eqn:E.
  - apply (dlt_R a b A B) in E. rewrite Rmax_right by lra. auto.
  - split; [exact A|]. rewrite Rmax_left; [reflexivity|]. apply Rnot_lt_le. intros L.
    apply (dlt_R a b A B) in L. congruence.
Qed.
Definition bounded (M : R) (a : f32) : Prop := ffin a = true /\ Rabs (FR a) <= M.
Lemma half_err M s : 1 <= M -> M <= bpow radix2 38 -> bounded M s ->
  dfin (ddiv (f64_of_f32 s) d2) = true /\ Rabs (DR (ddiv (f64_of_f32 s) d2) - FR s / 2) <= / 10000000000 * M.
Proof.
  intros M1 M2 (F & B). destruct (f64_of_f32_R s F) as (E & Fd).
  assert (D2 : DR d2 = 2) by (apply (f64_of_Z_R 2); lia).
  assert (Bs : Rabs (FR s / 2) <= bpow radix2 1023).
  { apply Rle_trans with (bpow radix2 38); [|apply bpow_le; lia]. unfold Rdiv. rewrite Rabs_mult, (Rabs_pos_eq (/ 2)) by lra.
    pose proof (Rabs_pos (FR s)). lra. }
  destruct (ddiv_R (f64_of_f32 s) d2 Fd) as (Q & Fq).
  { rewrite D2. lra. }
  { rewrite E, D2. apply rnd64_small. exact Bs. }
  split; [exact Fq|]. rewrite Q, E, D2. destruct (rnd64_err (FR s / 2)) as (d & e & Hd & He & ->).
  replace (FR s / 2 * (1 + d) + e - FR s / 2) with (FR s / 2 * d + e) by ring.
  assert (U : u64r <= / 100000000000) by (unfold u64r; simpl; lra).
  assert (T : t64r <= / 100000000000).
  { unfold t64r. apply Rle_trans with (bpow radix2 (-40)); [apply bpow_le; lia|simpl; lra]. }
  eapply Rle_trans; [apply Rabs_triang|]. rewrite Rabs_mult.
  assert (Rabs (FR s / 2) <= M). { unfold Rdiv. rewrite Rabs_mult, (Rabs_pos_eq (/ 2)) by lra. pose proof (Rabs_pos (FR s)). lra. }
  assert (Rabs (FR s / 2) * Rabs d <= M * / 100000000000).
  { apply Rmult_le_compat; try apply Rabs_pos; lra. }
  lra.
Qed.
Lemma dsub_close M a b x y ea eb : 1 <= M -> M <= bpow radix2 38 -> dfin a = true -> dfin b = true ->
  Rabs (DR a - x) <= ea * M -> Rabs (DR b - y) <= eb * M -> ea + eb <= 1 -> Rabs (x - y) <= 5 * M ->
  dfin (dsub a b) = true /\ Rabs (DR (dsub a b) - (x - y)) <= (ea + eb + / 10000000000) * M.
Proof.
  intros M1 M2 Fa Fb A B E XY.
  assert (K : Rabs (DR a - DR b) <= 6 * M).
  { replace (DR a - DR b) with ((DR a - x) + ((x - y) + - (DR b - y))) by ring.
    eapply Rle_trans; [apply Rabs_triang|]. eapply Rle_trans; [apply Rplus_le_compat_l, Rabs_triang|].
    rewrite Rabs_Ropp. assert ((ea + eb) * M <= 1 * M) by (apply Rmult_le_compat_r; lra). lra. }
  destruct (dsub_rel a b Fa Fb) as (F & Q).
  { eapply Rle_trans; [exact K|]. apply Rle_trans with (8 * bpow radix2 38); [lra|].
    change 8 with (bpow radix2 3). rewrite <- bpow_plus. apply bpow_le; lia. }
  split; [exact F|].
  assert (U : 0 <= u64r <= / 100000000000) by (unfold u64r; simpl; lra).
  assert (T : t64r <= / 100000000000).
  { unfold t64r. apply Rle_trans with (bpow radix2 (-40)); [apply bpow_le; lia|simpl; lra]. }
  replace (DR (dsub a b) - (x - y)) with ((DR (dsub a b) - (DR a - DR b)) + ((DR a - x) + - (DR b - y))) by ring.
  eapply Rle_trans; [apply Rabs_triang|]. eapply Rle_trans; [apply Rplus_le_compat_l, Rabs_triang|]. rewrite Rabs_Ropp.
  assert (u64r * Rabs (DR a - DR b) <= / 100000000000 * (6 * M)) by (apply Rmult_le_compat; try apply Rabs_pos; lra).
  lra.
Qed.
Definition real_over (c s p : R) : R := Rmax (c - s / 2 - p) (p - c - s / 2).
Lemma real_over_eq c s p : real_over c s p = over c s p.
Proof. unfold real_over, over, Rabs, Rmax. destruct (Rle_dec _ _); destruct (Rcase_abs _); lra. Qed.
Lemma axis_err M c s p : 1 <= M -> M <= bpow radix2 38 -> bounded M c -> bounded M s -> bounded M p ->
  dfin (below_by c s p) = true /\ dfin (above_by c s p) = true /\
  Rabs (DR (below_by c s p) - (FR c - FR s / 2 - FR p)) <= / 1000000000 * M /\
  Rabs (DR (above_by c s p) - (FR p - FR c - FR s / 2)) <= / 8000000 * M.
Proof.
  intros M1 M2 (Fc & Bc) Bs (Fp & Bp). pose proof Bs as (Fs & Bs').
  destruct (half_err M s M1 M2 Bs) as (Fh & Eh).
  destruct (f64_of_f32_R c Fc) as (Ec & Fdc). destruct (f64_of_f32_R p Fp) as (Ep & Fdp).
  apply Rabs_le_inv in Bc. apply Rabs_le_inv in Bp. apply Rabs_le_inv in Bs'.
  assert (Z : forall x, Rabs (x - x) <= 0 * M) by (intros x; replace (x - x) with 0 by ring; rewrite Rabs_R0; lra).
  destruct (dsub_close M (f64_of_f32 c) _ (FR c) (FR s / 2) 0 (/ 10000000000) M1 M2 Fdc Fh) as (F1 & E1).
  { rewrite Ec. apply Z. } { exact Eh. } { lra. } { apply Rabs_le; lra. }
  destruct (dsub_close M _ (f64_of_f32 p) (FR c - FR s / 2) (FR p) (0 + / 10000000000 + / 10000000000) 0 M1 M2 F1 Fdp) as (F2 & E2).
  { exact E1. } { rewrite Ep. apply Z. } { lra. } { apply Rabs_le; lra. }
  destruct (fsub_rel p c Fp Fc) as (F3 & e & He & E3).
  { apply Rle_trans with (bpow radix2 40); [|apply bpow_le; lia].
    replace (bpow radix2 40) with (bpow radix2 38 * 4) by (change 4 with (bpow radix2 2); rewrite <- bpow_plus; reflexivity).
    apply Rabs_le; lra. }
  destruct (f64_of_f32_R _ F3) as (E4 & F4).
  destruct (dsub_close M (f64_of_f32 (fsub p c)) _ (FR p - FR c) (FR s / 2) (2 * u32r) (/ 10000000000) M1 M2 F4 Fh) as (F5 & E5).
  { rewrite E4, E3. replace ((FR p - FR c) * (1 + e) - (FR p - FR c)) with ((FR p - FR c) * e) by ring.
    rewrite Rabs_mult. replace (2 * u32r * M) with ((2 * M) * u32r) by ring. apply Rmult_le_compat; try apply Rabs_pos; [|exact He].
    apply Rabs_le; lra. }
  { exact Eh. } { unfold u32r. lra. } { apply Rabs_le; lra. }
  split; [exact F2|]. split; [exact F5|]. split; eapply Rle_trans; [exact E2| |exact E5|]; apply Rmult_le_compat_r; unfold u32r; lra.
Qed.
Lemma Rmax_close a b a' b' e : Rabs (a' - a) <= e -> Rabs (b' - b) <= e -> Rabs (Rmax a' b' - Rmax a b) <= e.
Proof.
  intros A B. apply Rabs_le_inv in A. apply Rabs_le_inv in B. apply Rabs_le. unfold Rmax.
  destruct (Rle_dec a' b'); destruct (Rle_dec a b); lra.
Qed.
Lemma narrow_err M d x e : 1 <= M -> M <= bpow radix2 38 -> dfin d = true -> Rabs (DR d - x) <= e * M ->
  e <= 1 -> Rabs x <= 3 * M ->
  ffin (f32_of_f64 d) = true /\ Rabs (FR (f32_of_f64 d) - x) <= (e + / 4000000) * M.
Proof.
  intros M1 M2 F D E X.
  assert (eM : e * M <= 1 * M) by (apply Rmult_le_compat_r; lra).
  assert (K : Rabs (DR d) <= 4 * M).
  { replace (DR d) with ((DR d - x) + x) by ring. eapply Rle_trans; [apply Rabs_triang|]. lra. }
  assert (S : Rabs (DR d) <= bpow radix2 127).
  { eapply Rle_trans; [exact K|]. apply Rle_trans with (4 * bpow radix2 38); [lra|].
    change 4 with (bpow radix2 2). rewrite <- bpow_plus. apply bpow_le; lia. }
  destruct (f32_of_f64_R d F (rnd32_small _ S)) as (Q & Fq). split; [exact Fq|]. rewrite Q.
  destruct (rnd32_err (DR d)) as (a & b & Ha & Hb & ->).
  replace (DR d * (1 + a) + b - x) with ((DR d - x) + (DR d * a + b)) by ring.
  eapply Rle_trans; [apply Rabs_triang|]. eapply Rle_trans; [apply Rplus_le_compat_l, Rabs_triang|].
  rewrite Rabs_mult. assert (Rabs (DR d) * Rabs a <= (4 * M) * / 16777216).
  { apply Rmult_le_compat; try apply Rabs_pos; [lra|]. rewrite bpow_m24 in Ha. unfold u32r in Ha. exact Ha. }
  assert (bpow radix2 (-150) <= / 1000000000) by (apply Rle_trans with (bpow radix2 (-40)); [apply bpow_le; lia|simpl; lra]).
  lra.
Qed.
Lemma cube_axis M c s p : 1 <= M -> M <= bpow radix2 38 -> bounded M c -> bounded M s -> bounded M p ->
  let x := over (FR c) (FR s) (FR p) in
  (ffin (cube_inside c s p) = true /\ Rabs (FR (cube_inside c s p) - x) <= / 2000000 * M) /\
  (ffin (cube_outside c s p) = true /\ Rabs (FR (cube_outside c s p) - Rmax x 0) <= / 2000000 * M) /\
  Rabs x <= 3 * M.
Proof.
  intros M1 M2 C S P x. destruct (axis_err M c s p M1 M2 C S P) as (Fb & Fa & Eb & Ea).
  destruct C as (_ & C), S as (_ & S), P as (_ & P).
  apply Rabs_le_inv in C. apply Rabs_le_inv in P. apply Rabs_le_inv in S.
  assert (X : Rabs x <= 3 * M).
  { unfold x, over. apply Rabs_le. unfold Rabs. destruct (Rcase_abs _); lra. }
  assert (Eb' : Rabs (DR (below_by c s p) - (FR c - FR s / 2 - FR p)) <= / 8000000 * M).
  { eapply Rle_trans; [exact Eb|]. apply Rmult_le_compat_r; lra. }
  assert (D0 : dfin d0 = true /\ DR d0 = 0) by (split; reflexivity). destruct D0 as (Fd0 & Ed0).
  split; [|split; [|exact X]].
  - destruct (dmax_R _ _ Fb Fa) as (Fm & Em).
    destruct (narrow_err M (dmax (below_by c s p) (above_by c s p)) x (/ 8000000) M1 M2 Fm) as (F & E).
    + rewrite Em. unfold x. rewrite <- real_over_eq. apply Rmax_close; assumption.
    + lra.
    + exact X.
    + split; [exact F|]. eapply Rle_trans; [exact E|]. apply Rmult_le_compat_r; lra.
  - destruct (dmax_R _ _ Fb Fd0) as (Fm & Em). destruct (dmax_R _ _ Fm Fa) as (Fn & En).
    destruct (narrow_err M (dmax (dmax (below_by c s p) d0) (above_by c s p)) (Rmax x 0) (/ 8000000) M1 M2 Fn) as (F & E).
    + rewrite En, Em, Ed0. unfold x. rewrite <- real_over_eq. unfold real_over.
      replace (Rmax (Rmax (FR c - FR s / 2 - FR p) (FR p - FR c - FR s / 2)) 0)
        with (Rmax (Rmax (FR c - FR s / 2 - FR p) 0) (FR p - FR c - FR s / 2)).
      2:{ rewrite <- !Rmax_assoc. f_equal. apply Rmax_comm. }
      apply Rmax_close; [apply Rmax_close|]; auto. replace (0 - 0) with 0 by ring. rewrite Rabs_R0. lra.
    + lra.
    + unfold Rmax. destruct (Rle_dec x 0); [rewrite Rabs_R0; lra|exact X].
    + split; [exact F|]. eapply Rle_trans; [exact E|]. apply Rmult_le_compat_r; lra.
Qed.
Lemma cube_axis0 M c s p : 1 <= M -> M <= bpow radix2 38 -> bounded M c -> bounded M s -> bounded M p ->
  over (FR c) (FR s) (FR p) < - (/ 2000000 * M) -> FR (cube_outside c s p) = 0.
Proof.
  intros M1 M2 C S P H. destruct (axis_err M c s p M1 M2 C S P) as (Fb & Fa & Eb & Ea).
  assert (D0 : dfin d0 = true /\ DR d0 = 0) by (split; reflexivity). destruct D0 as (Fd0 & Ed0).
  destruct (dmax_R _ _ Fb Fd0) as (Fm & Em). destruct (dmax_R _ _ Fm Fa) as (Fn & En).
  rewrite <- real_over_eq in H. unfold real_over in H.
  pose proof (Rmax_l (FR c - FR s / 2 - FR p) (FR p - FR c - FR s / 2)).
  pose proof (Rmax_r (FR c - FR s / 2 - FR p) (FR p - FR c - FR s / 2)).
  apply Rabs_le_inv in Eb. apply Rabs_le_inv in Ea.
  assert (Z : DR (dmax (dmax (below_by c s p) d0) (above_by c s p)) = 0).
  { rewrite En, Em, Ed0, (Rmax_right _ 0) by lra. apply Rmax_left. lra. }
  destruct (f32_of_f64_R _ Fn) as (Q & _).
  { rewrite Z, rnd32_0, Rabs_R0. apply bpow_gt_0. }
  unfold cube_outside. rewrite Q, Z. apply rnd32_0.
Qed.
Lemma norm_grow x y z x' y' z' d : 0 <= d ->
  Rabs x' <= Rabs x + d -> Rabs y' <= Rabs y + d -> Rabs z' <= Rabs z + d ->
  sqrt (x' * x' + (y' * y' + z' * z')) <= sqrt (x * x + (y * y + z * z)) + 3 * d.
Proof.
  intros D X Y Z. set (n := sqrt (x * x + (y * y + z * z))).
  assert (N0 : 0 <= n) by apply sqrt_pos.
  assert (N2 : n * n = x * x + (y * y + z * z)) by (apply sqrt_sqrt; nra).
  assert (C : forall t, t * t <= n * n -> Rabs t <= n).
  { intros t H. apply Rsqr_incr_0_var; [|exact N0]. rewrite <- Rsqr_abs. exact H. }
  assert (Cx : Rabs x <= n) by (apply C; nra). assert (Cy : Rabs y <= n) by (apply C; nra). assert (Cz : Rabs z <= n) by (apply C; nra).
  assert (Q : forall t t', Rabs t' <= Rabs t + d -> Rabs t <= n -> t' * t' <= t * t + 2 * d * n + d * d).
  { intros t t' H L. assert (H2 : t' * t' <= (Rabs t + d) * (Rabs t + d)).
    { rewrite <- (Rabs_pos_eq (t' * t')) by nra. rewrite Rabs_mult. apply Rmult_le_compat; auto using Rabs_pos. }
    assert (H3 : Rabs t * Rabs t = t * t) by (rewrite <- Rabs_mult; apply Rabs_pos_eq; nra).
    assert (d * Rabs t <= d * n) by (apply Rmult_le_compat_l; lra). lra. }
  pose proof (Q x x' X Cx). pose proof (Q y y' Y Cy). pose proof (Q z z' Z Cz).
  rewrite <- (sqrt_square (n + 3 * d)) by lra. apply sqrt_le_1_alt. nra.
Qed.
Lemma near_abs a b d : Rabs (a - b) <= d -> Rabs a <= Rabs b + d /\ Rabs b <= Rabs a + d.
Proof.
  intros H. split.
  - replace a with (b + (a - b)) at 1 by ring. eapply Rle_trans; [apply Rabs_triang|]. lra.
  - replace b with (a + - (a - b)) at 1 by ring. eapply Rle_trans; [apply Rabs_triang|]. rewrite Rabs_Ropp. lra.
Qed.
Lemma le_norm x y z : Rabs x <= sqrt (x * x + (y * y + z * z)) /\ Rabs y <= sqrt (x * x + (y * y + z * z)) /\ Rabs z <= sqrt (x * x + (y * y + z * z)).
Proof.
  assert (C : forall t s, t * t <= s -> Rabs t <= sqrt s).
  { intros t s H. rewrite <- sqrt_Rsqr_abs. apply sqrt_le_1_alt. exact H. }
  repeat split; apply C; nra.
Qed.
Lemma Rmax3_cases a b c : (Rmax a (Rmax b c) = a \/ Rmax a (Rmax b c) = b \/ Rmax a (Rmax b c) = c) /\
  a <= Rmax a (Rmax b c) /\ b <= Rmax a (Rmax b c) /\ c <= Rmax a (Rmax b c).
Proof. unfold Rmax. repeat destruct (Rle_dec _ _); repeat split; try lra; auto. Qed.
Lemma cube_ok M c s p : 1 <= M -> M <= bpow radix2 38 -> all3 (bounded M) c -> all3 (bounded M) s -> all3 (bounded M) p ->
  let d := obj_dist (Cube c s) p in
  ffin d = true /\ Rabs (FR d - box_sdf (V3R c) (V3R s) (V3R p)) <= / 100000 * M + / 500000.
Proof.
  intros M1 M2 (C1 & C2 & C3) (S1 & S2 & S3) (P1 & P2 & P3) d.
  destruct (cube_axis M _ _ _ M1 M2 C1 S1 P1) as ((Fi1 & Ei1) & (Fo1 & Eo1) & X1).
  destruct (cube_axis M _ _ _ M1 M2 C2 S2 P2) as ((Fi2 & Ei2) & (Fo2 & Eo2) & X2).
  destruct (cube_axis M _ _ _ M1 M2 C3 S3 P3) as ((Fi3 & Ei3) & (Fo3 & Eo3) & X3).
  unfold box_sdf, V3R. cbn [vx vy vz].
  set (a := over (FR (vx c)) _ _) in *. set (b := over (FR (vy c)) _ _) in *. set (e := over (FR (vz c)) _ _) in *.
  set (oa := cube_outside (vx c) (vx s) (vx p)) in *. set (ob := cube_outside (vy c) (vy s) (vy p)) in *.
  set (oe := cube_outside (vz c) (vz s) (vz p)) in *.
  set (ia := cube_inside (vx c) (vx s) (vx p)) in *. set (ib := cube_inside (vy c) (vy s) (vy p)) in *.
  set (ie := cube_inside (vz c) (vz s) (vz p)) in *.
  assert (dl : 0 <= / 2000000 * M) by lra. set (dlt := / 2000000 * M) in *.
  assert (Xm : forall x, Rabs x <= 3 * M -> 0 <= Rmax x 0 <= 3 * M).
  { intros x H. apply Rabs_le_inv in H. unfold Rmax. destruct (Rle_dec x 0); lra. }
  assert (W : forall o x, ffin o = true -> Rabs x <= 3 * M -> Rabs (FR o - Rmax x 0) <= dlt -> fin_upto 40 o).
  { intros o x F H E. split; [exact F|]. apply near_abs in E as (E & _). pose proof (Xm x H). rewrite (Rabs_pos_eq (Rmax x 0)) in E by lra.
    replace (bpow radix2 40) with (bpow radix2 38 * 4) by (change 4 with (bpow radix2 2); rewrite <- bpow_plus; reflexivity).
    unfold dlt in E. lra. }
  assert (V : all3 (fin_upto 40) (zip33 cube_outside c s p)).
  { split; [|split]; cbn [zip33 vx vy vz]; eauto. }
  destruct (norm_vec _ V) as (Fn & N0 & En). cbn [zip33 vx vy vz] in En. 
  fold oa ob oe in En. cbn zeta in En. rewrite Rplus_assoc in En.
  set (n' := norm3 (zip33 cube_outside c s p)) in *.
  set (r' := sqrt (FR oa * FR oa + (FR ob * FR ob + FR oe * FR oe))) in *.
  set (r := sqrt (Rmax a 0 * Rmax a 0 + (Rmax b 0 * Rmax b 0 + Rmax e 0 * Rmax e 0))) in *.
  destruct (near_abs _ _ _ Eo1) as (U1 & L1). destruct (near_abs _ _ _ Eo2) as (U2 & L2). destruct (near_abs _ _ _ Eo3) as (U3 & L3).
  assert (R1 : r' <= r + 3 * dlt) by (apply norm_grow; assumption).
  assert (R2 : r <= r' + 3 * dlt) by (apply norm_grow; assumption).
  assert (R3 : r <= 9 * M).
  { pose proof (norm_grow 0 0 0 (Rmax a 0) (Rmax b 0) (Rmax e 0) (3 * M) ltac:(lra)) as G. fold r in G.
    replace (0 * 0 + (0 * 0 + 0 * 0)) with 0 in G by ring. rewrite sqrt_0, Rabs_R0 in G.
    pose proof (Xm a X1). pose proof (Xm b X2). pose proof (Xm e X3).
    rewrite !Rabs_pos_eq in G by lra. specialize (G ltac:(lra) ltac:(lra) ltac:(lra)). lra. }
  assert (r0 : 0 <= r) by apply sqrt_pos. assert (r0' : 0 <= r') by apply sqrt_pos.
  assert (NR : Rabs (FR n' - r) <= / 120000 * M + bpow radix2 (-28)).
  { apply Rabs_le_inv in En. unfold u32r in En. unfold dlt in R1, R2. apply Rabs_le. lra. }
  assert (B28 : bpow radix2 (-28) <= / 200000000) by (simpl; lra).
  apply Rabs_le_inv in NR.
  destruct (Rmax3_cases a b e) as (Mc & Ma & Mb & Me).
  set (m := Rmax a (Rmax b e)) in *.
  assert (mr : m <= r).
  { destruct (le_norm (Rmax a 0) (Rmax b 0) (Rmax e 0)) as (K1 & K2 & K3). fold r in K1, K2, K3.
    pose proof (Rmax_l a 0). pose proof (Rmax_l b 0). pose proof (Rmax_l e 0).
    pose proof (Rle_abs (Rmax a 0)). pose proof (Rle_abs (Rmax b 0)). pose proof (Rle_abs (Rmax e 0)).
    destruct Mc as [-> | [-> | ->]]; lra. }
  assert (rm : m <= 0 -> r = 0).
  { intros H. unfold r. rewrite !Rmax_right by lra. replace (0 * 0 + (0 * 0 + 0 * 0)) with 0 by ring. apply sqrt_0. }
  destruct kEpsilon_R as (Ek & Fk).
  unfold d, obj_dist, cube_dist. fold n'. destruct (flt n' kEpsilon) eqn:T.
  - apply (flt_R _ _ Fn Fk) in T. unfold max_coeff. cbn [zip33 vx vy vz]. fold ia ib ie.
    destruct (fmax_R ib ie Fi2 Fi3) as (F2 & Q2). destruct (fmax_R ia _ Fi1 F2) as (F1 & Q1).
    split; [exact F1|]. rewrite Q1, Q2.
    assert (I : Rabs (Rmax (FR ia) (Rmax (FR ib) (FR ie)) - m) <= dlt).
    { apply Rmax_close; [exact Ei1|]. apply Rmax_close; assumption. }
    apply Rabs_le_inv in I. unfold dlt in I. destruct (Rle_dec m 0) as [Z|Z]; apply Rabs_le; [lra|].
    lra.
  - split; [exact Fn|]. destruct (Rle_dec m 0) as [Z|Z]; [|apply Rabs_le; lra].
    specialize (rm Z).
    assert (mlow : - dlt <= m).
    { apply Rnot_lt_le. intros L.
      assert (O1 : FR oa = 0) by (apply (cube_axis0 M); auto; fold a; unfold dlt in L; lra).
      assert (O2 : FR ob = 0) by (apply (cube_axis0 M); auto; fold b; unfold dlt in L; lra).
      assert (O3 : FR oe = 0) by (apply (cube_axis0 M); auto; fold e; unfold dlt in L; lra).
      apply Bool.not_true_iff_false in T. apply T. apply (flt_R _ _ Fn Fk).
      assert (r0z : r' = 0) by (unfold r'; rewrite O1, O2, O3; replace (0 * 0 + (0 * 0 + 0 * 0)) with 0 by ring; apply sqrt_0).
      rewrite r0z in En. rewrite Rmult_0_r, Rplus_0_l, Rminus_0_r in En. apply Rabs_le_inv in En.
      assert (KE : FR kEpsilon = IZR 8796093 * bpow radix2 (-43)) by reflexivity.
      change (bpow radix2 (-43)) with (/ 8796093022208) in KE. lra. }
    unfold dlt in mlow. apply Rabs_le. lra.
Qed.

(** [box_sdf] is the distance to the box for points outside it *)
Definition clampR (c s q : R) : R := Rmax (c - s / 2) (Rmin (c + s / 2) q).
Lemma clampR_ok c s q : 0 <= s -> Rabs (clampR c s q - c) <= s / 2 /\
  (q - clampR c s q) * (q - clampR c s q) = Rmax (over c s q) 0 * Rmax (over c s q) 0.
Proof.
  intros S. unfold clampR, over. split.
  - unfold Rmax, Rmin, Rabs. repeat destruct (Rle_dec _ _); repeat destruct (Rcase_abs _); lra.
  - unfold Rabs. destruct (Rcase_abs (q - c)).
    + assert (E : q - Rmax (c - s / 2) (Rmin (c + s / 2) q) = - Rmax (- (q - c) - s / 2) 0)
        by (unfold Rmax, Rmin; repeat destruct (Rle_dec _ _); lra). rewrite E. ring.
    + assert (E : q - Rmax (c - s / 2) (Rmin (c + s / 2) q) = Rmax ((q - c) - s / 2) 0)
        by (unfold Rmax, Rmin; repeat destruct (Rle_dec _ _); lra). rewrite E. ring.
Qed.
Lemma far_axis c s q x : Rabs (x - c) <= s / 2 -> Rmax (over c s q) 0 * Rmax (over c s q) 0 <= (q - x) * (q - x).
Proof.
  intros H. apply Rabs_le_inv in H. assert (L : 0 <= Rmax (over c s q) 0 <= Rabs (q - x)).
  { unfold over, Rmax, Rabs. repeat destruct (Rcase_abs _); destruct (Rle_dec _ _); lra. }
  assert (SQ : Rabs (q - x) * Rabs (q - x) = (q - x) * (q - x)) by (unfold Rabs; destruct (Rcase_abs (q - x)); ring).
  rewrite <- SQ.
  apply Rmult_le_compat; lra.
Qed.
Lemma box_sdf_dist c s q : 0 <= vx s -> 0 <= vy s -> 0 <= vz s -> ~ solid_box c s q ->
  dist_to (solid_box c s) q (box_sdf c s q).
Proof.
  intros S1 S2 S3 N. unfold box_sdf. destruct (Rmax3_cases (over (vx c) (vx s) (vx q)) (over (vy c) (vy s) (vy q)) (over (vz c) (vz s) (vz q))) as (_ & A & B & C).
  destruct (Rle_dec _ 0) as [L|L].
  - exfalso. apply N. unfold over in *. repeat split; lra.
  - destruct (clampR_ok (vx c) (vx s) (vx q) S1) as (I1 & Q1). destruct (clampR_ok (vy c) (vy s) (vy q) S2) as (I2 & Q2).
    destruct (clampR_ok (vz c) (vz s) (vz q) S3) as (I3 & Q3). split.
    + exists (V3 (clampR (vx c) (vx s) (vx q)) (clampR (vy c) (vy s) (vy q)) (clampR (vz c) (vz s) (vz q))).
      split; [repeat split; assumption|]. unfold distR. cbn [vx vy vz]. rewrite Q1, Q2, Q3. reflexivity.
    + intros x (X1 & X2 & X3). unfold distR. apply sqrt_le_1_alt.
      pose proof (far_axis _ _ (vx q) _ X1). pose proof (far_axis _ _ (vy q) _ X2). pose proof (far_axis _ _ (vz q) _ X3). lra.
Qed.

(** ** Plane *)
Lemma fadd_close M a b x y ea eb : 1 <= M -> M <= bpow radix2 38 -> ffin a = true -> ffin b = true ->
  Rabs (FR a - x) <= ea * M -> Rabs (FR b - y) <= eb * M -> ea + eb <= 1 -> Rabs x <= 4 * M -> Rabs y <= 4 * M ->
  ffin (fadd a b) = true /\ Rabs (FR (fadd a b) - (x + y)) <= (ea + eb + / 1600000) * M.
Proof.
  intros M1 M2 Fa Fb A B E X Y.
  apply Rabs_le_inv in A. apply Rabs_le_inv in B. apply Rabs_le_inv in X. apply Rabs_le_inv in Y.
  assert (eM : (ea + eb) * M <= 1 * M) by (apply Rmult_le_compat_r; lra).
  assert (K : Rabs (FR a + FR b) <= 9 * M) by (apply Rabs_le; lra).
  destruct (fadd_rel a b Fa Fb) as (F & e & He & Q).
  { eapply Rle_trans; [exact K|]. apply Rle_trans with (16 * bpow radix2 38); [lra|].
    change 16 with (bpow radix2 4). rewrite <- bpow_plus. apply bpow_le; lia. }
  split; [exact F|]. rewrite Q.
  assert (W : Rabs ((FR a + FR b) * e) <= 9 * M * / 16777216).
  { rewrite Rabs_mult. apply Rmult_le_compat; try apply Rabs_pos; assumption. }
  apply Rabs_le_inv in W. apply Rabs_le. lra.
Qed.
Lemma dot_vec M n p : 1 <= M -> M <= bpow radix2 38 -> all3 (bounded (1 + / 1000000)) n -> all3 (bounded M) p ->
  ffin (dot3 n p) = true /\ Rabs (FR (dot3 n p) - dotR (V3R n) (V3R p)) <= / 500000 * M /\
  Rabs (dotR (V3R n) (V3R p)) <= 4 * M.
Proof.
  intros M1 M2 N P.
  assert (U40 : M <= bpow radix2 40) by (eapply Rle_trans; [exact M2|apply bpow_le; lia]).
  assert (B1 : 2 <= bpow radix2 40) by (change 2 with (bpow radix2 1); apply bpow_le; lia).
  assert (W : forall v B, B <= bpow radix2 40 -> all3 (bounded B) v -> all3 (fin_upto 40) v).
  { intros v B HB ((A1 & A2) & (A3 & A4) & (A5 & A6)). repeat split; auto; lra. }
  assert (Z : all3 (fin_upto 40) (V3 f0 f0 f0)).
  { assert (H : fin_upto 40 f0) by (split; [reflexivity|change (FR f0) with 0; rewrite Rabs_R0; apply bpow_ge_0]). exact (conj H (conj H H)). }
  destruct (dot_err n p (V3 f0 f0 f0) (W _ (1 + / 1000000) ltac:(lra) N) (W _ M U40 P) Z) as (F & E).
  assert (Sb : forall v, ffin (vx v) = true -> ffin (vy v) = true -> ffin (vz v) = true -> pt_sub v (V3 f0 f0 f0) = v).
  { intros [a b c]. cbn [vx vy vz]. intros. unfold pt_sub, zip3. cbn [vx vy vz]. rewrite !fsub_f0 by assumption. reflexivity. }
  destruct N as ((N1 & N2) & (N3 & N4) & (N5 & N6)), P as ((P1 & P2) & (P3 & P4) & (P5 & P6)).
  rewrite !Sb in F, E by assumption.
  assert (SV : forall v, sub3R v (V3 f0 f0 f0) = V3R v).
  { intros v. unfold sub3R, V3R. cbn [vx vy vz]. change (FR f0) with 0. rewrite !Rminus_0_r. reflexivity. }
  rewrite !SV in E.
  assert (AD : adotR (V3R n) (V3R p) <= (3 + / 100000) * M).
  { unfold adotR, V3R. cbn [vx vy vz]. rewrite !Rabs_mult.
    assert (G : forall a b, Rabs a <= 1 + / 1000000 -> Rabs b <= M -> Rabs a * Rabs b <= (1 + / 1000000) * M).
    { intros a b Ha Hb. apply Rmult_le_compat; try apply Rabs_pos; assumption. }
    pose proof (G _ _ N2 P2). pose proof (G _ _ N4 P4). pose proof (G _ _ N6 P6). lra. }
  split; [exact F|]. split.
  - eapply Rle_trans; [exact E|]. unfold u32r.
    assert (t32r <= / 1000000000) by (apply Rle_trans with (bpow radix2 (-40)); [apply bpow_le; lia|simpl; lra]).
    pose proof (Rabs_pos (dotR (V3R n) (V3R p))). lra.
  - eapply Rle_trans; [apply dot_adot|]. lra.
Qed.
Lemma plane_ok M c n p : 1 <= M -> M <= bpow radix2 38 -> all3 (bounded M) c -> all3 (bounded M) p ->
  ffin (vx n) = true -> ffin (vy n) = true -> ffin (vz n) = true ->
  Rabs (distR (V3R n) (V3 0 0 0) - 1) <= / 1000000 ->
  let d := obj_dist (PlaneObject c n) p in
  ffin d = true /\
  Rabs (FR d - (dotR (V3R n) (V3R p) - dotR (V3R n) (V3R c)) / distR (V3R n) (V3 0 0 0)) <= / 20000 * M.
Proof.
  intros M1 M2 C P F1 F2 F3 N d. set (L := distR (V3R n) (V3 0 0 0)) in *.
  assert (LE : L = sqrt (FR (vx n) * FR (vx n) + (FR (vy n) * FR (vy n) + FR (vz n) * FR (vz n)))).
  { unfold L, distR, V3R. cbn [vx vy vz]. rewrite !Rminus_0_r. reflexivity. }
  apply Rabs_le_inv in N. destruct (le_norm (FR (vx n)) (FR (vy n)) (FR (vz n))) as (L1 & L2 & L3). rewrite <- LE in *.
  assert (BN : all3 (bounded (1 + / 1000000)) n) by (repeat split; auto; lra).
  destruct (dot_vec M n p M1 M2 BN P) as (Fp & Ep & Bp). destruct (dot_vec M n c M1 M2 BN C) as (Fc & Ec & Bc).
  set (A := dotR (V3R n) (V3R p)) in *. set (K := dotR (V3R n) (V3R c)) in *.
  assert (B1 : 2 <= bpow radix2 40) by (change 2 with (bpow radix2 1); apply bpow_le; lia).
  destruct (norm_vec n) as (Fn & Nn & En). { repeat split; auto; lra. }
  cbn zeta in En. rewrite Rplus_assoc, <- LE in En.
  assert (B28 : bpow radix2 (-28) <= / 200000000) by (simpl; lra).
  apply Rabs_le_inv in En. unfold u32r in En.
  assert (NN : 1 - / 500000 <= FR (norm3 n) <= 1 + / 500000) by lra.
  pose proof (fneg_R (dot3 n c)) as Eg.
  assert (Fg : ffin (fneg (dot3 n c)) = true) by (destruct (dot3 n c); try discriminate Fc; reflexivity).
  set (q := fneg (dot3 n c)) in *. set (N' := FR (norm3 n)) in *.
  assert (I : 1 - / 400000 <= / N' <= 1 + / 400000).
  { split.
    - apply (Rmult_le_reg_r N'); [lra|]. rewrite Rinv_l by lra. nra.
    - apply (Rmult_le_reg_r N'); [lra|]. rewrite Rinv_l by lra. nra. }
  assert (Q1 : Rabs (FR q / N' - - K) <= / 60000 * M).
  { rewrite Eg. apply Rabs_le_inv in Ec. apply Rabs_le_inv in Bc. unfold Rdiv.
    set (x := FR (dot3 n c)) in *.
    replace (- x * / N' - - K) with (- (x - K) - x * (/ N' - 1)) by ring.
    assert (W : Rabs (x * (/ N' - 1)) <= (5 * M) * / 400000).
    { rewrite Rabs_mult. apply Rmult_le_compat; try apply Rabs_pos; apply Rabs_le; lra. }
    apply Rabs_le_inv in W. apply Rabs_le. lra. }
  assert (Q2 : Rabs (FR q / N') <= 5 * M).
  { apply Rabs_le_inv in Q1. apply Rabs_le_inv in Bc. apply Rabs_le. lra. }
  destruct (fdiv_R q (norm3 n)) as (Ed & Fd).
  { exact Fg. } { fold N'. lra. }
  { apply rnd32_small. fold N'. eapply Rle_trans; [exact Q2|]. apply Rle_trans with (8 * bpow radix2 38); [lra|].
    change 8 with (bpow radix2 3). rewrite <- bpow_plus. apply bpow_le; lia. }
  fold N' in Ed. destruct (rnd32_err (FR q / N')) as (e1 & e2 & H1 & H2 & E3). rewrite E3 in Ed.
  rewrite bpow_m24 in H1. unfold u32r in H1.
  assert (T : bpow radix2 (-150) <= / 1000000000) by (apply Rle_trans with (bpow radix2 (-40)); [apply bpow_le; lia|simpl; lra]).
  assert (Q3 : Rabs (FR (fdiv q (norm3 n)) - - K) <= / 50000 * M).
  { rewrite Ed. assert (W : Rabs (FR q / N' * e1) <= 5 * M * / 16777216).
    { rewrite Rabs_mult. apply Rmult_le_compat; try apply Rabs_pos; assumption. }
    apply Rabs_le_inv in Q1. apply Rabs_le_inv in W. apply Rabs_le_inv in H2. apply Rabs_le. lra. }
  destruct (fadd_close M (dot3 n p) (fdiv q (norm3 n)) A (- K) (/ 500000) (/ 50000) M1 M2 Fp Fd Ep Q3) as (Ff & Ef).
  { lra. } { exact Bp. } { rewrite Rabs_Ropp. exact Bc. }
  split; [exact Ff|]. change (fadd (dot3 n p) (fdiv q (norm3 n))) with d in *.
  assert (IL : 1 - / 900000 <= / L <= 1 + / 900000).
  { split.
    - apply (Rmult_le_reg_r L); [lra|]. rewrite Rinv_l by lra. nra.
    - apply (Rmult_le_reg_r L); [lra|]. rewrite Rinv_l by lra. nra. }
  assert (W : Rabs ((A - K) * (/ L - 1)) <= 8 * M * / 900000).
  { rewrite Rabs_mult. apply Rabs_le_inv in Bc. apply Rabs_le_inv in Bp. apply Rmult_le_compat; try apply Rabs_pos; apply Rabs_le; lra. }
  apply Rabs_le_inv in W. apply Rabs_le_inv in Ef. unfold Rdiv.
  replace (FR d - (A - K) * / L) with ((FR d - (A + - K)) - (A - K) * (/ L - 1)) by ring.
  apply Rabs_le. lra.
Qed.

Lemma sqxy_ok p o : all3 (fin_upto 40) p -> all3 (fin_upto 40) o -> ffin (sq_xy p o) = true /\ 0 <= FR (sq_xy p o).
Proof.
  intros (P1 & P2 & P3) (O1 & O2 & O3).
  destruct (sq_err _ _ P1 O1) as (F1 & A1 & N1 & L1). destruct (sq_err _ _ P2 O2) as (F2 & A2 & N2 & L2). cbn zeta in *.
  unfold sq_xy. set (q1 := fmul (fsub (vx p) (vx o)) _) in *. set (q2 := fmul (fsub (vy p) (vy o)) _) in *.
  assert (B : Rabs (FR q1 + FR q2) <= bpow radix2 85) by (eapply Rabs_add_bpow; eauto; lia).
  destruct (fadd_R q1 q2 F1 F2) as (E4 & F4). { apply rnd32_small. eapply Rle_trans; [exact B|apply bpow_le; lia]. }
  split; [exact F4|]. rewrite E4, <- rnd32_0. apply rnd32_le. lra.
Qed.
(** ** Cylinder, between its caps *)
Lemma cylinder_side_ok c r h p : all3 (fin_upto 40) c -> all3 (fin_upto 40) p -> fin_upto 40 r ->
  fle (f32_of_f64 (dsub (f64_of_f32 (vz c)) (ddiv (f64_of_f32 h) d2))) (vz p) = true ->
  fle (vz p) (f32_of_f64 (dadd (f64_of_f32 (vz c)) (ddiv (f64_of_f32 h) d2))) = true ->
  let D := distR (V3 0 (FR (vx p)) (FR (vy p))) (V3 0 (FR (vx c)) (FR (vy c))) in
  let d := obj_dist (Cylinder c r h) p in
  ffin d = true /\ Rabs (FR d - (D - FR r)) <= / 1000000 * (D + Rabs (FR r)) + / 100000000.
Proof.
  intros C P R L1 L2 D d.
  assert (Z : fin_upto 40 f0) by (split; [reflexivity|change (FR f0) with 0; rewrite Rabs_R0; apply bpow_ge_0]).
  set (p' := V3 f0 (vx p) (vy p)). set (c' := V3 f0 (vx c) (vy c)).
  assert (P' : all3 (fin_upto 40) p') by (destruct P as (P1 & P2 & _); exact (conj Z (conj P1 P2))).
  assert (C' : all3 (fin_upto 40) c') by (destruct C as (C1 & C2 & _); exact (conj Z (conj C1 C2))).
  destruct (norm_abs p' c' P' C') as (F & N0 & E).
  assert (DD : normR (sub3R p' c') = D).
  { unfold D, normR, distR, dotR, sub3R, c', p'. cbn [vx vy vz]. change (FR f0) with 0. f_equal. ring. }
  pose proof (dist_upto p' c' P' C') as U. rewrite DD in E, U.
  destruct (sqxy_ok p c P C) as (Fs & Ns). destruct (fsqrt_R _ Fs Ns) as (Es & Fq).
  assert (EQ : FR (norm3 (pt_sub p' c')) = FR (fsqrt (sq_xy p c))).
  { rewrite Es. unfold norm3. change (sqnorm (pt_sub p' c')) with (fadd f0 (sq_xy p c)).
    assert (Rd : rnd32 (FR f0 + FR (sq_xy p c)) = FR (sq_xy p c)).
    { change (FR f0) with 0. rewrite Rplus_0_l. apply rnd32_FR. }
    destruct (fadd_R f0 (sq_xy p c) eq_refl Fs) as (Ea & Fa). { rewrite Rd. apply FR_lt_max. }
    rewrite Rd in Ea. destruct (fsqrt_R _ Fa) as (Eb & _); [rewrite Ea; exact Ns|]. rewrite Eb, Ea. reflexivity. }
  rewrite EQ in E, N0.
  unfold d, obj_dist, cylinder_dist, fge. rewrite L1, L2. cbn [andb].
  apply radial_ok; auto. rewrite <- DD. apply sqrt_pos.
Qed.
