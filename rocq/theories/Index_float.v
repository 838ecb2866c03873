(** Rounding error analysis of the coordinate/index conversions of [Index]. *)
From Coq Require Import ZArith List Bool Lia Reals Lra Psatz.
From Flocq Require Import Core.
From Verif Require Import F32 F32_lemmas Types Index Index_proofs.
Open Scope R_scope.

Lemma bp_m24 : bpow radix2 (-24) = / 16777216. Proof. reflexivity. Qed.
Lemma bp_m53 : bpow radix2 (-53) = / 9007199254740992. Proof. reflexivity. Qed.
Lemma bp_20 : bpow radix2 20 = 1048576. Proof. reflexivity. Qed.

(** [u] = 2^-24 *)
Definition u : R := / 16777216.
Lemma u_pos : 0 < u. Proof. unfold u; lra. Qed.

Lemma rel_comb : forall a b A B, Rabs a <= A -> Rabs b <= B ->
  Rabs ((1 + a) * (1 + b) - 1) <= A + B + A * B.
Proof.
  intros a b A B Ha Hb.
  replace ((1 + a) * (1 + b) - 1) with (a + b + a * b) by ring.
  eapply Rle_trans; [apply Rabs_triang|].
  apply Rplus_le_compat.
  - eapply Rle_trans; [apply Rabs_triang|]. lra.
  - rewrite Rabs_mult. apply Rmult_le_compat; auto using Rabs_pos.
Qed.

Lemma Rabs_tri : forall a b A B, Rabs a <= A -> Rabs b <= B -> Rabs (a + b) <= A + B.
Proof. intros. eapply Rle_trans; [apply Rabs_triang|]. lra. Qed.
Lemma Rabs_prod : forall a b A B, Rabs a <= A -> Rabs b <= B -> Rabs (a * b) <= A * B.
Proof. intros. rewrite Rabs_mult. apply Rmult_le_compat; auto using Rabs_pos. Qed.

(** sizes we consider *)
Definition sane_size (s : f32) : Prop :=
  ffin s = true /\ bpow radix2 (-40) <= FR s <= bpow radix2 40.

Lemma sane_pos : forall s, sane_size s -> 0 < FR s.
Proof. intros s (_ & H & _). eapply Rlt_le_trans; [apply (bpow_gt_0 radix2 (-40))|auto]. Qed.

Definition wide_size (s : f32) : Prop :=
  ffin s = true /\ bpow radix2 (-60) <= FR s <= bpow radix2 60.
Lemma sane_wide : forall s, sane_size s -> wide_size s.
Proof.
  intros s (F & L & H). split; auto. split.
  eapply Rle_trans; [|apply L]. apply bpow_le; lia.
  eapply Rle_trans; [apply H|]. apply bpow_le; lia.
Qed.
Lemma wide_pos : forall s, wide_size s -> 0 < FR s.
Proof. intros s (_ & H & _). eapply Rlt_le_trans; [apply (bpow_gt_0 radix2 (-60))|auto]. Qed.

Lemma inv_of_R : forall s, wide_size s ->
  exists d, Rabs d <= 2 * u /\ FR (inv_of s) = / FR s * (1 + d) /\ ffin (inv_of s) = true.
Proof.
  intros s Hs. pose proof (wide_pos s Hs) as Sp. destruct Hs as (F & L & H).
  destruct (f64_of_f32_R s F) as (Es & Fs).
  destruct (f64_of_Z_R 1 ltac:(lia)) as (E1 & F1). change (f64_of_Z 1) with d1 in *.
  unfold inv_of.
  assert (B: DR d1 / DR (f64_of_f32 s) = / FR s) by (rewrite E1, Es; unfold Rdiv; ring).
  assert (Li: bpow radix2 (-60) <= / FR s).
  { change (-60)%Z with (Z.opp 60). rewrite bpow_opp. apply Rinv_le; auto. }
  assert (Hi: / FR s <= bpow radix2 60).
  { change 60%Z with (Z.opp (-60)). rewrite bpow_opp. apply Rinv_le; auto. apply bpow_gt_0. }
  assert (Pi: 0 < / FR s) by (apply Rinv_0_lt_compat; auto).
  destruct (rnd64_rel (/ FR s)) as (e1 & He1 & R1).
  { rewrite Rabs_pos_eq by lra. eapply Rle_trans; [|apply Li]. apply bpow_le. lia. }
  rewrite bp_m53 in He1. apply Rabs_le_inv in He1.
  assert (Q1: / 2 * bpow radix2 (-60) <= / FR s * (1 + e1) <= 2 * bpow radix2 60).
  { split.
    - rewrite Rmult_comm. apply Rmult_le_compat; try lra. apply bpow_ge_0.
    - rewrite Rmult_comm. apply Rmult_le_compat; lra. }
  rewrite (Rmult_comm (/2)) in Q1. rewrite (Rmult_comm 2) in Q1.
  change (/2) with (bpow radix2 (-1)) in Q1. change 2 with (bpow radix2 1) in Q1.
  rewrite <- !bpow_plus in Q1.
  assert (P1: 0 < / FR s * (1 + e1)) by (eapply Rlt_le_trans; [apply bpow_gt_0|apply Q1]).
  destruct (ddiv_R d1 (f64_of_f32 s) F1) as (E2 & F2).
  { rewrite Es. lra. }
  { rewrite B, R1. rewrite Rabs_pos_eq by lra.
    eapply Rle_lt_trans; [apply Q1|]. apply bpow_lt. lia. }
  rewrite B, R1 in E2.
  destruct (rnd32_rel (/ FR s * (1 + e1))) as (e2 & He2 & R2).
  { rewrite Rabs_pos_eq by lra. eapply Rle_trans; [|apply Q1]. apply bpow_le. lia. }
  rewrite bp_m24 in He2. fold u in He2.
  destruct (f32_of_f64_R _ F2) as (E3 & F3).
  { rewrite E2, R2. rewrite Rabs_pos_eq.
    - apply Rle_lt_trans with (bpow radix2 (60 + 1) * 2).
      + apply Rabs_le_inv in He2. unfold u in He2. apply Rmult_le_compat; lra.
      + change 2 with (bpow radix2 1). rewrite <- bpow_plus. apply bpow_lt; lia.
    - apply Rmult_le_pos; try lra. apply Rabs_le_inv in He2. unfold u in He2; lra. }
  rewrite E2, R2 in E3.
  exists ((1 + e1) * (1 + e2) - 1). split; [|split; auto].
  - eapply Rle_trans; [apply rel_comb; [apply Rabs_le; apply He1|apply He2]|]. unfold u; lra.
  - rewrite E3. ring.
Qed.

Lemma Rabs_half_int : forall i, / 2 <= Rabs (IZR i + / 2).
Proof.
  intros i. destruct (Z_lt_le_dec i 0).
  - assert (i <= -1)%Z by lia. apply IZR_le in H. rewrite Rabs_left1; lra.
  - apply IZR_le in l. rewrite Rabs_pos_eq; lra.
Qed.

Lemma center_axis_R : forall i s, sane_size s -> (Z.abs i <= 2 ^ 20)%Z ->
  exists d, Rabs d <= 2 * u /\ FR (center_axis i s) = (IZR i + / 2) * FR s * (1 + d) /\
            ffin (center_axis i s) = true.
Proof.
  intros i s Hs Hi. pose proof (sane_pos s Hs) as Sp. destruct Hs as (F & L & H).
  destruct (f64_of_f32_R s F) as (Es & Fs).
  destruct (f32_of_Z_R i ltac:(lia)) as (Ei & Fi).
  destruct (f64_of_f32_R _ Fi) as (Ei' & Fi'). rewrite Ei in Ei'.
  destruct (f64_lit_R 1 (-1)) as (Eh & Fh).
  { rewrite rnd64_exact by lia. rewrite Rmult_1_l, Rabs_pos_eq by apply bpow_ge_0. apply bpow_lt; lia. }
  rewrite rnd64_exact in Eh by lia. rewrite Rmult_1_l in Eh.
  change (bpow radix2 (-1)) with (/ 2) in Eh.
  unfold center_axis. change (f64_lit 1 (-1)) with dhalf in *.
  assert (Hir: Rabs (IZR i) <= bpow radix2 20) by (apply IZR_lt_bpow; lia).
  rewrite bp_20 in Hir. apply Rabs_le_inv in Hir.
  assert (X: rnd64 (IZR i + / 2) = IZR i + / 2).
  { replace (IZR i + / 2) with (IZR (2 * i + 1) * bpow radix2 (-1)).
    - apply rnd64_exact; lia.
    - rewrite plus_IZR, mult_IZR. change (bpow radix2 (-1)) with (/ 2). field. }
  assert (Bt: / 2 <= Rabs (IZR i + / 2) <= bpow radix2 21).
  { split; [apply Rabs_half_int|]. change (bpow radix2 21) with 2097152. apply Rabs_le. lra. }
  destruct (dadd_R _ _ Fi' Fh) as (E1 & F1).
  { rewrite Ei', Eh, X. eapply Rle_lt_trans; [apply Bt|]. apply bpow_lt; lia. }
  rewrite Ei', Eh, X in E1.
  set (c := IZR i + / 2) in *.
  assert (Bc: bpow radix2 (-41) <= Rabs (c * FR s) <= bpow radix2 61).
  { rewrite Rabs_mult, (Rabs_pos_eq (FR s)) by lra. split.
    - change (-41)%Z with (-1 + -40)%Z. rewrite bpow_plus. change (bpow radix2 (-1)) with (/2).
      apply Rmult_le_compat; try lra. apply bpow_ge_0.
    - change 61%Z with (21 + 40)%Z. rewrite bpow_plus. apply Rmult_le_compat; try lra; apply Rabs_pos. }
  destruct (rnd64_rel (c * FR s)) as (e1 & He1 & R1).
  { eapply Rle_trans; [|apply Bc]. apply bpow_le; lia. }
  rewrite bp_m53 in He1. apply Rabs_le_inv in He1.
  assert (Bd: bpow radix2 (-42) <= Rabs (c * FR s * (1 + e1)) <= bpow radix2 62).
  { rewrite Rabs_mult, (Rabs_pos_eq (1 + e1)) by lra.
    change (-42)%Z with (-41 + -1)%Z. change 62%Z with (61 + 1)%Z. rewrite !bpow_plus.
    change (bpow radix2 (-1)) with (/2). change (bpow radix2 1) with 2.
    split; apply Rmult_le_compat; try lra; try apply bpow_ge_0; apply Rabs_pos. }
  destruct (dmul_R _ _ F1 Fs) as (E2 & F2).
  { rewrite E1, Es, R1. eapply Rle_lt_trans; [apply Bd|]. apply bpow_lt; lia. }
  rewrite E1, Es, R1 in E2.
  destruct (rnd32_rel (c * FR s * (1 + e1))) as (e2 & He2 & R2).
  { eapply Rle_trans; [|apply Bd]. apply bpow_le; lia. }
  rewrite bp_m24 in He2. fold u in He2. pose proof He2 as He2'.
  apply Rabs_le_inv in He2'. unfold u in He2'.
  destruct (f32_of_f64_R _ F2) as (E3 & F3).
  { rewrite E2, R2. rewrite Rabs_mult, (Rabs_pos_eq (1 + e2)) by lra.
    apply Rle_lt_trans with (bpow radix2 62 * bpow radix2 1).
    - apply Rmult_le_compat; try lra. apply Rabs_pos. change (bpow radix2 1) with 2. lra.
    - rewrite <- bpow_plus. apply bpow_lt; lia. }
  rewrite E2, R2 in E3.
  exists ((1 + e1) * (1 + e2) - 1). split; [|split; auto].
  - eapply Rle_trans; [apply rel_comb; [apply Rabs_le; apply He1|apply He2]|]. unfold u; lra.
  - rewrite E3. ring.
Qed.

Lemma kEpsilon_R : 0 <= FR kEpsilon <= / 1000000 /\ ffin kEpsilon = true.
Proof.
  split; [|reflexivity].
  assert (E: FR kEpsilon = IZR 8796093 * bpow radix2 (-43)) by reflexivity.
  rewrite E. change (bpow radix2 (-43)) with (/ 8796093022208). lra.
Qed.

(** The value that is floored: at most 5u relative plus a constant away from
    the exact quotient. *)
Definition gtol (t : R) : R := 5 * u * Rabs t + / 262144.

Lemma small_e : bpow radix2 (-150) <= / 1073741824.
Proof. change (/ 1073741824) with (bpow radix2 (-30)). apply bpow_le; lia. Qed.

Lemma grid_value : forall p s, ffin p = true -> wide_size s ->
  Rabs (FR p / FR s) <= bpow radix2 24 ->
  ffin (fadd (fmul p (inv_of s)) kEpsilon) = true /\
  Rabs (FR (fadd (fmul p (inv_of s)) kEpsilon) - FR p / FR s) <= gtol (FR p / FR s).
Proof.
  intros p s Fp Hs Ht. pose proof (wide_pos s Hs) as Sp.
  destruct (inv_of_R s Hs) as (d & Hd & Ed & Fd).
  set (t := FR p / FR s) in *.
  assert (Em: FR p * FR (inv_of s) = t * (1 + d)) by (rewrite Ed; unfold t; field; lra).
  change (bpow radix2 24) with 16777216 in Ht.
  pose proof small_e as SE.
  destruct (rnd32_err (t * (1 + d))) as (d1 & e1 & Hd1 & He1 & R1).
  rewrite bp_m24 in Hd1. fold u in Hd1.
  assert (C1: Rabs ((1 + d) * (1 + d1) - 1) <= 3 * u + / 1048576 * u).
  { eapply Rle_trans; [apply rel_comb; eauto|]. unfold u; lra. }
  set (D1 := (1 + d) * (1 + d1) - 1) in *.
  assert (W: rnd32 (t * (1 + d)) = t * (1 + D1) + e1) by (rewrite R1; unfold D1; ring).
  assert (Ht0: 0 <= Rabs t) by apply Rabs_pos.
  assert (Bw: Rabs (t * (1 + D1) + e1) <= 2 * 16777216).
  { eapply Rle_trans; [apply Rabs_tri; [apply Rabs_prod with (B := 1 + (3 * u + / 1048576 * u)); [apply Ht|]|apply He1]|].
    - apply Rabs_tri; [rewrite Rabs_R1; lra|auto].
    - unfold u; lra. }
  destruct (fmul_R p (inv_of s) Fp Fd) as (E2 & F2).
  { rewrite Em, W. eapply Rle_lt_trans; [apply Bw|].
    apply Rle_lt_trans with (bpow radix2 25); [change (bpow radix2 25) with 33554432; lra|apply bpow_lt; lia]. }
  rewrite Em, W in E2.
  destruct kEpsilon_R as (Ek & Fk).
  set (w := t * (1 + D1) + e1) in *.
  destruct (rnd32_err (w + FR kEpsilon)) as (d2 & e2 & Hd2 & He2 & R2).
  rewrite bp_m24 in Hd2. fold u in Hd2.
  assert (V: rnd32 (w + FR kEpsilon) - t = t * ((1 + D1) * (1 + d2) - 1) + (e1 * (1 + d2) + (FR kEpsilon * (1 + d2) + e2))).
  { rewrite R2. unfold w. ring. }
  assert (M: Rabs (rnd32 (w + FR kEpsilon) - t) <= gtol t).
  { rewrite V. unfold gtol. rewrite (Rmult_comm (5 * u)).
    apply Rabs_tri.
    - apply Rabs_prod; [lra|]. eapply Rle_trans; [apply rel_comb; eauto|]. unfold u; lra.
    - assert (B1: Rabs (1 + d2) <= 2).
      { eapply Rle_trans; [apply Rabs_tri; [|apply Hd2]; rewrite Rabs_R1; apply Rle_refl|]. unfold u; lra. }
      eapply Rle_trans; [apply Rabs_tri; [apply Rabs_prod; [apply He1|apply B1]|
         apply Rabs_tri; [apply Rabs_prod; [rewrite Rabs_pos_eq by apply Ek; apply Ek|apply B1]|apply He2]]|].
      lra. }
  assert (Bv: Rabs (rnd32 (w + FR kEpsilon)) < max32).
  { apply Rle_lt_trans with (4 * 16777216).
    - replace (rnd32 (w + FR kEpsilon)) with ((rnd32 (w + FR kEpsilon) - t) + t) by ring.
      eapply Rle_trans; [apply Rabs_tri; [apply M|apply Ht]|]. unfold gtol, u; lra.
    - apply Rle_lt_trans with (bpow radix2 26); [change (bpow radix2 26) with 67108864; lra|apply bpow_lt; lia]. }
  rewrite <- E2 in Bv, M.
  destruct (fadd_R _ _ F2 Fk Bv) as (E3 & F3).
  split; auto. rewrite E3. exact M.
Qed.

Lemma grid_axis_margin : forall p s n, ffin p = true -> wide_size s ->
  (Z.abs n <= 2 ^ 23)%Z ->
  IZR n + gtol (FR p / FR s) <= FR p / FR s < IZR n + 1 - gtol (FR p / FR s) ->
  grid_axis p (inv_of s) = Some n.
Proof.
  intros p s n Fp Hs Hn Hm.
  set (t := FR p / FR s) in *.
  assert (G: 0 <= gtol t). { unfold gtol. pose proof (Rabs_pos t). pose proof u_pos. nra. }
  assert (Hn': Rabs (IZR n) <= bpow radix2 23) by (apply IZR_lt_bpow; lia).
  change (bpow radix2 23) with 8388608 in Hn'. apply Rabs_le_inv in Hn'.
  destruct (grid_value p s Fp Hs) as (F & E).
  { fold t. change (bpow radix2 24) with 16777216. apply Rabs_le. lra. }
  fold t in E. unfold grid_axis. rewrite ffloorZ_R by auto.
  set (v := FR (fadd (fmul p (inv_of s)) kEpsilon)) in *.
  apply Rabs_le_inv in E.
  assert (Zf: Zfloor v = n).
  { apply Zfloor_imp. rewrite plus_IZR. lra. }
  rewrite Zf. apply in_range_Some. split; auto. lia.
Qed.

Lemma grid_axis_center : forall p s n, ffin p = true -> wide_size s ->
  (Z.abs n <= 2 ^ 20)%Z ->
  Rabs (FR p / FR s - (IZR n + / 2)) <= / 8 + / 32 ->
  grid_axis p (inv_of s) = Some n.
Proof.
  intros p s n Fp Hs Hn Hc.
  assert (Hn': Rabs (IZR n) <= bpow radix2 20) by (apply IZR_lt_bpow; lia).
  rewrite bp_20 in Hn'. apply Rabs_le_inv in Hn'. apply Rabs_le_inv in Hc.
  apply grid_axis_margin; auto. lia.
  assert (gtol (FR p / FR s) <= / 4 + / 16 + / 64).
  { unfold gtol. assert (Rabs (FR p / FR s) <= 1048577) by (apply Rabs_le; lra).
    unfold u. lra. }
  lra.
Qed.

(** *** voxel centre maps back, global grid *)
Lemma center_grid_axis : forall i s, sane_size s -> (Z.abs i <= 2 ^ 20)%Z ->
  grid_axis (center_axis i s) (inv_of s) = Some i.
Proof.
  intros i s Hs Hi. destruct (center_axis_R i s Hs Hi) as (d & Hd & E & F).
  pose proof (sane_pos s Hs).
  apply grid_axis_center; auto using sane_wide.
  rewrite E.
  replace ((IZR i + / 2) * FR s * (1 + d) / FR s - (IZR i + / 2)) with ((IZR i + / 2) * d) by (field; lra).
  assert (Hn': Rabs (IZR i) <= bpow radix2 20) by (apply IZR_lt_bpow; lia).
  rewrite bp_20 in Hn'.
  eapply Rle_trans; [apply Rabs_prod; [apply Rabs_tri; [apply Hn'|rewrite Rabs_pos_eq by lra; apply Rle_refl]|apply Hd]|].
  unfold u; lra.
Qed.

(** *** block level *)
Lemma fadd_err : forall a b, ffin a = true -> ffin b = true ->
  Rabs (FR a + FR b) <= bpow radix2 100 ->
  exists d e, Rabs d <= u /\ Rabs e <= bpow radix2 (-150) /\
    FR (fadd a b) = (FR a + FR b) * (1 + d) + e /\ ffin (fadd a b) = true.
Proof.
  intros a b Fa Fb H.
  destruct (rnd32_err (FR a + FR b)) as (d & e & Hd & He & R).
  rewrite bp_m24 in Hd. fold u in Hd.
  destruct (fadd_R a b Fa Fb) as (E & F).
  - apply Rle_lt_trans with (bpow radix2 101).
    + rewrite <- rnd32_abs. replace (bpow radix2 101) with (rnd32 (bpow radix2 101)).
      apply rnd32_le. eapply Rle_trans; [apply H|]. apply bpow_le; lia.
      pose proof (rnd32_exact 1 101 ltac:(lia) ltac:(lia)) as X. rewrite Rmult_1_l in X. exact X.
    + apply bpow_lt; lia.
  - exists d, e. repeat split; auto. rewrite E; auto.
Qed.

Lemma fsub_err : forall a b, ffin a = true -> ffin b = true ->
  Rabs (FR a - FR b) <= bpow radix2 100 ->
  exists d e, Rabs d <= u /\ Rabs e <= bpow radix2 (-150) /\
    FR (fsub a b) = (FR a - FR b) * (1 + d) + e /\ ffin (fsub a b) = true.
Proof.
  intros a b Fa Fb H.
  destruct (rnd32_err (FR a - FR b)) as (d & e & Hd & He & R).
  rewrite bp_m24 in Hd. fold u in Hd.
  destruct (fsub_R a b Fa Fb) as (E & F).
  - apply Rle_lt_trans with (bpow radix2 101).
    + rewrite <- rnd32_abs. replace (bpow radix2 101) with (rnd32 (bpow radix2 101)).
      apply rnd32_le. eapply Rle_trans; [apply H|]. apply bpow_le; lia.
      pose proof (rnd32_exact 1 101 ltac:(lia) ltac:(lia)) as X. rewrite Rmult_1_l in X. exact X.
    + apply bpow_lt; lia.
  - exists d, e. repeat split; auto. rewrite E; auto.
Qed.

Lemma fmul_err : forall a b, ffin a = true -> ffin b = true ->
  Rabs (FR a * FR b) <= bpow radix2 100 ->
  exists d e, Rabs d <= u /\ Rabs e <= bpow radix2 (-150) /\
    FR (fmul a b) = (FR a * FR b) * (1 + d) + e /\ ffin (fmul a b) = true.
Proof.
  intros a b Fa Fb H.
  destruct (rnd32_err (FR a * FR b)) as (d & e & Hd & He & R).
  rewrite bp_m24 in Hd. fold u in Hd.
  destruct (fmul_R a b Fa Fb) as (E & F).
  - apply Rle_lt_trans with (bpow radix2 101).
    + rewrite <- rnd32_abs. replace (bpow radix2 101) with (rnd32 (bpow radix2 101)).
      apply rnd32_le. eapply Rle_trans; [apply H|]. apply bpow_le; lia.
      pose proof (rnd32_exact 1 101 ltac:(lia) ltac:(lia)) as X. rewrite Rmult_1_l in X. exact X.
    + apply bpow_lt; lia.
  - exists d, e. repeat split; auto. rewrite E; auto.
Qed.

(** absolute rounding tail in units of [FR s] *)
Lemma tail_units : forall s e, sane_size s -> Rabs e <= bpow radix2 (-150) ->
  Rabs (e / FR s) <= / 1073741824.
Proof.
  intros s e Hs He. pose proof (sane_pos s Hs). destruct Hs as (_ & L & _).
  unfold Rdiv.
  apply Rle_trans with (bpow radix2 (-150) * bpow radix2 40).
  - apply Rabs_prod; auto. rewrite Rabs_pos_eq.
    + change 40%Z with (Z.opp (-40)). rewrite bpow_opp. apply Rinv_le; auto. apply bpow_gt_0.
    + left. apply Rinv_0_lt_compat; auto.
  - rewrite <- bpow_plus. change (/ 1073741824) with (bpow radix2 (-30)). apply bpow_le; lia.
Qed.

Lemma size_bound : forall s X B k, sane_size s -> Rabs (X / FR s) <= B -> B <= bpow radix2 k ->
  Rabs X <= bpow radix2 (k + 40).
Proof.
  intros s X B k Hs HX HB. pose proof (sane_pos s Hs). destruct Hs as (_ & _ & U).
  replace X with (X / FR s * FR s) by (field; lra).
  rewrite bpow_plus. apply Rabs_prod. lra. rewrite Rabs_pos_eq; lra.
Qed.

Lemma block_center_axis : forall o s i, sane_size s -> ffin o = true ->
  Rabs (FR o / FR s) <= bpow radix2 20 -> (0 <= i <= 2 ^ 16)%Z ->
  grid_axis (fsub (fadd o (center_axis i s)) o) (inv_of s) = Some i.
Proof.
  intros o s i Hs Fo Ho Hi. pose proof (sane_pos s Hs) as Sp.
  destruct (center_axis_R i s Hs ltac:(lia)) as (d & Hd & Ec & Fc).
  set (c := center_axis i s) in *.
  rewrite bp_20 in Ho.
  assert (Hi': 0 <= IZR i <= 65536) by (split; apply IZR_le; lia).
  assert (Bc: Rabs (FR c / FR s - (IZR i + / 2)) <= 65537 * (2 * u)).
  { rewrite Ec. replace ((IZR i + / 2) * FR s * (1 + d) / FR s - (IZR i + / 2))
      with ((IZR i + / 2) * d) by (field; lra).
    apply Rabs_prod; auto. rewrite Rabs_pos_eq; lra. }
  assert (Bc': Rabs (FR c / FR s) <= 65538).
  { apply Rabs_le_inv in Bc. apply Rabs_le. unfold u in Bc; lra. }
  assert (Boc: Rabs ((FR o + FR c) / FR s) <= 1048576 + 65538).
  { replace ((FR o + FR c) / FR s) with (FR o / FR s + FR c / FR s) by (field; lra).
    apply Rabs_tri; auto. }
  destruct (fadd_err o c Fo Fc) as (d1 & e1 & Hd1 & He1 & E1 & F1).
  { eapply Rle_trans; [eapply (size_bound s _ _ 21 Hs Boc); change (bpow radix2 21) with 2097152; lra|].
    apply bpow_le; lia. }
  set (a := fadd o c) in *.
  pose proof (tail_units s e1 Hs He1) as T1.
  assert (Ba: Rabs ((FR a - FR o) / FR s - FR c / FR s) <= (1048576 + 65538) * u + / 1073741824).
  { rewrite E1. replace (((FR o + FR c) * (1 + d1) + e1 - FR o) / FR s - FR c / FR s)
      with ((FR o + FR c) / FR s * d1 + e1 / FR s) by (field; lra).
    apply Rabs_tri; auto. apply Rabs_prod; auto. }
  assert (Ba': Rabs ((FR a - FR o) / FR s) <= 65540).
  { apply Rabs_le_inv in Ba. apply Rabs_le_inv in Bc'. apply Rabs_le. unfold u in Ba; lra. }
  destruct (fsub_err a o F1 Fo) as (d2 & e2 & Hd2 & He2 & E2 & F2).
  { eapply Rle_trans; [eapply (size_bound s _ _ 17 Hs Ba'); change (bpow radix2 17) with 131072; lra|].
    apply bpow_le; lia. }
  pose proof (tail_units s e2 Hs He2) as T2.
  apply grid_axis_center; auto using sane_wide. lia.
  rewrite E2.
  replace (((FR a - FR o) * (1 + d2) + e2) / FR s - (IZR i + / 2)) with
    ((((FR a - FR o) / FR s - FR c / FR s) + (FR c / FR s - (IZR i + / 2))) +
     ((FR a - FR o) / FR s * d2 + e2 / FR s)) by (field; lra).
  eapply Rle_trans; [apply Rabs_tri; [apply Rabs_tri; [apply Ba|apply Bc]|apply Rabs_tri; [apply Rabs_prod; [apply Ba'|apply Hd2]|apply T2]]|].
  unfold u; lra.
Qed.

(** *** block origin *)
Lemma block_size_R : forall vps s, sane_size s -> (1 <= vps <= 2 ^ 16)%Z ->
  exists d, Rabs d <= u /\ FR (block_size_of vps s) = IZR vps * FR s * (1 + d) /\
     wide_size (block_size_of vps s).
Proof.
  intros vps s Hs Hv. pose proof (sane_pos s Hs) as Sp. destruct Hs as (F & L & H).
  destruct (f32_of_Z_R vps ltac:(lia)) as (Ev & Fv). unfold block_size_of.
  assert (Hv': 1 <= IZR vps <= 65536) by (split; apply IZR_le; lia).
  assert (B: bpow radix2 (-40) <= IZR vps * FR s <= bpow radix2 56).
  { split.
    - rewrite <- (Rmult_1_l (bpow _ _)). apply Rmult_le_compat; try lra. apply bpow_ge_0.
    - change 56%Z with (16 + 40)%Z. rewrite bpow_plus. change (bpow radix2 16) with 65536.
      apply Rmult_le_compat; lra. }
  assert (P: 0 < IZR vps * FR s) by (apply Rmult_lt_0_compat; lra).
  destruct (rnd32_rel (IZR vps * FR s)) as (d & Hd & R).
  { rewrite Rabs_pos_eq by lra. eapply Rle_trans; [|apply B]. apply bpow_le; lia. }
  rewrite bp_m24 in Hd. fold u in Hd. pose proof Hd as Hd'. apply Rabs_le_inv in Hd'. unfold u in Hd'.
  assert (B': bpow radix2 (-41) <= IZR vps * FR s * (1 + d) <= bpow radix2 57).
  { change (-41)%Z with (-40 + -1)%Z. change 57%Z with (56 + 1)%Z. rewrite !bpow_plus.
    change (bpow radix2 (-1)) with (/2). change (bpow radix2 1) with 2.
    split; apply Rmult_le_compat; try lra. apply bpow_ge_0. }
  destruct (fmul_R _ s Fv F) as (E & Ff).
  { rewrite Ev, R. rewrite Rabs_pos_eq.
    - eapply Rle_lt_trans; [apply B'|]. apply bpow_lt; lia.
    - apply Rle_trans with (2 := proj1 B'). apply bpow_ge_0. }
  rewrite Ev, R in E. exists d. repeat split; auto; rewrite E.
  - eapply Rle_trans; [|apply B']. apply bpow_le; lia.
  - eapply Rle_trans; [apply B'|]. apply bpow_le; lia.
Qed.

Lemma wide_tail : forall s e, wide_size s -> Rabs e <= bpow radix2 (-150) ->
  Rabs (e / FR s) <= / 1073741824.
Proof.
  intros s e Hs He. pose proof (wide_pos s Hs). destruct Hs as (_ & L & _).
  unfold Rdiv.
  apply Rle_trans with (bpow radix2 (-150) * bpow radix2 60).
  - apply Rabs_prod; auto. rewrite Rabs_pos_eq.
    + change 60%Z with (Z.opp (-60)). rewrite bpow_opp. apply Rinv_le; auto. apply bpow_gt_0.
    + left. apply Rinv_0_lt_compat; auto.
  - rewrite <- bpow_plus. change (/ 1073741824) with (bpow radix2 (-30)). apply bpow_le; lia.
Qed.

Lemma origin_R : forall b bs, wide_size bs -> (Z.abs b <= 2 ^ 20)%Z ->
  exists d e, Rabs d <= u /\ Rabs e <= / 1073741824 /\
    FR (fmul (f32_of_Z b) bs) / FR bs = IZR b * (1 + d) + e /\
    ffin (fmul (f32_of_Z b) bs) = true.
Proof.
  intros b bs Hs Hb. pose proof (wide_pos bs Hs) as Sp.
  destruct (f32_of_Z_R b ltac:(lia)) as (Eb & Fb).
  assert (Hb': Rabs (IZR b) <= bpow radix2 20) by (apply IZR_lt_bpow; lia).
  destruct (fmul_err (f32_of_Z b) bs Fb ltac:(apply Hs)) as (d & e & Hd & He & E & F).
  { rewrite Eb. eapply Rle_trans; [apply Rabs_prod; [apply Hb'|rewrite Rabs_pos_eq by lra; apply Hs]|].
    rewrite <- bpow_plus. apply bpow_le; lia. }
  exists d, (e / FR bs). repeat split; auto.
  - apply wide_tail; auto.
  - rewrite E, Eb. field. lra.
Qed.

Lemma origin_axis_back : forall b bs, wide_size bs -> (Z.abs b <= 2 ^ 20)%Z ->
  origin_axis (fmul (f32_of_Z b) bs) (inv_of bs) = Some b.
Proof.
  intros b bs Hs Hb. pose proof (wide_pos bs Hs) as Sp.
  destruct (origin_R b bs Hs Hb) as (d & e & Hd & He & E & F).
  destruct (inv_of_R bs Hs) as (di & Hdi & Ei & Fi).
  set (o := fmul (f32_of_Z b) bs) in *.
  assert (Hb': Rabs (IZR b) <= 1048576) by (rewrite <- bp_20; apply IZR_lt_bpow; lia).
  assert (Em: FR o * FR (inv_of bs) = (IZR b * (1 + d) + e) * (1 + di)).
  { rewrite <- E, Ei. field. lra. }
  assert (Bm: Rabs (FR o * FR (inv_of bs) - IZR b) <= 1048576 * (3 * u + 3 * u * u) + / 1048576).
  { rewrite Em. replace ((IZR b * (1 + d) + e) * (1 + di) - IZR b) with
      (IZR b * ((1 + d) * (1 + di) - 1) + e * (1 + di)) by ring.
    eapply Rle_trans; [apply Rabs_tri; [apply Rabs_prod; [apply Hb'|apply rel_comb; [apply Hd|apply Hdi]]|
      apply Rabs_prod; [apply He|apply Rabs_tri; [rewrite Rabs_R1; apply Rle_refl|apply Hdi]]]|].
    unfold u; lra. }
  destruct (fmul_err o (inv_of bs) F Fi) as (d2 & e2 & Hd2 & He2 & E2 & F2).
  { apply Rle_trans with 2097152.
    - replace (FR o * FR (inv_of bs)) with ((FR o * FR (inv_of bs) - IZR b) + IZR b) by ring.
      eapply Rle_trans; [apply Rabs_tri; [apply Bm|apply Hb']|]. unfold u; lra.
    - change 2097152 with (bpow radix2 21). apply bpow_le; lia. }
  unfold origin_axis. rewrite froundZ_near with (z := b); auto.
  - apply in_range_Some. split; auto. lia.
  - rewrite E2.
    replace (FR o * FR (inv_of bs) * (1 + d2) + e2 - IZR b) with
      ((FR o * FR (inv_of bs) - IZR b) * (1 + d2) + (IZR b * d2 + e2)) by ring.
    eapply Rle_lt_trans.
    + apply Rabs_tri; [apply Rabs_prod; [apply Bm|apply Rabs_tri; [rewrite Rabs_R1; apply Rle_refl|apply Hd2]]|
       apply Rabs_tri; [apply Rabs_prod; [apply Hb'|apply Hd2]|eapply Rle_trans; [apply He2|apply small_e]]].
    + unfold u; lra.
Qed.

(** *** block index of a voxel centre *)
Lemma layer_center_axis : forall vps s b v, sane_size s -> (1 <= vps <= 2 ^ 10)%Z ->
  (Z.abs b * vps <= 2 ^ 20)%Z -> (0 <= v < vps)%Z ->
  grid_axis (fadd (fmul (f32_of_Z b) (block_size_of vps s)) (center_axis v s))
            (inv_of (block_size_of vps s)) = Some b.
Proof.
  intros vps s b v Hs Hv Hb Hvv. pose proof (sane_pos s Hs) as Sp.
  destruct (block_size_R vps s Hs ltac:(lia)) as (db & Hdb & Ebs & Hw).
  set (bs := block_size_of vps s) in *.
  pose proof (wide_pos bs Hw) as Bp.
  assert (Hb20: (Z.abs b <= 2 ^ 20)%Z) by nia.
  destruct (origin_R b bs Hw Hb20) as (d & e & Hd & He & Eo & Fo).
  set (o := fmul (f32_of_Z b) bs) in *.
  destruct (center_axis_R v s Hs ltac:(lia)) as (dc & Hdc & Ec & Fc).
  set (c := center_axis v s) in *.
  assert (Vp: 1 <= IZR vps <= 1024) by (split; apply IZR_le; lia).
  set (V := IZR vps) in *. set (iv := / V).
  assert (Hiv: 0 < iv) by (apply Rinv_0_lt_compat; lra).
  assert (Viv: V * iv = 1) by (apply Rinv_r; lra).
  assert (Iv1: 1 <= 1024 * iv) by (rewrite <- Viv; apply Rmult_le_compat_r; lra).
  assert (Hbr: Rabs (IZR b) <= 1048576 * iv).
  { apply Rmult_le_reg_r with V; [lra|]. rewrite Rmult_assoc, (Rmult_comm iv), Viv, Rmult_1_r.
    rewrite <- abs_IZR. unfold V. rewrite <- mult_IZR. apply (IZR_le _ 1048576). exact Hb. }
  assert (Hvr: 0 <= IZR v <= V - 1).
  { split; [apply IZR_le; lia|]. unfold V. rewrite <- minus_IZR. apply IZR_le; lia. }
  set (r := (IZR v + / 2) * iv).
  assert (Hr: / 2 * iv <= r <= 1 - / 2 * iv).
  { unfold r. split.
    - apply Rmult_le_compat_r; lra.
    - replace (1 - / 2 * iv) with ((V - / 2) * iv) by (rewrite Rmult_minus_distr_r, Viv; ring).
      apply Rmult_le_compat_r; lra. }
  assert (Hdb': 1 + db <> 0) by (apply Rabs_le_inv in Hdb; unfold u in Hdb; lra).
  assert (Ecb: FR c / FR bs = r * ((1 + dc) / (1 + db))).
  { rewrite Ec, Ebs. unfold r, iv. field. repeat split; auto; lra. }
  assert (Q: Rabs ((1 + dc) / (1 + db) - 1) <= 4 * u).
  { replace ((1 + dc) / (1 + db) - 1) with ((dc - db) * / (1 + db)) by (field; auto).
    apply Rle_trans with (3 * u * (4 / 3)).
    - apply Rabs_prod.
      + unfold Rminus. eapply Rle_trans; [apply Rabs_tri; [apply Hdc|rewrite Rabs_Ropp; apply Hdb]|]. lra.
      + apply Rabs_le_inv in Hdb. unfold u in Hdb. rewrite Rabs_pos_eq.
        * replace (4 / 3) with (/ (3 / 4)) by field. apply Rinv_le; lra.
        * left. apply Rinv_0_lt_compat. lra.
    - lra. }
  assert (Bc: Rabs (FR c / FR bs - r) <= 4 * u).
  { rewrite Ecb. replace (r * ((1 + dc) / (1 + db)) - r) with (r * ((1 + dc) / (1 + db) - 1)) by ring.
    rewrite <- (Rmult_1_l (4 * u)). apply Rabs_prod; auto. rewrite Rabs_pos_eq; lra. }
  assert (Bo: Rabs (FR o / FR bs - IZR b) <= 1048576 * iv * u + / 1073741824).
  { rewrite Eo. replace (IZR b * (1 + d) + e - IZR b) with (IZR b * d + e) by ring.
    apply Rabs_tri; auto. apply Rabs_prod; auto. }
  set (A := (FR o + FR c) / FR bs).
  assert (EA: A = FR o / FR bs + FR c / FR bs) by (unfold A; field; lra).
  assert (BA: Rabs (A - (IZR b + r)) <= 1048576 * iv * u + / 1073741824 + 4 * u).
  { rewrite EA. replace (FR o / FR bs + FR c / FR bs - (IZR b + r)) with
      ((FR o / FR bs - IZR b) + (FR c / FR bs - r)) by ring. apply Rabs_tri; auto. }
  assert (Hiv1: iv <= 1). { unfold iv. rewrite <- Rinv_1. apply Rinv_le; lra. }
  assert (BbA: Rabs A <= 1048576 * iv + 2).
  { replace A with ((A - (IZR b + r)) + (IZR b + r)) by ring.
    eapply Rle_trans; [apply Rabs_tri; [apply BA|apply Rabs_tri; [apply Hbr|rewrite Rabs_pos_eq by lra; apply (proj2 Hr)]]|].
    unfold u; lra. }
  destruct (fadd_err o c Fo Fc) as (d1 & e1 & Hd1 & He1 & E1 & F1).
  { replace (FR o + FR c) with (A * FR bs) by (unfold A; field; lra).
    apply Rle_trans with (bpow radix2 21 * bpow radix2 60).
    - apply Rabs_prod. eapply Rle_trans; [apply BbA|]. change (bpow radix2 21) with 2097152. lra.
      rewrite Rabs_pos_eq by lra. apply Hw.
    - rewrite <- bpow_plus. apply bpow_le; lia. }
  pose proof (wide_tail bs e1 Hw He1) as T1.
  set (p := fadd o c) in *.
  assert (Et: FR p / FR bs = A * (1 + d1) + e1 / FR bs) by (rewrite E1; unfold A; field; lra).
  set (t := FR p / FR bs) in *.
  assert (Bt: Rabs (t - (IZR b + r)) <= 1048576 * iv * u + / 1073741824 + 4 * u +
                 ((1048576 * iv + 2) * u + / 1073741824)).
  { rewrite Et. replace (A * (1 + d1) + e1 / FR bs - (IZR b + r)) with
      ((A - (IZR b + r)) + (A * d1 + e1 / FR bs)) by ring.
    apply Rabs_tri; auto. apply Rabs_tri; auto. apply Rabs_prod; auto. }
  assert (Bta: Rabs t <= 1048576 * iv + 3).
  { replace t with ((t - (IZR b + r)) + (IZR b + r)) by ring.
    eapply Rle_trans; [apply Rabs_tri; [apply Bt|apply Rabs_tri; [apply Hbr|rewrite Rabs_pos_eq by lra; apply (proj2 Hr)]]|].
    unfold u; lra. }
  apply grid_axis_margin; auto. lia.
  fold t. unfold gtol.
  apply Rabs_le_inv in Bt.
  assert (G: 5 * u * Rabs t <= 5 * u * (1048576 * iv + 3)).
  { apply Rmult_le_compat_l; auto. unfold u; lra. }
  unfold u in *. lra.
Qed.

(** *** arbitrary coordinates against one block *)
Definition ltol (vps : Z) : R := 7 * u * IZR vps + / 131072.

Lemma grid_axis_of_value : forall p s, ffin p = true -> wide_size s ->
  Rabs (FR p / FR s) <= bpow radix2 24 ->
  exists n, grid_axis p (inv_of s) = Some n /\
    IZR n - gtol (FR p / FR s) <= FR p / FR s < IZR n + 1 + gtol (FR p / FR s).
Proof.
  intros p s Fp Hs Ht. destruct (grid_value p s Fp Hs Ht) as (F & E).
  set (t := FR p / FR s) in *.
  unfold grid_axis. rewrite ffloorZ_R by auto.
  set (v := FR (fadd (fmul p (inv_of s)) kEpsilon)) in *.
  exists (Zfloor v). apply Rabs_le_inv in E.
  pose proof (Zfloor_lb v). pose proof (Zfloor_ub v).
  split; [|lra].
  apply in_range_Some. split; auto.
  change (bpow radix2 24) with 16777216 in Ht.
  assert (gtol t <= 8). { unfold gtol, u. lra. }
  apply Rabs_le_inv in Ht.
  assert (-16777232 <= Zfloor v)%Z. { apply le_IZR. apply Rnot_lt_le. intro. 
    assert (Zfloor v + 1 <= -16777232)%Z. { apply lt_IZR in H2. lia. }
    apply IZR_le in H3. rewrite plus_IZR in H3. lra. }
  assert (Zfloor v <= 16777232)%Z. { apply le_IZR. lra. }
  lia.
Qed.

Lemma truncated_axis : forall vps o c s, sane_size s -> ffin o = true -> ffin c = true ->
  (1 <= vps <= 2 ^ 16)%Z ->
  Rabs ((FR c - FR o) / FR s) <= bpow radix2 23 ->
  exists n, grid_axis (fsub c o) (inv_of s) = Some n /\
    (forall v, (0 <= v < vps)%Z ->
       IZR v + ltol vps <= (FR c - FR o) / FR s < IZR v + 1 - ltol vps -> clamp_axis vps n = v) /\
    ((FR c - FR o) / FR s < 0 -> clamp_axis vps n = 0%Z) /\
    (IZR vps + ltol vps <= (FR c - FR o) / FR s -> clamp_axis vps n = (vps - 1)%Z).
Proof.
  intros vps o c s Hs Fo Fc Hv Ht. pose proof (sane_pos s Hs) as Sp.
  set (t := (FR c - FR o) / FR s) in *.
  destruct (fsub_err c o Fc Fo) as (d & e & Hd & He & E & F).
  { eapply Rle_trans; [eapply (size_bound s _ _ 23 Hs Ht); apply Rle_refl|]. apply bpow_le; lia. }
  pose proof (tail_units s e Hs He) as T.
  set (t' := FR (fsub c o) / FR s).
  assert (Et: t' = t * (1 + d) + e / FR s) by (unfold t', t; rewrite E; field; lra).
  change (bpow radix2 23) with 8388608 in Ht.
  assert (B1: Rabs (t' - t) <= Rabs t * u + / 1073741824).
  { rewrite Et. replace (t * (1 + d) + e / FR s - t) with (t * d + e / FR s) by ring.
    apply Rabs_tri; auto. apply Rabs_prod; auto. apply Rle_refl. }
  assert (B2: Rabs t' <= Rabs t + (Rabs t * u + / 1073741824)).
  { replace t' with (t + (t' - t)) by ring. apply Rabs_tri; auto. apply Rle_refl. }
  destruct (grid_axis_of_value (fsub c o) s F (sane_wide s Hs)) as (n & En & Bn).
  { fold t'. change (bpow radix2 24) with 16777216. unfold u in B2. lra. }
  fold t' in Bn.
  assert (G: gtol t' <= 5 * u * (Rabs t + (Rabs t * u + / 1073741824)) + / 262144).
  { unfold gtol. apply Rplus_le_compat_r. apply Rmult_le_compat_l; auto. unfold u; lra. }
  assert (Vp: 1 <= IZR vps <= 65536) by (split; apply IZR_le; lia).
  apply Rabs_le_inv in B1.
  assert (P0: 0 <= Rabs t) by apply Rabs_pos.
  exists n. split; auto. repeat split.
  - intros v Hvv Hm.
    assert (Hvr: 0 <= IZR v /\ IZR v + 1 <= IZR vps).
    { split; [apply IZR_le; lia|]. rewrite <- (plus_IZR v 1). apply IZR_le; lia. }
    assert (L: 0 <= ltol vps) by (unfold ltol, u; lra).
    rewrite Rabs_pos_eq in * by lra.
    assert (n = v).
    { unfold ltol, u in *.
      assert (IZR n < IZR v + 1) by lra. assert (IZR v < IZR n + 1) by lra.
      rewrite <- plus_IZR in H, H0. apply lt_IZR in H. apply lt_IZR in H0. lia. }
    subst n. apply clamp_axis_id; auto.
  - intros Hneg. rewrite Rabs_left in * by auto.
    assert (IZR n < 1).
    { unfold u in *. lra. }
    apply (lt_IZR n 1) in H. unfold clamp_axis. lia.
  - intros Hpos. unfold ltol in Hpos. rewrite Rabs_pos_eq in * by (unfold u in *; lra).
    assert (IZR vps - 1 < IZR n + / 2).
    { unfold u in *. lra. }
    assert (IZR (vps - 1) < IZR (n + 1)) by (rewrite minus_IZR, plus_IZR; lra).
    apply lt_IZR in H0. unfold clamp_axis. lia.
Qed.

(** *** vector versions *)
Lemma grid_center_back : forall i s, sane_size s -> all3 (fun c => (Z.abs c <= 2 ^ 20)%Z) i ->
  getGridIndexFromPoint (getCenterPointFromGridIndex i s) (inv_of s) = Some i.
Proof.
  intros [x y z] s Hs (Hx & Hy & Hz). apply seq3_Some; simpl in *.
  repeat split; apply center_grid_axis; auto.
Qed.

Lemma block_center_back : forall vps o s i, sane_size s -> (1 <= vps <= 2 ^ 16)%Z ->
  all3 (fun c => ffin c = true /\ Rabs (FR c) <= bpow radix2 20 * FR s) o ->
  all3 (fun c => (0 <= c < vps)%Z) i ->
  computeTruncatedVoxelIndexFromCoordinates vps o (inv_of s)
    (computeCoordinatesFromVoxelIndex o s i) = Some i.
Proof.
  intros vps [ox oy oz] s [x y z] Hs Hv (Hox & Hoy & Hoz) (Hx & Hy & Hz).
  simpl in *. pose proof (sane_pos s Hs) as Sp.
  assert (B: forall c, Rabs (FR c) <= bpow radix2 20 * FR s -> Rabs (FR c / FR s) <= bpow radix2 20).
  { intros c Hc. unfold Rdiv. rewrite Rabs_mult, (Rabs_pos_eq (/ FR s)) by (left; apply Rinv_0_lt_compat; auto).
    apply Rmult_le_reg_r with (FR s); auto. rewrite Rmult_assoc, Rinv_l, Rmult_1_r by lra. auto. }
  assert (E: computeVoxelIndexFromCoordinates (V3 ox oy oz) (inv_of s)
     (computeCoordinatesFromVoxelIndex (V3 ox oy oz) s (V3 x y z)) = Some (V3 x y z)).
  { apply seq3_Some; simpl. repeat split; apply block_center_axis; auto; try lia; try apply B; tauto. }
  unfold computeTruncatedVoxelIndexFromCoordinates. rewrite E. f_equal.
  apply v3_eq; simpl; apply clamp_axis_id; auto.
Qed.

Lemma origin_back : forall vps s b, sane_size s -> (1 <= vps <= 2 ^ 16)%Z ->
  all3 (fun c => (Z.abs c <= 2 ^ 20)%Z) b ->
  block_index vps s (new_block_origin vps s b) = Some b.
Proof.
  intros vps s [x y z] Hs Hv (Hx & Hy & Hz). simpl in *.
  destruct (block_size_R vps s Hs Hv) as (d & _ & _ & W).
  apply seq3_Some; simpl. repeat split; apply origin_axis_back; auto.
Qed.

Lemma layer_center_back : forall vps s b v, sane_size s -> (1 <= vps <= 2 ^ 10)%Z ->
  all3 (fun c => (Z.abs c * vps <= 2 ^ 20)%Z) b ->
  all3 (fun c => (0 <= c < vps)%Z) v ->
  computeBlockIndexFromCoordinates vps s
    (computeCoordinatesFromVoxelIndex (new_block_origin vps s b) s v) = Some b.
Proof.
  intros vps s [bx by_ bz] [x y z] Hs Hv (Hbx & Hby & Hbz) (Hx & Hy & Hz). simpl in *.
  apply seq3_Some; simpl. repeat split; apply layer_center_axis; auto.
Qed.

Lemma origin_bound : forall vps s b, sane_size s -> (1 <= vps <= 2 ^ 10)%Z ->
  (Z.abs b * vps <= 2 ^ 19)%Z ->
  ffin (fmul (f32_of_Z b) (block_size_of vps s)) = true /\
  Rabs (FR (fmul (f32_of_Z b) (block_size_of vps s))) <= bpow radix2 20 * FR s.
Proof.
  intros vps s b Hs Hv Hb. pose proof (sane_pos s Hs) as Sp.
  destruct (block_size_R vps s Hs ltac:(lia)) as (db & Hdb & Ebs & Hw).
  set (bs := block_size_of vps s) in *.
  pose proof (wide_pos bs Hw) as Bp.
  destruct (origin_R b bs Hw ltac:(nia)) as (d & e & Hd & He & Eo & Fo).
  split; auto. set (o := fmul (f32_of_Z b) bs) in *.
  assert (EO: FR o = (IZR b * IZR vps * (1 + d) + IZR vps * e) * (1 + db) * FR s).
  { replace (FR o) with (FR o / FR bs * FR bs) by (field; lra). rewrite Eo, Ebs. ring. }
  rewrite EO. rewrite Rabs_mult, (Rabs_pos_eq (FR s)) by lra.
  apply Rmult_le_compat_r; [lra|].
  assert (Hbv: Rabs (IZR b * IZR vps) <= 524288).
  { rewrite <- mult_IZR, <- abs_IZR. apply (IZR_le _ 524288). rewrite Z.abs_mul. rewrite (Z.abs_eq vps) by lia. exact Hb. }
  assert (Vp: 1 <= IZR vps <= 1024) by (split; apply IZR_le; lia).
  rewrite bp_20.
  eapply Rle_trans; [apply Rabs_prod; [apply Rabs_tri; [apply Rabs_prod; [apply Hbv|apply Rabs_tri; [rewrite Rabs_R1; apply Rle_refl|apply Hd]]|
     apply Rabs_prod; [rewrite Rabs_pos_eq by lra; apply Vp|apply He]]|apply Rabs_tri; [rewrite Rabs_R1; apply Rle_refl|apply Hdb]]|].
  unfold u; lra.
Qed.

Lemma layer_voxel_back : forall vps s b v, sane_size s -> (1 <= vps <= 2 ^ 10)%Z ->
  all3 (fun c => (Z.abs c * vps <= 2 ^ 19)%Z) b ->
  all3 (fun c => (0 <= c < vps)%Z) v ->
  let c := computeCoordinatesFromVoxelIndex (new_block_origin vps s b) s v in
  computeBlockIndexFromCoordinates vps s c = Some b /\
  computeTruncatedVoxelIndexFromCoordinates vps (new_block_origin vps s b) (inv_of s) c = Some v.
Proof.
  intros vps s b v Hs Hv Hb Hvv. split.
  - apply layer_center_back; auto. destruct Hb as (?&?&?). repeat split; lia.
  - apply block_center_back; auto. lia.
    destruct b as [bx by_ bz]. destruct Hb as (?&?&?).
    unfold new_block_origin, getOriginPointFromGridIndex. simpl in *.
    repeat split; simpl; apply origin_bound; auto.
Qed.

Lemma truncated_contains : forall vps o c s, sane_size s -> (1 <= vps <= 2 ^ 16)%Z ->
  all3 (fun x => ffin x = true) o -> all3 (fun x => ffin x = true) c ->
  all3 (fun t => Rabs t <= bpow radix2 23) (zip3 (fun ci oi => (FR ci - FR oi) / FR s) c o) ->
  exists i, computeTruncatedVoxelIndexFromCoordinates vps o (inv_of s) c = Some i /\
    all3 (fun n => (0 <= n < vps)%Z) i /\
    all3 (fun nt => 
      (forall v, (0 <= v < vps)%Z ->
         IZR v + ltol vps <= snd nt < IZR v + 1 - ltol vps -> fst nt = v) /\
      (snd nt < 0 -> fst nt = 0%Z) /\
      (IZR vps + ltol vps <= snd nt -> fst nt = (vps - 1)%Z))
     (zip3 pair i (zip3 (fun ci oi => (FR ci - FR oi) / FR s) c o)).
Proof.
  intros vps [ox oy oz] [cx cy cz] s Hs Hv (Fox & Foy & Foz) (Fcx & Fcy & Fcz) (Bx & By & Bz).
  simpl in *.
  destruct (truncated_axis vps ox cx s Hs Fox Fcx Hv Bx) as (nx & Ex & Px).
  destruct (truncated_axis vps oy cy s Hs Foy Fcy Hv By) as (ny & Ey & Py).
  destruct (truncated_axis vps oz cz s Hs Foz Fcz Hv Bz) as (nz & Ez & Pz).
  exists (map3 (clamp_axis vps) (V3 nx ny nz)).
  assert (E: computeVoxelIndexFromCoordinates (V3 ox oy oz) (inv_of s) (V3 cx cy cz) = Some (V3 nx ny nz)).
  { apply seq3_Some; simpl; auto. }
  unfold computeTruncatedVoxelIndexFromCoordinates. rewrite E.
  split; [reflexivity|]. split.
  - repeat split; simpl; apply clamp_axis_range; lia.
  - repeat split; simpl; try apply Px; try apply Py; try apply Pz.
Qed.
