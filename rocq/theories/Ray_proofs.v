(** Ray casting: the chain of voxels and the accuracy of the crossing times. *)
From Coq Require Import ZArith Reals List Bool Lia Lra.
From Flocq Require Import Core IEEE754.Binary IEEE754.Bits.
From Verif Require Import F32 F32_lemmas F32_err Types Index Index_float Update Ray Ray_spec.
Import ListNotations.
Open Scope Z_scope.
Local Opaque fadd fsub fmul fdiv fsqrt flt fle feq f32_of_Z.

(** ** the loop *)
Lemma next_step : forall c, step_of (rc_sign c) (rc_cur c) (rc_cur (fst (nextRayIndex c))) /\
  rc_sign (fst (nextRayIndex c)) = rc_sign c /\ rc_len (fst (nextRayIndex c)) = rc_len c /\
  rc_step (fst (nextRayIndex c)) = u32 (rc_step c + 1).
Proof.
  intros c. unfold nextRayIndex. destruct (rc_len c <? rc_step c); cbn [fst rc_cur rc_sign rc_len rc_step].
  - repeat split; auto. left. reflexivity.
  - repeat split; auto. destruct (rc_cur c) as [x y z]. destruct (minCoeff (rc_t c)) as [|[|i]]; cbn [upd3 get3 vx vy vz].
    + right; left; reflexivity.
    + right; right; left; reflexivity.
    + right; right; right; reflexivity.
Qed.

Lemma loop_chain : forall k c, 0 <= rc_step c -> rc_step c + Z.of_nat k = rc_len c + 1 -> rc_len c < 2 ^ 32 - 1 ->
  exists l, (forall fuel', (S k <= fuel')%nat -> cast_loop fuel' c = Some l) /\
    length l = k /\ hd_error (l ++ [rc_cur c]) = Some (rc_cur c) /\ chain (step_of (rc_sign c)) l.
Proof.
  induction k as [|k IH]; intros c S0 Hk HL.
  - exists []. split; [|repeat split; auto]. intros [|f] Hf'; [lia|]. cbn [cast_loop].
    unfold nextRayIndex. replace (rc_len c <? rc_step c) with true by (symmetry; apply Z.ltb_lt; lia). reflexivity.
  - destruct (next_step c) as (A & B & C & D). pose (c' := fst (nextRayIndex c)). fold c' in A, B, C, D.
    unfold u32 in D. rewrite Z.mod_small in D by lia.
    destruct (IH c' ltac:(lia) ltac:(lia) ltac:(lia)) as (l & H1 & H2 & H3 & H4).
    exists (rc_cur c :: l). split; [|split; [|split]].
    + intros [|f] Hf'; [lia|]. cbn [cast_loop].
      assert (E : nextRayIndex c = (c', Some (rc_cur c))).
      { unfold c'. unfold nextRayIndex. replace (rc_len c <? rc_step c) with false by (symmetry; apply Z.ltb_ge; lia). reflexivity. }
      rewrite E, H1 by lia. reflexivity.
    + cbn [length]. lia.
    + reflexivity.
    + rewrite B in H4. destruct l as [|b l]; [exact I|]. split; auto.
      cbn in H3. injection H3 as ->. exact A.
Qed.

(** ** the voxel of a scaled coordinate *)
Open Scope R_scope.
Lemma fadd_fin : forall a b, ffin b = true -> ffin (fadd a b) = true ->
  ffin a = true /\ FR (fadd a b) = rnd32 (FR a + FR b) /\ Rabs (rnd32 (FR a + FR b)) < max32.
Proof.
  intros a b Fb F. assert (Fa : ffin a = true).
  { Transparent fadd. destruct a; auto; destruct b; try discriminate F; try discriminate Fb. Opaque fadd. }
  split; auto.
  pose proof (Bplus_correct 24 128 Hprec32 Hmax32 binop_nan_pl32 mode_NE a b Fa Fb) as P.
  change (Bplus 24 128 Hprec32 Hmax32 binop_nan_pl32 mode_NE a b) with (fadd a b) in P.
  change (round radix2 (SpecFloat.fexp 24 128) (BinarySingleNaN.round_mode mode_NE)) with rnd32 in P.
  change (B2R 24 128 a) with (FR a) in P. change (B2R 24 128 b) with (FR b) in P.
  destruct (Rlt_bool _ _) eqn:L.
  - apply Rlt_bool_true_iff in L || (pose proof (Rlt_bool_spec (Rabs (rnd32 (FR a + FR b))) (bpow radix2 128)) as Q; rewrite L in Q; inversion Q).
    destruct P as (P1 & _). split; auto.
  - destruct P as (P1 & _). exfalso. unfold ffin in F. destruct (fadd a b); try discriminate; cbn in P1; destruct (Bsign 24 128 a); discriminate.
Qed.

Lemma rnd32_nearest : forall x g, generic_format radix2 (FLT_exp (-149) 24) g -> Rabs (rnd32 x - x) <= Rabs (g - x).
Proof. intros x g Hg. apply (round_N_pt radix2 (FLT_exp (-149) 24) (fun z => negb (Z.even z)) x). exact Hg. Qed.

(** the floored value is between the coordinate and the coordinate plus twice 1e-6 *)
Lemma scaled_axis : forall s n, scaled_grid_axis s = Some n ->
  ffin s = true /\ Rabs (FR s) <= bpow radix2 64 /\
  (n = Zfloor (FR (fadd s kEpsilon)))%Z /\ FR s <= FR (fadd s kEpsilon) <= FR s + 2 / 1000000.
Proof.
  intros s n H. unfold scaled_grid_axis, to_int64 in H. apply in_range_Some in H. destruct H as (H & R1 & R2) || destruct H as (H & R1).
  destruct kEpsilon_R as ((K0 & K1) & KF).
  assert (F : ffin (fadd s kEpsilon) = true).
  { destruct (fadd s kEpsilon) as [b|b|b p Hp|b m e Hm]; auto; discriminate. }
  destruct (fadd_fin s kEpsilon KF F) as (Fs & E & L).
  rewrite (ffloorZ_R _ F) in H. injection H as <-.
  assert (N : Rabs (rnd32 (FR s + FR kEpsilon) - (FR s + FR kEpsilon)) <= FR kEpsilon).
  { eapply Rle_trans; [apply (rnd32_nearest _ (FR s) (FR_format s))|]. replace (FR s - (FR s + FR kEpsilon)) with (- FR kEpsilon) by ring.
    rewrite Rabs_Ropp, Rabs_pos_eq; lra. }
  assert (M : FR s <= rnd32 (FR s + FR kEpsilon)).
  { rewrite <- (rnd32_FR s) at 1. apply rnd32_le. lra. }
  apply Rabs_le_inv in N. rewrite E in *. split; auto. split; [|split; [auto|lra]].
  assert (B1 : IZR (Zfloor (rnd32 (FR s + FR kEpsilon))) <= IZR (2 ^ 63 - 1)) by (apply IZR_le; lia).
  assert (B2 : IZR (- 2 ^ 63) <= IZR (Zfloor (rnd32 (FR s + FR kEpsilon)))) by (apply IZR_le; lia).
  pose proof (Zfloor_lb (rnd32 (FR s + FR kEpsilon))). pose proof (Zfloor_ub (rnd32 (FR s + FR kEpsilon))).
  change (bpow radix2 64) with (IZR (2 ^ 64)). apply Rabs_le.
  assert (B3 : IZR (2 ^ 64) = 2 * IZR (2 ^ 63 - 1) + 2) by (rewrite <- mult_IZR, <- plus_IZR; reflexivity).
  assert (B4 : IZR (- 2 ^ 63) = - IZR (2 ^ 63 - 1) - 1) by (rewrite <- opp_IZR, <- minus_IZR; reflexivity).
  assert (B5 : 1000 <= IZR (2 ^ 63 - 1)) by (apply IZR_le; lia).
  lra.
Qed.

(** ** the sign of a component *)
Lemma signum_sub : forall s e, ffin s = true -> ffin e = true -> Rabs (FR e - FR s) <= bpow radix2 127 ->
  signum (fsub e s) = sgnR (FR e - FR s).
Proof.
  intros s e Fs Fe B. destruct (fsub_rel e s Fe Fs B) as (F & d & Hd & E).
  apply Rabs_le_inv in Hd. unfold u32r in Hd.
  assert (P : 0 < 1 + d) by lra. set (x := FR e - FR s) in *.
  unfold signum, sgnR.
  destruct (feq (fsub e s) f0) eqn:Q.
  - apply feq_iff in Q. destruct Q as (_ & _ & Q). rewrite ER_fin in Q by auto. cbn [ER f0] in Q.
    change (FR f0) with 0 in Q. rewrite E in Q. apply Rmult_integral in Q.
    assert (x = 0) by (destruct Q; lra). destruct (Rlt_dec x 0); [lra|]. destruct (Rlt_dec 0 x); [lra|]. reflexivity.
  - assert (x <> 0).
    { intro Z. assert (feq (fsub e s) f0 = true); [|congruence]. apply feq_iff. rewrite (ffin_nnan _ F). repeat split.
      rewrite ER_fin by auto. cbn [ER f0]. change (FR f0) with 0. rewrite E, Z. ring. }
    destruct (flt (fsub e s) f0) eqn:Q2.
    + apply flt_iff in Q2. destruct Q2 as (_ & _ & Q2). rewrite (ER_fin (fsub e s)) in Q2 by auto. cbn [ER f0] in Q2. change (FR f0) with 0 in Q2.
      rewrite E in Q2. destruct (Rlt_dec x 0); [reflexivity|]. exfalso.
      assert (0 <= x * (1 + d)) by (apply Rmult_le_pos; lra). lra.
    + apply flt_false_iff in Q2. rewrite (ffin_nnan _ F) in Q2. destruct Q2 as [Q2|[Q2|Q2]]; try discriminate.
      rewrite (ER_fin (fsub e s)) in Q2 by auto. cbn [ER f0] in Q2. change (FR f0) with 0 in Q2. rewrite E in Q2.
      destruct (Rlt_dec x 0).
      * exfalso. assert (0 < (- x) * (1 + d)) by (apply Rmult_lt_0_compat; lra). lra.
      * destruct (Rlt_dec 0 x); [reflexivity|lra].
Qed.

Lemma scaled_point : forall p v, getGridIndexFromScaledPoint p = Some v ->
  scaled_grid_axis (vx p) = Some (vx v) /\ scaled_grid_axis (vy p) = Some (vy v) /\ scaled_grid_axis (vz p) = Some (vz v).
Proof.
  intros [x y z] v H. unfold getGridIndexFromScaledPoint, seq3, map3 in H. cbn [vx vy vz] in *.
  destruct (scaled_grid_axis x); try discriminate. destruct (scaled_grid_axis y); try discriminate.
  destruct (scaled_grid_axis z); try discriminate. injection H as <-. auto.
Qed.

Lemma direction_signs : forall s e vs ve, getGridIndexFromScaledPoint s = Some vs -> getGridIndexFromScaledPoint e = Some ve ->
  map3 signum (pt_sub e s) = direction s e /\ pt_nan s || pt_nan e = false.
Proof.
  intros s e vs ve Hs He. apply scaled_point in Hs, He. destruct Hs as (S1 & S2 & S3), He as (E1 & E2 & E3).
  apply scaled_axis in S1, S2, S3, E1, E2, E3.
  destruct S1 as (S1 & S1' & _), S2 as (S2 & S2' & _), S3 as (S3 & S3' & _), E1 as (E1 & E1' & _), E2 as (E2 & E2' & _), E3 as (E3 & E3' & _).
  assert (B : forall a b, Rabs a <= bpow radix2 64 -> Rabs b <= bpow radix2 64 -> Rabs (a - b) <= bpow radix2 127).
  { intros a b Ha Hb. apply (Rabs_sub_bpow a b 64 64); auto; lia. }
  split.
  - unfold direction, pt_sub, map3, zip3. cbn [vx vy vz]. rewrite !signum_sub; auto.
  - unfold pt_nan. rewrite !ffin_nnan by auto. reflexivity.
Qed.

Lemma setup_ok : forall g s e vs ve, getGridIndexFromScaledPoint s = Some vs -> getGridIndexFromScaledPoint e = Some ve ->
  (manhattan vs ve < 2 ^ 32)%Z ->
  setupRayCaster g s e =
    Ok (MkRC (V3 (axis_t0 (vx s) (vx vs) (fsub (vx e) (vx s))) (axis_t0 (vy s) (vy vs) (fsub (vy e) (vy s)))
               (axis_t0 (vz s) (vz vs) (fsub (vz e) (vz s))))
           vs (direction s e) (map3 axis_dt (pt_sub e s)) (manhattan vs ve) 0%Z).
Proof.
  intros g s e vs ve Hs He HL. destruct (direction_signs s e vs ve Hs He) as (D & N).
  unfold setupRayCaster. rewrite N, Hs, He. cbn [of_opt rbind].
  assert (M : l1_norm (idx_sub ve vs) = manhattan vs ve) by reflexivity.
  rewrite M. replace (2 ^ 63 <=? manhattan vs ve)%Z with false by (symmetry; apply Z.leb_gt; lia).
  rewrite D. unfold u32. rewrite Z.mod_small; [reflexivity|]. split; auto. unfold manhattan. lia.
Qed.

Theorem ray_chain : forall g s e vs ve, getGridIndexFromScaledPoint s = Some vs -> getGridIndexFromScaledPoint e = Some ve ->
  (manhattan vs ve < 2 ^ 32 - 1)%Z ->
  exists l, (forall fuel, (Z.to_nat (manhattan vs ve) + 2 <= fuel)%nat -> castRay fuel g s e = Ok (Some l)) /\
    length l = S (Z.to_nat (manhattan vs ve)) /\ hd_error l = Some vs /\ chain (step_of (direction s e)) l.
Proof.
  intros g s e vs ve Hs He HL. pose proof (setup_ok g s e vs ve Hs He ltac:(lia)) as E.
  set (c := MkRC _ _ _ _ _ _) in E.
  assert (0 <= manhattan vs ve)%Z by (unfold manhattan; lia).
  destruct (loop_chain (S (Z.to_nat (manhattan vs ve))) c) as (l & H1 & H2 & H3 & H4);
    try (unfold c; cbn [rc_len rc_step]; lia); try lia.
  exists l. split; [|split; [auto|split; auto]].
  - intros fuel Hf. unfold castRay. rewrite E. cbn [rbind]. rewrite H1 by lia. reflexivity.
  - destruct l; [discriminate|]. cbn in H3 |- *. exact H3.
Qed.
