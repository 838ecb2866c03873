(** Floating-point facts about the ESDF propagation: directions, signs, steps. *)
From Coq Require Import ZArith List Bool Lia Reals Lra.
From Flocq Require Import Core BinarySingleNaN Binary Bits.
From Flocq Require Import IEEE754.Bits.
From Verif Require Import F32 F32_lemmas F32_err Types Index Neighbor Neighbor_proofs Voxel Layer Queue Planning Esdf Esdf_spec Update_spec Update_proofs.
Import ListNotations.
Open Scope R_scope.

(** ** Adding and subtracting a finite nonnegative number *)
Lemma fsub_dir : forall w u, ffin w = true -> ffin u = true -> 0 <= FR u ->
  fnan (fsub w u) = false /\ ER (fsub w u) <= FR w.
Proof.
  intros w u Fw Fu Hu. pose proof max32_pos as MP. pose proof (FR_lt_max w) as MW. apply Rabs_def2 in MW.
  pose proof (Bminus_correct 24 128 Hprec32 Hmax32 binop_nan_pl32 mode_NE w u Fw Fu) as C.
  change (Bminus 24 128 Hprec32 Hmax32 binop_nan_pl32 mode_NE w u) with (fsub w u) in C.
  destruct (Rlt_bool _ _) eqn:L.
  + destruct C as (R1 & F & _). change (ffin (fsub w u) = true) in F. rewrite ER_fin by auto.
    split; [apply ffin_nnan, F|].
    change (FR (fsub w u) = rnd32 (FR w - FR u)) in R1. rewrite R1. pose proof (rnd32_FR w) as RW.
    assert (G : rnd32 (FR w - FR u) <= rnd32 (FR w)) by (apply rnd32_le; lra); lra.
  + destruct C as (C & SS).
    assert (Bsign 24 128 u = false) as SU.
    { destruct u as [su|su|su pu Hu'|su mu eu Hu']; try discriminate.
      - exfalso. revert L. change (B2R 24 128 (B754_zero 24 128 su)) with 0.
        rewrite Rminus_0_r. change (round _ _ _ (B2R 24 128 w)) with (rnd32 (FR w)). rewrite rnd32_FR, Rlt_bool_true; [discriminate|].
        apply FR_lt_max.
      - destruct su; [exfalso; pose proof (neg_sign mu eu Hu'); lra | reflexivity]. }
    rewrite SU in SS; cbn [negb] in SS.
    destruct (fsub w u) as [s|s|s p Hp|s m e Hm]; try discriminate.
    cbn in C. injection C as E. rewrite SS in E; subst s; cbn [ER]; split; [reflexivity | lra].
Qed.
Definition small_pos (u : f32) : Prop := ffin u = true /\ 0 <= FR u.
Lemma fadd_ge : forall w u, fnan w = false -> small_pos u ->
  fnan (fadd w u) = false /\ ER w <= ER (fadd w u).
Proof.
  intros w u Nw (Fu & Hu); destruct (ffin w) eqn:Fw.
  - split; [apply fadd_nnan; [exact Fw | apply ffin_nnan, Fu]|].
    rewrite (ER_fin w) by exact Fw; apply (proj1 (fadd_dir w u Fw Fu) Hu).
  - destruct w as [s|s|s p Hp|s m e Hm]; try discriminate.
    assert (E : fadd (B754_infinity 24 128 s) u = B754_infinity 24 128 s) by (destruct u; try discriminate; reflexivity).
    rewrite E; split; [reflexivity | apply Rle_refl].
Qed.
Lemma fsub_le : forall w u, fnan w = false -> small_pos u ->
  fnan (fsub w u) = false /\ ER (fsub w u) <= ER w.
Proof.
  intros w u Nw (Fu & Hu); destruct (ffin w) eqn:Fw.
  - rewrite (ER_fin w) by exact Fw; apply (fsub_dir w u Fw Fu Hu).
  - destruct w as [s|s|s p Hp|s m e Hm]; try discriminate.
    assert (E : fsub (B754_infinity 24 128 s) u = B754_infinity 24 128 s) by (destruct u; try discriminate; reflexivity).
    rewrite E; split; [reflexivity | apply Rle_refl].
Qed.
Lemma fadd_nan_l : forall w u, fnan w = true -> fnan (fadd w u) = true.
Proof. intros [] []; try discriminate; reflexivity. Qed.
Lemma fsub_nan_l : forall w u, fnan w = true -> fnan (fsub w u) = true.
Proof. intros [] []; try discriminate; reflexivity. Qed.
Lemma fsub_nan_r : forall w u, fnan u = true -> fnan (fsub w u) = true.
Proof. intros [] []; try discriminate; reflexivity. Qed.
Lemma fabs_nan : forall x, fnan (fabs x) = fnan x.
Proof. intros []; reflexivity. Qed.
(** a comparison through the slack is a comparison without it *)
Lemma slack_lt : forall w md x, small_pos md -> flt (fadd w md) x = true -> flt w x = true.
Proof.
  intros w md x Hm H; apply flt_iff in H; destruct H as (N1 & N2 & L).
  destruct (fnan w) eqn:Nw; [rewrite fadd_nan_l in N1 by exact Nw; discriminate|].
  apply flt_iff; split; [exact Nw|]; split; [exact N2|].
  pose proof (proj2 (fadd_ge w md Nw Hm)); lra.
Qed.
Lemma slack_gt : forall w md x, small_pos md -> flt x (fsub w md) = true -> flt x w = true.
Proof.
  intros w md x Hm H; apply flt_iff in H; destruct H as (N1 & N2 & L).
  destruct (fnan w) eqn:Nw; [rewrite fsub_nan_l in N2 by exact Nw; discriminate|].
  apply flt_iff; split; [exact N1|]; split; [exact Nw|].
  pose proof (proj2 (fsub_le w md Nw Hm)); lra.
Qed.
Lemma slack_self_lt : forall w md, small_pos md -> flt (fadd w md) w = false.
Proof.
  intros w md Hm; destruct (flt (fadd w md) w) eqn:H; [|reflexivity].
  apply slack_lt in H; [|exact Hm]; apply flt_iff in H; destruct H as (_ & _ & H); lra.
Qed.
Lemma slack_self_gt : forall w md, small_pos md -> flt w (fsub w md) = false.
Proof.
  intros w md Hm; destruct (flt w (fsub w md)) eqn:H; [|reflexivity].
  apply slack_gt in H; [|exact Hm]; apply flt_iff in H; destruct H as (_ & _ & H); lra.
Qed.
Lemma flt_trans : forall a b d, flt a b = true -> flt b d = true -> flt a d = true.
Proof.
  intros a b d H1 H2; apply flt_iff in H1; apply flt_iff in H2; apply flt_iff.
  destruct H1 as (? & ? & ?), H2 as (? & ? & ?); repeat split; auto; lra.
Qed.
Lemma flt_irrefl : forall a, flt a a = false.
Proof.
  intros a; destruct (flt a a) eqn:H; [|reflexivity].
  apply flt_iff in H; destruct H as (_ & _ & H); lra.
Qed.

(** ** Signs *)
Lemma f0_ER : ER f0 = 0. Proof. reflexivity. Qed.
Lemma signum_cases : forall x, fnan x = false ->
  (signum x = 1%Z /\ 0 < ER x) \/ (signum x = 0%Z /\ ER x = 0) \/ (signum x = (-1)%Z /\ ER x < 0).
Proof.
  intros x N; unfold signum; destruct (feq x f0) eqn:E.
  - apply feq_iff in E; destruct E as (_ & _ & E); rewrite f0_ER in E; auto.
  - destruct (flt x f0) eqn:L.
    + apply flt_iff in L; destruct L as (_ & _ & L); rewrite f0_ER in L; auto.
    + left; split; [reflexivity|]; apply flt_false_iff in L; destruct L as [L|[L|L]]; [congruence | discriminate|].
      rewrite f0_ER in L; destruct (Req_dec (ER x) 0) as [Z|Z]; [|lra].
      assert (F : feq x f0 = true) by (apply feq_iff; repeat split; [exact N | rewrite f0_ER; exact Z]); congruence.
Qed.
Lemma outside_iff : forall d, outside d <-> fnan d = false /\ 0 < ER d.
Proof. intros d; unfold outside; rewrite flt_iff, f0_ER; cbn; tauto. Qed.
Lemma inside_iff : forall d, inside d <-> fnan d = false /\ ER d <= 0.
Proof. intros d; unfold inside; rewrite fle_iff, f0_ER; cbn; tauto. Qed.
Lemma side_excl : forall d, outside d -> inside d -> False.
Proof. intros d H1 H2; apply outside_iff in H1; apply inside_iff in H2; lra. Qed.
Lemma side_dec : forall d, fnan d = false -> outside d \/ inside d.
Proof. intros d N; rewrite outside_iff, inside_iff; destruct (Rlt_le_dec 0 (ER d)); auto. Qed.
Lemma unit_R : forall z, (Z.abs z <= 1)%Z -> FR (f32_of_Z z) = IZR z /\ ffin (f32_of_Z z) = true.
Proof. intros z Hz; apply f32_of_Z_R; lia. Qed.
Lemma signum_abs : forall x, (Z.abs (signum x) <= 1)%Z.
Proof. intros x; unfold signum; destruct (feq _ _); [|destruct (flt _ _)]; cbn; lia. Qed.
Lemma sgnmul_R : forall x d, ffin d = true -> FR (sgnmul x d) = IZR (signum x) * FR d /\ ffin (sgnmul x d) = true.
Proof.
  intros x d Fd; unfold sgnmul; destruct (unit_R (signum x) (signum_abs x)) as (E & F).
  assert (G : rnd32 (IZR (signum x) * FR d) = IZR (signum x) * FR d).
  { pose proof (signum_abs x); assert (C : signum x = 0%Z \/ signum x = 1%Z \/ signum x = (-1)%Z) by lia.
    destruct C as [->|[->| ->]]; [rewrite Rmult_0_l; apply rnd32_0 | rewrite Rmult_1_l; apply rnd32_FR|].
    replace (-1 * FR d) with (- FR d) by ring; rewrite rnd32_opp, rnd32_FR; reflexivity. }
  destruct (fmul_R (f32_of_Z (signum x)) d F Fd) as (R1 & F1).
  { rewrite E, G, Rabs_mult; apply Rle_lt_trans with (2 := FR_lt_max d).
    rewrite <- (Rmult_1_l (Rabs (FR d))) at 2; apply Rmult_le_compat_r; [apply Rabs_pos|].
    rewrite <- abs_IZR; apply IZR_le, signum_abs. }
  split; [rewrite R1, E; exact G | exact F1].
Qed.
Definition step_pos (d : f32) : Prop := ffin d = true /\ 0 < FR d.
Lemma step_small : forall d, step_pos d -> small_pos d.
Proof. intros d (F & H); split; [exact F | lra]. Qed.

(** propagation keeps the side of the surface *)
Lemma open_value_side : forall c vd nd d d', step_pos d -> open_value c vd nd d = Some d' ->
  (outside nd -> outside d') /\ (inside nd -> inside d').
Proof.
  intros c vd nd d d' Hd H; unfold open_value in H; pose proof (step_small _ Hd) as Hs; destruct Hd as (Fd & Hp).
  destruct (fgt vd f0 && fgt nd f0) eqn:E1.
  { apply andb_true_iff in E1; destruct E1 as (E1 & E2); destruct (flt _ nd); [|discriminate]; injection H as <-.
    split; intros Hn; [|exfalso; eapply side_excl; [exact E2 | exact Hn]].
    change (outside vd) in E1; apply outside_iff in E1; destruct E1 as (N & G).
    apply outside_iff; destruct (fadd_ge vd d N Hs) as (N' & G'); split; [exact N' | lra]. }
  destruct (fle vd f0 && fle nd f0) eqn:E2.
  { apply andb_true_iff in E2; destruct E2 as (E2 & E3); destruct (fgt _ nd); [|discriminate]; injection H as <-.
    split; intros Hn; [exfalso; eapply side_excl; [exact Hn | exact E3]|].
    change (inside vd) in E2; apply inside_iff in E2; destruct E2 as (N & G).
    apply inside_iff; destruct (fsub_le vd d N Hs) as (N' & G'); split; [exact N' | lra]. }
  cbv zeta in H; set (pot := fsub vd (sgnmul vd d)) in *.
  destruct (fgt (fabs (fsub pot nd)) d) eqn:E3; [|discriminate].
  apply flt_iff in E3; destruct E3 as (_ & N3 & _); rewrite fabs_nan in N3.
  assert (Np : fnan pot = false) by (destruct (fnan pot) eqn:N; [rewrite fsub_nan_l in N3 by exact N; discriminate | reflexivity]).
  destruct (feq (f32_of_Z (signum pot)) nd) eqn:E4; injection H as <-.
  - apply feq_iff in E4; destruct E4 as (_ & Nn & E4).
    destruct (unit_R (signum pot) (signum_abs pot)) as (E & F); rewrite (ER_fin _ F), E in E4.
    rewrite !outside_iff, !inside_iff, <- E4.
    destruct (signum_cases pot Np) as [(-> & G)|[(-> & G)|(-> & G)]]; split; intros (_ & K); split; try exact Np; lra.
  - destruct (sgnmul_R nd d Fd) as (E & F); rewrite !outside_iff, !inside_iff, (ER_fin _ F), E.
    pose proof (ffin_nnan _ F) as NF; split; intros (N & K); (split; [exact NF|]);
      destruct (signum_cases nd N) as [(-> & G)|[(-> & G)|(-> & G)]]; lra.
Qed.

(** ** Steps *)
Lemma kd_R : forall off kd, In (off, kd) neighbors26 -> ffin kd = true /\ 1 <= FR kd <= 2.
Proof.
  intros off kd H.
  assert (C : kd = f1 \/ kd = sqrt2f \/ kd = sqrt3f).
  { unfold neighbors26 in H; apply in_combine_r in H; unfold kDistances in H.
    apply in_app_iff in H; destruct H as [H|H]; [left; apply (repeat_spec _ _ _ H)|].
    apply in_app_iff in H; right; destruct H as [H|H]; [left | right]; apply (repeat_spec _ _ _ H). }
  destruct C as [->|[->| ->]].
  - split; [reflexivity|]; destruct (unit_R 1) as (E & _); [cbn; lia|]; change f1 with (f32_of_Z 1); rewrite E; lra.
  - split; [vm_compute; reflexivity|].
    assert (E: (FR sqrt2f = 11863283 * / 8388608)%R) by (vm_compute; reflexivity || (unfold sqrt2f; vm_compute; field)).
    rewrite E; lra.
  - split; [vm_compute; reflexivity|].
    assert (E: (FR sqrt3f = 14529495 * / 8388608)%R) by (vm_compute; reflexivity).
    rewrite E; lra.
Qed.
(** a voxel size whose steps are finite and positive *)
Definition good_size (vs : f32) : Prop := ffin vs = true /\ 0 < FR vs < bpow radix2 126.
Lemma step_R : forall vs off step, good_size vs -> is_step vs off step -> step_pos step /\ FR vs <= FR step <= 2 * FR vs.
Proof.
  intros vs off step (F & H0 & H1) (kd & Hk & ->); destruct (kd_R _ _ Hk) as (Fk & K1 & K2).
  assert (G : FR vs <= rnd32 (FR kd * FR vs) <= 2 * FR vs).
  { split; [rewrite <- (rnd32_FR vs) at 1; apply rnd32_le; nra|].
    assert (D : rnd32 (2 * FR vs) = 2 * FR vs).
    { apply round_generic; [apply valid_rnd_N|].
      apply generic_format_FLT.
      pose proof (FR_format vs) as GF; apply FLT_format_generic in GF; [|exact Hprec32].
      destruct GF as [f E1 E2 E3].
      exists (Float radix2 (Fnum f) (Fexp f + 1)); cbn [Fnum Fexp].
      - rewrite E1; unfold F2R; cbn [Fnum Fexp]; rewrite bpow_plus; change (bpow radix2 1) with 2; ring.
      - exact E2.
      - lia. }
    rewrite <- D; apply rnd32_le; nra. }
  destruct (fmul_R kd vs Fk F) as (E & F').
  { rewrite Rabs_pos_eq by lra; apply Rle_lt_trans with (2 * FR vs); [lra|].
    rewrite max32_pow; change 128%Z with (2 + 126)%Z; rewrite bpow_plus; change (bpow radix2 2) with 4; pose proof (bpow_gt_0 radix2 126); lra. }
  rewrite E; split; [split; [exact F' | rewrite E; lra] | exact G].
Qed.

(** ** Improvement *)
Definition improves (c : econfig) (vd nd d : f32) : bool :=
  (fgt vd f0 && fgt nd f0 && flt (fadd (fadd vd d) (ec_min_diff c)) nd) ||
  (fle vd f0 && fle nd f0 && fgt (fsub (fsub vd d) (ec_min_diff c)) nd).
Definition same_side (a b : f32) : Prop := (outside a /\ outside b) \/ (inside a /\ inside b).
Lemma inside_not_gt : forall d, inside d -> fgt d f0 = false.
Proof. intros d H; destruct (fgt d f0) eqn:E; [|reflexivity]; exfalso; eapply side_excl; [exact E | exact H]. Qed.
Lemma outside_not_le : forall d, outside d -> fle d f0 = false.
Proof. intros d H; destruct (fle d f0) eqn:E; [|reflexivity]; exfalso; eapply side_excl; [exact H | exact E]. Qed.
Lemma open_value_same : forall c vd nd d, same_side vd nd ->
  open_value c vd nd d = if improves c vd nd d then Some (if fgt vd f0 then fadd vd d else fsub vd d) else None.
Proof.
  intros c vd nd d [(H1 & H2)|(H1 & H2)]; unfold open_value, improves.
  - change (fgt vd f0 = true) in H1; change (fgt nd f0 = true) in H2; rewrite H1, H2; cbn [andb].
    rewrite (outside_not_le _ H1); cbn [andb]; rewrite orb_false_r; reflexivity.
  - rewrite (inside_not_gt _ H1); cbn [andb orb]; unfold inside in H1, H2; rewrite H1, H2; reflexivity.
Qed.
(** what an improvement does *)
Lemma improves_closer : forall c vd nd d, small_pos (ec_min_diff c) -> step_pos d -> improves c vd nd d = true ->
  let d' := if fgt vd f0 then fadd vd d else fsub vd d in
  (outside vd /\ outside nd /\ outside d' /\ d' = fadd vd d /\ flt d' nd = true) \/
  (inside vd /\ inside nd /\ inside d' /\ d' = fsub vd d /\ flt nd d' = true).
Proof.
  intros c vd nd d Hm Hd H; unfold improves in H; apply orb_true_iff in H; pose proof (step_small _ Hd) as Hs.
  destruct H as [H|H]; apply andb_true_iff in H; destruct H as (H & H3); apply andb_true_iff in H; destruct H as (H1 & H2).
  - left; cbv zeta; rewrite H1; change (outside vd) in H1; change (outside nd) in H2; repeat (split; [assumption|]).
    split; [|split; [reflexivity | apply (slack_lt _ _ _ Hm H3)]].
    apply outside_iff in H1; destruct H1 as (N & G); apply outside_iff; destruct (fadd_ge vd d N Hs); split; [assumption | lra].
  - right; cbv zeta; change (inside vd) in H1; rewrite (inside_not_gt _ H1); change (inside nd) in H2; repeat (split; [assumption|]).
    split; [|split; [reflexivity | apply (slack_gt _ _ _ Hm H3)]].
    apply inside_iff in H1; destruct H1 as (N & G); apply inside_iff; destruct (fsub_le vd d N Hs); split; [assumption | lra].
Qed.
Lemma improves_done : forall c vd nd d, small_pos (ec_min_diff c) -> step_pos d -> improves c vd nd d = true ->
  improves c vd (if fgt vd f0 then fadd vd d else fsub vd d) d = false.
Proof.
  intros c vd nd d Hm Hd H; destruct (improves_closer c vd nd d Hm Hd H) as [(A & _ & B & E & _)|(A & _ & B & E & _)]; cbv zeta in *; rewrite E in *;
    unfold improves.
  - rewrite (outside_not_le _ A); cbn [andb orb]; rewrite slack_self_lt by exact Hm; rewrite andb_false_r; reflexivity.
  - rewrite (inside_not_gt _ A); cbn [andb orb]; unfold fgt; rewrite slack_self_gt by exact Hm; rewrite andb_false_r; reflexivity.
Qed.
(** an improvement of a closer voxel is one of the farther voxel *)
Lemma improves_mono : forall c vd nd nd' d,
  (outside nd /\ outside nd' /\ flt nd' nd = true) \/ (inside nd /\ inside nd' /\ flt nd nd' = true) ->
  improves c vd nd' d = true -> improves c vd nd d = true.
Proof.
  intros c vd nd nd' d H H1; unfold improves in *; apply orb_true_iff in H1; apply orb_true_iff.
  destruct H1 as [H1|H1]; apply andb_true_iff in H1; destruct H1 as (H1 & H3); apply andb_true_iff in H1; destruct H1 as (H1 & H2);
    destruct H as [(A & B & L)|(A & B & L)].
  - left; rewrite H1; change (fgt nd f0 = true) in A; rewrite A; cbn [andb]; eapply flt_trans; eassumption.
  - exfalso; eapply side_excl; [exact H2 | exact B].
  - exfalso; eapply side_excl; [exact B | exact H2].
  - right; rewrite H1; unfold inside in A; rewrite A; cbn [andb]; unfold fgt in *; eapply flt_trans; eassumption.
Qed.
Lemma improves_self : forall c x d, small_pos (ec_min_diff c) -> step_pos d -> improves c x x d = false.
Proof.
  intros c x d Hm Hd; destruct (improves c x x d) eqn:H; [|reflexivity].
  destruct (improves_closer c x x d Hm Hd H) as [(A & _ & B & E & L)|(A & _ & B & E & L)]; cbv zeta in *; rewrite E in L.
  - apply outside_iff in A; destruct A as (N & _); apply flt_iff in L; destruct L as (_ & _ & L).
    pose proof (proj2 (fadd_ge x d N (step_small _ Hd))); lra.
  - apply inside_iff in A; destruct A as (N & _); apply flt_iff in L; destruct L as (_ & _ & L).
    pose proof (proj2 (fsub_le x d N (step_small _ Hd))); lra.
Qed.
