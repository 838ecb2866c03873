(** Values pushed by the propagation fit the buckets; a measure on distances. *)
From Coq Require Import ZArith List Bool Lia Reals Lra.
From Flocq Require Import Core Binary.
From Verif Require Import F32 F32_lemmas F32_err Types Index Neighbor Voxel Layer Queue Queue_spec Queue_proofs Planning Esdf Esdf_spec
  Update_spec Update_proofs Esdf_float.
Import ListNotations.
Open Scope R_scope.

(** ** Buckets *)
Lemma rnd64_2 : forall x, 0 <= x <= 2 -> 0 <= rnd64 x <= 2.
Proof.
  intros x Hx; split; [rewrite <- rnd64_0 | rewrite <- (rnd64_Z 2) by (cbn; lia)]; apply rnd64_le; lra.
Qed.
Lemma bucket_low : forall n mx v, (1 <= n <= 2 ^ 30)%Z -> dfin mx = true -> 0 < DR mx -> 2 * DR mx < max64 ->
  dnan v = false -> - (2 * DR mx) <= EDR v -> exists i, bucket_of n mx v = Some i /\ (0 <= i < n)%Z.
Proof.
  intros n mx v Hn Hm Hp Hmx Hv Hlo; destruct (Rle_lt_dec (- DR mx) (EDR v)) as [Hge|Hlt].
  - destruct (bucket_of_spec n mx v ltac:(lia) Hm Hp (conj Hv Hge)) as (E & R); eauto.
  - assert (Hf : dfin v = true).
    { destruct v as [s|[|]|s pl e|s m e b]; try reflexivity; try discriminate; cbn [EDR] in *.
      - lra.
      - pose proof max64_pos; lra. }
    rewrite EDR_fin in * by exact Hf.
    assert (Hcl : dgt v mx = false).
    { unfold dgt; destruct (dlt mx v) eqn:E; [|reflexivity]; apply dlt_iff in E; destruct E as (_ & _ & E).
      rewrite !EDR_fin in E by assumption; lra. }
    unfold bucket_of; rewrite Hcl; cbv zeta.
    set (q := Rabs (DR v) / DR mx).
    assert (Hq : 0 <= q <= 2).
    { unfold q; split.
      - apply Rmult_le_pos; [apply Rabs_pos | apply Rlt_le, Rinv_0_lt_compat, Hp].
      - apply Rmult_le_reg_r with (DR mx); [exact Hp|]; unfold Rdiv; rewrite Rmult_assoc, Rinv_l, Rmult_1_r by lra.
        apply Rabs_le; lra. }
    pose proof (rnd64_2 q Hq) as Hrq.
    assert (Hbig : 2 < max64) by (unfold max64; change 2 with (bpow radix2 1); apply bpow_lt; reflexivity).
    destruct (ddiv_R (dabs v) mx) as (D1 & D2).
    { rewrite dabs_fin; exact Hf. }
    { lra. }
    { rewrite dabs_R; fold q; rewrite Rabs_pos_eq by lra; lra. }
    rewrite dabs_R in D1; fold q in D1.
    destruct (f64_of_Z_R (n - 1)) as (Z1 & Z2); [lia|].
    assert (Hn0 : 0 <= IZR (n - 1)) by (apply IZR_le; lia).
    assert (HP : 0 <= rnd64 (rnd64 q * IZR (n - 1)) <= IZR (2 * (n - 1))).
    { split; [rewrite <- rnd64_0 | rewrite <- (rnd64_Z (2 * (n - 1))) by lia]; apply rnd64_le; [|rewrite mult_IZR]; nra. }
    assert (Hn31 : IZR (2 * (n - 1)) < max64).
    { apply Rlt_trans with (IZR (2 ^ 31)); [apply IZR_lt; lia|].
      change (IZR (2 ^ 31)) with (IZR (radix2 ^ 31)); rewrite IZR_Zpower by lia; apply bpow_lt; reflexivity. }
    destruct (dmul_R (ddiv (dabs v) mx) (f64_of_Z (n - 1))) as (M1 & M2).
    { exact D2. }
    { exact Z2. }
    { rewrite D1, Z1, Rabs_pos_eq by lra; lra. }
    rewrite D1, Z1 in M1; rewrite dfloorZ_R by exact M2; rewrite M1.
    assert (HZ : (0 <= Zfloor (rnd64 (rnd64 q * IZR (n - 1))) <= 2 * (n - 1))%Z).
    { split; [apply Zfloor_lub, HP|]; apply le_IZR; apply Rle_trans with (2 := proj2 HP), Zfloor_lb. }
    unfold to_int32, in_range.
    rewrite (proj2 (Z.leb_le _ _)) by lia; rewrite (proj2 (Z.leb_le _ _)) by lia; cbn [andb].
    destruct (Z.leb_spec n (Zfloor (rnd64 (rnd64 q * IZR (n - 1))))); eexists; (split; [reflexivity | lia]).
Qed.

(** ** Pushed values *)
Lemma double_exact : forall x, rnd32 (2 * FR x) = 2 * FR x.
Proof.
  intros x; apply round_generic; [apply valid_rnd_N|]; apply generic_format_FLT.
  pose proof (FR_format x) as GF; apply FLT_format_generic in GF; [|exact Hprec32].
  destruct GF as [f E1 E2 E3]; exists (Float radix2 (Fnum f) (Fexp f + 1)); cbn [Fnum Fexp].
  - rewrite E1; unfold F2R; cbn [Fnum Fexp]; rewrite bpow_plus; change (bpow radix2 1) with 2; ring.
  - exact E2.
  - lia.
Qed.
Definition pushable (c : econfig) (d : f32) : Prop := fnan d = false /\ - (2 * FR (ec_max c)) <= ER d.
Section Range.
  Variable c : econfig.
  Hypothesis Hmax : ffin (ec_max c) = true /\ 0 < FR (ec_max c) < bpow radix2 126.

  Lemma two_max : 2 * FR (ec_max c) < max32.
  Proof.
    destruct Hmax as (_ & _ & H); rewrite max32_pow; change 128%Z with (2 + 126)%Z; rewrite bpow_plus.
    change (bpow radix2 2) with 4; pose proof (bpow_gt_0 radix2 126); lra.
  Qed.
  Lemma sub_within : forall a b, ffin a = true -> ffin b = true -> Rabs (FR a) <= FR (ec_max c) -> Rabs (FR b) <= FR (ec_max c) ->
    pushable c (fsub a b) /\ pushable c (fadd a b).
  Proof.
    intros a b Fa Fb Ha Hb; pose proof two_max as TM; apply Rabs_le_inv in Ha; apply Rabs_le_inv in Hb.
    assert (G : forall x, - (2 * FR (ec_max c)) <= x <= 2 * FR (ec_max c) -> - (2 * FR (ec_max c)) <= rnd32 x <= 2 * FR (ec_max c)).
    { intros x Hx; split; [rewrite <- double_exact, <- rnd32_opp | rewrite <- double_exact]; apply rnd32_le; lra. }
    split.
    - destruct (fsub_R a b Fa Fb) as (E & F).
      { apply Rle_lt_trans with (2 := TM); apply Rabs_le, G; lra. }
      split; [apply ffin_nnan, F|]; rewrite ER_fin by exact F; rewrite E; apply G; lra.
    - destruct (fadd_R a b Fa Fb) as (E & F).
      { apply Rle_lt_trans with (2 := TM); apply Rabs_le, G; lra. }
      split; [apply ffin_nnan, F|]; rewrite ER_fin by exact F; rewrite E; apply G; lra.
  Qed.
  Lemma not_beyond : forall d, beyond c d = false -> fnan d = false -> ffin d = true /\ Rabs (FR d) <= FR (ec_max c).
  Proof.
    intros d H N; unfold beyond in H; apply orb_false_iff in H; destruct H as (H1 & H2); destruct Hmax as (Fm & Hm).
    assert (A : ER d < FR (ec_max c)).
    { destruct (Rlt_le_dec (ER d) (FR (ec_max c))) as [L|L]; [exact L|]; exfalso.
      assert (fge d (ec_max c) = true); [|congruence].
      apply fle_iff; split; [apply ffin_nnan, Fm|]; split; [exact N|]; rewrite (ER_fin (ec_max c)) by exact Fm; exact L. }
    assert (B : - FR (ec_max c) < ER d).
    { destruct (Rlt_le_dec (- FR (ec_max c)) (ER d)) as [L|L]; [exact L|]; exfalso.
      assert (fle d (fneg (ec_max c)) = true); [|congruence].
      assert (Fn : ffin (fneg (ec_max c)) = true) by (rewrite fneg_fin; exact Fm).
      apply fle_iff; split; [exact N|]; split; [apply ffin_nnan, Fn|]; rewrite (ER_fin (fneg (ec_max c))) by exact Fn.
      rewrite fneg_R; exact L. }
    pose proof two_max; destruct d as [s|[|]|s p Hp|s m e Hb]; try discriminate.
    - split; [reflexivity|]; apply Rabs_le; cbn [ER] in *; lra.
    - cbn [ER] in B; lra.
    - cbn [ER] in A; lra.
    - split; [reflexivity|]; apply Rabs_le; cbn [ER] in *; lra.
  Qed.
  Lemma step_pushable : forall vd nd d d', beyond c vd = false -> step_pos d -> FR d <= FR (ec_max c) ->
    open_value c vd nd d = Some d' -> pushable c d'.
  Proof.
    intros vd nd d d' Hb (Fd & Hd) Hdm H; unfold open_value in H.
    assert (Ad : Rabs (FR d) <= FR (ec_max c)) by (rewrite Rabs_pos_eq; lra).
    assert (As : forall x, ffin (sgnmul x d) = true /\ Rabs (FR (sgnmul x d)) <= FR (ec_max c)).
    { intros x; destruct (sgnmul_R x d Fd) as (E & F); split; [exact F|]; rewrite E, Rabs_mult, (Rabs_pos_eq (FR d)) by lra.
      pose proof (signum_abs x) as HS; rewrite <- abs_IZR; apply IZR_le in HS.
      assert (0 <= IZR (Z.abs (signum x))) by (apply IZR_le; lia); nra. }
    destruct (fgt vd f0 && fgt nd f0) eqn:E1.
    { match type of H with (if ?b then _ else _) = _ => destruct b end; [|discriminate]; injection H as <-; apply andb_true_iff in E1; destruct E1 as (E1 & _).
      apply flt_iff in E1; destruct (not_beyond vd Hb (proj1 (proj2 E1))) as (F & A); apply sub_within; assumption. }
    destruct (fle vd f0 && fle nd f0) eqn:E2.
    { match type of H with (if ?b then _ else _) = _ => destruct b end; [|discriminate]; injection H as <-; apply andb_true_iff in E2; destruct E2 as (E2 & _).
      apply fle_iff in E2; destruct (not_beyond vd Hb (proj1 E2)) as (F & A); apply sub_within; assumption. }
    cbv zeta in H; match type of H with (if ?b then _ else _) = _ => destruct b eqn:E3 end; [|discriminate].
    assert (N : fnan vd = false).
    { destruct (fnan vd) eqn:N; [|reflexivity]; apply flt_iff in E3; destruct E3 as (_ & E3 & _).
      rewrite fabs_nan, fsub_nan_l in E3; [discriminate|]; apply fsub_nan_l, N. }
    destruct (not_beyond vd Hb N) as (F & A).
    match type of H with (if ?b then _ else _) = _ => destruct b end; injection H as <-.
    - apply sub_within; [exact F | apply As | exact A | apply As].
    - destruct (As nd) as (F2 & A2); split; [apply ffin_nnan, F2|]; rewrite ER_fin by exact F2.
      apply Rabs_le_inv in A2; lra.
  Qed.
  Lemma fixed_pushable : forall d, ffin (ec_min c) = true -> FR (ec_min c) <= FR (ec_max c) -> isFixed c d = true -> pushable c d.
  Proof.
    intros d Fm Hm H; unfold isFixed in H; apply flt_iff in H; destruct H as (N & _ & H); rewrite fabs_nan in N; split; [exact N|].
    rewrite (ER_fin (ec_min c)) in H by exact Fm.
    pose proof (proj1 (proj2 Hmax)); pose proof two_max.
    destruct d as [s|[|]|s p Hp|s m e Hb]; try discriminate; cbn [ER] in *.
    - cbn; lra.
    - change (max32 < FR (ec_min c)) in H; lra.
    - lra.
    - change (FR (fabs (B754_finite 24 128 s m e Hb)) < FR (ec_min c)) in H; rewrite fabs_R in H.
      apply Rabs_def2 in H; lra.
  Qed.
  Lemma pushable_bucket : forall d n, pushable c d -> (1 <= n <= 2 ^ 30)%Z ->
    exists i, bucket_of n (f64_of_f32 (ec_max c)) (f64_of_f32 d) = Some i /\ (0 <= i < n)%Z.
  Proof.
    intros d n (N & H) Hn; destruct Hmax as (Fm & Hm); destruct (f64_of_f32_R _ Fm) as (E & F); pose proof two_max as TM.
    assert (M : max32 < max64) by (unfold max32, max64; apply bpow_lt; reflexivity).
    apply bucket_low; [exact Hn | exact F | rewrite E; lra | rewrite E; lra | |].
    - destruct (ffin d) eqn:Fd; [apply dfin_nnan, f64_of_f32_R, Fd|]; destruct d; try discriminate; reflexivity.
    - rewrite E; destruct (ffin d) eqn:Fd.
      + rewrite ER_fin in H by exact Fd; destruct (f64_of_f32_R _ Fd) as (E' & F'); rewrite EDR_fin by exact F'; lra.
      + destruct d as [s|[|]|s p Hp|s m e Hb]; try discriminate; cbn [ER] in H; [lra|].
        change (EDR (f64_of_f32 (B754_infinity 24 128 false))) with max64; pose proof max64_pos; lra.
  Qed.
End Range.

(** ** A measure that decreases when a distance gets closer to zero *)
Definition rank (x : f32) : Z :=
  match x with
  | B754_finite _ _ _ m e _ => Z.pos m * 2 ^ (e + 149)
  | B754_infinity _ _ _ => 2 ^ 277
  | _ => 0
  end.
Lemma rank_nonneg : forall x, (0 <= rank x)%Z.
Proof.
  intros [s|s|s p H|s m e H]; cbn [rank]; [lia | apply Z.pow_nonneg; lia | lia |].
  apply Z.mul_nonneg_nonneg; [lia | apply Z.pow_nonneg; lia].
Qed.
Lemma rank_R : forall x, fnan x = false -> IZR (rank x) = Rabs (ER x) * bpow radix2 149.
Proof.
  intros [s|s|s p H|s m e H] N; try discriminate; cbn [rank ER].
  - cbn; rewrite Rabs_R0; ring.
  - change (2 ^ 277)%Z with (radix2 ^ 277)%Z; rewrite IZR_Zpower by lia.
    assert (E : Rabs (if s then - max32 else max32) = max32) by (destruct s; [rewrite Rabs_Ropp|]; apply Rabs_pos_eq, Rlt_le, max32_pos).
    rewrite E, max32_pow, <- bpow_plus; reflexivity.
  - assert (He : (-149 <= e)%Z).
    { pose proof H as H'; unfold SpecFloat.bounded in H'; apply andb_true_iff in H'; destruct H' as (H' & _).
      unfold SpecFloat.canonical_mantissa in H'; apply Zeq_bool_eq in H'; unfold SpecFloat.fexp, SpecFloat.emin in H'; lia. }
    rewrite mult_IZR; change (2 ^ (e + 149))%Z with (radix2 ^ (e + 149))%Z; rewrite IZR_Zpower by lia.
    unfold FR; cbn [B2R]; rewrite <- F2R_Zabs; unfold F2R; cbn [Fnum Fexp].
    rewrite bpow_plus; replace (Z.abs (cond_Zopp s (Z.pos m))) with (Z.pos m) by (destruct s; reflexivity); ring.
Qed.
Lemma rank_out : forall d' d, outside d -> outside d' -> flt d' d = true -> (rank d' < rank d)%Z.
Proof.
  intros d' d H1 H2 H3; apply outside_iff in H1; apply outside_iff in H2; apply flt_iff in H3.
  apply lt_IZR; rewrite !rank_R by tauto; rewrite !Rabs_pos_eq by lra.
  apply Rmult_lt_compat_r; [apply bpow_gt_0 | tauto].
Qed.
Lemma rank_in : forall d' d, inside d -> inside d' -> flt d d' = true -> (rank d' < rank d)%Z.
Proof.
  intros d' d H1 H2 H3; apply inside_iff in H1; apply inside_iff in H2; apply flt_iff in H3.
  apply lt_IZR; rewrite !rank_R by tauto; rewrite !Rabs_left1 by tauto.
  apply Rmult_lt_compat_r; [apply bpow_gt_0 | lra].
Qed.

(** ** Adding and subtracting are monotone *)
Definition clip32 (x : R) : R := Rmax (- max32) (Rmin max32 x).
Lemma clip32_le : forall x y, x <= y -> clip32 x <= clip32 y.
Proof. intros x y H; unfold clip32; apply Rle_max_compat_l, Rle_min_compat_l, H. Qed.
Lemma clip32_in : forall x, Rabs x < max32 -> clip32 x = x.
Proof. intros x H; apply Rabs_def2 in H; unfold clip32; rewrite Rmin_right, Rmax_right by lra; reflexivity. Qed.
Lemma sign_R : forall x, ffin x = true -> (Bsign 24 128 x = false -> 0 <= FR x) /\ (Bsign 24 128 x = true -> FR x <= 0).
Proof.
  intros [s|s|s p H|s m e H] F; try discriminate; cbn [Bsign].
  - split; intros _; apply Rle_refl.
  - split; intros ->; [pose proof (pos_sign m e H) | pose proof (neg_sign m e H)]; lra.
Qed.
Lemma overflow_clip : forall x s, (s = false -> 0 <= x) -> (s = true -> x <= 0) -> ~ Rabs (rnd32 x) < max32 ->
  clip32 (rnd32 x) = if s then - max32 else max32.
Proof.
  intros x s H0 H1 H; pose proof max32_pos; destruct s.
  - assert (rnd32 x <= 0) by (rewrite <- rnd32_0; apply rnd32_le, H1; reflexivity).
    rewrite Rabs_left1 in H by assumption; unfold clip32; rewrite Rmin_right, Rmax_left by lra; reflexivity.
  - assert (0 <= rnd32 x) by (rewrite <- rnd32_0; apply rnd32_le, H0; reflexivity).
    rewrite Rabs_pos_eq in H by assumption; unfold clip32; rewrite Rmin_left, Rmax_right by lra; reflexivity.
Qed.
Lemma fadd_ER : forall w u, ffin w = true -> ffin u = true -> ER (fadd w u) = clip32 (rnd32 (FR w + FR u)).
Proof.
  intros w u Fw Fu.
  pose proof (Bplus_correct 24 128 Hprec32 Hmax32 Bits.binop_nan_pl32 mode_NE w u Fw Fu) as C.
  change (Bplus 24 128 Hprec32 Hmax32 Bits.binop_nan_pl32 mode_NE w u) with (fadd w u) in C.
  change (round _ _ _ (B2R 24 128 w + B2R 24 128 u)) with (rnd32 (FR w + FR u)) in C.
  change (bpow radix2 128) with max32 in C.
  destruct (Rlt_bool_spec (Rabs (rnd32 (FR w + FR u))) max32) as [L|L].
  - destruct C as (E & F & _); change (ffin (fadd w u) = true) in F; rewrite ER_fin by exact F.
    rewrite clip32_in by exact L; exact E.
  - destruct C as (C & SS); destruct (sign_R w Fw) as (W0 & W1), (sign_R u Fu) as (U0 & U1).
    rewrite (overflow_clip (FR w + FR u) (Bsign 24 128 w)).
    + destruct (fadd w u) as [s|s|s p Hp|s m e Hm]; try discriminate; cbn in C; injection C as ->; reflexivity.
    + intros E; rewrite E in SS; specialize (W0 E); specialize (U0 (eq_sym SS)); lra.
    + intros E; rewrite E in SS; specialize (W1 E); specialize (U1 (eq_sym SS)); lra.
    + lra.
Qed.
Lemma fsub_ER : forall w u, ffin w = true -> ffin u = true -> ER (fsub w u) = clip32 (rnd32 (FR w - FR u)).
Proof.
  intros w u Fw Fu.
  pose proof (Bminus_correct 24 128 Hprec32 Hmax32 Bits.binop_nan_pl32 mode_NE w u Fw Fu) as C.
  change (Bminus 24 128 Hprec32 Hmax32 Bits.binop_nan_pl32 mode_NE w u) with (fsub w u) in C.
  change (round _ _ _ (B2R 24 128 w - B2R 24 128 u)) with (rnd32 (FR w - FR u)) in C.
  change (bpow radix2 128) with max32 in C.
  destruct (Rlt_bool_spec (Rabs (rnd32 (FR w - FR u))) max32) as [L|L].
  - destruct C as (E & F & _); change (ffin (fsub w u) = true) in F; rewrite ER_fin by exact F.
    rewrite clip32_in by exact L; exact E.
  - destruct C as (C & SS); destruct (sign_R w Fw) as (W0 & W1), (sign_R u Fu) as (U0 & U1).
    rewrite (overflow_clip (FR w - FR u) (Bsign 24 128 w)).
    + destruct (fsub w u) as [s|s|s p Hp|s m e Hm]; try discriminate; cbn in C; injection C as ->; reflexivity.
    + intros E; rewrite E in SS; specialize (W0 E); destruct (Bsign 24 128 u); [specialize (U1 eq_refl); lra | discriminate].
    + intros E; rewrite E in SS; specialize (W1 E); destruct (Bsign 24 128 u); [discriminate | specialize (U0 eq_refl); lra].
    + lra.
Qed.
Lemma clip32_bounds : forall x, - max32 <= clip32 x <= max32.
Proof. intros x; pose proof max32_pos; unfold clip32; split; [apply Rmax_l | apply Rmax_lub; [lra | apply Rmin_l]]. Qed.
Lemma ER_bounds : forall x, - max32 <= ER x <= max32.
Proof.
  intros x; pose proof max32_pos; destruct (ffin x) eqn:F.
  - rewrite ER_fin by exact F; pose proof (FR_lt_max x) as M; apply Rabs_def2 in M; lra.
  - destruct x as [s|[|]|s p Hp|s m e Hm]; try discriminate; cbn; lra.
Qed.
Lemma fadd_mono : forall a b u, fnan a = false -> fnan b = false -> ffin u = true -> ER a <= ER b -> ER (fadd a u) <= ER (fadd b u).
Proof.
  intros a b u Na Nb Fu H.
  assert (INF : forall s, fadd (B754_infinity 24 128 s) u = B754_infinity 24 128 s) by (intros s; destruct u; try discriminate; reflexivity).
  pose proof max32_pos as MP.
  destruct (ffin a) eqn:Fa; [|destruct a as [s|[|]|s p Hp|s m e Hm]; try discriminate; rewrite INF].
  - destruct (ffin b) eqn:Fb; [|destruct b as [s|[|]|s p Hp|s m e Hm]; try discriminate; rewrite INF].
    + rewrite !fadd_ER by assumption; apply clip32_le, rnd32_le; rewrite !ER_fin in H by assumption; lra.
    + rewrite ER_fin in H by exact Fa; cbn [ER] in H; pose proof (FR_lt_max a) as M; apply Rabs_def2 in M; lra.
    + cbn [ER]; apply ER_bounds.
  - cbn [ER]; apply ER_bounds.
  - cbn [ER] in *; destruct (ffin b) eqn:Fb; [|destruct b as [s|[|]|s p Hp|s m e Hm]; try discriminate; rewrite INF; cbn [ER] in *; lra].
    rewrite ER_fin in H by exact Fb; pose proof (FR_lt_max b) as M; apply Rabs_def2 in M; lra.
Qed.
Lemma fsub_mono : forall a b u, fnan a = false -> fnan b = false -> ffin u = true -> ER a <= ER b -> ER (fsub a u) <= ER (fsub b u).
Proof.
  intros a b u Na Nb Fu H.
  assert (INF : forall s, fsub (B754_infinity 24 128 s) u = B754_infinity 24 128 s) by (intros s; destruct u; try discriminate; reflexivity).
  pose proof max32_pos as MP.
  destruct (ffin a) eqn:Fa; [|destruct a as [s|[|]|s p Hp|s m e Hm]; try discriminate; rewrite INF].
  - destruct (ffin b) eqn:Fb; [|destruct b as [s|[|]|s p Hp|s m e Hm]; try discriminate; rewrite INF].
    + rewrite !fsub_ER by assumption; apply clip32_le, rnd32_le; rewrite !ER_fin in H by assumption; lra.
    + rewrite ER_fin in H by exact Fa; cbn [ER] in H; pose proof (FR_lt_max a) as M; apply Rabs_def2 in M; lra.
    + cbn [ER]; apply ER_bounds.
  - cbn [ER]; apply ER_bounds.
  - cbn [ER] in *; destruct (ffin b) eqn:Fb; [|destruct b as [s|[|]|s p Hp|s m e Hm]; try discriminate; rewrite INF; cbn [ER] in *; lra].
    rewrite ER_fin in H by exact Fb; pose proof (FR_lt_max b) as M; apply Rabs_def2 in M; lra.
Qed.
