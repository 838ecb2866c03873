(** Rounding analysis of the interpolation of surface vertices. *)
From Coq Require Import ZArith List Bool Lia Reals Lra Psatz.
From Flocq Require Import Core.
From Verif Require Import F32 F32_lemmas F32_err Types Index Index_float Voxel Layer Ray Marching MeshInt Mesh_spec.
Import ListNotations.
Open Scope R_scope.
Local Opaque fadd fsub fmul fdiv flt fle fabs.

Lemma prod_le : forall a b A B, Rabs a <= A -> Rabs b <= B -> Rabs (a * b) <= A * B.
Proof. apply Rabs_prod. Qed.
Lemma add_le : forall a b A B, Rabs a <= A -> Rabs b <= B -> Rabs (a + b) <= A + B.
Proof. apply Rabs_tri. Qed.
Lemma bpow_100 : forall k x, (k <= 127)%Z -> Rabs x <= bpow radix2 k -> Rabs x <= bpow radix2 127.
Proof. intros k x H1 H2. eapply Rle_trans; [exact H2|]. now apply bpow_le. Qed.

(** opposite signs in terms of the values *)
Lemma inside_R : forall s, ffin s = true -> (inside s <-> FR s < 0).
Proof.
  intros s Fs. unfold inside. rewrite flt_iff. rewrite (ER_fin s) by exact Fs.
  change (ER f0) with 0. split; [tauto|]. intros H. repeat split; auto.
  destruct s; try discriminate; reflexivity.
Qed.

Section Param.
  Variables s1 s2 : f32.
  Hypothesis F1 : ffin s1 = true.
  Hypothesis F2 : ffin s2 = true.
  Hypothesis B1 : Rabs (FR s1) <= bpow radix2 100.
  Hypothesis B2 : Rabs (FR s2) <= bpow radix2 100.
  Hypothesis Sg : (FR s1 < 0 /\ 0 <= FR s2) \/ (0 <= FR s1 /\ FR s2 < 0).
  Let D := FR s1 - FR s2.
  Let tau := FR s1 / D.

  Lemma D_nz : D <> 0. Proof. unfold D. lra. Qed.
  Lemma D_bound : Rabs D <= bpow radix2 127.
  Proof. unfold D. eapply Rabs_sub_bpow; [exact B1|exact B2| |]; lia. Qed.
  Lemma s1_le_D : Rabs (FR s1) <= Rabs D.
  Proof. unfold D. destruct Sg; [rewrite !Rabs_left by lra|rewrite !Rabs_pos_eq by lra]; lra. Qed.
  Lemma tau_range : 0 <= tau <= 1.
  Proof.
    unfold tau. pose proof D_nz as N. unfold D in *. destruct Sg as [S|S].
    - split.
      + replace (FR s1 / (FR s1 - FR s2)) with ((- FR s1) / (FR s2 - FR s1)) by (field; lra).
        apply Rle_mult_inv_pos; lra.
      + replace (FR s1 / (FR s1 - FR s2)) with ((- FR s1) / (FR s2 - FR s1)) by (field; lra).
        apply Rmult_le_reg_r with (FR s2 - FR s1); [lra|]. field_simplify; lra.
    - split.
      + apply Rle_mult_inv_pos; lra.
      + apply Rmult_le_reg_r with (FR s1 - FR s2); [lra|]. field_simplify; lra.
  Qed.
  Lemma diff_R : ffin (fsub s1 s2) = true /\ FR (fsub s1 s2) = rnd32 D /\
    exists e, Rabs e <= u32r /\ FR (fsub s1 s2) = D * (1 + e).
  Proof.
    destruct (fsub_rel s1 s2 F1 F2 D_bound) as (F & e & He & E).
    destruct (fsub_R s1 s2 F1 F2 (rnd32_small _ D_bound)) as (E' & _).
    split; [exact F|]. split; [exact E'|]. exists e. auto.
  Qed.
  Lemma u32r_bnd : 0 < u32r < / 1000000. Proof. unfold u32r. lra. Qed.

  Lemma param_R : ffin (fdiv s1 (fsub s1 s2)) = true /\
    0 <= FR (fdiv s1 (fsub s1 s2)) <= 1 /\
    Rabs (FR (fdiv s1 (fsub s1 s2)) - tau) <= 21 / 10 * u32r + t32r.
  Proof.
    destruct diff_R as (F & E & e & He & E2). pose proof u32r_bnd as U. pose proof D_nz as N.
    apply Rabs_le_inv in He. assert (P : 0 < 1 + e) by lra.
    assert (NZ : FR (fsub s1 s2) <> 0). { rewrite E2. apply Rmult_integral_contrapositive_currified; lra. }
    set (q := FR s1 / FR (fsub s1 s2)).
    assert (Q : q = tau / (1 + e)). { unfold q, tau. rewrite E2. field. lra. }
    pose proof tau_range as T.
    assert (Q0 : 0 <= q). { rewrite Q. apply Rle_mult_inv_pos; lra. }
    assert (Q1 : q <= 1).
    { assert (A : Rabs (FR s1) <= Rabs (FR (fsub s1 s2))).
      { rewrite E, <- rnd32_abs. rewrite <- (rnd32_FR s1) at 1. rewrite <- rnd32_abs.
        apply rnd32_le, s1_le_D. }
      apply Rle_trans with (Rabs q); [apply Rle_abs|]. unfold q, Rdiv. rewrite Rabs_mult, Rabs_inv.
      apply Rmult_le_reg_r with (Rabs (FR (fsub s1 s2))); [now apply Rabs_pos_lt|].
      rewrite Rmult_assoc, Rinv_l, Rmult_1_r, Rmult_1_l; [exact A|]. now apply Rabs_no_R0. }
    assert (Qb : Rabs q <= bpow radix2 127).
    { rewrite Rabs_pos_eq by exact Q0. apply Rle_trans with 1; [exact Q1|].
      change 1 with (bpow radix2 0). apply bpow_le. lia. }
    destruct (fdiv_R s1 (fsub s1 s2) F1 NZ (rnd32_small _ Qb)) as (E3 & F3).
    split; [exact F3|]. split.
    { rewrite E3. fold q. split.
      - rewrite <- rnd32_0. now apply rnd32_le.
      - rewrite <- (rnd32_Z 1) by (cbn; lia). now apply rnd32_le. }
    destruct (fdiv_rel s1 (fsub s1 s2) F1 NZ Qb) as (_ & d & h & Hd & Hh & E4).
    fold q in E4. rewrite E4. replace (q * (1 + d) + h - tau) with (q * (d - e) + h).
    2:{ rewrite Q. field. lra. }
    apply add_le; [|exact Hh]. apply Rabs_le_inv in Hd.
    replace (21 / 10 * u32r) with (1 * (21 / 10 * u32r)) by ring.
    apply prod_le; [rewrite Rabs_pos_eq; lra|]. apply Rabs_le. lra.
  Qed.

  Section Axis.
    Variables a b : f32.
    Hypothesis Fa : ffin a = true.
    Hypothesis Fb : ffin b = true.
    Hypothesis Ba : Rabs (FR a) <= bpow radix2 100.
    Hypothesis Bb : Rabs (FR b) <= bpow radix2 100.
    Let S := Rabs (FR a) + Rabs (FR b).

    Lemma axis_R : ffin (interp_axis (fdiv s1 (fsub s1 s2)) a b) = true /\
      Rabs (FR (interp_axis (fdiv s1 (fsub s1 s2)) a b) - (FR a + tau * (FR b - FR a)))
        <= 8 * u32r * S + 2 * t32r.
    Proof.
      destruct param_R as (Ft & [T0 T1] & Tt). set (t := fdiv s1 (fsub s1 s2)) in *.
      pose proof u32r_bnd as U. pose proof t32r_pos as TP. pose proof t32r_small as TS.
      unfold interp_axis.
      assert (W0 : Rabs (FR b - FR a) <= bpow radix2 101)
        by (eapply Rabs_sub_bpow; [exact Bb|exact Ba| |]; lia).
      destruct (fsub_rel b a Fb Fa (bpow_100 101 _ ltac:(lia) W0)) as (Fw & e3 & He3 & Ew).
      destruct (fsub_R b a Fb Fa (rnd32_small _ (bpow_100 101 _ ltac:(lia) W0))) as (Ew' & _).
      set (w := fsub b a) in *.
      assert (Wb : Rabs (FR w) <= bpow radix2 101) by (rewrite Ew'; apply Rabs_rnd_bpow; [lia|exact W0]).
      assert (Tb : Rabs (FR t) <= bpow radix2 0) by (change (bpow radix2 0) with 1; rewrite Rabs_pos_eq; lra).
      assert (M0 : Rabs (FR t * FR w) <= bpow radix2 101) by (eapply Rabs_mul_bpow; [exact Tb|exact Wb|lia]).
      destruct (fmul_rel t w Ft Fw (bpow_100 101 _ ltac:(lia) M0)) as (Fm & e4 & h & He4 & Hh & Em).
      destruct (fmul_R t w Ft Fw (rnd32_small _ (bpow_100 101 _ ltac:(lia) M0))) as (Em' & _).
      set (m := fmul t w) in *.
      assert (Mb : Rabs (FR m) <= bpow radix2 101) by (rewrite Em'; apply Rabs_rnd_bpow; [lia|exact M0]).
      assert (P0 : Rabs (FR a + FR m) <= bpow radix2 102)
        by (eapply Rabs_add_bpow; [exact Ba|exact Mb| |]; lia).
      destruct (fadd_rel a m Fa Fm (bpow_100 102 _ ltac:(lia) P0)) as (Fp & e5 & He5 & Ep).
      split; [exact Fp|].
      (* error of the product *)
      set (g := FR b - FR a) in *.
      assert (G : Rabs g <= S). { unfold g, S. replace (FR b - FR a) with (FR b + - FR a) by ring.
        eapply Rle_trans; [apply Rabs_triang|]. rewrite Rabs_Ropp. lra. }
      assert (SP : 0 <= S) by (unfold S; pose proof (Rabs_pos (FR a)); pose proof (Rabs_pos (FR b)); lra).
      assert (X : Rabs ((1 + e3) * (1 + e4) - 1) <= 21 / 10 * u32r).
      { replace ((1 + e3) * (1 + e4) - 1) with (e3 + e4 + e3 * e4) by ring.
        assert (Rabs (e3 * e4) <= u32r * u32r) by (apply prod_le; assumption).
        assert (Rabs (e3 + e4) <= u32r + u32r) by (apply add_le; assumption).
        eapply Rle_trans; [apply Rabs_triang|].
        assert (u32r * u32r <= 1 / 10 * u32r) by (apply Rmult_le_compat_r; lra). lra. }
      assert (Err : Rabs (FR m - tau * g) <= 43 / 10 * u32r * S + t32r).
      { rewrite Em, Ew.
        replace (FR t * (g * (1 + e3)) * (1 + e4) + h - tau * g)
          with ((FR t * ((1 + e3) * (1 + e4) - 1) + (FR t - tau)) * g + h) by ring.
        apply add_le; [|exact Hh]. apply prod_le; [|exact G].
        eapply Rle_trans; [apply Rabs_triang|].
        assert (Rabs (FR t * ((1 + e3) * (1 + e4) - 1)) <= 1 * (21 / 10 * u32r)).
        { apply prod_le; [|exact X]. rewrite Rabs_pos_eq; lra. }
        assert (t32r <= 1 / 10 * u32r).
        { unfold t32r. apply Rle_trans with (bpow radix2 (-50)); [apply bpow_le; lia|].
          unfold u32r. cbn. lra. }
        lra. }
      assert (C : Rabs (FR a + tau * g) <= S).
      { unfold g, S. replace (FR a + tau * (FR b - FR a)) with ((1 - tau) * FR a + tau * FR b) by ring.
        pose proof tau_range as T. eapply Rle_trans; [apply Rabs_triang|]. rewrite !Rabs_mult.
        rewrite (Rabs_pos_eq tau), (Rabs_pos_eq (1 - tau)) by lra.
        pose proof (Rabs_pos (FR a)); pose proof (Rabs_pos (FR b)).
        assert ((1 - tau) * Rabs (FR a) <= 1 * Rabs (FR a)) by (apply Rmult_le_compat_r; lra).
        assert (tau * Rabs (FR b) <= 1 * Rabs (FR b)) by (apply Rmult_le_compat_r; lra). lra. }
      rewrite Ep.
      replace ((FR a + FR m) * (1 + e5) - (FR a + tau * g))
        with ((FR m - tau * g) + e5 * ((FR a + tau * g) + (FR m - tau * g))) by ring.
      eapply Rle_trans; [apply Rabs_triang|].
      assert (Y : Rabs (e5 * (FR a + tau * g + (FR m - tau * g)))
                  <= u32r * (S + (43 / 10 * u32r * S + t32r)))
        by (apply prod_le; [exact He5|]; apply add_le; assumption).
      assert (Z1 : u32r * S <= S * / 1000000) by (rewrite Rmult_comm; apply Rmult_le_compat_l; lra).
      assert (Z2 : u32r * (u32r * S) <= u32r * (S * / 1000000)) by (apply Rmult_le_compat_l; lra).
      assert (Z3 : u32r * t32r <= / 1000000 * t32r) by (apply Rmult_le_compat_r; lra).
      assert (Z4 : 0 <= u32r * S) by (apply Rmult_le_pos; lra).
      lra.
    Qed.

    (** an axis on which the two corners agree is reproduced exactly *)
    Lemma axis_same : FR a = FR b -> FR (interp_axis (fdiv s1 (fsub s1 s2)) a b) = FR a.
    Proof.
      intros E. destruct param_R as (Ft & _ & _). unfold interp_axis.
      set (t := fdiv s1 (fsub s1 s2)) in *.
      destruct (fsub_R b a Fb Fa) as (Ew & Fw).
      { rewrite E, Rminus_eq_0, rnd32_0, Rabs_R0. apply max32_pos. }
      rewrite E, Rminus_eq_0, rnd32_0 in Ew.
      destruct (fmul_R t (fsub b a) Ft Fw) as (Em & Fm).
      { rewrite Ew, Rmult_0_r, rnd32_0, Rabs_R0. apply max32_pos. }
      rewrite Ew, Rmult_0_r, rnd32_0 in Em.
      destruct (fadd_R a (fmul t (fsub b a)) Fa Fm) as (Ep & _).
      { rewrite Em, Rplus_0_r, rnd32_FR. apply FR_lt_max. }
      rewrite Ep, Em, Rplus_0_r. apply rnd32_FR.
    Qed.
  End Axis.
End Param.

(** the midpoint *)
Lemma fhalf_R : FR fhalf = / 2 /\ ffin fhalf = true.
Proof.
  unfold fhalf. pose proof (rnd32_exact 1 (-1) ltac:(cbn; lia) ltac:(lia)) as E.
  replace (IZR 1 * bpow radix2 (-1)) with (/ 2) in E by (cbn; lra).
  destruct (f32_lit_R 1 (-1)) as (A & B).
  { replace (IZR 1 * bpow radix2 (-1)) with (/ 2) by (cbn; lra). rewrite E.
    rewrite Rabs_pos_eq by lra. unfold max32. apply Rlt_trans with (bpow radix2 0); [cbn; lra|].
    apply bpow_lt. lia. }
  split; [|exact B]. rewrite A. replace (IZR 1 * bpow radix2 (-1)) with (/ 2) by (cbn; lra). exact E.
Qed.
Lemma double_fmt : forall a, Rabs (FR a) <= bpow radix2 100 -> rnd32 (2 * FR a) = 2 * FR a.
Proof.
  intros a Ha. apply round_generic; auto with typeclass_instances.
  replace (2 * FR a) with (FR a * bpow radix2 1) by (cbn; ring).
  apply generic_format_FLT. destruct (FLT_format_generic radix2 (-149) 24 (FR a) (FR_format a)) as [x H1 H2 H3].
  exists (Float radix2 (Fnum x) (Fexp x + 1)); cbn [Fnum Fexp].
  - rewrite H1. unfold F2R. cbn [Fnum Fexp]. rewrite bpow_plus. ring.
  - exact H2.
  - lia.
Qed.
Lemma mid_between : forall a b, ffin a = true -> ffin b = true ->
  Rabs (FR a) <= bpow radix2 100 -> Rabs (FR b) <= bpow radix2 100 -> FR a <= FR b ->
  ffin (mid_axis a b) = true /\ FR a <= FR (mid_axis a b) <= FR b /\
  ffin (mid_axis b a) = true /\ FR (mid_axis b a) = FR (mid_axis a b).
Proof.
  intros a b Fa Fb Ba Bb Le. unfold mid_axis. destruct fhalf_R as (Eh & Fh).
  assert (P0 : Rabs (FR a + FR b) <= bpow radix2 101) by (eapply Rabs_add_bpow; [exact Ba|exact Bb| |]; lia).
  destruct (fadd_R a b Fa Fb (rnd32_small _ (bpow_100 101 _ ltac:(lia) P0))) as (E & F).
  assert (P0' : Rabs (FR b + FR a) <= bpow radix2 101) by (rewrite Rplus_comm; exact P0).
  destruct (fadd_R b a Fb Fa (rnd32_small _ (bpow_100 101 _ ltac:(lia) P0'))) as (E' & F').
  rewrite (Rplus_comm (FR b)) in E'.
  assert (Bd : Rabs (rnd32 (FR a + FR b)) <= bpow radix2 101) by (apply Rabs_rnd_bpow; [lia|exact P0]).
  assert (Bm : Rabs (/ 2 * rnd32 (FR a + FR b)) <= bpow radix2 127).
  { rewrite Rabs_mult, Rabs_pos_eq by lra. assert (bpow radix2 101 <= bpow radix2 127) by (apply bpow_le; lia).
    pose proof (Rabs_pos (rnd32 (FR a + FR b))). lra. }
  destruct (fmul_R fhalf (fadd a b) Fh F) as (Em & Fm).
  { rewrite Eh, E. apply rnd32_small, Bm. }
  destruct (fmul_R fhalf (fadd b a) Fh F') as (Em' & Fm').
  { rewrite Eh, E'. apply rnd32_small, Bm. }
  rewrite Eh, E in Em. rewrite Eh, E' in Em'.
  split; [exact Fm|]. split; [|split; [exact Fm'|]].
  - rewrite Em. split.
    + rewrite <- (rnd32_FR a) at 1. apply rnd32_le.
      assert (2 * FR a <= rnd32 (FR a + FR b)) by (rewrite <- double_fmt by exact Ba; apply rnd32_le; lra). lra.
    + rewrite <- (rnd32_FR b). apply rnd32_le. rewrite (rnd32_FR b).
      assert (rnd32 (FR a + FR b) <= 2 * FR b) by (rewrite <- (double_fmt b) by exact Bb; apply rnd32_le; lra). lra.
  - rewrite Em, Em'. reflexivity.
Qed.
Lemma mid_err : forall a b, ffin a = true -> ffin b = true ->
  Rabs (FR a) <= bpow radix2 100 -> Rabs (FR b) <= bpow radix2 100 ->
  Rabs (FR (mid_axis a b) - (FR a + / 2 * (FR b - FR a))) <= 8 * u32r * (Rabs (FR a) + Rabs (FR b)) + 2 * t32r.
Proof.
  intros a b Fa Fb Ba Bb. unfold mid_axis. destruct fhalf_R as (Eh & Fh).
  pose proof u32r_bnd as U. pose proof t32r_pos as TP.
  assert (P0 : Rabs (FR a + FR b) <= bpow radix2 101) by (eapply Rabs_add_bpow; [exact Ba|exact Bb| |]; lia).
  destruct (fadd_rel a b Fa Fb (bpow_100 101 _ ltac:(lia) P0)) as (F & e & He & E).
  destruct (fadd_R a b Fa Fb (rnd32_small _ (bpow_100 101 _ ltac:(lia) P0))) as (E' & _).
  assert (Bd : Rabs (FR (fadd a b)) <= bpow radix2 101) by (rewrite E'; apply Rabs_rnd_bpow; [lia|exact P0]).
  assert (Bm : Rabs (FR fhalf * FR (fadd a b)) <= bpow radix2 127).
  { rewrite Eh, Rabs_mult, Rabs_pos_eq by lra. assert (bpow radix2 101 <= bpow radix2 127) by (apply bpow_le; lia).
    pose proof (Rabs_pos (FR (fadd a b))). lra. }
  destruct (fmul_rel fhalf (fadd a b) Fh F Bm) as (_ & d & h & Hd & Hh & Em).
  rewrite Em, Eh, E. set (S := Rabs (FR a) + Rabs (FR b)).
  assert (SS : Rabs (FR a + FR b) <= S) by apply Rabs_triang.
  assert (SP : 0 <= S) by (unfold S; pose proof (Rabs_pos (FR a)); pose proof (Rabs_pos (FR b)); lra).
  replace (/ 2 * ((FR a + FR b) * (1 + e)) * (1 + d) + h - (FR a + / 2 * (FR b - FR a)))
    with ((/ 2 * (e + d + e * d)) * (FR a + FR b) + h) by field.
  assert (X : Rabs (/ 2 * (e + d + e * d)) <= 2 * u32r).
  { assert (Rabs (e * d) <= u32r * u32r) by (apply prod_le; assumption).
    assert (Rabs (e + d) <= u32r + u32r) by (apply add_le; assumption).
    assert (u32r * u32r <= 1 * u32r) by (apply Rmult_le_compat_r; lra).
    rewrite Rabs_mult, (Rabs_pos_eq (/ 2)) by lra.
    pose proof (Rabs_triang (e + d) (e * d)). lra. }
  assert (Y : Rabs (/ 2 * (e + d + e * d) * (FR a + FR b) + h) <= 2 * u32r * S + t32r).
  { apply add_le; [|exact Hh]. apply prod_le; assumption. }
  assert (0 <= u32r * S) by (apply Rmult_le_pos; lra). lra.
Qed.

(** one coordinate of an interpolated vertex *)
Definition edge_slack (a b : R) : R := 8 * u32r * (Rabs a + Rabs b) + 2 * t32r.
Section Vertex.
  Variables s1 s2 : f32.
  Hypothesis F1 : ffin s1 = true.
  Hypothesis F2 : ffin s2 = true.
  Hypothesis B1 : Rabs (FR s1) <= bpow radix2 100.
  Hypothesis B2 : Rabs (FR s2) <= bpow radix2 100.
  Hypothesis Sg : (FR s1 < 0 /\ 0 <= FR s2) \/ (0 <= FR s1 /\ FR s2 < 0).
  Let far := fge (fabs (fsub s1 s2)) kEpsilon.
  Definition param_of : R := if fge (fabs (fsub s1 s2)) kEpsilon then FR s1 / (FR s1 - FR s2) else / 2.
  Definition axis_of (a b : f32) : f32 :=
    if fge (fabs (fsub s1 s2)) kEpsilon then interp_axis (fdiv s1 (fsub s1 s2)) a b else mid_axis a b.
  Lemma mid_same : forall a b, ffin a = true -> ffin b = true ->
    Rabs (FR a) <= bpow radix2 100 -> Rabs (FR b) <= bpow radix2 100 -> FR a = FR b -> FR (mid_axis a b) = FR a.
  Proof.
    intros a b Fa Fb Ba Bb E. destruct (mid_between a b Fa Fb Ba Bb) as (_ & H & _); lra.
  Qed.
  Lemma axis_of_ok : forall a b, ffin a = true -> ffin b = true ->
    Rabs (FR a) <= bpow radix2 100 -> Rabs (FR b) <= bpow radix2 100 ->
    ffin (axis_of a b) = true /\
    Rabs (FR (axis_of a b) - (FR a + param_of * (FR b - FR a))) <= edge_slack (FR a) (FR b) /\
    (FR a = FR b -> FR (axis_of a b) = FR a).
  Proof.
    intros a b Fa Fb Ba Bb. unfold axis_of, param_of. destruct (fge _ _).
    - destruct (axis_R s1 s2 F1 F2 B1 B2 Sg a b Fa Fb Ba Bb) as (X & Y).
      split; [exact X|]. split; [exact Y|]. now apply axis_same.
    - split; [|split; [now apply mid_err|now apply mid_same]].
      destruct (Rle_or_lt (FR a) (FR b)) as [L|L].
      + destruct (mid_between a b Fa Fb Ba Bb L) as (X & _). exact X.
      + destruct (mid_between b a Fb Fa Bb Ba) as (_ & _ & X & _); [lra|exact X].
  Qed.
  Lemma param_range : 0 <= param_of <= 1.
  Proof. unfold param_of. destruct (fge _ _); [now apply tau_range|lra]. Qed.
  Lemma param_cases : param_of = FR s1 / (FR s1 - FR s2) \/
    (param_of = / 2 /\ Rabs (FR s1 - FR s2) < FR kEpsilon).
  Proof.
    unfold param_of. destruct (fge _ _) eqn:E; [now left|right]. split; [reflexivity|].
    destruct (diff_R s1 s2 F1 F2 B1 B2) as (F & R & _). 
    destruct kEpsilon_R as (_ & FE). unfold fge in E.
    destruct (Rlt_or_le (Rabs (FR s1 - FR s2)) (FR kEpsilon)) as [L|L]; [exact L|exfalso].
    assert (X : fle kEpsilon (fabs (fsub s1 s2)) = true); [|congruence].
    apply fle_R; [exact FE|now rewrite fabs_fin|]. rewrite fabs_R, R, <- rnd32_abs.
    rewrite <- (round_generic radix2 (FLT_exp (-149) 24) ZnearestE (FR kEpsilon) (FR_format kEpsilon)).
    now apply rnd32_le.
  Qed.
End Vertex.

Lemma swap_branch : forall s1 s2, ffin s1 = true -> ffin s2 = true ->
  Rabs (FR s1) <= bpow radix2 100 -> Rabs (FR s2) <= bpow radix2 100 ->
  (FR s1 < 0 /\ 0 <= FR s2) \/ (0 <= FR s1 /\ FR s2 < 0) ->
  fge (fabs (fsub s2 s1)) kEpsilon = fge (fabs (fsub s1 s2)) kEpsilon.
Proof.
  intros s1 s2 F1 F2 B1 B2 Sg.
  destruct (diff_R s1 s2 F1 F2 B1 B2) as (F & R & _). destruct (diff_R s2 s1 F2 F1 B2 B1) as (F' & R' & _).
  destruct kEpsilon_R as (_ & FE).
  assert (X : FR (fabs (fsub s2 s1)) = FR (fabs (fsub s1 s2))).
  { rewrite !fabs_R, R, R', <- !rnd32_abs. f_equal. apply Rabs_minus_sym. }
  apply eq_true_iff_eq. unfold fge. rewrite !fle_R by (rewrite ?fabs_fin; auto). rewrite X. tauto.
Qed.
Lemma both_ends : forall s1 s2 a b, ffin s1 = true -> ffin s2 = true ->
  Rabs (FR s1) <= bpow radix2 100 -> Rabs (FR s2) <= bpow radix2 100 ->
  (FR s1 < 0 /\ 0 <= FR s2) \/ (0 <= FR s1 /\ FR s2 < 0) ->
  ffin a = true -> ffin b = true ->
  Rabs (FR a) <= bpow radix2 100 -> Rabs (FR b) <= bpow radix2 100 ->
  Rabs (FR (axis_of s1 s2 a b) - FR (axis_of s2 s1 b a)) <= 2 * edge_slack (FR a) (FR b).
Proof.
  intros s1 s2 a b F1 F2 B1 B2 Sg Fa Fb Ba Bb.
  destruct (axis_of_ok s1 s2 F1 F2 B1 B2 Sg a b Fa Fb Ba Bb) as (_ & X & _).
  assert (Sg' : (FR s2 < 0 /\ 0 <= FR s1) \/ (0 <= FR s2 /\ FR s1 < 0)) by lra.
  destruct (axis_of_ok s2 s1 F2 F1 B2 B1 Sg' b a Fb Fa Bb Ba) as (_ & Y & _).
  assert (P : FR b + param_of s2 s1 * (FR a - FR b) = FR a + param_of s1 s2 * (FR b - FR a)).
  { unfold param_of. rewrite (swap_branch s1 s2) by assumption. destruct (fge _ _); [|lra].
    field. split; lra. }
  rewrite P in Y. unfold edge_slack in *. rewrite (Rplus_comm (Rabs (FR b))) in Y.
  revert X Y. generalize (FR a + param_of s1 s2 * (FR b - FR a)). intros z X Y.
  replace (FR (axis_of s1 s2 a b) - FR (axis_of s2 s1 b a))
    with ((FR (axis_of s1 s2 a b) - z) + - (FR (axis_of s2 s1 b a) - z)) by ring.
  eapply Rle_trans; [apply Rabs_triang|]. rewrite Rabs_Ropp. lra.
Qed.
