(** Ray casting: how far the caster's crossing times are from the exact ones, and
    where the voxels it returns lie. *)
From Coq Require Import ZArith Reals List Bool Lia Lra Psatz.
From Flocq Require Import Core IEEE754.Binary IEEE754.Bits.
From Verif Require Import F32 F32_lemmas F32_err Types Index Index_float Update Ray Ray_spec Ray_proofs.
Import ListNotations.
Local Opaque fadd fsub fmul fdiv fsqrt flt fle feq f32_of_Z.
Open Scope R_scope.

Ltac mx := try change (IZR (Z.max 0 1)) with 1; try change (IZR (Z.max 0 (-1))) with 0.

Lemma start_cell : forall s c, Rabs (FR s) <= 1048576 -> scaled_grid_axis s = Some c ->
  IZR c - 2 / 1000000 <= FR s /\ FR s < IZR c + 1 /\ (Z.abs c <= 2 ^ 24)%Z.
Proof.
  intros s c Bs Hc. destruct (scaled_axis s c Hc) as (_ & _ & E & L1 & L2).
  pose proof (Zfloor_lb (FR (fadd s kEpsilon))) as A. pose proof (Zfloor_ub (FR (fadd s kEpsilon))) as B.
  rewrite <- E in *. apply Rabs_le_inv in Bs. split; [lra|]. split; [lra|].
  assert (- 1048578 < IZR c < 1048577) by lra. destruct H as (H1 & H2).
  change 1048577 with (IZR 1048577) in H2. change (- 1048578) with (IZR (-1048578)) in H1. apply lt_IZR in H1, H2. lia.
Qed.

(** ** one axis *)
Section Axis.
  Variables (s e : f32) (c : Z).
  Hypothesis Fs : ffin s = true.
  Hypothesis Fe : ffin e = true.
  Hypothesis Bs : Rabs (FR s) <= 1048576.
  Hypothesis Be : Rabs (FR e) <= 1048576.
  Hypothesis Hc : scaled_grid_axis s = Some c.
  Hypothesis Hr : bpow radix2 (-60) <= Rabs (FR e - FR s).
  Definition ax_sg : Z := sgnR (FR e - FR s).
  Definition ax_len : R := Rabs (FR e - FR s).
  (** distance along the axis from the start to the first grid plane ahead *)
  Definition ax_first : R := IZR ax_sg * (IZR c + IZR (Z.max 0 ax_sg) - FR s).
  Definition ax_t (k : nat) : f32 := Nat.iter k (fun t => fadd t (axis_dt (fsub e s))) (axis_t0 s c (fsub e s)).

  Lemma ax_len_pos : 0 < ax_len.
  Proof. unfold ax_len. pose proof (bpow_gt_0 radix2 (-60)). lra. Qed.
  Lemma ax_sg_cases : (ax_sg = 1%Z /\ ax_len = FR e - FR s) \/ (ax_sg = (-1)%Z /\ ax_len = - (FR e - FR s)).
  Proof.
    pose proof ax_len_pos as P. unfold ax_sg, sgnR, ax_len in *.
    destruct (Rlt_dec (FR e - FR s) 0) as [L|L]; [right; rewrite Rabs_left by lra; auto|].
    destruct (Rlt_dec 0 (FR e - FR s)) as [L'|L']; [left; rewrite Rabs_right by lra; auto|].
    assert (FR e - FR s = 0) by lra. rewrite H, Rabs_R0 in P. lra.
  Qed.
  Lemma ax_c : IZR c - 2 / 1000000 <= FR s /\ FR s < IZR c + 1 /\ (Z.abs c <= 2 ^ 24)%Z.
  Proof. exact (start_cell s c Bs Hc). Qed.
  Lemma ax_first_range : - 2 / 1000000 <= ax_first <= 1 + 2 / 1000000.
  Proof.
    destruct ax_c as (C1 & C2 & _). unfold ax_first.
    destruct ax_sg_cases as [(E & _) | (E & _)]; rewrite E; mx; lra.
  Qed.

  Lemma sigma_sq : IZR ax_sg * IZR ax_sg = 1 /\ FR e - FR s = IZR ax_sg * ax_len.
  Proof. destruct ax_sg_cases as [(E & E2) | (E & E2)]; rewrite E, E2; split; ring. Qed.
  Lemma len_bound : ax_len <= 2097152.
  Proof. unfold ax_len. apply Rabs_le_inv in Bs, Be. apply Rabs_le. lra. Qed.

  Lemma ray_rel : ffin (fsub e s) = true /\ signum (fsub e s) = ax_sg /\
    exists d, Rabs d <= u32r /\ FR (fsub e s) = (IZR ax_sg * ax_len) * (1 + d).
  Proof.
    assert (B : Rabs (FR e - FR s) <= bpow radix2 127).
    { pose proof len_bound as L. unfold ax_len in L. eapply Rle_trans; [exact L|].
      change 2097152 with (bpow radix2 21). apply bpow_le. lia. }
    destruct (fsub_rel e s Fe Fs B) as (F & d & Hd & E). split; auto. split; [apply signum_sub; auto|].
    exists d. split; auto. rewrite E. destruct sigma_sq as (_ & ->). reflexivity.
  Qed.

  (** [x / ray], multiplied back by the length of the ray *)
  Lemma div_ray : forall x X, ffin x = true -> IZR ax_sg * FR x = X -> Rabs X <= 3 ->
    ffin (fdiv x (fsub e s)) = true /\ Rabs (FR (fdiv x (fsub e s)) * ax_len - X) <= 21 / 10 * u32r * Rabs X + / 1000000000000.
  Proof.
    intros x X Fx EX BX. destruct ray_rel as (Fr & _ & d & Hd & Er). pose proof ax_len_pos as LP. pose proof len_bound as LB.
    destruct sigma_sq as (SS & _). set (sg := IZR ax_sg) in *.
    assert (Hd' := Hd). apply Rabs_le_inv in Hd'. unfold u32r in *.
    assert (D1 : 0 < 1 + d) by lra.
    assert (Rn : FR (fsub e s) <> 0).
    { rewrite Er. assert (sg <> 0) by (intro Z; rewrite Z in SS; lra). repeat apply Rmult_integral_contrapositive_currified; lra. }
    assert (Q : FR x / FR (fsub e s) = X / ax_len / (1 + d)).
    { assert (sg <> 0) by (intro Z; rewrite Z in SS; lra).
      assert (Ex : FR x = sg * X) by (rewrite <- EX, <- Rmult_assoc, SS; ring).
      rewrite Er, Ex. field. repeat split; lra. }
    assert (QB : Rabs (FR x / FR (fsub e s)) <= bpow radix2 127).
    { rewrite Q. unfold Rdiv. rewrite !Rabs_mult, !Rabs_inv. rewrite (Rabs_pos_eq ax_len), (Rabs_pos_eq (1 + d)) by lra.
      assert (/ ax_len <= bpow radix2 60).
      { change 60%Z with (- (-60))%Z. rewrite bpow_opp. apply Rinv_le; [apply bpow_gt_0|]. unfold ax_len. auto. }
      assert (/ (1 + d) <= 2) by (replace 2 with (/ / 2) by lra; apply Rinv_le; lra).
      assert (0 < / ax_len) by (apply Rinv_0_lt_compat; auto). assert (0 < / (1 + d)) by (apply Rinv_0_lt_compat; auto).
      pose proof (Rabs_pos X). apply Rle_trans with (3 * bpow radix2 60 * 2).
      - apply Rmult_le_compat; try lra; [apply Rmult_le_pos; lra|]. apply Rmult_le_compat; lra.
      - apply Rle_trans with (bpow radix2 3 * bpow radix2 60).
        + change (bpow radix2 3) with 8. pose proof (bpow_gt_0 radix2 60). lra.
        + rewrite <- bpow_plus. apply bpow_le. lia. }
    destruct (fdiv_rel x (fsub e s) Fx Rn QB) as (F & d2 & et & Hd2 & Het & E). split; auto.
    rewrite E, Q. replace ((X / ax_len / (1 + d) * (1 + d2) + et) * ax_len - X) with (X * ((1 + d2) / (1 + d) - 1) + et * ax_len) by (field; lra).
    unfold u32r in Hd2. apply Rabs_le_inv in Hd2.
    assert (G : Rabs ((1 + d2) / (1 + d) - 1) <= 21 / 10 * / 16777216).
    { replace ((1 + d2) / (1 + d) - 1) with ((d2 - d) / (1 + d)) by (field; lra).
      apply Rabs_le. split.
      - apply Rmult_le_reg_r with (1 + d); auto. replace ((d2 - d) / (1 + d) * (1 + d)) with (d2 - d) by (field; lra). nra.
      - apply Rmult_le_reg_r with (1 + d); auto. replace ((d2 - d) / (1 + d) * (1 + d)) with (d2 - d) by (field; lra). nra. }
    eapply Rle_trans; [apply Rabs_triang|]. apply Rplus_le_compat.
    - rewrite Rabs_mult, Rmult_comm. apply Rmult_le_compat_r; [apply Rabs_pos|exact G].
    - rewrite Rabs_mult, (Rabs_pos_eq ax_len) by lra.
      apply Rle_trans with (t32r * 2097152); [apply Rmult_le_compat; try lra; apply Rabs_pos|].
      unfold t32r. change 2097152 with (bpow radix2 21). rewrite <- bpow_plus.
      apply Rle_trans with (bpow radix2 (-50)); [apply bpow_le; lia|]. change (bpow radix2 (-50)) with (/ 1125899906842624). lra.
  Qed.

  Lemma ax_dt : ffin (axis_dt (fsub e s)) = true /\ Rabs (FR (axis_dt (fsub e s)) * ax_len - 1) <= 22 / 10 * u32r.
  Proof.
    destruct ray_rel as (_ & Sg & _). unfold axis_dt. rewrite Sg.
    destruct (f32_of_Z_R ax_sg) as (E & F); [destruct ax_sg_cases as [(-> & _) | (-> & _)]; lia|].
    destruct (div_ray (f32_of_Z ax_sg) 1) as (D1 & D2); auto.
    - rewrite E. apply sigma_sq.
    - rewrite Rabs_R1; lra.
    - split; auto. eapply Rle_trans; [exact D2|]. rewrite Rabs_R1. unfold u32r. lra.
  Qed.

  Lemma ax_t0 : ffin (ax_t 0) = true /\ Rabs (FR (ax_t 0) * ax_len - ax_first) <= 6 * u32r.
  Proof.
    destruct ray_rel as (_ & Sg & _). unfold ax_t. cbn [Nat.iter]. unfold axis_t0. rewrite Sg.
    destruct ax_c as (C1 & C2 & C3). destruct (f32_of_Z_R c C3) as (Ec & Fc).
    destruct (f32_of_Z_R (Z.max 0 ax_sg)) as (Eg & Fg); [destruct ax_sg_cases as [(-> & _) | (-> & _)]; lia|].
    assert (P127 : 4 <= bpow radix2 127) by (change 4 with (bpow radix2 2); apply bpow_le; lia).
    assert (G01 : 0 <= IZR (Z.max 0 ax_sg) <= 1) by (destruct ax_sg_cases as [(-> & _) | (-> & _)]; mx; lra).
    destruct (fsub_rel s (f32_of_Z c) Fs Fc) as (F1 & e1 & He1 & E1).
    { rewrite Ec. apply Rabs_le. lra. }
    rewrite Ec in E1. unfold u32r in *. apply Rabs_le_inv in He1.
    assert (M1 : Rabs ((FR s - IZR c) * e1) <= 11 / 10 * / 16777216).
    { rewrite Rabs_mult. apply Rle_trans with (11 / 10 * / 16777216); [|lra]. apply Rmult_le_compat; try apply Rabs_pos; apply Rabs_le; lra. }
    apply Rabs_le_inv in M1.
    set (sh := fsub s (f32_of_Z c)) in *. assert (E1' : FR sh = (FR s - IZR c) + (FR s - IZR c) * e1) by (rewrite E1; ring).
    destruct (fsub_rel (f32_of_Z (Z.max 0 ax_sg)) sh Fg F1) as (F2 & e2 & He2 & E2).
    { rewrite Eg, E1'. apply Rabs_le. lra. }
    rewrite Eg in E2. unfold u32r in He2. apply Rabs_le_inv in He2.
    set (d := fsub _ sh) in *. set (y := IZR (Z.max 0 ax_sg) - FR sh) in *.
    assert (M2 : Rabs (y * e2) <= 23 / 10 * / 16777216).
    { rewrite Rabs_mult. apply Rmult_le_compat; try apply Rabs_pos; apply Rabs_le; unfold y; rewrite ?E1'; lra. }
    pose proof ax_first_range as AR.
    assert (N : IZR ax_sg * FR d = ax_first + IZR ax_sg * (y * e2 - (FR s - IZR c) * e1)).
    { rewrite E2. unfold ax_first, y. rewrite E1'. ring. }
    apply Rabs_le_inv in M2.
    assert (N2 : Rabs (IZR ax_sg * FR d - ax_first) <= 34 / 10 * / 16777216).
    { rewrite N. replace (ax_first + IZR ax_sg * (y * e2 - (FR s - IZR c) * e1) - ax_first) with (IZR ax_sg * (y * e2 - (FR s - IZR c) * e1)) by ring.
      apply Rabs_le. destruct ax_sg_cases as [(-> & _) | (-> & _)]; lra. }
    assert (N3 := N2). apply Rabs_le_inv in N3.
    destruct (div_ray d (IZR ax_sg * FR d) F2 eq_refl) as (D1 & D2).
    { apply Rabs_le. lra. }
    split; auto.
    assert (B : Rabs (IZR ax_sg * FR d) <= 1001 / 1000) by (apply Rabs_le; lra).
    unfold u32r in D2. unfold Nat.iter, nat_rect.
    replace (FR (fdiv d (fsub e s)) * ax_len - ax_first)
      with ((FR (fdiv d (fsub e s)) * ax_len - IZR ax_sg * FR d) + (IZR ax_sg * FR d - ax_first)) by ring.
    eapply Rle_trans; [apply Rabs_triang|]. lra.
  Qed.

  Definition ax_err (k : R) : R := (k + 4) * (k + 4) / 16777216.
  Lemma ax_t_S : forall k, ax_t (S k) = fadd (ax_t k) (axis_dt (fsub e s)).
  Proof. reflexivity. Qed.

  Lemma ax_t_err : forall k, (k <= 2048)%nat ->
    ffin (ax_t k) = true /\ Rabs (FR (ax_t k) * ax_len - (ax_first + INR k)) <= ax_err (INR k).
  Proof.
    destruct ax_dt as (Fd & Hd). apply Rabs_le_inv in Hd. unfold u32r in Hd. pose proof ax_len_pos as LP. pose proof ax_first_range as AR.
    induction k as [|k IH]; intros Hk.
    - destruct ax_t0 as (F & B). split; auto. change (INR 0) with 0. rewrite Rplus_0_r.
      eapply Rle_trans; [exact B|]. unfold ax_err, u32r. lra.
    - destruct IH as (F & B); [lia|]. rewrite ax_t_S. set (t := ax_t k) in *. set (dt := axis_dt (fsub e s)) in *.
      assert (K : 0 <= INR k <= 2048) by (split; [apply pos_INR|]; replace 2048 with (INR 2048) by (rewrite INR_IZR_INZ; reflexivity); apply le_INR; lia).
      assert (EB : ax_err (INR k) <= / 2). { unfold ax_err. assert ((INR k + 4) * (INR k + 4) <= 2052 * 2052) by nra. lra. }
      apply Rabs_le_inv in B.
      assert (S1 : Rabs ((FR t + FR dt) * ax_len) <= INR k + 3). { rewrite Rmult_plus_distr_r. apply Rabs_le. lra. }
      assert (QB : Rabs (FR t + FR dt) <= bpow radix2 127).
      { replace (FR t + FR dt) with ((FR t + FR dt) * ax_len * / ax_len) by (field; lra). rewrite Rabs_mult.
        assert (/ ax_len <= bpow radix2 60).
        { change 60%Z with (- (-60))%Z. rewrite bpow_opp. apply Rinv_le; [apply bpow_gt_0|]. unfold ax_len. auto. }
        assert (0 < / ax_len) by (apply Rinv_0_lt_compat; auto). rewrite (Rabs_pos_eq (/ ax_len)) by lra.
        apply Rle_trans with (bpow radix2 12 * bpow radix2 60).
        - apply Rmult_le_compat; try lra; try apply Rabs_pos. change (bpow radix2 12) with 4096. lra.
        - rewrite <- bpow_plus. apply bpow_le. lia. }
      destruct (fadd_rel t dt F Fd QB) as (F' & d & Hd' & E). split; auto. rewrite S_INR, E.
      assert (M : Rabs ((FR t + FR dt) * ax_len * d) <= (INR k + 3) * / 16777216).
      { rewrite Rabs_mult. unfold u32r in Hd'. apply Rmult_le_compat; auto; apply Rabs_pos. }
      apply Rabs_le_inv in M.
      replace ((FR t + FR dt) * (1 + d) * ax_len - (ax_first + (INR k + 1)))
        with ((FR t * ax_len - (ax_first + INR k)) + (FR dt * ax_len - 1) + (FR t + FR dt) * ax_len * d) by ring.
      assert (X : ax_err (INR k + 1) = ax_err (INR k) + (2 * INR k + 9) / 16777216) by (unfold ax_err; field).
      rewrite X. apply Rabs_le. lra.
  Qed.
  Lemma ax_t_mono : forall j k, (j <= k)%nat -> (k <= 2048)%nat -> FR (ax_t j) <= FR (ax_t k).
  Proof.
    intros j k Hj. induction Hj as [|k Hj IH]; intros Hk; [lra|].
    eapply Rle_trans; [apply IH; lia|]. destruct ax_dt as (Fd & Hd). apply Rabs_le_inv in Hd. unfold u32r in Hd. pose proof ax_len_pos as LP.
    assert (P : 0 <= FR (axis_dt (fsub e s))).
    { apply Rmult_le_reg_r with ax_len; auto. lra. }
    destruct (ax_t_err k ltac:(lia)) as (F & _). destruct (ax_t_err (S k) Hk) as (F' & _). rewrite ax_t_S in *.
    destruct (fadd_fin _ _ Fd F') as (_ & E & _). rewrite E. rewrite <- (rnd32_FR (ax_t k)) at 1. apply rnd32_le. lra.
  Qed.

  (** the end of the ray: [N] grid planes lie before it *)
  Lemma ax_end : forall v m, scaled_grid_axis e = Some v -> IZR v + m <= FR e <= IZR v + 1 - m ->
    exists N : nat, (v = c + ax_sg * Z.of_nat N)%Z /\ (Z.of_nat N = Z.abs (v - c))%Z /\
      ax_first + INR N >= ax_len + m /\ ax_first + INR N - 1 <= ax_len - m.
  Proof.
    intros v m Hv Hm. exists (Z.to_nat (Z.abs (v - c))).
    assert (NN : INR (Z.to_nat (Z.abs (v - c))) = IZR (Z.abs (v - c))) by (rewrite INR_IZR_INZ, Z2Nat.id by lia; auto).
    rewrite Z2Nat.id by lia. rewrite NN.
    destruct (scaled_axis s c Hc) as (_ & _ & Ec & L1 & L2). destruct (scaled_axis e v Hv) as (_ & _ & Ev & L3 & L4).
    destruct kEpsilon_R as ((K0 & K1) & KF).
    assert (MM : forall a b, scaled_grid_axis a <> None -> scaled_grid_axis b <> None -> FR a <= FR b ->
              FR (fadd a kEpsilon) <= FR (fadd b kEpsilon)).
    { intros a b Ha Hb Hab. assert (FF : forall x, scaled_grid_axis x <> None -> ffin (fadd x kEpsilon) = true).
      { intros x Hx. unfold scaled_grid_axis in Hx. destruct (fadd x kEpsilon); auto; elim Hx; reflexivity. }
      destruct (fadd_fin a kEpsilon KF (FF a Ha)) as (_ & -> & _). destruct (fadd_fin b kEpsilon KF (FF b Hb)) as (_ & -> & _).
      apply rnd32_le. lra. }
    unfold ax_first. pose proof ax_len_pos as LP.
    destruct ax_sg_cases as [(Sg & E) | (Sg & E)]; rewrite Sg; mx.
    - assert (c <= v)%Z. { rewrite Ec, Ev. apply Zfloor_le. apply MM; try congruence. lra. }
      rewrite Z.abs_eq by lia. rewrite minus_IZR. split; [lia|]. split; [auto|]. lra.
    - assert (v <= c)%Z. { rewrite Ec, Ev. apply Zfloor_le. apply MM; try congruence. lra. }
      rewrite Z.abs_neq by lia. rewrite opp_IZR, minus_IZR. split; [lia|]. split; [auto|]. lra.
  Qed.

  (** where the cell reached after [k] crossings lies along the ray *)
  Lemma ax_cell : forall (k : nat) t m, ax_first + INR k - 1 - m <= t * ax_len <= ax_first + INR k + m ->
    in_cell m (FR s + t * (FR e - FR s)) (c + ax_sg * Z.of_nat k).
  Proof.
    intros k t m H. unfold in_cell. rewrite plus_IZR, mult_IZR, <- INR_IZR_INZ. unfold ax_first in H.
    destruct ax_sg_cases as [(Sg & E) | (Sg & E)]; rewrite Sg in *; revert H; mx; rewrite E; intros H; lra.
  Qed.
End Axis.

(** ** three axes *)
Lemma minCoeff_min : forall t, ffin (vx t) = true -> ffin (vy t) = true -> ffin (vz t) = true ->
  (minCoeff t < 3)%nat /\
  FR (get3 (minCoeff t) t) <= FR (vx t) /\ FR (get3 (minCoeff t) t) <= FR (vy t) /\ FR (get3 (minCoeff t) t) <= FR (vz t).
Proof.
  intros [x y z] Fx Fy Fz. unfold minCoeff. cbn [vx vy vz] in *.
  assert (C : forall a b, ffin a = true -> ffin b = true -> (flt a b = true /\ FR a < FR b) \/ (flt a b = false /\ FR b <= FR a)).
  { intros a b Fa Fb. destruct (flt a b) eqn:E.
    - left. split; auto. apply flt_R; auto.
    - right. split; auto. apply Rnot_lt_le. intro L. apply flt_R in L; auto. congruence. }
  destruct (C y x Fy Fx) as [(-> & L1) | (-> & L1)].
  - destruct (C z y Fz Fy) as [(-> & L2) | (-> & L2)]; cbn [get3 vx vy vz]; repeat split; try lia; lra.
  - destruct (C z x Fz Fx) as [(-> & L2) | (-> & L2)]; cbn [get3 vx vy vz]; repeat split; try lia; lra.
Qed.

Fixpoint after (n : nat) (c : caster) : caster :=
  match n with O => c | S n' => after n' (fst (nextRayIndex c)) end.
Lemma after_S : forall n c, after (S n) c = fst (nextRayIndex (after n c)).
Proof. induction n as [|n IH]; intros c; [reflexivity|]. cbn [after] in *. rewrite <- IH. reflexivity. Qed.
Lemma loop_nth : forall fuel c l, cast_loop fuel c = Some l -> forall n, (n < length l)%nat ->
  nth_error l n = Some (rc_cur (after n c)).
Proof.
  induction fuel as [|fuel IH]; intros c l H n Hn; [discriminate|]. cbn [cast_loop] in H.
  destruct (nextRayIndex c) as [c' [i|]] eqn:E.
  - destruct (cast_loop fuel c') as [l'|] eqn:E2; [|discriminate]. injection H as <-.
    destruct n as [|n].
    + cbn. f_equal. unfold nextRayIndex in E. destruct (rc_len c <? rc_step c)%Z; [discriminate|]. injection E as _ <-. reflexivity.
    + cbn [nth_error after]. rewrite E. apply (IH c' l' E2). cbn in Hn. lia.
  - injection H as <-. cbn in Hn. lia.
Qed.

Section Ray.
  Variables (s e : pt3) (vs ve : idx3).
  Hypothesis Os : scaled_ok s.
  Hypothesis Oe : scaled_ok e.
  Hypothesis Ob : oblique s e.
  Hypothesis Hs : getGridIndexFromScaledPoint s = Some vs.
  Hypothesis He : getGridIndexFromScaledPoint e = Some ve.
  Hypothesis HL : (manhattan vs ve <= 2000)%Z.
  Let L := Z.to_nat (manhattan vs ve).
  Definition tx := ax_t (vx s) (vx e) (vx vs).
  Definition ty := ax_t (vy s) (vy e) (vy vs).
  Definition tz := ax_t (vz s) (vz e) (vz vs).

  (** the state reached after [kx], [ky] and [kz] crossings *)
  Record reached (c : caster) (kx ky kz : nat) : Prop := {
    r_cur : (rc_cur c = V3 (vx vs + ax_sg (vx s) (vx e) * Z.of_nat kx) (vy vs + ax_sg (vy s) (vy e) * Z.of_nat ky)
                          (vz vs + ax_sg (vz s) (vz e) * Z.of_nat kz))%Z;
    r_t : rc_t c = V3 (tx kx) (ty ky) (tz kz);
    r_sign : rc_sign c = direction s e;
    r_dt : rc_dt c = map3 axis_dt (pt_sub e s);
    r_len : rc_len c = manhattan vs ve;
    r_step : rc_step c = Z.of_nat (kx + ky + kz) }.
  (** [m]: no later than every crossing to come, no earlier than every crossing made *)
  Definition timed (m : R) (kx ky kz : nat) : Prop :=
    m <= FR (tx kx) /\ m <= FR (ty ky) /\ m <= FR (tz kz) /\
    (forall k, kx = S k -> FR (tx k) <= m) /\ (forall k, ky = S k -> FR (ty k) <= m) /\ (forall k, kz = S k -> FR (tz k) <= m).

  Lemma axes_fin : forall k, (k <= 2048)%nat -> ffin (tx k) = true /\ ffin (ty k) = true /\ ffin (tz k) = true.
  Proof.
    intros k Hk. destruct Os as ((A1&A2)&(A3&A4)&(A5&A6)), Oe as ((B1&B2)&(B3&B4)&(B5&B6)), Ob as (C1 & C2 & C3).
    destruct (scaled_point s vs Hs) as (S1 & S2 & S3).
    repeat split; [apply (ax_t_err (vx s) (vx e) (vx vs))|apply (ax_t_err (vy s) (vy e) (vy vs))|apply (ax_t_err (vz s) (vz e) (vz vs))]; auto.
  Qed.
  Lemma axes_mono : forall j k, (j <= k)%nat -> (k <= 2048)%nat ->
    FR (tx j) <= FR (tx k) /\ FR (ty j) <= FR (ty k) /\ FR (tz j) <= FR (tz k).
  Proof.
    intros j k Hj Hk. destruct Os as ((A1&A2)&(A3&A4)&(A5&A6)), Oe as ((B1&B2)&(B3&B4)&(B5&B6)), Ob as (C1 & C2 & C3).
    destruct (scaled_point s vs Hs) as (S1 & S2 & S3).
    repeat split; [apply (ax_t_mono (vx s) (vx e) (vx vs))|apply (ax_t_mono (vy s) (vy e) (vy vs))|apply (ax_t_mono (vz s) (vz e) (vz vs))]; auto.
  Qed.

  Lemma reached_step : forall c kx ky kz m, reached c kx ky kz -> timed m kx ky kz -> (kx + ky + kz <= L)%nat ->
    exists kx' ky' kz' m', reached (fst (nextRayIndex c)) kx' ky' kz' /\ timed m' kx' ky' kz' /\
      (kx' + ky' + kz' = S (kx + ky + kz))%nat.
  Proof.
    intros c kx ky kz m [R1 R2 R3 R4 R5 R6] (T1&T2&T3&T4&T5&T6) Hn.
    assert (L0 : (0 <= manhattan vs ve)%Z) by (unfold manhattan; lia).
    assert (LL : (L <= 2000)%nat) by (unfold L; lia).
    destruct (axes_fin kx ltac:(lia)) as (Fx & _ & _). destruct (axes_fin ky ltac:(lia)) as (_ & Fy & _). destruct (axes_fin kz ltac:(lia)) as (_ & _ & Fz).
    unfold nextRayIndex. replace (rc_len c <? rc_step c)%Z with false by (symmetry; apply Z.ltb_ge; rewrite R5, R6; unfold L in Hn; lia).
    cbn [fst]. rewrite R2. destruct (minCoeff_min (V3 (tx kx) (ty ky) (tz kz)) Fx Fy Fz) as (_ & M1 & M2 & M3). cbn [vx vy vz] in *.
    assert (ST : u32 (rc_step c + 1) = Z.of_nat (S (kx + ky + kz))).
    { unfold u32. rewrite R6, Z.mod_small; lia. }
    assert (DX : forall k, fadd (tx k) (vx (rc_dt c)) = tx (S k)) by (intros k; rewrite R4; reflexivity).
    assert (DY : forall k, fadd (ty k) (vy (rc_dt c)) = ty (S k)) by (intros k; rewrite R4; reflexivity).
    assert (DZ : forall k, fadd (tz k) (vz (rc_dt c)) = tz (S k)) by (intros k; rewrite R4; reflexivity).
    destruct (minCoeff (V3 (tx kx) (ty ky) (tz kz))) as [|[|i]]; cbn [get3 upd3 vx vy vz] in *.
    - exists (S kx), ky, kz, (FR (tx kx)). split; [|split; [|lia]].
      + constructor; cbn [rc_cur rc_t rc_sign rc_dt rc_len rc_step]; try assumption; try (etransitivity; [exact ST|]; lia).
        * rewrite R1, R3. cbn [vx vy vz direction zip3]. f_equal. unfold ax_sg. lia.
        * f_equal. apply DX.
      + unfold timed. split; [|split; [|split; [|split; [|split]]]]; auto; try lra.
        * apply (axes_mono kx (S kx)); lia.
        * intros k Hk. injection Hk as <-. lra.
        * intros k Hk. specialize (T5 k Hk). lra.
        * intros k Hk. specialize (T6 k Hk). lra.
    - exists kx, (S ky), kz, (FR (ty ky)). split; [|split; [|lia]].
      + constructor; cbn [rc_cur rc_t rc_sign rc_dt rc_len rc_step]; try assumption; try (etransitivity; [exact ST|]; lia).
        * rewrite R1, R3. cbn [vx vy vz direction zip3]. f_equal. unfold ax_sg. lia.
        * f_equal. apply DY.
      + unfold timed. split; [|split; [|split; [|split; [|split]]]]; auto; try lra.
        * apply (axes_mono ky (S ky)); lia.
        * intros k Hk. specialize (T4 k Hk). lra.
        * intros k Hk. injection Hk as <-. lra.
        * intros k Hk. specialize (T6 k Hk). lra.
    - exists kx, ky, (S kz), (FR (tz kz)). split; [|split; [|lia]].
      + constructor; cbn [rc_cur rc_t rc_sign rc_dt rc_len rc_step]; try assumption; try (etransitivity; [exact ST|]; lia).
        * rewrite R1, R3. cbn [vx vy vz direction zip3]. f_equal. unfold ax_sg. lia.
        * f_equal. apply DZ.
      + unfold timed. split; [|split; [|split; [|split; [|split]]]]; auto; try lra.
        * apply (axes_mono kz (S kz)); lia.
        * intros k Hk. specialize (T4 k Hk). lra.
        * intros k Hk. specialize (T5 k Hk). lra.
        * intros k Hk. injection Hk as <-. lra.
  Qed.

  Lemma reached_all : forall g c, setupRayCaster g s e = Ok c -> forall n, (n <= L)%nat ->
    exists kx ky kz m, reached (after n c) kx ky kz /\ timed m kx ky kz /\ (kx + ky + kz = n)%nat.
  Proof.
    intros g c Hc n. rewrite (setup_ok g s e vs ve Hs He) in Hc by lia. injection Hc as Hc.
    induction n as [|n IH]; intros Hn.
    - exists 0%nat, 0%nat, 0%nat, (Rmin (FR (tx 0)) (Rmin (FR (ty 0)) (FR (tz 0)))). split; [|split; [|reflexivity]].
      + rewrite <- Hc. constructor; cbn [after rc_cur rc_t rc_sign rc_dt rc_len rc_step]; auto.
        rewrite !Z.mul_0_r, !Z.add_0_r. destruct vs; reflexivity.
      + repeat split; try discriminate.
        * apply Rmin_l.
        * eapply Rle_trans; [apply Rmin_r|apply Rmin_l].
        * eapply Rle_trans; [apply Rmin_r|apply Rmin_r].
    - destruct IH as (kx & ky & kz & m & A & B & C); [lia|]. rewrite after_S.
      destruct (reached_step _ _ _ _ _ A B ltac:(lia)) as (kx' & ky' & kz' & m' & A' & B' & C').
      exists kx', ky', kz', m'. split; auto. split; auto. lia.
  Qed.

  (** ** geometry *)
  Hypothesis Win : well_inside (slack (manhattan vs ve)) e ve.
  Let mu := slack (manhattan vs ve).

  (** what is known of one axis after [k] of its [N] crossings *)
  Record axis_ok (t : nat -> f32) (first len : R) (N : nat) : Prop := {
    k_len : 0 < len;
    k_first : - 2 / 1000000 <= first <= 1 + 2 / 1000000;
    k_err : forall k, (k <= L)%nat -> Rabs (FR (t k) * len - (first + INR k)) <= mu - 3 / 1000000;
    k_mono : forall j k, (j <= k)%nat -> (k <= 2048)%nat -> FR (t j) <= FR (t k);
    k_beyond : first + INR N >= len + mu;
    k_before : first + INR N - 1 <= len - mu }.
  Lemma mu_pos : 3 / 1000000 <= mu.
  Proof.
    unfold mu, slack. assert (0 <= (IZR (manhattan vs ve) + 4) * (IZR (manhattan vs ve) + 4)) by apply Rle_0_sqr. lra.
  Qed.
  Lemma err_mu : forall k, (k <= L)%nat -> ax_err (INR k) <= mu - 3 / 1000000.
  Proof.
    intros k Hk. unfold mu, slack, ax_err. assert (0 <= manhattan vs ve)%Z by (unfold manhattan; lia).
    assert (INR k <= IZR (manhattan vs ve)).
    { rewrite INR_IZR_INZ. apply IZR_le. unfold L in Hk. lia. }
    pose proof (pos_INR k). assert ((INR k + 4) * (INR k + 4) <= (IZR (manhattan vs ve) + 4) * (IZR (manhattan vs ve) + 4)) by nra. lra.
  Qed.

  Lemma axes_ok : exists Nx Ny Nz : nat, (Nx + Ny + Nz = L)%nat /\
    (ve = V3 (vx vs + ax_sg (vx s) (vx e) * Z.of_nat Nx) (vy vs + ax_sg (vy s) (vy e) * Z.of_nat Ny)
            (vz vs + ax_sg (vz s) (vz e) * Z.of_nat Nz))%Z /\
    axis_ok tx (ax_first (vx s) (vx e) (vx vs)) (ax_len (vx s) (vx e)) Nx /\
    axis_ok ty (ax_first (vy s) (vy e) (vy vs)) (ax_len (vy s) (vy e)) Ny /\
    axis_ok tz (ax_first (vz s) (vz e) (vz vs)) (ax_len (vz s) (vz e)) Nz.
  Proof.
    destruct Os as ((A1&A2)&(A3&A4)&(A5&A6)), Oe as ((B1&B2)&(B3&B4)&(B5&B6)), Ob as (C1 & C2 & C3).
    destruct (scaled_point s vs Hs) as (S1 & S2 & S3). destruct (scaled_point e ve He) as (E1 & E2 & E3).
    destruct Win as (W1 & W2 & W3). fold mu in W1, W2, W3.
    destruct (ax_end (vx s) (vx e) (vx vs) S1 C1 (vx ve) mu E1 W1) as (Nx & X1 & X2 & X3 & X4).
    destruct (ax_end (vy s) (vy e) (vy vs) S2 C2 (vy ve) mu E2 W2) as (Ny & Y1 & Y2 & Y3 & Y4).
    destruct (ax_end (vz s) (vz e) (vz vs) S3 C3 (vz ve) mu E3 W3) as (Nz & Z1 & Z2 & Z3 & Z4).
    exists Nx, Ny, Nz. split; [unfold L, manhattan; lia|]. split; [rewrite <- X1, <- Y1, <- Z1; destruct ve; reflexivity|].
    assert (LL : (L <= 2000)%nat) by (unfold L; lia).
    split; [|split]; constructor; auto;
      try (apply ax_len_pos; assumption); try (apply ax_first_range; assumption);
      try (intros j k Hj Hk; first [apply (ax_t_mono (vx s) (vx e) (vx vs))|apply (ax_t_mono (vy s) (vy e) (vy vs))|apply (ax_t_mono (vz s) (vz e) (vz vs))]; auto; fail);
      intros k Hk; (eapply Rle_trans; [|apply (err_mu k Hk)]);
      first [apply (ax_t_err (vx s) (vx e) (vx vs))|apply (ax_t_err (vy s) (vy e) (vy vs))|apply (ax_t_err (vz s) (vz e) (vz vs))]; auto; lia.
  Qed.

  (** a crossing past the end on one axis and a crossing still due on another do not meet *)
  Lemma no_overtake : forall t1 f1 l1 N1 t2 f2 l2 N2 k1 k2 m, axis_ok t1 f1 l1 N1 -> axis_ok t2 f2 l2 N2 ->
    (N1 <= L)%nat -> (N2 <= L)%nat -> (k1 <= L)%nat -> (k1 < N1)%nat -> (N2 < k2)%nat -> (k2 <= L)%nat ->
    m <= FR (t1 k1) -> (forall k, k2 = S k -> FR (t2 k) <= m) -> False.
  Proof.
    intros t1 f1 l1 N1 t2 f2 l2 N2 k1 k2 m H1 H2 LN1 LN2 Lk1 A B Lk2 M1 M2. pose proof mu_pos as MU.
    assert (LL : (L <= 2000)%nat) by (unfold L; lia).
    destruct k2 as [|k2]; [lia|]. specialize (M2 k2 eq_refl).
    pose proof (k_mono _ _ _ _ H2 N2 k2 ltac:(lia) ltac:(lia)) as Q2. pose proof (k_mono _ _ _ _ H1 k1 (N1 - 1) ltac:(lia) ltac:(lia)) as Q1.
    pose proof (k_err _ _ _ _ H2 N2 LN2) as P2. pose proof (k_err _ _ _ _ H1 (N1 - 1) ltac:(lia)) as P1.
    apply Rabs_le_inv in P1, P2. rewrite minus_INR in P1 by lia. change (INR 1) with 1 in P1.
    pose proof (k_beyond _ _ _ _ H2) as D2. pose proof (k_before _ _ _ _ H1) as D1.
    pose proof (k_len _ _ _ _ H1) as L1. pose proof (k_len _ _ _ _ H2) as L2.
    assert (G2 : 1 < FR (t2 N2)). { apply Rmult_lt_reg_r with l2; auto. lra. }
    assert (G1 : FR (t1 (N1 - 1)%nat) < 1). { apply Rmult_lt_reg_r with l1; auto. lra. }
    lra.
  Qed.

  Lemma never_past : forall Nx Ny Nz kx ky kz m, (Nx + Ny + Nz = L)%nat ->
    axis_ok tx (ax_first (vx s) (vx e) (vx vs)) (ax_len (vx s) (vx e)) Nx ->
    axis_ok ty (ax_first (vy s) (vy e) (vy vs)) (ax_len (vy s) (vy e)) Ny ->
    axis_ok tz (ax_first (vz s) (vz e) (vz vs)) (ax_len (vz s) (vz e)) Nz ->
    timed m kx ky kz -> (kx + ky + kz <= L)%nat -> (kx <= Nx /\ ky <= Ny /\ kz <= Nz)%nat.
  Proof.
    intros Nx Ny Nz kx ky kz m NL HX HY HZ (T1&T2&T3&T4&T5&T6) Hn.
    assert (X : (kx <= Nx)%nat).
    { destruct (le_lt_dec kx Nx) as [|G]; auto. exfalso. destruct (le_lt_dec Ny ky) as [Y|Y]; [destruct (le_lt_dec Nz kz) as [Z|Z]; [lia|]|].
      - eapply (no_overtake _ _ _ _ _ _ _ _ kz kx m HZ HX); eauto; lia.
      - eapply (no_overtake _ _ _ _ _ _ _ _ ky kx m HY HX); eauto; lia. }
    assert (Y : (ky <= Ny)%nat).
    { destruct (le_lt_dec ky Ny) as [|G]; auto. exfalso. destruct (le_lt_dec Nx kx) as [Y|Y]; [destruct (le_lt_dec Nz kz) as [Z|Z]; [lia|]|].
      - eapply (no_overtake _ _ _ _ _ _ _ _ kz ky m HZ HY); eauto; lia.
      - eapply (no_overtake _ _ _ _ _ _ _ _ kx ky m HX HY); eauto; lia. }
    assert (Z : (kz <= Nz)%nat).
    { destruct (le_lt_dec kz Nz) as [|G]; auto. exfalso. destruct (le_lt_dec Nx kx) as [A|A]; [destruct (le_lt_dec Ny ky) as [Z|Z]; [lia|]|].
      - eapply (no_overtake _ _ _ _ _ _ _ _ ky kz m HY HZ); eauto; lia.
      - eapply (no_overtake _ _ _ _ _ _ _ _ kx kz m HX HZ); eauto; lia. }
    auto.
  Qed.

  Lemma axis_near : forall t first len N k m, axis_ok t first len N -> (k <= N)%nat -> (k <= L)%nat ->
    m <= FR (t k) -> (forall j, k = S j -> FR (t j) <= m) ->
    first + INR k - 1 - mu <= Rmax 0 (Rmin m 1) * len <= first + INR k + mu.
  Proof.
    intros t first len N k m H Hk HkL M1 M2. pose proof mu_pos as MU.
    pose proof (k_len _ _ _ _ H) as LP. pose proof (k_first _ _ _ _ H) as FP.
    pose proof (k_err _ _ _ _ H k HkL) as P. apply Rabs_le_inv in P. pose proof (pos_INR k) as KP.
    pose proof (k_before _ _ _ _ H) as D1. assert (KN : INR k <= INR N) by (apply le_INR; auto).
    set (x := Rmax 0 (Rmin m 1)).
    assert (X : (x = 0 /\ m <= 0) \/ (x = m /\ 0 <= m <= 1) \/ (x = 1 /\ 1 <= m)).
    { unfold x, Rmax, Rmin. destruct (Rle_dec m 1); destruct (Rle_dec 0 _); lra. }
    assert (ML : m * len <= FR (t k) * len) by (apply Rmult_le_compat_r; lra).
    assert (X0 : 0 <= x * len) by (apply Rmult_le_pos; [unfold x; apply Rmax_l|lra]).
    split.
    - destruct k as [|j]; [change (INR 0) with 0; lra|]. specialize (M2 j eq_refl).
      pose proof (k_err _ _ _ _ H j ltac:(lia)) as Q. apply Rabs_le_inv in Q. rewrite S_INR in *.
      assert (ML2 : FR (t j) * len <= m * len) by (apply Rmult_le_compat_r; lra).
      destruct X as [(-> & G) | [(-> & G) | (-> & G)]]; try lra.
      assert (m * len <= 0 * len) by (apply Rmult_le_compat_r; lra). lra.
    - destruct X as [(-> & G) | [(-> & G) | (-> & G)]]; try lra.
      assert (1 * len <= m * len) by (apply Rmult_le_compat_r; lra). lra.
  Qed.

  Theorem ray_covers : forall g fuel l, castRay fuel g s e = Ok (Some l) -> length l = S L ->
    nth_error l L = Some ve /\ forall v, In v l -> segment_meets mu s e v.
  Proof.
    intros g fuel l Hl Hlen. unfold castRay in Hl. destruct (setupRayCaster g s e) as [c| |] eqn:Ec; try discriminate.
    cbn [rbind] in Hl. injection Hl as Hl. destruct axes_ok as (Nx & Ny & Nz & NL & Ve & HX & HY & HZ).
    assert (G : forall n, (n <= L)%nat -> exists kx ky kz m, nth_error l n = Some (V3 (vx vs + ax_sg (vx s) (vx e) * Z.of_nat kx)
       (vy vs + ax_sg (vy s) (vy e) * Z.of_nat ky) (vz vs + ax_sg (vz s) (vz e) * Z.of_nat kz))%Z /\
       timed m kx ky kz /\ (kx + ky + kz = n)%nat).
    { intros n Hn. destruct (reached_all g c Ec n Hn) as (kx & ky & kz & m & A & B & C). exists kx, ky, kz, m. split; auto.
      rewrite (loop_nth fuel c l Hl n) by lia. rewrite (r_cur _ _ _ _ A). reflexivity. }
    split.
    - destruct (G L (le_n _)) as (kx & ky & kz & m & A & B & C). rewrite A, Ve. do 2 f_equal;
      destruct (never_past Nx Ny Nz kx ky kz m NL HX HY HZ B ltac:(lia)) as (K1 & K2 & K3);
      replace kx with Nx by lia; replace ky with Ny by lia; replace kz with Nz by lia; reflexivity.
    - intros v Hv. apply In_nth_error in Hv. destruct Hv as (n & Hn).
      assert (n < length l)%nat by (apply nth_error_Some; congruence).
      destruct (G n ltac:(lia)) as (kx & ky & kz & m & A & B & C). rewrite Hn in A. injection A as ->.
      destruct (never_past Nx Ny Nz kx ky kz m NL HX HY HZ B ltac:(lia)) as (K1 & K2 & K3).
      destruct Ob as (C1 & C2 & C3). destruct B as (T1&T2&T3&T4&T5&T6).
      exists (Rmax 0 (Rmin m 1)). split.
      { split; [apply Rmax_l|]. apply Rmax_lub; [lra|apply Rmin_r]. }
      cbn [vx vy vz]. split; [|split]; apply ax_cell; auto; eapply axis_near; eauto; lia.
  Qed.
End Ray.

(** ** rays of constant x *)
Lemma fzero_of_R : forall x, ffin x = true -> FR x = 0 -> exists b, x = B754_zero 24 128 b.
Proof.
  intros x F E. destruct x as [b|b|b p Hp|b m x Hm]; try discriminate; [exists b; auto|].
  unfold FR in E. cbn [B2R] in E. apply eq_0_F2R in E. destruct b; discriminate.
Qed.
Transparent fadd fsub fdiv flt feq f32_of_Z.
Lemma zero_div_zero : forall a b, fnan (fdiv (B754_zero 24 128 a) (B754_zero 24 128 b)) = true.
Proof. reflexivity. Qed.
Lemma neg_div_zero : forall d, ffin d = true -> FR d < 0 -> fdiv d (B754_zero 24 128 false) = fminf.
Proof.
  intros d F H. destruct d as [b|b|b p Hp|b m x Hm]; try discriminate.
  - change (FR (B754_zero 24 128 b)) with 0 in H. lra.
  - destruct b; [reflexivity|]. exfalso. unfold FR in H. cbn [B2R] in H.
    pose proof (F2R_gt_0 radix2 (Float radix2 (Zpos m) x) eq_refl) as P. cbn [cond_Zopp] in H. lra.
Qed.
Lemma fadd_nan_r : forall a b, fnan b = true -> fnan (fadd a b) = true.
Proof. intros a b H. destruct b; try discriminate. destruct a; reflexivity. Qed.
Lemma fsub_self : forall x, ffin x = true -> fsub x x = B754_zero 24 128 false.
Proof.
  intros x F. destruct (fsub_R x x F F) as (E & F').
  { rewrite Rminus_diag_eq, rnd32_0, Rabs_R0 by auto. apply max32_pos. }
  rewrite Rminus_diag_eq, rnd32_0 in E by auto.
  pose proof (Bminus_correct 24 128 Hprec32 Hmax32 binop_nan_pl32 mode_NE x x F F) as P.
  change (Bminus 24 128 Hprec32 Hmax32 binop_nan_pl32 mode_NE x x) with (fsub x x) in P.
  rewrite Rlt_bool_true in P.
  2:{ rewrite Rminus_diag_eq, round_0, Rabs_R0 by (auto; apply valid_rnd_N). apply bpow_gt_0. }
  destruct P as (_ & _ & P). destruct (fzero_of_R _ F' E) as (b & Eb).
  rewrite Rminus_diag_eq, Rcompare_Eq, Eb in P by auto. cbn [Bsign] in P. rewrite Eb, P. destruct (Bsign 24 128 x); reflexivity.
Qed.
Lemma flt_minf : forall y, flt y fminf = false.
Proof.
  intros y. apply flt_false_iff. destruct (fnan y) eqn:N; [left; auto|]. right; right. cbn [ER fminf].
  pose proof max32_pos. destruct y as [b|b|b p Hp|b m x Hm]; try discriminate; cbn [ER].
  - change (FR (B754_zero 24 128 b)) with 0. lra.
  - destruct b; lra.
  - pose proof (FR_lt_max (B754_finite 24 128 b m x Hm)) as M. apply Rabs_def2 in M. lra.
Qed.
Lemma signum_zero : forall b, signum (B754_zero 24 128 b) = 0%Z.
Proof. reflexivity. Qed.
Lemma fof0 : f32_of_Z 0 = B754_zero 24 128 false.
Proof. reflexivity. Qed.
Opaque fadd fsub fdiv flt feq f32_of_Z.

Definition blocking (t : f32) : Prop := fnan t = true \/ t = fminf.
Lemma minCoeff_stuck : forall t, blocking (vx t) -> minCoeff t = 0%nat.
Proof.
  intros t H. unfold minCoeff. assert (G : forall y, flt y (vx t) = false).
  { intros y. destruct H as [H | H]; [apply flt_nan_r; auto|rewrite H; apply flt_minf]. }
  rewrite !G. reflexivity.
Qed.
Lemma loop_stuck : forall fuel c l, blocking (vx (rc_t c)) -> fnan (vx (rc_dt c)) = true -> vx (rc_sign c) = 0%Z ->
  cast_loop fuel c = Some l -> forall v, In v l -> v = rc_cur c.
Proof.
  induction fuel as [|fuel IH]; intros c l B D S H v Hv; [discriminate|]. cbn [cast_loop] in H.
  unfold nextRayIndex in H. destruct (rc_len c <? rc_step c)%Z; [injection H as <-; contradiction|].
  rewrite (minCoeff_stuck _ B) in H. cbn [get3 upd3] in H. set (c' := MkRC _ _ _ _ _ _) in H.
  destruct (cast_loop fuel c') as [l'|] eqn:E; [|discriminate]. injection H as <-.
  destruct Hv as [<- | Hv]; auto. rewrite (IH c' l') with (v := v); auto.
  - unfold c'. cbn [rc_cur]. rewrite S, Z.add_0_r. destruct (rc_cur c); reflexivity.
  - left. unfold c'. cbn [rc_t vx]. apply fadd_nan_r. exact D.
Qed.

Theorem ray_stuck : forall g s e vs ve fuel l,
  getGridIndexFromScaledPoint s = Some vs -> getGridIndexFromScaledPoint e = Some ve ->
  (manhattan vs ve < 2 ^ 32 - 1)%Z ->
  FR (vx s) = FR (vx e) -> IZR (vx vs) <= FR (vx s) -> Rabs (FR (vx s)) <= 1048576 ->
  castRay fuel g s e = Ok (Some l) -> forall v, In v l -> v = vs.
Proof.
  intros g s e vs ve fuel l Hs He HL EQ LE BS Hl v Hv. unfold castRay in Hl.
  rewrite (setup_ok g s e vs ve Hs He) in Hl by lia. cbn [rbind] in Hl. injection Hl as Hl.
  set (c := MkRC _ _ _ _ _ _) in Hl.
  destruct (scaled_point s vs Hs) as (S1 & _ & _). destruct (scaled_point e ve He) as (E1 & _ & _).
  destruct (start_cell (vx s) (vx vs) BS S1) as (C1 & C2 & C3).
  apply scaled_axis in S1, E1. destruct S1 as (Fs & _), E1 as (Fe & _).
  destruct (f32_of_Z_R (vx vs) C3) as (Ec & Fc).
  assert (P127 : 4 <= bpow radix2 127) by (change 4 with (bpow radix2 2); apply bpow_le; lia).
  destruct (fsub_R (vx e) (vx s) Fe Fs) as (Er & Fr).
  { rewrite Rminus_diag_eq, rnd32_0, Rabs_R0 by auto. apply max32_pos. }
  rewrite Rminus_diag_eq, rnd32_0 in Er by auto. destruct (fzero_of_R _ Fr Er) as (b & Rz).
  destruct (fsub_rel (vx s) (f32_of_Z (vx vs)) Fs Fc) as (F1 & e1 & He1 & E1). { rewrite Ec. apply Rabs_le. lra. }
  rewrite Ec in E1. apply Rabs_le_inv in He1. unfold u32r in He1. set (sh := fsub (vx s) (f32_of_Z (vx vs))) in *.
  assert (SH : 0 <= FR sh <= 2). { rewrite E1. split; [apply Rmult_le_pos; lra|]. nra. }
  assert (Zf : ffin (f32_of_Z 0) = true) by (rewrite fof0; reflexivity).
  destruct (fsub_rel (f32_of_Z 0) sh Zf F1) as (F2 & e2 & He2 & E2).
  { rewrite fof0. change (FR (B754_zero 24 128 false)) with 0. apply Rabs_le. lra. }
  rewrite fof0 in E2, F2. change (FR (B754_zero 24 128 false)) with 0 in E2. apply Rabs_le_inv in He2. unfold u32r in He2.
  set (d := fsub (B754_zero 24 128 false) sh) in *.
  apply (loop_stuck fuel c l); auto; unfold c; cbn [rc_t rc_dt rc_sign vx map3 pt_sub zip3 direction].
  - unfold axis_t0. rewrite Rz, signum_zero. change (Z.max 0 0) with 0%Z. rewrite fof0. fold sh. fold d.
    destruct (Req_dec (FR sh) 0) as [Z0 | Z0].
    + left. destruct (fzero_of_R d F2) as (b2 & ->); [rewrite E2, Z0; ring|]. apply zero_div_zero.
    + right. assert (N0 : FR (vx s) <> 0).
      { intro N0. apply Z0. rewrite E1, N0.
        assert (IZR (vx vs) <= 0) by lra. assert (-1 < IZR (vx vs)) by lra.
        apply le_IZR in H. apply lt_IZR in H0. replace (vx vs) with 0%Z by lia. ring. }
      assert (EE : vx e = vx s).
      { apply (B2R_inj 24 128); auto.
        - destruct (vx e) as [q|q|q p Hp|q m x Hm]; try discriminate; auto; exfalso; apply N0; rewrite EQ; reflexivity.
        - destruct (vx s) as [q|q|q p Hp|q m x Hm]; try discriminate; auto; exfalso; apply N0; reflexivity. }
      rewrite EE, (fsub_self _ Fs) in Rz. injection Rz as <-. apply neg_div_zero; [exact F2|].
      rewrite E2. assert (0 < FR sh * (1 + e2)) by (apply Rmult_lt_0_compat; lra). lra.
  - unfold axis_dt. rewrite Rz, signum_zero, fof0. apply zero_div_zero.
  - unfold sgnR. rewrite Rminus_diag_eq by auto. destruct (Rlt_dec 0 0); [lra|reflexivity].
Qed.
