(** Facts about the IEEE operations of [F32]: real-number readings of the
    operators, comparisons and conversions. *)
From Coq Require Import ZArith Bool Reals Lra Lia Psatz.
From Flocq Require Import Core IEEE754.Binary IEEE754.Bits Relative.
From Flocq Require IEEE754.BinarySingleNaN.
From Verif Require Import F32.
Open Scope R_scope.

Definition rnd32 (x : R) : R := round radix2 (FLT_exp (-149) 24) ZnearestE x.
Definition rnd64 (x : R) : R := round radix2 (FLT_exp (-1074) 53) ZnearestE x.
Definition max32 : R := bpow radix2 128.
Definition max64 : R := bpow radix2 1024.

Global Instance prec32_gt_0 : Prec_gt_0 24 := Hprec32.
Global Instance prec64_gt_0 : Prec_gt_0 53 := Hprec64.
Global Instance vexp32 : Valid_exp (FLT_exp (-149) 24).
Proof. apply FLT_exp_valid. exact Hprec32. Qed.
Global Instance vexp64 : Valid_exp (FLT_exp (-1074) 53).
Proof. apply FLT_exp_valid. exact Hprec64. Qed.

(** ** rounding *)
Lemma rnd32_le : forall x y, x <= y -> rnd32 x <= rnd32 y.
Proof. intros. apply round_le; auto with typeclass_instances. Qed.
Lemma rnd64_le : forall x y, x <= y -> rnd64 x <= rnd64 y.
Proof. intros. apply round_le; auto with typeclass_instances. Qed.

Lemma rnd32_0 : rnd32 0 = 0.
Proof. apply round_0; auto with typeclass_instances. Qed.
Lemma rnd64_0 : rnd64 0 = 0.
Proof. apply round_0; auto with typeclass_instances. Qed.

Lemma rnd32_opp : forall x, rnd32 (- x) = - rnd32 x.
Proof. intros. apply round_NE_opp. Qed.
Lemma rnd64_opp : forall x, rnd64 (- x) = - rnd64 x.
Proof. intros. apply round_NE_opp. Qed.

Lemma rnd32_abs : forall x, rnd32 (Rabs x) = Rabs (rnd32 x).
Proof. intros. apply round_NE_abs. auto with typeclass_instances. Qed.
Lemma rnd64_abs : forall x, rnd64 (Rabs x) = Rabs (rnd64 x).
Proof. intros. apply round_NE_abs. auto with typeclass_instances. Qed.

Lemma FR_format : forall x, generic_format radix2 (FLT_exp (-149) 24) (FR x).
Proof. intros. apply (generic_format_B2R 24 128). Qed.
Lemma DR_format : forall x, generic_format radix2 (FLT_exp (-1074) 53) (DR x).
Proof. intros. apply (generic_format_B2R 53 1024). Qed.

Lemma rnd32_FR : forall x, rnd32 (FR x) = FR x.
Proof. intros. apply round_generic; auto with typeclass_instances. apply FR_format. Qed.
Lemma rnd64_DR : forall x, rnd64 (DR x) = DR x.
Proof. intros. apply round_generic; auto with typeclass_instances. apply DR_format. Qed.

Lemma rnd32_exact : forall m e, (Z.abs m <= 2 ^ 24)%Z -> (-149 <= e)%Z ->
  rnd32 (IZR m * bpow radix2 e) = IZR m * bpow radix2 e.
Proof.
  intros m e Hm He. apply round_generic; auto with typeclass_instances.
  assert (H: (Z.abs m < 2 ^ 24 \/ Z.abs m = 2 ^ 24)%Z) by lia.
  destruct H as [H|H].
  - apply generic_format_FLT. exists (Float radix2 m e); simpl; auto.
  - apply generic_format_FLT.
    exists (Float radix2 (Z.sgn m) (e + 24)); simpl; try lia.
    + unfold F2R; simpl. rewrite bpow_plus. change (bpow radix2 24) with 16777216.
      replace (IZR m) with (IZR (Z.sgn m) * 16777216).
      ring.
      rewrite <- mult_IZR. f_equal. change (2^24)%Z with 16777216%Z in H. lia.
Qed.

Lemma rnd64_exact : forall m e, (Z.abs m <= 2 ^ 53)%Z -> (-1074 <= e)%Z ->
  rnd64 (IZR m * bpow radix2 e) = IZR m * bpow radix2 e.
Proof.
  intros m e Hm He. apply round_generic; auto with typeclass_instances.
  assert (H: (Z.abs m < 2 ^ 53 \/ Z.abs m = 2 ^ 53)%Z) by lia.
  destruct H as [H|H].
  - apply generic_format_FLT. exists (Float radix2 m e); simpl; auto.
  - apply generic_format_FLT.
    exists (Float radix2 (Z.sgn m) (e + 53)); simpl; try lia.
    + unfold F2R; simpl. rewrite bpow_plus. change (bpow radix2 53) with 9007199254740992.
      replace (IZR m) with (IZR (Z.sgn m) * 9007199254740992).
      ring.
      rewrite <- mult_IZR. f_equal. change (2^53)%Z with 9007199254740992%Z in H. lia.
Qed.

Lemma rnd32_Z : forall m, (Z.abs m <= 2 ^ 24)%Z -> rnd32 (IZR m) = IZR m.
Proof.
  intros. pose proof (rnd32_exact m 0 H ltac:(lia)) as E. simpl in E.
  rewrite Rmult_1_r in E. exact E.
Qed.
Lemma rnd64_Z : forall m, (Z.abs m <= 2 ^ 53)%Z -> rnd64 (IZR m) = IZR m.
Proof.
  intros. pose proof (rnd64_exact m 0 H ltac:(lia)) as E. simpl in E.
  rewrite Rmult_1_r in E. exact E.
Qed.

Lemma half_bpow : forall e, / 2 * bpow radix2 (e + 1) = bpow radix2 e.
Proof. intros e. rewrite bpow_plus. change (bpow radix2 1) with 2. field. Qed.

(** relative error, normal range *)
Lemma rnd32_rel : forall x, bpow radix2 (-126) <= Rabs x ->
  exists d, Rabs d <= bpow radix2 (-24) /\ rnd32 x = x * (1 + d).
Proof.
  intros x Hx.
  destruct (relative_error_N_FLT_ex radix2 (-149) 24 Hprec32 (fun z => negb (Z.even z)) x) as (d & Hd & E).
  - exact Hx.
  - exists d. split; auto. eapply Rle_trans; [apply Hd|].
    rewrite half_bpow. apply Rle_refl.
Qed.

Lemma rnd64_rel : forall x, bpow radix2 (-1022) <= Rabs x ->
  exists d, Rabs d <= bpow radix2 (-53) /\ rnd64 x = x * (1 + d).
Proof.
  intros x Hx.
  destruct (relative_error_N_FLT_ex radix2 (-1074) 53 Hprec64 (fun z => negb (Z.even z)) x) as (d & Hd & E).
  - exact Hx.
  - exists d. split; auto. eapply Rle_trans; [apply Hd|].
    rewrite half_bpow. apply Rle_refl.
Qed.

(** general error: relative plus absolute underflow part *)
Lemma rnd32_err : forall x, exists d e, Rabs d <= bpow radix2 (-24) /\
  Rabs e <= bpow radix2 (-150) /\ rnd32 x = x * (1 + d) + e.
Proof.
  intros x.
  destruct (error_N_FLT radix2 (-149) 24 ltac:(reflexivity) (fun z => negb (Z.even z)) x)
    as (d & e & Hd & He & _ & E).
  exists d, e. split; [|split]; auto.
  - eapply Rle_trans; [apply Hd|]. unfold u_ro.
    rewrite half_bpow. apply Rle_refl.
  - eapply Rle_trans; [apply He|].
    change (-149)%Z with (-150 + 1)%Z. rewrite half_bpow. apply Rle_refl.
Qed.

(** ** operators *)
Ltac ffold := unfold FR, ffin in *.

Lemma max32_pow : max32 = bpow radix2 128. Proof. reflexivity. Qed.

Lemma fadd_R : forall a b, ffin a = true -> ffin b = true ->
  Rabs (rnd32 (FR a + FR b)) < max32 ->
  FR (fadd a b) = rnd32 (FR a + FR b) /\ ffin (fadd a b) = true.
Proof.
  intros a b Ha Hb H. ffold.
  pose proof (Bplus_correct 24 128 Hprec32 Hmax32 binop_nan_pl32 mode_NE a b Ha Hb) as P.
  change (round radix2 (SpecFloat.fexp 24 128) (BinarySingleNaN.round_mode mode_NE)) with rnd32 in P.
  rewrite Rlt_bool_true in P by exact H.
  destruct P as (P1 & P2 & _). split; [exact P1|exact P2].
Qed.

Lemma fsub_R : forall a b, ffin a = true -> ffin b = true ->
  Rabs (rnd32 (FR a - FR b)) < max32 ->
  FR (fsub a b) = rnd32 (FR a - FR b) /\ ffin (fsub a b) = true.
Proof.
  intros a b Ha Hb H. ffold.
  pose proof (Bminus_correct 24 128 Hprec32 Hmax32 binop_nan_pl32 mode_NE a b Ha Hb) as P.
  change (round radix2 (SpecFloat.fexp 24 128) (BinarySingleNaN.round_mode mode_NE)) with rnd32 in P.
  rewrite Rlt_bool_true in P by exact H.
  destruct P as (P1 & P2 & _). split; [exact P1|exact P2].
Qed.

Lemma fmul_R : forall a b, ffin a = true -> ffin b = true ->
  Rabs (rnd32 (FR a * FR b)) < max32 ->
  FR (fmul a b) = rnd32 (FR a * FR b) /\ ffin (fmul a b) = true.
Proof.
  intros a b Ha Hb H. ffold.
  pose proof (Bmult_correct 24 128 Hprec32 Hmax32 binop_nan_pl32 mode_NE a b) as P.
  change (round radix2 (SpecFloat.fexp 24 128) (BinarySingleNaN.round_mode mode_NE)) with rnd32 in P.
  rewrite Rlt_bool_true in P by exact H.
  destruct P as (P1 & P2 & _). split; [exact P1|].
  etransitivity; [exact P2|]. rewrite Ha, Hb. reflexivity.
Qed.

Lemma fdiv_R : forall a b, ffin a = true -> FR b <> 0 ->
  Rabs (rnd32 (FR a / FR b)) < max32 ->
  FR (fdiv a b) = rnd32 (FR a / FR b) /\ ffin (fdiv a b) = true.
Proof.
  intros a b Ha Hb H. ffold.
  pose proof (Bdiv_correct 24 128 Hprec32 Hmax32 binop_nan_pl32 mode_NE a b Hb) as P.
  change (round radix2 (SpecFloat.fexp 24 128) (BinarySingleNaN.round_mode mode_NE)) with rnd32 in P.
  rewrite Rlt_bool_true in P by exact H.
  destruct P as (P1 & P2 & _). split; [exact P1|].
  etransitivity; [exact P2|]. exact Ha.
Qed.

Lemma dadd_R : forall a b, dfin a = true -> dfin b = true ->
  Rabs (rnd64 (DR a + DR b)) < max64 ->
  DR (dadd a b) = rnd64 (DR a + DR b) /\ dfin (dadd a b) = true.
Proof.
  intros a b Ha Hb H. unfold DR, dfin in *.
  pose proof (Bplus_correct 53 1024 Hprec64 Hmax64 binop_nan_pl64 mode_NE a b Ha Hb) as P.
  change (round radix2 (SpecFloat.fexp 53 1024) (BinarySingleNaN.round_mode mode_NE)) with rnd64 in P.
  rewrite Rlt_bool_true in P by exact H.
  destruct P as (P1 & P2 & _). split; [exact P1|exact P2].
Qed.

Lemma dsub_R : forall a b, dfin a = true -> dfin b = true ->
  Rabs (rnd64 (DR a - DR b)) < max64 ->
  DR (dsub a b) = rnd64 (DR a - DR b) /\ dfin (dsub a b) = true.
Proof.
  intros a b Ha Hb H. unfold DR, dfin in *.
  pose proof (Bminus_correct 53 1024 Hprec64 Hmax64 binop_nan_pl64 mode_NE a b Ha Hb) as P.
  change (round radix2 (SpecFloat.fexp 53 1024) (BinarySingleNaN.round_mode mode_NE)) with rnd64 in P.
  rewrite Rlt_bool_true in P by exact H.
  destruct P as (P1 & P2 & _). split; [exact P1|exact P2].
Qed.

Lemma dmul_R : forall a b, dfin a = true -> dfin b = true ->
  Rabs (rnd64 (DR a * DR b)) < max64 ->
  DR (dmul a b) = rnd64 (DR a * DR b) /\ dfin (dmul a b) = true.
Proof.
  intros a b Ha Hb H. unfold DR, dfin in *.
  pose proof (Bmult_correct 53 1024 Hprec64 Hmax64 binop_nan_pl64 mode_NE a b) as P.
  change (round radix2 (SpecFloat.fexp 53 1024) (BinarySingleNaN.round_mode mode_NE)) with rnd64 in P.
  rewrite Rlt_bool_true in P by exact H.
  destruct P as (P1 & P2 & _). split; [exact P1|].
  etransitivity; [exact P2|]. rewrite Ha, Hb. reflexivity.
Qed.

Lemma ddiv_R : forall a b, dfin a = true -> DR b <> 0 ->
  Rabs (rnd64 (DR a / DR b)) < max64 ->
  DR (ddiv a b) = rnd64 (DR a / DR b) /\ dfin (ddiv a b) = true.
Proof.
  intros a b Ha Hb H. unfold DR, dfin in *.
  pose proof (Bdiv_correct 53 1024 Hprec64 Hmax64 binop_nan_pl64 mode_NE a b Hb) as P.
  change (round radix2 (SpecFloat.fexp 53 1024) (BinarySingleNaN.round_mode mode_NE)) with rnd64 in P.
  rewrite Rlt_bool_true in P by exact H.
  destruct P as (P1 & P2 & _). split; [exact P1|].
  etransitivity; [exact P2|]. exact Ha.
Qed.

Lemma f32_lit_R : forall m e,
  Rabs (rnd32 (IZR m * bpow radix2 e)) < max32 ->
  FR (f32_lit m e) = rnd32 (IZR m * bpow radix2 e) /\ ffin (f32_lit m e) = true.
Proof.
  intros m e H. ffold.
  pose proof (binary_normalize_correct 24 128 Hprec32 Hmax32 mode_NE m e false) as P.
  change (round radix2 (SpecFloat.fexp 24 128) (BinarySingleNaN.round_mode mode_NE)) with rnd32 in P.
  unfold F2R in P; simpl Fnum in P; simpl Fexp in P.
  rewrite Rlt_bool_true in P by exact H.
  destruct P as (P1 & P2 & _). split; [exact P1|exact P2].
Qed.

Lemma f64_lit_R : forall m e,
  Rabs (rnd64 (IZR m * bpow radix2 e)) < max64 ->
  DR (f64_lit m e) = rnd64 (IZR m * bpow radix2 e) /\ dfin (f64_lit m e) = true.
Proof.
  intros m e H. unfold DR, dfin.
  pose proof (binary_normalize_correct 53 1024 Hprec64 Hmax64 mode_NE m e false) as P.
  change (round radix2 (SpecFloat.fexp 53 1024) (BinarySingleNaN.round_mode mode_NE)) with rnd64 in P.
  unfold F2R in P; simpl Fnum in P; simpl Fexp in P.
  rewrite Rlt_bool_true in P by exact H.
  destruct P as (P1 & P2 & _). split; [exact P1|exact P2].
Qed.

Lemma IZR_lt_bpow : forall m k, (Z.abs m <= 2 ^ k)%Z -> (0 <= k)%Z ->
  Rabs (IZR m) <= bpow radix2 k.
Proof.
  intros m k H Hk. rewrite <- abs_IZR. rewrite <- IZR_Zpower by auto.
  apply IZR_le. exact H.
Qed.

Lemma f32_of_Z_R : forall z, (Z.abs z <= 2 ^ 24)%Z ->
  FR (f32_of_Z z) = IZR z /\ ffin (f32_of_Z z) = true.
Proof.
  intros z H. pose proof (f32_lit_R z 0) as P.
  rewrite rnd32_exact in P by (auto; lia). simpl bpow in P.
  rewrite Rmult_1_r in P. apply P.
  eapply Rle_lt_trans; [apply (IZR_lt_bpow z 24 H); lia|].
  unfold max32. apply bpow_lt. lia.
Qed.

Lemma f64_of_Z_R : forall z, (Z.abs z <= 2 ^ 53)%Z ->
  DR (f64_of_Z z) = IZR z /\ dfin (f64_of_Z z) = true.
Proof.
  intros z H. pose proof (f64_lit_R z 0) as P.
  rewrite rnd64_exact in P by (auto; lia). simpl bpow in P.
  rewrite Rmult_1_r in P. apply P.
  eapply Rle_lt_trans; [apply (IZR_lt_bpow z 53 H); lia|].
  unfold max64. apply bpow_lt. lia.
Qed.

Lemma FR_lt_max : forall x, Rabs (FR x) < max32.
Proof. intros. apply (abs_B2R_lt_emax 24 128). Qed.
Lemma DR_lt_max : forall x, Rabs (DR x) < max64.
Proof. intros. apply (abs_B2R_lt_emax 53 1024). Qed.

(** float to double is exact *)
Lemma generic_32_64 : forall x, generic_format radix2 (FLT_exp (-149) 24) x ->
  generic_format radix2 (FLT_exp (-1074) 53) x.
Proof.
  intros x H. apply generic_inclusion_mag with (2:=H). intros _.
  unfold FLT_exp. lia.
Qed.

Lemma f64_of_f32_R : forall x, ffin x = true ->
  DR (f64_of_f32 x) = FR x /\ dfin (f64_of_f32 x) = true.
Proof.
  intros x H. destruct x as [s|s|s pl Hpl|s m e Hme]; try discriminate.
  - split; reflexivity.
  - pose proof (binary_normalize_correct 53 1024 Hprec64 Hmax64 mode_NE
      (if s then Zneg m else Zpos m) e s) as P.
    change (round radix2 (SpecFloat.fexp 53 1024) (BinarySingleNaN.round_mode mode_NE)) with rnd64 in P.
    assert (E: F2R (Float radix2 (if s then Zneg m else Zpos m) e) =
               FR (B754_finite 24 128 s m e Hme)) by (destruct s; reflexivity).
    rewrite E in P.
    assert (R: rnd64 (FR (B754_finite 24 128 s m e Hme)) = FR (B754_finite 24 128 s m e Hme)).
    { apply round_generic; auto with typeclass_instances.
      apply generic_32_64, FR_format. }
    rewrite R in P.
    rewrite Rlt_bool_true in P.
    + destruct P as (P1 & P2 & _). split; [exact P1|exact P2].
    + eapply Rlt_le_trans; [apply FR_lt_max|]. unfold max32. apply bpow_le. lia.
Qed.

Lemma f32_of_f64_R : forall x, dfin x = true -> Rabs (rnd32 (DR x)) < max32 ->
  FR (f32_of_f64 x) = rnd32 (DR x) /\ ffin (f32_of_f64 x) = true.
Proof.
  intros x H Hb. destruct x as [s|s|s pl Hpl|s m e Hme]; try discriminate.
  - split; simpl; [|reflexivity]. unfold FR; simpl. unfold DR; simpl.
    symmetry; apply rnd32_0.
  - pose proof (binary_normalize_correct 24 128 Hprec32 Hmax32 mode_NE
      (if s then Zneg m else Zpos m) e s) as P.
    change (round radix2 (SpecFloat.fexp 24 128) (BinarySingleNaN.round_mode mode_NE)) with rnd32 in P.
    assert (E: F2R (Float radix2 (if s then Zneg m else Zpos m) e) =
               DR (B754_finite 53 1024 s m e Hme)) by (destruct s; reflexivity).
    rewrite E in P.
    rewrite Rlt_bool_true in P by exact Hb.
    destruct P as (P1 & P2 & _). split; [exact P1|exact P2].
Qed.

Lemma fneg_R : forall x, FR (fneg x) = - FR x.
Proof. intros. apply (B2R_Bopp 24 128). Qed.
Lemma fneg_fin : forall x, ffin (fneg x) = ffin x.
Proof. intros. apply (is_finite_Bopp 24 128). Qed.
Lemma fabs_R : forall x, FR (fabs x) = Rabs (FR x).
Proof. intros. apply (B2R_Babs 24 128). Qed.
Lemma fabs_fin : forall x, ffin (fabs x) = ffin x.
Proof. intros. apply (is_finite_Babs 24 128). Qed.

(** ** comparisons *)
(** Real key of a non-NaN float, infinities at +-2^128. *)
Definition ER (x : f32) : R :=
  match x with
  | B754_infinity _ _ s => if s then - max32 else max32
  | _ => FR x
  end.
Definition EDR (x : f64) : R :=
  match x with
  | B754_infinity _ _ s => if s then - max64 else max64
  | _ => DR x
  end.

Lemma ER_fin : forall x, ffin x = true -> ER x = FR x.
Proof. intros [ | | | ]; simpl; try discriminate; reflexivity. Qed.
Lemma EDR_fin : forall x, dfin x = true -> EDR x = DR x.
Proof. intros [ | | | ]; simpl; try discriminate; reflexivity. Qed.

Lemma max32_pos : 0 < max32. Proof. apply bpow_gt_0. Qed.
Lemma max64_pos : 0 < max64. Proof. apply bpow_gt_0. Qed.

Lemma fcompare_ER : forall a b, fnan a = false -> fnan b = false ->
  b32_compare a b = Some (Rcompare (ER a) (ER b)).
Proof.
  intros a b Ha Hb.
  pose proof max32_pos.
  pose proof (FR_lt_max a) as La. pose proof (FR_lt_max b) as Lb.
  apply Rabs_lt_inv in La. apply Rabs_lt_inv in Lb.
  destruct (ffin a) eqn:Fa; destruct (ffin b) eqn:Fb.
  - rewrite !ER_fin by assumption. apply (Bcompare_correct 24 128); assumption.
  - destruct b as [|sb| |]; try discriminate.
    rewrite (ER_fin a) by assumption.
    destruct sb; simpl ER; [rewrite Rcompare_Gt by lra|rewrite Rcompare_Lt by lra];
      destruct a as [[|]| | |[|] ma ea Ha']; try discriminate; reflexivity.
  - destruct a as [|sa| |]; try discriminate.
    rewrite (ER_fin b) by assumption.
    destruct sa; simpl ER; [rewrite Rcompare_Lt by lra|rewrite Rcompare_Gt by lra];
      destruct b as [[|]| | |[|] mb eb Hb']; try discriminate; reflexivity.
  - destruct a as [|sa| |]; try discriminate. destruct b as [|sb| |]; try discriminate.
    destruct sa, sb; simpl ER;
     first [rewrite Rcompare_Eq by lra; reflexivity | rewrite Rcompare_Lt by lra; reflexivity
           | rewrite Rcompare_Gt by lra; reflexivity].
Qed.

Lemma dcompare_EDR : forall a b, dnan a = false -> dnan b = false ->
  b64_compare a b = Some (Rcompare (EDR a) (EDR b)).
Proof.
  intros a b Ha Hb.
  pose proof max64_pos.
  pose proof (DR_lt_max a) as La. pose proof (DR_lt_max b) as Lb.
  apply Rabs_lt_inv in La. apply Rabs_lt_inv in Lb.
  destruct (dfin a) eqn:Fa; destruct (dfin b) eqn:Fb.
  - rewrite !EDR_fin by assumption. apply (Bcompare_correct 53 1024); assumption.
  - destruct b as [|sb| |]; try discriminate.
    rewrite (EDR_fin a) by assumption.
    destruct sb; simpl EDR; [rewrite Rcompare_Gt by lra|rewrite Rcompare_Lt by lra];
      destruct a as [[|]| | |[|] ma ea Ha']; try discriminate; reflexivity.
  - destruct a as [|sa| |]; try discriminate.
    rewrite (EDR_fin b) by assumption.
    destruct sa; simpl EDR; [rewrite Rcompare_Lt by lra|rewrite Rcompare_Gt by lra];
      destruct b as [[|]| | |[|] mb eb Hb']; try discriminate; reflexivity.
  - destruct a as [|sa| |]; try discriminate. destruct b as [|sb| |]; try discriminate.
    destruct sa, sb; simpl EDR;
     first [rewrite Rcompare_Eq by lra; reflexivity | rewrite Rcompare_Lt by lra; reflexivity
           | rewrite Rcompare_Gt by lra; reflexivity].
Qed.

Lemma fcompare_nan_l : forall a b, fnan a = true -> b32_compare a b = None.
Proof. intros [ | | | ] b H; try discriminate. reflexivity. Qed.
Lemma fcompare_nan_r : forall a b, fnan b = true -> b32_compare a b = None.
Proof. intros [[|]|[|]| |[|]] [ | | | ] H; try discriminate; reflexivity. Qed.

Lemma flt_nan_l : forall a b, fnan a = true -> flt a b = false.
Proof. intros. unfold flt. rewrite fcompare_nan_l; auto. Qed.
Lemma flt_nan_r : forall a b, fnan b = true -> flt a b = false.
Proof. intros. unfold flt. rewrite fcompare_nan_r; auto. Qed.
Lemma fle_nan_l : forall a b, fnan a = true -> fle a b = false.
Proof. intros. unfold fle. rewrite fcompare_nan_l; auto. Qed.
Lemma fle_nan_r : forall a b, fnan b = true -> fle a b = false.
Proof. intros. unfold fle. rewrite fcompare_nan_r; auto. Qed.

Lemma flt_iff : forall a b,
  flt a b = true <-> fnan a = false /\ fnan b = false /\ ER a < ER b.
Proof.
  intros a b. destruct (fnan a) eqn:Na.
  { rewrite flt_nan_l by auto. split; [discriminate|]. intros (?&?&?); discriminate. }
  destruct (fnan b) eqn:Nb.
  { rewrite flt_nan_r by auto. split; [discriminate|]. intros (?&?&?); discriminate. }
  unfold flt. rewrite fcompare_ER by auto.
  destruct (Rcompare_spec (ER a) (ER b)); split; try discriminate; auto; intros (_&_&?); lra.
Qed.

Lemma fle_iff : forall a b,
  fle a b = true <-> fnan a = false /\ fnan b = false /\ ER a <= ER b.
Proof.
  intros a b. destruct (fnan a) eqn:Na.
  { rewrite fle_nan_l by auto. split; [discriminate|]. intros (?&?&?); discriminate. }
  destruct (fnan b) eqn:Nb.
  { rewrite fle_nan_r by auto. split; [discriminate|]. intros (?&?&?); discriminate. }
  unfold fle. rewrite fcompare_ER by auto.
  destruct (Rcompare_spec (ER a) (ER b)); split; try discriminate; auto;
   try (intros (_&_&?); lra); intros _; repeat split; auto; lra.
Qed.

Lemma feq_iff : forall a b,
  feq a b = true <-> fnan a = false /\ fnan b = false /\ ER a = ER b.
Proof.
  intros a b. unfold feq. destruct (fnan a) eqn:Na.
  { rewrite fcompare_nan_l by auto. split; [discriminate|]. intros (?&?&?); discriminate. }
  destruct (fnan b) eqn:Nb.
  { rewrite fcompare_nan_r by auto. split; [discriminate|]. intros (?&?&?); discriminate. }
  rewrite fcompare_ER by auto.
  destruct (Rcompare_spec (ER a) (ER b)); split; try discriminate; auto; intros (_&_&?); lra.
Qed.

Lemma flt_false_iff : forall a b,
  flt a b = false <-> fnan a = true \/ fnan b = true \/ ER b <= ER a.
Proof.
  intros a b. destruct (flt a b) eqn:E.
  - apply flt_iff in E. destruct E as (A&B&C). rewrite A, B.
    split; [discriminate|]. intros [?|[?|?]]; try discriminate; lra.
  - split; auto. intros _.
    destruct (fnan a) eqn:Na; auto. destruct (fnan b) eqn:Nb; auto.
    right; right. apply Rnot_lt_le. intro L.
    assert (flt a b = true) by (apply flt_iff; auto). congruence.
Qed.

Lemma fle_false_iff : forall a b,
  fle a b = false <-> fnan a = true \/ fnan b = true \/ ER b < ER a.
Proof.
  intros a b. destruct (fle a b) eqn:E.
  - apply fle_iff in E. destruct E as (A&B&C). rewrite A, B.
    split; [discriminate|]. intros [?|[?|?]]; try discriminate; lra.
  - split; auto. intros _.
    destruct (fnan a) eqn:Na; auto. destruct (fnan b) eqn:Nb; auto.
    right; right. apply Rnot_le_lt. intro L.
    assert (fle a b = true) by (apply fle_iff; auto). congruence.
Qed.

Lemma ffin_nnan : forall a, ffin a = true -> fnan a = false.
Proof. intros [ | | | ]; simpl; try discriminate; reflexivity. Qed.
Lemma dfin_nnan : forall a, dfin a = true -> dnan a = false.
Proof. intros [ | | | ]; simpl; try discriminate; reflexivity. Qed.

Lemma flt_R : forall a b, ffin a = true -> ffin b = true ->
  (flt a b = true <-> FR a < FR b).
Proof.
  intros a b Ha Hb. rewrite flt_iff, !ER_fin by auto.
  pose proof (ffin_nnan a Ha). pose proof (ffin_nnan b Hb). tauto.
Qed.
Lemma fle_R : forall a b, ffin a = true -> ffin b = true ->
  (fle a b = true <-> FR a <= FR b).
Proof.
  intros a b Ha Hb. rewrite fle_iff, !ER_fin by auto.
  pose proof (ffin_nnan a Ha). pose proof (ffin_nnan b Hb). tauto.
Qed.

Lemma dcompare_nan_l : forall a b, dnan a = true -> b64_compare a b = None.
Proof. intros [ | | | ] b H; try discriminate. reflexivity. Qed.
Lemma dcompare_nan_r : forall a b, dnan b = true -> b64_compare a b = None.
Proof. intros [[|]|[|]| |[|]] [ | | | ] H; try discriminate; reflexivity. Qed.

Lemma dlt_iff : forall a b,
  dlt a b = true <-> dnan a = false /\ dnan b = false /\ EDR a < EDR b.
Proof.
  intros a b. unfold dlt. destruct (dnan a) eqn:Na.
  { rewrite dcompare_nan_l by auto. split; [discriminate|]. intros (?&?&?); discriminate. }
  destruct (dnan b) eqn:Nb.
  { rewrite dcompare_nan_r by auto. split; [discriminate|]. intros (?&?&?); discriminate. }
  rewrite dcompare_EDR by auto.
  destruct (Rcompare_spec (EDR a) (EDR b)); split; try discriminate; auto; intros (_&_&?); lra.
Qed.
Lemma dle_iff : forall a b,
  dle a b = true <-> dnan a = false /\ dnan b = false /\ EDR a <= EDR b.
Proof.
  intros a b. unfold dle. destruct (dnan a) eqn:Na.
  { rewrite dcompare_nan_l by auto. split; [discriminate|]. intros (?&?&?); discriminate. }
  destruct (dnan b) eqn:Nb.
  { rewrite dcompare_nan_r by auto. split; [discriminate|]. intros (?&?&?); discriminate. }
  rewrite dcompare_EDR by auto.
  destruct (Rcompare_spec (EDR a) (EDR b)); split; try discriminate; auto;
   try (intros (_&_&?); lra); intros _; repeat split; auto; lra.
Qed.
Lemma dlt_R : forall a b, dfin a = true -> dfin b = true ->
  (dlt a b = true <-> DR a < DR b).
Proof.
  intros a b Ha Hb. rewrite dlt_iff, !EDR_fin by auto.
  pose proof (dfin_nnan a Ha). pose proof (dfin_nnan b Hb). tauto.
Qed.
Lemma dle_R : forall a b, dfin a = true -> dfin b = true ->
  (dle a b = true <-> DR a <= DR b).
Proof.
  intros a b Ha Hb. rewrite dle_iff, !EDR_fin by auto.
  pose proof (dfin_nnan a Ha). pose proof (dfin_nnan b Hb). tauto.
Qed.

(** ** min / max *)
Lemma fmin_cases : forall a b, fmin a b = a \/ fmin a b = b.
Proof. intros. unfold fmin. destruct (flt b a); auto. Qed.
Lemma fmax_cases : forall a b, fmax a b = a \/ fmax a b = b.
Proof. intros. unfold fmax. destruct (flt a b); auto. Qed.

(** ** integer parts *)
Lemma Zfloor_me_spec : forall m e, Zfloor_me m e = Zfloor (IZR m * bpow radix2 e).
Proof.
  intros m e. unfold Zfloor_me. destruct (Z.leb_spec 0 e) as [He|He].
  - rewrite <- IZR_Zpower by auto. rewrite <- mult_IZR. symmetry. apply Zfloor_IZR.
  - replace e with (- (- e))%Z at 2 by lia. rewrite bpow_opp.
    rewrite <- IZR_Zpower by lia.
    change (IZR m * / IZR (radix2 ^ - e)) with (IZR m / IZR (radix2 ^ - e)).
    rewrite Zfloor_div. reflexivity.
    assert (0 < 2 ^ - e)%Z by (apply Z.pow_pos_nonneg; lia). change (radix2 : Z) with 2%Z. lia.
Qed.

Lemma sgnm_F2R : forall s m e, IZR (sgnm s m) * bpow radix2 e =
  F2R (Float radix2 (cond_Zopp s (Zpos m)) e).
Proof. intros [|] m e; reflexivity. Qed.

Lemma ffloorZ_R : forall x, ffin x = true -> ffloorZ x = Some (Zfloor (FR x)).
Proof.
  intros [s|s|s pl H|s m e H] F; try discriminate.
  - simpl. unfold FR; simpl. rewrite Zfloor_IZR. reflexivity.
  - simpl. rewrite Zfloor_me_spec, sgnm_F2R. reflexivity.
Qed.
Lemma dfloorZ_R : forall x, dfin x = true -> dfloorZ x = Some (Zfloor (DR x)).
Proof.
  intros [s|s|s pl H|s m e H] F; try discriminate.
  - simpl. unfold DR; simpl. rewrite Zfloor_IZR. reflexivity.
  - simpl. rewrite Zfloor_me_spec, sgnm_F2R. reflexivity.
Qed.

Lemma Ztrunc_me_spec : forall m e, Ztrunc_me m e = Ztrunc (IZR m * bpow radix2 e).
Proof.
  intros m e. unfold Ztrunc_me. destruct (Z.leb_spec 0 e) as [He|He].
  - rewrite <- IZR_Zpower by auto. rewrite <- mult_IZR. symmetry. apply Ztrunc_IZR.
  - replace e with (- (- e))%Z at 2 by lia. rewrite bpow_opp.
    rewrite <- IZR_Zpower by lia.
    change (IZR m * / IZR (radix2 ^ - e)) with (IZR m / IZR (radix2 ^ - e)).
    rewrite Ztrunc_div. reflexivity.
    assert (0 < 2 ^ - e)%Z by (apply Z.pow_pos_nonneg; lia). change (radix2 : Z) with 2%Z. lia.
Qed.
Lemma ftruncZ_R : forall x, ffin x = true -> ftruncZ x = Some (Ztrunc (FR x)).
Proof.
  intros [s|s|s pl H|s m e H] F; try discriminate.
  - simpl. unfold FR; simpl. rewrite Ztrunc_IZR. reflexivity.
  - simpl. rewrite Ztrunc_me_spec, sgnm_F2R. reflexivity.
Qed.
Lemma dtruncZ_R : forall x, dfin x = true -> dtruncZ x = Some (Ztrunc (DR x)).
Proof.
  intros [s|s|s pl H|s m e H] F; try discriminate.
  - simpl. unfold DR; simpl. rewrite Ztrunc_IZR. reflexivity.
  - simpl. rewrite Ztrunc_me_spec, sgnm_F2R. reflexivity.
Qed.

(** [std::round]: within 1/2 of the argument, and an integer close to the
    argument is returned *)
Lemma Zround_me_near : forall m e z,
  Rabs (IZR m * bpow radix2 e - IZR z) < / 2 -> Zround_me m e = z.
Proof.
  intros m e z H. unfold Zround_me. destruct (Z.leb_spec 0 e) as [He|He].
  - rewrite <- IZR_Zpower in H by auto. rewrite <- mult_IZR, <- minus_IZR in H.
    rewrite <- abs_IZR in H.
    assert (Z.abs (m * radix2 ^ e - z) < 1)%Z.
    { apply lt_IZR. lra. }
    change (radix2 : Z) with 2%Z in *. lia.
  - assert (Hp: (0 < 2 ^ - e)%Z) by (apply Z.pow_pos_nonneg; lia).
    assert (H2: (2 * Z.abs (m - z * 2 ^ - e) < 2 ^ - e)%Z).
    { apply lt_IZR. rewrite mult_IZR, abs_IZR, minus_IZR, mult_IZR.
      replace e with (- - e)%Z in H at 1 by lia. rewrite bpow_opp in H.
      rewrite <- IZR_Zpower in H by lia. change (radix2:Z) with 2%Z in H.
      set (p := IZR (2 ^ - e)) in *.
      assert (0 < p) by (apply IZR_lt; exact Hp).
      replace (IZR m * / p - IZR z) with ((IZR m - IZR z * p) * / p) in H by (field; lra).
      rewrite Rabs_mult in H. rewrite (Rabs_pos_eq (/ p)) in H by (left; apply Rinv_0_lt_compat; lra).
      apply Rmult_lt_compat_r with (r := p) in H; auto.
      rewrite Rmult_assoc, Rinv_l, Rmult_1_r in H by lra. lra. }
    set (p := (2 ^ - e)%Z) in *.
    destruct (Z.lt_trichotomy m 0) as [M|[M|M]].
    + assert (Z.sgn m = -1)%Z by lia. rewrite H0.
      assert ((2 * Z.abs m + p) / (2 * p) = - z)%Z; [|lia].
      symmetry. apply Z.div_unique with (r := (2 * Z.abs m + p - 2 * p * (- z))%Z); nia.
    + subst m. assert (z = 0)%Z by nia. subst. reflexivity.
    + assert (Z.sgn m = 1)%Z by lia. rewrite H0.
      assert ((2 * Z.abs m + p) / (2 * p) = z)%Z; [|lia].
      symmetry. apply Z.div_unique with (r := (2 * Z.abs m + p - 2 * p * z)%Z); nia.
Qed.

Lemma froundZ_near : forall x z, ffin x = true -> Rabs (FR x - IZR z) < / 2 ->
  froundZ x = Some z.
Proof.
  intros [s|s|s pl H|s m e H] z F N; try discriminate.
  - simpl. f_equal. unfold FR in N; simpl in N.
    rewrite Rminus_0_l, Rabs_Ropp, <- abs_IZR in N.
    assert (Z.abs z < 1)%Z by (apply lt_IZR; lra). lia.
  - simpl. f_equal. apply Zround_me_near. rewrite sgnm_F2R. exact N.
Qed.

Lemma Zround_me_half : forall m e,
  Rabs (IZR m * bpow radix2 e - IZR (Zround_me m e)) <= / 2.
Proof.
  intros m e. unfold Zround_me. destruct (Z.leb_spec 0 e) as [He|He].
  - rewrite <- IZR_Zpower by auto. rewrite <- mult_IZR, <- minus_IZR.
    change (radix2 : Z) with 2%Z. rewrite Z.sub_diag. rewrite Rabs_R0. lra.
  - assert (Hp: (0 < 2 ^ - e)%Z) by (apply Z.pow_pos_nonneg; lia).
    replace e with (- - e)%Z at 1 by lia. rewrite bpow_opp.
    rewrite <- IZR_Zpower by lia. change (radix2:Z) with 2%Z.
    set (p := (2 ^ - e)%Z) in *.
    set (z := (Z.sgn m * ((2 * Z.abs m + p) / (2 * p)))%Z).
    assert (H2: (2 * Z.abs (m - z * p) <= p)%Z).
    { unfold z. pose proof (Z.div_mod (2 * Z.abs m + p) (2 * p) ltac:(lia)).
      pose proof (Z.mod_pos_bound (2 * Z.abs m + p) (2 * p) ltac:(lia)).
      set (q := ((2 * Z.abs m + p) / (2 * p))%Z) in *.
      destruct (Z.lt_trichotomy m 0) as [M|[M|M]].
      - assert (Z.sgn m = -1)%Z by lia. rewrite H1. nia.
      - subst m. simpl in *. lia.
      - assert (Z.sgn m = 1)%Z by lia. rewrite H1. nia. }
    apply IZR_le in H2. rewrite mult_IZR, abs_IZR, minus_IZR, mult_IZR in H2.
    set (pr := IZR p) in *.
    assert (0 < pr) by (apply IZR_lt; exact Hp).
    replace (IZR m * / pr - IZR z) with ((IZR m - IZR z * pr) * / pr) by (field; lra).
    rewrite Rabs_mult. rewrite (Rabs_pos_eq (/ pr)) by (left; apply Rinv_0_lt_compat; lra).
    apply Rmult_le_reg_r with pr; auto.
    rewrite Rmult_assoc, Rinv_l, Rmult_1_r by lra. lra.
Qed.

(** in_range *)
Lemma in_range_Some : forall lo hi z v, in_range lo hi z = Some v <->
  z = Some v /\ (lo <= v <= hi)%Z.
Proof.
  intros lo hi [w|] v; simpl.
  - destruct (Z.leb_spec lo w); destruct (Z.leb_spec w hi); simpl; split;
      try discriminate; intros Hx;
      try (injection Hx as <-; split; [reflexivity|lia]);
      destruct Hx as [Hx Hr]; try (injection Hx as <-); try reflexivity; lia.
  - split; [discriminate|]. intros [? _]; discriminate.
Qed.

(** bit patterns round trip *)
Lemma fbits_fword : forall x, fbits (fword x) = x.
Proof. intros. apply (binary_float_of_bits_of_binary_float 23 8 eq_refl eq_refl eq_refl). Qed.
Lemma fword_fbits : forall w, (0 <= w < 2 ^ 32)%Z -> fword (fbits w) = w.
Proof. intros. apply (bits_of_binary_float_of_bits 23 8 eq_refl eq_refl eq_refl). exact H. Qed.
Lemma fword_range : forall x, (0 <= fword x < 2 ^ 32)%Z.
Proof. intros. apply (bits_of_binary_float_range 23 8); reflexivity. Qed.
