(** Proofs about voxel updates. *)
From Coq Require Import ZArith List Bool Reals Lra Lia Permutation.
From Flocq Require Import Core IEEE754.Binary IEEE754.Bits.
From Verif Require Import F32 F32_lemmas F32_err Types Index Index_float Voxel Layer Merge_proofs Threads Threads_proofs Queue Update Update_spec.
Import ListNotations.
Open Scope R_scope.

Lemma fneg_nan : forall x, fnan (fneg x) = fnan x.
Proof. intros [ | | | ]; reflexivity. Qed.

Lemma clip_bounds : forall T s, ffin T = true -> 0 <= FR T ->
  ffin (clip_sdf T s) = true /\ - FR T <= FR (clip_sdf T s) <= FR T.
Proof.
  intros T s FT PT. unfold clip_sdf, fgt, fmin, fmax.
  assert (FN : ffin (fneg T) = true) by (rewrite fneg_fin; auto).
  assert (RN : FR (fneg T) = - FR T) by apply fneg_R.
  pose proof (ffin_nnan _ FT) as NT. pose proof (FR_lt_max T) as MT. apply Rabs_def2 in MT.
  destruct (flt f0 s) eqn:E0.
  - apply flt_iff in E0. destruct E0 as (_ & Ns & E0). change (ER f0) with 0 in E0.
    destruct (flt s T) eqn:E1; [|split; [auto|lra]].
    apply flt_iff in E1. destruct E1 as (_ & _ & E1). rewrite (ER_fin T) in E1 by auto.
    destruct s as [b|b|b p H|b m e H]; try discriminate.
    + cbn in E0. lra.
    + cbn [ER] in E0, E1. pose proof max32_pos. destruct b; lra.
    + cbn [ER] in E0, E1. split; [reflexivity|lra].
  - apply flt_false_iff in E0. destruct E0 as [E0 | [E0 | E0]]; [discriminate| |].
    + rewrite (flt_nan_r (fneg T) s) by auto. split; [auto|lra].
    + change (ER f0) with 0 in E0. destruct (flt (fneg T) s) eqn:E1; [|split; [auto|lra]].
      apply flt_iff in E1. destruct E1 as (_ & Ns & E1). rewrite (ER_fin (fneg T)) in E1 by auto. rewrite RN in E1.
      destruct s as [b|b|b p H|b m e H]; try discriminate.
      * split; [reflexivity|]. cbn. lra.
      * cbn [ER] in E0, E1. pose proof max32_pos. destruct b; lra.
      * cbn [ER] in E0, E1. split; [reflexivity|lra].
Qed.

Lemma kEpsilon_pos : 0 < FR kEpsilon /\ ffin kEpsilon = true.
Proof.
  assert (E: FR kEpsilon = IZR 8796093 * bpow radix2 (-43)) by reflexivity.
  split; [|reflexivity]. rewrite E. pose proof (bpow_gt_0 radix2 (-43)). lra.
Qed.

(** the clipped weight *)
Lemma fmin_weight : forall M nw, ffin M = true -> 0 <= FR M -> flt nw kEpsilon = false ->
  ffin (fmin M nw) = true /\ 0 <= FR (fmin M nw) <= FR M.
Proof.
  intros M nw FM PM H. destruct kEpsilon_pos as (EP & EF). unfold fmin.
  destruct (flt nw M) eqn:E; [|split; [auto|lra]].
  apply flt_iff in E. destruct E as (N & _ & E). rewrite (ER_fin M) in E by auto.
  apply flt_false_iff in H. destruct H as [H | [H | H]]; [congruence|discriminate|].
  rewrite (ER_fin kEpsilon) in H by auto. pose proof (FR_lt_max M) as MT. apply Rabs_def2 in MT.
  destruct nw as [b|b|b p Hp|b m e Hm]; try discriminate.
  - cbn [ER] in H. change (FR (B754_zero 24 128 b)) with 0 in H. lra.
  - cbn [ER] in E, H. pose proof max32_pos. destruct b; lra.
  - cbn [ER] in E, H. split; [reflexivity|lra].
Qed.

Lemma update_bounds : forall cfg vs q v v', cfg_ok cfg -> voxel_in cfg v ->
  updateTsdfVoxel cfg vs q v = Ok v' -> voxel_in cfg v'.
Proof.
  intros cfg vs q v v' (FT & PT & FM & PM) Hv H. unfold updateTsdfVoxel in H.
  destruct (flt _ kEpsilon) eqn:E; [inversion H; subst; auto|].
  destruct (if flt (fabs (req_sdf vs q)) (c_trunc cfg) then _ else _) as [c| |]; try discriminate.
  cbn [rbind] in H. inversion H; subst; clear H. unfold voxel_in. cbn [t_distance t_weight].
  destruct (clip_bounds (c_trunc cfg) (new_sdf (req_sdf vs q) (req_weight cfg vs q) (t_distance v) (t_weight v) (fadd (t_weight v) (req_weight cfg vs q))) FT PT) as (A & B).
  destruct (fmin_weight (c_max_weight cfg) _ FM PM E) as (C & D). auto.
Qed.

Lemma updates_bounds : forall cfg vs qs v v', cfg_ok cfg -> voxel_in cfg v ->
  updates cfg vs qs v = Ok v' -> voxel_in cfg v'.
Proof.
  intros cfg vs qs. induction qs as [|q qs IH]; intros v v' C Hv H; cbn in H.
  - inversion H; subst; auto.
  - destruct (updateTsdfVoxel cfg vs q v) as [v1| |] eqn:E; try discriminate.
    cbn [rbind] in H. apply (IH v1 v' C); [|exact H]. exact (update_bounds cfg vs q v v1 C Hv E).
Qed.

(** ** weights *)
Lemma ER_inf : forall s, ER (B754_infinity 24 128 s) = if s then - max32 else max32.
Proof. reflexivity. Qed.

Lemma fmul_nneg : forall a b, nneg a -> nneg b -> nneg (fmul a b).
Proof.
  intros a b Ha Hb. pose proof max32_pos as MP.
  assert (SG : forall x, nneg x -> fnan x = false -> FR x = 0 \/ Bsign 24 128 x = false).
  { intros x [H | H] N; [congruence|]. destruct x as [s|s|s p Hp|s m e Hm]; try discriminate; auto.
    destruct s; auto; exfalso. assert (FR (B754_finite 24 128 true m e Hm) < 0).
    { unfold FR. cbn [B2R]. apply F2R_lt_0. reflexivity. } cbn [ER] in H. lra. }
  pose proof (Bmult_correct 24 128 Hprec32 Hmax32 binop_nan_pl32 mode_NE a b) as C.
  unfold nneg, fmul, b32_mult in *. destruct (Rlt_bool _ _) eqn:L.
  - destruct C as (R1 & F & _). destruct (fnan a) eqn:Na; [left; destruct a; try discriminate; reflexivity|].
    destruct (fnan b) eqn:Nb; [left; destruct a, b; try discriminate; reflexivity|].
    destruct Ha as [Ha | Ha]; [congruence|]. destruct Hb as [Hb | Hb]; [congruence|].
    destruct (ffin a) eqn:Fa; destruct (ffin b) eqn:Fb.
    + right. rewrite ER_fin in Ha by auto. rewrite ER_fin in Hb by auto.
      assert (FF : ffin (fmul a b) = true). { unfold ffin, fmul, b32_mult in *. etransitivity; [exact F|]. rewrite Fa, Fb. reflexivity. }
      rewrite ER_fin by exact FF. unfold FR in *.
      eapply Rle_trans; [|right; symmetry; exact R1].
      apply round_ge_generic; auto with typeclass_instances; [apply generic_format_0|apply Rmult_le_pos; auto].
    + destruct b as [sb|sb|sb pb Hpb|sb mb eb Hmb]; try discriminate. destruct sb; [cbn [ER] in Hb; lra|].
      destruct a as [sa|sa|sa pa Hpa|sa ma ea Hma]; try discriminate; [left; reflexivity|].
      destruct sa; [|right; cbn; lra]. exfalso. assert (FR (B754_finite 24 128 true ma ea Hma) < 0) by (unfold FR; cbn [B2R]; apply F2R_lt_0; reflexivity).
      cbn [ER] in Ha. lra.
    + destruct a as [sb|sb|sb pb Hpb|sb mb eb Hmb]; try discriminate. destruct sb; [cbn [ER] in Ha; lra|].
      destruct b as [sa|sa|sa pa Hpa|sa ma ea Hma]; try discriminate; [left; reflexivity|].
      destruct sa; [|right; cbn; lra]. exfalso. assert (FR (B754_finite 24 128 true ma ea Hma) < 0) by (unfold FR; cbn [B2R]; apply F2R_lt_0; reflexivity).
      cbn [ER] in Hb. lra.
    + destruct a as [sa|sa|sa pa Hpa|sa ma ea Hma]; try discriminate. destruct b as [sb|sb|sb pb Hpb|sb mb eb Hmb]; try discriminate.
      destruct sa; [cbn [ER] in Ha; lra|]. destruct sb; [cbn [ER] in Hb; lra|]. right. cbn. lra.
  - destruct a as [sa|sa|sa pa Hpa|sa ma ea Hma]; destruct b as [sb|sb|sb pb Hpb|sb mb eb Hmb];
      try (exfalso; revert L; unfold B2R; rewrite ?Rmult_0_l, ?Rmult_0_r, round_0 by auto with typeclass_instances;
           rewrite Rabs_R0, Rlt_bool_true; [discriminate|apply bpow_gt_0]).
    assert (sa = false).
    { destruct (SG _ Ha eq_refl) as [Z|]; auto. exfalso. unfold FR in Z. cbn [B2R] in Z. apply eq_0_F2R in Z. destruct sa; discriminate. }
    assert (sb = false).
    { destruct (SG _ Hb eq_refl) as [Z|]; auto. exfalso. unfold FR in Z. cbn [B2R] in Z. apply eq_0_F2R in Z. destruct sb; discriminate. }
    subst. right. change (Bmult 24 128 eq_refl eq_refl binop_nan_pl32 mode_NE) with fmul.
    change (Bmult 24 128 Hprec32 Hmax32 binop_nan_pl32 mode_NE) with fmul in C.
    destruct (fmul (B754_finite 24 128 false ma ea Hma) (B754_finite 24 128 false mb eb Hmb)) as [s|s|s p Hp|s m e Hm]; try discriminate.
    cbn in C. injection C as ->. cbn [ER]. lra.
Qed.

Lemma neg_sign : forall m e H, FR (B754_finite 24 128 true m e H) < 0.
Proof. intros. unfold FR. cbn [B2R]. apply F2R_lt_0. reflexivity. Qed.
Lemma pos_sign : forall m e H, 0 < FR (B754_finite 24 128 false m e H).
Proof. intros. unfold FR. cbn [B2R]. apply F2R_gt_0. reflexivity. Qed.

(** adding a term in one direction, with overflow *)
Lemma fadd_dir : forall w u, ffin w = true -> ffin u = true ->
  (0 <= FR u -> FR w <= ER (fadd w u)) /\ (FR u <= 0 -> ER (fadd w u) <= FR w).
Proof.
  intros w u Fw Fu. pose proof max32_pos as MP. pose proof (FR_lt_max w) as MW. apply Rabs_def2 in MW.
  pose proof (Bplus_correct 24 128 Hprec32 Hmax32 binop_nan_pl32 mode_NE w u Fw Fu) as C.
  change (Bplus 24 128 Hprec32 Hmax32 binop_nan_pl32 mode_NE w u) with (fadd w u) in C.
  destruct (Rlt_bool _ _) eqn:L.
  + destruct C as (R1 & F & _). change (ffin (fadd w u) = true) in F. rewrite ER_fin by auto.
    change (FR (fadd w u) = rnd32 (FR w + FR u)) in R1. rewrite R1. pose proof (rnd32_FR w) as RW.
    split; intros H; [assert (G : rnd32 (FR w) <= rnd32 (FR w + FR u))|assert (G : rnd32 (FR w + FR u) <= rnd32 (FR w))]; try (apply rnd32_le; lra); lra.
  + destruct C as (C & SS).
    assert (Bsign 24 128 u = true /\ FR u < 0 \/ Bsign 24 128 u = false /\ 0 < FR u) as SU.
    { destruct u as [su|su|su pu Hu'|su mu eu Hu']; try discriminate.
      - exfalso. revert L. change (B2R 24 128 (B754_zero 24 128 su)) with 0.
        rewrite Rplus_0_r. change (round _ _ _ (B2R 24 128 w)) with (rnd32 (FR w)). rewrite rnd32_FR, Rlt_bool_true; [discriminate|].
        apply FR_lt_max.
      - destruct su; [left|right]; (split; [reflexivity|]); [apply neg_sign|apply pos_sign]. }
    destruct (fadd w u) as [s|s|s p Hp|s m e Hm]; try discriminate.
    cbn in C. injection C as E. rewrite SS in E. destruct SU as [(S1 & S2) | (S1 & S2)]; rewrite S1 in E; subst s; cbn [ER]; split; intros; lra.
Qed.

Lemma fadd_up : forall w u, ffin w = true -> nneg u ->
  fnan (fadd w u) = true \/ FR w <= ER (fadd w u).
Proof.
  intros w u Fw Hu. pose proof max32_pos as MP. pose proof (FR_lt_max w) as MW. apply Rabs_def2 in MW.
  destruct (fnan u) eqn:Nu.
  { left. destruct w; try discriminate; destruct u; try discriminate; reflexivity. }
  destruct Hu as [Hu | Hu]; [congruence|]. right. destruct (ffin u) eqn:Fu.
  - rewrite ER_fin in Hu by auto. apply fadd_dir; auto.
  - destruct u as [s|s|s p Hp|s m e Hm]; try discriminate. destruct s; [cbn [ER] in Hu; lra|].
    assert (E : fadd w (B754_infinity 24 128 false) = B754_infinity 24 128 false) by (destruct w; try discriminate; reflexivity).
    rewrite E. cbn [ER]. lra.
Qed.
Lemma fadd_down : forall w u, ffin w = true -> fnan u = false -> ER u <= 0 -> ER (fadd w u) <= FR w.
Proof.
  intros w u Fw Nu Hu. pose proof max32_pos as MP. pose proof (FR_lt_max w) as MW. apply Rabs_def2 in MW.
  destruct (ffin u) eqn:Fu.
  - rewrite ER_fin in Hu by auto. apply fadd_dir; auto.
  - destruct u as [s|s|s p Hp|s m e Hm]; try discriminate. destruct s; [|cbn [ER] in Hu; lra].
    assert (E : fadd w (B754_infinity 24 128 true) = B754_infinity 24 128 true) by (destruct w; try discriminate; reflexivity).
    rewrite E. cbn [ER]. lra.
Qed.

Lemma fmax_nneg : forall a, nneg (fmax a f0).
Proof.
  intros a. unfold fmax, nneg. destruct (flt a f0) eqn:E.
  - right. cbn. lra.
  - apply flt_false_iff in E. destruct E as [E | [E | E]]; [left; auto|discriminate|right]. exact E.
Qed.

Lemma req_weight_nneg : forall cfg vs q, nneg (q_weight q) -> (c_sparsity cfg = true -> nneg (c_factor cfg)) ->
  nneg (req_weight cfg vs q).
Proof.
  intros cfg vs q Hq Hf. unfold req_weight.
  set (w := if c_dropoff cfg && _ then _ else _).
  assert (Hw : nneg w) by (subst w; destruct (_ && _); [apply fmax_nneg|auto]).
  destruct (c_sparsity cfg) eqn:S; cbn [andb]; auto. clearbody w; destruct (flt _ _); auto. apply fmul_nneg; auto.
Qed.

Lemma update_weight_mono : forall cfg vs q v v', cfg_ok cfg -> voxel_in cfg v ->
  nneg (q_weight q) -> (c_sparsity cfg = true -> nneg (c_factor cfg)) ->
  updateTsdfVoxel cfg vs q v = Ok v' -> FR (t_weight v) <= FR (t_weight v').
Proof.
  intros cfg vs q v v' (FT & PT & FM & PM) (FD & BD & FW & BW) Hq Hf H. unfold updateTsdfVoxel in H.
  destruct (flt _ kEpsilon) eqn:E; [inversion H; subst; lra|].
  destruct (if flt (fabs (req_sdf vs q)) (c_trunc cfg) then _ else _) as [c| |]; try discriminate.
  cbn [rbind] in H. inversion H; subst; clear H. cbn [t_weight].
  destruct (fadd_up (t_weight v) (req_weight cfg vs q) FW (req_weight_nneg cfg vs q Hq Hf)) as [N | L].
  - unfold fmin. rewrite flt_nan_l by auto. lra.
  - unfold fmin. destruct (flt _ (c_max_weight cfg)) eqn:E1; [|lra].
    apply flt_iff in E1. destruct E1 as (N1 & _ & E1). rewrite (ER_fin (c_max_weight cfg)) in E1 by auto.
    pose proof (FR_lt_max (c_max_weight cfg)) as MT. apply Rabs_def2 in MT. pose proof max32_pos.
    destruct (fadd (t_weight v) (req_weight cfg vs q)) as [b|b|b p Hp|b m e Hm]; try discriminate; cbn [ER] in *; auto.
    destruct b; lra.
Qed.

(** ** no undefined behaviour *)
Lemma flt_fin_lo : forall a b, flt a b = true -> ffin b = true -> ffin a = true \/ a = B754_infinity 24 128 true.
Proof.
  intros a b H F. apply flt_iff in H. destruct H as (N & _ & L). rewrite (ER_fin b) in L by auto.
  pose proof (FR_lt_max b) as M. apply Rabs_def2 in M.
  destruct a as [s|s|s p Hp|s m e Hm]; try discriminate; auto. destruct s; auto. cbn [ER] in L. lra.
Qed.
Lemma fabs_lt_fin : forall a b, flt (fabs a) b = true -> ffin b = true -> ffin a = true.
Proof.
  intros a b H F. destruct (flt_fin_lo _ _ H F) as [E|E].
  - rewrite fabs_fin in E. auto.
  - destruct a; discriminate.
Qed.

Lemma pos_float_min : forall x, 0 < FR x -> bpow radix2 (-149) <= FR x.
Proof.
  intros x H. destruct x as [s|s|s p Hp|s m e Hm]; try (unfold FR in H; cbn in H; lra).
  destruct s; [assert (FR (B754_finite 24 128 true m e Hm) < 0) by (unfold FR; cbn [B2R]; apply F2R_lt_0; reflexivity); lra|].
  unfold FR. cbn [B2R]. unfold F2R. cbn [cond_Zopp Fnum Fexp].
  assert (-149 <= e)%Z.
  { clear H. unfold SpecFloat.bounded in Hm. apply andb_prop in Hm. destruct Hm as (Hm & _). unfold SpecFloat.canonical_mantissa in Hm.
    apply Zeq_bool_eq in Hm. unfold SpecFloat.fexp, SpecFloat.emin in Hm. lia. }
  apply Rle_trans with (bpow radix2 e); [apply bpow_le; auto|].
  rewrite <- (Rmult_1_l (bpow radix2 e)) at 1. apply Rmult_le_compat_r; [apply bpow_ge_0|]. apply IZR_le. lia.
Qed.

Lemma rnd32_up_pow : forall x e, (-149 <= e)%Z -> x <= bpow radix2 e -> rnd32 x <= bpow radix2 e.
Proof.
  intros x e He H. apply rnd32_le in H. replace (rnd32 (bpow radix2 e)) with (bpow radix2 e) in H; auto.
  symmetry. pose proof (rnd32_exact 1 e ltac:(lia) He) as P. rewrite Rmult_1_l in P. auto.
Qed.
Lemma rnd32_nonneg : forall x, 0 <= x -> 0 <= rnd32 x.
Proof. intros x H. rewrite <- rnd32_0. apply rnd32_le; auto. Qed.

(** the weight after drop-off stays below 2^102 *)
Lemma dropoff_weight : forall T vs w s, ffin T = true -> ffin vs = true -> 0 < FR vs -> FR T <= bpow radix2 20 ->
  ffin w = true -> 0 <= FR w <= bpow radix2 100 -> ffin s = true -> Rabs (FR s) < FR T -> FR s < - FR vs ->
  ffin (fdiv (fmul w (fadd T s)) (fsub T vs)) = true /\
  0 <= FR (fdiv (fmul w (fadd T s)) (fsub T vs)) <= bpow radix2 102.
Proof.
  intros T vs w s FT FV PV BT FW BW FS HS LS.
  apply Rabs_def2 in HS.
  assert (P20 : bpow radix2 20 <= bpow radix2 127) by (apply bpow_le; lia).
  assert (Ea : FR (fadd T s) = rnd32 (FR T + FR s) /\ ffin (fadd T s) = true).
  { apply fadd_R; auto. apply rnd32_small. rewrite Rabs_pos_eq; lra. }
  assert (Eb : FR (fsub T vs) = rnd32 (FR T - FR vs) /\ ffin (fsub T vs) = true).
  { apply fsub_R; auto. apply rnd32_small. rewrite Rabs_pos_eq; lra. }
  destruct Ea as (Ea & Fa). destruct Eb as (Eb & Fb).
  set (a := fadd T s) in *. set (b := fsub T vs) in *.
  assert (A0 : 0 <= FR a) by (rewrite Ea; apply rnd32_nonneg; lra).
  assert (AB : FR a <= FR b) by (rewrite Ea, Eb; apply rnd32_le; lra).
  assert (B20 : FR b <= bpow radix2 20) by (rewrite Eb; apply rnd32_up_pow; [lia|lra]).
  assert (BP : bpow radix2 (-149) <= FR b).
  { (* the difference of two floats is zero or at least the smallest float *)
    apply pos_float_min. rewrite Eb.
    destruct (Req_dec (rnd32 (FR T - FR vs)) 0) as [Z|Z].
    - exfalso. assert (FR T - FR vs = 0); [|lra].
      apply (Plus_error.round_plus_eq_0 radix2 (FLT_exp (-149) 24) ZnearestE (FR T) (- FR vs)) in Z; auto; [apply FR_format|].
      apply generic_format_opp. apply FR_format.
    - assert (0 <= rnd32 (FR T - FR vs)) by (apply rnd32_nonneg; lra). lra. }
  assert (WA : FR w * FR a <= bpow radix2 120).
  { replace 120%Z with (100 + 20)%Z by lia. rewrite bpow_plus. apply Rmult_le_compat; lra. }
  assert (WA0 : 0 <= FR w * FR a) by (apply Rmult_le_pos; lra).
  destruct (fmul_R w a FW Fa) as (Em & Fm).
  { apply rnd32_small. rewrite Rabs_pos_eq by auto. apply Rle_trans with (1 := WA). apply bpow_le; lia. }
  set (m := fmul w a) in *.
  assert (M0 : 0 <= FR m) by (rewrite Em; apply rnd32_nonneg; auto).
  assert (MB : FR m <= bpow radix2 101 * FR b).
  { destruct (rnd32_err (FR w * FR a)) as (d & e & Hd & He & E). rewrite Em, E.
    rewrite bpow_m24 in Hd. change (bpow radix2 (-150)) with t32r in He.
    apply Rabs_le_inv in Hd. apply Rabs_le_inv in He.
    assert (T1 : t32r <= FR b / 2).
    { unfold t32r. replace (bpow radix2 (-150)) with (bpow radix2 (-149) / 2); [lra|]. replace (-149)%Z with (-150 + 1)%Z by lia.
      rewrite bpow_plus. change (bpow radix2 1) with 2. field. }
    assert (P100 : 1 <= bpow radix2 100) by (change 1 with (bpow radix2 0); apply bpow_le; lia).
    replace (bpow radix2 101) with (2 * bpow radix2 100) by (replace 101%Z with (100 + 1)%Z by lia; rewrite bpow_plus; change (bpow radix2 1) with 2; ring).
    assert (W1 : FR w * FR a <= bpow radix2 100 * FR b) by (apply Rmult_le_compat; lra).
    assert (W2 : 1 * FR b <= bpow radix2 100 * FR b) by (apply Rmult_le_compat_r; lra).
    assert (d <= / 4) by (unfold u32r in *; lra).
    assert (FR w * FR a * (1 + d) <= FR w * FR a * (5 / 4)) by (apply Rmult_le_compat_l; lra). lra. }
  assert (BPP : 0 < FR b) by (pose proof (bpow_gt_0 radix2 (-149)); lra).
  assert (Q0 : 0 <= FR m / FR b) by (apply Rmult_le_pos; [auto|]; left; apply Rinv_0_lt_compat; auto).
  assert (Q1 : FR m / FR b <= bpow radix2 101).
  { apply (Rmult_le_reg_r (FR b)); auto. unfold Rdiv. rewrite Rmult_assoc, Rinv_l by lra. lra. }
  destruct (fdiv_R m b Fm) as (Eq & Fq); [lra| |].
  { apply rnd32_small. rewrite Rabs_pos_eq by auto. apply Rle_trans with (1 := Q1). apply bpow_le; lia. }
  split; auto. rewrite Eq. split; [apply rnd32_nonneg; auto|]. apply rnd32_up_pow; [lia|].
  apply Rle_trans with (1 := Q1). apply bpow_le; lia.
Qed.

Lemma fmax0_R : forall a, ffin a = true -> 0 <= FR a -> ffin (fmax a f0) = true /\ FR (fmax a f0) = FR a.
Proof.
  intros a F P. unfold fmax. destruct (flt a f0) eqn:E; auto. apply flt_R in E; auto.
  change (FR f0) with 0 in E. lra.
Qed.

Lemma update_defined : forall cfg vs q v, cfg_ok cfg -> cfg_small cfg -> ffin vs = true -> 0 < FR vs ->
  ffin (q_weight q) = true -> 0 <= FR (q_weight q) <= bpow radix2 100 -> color_ok (q_color q) ->
  voxel_in cfg v -> color_ok (t_color v) ->
  exists v', updateTsdfVoxel cfg vs q v = Ok v' /\ color_ok (t_color v').
Proof.
  intros cfg vs q v (FT & PT & FM & PM) (ST & SM & FF & BF) FV PV FQ BQ CQ (FD & BD & FW & BW) CV.
  unfold updateTsdfVoxel. destruct (flt (fadd _ _) kEpsilon) eqn:E; [eexists; split; [reflexivity|auto]|].
  destruct (flt (fabs (req_sdf vs q)) (c_trunc cfg)) eqn:ES.
  2:{ cbn [rbind]. eexists; split; [reflexivity|auto]. }
  assert (FS : ffin (req_sdf vs q) = true) by (eapply fabs_lt_fin; eauto).
  apply flt_R in ES; auto; [|rewrite fabs_fin; auto]. rewrite fabs_R in ES.
  assert (UW : ffin (req_weight cfg vs q) = true /\ 0 <= FR (req_weight cfg vs q) <= bpow radix2 123).
  { unfold req_weight.
    set (w := if c_dropoff cfg && _ then _ else _).
    assert (Hw : ffin w = true /\ 0 <= FR w <= bpow radix2 102).
    { assert (P : bpow radix2 100 <= bpow radix2 102) by (apply bpow_le; lia).
      subst w. destruct (c_dropoff cfg && flt (req_sdf vs q) (fneg vs)) eqn:DO; [|split; [auto|lra]].
      apply andb_prop in DO. destruct DO as (_ & DO). apply flt_R in DO; auto; [|rewrite fneg_fin; auto]. rewrite fneg_R in DO.
      destruct (dropoff_weight (c_trunc cfg) vs (q_weight q) (req_sdf vs q)) as (A & B); auto.
      destruct (fmax0_R _ A (proj1 B)) as (C & D). split; [auto|rewrite D; auto]. }
    destruct Hw as (Fw & Bw).
    assert (P : bpow radix2 102 <= bpow radix2 123) by (apply bpow_le; lia).
    destruct (c_sparsity cfg && _); [|split; [auto|lra]].
    assert (MB : FR w * FR (c_factor cfg) <= bpow radix2 122).
    { replace 122%Z with (102 + 20)%Z by lia. rewrite bpow_plus. apply Rmult_le_compat; lra. }
    assert (M0 : 0 <= FR w * FR (c_factor cfg)) by (apply Rmult_le_pos; lra).
    destruct (fmul_R w (c_factor cfg) Fw FF) as (Em & Fm).
    { apply rnd32_small. rewrite Rabs_pos_eq by auto. apply Rle_trans with (1 := MB). apply bpow_le; lia. }
    split; auto. rewrite Em. split; [apply rnd32_nonneg; auto|]. apply rnd32_up_pow; [lia|].
    apply Rle_trans with (1 := MB). apply bpow_le; lia. }
  destruct UW as (FU & BU).
  assert (SB : FR (t_weight v) + FR (req_weight cfg vs q) <= bpow radix2 127).
  { apply Rle_trans with (bpow radix2 100 + bpow radix2 123); [lra|].
    apply Rle_trans with (bpow radix2 123 + bpow radix2 123); [apply Rplus_le_compat_r; apply bpow_le; lia|].
    apply Rle_trans with (bpow radix2 124); [|apply bpow_le; lia].
    replace 124%Z with (123 + 1)%Z by lia. rewrite (bpow_plus radix2 123 1). change (bpow radix2 1) with 2. lra. }
  assert (SP : 0 < FR (t_weight v) + FR (req_weight cfg vs q)).
  { destruct (Rle_lt_or_eq_dec 0 (FR (t_weight v) + FR (req_weight cfg vs q))) as [L|L]; [lra|auto|].
    exfalso. destruct (fadd_R (t_weight v) (req_weight cfg vs q) FW FU) as (Ea & Fa).
    { apply rnd32_small. rewrite <- L, Rabs_R0. apply bpow_ge_0. }
    rewrite <- L, rnd32_0 in Ea. destruct kEpsilon_pos as (EP & EF).
    assert (flt (fadd (t_weight v) (req_weight cfg vs q)) kEpsilon = true); [|congruence].
    apply flt_R; auto. rewrite Ea. auto. }
  destruct (blend_colors (t_color v) (q_color q) (t_weight v) (req_weight cfg vs q) CV CQ FW FU (proj1 BW) (proj1 BU) SP SB)
    as (c & Ec & c1 & c2 & c3 & c4).
  rewrite Ec. cbn [of_opt rbind]. eexists; split; [reflexivity|]. cbn [t_color].
  destruct CV as (V1 & V2 & V3 & V4). destruct CQ as (Q1 & Q2 & Q3 & Q4). unfold color_ok, is_byte in *. lia.
Qed.

Lemma updates_defined : forall cfg vs qs v, cfg_ok cfg -> cfg_small cfg -> ffin vs = true -> 0 < FR vs ->
  Forall (fun q => ffin (q_weight q) = true /\ 0 <= FR (q_weight q) <= bpow radix2 100 /\ color_ok (q_color q)) qs ->
  voxel_in cfg v -> color_ok (t_color v) ->
  exists v', updates cfg vs qs v = Ok v' /\ color_ok (t_color v').
Proof.
  intros cfg vs qs. induction qs as [|q qs IH]; intros v C S F P HQ HV HC; cbn.
  - eauto.
  - inversion HQ as [|? ? (A & B & D) HQ']; subst.
    destruct (update_defined cfg vs q v C S F P A B D HV HC) as (v1 & E1 & C1).
    rewrite E1. cbn [rbind]. apply IH; auto. eapply update_bounds; eauto.
Qed.

(** ** the updated distance is the clipped weighted mean *)
Lemma clip_sdf_R : forall T s, ffin T = true -> 0 <= FR T -> ffin s = true ->
  FR (clip_sdf T s) = clipR (FR T) (FR s).
Proof.
  intros T s FT PT FS. unfold clip_sdf, fgt, fmin, fmax, clipR.
  destruct (flt f0 s) eqn:E0.
  - apply flt_R in E0; auto. change (FR f0) with 0 in E0. destruct (flt s T) eqn:E1.
    + apply flt_R in E1; auto. rewrite Rmin_right, Rmax_right by lra. auto.
    + assert (FR T <= FR s). { apply Rnot_lt_le. intro L. apply flt_R in L; auto. congruence. }
      rewrite Rmin_left, Rmax_right by lra. auto.
  - assert (L0 : FR s <= 0). { apply Rnot_lt_le. intro L. change 0 with (FR f0) in L. apply flt_R in L; auto. congruence. }
    rewrite Rmin_right by lra. destruct (flt (fneg T) s) eqn:E1.
    + apply flt_R in E1; auto; [|rewrite fneg_fin; auto]. rewrite fneg_R in E1. rewrite Rmax_right by lra. auto.
    + assert (FR s <= - FR T). { apply Rnot_lt_le. intro L. rewrite <- fneg_R in L. apply flt_R in L; auto; [congruence|rewrite fneg_fin; auto]. }
      rewrite Rmax_left by lra. apply fneg_R.
Qed.

Lemma clipR_lip : forall T x y, 0 <= T -> Rabs (clipR T x - clipR T y) <= Rabs (x - y).
Proof.
  intros T x y HT. unfold clipR, Rmax, Rmin.
  repeat (destruct (Rle_dec _ _)); unfold Rabs; repeat (destruct (Rcase_abs _)); lra.
Qed.

Lemma update_mean : forall cfg vs q v v', cfg_ok cfg -> voxel_in cfg v ->
  FR (c_trunc cfg) <= bpow radix2 40 -> FR (c_max_weight cfg) <= bpow radix2 40 ->
  fin_upto 40 (req_sdf vs q) -> fin_upto 40 (req_weight cfg vs q) -> 0 <= FR (req_weight cfg vs q) ->
  flt (fadd (t_weight v) (req_weight cfg vs q)) kEpsilon = false ->
  updateTsdfVoxel cfg vs q v = Ok v' ->
  Rabs (FR (t_distance v') -
        clipR (FR (c_trunc cfg)) (mean (FR (req_sdf vs q)) (FR (req_weight cfg vs q)) (FR (t_distance v)) (FR (t_weight v))))
  <= bpow radix2 (-20) * Rmax (Rabs (FR (req_sdf vs q))) (Rabs (FR (t_distance v))) + bpow radix2 (-120) /\
  FR (t_weight v') = Rmin (FR (c_max_weight cfg)) (rnd32 (FR (t_weight v) + FR (req_weight cfg vs q))).
Proof.
  intros cfg vs q v v' (FT & PT & FM & PM) (FD & BD & FW & BW) BT BM US UU PU E H.
  unfold updateTsdfVoxel in H. rewrite E in H.
  destruct (if flt (fabs (req_sdf vs q)) (c_trunc cfg) then _ else _) as [c| |]; try discriminate.
  cbn [rbind] in H. inversion H; subst; clear H. cbn [t_distance t_weight].
  set (sdf := req_sdf vs q) in *. set (uw := req_weight cfg vs q) in *.
  assert (UD : fin_upto 40 (t_distance v)). { split; auto. apply Rabs_le. lra. }
  assert (UW : fin_upto 40 (t_weight v)). { split; auto. apply Rabs_le. lra. }
  destruct UU as (FU & BU). pose proof BU as BU'. rewrite Rabs_pos_eq in BU' by auto.
  assert (P41 : bpow radix2 40 + bpow radix2 40 <= bpow radix2 127).
  { apply Rle_trans with (bpow radix2 41); [|apply bpow_le; lia]. replace 41%Z with (40 + 1)%Z by lia. rewrite (bpow_plus radix2 40 1). change (bpow radix2 1) with 2. lra. }
  destruct (fadd_R (t_weight v) uw FW FU) as (Ea & Fa).
  { apply rnd32_small. rewrite Rabs_pos_eq by lra. lra. }
  destruct kEpsilon_pos as (EP & EF).
  assert (LE : FR kEpsilon <= FR (fadd (t_weight v) uw)).
  { apply Rnot_lt_le. intro L. apply flt_R in L; auto. congruence. }
  assert (EE: FR kEpsilon = IZR 8796093 * bpow radix2 (-43)) by reflexivity.
  assert (SUM : bpow radix2 (-20) <= FR uw + FR (t_weight v)).
  { destruct (fadd_rel (t_weight v) uw FW FU) as (_ & d & Hd & Er). { rewrite Rabs_pos_eq; lra. }
    apply Rnot_lt_le. intro L. rewrite Er in LE. apply Rabs_le_inv in Hd.
    assert ((FR (t_weight v) + FR uw) * (1 + d) <= bpow radix2 (-20) * (1 + u32r)).
    { apply Rmult_le_compat; unfold u32r in *; lra. }
    rewrite EE in LE. replace (bpow radix2 (-20)) with (8388608 * bpow radix2 (-43)) in H.
    2:{ replace 8388608 with (bpow radix2 23) by (cbn; lra). rewrite <- bpow_plus. reflexivity. }
    pose proof (bpow_gt_0 radix2 (-43)). unfold u32r in H. lra. }
  destruct (merge_distance sdf uw (t_distance v) (t_weight v) US UD (conj FU BU) UW PU (proj1 BW) SUM) as (FN & BN).
  assert (CM : fadd uw (t_weight v) = fadd (t_weight v) uw) by (apply fadd_comm; apply ffin_nnan; auto).
  rewrite CM in FN, BN. change (fdiv _ _) with (new_sdf sdf uw (t_distance v) (t_weight v) (fadd (t_weight v) uw)) in FN, BN.
  split.
  - rewrite clip_sdf_R by auto. eapply Rle_trans; [apply clipR_lip; auto|]. exact BN.
  - unfold fmin. destruct (flt _ (c_max_weight cfg)) eqn:E1.
    + apply flt_R in E1; auto. rewrite Ea in *. rewrite Rmin_right by lra. auto.
    + rewrite Rmin_left; auto. rewrite <- Ea. apply Rnot_lt_le. intro L. apply flt_R in L; auto. congruence.
Qed.

(** ** occupancy *)
Lemma fadd_nnan : forall a b, ffin a = true -> fnan b = false -> fnan (fadd a b) = false.
Proof.
  intros a b Fa Nb. destruct (ffin b) eqn:Fb.
  - pose proof (Bplus_correct 24 128 Hprec32 Hmax32 binop_nan_pl32 mode_NE a b Fa Fb) as C.
    change (Bplus 24 128 Hprec32 Hmax32 binop_nan_pl32 mode_NE a b) with (fadd a b) in C.
    destruct (Rlt_bool _ _).
    + apply ffin_nnan. apply C.
    + destruct C as (C & _). destruct (fadd a b); try discriminate; reflexivity.
  - destruct b; try discriminate. destruct a; try discriminate; reflexivity.
Qed.

Lemma clamp_in : forall lo hi x, ffin lo = true -> ffin hi = true -> FR lo <= FR hi -> fnan x = false ->
  ffin (fmin (fmax x lo) hi) = true /\ FR lo <= FR (fmin (fmax x lo) hi) <= FR hi.
Proof.
  intros lo hi x Fl Fh L N. pose proof (FR_lt_max hi) as MH. apply Rabs_def2 in MH.
  unfold fmin, fmax. destruct (flt x lo) eqn:E.
  - destruct (flt hi lo) eqn:E1.
    + split; [auto|lra].
    + split; [auto|lra].
  - apply flt_false_iff in E. destruct E as [E | [E | E]]; [congruence|apply ffin_nnan in Fl; congruence|].
    rewrite (ER_fin lo) in E by auto. destruct (flt hi x) eqn:E1; [split; [auto|lra]|].
    apply flt_false_iff in E1. destruct E1 as [E1 | [E1 | E1]]; [apply ffin_nnan in Fh; congruence|congruence|].
    rewrite (ER_fin hi) in E1 by auto. pose proof (FR_lt_max lo) as ML. apply Rabs_def2 in ML.
    destruct x as [s|s|s p Hp|s m e Hm]; try discriminate; cbn [ER] in *; [split; [reflexivity|lra]| |split; [reflexivity|lra]].
    destruct s; lra.
Qed.

Lemma occ_update_in : forall c o v, occ_cfg_ok c -> occ_in c v -> occ_in c (updateOccupancyVoxel c o v).
Proof.
  intros c o v (Nh & Nm & Fl & Fh & B) (Fv & Bv). unfold updateOccupancyVoxel, occ_in.
  destruct (_ || _); cbn [o_log]; [auto|]. apply clamp_in; auto; [lra|].
  apply fadd_nnan; auto. destruct o; auto.
Qed.
Lemma occ_updates_in : forall c os v, occ_cfg_ok c -> occ_in c v -> occ_in c (occ_updates c os v).
Proof.
  intros c os. induction os as [|o os IH]; intros v C V; cbn; auto. apply IH; auto. apply occ_update_in; auto.
Qed.
Lemma occ_updates_observed : forall c os v, os <> [] \/ o_observed v = true -> o_observed (occ_updates c os v) = true.
Proof.
  intros c os. induction os as [|o os IH]; intros v H; cbn.
  - destruct H; congruence.
  - apply IH. right. unfold updateOccupancyVoxel. destruct (_ || _); reflexivity.
Qed.

(** clamping preserves a bound that lies in the range *)
Lemma clamp_ge : forall lo hi x b, ffin lo = true -> ffin hi = true -> FR lo <= FR hi -> fnan x = false ->
  b <= FR hi -> b <= ER x -> b <= FR (fmin (fmax x lo) hi).
Proof.
  intros lo hi x b Fl Fh L N Hb Hx. destruct (clamp_in lo hi x Fl Fh L N) as (FC & BC).
  unfold fmin in *. destruct (flt hi (fmax x lo)) eqn:E1; [auto|].
  unfold fmax in *. destruct (flt x lo) eqn:E.
  - apply flt_iff in E. destruct E as (_ & _ & E). rewrite (ER_fin lo) in E by auto. lra.
  - rewrite ER_fin in Hx by auto. auto.
Qed.
Lemma clamp_le : forall lo hi x b, ffin lo = true -> ffin hi = true -> FR lo <= FR hi -> fnan x = false ->
  FR lo <= b -> ER x <= b -> FR (fmin (fmax x lo) hi) <= b.
Proof.
  intros lo hi x b Fl Fh L N Hb Hx. destruct (clamp_in lo hi x Fl Fh L N) as (FC & BC).
  unfold fmin in *. destruct (flt hi (fmax x lo)) eqn:E1.
  - apply flt_iff in E1. destruct E1 as (_ & _ & E1). rewrite (ER_fin hi) in E1 by auto.
    unfold fmax in E1. destruct (flt x lo) eqn:E; [rewrite ER_fin in E1 by auto|]; lra.
  - unfold fmax in *. destruct (flt x lo) eqn:E; [auto|]. rewrite ER_fin in Hx by auto. auto.
Qed.

(** a hit with non-negative log-odds never lowers the value, symmetrically for misses *)
Lemma occ_update_dir : forall c (o : bool) v, occ_cfg_ok c -> occ_in c v ->
  (fle f0 (if o then oc_hit c else oc_miss c) = true -> FR (o_log v) <= FR (o_log (updateOccupancyVoxel c o v))) /\
  (fle (if o then oc_hit c else oc_miss c) f0 = true -> FR (o_log (updateOccupancyVoxel c o v)) <= FR (o_log v)).
Proof.
  intros c o v (Nh & Nm & Fl & Fh & B) (Fv & Bv). unfold updateOccupancyVoxel.
  set (u := if o then oc_hit c else oc_miss c).
  match goal with |- context [if ?b then _ else _] => destruct b eqn:D end; cbn [o_log]; [lra|].
  assert (Nu : fnan u = false) by (subst u; destruct o; auto).
  assert (Na : fnan (fadd (o_log v) u) = false) by (apply fadd_nnan; auto).
  split; intros H; apply fle_iff in H; destruct H as (_ & _ & H); change (ER f0) with 0 in H.
  - apply clamp_ge; auto; [lra..|]. destruct (fadd_up (o_log v) u Fv) as [N|G]; [right; auto|congruence|auto].
  - apply clamp_le; auto; [lra..|]. apply fadd_down; auto.
Qed.
