From Coq Require Import ZArith Reals Lra Lia List Bool.
From Flocq Require Import Core IEEE754.Binary Mult_error.
From Verif Require Import F32 F32_lemmas F32_err Voxel Merge_proofs Neighbor_proofs ColorMap ColorMap_spec.
Import ListNotations.
Ltac Zify.zify_post_hook ::= idtac.
Open Scope R_scope.

Lemma t64r_small : 0 < t64r < / 1000000000000000.
Proof. unfold t64r. split; [apply bpow_gt_0|]. apply Rlt_trans with (bpow radix2 (-60)); [apply bpow_lt; lia|]. change (bpow radix2 (-60)) with (/ 1152921504606846976). lra. Qed.
Lemma rnd64_near : forall x, Rabs x <= 512 -> Rabs (rnd64 x - x) <= / 1000000000.
Proof.
  intros x H. destruct (rnd64_err x) as (d & e & D & E & ->). replace (x * (1 + d) + e - x) with (x * d + e) by ring.
  eapply Rle_trans; [apply Rabs_triang|]. pose proof (Rabs_dev x u64r d D) as X. pose proof t64r_small. pose proof (Rabs_pos x).
  assert (Rabs x * u64r <= 512 * u64r) by (apply Rmult_le_compat_r; [unfold u64r; lra|exact H]). unfold u64r in *. lra.
Qed.
Lemma rnd64_in : forall x a b, (Z.abs a <= 2 ^ 53)%Z -> (Z.abs b <= 2 ^ 53)%Z -> IZR a <= x <= IZR b -> IZR a <= rnd64 x <= IZR b.
Proof. intros x a b A B H. rewrite <- (rnd64_Z a A), <- (rnd64_Z b B). split; apply rnd64_le; lra. Qed.
Lemma small64 : forall x, Rabs x <= 512 -> Rabs (rnd64 x) < max64.
Proof. intros x H. apply rnd64_small. eapply Rle_trans; [exact H|]. change 512 with (bpow radix2 9). apply bpow_le. lia. Qed.

Lemma big_int : forall x, bpow radix2 53 <= Rabs (DR x) -> IZR (Zfloor (DR x)) = DR x.
Proof.
  intros x H. pose proof (DR_format x) as G. set (r := DR x) in *. unfold generic_format in G.
  assert (C : (0 <= cexp radix2 (FLT_exp (-1074) 53) r)%Z).
  { unfold cexp, FLT_exp. assert (54 <= mag radix2 r)%Z; [|lia]. apply mag_ge_bpow. exact H. }
  rewrite G. unfold F2R. cbn [Fnum Fexp]. rewrite <- IZR_Zpower by exact C. rewrite <- mult_IZR, Zfloor_IZR. reflexivity.
Qed.
Lemma dfloor_R : forall x, dfin x = true -> exists y, dfloor x = Some y /\ dfin y = true /\ DR y = IZR (Zfloor (DR x)).
Proof.
  intros x F. unfold dfloor. rewrite (dfloorZ_R x F). exists (f64_of_Z (Zfloor (DR x))). split; [reflexivity|].
  destruct (Rle_lt_dec (bpow radix2 53) (Rabs (DR x))) as [B | S].
  - pose proof (big_int x B) as I. destruct (f64_lit_R (Zfloor (DR x)) 0) as (P & Q).
    { cbn [bpow]. rewrite Rmult_1_r, I, rnd64_DR. apply DR_lt_max. }
    cbn [bpow] in P. rewrite Rmult_1_r, I, rnd64_DR in P. rewrite I. split; assumption.
  - assert (L : (Z.abs (Zfloor (DR x)) <= 2 ^ 53)%Z).
    { change (bpow radix2 53) with 9007199254740992 in S. apply Rabs_lt_inv in S. pose proof (Zfloor_lb (DR x)). pose proof (Zfloor_ub (DR x)).
      assert (Zfloor (DR x) < 9007199254740992)%Z by (apply lt_IZR; lra).
      assert (-9007199254740992 - 1 < Zfloor (DR x))%Z by (apply lt_IZR; rewrite minus_IZR; lra). change (2 ^ 53)%Z with 9007199254740992%Z. lia. }
    destruct (f64_of_Z_R _ L) as (P & Q). auto.
Qed.
Lemma dround_floor : forall x, dfin x = true -> 0 <= DR x -> droundZ x = Some (Zfloor (DR x + / 2)).
Proof.
  intros [s|s|s p Hp|s m e He] F P; try discriminate F; cbn [droundZ].
  - unfold DR. cbn [B2R]. f_equal. symmetry. apply Zfloor_imp. cbn [Z.add]. lra.
  - f_equal. assert (EV : DR (B754_finite 53 1024 s m e He) = IZR (sgnm s m) * bpow radix2 e) by (symmetry; apply sgnm_F2R). rewrite EV in *.
    assert (M : (0 <= sgnm s m)%Z).
    { apply le_IZR. apply (Rmult_le_reg_r (bpow radix2 e)); [apply bpow_gt_0|]. lra. }
    unfold Zround_me. destruct (Z.leb_spec 0 e) as [E | E].
    + rewrite <- IZR_Zpower by exact E. rewrite <- mult_IZR. symmetry. apply Zfloor_imp. rewrite plus_IZR. change (Z.pow_pos 2) with (Z.pow_pos radix2). change (radix2 : Z) with 2%Z. lra.
    + assert (Hp : (0 < 2 ^ - e)%Z) by (apply Z.pow_pos_nonneg; lia).
      replace e with (- - e)%Z at 3 by lia. rewrite bpow_opp, <- IZR_Zpower by lia. change (radix2 : Z) with 2%Z. set (p := (2 ^ - e)%Z) in *.
      replace (IZR (sgnm s m) * / IZR p + / 2) with (IZR (2 * sgnm s m + p) / IZR (2 * p)).
      2:{ rewrite plus_IZR, !mult_IZR. assert (IZR p <> 0) by (apply not_0_IZR; lia). field. assumption. }
      rewrite Zfloor_div by lia. destruct (Z.eq_dec (sgnm s m) 0) as [Z0 | NZ]; [destruct s; discriminate|].
      replace (Z.sgn (sgnm s m)) with 1%Z by lia. rewrite Z.abs_eq by exact M. lia.
Qed.

(** ** ramps *)
Ltac splits := repeat match goal with |- context [Rle_dec ?a ?b] => destruct (Rle_dec a b) | |- context [Rcase_abs ?a] => destruct (Rcase_abs a) end.
Lemma ramp_range : forall x, 0 <= ramp x <= 1.
Proof. intros x. unfold ramp, Rmin. splits; unfold Rmax; splits; lra. Qed.
Lemma ramp_lip : forall x y, Rabs (ramp x - ramp y) <= Rabs (x - y).
Proof.
  intros x y. unfold ramp, Rmin. splits; unfold Rmax; splits; unfold Rabs; splits; lra.
Qed.
Lemma ramp_low : forall x, x <= 0 -> ramp x = 0.
Proof. intros x H. unfold ramp. rewrite (Rmin_right 1 x) by lra. apply Rmax_left. exact H. Qed.
Lemma ramp_high : forall x, 1 <= x -> ramp x = 1.
Proof. intros x H. unfold ramp. rewrite (Rmin_left 1 x) by lra. apply Rmax_right. lra. Qed.
Lemma ramp_id : forall x, 0 <= x <= 1 -> ramp x = x.
Proof. intros x H. unfold ramp. rewrite (Rmin_right 1 x) by lra. apply Rmax_right. lra. Qed.
Lemma red_lip : forall x y, Rabs (red x - red y) <= Rabs (x - y).
Proof. intros. unfold red. eapply Rle_trans; [apply ramp_lip|]. unfold Rabs. splits; lra. Qed.
Lemma green_lip : forall x y, Rabs (green x - green y) <= Rabs (x - y).
Proof. intros. unfold green. eapply Rle_trans; [apply ramp_lip|]. unfold Rabs. splits; lra. Qed.
Lemma blue_lip : forall x y, Rabs (blue x - blue y) <= Rabs (x - y).
Proof. intros. unfold blue. eapply Rle_trans; [apply ramp_lip|]. unfold Rabs. splits; lra. Qed.

(** ** the maps of doubles *)
Lemma byte_of_R : forall x y, dfin x = true -> 0 <= DR x <= 255 -> Rabs (DR x - 255 * y) <= / 100000 ->
  exists c, byte_of x = Some c /\ (0 <= c <= 255)%Z /\ Rabs (IZR c - 255 * y) <= 1 + / 100000.
Proof.
  intros x y F R E. unfold byte_of. rewrite (dtruncZ_R x F). exists (Zfloor (DR x)). rewrite Ztrunc_floor by lra.
  assert (B : (0 <= Zfloor (DR x) <= 255)%Z) by (split; [apply Zfloor_lub; lra|apply le_IZR; pose proof (Zfloor_lb (DR x)); lra]).
  split; [apply in_range_Some; auto|]. split; [exact B|]. pose proof (Zfloor_lb (DR x)). pose proof (Zfloor_ub (DR x)). apply Rabs_le_inv in E. apply Rabs_le. lra.
Qed.
Lemma byte_255 : byte_of (dmul (f64_of_Z 255) d1) = Some 255%Z.
Proof. vm_compute. reflexivity. Qed.
Lemma byte_0 : byte_of (dmul (f64_of_Z 255) (dmul d1 (dsub d1 d1))) = Some 0%Z.
Proof. vm_compute. reflexivity. Qed.
Lemma d1_R : DR d1 = 1 /\ dfin d1 = true.
Proof. apply (f64_of_Z_R 1). lia. Qed.
Lemma dmul1 : forall x, dfin x = true -> DR (dmul d1 x) = DR x /\ dfin (dmul d1 x) = true.
Proof.
  intros x F. destruct d1_R as (E & F1). destruct (dmul_R d1 x F1 F) as (A & B).
  { rewrite E, Rmult_1_l, rnd64_DR. apply DR_lt_max. }
  rewrite E, Rmult_1_l, rnd64_DR in A. auto.
Qed.
Lemma one_minus : forall x, dfin x = true -> 0 <= DR x <= 1 ->
  dfin (dsub d1 x) = true /\ 0 <= DR (dsub d1 x) <= 1 /\ Rabs (DR (dsub d1 x) - (1 - DR x)) <= / 1000000000.
Proof.
  intros x F R. destruct d1_R as (E & F1). destruct (dsub_R d1 x F1 F) as (A & B).
  { apply small64. rewrite E. apply Rabs_le. lra. }
  rewrite A, E. split; [exact B|]. split; [apply (rnd64_in _ 0 1); lia || lra|]. apply rnd64_near. apply Rabs_le. lra.
Qed.
Lemma rainbow_spec : forall h, dfin h = true -> exists c, rainbowColorMap h = Some c /\ saturated c /\ color_ok c /\
  shows (1 + / 10000) c (red (6 * frac (DR h))) (green (6 * frac (DR h))) (blue (6 * frac (DR h))).
Proof.
  intros h F. unfold rainbowColorMap. destruct (dfloor_R h F) as (fl & Efl & Ffl & Rfl). rewrite Efl. cbn [obind].
  assert (FRC : 0 <= frac (DR h) < 1) by (unfold frac; pose proof (Zfloor_lb (DR h)); pose proof (Zfloor_ub (DR h)); lra).
  destruct (dsub_R h fl F Ffl) as (A1 & B1). { apply small64. rewrite Rfl. fold (frac (DR h)). apply Rabs_le. lra. }
  rewrite Rfl in A1. fold (frac (DR h)) in A1.
  assert (I1 : 0 <= DR (dsub h fl) <= 1) by (rewrite A1; apply (rnd64_in _ 0 1); lia || lra).
  assert (N1 : Rabs (DR (dsub h fl) - frac (DR h)) <= / 1000000000) by (rewrite A1; apply rnd64_near, Rabs_le; lra).
  destruct (f64_of_Z_R 6 ltac:(lia)) as (E6 & F6).
  destruct (dmul_R (dsub h fl) (f64_of_Z 6) B1 F6) as (A2 & B2). { apply small64. rewrite E6. apply Rabs_le. lra. }
  rewrite E6 in A2. set (h2 := dmul (dsub h fl) (f64_of_Z 6)) in *.
  assert (I2 : 0 <= DR h2 <= 6) by (rewrite A2; apply (rnd64_in _ 0 6); lia || lra).
  assert (N2 : Rabs (DR h2 - 6 * frac (DR h)) <= / 10000000).
  { pose proof (rnd64_near (DR (dsub h fl) * 6) ltac:(apply Rabs_le; lra)) as X. rewrite <- A2 in X. apply Rabs_le_inv in X. apply Rabs_le_inv in N1. apply Rabs_le. lra. }
  rewrite (dfloorZ_R h2 B2). set (i := Zfloor (DR h2)). pose proof (Zfloor_lb (DR h2)) as LB. pose proof (Zfloor_ub (DR h2)) as UB. fold i in LB, UB.
  assert (RI : (0 <= i <= 6)%Z). { split; [apply Zfloor_lub; lra|]. apply le_IZR. lra. }
  assert (EI : to_int32 (Some i) = Some i) by (apply in_range_Some; split; [reflexivity|lia]). rewrite EI. cbn [obind].
  destruct (f64_of_Z_R i ltac:(lia)) as (Ei & Fi).
  destruct (dsub_R h2 (f64_of_Z i) B2 Fi) as (A3 & B3). { apply small64. rewrite Ei. apply Rabs_le. lra. }
  rewrite Ei in A3. set (f := dsub h2 (f64_of_Z i)) in *.
  assert (I3 : 0 <= DR f <= 1) by (rewrite A3; apply (rnd64_in _ 0 1); lia || lra).
  assert (N3 : Rabs (DR f - (DR h2 - IZR i)) <= / 1000000000) by (rewrite A3; apply rnd64_near, Rabs_le; lra).
  set (f' := if Z.even i then dsub d1 f else f).
  assert (P4 : dfin f' = true /\ 0 <= DR f' <= 1 /\ Rabs (DR f' - (if Z.even i then 1 - (DR h2 - IZR i) else DR h2 - IZR i)) <= 2 * / 1000000000).
  { unfold f'. destruct (Z.even i); [|split; [exact B3|split; [exact I3|lra]]]. destruct (one_minus f B3 I3) as (X1 & X2 & X3). split; [exact X1|]. split; [exact X2|]. apply Rabs_le_inv in X3. apply Rabs_le_inv in N3. apply Rabs_le. lra. }
  destruct P4 as (F4 & I4 & N4). destruct (dmul1 f' F4) as (E5 & F5).
  destruct (one_minus (dmul d1 f') F5 ltac:(rewrite E5; exact I4)) as (X1 & X2 & X3). rewrite E5 in X3.
  destruct (dmul1 _ X1) as (E7 & F7). set (n := dmul d1 (dsub d1 (dmul d1 f'))) in *. rewrite <- E7 in X2, X3.
  destruct (f64_of_Z_R 255 ltac:(lia)) as (E255 & F255).
  destruct (dmul_R (f64_of_Z 255) n F255 F7) as (A8 & B8). { apply small64. rewrite E255. apply Rabs_le. lra. }
  rewrite E255 in A8.
  assert (I8 : 0 <= DR (dmul (f64_of_Z 255) n) <= 255) by (rewrite A8; apply (rnd64_in _ 0 255); lia || lra).
  set (y := 1 - (if Z.even i then 1 - (DR h2 - IZR i) else DR h2 - IZR i)) in *.
  assert (N8 : Rabs (DR (dmul (f64_of_Z 255) n) - 255 * y) <= / 100000).
  { pose proof (rnd64_near (255 * DR n) ltac:(apply Rabs_le; lra)) as X. rewrite <- A8 in X. apply Rabs_le_inv in X. apply Rabs_le_inv in X3. apply Rabs_le_inv in N4. unfold y. apply Rabs_le. lra. }
  destruct (byte_of_R _ y B8 I8 N8) as (c & EC & RC & NC).
  assert (SH : forall r g b, (forall x, r = x -> True) ->
     IZR r = 255 * red (DR h2) \/ (r = c /\ red (DR h2) = y) ->
     IZR g = 255 * green (DR h2) \/ (g = c /\ green (DR h2) = y) ->
     IZR b = 255 * blue (DR h2) \/ (b = c /\ blue (DR h2) = y) ->
     shows (1 + / 10000) (MkColor r g b 255) (red (6 * frac (DR h))) (green (6 * frac (DR h))) (blue (6 * frac (DR h)))).
  { intros r g b _ HR HG HB. unfold shows, about. cbn [ca cr cg cb].
    pose proof (red_lip (DR h2) (6 * frac (DR h))) as L1. pose proof (green_lip (DR h2) (6 * frac (DR h))) as L2. pose proof (blue_lip (DR h2) (6 * frac (DR h))) as L3.
    assert (G : forall z u w, Rabs (u - w) <= / 10000000 -> IZR z = 255 * u \/ (z = c /\ u = y) -> Rabs (IZR z - 255 * w) <= 1 + / 10000).
    { intros z u w D [-> | (-> & ->)]; apply Rabs_le_inv in D; apply Rabs_le; [lra|]. apply Rabs_le_inv in NC. lra. }
    split; [reflexivity|]. split; [|split]; eapply G; try eassumption; eapply Rle_trans; eassumption. }
  cbv zeta. fold f. fold f'. fold n. unfold rgb. rewrite byte_255, byte_0, EC. cbn [obind].
  assert (BK : forall r g b, (0 <= r <= 255)%Z -> (0 <= g <= 255)%Z -> (0 <= b <= 255)%Z -> color_ok (MkColor r g b 255)) by (intros; unfold color_ok, is_byte; cbn; lia).
  assert (HI : i = 0%Z \/ i = 1%Z \/ i = 2%Z \/ i = 3%Z \/ i = 4%Z \/ i = 5%Z \/ i = 6%Z) by lia.
  clear EI Ei Fi A3 B3 I3 N3 F4 I4 N4 E5 F5 X1 X2 X3 E7 F7 A8 B8 I8 N8 EC. clearbody n f' f i.
  assert (AB : forall x, 0 <= x -> Rabs x = x) by (intros; apply Rabs_pos_eq; assumption).
  assert (AN : forall x, x <= 0 -> Rabs x = - x) by (intros; apply Rabs_left1; assumption).
  destruct HI as [-> | [-> | [-> | [-> | [-> | [-> | ->]]]]]]; cbn [Z.eqb Pos.eqb orb]; eexists; (split; [reflexivity|]); (split; [unfold saturated; cbn [cr cg cb]; lia|]); (split; [apply BK; lia|]);
    cbn [Z.even] in y; unfold y in *; (apply SH; [auto| | |]); unfold red, green, blue.
  all: try (right; split; [reflexivity|]).
  all: repeat match goal with |- context [Rabs ?x] => first [rewrite (AB x) by lra | rewrite (AN x) by lra] end.
  all: try (rewrite ramp_id by lra; lra).
  all: try (left; rewrite ramp_low by lra; lra).
  all: try (left; rewrite ramp_high by lra; lra).
  all: rewrite ramp_low by lra; lra.
Qed.

Lemma gray_spec : forall h, dfin h = true -> 0 <= DR h <= 1 ->
  exists z, grayColorMap h = Some (MkColor z z z 255) /\ (0 <= z <= 255)%Z /\ z = Zfloor (rnd64 (DR h * 255) + / 2) /\ Rabs (IZR z - 255 * DR h) <= / 2 + / 100000.
Proof.
  intros h F R. unfold grayColorMap. destruct (f64_of_Z_R 255 ltac:(lia)) as (E & F2).
  destruct (dmul_R h (f64_of_Z 255) F F2) as (A & B). { apply small64. rewrite E. apply Rabs_le. lra. }
  rewrite E in A. assert (I : 0 <= rnd64 (DR h * 255) <= 255) by (apply (rnd64_in _ 0 255); lia || lra).
  pose proof (rnd64_near (DR h * 255) ltac:(apply Rabs_le; lra)) as N. rewrite dround_floor by (auto; lra). rewrite A.
  set (x := rnd64 (DR h * 255)) in *. exists (Zfloor (x + / 2)).
  pose proof (Zfloor_lb (x + / 2)) as LB. pose proof (Zfloor_ub (x + / 2)) as UB.
  assert (Z1 : (0 <= Zfloor (x + / 2) <= 255)%Z).
  { split; [apply Zfloor_lub; lra|]. assert (Zfloor (x + / 2) < 256)%Z; [|lia]. apply lt_IZR. lra. }
  assert (T : to_uint8 (Some (Zfloor (x + / 2))) = Some (Zfloor (x + / 2))) by (apply in_range_Some; auto). rewrite T. cbn [obind].
  split; [reflexivity|]. split; [exact Z1|]. split; [reflexivity|]. apply Rabs_le_inv in N. apply Rabs_le. lra.
Qed.
Lemma gray_mono : forall h k z w, dfin h = true -> dfin k = true -> 0 <= DR h <= DR k -> DR k <= 1 ->
  grayColorMap h = Some (MkColor z z z 255) -> grayColorMap k = Some (MkColor w w w 255) -> (z <= w)%Z.
Proof.
  intros h k z w FH FK R R1 EH EK. destruct (gray_spec h FH ltac:(lra)) as (z' & A & _ & B & _). destruct (gray_spec k FK ltac:(lra)) as (w' & C & _ & D & _).
  rewrite EH in A. rewrite EK in C. injection A as ->. injection C as ->. subst. apply Zfloor_le. apply Rplus_le_compat_r, rnd64_le. lra.
Qed.

(** ** scaling into the range *)
Section scaling.
Variables lo hi : f32.
Hypothesis S : span lo hi.
Definition cut (v : f32) : f32 := fmin hi (fmax lo v).
Lemma cut_spec : forall v, ffin (cut v) = true /\ FR lo <= FR (cut v) <= FR hi /\ (FR (cut v) - FR lo) / (FR hi - FR lo) = share lo hi v.
Proof.
  intros v. destruct S as (FL & FH & L & _). unfold cut, fmin, fmax, share.
  assert (HL : flt hi lo = false) by (apply not_true_is_false; intros X; apply flt_R in X; auto; lra).
  assert (LH : flt lo hi = true) by (apply flt_R; auto).
  assert (ONE : (FR hi - FR lo) / (FR hi - FR lo) = 1) by (field; lra). assert (ZERO : (FR lo - FR lo) / (FR hi - FR lo) = 0) by (rewrite Rminus_diag_eq by reflexivity; unfold Rdiv; ring).
  destruct (fnan v) eqn:N.
  - rewrite (flt_nan_r lo v N). cbn [orb]. rewrite LH. split; [exact FL|]. split; [lra|exact ZERO].
  - cbn [orb]. destruct (ffin v) eqn:F.
    + destruct (flt lo v) eqn:A.
      * apply flt_R in A; auto. assert (B : fle v lo = false) by (apply not_true_is_false; intros X; apply fle_R in X; auto; lra). rewrite B.
        destruct (flt v hi) eqn:D.
        -- apply flt_R in D; auto. assert (E : fle hi v = false) by (apply not_true_is_false; intros X; apply fle_R in X; auto; lra). rewrite E. split; [exact F|]. split; [lra|reflexivity].
        -- assert (E : fle hi v = true) by (apply fle_R; auto; apply Rnot_lt_le; intros X; apply (flt_R v hi F FH) in X; congruence). rewrite E. split; [exact FH|]. split; [lra|exact ONE].
      * assert (B : fle v lo = true) by (apply fle_R; auto; apply Rnot_lt_le; intros X; apply (flt_R lo v FL F) in X; congruence). rewrite B, LH. split; [exact FL|]. split; [lra|exact ZERO].
    + destruct v as [s|s|s p Hp|s m e He]; try discriminate. destruct s.
      * assert (A : flt lo (B754_infinity 24 128 true) = false) by (destruct lo as [[]|[]|?|[]]; try discriminate FL; reflexivity).
        assert (B : fle (B754_infinity 24 128 true) lo = true) by (destruct lo as [[]|[]|?|[]]; try discriminate FL; reflexivity). rewrite A, B, LH. split; [exact FL|]. split; [lra|exact ZERO].
      * assert (A : flt lo (B754_infinity 24 128 false) = true) by (destruct lo as [[]|[]|?|[]]; try discriminate FL; reflexivity).
        assert (B : fle (B754_infinity 24 128 false) lo = false) by (destruct lo as [[]|[]|?|[]]; try discriminate FL; reflexivity).
        assert (C : flt (B754_infinity 24 128 false) hi = false) by (destruct hi as [[]|[]|?|[]]; try discriminate FH; reflexivity).
        assert (D : fle hi (B754_infinity 24 128 false) = true) by (destruct hi as [[]|[]|?|[]]; try discriminate FH; reflexivity). rewrite A, B, C, D. split; [exact FH|]. split; [lra|exact ONE].
Qed.
Lemma scaled_spec : forall v, ffin (scaled lo hi v) = true /\ 0 <= FR (scaled lo hi v) <= 1 /\ Rabs (FR (scaled lo hi v) - share lo hi v) <= / 1000000.
Proof.
  intros v. destruct (cut_spec v) as (FC & RC & <-). destruct S as (FL & FH & L & M). unfold scaled. fold (cut v).
  assert (PB : 0 <= bpow radix2 127) by apply bpow_ge_0.
  destruct (fsub_rel (cut v) lo FC FL) as (F1 & d1 & D1 & E1); [apply Rabs_le; lra|].
  destruct (fsub_rel hi lo FH FL) as (F2 & d2 & D2 & E2); [apply Rabs_le; lra|].
  destruct (fsub_R (cut v) lo FC FL) as (G1 & _); [apply rnd32_small, Rabs_le; lra|].
  destruct (fsub_R hi lo FH FL) as (G2 & _); [apply rnd32_small, Rabs_le; lra|].
  set (a := FR (cut v) - FR lo) in *. set (b := FR hi - FR lo) in *. assert (B : 0 < b) by (unfold b; lra). assert (A : 0 <= a <= b) by (unfold a, b; lra).
  assert (NB : 0 < FR (fsub hi lo)). { rewrite E2. apply Rmult_lt_0_compat; [exact B|]. apply Rabs_le_inv in D2. unfold u32r in *. lra. }
  assert (NA : 0 <= FR (fsub (cut v) lo) <= FR (fsub hi lo)). { rewrite G1, G2. split; [rewrite <- rnd32_0|]; apply rnd32_le; lra. }
  assert (Q : 0 <= FR (fsub (cut v) lo) / FR (fsub hi lo) <= 1).
  { split; [apply Rmult_le_pos; [lra|apply Rlt_le, Rinv_0_lt_compat; exact NB]|]. apply (Rmult_le_reg_r (FR (fsub hi lo))); [exact NB|]. unfold Rdiv. rewrite Rmult_assoc, Rinv_l by lra. lra. }
  destruct (fdiv_rel _ _ F1 (Rgt_not_eq _ _ NB)) as (F3 & d3 & e3 & D3 & T3 & E3).
  { rewrite Rabs_pos_eq by lra. apply Rle_trans with 1; [lra|]. change 1 with (bpow radix2 0). apply bpow_le. lia. }
  destruct (fdiv_R _ _ F1 (Rgt_not_eq _ _ NB)) as (G3 & _).
  { apply rnd32_small. rewrite Rabs_pos_eq by lra. apply Rle_trans with 1; [lra|]. change 1 with (bpow radix2 0). apply bpow_le. lia. }
  split; [exact F3|]. split.
  - rewrite G3. split; [rewrite <- rnd32_0; apply rnd32_le; lra|]. replace 1 with (rnd32 1) at 1 by (apply (rnd32_Z 1); lia). apply rnd32_le. lra.
  - rewrite E3, E1, E2. set (s := a / b). assert (SR : 0 <= s <= 1).
    { unfold s. split; [apply Rmult_le_pos; [lra|apply Rlt_le, Rinv_0_lt_compat; exact B]|]. apply (Rmult_le_reg_r b); [exact B|]. unfold Rdiv. rewrite Rmult_assoc, Rinv_l by lra. lra. }
    apply Rabs_le_inv in D1. apply Rabs_le_inv in D2. apply Rabs_le_inv in D3. apply Rabs_le_inv in T3. pose proof t32r_small as TS. pose proof t32r_pos as TP.
    assert (IQ : a * (1 + d1) / (b * (1 + d2)) = s * ((1 + d1) / (1 + d2))) by (unfold s, u32r in *; field; split; lra). rewrite IQ. set (k := (1 + d1) / (1 + d2)).
    assert (K : 1 - / 4000000 <= k <= 1 + / 4000000).
    { unfold k, u32r in *. split; apply (Rmult_le_reg_r (1 + d2)); try lra; unfold Rdiv; rewrite Rmult_assoc, Rinv_l by lra; lra. }
    set (w := k * (1 + d3)). assert (W : 1 - / 2000000 <= w <= 1 + / 2000000). { unfold w, u32r in *. split; nra. }
    replace (s * k * (1 + d3) + e3 - s) with (s * (w - 1) + e3) by (unfold w; ring). apply Rabs_le. split; nra.
Qed.
Lemma scaled_mono : forall v w, share lo hi v <= share lo hi w -> FR (scaled lo hi v) <= FR (scaled lo hi w).
Proof.
  intros v w H. destruct (cut_spec v) as (FC & RC & EV). destruct (cut_spec w) as (FW & RW & EW). rewrite <- EV, <- EW in H. pose proof S as (FL & FH & L & M).
  assert (PB : 0 <= bpow radix2 127) by apply bpow_ge_0.
  assert (H' : FR (cut v) <= FR (cut w)).
  { unfold Rdiv in H. assert (0 < / (FR hi - FR lo)) by (apply Rinv_0_lt_compat; lra). apply Rmult_le_reg_r in H; [lra|assumption]. }
  unfold scaled. fold (cut v) (cut w).
  destruct (fsub_R (cut v) lo FC FL) as (G1 & F1); [apply rnd32_small, Rabs_le; lra|].
  destruct (fsub_R (cut w) lo FW FL) as (G2 & F2); [apply rnd32_small, Rabs_le; lra|].
  destruct (fsub_R hi lo FH FL) as (G3 & F3); [apply rnd32_small, Rabs_le; lra|].
  destruct (fsub_rel hi lo FH FL) as (_ & d2 & D2 & E2); [apply Rabs_le; lra|].
  assert (NB : 0 < FR (fsub hi lo)). { rewrite E2. apply Rmult_lt_0_compat; [lra|]. apply Rabs_le_inv in D2. unfold u32r in *. lra. }
  assert (Q : forall x, FR lo <= FR x <= FR hi -> FR (fsub x lo) = rnd32 (FR x - FR lo) -> 0 <= FR (fsub x lo) / FR (fsub hi lo) <= 1).
  { intros x X EX. assert (0 <= FR (fsub x lo) <= FR (fsub hi lo)). { rewrite EX, G3. split; [rewrite <- rnd32_0|]; apply rnd32_le; lra. }
    split; [apply Rmult_le_pos; [lra|apply Rlt_le, Rinv_0_lt_compat; exact NB]|]. apply (Rmult_le_reg_r (FR (fsub hi lo))); [exact NB|]. unfold Rdiv. rewrite Rmult_assoc, Rinv_l by lra. lra. }
  assert (SM : forall q, 0 <= q <= 1 -> Rabs (rnd32 q) < max32). { intros q HQ. apply rnd32_small. rewrite Rabs_pos_eq by lra. apply Rle_trans with 1; [lra|]. change 1 with (bpow radix2 0). apply bpow_le. lia. }
  destruct (fdiv_R _ _ F1 (Rgt_not_eq _ _ NB)) as (-> & _); [apply SM, Q; assumption|].
  destruct (fdiv_R _ _ F2 (Rgt_not_eq _ _ NB)) as (-> & _); [apply SM, Q; assumption|].
  apply rnd32_le. unfold Rdiv. apply Rmult_le_compat_r; [apply Rlt_le, Rinv_0_lt_compat; exact NB|]. rewrite G1, G2. apply rnd32_le. lra.
Qed.
Lemma share_range : forall v, 0 <= share lo hi v <= 1.
Proof.
  intros v. destruct (cut_spec v) as (FC & RC & <-). destruct S as (FL & FH & L & M). split; [apply Rmult_le_pos; [lra|apply Rlt_le, Rinv_0_lt_compat; lra]|].
  apply (Rmult_le_reg_r (FR hi - FR lo)); [lra|]. unfold Rdiv. rewrite Rmult_assoc, Rinv_l by lra. lra.
Qed.
Lemma scaled_ends : forall v, (share lo hi v = 0 -> FR (scaled lo hi v) = 0) /\ (share lo hi v = 1 -> FR (scaled lo hi v) = 1).
Proof.
  intros v. destruct (cut_spec v) as (FC & RC & EV). rewrite <- EV. pose proof S as (FL & FH & L & M). assert (PB : 0 <= bpow radix2 127) by apply bpow_ge_0.
  destruct (fsub_R (cut v) lo FC FL) as (G1 & F1); [apply rnd32_small, Rabs_le; lra|].
  destruct (fsub_R hi lo FH FL) as (G3 & F3); [apply rnd32_small, Rabs_le; lra|].
  destruct (fsub_rel hi lo FH FL) as (_ & d2 & D2 & E2); [apply Rabs_le; lra|].
  assert (NB : 0 < FR (fsub hi lo)). { rewrite E2. apply Rmult_lt_0_compat; [lra|]. apply Rabs_le_inv in D2. unfold u32r in *. lra. }
  assert (SM : forall q, 0 <= q <= 1 -> Rabs (rnd32 q) < max32). { intros q HQ. apply rnd32_small. rewrite Rabs_pos_eq by lra. apply Rle_trans with 1; [lra|]. change 1 with (bpow radix2 0). apply bpow_le. lia. }
  unfold scaled. fold (cut v). split; intros H; (destruct (fdiv_R (fsub (cut v) lo) (fsub hi lo) F1 (Rgt_not_eq _ _ NB)) as (-> & _)).
  - assert (X : FR (cut v) - FR lo = 0). { apply (Rmult_eq_reg_r (/ (FR hi - FR lo))); [|apply Rinv_neq_0_compat; lra]. unfold Rdiv in H. lra. }
    rewrite G1, X, rnd32_0. unfold Rdiv. rewrite Rmult_0_l. apply SM. lra.
  - assert (X : FR (cut v) - FR lo = 0). { apply (Rmult_eq_reg_r (/ (FR hi - FR lo))); [|apply Rinv_neq_0_compat; lra]. unfold Rdiv in H. lra. }
    rewrite G1, X, rnd32_0. unfold Rdiv. rewrite Rmult_0_l. apply rnd32_0.
  - assert (X : FR (cut v) - FR lo = FR hi - FR lo). { apply (Rmult_eq_reg_r (/ (FR hi - FR lo))); [|apply Rinv_neq_0_compat; lra]. unfold Rdiv in H. rewrite H, Rinv_r; lra. }
    rewrite G1, X, <- G3. unfold Rdiv. rewrite Rinv_r by lra. apply SM. lra.
  - assert (X : FR (cut v) - FR lo = FR hi - FR lo). { apply (Rmult_eq_reg_r (/ (FR hi - FR lo))); [|apply Rinv_neq_0_compat; lra]. unfold Rdiv in H. rewrite H, Rinv_r; lra. }
    rewrite G1, X, <- G3. unfold Rdiv. rewrite Rinv_r by lra. apply (rnd32_Z 1). lia.
Qed.
End scaling.

(** ** the palette *)
Lemma blend_near : forall a b w1 w2 p q, is_byte a -> is_byte b -> ffin w1 = true -> ffin w2 = true ->
  0 <= p <= 1 -> 0 <= q <= 1 -> Rabs (FR w1 - p) <= / 50000 -> Rabs (FR w2 - q) <= / 50000 ->
  exists z, froundZ (fadd (fmul (f32_of_Z a) w1) (fmul (f32_of_Z b) w2)) = Some z /\ Rabs (IZR z - (IZR a * p + IZR b * q)) <= / 2 + / 50.
Proof.
  intros a b w1 w2 p q Ba Bb F1 F2 P Q N1 N2. destruct (byte_R a Ba) as (Ea & Fa & Ra). destruct (byte_R b Bb) as (Eb & Fb & Rb).
  apply Rabs_le_inv in N1. apply Rabs_le_inv in N2.
  assert (B : forall x, -1000 <= x <= 1000 -> Rabs x <= bpow radix2 127). { intros x X. apply Rle_trans with 1024; [apply Rabs_le; lra|]. change 1024 with (bpow radix2 10). apply bpow_le. lia. }
  assert (M1 : -2 <= IZR a * FR w1 <= 300) by (split; nra). assert (M2 : -2 <= IZR b * FR w2 <= 300) by (split; nra).
  destruct (fmul_rel (f32_of_Z a) w1 Fa F1) as (P1 & d1 & e1 & D1 & T1 & E1). { rewrite Ea. apply B. lra. }
  destruct (fmul_rel (f32_of_Z b) w2 Fb F2) as (P2 & d2 & e2 & D2 & T2 & E2). { rewrite Eb. apply B. lra. }
  rewrite Ea in E1. rewrite Eb in E2. pose proof t32r_small as TS. pose proof t32r_pos as TP. apply Rabs_le_inv in D1. apply Rabs_le_inv in D2. apply Rabs_le_inv in T1. apply Rabs_le_inv in T2.
  assert (V1 : Rabs (FR (fmul (f32_of_Z a) w1) - IZR a * p) <= / 150). { rewrite E1. apply Rabs_le. unfold u32r in *. split; nra. }
  assert (V2 : Rabs (FR (fmul (f32_of_Z b) w2) - IZR b * q) <= / 150). { rewrite E2. apply Rabs_le. unfold u32r in *. split; nra. }
  apply Rabs_le_inv in V1. apply Rabs_le_inv in V2. assert (X1 : 0 <= IZR a * p <= 255) by (split; nra). assert (X2 : 0 <= IZR b * q <= 255) by (split; nra).
  destruct (fadd_rel _ _ P1 P2) as (P3 & e3 & D3 & E3). { apply B. lra. }
  set (f := fadd (fmul (f32_of_Z a) w1) (fmul (f32_of_Z b) w2)) in *. 
  assert (V3 : Rabs (FR f - (IZR a * p + IZR b * q)) <= / 50).
  { rewrite E3. set (g := FR (fmul (f32_of_Z a) w1) + FR (fmul (f32_of_Z b) w2)) in *. pose proof (Rabs_dev g u32r e3 D3) as X.
    assert (GB : Rabs g <= 600) by (unfold g; apply Rabs_le; lra). assert (Rabs g * u32r <= 600 * u32r) by (apply Rmult_le_compat_r; [unfold u32r; lra|exact GB]).
    assert (Y : Rabs (g * e3) <= 600 * u32r) by lra. apply Rabs_le_inv in Y. replace (g * (1 + e3)) with (g + g * e3) by ring. unfold u32r in *. apply Rabs_le. unfold g in *. lra. }
  assert (RH : exists z, froundZ f = Some z /\ Rabs (FR f - IZR z) <= / 2).
  { clear - P3. destruct f as [sg|sg|sg p Hp|sg m e He]; try discriminate; cbn [froundZ].
    - exists 0%Z. split; auto. unfold FR; cbn. rewrite Rminus_0_r, Rabs_R0. lra.
    - eexists. split; [reflexivity|]. unfold FR. cbn [B2R]. rewrite <- sgnm_F2R. apply Zround_me_half. }
  destruct RH as (z & EZ & HZ). exists z. split; [exact EZ|]. apply Rabs_le_inv in V3. apply Rabs_le_inv in HZ. apply Rabs_le. lra.
Qed.
Lemma norm_near : forall w1 w2 p q, ffin w1 = true -> ffin w2 = true -> 0 <= FR w1 -> 0 <= FR w2 -> 0 <= p -> 0 <= q -> p + q = 1 ->
  Rabs (4 * FR w1 - p) <= / 1000000 -> Rabs (4 * FR w2 - q) <= / 1000000 ->
  Rabs (FR (fdiv w1 (fadd w1 w2)) - p) <= / 50000 /\ Rabs (FR (fdiv w2 (fadd w1 w2)) - q) <= / 50000.
Proof.
  intros w1 w2 p q F1 F2 H1 H2 P Q PQ N1 N2. apply Rabs_le_inv in N1. apply Rabs_le_inv in N2.
  assert (B : forall x, -1000 <= x <= 1000 -> Rabs x <= bpow radix2 127). { intros x X. apply Rle_trans with 1024; [apply Rabs_le; lra|]. change 1024 with (bpow radix2 10). apply bpow_le. lia. }
  destruct (fadd_rel w1 w2 F1 F2) as (Ft & e & He & Et). { apply B. lra. }
  set (t := fadd w1 w2) in *. apply Rabs_le_inv in He.
  assert (T : 1 - / 250000 <= 4 * FR t <= 1 + / 250000). { rewrite Et. unfold u32r in *. split; nra. }
  assert (G : forall w r, ffin w = true -> 0 <= FR w -> 0 <= r <= 1 -> - / 1000000 <= 4 * FR w - r <= / 1000000 -> Rabs (FR (fdiv w t) - r) <= / 50000).
  { intros w r Fw Hw R N. assert (TP : 0 < FR t) by lra.
    assert (Q1 : r - / 100000 <= FR w / FR t <= r + / 100000). { split; apply (Rmult_le_reg_r (FR t)); try exact TP; unfold Rdiv; rewrite Rmult_assoc, Rinv_l by lra; nra. }
    destruct (fdiv_rel w t Fw) as (Fd & d1 & e1 & D1 & T1 & E1); [lra|apply B; lra|]. rewrite E1. apply Rabs_le_inv in D1. apply Rabs_le_inv in T1.
    pose proof t32r_small. pose proof t32r_pos. apply Rabs_le. unfold u32r in *. split; nra. }
  split; apply G; auto; lra.
Qed.
Lemma increment_R : FR increment = / 4 /\ ffin increment = true.
Proof.
  split; [|vm_compute; reflexivity]. assert (E : increment = f32_lit 1 (-2)) by (rewrite <- (fbits_fword increment), <- (fbits_fword (f32_lit 1 (-2))); f_equal; vm_compute; reflexivity).
  rewrite E. destruct (f32_lit_R 1 (-2)) as (A & _).
  - rewrite rnd32_exact by lia. rewrite Rmult_1_l. change (bpow radix2 (-2)) with (/ 4). unfold max32. rewrite Rabs_pos_eq by lra. apply Rlt_trans with 1; [lra|]. change 1 with (bpow radix2 0). apply bpow_lt. lia.
  - rewrite A, rnd32_exact by lia. rewrite Rmult_1_l. reflexivity.
Qed.
Definition near_byte (z : option Z) (x : R) : Prop := exists c, z = Some c /\ (0 <= c <= 255)%Z /\ Rabs (IZR c - x) <= / 2 + / 50.
Lemma blend_byte : forall a b w1 w2 p q, is_byte a -> is_byte b -> ffin w1 = true -> ffin w2 = true ->
  0 <= p -> 0 <= q -> p + q = 1 -> Rabs (FR w1 - p) <= / 50000 -> Rabs (FR w2 - q) <= / 50000 ->
  near_byte (blend_channel a w1 b w2) (IZR a * p + IZR b * q).
Proof.
  intros a b w1 w2 p q Ba Bb F1 F2 P Q PQ N1 N2. destruct (blend_near a b w1 w2 p q) as (z & E & N); auto; try lra. exists z. unfold blend_channel. rewrite E.
  destruct (byte_R a Ba) as (_ & _ & Ra). destruct (byte_R b Bb) as (_ & _ & Rb). apply Rabs_le_inv in N.
  assert (X : 0 <= IZR a * p + IZR b * q <= 255) by (split; nra).
  assert (Z1 : (0 <= z <= 255)%Z).
  { assert (-1 < z)%Z by (apply lt_IZR; lra). assert (z < 256)%Z by (apply lt_IZR; lra). lia. }
  split; [apply in_range_Some; auto|]. split; [exact Z1|]. apply Rabs_le. lra.
Qed.
Lemma through_lip : forall c0 c1 c2 c3 c4 t u, Rabs (through c0 c1 c2 c3 c4 t - through c0 c1 c2 c3 c4 u) <=
  4 * (Rabs (c1 - c0) + Rabs (c2 - c1) + Rabs (c3 - c2) + Rabs (c4 - c3)) * Rabs (t - u).
Proof.
  intros. unfold through.
  assert (G : forall a x y, Rabs (x - y) = 4 * Rabs (t - u) -> Rabs (a * ramp x - a * ramp y) <= 4 * Rabs a * Rabs (t - u)).
  { intros a x y E. rewrite <- Rmult_minus_distr_l, Rabs_mult. pose proof (ramp_lip x y) as L. rewrite E in L. pose proof (Rabs_pos a). nra. }
  assert (A4 : forall k, Rabs ((4 * t - k) - (4 * u - k)) = 4 * Rabs (t - u)).
  { intros k. replace (4 * t - k - (4 * u - k)) with (4 * (t - u)) by ring. rewrite Rabs_mult, (Rabs_pos_eq 4) by lra. reflexivity. }
  pose proof (G (c1 - c0) (4 * t) (4 * u)) as G1. pose proof (G (c2 - c1) _ _ (A4 1)) as G2. pose proof (G (c3 - c2) _ _ (A4 2)) as G3. pose proof (G (c4 - c3) _ _ (A4 3)) as G4.
  specialize (G1 ltac:(replace (4 * t - 4 * u) with (4 * (t - u)) by ring; rewrite Rabs_mult, (Rabs_pos_eq 4) by lra; reflexivity)).
  match goal with |- Rabs ?x <= _ => replace x with (((c1 - c0) * ramp (4 * t) - (c1 - c0) * ramp (4 * u)) + (((c2 - c1) * ramp (4 * t - 1) - (c2 - c1) * ramp (4 * u - 1)) + (((c3 - c2) * ramp (4 * t - 2) - (c3 - c2) * ramp (4 * u - 2)) + ((c4 - c3) * ramp (4 * t - 3) - (c4 - c3) * ramp (4 * u - 3))))) by ring end.
  eapply Rle_trans; [apply Rabs_triang|]. eapply Rle_trans; [apply Rplus_le_compat_l, Rabs_triang|]. eapply Rle_trans; [apply Rplus_le_compat_l, Rplus_le_compat_l, Rabs_triang|]. lra.
Qed.
Lemma through_at : forall c0 c1 c2 c3 c4 t k, (0 <= k <= 4)%Z -> IZR k <= 4 * t < IZR k + 1 -> t <= 1 ->
  through c0 c1 c2 c3 c4 t = nth (Z.to_nat k) [c0; c1; c2; c3; c4; c4] 0 * (IZR k + 1 - 4 * t) + nth (Z.to_nat (k + 1)) [c0; c1; c2; c3; c4; c4] 0 * (4 * t - IZR k).
Proof.
  intros c0 c1 c2 c3 c4 t k K H T. unfold through.
  assert (HI : k = 0%Z \/ k = 1%Z \/ k = 2%Z \/ k = 3%Z \/ k = 4%Z) by lia.
  destruct HI as [-> | [-> | [-> | [-> | ->]]]]; match goal with |- context [Z.to_nat ?a] => let n := eval vm_compute in (Z.to_nat a) in change (Z.to_nat a) with n end; match goal with |- context [Z.to_nat ?a] => let n := eval vm_compute in (Z.to_nat a) in change (Z.to_nat a) with n end; cbn [nth].
  - rewrite (ramp_id (4 * t)), (ramp_low (4 * t - 1)), (ramp_low (4 * t - 2)), (ramp_low (4 * t - 3)) by lra. ring.
  - rewrite (ramp_high (4 * t)), (ramp_id (4 * t - 1)), (ramp_low (4 * t - 2)), (ramp_low (4 * t - 3)) by lra. ring.
  - rewrite (ramp_high (4 * t)), (ramp_high (4 * t - 1)), (ramp_id (4 * t - 2)), (ramp_low (4 * t - 3)) by lra. ring.
  - rewrite (ramp_high (4 * t)), (ramp_high (4 * t - 1)), (ramp_high (4 * t - 2)), (ramp_id (4 * t - 3)) by lra. ring.
  - rewrite (ramp_high (4 * t)), (ramp_high (4 * t - 1)), (ramp_high (4 * t - 2)), (ramp_high (4 * t - 3)) by lra. ring.
Qed.
Lemma ironbow_spec : forall lo hi v, span lo hi -> exists c, ironbow lo hi v = Some c /\ color_ok c /\
  shows (/ 2 + / 40) c (through 0 145 255 255 255 (share lo hi v) / 255) (through 0 20 138 230 255 (share lo hi v) / 255) (through 0 145 0 40 255 (share lo hi v) / 255).
Proof.
  intros lo hi v S. destruct (scaled_spec lo hi S v) as (F & R & N). unfold ironbow. set (n := scaled lo hi v) in *. destruct increment_R as (EI & FI).
  assert (B : forall x, -1000 <= x <= 1000 -> Rabs (rnd32 x) < max32). { intros x X. apply rnd32_small. apply Rle_trans with 1024; [apply Rabs_le; lra|]. change 1024 with (bpow radix2 10). apply bpow_le. lia. }
  destruct (fdiv_R n increment F) as (A1 & B1); [rewrite EI; lra|rewrite EI; unfold Rdiv; rewrite Rinv_inv; apply B; lra|].
  assert (A2 : FR (fdiv n increment) = 4 * FR n).
  { rewrite A1, EI. unfold Rdiv. rewrite Rinv_inv. rewrite Rmult_comm. apply round_generic; auto with typeclass_instances. change 4 with (bpow radix2 2). rewrite Rmult_comm. apply mult_bpow_pos_exact_FLT; [apply FR_format|lia]. }
  rewrite (ffloorZ_R _ B1), A2. set (k := Zfloor (4 * FR n)). pose proof (Zfloor_lb (4 * FR n)) as LB. pose proof (Zfloor_ub (4 * FR n)) as UB. fold k in LB, UB.
  assert (K : (0 <= k <= 4)%Z). { split; [apply Zfloor_lub; lra|]. apply le_IZR. lra. }
  assert (T : to_uint64 (Some k) = Some k) by (apply in_range_Some; split; [reflexivity|lia]). rewrite T. cbn [obind].
  assert (W : forall j, (0 <= j <= 5)%Z -> FR (fmul increment (f32_of_Z j)) = IZR j / 4 /\ ffin (fmul increment (f32_of_Z j)) = true).
  { intros j J. destruct (f32_of_Z_R j ltac:(lia)) as (Ej & Fj). assert (0 <= IZR j <= 5) by (split; apply IZR_le; lia). destruct (fmul_R increment (f32_of_Z j) FI Fj) as (X & Y); [rewrite EI, Ej; apply B; lra|].
    rewrite X, EI, Ej. split; [|exact Y]. replace (/ 4 * IZR j) with (IZR j * bpow radix2 (-2)) by (change (bpow radix2 (-2)) with (/ 4); ring). rewrite rnd32_exact by lia. reflexivity. }
  destruct (W (k + 1)%Z ltac:(lia)) as (W1 & V1). destruct (W k ltac:(lia)) as (W2 & V2). rewrite plus_IZR in W1.
  set (a := fmul increment (f32_of_Z (k + 1))) in *. set (b := fmul increment (f32_of_Z k)) in *.
  assert (KR : 0 <= IZR k <= 4) by (split; apply IZR_le; lia).
  destruct (fsub_rel a n V1 F) as (G1 & d1 & D1 & E1). { rewrite W1. apply Rle_trans with 1024; [apply Rabs_le; lra|]. change 1024 with (bpow radix2 10). apply bpow_le. lia. }
  destruct (fsub_rel n b F V2) as (G2 & d2 & D2 & E2). { rewrite W2. apply Rle_trans with 1024; [apply Rabs_le; lra|]. change 1024 with (bpow radix2 10). apply bpow_le. lia. }
  rewrite W1 in E1. rewrite W2 in E2. apply Rabs_le_inv in D1. apply Rabs_le_inv in D2.
  set (w1 := fsub a n) in *. set (w2 := fsub n b) in *. set (p := IZR k + 1 - 4 * FR n) in *. set (q := 4 * FR n - IZR k) in *.
  assert (P : 0 < p <= 1) by (unfold p; lra). assert (Q : 0 <= q < 1) by (unfold q; lra).
  assert (E1' : 4 * FR w1 = p * (1 + d1)) by (rewrite E1; unfold p; field). assert (E2' : 4 * FR w2 = q * (1 + d2)) by (rewrite E2; unfold q; field).
  assert (O1 : 0 <= FR w1) by (unfold u32r in *; nra). assert (O2 : 0 <= FR w2) by (unfold u32r in *; nra).
  destruct (norm_near w1 w2 p q G1 G2 O1 O2) as (N1 & N2); try lra; try (unfold p, q; ring).
  { rewrite E1'. apply Rabs_le. unfold u32r in *. split; nra. } { rewrite E2'. apply Rabs_le. unfold u32r in *. split; nra. }
  assert (T4 : 0 < FR w1 + FR w2) by (unfold u32r in *; nra).
  destruct (norm_weights w1 w2 G1 G2 O1 O2 T4) as (M1 & M2 & _).
  { apply Rle_trans with 8; [unfold u32r in *; nra|]. change 8 with (bpow radix2 3). apply bpow_le. lia. }
  cbn zeta in M1, M2.
  assert (PAL : exists c1 c2, nth_error palette (Z.to_nat k) = Some c1 /\ nth_error palette (Z.to_nat (k + 1)) = Some c2 /\ color_ok c1 /\ color_ok c2 /\ ca c1 = 255%Z /\ ca c2 = 255%Z /\
    IZR (cr c1) = nth (Z.to_nat k) [0; 145; 255; 255; 255; 255] 0 /\ IZR (cr c2) = nth (Z.to_nat (k + 1)) [0; 145; 255; 255; 255; 255] 0 /\
    IZR (cg c1) = nth (Z.to_nat k) [0; 20; 138; 230; 255; 255] 0 /\ IZR (cg c2) = nth (Z.to_nat (k + 1)) [0; 20; 138; 230; 255; 255] 0 /\
    IZR (cb c1) = nth (Z.to_nat k) [0; 145; 0; 40; 255; 255] 0 /\ IZR (cb c2) = nth (Z.to_nat (k + 1)) [0; 145; 0; 40; 255; 255] 0).
  { clearbody k. assert (HI : k = 0%Z \/ k = 1%Z \/ k = 2%Z \/ k = 3%Z \/ k = 4%Z) by lia. clear - HI.
    destruct HI as [-> | [-> | [-> | [-> | ->]]]]; do 2 eexists; (split; [reflexivity|]); (split; [reflexivity|]); (split; [unfold color_ok, is_byte; cbn; lia|]); (split; [unfold color_ok, is_byte; cbn; lia|]); cbn; repeat split. }
  destruct PAL as (c1 & c2 & X1 & X2 & K1 & K2 & AL1 & AL2 & R1 & R2 & GG1 & GG2 & BB1 & BB2). rewrite X1, X2. cbn [obind].
  unfold blendTwoColors. set (v1 := fdiv w1 (fadd w1 w2)) in *. set (v2 := fdiv w2 (fadd w1 w2)) in *.
  pose proof K1 as (K1r & K1g & K1b & K1a). pose proof K2 as (K2r & K2g & K2b & K2a).
  assert (PQ : p + q = 1) by (unfold p, q; ring).
  destruct (blend_byte _ _ v1 v2 p q K1r K2r M1 M2) as (zr & -> & ZR & NR); auto; try lra.
  destruct (blend_byte _ _ v1 v2 p q K1g K2g M1 M2) as (zg & -> & ZG & NG); auto; try lra.
  destruct (blend_byte _ _ v1 v2 p q K1b K2b M1 M2) as (zb & -> & ZB & NB); auto; try lra.
  destruct (blend_byte _ _ v1 v2 p q K1a K2a M1 M2) as (za & -> & ZA & NA); auto; try lra.
  eexists. split; [reflexivity|]. split; [unfold color_ok, is_byte; cbn; lia|].
  assert (TH : forall e0 e1 e2 e3 e4 z x y, IZR x = nth (Z.to_nat k) [e0; e1; e2; e3; e4; e4] 0 -> IZR y = nth (Z.to_nat (k + 1)) [e0; e1; e2; e3; e4; e4] 0 ->
     Rabs (e1 - e0) + Rabs (e2 - e1) + Rabs (e3 - e2) + Rabs (e4 - e3) <= 600 -> Rabs (IZR z - (IZR x * p + IZR y * q)) <= / 2 + / 50 ->
     about (/ 2 + / 40) z (through e0 e1 e2 e3 e4 (share lo hi v) / 255)).
  { intros e0 e1 e2 e3 e4 z x y HX HY L Z. rewrite HX, HY in Z. unfold p, q in Z. rewrite <- (through_at e0 e1 e2 e3 e4 (FR n) k) in Z by (exact K || lra).
    pose proof (through_lip e0 e1 e2 e3 e4 (FR n) (share lo hi v)) as TL. pose proof (Rabs_pos (FR n - share lo hi v)).
    set (s := Rabs (e1 - e0) + Rabs (e2 - e1) + Rabs (e3 - e2) + Rabs (e4 - e3)) in *.
    assert (TL' : Rabs (through e0 e1 e2 e3 e4 (FR n) - through e0 e1 e2 e3 e4 (share lo hi v)) <= 2400 * / 1000000) by nra.
    unfold about. apply Rabs_le_inv in Z. apply Rabs_le_inv in TL'. apply Rabs_le. lra. }
  assert (AA : za = 255%Z).
  { rewrite AL1, AL2 in NA. apply Rabs_le_inv in NA. assert (XE : 255 * p + 255 * q = 255) by (rewrite <- Rmult_plus_distr_l, PQ; ring). rewrite XE in NA. assert (254 < za)%Z by (apply lt_IZR; lra). lia. }
  assert (AB : forall x, Rabs x = if Rle_dec 0 x then x else - x) by (intros x; destruct (Rle_dec 0 x); [apply Rabs_pos_eq; assumption|apply Rabs_left, Rnot_le_lt; assumption]).
  split; [exact AA|]. cbn [cr cg cb]. split; [|split]; eapply TH; try eassumption; rewrite !AB; splits; lra.
Qed.
