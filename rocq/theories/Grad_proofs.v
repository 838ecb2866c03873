(** Lemmas about [Grad]. *)
From Coq Require Import ZArith List Bool Reals Lia Lra Permutation.
From Flocq Require Import Core Binary Mult_error.
From Verif Require Import F32 F32_lemmas F32_err Index_float Types Index Voxel Layer Ray Update Mesh_spec Interp Interp_spec Interp_axis Interp_float Interp_proofs P_Interp Grad Grad_spec.
Import ListNotations.
Open Scope R_scope.
Ltac Zify.zify_post_hook ::= idtac.

(** ** trilinear interpolation of a plane *)
Lemma lerp_dev : forall t a b a' b' e, 0 <= t <= 1.125 -> Rabs (a - a') <= e -> Rabs (b - b') <= e -> Rabs (lerp t a b - lerp t a' b') <= 1.25 * e.
Proof.
  intros t a b a' b' e T A B. unfold lerp. replace ((1 - t) * a + t * b - ((1 - t) * a' + t * b')) with ((1 - t) * (a - a') + t * (b - b')) by ring.
  eapply Rle_trans; [apply Rabs_triang|]. rewrite !Rabs_mult, (Rabs_pos_eq t) by lra. assert (E : 0 <= e) by (pose proof (Rabs_pos (a - a')); lra).
  assert (X : t * Rabs (b - b') <= t * e) by (apply Rmult_le_compat_l; lra).
  assert (Y : Rabs (1 - t) * Rabs (a - a') <= Rabs (1 - t) * e) by (apply Rmult_le_compat_l; [apply Rabs_pos|auto]).
  destruct (Rle_dec t 1).
  - rewrite (Rabs_pos_eq (1 - t)) in * by lra. nra.
  - rewrite (Rabs_left1 (1 - t)) in * by lra. nra.
Qed.
Lemma trilinear_dev : forall d d' x y z e, 0 <= x <= 1.125 -> 0 <= y <= 1.125 -> 0 <= z <= 1.125 ->
  (forall i, (i < 8)%nat -> Rabs (d i - d' i) <= e) -> Rabs (trilinear d x y z - trilinear d' x y z) <= 2 * e.
Proof.
  intros d d' x y z e X Y Z H. assert (E : 0 <= e) by (pose proof (Rabs_pos (d 0%nat - d' 0%nat)); pose proof (H 0%nat ltac:(lia)); lra).
  apply Rle_trans with (1.25 * (1.25 * (1.25 * e))); [|lra]. unfold trilinear, corner_no.
  repeat (apply lerp_dev; [assumption| |]); apply H; cbn; lia.
Qed.
Definition corner_of (i : nat) : v3 R := match nth_error eight_corners i with Some c => map3 IZR c | None => V3 0 0 0 end.
Lemma trilinear_affine : forall c a b e x y z, trilinear (fun i => c + a * vx (corner_of i) + b * vy (corner_of i) + e * vz (corner_of i)) x y z = c + a * x + b * y + e * z.
Proof. intros. unfold trilinear, corner_no, lerp, corner_of. cbn [Nat.mul Nat.add nth_error eight_corners map3 vx vy vz]. cbn. ring. Qed.
Lemma collect_nth : forall A (f : idx3 -> option A) cs xs i c, collect (map f cs) = Some xs -> nth_error cs i = Some c -> exists x, nth_error xs i = Some x /\ f c = Some x.
Proof.
  intros A f cs. induction cs as [|a cs IH]; intros xs i c H N; [destruct i; discriminate|]. cbn [map collect] in H.
  destruct (f a) as [y|] eqn:E; [|discriminate]. destruct (collect (map f cs)) as [r|] eqn:C; [|discriminate]. inversion H; subst xs.
  destruct i as [|i]; cbn [nth_error] in N |- *; [inversion N; subst; exists y; auto|]. eapply IH; eauto.
Qed.

Lemma off_mono : forall vps t m, Rabs t <= m -> off_tol vps t <= off_tol vps m.
Proof. intros vps t m H. unfold off_tol. assert (Rabs m = m) by (apply Rabs_pos_eq; pose proof (Rabs_pos t); lra). lra. Qed.

Lemma plane_distance : forall k (l : Layer k) rows top pos A n eps D m d, built_layer l -> within m (l_size l) pos -> m <= 65536 -> orders rows top ->
  bounded l D -> 0 <= D <= bpow radix2 100 -> planar l A n eps ->
  getInterpDistance rows top l pos = Ok (Some d) ->
  ffin d = true /\ Rabs (FR d - plane A n (map3 FR pos)) <= plane_err (l_vps l) (FR (l_size l)) m D eps n.
Proof.
  intros k l rows top pos A n eps D m d BL W M (HR & HT) BD D0 PL E.
  assert (PR : point_in_range (l_size l) pos). { destruct W as ((A1 & A2) & (B1 & B2) & (C1 & C2)). repeat split; auto; lra. }
  destruct (C41_distance k l rows top pos D BL PR HR HT BD D0) as (g & o & _ & (O1 & O2 & O3) & X).
  destruct (eight_voxels l g) as [xs|] eqn:EV; [|congruence]. destruct X as (d' & E' & Fd & Dd). rewrite E in E'. inversion E'; subst d'. split; [auto|].
  destruct O1 as (_ & OX & TX). destruct O2 as (_ & OY & TY). destruct O3 as (_ & OZ & TZ).
  set (s := FR (l_size l)) in *. destruct BL as (SS & _). assert (SP : 0 < s) by (apply sane_pos; auto).
  set (x := FR (vx o)) in *. set (y := FR (vy o)) in *. set (z := FR (vz o)) in *.
  set (c0 := plane A n (centre s g)).
  set (P := fun i => c0 + (vx n * s) * vx (corner_of i) + (vy n * s) * vy (corner_of i) + (vz n * s) * vz (corner_of i)).
  assert (DEV : Rabs (trilinear (fun i => FR (nth i (map (getVoxelSdf k) xs) f0)) x y z - trilinear P x y z) <= 2 * eps).
  { apply trilinear_dev; auto. intros i Hi.
    destruct (nth_error eight_corners i) as [c|] eqn:NC. 2: { apply nth_error_None in NC. cbn in NC. lia. }
    destruct (collect_nth _ _ _ _ _ _ EV NC) as (v & NV & OV). pose proof (PL _ _ OV) as PV. fold s in PV.
    assert (EN : nth i (map (getVoxelSdf k) xs) f0 = getVoxelSdf k v). { apply nth_error_nth. rewrite nth_error_map, NV. reflexivity. }
    rewrite EN. replace (P i) with (plane A n (centre s (idx_add g c))); [exact PV|].
    unfold P, corner_of. rewrite NC. unfold c0, plane, centre, idx_add, zip3, map3. cbn [vx vy vz]. rewrite !plus_IZR. ring. }
  unfold P in DEV. rewrite trilinear_affine in DEV. fold P in DEV.
  destruct W as ((_ & WX) & (_ & WY) & (_ & WZ)). fold s in WX, WY, WZ, TX, TY, TZ.
  pose proof (off_mono (l_vps l) _ _ WX) as MX. pose proof (off_mono (l_vps l) _ _ WY) as MY. pose proof (off_mono (l_vps l) _ _ WZ) as MZ.
  assert (AX : forall ni xi gi ti, Rabs (xi - (ti / s - (IZR gi + / 2))) <= off_tol (l_vps l) m ->
     Rabs (ni * s * xi + ni * ((IZR gi + / 2) * s) - ni * ti) <= Rabs ni * s * off_tol (l_vps l) m).
  { intros ni xi gi ti H. replace (ni * s * xi + ni * ((IZR gi + / 2) * s) - ni * ti) with (ni * s * (xi - (ti / s - (IZR gi + / 2)))) by (field; lra).
    rewrite !Rabs_mult, (Rabs_pos_eq s) by lra. apply Rmult_le_compat_l; [|auto]. apply Rmult_le_pos; [apply Rabs_pos|lra]. }
  pose proof (AX (vx n) x (vx g) (FR (vx pos)) ltac:(lra)) as EX. pose proof (AX (vy n) y (vy g) (FR (vy pos)) ltac:(lra)) as EY. pose proof (AX (vz n) z (vz g) (FR (vz pos)) ltac:(lra)) as EZ.
  unfold plane_err, slope. unfold plane. destruct pos as [p1 p2 p3]. unfold map3. cbn [vx vy vz] in *.
  unfold c0, plane, centre, map3 in DEV. cbn [vx vy vz] in DEV.
  apply Rabs_le_inv in DEV, EX, EY, EZ, Dd. apply Rabs_le. lra.
Qed.

(** ** totality *)
Lemma getDistance_total : forall k (l : Layer k) rows top pos interp, built_layer l -> point_in_range (l_size l) pos ->
  exists d, getDistance rows top l pos interp = Ok d.
Proof.
  intros k l rows top pos [|] BL PR; cbn [getDistance].
  - destruct (C41_voxels k l pos BL PR) as (g & o & _ & _ & E). unfold getInterpDistance. rewrite E. destruct (eight_voxels l g); cbn [rbind]; eexists; reflexivity.
  - destruct (C66_nearest k l pos BL PR) as (g & _ & _ & E). eauto.
Qed.
Lemma getDistance_bound : forall k (l : Layer k) rows top pos interp D d, built_layer l -> point_in_range (l_size l) pos -> orders rows top ->
  bounded l D -> 0 <= D <= bpow radix2 100 -> getDistance rows top l pos interp = Ok (Some d) -> ffin d = true /\ Rabs (FR d) <= 3 * D + bpow radix2 (-140).
Proof.
  intros k l rows top pos [|] D d BL PR (HR & HT) BD D0 E; cbn [getDistance] in E.
  - destruct (C41_distance k l rows top pos D BL PR HR HT BD D0) as (g & o & _ & (O1 & O2 & O3) & X).
    destruct (eight_voxels l g) as [xs|] eqn:EV; [|congruence]. destruct X as (d' & E' & Fd & Dd). rewrite E in E'. inversion E'; subst d'. split; [auto|].
    destruct O1 as (_ & OX & _). destruct O2 as (_ & OY & _). destruct O3 as (_ & OZ & _).
    assert (DEV : Rabs (trilinear (fun i => FR (nth i (map (getVoxelSdf k) xs) f0)) (FR (vx o)) (FR (vy o)) (FR (vz o)) - trilinear (fun i => 0) (FR (vx o)) (FR (vy o)) (FR (vz o))) <= 2 * D).
    { apply trilinear_dev; auto. intros i Hi. rewrite Rminus_0_r.
      destruct (nth_error eight_corners i) as [c|] eqn:NC. 2: { apply nth_error_None in NC. cbn in NC. lia. }
      destruct (collect_nth _ _ _ _ _ _ EV NC) as (v & NV & OV).
      assert (EN : nth i (map (getVoxelSdf k) xs) f0 = getVoxelSdf k v). { apply nth_error_nth. rewrite nth_error_map, NV. reflexivity. }
      rewrite EN. unfold observed_at in OV. destruct (voxel_at l (idx_add g c)) as [w|] eqn:VA; [|discriminate]. destruct (isObservedVoxel k w); [|discriminate].
      inversion OV; subst w. apply (BD _ _ VA). }
    replace (trilinear (fun _ => 0) (FR (vx o)) (FR (vy o)) (FR (vz o))) with 0 in DEV by (unfold trilinear, lerp; ring).
    apply Rabs_le_inv in DEV, Dd. apply Rabs_le. lra.
  - destruct (C66_nearest k l pos BL PR) as (g & _ & _ & E'). rewrite E' in E. inversion E as [E1]. unfold observed_at in E1.
    destruct (voxel_at l g) as [w|] eqn:VA; [|discriminate]. destruct (isObservedVoxel k w); [|discriminate]. cbn [option_map] in E1. inversion E1.
    destruct (BD _ _ VA) as (F & B). subst d. split; [auto|]. pose proof (bpow_gt_0 radix2 (-140)). lra.
Qed.

(** ** neighbours *)
Lemma FR_bound128 : forall x, ffin x = true -> Rabs (FR x) < max32.
Proof. intros x F. apply FR_lt_max. Qed.
Lemma fmul_unit : forall (positive : bool) x, ffin x = true ->
  ffin (fmul (f32_of_Z (if positive then 1 else -1)) x) = true /\ FR (fmul (f32_of_Z (if positive then 1 else -1)) x) = (if positive then 1 else -1) * FR x.
Proof.
  intros p x F. destruct (f32_of_Z_R (if p then 1 else -1)%Z ltac:(destruct p; cbn; lia)) as (E1 & F1).
  assert (E : FR (f32_of_Z (if p then 1 else -1)) * FR x = (if p then 1 else -1) * FR x) by (rewrite E1; destruct p; reflexivity).
  assert (G : rnd32 ((if p then 1 else -1) * FR x) = (if p then 1 else -1) * FR x).
  { destruct p; [rewrite Rmult_1_l; apply rnd32_FR|]. replace (-1 * FR x) with (- FR x) by ring. apply round_generic; [apply valid_rnd_N|]. apply generic_format_opp, FR_format. }
  destruct (fmul_R (f32_of_Z (if p then 1 else -1)) x F1 F) as (A & B).
  { rewrite E, G. rewrite Rabs_mult. destruct p; [rewrite Rabs_R1|replace (Rabs (-1)) with 1 by (rewrite Rabs_left; lra)]; rewrite Rmult_1_l; apply FR_lt_max. }
  split; [auto|]. rewrite A, E. exact G.
Qed.
Lemma fmul_unit_r : forall (positive : bool) x, ffin x = true ->
  ffin (fmul x (f32_of_Z (if positive then 1 else -1))) = true /\ FR (fmul x (f32_of_Z (if positive then 1 else -1))) = (if positive then 1 else -1) * FR x.
Proof.
  intros p x F. destruct (f32_of_Z_R (if p then 1 else -1)%Z ltac:(destruct p; cbn; lia)) as (E1 & F1).
  assert (E : FR x * FR (f32_of_Z (if p then 1 else -1)) = (if p then 1 else -1) * FR x) by (rewrite E1; destruct p; ring).
  assert (G : rnd32 ((if p then 1 else -1) * FR x) = (if p then 1 else -1) * FR x).
  { destruct p; [rewrite Rmult_1_l; apply rnd32_FR|]. replace (-1 * FR x) with (- FR x) by ring. apply round_generic; [apply valid_rnd_N|]. apply generic_format_opp, FR_format. }
  destruct (fmul_R x (f32_of_Z (if p then 1 else -1)) F F1) as (A & B).
  { rewrite E, G. rewrite Rabs_mult. destruct p; [rewrite Rabs_R1|replace (Rabs (-1)) with 1 by (rewrite Rabs_left; lra)]; rewrite Rmult_1_l; apply FR_lt_max. }
  split; [auto|]. rewrite A, E. exact G.
Qed.
Lemma FR_f0 : FR f0 = 0.
Proof. reflexivity. Qed.
Lemma fadd_f0 : forall x, ffin x = true -> ffin (fadd x f0) = true /\ FR (fadd x f0) = FR x.
Proof.
  intros x F. destruct (fadd_R x f0 F eq_refl) as (A & B). { rewrite FR_f0, Rplus_0_r, rnd32_FR. apply FR_lt_max. }
  split; [auto|]. rewrite A, FR_f0, Rplus_0_r. apply rnd32_FR.
Qed.
Lemma fadd_f0_l : forall x, ffin x = true -> ffin (fadd f0 x) = true /\ FR (fadd f0 x) = FR x.
Proof.
  intros x F. destruct (fadd_R f0 x eq_refl F) as (A & B). { rewrite FR_f0, Rplus_0_l, rnd32_FR. apply FR_lt_max. }
  split; [auto|]. rewrite A, FR_f0, Rplus_0_l. apply rnd32_FR.
Qed.
Definition sg (p : bool) : R := if p then 1 else -1.
(** one coordinate of a neighbour *)
Lemma step_one : forall s x m p, sane_size s -> ffin x = true -> Rabs (FR x / FR s) <= m -> m <= 65534 ->
  let y := fadd x (fmul (f32_of_Z (if p : bool then 1 else -1)) s) in
  ffin y = true /\ Rabs (FR y / FR s) <= m + 2 /\ Rabs (FR y - (FR x + sg p * FR s)) <= (m + 1) * FR s * u32r.
Proof.
  intros s x m p SS F B M y. pose proof (sane_pos s SS) as SP. destruct SS as (Fs & S1 & S2). destruct (fmul_unit p s Fs) as (F1 & E1).
  assert (XB : Rabs (FR x) <= m * FR s). { replace (FR x) with (FR x / FR s * FR s) by (field; lra). rewrite Rabs_mult, (Rabs_pos_eq (FR s)) by lra. apply Rmult_le_compat_r; lra. }
  assert (SB : Rabs (sg p * FR s) = FR s). { rewrite Rabs_mult, (Rabs_pos_eq (FR s)) by lra. unfold sg. destruct p; [rewrite Rabs_R1|replace (Rabs (-1)) with 1 by (rewrite Rabs_left; lra)]; ring. }
  assert (TB : Rabs (FR x + sg p * FR s) <= (m + 1) * FR s) by (eapply Rle_trans; [apply Rabs_triang|]; lra).
  assert (M0 : 0 <= m) by (pose proof (Rabs_pos (FR x / FR s)); lra).
  destruct (fadd_rel x (fmul (f32_of_Z (if p then 1 else -1)) s) F F1) as (FY & e & Eb & EY).
  { rewrite E1. fold (sg p). eapply Rle_trans; [exact TB|]. apply Rle_trans with (65535 * bpow radix2 40); [apply Rmult_le_compat; lra|].
    apply Rle_trans with (bpow radix2 16 * bpow radix2 40); [apply Rmult_le_compat_r; [apply bpow_ge_0|cbn; lra]|]. rewrite <- bpow_plus. apply bpow_le. lia. }
  fold y in FY, EY. rewrite E1 in EY. fold (sg p) in EY. split; [auto|].
  assert (DY : Rabs (FR y - (FR x + sg p * FR s)) <= (m + 1) * FR s * u32r).
  { rewrite EY. replace ((FR x + sg p * FR s) * (1 + e) - (FR x + sg p * FR s)) with ((FR x + sg p * FR s) * e) by ring. rewrite Rabs_mult. apply Rmult_le_compat; auto using Rabs_pos. }
  split; [|exact DY]. unfold Rdiv. rewrite Rabs_mult, (Rabs_pos_eq (/ FR s)) by (left; apply Rinv_0_lt_compat; auto).
  apply Rmult_le_reg_r with (FR s); [auto|]. rewrite Rmult_assoc, Rinv_l, Rmult_1_r by lra.
  replace (FR y) with (FR y - (FR x + sg p * FR s) + (FR x + sg p * FR s)) by ring. eapply Rle_trans; [apply Rabs_triang|].
  assert (U : (m + 1) * FR s * u32r <= FR s). { replace ((m + 1) * FR s * u32r) with (FR s * ((m + 1) * u32r)) by ring. rewrite <- (Rmult_1_r (FR s)) at 2. apply Rmult_le_compat_l; [lra|]. unfold u32r. lra. }
  lra.
Qed.
Lemma neighbour_spec : forall s pos m i p, sane_size s -> within m s pos -> m <= 65534 -> (i < 3)%nat ->
  within (m + 2) s (neighbour s pos i p) /\
  (forall j, (j < 3)%nat -> Rabs (FR (get3 j (neighbour s pos i p)) - (FR (get3 j pos) + (if (j =? i)%nat then sg p * FR s else 0))) <= (if (j =? i)%nat then (m + 1) * FR s * u32r else 0)).
Proof.
  intros s pos m i p SS ((A1 & A2) & (B1 & B2) & (C1 & C2)) M Hi.
  pose proof (step_one s _ m p SS A1 A2 M) as (SA1 & SA2 & SA3). pose proof (step_one s _ m p SS B1 B2 M) as (SB1 & SB2 & SB3). pose proof (step_one s _ m p SS C1 C2 M) as (SC1 & SC2 & SC3).
  destruct (fadd_f0 _ A1) as (ZA1 & ZA2). destruct (fadd_f0 _ B1) as (ZB1 & ZB2). destruct (fadd_f0 _ C1) as (ZC1 & ZC2).
  assert (Z0 : forall a b, a = b -> Rabs (a - (b + 0)) <= 0) by (intros a b ->; rewrite Rplus_0_r, Rminus_diag_eq, Rabs_R0 by reflexivity; lra).
  unfold neighbour, axis_offset.
  destruct i as [|[|[|i]]]; [| | |lia]; cbn [upd3 vx vy vz]; unfold pt_add, zip3; cbn [vx vy vz];
    (split; [repeat split; cbn [vx vy vz]; auto; try (rewrite ?ZA2, ?ZB2, ?ZC2; lra)
            |intros [|[|[|j]]] Hj; [| | |lia]; cbn [get3 vx vy vz Nat.eqb]; first [assumption | apply Z0; assumption]]).
Qed.

(** ** one component of the gradient *)
Lemma two_s : forall s, sane_size s -> ffin (fmul (f32_of_Z 2) s) = true /\ FR (fmul (f32_of_Z 2) s) = 2 * FR s.
Proof.
  intros s SS. pose proof (sane_pos s SS) as SP. destruct SS as (Fs & S1 & S2). destruct (f32_of_Z_R 2 ltac:(cbn; lia)) as (E2 & F2).
  assert (G : rnd32 (2 * FR s) = 2 * FR s).
  { apply round_generic; [apply valid_rnd_N|]. replace (2 * FR s) with (FR s * bpow radix2 1) by (cbn; ring). apply mult_bpow_pos_exact_FLT; [apply FR_format|lia]. }
  destruct (fmul_R (f32_of_Z 2) s F2 Fs) as (A & B). { rewrite E2, G, Rabs_pos_eq by lra. apply Rle_lt_trans with (bpow radix2 41); [replace (bpow radix2 41) with (2 * bpow radix2 40) by (cbn; lra); lra|]. unfold max32. apply bpow_lt. lia. }
  split; [auto|]. rewrite A, E2. exact G.
Qed.
Lemma two_errors : forall q e1 e2 t, Rabs e1 <= u32r -> Rabs e2 <= u32r -> Rabs t <= t32r ->
  Rabs (q * (1 + e1) * (1 + e2) + t - q) <= bpow radix2 (-22) * Rabs q + bpow radix2 (-149).
Proof.
  intros q e1 e2 t H1 H2 H3. replace (q * (1 + e1) * (1 + e2) + t - q) with (q * (e1 + e2 + e1 * e2) + t) by ring.
  eapply Rle_trans; [apply Rabs_triang|]. rewrite Rabs_mult. apply Rplus_le_compat.
  - rewrite (Rmult_comm (bpow _ _)). apply Rmult_le_compat_l; [apply Rabs_pos|].
    assert (P : Rabs (e1 * e2) <= u32r * 1). { rewrite Rabs_mult. apply Rmult_le_compat; auto using Rabs_pos. unfold u32r in *. lra. }
    eapply Rle_trans; [apply Rabs_triang|]. eapply Rle_trans; [apply Rplus_le_compat_r, Rabs_triang|].
    replace (bpow radix2 (-22)) with (4 * u32r) by (unfold u32r; cbn; lra). assert (0 < u32r) by (unfold u32r; lra). lra.
  - eapply Rle_trans; [exact H3|]. unfold t32r. apply bpow_le. lia.
Qed.
Lemma quotient_bound : forall s x D, sane_size s -> 0 <= D <= bpow radix2 80 -> Rabs x <= 6 * D + bpow radix2 (-130) -> Rabs (x / FR s) <= bpow radix2 124.
Proof.
  intros s x D SS D0 B. pose proof (sane_pos s SS) as SP. destruct SS as (_ & S1 & _). unfold Rdiv. rewrite Rabs_mult, (Rabs_pos_eq (/ FR s)) by (left; apply Rinv_0_lt_compat; auto).
  replace (bpow radix2 124) with (bpow radix2 84 * / bpow radix2 (-40)) by (rewrite <- bpow_opp, <- bpow_plus; reflexivity).
  apply Rmult_le_compat; [apply Rabs_pos|left; apply Rinv_0_lt_compat; auto| |apply Rinv_le; [apply bpow_gt_0|auto]].
  assert (bpow radix2 (-130) <= bpow radix2 80) by (apply bpow_le; lia). replace (bpow radix2 84) with (16 * bpow radix2 80) by (cbn; lra). lra.
Qed.
Lemma component : forall s a b D, sane_size s -> ffin a = true -> ffin b = true -> 0 <= D <= bpow radix2 80 ->
  Rabs (FR a) <= 3 * D + bpow radix2 (-140) -> Rabs (FR b) <= 3 * D + bpow radix2 (-140) ->
  nearly (fdiv (fadd (fadd f0 (fmul a (f32_of_Z (-1)))) (fmul b (f32_of_Z 1))) (fmul (f32_of_Z 2) s)) ((FR b - FR a) / (2 * FR s)).
Proof.
  intros s a b D SS Fa Fb D0 Ba Bb. pose proof (sane_pos s SS) as SP. destruct (two_s s SS) as (F2 & E2).
  destruct (fmul_unit_r false a Fa) as (G1 & G2). destruct (fmul_unit_r true b Fb) as (H1 & H2). cbn iota in G1, G2, H1, H2.
  destruct (fadd_f0_l _ G1) as (K1 & K2). rewrite G2 in K2.
  assert (BD : Rabs (FR b - FR a) <= 6 * D + bpow radix2 (-130)).
  { unfold Rminus. eapply Rle_trans; [apply Rabs_triang|]. rewrite Rabs_Ropp. assert (2 * bpow radix2 (-140) <= bpow radix2 (-130)). { replace (bpow radix2 (-130)) with (1024 * bpow radix2 (-140)) by (change (-130)%Z with (10 + -140)%Z; rewrite bpow_plus; cbn; lra). pose proof (bpow_gt_0 radix2 (-140)). lra. } lra. }
  assert (B80 : 6 * D + bpow radix2 (-130) <= bpow radix2 84). { assert (bpow radix2 (-130) <= bpow radix2 80) by (apply bpow_le; lia). replace (bpow radix2 84) with (16 * bpow radix2 80) by (cbn; lra). lra. }
  destruct (fadd_rel _ _ K1 H1) as (F3 & e1 & E1b & E3).
  { rewrite K2, H2. replace (-1 * FR a + 1 * FR b) with (FR b - FR a) by ring. eapply Rle_trans; [exact BD|]. eapply Rle_trans; [exact B80|]. apply bpow_le; lia. }
  rewrite K2, H2 in E3. replace (-1 * FR a + 1 * FR b) with (FR b - FR a) in E3 by ring.
  set (w := fadd (fadd f0 (fmul a (f32_of_Z (-1)))) (fmul b (f32_of_Z 1))) in *.
  assert (N2 : FR (fmul (f32_of_Z 2) s) <> 0) by (rewrite E2; lra).
  assert (Q : FR w / FR (fmul (f32_of_Z 2) s) = (FR b - FR a) / (2 * FR s) * (1 + e1)) by (rewrite E3, E2; field; lra).
  assert (QB : Rabs ((FR b - FR a) / (2 * FR s)) <= bpow radix2 124).
  { replace ((FR b - FR a) / (2 * FR s)) with (/ 2 * ((FR b - FR a) / FR s)) by (field; lra). rewrite Rabs_mult, (Rabs_pos_eq (/ 2)) by lra.
    pose proof (quotient_bound s _ D SS D0 BD). pose proof (Rabs_pos ((FR b - FR a) / FR s)). lra. }
  destruct (fdiv_rel w _ F3 N2) as (FQ & d & t & Db & Tb & EQ).
  { rewrite Q, Rabs_mult. apply Rle_trans with (bpow radix2 124 * 2); [apply Rmult_le_compat; auto using Rabs_pos|replace (bpow radix2 127) with (8 * bpow radix2 124) by (cbn; lra); pose proof (bpow_gt_0 radix2 124); lra].
    eapply Rle_trans; [apply Rabs_triang|]. rewrite Rabs_R1. unfold u32r in E1b. lra. }
  split; [exact FQ|]. rewrite EQ, Q. apply two_errors; auto.
Qed.

(** ** getGradient *)
Lemma blockAt_total : forall k (l : Layer k) pos, built_layer l -> point_in_range (l_size l) pos ->
  exists b, blockAt l pos = Ok b /\ (forall x, b = Some x -> b_size x = l_size l).
Proof.
  intros k l pos BL PR. destruct (C66_nearest k l pos BL PR) as (g & _ & E & _). unfold getNearestVoxel in E. unfold blockAt.
  destruct (computeBlockIndexFromCoordinates (l_vps l) (l_size l) pos) as [bi|] eqn:C; cbn [of_opt rbind] in *; [|discriminate].
  exists (l_get l bi). split; [reflexivity|]. intros x X. destruct BL as (_ & _ & BL). apply (BL _ _ X).
Qed.
Lemma within_range : forall m s p, within m s p -> m <= 65536 -> point_in_range s p.
Proof. intros m s p ((A1 & A2) & (B1 & B2) & (C1 & C2)) M. repeat split; auto; lra. Qed.
Lemma neighbours_known : forall k (l : Layer k) rows top pos interp, built_layer l -> within 65534 (l_size l) pos ->
  exists d : nat -> bool -> option f32, forall i p, (i < 3)%nat -> getDistance rows top l (neighbour (l_size l) pos i p) interp = Ok (d i p).
Proof.
  intros k l rows top pos interp BL W.
  assert (T : forall i p, (i < 3)%nat -> exists d, getDistance rows top l (neighbour (l_size l) pos i p) interp = Ok d).
  { intros i p Hi. destruct (neighbour_spec (l_size l) pos 65534 i p (proj1 BL) W ltac:(lra) Hi) as (WN & _).
    apply getDistance_total; auto. eapply within_range; [exact WN|lra]. }
  destruct (T 0%nat false ltac:(lia)) as (a0 & A0). destruct (T 0%nat true ltac:(lia)) as (a1 & A1). destruct (T 1%nat false ltac:(lia)) as (b0 & B0).
  destruct (T 1%nat true ltac:(lia)) as (b1 & B1). destruct (T 2%nat false ltac:(lia)) as (c0 & C0). destruct (T 2%nat true ltac:(lia)) as (c1 & C1).
  exists (fun i p => match i with O => if p : bool then a1 else a0 | 1%nat => if p then b1 else b0 | _ => if p then c1 else c0 end).
  intros [|[|[|i]]] [|] Hi; try lia; assumption.
Qed.
Lemma gradient_spec : forall k (l : Layer k) rows top pos interp grad0 D, built_layer l -> within 65534 (l_size l) pos -> orders rows top ->
  bounded l D -> 0 <= D <= bpow radix2 80 ->
  exists (b : option (Block k)) (d : nat -> bool -> option f32),
    blockAt l pos = Ok b /\
    (forall i p, (i < 3)%nat -> getDistance rows top l (neighbour (l_size l) pos i p) interp = Ok (d i p)) /\
    (b = None -> getGradient rows top l pos interp grad0 = Ok (false, grad0)) /\
    (b <> None -> both_known d = false -> exists g, getGradient rows top l pos interp grad0 = Ok (false, g)) /\
    (b <> None -> both_known d = true -> exists g, getGradient rows top l pos interp grad0 = Ok (true, g) /\
       forall i, (i < 3)%nat -> exists lo hi, d i false = Some lo /\ d i true = Some hi /\ nearly (get3 i g) ((FR hi - FR lo) / (2 * FR (l_size l)))).
Proof.
  intros k l rows top pos interp grad0 D BL W OR BD D0.
  destruct (blockAt_total k l pos BL (within_range _ _ _ W ltac:(lra))) as (b & EB & SB).
  destruct (neighbours_known k l rows top pos interp BL W) as (d & ED). exists b, d. split; [exact EB|]. split; [exact ED|].
  assert (BN : forall i p x, (i < 3)%nat -> d i p = Some x -> ffin x = true /\ Rabs (FR x) <= 3 * D + bpow radix2 (-140)).
  { intros i p x Hi Hx. destruct (neighbour_spec (l_size l) pos 65534 i p (proj1 BL) W ltac:(lra) Hi) as (WN & _).
    eapply (getDistance_bound k l rows top (neighbour (l_size l) pos i p) interp D); eauto; [eapply within_range; [exact WN|lra]| |rewrite <- Hx; auto].
    assert (bpow radix2 80 <= bpow radix2 100) by (apply bpow_le; lia). lra. }
  unfold getGradient. rewrite EB. cbn [rbind].
  split; [intros ->; reflexivity|].
  assert (L : forall x, b = Some x -> exists g, grad_loop rows top l pos interp (b_size x) grad_steps (V3 f0 f0 f0) = Ok (both_known d, g) /\
     (both_known d = true -> forall i, (i < 3)%nat -> exists lo hi, d i false = Some lo /\ d i true = Some hi /\ get3 i g = fadd (fadd f0 (fmul lo (f32_of_Z (-1)))) (fmul hi (f32_of_Z 1)))).
  { intros x X. rewrite (SB _ X). unfold grad_steps. cbn [grad_loop].
    pose proof (ED 0%nat false ltac:(lia)) as A0. pose proof (ED 0%nat true ltac:(lia)) as A1. pose proof (ED 1%nat false ltac:(lia)) as B0.
    pose proof (ED 1%nat true ltac:(lia)) as B1. pose proof (ED 2%nat false ltac:(lia)) as C0. pose proof (ED 2%nat true ltac:(lia)) as C1.
    unfold neighbour in A0, A1, B0, B1, C0, C1. cbn iota in A0, A1, B0, B1, C0, C1. rewrite A0. cbn [rbind]. unfold both_known. cbn [forallb].
    destruct (d 0%nat false) as [xa|] eqn:Exa; [|eexists; split; [reflexivity|discriminate]]. rewrite A1. cbn [rbind].
    destruct (d 0%nat true) as [xb|] eqn:Exb; [|eexists; split; [reflexivity|discriminate]]. rewrite B0. cbn [rbind].
    destruct (d 1%nat false) as [ya|] eqn:Eya; [|eexists; split; [reflexivity|discriminate]]. rewrite B1. cbn [rbind].
    destruct (d 1%nat true) as [yb|] eqn:Eyb; [|eexists; split; [reflexivity|discriminate]]. rewrite C0. cbn [rbind].
    destruct (d 2%nat false) as [za|] eqn:Eza; [|eexists; split; [reflexivity|discriminate]]. rewrite C1. cbn [rbind].
    destruct (d 2%nat true) as [zb|] eqn:Ezb; [|eexists; split; [reflexivity|discriminate]].
    eexists; split; [reflexivity|]. intros _ i Hi. destruct i as [|[|[|i]]]; [| | |lia]; do 2 eexists; (split; [eassumption|]; split; [eassumption|]); cbn [upd3 get3 vx vy vz]; reflexivity. }
  destruct b as [x|]; [|split; intros X; congruence]. destruct (L x eq_refl) as (g & EG & KG). rewrite EG. cbn [rbind fst snd].
  split; intros _ AK; rewrite AK in *.
  - eexists; reflexivity.
  - eexists; split; [reflexivity|]. intros i Hi. destruct (KG eq_refl i Hi) as (lo & hi & E1 & E2 & E3). exists lo, hi. split; [auto|]. split; [auto|].
    rewrite (SB x eq_refl). destruct (BN i false lo Hi E1) as (F1 & B1). destruct (BN i true hi Hi E2) as (F2 & B2).
    replace (get3 i (map3 (fun g1 : f32 => fdiv g1 (fmul (f32_of_Z 2) (l_size l))) g)) with (fdiv (get3 i g) (fmul (f32_of_Z 2) (l_size l))) by (destruct g as [g1 g2 g3]; destruct i as [|[|i]]; reflexivity).
    rewrite E3. eapply component; eauto. apply BL.
Qed.

(** ** gradient of a plane *)
Lemma within_mono : forall m m' s p, within m s p -> m <= m' -> within m' s p.
Proof. intros m m' s p ((A1 & A2) & (B1 & B2) & (C1 & C2)) M. repeat split; auto; lra. Qed.
Lemma plane_step : forall A n s m pos i p, sane_size s -> within m s pos -> m <= 65534 -> (i < 3)%nat ->
  Rabs (plane A n (map3 FR (neighbour s pos i p)) - (plane A n (map3 FR pos) + get3 i n * (sg p * FR s))) <= Rabs (get3 i n) * ((m + 1) * FR s * u32r).
Proof.
  intros A n s m pos i p SS W M Hi. destruct (neighbour_spec s pos m i p SS W M Hi) as (_ & H).
  pose proof (H 0%nat ltac:(lia)) as H0. pose proof (H 1%nat ltac:(lia)) as H1. pose proof (H 2%nat ltac:(lia)) as H2. clear H.
  set (q := neighbour s pos i p) in *. destruct n as [n1 n2 n3]. destruct pos as [p1 p2 p3]. destruct q as [q1 q2 q3]. unfold plane, map3.
  cbn [get3 vx vy vz] in *.
  assert (Z0 : forall a b, Rabs (a - (b + 0)) <= 0 -> a = b) by (intros a b X; apply Rabs_le_inv in X; lra).
  destruct i as [|[|[|i]]]; [| | |lia]; cbn [Nat.eqb get3 vx vy vz] in *;
    [apply Z0 in H1; apply Z0 in H2; rewrite H1, H2 | apply Z0 in H0; apply Z0 in H2; rewrite H0, H2 | apply Z0 in H0; apply Z0 in H1; rewrite H0, H1].
  - replace (A + n1 * FR q1 + n2 * FR p2 + n3 * FR p3 - (A + n1 * FR p1 + n2 * FR p2 + n3 * FR p3 + n1 * (sg p * FR s))) with (n1 * (FR q1 - (FR p1 + sg p * FR s))) by ring.
    rewrite Rabs_mult. apply Rmult_le_compat_l; [apply Rabs_pos|auto].
  - replace (A + n1 * FR p1 + n2 * FR q2 + n3 * FR p3 - (A + n1 * FR p1 + n2 * FR p2 + n3 * FR p3 + n2 * (sg p * FR s))) with (n2 * (FR q2 - (FR p2 + sg p * FR s))) by ring.
    rewrite Rabs_mult. apply Rmult_le_compat_l; [apply Rabs_pos|auto].
  - replace (A + n1 * FR p1 + n2 * FR p2 + n3 * FR q3 - (A + n1 * FR p1 + n2 * FR p2 + n3 * FR p3 + n3 * (sg p * FR s))) with (n3 * (FR q3 - (FR p3 + sg p * FR s))) by ring.
    rewrite Rabs_mult. apply Rmult_le_compat_l; [apply Rabs_pos|auto].
Qed.
Lemma plane_gradient : forall k (l : Layer k) rows top pos A n eps D m grad0 g, built_layer l -> within m (l_size l) pos -> m <= 65534 -> orders rows top ->
  bounded l D -> 0 <= D <= bpow radix2 80 -> planar l A n eps -> 0 <= eps ->
  getGradient rows top l pos true grad0 = Ok (true, g) -> forall i, (i < 3)%nat ->
  ffin (get3 i g) = true /\ Rabs (FR (get3 i g) - get3 i n) <= 2 * plane_err (l_vps l) (FR (l_size l)) (m + 2) D eps n / FR (l_size l) + bpow radix2 (-140).
Proof.
  intros k l rows top pos A n eps D m grad0 g BL W M OR BD D0 PL E0 EG i Hi.
  pose proof BL as (SS & V & _). pose proof (sane_pos _ SS) as SP.
  assert (M0 : 0 <= m) by (destruct W as ((_ & A2) & _); pose proof (Rabs_pos (FR (vx pos) / FR (l_size l))); lra).
  destruct (gradient_spec k l rows top pos true grad0 D BL (within_mono m 65534 _ _ W M) OR BD D0) as (b & d & EB & ED & GN & GF & GT).
  destruct b as [x|]; [|rewrite (GN eq_refl) in EG; discriminate].
  destruct (both_known d) eqn:AK; [|destruct (GF ltac:(discriminate) eq_refl) as (g' & X); rewrite X in EG; discriminate].
  destruct (GT ltac:(discriminate) eq_refl) as (g' & X & C). rewrite X in EG. inversion EG; subst g'. destruct (C i Hi) as (lo & hi & E1 & E2 & (FG & NG)). split; [auto|].
  set (s := FR (l_size l)) in *. set (E := plane_err (l_vps l) s (m + 2) D eps n) in *.
  assert (PD : forall p x, d i p = Some x -> Rabs (FR x - plane A n (map3 FR (neighbour (l_size l) pos i p))) <= E).
  { intros p y Hy. destruct (neighbour_spec (l_size l) pos m i p SS W M Hi) as (WN & _).
    apply (plane_distance k l rows top (neighbour (l_size l) pos i p) A n eps D (m + 2) y BL WN ltac:(lra) OR BD); auto.
    - assert (bpow radix2 80 <= bpow radix2 100) by (apply bpow_le; lia). lra.
    - rewrite <- Hy. apply (ED i p Hi). }
  pose proof (PD false lo E1) as P1. pose proof (PD true hi E2) as P2.
  pose proof (plane_step A n (l_size l) m pos i false SS W M Hi) as S1. pose proof (plane_step A n (l_size l) m pos i true SS W M Hi) as S2.
  fold s in S1, S2. cbn [sg] in S1, S2. set (ni := get3 i n) in *. set (c := plane A n (map3 FR pos)) in *.
  set (q1 := plane A n (map3 FR (neighbour (l_size l) pos i false))) in *. set (q2 := plane A n (map3 FR (neighbour (l_size l) pos i true))) in *.
  set (r := Rabs ni * ((m + 1) * s * u32r)) in *.
  assert (Q : Rabs (FR hi - FR lo - 2 * ni * s) <= 2 * E + 2 * r). { apply Rabs_le_inv in P1, P2, S1, S2. apply Rabs_le. lra. }
  set (q := (FR hi - FR lo) / (2 * s)) in *. set (Es := E / s).
  assert (RHO : Rabs (q - ni) <= Es + Rabs ni * ((m + 1) * u32r)).
  { replace (q - ni) with ((FR hi - FR lo - 2 * ni * s) / (2 * s)) by (unfold q; field; lra). unfold Rdiv. rewrite Rabs_mult, (Rabs_pos_eq (/ (2 * s))) by (left; apply Rinv_0_lt_compat; lra).
    apply Rmult_le_reg_r with (2 * s); [lra|]. rewrite Rmult_assoc, Rinv_l, Rmult_1_r by lra. unfold Es, r in *.
    replace ((E / s + Rabs ni * ((m + 1) * u32r)) * (2 * s)) with (2 * E + 2 * (Rabs ni * ((m + 1) * s * u32r))) by (field; lra). exact Q. }
  assert (TT : Rabs ni * (/ 4000000 * (m + 2) + / 500000) <= Es).
  { unfold Es. apply Rmult_le_reg_r with s; [auto|]. replace (E / s * s) with E by (field; lra). unfold E, plane_err.
    assert (O1 : / 4000000 * (m + 2) + / 500000 <= off_tol (l_vps l) (m + 2)). { unfold off_tol. rewrite (Rabs_pos_eq (m + 2)) by lra. assert (1 <= IZR (l_vps l)) by (apply IZR_le; lia). lra. }
    assert (SL : Rabs ni <= slope n). { unfold ni, slope. pose proof (Rabs_pos (vx n)). pose proof (Rabs_pos (vy n)). pose proof (Rabs_pos (vz n)). destruct i as [|[|i]]; cbn [get3]; lra. }
    assert (PP : Rabs ni * (/ 4000000 * (m + 2) + / 500000) <= slope n * off_tol (l_vps l) (m + 2)). { apply Rmult_le_compat; auto using Rabs_pos; lra. }
    pose proof (bpow_gt_0 radix2 (-140)). assert (PPs : Rabs ni * (/ 4000000 * (m + 2) + / 500000) * s <= slope n * off_tol (l_vps l) (m + 2) * s) by (apply Rmult_le_compat_r; lra).
    replace (slope n * s * off_tol (l_vps l) (m + 2)) with (slope n * off_tol (l_vps l) (m + 2) * s) by ring. lra. }
  pose proof (Rabs_pos ni) as N0. set (a := Rabs ni) in *.
  assert (K : a * ((m + 1) * u32r) + bpow radix2 (-22) * a <= / 2 * (a * (/ 4000000 * (m + 2) + / 500000))).
  { replace (a * ((m + 1) * u32r) + bpow radix2 (-22) * a) with (a * ((m + 1) * u32r + bpow radix2 (-22))) by ring. rewrite <- Rmult_assoc, (Rmult_comm (/ 2)), Rmult_assoc. apply Rmult_le_compat_l; [auto|]. unfold u32r. cbn. lra. }
  assert (QA : Rabs q <= a + Rabs (q - ni)). { replace q with (ni + (q - ni)) at 1 by ring. apply Rabs_triang. }
  assert (FIN : Rabs (FR (get3 i g) - ni) <= Rabs (FR (get3 i g) - q) + Rabs (q - ni)). { replace (FR (get3 i g) - ni) with (FR (get3 i g) - q + (q - ni)) by ring. apply Rabs_triang. }
  assert (T1 : bpow radix2 (-149) <= bpow radix2 (-140)) by (apply bpow_le; lia).
  assert (T2 : bpow radix2 (-22) = / 4194304) by (cbn; lra). rewrite T2 in *. replace (2 * E / s) with (2 * Es) by (unfold Es; field; lra).
  assert (0 <= a * ((m + 1) * u32r)). { apply Rmult_le_pos; [auto|]. unfold u32r. lra. }
  set (aa := a * ((m + 1) * u32r)) in *. set (bb := a * (/ 4000000 * (m + 2) + / 500000)) in *. lra.
Qed.

(** ** getAdaptive *)
Lemma sane_fin : forall s, sane_size s -> ffin s = true.
Proof. intros s (F & _). exact F. Qed.
Lemma step_gen : forall s x m (p : bool), sane_size s -> ffin x = true -> Rabs (FR x / FR s) <= m -> m <= 65534 ->
  let y := if p then fadd x s else fsub x s in
  ffin y = true /\ Rabs (FR y / FR s) <= m + 2.
Proof.
  intros s x m p SS F B M y. pose proof (sane_pos s SS) as SP. destruct SS as (Fs & S1 & S2).
  assert (XB : Rabs (FR x) <= m * FR s). { replace (FR x) with (FR x / FR s * FR s) by (field; lra). rewrite Rabs_mult, (Rabs_pos_eq (FR s)) by lra. apply Rmult_le_compat_r; lra. }
  assert (M0 : 0 <= m) by (pose proof (Rabs_pos (FR x / FR s)); lra).
  assert (TB : Rabs (FR x + sg p * FR s) <= (m + 1) * FR s). { apply Rabs_le_inv in XB. apply Rabs_le. unfold sg. destruct p; lra. }
  assert (B127 : Rabs (FR x + sg p * FR s) <= bpow radix2 127).
  { eapply Rle_trans; [exact TB|]. apply Rle_trans with (65535 * bpow radix2 40); [apply Rmult_le_compat; lra|].
    apply Rle_trans with (bpow radix2 16 * bpow radix2 40); [apply Rmult_le_compat_r; [apply bpow_ge_0|cbn; lra]|]. rewrite <- bpow_plus. apply bpow_le. lia. }
  assert (Y : ffin y = true /\ exists e, Rabs e <= u32r /\ FR y = (FR x + sg p * FR s) * (1 + e)).
  { unfold y. destruct p; cbn [sg] in *.
    - destruct (fadd_rel x s F Fs) as (A & e & Eb & E). { rewrite Rmult_1_l in B127. auto. } split; [auto|]. exists e. rewrite Rmult_1_l. auto.
    - replace (FR x + -1 * FR s) with (FR x - FR s) in * by ring. apply fsub_rel; auto. }
  destruct Y as (FY & e & Eb & EY). split; [auto|]. rewrite EY. unfold Rdiv. rewrite Rabs_mult, (Rabs_pos_eq (/ FR s)) by (left; apply Rinv_0_lt_compat; auto).
  apply Rmult_le_reg_r with (FR s); [auto|]. rewrite Rmult_assoc, Rinv_l, Rmult_1_r, Rabs_mult by lra.
  assert (E2 : Rabs (1 + e) <= 1 + u32r). { eapply Rle_trans; [apply Rabs_triang|]. rewrite Rabs_R1. lra. }
  apply Rle_trans with ((m + 1) * FR s * (1 + u32r)); [apply Rmult_le_compat; auto using Rabs_pos|].
  replace ((m + 1) * FR s * (1 + u32r)) with (FR s * (m + 1 + (m + 1) * u32r)) by ring. replace ((m + 2) * FR s) with (FR s * (m + 2)) by ring.
  apply Rmult_le_compat_l; [lra|]. unfold u32r. lra.
Qed.
Lemma fsub_f0 : forall x, ffin x = true -> ffin (fsub x f0) = true /\ FR (fsub x f0) = FR x.
Proof.
  intros x F. destruct (fsub_R x f0 F eq_refl) as (A & B). { rewrite FR_f0, Rminus_0_r, rnd32_FR. apply FR_lt_max. }
  split; [auto|]. rewrite A, FR_f0, Rminus_0_r. apply rnd32_FR.
Qed.
Lemma beside_within : forall s pos m i p, sane_size s -> within m s pos -> m <= 65534 -> (i < 3)%nat -> within (m + 2) s (beside s pos i p).
Proof.
  intros s pos m i p SS ((A1 & A2) & (B1 & B2) & (C1 & C2)) M Hi.
  pose proof (step_gen s _ m p SS A1 A2 M) as (SA1 & SA2). pose proof (step_gen s _ m p SS B1 B2 M) as (SB1 & SB2). pose proof (step_gen s _ m p SS C1 C2 M) as (SC1 & SC2).
  destruct (fadd_f0 _ A1) as (ZA1 & ZA2). destruct (fadd_f0 _ B1) as (ZB1 & ZB2). destruct (fadd_f0 _ C1) as (ZC1 & ZC2).
  destruct (fsub_f0 _ A1) as (YA1 & YA2). destruct (fsub_f0 _ B1) as (YB1 & YB2). destruct (fsub_f0 _ C1) as (YC1 & YC2).
  unfold beside, axis_offset. destruct p; destruct i as [|[|[|i]]]; try lia; cbn [upd3 vx vy vz]; unfold pt_add, pt_sub, zip3; cbn [vx vy vz];
    (split; [|split]; cbn [vx vy vz]; split; auto; rewrite ?ZA2, ?ZB2, ?ZC2, ?YA2, ?YB2, ?YC2; lra).
Qed.
Lemma beside_known : forall k (l : Layer k) rows top pos interp, built_layer l -> within 65534 (l_size l) pos ->
  exists d : nat -> bool -> option f32, forall i p, (i < 3)%nat -> getDistance rows top l (beside (l_size l) pos i p) interp = Ok (d i p).
Proof.
  intros k l rows top pos interp BL W.
  assert (T : forall i p, (i < 3)%nat -> exists d, getDistance rows top l (beside (l_size l) pos i p) interp = Ok d).
  { intros i p Hi. pose proof (beside_within (l_size l) pos 65534 i p (proj1 BL) W ltac:(lra) Hi) as WN.
    apply getDistance_total; auto. eapply within_range; [exact WN|lra]. }
  destruct (T 0%nat false ltac:(lia)) as (a0 & A0). destruct (T 0%nat true ltac:(lia)) as (a1 & A1). destruct (T 1%nat false ltac:(lia)) as (b0 & B0).
  destruct (T 1%nat true ltac:(lia)) as (b1 & B1). destruct (T 2%nat false ltac:(lia)) as (c0 & C0). destruct (T 2%nat true ltac:(lia)) as (c1 & C1).
  exists (fun i p => match i with O => if p : bool then a1 else a0 | 1%nat => if p then b1 else b0 | _ => if p then c1 else c0 end).
  intros [|[|[|i]]] [|] Hi; try lia; assumption.
Qed.
(** the quotients of [one_axis] *)
Lemma quotient : forall s a b D w, sane_size s -> ffin a = true -> ffin b = true -> 0 <= D <= bpow radix2 80 ->
  Rabs (FR a) <= 3 * D + bpow radix2 (-140) -> Rabs (FR b) <= 3 * D + bpow radix2 (-140) ->
  (w = s \/ w = fmul (f32_of_Z 2) s) ->
  nearly (fdiv (fsub b a) w) ((FR b - FR a) / FR w) /\ Rabs ((FR b - FR a) / FR w) * FR s <= 6 * D + bpow radix2 (-130).
Proof.
  intros s a b D w SS Fa Fb D0 Ba Bb HW. pose proof (sane_pos s SS) as SP. destruct (two_s s SS) as (F2 & E2).
  assert (BD : Rabs (FR b - FR a) <= 6 * D + bpow radix2 (-130)).
  { unfold Rminus. eapply Rle_trans; [apply Rabs_triang|]. rewrite Rabs_Ropp. assert (2 * bpow radix2 (-140) <= bpow radix2 (-130)). { replace (bpow radix2 (-130)) with (1024 * bpow radix2 (-140)) by (change (-130)%Z with (10 + -140)%Z; rewrite bpow_plus; cbn; lra). pose proof (bpow_gt_0 radix2 (-140)). lra. } lra. }
  assert (B80 : 6 * D + bpow radix2 (-130) <= bpow radix2 84). { assert (bpow radix2 (-130) <= bpow radix2 80) by (apply bpow_le; lia). replace (bpow radix2 84) with (16 * bpow radix2 80) by (cbn; lra). lra. }
  assert (WV : FR w = FR s \/ FR w = 2 * FR s) by (destruct HW as [-> | ->]; auto).
  assert (QB : Rabs ((FR b - FR a) / FR w) <= Rabs ((FR b - FR a) / FR s)).
  { destruct WV as [-> | ->]; [lra|]. replace ((FR b - FR a) / (2 * FR s)) with (/ 2 * ((FR b - FR a) / FR s)) by (field; lra). rewrite Rabs_mult, (Rabs_pos_eq (/ 2)) by lra. pose proof (Rabs_pos ((FR b - FR a) / FR s)). lra. }
  assert (NW : FR w <> 0) by (destruct WV as [-> | ->]; lra).
  pose proof (quotient_bound s _ D SS D0 BD) as Q0. split.
  - destruct (fsub_rel b a Fb Fa) as (F3 & e1 & E1b & E3). { eapply Rle_trans; [exact BD|]. eapply Rle_trans; [exact B80|]. apply bpow_le; lia. }
    assert (Q : FR (fsub b a) / FR w = (FR b - FR a) / FR w * (1 + e1)) by (rewrite E3; field; auto).
    destruct (fdiv_rel (fsub b a) w F3 NW) as (FQ & d & t & Db & Tb & EQ).
    { rewrite Q, Rabs_mult. apply Rle_trans with (bpow radix2 124 * 2); [apply Rmult_le_compat; auto using Rabs_pos; [lra|]|replace (bpow radix2 127) with (8 * bpow radix2 124) by (cbn; lra); pose proof (bpow_gt_0 radix2 124); lra].
      eapply Rle_trans; [apply Rabs_triang|]. rewrite Rabs_R1. unfold u32r in E1b. lra. }
    split; [exact FQ|]. rewrite EQ, Q. apply two_errors; auto.
  - eapply Rle_trans; [apply Rmult_le_compat_r; [lra|exact QB]|]. unfold Rdiv. rewrite Rabs_mult, (Rabs_pos_eq (/ FR s)) by (left; apply Rinv_0_lt_compat; auto). rewrite Rmult_assoc, Rinv_l by lra. lra.
Qed.
Lemma sub_ctr : forall vps s p b v m0, sane_size s -> (1 <= vps <= 2 ^ 10)%Z -> ffin p = true -> Rabs (FR p / FR s) <= m0 -> m0 <= 65536 ->
  (Z.abs b * vps <= 2 ^ 17)%Z -> (0 <= v < vps)%Z -> Rabs (FR p / FR s - (IZR (b * vps + v) + / 2)) <= 2 ->
  let x := fsub p (ctr vps s b v) in
  ffin x = true /\ Rabs (FR x - (FR p - (IZR (b * vps + v) + / 2) * FR s)) <= FR s * off_tol vps m0 /\ Rabs (FR x) <= 4 * FR s.
Proof.
  intros vps s p b v m0 Hs Hv Fp Ht Hm Hb Hvv HD x. pose proof (sane_pos s Hs) as Sp.
  destruct (ctr_val vps s b v Hs Hv Hb Hvv) as (Fc & Ec).
  assert (V : 1 <= IZR vps <= 1024) by (split; apply IZR_le; lia).
  assert (Vv : 0 <= IZR v <= IZR vps - 1). { split; [apply IZR_le; lia|]. rewrite <- minus_IZR. apply IZR_le. lia. }
  set (c := ctr vps s b v) in *. set (t := FR p / FR s) in *. set (m := IZR (b * vps + v) + / 2) in *.
  assert (BW : Rabs (IZR b * IZR vps) <= Rabs t + IZR vps + 2).
  { replace (IZR b * IZR vps) with (t - (t - m) - (IZR v + / 2)) by (unfold m; rewrite plus_IZR, mult_IZR; ring).
    apply Rabs_le. assert (- Rabs t <= t <= Rabs t) by (apply Rabs_le_inv; lra). apply Rabs_le_inv in HD. lra. }
  set (W := IZR vps) in *. pose proof (Rabs_pos t) as T0.
  assert (E1 : Rabs (FR c / FR s - m) <= 3.02 * u * Rabs t + 14 * u * W).
  { eapply Rle_trans; [exact Ec|]. unfold u. lra. }
  set (d := (FR p - FR c) / FR s).
  assert (Ed : d = t - FR c / FR s) by (unfold d, t; field; lra).
  assert (Bd : Rabs d <= 3).
  { rewrite Ed. replace (t - FR c / FR s) with ((t - m) - (FR c / FR s - m)) by ring. apply Rabs_le.
    apply Rabs_le_inv in HD, E1. unfold u in E1. lra. }
  destruct (fsub_rel p c Fp Fc) as (Fs & e & He & Es).
  { apply Rle_trans with (bpow radix2 (2 + 40)); [|apply bpow_le; lia]. apply size_bound with s 3; auto. cbn. lra. }
  fold x in Fs, Es. split; [auto|]. change u32r with u in He.
  assert (Ex : FR x = FR s * (d * (1 + e))) by (rewrite Es; unfold d; field; lra).
  assert (Be : Rabs (d * e) <= 3 * u) by (apply Rabs_prod; auto).
  split.
  - replace (FR x - (FR p - m * FR s)) with (FR s * (d * e - (FR c / FR s - m))) by (rewrite Ex, Ed; unfold t; field; lra).
    rewrite Rabs_mult, (Rabs_pos_eq (FR s)) by lra. apply Rmult_le_compat_l; [lra|]. unfold off_tol. rewrite (Rabs_pos_eq m0) by lra. fold W.
    apply Rabs_le. apply Rabs_le_inv in Be, E1. unfold u in *. lra.
  - rewrite Ex, Rabs_mult, (Rabs_pos_eq (FR s)) by lra. rewrite (Rmult_comm 4). apply Rmult_le_compat_l; [lra|].
    replace (d * (1 + e)) with (d + d * e) by ring. eapply Rle_trans; [apply Rabs_triang|]. unfold u in *. lra.
Qed.
(** what is known of the voxel of a point *)
Definition off_good (vps : Z) (m0 : R) (s p : f32) (g : Z) (x : f32) : Prop :=
  ffin x = true /\ Rabs (FR x - (FR p - (IZR g + / 2) * FR s)) <= FR s * off_tol vps m0 /\ Rabs (FR x) <= 4 * FR s.
Lemma cell_facts : forall k (l : Layer k) pos b m0, built_layer l -> within m0 (l_size l) pos -> m0 <= 65536 -> blockAt l pos = Ok (Some b) ->
  exists g v x,
    (in_cell (l_vps l) (l_size l) (vx pos) (vx g) /\ in_cell (l_vps l) (l_size l) (vy pos) (vy g) /\ in_cell (l_vps l) (l_size l) (vz pos) (vz g)) /\
    voxel_at l g = Some x /\ getNearestVoxel l pos = Ok (Some x) /\
    computeTruncatedVoxelIndexFromCoordinates (b_vps b) (b_origin b) (inv_of (b_size b)) pos = Some v /\
    let o := pt_sub pos (computeCoordinatesFromVoxelIndex (b_origin b) (b_size b) v) in
    off_good (l_vps l) m0 (l_size l) (vx pos) (vx g) (vx o) /\ off_good (l_vps l) m0 (l_size l) (vy pos) (vy g) (vy o) /\ off_good (l_vps l) m0 (l_size l) (vz pos) (vz g) (vz o).
Proof.
  intros k l [px py pz] b m0 BL (Px & Py & Pz) M0 EB. cbn [vx vy vz] in *.
  pose proof (Rle_trans _ _ _ (proj2 Px) M0) as Tx. pose proof (Rle_trans _ _ _ (proj2 Py) M0) as Ty. pose proof (Rle_trans _ _ _ (proj2 Pz) M0) as Tz.
  destruct BL as (Hs & Hn & HB). set (n := l_vps l) in *. set (s := l_size l) in *.
  destruct (axis_cell n s px Hs Hn (proj1 Px) Tx) as (bx & nx & Gx & Nx & Kx & Sx).
  destruct (axis_cell n s py Hs Hn (proj1 Py) Ty) as (by_ & ny & Gy & Ny & Ky & Sy).
  destruct (axis_cell n s pz Hs Hn (proj1 Pz) Tz) as (bz & nz & Gz & Nz & Kz & Sz).
  pose proof (clamp_range n nx ltac:(lia)) as Rx. pose proof (clamp_range n ny ltac:(lia)) as Ry. pose proof (clamp_range n nz ltac:(lia)) as Rz.
  assert (EI : computeBlockIndexFromCoordinates (l_vps l) (l_size l) (V3 px py pz) = Some (V3 bx by_ bz)).
  { unfold computeBlockIndexFromCoordinates, getGridIndexFromPoint, map3, seq3. cbn [vx vy vz]. fold n s. rewrite Gx, Gy, Gz. reflexivity. }
  assert (G : l_get l (V3 bx by_ bz) = Some b). { unfold blockAt in EB. rewrite EI in EB. cbn [of_opt rbind] in EB. congruence. }
  destruct (HB _ _ G) as (V0 & S0 & O0 & L0).
  assert (ET : computeTruncatedVoxelIndexFromCoordinates n (new_block_origin n s (V3 bx by_ bz)) (inv_of s) (V3 px py pz)
               = Some (V3 (clamp_axis n nx) (clamp_axis n ny) (clamp_axis n nz))).
  { unfold computeTruncatedVoxelIndexFromCoordinates, computeVoxelIndexFromCoordinates, getGridIndexFromPoint, pt_sub, new_block_origin,
      getOriginPointFromGridIndex, zip3, map3, seq3. cbn [vx vy vz]. fold (org n s bx) (org n s by_) (org n s bz). rewrite Nx, Ny, Nz. reflexivity. }
  destruct (lin_small n _ _ _ Hn Rx Ry Rz) as (E & R).
  destruct (nth_error (b_voxels b) (Z.to_nat (computeLinearIndexFromVoxelIndex n (V3 (clamp_axis n nx) (clamp_axis n ny) (clamp_axis n nz))))) as [x|] eqn:NE.
  2:{ exfalso. apply nth_error_None in NE. rewrite E in NE. lia. }
  exists (V3 (bx * n + clamp_axis n nx)%Z (by_ * n + clamp_axis n ny)%Z (bz * n + clamp_axis n nz)%Z), (V3 (clamp_axis n nx) (clamp_axis n ny) (clamp_axis n nz)), x. cbn [vx vy vz].
  split; [exact (conj Sx (conj Sy Sz))|]. split; [|split; [|split]].
  - unfold voxel_at. fold n. unfold map3. cbn [vx vy vz]. rewrite !div_base, !mod_base by lia. rewrite G. rewrite <- E. exact NE.
  - unfold getNearestVoxel. rewrite EI. cbn [of_opt rbind]. rewrite G, V0, S0, O0, ET. cbn [of_opt rbind]. fold n. rewrite NE. reflexivity.
  - rewrite V0, S0, O0. exact ET.
  - rewrite S0, O0. unfold computeCoordinatesFromVoxelIndex, getCenterPointFromGridIndex, new_block_origin, getOriginPointFromGridIndex, pt_sub, pt_add, zip3, map3. cbn [vx vy vz].
    fold (org n s bx) (org n s by_) (org n s bz). fold (ctr n s bx (clamp_axis n nx)) (ctr n s by_ (clamp_axis n ny)) (ctr n s bz (clamp_axis n nz)).
    assert (C : forall p bb nn, Rabs (FR p / FR s) <= 65536 -> IZR (bb * n + clamp_axis n nn) - border_tol n (FR p / FR s) <= FR p / FR s <= IZR (bb * n + clamp_axis n nn) + 1 + border_tol n (FR p / FR s) ->
       Rabs (FR p / FR s - (IZR (bb * n + clamp_axis n nn) + / 2)) <= 2).
    { intros p bb nn T S. assert (V : 1 <= IZR n <= 1024) by (split; apply IZR_le; lia). unfold border_tol in S. apply Rabs_le. lra. }
    split; [|split]; (apply sub_ctr; auto; try lia; apply Px || apply Py || apply Pz).
Qed.
Lemma centre_dist : forall vps m0 s a p c o g D, 0 <= m0 -> sane_size s -> (1 <= vps <= 2 ^ 10)%Z -> ffin a = true -> Rabs (FR a) <= D -> 0 <= D <= bpow radix2 80 ->
  off_good vps m0 s (vx p) (vx c) (vx o) -> off_good vps m0 s (vy p) (vy c) (vy o) -> off_good vps m0 s (vz p) (vz c) (vz o) ->
  all3 (fun x => ffin x = true /\ Rabs (FR x) * FR s <= 8 * D + 1) g ->
  ffin (fadd a (dot3 o g)) = true /\
  Rabs (FR (fadd a (dot3 o g)) - from_centre (FR s) (FR a) c (map3 FR g) (map3 FR p)) <= 2 * slope (map3 FR g) * FR s * off_tol vps m0 + bpow radix2 (-22) * Rabs (FR a) + bpow radix2 (-140).
Proof.
  intros vps m0 s a [p1 p2 p3] [c1 c2 c3] [o1 o2 o3] [g1 g2 g3] D M0 SS V Fa Ba D0 (O1 & O2 & O3) (P1 & P2 & P3) (Q1 & Q2 & Q3) ((G1 & B1) & (G2 & B2) & (G3 & B3)).
  cbn [vx vy vz] in *. pose proof (sane_pos s SS) as SP. set (sr := FR s) in *.
  assert (TT : 22 * u32r <= off_tol vps m0). { unfold off_tol. rewrite (Rabs_pos_eq m0) by lra. assert (1 <= IZR vps) by (apply IZR_le; lia). unfold u32r. lra. }
  set (tol := off_tol vps m0) in *.
  assert (BB : bpow radix2 80 * 64 + 64 <= bpow radix2 100). { replace (bpow radix2 100) with (bpow radix2 80 * 1048576) by (change 100%Z with (80 + 20)%Z; rewrite bpow_plus; cbn; lra). assert (1 <= bpow radix2 80) by (apply (bpow_le radix2 0 80); lia). lra. }
  assert (B127 : bpow radix2 100 * 4 <= bpow radix2 127). { replace (bpow radix2 127) with (bpow radix2 100 * 134217728) by (change 127%Z with (100 + 27)%Z; rewrite bpow_plus; cbn; lra). pose proof (bpow_gt_0 radix2 100). lra. }
  assert (T0 : 0 <= t32r <= bpow radix2 (-149)) by (unfold t32r; split; [apply bpow_ge_0|apply bpow_le; lia]).
  assert (T1 : 16 * bpow radix2 (-149) <= bpow radix2 (-140)). { replace (bpow radix2 (-140)) with (512 * bpow radix2 (-149)) by (change (-140)%Z with (9 + -149)%Z; rewrite bpow_plus; cbn; lra). pose proof (bpow_gt_0 radix2 (-149)). lra. }
  assert (T2 : bpow radix2 (-140) <= 1) by (apply (bpow_le radix2 (-140) 0); lia).
  assert (U0 : u32r = / 16777216) by reflexivity.
  (* one product *)
  assert (M : forall o g pp c, ffin o = true -> Rabs (FR o - (pp - (IZR c + / 2) * sr)) <= sr * tol -> Rabs (FR o) <= 4 * sr -> ffin g = true -> Rabs (FR g) * sr <= 8 * D + 1 ->
     ffin (fmul o g) = true /\ Rabs (FR (fmul o g) - FR g * (pp - (IZR c + / 2) * sr)) <= Rabs (FR g) * sr * tol + 4 * u32r * (Rabs (FR g) * sr) + t32r /\ Rabs (FR (fmul o g)) <= 5 * (Rabs (FR g) * sr) + t32r).
  { intros o g pp c Fo Eo Bo Fg Bg. pose proof (Rabs_pos (FR g)) as G0.
    assert (PB : Rabs (FR o * FR g) <= 4 * (Rabs (FR g) * sr)). { rewrite Rabs_mult. replace (4 * (Rabs (FR g) * sr)) with (4 * sr * Rabs (FR g)) by ring. apply Rmult_le_compat_r; auto. }
    destruct (fmul_rel o g Fo Fg) as (F & d & e & Hd & He & E). { eapply Rle_trans; [exact PB|]. lra. }
    split; [auto|]. assert (DP : Rabs (FR o * FR g * d) <= 4 * (Rabs (FR g) * sr) * u32r) by (apply Rabs_prod; auto).
    assert (OP : Rabs (FR g * (FR o - (pp - (IZR c + / 2) * sr))) <= Rabs (FR g) * (sr * tol)) by (apply Rabs_prod; [lra|auto]).
    rewrite E. split.
    - replace (FR o * FR g * (1 + d) + e - FR g * (pp - (IZR c + / 2) * sr)) with (FR o * FR g * d + e + FR g * (FR o - (pp - (IZR c + / 2) * sr))) by ring.
      apply Rabs_le. apply Rabs_le_inv in DP, OP, He. lra.
    - replace (FR o * FR g * (1 + d) + e) with (FR o * FR g + FR o * FR g * d + e) by ring. apply Rabs_le. apply Rabs_le_inv in DP, PB, He. rewrite U0 in *. pose proof (Rmult_le_pos _ _ G0 (Rlt_le _ _ SP)). lra. }
  destruct (M _ _ _ _ O1 O2 O3 G1 B1) as (X1 & X2 & X3). destruct (M _ _ _ _ P1 P2 P3 G2 B2) as (Y1 & Y2 & Y3). destruct (M _ _ _ _ Q1 Q2 Q3 G3 B3) as (Z1 & Z2 & Z3). clear M.
  unfold dot3. cbn [vx vy vz]. unfold slope, from_centre, map3. cbn [vx vy vz].
  replace (2 * (Rabs (FR g1) + Rabs (FR g2) + Rabs (FR g3)) * sr * tol) with (2 * ((Rabs (FR g1) * sr + Rabs (FR g2) * sr + Rabs (FR g3) * sr) * tol)) by ring.
  assert (H1 := Rmult_le_pos _ _ (Rabs_pos (FR g1)) (Rlt_le _ _ SP)). assert (H2 := Rmult_le_pos _ _ (Rabs_pos (FR g2)) (Rlt_le _ _ SP)). assert (H3 := Rmult_le_pos _ _ (Rabs_pos (FR g3)) (Rlt_le _ _ SP)).
  set (k1 := Rabs (FR g1) * sr) in *. set (k2 := Rabs (FR g2) * sr) in *. set (k3 := Rabs (FR g3) * sr) in *.
  set (r1 := FR g1 * (FR p1 - (IZR c1 + / 2) * sr)) in *. set (r2 := FR g2 * (FR p2 - (IZR c2 + / 2) * sr)) in *. set (r3 := FR g3 * (FR p3 - (IZR c3 + / 2) * sr)) in *.
  set (m1 := fmul o1 g1) in *. set (m2 := fmul o2 g2) in *. set (m3 := fmul o3 g3) in *.
  destruct (fadd_rel m2 m3 Y1 Z1) as (F4 & e4 & H4 & E4). { eapply Rle_trans; [apply Rabs_triang|]. lra. }
  assert (D4 : Rabs ((FR m2 + FR m3) * e4) <= (5 * k2 + 5 * k3 + 2 * t32r) * u32r). { apply Rabs_prod; [|auto]. eapply Rle_trans; [apply Rabs_triang|]. lra. }
  set (w4 := fadd m2 m3) in *.
  assert (V4 : Rabs (FR w4) <= 6 * k2 + 6 * k3 + 3 * t32r). { rewrite E4. replace ((FR m2 + FR m3) * (1 + e4)) with (FR m2 + FR m3 + (FR m2 + FR m3) * e4) by ring. apply Rabs_le. apply Rabs_le_inv in Y3, Z3, D4. rewrite U0 in *. lra. }
  destruct (fadd_rel m1 w4 X1 F4) as (F5 & e5 & H5 & E5). { eapply Rle_trans; [apply Rabs_triang|]. lra. }
  assert (D5 : Rabs ((FR m1 + FR w4) * e5) <= (5 * k1 + 6 * k2 + 6 * k3 + 4 * t32r) * u32r). { apply Rabs_prod; [|auto]. eapply Rle_trans; [apply Rabs_triang|]. lra. }
  set (w5 := fadd m1 w4) in *.
  assert (V5 : Rabs (FR w5) <= 6 * k1 + 7 * k2 + 7 * k3 + 5 * t32r). { rewrite E5. replace ((FR m1 + FR w4) * (1 + e5)) with (FR m1 + FR w4 + (FR m1 + FR w4) * e5) by ring. apply Rabs_le. apply Rabs_le_inv in X3, V4, D5. rewrite U0 in *. lra. }
  destruct (fadd_rel a w5 Fa F5) as (F6 & e6 & H6 & E6). { eapply Rle_trans; [apply Rabs_triang|]. lra. }
  split; [auto|].
  assert (D6 : Rabs ((FR a + FR w5) * e6) <= (Rabs (FR a) + 6 * k1 + 7 * k2 + 7 * k3 + 5 * t32r) * u32r). { apply Rabs_prod; [|auto]. eapply Rle_trans; [apply Rabs_triang|]. lra. }
  assert (E : FR (fadd a w5) - (FR a + r1 + r2 + r3) = (FR m1 - r1) + (FR m2 - r2) + (FR m3 - r3) + (FR m2 + FR m3) * e4 + (FR m1 + FR w4) * e5 + (FR a + FR w5) * e6).
  { rewrite E6. replace ((FR a + FR w5) * (1 + e6)) with (FR a + FR w5 + (FR a + FR w5) * e6) by ring. rewrite E5 at 1. replace ((FR m1 + FR w4) * (1 + e5)) with (FR m1 + FR w4 + (FR m1 + FR w4) * e5) by ring. rewrite E4 at 1. ring. }
  rewrite E. replace (bpow radix2 (-22)) with (4 * u32r) by (rewrite U0; cbn; lra).
  assert (K : 22 * u32r * (k1 + k2 + k3) <= ((k1 + k2 + k3) * tol)) by (pose proof (Rmult_le_compat_r (k1 + k2 + k3) _ _ ltac:(lra) TT); lra).
  pose proof (Rabs_pos (FR a)) as A0. set (aa := Rabs (FR a)) in *.
  apply Rabs_le. apply Rabs_le_inv in X2, Y2, Z2, D4, D5, D6.
  rewrite U0 in *. lra.
Qed.
Lemma one_axis_spec : forall k (l : Layer k) rows top pos near D i lo hi, built_layer l -> within 65534 (l_size l) pos -> orders rows top ->
  bounded l D -> 0 <= D <= bpow radix2 80 -> ffin near = true -> Rabs (FR near) <= D -> (i < 3)%nat ->
  getDistance rows top l (beside (l_size l) pos i false) false = Ok lo -> getDistance rows top l (beside (l_size l) pos i true) false = Ok hi ->
  exists r, one_axis rows top l pos (l_size l) near i = Ok r /\
    match slope_at (FR (l_size l)) near lo hi with
    | None => r = None
    | Some q => exists x, r = Some x /\ nearly x q /\ Rabs (FR x) * FR (l_size l) <= 8 * D + 1
    end.
Proof.
  intros k l rows top pos near D i lo hi BL W OR BD D0 Fn Bn Hi EL EH.
  pose proof BL as (SS & _). pose proof (sane_pos _ SS) as SP.
  assert (BN : forall p x, getDistance rows top l (beside (l_size l) pos i p) false = Ok (Some x) -> ffin x = true /\ Rabs (FR x) <= 3 * D + bpow radix2 (-140)).
  { intros p x Hx. pose proof (beside_within (l_size l) pos 65534 i p SS W ltac:(lra) Hi) as WN.
    eapply (getDistance_bound k l rows top (beside (l_size l) pos i p) false D); eauto; [eapply within_range; [exact WN|lra]|].
    assert (bpow radix2 80 <= bpow radix2 100) by (apply bpow_le; lia). lra. }
  assert (NB : Rabs (FR near) <= 3 * D + bpow radix2 (-140)) by (pose proof (bpow_gt_0 radix2 (-140)); lra).
  assert (FIN : forall a b w, ffin a = true -> ffin b = true -> Rabs (FR a) <= 3 * D + bpow radix2 (-140) -> Rabs (FR b) <= 3 * D + bpow radix2 (-140) -> (w = l_size l \/ w = fmul (f32_of_Z 2) (l_size l)) ->
     nearly (fdiv (fsub b a) w) ((FR b - FR a) / FR w) /\ Rabs (FR (fdiv (fsub b a) w)) * FR (l_size l) <= 8 * D + 1).
  { intros a b w Fa Fb Ba Bb Hw. destruct (quotient (l_size l) a b D w SS Fa Fb D0 Ba Bb Hw) as ((FQ & NQ) & QB). split; [split; auto|].
    set (q := (FR b - FR a) / FR w) in *. set (x := FR (fdiv (fsub b a) w)) in *. set (s := FR (l_size l)) in *.
    assert (XA : Rabs x <= Rabs q + Rabs (x - q)). { replace x with (q + (x - q)) at 1 by ring. apply Rabs_triang. }
    assert (T2 : bpow radix2 (-22) <= / 1000) by (cbn; lra). pose proof (Rabs_pos q) as Q0.
    assert (XB : Rabs x <= 1.001 * Rabs q + bpow radix2 (-149)). { assert (bpow radix2 (-22) * Rabs q <= / 1000 * Rabs q) by (apply Rmult_le_compat_r; auto). lra. }
    apply Rle_trans with ((1.001 * Rabs q + bpow radix2 (-149)) * s); [apply Rmult_le_compat_r; lra|].
    assert (S149 : bpow radix2 (-149) * s <= / 4). { apply Rle_trans with (bpow radix2 (-149) * bpow radix2 40); [apply Rmult_le_compat_l; [apply bpow_ge_0|apply SS]|]. rewrite <- bpow_plus. apply Rle_trans with (bpow radix2 (-2)); [apply bpow_le; lia|cbn; lra]. }
    assert (S130 : bpow radix2 (-130) <= / 4) by (apply Rle_trans with (bpow radix2 (-2)); [apply bpow_le; lia|cbn; lra]). lra. }
  destruct (two_s _ SS) as (F2 & E2). unfold one_axis.
  change (pt_sub pos (axis_offset i (l_size l))) with (beside (l_size l) pos i false). change (pt_add pos (axis_offset i (l_size l))) with (beside (l_size l) pos i true).
  rewrite EL. cbn [rbind]. rewrite EH. cbn [rbind].
  destruct lo as [a|]; destruct hi as [b|]; cbn [slope_at]; eexists; (split; [reflexivity|]); [| | |reflexivity].
  - destruct (BN _ _ EL) as (F1 & B1). destruct (BN _ _ EH) as (F3 & B3). eexists; split; [reflexivity|]. rewrite <- E2. apply FIN; auto.
  - destruct (BN _ _ EL) as (F1 & B1). eexists; split; [reflexivity|]. apply FIN; auto.
  - destruct (BN _ _ EH) as (F3 & B3). eexists; split; [reflexivity|]. apply FIN; auto.
Qed.
Lemma adaptive_spec : forall k (l : Layer k) rows top pos D m, built_layer l -> within m (l_size l) pos -> m <= 65534 -> orders rows top ->
  bounded l D -> 0 <= D <= bpow radix2 80 ->
  exists c interp (di dn : nat -> bool -> option f32) r,
    (in_cell (l_vps l) (l_size l) (vx pos) (vx c) /\ in_cell (l_vps l) (l_size l) (vy pos) (vy c) /\ in_cell (l_vps l) (l_size l) (vz pos) (vz c)) /\
    getDistance rows top l pos true = Ok interp /\
    (forall i p, (i < 3)%nat -> getDistance rows top l (neighbour (l_size l) pos i p) true = Ok (di i p)) /\
    (forall i p, (i < 3)%nat -> getDistance rows top l (beside (l_size l) pos i p) false = Ok (dn i p)) /\
    getAdaptive rows top l pos = Ok r /\
    (r <> None <-> observed_at l c <> None /\ ((interp <> None /\ both_known di = true) \/ one_known dn = true)) /\
    (forall d g, r = Some (d, g) -> exists v, observed_at l c = Some v /\
       (forall i, (i < 3)%nat -> exists q, nearly (get3 i g) q /\
          (if match interp with Some _ => both_known di | None => false end then slope_at (FR (l_size l)) (getVoxelSdf k v) (di i false) (di i true) = Some q
           else slope_at (FR (l_size l)) (getVoxelSdf k v) (dn i false) (dn i true) = Some q)) /\
       (forall d', interp = Some d' -> d = d') /\
       (interp = None -> ffin d = true /\
          Rabs (FR d - from_centre (FR (l_size l)) (FR (getVoxelSdf k v)) c (map3 FR g) (map3 FR pos)) <=
            2 * slope (map3 FR g) * FR (l_size l) * off_tol (l_vps l) m + bpow radix2 (-22) * Rabs (FR (getVoxelSdf k v)) + bpow radix2 (-140))).
Proof.
  intros k l rows top pos D m BL W M OR BD D0.
  assert (M0 : 0 <= m) by (destruct W as ((_ & A2) & _); pose proof (Rabs_pos (FR (vx pos) / FR (l_size l))); lra).
  assert (W' := within_mono m 65534 _ _ W M). assert (PR := within_range _ _ _ W' ltac:(lra)).
  destruct (blockAt_total k l pos BL PR) as (b & EB & SB).
  destruct (getDistance_total k l rows top pos true BL PR) as (interp & EI).
  destruct (gradient_spec k l rows top pos true (V3 f0 f0 f0) D BL W' OR BD D0) as (b' & di & EB' & EDI & _ & GF & GT).
  rewrite EB in EB'. inversion EB'; subst b'. clear EB'.
  destruct (beside_known k l rows top pos false BL W') as (dn & EDN).
  assert (ONE : forall near, ffin near = true -> Rabs (FR near) <= D -> forall i, (i < 3)%nat -> exists r, one_axis rows top l pos (l_size l) near i = Ok r /\
    match slope_at (FR (l_size l)) near (dn i false) (dn i true) with None => r = None | Some q => exists x, r = Some x /\ nearly x q /\ Rabs (FR x) * FR (l_size l) <= 8 * D + 1 end).
  { intros near Fn Bn i Hi. eapply one_axis_spec; eauto. }
  destruct b as [b|].
  2:{ (* no block *)
      destruct (C66_nearest k l pos BL PR) as (c & IC & EN & ED). exists c, interp, di, dn, None.
      assert (NV : voxel_at l c = None).
      { unfold getNearestVoxel in EN. unfold blockAt in EB. destruct (computeBlockIndexFromCoordinates (l_vps l) (l_size l) pos) as [bi|]; cbn [of_opt rbind] in *; [|discriminate].
        inversion EB as [G]. rewrite G in EN. congruence. }
      assert (NO : observed_at l c = None) by (unfold observed_at; rewrite NV; reflexivity).
      split; [exact IC|]. split; [exact EI|]. split; [exact EDI|]. split; [exact EDN|].
      split; [unfold getAdaptive; cbn [getDistance]; rewrite ED, NO; reflexivity|].
      split; [split; [congruence|intros (X & _); congruence]|]. intros d g X; discriminate. }
  destruct (cell_facts k l pos b m BL W ltac:(lra) EB) as (c & v & x & IC & VA & EN & ET & O1 & O2 & O3).
  exists c, interp, di, dn. assert (SBb : b_size b = l_size l) by (apply SB; reflexivity).
  assert (ED : getNearestDistance l pos = Ok (option_map (getVoxelSdf k) (observed_at l c))).
  { unfold getNearestDistance. rewrite EN. cbn [rbind]. unfold observed_at. rewrite VA. destruct (isObservedVoxel k x); reflexivity. }
  unfold getAdaptive. change (getDistance rows top l pos false) with (getNearestDistance l pos). rewrite ED. cbn [rbind].
  destruct (observed_at l c) as [y|] eqn:OB; cbn [option_map].
  2:{ exists None. split; [exact IC|]. split; [exact EI|]. split; [exact EDI|]. split; [exact EDN|]. split; [reflexivity|].
      split; [split; [congruence|intros (X & _); congruence]|]. intros d g X; discriminate. }
  assert (y = x) by (unfold observed_at in OB; rewrite VA in OB; destruct (isObservedVoxel k x); congruence). subst y.
  destruct (BD _ _ VA) as (Fn & Bn). set (near := getVoxelSdf k x) in *.
  rewrite EI. cbn [rbind]. rewrite EB. cbn [rbind]. rewrite SBb.
  (* the one-sided gradients *)
  pose (fall := rbind (one_axis rows top l pos (l_size l) near 0) (fun gx => match gx with None => Ok None | Some gx =>
     rbind (one_axis rows top l pos (l_size l) near 1) (fun gy => match gy with None => Ok None | Some gy =>
     rbind (one_axis rows top l pos (l_size l) near 2) (fun gz => Ok (option_map (fun gz => V3 gx gy gz) gz)) end) end)).
  assert (FALL : (one_known dn = false /\ fall = Ok None) \/
     (one_known dn = true /\ exists g : pt3, fall = Ok (Some g) /\ (forall i, (i < 3)%nat -> exists q, nearly (get3 i g) q /\ slope_at (FR (l_size l)) near (dn i false) (dn i true) = Some q) /\
        all3 (fun x => ffin x = true /\ Rabs (FR x) * FR (l_size l) <= 8 * D + 1) g)).
  { destruct (ONE near Fn Bn 0%nat ltac:(lia)) as (r0 & R0 & H0). destruct (ONE near Fn Bn 1%nat ltac:(lia)) as (r1 & R1 & H1). destruct (ONE near Fn Bn 2%nat ltac:(lia)) as (r2 & R2 & H2).
    unfold fall. rewrite R0, R1, R2. cbn [rbind].
    assert (OK : forall i, slope_at (FR (l_size l)) near (dn i false) (dn i true) = None <-> (match dn i false, dn i true with None, None => false | _, _ => true end) = false).
    { intros i. destruct (dn i false), (dn i true); cbn [slope_at]; split; congruence. }
    unfold one_known. cbn [forallb].
    destruct (slope_at (FR (l_size l)) near (dn 0%nat false) (dn 0%nat true)) as [q0|] eqn:S0.
    2:{ left. rewrite (proj1 (OK _) S0). subst r0. split; reflexivity. }
    destruct H0 as (x0 & -> & N0 & B0). cbn iota beta.
    destruct (slope_at (FR (l_size l)) near (dn 1%nat false) (dn 1%nat true)) as [q1|] eqn:S1.
    2:{ left. rewrite (proj1 (OK _) S1), andb_false_r. subst r1. split; reflexivity. }
    destruct H1 as (x1 & -> & N1 & B1). cbn iota beta.
    destruct (slope_at (FR (l_size l)) near (dn 2%nat false) (dn 2%nat true)) as [q2|] eqn:S2.
    2:{ left. rewrite (proj1 (OK _) S2), !andb_false_r. subst r2. split; reflexivity. }
    destruct H2 as (x2 & -> & N2 & B2). right. split.
    - destruct (match dn 0%nat false, dn 0%nat true with None, None => false | _, _ => true end) eqn:K0; [|rewrite (proj2 (OK 0%nat) K0) in S0; discriminate].
      destruct (match dn 1%nat false, dn 1%nat true with None, None => false | _, _ => true end) eqn:K1; [|rewrite (proj2 (OK 1%nat) K1) in S1; discriminate].
      destruct (match dn 2%nat false, dn 2%nat true with None, None => false | _, _ => true end) eqn:K2; [reflexivity|rewrite (proj2 (OK 2%nat) K2) in S2; discriminate].
    - exists (V3 x0 x1 x2). split; [reflexivity|]. split.
      + intros i Hi. destruct i as [|[|[|i]]]; [| | |lia]; cbn [get3 vx vy vz]; eexists; eauto.
      + split; [|split]; cbn [vx vy vz]; split; auto; [apply N0|apply N1|apply N2]. }
  fold fall.
  assert (COMMON : forall r, (rbind fall (fun g => match g with None => Ok None | Some g => match interp with Some d => Ok (Some (d, g)) | None =>
       rbind (of_opt (computeTruncatedVoxelIndexFromCoordinates (b_vps b) (b_origin b) (inv_of (l_size l)) pos)) (fun v =>
         Ok (Some (fadd near (dot3 (pt_sub pos (computeCoordinatesFromVoxelIndex (b_origin b) (l_size l) v)) g), g))) end end) = Ok r) ->
     (match interp with Some _ => both_known di | None => false end = false) ->
     (r <> None <-> one_known dn = true) /\ (forall d g, r = Some (d, g) ->
       (forall i, (i < 3)%nat -> exists q, nearly (get3 i g) q /\ slope_at (FR (l_size l)) near (dn i false) (dn i true) = Some q) /\
       (forall d', interp = Some d' -> d = d') /\
       (interp = None -> ffin d = true /\
          Rabs (FR d - from_centre (FR (l_size l)) (FR near) c (map3 FR g) (map3 FR pos)) <=
            2 * slope (map3 FR g) * FR (l_size l) * off_tol (l_vps l) m + bpow radix2 (-22) * Rabs (FR near) + bpow radix2 (-140)))).
  { intros r ER _. rewrite SBb in ET. destruct FALL as [(OK & EF) | (OK & g & EF & SL & GB)]; rewrite EF in ER; cbn [rbind] in ER.
    - inversion ER. rewrite OK. split; [split; congruence|]. intros d g X; discriminate.
    - destruct interp as [d|].
      + inversion ER. rewrite OK. split; [split; [reflexivity|discriminate]|]. intros d1 g1 X. inversion X; subst d1 g1. split; [exact SL|]. split; [congruence|discriminate].
      + rewrite ET in ER. cbn [of_opt rbind] in ER. inversion ER. rewrite OK. split; [split; [reflexivity|discriminate]|]. intros d1 g1 X. inversion X; subst d1 g1. split; [exact SL|]. split; [congruence|]. intros _.
        rewrite SBb in O1, O2, O3. apply centre_dist with (D := D); auto; apply BL. }
  destruct interp as [d|].
  - destruct (both_known di) eqn:BK.
    + destruct (GT ltac:(discriminate) eq_refl) as (g & EG & CG). exists (Some (d, g)).
      split; [exact IC|]. split; [reflexivity|]. split; [exact EDI|]. split; [exact EDN|]. split; [rewrite EG; reflexivity|].
      split; [split; [intros _; split; [discriminate|left; split; [discriminate|reflexivity]]|discriminate]|].
      intros d1 g1 X. inversion X; subst d1 g1. exists x. split; [reflexivity|]. split; [|split; [congruence|discriminate]].
      intros i Hi. destruct (CG i Hi) as (lo & hi & E1 & E2 & NE). eexists. split; [exact NE|]. rewrite E1, E2. reflexivity.
    + destruct (GF ltac:(discriminate) eq_refl) as (g & EG).
      assert (exists r, rbind fall (fun g => match g with None => Ok None | Some g => Ok (Some (d, g)) end) = Ok r) as (r & ER).
      { destruct FALL as [(_ & ->) | (_ & g' & -> & _)]; eexists; reflexivity. }
      exists r. destruct (COMMON r ER eq_refl) as (C1 & C2).
      split; [exact IC|]. split; [reflexivity|]. split; [exact EDI|]. split; [exact EDN|].
      split; [rewrite EG; cbn [rbind fst]; fold fall; exact ER|].
      split; [rewrite C1; split; [intros H; split; [discriminate|right; exact H]|intros (_ & [(_ & H) | H]); [discriminate|exact H]]|].
      intros d1 g1 X. exists x. split; [reflexivity|]. apply C2; auto.
  - assert (exists r, rbind fall (fun g => match g with None => Ok None | Some g => rbind (of_opt (computeTruncatedVoxelIndexFromCoordinates (b_vps b) (b_origin b) (inv_of (l_size l)) pos)) (fun v =>
         Ok (Some (fadd near (dot3 (pt_sub pos (computeCoordinatesFromVoxelIndex (b_origin b) (l_size l) v)) g), g))) end) = Ok r) as (r & ER).
    { rewrite SBb in ET. rewrite ET. destruct FALL as [(_ & ->) | (_ & g' & -> & _)]; eexists; reflexivity. }
    exists r. destruct (COMMON r ER eq_refl) as (C1 & C2).
    split; [exact IC|]. split; [reflexivity|]. split; [exact EDI|]. split; [exact EDN|].
    split; [cbn [rbind fst]; fold fall; exact ER|].
    split; [rewrite C1; split; [intros H; split; [discriminate|right; exact H]|intros (_ & [(H & _) | H]); [congruence|exact H]]|].
    intros d1 g1 X. exists x. split; [reflexivity|]. apply C2; auto.
Qed.
