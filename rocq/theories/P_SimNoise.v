(** C97: simulated views, with and without noise. C98: ground and walls. *)
From Coq Require Import ZArith Reals List Bool Lia Lra FunctionalExtensionality.
From Flocq Require Import Core.
From Verif Require Import F32 F32_lemmas F32_err Types Index Voxel Update Update_spec Ray Sim Merge_proofs Vec_proofs SimNoise SimNoise_spec SimNoise_proofs P_Sphere.
Import ListNotations.
Open Scope R_scope.

(** C97. An image of even width and height has one ray per pixel, column by column, symmetric about
    the view direction up to half a pixel, each a unit vector up to rounding. Missing: odd sizes. *)
Theorem C97_rays_partial : forall rot fl res_x res_y, ffin fl = true -> / 1024 <= FR fl <= bpow radix2 22 ->
  (0 <= res_x <= 2 ^ 22)%Z -> (0 <= res_y <= 2 ^ 22)%Z -> (res_x mod 2 = 0)%Z -> (res_y mod 2 = 0)%Z ->
  Z.of_nat (length (view_rays rot fl res_x res_y)) = (res_x * res_y)%Z /\
  Forall2 (fun uv ray => exists a b d, float_div (fst uv) fl a /\ float_div (snd uv) fl b /\
             near3 (9 * u32r) d (unitR (V3 1 (FR a) (FR b))) /\ ray = rot d)
    (flat_map (fun u => map (fun v => (u, v)) (centred res_y)) (centred res_x)) (view_rays rot fl res_x res_y).
Proof.
  intros rot fl res_x res_y F B Hx Hy Ex Ey. unfold view_rays. rewrite !pixel_range_even by (lia || assumption).
  assert (Cen : forall n u, (0 <= n <= 2 ^ 22)%Z -> In u (centred n) -> (Z.abs u <= 2 ^ 22)%Z).
  { intros n u Hn I. unfold centred in I. apply in_map_iff in I. destruct I as (k & <- & I). apply in_seq in I. pose proof (Z.div_pos n 2 ltac:(lia) ltac:(lia)).
    pose proof (Z.mul_div_le n 2 ltac:(lia)). lia. }
  assert (Len : forall n, (0 <= n)%Z -> Z.of_nat (length (centred n)) = n) by (intros n Hn; unfold centred; rewrite map_length, seq_length; lia).
  split.
  - transitivity (Z.of_nat (length (centred res_x)) * Z.of_nat (length (centred res_y)))%Z; [|rewrite !Len by lia; reflexivity].
    induction (centred res_x) as [|u us IH]; [reflexivity|]. cbn [flat_map length]. rewrite app_length, map_length, Nat2Z.inj_add, IH, Nat2Z.inj_succ. lia.
  - assert (IX : forall u, In u (centred res_x) -> (Z.abs u <= 2 ^ 22)%Z) by (intros u; apply Cen; exact Hx).
    assert (IY : forall u, In u (centred res_y) -> (Z.abs u <= 2 ^ 22)%Z) by (intros u; apply Cen; exact Hy). clear Cen Len.
    induction (centred res_x) as [|u us IH]; [constructor|]. cbn [flat_map]. apply Forall2_app; [|apply IH; intros w Hw; apply IX; right; exact Hw].
    assert (HU := IX u ltac:(left; reflexivity)). clear IH IX. induction (centred res_y) as [|v vs IHv]; [constructor|]. cbn [map]. constructor; [|apply IHv; intros w Hw; apply IY; right; exact Hw].
    destruct (ray_ok fl u v HU (IY v ltac:(left; reflexivity)) F B) as (a & b & A1 & A2 & A3). cbn [fst snd]. exists a, b. eexists. split; [exact A1|]. split; [exact A2|]. split; [exact A3|]. reflexivity.
Qed.
Print Assumptions C97_rays_partial.
(** An image of odd width or height is short of a column or a row. *)
Theorem C97_odd_refuted : forall rot fl res_x res_y, (0 < res_x)%Z -> (0 < res_y)%Z -> (res_x mod 2 = 1 \/ res_y mod 2 = 1)%Z ->
  (Z.of_nat (length (view_rays rot fl res_x res_y)) < res_x * res_y)%Z.
Proof.
  intros rot fl res_x res_y Hx Hy Odd. unfold view_rays.
  assert (E : Z.of_nat (length (flat_map (fun u => map (fun v => ray_direction rot fl u v) (pixel_range res_y)) (pixel_range res_x))) =
              (Z.of_nat (length (pixel_range res_x)) * Z.of_nat (length (pixel_range res_y)))%Z).
  { induction (pixel_range res_x) as [|u us IH]; [reflexivity|]. cbn [flat_map length]. rewrite app_length, map_length, Nat2Z.inj_add, IH, Nat2Z.inj_succ. lia. }
  rewrite E, !pixel_range_length by lia. pose proof (Z.div_mod res_x 2 ltac:(lia)) as Dx. pose proof (Z.div_mod res_y 2 ltac:(lia)) as Dy.
  pose proof (Z.mod_pos_bound res_x 2 ltac:(lia)). pose proof (Z.mod_pos_bound res_y 2 ltac:(lia)).
  pose proof (Z.div_pos res_x 2 ltac:(lia) ltac:(lia)). pose proof (Z.div_pos res_y 2 ltac:(lia) ltac:(lia)).
  set (a := (res_x / 2)%Z) in *. set (b := (res_y / 2)%Z) in *. destruct Odd as [O|O].
  - apply Z.le_lt_trans with (2 * a * res_y)%Z; [apply Z.mul_le_mono_nonneg_l; lia|]. apply Z.mul_lt_mono_pos_r; lia.
  - apply Z.le_lt_trans with (res_x * (2 * b))%Z; [apply Z.mul_le_mono_nonneg_r; lia|]. apply Z.mul_lt_mono_pos_l; lia.
Qed.
Print Assumptions C97_odd_refuted.

(** The noisy view has the readings of the clean view, in order: same colour, same ray, and the
    distance changed by the noise drawn for it, but never behind the camera. *)
Theorem C97_noisy : forall w org rot fl res_x res_y m noise, ffin m = true -> FR m <= bpow radix2 100 -> (forall n, fin_upto 100 (noise n)) ->
  let clean := clean_view w org rot fl res_x res_y m in
  let noisy := noisy_view w org rot fl res_x res_y m noise in
  length noisy = length clean /\
  forall n c, nth_error clean n = Some c -> exists c', nth_error noisy n = Some c' /\ noisy_reading (view_rays rot fl res_x res_y) org (noise n) c c'.
Proof. intros. exact (noisy_pixels_ok w org m noise (view_rays rot fl res_x res_y) 0 H H0 H1). Qed.
Print Assumptions C97_noisy.
(** Without noise it is the clean view. *)
Theorem C97_no_noise : forall w org rot fl res_x res_y m noise, ffin m = true -> FR m <= bpow radix2 100 -> (forall n, ffin (noise n) = true /\ FR (noise n) = 0) ->
  Forall2 same_reading (noisy_view w org rot fl res_x res_y m noise) (clean_view w org rot fl res_x res_y m).
Proof.
  intros w org rot fl res_x res_y m noise Fm Bm HN.
  destruct (noisy_pixels_ok w org m noise (view_rays rot fl res_x res_y) 0 Fm Bm) as (L & H).
  { intros n. destruct (HN n) as (F & E). split; [exact F|]. rewrite E, Rabs_R0. apply bpow_ge_0. }
  unfold noisy_view, clean_view. set (a := noisy_pixels _ _ _ _ _ _) in *. set (b := getPointcloudFromViewpoint _ _ _ _) in *.
  assert (P : forall n x y, nth_error a n = Some x -> nth_error b n = Some y -> same_reading x y).
  { intros n x y X Y. destruct (H n y Y) as (c' & C & S & d & t & t' & _ & T1 & T2 & Ft & T0 & Ft' & Et). assert (c' = x) by congruence. subst c'.
    destruct (HN (0 + n)%nat) as (_ & E0). rewrite E0, Rplus_0_r, rnd32_FR, Rmax_right in Et by exact T0.
    split; [exact S|]. rewrite T1, T2. unfold ray_at, zip3. cbn [vx vy vz]. repeat split; apply zero_noise_ray; assumption. }
  clearbody a b. clear H. revert b L P. induction a as [|x a IH]; intros [|y b] L P; try discriminate L; [constructor|].
  constructor; [exact (P 0%nat x y eq_refl eq_refl)|]. apply IH; [cbn in L; lia|]. intros n x' y' X Y. exact (P (S n) x' y' X Y).
Qed.
Print Assumptions C97_no_noise.

(** From a pose, the two do not look the same way: clean views look along the x axis of the pose, noisy
    ones along its z axis. With the identity pose, exact rotations and no noise, a sphere ahead is seen in
    one and not in the other. *)
Theorem C97_pose_refuted : forall turn,
  (forall p, turn (V3 f1 f0 f0) (V3 f1 f0 f0) p = p) -> (forall p, turn (V3 f1 f0 f0) (V3 f0 f0 f1) p = V3 (fneg (vz p)) (vy p) (vx p)) ->
  exists w fl m, let pose := (fun p : pt3 => p, V3 f0 f0 f0) in
  clean_from_pose turn w pose fl 2 2 m <> [] /\ noisy_from_pose turn w pose fl 2 2 m (fun _ => f0) = [].
Proof.
  intros turn H1 H2. apply functional_extensionality in H1. apply functional_extensionality in H2.
  exists [MkObject (Sphere (V3 (f32_of_Z 5) f0 f0) f1) (MkColor 1 2 3 255)], f1, (f32_of_Z 20). cbv zeta. unfold clean_from_pose, noisy_from_pose, x_axis, z_axis.
  cbn [fst snd]. rewrite H1, H2. split.
  - intros H. apply (f_equal (@length _)) in H. vm_compute in H. discriminate H.
  - vm_compute. reflexivity.
Qed.
(** such rotations exist *)
Definition turn_ex (a b p : pt3) : pt3 := if fword (vx b) =? fword f1 then p else V3 (fneg (vz p)) (vy p) (vx p).
Example C97_pose_case : (forall p, turn_ex (V3 f1 f0 f0) (V3 f1 f0 f0) p = p) /\ (forall p, turn_ex (V3 f1 f0 f0) (V3 f0 f0 f1) p = V3 (fneg (vz p)) (vy p) (vx p)).
Proof. split; intros p; reflexivity. Qed.
Print Assumptions C97_pose_refuted.
(** a view of a sphere; a reading moved by a quarter, and one that would be behind the camera *)
Definition ex_view (noise : nat -> f32) : list (pt3 * Color) :=
  noisy_view [MkObject (Sphere (V3 (f32_of_Z 5) f0 f0) f1) (MkColor 1 2 3 255)] (V3 f0 f0 f0) (fun p => p) f1 2 2 (f32_of_Z 20) noise.
Example C97_case :
  map (fun c => (fword (vx (fst c)), snd c)) (ex_view (fun _ => f32_lit 1 (-2))) = [(fword (f32_lit 17 (-2)), MkColor 1 2 3 255)] /\
  map (fun c => fword (vx (fst c))) (ex_view (fun _ => f32_of_Z (-9))) = [fword f0].
Proof. vm_compute. split; reflexivity. Qed.

(** ** C98 *)
(** Adding a ground level adds the height above it to the distances the world takes the smallest of. *)
Theorem C98_ground : forall h w p m, ffin h = true -> fin3 p -> Rabs (FR (vz p) - FR h) <= bpow radix2 120 ->
  exists d, ffin d = true /\ FR d = rnd32 (FR (vz p) - FR h) /\
    getDistanceToPoint (addGroundLevel h w) p m = (if flt d (getDistanceToPoint w p m) then d else getDistanceToPoint w p m).
Proof.
  intros h w p m Fh Fp B.
  destruct (axis_plane f1 (V3 f0 f0 f1) vz (V3 f0 f0 h) p (ax_z f1) ltac:(left; reflexivity)) as (F & E); [unfold fin3; auto|exact Fp|exact B|].
  cbn [vz] in E. rewrite f1_R, Rmult_1_l in E.
  exists (obj_dist (PlaneObject (V3 f0 f0 h) (V3 f0 f0 f1)) p). split; [exact F|]. split; [exact E|].
  unfold getDistanceToPoint, addGroundLevel. rewrite fold_left_app. reflexivity.
Qed.
Print Assumptions C98_ground.
(** Four walls: the distance to the nearest one, or the maximum; positive exactly strictly between them. *)
Theorem C98_walls : forall x0 x1 y0 y1 p m,
  ffin x0 = true -> ffin x1 = true -> ffin y0 = true -> ffin y1 = true -> fin3 p -> ffin m = true ->
  Rabs (FR (vx p) - FR x0) <= bpow radix2 120 -> Rabs (FR (vx p) - FR x1) <= bpow radix2 120 ->
  Rabs (FR (vy p) - FR y0) <= bpow radix2 120 -> Rabs (FR (vy p) - FR y1) <= bpow radix2 120 ->
  let d := getDistanceToPoint (addPlaneBoundaries x0 x1 y0 y1 []) p m in
  ffin d = true /\
  FR d = Rmin (Rmin (Rmin (Rmin (FR m) (rnd32 (FR (vx p) - FR x0))) (rnd32 (FR x1 - FR (vx p)))) (rnd32 (FR (vy p) - FR y0))) (rnd32 (FR y1 - FR (vy p))) /\
  (0 < FR m -> (0 < FR d <-> FR x0 < FR (vx p) < FR x1 /\ FR y0 < FR (vy p) < FR y1)).
Proof.
  intros x0 x1 y0 y1 p m Fx0 Fx1 Fy0 Fy1 Fp Fm B1 B2 B3 B4. pose proof Fp as (Px & Py & Pz).
  assert (Z0 : ffin f0 = true) by reflexivity.
  destruct (axis_plane f1 (V3 f1 f0 f0) vx (V3 x0 f0 f0) p (ax_x f1) ltac:(left; reflexivity) (conj Fx0 (conj Z0 Z0)) Fp B1) as (F1 & E1).
  destruct (axis_plane (fneg f1) (V3 (fneg f1) f0 f0) vx (V3 x1 f0 f0) p (ax_x (fneg f1)) ltac:(right; reflexivity) (conj Fx1 (conj Z0 Z0)) Fp B2) as (F2 & E2).
  destruct (axis_plane f1 (V3 f0 f1 f0) vy (V3 f0 y0 f0) p (ax_y f1) ltac:(left; reflexivity) (conj Z0 (conj Fy0 Z0)) Fp B3) as (F3 & E3).
  destruct (axis_plane (fneg f1) (V3 f0 (fneg f1) f0) vy (V3 f0 y1 f0) p (ax_y (fneg f1)) ltac:(right; reflexivity) (conj Z0 (conj Fy1 Z0)) Fp B4) as (F4 & E4).
  cbn [vx vy] in E1, E2, E3, E4. assert (N1 : FR (fneg f1) = - (1)) by (rewrite <- f1_R; apply fneg_R). rewrite f1_R, Rmult_1_l in E1, E3. rewrite N1 in E2, E4.
  replace (- (1) * (FR (vx p) - FR x1)) with (FR x1 - FR (vx p)) in E2 by ring. replace (- (1) * (FR (vy p) - FR y1)) with (FR y1 - FR (vy p)) in E4 by ring.
  intros d. subst d. unfold getDistanceToPoint, addPlaneBoundaries. cbn [app fold_left].
  set (o1 := MkObject _ _). set (o2 := MkObject _ _). set (o3 := MkObject _ _). set (o4 := MkObject _ _).
  destruct (closer_min p m o1 Fm F1) as (G1 & M1). destruct (closer_min p _ o2 G1 F2) as (G2 & M2).
  destruct (closer_min p _ o3 G2 F3) as (G3 & M3). destruct (closer_min p _ o4 G3 F4) as (G4 & M4).
  unfold o1, o2, o3, o4 in M1, M2, M3, M4. cbn [o_shape] in M1, M2, M3, M4. fold o1 in M1, M2, M3, M4. fold o2 in M2, M3, M4. fold o3 in M3, M4. fold o4 in M4.
  split; [exact G4|].
  rewrite E1 in M1. rewrite M1, E2 in M2. rewrite M2, E3 in M3. rewrite M3, E4 in M4. split; [exact M4|].
  intros Hm. rewrite M4. pose proof (rnd_sub_pos (vx p) x0 Px Fx0) as S1. pose proof (rnd_sub_pos x1 (vx p) Fx1 Px) as S2.
  pose proof (rnd_sub_pos (vy p) y0 Py Fy0) as S3. pose proof (rnd_sub_pos y1 (vy p) Fy1 Py) as S4.
  assert (MP : forall a b, 0 < Rmin a b <-> 0 < a /\ 0 < b) by (intros a b; split; [intros H; pose proof (Rmin_l a b); pose proof (Rmin_r a b); lra|intros (U & V); apply Rmin_glb_lt; assumption]).
  rewrite !MP. tauto.
Qed.
Print Assumptions C98_walls.
Example C98_case :
  fword (getDistanceToPoint (addPlaneBoundaries (f32_of_Z (-2)) (f32_of_Z 2) (f32_of_Z (-3)) (f32_of_Z 3) []) (V3 f1 f0 f0) (f32_of_Z 9)) = fword f1 /\
  fword (getDistanceToPoint (addGroundLevel (f32_of_Z (-2)) []) (V3 f1 f0 f1) (f32_of_Z 9)) = fword (f32_of_Z 3).
Proof. vm_compute. split; reflexivity. Qed.
