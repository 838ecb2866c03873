(** Property C73: where the ray of a measurement begins and ends. *)
From Coq Require Import ZArith Reals List Bool Lia Lra.
From Flocq Require Import Core.
From Verif Require Import F32 F32_lemmas Types Index Layer Update Update_spec Merge_proofs Ray Ray_spec Ray_proofs RayEnds_spec RayEnds_proofs.
Import ListNotations.
Open Scope R_scope.

(** C73. Casting the ray of a point visits, first, the voxel that contains the near end of the ray (or
    its far end when the ray is cast towards the sensor) and as many voxels as there are grid steps to
    the voxel that contains its other end, each up to [ray_slack] voxels of rounding. The ends are those
    of [ray_near] and [ray_far]. *)
Theorem C73_ray_ends : forall garbage o p clearing carving L inv T (from_sensor : bool), ray_args o p T L inv ->
  let near := ray_near clearing carving (FR T) (FR L) o p in
  let far := ray_far clearing (FR T) (FR L) o p in
  exists first last voxels,
    in_voxel (ray_slack o p T inv) (FR inv) (if from_sensor then near else far) first /\
    in_voxel (ray_slack o p T inv) (FR inv) (if from_sensor then far else near) last /\
    (forall fuel, (Z.to_nat (manhattan first last) + 2 <= fuel)%nat ->
       rbind (RayCaster_new garbage o p clearing carving L inv T from_sensor) (fun c => Ok (cast_loop fuel c)) = Ok (Some voxels)) /\
    length voxels = S (Z.to_nat (manhattan first last)) /\ hd_error voxels = Some first.
Proof.
  intros g o p cl ca L inv T fs A near far.
  destruct (ends_ok o p T L inv A cl ca) as (s & e & E & Gs & Ge). destruct (S_facts o p T L inv A) as (S1 & S2 & _).
  assert (S3 : sumS o p T <= bpow radix2 20) by (eapply Rle_trans; [exact S2|]; apply bpow_le; lia).
  pose proof A as (_ & _ & _ & _ & _ & _ & Fi & Hi & _).
  assert (SI : sumS o p T * FR inv <= bpow radix2 28).
  { change 28%Z with (18 + 10)%Z. rewrite bpow_plus. pose proof (bpow_gt_0 radix2 (-20)). apply Rmult_le_compat; lra. }
  destruct (good_voxel _ s _ inv S1 S3 Gs Fi Hi SI) as (vs & Vs & Bs & Is).
  destruct (good_voxel _ e _ inv S1 S3 Ge Fi Hi SI) as (ve & Ve & Be & Ie).
  destruct Bs as (X1 & X2 & X3), Be as (Y1 & Y2 & Y3).
  assert (M1 : (manhattan vs ve < 2 ^ 32 - 1)%Z) by (unfold manhattan; lia).
  assert (M2 : (manhattan ve vs < 2 ^ 32 - 1)%Z) by (unfold manhattan; lia).
  unfold RayCaster_new. rewrite E. destruct fs.
  - destruct (ray_chain g _ _ vs ve Vs Ve M1) as (l & C & Len & H & _).
    exists vs, ve, l. split; [exact Is|]. split; [exact Ie|]. split; [exact C|]. auto.
  - destruct (ray_chain g _ _ ve vs Ve Vs M2) as (l & C & Len & H & _).
    exists ve, vs, l. split; [exact Ie|]. split; [exact Is|]. split; [exact C|]. auto.
Qed.
Print Assumptions C73_ray_ends.

(** sensor at the origin, point at (3, 4, 0) m, truncation 2 m, maximum length 4 m, voxels of 1 m *)
Definition re_o : pt3 := V3 f0 f0 f0.
Definition re_p : pt3 := V3 (f32_of_Z 3) (f32_of_Z 4) f0.
Example C73_example : ray_args re_o re_p (f32_of_Z 2) (f32_of_Z 4) f1 /\
  ray_far false (FR (f32_of_Z 2)) (FR (f32_of_Z 4)) re_o re_p = V3 (3 + 2 * (3 / 5)) (4 + 2 * (4 / 5)) (0 + 2 * (0 / 5)) /\
  ray_far true (FR (f32_of_Z 2)) (FR (f32_of_Z 4)) re_o re_p = V3 (0 + 3 * (3 / 5)) (0 + 3 * (4 / 5)) (0 + 3 * (0 / 5)).
Proof.
  destruct (f32_of_Z_R 1 ltac:(lia)) as (A1 & B1), (f32_of_Z_R 2 ltac:(lia)) as (A2 & B2), (f32_of_Z_R 3 ltac:(lia)) as (A3 & B3), (f32_of_Z_R 4 ltac:(lia)) as (A4 & B4).
  fold f1 in A1, B1.
  assert (U : forall f z, FR f = IZR z -> ffin f = true -> (0 <= z <= 4)%Z -> fin_upto 15 f).
  { intros f z E F H. split; auto. rewrite E, Rabs_pos_eq by (apply IZR_le; lia). change (bpow radix2 15) with (IZR 32768). apply IZR_le. lia. }
  assert (U0 : fin_upto 15 f0) by (apply (U f0 0%Z); auto; lia).
  assert (D : sub3R re_p re_o = V3 3 4 0).
  { unfold sub3R, re_p, re_o. cbn [vx vy vz]. rewrite A3, A4. change (FR f0) with 0. f_equal; ring. }
  assert (N : normR (sub3R re_p re_o) = 5). { rewrite D. unfold normR, dotR. cbn [vx vy vz]. replace (3 * 3 + 4 * 4 + 0 * 0) with (5 * 5) by ring. apply sqrt_square. lra. }
  assert (P20 : bpow radix2 (-20) <= 1) by (change 1 with (bpow radix2 0); apply bpow_le; lia).
  split; [|split].
  - unfold ray_args. rewrite N, A1, A2, A4. repeat split; try apply U0; try (apply (U _ 2%Z A2); auto; lia); try (apply (U _ 3%Z A3); auto; lia); try (apply (U _ 4%Z A4); auto; lia); try lra; try exact B1.
    change (bpow radix2 10) with 1024. lra.
  - unfold ray_far, further. rewrite N, D, A2. unfold re_p. cbn [vx vy vz]. rewrite A3, A4. change (FR f0) with 0. reflexivity.
  - unfold ray_far, further. rewrite N, D, A2, A4. unfold re_o. cbn [vx vy vz]. change (FR f0) with 0.
    replace (Rmin (Rmax (5 - 2) 0) 4) with 3; [reflexivity|]. rewrite Rmax_left by lra. rewrite Rmin_left; lra.
Qed.
