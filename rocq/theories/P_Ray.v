(** Properties C24 and C25: ray casting. *)
From Coq Require Import ZArith Reals List Bool Lia Lra.
From Flocq Require Import Core IEEE754.Binary.
From Verif Require Import F32 F32_lemmas Types Index Layer Update Ray Ray_spec Ray_proofs Cross_proofs.
Import ListNotations.
Open Scope Z_scope.

(** C24. Whatever the object contained before, casting a ray between two points
    that have a voxel index terminates and returns the start voxel, then one voxel
    per grid step between the two voxels; from one to the next at most one
    coordinate changes, by one, in the direction of the ray. *)
Theorem C24_ray_chain : forall garbage start end_ vs ve,
  getGridIndexFromScaledPoint start = Some vs -> getGridIndexFromScaledPoint end_ = Some ve ->
  manhattan vs ve < 2 ^ 32 - 1 ->
  exists voxels,
    (forall fuel, (Z.to_nat (manhattan vs ve) + 2 <= fuel)%nat -> castRay fuel garbage start end_ = Ok (Some voxels)) /\
    length voxels = S (Z.to_nat (manhattan vs ve)) /\ hd_error voxels = Some vs /\
    chain (step_of (direction start end_)) voxels.
Proof. exact ray_chain. Qed.
Print Assumptions C24_ray_chain.

Definition ex_pt (a b c : Z) : pt3 := V3 (f32_lit a (-2)) (f32_lit b (-2)) (f32_lit c (-2)).
Definition ex_garbage : caster := MkRC (V3 f0 f0 f0) (V3 0 0 0) (V3 0 0 0) (V3 f0 f0 f0) 7 3.
Example C24_example :
  getGridIndexFromScaledPoint (ex_pt 2 2 2) = Some (V3 0 0 0) /\
  getGridIndexFromScaledPoint (ex_pt 18 (-13) 6) = Some (V3 4 (-4) 1) /\
  manhattan (V3 0 0 0) (V3 4 (-4) 1) = 9 /\
  castRay 11 ex_garbage (ex_pt 2 2 2) (ex_pt 18 (-13) 6) =
    Ok (Some [V3 0 0 0; V3 1 0 0; V3 1 (-1) 0; V3 2 (-1) 0; V3 2 (-2) 0; V3 2 (-2) 1; V3 3 (-2) 1;
              V3 3 (-3) 1; V3 4 (-3) 1; V3 4 (-4) 1]).
Proof. repeat split; vm_compute; reflexivity. Qed.

(** A ray with a NaN coordinate does not yield nothing: the step counter is left
    uninitialised, and what is returned depends on what it happens to contain. *)
Theorem C24_nan_ray_refuted : exists garbage1 garbage2 start end_,
  pt_nan start = true /\
  castRay 2 garbage1 start end_ = Ok (Some []) /\
  castRay 2 garbage2 start end_ = Ok (Some [V3 42 42 42]).
Proof.
  exists ex_garbage, (MkRC (V3 f0 f0 f0) (V3 42 42 42) (V3 0 0 0) (V3 f0 f0 f0) 7 0), (V3 nan32 f0 f0), (V3 f0 f0 f0).
  repeat split; vm_compute; reflexivity.
Qed.
Print Assumptions C24_nan_ray_refuted.

(** C25 (partial). For points up to 2^20 voxels from the origin, a ray none of
    whose components vanishes, at most 2000 grid steps long and ending at least
    [slack] inside its voxel: the last voxel returned is the voxel of the end point
    and a point of the segment lies in, or within [slack] of, every voxel returned.
    [slack n] is (n + 4)^2 / 2^24 + 3e-6 voxels. Missing: rays with a vanishing
    component and end points near the border of their voxel, for which the claim is
    false, see below. *)
Theorem C25_ray_reaches_end_partial : forall garbage start end_ vs ve fuel voxels,
  scaled_ok start -> scaled_ok end_ -> oblique start end_ ->
  getGridIndexFromScaledPoint start = Some vs -> getGridIndexFromScaledPoint end_ = Some ve ->
  manhattan vs ve <= 2000 -> well_inside (slack (manhattan vs ve)) end_ ve ->
  castRay fuel garbage start end_ = Ok (Some voxels) ->
  last voxels vs = ve /\ forall v, In v voxels -> segment_meets (slack (manhattan vs ve)) start end_ v.
Proof.
  intros g s e vs ve fuel l Os Oe Ob Hs He HL W Hl.
  destruct (ray_chain g s e vs ve Hs He ltac:(lia)) as (l' & A & B & _).
  assert (E : l = l').
  { unfold castRay in Hl, A. destruct (setupRayCaster g s e) as [c| |]; try discriminate. cbn [rbind] in Hl, A. injection Hl as Hl.
    specialize (A _ (le_n _)). injection A as A. revert A Hl. clear. revert c l l' fuel.
    generalize (Z.to_nat (manhattan vs ve) + 2)%nat as f1. induction f1 as [|f1 IH]; intros c l l' f2 A Hl; [discriminate|].
    destruct f2 as [|f2]; [discriminate|]. cbn [cast_loop] in A, Hl. destruct (nextRayIndex c) as [c' [i|]]; [|congruence].
    destruct (cast_loop f1 c') as [m|] eqn:Em; [|discriminate]. destruct (cast_loop f2 c') as [n|] eqn:En; [|discriminate].
    injection A as <-. injection Hl as <-. f_equal. exact (IH c' n m f2 Em En). }
  subst l'. destruct (ray_covers s e vs ve Os Oe Ob Hs He HL W g fuel l Hl B) as (X & Y). split; auto.
  clear - X B. set (n := Z.to_nat _) in *. revert l B X. induction n as [|n IH]; intros l B X.
  - destruct l as [|a [|b l]]; try discriminate. cbn in X |- *. congruence.
  - destruct l as [|a l]; [discriminate|]. cbn in X, B. destruct l as [|b l]; [discriminate|].
    change (last (a :: b :: l) vs) with (last (b :: l) vs). apply IH; auto.
Qed.
Print Assumptions C25_ray_reaches_end_partial.

Lemma ex_coord : forall z, -1000 <= z <= 1000 -> ffin (f32_lit z (-2)) = true /\ FR (f32_lit z (-2)) = (IZR z / 4)%R.
Proof.
  intros z Hz. assert (E : rnd32 (IZR z * bpow radix2 (-2)) = (IZR z * bpow radix2 (-2))%R) by (apply rnd32_exact; lia).
  assert (B : (IZR (-1000) <= IZR z <= IZR 1000)%R) by (split; apply IZR_le; lia).
  destruct (f32_lit_R z (-2)) as (F & R).
  - rewrite E. unfold max32. apply Rle_lt_trans with (bpow radix2 10); [|apply bpow_lt; lia].
    change (bpow radix2 (-2)) with (/ 4)%R. change (bpow radix2 10) with 1024%R. apply Rabs_le. lra.
  - split; auto. rewrite F. rewrite E. change (bpow radix2 (-2)) with (/ 4)%R. reflexivity.
Qed.
Example C25_example : exists s e vs ve voxels,
  scaled_ok s /\ scaled_ok e /\ oblique s e /\
  getGridIndexFromScaledPoint s = Some vs /\ getGridIndexFromScaledPoint e = Some ve /\ manhattan vs ve = 9 /\
  well_inside (slack (manhattan vs ve)) e ve /\ castRay 11 ex_garbage s e = Ok (Some voxels) /\ length voxels = 10%nat.
Proof.
  exists (ex_pt 2 2 2), (ex_pt 18 (-13) 6), (V3 0 0 0), (V3 4 (-4) 1).
  eexists. destruct C24_example as (A & B & C & D).
  destruct (ex_coord 2 ltac:(lia)) as (F2 & R2). destruct (ex_coord 18 ltac:(lia)) as (F18 & R18).
  destruct (ex_coord (-13) ltac:(lia)) as (F13 & R13). destruct (ex_coord 6 ltac:(lia)) as (F6 & R6).
  assert (K : (bpow radix2 (-60) <= 1)%R) by (change 1%R with (bpow radix2 0); apply bpow_le; lia).
  unfold scaled_ok, oblique, well_inside, all3, ex_pt. cbn [vx vy vz]. rewrite R2, R18, R13, R6, F2, F18, F13, F6, C.
  split; [|split; [|split; [|split; [exact A|split; [exact B|split; [reflexivity|split; [|split; [exact D|reflexivity]]]]]]]].
  - repeat split; apply Rabs_le; lra.
  - repeat split; apply Rabs_le; lra.
  - repeat split; eapply Rle_trans; try exact K.
    + rewrite Rabs_pos_eq; lra.
    + rewrite <- Rabs_Ropp, Rabs_pos_eq; lra.
    + rewrite Rabs_pos_eq; lra.
  - unfold slack. lra.
Qed.

(** Rays parallel to the plane x = const never leave their first voxel, wherever
    they end (unless they start within 1e-6 below a voxel border). *)
Theorem C25_constant_x_refuted : forall garbage start end_ vs ve fuel voxels,
  getGridIndexFromScaledPoint start = Some vs -> getGridIndexFromScaledPoint end_ = Some ve ->
  manhattan vs ve < 2 ^ 32 - 1 ->
  FR (vx start) = FR (vx end_) -> (IZR (vx vs) <= FR (vx start))%R -> (Rabs (FR (vx start)) <= 1048576)%R ->
  castRay fuel garbage start end_ = Ok (Some voxels) ->
  forall v, In v voxels -> v = vs.
Proof. exact ray_stuck. Qed.
Print Assumptions C25_constant_x_refuted.
Example C25_constant_x_example :
  castRay 7 ex_garbage (ex_pt 2 2 2) (ex_pt 2 2 22) =
    Ok (Some [V3 0 0 0; V3 0 0 0; V3 0 0 0; V3 0 0 0; V3 0 0 0; V3 0 0 0]) /\
  getGridIndexFromScaledPoint (ex_pt 2 2 22) = Some (V3 0 0 5).
Proof. split; vm_compute; reflexivity. Qed.
(** a ray with constant y wastes a step and stops one voxel short *)
Theorem C25_constant_y_refuted : exists start end_ voxels ve,
  getGridIndexFromScaledPoint end_ = Some ve /\ castRay 7 ex_garbage start end_ = Ok (Some voxels) /\
  (forall v, In v voxels -> v <> ve).
Proof.
  exists (ex_pt 2 2 2), (ex_pt 18 2 5), [V3 0 0 0; V3 0 0 0; V3 1 0 0; V3 2 0 0; V3 3 0 0; V3 3 0 1], (V3 4 0 1).
  repeat split; try (vm_compute; reflexivity).
  intros v Hv. cbn in Hv. intuition (subst; discriminate).
Qed.
Print Assumptions C25_constant_y_refuted.
(** an oblique ray whose end is within 1e-6 of a border stops in another voxel *)
Theorem C25_border_refuted : exists start end_ voxels ve,
  getGridIndexFromScaledPoint end_ = Some ve /\ castRay 7 ex_garbage start end_ = Ok (Some voxels) /\
  direction start end_ = V3 1 1 (-1) /\ (forall v, In v voxels -> v <> ve).
Proof.
  exists (ex_pt 2 (-14) 2), (V3 (f32_lit (2 ^ 24 - 8) (-24)) (f32_lit (2 ^ 24 - 20) (-24)) (f32_lit 1 (-2))),
    [V3 0 (-4) 0; V3 0 (-3) 0; V3 0 (-2) 0; V3 0 (-1) 0; V3 0 0 0; V3 0 1 0], (V3 1 0 0).
  split; [vm_compute; reflexivity|]. split; [vm_compute; reflexivity|]. split.
  - edestruct direction_signs as (<- & _); vm_compute; reflexivity.
  - intros v Hv. cbn in Hv. intuition (subst; discriminate).
Qed.
Print Assumptions C25_border_refuted.
