(** C53 (intensity integration) and C67 (casting a ray onto the surface). *)
From Coq Require Import ZArith Reals List Bool Lia Lra.
From Flocq Require Import Core Binary.
From Verif Require Import F32 F32_lemmas Types Index Voxel Serialize Assoc Layer Threads Planning Ray
  Assoc_lemmas Connect_proofs Intensity Intensity_spec Intensity_proofs.
Import ListNotations.
Open Scope Z_scope.

(** C67. A cast with a range of at most 2^22 voxels ends. *)
Theorem C67_terminates : forall l o bearing max_d,
  ffin (l_size l) = true -> (0 < FR (l_size l) <= bpow radix2 100)%R ->
  ffin max_d = true -> (FR max_d <= FR (l_size l) * 4194304)%R ->
  exists fuel0, forall fuel, (fuel0 <= fuel)%nat ->
    getSurfaceDistanceAlongRay fuel l o bearing max_d <> Ok None.
Proof.
  intros l o bearing max_d Fs S0 Fm M.
  exists (Z.to_nat (2 ^ 23)). intros fuel Hf H. unfold getSurfaceDistanceAlongRay in H.
  apply rbind_ok in H. destruct H as (r & A & H). destruct r as [[t|]|]; try discriminate.
  revert A. apply march_ends; auto; [cbn; lra|]. change (FR f0) with 0%R.
  assert (INR fuel >= 8388608)%R.
  { apply Rle_ge. apply le_INR in Hf. rewrite INR_IZR_INZ, Z2Nat.id in Hf by lia. exact Hf. }
  nra.
Qed.
Print Assumptions C67_terminates.

(** C67. A reported intersection is a point of the ray, at most two voxel sides past a
    sample of the ray within the range at which the layer has an observed voxel closer
    to the surface than one voxel side. *)
Theorem C67_found : forall fuel l o bearing max_d p, regular l ->
  ffin (l_size l) = true -> (0 < FR (l_size l) <= bpow radix2 100)%R ->
  ffin max_d = true -> (FR max_d <= FR (l_size l) * 4194304)%R ->
  getSurfaceDistanceAlongRay fuel l o bearing max_d = Ok (Some (Some p)) ->
  exists t0 t, p = along o (normalized3 bearing) t /\
    near_surface l (along o (normalized3 bearing) t0) /\
    ffin t0 = true /\ ffin t = true /\
    (0 <= FR t0 < FR max_d /\ FR t0 <= FR t <= FR t0 + 2 * FR (l_size l))%R.
Proof.
  intros fuel l o bearing max_d p R Fs S0 Fm M H. unfold getSurfaceDistanceAlongRay in H.
  apply rbind_ok in H. destruct H as (r & A & H). destruct r as [[t|]|]; try discriminate.
  injection H as <-.
  destruct (march_found l o (normalized3 bearing) max_d Fs S0 Fm M _ f0 _ eq_refl ltac:(cbn; lra) A) as (t0 & F0 & T0 & St).
  change (FR f0) with 0%R in T0.
  destruct (found_step l o (normalized3 bearing) max_d Fs S0 M t0 t R F0 T0 St) as (N & F & B).
  exists t0, t. auto 10.
Qed.
Print Assumptions C67_found.

(** C53. What one reading changes: the voxel of the intersection gets the weighted
    mean and one more weight (at most 100); any other changed voxel had never been
    seen, gets the reading with weight one, and is the voxel of one of five points on
    the ray, clamped into the block of the intersection. When those points all lie in
    that block, every changed voxel is the one that contains the point. *)
Theorem C53_writes_partial : forall l l' s surface bearing x, regular l -> weights_ok l ->
  mark_surface l s surface bearing x = Ok l' ->
  regular l' /\ weights_ok l' /\
  exists bi a0 n, computeBlockIndexFromCoordinates (l_vps l) (l_size l) surface = Some bi /\
    home l surface a0 /\ 0 <= n <= 100 /\
    weight_is (content l a0) n /\ weight_is (content l' a0) (Z.min (n + 1) 100) /\
    i_intensity (content l' a0) =
      fdiv (fadd (fmul (i_weight (content l a0)) (i_intensity (content l a0))) x)
           (fadd (i_weight (content l a0)) f1) /\
    forall a, a <> a0 -> content l' a = content l a \/
      (weight_is (content l a) 0 /\ i_intensity (content l' a) = x /\ weight_is (content l' a) 1 /\
       exists k, -2 <= k <= 2 /\
         let p := zip3 (fun c b => fadd c (fmul (fmul b (f32_of_Z k)) s)) surface bearing in
         clamped_addr l bi p a /\
         (computeBlockIndexFromCoordinates (l_vps l) (l_size l) p = Some bi -> home l p a)).
Proof.
  intros l l' s surface bearing x R W H.
  destruct (mark_surface_ok _ _ _ _ _ _ R W H) as (R' & W' & _ & _ & bi & a0 & n & B & A & Hn & W0 & W1 & C & O).
  split; [exact R'|]. split; [exact W'|]. exists bi, a0, n. split; [exact B|]. split; [exists bi; auto|].
  split; [exact Hn|]. split; [exact W0|]. split; [exact W1|]. split; [rewrite C; reflexivity|].
  intros a N. destruct (O a N) as [E|(Q1 & Q2 & Q3 & p & (k & K & Ep) & Q4)]; [left; exact E|].
  right. split; [exact Q1|]. split; [exact Q2|]. split; [exact Q3|]. exists k.
  split; [cbn in K; intuition lia|]. cbv zeta.
  change (zip3 (fun c b => fadd c (fmul (fmul b (f32_of_Z k)) s)) surface bearing)
    with (close_point surface bearing s k). rewrite <- Ep.
  split; [exact Q4|]. intros Hb. exists bi; auto.
Qed.
Print Assumptions C53_writes_partial.

(** C53. Over any sequence of calls weights stay whole numbers up to 100. *)
Theorem C53_weights_partial : forall fuel tl max_d o bearings xs l l', regular l -> weights_ok l ->
  addIntensityBearingVectors fuel tl max_d l o bearings xs = Ok (Some l') -> regular l' /\ weights_ok l'.
Proof.
  intros fuel tl max_d o bearings xs l l' R W H. unfold addIntensityBearingVectors in H.
  destruct (Nat.eqb _ _); [|discriminate]. eapply add_bearings_keep; eauto.
Qed.
Print Assumptions C53_weights_partial.

(** *** a block of two voxels a side on the surface, everything observed *)
Definition dhalf32 : f32 := fbits 0x3f000000.
Definition tl0 : Layer KTsdf := MkLayer (k := KTsdf) f1 2
  [(V3 0 0 0, MkBlock (k := KTsdf) 2 f1 (new_block_origin 2 f1 (V3 0 0 0)) false upd_none (repeat (MkTsdf f0 f1 color0) 8))].
Definition il0 : Layer KInt := MkLayer (k := KInt) f1 2 [].
Lemma il0_regular : regular il0.
Proof. intros i b H; discriminate. Qed.
Lemma il0_weights : weights_ok il0.
Proof. intros a. exists 0. split; [lia|]. split; reflexivity. Qed.
Lemma tl0_regular : regular tl0.
Proof.
  intros i b H. unfold l_get, tl0 in H. cbn [l_blocks alookup] in H.
  destruct (idx_eqb_spec i (V3 0 0 0)) as [Ei|]; [|discriminate].
  injection H as <-. rewrite Ei. split; [reflexivity|]. split; [reflexivity|]. split; reflexivity.
Qed.
Example C67_case : regular tl0 /\ (match
  getSurfaceDistanceAlongRay 20 tl0 (V3 (f32_of_Z (-5)) dhalf32 dhalf32) (V3 f1 f0 f0) (f32_of_Z 10) with
  | Ok (Some (Some p)) => (fword (vx p) =? 0) && (fword (vy p) =? fword dhalf32) | _ => false end) = true.
Proof. split; [apply tl0_regular|vm_compute; reflexivity]. Qed.
Example C53_case : regular il0 /\ weights_ok il0 /\ (match
  addIntensityBearingVectors 20 tl0 (f32_of_Z 5) il0 (V3 dhalf32 dhalf32 dhalf32)
    [V3 f1 f0 f0; V3 f0 f1 f0] [f32_of_Z 7; f32_of_Z 9] with
  | Ok (Some l) => (fword (i_intensity (content l (V3 0 0 0, 0%nat))) =? fword (f32_of_Z 8)) &&
                   (fword (i_weight (content l (V3 0 0 0, 0%nat))) =? fword (f32_of_Z 2)) &&
                   (fword (i_intensity (content l (V3 0 0 0, 1%nat))) =? fword (f32_of_Z 7)) &&
                   (fword (i_intensity (content l (V3 0 0 0, 2%nat))) =? fword (f32_of_Z 9)) &&
                   (fword (i_weight (content l (V3 0 0 0, 3%nat))) =? 0)
  | _ => false end) = true.
Proof. split; [apply il0_regular|split; [apply il0_weights|vm_compute; reflexivity]]. Qed.

(** C53 is false of the code: a reading changes a voxel the ray does not touch. Line 58
    takes the voxel from the block of the intersection, so a point past its border is
    clamped into it. *)
Definition bo : pt3 := V3 (fbits 0x3ff33333) dhalf32 dhalf32.          (* 1.9, 0.5, 0.5 *)
Definition bb : pt3 := V3 (fbits 0x3f19999a) (fbits 0x3f4ccccd) f0.    (* 0.6, 0.8, 0 *)
Lemma take_ok : forall (r : res (option (Layer KInt))) (f : Layer KInt -> bool),
  match r with Ok (Some l) => f l | _ => false end = true -> exists l, r = Ok (Some l) /\ f l = true.
Proof. intros [[l|]| |] f H; try discriminate. exists l; auto. Qed.
Theorem C53_refuted : ~ (forall fuel tl max_d o bearing x l l', regular tl -> regular l -> weights_ok l ->
  add_bearing fuel tl max_d o l (bearing, x) = Ok (Some l') ->
  forall a, content l' a <> content l a ->
  exists s : R, in_voxel l a (FR (vx o) + s * FR (vx bearing)) (FR (vy o) + s * FR (vy bearing))
                           (FR (vz o) + s * FR (vz bearing)))%R.
Proof.
  intros H.
  assert (C : (match add_bearing 5 tl0 (f32_of_Z 5) bo il0 (bb, f1) with
               | Ok (Some l) => negb (fword (i_weight (content l (V3 0 0 0, 3%nat))) =? 0)
               | _ => false end) = true) by (vm_compute; reflexivity).
  apply take_ok in C. destruct C as (l' & E & C).
  destruct (H 5%nat tl0 (f32_of_Z 5) bo bb f1 il0 l' tl0_regular il0_regular il0_weights E (V3 0 0 0, 3%nat))
    as (s & v & V & L & X & Y & _).
  - intros Q. rewrite Q in C. discriminate C.
  - destruct v as [a b c]. unfold all3, il0 in V, L, X, Y. cbn [vx vy vz l_vps l_size fst snd] in *.
    destruct V as (V1 & V2 & V3).
    assert (Eb : b = 1) by lia. subst b.
    assert (Ea : a = 1) by lia. subst a.
    assert (F1 : FR f1 = 1%R) by (apply (f32_of_Z_R 1); lia). rewrite F1 in X, Y.
    assert (X0 : FR (fbits 0x3ff33333) = (IZR 15938355 * / IZR 8388608)%R) by (unfold FR, fbits; cbn; unfold F2R; cbn; lra).
    assert (X1 : FR (fbits 0x3f19999a) = (IZR 10066330 * / IZR 16777216)%R) by (unfold FR, fbits; cbn; unfold F2R; cbn; lra).
    assert (Y0 : FR dhalf32 = (/ 2)%R) by (unfold FR, dhalf32; cbn; unfold F2R; cbn; lra).
    assert (Y1 : FR (fbits 0x3f4ccccd) = (IZR 13421773 * / IZR 16777216)%R) by (unfold FR, fbits; cbn; unfold F2R; cbn; lra).
    unfold bo, bb in X, Y. cbn [vx vy vz] in X, Y. rewrite X0, X1 in X. rewrite Y0, Y1 in Y.
    cbn in X, Y. lra.
Qed.
Print Assumptions C53_refuted.
