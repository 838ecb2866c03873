(** Property C84: slices through a map. *)
From Coq Require Import ZArith List Bool Reals Lra Lia.
From Flocq Require Import Core IEEE754.Binary IEEE754.Bits.
From Verif Require Import Neighbor_proofs Assoc_lemmas F32 F32_lemmas F32_err Types Index Index_float Voxel Layer Ray Mesh_spec Interp_spec VoxCloud VoxCloud_spec VoxCloud_proofs
  VoxSlice_proofs P_VoxCloud.
Import ListNotations.
Open Scope Z_scope.
Ltac Zify.zify_post_hook ::= idtac.

(** the plane lies [off] above the lower side of voxel layer [n] *)
Definition plane_at {k} (l : Layer k) (plane : f32) (n : Z) (off : R) : Prop :=
  (FR plane = IZR n * FR (l_size l) + off /\ 0 <= off < FR (l_size l))%R.
(** a slice the theorems are about: a plane within 65536 voxels of the origin and voxels of at least ten times the
    tolerance of 1e-6 m that the code uses *)
Definition fair_slice {k} (l : Layer k) (axis : nat) (plane : f32) : Prop :=
  (axis < 3)%nat /\ ffin plane = true /\ (Rabs (FR plane) <= 65536 * FR (l_size l) /\ 10 * FR kEpsilon <= FR (l_size l))%R.
(** the slice shows the observed voxels of the voxel layer [n], with their distances, and nothing else *)
Definition shows_tsdf (l : Layer KTsdf) (axis : nat) (plane : f32) (n : Z) : Prop :=
  exists c, createDistancePointcloudFromTsdfLayerSlice l axis plane = Ok c /\
    pictures l (fun g (v : TsdfVoxel) a => (get3 axis g = n /\ (FR milli < FR (t_weight v))%R) /\ a = t_distance v) c.
Definition shows_esdf (l : Layer KEsdf) (axis : nat) (plane : f32) (n : Z) : Prop :=
  exists c, createDistancePointcloudFromEsdfLayerSlice l axis plane = Ok c /\
    pictures l (fun g (v : EsdfVoxel) a => (get3 axis g = n /\ e_observed v = true) /\ a = e_distance v) c.
(** Planes for which the slice shows the layer of voxels they lie in: those on (or within 1e-6 m above) a boundary between
    voxels, and those in the lower half of a voxel, more than 7/100 of a voxel above the boundary. *)
Definition good_offset (s off : R) : Prop := (off < FR kEpsilon \/ FR kEpsilon + 7 / 100 * s <= off < s / 2)%R.
(** Planes in the upper half of a voxel, more than 8/100 of a voxel above its middle. *)
Definition upper_offset (s off : R) : Prop := (s / 2 + FR kEpsilon + 8 / 100 * s <= off)%R.

(** index of the voxel layer that the effective plane lies in *)
Definition inside_layer (s p : f32) (n : Z) : Prop :=
  (ffin p = true /\ IZR n + FR kEpsilon / FR s + 0.07 <= FR p / FR s <= IZR n + 1 - FR kEpsilon / FR s - 0.07 /\ Rabs (IZR n) <= 70000)%R.
Lemma plane_facts : forall k (l : Layer k) axis plane n off, proper l -> fair_slice l axis plane -> plane_at l plane n off ->
  let s := l_size l in let t := (FR plane / FR s)%R in
  sane_size s /\ (Rabs t <= 65536)%R /\ Zfloor t = n /\ (t - IZR n = off / FR s /\ t = IZR n + off / FR s /\ 0 <= off / FR s < 1 /\ Rabs (IZR n) <= 65537)%R.
Proof.
  intros k l axis plane n off P (A & F & T & E) (H & B) s t. destruct P as ((S & _) & _). fold s in S, T, E, H, B. pose proof (sane_pos s S) as SP.
  assert (O : (0 <= off / FR s < 1)%R).
  { split; [apply Rmult_le_pos; [lra|apply Rlt_le, Rinv_0_lt_compat; exact SP]|]. apply (Rmult_lt_reg_r (FR s)); [exact SP|]. unfold Rdiv. rewrite Rmult_assoc, Rinv_l, Rmult_1_r by lra. lra. }
  assert (TE : t = (IZR n + off / FR s)%R) by (unfold t; rewrite H; field; lra).
  assert (TB : (Rabs t <= 65536)%R).
  { unfold t, Rdiv. rewrite Rabs_mult, (Rabs_pos_eq (/ FR s)) by (apply Rlt_le, Rinv_0_lt_compat; exact SP).
    apply (Rmult_le_reg_r (FR s)); [exact SP|]. rewrite Rmult_assoc, Rinv_l, Rmult_1_r by lra. exact T. }
  split; [exact S|]. split; [exact TB|]. split; [apply Zfloor_imp; rewrite plus_IZR; lra|].
  repeat split; try lra. apply Rabs_le_inv in TB. apply Rabs_le. lra.
Qed.
Lemma offset_scale : forall s a b, (0 < s -> a <= b -> a / s <= b / s)%R.
Proof. intros s a b S H. apply Rmult_le_compat_r; [apply Rlt_le, Rinv_0_lt_compat; exact S|exact H]. Qed.
Lemma good_inside : forall k (l : Layer k) axis plane n off, proper l -> fair_slice l axis plane -> plane_at l plane n off ->
  good_offset (FR (l_size l)) off -> inside_layer (l_size l) (slice_plane (l_size l) plane) n.
Proof.
  intros k l axis plane n off P FS A G. destruct (plane_facts k l axis plane n off P FS A) as (S & T & Z1 & T1 & T2 & O & N).
  destruct FS as (_ & F & _ & E). destruct A as (_ & B). set (s := l_size l) in *. pose proof (sane_pos s S) as SP. pose proof (eps_range s S E) as EP.
  assert (X : (off / FR s * FR s = off)%R) by (field; lra).
  destruct G as [G | (G1 & G2)].
  - rewrite (plane_moved s plane S F); [|left; rewrite Z1, T1, X; split; [|exact G]]. 
    2: { apply (Rmult_lt_reg_r (FR s)); [exact SP|]. rewrite X. lra. }
    destruct (moved_near s plane S F T) as (FM & M). apply Rabs_le_inv in M. split; [exact FM|]. rewrite T2 in M.
    pose proof (offset_scale (FR s) off (FR kEpsilon) SP ltac:(lra)) as Q. lra.
  - assert (PL : slice_plane s plane = plane).
    { apply (plane_low s plane S F); rewrite Z1, T1; [apply (Rmult_lt_reg_r (FR s)); [exact SP|]|]; rewrite X; lra. }
    rewrite PL.
    split; [exact F|]. rewrite T2. pose proof (offset_scale (FR s) _ off SP G1) as Q.
    replace ((FR kEpsilon + 7 / 100 * FR s) / FR s)%R with (FR kEpsilon / FR s + 7 / 100)%R in Q by (field; lra).
    assert (U : (off / FR s < / 2)%R) by (apply (Rmult_lt_reg_r (FR s)); [exact SP|]; rewrite X; lra). lra.
Qed.
Lemma upper_inside : forall k (l : Layer k) axis plane n off, proper l -> fair_slice l axis plane -> plane_at l plane n off ->
  upper_offset (FR (l_size l)) off -> inside_layer (l_size l) (slice_plane (l_size l) plane) (n + 1).
Proof.
  intros k l axis plane n off P FS A G. destruct (plane_facts k l axis plane n off P FS A) as (S & T & Z1 & T1 & T2 & O & N).
  destruct FS as (_ & F & _ & E). destruct A as (_ & B). set (s := l_size l) in *. pose proof (sane_pos s S) as SP. pose proof (eps_range s S E) as EP.
  unfold upper_offset in G. pose proof (offset_scale (FR s) _ off SP G) as Q.
  replace ((FR s / 2 + FR kEpsilon + 8 / 100 * FR s) / FR s)%R with (/ 2 + FR kEpsilon / FR s + 8 / 100)%R in Q by (field; lra).
  rewrite (plane_moved s plane S F); [|right; rewrite Z1, T1; lra].
  destruct (moved_near s plane S F T) as (FM & M). apply Rabs_le_inv in M. split; [exact FM|]. rewrite T2 in M. rewrite plus_IZR.
  apply Rabs_le_inv in N. split; [lra|]. apply Rabs_le. lra.
Qed.
Lemma inside_iff : forall k (l : Layer k) axis p n g v, proper l -> near_origin l -> (axis < 3)%nat -> (10 * FR kEpsilon <= FR (l_size l))%R ->
  inside_layer (l_size l) p n -> voxel_at l g = Some v -> (in_slice axis p (l_size l) (centre_of l g) = true <-> get3 axis g = n).
Proof.
  intros k l axis p n g v P O A E (F & B & N) V. destruct (C83_centre k l g v P O V axis A) as (FC & C).
  pose proof P as ((S & VP & _) & _). pose proof (sane_pos (l_size l) S) as SP.
  assert (M : (Z.abs (get3 axis g) <= 132096)%Z).
  { unfold voxel_at in V. destruct (l_get l (map3 (fun c => c / l_vps l) g)) as [b|] eqn:G; [|discriminate]. pose proof (O _ _ G) as Q. clear - A VP Q.
    unfold all3, map3 in Q. cbn [vx vy vz] in Q. destruct Q as (Q1 & Q2 & Q3).
    assert (X : forall c, Z.abs (c / l_vps l) * l_vps l <= 2 ^ 17 -> Z.abs c <= 132096).
    { intros c H. pose proof (Z.mod_pos_bound c (l_vps l) ltac:(lia)). pose proof (Z.div_mod c (l_vps l) ltac:(lia)) as D.
      change (2 ^ 17) with 131072 in H. change (2 ^ 10) with 1024 in VP. rewrite <- (Z.abs_eq (l_vps l)) in H at 2 by lia. rewrite <- Z.abs_mul in H. lia. }
    destruct axis as [|[|[|i]]]; [apply X, Q1|apply X, Q2|apply X, Q3|lia]. }
  apply IZR_le in M. rewrite abs_IZR in M. destruct VP as (_ & VP). apply IZR_le in VP. change (IZR (2 ^ 10)) with 1024%R in VP.
  apply (in_slice_iff (l_size l) p (get3 axis (centre_of l g)) axis (centre_of l g) (get3 axis g) n S E F FC eq_refl); [|lra|exact B|exact N].
  replace (FR (get3 axis (centre_of l g)) / FR (l_size l) - (IZR (get3 axis g) + / 2))%R
    with ((FR (get3 axis (centre_of l g)) - (IZR (get3 axis g) + / 2) * FR (l_size l)) / FR (l_size l))%R by (field; lra).
  unfold Rdiv. rewrite Rabs_mult, (Rabs_pos_eq (/ FR (l_size l))) by (apply Rlt_le, Rinv_0_lt_compat; exact SP).
  apply (Rmult_le_reg_r (FR (l_size l))); [exact SP|]. rewrite Rmult_assoc, Rinv_l, Rmult_1_r by lra. eapply Rle_trans; [exact C|]. nra.
Qed.
Lemma tsdf_inside : forall (l : Layer KTsdf) axis plane n, proper l -> numbers (k := KTsdf) l tsdf_vals -> near_origin l -> fair_slice l axis plane ->
  inside_layer (l_size l) (slice_plane (l_size l) plane) n -> shows_tsdf l axis plane n.
Proof.
  intros l axis plane n P N O (A & _ & _ & E) I. apply cloud_pictures; [exact P|]. intros g v V. apply when_iff.
  destruct (two l g v N V) as (_ & F2). rewrite andb_true_iff, (inside_iff KTsdf l axis _ n g v P O A E I V). unfold fgt. rewrite (flt_R _ _ milli_fin F2). reflexivity.
Qed.
Lemma esdf_inside : forall (l : Layer KEsdf) axis plane n, proper l -> near_origin l -> fair_slice l axis plane ->
  inside_layer (l_size l) (slice_plane (l_size l) plane) n -> shows_esdf l axis plane n.
Proof.
  intros l axis plane n P O (A & _ & _ & E) I. apply cloud_pictures; [exact P|]. intros g v V. apply when_iff.
  rewrite andb_true_iff, (inside_iff KEsdf l axis _ n g v P O A E I V). reflexivity.
Qed.

(** Missing from the property: planes in the upper half of a voxel, for which it is false ([C84_upper_half],
    [C84_slice_refuted]), and planes within rounding of a boundary or of the middle of a voxel. *)
Theorem C84_slice_partial :
  (forall (l : Layer KTsdf) axis plane n off, proper l -> numbers (k := KTsdf) l tsdf_vals -> near_origin l -> fair_slice l axis plane ->
     plane_at l plane n off -> good_offset (FR (l_size l)) off -> shows_tsdf l axis plane n) /\
  (forall (l : Layer KEsdf) axis plane n off, proper l -> near_origin l -> fair_slice l axis plane ->
     plane_at l plane n off -> good_offset (FR (l_size l)) off -> shows_esdf l axis plane n).
Proof.
  split.
  - intros l axis plane n off P N O FS A G. apply tsdf_inside; auto. eapply good_inside; eassumption.
  - intros l axis plane n off P O FS A G. apply esdf_inside; auto. eapply good_inside; eassumption.
Qed.
Print Assumptions C84_slice_partial.

(** A plane in the upper half of a voxel: the slice shows the voxels one layer further up. *)
Theorem C84_upper_half :
  (forall (l : Layer KTsdf) axis plane n off, proper l -> numbers (k := KTsdf) l tsdf_vals -> near_origin l -> fair_slice l axis plane ->
     plane_at l plane n off -> upper_offset (FR (l_size l)) off -> shows_tsdf l axis plane (n + 1)) /\
  (forall (l : Layer KEsdf) axis plane n off, proper l -> near_origin l -> fair_slice l axis plane ->
     plane_at l plane n off -> upper_offset (FR (l_size l)) off -> shows_esdf l axis plane (n + 1)).
Proof.
  split.
  - intros l axis plane n off P N O FS A G. apply tsdf_inside; auto. eapply upper_inside; eassumption.
  - intros l axis plane n off P O FS A G. apply esdf_inside; auto. eapply upper_inside; eassumption.
Qed.
Print Assumptions C84_upper_half.

(** *** a case: voxels of 1 m; the planes 2 m and 2.25 m show layer 2, the plane 2.75 m shows layer 3 *)
Definition q275 : f32 := fbits 0x40300000.
Definition q225 : f32 := fbits 0x40100000.
Lemma q275_R : FR q275 = 2.75%R.
Proof. unfold FR; cbn; unfold F2R; cbn [Fnum Fexp bpow]. change (Z.pow_pos radix2 22) with 4194304%Z. lra. Qed.
Lemma q225_R : FR q225 = 2.25%R.
Proof. unfold FR; cbn; unfold F2R; cbn [Fnum Fexp bpow]. change (Z.pow_pos radix2 22) with 4194304%Z. lra. Qed.
Lemma keps_small : (0 < FR kEpsilon <= / 10000)%R.
Proof. unfold FR; cbn; unfold F2R; cbn [Fnum Fexp bpow]. change (Z.pow_pos radix2 43) with 8796093022208%Z. lra. Qed.
Lemma fair : forall plane, ffin plane = true -> (Rabs (FR plane) <= 65536)%R -> fair_slice tlayer 0 plane.
Proof.
  intros plane F B. split; [lia|]. split; [exact F|]. change (l_size tlayer) with f1. rewrite f1_R. pose proof keps_small. lra.
Qed.
Example C84_case :
  (fair_slice tlayer 0 q225 /\ plane_at tlayer q225 2 0.25 /\ good_offset (FR (l_size tlayer)) 0.25) /\
  (fair_slice tlayer 0 (f32_of_Z 2) /\ plane_at tlayer (f32_of_Z 2) 2 0 /\ good_offset (FR (l_size tlayer)) 0) /\
  (fair_slice tlayer 0 q275 /\ plane_at tlayer q275 2 0.75 /\ upper_offset (FR (l_size tlayer)) 0.75) /\
  points (createDistancePointcloudFromTsdfLayerSlice tlayer 0 q225) = Some 4%nat /\
  points (createDistancePointcloudFromTsdfLayerSlice tlayer 0 q275) = Some 0%nat.
Proof.
  pose proof keps_small as K. assert (R2 : FR (f32_of_Z 2) = 2%R) by (apply (f32_of_Z_R 2); lia).
  unfold plane_at, good_offset, upper_offset. change (l_size tlayer) with f1. rewrite f1_R, q275_R, q225_R, R2.
  split; [|split; [|split; [|split; vm_compute; reflexivity]]].
  - split; [apply fair; [reflexivity|rewrite q225_R, Rabs_pos_eq; lra]|]. split; [lra|right; lra].
  - split; [apply fair; [apply (f32_of_Z_R 2); lia|rewrite R2, Rabs_pos_eq; lra]|]. split; [lra|left; lra].
  - split; [apply fair; [reflexivity|rewrite q275_R, Rabs_pos_eq; lra]|]. split; lra.
Qed.
(** The full property is false: the plane 2.75 m lies in voxel layer 2, which has four observed voxels; the slice is empty. *)
Theorem C84_slice_refuted : ~ (forall (l : Layer KTsdf) axis plane n off, proper l -> numbers (k := KTsdf) l tsdf_vals -> near_origin l -> fair_slice l axis plane ->
     plane_at l plane n off -> shows_tsdf l axis plane n).
Proof.
  intros H. destruct C84_case as (_ & _ & (F & A & _) & _ & E0).
  destruct (H tlayer 0%nat q275 2 0.75%R tlayer_proper tlayer_numbers tlayer_near F A) as (c & E & gs & _ & I & Q).
  rewrite E in E0. cbn [points] in E0. clear E. injection E0 as E0. destruct c as [|p c]; [|discriminate E0]. inversion Q; subst.
  assert (V : voxel_at tlayer (V3 2 0 0) = Some (tv 0)) by reflexivity.
  assert (X : In (V3 2 0 0) []); [|destruct X]. apply I. exists (tv 0), (t_distance (tv 0)). split; [exact V|]. split; [|reflexivity]. split; [reflexivity|].
  apply (flt_R milli (t_weight (tv 0)) eq_refl eq_refl). reflexivity.
Qed.
Print Assumptions C84_slice_refuted.
