(** C46: spheres around a point. *)
From Coq Require Import ZArith List Bool Reals Lra Lia Permutation.
From Flocq Require Import Core.
From Verif Require Import F32 F32_lemmas Types Assoc Assoc_lemmas Index Index_float Voxel Layer Planning Neighbor_proofs Esdf_spec Interp_spec Sphere_spec Sphere_proofs.
Import ListNotations.
Open Scope Z_scope.

(** C46. For every layer with at most 2^10 voxels per side (a power of two), every
    centre and every radius in range: the call ends, lists no voxel twice, lists no
    voxel whose centre is more than 2.75 voxels outside the sphere, and lists every
    voxel whose centre is at least 2.75 voxels inside it. What is missing is the band
    in between, where the result depends on rounding to the voxel grid. *)
Theorem C46_sphere_partial : forall k (l : Layer k) e c r fuel,
  sane_size (l_size l) -> 0 <= e <= 10 -> l_vps l = 2 ^ e ->
  point_in_range (l_size l) c -> radius_in_range (l_size l) r -> (2 * (FR r / FR (l_size l)) + 3 < INR fuel)%R ->
  exists m, getSphereAroundPoint fuel l c r = Ok (Some m) /\ NoDup (voxels_of (l_vps l) m) /\
    (forall g, In g (voxels_of (l_vps l) m) -> (centre_dist (l_size l) c g <= FR r / FR (l_size l) + 2.75)%R) /\
    (forall g, (centre_dist (l_size l) c g <= FR r / FR (l_size l) - 2.75)%R -> In g (voxels_of (l_vps l) m)).
Proof.
  intros k l e c r fuel Hs He Ev PC PR HF.
  destruct (sphere_spec k l e c r fuel Hs He Ev PC PR HF) as (m & E & N & A & B & _). exists m. auto.
Qed.
Print Assumptions C46_sphere_partial.

(** Filling changes exactly the listed voxels, each by the rule [filled]; all other
    voxels and blocks stay as they are. *)
Theorem C46_fill : forall (l : Layer KEsdf) c r mx fuel, sphere_layer l -> point_in_range (l_size l) c -> radius_in_range (l_size l) r ->
  (2 * (FR r / FR (l_size l)) + 3 < INR fuel)%R ->
  exists m l', getSphereAroundPoint fuel l c r = Ok (Some m) /\ fillSphereAroundPoint fuel c r mx l = Ok (Some l') /\
    sphere_effect l l' (voxels_of (l_vps l) m) (fun g => filled (voxel_centre (l_vps l) (l_size l) g) c r mx).
Proof. exact fill_spec. Qed.
Print Assumptions C46_fill.
(** Clearing likewise, by the rule [cleared]. *)
Theorem C46_clear : forall (l : Layer KEsdf) c r mx fuel, sphere_layer l -> point_in_range (l_size l) c -> radius_in_range (l_size l) r ->
  (2 * (FR r / FR (l_size l)) + 3 < INR fuel)%R ->
  exists m l', getSphereAroundPoint fuel l c r = Ok (Some m) /\ clearSphereAroundPoint fuel c r mx l = Ok (Some l') /\
    sphere_effect l l' (voxels_of (l_vps l) m) (fun g => cleared (voxel_centre (l_vps l) (l_size l) g) c r mx).
Proof. exact clear_spec. Qed.
Print Assumptions C46_clear.

(** An ESDF layer of 1 m voxels, two per block, with one block. *)
Definition one_block : Layer KEsdf :=
  MkLayer (k := KEsdf) f1 2 [(V3 0 0 0, new_block (k := KEsdf) 2 f1 (new_block_origin 2 f1 (V3 0 0 0)))].
Lemma f1_sane : sane_size f1.
Proof. split; [reflexivity|]. rewrite f1_R. split; change 1%R with (bpow radix2 0); apply bpow_le; lia. Qed.
Lemma one_block_ok : sphere_layer one_block.
Proof.
  split; constructor; try split.
  - exists 1. split; [lia|reflexivity].
  - unfold l_get, one_block in H. cbn [l_blocks alookup] in H. destruct (idx_eqb_spec i (V3 0 0 0)) as [->|]; [|discriminate].
    injection H as <-. reflexivity.
  - unfold l_get, one_block in H. cbn [l_blocks alookup] in H. destruct (idx_eqb_spec i (V3 0 0 0)) as [->|]; [|discriminate].
    injection H as <-. split; [reflexivity|]. repeat split.
  - reflexivity.
  - change (FR (l_size one_block)) with (FR f1). apply f1_sane.
  - change (l_vps one_block) with 2. lia.
  - intros i b H. unfold l_get, one_block in H. cbn [l_blocks alookup] in H. destruct (idx_eqb_spec i (V3 0 0 0)) as [->|]; [|discriminate].
    injection H as <-. repeat split.
Qed.
Definition half : f32 := fdiv f1 (f32_of_Z 2).
Lemma half_R : FR half = (/ 2)%R /\ ffin half = true.
Proof.
  assert (E : half = fbits 0x3f000000) by (rewrite <- (fbits_fword half); f_equal; vm_compute; reflexivity).
  split; [|vm_compute; reflexivity]. rewrite E. cbv. lra.
Qed.
Definition mid : pt3 := V3 half half half.
Lemma mid_range : point_in_range f1 mid.
Proof.
  destruct half_R as (E & F). unfold point_in_range, mid, all3. cbn [vx vy vz]. rewrite E, f1_R. unfold Rdiv. rewrite Rinv_1, Rmult_1_r, Rabs_pos_eq by lra.
  repeat split; auto; lra.
Qed.
Lemma radius_ok : forall z, 0 <= z <= 1000 -> radius_in_range f1 (f32_of_Z z).
Proof.
  intros z H. destruct (f32_of_Z_R z ltac:(lia)) as (E & F). unfold radius_in_range. rewrite E, f1_R. unfold Rdiv. rewrite Rinv_1, Rmult_1_r.
  split; [exact F|]. split; [apply IZR_le; lia|]. apply IZR_le. lia.
Qed.
(** with radius 2 voxels, 33 voxels in 11 blocks are listed, and filling sets the
    centre voxel's distance to minus 2 m *)
Example sphere_listed : match getSphereAroundPoint 10 one_block mid (f32_of_Z 2) with
  | Ok (Some m) => (length (voxels_of 2 m) =? 33)%nat && (length m =? 11)%nat | _ => false end = true.
Proof. vm_compute. reflexivity. Qed.
Example sphere_filled : match fillSphereAroundPoint 10 mid (f32_of_Z 2) (f32_of_Z 5) one_block with
  | Ok (Some l') => match at_index (k := KEsdf) l' (V3 0 0 0), at_index (k := KEsdf) l' (V3 1 1 1) with
     | Some v, Some w => (fword (e_distance v) =? fword (f32_of_Z (-2))) && e_hallucinated v && (fword (e_distance w) =? fword (fsub (fsqrt (f32_of_Z 3)) (f32_of_Z 2)))
     | _, _ => false end
  | _ => false end = true.
Proof. vm_compute. reflexivity. Qed.
Example sphere_cleared : match clearSphereAroundPoint 10 mid (f32_of_Z 2) f1 one_block with
  | Ok (Some l') => match at_index (k := KEsdf) l' (V3 0 0 0) with
     | Some v => (fword (e_distance v) =? fword f1) && e_observed v
     | _ => false end
  | _ => false end = true.
Proof. vm_compute. reflexivity. Qed.

(** The exact claim is false: with a radius of half a voxel around a voxel's centre,
    nothing is listed, not even that voxel. *)
Theorem C46_exact_refuted : ~ forall (l : Layer KEsdf) c r fuel,
  sphere_layer l -> point_in_range (l_size l) c -> radius_in_range (l_size l) r -> (2 * (FR r / FR (l_size l)) + 3 < INR fuel)%R ->
  exists m, getSphereAroundPoint fuel l c r = Ok (Some m) /\
    forall g, In g (voxels_of (l_vps l) m) <-> (centre_dist (l_size l) c g <= FR r / FR (l_size l))%R.
Proof.
  intros H. destruct half_R as (E & F).
  destruct (H one_block mid half 5%nat one_block_ok mid_range) as (m & EM & Q).
  - change (l_size one_block) with f1. unfold radius_in_range. rewrite E, f1_R. unfold Rdiv. rewrite Rinv_1. split; [exact F|]. lra.
  - change (l_size one_block) with f1. rewrite E, f1_R. cbn [INR]. lra.
  - assert (EM2 : getSphereAroundPoint 5 one_block mid half = Ok (Some [])) by (vm_compute; reflexivity).
    rewrite EM in EM2. injection EM2 as ->. assert (B : In (V3 0 0 0) (voxels_of (l_vps one_block) [])); [|exact B]. apply Q. clear - E.
    change (l_size one_block) with f1. unfold centre_dist, mid. cbn [vx vy vz]. rewrite E, f1_R. unfold Rdiv. rewrite Rinv_1.
    replace (0 + / 2 - / 2 * 1)%R with 0%R by lra. unfold nrm. replace (0 * 0 + 0 * 0 + 0 * 0)%R with 0%R by lra. rewrite sqrt_0. lra.
Qed.
Print Assumptions C46_exact_refuted.
Lemma fword_inj : forall x y, fword x = fword y -> x = y.
Proof. intros x y H. rewrite <- (fbits_fword x), <- (fbits_fword y), H. reflexivity. Qed.
(** And a radius of 2^25 voxels never ends, however many iterations are allowed. *)
Theorem C46_huge_radius_refuted : forall fuel, getSphereAroundPoint fuel one_block mid (f32_of_Z (2 ^ 25)) = Ok None.
Proof.
  intros fuel. set (r := f32_of_Z (2 ^ 25)).
  assert (D : fdiv r (l_size one_block) = r) by (apply fword_inj; vm_compute; reflexivity).
  assert (A : fadd (fneg r) f1 = fneg r) by (apply fword_inj; vm_compute; reflexivity).
  assert (L : fle (fneg r) r = true) by (vm_compute; reflexivity).
  assert (X : frange fuel (fneg r) r = None).
  { induction fuel as [|fuel IH]; cbn [frange]; rewrite L; [reflexivity|]. rewrite A, IH. reflexivity. }
  unfold getSphereAroundPoint. rewrite D. unfold sphere_offsets. rewrite X.
  assert (G : getGlobalGridIndexFromPoint mid (inv_of (l_size one_block)) = Some (V3 0 0 0)) by (vm_compute; reflexivity).
  rewrite G. reflexivity.
Qed.
Print Assumptions C46_huge_radius_refuted.
