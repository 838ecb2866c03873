(** C77: integrating point clouds into an occupancy map. *)
From Coq Require Import ZArith Reals List Bool Lia Lra Permutation.
From Flocq Require Import Core Binary.
From Verif Require P_Sphere.
From Verif Require Import F32 F32_lemmas F32_err Types Index Voxel Assoc Layer Update Ray Mesh_spec Update_spec Update_proofs P_Update Merge_proofs
  Ray_spec RayEnds_spec Cloud Cloud_spec P_Cloud P_Total OccCloud OccCloud_spec OccCloud_proofs.
Import ListNotations.
Open Scope Z_scope.

(** Points whose rays fit: integration always completes, and there are sets of voxels, as the rays of the cloud
    demand ([swept]), such that every voxel of the first has received one hit, every other voxel of the second one
    miss, and nothing else has happened to the map, whatever the order in which the sets are traversed. *)
Theorem C77_occupancy : forall cfg T points l, sound_layer l ->
  (forall p, In p points -> occ_use_of cfg T p <> Unused -> occ_ray_fits cfg l T p) ->
  forall fuel garbage walk1 walk2, 2 ^ 24 <= Z.of_nat fuel -> (forall s, Permutation (walk1 s) s) -> (forall s, Permutation (walk2 s) s) ->
  exists l' hit seen, occ_integrate fuel garbage cfg T points walk1 walk2 l = Ok (Some l') /\
    swept fuel garbage cfg l T points hit seen /\
    occ_observed (oo_log cfg) l hit (fun g => seen g /\ ~ hit g) l'.
Proof.
  intros cfg T points l W H fuel garbage walk1 walk2 HF P1 P2.
  destruct (occ_points_total fuel garbage cfg l T points ([], []) HF H) as (s & E).
  destruct (integrate_ok fuel garbage cfg T points walk1 walk2 l s W P1 P2) as (l' & X1 & X2 & X3); [|exact E|].
  { intros p v I U R. destruct (occ_ray_total fuel garbage cfg l T p HF U (H p I U)) as (e & v' & _ & R' & N).
    unfold occ_ray in R, R'. rewrite R in R'. inversion R'; subst; auto. }
  exists l', (fun g => In g (snd s)), (fun g => In g (fst s)). auto.
Qed.
Print Assumptions C77_occupancy.

(** The same of any cloud, if integration completes and its rays stay within 2^24 voxels of the origin. *)
Theorem C77_completed : forall cfg T points l, sound_layer l ->
  forall fuel garbage walk1 walk2 l', occ_rays_near fuel garbage cfg l T points ->
  (forall s, Permutation (walk1 s) s) -> (forall s, Permutation (walk2 s) s) ->
  occ_integrate fuel garbage cfg T points walk1 walk2 l = Ok (Some l') ->
  exists hit seen, swept fuel garbage cfg l T points hit seen /\ occ_observed (oo_log cfg) l hit (fun g => seen g /\ ~ hit g) l'.
Proof.
  intros cfg T points l W fuel garbage walk1 walk2 l' NR P1 P2 E.
  destruct (occ_points fuel garbage cfg (inv_of (l_size l)) T ([], []) points) as [[s|]| |] eqn:EP; unfold occ_integrate in E; rewrite EP in E; try discriminate.
  destruct (integrate_ok fuel garbage cfg T points walk1 walk2 l s W P1 P2 NR EP) as (l2 & X1 & X2 & X3).
  unfold occ_integrate in X1. rewrite EP in X1. rewrite X1 in E. inversion E; subst. eexists. eexists. eauto.
Qed.
Print Assumptions C77_completed.

(** If the rays of the surface points end in the voxels of the points (C25 says when they do), the voxels that get a
    hit are exactly those of surface points more than two voxels along their rays: the order of the points does not
    matter, nor does which rays were skipped. *)
Theorem C77_hits : forall fuel garbage cfg l T points hit seen, swept fuel garbage cfg l T points hit seen ->
  (forall p v voxels front e, In p points -> occ_use_of cfg T p = Surface -> end_voxel cfg l T p v -> occ_ray fuel garbage cfg l T p voxels ->
     voxels = front ++ [e] -> e = v) ->
  (forall p, In p points -> occ_use_of cfg T p = Surface -> exists v, end_voxel cfg l T p v) ->
  forall g, hit g <-> exists p voxels, In p points /\ occ_use_of cfg T p = Surface /\ end_voxel cfg l T p g /\
    occ_ray fuel garbage cfg l T p voxels /\ (3 <= length voxels)%nat.
Proof.
  assert (RF : forall fuel garbage cfg l T p v v', occ_ray fuel garbage cfg l T p v -> occ_ray fuel garbage cfg l T p v' -> v = v').
  { unfold occ_ray. intros. congruence. }
  assert (EF : forall cfg l T p v v', end_voxel cfg l T p v -> end_voxel cfg l T p v' -> v = v') by (unfold end_voxel; intros; congruence).
  intros fuel garbage cfg l T points hit seen [H S F C] HE HV g. split.
  - intros Hg. destruct (H g Hg) as (p & v & f & X1 & X2 & X3 & X4 & X5). destruct (HV p X1 X2) as (w & Hw).
    pose proof (HE p w v f g X1 X2 Hw X3 X5) as ->. exists p, v. auto.
  - intros (p & v & X1 & X2 & X3 & X4 & X5). destruct (F p X1 X2) as [(w & Hw & Hh)|(v' & R & [L|(f & e & E & Hh & _)])].
    + rewrite (EF _ _ _ _ _ _ X3 Hw). exact Hh.
    + rewrite (RF _ _ _ _ _ _ _ _ R X4) in L. lia.
    + rewrite <- (HE p g v' f e X1 X2 X3 R E). exact Hh.
Qed.
Print Assumptions C77_hits.

(** Log odds stay within the clamping limits, hits never lower and misses never raise them (given a
    configuration in which a hit is at least, a miss at most even odds), and the touched voxels are known afterwards
    in addition to those known before. *)
Theorem C77_bounds : forall cfg l hit seen l', occ_cfg_ok cfg -> fle f0 (oc_hit cfg) = true -> fle (oc_miss cfg) f0 = true ->
  occ_observed cfg l hit (fun g => seen g /\ ~ hit g) l' ->
  (forall g, occ_in cfg (content l g)) -> forall g,
  (hit g -> occ_in cfg (content l' g) /\ o_observed (content l' g) = true /\ (FR (o_log (content l g)) <= FR (o_log (content l' g)))%R) /\
  (seen g -> ~ hit g -> occ_in cfg (content l' g) /\ o_observed (content l' g) = true /\ (FR (o_log (content l' g)) <= FR (o_log (content l g)))%R) /\
  (~ seen g -> ~ hit g -> content l' g = content l g).
Proof.
  intros cfg l hit seen l' C HH HM [V1 V2 V3 _ _ _ _] IN g.
  assert (OB : forall o v, o_observed (updateOccupancyVoxel cfg o v) = true) by (intros; unfold updateOccupancyVoxel; destruct (_ || _); reflexivity).
  pose proof (IN g) as Ig. split; [|split].
  - intros H. rewrite (V1 g H). split; [apply occ_update_in; auto|]. split; [apply OB|]. apply (occ_update_dir cfg true _ C Ig), HH.
  - intros S H. rewrite (V2 g (conj S H)). split; [apply occ_update_in; auto|]. split; [apply OB|]. apply (occ_update_dir cfg false _ C Ig), HM.
  - intros S H. apply V3; tauto.
Qed.
Print Assumptions C77_bounds.

(** *** the cloud of P_Cloud.v: two surface points, one too far away and one too near *)
Definition ox_cfg : OccCloudConfig := MkOCC occ_ex f1 (f32_of_Z 5).
Definition ox_layer : Layer KOcc := allocateNewBlock (MkLayer (k:=KOcc) f1 2 []) (V3 0 0 0).
Definition ox_run (points : list pt3) := occ_points 100 cx_garbage ox_cfg (inv_of (l_size ox_layer)) cx_pose ([], []) points.
Definition ox_result (points : list pt3) (gs : list idx3) : option (list (Z * bool)) :=
  match occ_integrate 100 cx_garbage ox_cfg cx_pose points (fun s => s) (fun s => rev s) ox_layer with
  | Ok (Some l) => Some (map (fun g => let v := content l g in (fword (o_log v), o_observed v)) gs)
  | _ => None
  end.
Definition ox_fits_b (p : pt3) : bool :=
  let o := p_position cx_pose in let q := p_apply cx_pose p in
  small_b (vx o) && small_b (vy o) && small_b (vz o) && small_b (vx q) && small_b (vy q) && small_b (vz q) && fle (vx o) f1 && fle (f32_of_Z 2) (vx q).
Lemma ox_fits_ok : forall p, ox_fits_b p = true -> occ_ray_fits ox_cfg ox_layer cx_pose p.
Proof.
  intros p H. unfold ox_fits_b in H. cbv zeta in H. unfold occ_ray_fits. cbv zeta.
  set (o := p_position cx_pose) in *. set (q := p_apply cx_pose p) in *.
  repeat (apply andb_prop in H as (H & ?)). repeat match goal with X : small_b _ = true |- _ => apply small_b_ok in X as (? & ?) end.
  destruct (f32_of_Z_R 1 ltac:(lia)) as (E1 & F1). destruct (f32_of_Z_R 2 ltac:(lia)) as (E2 & F2). destruct (f32_of_Z_R 5 ltac:(lia)) as (E5 & F5). fold f1 in E1, F1.
  apply fle_R in H0; auto. apply fle_R in H1; auto. rewrite E1 in H1. rewrite E2 in H0.
  assert (I1 : FR (inv_of (l_size ox_layer)) = 1%R /\ ffin (inv_of (l_size ox_layer)) = true).
  { assert (EI : inv_of (l_size ox_layer) = f1) by (apply P_Sphere.fword_inj; vm_compute; reflexivity). rewrite EI. auto. }
  destruct I1 as (I1 & I2). change (oo_max_ray ox_cfg) with (f32_of_Z 5).
  destruct (norm_small o ltac:(assumption) ltac:(assumption) ltac:(assumption)) as (N1 & N2). destruct (norm_small q ltac:(assumption) ltac:(assumption) ltac:(assumption)) as (N3 & N4).
  assert (B15 : bpow radix2 15 = 32768%R) by reflexivity. assert (BM : (bpow radix2 (-20) <= 1)%R) by (change 1%R with (bpow radix2 0); apply bpow_le; lia).
  split.
  - unfold ray_args. rewrite I1.
    assert (U : forall c : f32, ffin c = true -> (Rabs (FR c) <= 64)%R -> fin_upto 15 c) by (intros c Fc Bc; split; [exact Fc|rewrite B15; lra]).
    split; [unfold all3; auto|]. split; [unfold all3; auto|]. split; [split; [reflexivity|change (FR f0) with 0%R; rewrite B15, Rabs_R0; lra]|]. split; [change (FR f0) with 0%R; lra|].
    split; [split; [exact F5|rewrite E5, B15, Rabs_pos_eq; lra]|]. split; [rewrite E5; lra|]. split; [exact I2|]. split; [change (bpow radix2 10) with 1024%R; lra|].
    apply Rle_trans with 1%R; [exact BM|]. unfold normR, dotR, sub3R. cbn [vx vy vz]. rewrite <- sqrt_1. apply sqrt_le_1_alt.
    set (a := (FR (vx q) - FR (vx o))%R) in *. assert (1 <= a)%R by (unfold a; lra).
    pose proof (Rle_0_sqr (FR (vy q) - FR (vy o))) as P1. pose proof (Rle_0_sqr (FR (vz q) - FR (vz o))) as P2. unfold Rsqr in *. assert (1 <= a * a)%R by nra. lra.
  - rewrite I1. change (bpow radix2 20) with 1048576%R. lra.
Qed.
Example C77_example : sound_layer ox_layer /\
  (forall p, In p (cl_points cx_cloud) -> occ_use_of ox_cfg cx_pose p <> Unused -> occ_ray_fits ox_cfg ox_layer cx_pose p) /\
  map (occ_use_of ox_cfg cx_pose) (cl_points cx_cloud) = [Surface; Clears; Unused; Surface].
Proof.
  split; [|split].
  - split; [exists 1; split; [lia|reflexivity]|]. intros i b H. unfold ox_layer, allocateNewBlock, l_get in H. cbn [with_blocks l_blocks ainsert app alookup] in H.
    destruct (idx_eqb i (V3 0 0 0)); inversion H; subst. split; reflexivity.
  - intros p I U. destruct I as [<- |[<- |[<- |[<- | []]]]]; try (apply ox_fits_ok; vm_compute; reflexivity). exfalso. apply U. vm_compute. reflexivity.
  - vm_compute. reflexivity.
Qed.
(** one hit for the two surface points in one voxel, one miss for the sensor's voxel on three rays, nothing beyond the
    maximum range *)
Example C77_example_run : ox_result (cl_points cx_cloud) [V3 2 1 2; V3 0 0 0; V3 1 (-1) 2; V3 4 (-1) 5] =
  Some [(0x3f1e78b2, true); (0xbecf98d9, true); (0xbecf98d9, true); (0, false)].
Proof. vm_compute. reflexivity. Qed.

(** *** what users might expect and does not hold *)
(** A surface point in range, in a voxel next to the sensor's, is ignored. *)
Theorem C77_adjacent_refuted : exists p, occ_use_of ox_cfg cx_pose p = Surface /\ end_voxel ox_cfg ox_layer cx_pose p (V3 1 0 0) /\
  ox_result [p] [V3 1 0 0; V3 0 0 0] = Some [(0, false); (0, false)].
Proof. exists (V3 (cx_lit 4) f0 f0). split; [vm_compute; reflexivity|]. split; vm_compute; reflexivity. Qed.
Print Assumptions C77_adjacent_refuted.
(** A surface point exactly above or beside the sensor (equal x) marks the voxel of the sensor itself as occupied and
    not its own. *)
Theorem C77_sensor_refuted : exists p, occ_use_of ox_cfg cx_pose p = Surface /\
  vx (p_apply cx_pose p) = vx (p_position cx_pose) /\ end_voxel ox_cfg ox_layer cx_pose p (V3 0 3 2) /\
  ox_result [p] [V3 0 0 0; V3 0 3 2] = Some [(0x3f1e78b2, true); (0, false)].
Proof.
  exists (V3 f0 (cx_lit 10) (cx_lit 9)). split; [vm_compute; reflexivity|]. split; [apply P_Sphere.fword_inj; vm_compute; reflexivity|]. split; vm_compute; reflexivity.
Qed.
Print Assumptions C77_sensor_refuted.
