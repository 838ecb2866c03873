(** C40 and C41: interpolation. *)
From Coq Require Import ZArith List Bool Reals Lra Lia Permutation.
From Flocq Require Import Core.
From Verif Require Import F32 F32_lemmas F32_err Types Assoc Assoc_lemmas Index Index_float Voxel Layer Mesh_spec Neighbor_proofs Interp Interp_spec Interp_float Interp_axis Interp_proofs.
Import ListNotations.
Open Scope Z_scope.

(** C40. The two matrix products with the table are the trilinear formula, for all
    values and offsets. *)
Theorem C40_table : forall x y z d, exact_interp x y z d = trilinear d x y z.
Proof. exact exact_interp_trilinear. Qed.
Print Assumptions C40_table.
(** At a corner the value is that of the corner. *)
Theorem C40_corner : forall d i j k, (i <= 1)%nat -> (j <= 1)%nat -> (k <= 1)%nat ->
  exact_interp (INR i) (INR j) (INR k) d = d (corner_no i j k).
Proof.
  intros d i j k Hi Hj Hk. rewrite C40_table.
  assert (i = 0 \/ i = 1)%nat as [-> | ->] by lia; assert (j = 0 \/ j = 1)%nat as [-> | ->] by lia;
    assert (k = 0 \/ k = 1)%nat as [-> | ->] by lia; unfold trilinear, lerp; cbn [INR]; ring.
Qed.
Print Assumptions C40_corner.
(** Inside the cube the value lies between the smallest and the largest corner
    value. *)
Theorem C40_range : forall d lo hi x y z, (0 <= x <= 1)%R -> (0 <= y <= 1)%R -> (0 <= z <= 1)%R ->
  (forall i, (i < 8)%nat -> (lo <= d i <= hi)%R) -> (lo <= exact_interp x y z d <= hi)%R.
Proof. intros. rewrite C40_table. apply trilinear_range; auto. Qed.
Print Assumptions C40_range.
(** The float code, whatever the order in which Eigen adds the eight terms of each
    product, stays within a small multiple of the largest value of the formula. *)
Theorem C40_float : forall rows top o ds D,
  (forall j, (j < 8)%nat -> complete_order (rows j)) -> complete_order top ->
  all3 (fun x => ffin x = true /\ (0 <= FR x <= 1.125)%R) o ->
  (forall i, (i < 8)%nat -> ffin (nth i ds f0) = true /\ (Rabs (FR (nth i ds f0)) <= D)%R) -> (D <= bpow radix2 100)%R ->
  ffin (interpMember rows top (q_vector o) ds) = true /\
  (Rabs (FR (interpMember rows top (q_vector o) ds) - trilinear (fun i => FR (nth i ds f0)) (FR (vx o)) (FR (vy o)) (FR (vz o)))
    <= / 2 ^ 14 * D + bpow radix2 (-140))%R.
Proof. exact interp_float_err. Qed.
Print Assumptions C40_float.

(** C41. For every layer built through the API and every point in range: the query
    neither reads out of bounds nor fails its CHECK, there is a voxel [g] such that
    the centres of [g] and of its upper neighbours surround the point on every axis,
    and the query returns exactly the eight voxels from [g] on, wherever the block
    borders are, or reports failure when one of them is not allocated or not
    observed. *)
Theorem C41_voxels : forall k (l : Layer k) pos, built_layer l -> point_in_range (l_size l) pos ->
  exists g o,
    (surrounded (l_vps l) (l_size l) (vx pos) (vx g) /\ surrounded (l_vps l) (l_size l) (vy pos) (vy g) /\ surrounded (l_vps l) (l_size l) (vz pos) (vz g)) /\
    (offset_ok (l_vps l) (l_size l) (vx pos) (vx g) (vx o) /\ offset_ok (l_vps l) (l_size l) (vy pos) (vy g) (vy o) /\
     offset_ok (l_vps l) (l_size l) (vz pos) (vz g) (vz o)) /\
    getVoxelsAndQVector l pos = Ok (match eight_voxels l g with Some xs => Some (o, xs) | None => None end).
Proof. exact voxels_spec. Qed.
Print Assumptions C41_voxels.
(** The distance that results is, up to rounding, the trilinear interpolation of the
    eight distances. *)
Theorem C41_distance : forall k (l : Layer k) rows top pos D, built_layer l -> point_in_range (l_size l) pos ->
  (forall j, (j < 8)%nat -> complete_order (rows j)) -> complete_order top ->
  (forall g v, voxel_at l g = Some v -> ffin (getVoxelSdf k v) = true /\ (Rabs (FR (getVoxelSdf k v)) <= D)%R) -> (0 <= D <= bpow radix2 100)%R ->
  exists g o,
    (surrounded (l_vps l) (l_size l) (vx pos) (vx g) /\ surrounded (l_vps l) (l_size l) (vy pos) (vy g) /\ surrounded (l_vps l) (l_size l) (vz pos) (vz g)) /\
    (offset_ok (l_vps l) (l_size l) (vx pos) (vx g) (vx o) /\ offset_ok (l_vps l) (l_size l) (vy pos) (vy g) (vy o) /\
     offset_ok (l_vps l) (l_size l) (vz pos) (vz g) (vz o)) /\
    match eight_voxels l g with
    | None => getInterpDistance rows top l pos = Ok None
    | Some xs => exists d, getInterpDistance rows top l pos = Ok (Some d) /\ ffin d = true /\
        (Rabs (FR d - trilinear (fun i => FR (nth i (map (getVoxelSdf k) xs) f0)) (FR (vx o)) (FR (vy o)) (FR (vz o)))
           <= / 2 ^ 14 * D + bpow radix2 (-140))%R
    end.
Proof.
  intros k l rows top pos D BL PR HR HT HD BD. destruct (C41_voxels k l pos BL PR) as (g & o & S & O & E).
  exists g, o. split; [exact S|]. split; [exact O|]. unfold getInterpDistance. rewrite E.
  destruct (eight_voxels l g) as [xs|] eqn:X; cbn [rbind]; [|reflexivity].
  eexists. split; [reflexivity|]. apply C40_float; auto; [|..|apply BD].
  { destruct O as ((F1 & B1 & _) & (F2 & B2 & _) & (F3 & B3 & _)). split; [|split]; auto. }
  assert (A : Forall (fun x => ffin (getVoxelSdf k x) = true /\ (Rabs (FR (getVoxelSdf k x)) <= D)%R) xs).
  { clear - X HD. unfold eight_voxels in X. revert X. generalize eight_corners. intros cs. revert xs. induction cs as [|c cs IH]; intros xs X.
    - cbn in X. injection X as <-. constructor.
    - cbn [map collect] in X. unfold observed_at in X at 1. destruct (voxel_at l (idx_add g c)) as [v|] eqn:V; [|discriminate].
      destruct (isObservedVoxel k v); [|discriminate]. destruct (collect _) as [r|] eqn:C; [|discriminate]. injection X as <-.
      constructor; [exact (HD _ _ V)|apply IH; reflexivity]. }
  intros i Hi. destruct (nth_error (map (getVoxelSdf k) xs) i) as [y|] eqn:N.
  - rewrite (nth_error_nth _ _ f0 N). apply nth_error_In in N. apply in_map_iff in N. destruct N as (v & <- & I).
    rewrite Forall_forall in A. exact (A v I).
  - apply nth_error_None in N. rewrite nth_overflow by exact N. split; [reflexivity|]. change (FR f0) with 0%R. rewrite Rabs_R0. lra.
Qed.
Print Assumptions C41_distance.

(** Two neighbouring blocks of 2x2x2 voxels of 1 m, all observed, with distances 1 to
    8 in each: the point (2,1,1) needs four voxels of each block. *)
Definition tv (d : Z) : TsdfVoxel := MkTsdf (f32_of_Z d) f1 (MkColor 0 0 0 0).
Definition vol : list TsdfVoxel := map tv [1; 2; 3; 4; 5; 6; 7; 8].
Definition bk (i : idx3) : Block KTsdf := set_voxels (k := KTsdf) vol (new_block (k := KTsdf) 2 f1 (new_block_origin 2 f1 i)).
Definition two : Layer KTsdf := MkLayer (k := KTsdf) f1 2 [(V3 0 0 0, bk (V3 0 0 0)); (V3 1 0 0, bk (V3 1 0 0))].
Definition lin_order : sum_order := fold_left (fun t i => Plus t (Term i)) (seq 1 7) (Term 0).
Lemma lin_complete : complete_order lin_order.
Proof. unfold complete_order. apply Permutation_refl. Qed.
Lemma two_built : built_layer two.
Proof.
  split; [|split; [cbn; lia|]].
  - split; [reflexivity|]. change (FR (l_size two)) with (FR f1). rewrite f1_R. split; change 1%R with (bpow radix2 0); apply bpow_le; lia.
  - intros i b H. change (l_vps two) with 2. change (l_size two) with f1. unfold l_get, two in H. cbn [l_blocks alookup] in H.
    destruct (idx_eqb_spec i (V3 0 0 0)) as [->|N0]; [injection H as <-; repeat split|].
    destruct (idx_eqb_spec i (V3 1 0 0)) as [->|N1]; [injection H as <-; repeat split|]. discriminate.
Qed.
Definition at211 : pt3 := V3 (f32_of_Z 2) f1 f1.
Lemma at211_range : point_in_range (l_size two) at211.
Proof.
  change (l_size two) with f1. unfold point_in_range, at211, all3. cbn [vx vy vz]. rewrite f1_R. unfold Rdiv. rewrite Rinv_1.
  destruct (f32_of_Z_R 2 ltac:(lia)) as (E & F). rewrite E, !Rmult_1_r, !Rabs_pos_eq by lra.
  repeat split; auto; lra.
Qed.
Example two_distance : match getInterpDistance (fun _ => lin_order) lin_order two at211 with
  | Ok (Some d) => fword d =? fword (fdiv (f32_of_Z 9) (f32_of_Z 2)) | _ => false end = true.
Proof. vm_compute. reflexivity. Qed.
Example two_voxels : option_map (map (fun v => fword (t_distance v))) (eight_voxels two (V3 1 0 0))
  = Some (map (fun d => fword (f32_of_Z d)) [2; 6; 4; 8; 1; 5; 3; 7]).
Proof. vm_compute. reflexivity. Qed.
(** beyond the outermost centres there is no block to use *)
Example two_outside : getInterpDistance (fun _ => lin_order) lin_order two (V3 (fdiv (f32_of_Z 7) (f32_of_Z 2)) f1 f1) = Ok None.
Proof. vm_compute. reflexivity. Qed.

(** C66. A query without interpolation answers with the voxel whose cell contains
    the point, and reports failure exactly when that voxel is not allocated or not
    observed. *)
Theorem C66_nearest : forall k (l : Layer k) pos, built_layer l -> point_in_range (l_size l) pos ->
  exists g,
    (in_cell (l_vps l) (l_size l) (vx pos) (vx g) /\ in_cell (l_vps l) (l_size l) (vy pos) (vy g) /\ in_cell (l_vps l) (l_size l) (vz pos) (vz g)) /\
    getNearestVoxel l pos = Ok (voxel_at l g) /\
    getNearestDistance l pos = Ok (option_map (getVoxelSdf k) (observed_at l g)).
Proof.
  intros k l pos BL PR. destruct (nearest_spec k l pos BL PR) as (g & C & E). exists g. split; [exact C|]. split; [exact E|].
  unfold getNearestDistance. rewrite E. cbn [rbind]. unfold observed_at. destruct (voxel_at l g) as [v|]; [|reflexivity].
  destruct (isObservedVoxel k v); reflexivity.
Qed.
Print Assumptions C66_nearest.
Example two_nearest : match getNearestDistance two at211 with Ok (Some d) => fword d =? fword (f32_of_Z 7) | _ => false end = true.
Proof. vm_compute. reflexivity. Qed.
