(** C89: weight queries. *)
From Coq Require Import ZArith List Bool Reals Lra Lia Permutation.
From Flocq Require Import Core.
From Verif Require Import F32 F32_lemmas F32_err Types Assoc Assoc_lemmas Index Index_float Voxel Layer Mesh_spec Neighbor_proofs Interp Interp_spec Interp_float Interp_axis Interp_proofs Grad WeightQ WeightQ_proofs P_Interp.
Import ListNotations.
Open Scope Z_scope.

(** C89. For every layer built through the API and every point in range: the weight
    is, up to rounding, the trilinear interpolation of the weights of the eight voxels
    whose centres surround the point, the same eight and at the same offset as for the
    distance, and the query fails exactly when the distance query fails. *)
Theorem C89_weight : forall k (l : Layer k) rows top pos W, built_layer l -> point_in_range (l_size l) pos ->
  (forall j, (j < 8)%nat -> complete_order (rows j)) -> complete_order top ->
  (forall g v, voxel_at l g = Some v -> ffin (getVoxelWeight k v) = true /\ (Rabs (FR (getVoxelWeight k v)) <= W)%R) -> (0 <= W <= bpow radix2 100)%R ->
  exists g o,
    (surrounded (l_vps l) (l_size l) (vx pos) (vx g) /\ surrounded (l_vps l) (l_size l) (vy pos) (vy g) /\ surrounded (l_vps l) (l_size l) (vz pos) (vz g)) /\
    (offset_ok (l_vps l) (l_size l) (vx pos) (vx g) (vx o) /\ offset_ok (l_vps l) (l_size l) (vy pos) (vy g) (vy o) /\
     offset_ok (l_vps l) (l_size l) (vz pos) (vz g) (vz o)) /\
    match eight_voxels l g with
    | None => getWeight rows top l pos true = Ok None /\ getDistance rows top l pos true = Ok None
    | Some xs => exists w, getWeight rows top l pos true = Ok (Some w) /\ ffin w = true /\
        (Rabs (FR w - trilinear (fun i => FR (nth i (map (getVoxelWeight k) xs) f0)) (FR (vx o)) (FR (vy o)) (FR (vz o)))
           <= / 2 ^ 14 * W + bpow radix2 (-140))%R /\
        exists d, getDistance rows top l pos true = Ok (Some d)
    end.
Proof.
  intros k l rows top pos W BL PR HR HT HW BW. destruct (C41_voxels k l pos BL PR) as (g & o & S & O & E).
  exists g, o. split; [exact S|]. split; [exact O|]. unfold getWeight, getDistance, getInterpWeight, getInterpDistance. rewrite E.
  destruct (eight_voxels l g) as [xs|] eqn:X; cbn [rbind]; [|split; reflexivity].
  destruct (eight_from k l g xs X) as (L & I).
  destruct (member_err k (getVoxelWeight k) rows top W xs o HR HT L) as (F & B).
  - destruct O as ((F1 & B1 & _) & (F2 & B2 & _) & (F3 & B3 & _)). split; [|split]; auto.
  - intros x Hx. destruct (I x Hx) as (_ & h & Hh). apply (HW h x Hh).
  - apply BW.
  - eexists. split; [reflexivity|]. split; [exact F|]. split; [exact B|]. eauto.
Qed.
Print Assumptions C89_weight.

(** In an ESDF the interpolated weight is exactly 1 wherever there is one: every
    voxel that takes part is observed, and no order of summation rounds. *)
Theorem C89_esdf : forall (l : Layer KEsdf) rows top pos w, built_layer l -> point_in_range (l_size l) pos ->
  (forall j, (j < 8)%nat -> complete_order (rows j)) -> complete_order top ->
  forall interpolate, getWeight rows top l pos interpolate = Ok (Some w) -> w = f1.
Proof.
  intros l rows top pos w BL PR HR HT [|] H; unfold getWeight in H.
  - unfold getInterpWeight in H. destruct (C41_voxels KEsdf l pos BL PR) as (g & o & S & O & E). rewrite E in H.
    destruct (eight_voxels l g) as [xs|] eqn:X; cbn [rbind] in H; [|discriminate H].
    destruct (eight_from KEsdf l g xs X) as (L & I).
    rewrite (map_ones _ (getVoxelWeight KEsdf) xs L) in H.
    + rewrite interp_ones in H; auto; [congruence|]. destruct O as ((F1 & B1 & _) & (F2 & B2 & _) & (F3 & B3 & _)). split; [|split]; auto.
    + intros x Hx. destruct (I x Hx) as (Q & _). cbn [getVoxelWeight isObservedVoxel] in *. rewrite Q. reflexivity.
  - unfold getNearestWeight in H. destruct (getNearestVoxel l pos) as [[x|]| |] eqn:N; cbn [rbind] in H; try discriminate H.
    destruct (isObservedVoxel KEsdf x) eqn:Q; [|discriminate H]. cbn [getVoxelWeight isObservedVoxel] in *. rewrite Q in H. congruence.
Qed.
Print Assumptions C89_esdf.

(** Without interpolation the answer is the weight of the voxel whose cell contains
    the point, and fails exactly when that voxel is not allocated or not observed; the
    combined query for distance and weight answers for unobserved voxels too. *)
Theorem C89_nearest : forall k (l : Layer k) rows top pos, built_layer l -> point_in_range (l_size l) pos ->
  exists g,
    (in_cell (l_vps l) (l_size l) (vx pos) (vx g) /\ in_cell (l_vps l) (l_size l) (vy pos) (vy g) /\ in_cell (l_vps l) (l_size l) (vz pos) (vz g)) /\
    getWeight rows top l pos false = Ok (option_map (getVoxelWeight k) (observed_at l g)) /\
    getDistance rows top l pos false = Ok (option_map (getVoxelSdf k) (observed_at l g)) /\
    getNearestDistanceAndWeight l pos = Ok (option_map (fun v => (getVoxelSdf k v, getVoxelWeight k v)) (voxel_at l g)).
Proof.
  intros k l rows top pos BL PR. destruct (C66_nearest k l pos BL PR) as (g & C & E & D). exists g. split; [exact C|].
  unfold getWeight, getDistance, getNearestWeight, getNearestDistanceAndWeight. rewrite E, D. cbn [rbind]. unfold observed_at.
  destruct (voxel_at l g) as [v|]; [|repeat split]. destruct (isObservedVoxel k v); repeat split.
Qed.
Print Assumptions C89_nearest.

(** The map's queries answer as the interpolator at the position cast to float; a
    failed query leaves the caller's value, a successful one widens the weight without
    rounding. *)
Theorem C89_map : forall rows top (l : Layer KTsdf) position w0 interpolate,
  match getWeight rows top l (map3 f32_of_f64 position) interpolate with
  | Ok None => getWeightAtPosition rows top l position interpolate w0 = Ok (false, w0)
  | Ok (Some w) => exists d, getWeightAtPosition rows top l position interpolate w0 = Ok (true, d) /\ (ffin w = true -> DR d = FR w)
  | Abort => getWeightAtPosition rows top l position interpolate w0 = Abort
  | UB => getWeightAtPosition rows top l position interpolate w0 = UB
  end /\ getWeightAtPositionInterp rows top l position w0 = getWeightAtPosition rows top l position true w0.
Proof.
  intros rows top l position w0 ip. split; [|reflexivity]. unfold getWeightAtPosition, cast3.
  destruct (getWeight rows top l (map3 f32_of_f64 position) ip) as [[w|]| |]; cbn [rbind]; try reflexivity.
  eexists. split; [reflexivity|]. intros F. apply f64_of_f32_R. exact F.
Qed.
Print Assumptions C89_map.

(** The two blocks of P_Interp.v with weights 1 to 8 in place of the distances: at
    (2,1,1) the interpolated weight is 4.5. *)
Definition wv (w : Z) : TsdfVoxel := MkTsdf f1 (f32_of_Z w) (MkColor 0 0 0 0).
Definition wb (i : idx3) : Block KTsdf := set_voxels (k := KTsdf) (map wv [1; 2; 3; 4; 5; 6; 7; 8]) (new_block (k := KTsdf) 2 f1 (new_block_origin 2 f1 i)).
Definition wtwo : Layer KTsdf := MkLayer (k := KTsdf) f1 2 [(V3 0 0 0, wb (V3 0 0 0)); (V3 1 0 0, wb (V3 1 0 0))].
Lemma wtwo_built : built_layer wtwo.
Proof.
  split; [|split; [cbn; lia|]].
  - split; [reflexivity|]. change (FR (l_size wtwo)) with (FR f1). rewrite f1_R. split; change 1%R with (bpow radix2 0); apply bpow_le; lia.
  - intros i b H. change (l_vps wtwo) with 2. change (l_size wtwo) with f1. unfold l_get, wtwo in H. cbn [l_blocks alookup] in H.
    destruct (idx_eqb_spec i (V3 0 0 0)) as [->|N0]; [injection H as <-; repeat split|].
    destruct (idx_eqb_spec i (V3 1 0 0)) as [->|N1]; [injection H as <-; repeat split|]. discriminate.
Qed.
Example C89_case : built_layer wtwo /\ point_in_range (l_size wtwo) at211 /\
  match getWeight (fun _ => lin_order) lin_order wtwo at211 true with
  | Ok (Some d) => fword d =? fword (fdiv (f32_of_Z 9) (f32_of_Z 2)) | _ => false end = true /\
  match getWeight (fun _ => lin_order) lin_order wtwo at211 false with
  | Ok (Some d) => fword d =? fword (f32_of_Z 7) | _ => false end = true.
Proof. split; [exact wtwo_built|]. split; [exact at211_range|]. split; vm_compute; reflexivity. Qed.
