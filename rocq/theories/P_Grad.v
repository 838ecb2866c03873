(** C78: distance and gradient queries. *)
From Coq Require Import ZArith List Bool Reals Lra Lia Permutation.
From Flocq Require Import Core.
From Verif Require Import F32 F32_lemmas F32_err Types Assoc Assoc_lemmas Index Index_float Voxel Layer Ray Update Mesh_spec Neighbor_proofs Interp Interp_spec Interp_proofs P_Interp Grad Grad_spec Grad_proofs.
From Verif Require P_Sphere.
Import ListNotations.
Open Scope R_scope.

(** C78. For every map built through the API and every point within 65534 voxels of
    the origin the gradient query answers; it succeeds exactly when the block of the
    point exists and the distance is known one voxel away on both sides along every
    axis; each component is then the central difference of those two distances up to
    rounding. A missing block leaves the output alone. *)
Theorem C78_gradient : forall k (l : Layer k) rows top pos interpolate grad0 D,
  built_layer l -> within 65534 (l_size l) pos -> orders rows top -> bounded l D -> 0 <= D <= bpow radix2 80 ->
  exists (b : option (Block k)) (d : nat -> bool -> option f32),
    blockAt l pos = Ok b /\
    (forall i p, (i < 3)%nat -> getDistance rows top l (neighbour (l_size l) pos i p) interpolate = Ok (d i p)) /\
    (b = None -> getGradient rows top l pos interpolate grad0 = Ok (false, grad0)) /\
    (b <> None -> both_known d = false -> exists g, getGradient rows top l pos interpolate grad0 = Ok (false, g)) /\
    (b <> None -> both_known d = true -> exists g, getGradient rows top l pos interpolate grad0 = Ok (true, g) /\
       forall i, (i < 3)%nat -> exists lo hi, d i false = Some lo /\ d i true = Some hi /\
         nearly (get3 i g) ((FR hi - FR lo) / (2 * FR (l_size l)))).
Proof. exact gradient_spec. Qed.
Print Assumptions C78_gradient.

(** C78. Where the observed voxels sample a plane up to [eps], interpolated distances
    and gradients are those of the plane, up to [eps], rounding and the accuracy with
    which the position itself is known. *)
Theorem C78_plane : forall k (l : Layer k) rows top pos A n eps D m,
  built_layer l -> within m (l_size l) pos -> m <= 65534 -> orders rows top -> bounded l D -> 0 <= D <= bpow radix2 80 ->
  planar l A n eps -> 0 <= eps ->
  (forall d, getDistance rows top l pos true = Ok (Some d) ->
     ffin d = true /\ Rabs (FR d - plane A n (map3 FR pos)) <= plane_err (l_vps l) (FR (l_size l)) m D eps n) /\
  (forall grad0 g, getGradient rows top l pos true grad0 = Ok (true, g) -> forall i, (i < 3)%nat ->
     ffin (get3 i g) = true /\
     Rabs (FR (get3 i g) - get3 i n) <= 2 * plane_err (l_vps l) (FR (l_size l)) (m + 2) D eps n / FR (l_size l) + bpow radix2 (-140)).
Proof.
  intros k l rows top pos A n eps D m BL W M OR BD D0 PL E0. split.
  - intros d Hd. apply (plane_distance k l rows top pos A n eps D m d); auto; [lra|]. assert (bpow radix2 80 <= bpow radix2 100) by (apply bpow_le; lia). lra.
  - intros grad0 g Hg i Hi. eapply plane_gradient; eauto.
Qed.
Print Assumptions C78_plane.

(** C78. The adaptive query succeeds exactly when the voxel of the point is observed
    and either all interpolated distances exist or along every axis at least one
    neighbour is observed. The gradient then holds the difference quotients of what is
    known. The distance is the interpolated one where that exists and otherwise that of
    the voxel, continued from its centre along the gradient. *)
Theorem C78_adaptive : forall k (l : Layer k) rows top pos D m,
  built_layer l -> within m (l_size l) pos -> m <= 65534 -> orders rows top -> bounded l D -> 0 <= D <= bpow radix2 80 ->
  exists c interp (di dn : nat -> bool -> option f32) r,
    (in_cell (l_vps l) (l_size l) (vx pos) (vx c) /\ in_cell (l_vps l) (l_size l) (vy pos) (vy c) /\ in_cell (l_vps l) (l_size l) (vz pos) (vz c)) /\
    getDistance rows top l pos true = Ok interp /\
    (forall i p, (i < 3)%nat -> getDistance rows top l (neighbour (l_size l) pos i p) true = Ok (di i p)) /\
    (forall i p, (i < 3)%nat -> getDistance rows top l (beside (l_size l) pos i p) false = Ok (dn i p)) /\
    getAdaptive rows top l pos = Ok r /\
    (r <> None <-> observed_at l c <> None /\ ((interp <> None /\ both_known di = true) \/ one_known dn = true)) /\
    (forall d g, r = Some (d, g) -> exists v, observed_at l c = Some v /\
       (forall i, (i < 3)%nat -> exists q, nearly (get3 i g) q /\
          (if match interp with Some _ => both_known di | None => false end
           then slope_at (FR (l_size l)) (getVoxelSdf k v) (di i false) (di i true) = Some q
           else slope_at (FR (l_size l)) (getVoxelSdf k v) (dn i false) (dn i true) = Some q)) /\
       (forall d', interp = Some d' -> d = d') /\
       (interp = None -> ffin d = true /\
          Rabs (FR d - from_centre (FR (l_size l)) (FR (getVoxelSdf k v)) c (map3 FR g) (map3 FR pos)) <=
            2 * slope (map3 FR g) * FR (l_size l) * off_tol (l_vps l) m + bpow radix2 (-22) * Rabs (FR (getVoxelSdf k v)) + bpow radix2 (-140))).
Proof. exact adaptive_spec. Qed.
Print Assumptions C78_adaptive.

(** C78. The query functions of the ESDF map: they always answer; a failed distance
    query leaves its output alone; the combined query succeeds exactly when both
    parts do and then agrees with them; a position is reported observed exactly when
    the distance query without interpolation succeeds. *)
Theorem C78_map : forall rows top (l : Layer KEsdf) position interpolate d0 D,
  built_layer l -> within 65534 (l_size l) (cast3 position) -> orders rows top -> bounded l D -> 0 <= D <= bpow radix2 80 ->
  (exists ok d, getDistanceAtPosition rows top l position interpolate d0 = Ok (ok, d) /\ (ok = false -> d = d0)) /\
  (exists ok d g, getDistanceAndGradientAtPosition rows top l position interpolate = Ok (ok, d, g) /\
     (ok = true <-> (exists x, getDistanceAtPosition rows top l position interpolate d0 = Ok (true, x)) /\
                    (exists g', getGradient rows top l (cast3 position) interpolate (V3 f0 f0 f0) = Ok (true, g'))) /\
     (ok = true -> getDistanceAtPosition rows top l position interpolate d0 = Ok (true, d) /\
        exists g', getGradient rows top l (cast3 position) interpolate (V3 f0 f0 f0) = Ok (true, g') /\ g = map3 f64_of_f32 g')) /\
  (exists b, isObserved l position = Ok b /\
     (b = true <-> exists x, getDistanceAtPosition rows top l position false d0 = Ok (true, x))).
Proof.
  intros rows top l position interpolate d0 D BL W OR BD D0. set (pos := cast3 position) in *.
  assert (PR := within_range _ _ _ W ltac:(lra)).
  destruct (getDistance_total KEsdf l rows top pos interpolate BL PR) as (d & ED).
  destruct (C66_nearest KEsdf l pos BL PR) as (c & _ & EN & EO).
  assert (EG : exists ok g, getGradient rows top l pos interpolate (V3 f0 f0 f0) = Ok (ok, g)).
  { destruct (gradient_spec KEsdf l rows top pos interpolate (V3 f0 f0 f0) D BL W OR BD D0) as (b & dd & _ & _ & G1 & G2 & G3).
    destruct b as [b|]; [|do 2 eexists; apply G1; reflexivity]. destruct (both_known dd); [destruct (G3 ltac:(discriminate) eq_refl) as (g & E & _)|destruct (G2 ltac:(discriminate) eq_refl) as (g & E)]; eauto. }
  destruct EG as (okg & g & EG).
  assert (EP : forall x, getDistanceAtPosition rows top l position interpolate x = Ok (match d with Some d => (true, f64_of_f32 d) | None => (false, x) end)).
  { intros x. unfold getDistanceAtPosition. fold pos. rewrite ED. reflexivity. }
  split; [|split].
  - rewrite EP. destruct d as [d|]; do 2 eexists; (split; [reflexivity|]); [discriminate|reflexivity].
  - unfold getDistanceAndGradientAtPosition. fold pos. rewrite ED. cbn [rbind].
    assert (R : exists dist, (match d with Some d => Ok d | None => if interpolate then Ok f0 else nearest_raw l pos end) = Ok dist /\ (forall x, d = Some x -> dist = x)).
    { destruct d as [d|]; [eexists; split; [reflexivity|congruence]|]. destruct interpolate; [eexists; split; [reflexivity|discriminate]|].
      unfold nearest_raw. rewrite EN. eexists; split; [reflexivity|discriminate]. }
    destruct R as (dist & ER & HD). rewrite ER. cbn [rbind]. rewrite EG. cbn [rbind fst snd]. do 3 eexists. split; [reflexivity|].
    rewrite EP. destruct d as [d|]; [|split; [split; [discriminate|intros ((x & X) & _); discriminate]|discriminate]].
    rewrite (HD d eq_refl). split.
    + split; [intros ->; split; eexists; reflexivity|]. intros (_ & (g' & E)). congruence.
    + intros ->. split; [reflexivity|]. exists g. auto.
  - assert (EP0 : forall x, getDistanceAtPosition rows top l position false x = Ok (match option_map (getVoxelSdf KEsdf) (observed_at l c) with Some d => (true, f64_of_f32 d) | None => (false, x) end)).
    { intros x. unfold getDistanceAtPosition. cbn [getDistance]. fold pos. rewrite EO. reflexivity. }
    unfold isObserved. fold pos. rewrite EN. cbn [rbind]. eexists. split; [reflexivity|]. rewrite EP0. unfold observed_at.
    destruct (voxel_at l c) as [v|]; [|split; [discriminate|intros (x & X); discriminate]]. cbn [isObservedVoxel].
    destruct (e_observed v); [split; [intros _; eexists; reflexivity|reflexivity]|split; [discriminate|intros (x & X); discriminate]].
Qed.
Print Assumptions C78_map.

(** A block of 4x4x4 voxels of 1 m, all observed, holding x + 2 y + 3 z of the voxel index. *)
Open Scope Z_scope.
Definition gv (i : nat) : EsdfVoxel :=
  let i := Z.of_nat i in MkEsdf (f32_of_Z (i mod 4 + 2 * (i / 4 mod 4) + 3 * (i / 16))) true false false false (V3 0 0 0).
Definition gblock : Block KEsdf := set_voxels (k := KEsdf) (map gv (seq 0 64)) (new_block (k := KEsdf) 4 f1 (new_block_origin 4 f1 (V3 0 0 0))).
Definition grid : Layer KEsdf := MkLayer (k := KEsdf) f1 4 [(V3 0 0 0, gblock)].
Definition lin : nat -> sum_order := fun _ => lin_order.
Lemma grid_orders : orders lin lin_order.
Proof. split; [intros; apply lin_complete|apply lin_complete]. Qed.
Lemma grid_built : built_layer grid.
Proof.
  split; [|split; [cbn; lia|]].
  - split; [reflexivity|]. change (FR (l_size grid)) with (FR f1). rewrite f1_R. split; change 1%R with (bpow radix2 0); apply bpow_le; lia.
  - intros i b H. change (l_vps grid) with 4. change (l_size grid) with f1. unfold l_get, grid in H. cbn [l_blocks alookup] in H.
    destruct (idx_eqb_spec i (V3 0 0 0)) as [->|N0]; [injection H as <-; repeat split|]. discriminate.
Qed.
Lemma grid_voxel : forall g v, voxel_at grid g = Some v ->
  0 <= vx g < 4 /\ 0 <= vy g < 4 /\ 0 <= vz g < 4 /\ e_distance v = f32_of_Z (vx g + 2 * vy g + 3 * vz g).
Proof.
  intros [x y z] v H. unfold voxel_at in H. change (l_vps grid) with 4 in H. unfold map3 in H. cbn [vx vy vz] in *.
  unfold l_get, grid in H. cbn [l_blocks alookup] in H. destruct (idx_eqb_spec (V3 (x / 4) (y / 4) (z / 4)) (V3 0 0 0)) as [E|N]; [|discriminate].
  injection E as E1 E2 E3.
  assert (X : 0 <= x < 4) by (pose proof (Z.div_mod x 4 ltac:(lia)); pose proof (Z.mod_pos_bound x 4 ltac:(lia)); lia).
  assert (Y : 0 <= y < 4) by (pose proof (Z.div_mod y 4 ltac:(lia)); pose proof (Z.mod_pos_bound y 4 ltac:(lia)); lia).
  assert (Z' : 0 <= z < 4) by (pose proof (Z.div_mod z 4 ltac:(lia)); pose proof (Z.mod_pos_bound z 4 ltac:(lia)); lia).
  rewrite !Z.mod_small in H by lia. split; [exact X|]. split; [exact Y|]. split; [exact Z'|].
  change (b_voxels gblock) with (map gv (seq 0 64)) in H. rewrite nth_error_map in H.
  destruct (nth_error (seq 0 64) (Z.to_nat (x + 4 * (y + 4 * z)))) as [j|] eqn:J; [|discriminate]. cbn [option_map] in H. injection H as <-.
  assert (EJ : j = Z.to_nat (x + 4 * (y + 4 * z))).
  { assert (L : (Z.to_nat (x + 4 * (y + 4 * z)) < 64)%nat) by lia. pose proof (seq_nth 0%nat 0%nat L) as SN. apply nth_error_nth with (d := 0%nat) in J. cbn [Nat.add] in SN. etransitivity; [symmetry; exact J|exact SN]. }
  subst j. unfold gv. cbn [e_distance]. f_equal. rewrite Z2Nat.id by lia.
  replace (x + 4 * (y + 4 * z)) with (x + (y + 4 * z) * 4) by ring. rewrite Z.mod_add, Z.div_add by lia. rewrite (Z.mod_small x), (Z.div_small x) by lia.
  rewrite Z.add_0_l. replace (y + 4 * z) with (y + z * 4) by ring. rewrite Z.mod_add by lia. rewrite (Z.mod_small y) by lia.
  replace ((x + (y + z * 4) * 4) / 16) with z; [ring|]. replace (x + (y + z * 4) * 4) with ((x + y * 4) + z * 16) by ring. rewrite Z.div_add by lia. rewrite Z.div_small by lia. ring.
Qed.
Lemma grid_bounded : bounded grid 18.
Proof.
  intros g v H. destruct (grid_voxel g v H) as (X & Y & Z' & E). cbn [getVoxelSdf]. rewrite E.
  destruct (f32_of_Z_R (vx g + 2 * vy g + 3 * vz g) ltac:(lia)) as (E1 & F1). split; [exact F1|]. rewrite E1, <- abs_IZR. apply IZR_le. lia.
Qed.
Lemma grid_planar : planar grid (-3) (V3 1%R 2%R 3%R) 0.
Proof.
  intros g v H. assert (V : voxel_at grid g = Some v) by (unfold observed_at in H; destruct (voxel_at grid g) as [w|]; [|discriminate]; destruct (isObservedVoxel KEsdf w); congruence).
  destruct (grid_voxel g v V) as (X & Y & Z' & E). cbn [getVoxelSdf]. rewrite E.
  destruct (f32_of_Z_R (vx g + 2 * vy g + 3 * vz g) ltac:(lia)) as (E1 & F1). rewrite E1. change (l_size grid) with f1. rewrite f1_R.
  unfold plane, centre, map3. cbn [vx vy vz]. rewrite !plus_IZR, !mult_IZR. apply Rabs_le. lra.
Qed.
Definition q222 : pt3 := V3 (f32_of_Z 2) (f32_of_Z 2) (f32_of_Z 2).
Lemma q222_within : within 2 (l_size grid) q222.
Proof.
  change (l_size grid) with f1. destruct (f32_of_Z_R 2 ltac:(lia)) as (E & F).
  assert (A : ffin (f32_of_Z 2) = true /\ (Rabs (FR (f32_of_Z 2) / FR f1) <= 2)%R). { split; [exact F|]. rewrite E, f1_R. unfold Rdiv. rewrite Rinv_1, Rmult_1_r, Rabs_pos_eq by lra. lra. }
  exact (conj A (conj A A)).
Qed.
Definition is_pt (p : pt3) (x y z : f32) : bool := (fword (vx p) =? fword x) && (fword (vy p) =? fword y) && (fword (vz p) =? fword z).
(** in the middle of the block the queries succeed: the distance is 9, the gradient (1, 2, 3) *)
Example grid_gradient : match getGradient lin lin_order grid q222 true (V3 f0 f0 f0) with
  | Ok (true, g) => is_pt g f1 (f32_of_Z 2) (f32_of_Z 3) | _ => false end = true.
Proof. vm_compute. reflexivity. Qed.
Example grid_adaptive : match getAdaptive lin lin_order grid q222 with
  | Ok (Some (d, g)) => (fword d =? fword (f32_of_Z 9)) && is_pt g f1 (f32_of_Z 2) (f32_of_Z 3) | _ => false end = true.
Proof. vm_compute. reflexivity. Qed.
(** in a corner voxel only one-sided differences exist: the adaptive query still answers *)
Definition quarter : f32 := fdiv f1 (f32_of_Z 4).
Example grid_corner : match getGradient lin lin_order grid (V3 quarter quarter quarter) true (V3 f0 f0 f0), getAdaptive lin lin_order grid (V3 quarter quarter quarter) with
  | Ok (false, _), Ok (Some (d, g)) => (fword d =? fword (fdiv (f32_of_Z (-3)) (f32_of_Z 2))) && is_pt g f1 (f32_of_Z 2) (f32_of_Z 3) | _, _ => false end = true.
Proof. vm_compute. reflexivity. Qed.
Example grid_map : match getDistanceAtPosition lin lin_order grid (V3 (f64_of_Z 2) (f64_of_Z 2) (f64_of_Z 2)) true d0, isObserved grid (V3 (f64_of_Z 2) (f64_of_Z 2) (f64_of_Z 2)) with
  | Ok (true, d), Ok b => feq (f32_of_f64 d) (f32_of_Z 9) && b | _, _ => false end = true.
Proof. vm_compute. reflexivity. Qed.

(** Not so: a failed gradient query reports no gradient. The sums of the axes treated
    before the failure remain in the output, not yet divided by the distance between
    the samples: at z = 3.5 the query fails and reports twice the slope in x and y. *)
Theorem C78_failure_refuted : ~ (forall rows top (l : Layer KEsdf) position d g,
  built_layer l -> orders rows top -> getDistanceAndGradientAtPosition rows top l position true = Ok (false, d, g) ->
  vx g = d0 /\ vy g = d0 /\ vz g = d0).
Proof.
  intros H.
  assert (X : match getDistanceAndGradientAtPosition lin lin_order grid (V3 (f64_of_Z 2) (f64_of_Z 2) (f64_of_f32 (fdiv (f32_of_Z 13) (f32_of_Z 4)))) true with
     | Ok (false, _, g) => feq (f32_of_f64 (vx g)) (f32_of_Z 2) && feq (f32_of_f64 (vy g)) (f32_of_Z 4) | _ => false end = true) by (vm_compute; reflexivity).
  destruct (getDistanceAndGradientAtPosition lin lin_order grid (V3 (f64_of_Z 2) (f64_of_Z 2) (f64_of_f32 (fdiv (f32_of_Z 13) (f32_of_Z 4)))) true) as [[[[|] d] g]| |] eqn:E; [discriminate| |discriminate|discriminate].
  destruct (H _ _ _ _ _ _ grid_built grid_orders E) as (G & _). apply andb_prop in X. destruct X as (X & _). rewrite G in X. assert (Y : feq (f32_of_f64 d0) (f32_of_Z 2) = false) by (vm_compute; reflexivity). rewrite Y in X. discriminate.
Qed.
Print Assumptions C78_failure_refuted.
