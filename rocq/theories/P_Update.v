(** C22 (TSDF voxel bounds), C23 (occupancy clamping), C56 (concurrent updates),
    C60 (weighted mean) and C61 (projective distance). *)
From Coq Require Import ZArith List Bool Reals Lra Lia.
From Flocq Require Import Core IEEE754.Binary.
From Verif Require Import F32 F32_lemmas F32_err Types Index Voxel Layer Merge_proofs Threads Queue Update Update_spec
  Update_proofs Dist_proofs Lock_proofs.
Import ListNotations.
Open Scope R_scope.

Local Opaque blendTwoColors req_sdf req_weight.

(** ** C22 *)
(** Every sequence of updates of a fresh voxel, with any float arguments, leaves
    the distance in the truncation band and the weight in [0, max_weight]. *)
Theorem C22_bounds : forall cfg vs qs v, cfg_ok cfg ->
  updates cfg vs qs (vdefault KTsdf) = Ok v -> voxel_in cfg v.
Proof.
  intros cfg vs qs v C H. refine (updates_bounds cfg vs qs (vdefault KTsdf) v C _ H).
  destruct C as (A & B & D & E). unfold voxel_in. cbn [vdefault t_distance t_weight]. change (FR f0) with 0.
  repeat split; auto; lra.
Qed.
Print Assumptions C22_bounds.

(** A non-negative observation weight never lowers the weight of a voxel. *)
Theorem C22_weight_monotone : forall cfg vs qs q v v', cfg_ok cfg ->
  updates cfg vs qs (vdefault KTsdf) = Ok v ->
  nneg (q_weight q) -> (c_sparsity cfg = true -> nneg (c_factor cfg)) ->
  updateTsdfVoxel cfg vs q v = Ok v' -> FR (t_weight v) <= FR (t_weight v').
Proof.
  intros cfg vs qs q v v' C H Hq Hf H'. exact (update_weight_mono cfg vs q v v' C (C22_bounds cfg vs qs v C H) Hq Hf H').
Qed.
Print Assumptions C22_weight_monotone.

(** The updates are defined (the colour casts do not overflow) for every origin,
    point and voxel, NaN and infinities included, as soon as the observation
    weights are finite and not negative. *)
Theorem C22_defined : forall cfg vs qs, cfg_ok cfg -> cfg_small cfg -> ffin vs = true -> 0 < FR vs ->
  Forall (fun q => ffin (q_weight q) = true /\ 0 <= FR (q_weight q) <= bpow radix2 100 /\ color_ok (q_color q)) qs ->
  exists v, updates cfg vs qs (vdefault KTsdf) = Ok v /\ voxel_in cfg v /\ color_ok (t_color v).
Proof.
  intros cfg vs qs C S F P H.
  destruct (updates_defined cfg vs qs (vdefault KTsdf) C S F P H) as (v & E & V).
  - destruct C as (A & B & D & G). unfold voxel_in. cbn [vdefault t_distance t_weight]. change (FR f0) with 0.
    repeat split; auto; lra.
  - unfold color_ok, is_byte. cbn. lia.
  - exists v. split; [auto|]. split; [eapply C22_bounds; eauto|auto].
Qed.
Print Assumptions C22_defined.

(** the default configuration: truncation 0.1, maximum weight 10000 *)
Definition cfg_ex : TsdfConfig := MkTC (fbits 0x3dcccccd) (f32_of_Z 10000) false true false f1.
Definition vs_ex : f32 := fbits 0x3d4ccccd. (* 0.05 *)
Example cfg_ex_ok : cfg_ok cfg_ex /\ cfg_small cfg_ex /\ ffin vs_ex = true /\ 0 < FR vs_ex.
Proof.
  assert (E1 : FR (fbits 0x3dcccccd) = IZR 13421773 * bpow radix2 (-27)) by reflexivity.
  assert (E2 : FR vs_ex = IZR 13421773 * bpow radix2 (-28)) by reflexivity.
  destruct (f32_of_Z_R 10000 ltac:(lia)) as (E3 & F3). destruct (f32_of_Z_R 1 ltac:(lia)) as (E4 & F4).
  pose proof (bpow_gt_0 radix2 (-27)) as P1. pose proof (bpow_gt_0 radix2 (-28)) as P2.
  unfold cfg_ok, cfg_small, cfg_ex, f1. cbn [c_trunc c_max_weight c_factor]. rewrite E1, E2, E3, E4.
  assert (B27 : bpow radix2 (-27) = / 134217728) by reflexivity. assert (B20 : bpow radix2 20 = 1048576) by reflexivity.
  assert (bpow radix2 20 <= bpow radix2 100) by (apply bpow_le; lia).
  repeat split; auto; try lra; reflexivity.
Qed.

(** point one metre ahead of the origin; a NaN point; an infinite point *)
Definition pt_ex (x : f32) : pt3 := V3 x f0 f0.
Definition q_ex (x w : f32) (i : Z) (r : Z) : request :=
  MkReq (V3 f0 f0 f0) (pt_ex x) (V3 i 0 0)%Z (MkColor r 10 20 255) w.
Definition qs_ex : list request :=
  [ q_ex f1 f1 19 200; q_ex nan32 f1 19 1; q_ex (B754_infinity 24 128 false) f1 19 2; q_ex f1 f1 19 100 ].
Definition tsdf_words (r : res TsdfVoxel) : option (Z * Z * Color) :=
  match r with Ok v => Some (fword (t_distance v), fword (t_weight v), t_color v) | _ => None end.
(** after the NaN point the distance is -truncation; it recovers afterwards *)
Example updates_ex :
  tsdf_words (updates cfg_ex vs_ex (firstn 1 qs_ex) (vdefault KTsdf)) = Some (0x3cccccc0, 0x3f800000, MkColor 200 10 20 255)%Z /\
  tsdf_words (updates cfg_ex vs_ex (firstn 2 qs_ex) (vdefault KTsdf)) = Some (0xbdcccccd, 0x40000000, MkColor 200 10 20 255)%Z /\
  match tsdf_words (updates cfg_ex vs_ex qs_ex (vdefault KTsdf)) with Some (_, w, _) => Z.eqb w 0x40800000 | None => false end = true.
Proof. vm_compute. repeat split. Qed.
Example qs_ex_ok : Forall (fun q => ffin (q_weight q) = true /\ 0 <= FR (q_weight q) <= bpow radix2 100 /\ color_ok (q_color q)) qs_ex.
Proof.
  destruct (f32_of_Z_R 1 ltac:(lia)) as (E4 & F4).
  assert (1 <= bpow radix2 100) by (change 1 with (bpow radix2 0); apply bpow_le; lia).
  unfold qs_ex, q_ex. repeat apply Forall_cons; try apply Forall_nil; cbn [q_weight q_color]; unfold f1; rewrite E4;
    (split; [exact F4|split; [lra|unfold color_ok, is_byte; cbn [cr cg cb ca]; lia]]).
Qed.

(** ** C60: the stored distance is the clipped weighted mean *)
(** An update that is not skipped stores the weighted mean of the old distance
    and the measured distance, limited to the truncation band, up to a relative
    error of 2^-20, and adds the weights. *)
Theorem C60_weighted_mean : forall cfg vs qs q v v', cfg_ok cfg ->
  FR (c_trunc cfg) <= bpow radix2 40 -> FR (c_max_weight cfg) <= bpow radix2 40 ->
  updates cfg vs qs (vdefault KTsdf) = Ok v ->
  let sdf := req_sdf vs q in let w := req_weight cfg vs q in
  fin_upto 40 sdf -> fin_upto 40 w -> 0 <= FR w ->
  fle kEpsilon (fadd (t_weight v) w) = true ->
  updateTsdfVoxel cfg vs q v = Ok v' ->
  Rabs (FR (t_distance v') -
        clipR (FR (c_trunc cfg)) ((FR sdf * FR w + FR (t_distance v) * FR (t_weight v)) / (FR w + FR (t_weight v))))
    <= bpow radix2 (-20) * Rmax (Rabs (FR sdf)) (Rabs (FR (t_distance v))) + bpow radix2 (-120) /\
  FR (t_weight v') = Rmin (FR (c_max_weight cfg)) (rnd32 (FR (t_weight v) + FR w)).
Proof.
  intros cfg vs qs q v v' C BT BM H sdf w US UW PW E H'.
  apply (update_mean cfg vs q v v' C (C22_bounds cfg vs qs v C H) BT BM US UW PW); auto.
  apply flt_false_iff. apply fle_iff in E. tauto.
Qed.
Print Assumptions C60_weighted_mean.
(** a skipped update (total weight below 1e-6) changes nothing *)
Theorem C60_skip : forall cfg vs q v, flt (fadd (t_weight v) (req_weight cfg vs q)) kEpsilon = true ->
  updateTsdfVoxel cfg vs q v = Ok v.
Proof. intros cfg vs q v H. unfold updateTsdfVoxel. cbv zeta. rewrite H. apply eq_refl. Qed.
Print Assumptions C60_skip.

(** the second of two observations of a voxel meets the hypotheses: all values
    are finite, at most 1, and the update changes the distance *)
Definition C60_check : bool :=
  let q := q_ex f1 f1 20 100 in
  match updates cfg_ex vs_ex (firstn 1 qs_ex) (vdefault KTsdf) with
  | Ok v =>
      match updateTsdfVoxel cfg_ex vs_ex q v with
      | Ok v' =>
          fle kEpsilon (fadd (t_weight v) (req_weight cfg_ex vs_ex q)) &&
          ffin (req_sdf vs_ex q) && fle (fabs (req_sdf vs_ex q)) f1 &&
          ffin (req_weight cfg_ex vs_ex q) && fle f0 (req_weight cfg_ex vs_ex q) && fle (req_weight cfg_ex vs_ex q) f1 &&
          negb (Z.eqb (fword (t_distance v)) (fword (t_distance v')))
      | _ => false
      end
  | _ => false
  end.
Example C60_example : C60_check = true.
Proof. vm_compute. reflexivity. Qed.

(** ** C61: the measured distance *)
(** For coordinates up to 2^40 m and a point and a voxel centre at least 2^-30 m
    away from the sensor the computed distance is the projective distance up to
    a relative error of 2^-19 of the two ranges. *)
Theorem C61_projective_distance : forall o p c,
  all3 (fin_upto 40) o -> all3 (fin_upto 40) p -> all3 (fin_upto 40) c ->
  bpow radix2 (-30) <= normR (sub3R p o) -> bpow radix2 (-30) <= normR (sub3R c o) ->
  ffin (computeDistance o p c) = true /\
  Rabs (FR (computeDistance o p c) - projective o p c)
    <= bpow radix2 (-19) * (normR (sub3R p o) + normR (sub3R c o)).
Proof. exact computeDistance_err. Qed.
Print Assumptions C61_projective_distance.

(** a voxel in front of the surface on the ray gets its positive distance, one
    behind it the negative distance: for a centre [o + s (p - o)] the exact value
    is (1 - s) times the range *)
Theorem C61_sign : forall o p c s, 0 < normR (sub3R p o) ->
  vx (sub3R c o) = s * vx (sub3R p o) -> vy (sub3R c o) = s * vy (sub3R p o) -> vz (sub3R c o) = s * vz (sub3R p o) ->
  projective o p c = (1 - s) * normR (sub3R p o).
Proof.
  intros o p c s P H1 H2 H3. unfold projective.
  assert (E : dotR (sub3R c o) (sub3R p o) = s * (normR (sub3R p o) * normR (sub3R p o))).
  { unfold normR. rewrite sqrt_sqrt by apply dotR_pos. unfold dotR. rewrite H1, H2, H3. ring. }
  rewrite E. field. lra.
Qed.
Print Assumptions C61_sign.
Example C61_example : all3 (fin_upto 40) (V3 f0 f0 f0) /\ all3 (fin_upto 40) (V3 f1 f0 f0) /\
  bpow radix2 (-30) <= normR (sub3R (V3 f1 f0 f0) (V3 f0 f0 f0)) /\
  projective (V3 f0 f0 f0) (V3 f1 f0 f0) (V3 (f32_of_Z 2) f0 f0) = -1.
Proof.
  destruct (f32_of_Z_R 1 ltac:(lia)) as (E & F). destruct (f32_of_Z_R 2 ltac:(lia)) as (E2 & F2).
  assert (Z0 : FR f0 = 0) by reflexivity.
  assert (N : normR (sub3R (V3 f1 f0 f0) (V3 f0 f0 f0)) = 1).
  { unfold normR, dotR, sub3R, f1. cbn [vx vy vz]. rewrite E, Z0. replace (_ + _ + _) with 1 by ring. apply sqrt_1. }
  assert (B : 1 <= bpow radix2 40) by (change 1 with (bpow radix2 0); apply bpow_le; lia).
  split; [|split; [|split]].
  - unfold all3, fin_upto. cbn [vx vy vz]. rewrite Z0, Rabs_R0. repeat split; try lra.
  - unfold all3, fin_upto, f1. cbn [vx vy vz]. rewrite Z0, E, Rabs_R0, Rabs_R1. repeat split; try lra.
  - rewrite N. change 1 with (bpow radix2 0). apply bpow_le. lia.
  - rewrite (C61_sign _ _ _ 2); [rewrite N; lra|rewrite N; lra|unfold sub3R; cbn [vx vy vz]; unfold f1; rewrite ?E, ?E2, ?Z0; lra..].
Qed.

(** ** C23 *)
Theorem C23_clamped : forall c os, occ_cfg_ok c -> os <> [] ->
  o_observed (occ_updates c os (vdefault KOcc)) = true /\ occ_in c (occ_updates c os (vdefault KOcc)).
Proof.
  intros c os C N. split; [apply occ_updates_observed; auto|]. apply occ_updates_in; auto.
  destruct C as (_ & _ & F1 & F2 & B). split; [reflexivity|]. cbn [vdefault o_log]. change (FR f0) with 0. lra.
Qed.
Print Assumptions C23_clamped.
(** observed from the first update on, for ever; a fresh voxel is not observed *)
Theorem C23_observed : forall c os v,
  o_observed (vdefault KOcc) = false /\ (os <> [] \/ o_observed v = true -> o_observed (occ_updates c os v) = true).
Proof. intros. split; [reflexivity|]. apply occ_updates_observed. Qed.
Print Assumptions C23_observed.
(** at the bound in the direction of the update nothing changes; otherwise the
    value moves in that direction or stays *)
Theorem C23_saturation : forall c (hit : bool) v,
  let u := if hit then oc_hit c else oc_miss c in
  (fle f0 u = true /\ fle (oc_max c) (o_log v) = true \/ fle u f0 = true /\ fle (o_log v) (oc_min c) = true) ->
  o_log (updateOccupancyVoxel c hit v) = o_log v.
Proof.
  intros c hit v u H. unfold updateOccupancyVoxel, fge. fold u. destruct H as [(A & B) | (A & B)]; rewrite A, B; cbn; auto.
  rewrite orb_true_r. auto.
Qed.
Print Assumptions C23_saturation.
Theorem C23_direction : forall c os (hit : bool), occ_cfg_ok c ->
  let v := occ_updates c os (vdefault KOcc) in
  let u := if hit then oc_hit c else oc_miss c in
  (fle f0 u = true -> FR (o_log v) <= FR (o_log (updateOccupancyVoxel c hit v))) /\
  (fle u f0 = true -> FR (o_log (updateOccupancyVoxel c hit v)) <= FR (o_log v)).
Proof.
  intros c os hit C v u. apply occ_update_dir; auto. apply occ_updates_in; auto.
  destruct C as (_ & _ & F1 & F2 & B). split; [reflexivity|]. cbn [vdefault o_log]. change (FR f0) with 0. lra.
Qed.
Print Assumptions C23_direction.
(** log odds of 0.65, 0.4, 0.12 and 0.97 (rounded); hits saturate *)
Definition occ_ex : OccConfig := MkOC (fbits 0x3f1e78b2) (fbits 0xbecf98d9) (fbits 0xbfff0300) (fbits 0x405e7bb0).
Example occ_ex_ok : occ_cfg_ok occ_ex.
Proof.
  unfold occ_cfg_ok, occ_ex. cbn [oc_hit oc_miss oc_min oc_max].
  assert (A : fle (fbits 0xbfff0300) f0 = true) by (vm_compute; reflexivity).
  assert (B : fle f0 (fbits 0x405e7bb0) = true) by (vm_compute; reflexivity).
  apply fle_R in A; [|reflexivity..]. apply fle_R in B; [|reflexivity..]. change (FR f0) with 0 in *.
  repeat split; auto.
Qed.
Example occ_ex_run : map (fun n => fword (o_log (occ_updates occ_ex (repeat true n) (vdefault KOcc)))) [0; 1; 7]%nat
  = [0; 0x3f1e78b2; 0x405e7bb0]%Z.
Proof. vm_compute. reflexivity. Qed.

(** ** C56 *)
(** Whatever the schedule, when all threads have returned the voxels are what the
    calls compute one after the other in some order that keeps each thread's
    order and contains every call exactly once. *)
Theorem C56_serializable : forall cfg vs mem progs sched,
  let s := urun cfg vs (uinit mem progs) sched in
  ufinished s -> exists o, interleaves progs o /\ serial_result cfg vs mem (us_mem s) o.
Proof.
  intros cfg vs mem progs sched s F.
  destruct (inv_run cfg vs mem progs sched _ _ (inv_init cfg vs mem progs)) as (o & I).
  exists o. exact (finished_serial cfg vs mem progs _ o I F).
Qed.
Print Assumptions C56_serializable.

(** While a thread is between locking and unlocking no other thread is inside an
    update of the same voxel (or of one that shares its mutex). *)
Theorem C56_exclusive : forall cfg vs mem progs sched t t' q q' pc pc' r r',
  let s := urun cfg vs (uinit mem progs) sched in
  nth_error (us_threads s) t = Some (MkUT pc (q :: r)) -> pc <> UIdle ->
  nth_error (us_threads s) t' = Some (MkUT pc' (q' :: r')) -> pc' <> UIdle ->
  q_idx q = q_idx q' -> t = t'.
Proof.
  intros cfg vs mem progs sched t t' q q' pc pc' r r' s H N H' N' E.
  destruct (inv_run cfg vs mem progs sched _ _ (inv_init cfg vs mem progs)) as (o & I).
  apply (crit_excl cfg vs mem progs s o t q pc t' q' pc' I); [exists r; auto|exists r'; auto|rewrite E; auto].
Qed.
Print Assumptions C56_exclusive.

(** No deadlock: from every reachable state the threads can all finish (for
    calls whose weights are finite and not negative, as in C22_defined). *)
Theorem C56_no_deadlock : forall cfg vs mem progs sched, cfg_ok cfg -> cfg_small cfg -> ffin vs = true -> 0 < FR vs ->
  (forall i, mem i = vdefault KTsdf) ->
  Forall (Forall (fun q => ffin (q_weight q) = true /\ 0 <= FR (q_weight q) <= bpow radix2 100 /\ color_ok (q_color q))) progs ->
  exists sched', ufinished (urun cfg vs (uinit mem progs) (sched ++ sched')).
Proof.
  intros cfg vs mem progs sched C S F P M Q.
  destruct (inv_run cfg vs mem progs sched _ _ (inv_init cfg vs mem progs)) as (o & I).
  destruct (can_finish cfg vs mem progs) with (n := total (us_threads (urun cfg vs (uinit mem progs) sched)))
    (s := urun cfg vs (uinit mem progs) sched) (o := o) as (sched' & FF); auto.
  - intros i qs Hqs. rewrite M. destruct (C22_defined cfg vs qs C S F P) as (v & E & _); [|eauto].
    apply Forall_forall. intros q Hq. apply Hqs in Hq. apply in_concat in Hq. destruct Hq as (p & Hp & Hq).
    rewrite Forall_forall in Q. specialize (Q p Hp). rewrite Forall_forall in Q. auto.
  - exists sched'. rewrite urun_app. auto.
Qed.
Print Assumptions C56_no_deadlock.

(** two threads, three calls on two voxels, interleaved: thread 1 is refused the
    mutex until thread 0 releases it *)
Definition progs_ex : list (list request) := [[q_ex f1 f1 19 200; q_ex f1 f1 20 200]; [q_ex (fbits 0x3f8ccccd) f1 19 100]].
Definition sched_ex : list nat :=
  [0; 1; 0; 1; 0; 1; 0; 1; 0; 0; 0; 0; 0; 1; 0; 1; 1; 0; 1; 0; 1; 0; 1; 1; 1; 0; 0; 0; 0]%nat.
Definition finished_b (s : ustate) : bool :=
  forallb (fun t => match ut_pc t, ut_todo t with UIdle, [] => true | _, _ => false end) (us_threads s).
Lemma finished_b_ok : forall s, finished_b s = true -> ufinished s.
Proof.
  intros s H t Ht. unfold finished_b in H. rewrite forallb_forall in H. specialize (H t Ht).
  destruct (ut_pc t), (ut_todo t); try discriminate; auto.
Qed.
Definition final_ex : ustate := urun cfg_ex vs_ex (uinit (fun _ => vdefault KTsdf) progs_ex) sched_ex.
Example C56_example : finished_b final_ex = true /\
  fword (t_weight (us_mem final_ex (V3 19 0 0)%Z)) = 0x40000000%Z /\ fword (t_weight (us_mem final_ex (V3 20 0 0)%Z)) = 0x3f800000%Z.
Proof. vm_compute. repeat split; reflexivity. Qed.
