(** C87: what a robot position tells the ESDF map. *)
From Coq Require Import ZArith List Bool Reals Lra Lia Permutation.
From Flocq Require Import Core.
From Verif Require Import F32 F32_lemmas Types Assoc Assoc_lemmas Index Index_float Voxel Layer Planning Queue Queue_proofs Threads Threads_proofs
  Connect_proofs Neighbor_proofs Esdf Esdf_spec Esdf_proofs Esdf_range Esdf_open Esdf_term Esdf_total Raise_spec Interp_spec Sphere_spec P_Sphere Robot_spec Robot_proofs.
Import ListNotations.
Open Scope Z_scope.
Ltac Zify.zify_post_hook ::= idtac.

(** C87. For every integrator with a valid configuration whose queue was filled by
    pushes, every position and every two radii in range, adding the position ends. Of
    the inner sphere, voxels that were never seen or only assumed become free at the
    default distance; of the rest of the outer sphere, voxels never seen become
    occupied. Both are marked as hallucinated and keep no parent. Every other voxel
    keeps its value. The formerly assumed voxels of the inner sphere are scheduled to
    be raised, the blocks of the overwritten voxels to be updated, and the voxels of
    the outer sphere that were not overwritten as occupied are queued once with their
    distances, unless they were marked as queued. *)
Theorem C87_robot : forall c fuel p st0 st n, sphere_layer (es_layer st) -> point_in_range (l_size (es_layer st)) p ->
  radius_in_range (l_size (es_layer st)) (ec_clear_r c) -> radius_in_range (l_size (es_layer st)) (ec_occ_r c) ->
  (2 * (FR (ec_clear_r c) / FR (l_size (es_layer st))) + 3 < INR fuel)%R -> (2 * (FR (ec_occ_r c) / FR (l_size (es_layer st))) + 3 < INR fuel)%R ->
  valid_config c (l_size (es_layer st)) ->
  (forall h w, at_index (k := KEsdf) (es_layer st) h = Some w -> e_observed w = true -> queueable c (e_distance w)) ->
  idle c st0 -> pushes (es_open st0) n (es_open st) -> Z.of_nat n + 2 ^ 58 < 2 ^ 64 ->
  exists m1 m2 st' qs,
    getSphereAroundPoint fuel (es_layer st) p (ec_clear_r c) = Ok (Some m1) /\ getSphereAroundPoint fuel (es_layer st) p (ec_occ_r c) = Ok (Some m2) /\
    addNewRobotPosition c fuel p st = Ok (Some st') /\
    let near := voxels_of (l_vps (es_layer st)) m1 in let far := voxels_of (l_vps (es_layer st)) m2 in
    robot_effect c (es_layer st) (es_layer st') near far /\
    es_raise st' = es_raise st ++ filter (fun g => e_hallucinated (value_at (es_layer st) g)) near /\
    (forall i, In i (es_updated st') <-> In i (es_updated st) \/ exists g, overwritten (es_layer st) near far g /\ block_of (l_vps (es_layer st)) g = i) /\
    queued (es_open st) qs (es_open st') /\ NoDup (map fst qs) /\
    (forall g d, In (g, d) qs <-> In g far /\ (e_observed (value_at (es_layer st) g) = true \/ In g near) /\ e_in_queue (value_at (es_layer st) g) = false /\
       d = e_distance (value_at (es_layer st') g)).
Proof.
  intros c fuel p st0 st n SL PC R1 R2 F1 F2 V QU ID PU L.
  assert (QI : exists pd, qinv (es_open st) pd /\ qconf c (es_open st) /\ length pd = n).
  { assert (L1 : Z.of_nat n < 2 ^ 64) by lia.
    destruct (idle_qinv c _ V _ ID) as (Q1 & Q2). clear - PU Q1 Q2 L1. induction PU as [q | q n q1 g d q2 PU IH H]; [exists []; auto|].
    destruct (IH ltac:(lia) Q1 Q2) as (pd & P1 & P2 & P3). destruct (push_inv q1 pd g d q2 P1 ltac:(lia) H) as (i & P4).
    exists (pd ++ [(i, g)]). split; [exact P4|]. split; [|rewrite app_length, P3; cbn [length]; lia].
    unfold bq_push in H. destruct (bq_num q1 =? 0); [discriminate|]. destruct (bucket_of _ _ _); [|discriminate]. apply rbind_ok in H. destruct H as (bs & _ & H). injection H as <-. exact P2. }
  destruct QI as (pd & P1 & P2 & P3).
  destruct (robot_whole c fuel p st pd SL PC R1 R2 F1 F2 V QU P1 P2 ltac:(rewrite P3; exact L)) as (m1 & m2 & st' & qs & A1 & A2 & A3 & A4 & _ & A5).
  exists m1, m2, st', qs. split; [exact A1|]. split; [exact A2|]. split; [exact A3|]. split; [exact A4|exact A5].
Qed.
Print Assumptions C87_robot.

(** Clearing the integrator leaves the map as it is and makes it idle, whatever was
    waiting. *)
Theorem C87_clear : forall c st0 st n, valid_config c (l_size (es_layer st)) -> idle c st0 -> pushes (es_open st0) n (es_open st) ->
  es_layer (esdf_clear st) = es_layer st /\ es_updated (esdf_clear st) = [] /\ idle c (esdf_clear st).
Proof.
  intros c st0 st n V [I1 I2 I3 I4 I5 _] PU. split; [reflexivity|]. split; [reflexivity|].
  assert (Q : bq_num (es_open st) = ec_buckets c /\ bq_max (es_open st) = f64_of_f32 (ec_max c)).
  { clear - PU I1 I2. induction PU as [q | q n q1 g d q2 PU IH H]; [auto|]. destruct (IH I1 I2) as (J1 & J2).
    unfold bq_push in H. destruct (bq_num q1 =? 0); [discriminate|]. destruct (bucket_of _ _ _); [|discriminate]. apply rbind_ok in H. destruct H as (bs & _ & H). injection H as <-. auto. }
  destruct Q as (Q1 & Q2). unfold esdf_clear. constructor; cbn [es_open bq_clear bq_num bq_max bq_buckets bq_last bq_count es_raise]; auto; [|lia]. rewrite Q1. reflexivity.
Qed.
Print Assumptions C87_clear.

(** *** a case: 1 m voxels; (0,0,0) was assumed occupied, (1,0,0) was seen at half a
    metre, the rest of the block was never seen; radii of 2 m and 3 m *)
Definition c_bot : econfig := MkEC false (f32_of_Z 2) f1 (f32_of_Z 2) (fbits 0x3a83126f) (fbits 0x358637bd) 20 false false (f32_of_Z 2) (f32_of_Z 3).
Definition l_bot : Layer KEsdf := MkLayer (k := KEsdf) f1 2 [(V3 0 0 0, set_voxels (k := KEsdf)
  (MkEsdf (f32_of_Z (-2)) true true false false zero3 :: MkEsdf half true false false true zero3 :: repeat (vdefault KEsdf) 6)
  (new_block (k := KEsdf) 2 f1 (new_block_origin 2 f1 (V3 0 0 0))))].
Definition st_bot : estate := MkES l_bot (bq_setNum (bq_new 0 d0) 20 (f64_of_f32 (ec_max c_bot))) [] [].
Lemma l_bot_ok : sphere_layer l_bot.
Proof.
  split; constructor; try split.
  - exists 1. split; [lia|reflexivity].
  - unfold l_get, l_bot in H. cbn [l_blocks alookup] in H. destruct (idx_eqb_spec i (V3 0 0 0)) as [->|]; [|discriminate].
    injection H as <-. reflexivity.
  - unfold l_get, l_bot in H. cbn [l_blocks alookup] in H. destruct (idx_eqb_spec i (V3 0 0 0)) as [->|]; [|discriminate].
    injection H as <-. split; [reflexivity|]. repeat split.
  - reflexivity.
  - change (FR (l_size l_bot)) with (FR f1). apply f1_sane.
  - change (l_vps l_bot) with 2. lia.
  - intros i b H. unfold l_get, l_bot in H. cbn [l_blocks alookup] in H. destruct (idx_eqb_spec i (V3 0 0 0)) as [->|]; [|discriminate].
    injection H as <-. repeat split.
Qed.
Lemma c_bot_ok : valid_config c_bot f1.
Proof.
  assert (P : forall a, ffin a = true -> flt f0 a = true -> (0 < FR a)%R) by (intros a F H; apply (flt_R f0 a eq_refl F) in H; exact H).
  destruct (f32_of_Z_R 2 ltac:(lia)) as (E & F). constructor; cbn [c_bot ec_min_diff ec_default ec_max ec_min ec_buckets]; rewrite ?E, ?f1_R.
  - split; [reflexivity|]. apply Rlt_le, P; reflexivity.
  - split; [exact F|lra].
  - split; [exact F|]. split; [lra|]. apply Rlt_le_trans with (bpow radix2 2); [cbn; lra|]. apply bpow_le. lia.
  - split; [reflexivity|lra].
  - lia.
  - split; [reflexivity|lra].
Qed.
Definition bot_check : bool :=
  match addNewRobotPosition c_bot 11 mid st_bot with
  | Ok (Some st) =>
      match at_index (k := KEsdf) (es_layer st) (V3 0 0 0), at_index (k := KEsdf) (es_layer st) (V3 1 0 0), at_index (k := KEsdf) (es_layer st) (V3 0 1 0), at_index (k := KEsdf) (es_layer st) (V3 2 1 0) with
      | Some a, Some b, Some d, Some e =>
          Z.eqb (fword (e_distance (a : EsdfVoxel))) (fword (f32_of_Z 2)) && Z.eqb (fword (e_distance (b : EsdfVoxel))) (fword half) &&
          Z.eqb (fword (e_distance (d : EsdfVoxel))) (fword (f32_of_Z 2)) && Z.eqb (fword (e_distance (e : EsdfVoxel))) (fword (f32_of_Z (-2))) && negb (length (es_raise st) =? 0)%nat
      | _, _, _, _ => false
      end
  | _ => false
  end.
Example C87_case : sphere_layer (es_layer st_bot) /\ point_in_range (l_size (es_layer st_bot)) mid /\
  radius_in_range (l_size (es_layer st_bot)) (ec_clear_r c_bot) /\ radius_in_range (l_size (es_layer st_bot)) (ec_occ_r c_bot) /\
  (2 * (FR (ec_clear_r c_bot) / FR (l_size (es_layer st_bot))) + 3 < INR 11)%R /\ (2 * (FR (ec_occ_r c_bot) / FR (l_size (es_layer st_bot))) + 3 < INR 11)%R /\
  valid_config c_bot (l_size (es_layer st_bot)) /\
  (forall h w, at_index (k := KEsdf) (es_layer st_bot) h = Some w -> e_observed w = true -> queueable c_bot (e_distance w)) /\
  idle c_bot st_bot /\ pushes (es_open st_bot) 0 (es_open st_bot) /\ Z.of_nat 0 + 2 ^ 58 < 2 ^ 64 /\ bot_check = true.
Proof.
  change (l_size (es_layer st_bot)) with f1. destruct (f32_of_Z_R 2 ltac:(lia)) as (E & _). destruct (f32_of_Z_R 3 ltac:(lia)) as (E3 & _).
  split; [exact l_bot_ok|]. split; [exact mid_range|]. split; [apply radius_ok; lia|]. split; [apply radius_ok; lia|].
  split; [cbn [c_bot ec_clear_r]; rewrite E, f1_R; cbn [INR]; lra|]. split; [cbn [c_bot ec_occ_r]; rewrite E3, f1_R; cbn [INR]; lra|].
  split; [exact c_bot_ok|]. split.
  { assert (V : forall v : EsdfVoxel, In v (MkEsdf (f32_of_Z (-2)) true true false false zero3 :: MkEsdf half true false false true zero3 :: repeat (vdefault KEsdf) 6) -> e_observed v = true -> queueable c_bot (e_distance v)).
    { intros v [<- | [<- | I]] O; cbn [e_distance]; unfold queueable; cbn [c_bot ec_max]; rewrite E.
      - split; [reflexivity|]. destruct (f32_of_Z_R (-2) ltac:(lia)) as (E' & F'). rewrite ER_fin, E' by exact F'. lra.
      - split; [reflexivity|]. destruct half_R as (E' & F'). rewrite ER_fin, E' by exact F'. lra.
      - apply repeat_spec in I. subst v. discriminate O. }
    intros h w H. apply V. rewrite at_index_ptr in H. destruct (voxel_ptr (es_layer st_bot) h) as [[a|]| |]; try discriminate. unfold vat in H.
    destruct (l_get (es_layer st_bot) (fst a)) as [b|] eqn:G; [|discriminate]. unfold l_get, st_bot, l_bot in G. cbn [es_layer l_blocks alookup] in G. destruct (idx_eqb (fst a) (V3 0 0 0)); [|discriminate]. injection G as <-.
    apply nth_error_In in H. exact H. }
  split; [|split; [constructor|split; [reflexivity|vm_compute; reflexivity]]].
  constructor; try reflexivity; vm_compute; discriminate.
Qed.
