(** Property C83: clouds of the voxels of a map. *)
From Coq Require Import ZArith List Bool Reals Lra Lia.
From Flocq Require Import Core IEEE754.Binary IEEE754.Bits.
From Verif Require Import Neighbor_proofs Assoc_lemmas F32 F32_lemmas F32_err Types Index Index_float Voxel Layer Ray MeshInt Mesh_spec Interp_spec Interp_axis ColorMap ColorMap_spec
  VoxCloud VoxCloud_spec VoxCloud_proofs VoxCloud_color.
Import ListNotations.
Open Scope Z_scope.
Ltac Zify.zify_post_hook ::= idtac.

Lemma when_iff : forall A (b : bool) (x : A) (Q : Prop), (b = true <-> Q) ->
  exists o, when b x = Ok o /\ forall a, o = Some a <-> Q /\ a = x.
Proof.
  intros A b x Q H. exists (if b then Some x else None). split; [reflexivity|]. intros a. destruct b.
  - split; [intros E; injection E as ->; split; [now apply H|reflexivity]|intros (_ & ->); reflexivity].
  - split; [discriminate|]. intros (q & _). apply H in q. discriminate.
Qed.
Lemma abs_lt : forall x d, ffin x = true -> dfin d = true -> (dlt (f64_of_f32 (fabs x)) d = true <-> (Rabs (FR x) < DR d)%R).
Proof.
  intros x d F D. assert (F' : ffin (fabs x) = true) by (rewrite fabs_fin; exact F). destruct (f64_of_f32_R _ F') as (E & G).
  rewrite (dlt_R _ _ G D), E, fabs_R. reflexivity.
Qed.
Lemma two : forall l (k := KTsdf) g v, numbers (k := k) l tsdf_vals -> voxel_at (k := k) l g = Some v -> ffin (t_distance v) = true /\ ffin (t_weight v) = true.
Proof. intros l k g v N E. pose proof (N g v E) as H. inversion H as [|a b H1 H2]; subst. inversion H2; subst. auto. Qed.
Lemma nonempty_iff : forall A (l : list A), nonempty l = true <-> l <> [].
Proof. intros A [|a l]; cbn; split; congruence. Qed.
Lemma milli_fin : ffin milli = true. Proof. reflexivity. Qed.

(** TSDF layers. The weights 0 and [FR milli] (1e-3 as a float) are the thresholds for "observed". *)
Theorem C83_tsdf : forall (l : Layer KTsdf), proper l -> numbers (k := KTsdf) l tsdf_vals ->
  (forall d, dfin d = true -> exists c, createSurfacePointcloudFromTsdfLayer l d = Ok c /\
     pictures l (fun _ (v : TsdfVoxel) a => (0 < FR (t_weight v) /\ Rabs (FR (t_distance v)) < DR d)%R /\ a = t_color v) c) /\
  (exists c, createPointcloudFromTsdfLayer l = Ok c /\
     pictures l (fun _ (v : TsdfVoxel) a => (0 < FR (t_weight v))%R /\ a = t_color v) c) /\
  (exists c, createDistancePointcloudFromTsdfLayer l = Ok c /\
     pictures l (fun _ (v : TsdfVoxel) a => (FR milli < FR (t_weight v))%R /\ a = t_distance v) c) /\
  (forall d, dfin d = true -> exists c, createSurfaceDistancePointcloudFromTsdfLayer l d = Ok c /\
     pictures l (fun _ (v : TsdfVoxel) a => (FR milli < FR (t_weight v) /\ Rabs (FR (t_distance v)) < DR d)%R /\ a = t_distance v) c) /\
  (exists c, createOccupancyBlocksFromTsdfLayer l = Ok c /\
     pictures l (fun _ (v : TsdfVoxel) a => (FR milli < FR (t_weight v) /\ FR (t_distance v) <= FR (l_size l))%R /\ a = tt) c).
Proof.
  intros l P N.
  assert (F : forall g v, voxel_at (k := KTsdf) l g = Some v -> ffin (t_distance v) = true /\ ffin (t_weight v) = true) by (intros; eapply two; eassumption).
  split; [|split; [|split; [|split]]].
  - intros d D. apply cloud_pictures; [exact P|]. intros g v E. destruct (F g v E) as (F1 & F2). apply when_iff.
    rewrite andb_true_iff, (abs_lt _ _ F1 D). unfold fgt. rewrite (flt_R f0 _ eq_refl F2). reflexivity.
  - apply cloud_pictures; [exact P|]. intros g v E. destruct (F g v E) as (F1 & F2). apply when_iff. unfold fgt. rewrite (flt_R f0 _ eq_refl F2). reflexivity.
  - apply cloud_pictures; [exact P|]. intros g v E. destruct (F g v E) as (F1 & F2). apply when_iff. apply flt_R; [exact milli_fin|exact F2].
  - intros d D. apply cloud_pictures; [exact P|]. intros g v E. destruct (F g v E) as (F1 & F2). apply when_iff.
    rewrite andb_true_iff, (abs_lt _ _ F1 D). unfold fgt. rewrite (flt_R _ _ milli_fin F2). reflexivity.
  - apply cloud_pictures; [exact P|]. intros g v E. destruct (F g v E) as (F1 & F2). apply when_iff.
    assert (FS : ffin (l_size l) = true) by (destruct P as ((S & _) & _); apply S).
    rewrite andb_true_iff. unfold fgt. rewrite (flt_R _ _ milli_fin F2), (fle_R _ _ F1 FS). reflexivity.
Qed.
Print Assumptions C83_tsdf.

(** ESDF layers *)
Theorem C83_esdf : forall (l : Layer KEsdf), proper l -> numbers (k := KEsdf) l esdf_vals ->
  (exists c, createDistancePointcloudFromEsdfLayer l = Ok c /\
     pictures l (fun _ (v : EsdfVoxel) a => e_observed v = true /\ a = e_distance v) c) /\
  (forall d, ffin d = true -> exists c, createFreePointcloudFromEsdfLayer l d = Ok c /\
     pictures l (fun _ (v : EsdfVoxel) a => (e_observed v = true /\ (FR d <= FR (e_distance v))%R) /\ a = e_distance v) c).
Proof.
  intros l P N.
  assert (F : forall g v, voxel_at (k := KEsdf) l g = Some v -> ffin (e_distance v) = true).
  { intros g v E. pose proof (N g v E) as H. now inversion H. }
  split.
  - apply cloud_pictures; [exact P|]. intros g v E. apply when_iff. reflexivity.
  - intros d D. apply cloud_pictures; [exact P|]. intros g v E. apply when_iff. rewrite andb_true_iff. unfold fge. rewrite (fle_R _ _ D (F g v E)). reflexivity.
Qed.
Print Assumptions C83_esdf.

(** Intensity and occupancy layers; [FR log_odds_07] is the log odds of the probability 0.7. *)
Theorem C83_other :
  (forall (l : Layer KInt), proper l -> numbers (k := KInt) l int_vals ->
     exists c, createIntensityPointcloudFromIntensityLayer l = Ok c /\
       pictures l (fun _ (v : IntensityVoxel) a => (FR milli < FR (i_weight v))%R /\ a = i_intensity v) c) /\
  (forall (l : Layer KOcc), proper l -> numbers (k := KOcc) l occ_vals ->
     exists c, createOccupancyBlocksFromOccupancyLayer l = Ok c /\
       pictures l (fun _ (v : OccupancyVoxel) a => (FR log_odds_07 < FR (o_log v))%R /\ a = tt) c).
Proof.
  split.
  - intros l P N. apply cloud_pictures; [exact P|]. intros g v E. apply when_iff. pose proof (N g v E) as H.
    inversion H as [|a b H1 H2]; subst. inversion H2; subst. apply flt_R; [reflexivity|assumption].
  - intros l P N. apply cloud_pictures; [exact P|]. intros g v E. apply when_iff. pose proof (N g v E) as H.
    inversion H as [|a b H1 H2]; subst. apply flt_R; [reflexivity|assumption].
Qed.
Print Assumptions C83_other.

(** The clouds for files of distances: the points are appended; the colour runs from that of the hue 0.66 at -[range] to
    that of the hue 0 at [range]. *)
Definition in_range (max : f32) (d : f32) : Prop := ((0 < FR max)%R -> (Rabs (FR d) <= FR max)%R).
Definition hue_shown (range d : f32) (c : Color) : Prop :=
  saturated c /\ color_ok c /\
  let h := (0.33 * (1 - cut_share (FR range) (FR d)))%R in shows (1 + / 100) c (red (6 * h)) (green (6 * h)) (blue (6 * h)).
Lemma beyond_iff : forall max d, ffin max = true -> ffin d = true -> (beyond max d = false <-> in_range max d).
Proof.
  intros max d M D. unfold beyond, in_range, fgt. assert (D' : ffin (fabs d) = true) by (rewrite fabs_fin; exact D).
  pose proof (flt_R max (fabs d) M D') as A. rewrite fabs_R in A. pose proof (flt_R f0 max eq_refl M) as B. change (FR f0) with 0%R in B.
  destruct (flt max (fabs d)), (flt f0 max); cbn [andb]; split; try discriminate; intros H.
  - exfalso. assert (X : (0 < FR max)%R) by now apply B. specialize (H X). assert (Y : (FR max < Rabs (FR d))%R) by now apply A. lra.
  - intros X. apply B in X. discriminate.
  - reflexivity.
  - intros X. destruct (Rle_or_lt (Rabs (FR d)) (FR max)) as [Y | Y]; [exact Y|]. apply A in Y. discriminate.
  - reflexivity.
  - intros X. apply B in X. discriminate.
  - reflexivity.
Qed.
Lemma pictures_weaken : forall k A (l : Layer k) (P Q : idx3 -> vox k -> A -> Prop) c,
  (forall g v a, voxel_at l g = Some v -> P g v a -> Q g v a) ->
  (forall g v a, voxel_at l g = Some v -> Q g v a -> exists b, P g v b) -> pictures l P c -> pictures l Q c.
Proof.
  intros k A l P Q c H1 H2 (gs & N & I & F). exists gs. split; [exact N|]. split.
  - intros g. rewrite (I g). split; intros (v & a & E & X).
    + exists v, a. auto.
    + destruct (H2 g v a E X) as (b & Y). exists v, b. auto.
  - clear N I. induction F as [|g p gs c (E & v & V & X) F IH]; constructor; [|exact IH]. split; [exact E|]. exists v. auto.
Qed.
Lemma sdf_vis : forall range max d (seen : bool) (Q : Prop), ffin range = true -> (0 < FR range)%R -> ffin max = true -> ffin d = true ->
  (seen = false <-> Q) ->
  exists o, (if seen then Ok None else if beyond max d then Ok None else sdf_color range d) = Ok o /\
    forall a, o = Some a <-> (Q /\ in_range max d) /\ sdf_color range d = Ok (Some a).
Proof.
  intros range max d seen Q F P M D S. pose proof (beyond_iff max d M D) as B. destruct (sdf_color_spec range d F P D) as (c & E & C1 & C2 & C3).
  destruct seen; [exists None|destruct (beyond max d); [exists None|exists (Some c)]].
  - split; [reflexivity|]. intros a. split; [discriminate|]. intros ((q & _) & _). apply S in q. discriminate.
  - split; [reflexivity|]. intros a. split; [discriminate|]. intros ((_ & q) & _). apply B in q. discriminate.
  - split; [exact E|]. intros a. split.
    + intros X. injection X as <-. split; [split; [now apply S|now apply B]|exact E].
    + intros (_ & X). congruence.
Qed.
Theorem C83_sdf : forall range max, ffin range = true -> (0 < FR range)%R -> ffin max = true ->
  (forall (l : Layer KTsdf) cloud, proper l -> numbers (k := KTsdf) l tsdf_vals ->
     exists c some, convertVoxelGridToPointCloud (k := KTsdf) getColorFromTsdfVoxel l range max cloud = Ok (some, cloud ++ c) /\
       (some = true <-> cloud ++ c <> []) /\
       pictures l (fun _ (v : TsdfVoxel) a => ((FR kEpsilon < FR (t_weight v))%R /\ in_range max (t_distance v)) /\ hue_shown range (t_distance v) a) c) /\
  (forall (l : Layer KEsdf) cloud, proper l -> numbers (k := KEsdf) l esdf_vals ->
     exists c some, convertVoxelGridToPointCloud (k := KEsdf) getColorFromEsdfVoxel l range max cloud = Ok (some, cloud ++ c) /\
       (some = true <-> cloud ++ c <> []) /\
       pictures l (fun _ (v : EsdfVoxel) a => (e_observed v = true /\ in_range max (e_distance v)) /\ hue_shown range (e_distance v) a) c).
Proof.
  intros range max F R M. assert (G : fgt range f0 = true) by (apply flt_R; [reflexivity|exact F|exact R]).
  split; intros l cloud P N; unfold convertVoxelGridToPointCloud; rewrite G.
  - destruct (grid_pictures (k := KTsdf) l P (getColorFromTsdfVoxel range max) (fun _ (v : TsdfVoxel) a =>
      ((FR kEpsilon < FR (t_weight v))%R /\ in_range max (t_distance v)) /\ sdf_color range (t_distance v) = Ok (Some a))) as (c & E & H).
    2:{ exists c, (nonempty (cloud ++ c)). split; [rewrite E; reflexivity|]. split; [apply nonempty_iff|]. revert H. apply pictures_weaken; intros g v a EV (X & Y); destruct (two l g v N EV) as (F1 & F2);
        destruct (sdf_color_spec range (t_distance v) F R F1) as (b & EB & HB).
        - split; [exact X|]. rewrite Y in EB. injection EB as ->. exact HB.
        - exists b. auto. }
    intros g v E. destruct (two l g v N E) as (F1 & F2). unfold getColorFromTsdfVoxel. apply sdf_vis; auto.
    pose proof (fle_R (t_weight v) kEpsilon F2 eq_refl) as X. destruct (fle (t_weight v) kEpsilon).
    + split; [discriminate|]. intros Y. assert (Z' : (FR (t_weight v) <= FR kEpsilon)%R) by now apply X. lra.
    + split; [|reflexivity]. intros _. destruct (Rlt_or_le (FR kEpsilon) (FR (t_weight v))) as [Y | Y]; [exact Y|]. apply X in Y. discriminate.
  - destruct (grid_pictures (k := KEsdf) l P (getColorFromEsdfVoxel range max) (fun _ (v : EsdfVoxel) a =>
      (e_observed v = true /\ in_range max (e_distance v)) /\ sdf_color range (e_distance v) = Ok (Some a))) as (c & E & H).
    2:{ exists c, (nonempty (cloud ++ c)). split; [rewrite E; reflexivity|]. split; [apply nonempty_iff|]. revert H. apply pictures_weaken; intros g v a EV (X & Y);
        assert (F1 : ffin (e_distance v) = true) by (pose proof (N g v EV) as H; now inversion H);
        destruct (sdf_color_spec range (e_distance v) F R F1) as (b & EB & HB).
        - split; [exact X|]. rewrite Y in EB. injection EB as ->. exact HB.
        - exists b. auto. }
    intros g v E. pose proof (N g v E) as H. inversion H as [|a b H1 H2]; subst. unfold getColorFromEsdfVoxel. apply sdf_vis; auto.
    destruct (e_observed v); cbn [negb]; split; auto; discriminate.
Qed.
Print Assumptions C83_sdf.

(** The points are at the centres of their voxels, up to a small part of a voxel. *)
Lemma centre_axis : forall vps s b v, sane_size s -> (1 <= vps <= 2 ^ 10)%Z -> (Z.abs b * vps <= 2 ^ 17)%Z -> (0 <= v < vps)%Z ->
  ffin (ctr vps s b v) = true /\
  (Rabs (FR (ctr vps s b v) - (IZR (b * vps + v) + / 2) * FR s) <= FR s * (Rabs (IZR (b * vps + v)) + IZR vps) / 2097152)%R.
Proof.
  intros vps s b v S V B W. destruct (ctr_val vps s b v S V B W) as (F & E). split; [exact F|]. pose proof (sane_pos s S) as P.
  set (c := FR (ctr vps s b v)) in *. set (m := IZR (b * vps + v)) in *.
  replace (c - (m + / 2) * FR s)%R with (FR s * (c / FR s - (m + / 2)))%R by (field; lra).
  rewrite Rabs_mult, (Rabs_pos_eq (FR s)) by lra. unfold Rdiv. rewrite Rmult_assoc. apply Rmult_le_compat_l; [lra|].
  eapply Rle_trans; [exact E|]. assert (K : (Rabs (IZR b * IZR vps) <= Rabs m + IZR vps)%R).
  { replace (IZR b * IZR vps)%R with (m - IZR v)%R by (unfold m; rewrite plus_IZR, mult_IZR; ring).
    eapply Rle_trans; [apply Rabs_triang|]. rewrite Rabs_Ropp. apply Rplus_le_compat_l. rewrite <- abs_IZR. apply IZR_le. lia. }
  assert (V' : (1 <= IZR vps)%R) by (apply IZR_le; lia). pose proof (Rabs_pos m). unfold u. lra.
Qed.
Theorem C83_centre : forall k (l : Layer k) g v, proper l -> near_origin l -> voxel_at l g = Some v ->
  forall i, (i < 3)%nat -> ffin (get3 i (centre_of l g)) = true /\
    (Rabs (FR (get3 i (centre_of l g)) - (IZR (get3 i g) + / 2) * FR (l_size l)) <=
     FR (l_size l) * (Rabs (IZR (get3 i g)) + IZR (l_vps l)) / 2097152)%R.
Proof.
  intros k l g v P O E i I. unfold voxel_at in E. unfold centre_of. destruct (l_get l (map3 (fun c => c / l_vps l) g)) as [b|] eqn:G; [|discriminate].
  destruct P as ((S & V & B) & _). destruct (B _ _ G) as (_ & -> & -> & _). pose proof (O _ _ G) as Q. clear E B G O.
  destruct g as [x y z]. unfold all3, map3 in Q. cbn [vx vy vz] in Q. destruct Q as (Q1 & Q2 & Q3).
  assert (A : forall c, Z.abs (c / l_vps l) * l_vps l <= 2 ^ 17 -> ffin (ctr (l_vps l) (l_size l) (c / l_vps l) (c mod l_vps l)) = true /\
    (Rabs (FR (ctr (l_vps l) (l_size l) (c / l_vps l) (c mod l_vps l)) - (IZR c + / 2) * FR (l_size l)) <=
     FR (l_size l) * (Rabs (IZR c) + IZR (l_vps l)) / 2097152)%R).
  { intros c C. pose proof (Z.mod_pos_bound c (l_vps l) ltac:(lia)) as M.
    pose proof (centre_axis (l_vps l) (l_size l) (c / l_vps l) (c mod l_vps l) S V C M) as X.
    replace (c / l_vps l * l_vps l + c mod l_vps l) with c in X by (rewrite Z.mul_comm; apply Z.div_mod; lia). exact X. }
  destruct i as [|[|[|i]]]; [apply A in Q1; exact Q1|apply A in Q2; exact Q2|apply A in Q3; exact Q3|lia].
Qed.
Print Assumptions C83_centre.

(** *** a case *)
Definition tv (i : nat) : TsdfVoxel := MkTsdf (f32_of_Z (Z.of_nat i - 3)) (if Nat.even i then f1 else f0) (MkColor 10 20 30 255).
Definition tblock : Block KTsdf := set_voxels (k := KTsdf) (map tv (seq 0 8)) (new_block (k := KTsdf) 2 f1 (new_block_origin 2 f1 (V3 1 0 0))).
Definition tlayer : Layer KTsdf := MkLayer (k := KTsdf) f1 2 [(V3 1 0 0, tblock)].
Lemma f1_sane : sane_size f1.
Proof. split; [reflexivity|]. rewrite f1_R. split; change 1%R with (bpow radix2 0); apply bpow_le; lia. Qed.
Lemma tlayer_proper : proper tlayer.
Proof.
  split; [|constructor; [intros []|constructor]]. split; [exact f1_sane|]. split; [cbn; lia|].
  intros i b H. change (l_vps tlayer) with 2. change (l_size tlayer) with f1. unfold l_get, tlayer in H. cbn [l_blocks Assoc.alookup] in H.
  destruct (idx_eqb_spec i (V3 1 0 0)) as [-> | N0]; [injection H as <-; repeat split|]. discriminate.
Qed.
Lemma tlayer_voxel : forall g v, voxel_at tlayer g = Some v -> exists i, (i < 8)%nat /\ v = tv i.
Proof.
  intros g v H. unfold voxel_at in H. destruct (l_get tlayer (map3 (fun c => c / l_vps tlayer) g)) as [b|] eqn:G; [|discriminate].
  unfold l_get, tlayer in G. cbn [l_blocks Assoc.alookup] in G. destruct (idx_eqb (map3 _ g) (V3 1 0 0)); [|discriminate]. injection G as <-.
  change (b_voxels tblock) with (map tv (seq 0 8)) in H. apply nth_error_In in H. apply in_map_iff in H. destruct H as (i & <- & I). apply in_seq in I. exists i. split; [lia|reflexivity].
Qed.
Lemma tlayer_numbers : numbers (k := KTsdf) tlayer tsdf_vals.
Proof.
  intros g v H. destruct (tlayer_voxel g v H) as (i & I & ->).
  do 8 (destruct i as [|i]; [repeat constructor|]). lia.
Qed.
Lemma tlayer_near : near_origin tlayer.
Proof.
  intros i b H. change (l_vps tlayer) with 2. unfold l_get, tlayer in H. cbn [l_blocks Assoc.alookup] in H.
  destruct (idx_eqb_spec i (V3 1 0 0)) as [-> | N0]; [|discriminate]. vm_compute. repeat split; discriminate.
Qed.
Definition points {A} (r : res (list A)) : option nat := match r with Ok c => Some (length c) | _ => None end.
Example C83_case : proper tlayer /\ numbers (k := KTsdf) tlayer tsdf_vals /\ near_origin tlayer /\
  points (createPointcloudFromTsdfLayer tlayer) = Some 4%nat /\
  points (createSurfacePointcloudFromTsdfLayer tlayer (f64_of_Z 2)) = Some 2%nat /\
  points (createOccupancyBlocksFromTsdfLayer tlayer) = Some 3%nat /\
  points (rbind (convertVoxelGridToPointCloud (k := KTsdf) getColorFromTsdfVoxel tlayer (f32_of_Z 2) (f32_of_Z 2) []) (fun r => Ok (snd r))) = Some 2%nat.
Proof.
  split; [exact tlayer_proper|]. split; [exact tlayer_numbers|]. split; [exact tlayer_near|].
  repeat split; vm_compute; reflexivity.
Qed.

(** "Occupied" voxels of a TSDF layer include free ones, up to a voxel in front of the surface. *)
Theorem C83_occupied_refuted : ~ (forall (l : Layer KTsdf) c p, proper l -> numbers (k := KTsdf) l tsdf_vals ->
  createOccupancyBlocksFromTsdfLayer l = Ok c -> In p c ->
  forall g v, voxel_at (k := KTsdf) l g = Some v -> centre_of l g = fst p -> (FR (t_distance v) <= 0)%R).
Proof.
  intros H. destruct (C83_tsdf tlayer tlayer_proper tlayer_numbers) as (_ & _ & _ & _ & c & E & gs & _ & I & F).
  assert (V : voxel_at (k := KTsdf) tlayer (V3 2 0 1) = Some (tv 4)) by reflexivity.
  assert (E4 : FR (t_distance (tv 4)) = 1%R) by (apply (f32_of_Z_R 1); lia).
  assert (X : In (V3 2 0 1) gs).
  { apply I. exists (tv 4), tt. split; [exact V|]. split; [|reflexivity]. split.
    - apply (flt_R milli (t_weight (tv 4))); reflexivity.
    - apply (fle_R (t_distance (tv 4)) (l_size tlayer)); reflexivity. }
  assert (Y : exists p, In p c /\ fst p = centre_of tlayer (V3 2 0 1)).
  { clear I E. induction F as [|g p gs c (Q & _) F IH]; [destruct X|]. destruct X as [-> | X].
    - exists p. split; [left; reflexivity|exact Q].
    - destruct (IH X) as (p' & Z1 & Z2). exists p'. split; [right; exact Z1|exact Z2]. }
  destruct Y as (p & Y1 & Y2). specialize (H tlayer c p tlayer_proper tlayer_numbers E Y1 _ _ V (eq_sym Y2)). rewrite E4 in H. lra.
Qed.
Print Assumptions C83_occupied_refuted.
(** A distance that is not a number stops the program when the cloud for a file is made. *)
Definition nan_layer : Layer KTsdf := MkLayer (k := KTsdf) f1 1
  [(V3 0 0 0, set_voxels (k := KTsdf) [MkTsdf nan32 f1 (MkColor 0 0 0 0)] (new_block (k := KTsdf) 1 f1 (new_block_origin 1 f1 (V3 0 0 0))))].
Theorem C83_nan_refuted : proper nan_layer /\ convertVoxelGridToPointCloud (k := KTsdf) getColorFromTsdfVoxel nan_layer f1 f1 [] = Abort.
Proof.
  split; [|vm_compute; reflexivity]. split; [|constructor; [intros []|constructor]]. split; [exact f1_sane|]. split; [cbn; lia|].
  intros i b H. change (l_vps nan_layer) with 1. change (l_size nan_layer) with f1. unfold l_get, nan_layer in H. cbn [l_blocks Assoc.alookup] in H.
  destruct (idx_eqb_spec i (V3 0 0 0)) as [-> | N0]; [injection H as <-; repeat split|]. discriminate.
Qed.
Print Assumptions C83_nan_refuted.
