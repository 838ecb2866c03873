(** C79: batches of queries and slices. *)
From Coq Require Import ZArith List Bool Reals Lra Lia.
From Flocq Require Import Core.
From Verif Require Import F32 F32_lemmas Types Assoc Assoc_lemmas Index Index_float Voxel Layer Ray Update Mesh_spec Interp Interp_spec Interp_proofs P_Interp Grad Grad_spec Grad_proofs P_Grad Slice Slice_spec Slice_proofs.
From Verif Require P_Cloud.
Import ListNotations.
Open Scope Z_scope.

(** C79. A batch of distance queries is the queries one by one: entry [j] holds the
    answer for position [j], where the query fails the distance stays; further entries
    of longer arrays stay. Arrays that are too short are refused before anything is
    written. *)
Theorem C79_distances : forall rows top (l : Layer KEsdf) positions distances observed,
  built_layer l -> Forall (fun p => within 65534 (l_size l) (cast3 p)) positions ->
  if (length positions <=? length distances)%nat && (length positions <=? length observed)%nat then
    exists ds os, batchGetDistanceAtPosition rows top l positions distances observed = Ok (ds, os) /\
      length ds = length distances /\ length os = length observed /\
      (forall j p d, nth_error positions j = Some p -> nth_error distances j = Some d ->
         exists ok d', getDistanceAtPosition rows top l p true d = Ok (ok, d') /\ nth_error ds j = Some d' /\ nth_error os j = Some (if ok then 1 else 0)) /\
      (forall j, (length positions <= j)%nat -> nth_error ds j = nth_error distances j /\ nth_error os j = nth_error observed j)
  else batchGetDistanceAtPosition rows top l positions distances observed = Abort.
Proof.
  intros rows top l positions distances observed BL W. unfold batchGetDistanceAtPosition.
  destruct (Nat.leb_spec (length positions) (length distances)) as [H1 | H1]; cbn [andb]; [|rewrite (proj2 (Nat.ltb_lt _ _)) by lia; reflexivity].
  rewrite (proj2 (Nat.ltb_ge _ _)) by lia.
  destruct (Nat.leb_spec (length positions) (length observed)) as [H2 | H2]; [|rewrite (proj2 (Nat.ltb_lt _ _)) by lia; reflexivity].
  rewrite (proj2 (Nat.ltb_ge _ _)) by lia. apply batch_distances_spec; auto.
  eapply Forall_impl; [|exact W]. intros p Hp. apply getDistance_total; auto. eapply within_range; [exact Hp|lra].
Qed.
Print Assumptions C79_distances.
Theorem C79_gradients : forall rows top (l : Layer KEsdf) positions distances gradients observed D,
  built_layer l -> orders rows top -> bounded l D -> (0 <= D <= bpow radix2 80)%R -> Forall (fun p => within 65534 (l_size l) (cast3 p)) positions ->
  if (length positions <=? length distances)%nat && (length positions <=? length observed)%nat && (length positions <=? length gradients)%nat then
    exists ds gs os, batchGetDistanceAndGradientAtPosition rows top l positions distances gradients observed = Ok (ds, gs, os) /\
      length ds = length distances /\ length gs = length gradients /\ length os = length observed /\
      (forall j p, nth_error positions j = Some p ->
         exists ok d' g', getDistanceAndGradientAtPosition rows top l p true = Ok (ok, d', g') /\ nth_error ds j = Some d' /\ nth_error gs j = Some g' /\ nth_error os j = Some (if ok then 1 else 0)) /\
      (forall j, (length positions <= j)%nat -> nth_error ds j = nth_error distances j /\ nth_error gs j = nth_error gradients j /\ nth_error os j = nth_error observed j)
  else batchGetDistanceAndGradientAtPosition rows top l positions distances gradients observed = Abort.
Proof.
  intros rows top l positions distances gradients observed D BL OR BD D0 W. unfold batchGetDistanceAndGradientAtPosition.
  destruct (Nat.leb_spec (length positions) (length distances)) as [H1 | H1]; cbn [andb]; [|rewrite (proj2 (Nat.ltb_lt _ _)) by lia; reflexivity].
  rewrite (proj2 (Nat.ltb_ge (length distances) _)) by lia.
  destruct (Nat.leb_spec (length positions) (length observed)) as [H2 | H2]; cbn [andb]; [|rewrite (proj2 (Nat.ltb_lt _ _)) by lia; reflexivity].
  rewrite (proj2 (Nat.ltb_ge (length observed) _)) by lia.
  destruct (Nat.leb_spec (length positions) (length gradients)) as [H3 | H3]; [|rewrite (proj2 (Nat.ltb_lt _ _)) by lia; reflexivity].
  rewrite (proj2 (Nat.ltb_ge _ _)) by lia. apply batch_gradients_spec; auto.
  eapply Forall_impl; [|exact W]. intros p Hp. destruct (C78_map rows top l p true d0 D BL Hp OR BD D0) as (_ & (ok & d & g & E & _) & _). eauto.
Qed.
Print Assumptions C79_gradients.
Theorem C79_observed : forall (l : Layer KEsdf) positions observed,
  built_layer l -> Forall (fun p => within 65534 (l_size l) (cast3 p)) positions ->
  if (length positions <=? length observed)%nat then
    exists os, batchIsObserved l positions observed = Ok os /\ length os = length observed /\
      (forall j p, nth_error positions j = Some p -> exists b, isObserved l p = Ok b /\ nth_error os j = Some (if b then 1 else 0)) /\
      (forall j, (length positions <= j)%nat -> nth_error os j = nth_error observed j)
  else batchIsObserved l positions observed = Abort.
Proof.
  intros l positions observed BL W. unfold batchIsObserved.
  destruct (Nat.leb_spec (length positions) (length observed)) as [H2 | H2]; [|rewrite (proj2 (Nat.ltb_lt _ _)) by lia; reflexivity].
  rewrite (proj2 (Nat.ltb_ge _ _)) by lia. apply batch_observed_spec; auto.
  eapply Forall_impl; [|exact W]. intros p Hp. destruct (C66_nearest KEsdf l (cast3 p) BL (within_range _ _ _ Hp ltac:(lra))) as (g & _ & E & _).
  unfold isObserved. rewrite E. eexists; reflexivity.
Qed.
Print Assumptions C79_observed.

(** C79. A slice through an ESDF map reports the observed voxels with the centre within
    one voxel of the plane, of the blocks with the origin within one block of it, each
    once, up to the maximum number (at least one); it writes exactly the reported
    entries of the arrays, never outside them, and throws exactly when it was not
    stopped by the maximum and the entries did not fit. *)
Theorem C79_esdf_slice : forall (l : Layer KEsdf) axis plane positions distances max_points, built_layer l -> NoDup (getAllAllocatedBlocks l) ->
  let hits := slice_hits (k := KEsdf) (fun _ => true) e_observed axis plane l in
  let n := Nat.min (length hits) (Nat.max 1 max_points) in
  exists fit ps ds,
    esdf_slice l axis plane positions distances max_points =
      Ok (if (length hits <? Nat.max 1 max_points)%nat && ((length positions <? length hits)%nat || (length distances <? length hits)%nat) then None else Some n,
          MkSlice n fit ps ds []) /\
    filled (xpos (firstn n hits)) positions ps /\
    filled (edist (firstn n hits)) distances ds.
Proof. exact esdf_slice_spec. Qed.
Print Assumptions C79_esdf_slice.
(** C79. The same for a TSDF map, where blocks count that are marked to have data and
    all voxels do, provided the weights array is as long as the distances array (as far
    as that is used). *)
Theorem C79_tsdf_slice : forall (l : Layer KTsdf) axis plane positions distances weights max_points, built_layer l -> NoDup (getAllAllocatedBlocks l) ->
  let hits := slice_hits (k := KTsdf) b_has_data (fun _ => true) axis plane l in
  let n := Nat.min (length hits) (Nat.max 1 max_points) in
  (Nat.min n (length distances) <= length weights)%nat ->
  exists fit ps ds ws,
    tsdf_slice l axis plane positions distances weights max_points =
      Ok (if (length hits <? Nat.max 1 max_points)%nat && ((length positions <? length hits)%nat || (length distances <? length hits)%nat) then None else Some n,
          MkSlice n fit ps ds ws) /\
    filled (xpos (firstn n hits)) positions ps /\
    filled (tdist (firstn n hits)) distances ds /\
    filled (firstn (length distances) (tweight (firstn n hits))) weights ws.
Proof. exact tsdf_slice_spec. Qed.
Print Assumptions C79_tsdf_slice.
(** which voxels that are *)
Theorem C79_hits : forall k (l : Layer k) bc c axis plane p v,
  In (p, v) (slice_hits bc c axis plane l) <->
  exists i b lin vi, In (i, b) (l_blocks l) /\ bc b = true /\
    dgt (from_plane axis plane (b_origin b)) (f64_of_f32 (block_size_of (b_vps b) (b_size b))) = false /\
    nth_error (b_voxels b) lin = Some v /\ computeVoxelIndexFromLinearIndex (b_vps b) (Z.of_nat lin) = Some vi /\
    p = computeCoordinatesFromVoxelIndex (b_origin b) (b_size b) vi /\
    dle (from_plane axis plane p) (f64_of_f32 (b_size b)) = true /\ c v = true.
Proof.
  intros k l bc c axis plane p v. unfold slice_hits. rewrite in_flat_map. split.
  - intros ((i, b) & IN & H). cbn [snd] in H. destruct (bc b) eqn:BC; cbn [andb] in H; [|destruct H].
    destruct (dgt (from_plane axis plane (b_origin b)) (f64_of_f32 (block_size_of (b_vps b) (b_size b)))) eqn:FB; cbn [negb] in H; [destruct H|].
    apply filter_In in H. destruct H as (H & P). cbn [fst snd] in P. apply andb_prop in P. destruct P as (P1 & P2).
    unfold centres in H. apply in_flat_map in H. destruct H as ((lin & w) & HC & HV). cbn [fst snd] in HV.
    destruct (computeVoxelIndexFromLinearIndex (b_vps b) (Z.of_nat lin)) as [vi|] eqn:CV; [|destruct HV]. destruct HV as [HV | []]. injection HV as <- <-.
    exists i, b, lin, vi. apply In_nth_error in HC. destruct HC as (j & HC).
    assert (LW : nth_error (b_voxels b) lin = Some w).
    { revert HC. clear. generalize (b_voxels b). intros vs. assert (G : forall vs a j, nth_error (combine (seq a (length vs)) vs) j = Some (lin, w) -> (a <= lin)%nat /\ nth_error vs (lin - a) = Some w).
      { clear. induction vs as [|x vs IH]; intros a j H; [destruct j; discriminate|]. cbn [length seq combine] in H. destruct j as [|j]; cbn [nth_error] in H.
        - injection H as <- <-. rewrite Nat.sub_diag. split; [lia|reflexivity].
        - apply IH in H. destruct H as (H1 & H2). split; [lia|]. replace (lin - a)%nat with (S (lin - S a)) by lia. exact H2. }
      intros H. apply G in H. destruct H as (_ & H). rewrite Nat.sub_0_r in H. exact H. }
    auto 10.
  - intros (i & b & lin & vi & IN & BC & FB & NV & CV & EP & NP & CT). exists (i, b). split; [exact IN|]. cbn [snd]. rewrite BC, FB. cbn [negb andb].
    apply filter_In. cbn [fst snd]. rewrite NP, CT. split; [|reflexivity]. unfold centres. apply in_flat_map. exists (lin, v). split.
    + revert NV. clear. generalize (b_voxels b). intros vs. assert (G : forall vs a j, nth_error vs j = Some v -> In ((a + j)%nat, v) (combine (seq a (length vs)) vs)).
      { clear. induction vs as [|x vs IH]; intros a j H; [destruct j; discriminate|]. cbn [length seq combine]. destruct j as [|j]; cbn [nth_error] in H.
        - injection H as <-. left. rewrite Nat.add_0_r. reflexivity.
        - right. replace (a + S j)%nat with (S a + j)%nat by lia. apply IH. exact H. }
      intros H. apply (G vs 0%nat lin H).
    + cbn [fst snd]. rewrite CV, EP. left. reflexivity.
Qed.
Print Assumptions C79_hits.

(** The block of [P_Grad]: the plane z = 2 has the 32 voxels of the layers at 1.5 and 2.5;
    with room for 40 entries all are reported, a maximum of 10 stops early, room for 20
    makes the call throw. *)
Definition none3 : dpt := V3 d0 d0 d0.
Lemma grid_nodup : NoDup (getAllAllocatedBlocks grid).
Proof. cbn. constructor; [intros []|constructor]. Qed.
Example grid_slice :
  match esdf_slice grid 2 (f64_of_Z 2) (repeat none3 40) (repeat d0 40) 1000, esdf_slice grid 2 (f64_of_Z 2) (repeat none3 40) (repeat d0 40) 10,
        esdf_slice grid 2 (f64_of_Z 2) (repeat none3 20) (repeat d0 40) 1000 with
  | Ok (Some a, s), Ok (Some b, _), Ok (None, _) => (a =? 32)%nat && (b =? 10)%nat &&
      (dword (nth 31 (sl_distances s) d0) =? dword (f64_of_Z 15)) && (dword (nth 32 (sl_distances s) d0) =? dword d0)
  | _, _, _ => false end = true.
Proof. vm_compute. reflexivity. Qed.
Example grid_batch :
  match batchGetDistanceAtPosition lin lin_order grid [V3 (f64_of_Z 2) (f64_of_Z 2) (f64_of_Z 2); V3 (f64_of_Z 9) d0 d0] [d1; d1; d1] [7; 7; 7] with
  | Ok (ds, os) => (map dword ds, os) = (map dword [f64_of_Z 9; d1; d1], [1; 0; 7])
  | _ => False end.
Proof. vm_compute. reflexivity. Qed.

(** Not so: every observed voxel with the centre within one voxel of the plane is
    reported. Just above a block the last layer of the block is left out. *)
Theorem C79_border_refuted : exists (l : Layer KEsdf) axis plane, built_layer l /\ NoDup (getAllAllocatedBlocks l) /\
  (exists i b v vi, l_get l i = Some b /\ In v (b_voxels b) /\ e_observed v = true /\
     computeVoxelIndexFromLinearIndex (b_vps b) 63 = Some vi /\ nth_error (b_voxels b) 63 = Some v /\
     dle (from_plane axis plane (computeCoordinatesFromVoxelIndex (b_origin b) (b_size b) vi)) (f64_of_f32 (b_size b)) = true) /\
  slice_hits (k := KEsdf) (fun _ => true) e_observed axis plane l = [].
Proof.
  exists grid, 2%nat, (ddiv (f64_of_Z 17) (f64_of_Z 4)). split; [apply grid_built|]. split; [apply grid_nodup|]. split.
  - exists (V3 0 0 0), gblock, (gv 63), (V3 3 3 3). split; [reflexivity|]. split; [apply (in_map gv (seq 0 64) 63%nat), in_seq; lia|]. split; [reflexivity|]. split; [vm_compute; reflexivity|]. split; [reflexivity|]. vm_compute. reflexivity.
  - vm_compute. reflexivity.
Qed.
Print Assumptions C79_border_refuted.
(** Not so: a slice through a TSDF map reports what was integrated. Integration never
    marks blocks as having data, so the slice of a freshly integrated map is empty for
    every plane. *)
Theorem C79_unmarked : forall (l : Layer KTsdf) axis plane,
  (forall i b, In (i, b) (l_blocks l) -> b_has_data b = false) -> slice_hits (k := KTsdf) b_has_data (fun _ => true) axis plane l = [].
Proof.
  intros l axis plane H. unfold slice_hits. revert H. generalize (l_blocks l). intros es. induction es as [|(i, b) es IH]; intros H; [reflexivity|].
  cbn [flat_map snd]. rewrite (H i b (or_introl eq_refl)). cbn [andb app]. apply IH. intros j c Hc. apply (H j c). right. exact Hc.
Qed.
Print Assumptions C79_unmarked.
Theorem C79_integrated_refuted : match P_Cloud.cx_simple with
  | Ok (Some l) => forallb (fun e => negb (b_has_data (snd e))) (l_blocks l) && existsb (fun e => existsb (fun v => isObservedVoxel KTsdf v) (b_voxels (snd e))) (l_blocks l)
  | _ => false end = true.
Proof. vm_compute. reflexivity. Qed.
Print Assumptions C79_integrated_refuted.
(** Not so: a weights array that is too short is refused like the others. The weight is
    written outside it. *)
Theorem C79_weights_refuted : exists (l : Layer KTsdf) axis plane positions distances weights max_points,
  (length weights < length distances)%nat /\ tsdf_slice l axis plane positions distances weights max_points = UB.
Proof.
  exists (MkLayer (k := KTsdf) f1 2 [(V3 0 0 0, MkBlock (k := KTsdf) 2 f1 (V3 f0 f0 f0) true (b_updated (bk (V3 0 0 0))) vol)]), 2%nat, (f64_of_Z 1), [none3], [d1], [], 5%nat.
  split; [cbn; lia|]. vm_compute. reflexivity.
Qed.
Print Assumptions C79_weights_refuted.
