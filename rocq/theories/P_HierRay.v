(** Property C105: the voxels of a ray, sorted into blocks. *)
From Coq Require Import ZArith Reals List Bool Lia Lra.
From Flocq Require Import Core.
From Verif Require Import F32 F32_lemmas Types Assoc Index Index_proofs Layer Assoc_lemmas Update Update_spec Merge_proofs Ray Ray_spec Ray_proofs RayEnds_spec RayEnds_proofs Cloud_spec OccCloud_proofs Planning HierRay HierRay_spec P_Ray P_RayEnds.
Import ListNotations.
Open Scope Z_scope.

Lemma hier_add_lookup : forall m b v c, alookup c (hier_add m b v) =
  if idx_eqb c b then Some (match alookup b m with Some vs => vs ++ [v] | None => [v] end) else alookup c m.
Proof.
  intros m b v c. unfold hier_add. destruct (alookup b m) as [vs|] eqn:E.
  - rewrite alookup_aset. destruct (idx_eqb c b); reflexivity.
  - clear - E. induction m as [|[i w] m IH]; cbn [app alookup].
    + reflexivity.
    + cbn [alookup] in E. destruct (idx_eqb_spec b i) as [->|N]; [discriminate|]. specialize (IH E).
      destruct (idx_eqb_spec c i) as [->|N2].
      * rewrite (idx_eqb_neq i b) by congruence. reflexivity.
      * exact IH.
Qed.
Lemma hier_add_nodup : forall (m : amap (list idx3)) b v, NoDup (akeys m) -> NoDup (akeys (hier_add m b v)).
Proof.
  intros m b v H. unfold hier_add. destruct (alookup b m) as [vs|] eqn:E; [apply NoDup_aset; auto|].
  apply alookup_None in E. unfold akeys in *. rewrite map_app. cbn [map fst].
  apply NoDup_snoc; auto.
Qed.

Lemma raise_place : forall n g, 0 < n -> raise_neg n (place_of n g) = place_of n g.
Proof.
  intros n g H. unfold raise_neg, place_of, map3. cbn [vx vy vz].
  pose proof (Z.mod_pos_bound (vx g) n H). pose proof (Z.mod_pos_bound (vy g) n H). pose proof (Z.mod_pos_bound (vz g) n H).
  repeat match goal with |- context [?c <? 0] => replace (c <? 0) with false by (symmetry; apply Z.ltb_ge; lia) end. reflexivity.
Qed.
Lemma visits_snoc : forall n vs g b, visits n (vs ++ [g]) b = visits n vs b ++ (if idx_eqb b (block_of n g) then [place_of n g] else []).
Proof.
  intros n vs g b. unfold visits. rewrite filter_app, map_app. cbn [filter]. destruct (idx_eqb b (block_of n g)); reflexivity.
Qed.
Lemma sort_step : forall n vs m g, sorted_into_blocks n vs m -> sorted_into_blocks n (vs ++ [g]) (hier_add m (block_of n g) (place_of n g)).
Proof.
  intros n vs m g (ND & H). split; [apply hier_add_nodup; auto|]. intros b. rewrite hier_add_lookup, visits_snoc, !H.
  destruct (idx_eqb_spec b (block_of n g)) as [->|N].
  - destruct (visits n vs (block_of n g)); reflexivity.
  - rewrite app_nil_r. reflexivity.
Qed.
Lemma sort_loop : forall e vs done m, 0 <= e <= 30 -> Forall near_index vs -> sorted_into_blocks (2 ^ e) done m ->
  exists m', rfold (fun m g =>
                 rbind (of_opt (getBlockIndexFromGlobalVoxelIndex g (vps_inv_common (2 ^ e)))) (fun b =>
                 rbind (getLocalFromGlobalVoxelIndex g (2 ^ e)) (fun v => Ok (hier_add m b (raise_neg (2 ^ e) v))))) vs m = Ok m' /\
    sorted_into_blocks (2 ^ e) (done ++ vs) m'.
Proof.
  intros e vs. induction vs as [|g vs IH]; intros done m He HV HM.
  - exists m. rewrite app_nil_r. split; [reflexivity|exact HM].
  - inversion HV as [|? ? G HV']; subst. cbn [rfold].
    pose proof (split_spec g e He G) as E. unfold getBlockAndVoxelIndexFromGlobalVoxelIndex in E.
    destruct (of_opt (getBlockIndexFromGlobalVoxelIndex g (vps_inv_common (2 ^ e)))) as [b| |]; cbn [rbind] in E |- *; try discriminate E.
    destruct (getLocalFromGlobalVoxelIndex g (2 ^ e)) as [v| |]; cbn [rbind] in E |- *; try discriminate E.
    assert (E2 : (b, v) = (block_of (2 ^ e) g, place_of (2 ^ e) g)) by (unfold block_of, place_of; congruence).
    assert (Eb : b = block_of (2 ^ e) g) by congruence. assert (Ev : v = place_of (2 ^ e) g) by congruence. clear E E2. subst b v.
    rewrite raise_place by (apply Z.pow_pos_nonneg; lia).
    destruct (IH (done ++ [g]) _ He HV' (sort_step _ _ _ g HM)) as (m' & E & K). exists m'. split; [exact E|]. now rewrite <- app_assoc in K.
Qed.

(** C105. For a sensor and a point whose ray fits (coordinates up to 2^15 m, up to 2^20 voxels) and
    blocks of a power of two of voxels, sorting the voxels of the ray into blocks succeeds. It sorts
    the very voxels a ray caster for the measurement visits: the first contains the near end of the
    ray, their number is the number of grid steps to the far end plus one, and they are
    connected. Every block that is visited, and no other, is listed once, with the
    places visited in it, in the order of the ray. *)
Theorem C105_hierarchy : forall fuel garbage start end_ e voxel_size T carving,
  let inv := inv_of voxel_size in
  ray_args start end_ T T inv -> ((normR (map3 FR start) + normR (map3 FR end_) + FR T) * FR inv <= bpow radix2 20)%R ->
  0 <= e <= 30 -> 2 ^ 24 <= Z.of_nat fuel ->
  exists first last voxels index dir,
    getHierarchicalIndexAlongRay fuel garbage start end_ (2 ^ e) voxel_size T carving = Ok (Some index) /\
    sorted_into_blocks (2 ^ e) voxels index /\
    rbind (RayCaster_new garbage start end_ false carving T inv T true) (fun c => Ok (cast_loop fuel c)) = Ok (Some voxels) /\
    in_voxel (ray_slack start end_ T inv) (FR inv) (ray_near false carving (FR T) (FR T) start end_) first /\
    in_voxel (ray_slack start end_ T inv) (FR inv) (ray_far false (FR T) (FR T) start end_) last /\
    hd_error voxels = Some first /\ length voxels = S (Z.to_nat (manhattan first last)) /\ chain (step_of dir) voxels.
Proof.
  intros fuel g o p e vs T ca inv A HS He HF.
  destruct (ends_ok o p T T inv A false ca) as (s & t & E & Gs & Gt). destruct (S_facts o p T T inv A) as (S1 & S2 & _).
  assert (S3 : (sumS o p T <= bpow radix2 20)%R) by (eapply Rle_trans; [exact S2|]; apply bpow_le; lia).
  pose proof A as (_ & _ & _ & _ & _ & _ & Fi & Hi & _).
  assert (HS' : (sumS o p T * FR inv <= bpow radix2 20)%R) by exact HS.
  assert (SI : (sumS o p T * FR inv <= bpow radix2 28)%R) by (eapply Rle_trans; [exact HS'|]; apply bpow_le; lia).
  destruct (cast_good fuel g _ inv _ _ _ _ S1 S3 Fi Hi HS' Gs Gt HF) as (vt & v & Vt & C & NV).
  destruct (good_voxel _ s _ inv S1 S3 Gs Fi Hi SI) as (v1 & V1 & B1 & I1). destruct (good_voxel _ t _ inv S1 S3 Gt Fi Hi SI) as (v2 & V2 & B2 & I2).
  destruct B1 as (X1 & X2 & X3), B2 as (Y1 & Y2 & Y3).
  destruct (ray_chain g _ _ v1 v2 V1 V2 ltac:(unfold manhattan; lia)) as (w & CW & Len & H & CH).
  destruct (sort_loop e v [] [] He NV) as (m & EM & SM).
  { split; [constructor|reflexivity]. }
  exists v1, v2, v, m. exists (direction (pt_scale s inv) (pt_scale t inv)).
  assert (EW : w = v).
  { pose proof (CW (Nat.max fuel (Z.to_nat (manhattan v1 v2) + 2)) ltac:(lia)) as C1.
    unfold castRay in C, C1. destruct (setupRayCaster g (pt_scale s inv) (pt_scale t inv)) as [c| |]; cbn [rbind] in C, C1; try discriminate C.
    assert (L1 : cast_loop fuel c = Some v) by congruence.
    assert (L2 : cast_loop (Nat.max fuel (Z.to_nat (manhattan v1 v2) + 2)) c = Some w) by congruence.
    assert (M : forall f c l f', cast_loop f c = Some l -> (f <= f')%nat -> cast_loop f' c = Some l).
    { clear. induction f as [|f IH]; intros c l f' H L; [discriminate H|]. destruct f' as [|f']; [lia|]. cbn [cast_loop] in *.
      destruct (nextRayIndex c) as (c' & [i|]); [|exact H]. destruct (cast_loop f c') as [l'|] eqn:E; [|discriminate H].
      rewrite (IH _ _ f' E) by lia. exact H. }
    rewrite (M _ _ _ _ L1 (Nat.le_max_l _ _)) in L2. congruence. }
  subst w. split; [|split; [exact SM|split; [|split; [exact I1|split; [exact I2|split; [exact H|split; [exact Len|exact CH]]]]]]].
  - unfold getHierarchicalIndexAlongRay. cbv zeta. fold inv.
    assert (EE : (pt_scale (if ca then o else pt_sub p (pt_scale (normalized3 (pt_sub p o)) T)) inv, pt_scale (pt_add p (pt_scale (normalized3 (pt_sub p o)) T)) inv) = (pt_scale s inv, pt_scale t inv)) by (rewrite <- E; reflexivity).
    assert (E1 : pt_scale (if ca then o else pt_sub p (pt_scale (normalized3 (pt_sub p o)) T)) inv = pt_scale s inv) by congruence.
    assert (E2 : pt_scale (pt_add p (pt_scale (normalized3 (pt_sub p o)) T)) inv = pt_scale t inv) by congruence.
    rewrite E1, E2, C. cbn [rbind]. rewrite EM. reflexivity.
  - unfold RayCaster_new. rewrite E. exact C.
Qed.
Print Assumptions C105_hierarchy.

(** a ray from the origin through (3, 4, 0) m, with 2 m of truncation, voxels of 1 m, blocks of 4 *)
Example C105_example :
  ray_args re_o re_p (f32_of_Z 2) (f32_of_Z 2) (inv_of f1) /\
  ((normR (map3 FR re_o) + normR (map3 FR re_p) + FR (f32_of_Z 2)) * FR (inv_of f1) <= bpow radix2 20)%R /\
  getHierarchicalIndexAlongRay 30 ex_garbage re_o re_p 4 f1 (f32_of_Z 2) false =
    Ok (Some [(V3 0 0 0, [V3 1 2 0; V3 2 2 0; V3 2 3 0]); (V3 0 1 0, [V3 2 0 0; V3 3 0 0; V3 3 1 0]); (V3 1 1 0, [V3 0 1 0])]).
Proof.
  assert (FI : ffin (inv_of f1) = true) by (vm_compute; reflexivity).
  assert (EI : FR (inv_of f1) = FR f1) by (vm_compute; reflexivity). rewrite EI.
  destruct C73_example as ((A1 & A2 & A3 & A4 & _ & _ & A7 & A8 & A9) & _).
  split; [|split].
  - unfold ray_args. rewrite EI. tauto.
  - pose proof (norm_15 re_o A1) as N1. pose proof (norm_15 re_p A2) as N2. destruct A3 as (_ & B). rewrite Rabs_pos_eq in B by exact A4.
    destruct (f32_of_Z_R 1 ltac:(lia)) as (E1 & _). fold f1 in E1. rewrite E1. change (bpow radix2 20) with 1048576%R. change (bpow radix2 15) with 32768%R in *. lra.
  - vm_compute. reflexivity.
Qed.
