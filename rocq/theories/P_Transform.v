(** Property C86: transforming and resampling layers. *)
From Coq Require Import ZArith List Bool Reals Lra Lia Permutation.
From Flocq Require Import Core IEEE754.Binary IEEE754.Bits.
From Verif Require Import F32 F32_lemmas F32_err Index_float Types Index Index_proofs Voxel Serialize Assoc Assoc_lemmas Layer Threads MeshInt Planning Merge Mesh_spec Interp Interp_spec Interp_axis
  Neighbor_proofs Transform Transform_spec Transform_proofs Transform_blocks Transform_marks Transform_same.
Import ListNotations.
Open Scope Z_scope.
Ltac Zify.zify_post_hook ::= idtac.

(** Every output block that is considered takes what the input layer says about the
    places its voxels come from; all others are left alone; no loop makes more than
    4000 passes and nothing undefined happens. Missing from the property: that every
    output block the transformed content reaches is considered. It is false, below. *)
Theorem C86_transform_partial : forall (rows : nat -> sum_order) top order D W (lin out : Layer KTsdf) T Tinv fuel,
  (forall j, (j < 8)%nat -> complete_order (rows j)) -> complete_order top -> set_order order ->
  transformable D W lin -> built_layer out -> in_reach lin T (l_block_size out) ->
  (forall g, considered lin T (l_block_size out) (block_of (l_vps out) g) -> close_by (l_size lin) (Tinv (place (l_vps out) (l_size out) g))) ->
  4000 <= Z.of_nat fuel ->
  exists out', transformLayer rows top order fuel lin T Tinv out = Ok (Some out') /\
    built_layer out' /\ l_vps out' = l_vps out /\ l_size out' = l_size out /\
    forall bi, (considered lin T (l_block_size out) bi -> reworked D W lin Tinv (l_vps out) (l_size out) out out' bi) /\
               (~ considered lin T (l_block_size out) bi -> l_get out' bi = l_get out bi).
Proof. intros rows top order D W lin out T Tinv fuel HR HT HO. apply transform_spec; assumption. Qed.
Print Assumptions C86_transform_partial.

(** Resampling into a layer of the same geometry keeps every observed voxel, up to half
    a percent of the largest distance and weight. *)
Theorem C86_resample_same : forall (rows : nat -> sum_order) top order D W (lin out : Layer KTsdf) I Iinv fuel,
  (forall j, (j < 8)%nat -> complete_order (rows j)) -> complete_order top -> set_order order ->
  transformable D W lin -> built_layer out -> l_vps out = l_vps lin -> l_size out = l_size lin -> sane_size (l_block_size lin) ->
  still I -> still Iinv ->
  (forall i b, l_get lin i = Some b -> all3 (fun c => Z.abs c * l_vps lin <= 384) i) ->
  4000 <= Z.of_nat fuel ->
  exists out', resampleLayer rows top order fuel lin I Iinv out = Ok (Some out') /\
    forall g v, voxel_at lin g = Some v -> isObservedVoxel KTsdf v = true ->
      exists w, voxel_at out' g = Some w /\
        (Rabs (FR (t_distance w) - FR (t_distance v)) <= / 200 * D + bpow radix2 (-140))%R /\
        (Rabs (FR (t_weight w) - FR (t_weight v)) <= / 200 * W + bpow radix2 (-140))%R.
Proof. intros rows top order D W lin out I Iinv fuel HR HT HO. apply same_spec; assumption. Qed.
Print Assumptions C86_resample_same.

(** ** Cases *)
Definition ord : sum_order := Plus (Plus (Plus (Term 0) (Term 1)) (Plus (Term 2) (Term 3))) (Plus (Plus (Term 4) (Term 5)) (Plus (Term 6) (Term 7))).
Lemma ord_complete : complete_order ord. Proof. apply Permutation_refl. Qed.
Fixpoint dedup (l : list idx3) : list idx3 := match l with [] => [] | x :: l' => if existsb (idx_eqb x) l' then dedup l' else x :: dedup l' end.
Lemma dedup_in : forall l i, In i (dedup l) <-> In i l.
Proof.
  induction l as [|x l IH]; intros i; cbn [dedup In]; [reflexivity|]. destruct (existsb (idx_eqb x) l) eqn:E; cbn [In]; rewrite IH; [|reflexivity].
  apply existsb_exists in E. destruct E as (y & Iy & Ey). destruct (idx_eqb_spec x y) as [<-|]; [|discriminate]. split; [auto | intros [<-|]; auto].
Qed.
Lemma dedup_order : set_order dedup.
Proof.
  intros m. split; [|apply dedup_in]. induction m as [|x l IH]; cbn [dedup]; [constructor|]. destruct (existsb (idx_eqb x) l) eqn:E; [exact IH|].
  constructor; [|exact IH]. rewrite dedup_in. intros I. assert (existsb (idx_eqb x) l = true) by (apply existsb_exists; exists x; split; [exact I | apply idx_eqb_refl]). congruence.
Qed.
Definition vox1 : TsdfVoxel := MkTsdf (fbits 0x3f000000) f1 (MkColor 10 20 30 40).
Definition blk1 (n : Z) (i : idx3) : Block KTsdf := set_voxels (k := KTsdf) (repeat vox1 (num_voxels n)) (new_block (k := KTsdf) n f1 (new_block_origin n f1 i)).
(** one block of 2 voxels of 1 m per side, all observed at 0.5 m *)
Definition src : Layer KTsdf := MkLayer (k := KTsdf) f1 2 [(V3 0 0 0, blk1 2 (V3 0 0 0))].
Definition dst (n : Z) : Layer KTsdf := MkLayer (k := KTsdf) f1 n [].
Definition sh (x : f32) (p : pt3) : pt3 := V3 (fadd (vx p) x) (vy p) (vz p).
Definition half : f32 := fbits 0x3f000000.
Definition mhalf : f32 := fbits 0xbf000000.

Lemma sane1 : sane_size f1.
Proof. split; [reflexivity|]. rewrite f1_R. split; [change 1%R with (bpow radix2 0); apply bpow_le; lia | change 1%R with (bpow radix2 0); apply bpow_le; lia]. Qed.
Lemma dst_built : forall n, 1 <= n <= 2 ^ 10 -> built_layer (dst n).
Proof. intros n H. split; [apply sane1|]. split; [exact H|]. intros i b E. discriminate E. Qed.
Lemma src_get : forall i b, l_get src i = Some b -> i = V3 0 0 0 /\ b = blk1 2 (V3 0 0 0).
Proof.
  intros i b E. unfold l_get, src in E. cbn [l_blocks alookup] in E. destruct (idx_eqb_spec i (V3 0 0 0)) as [->|]; [|discriminate E]. injection E as <-. auto.
Qed.
Lemma src_built : built_layer src.
Proof.
  split; [apply sane1|]. split; [cbn; lia|]. intros i b E. apply src_get in E. destruct E as (-> & ->). split; [reflexivity|]. split; [reflexivity|]. split; reflexivity.
Qed.
Lemma half_R : ffin half = true /\ FR half = (/ 2)%R.
Proof. split; [reflexivity|]. assert (E : FR half = (IZR 8388608 * bpow radix2 (-24))%R) by reflexivity. rewrite E. change (bpow radix2 (-24)) with (/ 16777216)%R. lra. Qed.
Lemma src_ok : transformable 1 1 src.
Proof.
  split; [apply src_built | cbn; lia | | |].
  - intros g v E. unfold voxel_at in E. cbn [src l_vps] in E.
    destruct (l_get src _) as [b|] eqn:G; [|discriminate E]. apply src_get in G. destruct G as (_ & ->).
    apply nth_error_In in E. cbn [blk1 set_voxels b_voxels] in E. apply repeat_spec in E. subst v. cbn [vox1 t_distance t_weight t_color cr cg cb ca].
    destruct half_R as (F & E). fold half. rewrite E, f1_R. repeat split; try reflexivity; try lia; rewrite Rabs_pos_eq; lra.
  - split; [lra|]. change 1%R with (bpow radix2 0). apply bpow_le; lia.
  - split; [lra|]. change 1%R with (bpow radix2 0). apply bpow_le; lia.
Qed.

(** the hypotheses of [C86_resample_same] are met *)
Example C86_case_same : exists out', resampleLayer (fun _ => ord) ord dedup (Z.to_nat 4000) src (fun p => p) (fun p => p) (dst 2) = Ok (Some out') /\
  forall g v, voxel_at src g = Some v -> isObservedVoxel KTsdf v = true ->
    exists w, voxel_at out' g = Some w /\
      (Rabs (FR (t_distance w) - FR (t_distance v)) <= / 200 * 1 + bpow radix2 (-140))%R /\
      (Rabs (FR (t_weight w) - FR (t_weight v)) <= / 200 * 1 + bpow radix2 (-140))%R.
Proof.
  apply C86_resample_same.
  - intros j _. apply ord_complete.
  - apply ord_complete.
  - apply dedup_order.
  - apply src_ok.
  - apply dst_built. lia.
  - reflexivity.
  - reflexivity.
  - split; [reflexivity|]. assert (E : FR (l_block_size src) = (IZR 8388608 * bpow radix2 (-22))%R) by reflexivity. rewrite E. change (bpow radix2 (-22)) with (/ 4194304)%R.
    assert (bpow radix2 (-40) <= bpow radix2 0)%R by (apply bpow_le; lia). assert (bpow radix2 1 <= bpow radix2 40)%R by (apply bpow_le; lia).
    change (bpow radix2 0) with 1%R in *. change (bpow radix2 1) with 2%R in *. lra.
  - intros p H. auto.
  - intros p H. auto.
  - intros i b E. apply src_get in E. destruct E as (-> & _). unfold all3. change (l_vps src) with 2. cbn [vx vy vz]. lia.
  - rewrite Z2Nat.id; lia.
Qed.
Example C86_case_voxel : voxel_at src (V3 1 0 1) = Some vox1 /\ isObservedVoxel KTsdf vox1 = true.
Proof. split; reflexivity. Qed.

(** the hypotheses of [C86_transform_partial] are met: half a metre along x *)
Definition moved_marks : list idx3 := [V3 (-1) (-1) (-1); V3 (-1) (-1) 0; V3 (-1) 0 (-1); V3 (-1) 0 0; V3 0 (-1) (-1); V3 0 (-1) 0; V3 0 0 (-1); V3 0 0 0].
Lemma moved_considered : forall bi, considered src (sh half) (l_block_size (dst 2)) bi <-> In bi moved_marks.
Proof.
  intros bi. assert (E : all_marks 10 (l_block_size src) (l_block_size (dst 2)) (sh half) (getAllAllocatedBlocks src) = Ok (Some moved_marks)) by (vm_compute; reflexivity).
  rewrite (all_marks_in _ _ _ _ _ _ E bi). split.
  - intros (i & b & p & G & A & N). exists i, p. split; [apply akeys_In; exists b; exact G|]. auto.
  - intros (i & p & G & A & N). apply akeys_In in G. destruct G as (b & G). exists i, b, p. auto.
Qed.
Example C86_case_move : exists out', transformLayer (fun _ => ord) ord dedup (Z.to_nat 4000) src (sh half) (sh mhalf) (dst 2) = Ok (Some out') /\
  built_layer out' /\ l_vps out' = 2 /\ l_size out' = f1 /\
  forall bi, (considered src (sh half) (l_block_size (dst 2)) bi -> reworked 1 1 src (sh mhalf) 2 f1 (dst 2) out' bi) /\
             (~ considered src (sh half) (l_block_size (dst 2)) bi -> l_get out' bi = l_get (dst 2) bi).
Proof.
  assert (B2 : FR (l_block_size src) = 2%R).
  { assert (E : FR (l_block_size src) = (IZR 8388608 * bpow radix2 (-22))%R) by reflexivity. rewrite E. change (bpow radix2 (-22)) with (/ 4194304)%R. lra. }
  apply (C86_transform_partial (fun _ => ord) ord dedup 1 1 src (dst 2)).
  - intros j _. apply ord_complete.
  - apply ord_complete.
  - apply dedup_order.
  - apply src_ok.
  - apply dst_built. lia.
  - change (l_block_size (dst 2)) with (l_block_size src). split; [rewrite B2; lra|]. intros i b E. apply src_get in E. destruct E as (-> & _). rewrite B2.
    assert (X : FR (fadd (center_axis 0 (l_block_size src)) half) = (IZR 12582912 * bpow radix2 (-23))%R) by reflexivity.
    assert (Y : FR (center_axis 0 (l_block_size src)) = (IZR 8388608 * bpow radix2 (-23))%R) by reflexivity.
    change (bpow radix2 (-23)) with (/ 8388608)%R in X, Y.
    assert (PX : (ffin (fadd (center_axis 0 (l_block_size src)) half) = true /\ Rabs (FR (fadd (center_axis 0 (l_block_size src)) half) / 2) <= 65536)%R) by (split; [reflexivity|]; rewrite X, Rabs_pos_eq; lra).
    assert (PY : (ffin (center_axis 0 (l_block_size src)) = true /\ Rabs (FR (center_axis 0 (l_block_size src)) / 2) <= 65536)%R) by (split; [reflexivity|]; rewrite Y, Rabs_pos_eq; lra).
    split; [exact PX | split; [exact PY | exact PY]].
  - intros g C. apply moved_considered in C. change (l_vps (dst 2)) with 2 in *. change (l_size (dst 2)) with f1. change (l_size src) with f1.
    assert (R : -1 <= vx (block_of 2 g) <= 0 /\ -1 <= vy (block_of 2 g) <= 0 /\ -1 <= vz (block_of 2 g) <= 0).
    { unfold moved_marks in C. cbn [In] in C. repeat (destruct C as [<-|C]; [cbn [vx vy vz]; lia|]). contradiction. }
    unfold block_of, map3 in R. cbn [vx vy vz] in R.
    assert (K : forall c, -1 <= c / 2 <= 0 -> (ffin (ctr 2 f1 (c / 2) (c mod 2)) = true /\ Rabs (FR (ctr 2 f1 (c / 2) (c mod 2)) / FR f1) <= 3)%R).
    { intros c Hc. pose proof (Z.div_mod c 2 ltac:(lia)) as DM. pose proof (Z.mod_pos_bound c 2 ltac:(lia)) as MB. assert (HB : -2 <= c <= 1) by lia.
      destruct (place_axis 2 f1 c sane1 ltac:(lia) ltac:(lia)) as (F & E). split; [exact F|].
      assert (-2 <= IZR c <= 1)%R by (split; apply IZR_le; lia). apply Rabs_le_inv in E. apply Rabs_le. lra. }
    destruct (K (vx g)) as (F1 & P1); [tauto|]. destruct (K (vy g)) as (F2 & P2); [tauto|]. destruct (K (vz g)) as (F3 & P3); [tauto|].
    change (close_by f1 (V3 (fadd (ctr 2 f1 (vx g / 2) (vx g mod 2)) mhalf) (ctr 2 f1 (vy g / 2) (vy g mod 2)) (ctr 2 f1 (vz g / 2) (vz g mod 2)))).
    split; [|split; cbn [vx vy vz]; (split; [assumption | lra])]. cbn [vx]. set (x := ctr 2 f1 (vx g / 2) (vx g mod 2)) in *.
    assert (D1 : forall r, (r / FR f1 = r)%R) by (intros r; rewrite f1_R; field). rewrite D1 in *.
    assert (MH : FR mhalf = (- / 2)%R). { assert (E : FR mhalf = (IZR (-8388608) * bpow radix2 (-24))%R) by reflexivity. rewrite E. change (bpow radix2 (-24)) with (/ 16777216)%R. lra. }
    apply Rabs_le_inv in P1.
    destruct (fadd_rel x mhalf F1 eq_refl) as (F & e & He & E).
    { rewrite MH. apply Rle_trans with (bpow radix2 3); [change (bpow radix2 3) with 8%R; apply Rabs_le; lra | apply bpow_le; lia]. }
    split; [exact F|]. rewrite E, MH. apply Rle_trans with (8 * 2)%R; [|lra]. apply Rabs_prod; [apply Rabs_le; lra|]. apply Rabs_le_inv in He. unfold u32r in He. apply Rabs_le. lra.
  - rewrite Z2Nat.id; lia.
Qed.
Example C86_case_moved : considered src (sh half) (l_block_size (dst 2)) (V3 0 0 0) /\ ~ considered src (sh half) (l_block_size (dst 2)) (V3 1 0 0).
Proof. rewrite !moved_considered. unfold moved_marks. cbn [In]. split; [tauto|]. intros H. repeat (destruct H as [H|H]; [discriminate H|]). contradiction. Qed.

(** ** Where the content gets lost *)
(** the distance and the weight stored at [g] in the resulting layer, as bit patterns *)
Definition stored (r : res (option (Layer KTsdf))) (g : idx3) : option (option (Z * Z)) :=
  match r with
  | Ok (Some l) => Some (match voxel_at l g with Some v => Some (fword (t_distance v), fword (t_weight v)) | None => None end)
  | _ => None
  end.
Definition shift : f32 := fbits 0x3f300000.
Definition unshift : f32 := fbits 0xbf300000.
(** Moved by 0.6875 m, the content reaches 0.6875 m into the block (1,0,0): the centre
    of its voxel (2,0,0), moved back, lies well inside the observed voxel (1,0,0) of the
    input. That block is not considered, so nothing is written there; merging the
    transformed layer into an empty one loses the same part. *)
Theorem C86_translate_refuted :
  FR (vx (sh unshift (place 2 f1 (V3 2 0 0)))) = 1.8125%R /\ voxel_at src (V3 1 0 0) = Some vox1 /\ isObservedVoxel KTsdf vox1 = true /\
  map (stored (transformLayer (fun _ => ord) ord dedup 10 src (sh shift) (sh unshift) (dst 2))) [V3 1 0 0; V3 2 0 0] = [Some (Some (fword half, fword f1)); Some None] /\
  map (stored (mergeTransformed (fun _ => ord) ord dedup 10 src (sh shift) (sh unshift) (dst 2) false)) [V3 1 0 0; V3 2 0 0] = [Some (Some (fword half, fword f1)); Some None].
Proof.
  split; [|split; [reflexivity|split; [reflexivity|split; vm_compute; reflexivity]]].
  assert (E : FR (vx (sh unshift (place 2 f1 (V3 2 0 0)%Z))) = (IZR 15204352 * bpow radix2 (-23))%R) by reflexivity. rewrite E. change (bpow radix2 (-23)) with (/ 8388608)%R. lra.
Qed.
Print Assumptions C86_translate_refuted.

(** Resampled into blocks of twice the size, everything is lost: only the block
    (-1,-1,-1) is considered. *)
Theorem C86_resample_refuted : voxel_at src (V3 1 0 0) = Some vox1 /\ isObservedVoxel KTsdf vox1 = true /\
  exists l, resampleLayer (fun _ => ord) ord dedup 10 src (fun p => p) (fun p => p) (dst 4) = Ok (Some l) /\ l_blocks l = [].
Proof.
  split; [reflexivity|]. split; [reflexivity|].
  assert (E : match resampleLayer (fun _ => ord) ord dedup 10 src (fun p => p) (fun p => p) (dst 4) with Ok (Some l) => length (l_blocks l) = O | _ => False end) by (vm_compute; reflexivity).
  destruct (resampleLayer (fun _ => ord) ord dedup 10 src (fun p => p) (fun p => p) (dst 4)) as [[l|]| |]; try contradiction.
  exists l. split; [reflexivity|]. destruct (l_blocks l); [reflexivity | discriminate E].
Qed.
Print Assumptions C86_resample_refuted.

(** The naive transformation by one block, 2 m, looks the transformed points up in the
    input layer and so moves nothing: the block it creates holds default voxels, where
    the interpolating transformation puts the content. *)
Theorem C86_naive_refuted :
  map (stored (rbind (naiveTransformLayer src (sh (fbits 0x40000000)) (dst 2)) (fun l => Ok (Some l)))) [V3 2 0 0; V3 3 0 0] = [Some (Some (0, 0)); Some (Some (0, 0))] /\
  map (stored (transformLayer (fun _ => ord) ord dedup 10 src (sh (fbits 0x40000000)) (sh (fbits 0xc0000000)) (dst 2))) [V3 2 0 0; V3 3 0 0]
    = [Some (Some (fword half, fword f1)); Some (Some (fword half, fword f1))].
Proof. split; vm_compute; reflexivity. Qed.
Print Assumptions C86_naive_refuted.
