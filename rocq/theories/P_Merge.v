(** Properties C17, C18 and C47: merging voxels, layers and colours. *)
From Coq Require Import ZArith List Bool Lia Reals Lra.
From Flocq Require Import Core.
From Verif Require Import F32 F32_lemmas F32_err Types Index Voxel Serialize Assoc Assoc_lemmas Layer Merge Merge_proofs.
Import ListNotations.
Open Scope Z_scope.

(** [weight_ok w]: finite and 0 <= w <= 2^126; [fin_upto e x]: finite and
    |x| <= 2^e; [mean da wa db wb] is the exact weighted mean (da*wa + db*wb) / (wa + wb)
    (Merge_proofs.v). *)
Definition tsdf_sane (v : TsdfVoxel) : Prop :=
  fin_upto 40 (t_distance v) /\ fin_upto 40 (t_weight v) /\ (0 <= FR (t_weight v))%R /\ color_ok (t_color v).

Lemma sane_weight : forall v, tsdf_sane v -> weight_ok (t_weight v).
Proof.
  intros v (_ & (F & B) & P & _). split; auto. split; auto. rewrite Rabs_pos_eq in B by auto.
  eapply Rle_trans; [exact B|]. apply bpow_le. lia.
Qed.

(** C17: the merged weight is the (float) sum, the distance is the weighted mean
    up to a relative error of 2^-20, and therefore lies between the two inputs up
    to that error; every colour channel lies between the inputs'. *)
Theorem C17_tsdf_merge : forall a b, tsdf_sane a -> tsdf_sane b ->
  (bpow radix2 (-20) <= FR (t_weight a) + FR (t_weight b))%R ->
  exists v, merge_vox KTsdf a b = Some v /\
    FR (t_weight v) = rnd32 (FR (t_weight a) + FR (t_weight b)) /\
    (let da := FR (t_distance a) in let db := FR (t_distance b) in
     let tol := (bpow radix2 (-20) * Rmax (Rabs da) (Rabs db) + bpow radix2 (-120))%R in
     (Rabs (FR (t_distance v) - mean da (FR (t_weight a)) db (FR (t_weight b))) <= tol)%R /\
     (Rmin da db - tol <= FR (t_distance v) <= Rmax da db + tol)%R) /\
    color_ok (t_color v).
Proof.
  intros a b Sa Sb HW. pose proof (sane_weight _ Sa) as Wa. pose proof (sane_weight _ Sb) as Wb.
  destruct Sa as (Da & Ua & Pa & Ca), Sb as (Db & Ub & Pb & Cb).
  destruct (weights_sum _ _ Wa Wb) as (Fs & Es & L1 & L2).
  assert (S0 : (0 < FR (t_weight a) + FR (t_weight b))%R).
  { eapply Rlt_le_trans; [apply (bpow_gt_0 radix2 (-20))|exact HW]. }
  assert (P : flt f0 (fadd (t_weight a) (t_weight b)) = true).
  { apply flt_R; auto. change (FR f0) with 0%R. lra. }
  destruct (blend_colors (t_color a) (t_color b) (t_weight a) (t_weight b)) as (c & Ec & K1 & K2 & K3 & K4); auto; try (apply Ua); try (apply Ub).
  { destruct Wa as (_ & _ & Wa), Wb as (_ & _ & Wb). change 127 with (126 + 1). rewrite bpow_plus. change (bpow radix2 1) with 2%R. lra. }
  destruct (merge_distance _ _ _ _ Da Db Ua Ub Pa Pb HW) as (Fr & Hr). cbn zeta in Fr, Hr.
  eexists. split. { cbn [merge_vox]. unfold merge_tsdf. rewrite P, Ec. reflexivity. }
  cbn [t_weight t_distance t_color]. split; auto. split.
  - cbn zeta. split; [exact Hr|]. apply Rabs_le_inv in Hr.
    pose proof (mean_between (FR (t_distance a)) (FR (t_weight a)) (FR (t_distance b)) (FR (t_weight b)) Pa Pb S0). lra.
  - destruct Ca as (A1 & A2 & A3 & A4), Cb as (B1 & B2 & B3 & B4). unfold color_ok, is_byte in *. lia.
Qed.
Print Assumptions C17_tsdf_merge.

(** merging with an unobserved voxel (weight 0, the default): weight and colour
    stay exactly, the distance up to the same rounding; nothing happens to [b]
    when both are unobserved *)
Theorem C17_tsdf_neutral : forall b, tsdf_sane b -> (bpow radix2 (-20) <= FR (t_weight b))%R ->
  exists v, merge_vox KTsdf (vdefault KTsdf) b = Some v /\ merge_vox KTsdf b (vdefault KTsdf) = Some v /\
    t_weight v = t_weight b /\ t_color v = t_color b /\
    (Rabs (FR (t_distance v) - FR (t_distance b)) <= bpow radix2 (-20) * Rabs (FR (t_distance b)) + bpow radix2 (-120))%R.
Proof.
  intros b Sb HW. pose proof (sane_weight _ Sb) as Wb. pose proof Sb as (Db & Ub & Pb & Cb).
  assert (Sd : tsdf_sane (vdefault KTsdf)).
  { unfold tsdf_sane. cbn [vdefault t_distance t_weight t_color]. assert (fin_upto 40 f0). { split; auto. change (FR f0) with 0%R. rewrite Rabs_R0. apply bpow_ge_0. }
    change (FR f0) with 0%R. split; auto. split; auto. split; [lra|]. unfold color_ok, is_byte, color0; cbn; lia. }
  assert (B0 : (0 < FR (t_weight b))%R) by (eapply Rlt_le_trans; [apply (bpow_gt_0 radix2 (-20))|exact HW]).
  destruct (C17_tsdf_merge (vdefault KTsdf) b Sd Sb) as (v & E & _ & (H & _) & _).
  { cbn [vdefault t_weight]. change (FR f0) with 0%R. lra. }
  assert (EW : fadd f0 (t_weight b) = t_weight b) by (apply fadd_zero_l; auto; apply Ub).
  assert (P : flt f0 (t_weight b) = true) by (apply flt_R; auto; apply Ub).
  exists v. split; auto. split.
  { rewrite <- E. cbn [merge_vox]. symmetry. apply merge_tsdf_comm; auto; try apply Sd; try apply Db.
    - apply sane_weight; auto.
    - cbn [vdefault t_weight]. rewrite EW. auto. }
  cbn [merge_vox vdefault] in E. unfold merge_tsdf in E. cbn [t_weight t_color t_distance] in E. rewrite EW, P in E.
  rewrite merge_neutral_color in E; auto; try apply Ub; try apply Sd. injection E as <-. cbn [t_weight t_color t_distance] in *.
  split; auto. split; auto. cbn [vdefault t_weight t_distance] in H. change (FR f0) with 0%R in H.
  unfold mean in H. rewrite Rmult_0_l, !Rplus_0_l, Rabs_R0, Rmax_right in H by apply Rabs_pos.
  replace (FR (t_distance b) * FR (t_weight b) / FR (t_weight b))%R with (FR (t_distance b)) in H by (field; lra). exact H.
Qed.
Print Assumptions C17_tsdf_neutral.

Theorem C17_tsdf_both_unobserved : forall a b, t_weight a = f0 -> t_weight b = f0 -> merge_vox KTsdf a b = Some b.
Proof. intros a b Ha Hb. cbn [merge_vox]. unfold merge_tsdf. rewrite Ha, Hb. reflexivity. Qed.
Print Assumptions C17_tsdf_both_unobserved.

Theorem C17_tsdf_commutative : forall a b, tsdf_sane a -> tsdf_sane b ->
  (0 < FR (t_weight a) + FR (t_weight b))%R ->
  merge_vox KTsdf a b = merge_vox KTsdf b a.
Proof.
  intros a b Sa Sb HS. pose proof (sane_weight _ Sa) as Wa. pose proof (sane_weight _ Sb) as Wb.
  destruct (weights_sum _ _ Wa Wb) as (Fs & Es & L1 & L2).
  cbn [merge_vox]. apply merge_tsdf_comm; auto; try apply Sa; try apply Sb.
  apply flt_R; auto. change (FR f0) with 0%R. destruct Sa as (_ & _ & Pa & _), Sb as (_ & _ & Pb & _). lra.
Qed.
Print Assumptions C17_tsdf_commutative.

Lemma ex_sane : forall n m c, 0 <= n <= 2 ^ 24 -> 0 <= m <= 2 ^ 24 -> color_ok c -> tsdf_sane (MkTsdf (f32_of_Z n) (f32_of_Z m) c).
Proof.
  intros n m c Hn Hm Hc. unfold tsdf_sane, fin_upto. cbn [t_distance t_weight t_color].
  destruct (f32_of_Z_R n) as (E1 & F1); [lia|]. destruct (f32_of_Z_R m) as (E2 & F2); [lia|]. rewrite E1, E2.
  assert (forall z, 0 <= z <= 2 ^ 24 -> (Rabs (IZR z) <= bpow radix2 40)%R).
  { intros. rewrite Rabs_pos_eq by (apply IZR_le; lia). apply Rle_trans with (IZR (2 ^ 24)); [apply IZR_le; lia|].
    rewrite (IZR_Zpower radix2) by lia. apply bpow_le. lia. }
  repeat split; auto; try apply IZR_le; try lia; apply Hc.
Qed.
(** exact neutrality of the distance is false: x * w / w is not always x *)
Theorem C17_exact_neutral_refuted :
  exists b, tsdf_sane b /\ (1 <= FR (t_weight b))%R /\
    match merge_vox KTsdf (vdefault KTsdf) b with
    | Some v => feq (t_distance v) (t_distance b) = false
    | None => False
    end.
Proof.
  exists (MkTsdf (f32_of_Z 12788938) (f32_of_Z 3) color0). split.
  - apply ex_sane; try lia. repeat split; discriminate.
  - split; [cbn [t_weight]; destruct (f32_of_Z_R 3) as (-> & _); [lia|lra]|]. vm_compute. reflexivity.
Qed.
Print Assumptions C17_exact_neutral_refuted.

(** ESDF and occupancy voxels *)
Theorem C17_esdf_merge : forall a b, exists v, merge_vox KEsdf a b = Some v /\
  e_observed v = (e_observed a || e_observed b) /\
  match e_observed a, e_observed b with
  | true, true => fin_upto 126 (e_distance a) -> fin_upto 126 (e_distance b) ->
      ffin (e_distance v) = true /\
      (Rabs (FR (e_distance v) - (FR (e_distance a) + FR (e_distance b)) / 2) <=
        bpow radix2 (-22) * (Rabs (FR (e_distance a)) + Rabs (FR (e_distance b))) + bpow radix2 (-149))%R
  | true, false => e_distance v = e_distance a
  | false, _ => e_distance v = e_distance b
  end.
Proof.
  intros a b. eexists. split; [reflexivity|]. unfold merge_esdf. cbn [e_observed e_distance].
  split; [apply orb_comm|]. destruct (e_observed a), (e_observed b); cbn [andb negb]; auto.
  intros (Fa & Ha) (Fb & Hb). set (x := FR (e_distance a)) in *. set (y := FR (e_distance b)) in *.
  destruct (fadd_rel (e_distance a) (e_distance b) Fa Fb) as (F1 & e1 & D1 & E1).
  { apply (Rabs_add_bpow _ _ 126 126 127); auto; lia. }
  fold x in E1. fold y in E1. destruct (f32_of_Z_R 2) as (E2 & F2); [lia|].
  assert (B : (Rabs (x + y) <= bpow radix2 127)%R) by (apply (Rabs_add_bpow _ _ 126 126 127); auto; lia).
  set (s := fadd (e_distance a) (e_distance b)) in *.
  assert (S1 : (Rabs (FR s) <= 2 * bpow radix2 127)%R).
  { rewrite E1, Rabs_mult. rewrite (Rmult_comm 2). apply Rmult_le_compat; auto using Rabs_pos.
    apply Rabs_le_inv in D1. unfold u32r in D1. apply Rabs_le. lra. }
  destruct (fdiv_rel s (f32_of_Z 2) F1) as (F3 & d3 & e3 & D3 & T3 & E3).
  { rewrite E2. lra. }
  { rewrite E2. unfold Rdiv. rewrite Rabs_mult, (Rabs_pos_eq (/ 2)) by lra. lra. }
  split; auto. rewrite E3, E2, E1.
  replace ((x + y) * (1 + e1) / 2 * (1 + d3) + e3 - (x + y) / 2)%R with ((x + y) * ((e1 + d3 + e1 * d3) / 2) + e3)%R by field.
  apply Rabs_le_inv in D1. apply Rabs_le_inv in D3.
  assert (K : (Rabs ((e1 + d3 + e1 * d3) / 2) <= bpow radix2 (-22))%R).
  { apply Rabs_le. replace (bpow radix2 (-22)) with (4 * u32r)%R by (unfold u32r; cbn; lra). unfold u32r in *. split; nra. }
  eapply Rle_trans; [apply Rabs_triang|]. rewrite Rabs_mult. apply Rplus_le_compat.
  - rewrite Rmult_comm. apply Rmult_le_compat; auto using Rabs_pos. apply Rabs_triang.
  - eapply Rle_trans; [exact T3|]. unfold t32r. apply bpow_le. lia.
Qed.
Print Assumptions C17_esdf_merge.

Theorem C17_occupancy_merge : forall a b, exists v, merge_vox KOcc a b = Some v /\
  o_observed v = (o_observed a || o_observed b) /\
  (fin_upto 126 (o_log a) -> fin_upto 126 (o_log b) ->
     FR (o_log v) = rnd32 (FR (o_log a) + FR (o_log b))).
Proof.
  intros a b. eexists. split; [reflexivity|]. cbn [o_observed o_log merge_occ]. split; [apply orb_comm|].
  intros (Fa & Ha) (Fb & Hb). rewrite (Rplus_comm (FR (o_log a))). apply fadd_R; auto. apply rnd32_small.
  apply (Rabs_add_bpow _ _ 126 126 127); auto; lia.
Qed.
Print Assumptions C17_occupancy_merge.

Definition ex_a : TsdfVoxel := MkTsdf (f32_of_Z 1) (f32_of_Z 2) (MkColor 10 20 30 255).
Definition ex_b : TsdfVoxel := MkTsdf (f32_of_Z 4) (f32_of_Z 1) (MkColor 40 20 0 255).
Example C17_example : tsdf_sane ex_a /\ tsdf_sane ex_b /\
  match merge_vox KTsdf ex_a ex_b with
  | Some v => fword (t_distance v) = fword (f32_of_Z 2) /\ fword (t_weight v) = fword (f32_of_Z 3) /\
              t_color v = MkColor 20 20 20 255
  | None => False
  end.
Proof.
  split; [apply ex_sane; unfold color_ok, is_byte; cbn; lia|]. split; [apply ex_sane; unfold color_ok, is_byte; cbn; lia|].
  vm_compute. auto.
Qed.

(** C18. When the layouts agree ([feq] of the voxel sizes, same number of voxels
    per side) and merging succeeds, every voxel of A in a block with data has been
    merged into B's voxel at the same place (or into a default voxel), blocks only
    in A exist in B afterwards, and blocks not in A are unchanged. Missing for the
    full statement: blocks whose has_data flag is not set (no integrator sets
    it) are skipped, see [C18_refuted_no_data], and layers of different layout,
    see [C18_refuted_layout]. *)
Definition voxel_at {k} (l : Layer k) (i : idx3) (n : nat) : option (vox k) :=
  match l_get l i with Some b => nth_error (b_voxels b) n | None => None end.
Theorem C18_merge_layer_partial : forall k (la lb lb' other : Layer k),
  NoDup (getAllAllocatedBlocks la) ->
  feq (l_size la) (l_size lb) = true -> l_vps la = l_vps lb ->
  mergeLayerAintoLayerB la other lb = Ok lb' ->
  l_size lb' = l_size lb /\ l_vps lb' = l_vps lb /\
  forall i,
    match l_get la i with
    | None => l_get lb' i = l_get lb i
    | Some ba =>
        hasBlock lb' i = true /\
        (b_has_data ba = true ->
          (exists nb, l_get lb' i = Some nb /\ b_has_data nb = true /\ b_updated nb = upd_all) /\
          forall n v', voxel_at lb' i n = Some v' ->
            exists a b, voxel_at la i n = Some a /\ merge_vox k a b = Some v' /\
              match l_get lb i with
              | Some _ => voxel_at lb i n = Some b
              | None => b = vdefault k
              end)
    end.
Proof.
  intros k la lb lb' other ND E1 E2 H. unfold mergeLayerAintoLayerB in H. rewrite E1, E2, Z.eqb_refl in H. cbn [negb orb] in H.
  destruct (merge_loop_get _ _ _ _ _ ND H) as (A1 & A2 & A3). split; auto. split; auto.
  intros i. specialize (A3 i). unfold hasBlock, voxel_at. destruct (l_get la i) as [ba|] eqn:Ea.
  - destruct (in_dec idx_eq_dec i (getAllAllocatedBlocks la)) as [HI|HI].
    2:{ exfalso. apply HI. unfold getAllAllocatedBlocks. unfold l_get in Ea. apply alookup_In in Ea. apply (in_map fst) in Ea. exact Ea. }
    destruct A3 as (nb & M & G). rewrite G. split; auto. intros HD.
    destruct (mergeBlock_spec _ _ _ _ M) as (_ & _ & _ & S). rewrite HD in S. destruct S as (S1 & S2 & S3 & S4).
    split; [eauto|]. intros n v' Ev. destruct (S4 n v' Ev) as (a & b & X1 & X2 & X3). exists a, b. split; auto. split; auto.
    destruct (l_get lb i); auto. unfold fresh_block, new_block in X2. cbn [b_voxels] in X2.
    apply nth_error_In in X2. apply repeat_spec in X2. auto.
  - destruct (in_dec idx_eq_dec i (getAllAllocatedBlocks la)) as [HI|HI]; auto.
    exfalso. unfold l_get in Ea. apply alookup_None in Ea. apply Ea. exact HI.
Qed.
Print Assumptions C18_merge_layer_partial.

(** no voxel gets lost: B's block afterwards has as many voxels as before, or as
    a fresh block *)
Theorem C18_no_voxel_lost : forall k (la lb lb' other : Layer k) i ba,
  NoDup (getAllAllocatedBlocks la) -> feq (l_size la) (l_size lb) = true -> l_vps la = l_vps lb ->
  mergeLayerAintoLayerB la other lb = Ok lb' -> l_get la i = Some ba ->
  exists nb, l_get lb' i = Some nb /\
    length (b_voxels nb) = match l_get lb i with Some b => length (b_voxels b) | None => num_voxels (l_vps lb) end.
Proof.
  intros k la lb lb' other i ba ND E1 E2 H Ea. unfold mergeLayerAintoLayerB in H. rewrite E1, E2, Z.eqb_refl in H. cbn [negb orb] in H.
  destruct (merge_loop_get _ _ _ _ _ ND H) as (A1 & A2 & A3). specialize (A3 i).
  destruct (in_dec idx_eq_dec i (getAllAllocatedBlocks la)) as [HI|HI].
  2:{ exfalso. apply HI. unfold getAllAllocatedBlocks. unfold l_get in Ea. apply alookup_In in Ea. apply (in_map fst) in Ea. exact Ea. }
  rewrite Ea in A3. destruct A3 as (nb & M & G). exists nb. split; auto.
  destruct (mergeBlock_spec _ _ _ _ M) as (_ & _ & _ & S).
  assert (L : length (b_voxels nb) = length (b_voxels (match l_get lb i with Some b => b | None => fresh_block lb i end))).
  { destruct (b_has_data ba); [tauto|rewrite S; auto]. }
  rewrite L. destruct (l_get lb i); auto. apply repeat_length.
Qed.
Print Assumptions C18_no_voxel_lost.

(** Refutations: a one-voxel layer A whose block lacks the has_data flag leaves B's voxel unmerged; *)
Definition one_block (h : bool) (w : Z) (i : idx3) : Layer KTsdf :=
  MkLayer (f32_of_Z 1) 1 [(i, MkBlock (k:=KTsdf) 1 (f32_of_Z 1) (V3 f0 f0 f0) h upd_none [MkTsdf (f32_of_Z 1) (f32_of_Z w) color0])].
Definition weight_of (r : res (Layer KTsdf)) (i : idx3) : option Z :=
  match r with Ok l => match voxel_at l i 0 with Some v => Some (fword (t_weight v)) | None => None end | _ => None end.
Theorem C18_refuted_no_data :
  weight_of (mergeLayerAintoLayerB (one_block false 1 (V3 0 0 0)) (one_block false 1 (V3 0 0 0)) (one_block true 2 (V3 0 0 0))) (V3 0 0 0)
    = Some (fword (f32_of_Z 2)) /\
  weight_of (mergeLayerAintoLayerB (one_block true 1 (V3 0 0 0)) (one_block true 1 (V3 0 0 0)) (one_block true 2 (V3 0 0 0))) (V3 0 0 0)
    = Some (fword (f32_of_Z 3)).
Proof. split; vm_compute; reflexivity. Qed.
Print Assumptions C18_refuted_no_data.

(** with a different layout the loop still runs over A's block indices: a
    resampled block at an index A does not have is dropped, whatever it holds. *)
Theorem C18_refuted_layout : forall k (la res lb lb' : Layer k) i,
  NoDup (getAllAllocatedBlocks la) -> l_vps la <> l_vps lb ->
  mergeLayerAintoLayerB la res lb = Ok lb' -> l_get la i = None ->
  l_get lb' i = l_get lb i.
Proof.
  intros k la res lb lb' i ND E H Ea. unfold mergeLayerAintoLayerB in H.
  destruct (Z.eqb_spec (l_vps la) (l_vps lb)) as [|_]; [contradiction|]. rewrite orb_true_r in H.
  destruct (merge_loop_get _ _ _ _ _ ND H) as (_ & _ & A3). specialize (A3 i).
  destruct (in_dec idx_eq_dec i (getAllAllocatedBlocks la)) as [HI|HI]; auto.
  exfalso. unfold l_get in Ea. apply alookup_None in Ea. apply Ea. exact HI.
Qed.
Print Assumptions C18_refuted_layout.

Example C18_example :
  match mergeLayerAintoLayerB (one_block true 1 (V3 0 0 0)) (one_block true 1 (V3 0 0 0)) (one_block true 2 (V3 4 0 0)) with
  | Ok l => map fst (l_blocks l) = [V3 4 0 0; V3 0 0 0]
  | _ => False
  end.
Proof. vm_compute. reflexivity. Qed.

(** C47: blending with finite nonnegative weights, not both zero, whose sum does
    not overflow: every channel lies between the two inputs. *)
Theorem C47_blend_between : forall c1 c2 w1 w2, color_ok c1 -> color_ok c2 ->
  ffin w1 = true -> ffin w2 = true -> (0 <= FR w1)%R -> (0 <= FR w2)%R ->
  (0 < FR w1 + FR w2)%R -> (FR w1 + FR w2 <= bpow radix2 127)%R ->
  exists c, blendTwoColors c1 w1 c2 w2 = Some c /\
    forall ch, In ch [cr; cg; cb; ca] -> Z.min (ch c1) (ch c2) <= ch c <= Z.max (ch c1) (ch c2).
Proof.
  intros c1 c2 w1 w2 H1 H2 H3 H4 H5 H6 H7 H8.
  destruct (blend_colors c1 c2 w1 w2 H1 H2 H3 H4 H5 H6 H7 H8) as (c & E & A & B & C & D).
  exists c. split; auto. cbn [In]. intros ch [<-|[<-|[<-|[<-|[]]]]]; auto.
Qed.
Print Assumptions C47_blend_between.

(** blending a colour with itself, or with weight 0 on one side, is exact *)
Theorem C47_zero_weight : forall c1 c2 w1 w2, color_ok c1 -> color_ok c2 ->
  ffin w1 = true -> ffin w2 = true -> FR w1 = 0%R -> (0 < FR w2)%R ->
  blendTwoColors c1 w1 c2 w2 = Some c2.
Proof. intros. apply merge_neutral_color; auto. Qed.
Print Assumptions C47_zero_weight.
Theorem C47_same_color : forall c w1 w2, color_ok c ->
  ffin w1 = true -> ffin w2 = true -> (0 <= FR w1)%R -> (0 <= FR w2)%R ->
  (0 < FR w1 + FR w2)%R -> (FR w1 + FR w2 <= bpow radix2 127)%R ->
  blendTwoColors c w1 c w2 = Some c.
Proof.
  intros c w1 w2 H1 H3 H4 H5 H6 H7 H8.
  destruct (blend_colors c c w1 w2 H1 H1 H3 H4 H5 H6 H7 H8) as ([r g b a] & E & A & B & C & D).
  rewrite E. cbn [cr cg cb ca] in *. destruct c as [r' g' b' a']. cbn [cr cg cb ca] in *. f_equal. f_equal; lia.
Qed.
Print Assumptions C47_same_color.
(** without the overflow condition it is false: two weights of 2^127 blend white and white to black *)
Theorem C47_refuted_overflow :
  blendTwoColors (MkColor 255 255 255 255) (fbits 0x7f000000) (MkColor 255 255 255 255) (fbits 0x7f000000) = Some color0.
Proof. vm_compute. reflexivity. Qed.
Print Assumptions C47_refuted_overflow.
Example C47_example : blendTwoColors (MkColor 0 10 200 255) (f32_of_Z 1) (MkColor 100 10 0 255) (f32_of_Z 3) = Some (MkColor 75 10 50 255).
Proof. vm_compute. reflexivity. Qed.
