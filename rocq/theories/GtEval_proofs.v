(** Proofs about the evaluation against ground-truth points. *)
From Coq Require Import ZArith List Bool Reals Lra Lia.
From Flocq Require Import Core.
From Verif Require Import F32 F32_lemmas F32_err Types Index Index_proofs Index_float Voxel Assoc Assoc_lemmas Layer Threads Threads_proofs Planning Mesh_spec Interp Interp_spec Interp_axis Interp_proofs
  Esdf_proofs Esdf_range Coords Coords_spec P_Coords P_Interp Eval_proofs ColorMap ColorMap_proofs GtEval GtEval_spec GtEval_rms.
Import ListNotations.
Open Scope Z_scope.
Ltac Zify.zify_post_hook ::= idtac.

(** ** Where a point lies *)
Lemma near_addr : forall n s p, sane_size s -> 1 <= n <= 2 ^ 10 -> point_in_range s p ->
  exists g, (in_cell n s (vx p) (vx g) /\ in_cell n s (vy p) (vy g) /\ in_cell n s (vz p) (vz g)) /\
    computeBlockIndexFromCoordinates n s p = Some (blk n g) /\
    computeTruncatedVoxelIndexFromCoordinates n (new_block_origin n s (blk n g)) (inv_of s) p = Some (loc n g).
Proof.
  intros n s [px py pz] Hs Hn (Px & Py & Pz). cbn [vx vy vz] in *.
  destruct (axis_cell n s px Hs Hn (proj1 Px) (proj2 Px)) as (bx & nx & Gx & Nx & _ & Sx).
  destruct (axis_cell n s py Hs Hn (proj1 Py) (proj2 Py)) as (by_ & ny & Gy & Ny & _ & Sy).
  destruct (axis_cell n s pz Hs Hn (proj1 Pz) (proj2 Pz)) as (bz & nz & Gz & Nz & _ & Sz).
  pose proof (clamp_range n nx ltac:(lia)) as Rx. pose proof (clamp_range n ny ltac:(lia)) as Ry. pose proof (clamp_range n nz ltac:(lia)) as Rz.
  exists (V3 (bx * n + clamp_axis n nx) (by_ * n + clamp_axis n ny) (bz * n + clamp_axis n nz)). cbn [vx vy vz].
  split; [exact (conj Sx (conj Sy Sz))|]. unfold blk, loc, map3. cbn [vx vy vz]. rewrite !div_base, !mod_base by lia. split.
  - unfold computeBlockIndexFromCoordinates, getGridIndexFromPoint, map3, seq3. cbn [vx vy vz]. rewrite Gx, Gy, Gz. reflexivity.
  - unfold computeTruncatedVoxelIndexFromCoordinates, computeVoxelIndexFromCoordinates, getGridIndexFromPoint, pt_sub, new_block_origin,
      getOriginPointFromGridIndex, zip3, map3, seq3. cbn [vx vy vz]. fold (org n s bx) (org n s by_) (org n s bz). rewrite Nx, Ny, Nz. reflexivity.
Qed.
Definition lies (n : Z) (s : f32) (p : pt3) (g : idx3) : Prop :=
  computeBlockIndexFromCoordinates n s p = Some (blk n g) /\
  computeTruncatedVoxelIndexFromCoordinates n (new_block_origin n s (blk n g)) (inv_of s) p = Some (loc n g).
Lemma at_ptr : forall k (l : Layer k) p g, built_layer l -> lies (l_vps l) (l_size l) p g ->
  getNearestVoxel l p = Ok (voxel_at l g) /\
  voxelPtrByCoordinates l p = Ok (match voxel_at l g with Some _ => Some (blk (l_vps l) g, spot (l_vps l) g) | None => None end).
Proof.
  intros k l p g (Hs & Hn & HB) (A1 & A2). unfold getNearestVoxel, voxelPtrByCoordinates. rewrite A1. cbn [of_opt rbind]. rewrite at_eq.
  destruct (l_get l (blk (l_vps l) g)) as [b|] eqn:E; [|split; reflexivity]. destruct (HB _ _ E) as (V & S0 & O & L). rewrite V, S0, O, A2. cbn [of_opt rbind]. rewrite spot_lin by exact Hn.
  destruct (nth_error (b_voxels b) (spot (l_vps l) g)) eqn:N; [split; reflexivity|]. exfalso. apply nth_error_None in N. pose proof (spot_lt (l_vps l) g Hn). lia.
Qed.

(** ** Layers that differ in colours only *)
Definition nc (v : vox KTsdf) : f32 * f32 := (t_distance v, t_weight v).
Definition like (l l' : Layer KTsdf) : Prop :=
  l_size l' = l_size l /\ l_vps l' = l_vps l /\
  forall i, match l_get l i, l_get l' i with
            | None, None => True
            | Some b, Some b' => b_vps b' = b_vps b /\ b_size b' = b_size b /\ b_origin b' = b_origin b /\ map nc (b_voxels b' : list (vox KTsdf)) = map nc (b_voxels b)
            | _, _ => False
            end.
Lemma like_refl : forall l, like l l.
Proof. intros l. split; [reflexivity|]. split; [reflexivity|]. intros i. destruct (l_get l i); auto. Qed.
Lemma nth_nc : forall (a b : list (vox KTsdf)) n, map nc a = map nc b -> option_map nc (nth_error a n) = option_map nc (nth_error b n).
Proof. intros a b n H. rewrite <- !nth_error_map, H. reflexivity. Qed.
Lemma like_at : forall l l' g, like l l' -> option_map nc (voxel_at l' g) = option_map nc (voxel_at l g).
Proof.
  intros l l' g (S0 & V0 & H). rewrite !at_eq, V0. specialize (H (blk (l_vps l) g)).
  destruct (l_get l (blk (l_vps l) g)) as [b|], (l_get l' (blk (l_vps l) g)) as [b'|]; try contradiction; [|reflexivity].
  apply nth_nc, H.
Qed.
Definition seen (r : res (option (pt3 * list (vox KTsdf)))) : res (option (pt3 * list (f32 * f32))) :=
  rbind r (fun o => Ok (option_map (fun x => (fst x, map nc (snd x))) o)).
Lemma fetch_like : forall (l l' : Layer KTsdf) bi v pos, like l l' -> forall cols first q,
  seen (fetch_voxels l' bi v pos cols first q) = seen (fetch_voxels l bi v pos cols first q).
Proof.
  intros l l' bi v pos (S0 & V0 & H). induction cols as [|c cols IH]; intros first q; [reflexivity|]. cbn [fetch_voxels].
  pose proof (H bi) as B0. destruct (l_get l bi) as [b0|], (l_get l' bi) as [b0'|]; try contradiction; [|reflexivity].
  destruct B0 as (-> & _).
  set (w := idx_add v c). set (i := V3 _ _ _). pose proof (H i) as B1. destruct (l_get l i) as [b|], (l_get l' i) as [b'|]; try contradiction; [|reflexivity].
  destruct B1 as (-> & -> & -> & VV). set (w' := V3 _ _ _).
  destruct (if first then _ else Ok q) as [q'| |]; cbn [rbind]; [|reflexivity|reflexivity].
  pose proof (nth_nc _ _ (Z.to_nat (computeLinearIndexFromVoxelIndex (b_vps b) w')) VV) as N.
  destruct (nth_error (b_voxels b') _) as [x'|], (nth_error (b_voxels b) _) as [x|]; try discriminate; [|reflexivity].
  cbn [of_opt rbind]. assert (N' : nc x' = nc x) by (cbn [option_map] in N; congruence). unfold nc in N'. assert (W : t_weight x' = t_weight x) by congruence.
  unfold isObservedVoxel. rewrite W. destruct (dgt _ _); [|reflexivity].
  specialize (IH false q'). unfold seen in *. destruct (fetch_voxels l' bi v pos cols false q') as [[[a xs]|]| |], (fetch_voxels l bi v pos cols false q') as [[[a1 xs1]|]| |];
    cbn [rbind option_map fst snd map] in *; try discriminate; try reflexivity.
  assert (Q : a = a1 /\ map nc xs = map nc xs1) by (split; congruence). destruct Q as (-> & ->). unfold nc at 1 3. rewrite N'. reflexivity.
Qed.
Lemma interp_like : forall rows top l l' p, like l l' -> getInterpDistance rows top l' p = getInterpDistance rows top l p.
Proof.
  intros rows top l l' p L. pose proof L as (S0 & V0 & H). unfold getInterpDistance, getVoxelsAndQVector.
  assert (SI : setIndexes l' p = setIndexes l p).
  { unfold setIndexes. rewrite S0, V0. destruct (of_opt (computeBlockIndexFromCoordinates (l_vps l) (l_size l) p)) as [i| |]; cbn [rbind]; [|reflexivity|reflexivity].
    specialize (H i). destruct (l_get l i) as [b|], (l_get l' i) as [b'|]; try contradiction; [|reflexivity]. destruct H as (-> & -> & -> & _). reflexivity. }
  rewrite SI. destruct (setIndexes l p) as [[[bi v]|]| |]; cbn [rbind]; try reflexivity.
  pose proof (fetch_like l l' bi v p L interp_offsets true (V3 f0 f0 f0)) as F. unfold seen in F.
  destruct (fetch_voxels l' bi v p interp_offsets true (V3 f0 f0 f0)) as [[[a xs]|]| |], (fetch_voxels l bi v p interp_offsets true (V3 f0 f0 f0)) as [[[a1 xs1]|]| |];
    cbn [rbind option_map fst snd] in *; try discriminate; try reflexivity.
  assert (Q : a = a1 /\ map nc xs = map nc xs1) by (split; congruence). destruct Q as (-> & Q). do 3 f_equal.
  assert (M : forall ys : list (vox KTsdf), map (getVoxelSdf KTsdf) ys = map fst (map nc ys)) by (intros ys; rewrite map_map; reflexivity).
  rewrite !M, Q. reflexivity.
Qed.

Lemma nth_error_ext_map : forall A (a b : list A), (forall n, nth_error a n = nth_error b n) -> a = b.
Proof.
  induction a as [|x a IH]; intros [|y b] H; [reflexivity|specialize (H 0%nat); discriminate|specialize (H 0%nat); discriminate|].
  assert (x = y) by (specialize (H 0%nat); cbn in H; congruence). subst y. f_equal. apply IH. intros n. exact (H (S n)).
Qed.
(** ** One point *)
Lemma collect_in : forall A B (f : A -> option B) cs xs, collect (map f cs) = Some xs -> forall x, In x xs -> exists c, In c cs /\ f c = Some x.
Proof.
  induction cs as [|c cs IH]; intros xs E x I; cbn [map collect] in E.
  - injection E as <-. destruct I.
  - destruct (f c) as [y|] eqn:F; [|discriminate]. destruct (collect (map f cs)) as [r|] eqn:C; [|discriminate]. injection E as <-.
    destruct I as [<-|I]; [exists c; split; [now left|exact F]|]. destruct (IH r eq_refl x I) as (c' & I' & F'). exists c'. split; [now right|exact F'].
Qed.
Section one.
  Variables (rows : nat -> sum_order) (top : sum_order).
  Hypothesis HR : forall j, (j < 8)%nat -> complete_order (rows j).
  Hypothesis HT : complete_order top.
  Variables (l : Layer KTsdf) (D : R).
  Hypothesis OK : map_ok l D.
  Lemma td_val : DR (truncation_of l) = (2 * FR (l_size l))%R /\ dfin (truncation_of l) = true /\ (0 < FR (l_size l) <= 2 ^ 40)%R.
  Proof.
    destruct OK as (((Fs & L & U) & _) & _). assert (P : (0 < FR (l_size l))%R) by (pose proof (bpow_gt_0 radix2 (-40)); lra).
    assert (U' : (FR (l_size l) <= 2 ^ 40)%R) by (replace (2 ^ 40)%R with (bpow radix2 40) by (cbn; lra); exact U).
    destruct (f32_of_Z_R 2 ltac:(lia)) as (E2 & F2). unfold truncation_of.
    destruct (fmul_R (f32_of_Z 2) (l_size l) F2 Fs) as (E & F).
    { apply rnd32_small. rewrite E2, Rabs_pos_eq by lra. apply Rle_trans with (bpow radix2 41); [|apply bpow_le; lia]. change 41%Z with (1 + 40)%Z. rewrite bpow_plus. change (bpow radix2 1) with 2%R. lra. }
    destruct (f64_of_f32_R _ F) as (E' & F'). rewrite E', E, E2, double_exact. auto.
  Qed.
  (** the counters after a point *)
  Definition term_of (v : verdict) : f64 :=
    match v with Unknown => d0 | Outside _ => dmul (truncation_of l) (truncation_of l) | Within e => f64_of_f32 (fmul e e) end.
  Definition count_in (s : tally) (v : verdict) : tally :=
    match v with
    | Unknown => MkTally (g_total s) (g_unknown s + 1) (g_outside s) (g_mse s)
    | Outside _ => MkTally (g_total s) (g_unknown s) (g_outside s + 1) (dadd (g_mse s) (term_of v))
    | Within _ => MkTally (g_total s) (g_unknown s) (g_outside s) (dadd (g_mse s) (term_of v))
    end.
  Lemma least : FR gt_min_weight = least_weight /\ ffin gt_min_weight = true.
  Proof. split; [|reflexivity]. unfold least_weight, gt_min_weight, FR. vm_compute. lra. Qed.
  Definition good_error (e : f32) : Prop := ffin e = true /\ (Rabs (FR e) <= 2 ^ 60)%R.
  Lemma lerp_bound : forall t a b M, (0 <= t <= 1.125)%R -> (Rabs a <= M)%R -> (Rabs b <= M)%R -> (Rabs (lerp t a b) <= 1.25 * M)%R.
  Proof.
    intros t a b M T A B. unfold lerp. assert (0 <= M)%R by (pose proof (Rabs_pos a); lra). eapply Rle_trans; [apply Rabs_triang|]. rewrite !Rabs_mult, (Rabs_pos_eq t) by lra.
    destruct (Rle_or_lt t 1) as [C|C].
    - rewrite (Rabs_pos_eq (1 - t)) by lra. assert ((1 - t) * Rabs a <= (1 - t) * M)%R by (apply Rmult_le_compat_l; lra). assert (t * Rabs b <= t * M)%R by (apply Rmult_le_compat_l; lra). lra.
    - rewrite Rabs_left by lra. assert (- (1 - t) * Rabs a <= 0.125 * M)%R by (apply Rmult_le_compat; auto using Rabs_pos; lra). assert (t * Rabs b <= 1.125 * M)%R by (apply Rmult_le_compat; auto using Rabs_pos; lra). lra.
  Qed.
  Lemma judge_spec : forall p, point_in_range (l_size l) p ->
    exists g v, judged l D p (g, v) /\ lies (l_vps l) (l_size l) p g /\
      (forall d, shown v = Some d -> good_error d /\ exists x, voxel_at l g = Some x) /\
      forall s, judge_point rows top l s p = Ok (count_in s v, shown v).
  Proof.
    intros p P. destruct OK as (BL & HD & HV). destruct BL as (Hs & Hn & HB).
    destruct (near_addr (l_vps l) (l_size l) p Hs Hn P) as (g & C & A). change (lies (l_vps l) (l_size l) p g) in A.
    assert (BL : built_layer l) by exact (conj Hs (conj Hn HB)). destruct (at_ptr _ l p g BL A) as (N & _).
    destruct td_val as (ET & FT & PS). destruct least as (EL & FL).
    assert (D60 : (D <= 2 ^ 60)%R). { apply Rle_trans with (2 ^ 50)%R; [lra|]. apply Rle_pow; [lra|lia]. }
    unfold judged, judge_point, getNearestDistanceAndWeight. rewrite N. cbn [rbind option_map].
    destruct (voxel_at l g) as [x|] eqn:V.
    2:{ exists g, Unknown. cbn [fst snd]. rewrite V. split; [split; [exact C|reflexivity]|]. split; [exact A|]. split; [discriminate|reflexivity]. }
    cbn [option_map]. destruct (HV g x V) as (Fx & Bx & Fw).
    destruct (Rle_dec (FR (t_weight x)) least_weight) as [W|W].
    { exists g, Unknown. cbn [fst snd]. rewrite V. split; [split; [exact C|]|].
      - destruct (Rle_dec (FR (t_weight x)) least_weight); [reflexivity|contradiction].
      - split; [exact A|]. split; [discriminate|]. intros s. replace (fle (t_weight x) gt_min_weight) with true; [reflexivity|]. symmetry. apply fle_R; auto. rewrite EL. exact W. }
    assert (W' : fle (t_weight x) gt_min_weight = false).
    { destruct (fle (t_weight x) gt_min_weight) eqn:Q; [|reflexivity]. apply fle_R in Q; auto. rewrite EL in Q. contradiction. }
    rewrite W'. destruct (f64_of_f32_R _ Fx) as (EX & FX).
    destruct (Rle_dec (2 * FR (l_size l)) (FR (t_distance x))) as [T|T].
    { exists g, (Outside (t_distance x)). cbn [fst snd]. rewrite V. split; [split; [exact C|]|].
      - destruct (Rle_dec (FR (t_weight x)) least_weight); [contradiction|]. destruct (Rle_dec (2 * FR (l_size l)) (FR (t_distance x))); [reflexivity|contradiction].
      - split; [exact A|]. split.
        + intros d Q. cbn [shown] in Q. injection Q as <-. split; [split; [exact Fx|lra]|exists x; reflexivity].
        + intros s. replace (dge (f64_of_f32 (t_distance x)) (truncation_of l)) with true; [reflexivity|]. symmetry. unfold dge. apply dle_R; auto. rewrite ET, EX. exact T. }
    assert (T' : dge (f64_of_f32 (t_distance x)) (truncation_of l) = false).
    { destruct (dge _ _) eqn:Q; [|reflexivity]. unfold dge in Q. apply dle_R in Q; auto. rewrite ET, EX in Q. contradiction. }
    rewrite T'.
    assert (HD' : (0 <= D <= bpow radix2 100)%R). { split; [lra|]. apply Rle_trans with (2 ^ 50)%R; [lra|]. replace (2 ^ 50)%R with (bpow radix2 50) by (cbn; lra). apply bpow_le. lia. }
    destruct (C41_distance KTsdf l rows top p D BL P HR HT) as (h & o & S & O & R); [intros g0 v0 V0; destruct (HV g0 v0 V0) as (X1 & X2 & _); split; assumption|exact HD'|].
    assert (J : forall e, map_distance l D p (t_distance x) e -> cell_of l p g /\ match voxel_at l g with
      | None => Within e = Unknown | Some x => if Rle_dec (FR (t_weight x)) least_weight then Within e = Unknown
        else if Rle_dec (2 * FR (l_size l)) (FR (t_distance x)) then Within e = Outside (t_distance x) else exists e', Within e = Within e' /\ map_distance l D p (t_distance x) e' end).
    { intros e M. split; [exact C|]. rewrite V. destruct (Rle_dec (FR (t_weight x)) least_weight); [contradiction|]. destruct (Rle_dec (2 * FR (l_size l)) (FR (t_distance x))); [contradiction|]. exists e. auto. }
    destruct (eight_voxels l h) as [xs|] eqn:E8.
    - destruct R as (e & -> & Fe & Be). exists g, (Within e). cbn [fst snd]. split; [apply J; exists h, o; rewrite E8; auto|]. split; [exact A|]. split; [|reflexivity].
      intros d Q. cbn [shown] in Q. injection Q as <-. split; [|exists x; exact V]. split; [exact Fe|].
      assert (VB : forall i, (Rabs (FR (nth i (map (getVoxelSdf KTsdf) xs) f0)) <= D)%R).
      { intros i. destruct (nth_error (map (getVoxelSdf KTsdf) xs) i) as [y|] eqn:Q.
        - rewrite (nth_error_nth _ _ f0 Q). apply nth_error_In in Q. apply in_map_iff in Q. destruct Q as (v & <- & I). unfold eight_voxels in E8.
          destruct (collect_in _ _ _ _ _ E8 _ I) as (c & _ & OB). unfold observed_at in OB. destruct (voxel_at l (idx_add h c)) as [u|] eqn:U; [|discriminate].
          destruct (isObservedVoxel KTsdf u); [|discriminate]. injection OB as <-. destruct (HV _ _ U) as (_ & X & _). exact X.
        - apply nth_error_None in Q. rewrite nth_overflow by exact Q. change (FR f0) with 0%R. rewrite Rabs_R0. lra. }
      destruct O as ((_ & O1 & _) & (_ & O2 & _) & (_ & O3 & _)).
      assert (TB : (Rabs (trilinear (fun i => FR (nth i (map (getVoxelSdf KTsdf) xs) f0)) (FR (vx o)) (FR (vy o)) (FR (vz o))) <= 2 * D)%R).
      { unfold trilinear. eapply Rle_trans; [repeat (apply lerp_bound; [assumption| |]); apply VB|]. lra. }
      set (tl := trilinear _ _ _ _) in *. replace (FR e) with ((FR e - tl) + tl)%R by ring. eapply Rle_trans; [apply Rabs_triang|].
      assert (bpow radix2 (-140) <= 1)%R by (change 1%R with (bpow radix2 0); apply bpow_le; lia).
      assert (D50 : (D <= 2 ^ 50)%R) by lra. assert (I14 : (/ 2 ^ 14 * D <= D)%R). { rewrite <- (Rmult_1_l D) at 2. apply Rmult_le_compat_r; lra. }
      replace (2 ^ 60)%R with (1024 * 2 ^ 50)%R by ring. assert (1 <= 2 ^ 50)%R by (apply pow_R1_Rle; lra). lra.
    - rewrite R. exists g, (Within (t_distance x)). cbn [fst snd]. split; [apply J; exists h, o; rewrite E8; auto|]. split; [exact A|]. split; [|reflexivity].
      intros d Q. cbn [shown] in Q. injection Q as <-. split; [|exists x; exact V]. split; [exact Fx|lra].
  Qed.
  (** the same point in a layer with other colours *)
  Lemma judge_like : forall l' s p, like l l' -> (exists g, lies (l_vps l) (l_size l) p g) -> built_layer l' -> judge_point rows top l' s p = judge_point rows top l s p.
  Proof.
    intros l' s p L (g & A) BL'. pose proof L as (S0 & V0 & _). destruct OK as (BL & _). unfold judge_point, getNearestDistanceAndWeight, truncation_of. rewrite S0, (interp_like rows top l l' p L).
    destruct (at_ptr _ l p g BL A) as (-> & _). rewrite <- S0, <- V0 in A. destruct (at_ptr _ l' p g BL' A) as (-> & _). cbn [rbind].
    pose proof (like_at l l' g L) as Q. unfold nc in Q. change (vox KTsdf) with TsdfVoxel in *. rewrite Q. reflexivity.
  Qed.
  (** recolouring *)
  Definition gray_at (d : f32) : option Color := grayColorMap (ddiv (f64_of_f32 (fabs d)) (truncation_of l)).
  Lemma store_like : forall l' g x v', like l l' -> built_layer l' -> voxel_at l' g = Some x -> nc v' = nc x ->
    exists l2, store_ptr l' (blk (l_vps l') g, spot (l_vps l') g) v' = Ok l2 /\ like l l2 /\ built_layer l2 /\
      forall h, voxel_at l2 h = if idx_eqb g h then Some v' else voxel_at l' h.
  Proof.
    intros l' g x v' L BL V N. destruct (store_spec (k := KTsdf) l' g v' x BL V) as (l2 & E & B2 & V2 & S2 & A). exists l2. split; [exact E|]. split; [|split; [exact B2|exact A]].
    destruct L as (S0 & V0 & H). split; [congruence|]. split; [congruence|]. intros i. specialize (H i).
    unfold store_ptr in E. destruct (load_ptr l' _) as [y| |] eqn:LD; cbn [rbind] in E; try discriminate. assert (E' : l2 = set_block l' (blk (l_vps l') g) (fun b => set_voxels (set_th (spot (l_vps l') g) v' (b_voxels b)) b)) by (cbn [fst snd] in E; congruence).
    rewrite E', set_block_get. destruct (idx_eqb_spec i (blk (l_vps l') g)) as [Q|Q]; [|exact H].
    rewrite <- Q. destruct (l_get l i) as [b|], (l_get l' i) as [b'|] eqn:G; try contradiction; [|exact I]. cbn [option_map].
    destruct H as (H1 & H2 & H3 & H4). unfold set_voxels. cbn [b_vps b_size b_origin b_voxels]. split; [exact H1|]. split; [exact H2|]. split; [exact H3|].
    rewrite <- H4. rewrite at_eq, <- Q, G in V. apply nth_error_ext_map. intros n. rewrite !nth_error_map.
    destruct (Nat.eq_dec n (spot (l_vps l') g)) as [->|NE]; [rewrite (set_th_same _ _ _ x V), V; cbn [option_map]; congruence|].
    rewrite set_th_other by congruence. reflexivity.
  Qed.
End one.
