(** Property C76: integration of sane input neither fails nor hangs. *)
From Coq Require Import ZArith Reals List Bool Lia Lra Permutation.
From Flocq Require Import Core Binary.
From Verif Require P_Sphere.
From Verif Require Import F32 F32_lemmas F32_err Types Index Voxel Assoc Layer Threads Threads_proofs Update Ray Planning Mesh_spec Update_spec Update_proofs
  Ray_spec Ray_proofs RayEnds_spec RayEnds_proofs Merge_proofs Cloud Cloud_spec Cloud_proofs Total_spec Total_proofs Mean_spec Mean_proofs P_Weight P_Cloud P_Mean.
Import ListNotations.
Open Scope Z_scope.

Lemma weight_nonneg : forall cfg p, ffin (vz p) = true -> (Rabs (FR (vz p)) <= bpow radix2 20)%R -> (0 <= FR (getVoxelWeight cfg p))%R.
Proof.
  intros cfg p Fz Hz. destruct (c_const_weight cfg) eqn:C; [rewrite (C71_constant cfg p C); lra|].
  destruct (C71_depth cfg p C Fz) as (A & B). destruct (Rle_lt_dec (Rabs (FR (vz p))) (FR kEpsilon)) as [H|H]; [rewrite (A H); lra|].
  destruct B as (F & E). { split; [exact H|]. eapply Rle_trans; [exact Hz|]. apply bpow_le. lia. }
  set (w := FR (getVoxelWeight cfg p)) in *. apply Rabs_le_inv in E. change (bpow radix2 (-22)) with (/ 4194304)%R in E.
  assert (0 <= FR (vz p) * FR (vz p))%R by apply Rle_0_sqr. destruct (Rle_lt_dec 0 w) as [|N]; [assumption|exfalso].
  assert (w * (FR (vz p) * FR (vz p)) <= 0)%R; [|lra]. rewrite <- (Rmult_0_l (FR (vz p) * FR (vz p))). apply Rmult_le_compat_r; lra.
Qed.
Lemma weight_fit : forall cfg p, ffin (vz p) = true -> (Rabs (FR (vz p)) <= bpow radix2 20)%R ->
  ffin (getVoxelWeight cfg p) = true /\ (0 <= FR (getVoxelWeight cfg p) <= bpow radix2 100)%R.
Proof.
  intros cfg p Fz Hz. destruct (weight_range cfg p Fz Hz) as (A & B). split; [exact A|]. split; [apply weight_nonneg; auto|].
  eapply Rle_trans; [exact B|]. apply bpow_le. lia.
Qed.

Section Points.
  Variables (fuel : nat) (garbage : caster) (cc : CloudConfig) (cl : cloud) (l : Layer KTsdf).
  Hypothesis FUEL : 2 ^ 24 <= Z.of_nat fuel.
  Hypothesis FC : fit_cloud cc l cl.
  Lemma sees_fit : forall i v, In i (indices cl) -> Forall near_index v -> Forall fit_request (map (sees cc cl i) v).
  Proof.
    intros i v I N. destruct FC as (_ & H). destruct (H i I) as (C & (Fz & Bz) & _). destruct (weight_fit (cc_tsdf cc) _ Fz Bz) as (W1 & W2).
    rewrite Forall_map. eapply Forall_impl; [|exact N]. intros g Hg. split; [exact Hg|]. split; [exact W1|]. split; [exact W2|exact C].
  Qed.
  Lemma simple_point_total : forall i, In i (indices cl) ->
    exists cs, simple_point fuel garbage cc (l_size l) cl i = Ok (Some cs) /\ Forall (fun c : call => fit_request (snd c)) cs /\ Z.of_nat (length cs) <= 2 ^ 24.
  Proof.
    intros i I. pose proof FC as (LEN & H). destruct (H i I) as (_ & _ & U). unfold simple_point. rewrite (point_at_ok cl i LEN I). cbn [rbind]. rewrite (classify_use cc cl i).
    destruct (use_of cc cl i) as [c|]; [|exists []; repeat split; [constructor|cbn; lia]].
    destruct (ray_total fuel garbage cc l cl (point_of cl i) c true FUEL (U ltac:(discriminate))) as (v & R & N & L). unfold ray_voxels in R.
    exists (ray_calls (map (sees cc cl i) v)). split; [|split; [apply ray_calls_in, sees_fit; auto|rewrite ray_calls_len, map_length; exact L]].
    unfold origin. destruct c; cbn [is_clearing]; rewrite R; reflexivity.
  Qed.
End Points.

(** Simple integrator: whatever the threads do the result is a map, and after a bounded number of
    steps of every thread it is there; it is again a map for which this holds. *)
Theorem C76_simple : forall cc cl l, fit_config cc l -> sound_layer l -> safe_map (cc_tsdf cc) l -> fit_cloud cc l cl ->
  forall fuel garbage taken sched, 2 ^ 24 <= Z.of_nat fuel -> Permutation (concat taken) (indices cl) ->
  exists r, simple_integrate fuel garbage cc cl taken sched l = Ok r /\
    (runs_long (length taken) (Z.of_nat (length (cl_points cl)) * 2 ^ 24) sched -> exists l', r = Some l') /\
    (forall l', r = Some l' -> sound_layer l' /\ safe_map (cc_tsdf cc) l' /\ l_size l' = l_size l /\ l_vps l' = l_vps l).
Proof.
  intros cc cl l (C1 & C2 & C3 & C4) W SM FC fuel garbage taken sched HF P. pose proof FC as (LEN & _). unfold simple_integrate. rewrite LEN, Nat.eqb_refl. cbn [negb].
  destruct (progs_total Z (simple_point fuel garbage cc (l_size l) cl) taken (2 ^ 24) ltac:(lia)) as (progs & E & L & F & N).
  { intros i I. apply simple_point_total; auto. apply (Permutation_in _ P), I. }
  unfold simple_progs. rewrite E. unfold obind. cbn [rbind].
  assert (LP : length (concat taken) = length (cl_points cl)) by (rewrite (Permutation_length P); unfold indices; rewrite map_length, seq_length; reflexivity).
  rewrite LP in N. rewrite <- LEN. destruct (threads_total (cc_tsdf cc) l C1 C2 C3 C4 W SM progs F sched _ N) as (r & R & A & B). exists r. split; [exact R|]. rewrite L in A. auto.
Qed.
Print Assumptions C76_simple.

(** ** voxels of points *)
Lemma grid_some : forall x k, ffin x = true -> ffin k = true -> (Rabs (FR x) <= bpow radix2 20)%R -> (Rabs (FR k) <= bpow radix2 35)%R ->
  exists i, scaled_grid_axis (fmul x k) = Some i.
Proof.
  intros x k Fx Fk Bx Bk. assert (XK : (Rabs (FR x * FR k) <= bpow radix2 55)%R) by (apply (Rabs_mul_bpow _ _ 20 35); auto; lia).
  destruct (fmul_rel x k Fx Fk) as (F & d & t & D & T & E). { eapply Rle_trans; [exact XK|]. apply bpow_le; lia. }
  assert (B1 : (Rabs (FR (fmul x k)) <= bpow radix2 57)%R).
  { rewrite E. eapply Rle_trans; [apply Rabs_triang|]. rewrite Rabs_mult. replace (bpow radix2 57) with (bpow radix2 55 * 2 + bpow radix2 55 * 2)%R by (cbn; lra).
    assert (Rabs (1 + d) <= 2)%R by (apply Rabs_le_inv in D; apply Rabs_le; rewrite u_eq in *; lra).
    assert (Rabs (FR x * FR k) * Rabs (1 + d) <= bpow radix2 55 * 2)%R by (apply Rmult_le_compat; auto using Rabs_pos).
    pose proof t32r_small. assert (1 <= bpow radix2 55)%R by (cbn; lra). lra. }
  destruct kEpsilon_pos as (KP & FK). assert (KB : (FR kEpsilon <= 1)%R).
  { assert (EK : FR kEpsilon = (IZR 8796093 * bpow radix2 (-43))%R) by reflexivity. rewrite EK. cbn. lra. }
  assert (S1 : (Rabs (FR (fmul x k) + FR kEpsilon) <= bpow radix2 58)%R).
  { eapply Rle_trans; [apply Rabs_triang|]. rewrite (Rabs_pos_eq (FR kEpsilon)) by lra. replace (bpow radix2 58) with (bpow radix2 57 + bpow radix2 57)%R by (cbn; lra). assert (1 <= bpow radix2 57)%R by (cbn; lra). lra. }
  destruct (fadd_rel (fmul x k) kEpsilon F FK) as (Fg & e & De & Eg). { eapply Rle_trans; [exact S1|]. apply bpow_le; lia. }
  assert (B2 : (Rabs (FR (fadd (fmul x k) kEpsilon)) <= bpow radix2 59)%R).
  { rewrite Eg, Rabs_mult. replace (bpow radix2 59) with (bpow radix2 58 * 2)%R by (cbn; lra). apply Rmult_le_compat; auto using Rabs_pos. apply Rabs_le_inv in De. apply Rabs_le. rewrite u_eq in *. lra. }
  unfold scaled_grid_axis. rewrite (ffloorZ_R _ Fg). set (w := FR (fadd (fmul x k) kEpsilon)) in *.
  pose proof (Zfloor_lb w). pose proof (Zfloor_ub w). apply Rabs_le_inv in B2. replace (bpow radix2 59) with 576460752303423488%R in B2 by (cbn; lra).
  assert (Zfloor w < 2 ^ 62) by (apply lt_IZR; change (IZR (2 ^ 62)) with 4611686018427387904%R; lra).
  assert (- 2 ^ 62 < Zfloor w) by (apply lt_IZR; change (IZR (- 2 ^ 62)) with (-4611686018427387904)%R; lra).
  eexists. apply int64_some. fold w. lia.
Qed.
Lemma point_voxel : forall p k, all3 (fun c => ffin c = true /\ (Rabs (FR c) <= bpow radix2 20)%R) p -> ffin k = true -> (Rabs (FR k) <= bpow radix2 35)%R ->
  exists v, getGlobalGridIndexFromPoint p k = Some v.
Proof.
  intros [x y z] k ((X1 & X2) & (Y1 & Y2) & (Z1 & Z2)) Fk Bk. cbn [vx vy vz] in *.
  destruct (grid_some x k X1 Fk X2 Bk) as (i & Ei). destruct (grid_some y k Y1 Fk Y2 Bk) as (j & Ej). destruct (grid_some z k Z1 Fk Z2 Bk) as (m & Em).
  exists (V3 i j m). unfold getGlobalGridIndexFromPoint. unfold map3. cbn [vx vy vz]. unfold grid_axis64, scaled_grid_axis in *. rewrite Ei, Ej, Em. reflexivity.
Qed.

Lemma used_point : forall cc (l : Layer KTsdf) cl p, ray_fits cc l cl p ->
  all3 (fun c => ffin c = true /\ (Rabs (FR c) <= bpow radix2 20)%R) (p_apply (cl_pose cl) p) /\
  ffin (inv_of (l_size l)) = true /\ (Rabs (FR (inv_of (l_size l))) <= bpow radix2 10)%R.
Proof.
  intros cc l cl p (A & _). destruct A as (_ & ((X1 & X2) & (Y1 & Y2) & (Z1 & Z2)) & _ & _ & _ & _ & Fi & Hi & _).
  assert (K : forall c : f32, (Rabs (FR c) <= bpow radix2 15 -> Rabs (FR c) <= bpow radix2 20)%R) by (intros c H; eapply Rle_trans; [exact H|]; apply bpow_le; lia).
  split; [unfold all3; auto 6|]. split; [exact Fi|]. pose proof (bpow_gt_0 radix2 (-20)). rewrite Rabs_pos_eq; lra.
Qed.
Lemma firstn_Forall : forall A (P : A -> Prop) n l, Forall P l -> Forall P (firstn n l).
Proof. intros A P n l H. rewrite <- (firstn_skipn n l) in H. apply Forall_app in H. apply H. Qed.

(** Fast integrator: the same, for any answers of its approximate sets and any points it has time for. *)
Theorem C76_fast : forall cc cl l, fit_config cc l -> fin_upto 20 (cc_subsampling cc) -> sound_layer l -> safe_map (cc_tsdf cc) l -> fit_cloud cc l cl ->
  forall fuel garbage start_new news taken sched, 2 ^ 24 <= Z.of_nat fuel -> (forall i, In i (concat taken) -> In i (indices cl)) ->
  exists r, fast_integrate fuel garbage cc cl start_new news taken sched l = Ok r /\
    (runs_long (length taken) (Z.of_nat (length (concat taken)) * 2 ^ 24) sched -> exists l', r = Some l') /\
    (forall l', r = Some l' -> sound_layer l' /\ safe_map (cc_tsdf cc) l' /\ l_size l' = l_size l /\ l_vps l' = l_vps l).
Proof.
  intros cc cl l (C1 & C2 & C3 & C4) (Fk & Bk) W SM FC fuel garbage start_new news taken sched HF P. pose proof FC as (LEN & H). unfold fast_integrate. rewrite LEN, Nat.eqb_refl. cbn [negb].
  destruct (progs_total Z (fast_point fuel garbage cc (l_size l) cl start_new news) taken (2 ^ 24) ltac:(lia)) as (progs & E & L & F & N).
  { intros i I'. pose proof (P i I') as I. destruct (H i I) as (_ & _ & U). unfold fast_point. rewrite (point_at_ok cl i LEN I). cbn [rbind]. rewrite (classify_use cc cl i).
    destruct (use_of cc cl i) as [c|]; [|exists []; repeat split; [constructor|cbn; lia]]. specialize (U ltac:(discriminate)).
    destruct (used_point cc l cl (point_of cl i) U) as (PB & Fi & Bi).
    assert (KI : (Rabs (FR (cc_subsampling cc) * FR (inv_of (l_size l))) <= bpow radix2 30)%R) by (apply (Rabs_mul_bpow _ _ 20 10); auto; lia).
    destruct (fmul_rel (cc_subsampling cc) (inv_of (l_size l)) Fk Fi) as (Fki & d & t & D & T & Ek). { eapply Rle_trans; [exact KI|]. apply bpow_le; lia. }
    destruct (point_voxel (p_apply (cl_pose cl) (point_of cl i)) (fmul (cc_subsampling cc) (inv_of (l_size l))) PB Fki) as (v0 & EV).
    { rewrite Ek. eapply Rle_trans; [apply Rabs_triang|]. rewrite Rabs_mult.
      assert (Rabs (1 + d) <= 2)%R by (apply Rabs_le_inv in D; apply Rabs_le; rewrite u_eq in *; lra).
      assert (Rabs (FR (cc_subsampling cc) * FR (inv_of (l_size l))) * Rabs (1 + d) <= bpow radix2 30 * 2)%R by (apply Rmult_le_compat; auto using Rabs_pos).
      pose proof t32r_small. change (bpow radix2 30) with 1073741824%R in *. change (bpow radix2 35) with 34359738368%R. lra. }
    destruct (ray_total fuel garbage cc l cl (point_of cl i) c false HF U) as (v & R & NV & LV). unfold ray_voxels in R.
    destruct (fast_cells_prefix cc v (news i) 0) as (n & FP).
    exists (if start_new i then ray_calls (map (sees cc cl i) (firstn n v)) else []). split; [|split].
    - unfold origin. destruct c; cbn [is_clearing]; rewrite EV; cbn [of_opt rbind]; (destruct (start_new i); cbn [negb]; [|reflexivity]); rewrite R; cbn [rbind option_map]; rewrite FP; reflexivity.
    - destruct (start_new i); [|constructor]. apply ray_calls_in, (sees_fit cc cl l FC); auto. apply firstn_Forall, NV.
    - destruct (start_new i); [|cbn; lia]. rewrite ray_calls_len, map_length, firstn_length. lia. }
  unfold fast_progs. rewrite E. unfold obind. cbn [rbind].
  destruct (threads_total (cc_tsdf cc) l C1 C2 C3 C4 W SM progs F sched _ N) as (r & R & A & B). exists r. split; [exact R|]. rewrite L in A. auto.
Qed.
Print Assumptions C76_fast.

(** ** merged *)
Lemma bundleRays_total : forall valid vox order maps, (forall i, In i order -> valid i <> Invalid -> exists v, vox i = Some v) ->
  exists m, bundleRays valid vox order maps = Some m.
Proof.
  intros valid vox order. induction order as [|i order IH]; intros maps H; cbn [bundleRays]; [eauto|].
  assert (H' : forall j, In j order -> valid j <> Invalid -> exists v, vox j = Some v) by (intros j J; apply H; right; exact J).
  destruct (valid i) eqn:V; [apply IH; exact H'| |]; (destruct (H i (or_introl eq_refl)) as (v & E); [rewrite V; discriminate|rewrite E; apply IH; exact H']).
Qed.
Lemma bundles_total : forall cc (l : Layer KTsdf) cl order, fit_cloud cc l cl -> Permutation order (indices cl) -> exists m, bundles cc (l_size l) cl order = Ok m.
Proof.
  intros cc l cl order (LEN & H) P. unfold bundles.
  destruct (bundleRays_total (fun i => match nth_error (cl_points cl) (Z.to_nat i) with Some p => classify cc (cl_freespace cl) p | None => Invalid end)
    (fun i => match nth_error (cl_points cl) (Z.to_nat i) with Some p => getGlobalGridIndexFromPoint (p_apply (cl_pose cl) p) (inv_of (l_size l)) | None => None end) order ([], [])) as (m & E).
  - intros i J V. apply (Permutation_in _ P) in J. destruct (H i J) as (_ & _ & U).
    assert (PT : nth_error (cl_points cl) (Z.to_nat i) = Some (point_of cl i)).
    { apply index_range in J. unfold point_of. apply nth_error_nth'. apply Nat2Z.inj_lt. rewrite Z2Nat.id by lia. apply J. }
    rewrite PT in *. rewrite (classify_use cc cl i) in V. destruct (used_point cc l cl (point_of cl i)) as (PB & Fi & Bi).
    { apply U. intros X. rewrite X in V. congruence. }
    apply point_voxel; auto. eapply Rle_trans; [exact Bi|]. apply bpow_le. lia.
  - rewrite E. eexists; reflexivity.
Qed.
(** merging gives a usable weight and colour *)
Lemma merge_fit : forall cc cl clearing is, length (cl_points cl) = length (cl_colors cl) -> (forall i, In i (indices cl) -> color_ok (color_of cl i)) ->
  (forall i, In i is -> In i (indices cl) /\ within (bpow radix2 20) cl i) -> Z.of_nat (length is) <= 2 ^ 16 ->
  exists mc mp mw, merged cc cl clearing is mc mp mw /\ color_ok mc /\ ffin mw = true /\ (0 <= FR mw <= bpow radix2 100)%R.
Proof.
  intros cc cl clearing is LEN HC HI HN. assert (HB : (bpow radix2 (-40) <= bpow radix2 20 <= bpow radix2 20)%R) by (split; [apply bpow_le; lia|lra]).
  assert (Z0 : FR f0 = 0%R) by reflexivity. destruct clearing.
  - destruct (C75_clearing cc cl is (bpow radix2 20) LEN HC HI HB) as (mc & mp & mw & M & X). exists mc, mp, mw. split; [exact M|].
    destruct (find (counts cc cl) is) as [i|] eqn:FI.
    + apply find_some in FI as (J & CI). destruct (HI i J) as (I & WI). destruct X as (-> & EW & _). split; [apply HC; exact I|].
      destruct (counted_item cc cl (bpow radix2 20) HB i WI CI) as (_ & _ & _ & Lw & Uw). cbn [snd] in *. rewrite <- EW in *. pose proof (bpow_gt_0 radix2 (-20)).
      split; [|split; [lra|eapply Rle_trans; [exact Uw|]; apply bpow_le; lia]].
      destruct mw; try reflexivity; cbn in Lw; cbn in *; lra.
    + destruct X as (-> & _ & ->). split; [repeat split; cbn; lia|]. split; [reflexivity|]. rewrite Z0. split; [lra|apply bpow_ge_0].
  - destruct (C75_colors cc cl is (bpow radix2 20) LEN HC HI HB HN) as (mc & mp & mw & M & CO & _). exists mc, mp, mw. split; [exact M|]. split; [exact CO|].
    pose proof (merge_run cc cl LEN is _ _ _ _ _ _ (fun i I => proj1 (HI i I)) M vx ltac:(auto)) as E. cbn [vx] in E.
    assert (IO : Forall (item (bpow radix2 20)) (items cc cl vx is)) by (apply items_ok; [lra|auto|intros i J; apply HI, J]).
    assert (LI : (length (items cc cl vx is) <= length is)%nat) by (unfold items; rewrite map_length; apply filter_len).
    destruct (mean_all (bpow radix2 20) (items cc cl vx is) 0 0 0 f0 f0 HB ltac:(lia) (mean_start _ (bpow_gt_0 _ _)) IO) as [Fa Fm M0 AB (W0 & W1) S1 E1 E2].
    rewrite E in *. cbn [fst snd] in *. split; [exact Fm|]. split; [exact M0|]. rewrite Nat.add_0_l in *.
    assert (K0 : (0 <= INR (length (items cc cl vx is)) <= 65536)%R) by (split; [apply pos_INR|]; rewrite INR_IZR_INZ; apply IZR_le; lia).
    set (k := INR (length (items cc cl vx is))) in *. set (w := (0 + wsum (items cc cl vx is))%R) in *.
    assert (KU : (k * (2 * u32r) * w <= 1 * w)%R) by (apply Rmult_le_compat_r; [lra|]; rewrite u_eq; lra). apply Rabs_le_inv in E1.
    assert (KB : (k * bpow radix2 41 <= bpow radix2 57)%R) by (replace (bpow radix2 57) with (65536 * bpow radix2 41)%R by (cbn; lra); apply Rmult_le_compat_r; [apply bpow_ge_0|lra]).
    apply Rle_trans with (2 * bpow radix2 57)%R; [lra|]. replace (2 * bpow radix2 57)%R with (bpow radix2 58) by (cbn; lra). apply bpow_le. lia.
Qed.

Section Bundles.
  Variables (fuel : nat) (garbage : caster) (cc : CloudConfig) (cl : cloud) (l : Layer KTsdf).
  Hypothesis FUEL : 2 ^ 24 <= Z.of_nat fuel.
  Hypothesis FC : fit_cloud cc l cl.
  Lemma merged_voxel_total : forall clearing vm kv, (forall i, In i (snd kv) -> In i (indices cl) /\ within (bpow radix2 20) cl i) -> Z.of_nat (length (snd kv)) <= 2 ^ 16 ->
    (forall mc mp mw, merged cc cl clearing (snd kv) mc mp mw -> ray_fits cc l cl mp) ->
    exists cs, merged_voxel fuel garbage cc (l_size l) cl clearing vm kv = Ok (Some cs) /\ Forall (fun c : call => fit_request (snd c)) cs /\ Z.of_nat (length cs) <= 2 ^ 24.
  Proof.
    intros clearing vm [own is] HI HN HR. pose proof FC as (LEN & H). cbn [snd fst] in *. unfold merged_voxel. cbn [fst snd].
    destruct is as [|i0 is0] eqn:EI; [exists []; repeat split; [constructor|cbn; lia]|]. rewrite <- EI in *.
    destruct (merge_fit cc cl clearing is LEN (fun i I => proj1 (H i I)) HI HN) as (mc & mp & mw & M & CO & FW & BW). pose proof (HR _ _ _ M) as RF. unfold merged in M. rewrite M. cbn [rbind].
    destruct (ray_total fuel garbage cc l cl mp clearing true FUEL RF) as (v & R & N & L). unfold ray_voxels in R. unfold origin. rewrite R. cbn [rbind option_map].
    eexists. split; [reflexivity|]. split.
    - apply Forall_forall. intros c J. apply in_map_iff in J as (g & <- & J). apply filter_In in J as (J & _). cbn [snd]. rewrite Forall_forall in N.
      split; [apply N, J|]. split; [exact FW|]. split; [exact BW|exact CO].
    - rewrite map_length. pose proof (filter_len _ (kept cc clearing own vm) v). lia.
  Qed.
  Lemma merged_progs_total : forall clearing vm m threads, (0 < threads)%nat -> Z.of_nat (length m) + Z.of_nat threads < 2 ^ 64 ->
    (forall kv, In kv m -> (forall i, In i (snd kv) -> In i (indices cl) /\ within (bpow radix2 20) cl i) /\ Z.of_nat (length (snd kv)) <= 2 ^ 16 /\
       forall mc mp mw, merged cc cl clearing (snd kv) mc mp mw -> ray_fits cc l cl mp) ->
    exists progs, merged_progs fuel garbage cc (l_size l) cl threads clearing vm m = Ok (Some progs) /\ length progs = threads /\
      Forall (Forall (fun c : call => fit_request (snd c))) progs /\ forall p, In p progs -> Z.of_nat (length p) <= Z.of_nat (length m) * 2 ^ 24.
  Proof.
    intros clearing vm m threads HT HB HM.
    set (f := fun n : nat => match nth_error m n with Some kv => merged_voxel fuel garbage cc (l_size l) cl clearing vm kv | None => UB end).
    set (taken := map (fun t => thread_share (Z.of_nat threads) (Z.of_nat t) (length m)) (seq 0 threads)).
    assert (PT : Permutation (concat taken) (seq 0 (length m))) by (apply shares_perm; auto).
    destruct (progs_total nat f taken (2 ^ 24) ltac:(lia)) as (progs & E & L & F & N).
    { intros n J. apply (Permutation_in _ PT), in_seq in J. unfold f. destruct (nth_error m n) as [kv|] eqn:NK; [|apply nth_error_None in NK; lia].
      destruct (HM kv (nth_error_In _ _ NK)) as (A1 & A2 & A3). apply merged_voxel_total; auto. }
    exists progs. split. { unfold merged_progs, merged_share. unfold taken in E. rewrite map_map in E. exact E. }
    split. { rewrite L. unfold taken. rewrite map_length, seq_length. reflexivity. }
    split; [exact F|]. intros p J. specialize (N p J). rewrite (Permutation_length PT), seq_length in N. exact N.
  Qed.
End Bundles.

(** Merged integrator: the same; both phases have to get time. *)
Theorem C76_merged : forall cc cl l order, fit_config cc l -> sound_layer l -> safe_map (cc_tsdf cc) l -> fit_cloud cc l cl ->
  Permutation order (indices cl) -> fit_bundles cc l cl order ->
  forall fuel garbage walk threads sched1 sched2, 2 ^ 24 <= Z.of_nat fuel -> (forall m, Permutation (walk m) m) -> (0 < threads)%nat ->
  Z.of_nat (length (cl_points cl)) + Z.of_nat threads < 2 ^ 64 ->
  exists r, merged_integrate fuel garbage cc cl order walk threads sched1 sched2 l = Ok r /\
    (runs_long threads (Z.of_nat (length (cl_points cl)) * 2 ^ 24) sched1 -> runs_long threads (Z.of_nat (length (cl_points cl)) * 2 ^ 24) sched2 -> exists l', r = Some l') /\
    (forall l', r = Some l' -> sound_layer l' /\ safe_map (cc_tsdf cc) l' /\ l_size l' = l_size l /\ l_vps l' = l_vps l).
Proof.
  intros cc cl l order (C1 & C2 & C3 & C4) W SM FC PO (FP & FB) fuel garbage walk threads sched1 sched2 HF PW HT HB. pose proof FC as (LEN & _).
  unfold merged_integrate. rewrite LEN, Nat.eqb_refl. cbn [negb]. rewrite <- LEN.
  destruct (bundles_total cc l cl order FC PO) as ((vm, cm) & EB). rewrite EB. cbn [rbind].
  destruct (bundles_ok cc l cl order vm cm PO EB) as (B1 & B2). destruct (bundled_facts _ _ _ _ _ B1) as (L1 & F1). destruct (bundled_facts _ _ _ _ _ B2) as (L2 & F2).
  assert (RL : forall m sched, (length m <= length (cl_points cl))%nat -> runs_long threads (Z.of_nat (length (cl_points cl)) * 2 ^ 24) sched -> runs_long threads (Z.of_nat (length (m : bundle_map)) * 2 ^ 24) sched).
  { intros m sched HL H t T. specialize (H t T). nia. }
  assert (WL : forall m, length (walk m) = length m) by (intros m; apply Permutation_length, PW).
  destruct (merged_progs_total fuel garbage cc cl l HF FC false vm (walk vm) threads HT) as (p1 & E1 & N1 & G1 & K1).
  { rewrite WL. lia. }
  { intros kv J. apply (Permutation_in _ (PW vm)) in J. destruct (FB vm cm EB false kv J) as (X1 & X2). split; [|auto]. intros i Ii. pose proof (proj2 (F1 kv J) i Ii) as Ix. split; [exact Ix|apply FP, Ix]. }
  rewrite E1. unfold obind at 1. cbn [rbind]. rewrite WL in K1.
  destruct (threads_total (cc_tsdf cc) l C1 C2 C3 C4 W SM p1 G1 sched1 _ K1) as (r1 & R1 & A1 & D1). rewrite R1. unfold obind at 1. cbn [rbind]. rewrite N1 in A1.
  destruct r1 as [l1|].
  2:{ exists None. split; [reflexivity|]. split; [|discriminate]. intros Q _. destruct (A1 (RL vm sched1 L1 Q)). discriminate. }
  destruct (D1 l1 eq_refl) as (W1 & SM1 & LS1 & LV1).
  destruct (merged_progs_total fuel garbage cc cl l HF FC true vm (walk cm) threads HT) as (p2 & E2 & N2 & G2 & K2).
  { rewrite WL. lia. }
  { intros kv J. apply (Permutation_in _ (PW cm)) in J. destruct (FB vm cm EB true kv J) as (X1 & X2). split; [|auto]. intros i Ii. pose proof (proj2 (F2 kv J) i Ii) as Ix. split; [exact Ix|apply FP, Ix]. }
  rewrite E2. unfold obind. cbn [rbind]. rewrite WL in K2.
  assert (C3' : ffin (l_size l1) = true) by (rewrite LS1; exact C3). assert (C4' : (0 < FR (l_size l1))%R) by (rewrite LS1; exact C4).
  destruct (threads_total (cc_tsdf cc) l1 C1 C2 C3' C4' W1 SM1 p2 G2 sched2 _ K2) as (r2 & R2 & A2 & D2). rewrite N2 in A2. exists r2. split; [exact R2|]. split.
  - intros _ Q. apply A2, (RL cm sched2 L2 Q).
  - intros l' E'. destruct (D2 l' E') as (X1 & X2 & X3 & X4). split; [exact X1|]. split; [exact X2|]. split; congruence.
Qed.
Print Assumptions C76_merged.

(** *** the cloud of P_Cloud.v *)
Definition small_b (c : f32) : bool := ffin c && fle c (f32_of_Z 64) && fle (f32_of_Z (-64)) c.
Lemma small_b_ok : forall c, small_b c = true -> ffin c = true /\ (Rabs (FR c) <= 64)%R.
Proof.
  intros c H. unfold small_b in H. apply andb_prop in H as (H & H3). apply andb_prop in H as (H1 & H2). split; [exact H1|].
  destruct (f32_of_Z_R 64) as (E1 & F1); [lia|]. destruct (f32_of_Z_R (-64)) as (E2 & F2); [lia|].
  apply fle_R in H2; auto. apply fle_R in H3; auto. rewrite E1 in H2. rewrite E2 in H3. apply Rabs_le. split; lra.
Qed.
Lemma norm_small : forall p : pt3, (Rabs (FR (vx p)) <= 64)%R -> (Rabs (FR (vy p)) <= 64)%R -> (Rabs (FR (vz p)) <= 64)%R -> (0 <= normR (map3 FR p) <= 128)%R.
Proof.
  intros [x y z] X Y Z. cbn [vx vy vz map3] in *. unfold normR, dotR. unfold map3. cbn [vx vy vz]. split; [apply sqrt_pos|].
  assert (Q : forall r, (Rabs r <= 64 -> r * r <= 4096)%R). { intros r H. apply Rabs_le_inv in H. nra. }
  replace 128%R with (sqrt (128 * 128))%R by (apply sqrt_square; lra). apply sqrt_le_1_alt. pose proof (Q _ X). pose proof (Q _ Y). pose proof (Q _ Z). lra.
Qed.
Definition fits_b (i : Z) : bool :=
  let o := p_position cx_pose in let q := p_apply cx_pose (point_of cx_cloud i) in
  small_b (vx o) && small_b (vy o) && small_b (vz o) && small_b (vx q) && small_b (vy q) && small_b (vz q) && fle (vx o) f1 && fle (f32_of_Z 2) (vx q).
Lemma fits_b_ok : forall anti i, fits_b i = true -> ray_fits (cx_cc anti) cx_layer cx_cloud (point_of cx_cloud i).
Proof.
  intros anti i H. unfold fits_b in H. cbv zeta in H. unfold ray_fits. cbv zeta. cbn [cl_pose cx_cloud].
  set (o := p_position cx_pose) in *. set (q := p_apply cx_pose (point_of cx_cloud i)) in *.
  repeat (apply andb_prop in H as (H & ?)). repeat match goal with X : small_b _ = true |- _ => apply small_b_ok in X as (? & ?) end.
  destruct (f32_of_Z_R 1 ltac:(lia)) as (E1 & F1). destruct (f32_of_Z_R 2 ltac:(lia)) as (E2 & F2). destruct (f32_of_Z_R 5 ltac:(lia)) as (E5 & F5). fold f1 in E1, F1.
  apply fle_R in H0; auto. apply fle_R in H1; auto. rewrite E1 in H1. rewrite E2 in H0.
  assert (I1 : FR (inv_of (l_size cx_layer)) = 1%R /\ ffin (inv_of (l_size cx_layer)) = true).
  { assert (EI : inv_of (l_size cx_layer) = f1) by (apply P_Sphere.fword_inj; vm_compute; reflexivity). rewrite EI. auto. }
  destruct I1 as (I1 & I2). change (c_trunc (cc_tsdf (cx_cc anti))) with f1. change (cc_max_ray (cx_cc anti)) with (f32_of_Z 5).
  destruct (norm_small o ltac:(assumption) ltac:(assumption) ltac:(assumption)) as (N1 & N2). destruct (norm_small q ltac:(assumption) ltac:(assumption) ltac:(assumption)) as (N3 & N4).
  assert (B15 : bpow radix2 15 = 32768%R) by reflexivity. assert (BM : (bpow radix2 (-20) <= 1)%R) by (change 1%R with (bpow radix2 0); apply bpow_le; lia).
  split.
  - unfold ray_args. rewrite I1.
    assert (U : forall c : f32, ffin c = true -> (Rabs (FR c) <= 64)%R -> fin_upto 15 c) by (intros c Fc Bc; split; [exact Fc|rewrite B15; lra]).
    split; [unfold all3; auto|]. split; [unfold all3; auto|]. split; [split; [exact F1|rewrite E1, B15, Rabs_R1; lra]|]. split; [rewrite E1; lra|].
    split; [split; [exact F5|rewrite E5, B15, Rabs_pos_eq; lra]|]. split; [rewrite E5; lra|]. split; [exact I2|]. split; [change (bpow radix2 10) with 1024%R; lra|].
    apply Rle_trans with 1%R; [exact BM|]. unfold normR, dotR, sub3R. cbn [vx vy vz]. rewrite <- sqrt_1. apply sqrt_le_1_alt.
    set (a := (FR (vx q) - FR (vx o))%R) in *. assert (1 <= a)%R by (unfold a; lra).
    pose proof (Rle_0_sqr (FR (vy q) - FR (vy o))) as P1. pose proof (Rle_0_sqr (FR (vz q) - FR (vz o))) as P2. unfold Rsqr in *. assert (1 <= a * a)%R by nra. lra.
  - rewrite I1, E1. change (bpow radix2 20) with 1048576%R. lra.
Qed.
Example C76_example : forall anti, fit_config (cx_cc anti) cx_layer /\ sound_layer cx_layer /\ safe_map (cc_tsdf (cx_cc anti)) cx_layer /\
  fit_cloud (cx_cc anti) cx_layer cx_cloud /\ fin_upto 20 (cc_subsampling (cx_cc anti)) /\
  Permutation (concat [[0; 3]; [1; 2]]) (indices cx_cloud).
Proof.
  intros anti. destruct (f32_of_Z_R 1 ltac:(lia)) as (E1 & F1). destruct (f32_of_Z_R 100 ltac:(lia)) as (E2 & F2). fold f1 in E1, F1.
  assert (C1 : cfg_ok (cc_tsdf (cx_cc anti))).
  { split; [exact F1|]. split; [change (c_trunc (cc_tsdf (cx_cc anti))) with f1; rewrite E1; lra|]. split; [exact F2|]. change (c_max_weight (cc_tsdf (cx_cc anti))) with (f32_of_Z 100). rewrite E2. lra. }
  assert (C2 : cfg_small (cc_tsdf (cx_cc anti))).
  { split; [change (c_trunc (cc_tsdf (cx_cc anti))) with f1; rewrite E1; cbn; lra|]. split; [change (c_max_weight (cc_tsdf (cx_cc anti))) with (f32_of_Z 100); rewrite E2; apply Rle_trans with (bpow radix2 10); [cbn; lra|apply bpow_le; lia]|].
    split; [exact F1|]. change (c_factor (cc_tsdf (cx_cc anti))) with f1. rewrite E1. cbn. lra. }
  split. { split; [exact C1|]. split; [exact C2|]. change (l_size cx_layer) with f1. split; [exact F1|rewrite E1; lra]. }
  split; [exact cx_sound|]. split.
  { intros g. assert (D : content cx_layer g = MkTsdf f0 f0 (MkColor 0 0 0 0)).
    { unfold content, voxel_at. destruct (l_get cx_layer _) as [b|] eqn:G; [|reflexivity].
      unfold cx_layer, allocateNewBlock, l_get in G. cbn [with_blocks l_blocks ainsert alookup app] in G. destruct (idx_eqb _ (V3 0 0 0)); inversion G; subst b.
      match goal with |- match nth_error ?vs ?n with _ => _ end = _ => destruct (nth_error vs n) as [v|] eqn:N; [|reflexivity] end.
      apply nth_error_In in N. cbn [new_block b_voxels] in N. apply repeat_spec in N. exact N. }
    rewrite D. cbn [t_color t_distance t_weight]. split; [|repeat split; cbn; lia]. unfold voxel_in. cbn [t_distance t_weight]. change (FR f0) with 0%R.
    change (c_trunc (cc_tsdf (cx_cc anti))) with f1. change (c_max_weight (cc_tsdf (cx_cc anti))) with (f32_of_Z 100). rewrite E1, E2. repeat split; try reflexivity; lra. }
  split.
  { split; [reflexivity|]. intros i I. split; [apply cx_colors, I|]. destruct (cx_within i I) as (_ & _ & Z). split; [split; [apply Z|]; eapply Rle_trans; [apply Z|]; cbn; lra|].
    intros U. apply fits_b_ok. assert (T : forallb (fun i => match use_of (cx_cc true) cx_cloud i with Some _ => fits_b i | None => true end) (indices cx_cloud) = true) by (vm_compute; reflexivity).
    rewrite forallb_forall in T. specialize (T i I). change (use_of (cx_cc anti) cx_cloud i) with (use_of (cx_cc true) cx_cloud i) in U. destruct (use_of (cx_cc true) cx_cloud i); [exact T|congruence]. }
  split. { split; [exact F1|]. change (cc_subsampling (cx_cc anti)) with f1. rewrite E1, Rabs_R1. cbn. lra. }
  apply (perm_skip 0). apply (Permutation_cons_app [1; 2] []). reflexivity.
Qed.
