(** Integration does not fail: C76. *)
From Coq Require Import ZArith Reals List Bool Lia Lra Permutation.
From Flocq Require Import Core Binary.
From Verif Require Import F32 F32_lemmas F32_err Types Index Voxel Assoc Layer Threads Threads_proofs Update Ray Planning Mesh_spec Update_spec Update_proofs
  Ray_spec Ray_proofs RayEnds_spec RayEnds_proofs Cloud Cloud_spec Cloud_proofs Total_spec.
Import ListNotations.
Open Scope Z_scope.

(** ** rays *)
Lemma chain_within : forall dir l a n, (Z.abs (vx dir) <= 1 /\ Z.abs (vy dir) <= 1 /\ Z.abs (vz dir) <= 1) ->
  hd_error l = Some a -> chain (step_of dir) l -> all3 (fun c => Z.abs c <= n) a ->
  forall v, In v l -> all3 (fun c => Z.abs c <= n + Z.of_nat (length l)) v.
Proof.
  intros dir l. induction l as [|x l IH]; intros a n D H C A v I; [destruct I|].
  cbn [hd_error] in H. inversion H; subst x. destruct I as [<- |I].
  - destruct A as (A1 & A2 & A3). cbn [length]. unfold all3. lia.
  - destruct l as [|b l]; [destruct I|]. cbn [chain] in C. destruct C as (ST & C).
    assert (B : all3 (fun c => Z.abs c <= n + 1) b).
    { destruct A as (A1 & A2 & A3). destruct ST as [-> |[-> |[-> | ->]]]; unfold all3; cbn [vx vy vz]; lia. }
    pose proof (IH b (n + 1) D eq_refl C B v I) as (V1 & V2 & V3). unfold all3. replace (length (a :: b :: l)) with (S (length (b :: l))) by reflexivity. lia.
Qed.
Lemma sgn_le : forall r, Z.abs (sgnR r) <= 1.
Proof. intros r. unfold sgnR. destruct (Rlt_dec r 0); [cbn; lia|]. destruct (Rlt_dec 0 r); cbn; lia. Qed.

Lemma in_cell_bound : forall Q r i, (0 < Q <= bpow radix2 20)%R -> (Rabs r <= 2 * Q)%R -> in_cell (bpow radix2 (-18) * Q + 2 / 1000000) r i -> Z.abs i <= 2 ^ 21 + 10.
Proof.
  intros Q r i (Q0 & Q1) R (C1 & C2). change (bpow radix2 20) with 1048576%R in Q1. change (bpow radix2 (-18)) with (/ 262144)%R in *. apply Rabs_le_inv in R.
  assert (IZR i < IZR (2 ^ 21 + 10))%R by (change (IZR (2 ^ 21 + 10)) with 2097162%R; lra).
  assert (IZR (- (2 ^ 21 + 10)) < IZR i)%R by (change (IZR (- (2 ^ 21 + 10))) with (-2097162)%R; lra).
  apply lt_IZR in H, H0. lia.
Qed.
Lemma ray_total : forall fuel garbage cc (l : Layer KTsdf) cl p clearing from_sensor, 2 ^ 24 <= Z.of_nat fuel -> ray_fits cc l cl p ->
  exists v, ray_voxels fuel garbage cc l cl p clearing from_sensor v /\ Forall near_index v /\ Z.of_nat (length v) <= 2 ^ 24.
Proof.
  intros fuel g cc l cl p clearing fs HF (A & HS). unfold ray_voxels, ray_cells.
  set (o := p_position (cl_pose cl)) in *. set (q := p_apply (cl_pose cl) p) in *. set (T := c_trunc (cc_tsdf cc)) in *. set (inv := inv_of (l_size l)) in *. set (L := cc_max_ray cc) in *.
  destruct (ends_ok o q T L inv A clearing (cc_carving cc)) as (s & e & E & Gs & Ge). destruct (S_facts o q T L inv A) as (S1 & S2 & _).
  assert (S3 : (sumS o q T <= bpow radix2 20)%R) by (eapply Rle_trans; [exact S2|]; apply bpow_le; lia).
  pose proof A as (_ & _ & _ & _ & _ & _ & Fi & Hi & _). fold (sumS o q T) in HS.
  assert (SI : (sumS o q T * FR inv <= bpow radix2 28)%R) by (eapply Rle_trans; [exact HS|]; apply bpow_le; lia).
  assert (QP : (0 < sumS o q T * FR inv)%R) by (pose proof (bpow_gt_0 radix2 (-20)); apply Rmult_lt_0_compat; lra).
  destruct (good_voxel _ s _ inv S1 S3 Gs Fi Hi SI) as (vs & Vs & _ & Is).
  destruct (good_voxel _ e _ inv S1 S3 Ge Fi Hi SI) as (ve & Ve & _ & Ie).
  assert (BD : forall x r v, good (sumS o q T) x r -> in_voxel (bpow radix2 (-18) * (sumS o q T * FR inv) + 2 / 1000000) (FR inv) r v -> all3 (fun c => Z.abs c <= 2 ^ 21 + 10) v).
  { intros x r v ((_ & X) & (_ & Y) & (_ & Z)) (I1 & I2 & I3).
    assert (K : forall c i, (Rabs c <= 2 * sumS o q T)%R -> in_cell (bpow radix2 (-18) * (sumS o q T * FR inv) + 2 / 1000000) (c * FR inv) i -> Z.abs i <= 2 ^ 21 + 10).
    { intros c i H I. apply (in_cell_bound (sumS o q T * FR inv) (c * FR inv)); auto. pose proof (bpow_gt_0 radix2 (-20)).
      rewrite Rabs_mult, (Rabs_pos_eq (FR inv)), <- Rmult_assoc by lra. apply Rmult_le_compat_r; lra. }
    split; [exact (K _ _ X I1)|]. split; [exact (K _ _ Y I2)|exact (K _ _ Z I3)]. }
  pose proof (BD _ _ _ Gs Is) as Bs. pose proof (BD _ _ _ Ge Ie) as Be.
  assert (FIN : forall a b va vb, getGridIndexFromScaledPoint a = Some va -> getGridIndexFromScaledPoint b = Some vb ->
     all3 (fun c => Z.abs c <= 2 ^ 21 + 10) va -> all3 (fun c => Z.abs c <= 2 ^ 21 + 10) vb ->
     exists v, castRay fuel g a b = Ok (Some v) /\ Forall near_index v /\ Z.of_nat (length v) <= 2 ^ 24).
  { intros a b va vb Ea Eb (X1 & X2 & X3) (Y1 & Y2 & Y3).
    assert (M : manhattan va vb <= 6 * 2 ^ 21 + 60) by (unfold manhattan; lia). assert (M0 : 0 <= manhattan va vb) by (unfold manhattan; lia).
    destruct (ray_chain g a b va vb Ea Eb ltac:(lia)) as (v & C & Len & H & CH).
    exists v. split; [apply C; lia|]. assert (LV : Z.of_nat (length v) = manhattan va vb + 1) by lia. split; [|lia].
    apply Forall_forall. intros x I.
    assert (DB : Z.abs (vx (direction a b)) <= 1 /\ Z.abs (vy (direction a b)) <= 1 /\ Z.abs (vz (direction a b)) <= 1) by (unfold direction, zip3; cbn [vx vy vz]; split; [|split]; apply sgn_le).
    pose proof (chain_within (direction a b) v va (2 ^ 21 + 10) DB H CH ltac:(unfold all3; auto) x I) as (Z1 & Z2 & Z3). unfold near_index, all3. lia. }
  unfold RayCaster_new. rewrite E. destruct fs; [apply (FIN _ _ vs ve)|apply (FIN _ _ ve vs)]; auto.
Qed.

(** ** updates *)
Definition fit_request (q : request) : Prop :=
  near_index (q_idx q) /\ ffin (q_weight q) = true /\ (0 <= FR (q_weight q) <= bpow radix2 100)%R /\ color_ok (q_color q).
Lemma updates_safe : forall cfg vs qs v v', cfg_ok cfg -> cfg_small cfg -> ffin vs = true -> (0 < FR vs)%R -> Forall fit_request qs ->
  voxel_in cfg v -> color_ok (t_color v) -> updates cfg vs qs v = Ok v' -> voxel_in cfg v' /\ color_ok (t_color v').
Proof.
  intros cfg vs qs. induction qs as [|q qs IH]; intros v v' C S F P HQ HV HC E; cbn [updates] in E; [inversion E; subst; auto|].
  inversion HQ as [|? ? (_ & A & B & D) HQ']; subst. destruct (update_defined cfg vs q v C S F P A B D HV HC) as (v1 & E1 & C1).
  rewrite E1 in E. cbn [rbind] in E. apply (IH v1 v'); auto. eapply update_bounds; eauto.
Qed.
Lemma about_fit : forall g qs, Forall fit_request qs -> Forall fit_request (about g qs).
Proof. intros g qs H. unfold about. rewrite Forall_forall in *. intros q I. apply filter_In in I. apply H, I. Qed.

Section Run.
  Variables (cfg : TsdfConfig) (l : Layer KTsdf).
  Hypothesis C1 : cfg_ok cfg. Hypothesis C2 : cfg_small cfg. Hypothesis C3 : ffin (l_size l) = true. Hypothesis C4 : (0 < FR (l_size l))%R.
  Hypothesis W : sound_layer l. Hypothesis SM : safe_map cfg l.
  Lemma touch_total : forall qs st c q, obs cfg l qs st -> cache_ok st c -> Forall fit_request qs -> fit_request q ->
    exists r, touch cfg st c q = Ok r.
  Proof.
    intros qs st c q [A (GS & GV) FU OT MA VO] C HQ (Hq & Fw & Bw & Cq). destruct W as ((n & Hn & V) & _). pose proof GV as V'. rewrite V in V'.
    unfold touch. destruct (slot_ok _ n (q_idx q) V' Hn Hq) as (E1 & E2 & E3). cbv zeta. rewrite E1. cbn [of_opt rbind].
    fold (home_block (st_layer st) (q_idx q)). set (b := home_block (st_layer st) (q_idx q)).
    destruct (find_block st c b) as [s1 h] eqn:F. destruct (find_block_ok st c b s1 h A C F) as (A1 & L1 & (x1 & B1 & V1 & X1) & O1 & C1').
    rewrite B1. cbn [of_opt rbind]. rewrite E2. cbn [rbind]. subst x1.
    set (x := match view st b with Some x0 => x0 | None => fresh_block (st_layer st) b end) in *.
    assert (FX : full (l_vps l) x).
    { unfold x. destruct (view st b) eqn:VB; [apply (FU b); auto|]. rewrite <- GV. eapply full_fresh; [exact Hn|exact V']. }
    destruct FX as (BV & BL). cbn [set_updated b_vps b_voxels]. rewrite BV, <- GV, E3. rewrite GV. fold (slot (l_vps l) (q_idx q)).
    assert (PV : 0 < l_vps l) by (rewrite V; apply Z.pow_pos_nonneg; lia).
    destruct (nth_error (b_voxels x) (slot (l_vps l) (q_idx q))) as [v|] eqn:NV.
    2:{ exfalso. apply nth_error_None in NV. pose proof (slot_lt (l_vps l) (q_idx q) PV). lia. }
    cbn [of_opt rbind]. rewrite L1, GS.
    assert (CV : contentF (view st) (l_vps l) (q_idx q) = v).
    { unfold contentF. rewrite <- GV. fold (home_block (st_layer st) (q_idx q)). fold b. rewrite GV. unfold x in NV. destruct (view st b) as [y|] eqn:VB; [rewrite NV; reflexivity|].
      symmetry. apply (default_voxel _ _ _ _ NV). }
    destruct (SM (q_idx q)) as (S1 & S2).
    destruct (updates_safe cfg (l_size l) (about (q_idx q) qs) _ _ C1 C2 C3 C4 (about_fit _ _ HQ) S1 S2 (VO (q_idx q))) as (S3 & S4). rewrite CV in S3, S4.
    destruct (update_defined cfg (l_size l) q v C1 C2 C3 C4 Fw Bw Cq S3 S4) as (v' & U & _). rewrite U. cbn [rbind]. eexists; reflexivity.
  Qed.

  Variable progs : list (list call).
  Hypothesis FIT : Forall (Forall (fun c : call => fit_request (snd c))) progs.
  Lemma progs_near : Forall (Forall (fun c : call => near_index (q_idx (snd c)))) progs.
  Proof. eapply Forall_impl; [|exact FIT]. intros p H. eapply Forall_impl; [|exact H]. intros c (X & _). exact X. Qed.
  Lemma done_fit : forall s o, cinv cfg l progs s o -> Forall fit_request (map snd o).
  Proof.
    intros s o [OB LE ID WO]. apply Forall_forall. intros q I. apply in_map_iff in I as ([t q'] & E & I). cbn [snd] in E. subst q'.
    pose proof (ID _ I) as LT. cbn [fst] in LT. rewrite <- LE in LT.
    destruct (nth_error (cs_workers s) t) as [w|] eqn:NW; [|apply nth_error_None in NW; lia].
    destruct (WO t w NW) as (_ & prog & NP & PC).
    assert (J : In q (calls prog)). { rewrite <- PC. apply in_or_app. left. unfold calls_of. apply in_map_iff. exists (t, q). split; [reflexivity|]. apply filter_In. split; [exact I|]. cbn [fst]. apply Nat.eqb_refl. }
    rewrite Forall_forall in FIT. specialize (FIT prog (nth_error_In _ _ NP)). rewrite Forall_forall in FIT. apply in_map_iff in J as (c & <- & J). apply FIT, J.
  Qed.
  Lemma cstep_total : forall s o t, cinv cfg l progs s o -> exists s', cstep cfg s t = Ok s' /\ length (cs_workers s') = length (cs_workers s) /\
    forall t' w, nth_error (cs_workers s) t' = Some w -> exists w', nth_error (cs_workers s') t' = Some w' /\
      (length (w_todo w') = length (w_todo w) - (if Nat.eqb t t' then 1 else 0))%nat.
  Proof.
    intros s o t CI. pose proof (done_fit s o CI) as DF. destruct CI as [OB LE ID WO]. unfold cstep.
    destruct (nth_error (cs_workers s) t) as [[todo c]|] eqn:NW.
    2:{ exists s. split; [reflexivity|]. split; [reflexivity|]. intros t' w H. exists w. split; [exact H|]. destruct (Nat.eqb_spec t t'); [subst; congruence|lia]. }
    destruct todo as [|[fresh q] todo].
    { exists s. split; [reflexivity|]. split; [reflexivity|]. intros t' w H. exists w. split; [exact H|]. destruct (Nat.eqb_spec t t'); [subst|lia]. rewrite NW in H. inversion H; subst. cbn [w_todo length]. lia. }
    destruct (WO t _ NW) as (CO & prog & NP & PC). cbn [w_cache w_todo] in CO, PC.
    assert (FQ : fit_request q).
    { rewrite Forall_forall in FIT. specialize (FIT prog (nth_error_In _ _ NP)). rewrite Forall_forall in FIT.
      assert (J : In q (calls prog)) by (rewrite <- PC; apply in_or_app; right; left; reflexivity). apply in_map_iff in J as (c0 & <- & J). apply FIT, J. }
    destruct (touch_total (map snd o) (cs_store s) (if fresh then None else c) q OB) as (r & ->); auto. { destruct fresh; [exact I|auto]. }
    cbn [rbind]. eexists. split; [reflexivity|]. cbn [cs_workers]. split; [apply set_th_length|].
    intros t' w H. destruct (Nat.eqb_spec t t') as [<- |N].
    - rewrite (set_th_same _ _ _ _ NW). rewrite NW in H. inversion H; subst w. eexists. split; [reflexivity|]. cbn [w_todo length]. lia.
    - rewrite set_th_other by auto. exists w. split; [exact H|]. lia.
  Qed.
  Lemma crun_total : forall sched s o, cinv cfg l progs s o -> exists s', crun cfg sched s = Ok s' /\ length (cs_workers s') = length (cs_workers s) /\
    forall t w, nth_error (cs_workers s) t = Some w -> exists w', nth_error (cs_workers s') t = Some w' /\
      (length (w_todo w') = length (w_todo w) - count_occ Nat.eq_dec sched t)%nat.
  Proof.
    unfold crun. induction sched as [|t sched IH]; intros s o CI; cbn [rfold].
    - exists s. split; [reflexivity|]. split; [reflexivity|]. intros t w H. exists w. split; [exact H|]. cbn [count_occ]. lia.
    - destruct (cstep_total s o t CI) as (s1 & E1 & L1 & H1). rewrite E1. cbn [rbind].
      destruct (cstep_inv cfg l progs s o t s1 W progs_near CI E1) as (o1 & CI1). destruct (IH s1 o1 CI1) as (s2 & E2 & L2 & H2).
      exists s2. split; [exact E2|]. split; [lia|]. intros t' w H. destruct (H1 t' w H) as (w1 & N1 & K1). destruct (H2 t' w1 N1) as (w2 & N2 & K2).
      exists w2. split; [exact N2|]. rewrite K2, K1. cbn [count_occ]. destruct (Nat.eq_dec t t') as [<- |N]; [rewrite Nat.eqb_refl|rewrite (proj2 (Nat.eqb_neq _ _) N)]; lia.
  Qed.
  Lemma start_inv : cinv cfg l progs (MkCS (MkStore l []) (map (fun p => MkW p None) progs)) [].
  Proof.
    constructor; cbn [cs_store cs_workers map].
    - apply obs_start; auto.
    - apply map_length.
    - intros e [].
    - intros t w H. rewrite nth_error_map in H. destruct (nth_error progs t) as [p|] eqn:N; inversion H; subst.
      split; [exact I|]. exists p. auto.
  Qed.
  Lemma safe_after : forall qs l', Forall fit_request qs -> observed cfg l qs l' -> safe_map cfg l'.
  Proof. intros qs l' HQ OB g. destruct (SM g) as (S1 & S2). apply (updates_safe cfg (l_size l) (about g qs) (content l g)); auto using about_fit. apply (ob_voxels _ _ _ _ OB). Qed.
  Lemma threads_total : forall sched n, (forall p, In p progs -> Z.of_nat (length p) <= n) ->
    exists r, run_threads cfg l progs sched = Ok r /\
      (runs_long (length progs) n sched -> exists l', r = Some l') /\
      (forall l', r = Some l' -> sound_layer l' /\ safe_map cfg l' /\ l_size l' = l_size l /\ l_vps l' = l_vps l).
  Proof.
    intros sched n HN. unfold run_threads. destruct (crun_total sched _ [] start_inv) as (s & E & L & H). rewrite E. cbn [rbind].
    eexists. split; [reflexivity|]. split.
    - intros HR. exists (storeBlocks (cs_store s)). replace (finished s) with true; [reflexivity|]. symmetry. unfold finished. apply forallb_forall. intros w I.
      apply In_nth_error in I as (t & N). cbn [cs_workers] in L, H. rewrite map_length in L.
      assert (LT : (t < length progs)%nat) by (rewrite <- L; exact (nth_lt _ (cs_workers s) t w N)).
      destruct (nth_error progs t) as [p|] eqn:NP; [|apply nth_error_None in NP; lia].
      destruct (H t (MkW p None)) as (w' & N' & K). { rewrite nth_error_map, NP. reflexivity. }
      rewrite N in N'. inversion N'; subst w'. cbn [w_todo] in K. pose proof (HN p (nth_error_In _ _ NP)). pose proof (HR t LT). destruct (w_todo w); [reflexivity|]. cbn [length] in K. lia.
    - intros l' E'. assert (R : run_threads cfg l progs sched = Ok (Some l')) by (unfold run_threads; rewrite E; cbn [rbind]; rewrite E'; reflexivity).
      destruct (run_threads_ok cfg l progs sched l' W progs_near R) as (o & IL & OB).
      destruct (ob_sound _ _ _ _ OB) as (O1 & O2 & O3). split; [exact O1|]. split; [|auto]. apply (safe_after (map snd o)); auto.
      apply Forall_forall. intros q I. apply (Permutation_in _ (interleaves_perm _ _ IL)) in I. apply in_concat in I as (p & I1 & I2). apply in_map_iff in I1 as (p0 & <- & I1).
      rewrite Forall_forall in FIT. specialize (FIT p0 I1). rewrite Forall_forall in FIT. apply in_map_iff in I2 as (c & <- & I2). apply FIT, I2.
  Qed.
End Run.

(** ** the threads' programs *)
Lemma rconcat_total : forall A (rs : list (res (option (list A)))) (P : A -> Prop) n,
  Forall (fun r => exists xs, r = Ok (Some xs) /\ Forall P xs /\ Z.of_nat (length xs) <= n) rs ->
  exists xs, rconcat rs = Ok (Some xs) /\ Forall P xs /\ Z.of_nat (length xs) <= Z.of_nat (length rs) * n.
Proof.
  intros A rs P n. induction rs as [|r rs IH]; intros H; cbn [rconcat].
  - exists []. split; [reflexivity|]. split; [constructor|]. cbn. lia.
  - inversion H as [|? ? (xs & -> & F & L) H']; subst. destruct (IH H') as (ys & E & F' & L'). cbn [rbind]. rewrite E. cbn [rbind option_map].
    exists (xs ++ ys). split; [reflexivity|]. split; [apply Forall_app; auto|]. rewrite app_length. cbn [length]. lia.
Qed.
Lemma rcollect_total : forall A (rs : list (res (option A))) (P : A -> Prop),
  Forall (fun r => exists x, r = Ok (Some x) /\ P x) rs -> exists xs, rcollect rs = Ok (Some xs) /\ Forall P xs /\ length xs = length rs.
Proof.
  intros A rs P. induction rs as [|r rs IH]; intros H; cbn [rcollect].
  - exists []. repeat split; constructor.
  - inversion H as [|? ? (x & -> & F) H']; subst. destruct (IH H') as (ys & E & F' & L'). cbn [rbind]. rewrite E. cbn [rbind option_map].
    exists (x :: ys). split; [reflexivity|]. split; [constructor; auto|]. cbn [length]. lia.
Qed.
Lemma progs_total : forall A (f : A -> res (option (list call))) taken n, 0 <= n ->
  (forall i, In i (concat taken) -> exists cs, f i = Ok (Some cs) /\ Forall (fun c : call => fit_request (snd c)) cs /\ Z.of_nat (length cs) <= n) ->
  exists progs, rcollect (map (fun is => rconcat (map f is)) taken) = Ok (Some progs) /\ length progs = length taken /\
    Forall (Forall (fun c : call => fit_request (snd c))) progs /\ forall p, In p progs -> Z.of_nat (length p) <= Z.of_nat (length (concat taken)) * n.
Proof.
  intros A f taken n Hn H.
  destruct (rcollect_total _ (map (fun is => rconcat (map f is)) taken)
     (fun p => Forall (fun c : call => fit_request (snd c)) p /\ Z.of_nat (length p) <= Z.of_nat (length (concat taken)) * n)) as (progs & E & F & L).
  - apply Forall_forall. intros r I. apply in_map_iff in I as (is & <- & I).
    destruct (rconcat_total _ (map f is) (fun c : call => fit_request (snd c)) n) as (xs & E & F & L).
    + apply Forall_forall. intros r J. apply in_map_iff in J as (i & <- & J). apply H. apply in_concat. exists is; auto.
    + exists xs. split; [exact E|]. split; [exact F|]. rewrite map_length in L. etransitivity; [exact L|]. apply Z.mul_le_mono_nonneg_r; [exact Hn|].
      apply Nat2Z.inj_le. clear - I. induction taken as [|a t IH]; [destruct I|]. cbn [concat]. rewrite app_length. destruct I as [-> |I]; [lia|]. specialize (IH I). lia.
  - exists progs. split; [exact E|]. rewrite map_length in L. split; [exact L|]. rewrite Forall_forall in F. split; [apply Forall_forall; intros p I; apply F, I|]. intros p I. apply F, I.
Qed.
Lemma ray_calls_in : forall (P : request -> Prop) qs, Forall P qs -> Forall (fun c : call => P (snd c)) (ray_calls qs).
Proof. intros P qs H. destruct H as [|q qs Hq H]; [constructor|]. cbn [ray_calls]. constructor; [exact Hq|]. apply Forall_forall. intros c I. apply in_map_iff in I as (x & <- & I). rewrite Forall_forall in H. apply H, I. Qed.
Lemma ray_calls_len : forall qs, length (ray_calls qs) = length qs.
Proof. intros [|q qs]; [reflexivity|]. cbn [ray_calls length]. rewrite map_length. reflexivity. Qed.
