(** C29, C30, C32, C63, C64, C65: the Euclidean distance field. *)
From Coq Require Import ZArith List Bool Lia Reals Lra.
From Flocq Require Import Core.
From Verif Require Import F32 F32_lemmas Types Index Neighbor Voxel Serialize Assoc Assoc_lemmas Layer Queue Queue_proofs Planning Esdf Esdf_spec
  Esdf_proofs Esdf_float Esdf_range Esdf_grid Esdf_open Esdf_batch Esdf_term Esdf_total Esdf_step Connect_proofs Layer_spec.
Import ListNotations.
Open Scope Z_scope.

(** ** C29: what propagation leaves alone *)
(** Whatever is in the queue, whatever the mode, however far the loop got: every
    voxel stays observed or unobserved and stays fixed or not, and a fixed or
    unobserved voxel keeps its distance and its parent. *)
Theorem C29_propagation_frame : forall c st st' g (v : EsdfVoxel), open_steps c st st' -> at_index (es_layer st) g = Some v ->
  exists v' : EsdfVoxel, at_index (es_layer st') g = Some v' /\ e_observed v' = e_observed v /\ e_hallucinated v' = e_hallucinated v /\ e_fixed v' = e_fixed v /\
    (e_fixed v = true \/ e_observed v = false -> e_distance v' = e_distance v /\ e_parent v' = e_parent v).
Proof.
  intros c st st' g v H Hv; pose proof (lift_at _ _ _ g (open_frame c _ _ H)) as K; rewrite Hv in K.
  destruct (at_index (es_layer st') g) as [v'|] eqn:E; [|contradiction]; exists v'; split; [reflexivity | exact K].
Qed.
Print Assumptions C29_propagation_frame.
(** and no voxel appears *)
Theorem C29_no_new_voxel : forall c st st' g, open_steps c st st' -> at_index (es_layer st) g = None -> at_index (es_layer st') g = None.
Proof.
  intros c st st' g H Hv; pose proof (lift_at _ _ _ g (open_frame c _ _ H)) as K; rewrite Hv in K.
  destruct (at_index (es_layer st') g) as [v'|] eqn:E; [contradiction | reflexivity].
Qed.
Print Assumptions C29_no_new_voxel.
(** the loop as a whole *)
Theorem C29_process_open_set : forall c fuel st st' g (v : EsdfVoxel), processOpenSet c fuel st = Ok (Some st') -> at_index (es_layer st) g = Some v ->
  exists v' : EsdfVoxel, at_index (es_layer st') g = Some v' /\ e_observed v' = e_observed v /\ e_fixed v' = e_fixed v /\
    (e_fixed v = true -> e_distance v' = e_distance v).
Proof.
  intros c fuel st st' g v H Hv; destruct (processOpenSet_steps c _ _ _ H) as (H1 & _).
  destruct (C29_propagation_frame c st st' g v H1 Hv) as (v' & A & B & _ & D & E); exists v'.
  split; [exact A|]; split; [exact B|]; split; [exact D|]; intros F; apply E; left; exact F.
Qed.
Print Assumptions C29_process_open_set.
(** the same for the loop that raises distances *)
Theorem C29_raise_frame : forall c st st' g (v : EsdfVoxel), raise_steps c st st' -> at_index (es_layer st) g = Some v ->
  exists v' : EsdfVoxel, at_index (es_layer st') g = Some v' /\ e_observed v' = e_observed v /\ e_hallucinated v' = e_hallucinated v /\ e_fixed v' = e_fixed v /\
    (e_fixed v = true \/ e_observed v = false -> e_distance v' = e_distance v /\ e_parent v' = e_parent v).
Proof.
  intros c st st' g v H Hv; pose proof (lift_at _ _ _ g (raise_frame c _ _ H)) as K; rewrite Hv in K.
  destruct (at_index (es_layer st') g) as [v'|] eqn:E; [|contradiction]; exists v'; split; [reflexivity | exact K].
Qed.
Print Assumptions C29_raise_frame.

(** ** C30: what one step of propagation does *)
(** On a regular layer in the default (quasi-Euclidean) mode an iteration pops one
    index. Every other voxel keeps distance and parent, or is an observed, unfixed
    neighbour of the popped voxel, gets it as its parent, and keeps its side of the
    surface; if both are on the same side its new distance is the popped distance
    plus (inside: minus) the length of the step, and is nearer to zero. *)
Theorem C30_step_partial : forall c st st' q g, ec_full c = false -> ffin (ec_min_diff c) = true -> (0 <= FR (ec_min_diff c))%R ->
  regular (es_layer st) -> ffin (l_size (es_layer st)) = true -> (0 < FR (l_size (es_layer st)) < bpow radix2 126)%R ->
  bq_front (es_open st) = Ok (q, g) -> exact_index g -> open_pop c st = Ok st' ->
  exists v : EsdfVoxel, at_index (es_layer st) g = Some v /\
    forall h (w : EsdfVoxel), exact_index h -> at_index (es_layer st) h = Some w ->
      exists w', at_index (es_layer st') h = Some w' /\
        (untouched w w' \/ exists off step, is_step (l_size (es_layer st)) off step /\ h = idx_add g off /\ relaxed step off v w w').
Proof.
  intros c st st' q g Hq Fm Pm HR Fs Ps Hf Hg H; eapply pop_effect; try eassumption; split; assumption.
Qed.
Print Assumptions C30_step_partial.
(** any number of iterations, any layer, default mode: no voxel changes sides *)
Theorem C30_sides : forall c st st' g (v : EsdfVoxel), ec_full c = false ->
  ffin (l_size (es_layer st)) = true -> (0 < FR (l_size (es_layer st)) < bpow radix2 126)%R ->
  open_steps c st st' -> at_index (es_layer st) g = Some v ->
  exists v', at_index (es_layer st') g = Some v' /\
    (outside (e_distance v) -> outside (e_distance v')) /\ (inside (e_distance v) -> inside (e_distance v')).
Proof.
  intros c st st' g v Hq Fs Ps H Hv; apply open_steps_writes in H.
  pose proof (lift_at _ _ _ g (writes_sided c Hq (l_size (es_layer st)) _ _ (conj Fs Ps) H)) as K; rewrite Hv in K.
  destruct (at_index (es_layer st') g) as [v'|] eqn:E; [|contradiction]; exists v'; split; [reflexivity | apply K].
Qed.
Print Assumptions C30_sides.

(** *** Counterexamples to the full statement *)
Definition cfg_ex (full : bool) (mn clr occ : f32) : econfig :=
  MkEC full (fbits 0x40000000) mn (fbits 0x40000000) (fbits 0x3a83126f) (fbits 0x358637bd) 20 false false clr occ.
Definition vs_ex : f32 := fbits 0x3e99999a.
Definition tv_ex (d : f32) : TsdfVoxel := MkTsdf d f1 (MkColor 0 0 0 255).
Definition un_ex : TsdfVoxel := MkTsdf f0 f0 (MkColor 0 0 0 0).
Definition tsdf_ex (vxs : list TsdfVoxel) : Layer KTsdf :=
  MkLayer (k := KTsdf) vs_ex 2 [(V3 0 0 0, set_voxels (k := KTsdf) vxs (new_block (k := KTsdf) 2 vs_ex (V3 f0 f0 f0)))].
Definition esdf_ex : Layer KEsdf := MkLayer (k := KEsdf) vs_ex 2 [].
(** the state after the first phase of a batch update, and after some pops *)
Definition seeded (c : econfig) (t : Layer KTsdf) : res estate :=
  rbind (esdf_new c t esdf_ex) (fun st => rfold (tsdf_block c false t) (getAllAllocatedBlocks t) st).
Fixpoint pops (c : econfig) (n : nat) (st : estate) : res estate :=
  match n with O => Ok st | S n' => if bq_empty (es_open st) then Ok st else rbind (open_pop c st) (pops c n') end.
Definition dist_at (r : res estate) (g : idx3) : option Z :=
  match r with Ok st => match at_index (es_layer st) g with Some v => Some (fword (e_distance (v : EsdfVoxel))) | None => None end | _ => None end.
Lemma pops_steps : forall c n st st', pops c n st = Ok st' -> open_steps c st st'.
Proof.
  intros c n; induction n as [|n IH]; intros st st' H; cbn [pops] in H; [injection H as <-; constructor|].
  destruct (bq_empty (es_open st)) eqn:E; [injection H as <-; constructor|].
  apply rbind_ok in H; destruct H as (st1 & H1 & H2); econstructor; [exact E | exact H1 | apply IH, H2].
Qed.
(** a voxel 1.5 m inside, with two fixed neighbours outside at 0.1 m (one step away)
    and 0.8 m (across the corner) *)
Definition t_flip : Layer KTsdf :=
  tsdf_ex [tv_ex (fbits 0xbfc00000); tv_ex (fbits 0x3dcccccd); un_ex; un_ex; un_ex; un_ex; un_ex; tv_ex (fbits 0x3f4ccccd)].
Definition flip_check : bool :=
  let c := cfg_ex false f1 f0 f0 in
  match seeded c t_flip with
  | Ok st =>
      match pops c 2 st, rbind (pops c 2 st) (open_pop c) with
      | Ok st1, Ok st2 =>
          match at_index (es_layer st1) (V3 0 0 0), at_index (es_layer st2) (V3 0 0 0) with
          | Some a, Some b => Z.eqb (fword (e_distance (a : EsdfVoxel))) 0xbe99999a && Z.eqb (fword (e_distance (b : EsdfVoxel))) 0xbf050581
                              && flt (fabs (e_distance (a : EsdfVoxel))) (fabs (e_distance (b : EsdfVoxel)))
          | _, _ => false
          end
      | _, _ => false
      end
  | _ => false
  end.
(** Across the surface an iteration can move a distance away from zero, to a value
    that is not the parent's distance plus the step: the voxel goes from -0.3 m to
    -0.52 m because of a neighbour at +0.8 m. *)
Theorem C30_step_refuted : exists c t st st1 st2 (a b : EsdfVoxel), ec_full c = false /\ seeded c t = Ok st /\ open_steps c st st1 /\ open_pop c st1 = Ok st2 /\
  at_index (es_layer st1) (V3 0 0 0) = Some a /\ at_index (es_layer st2) (V3 0 0 0) = Some b /\ closer (e_distance a) (e_distance b).
Proof.
  assert (H : flip_check = true) by (vm_compute; reflexivity).
  unfold flip_check in H; cbv zeta in H.
  destruct (seeded (cfg_ex false f1 f0 f0) t_flip) as [st| |] eqn:E0; [|discriminate|discriminate].
  destruct (pops (cfg_ex false f1 f0 f0) 2 st) as [st1| |] eqn:E1; [|discriminate|discriminate].
  cbn [rbind] in H; destruct (open_pop (cfg_ex false f1 f0 f0) st1) as [st2| |] eqn:E2; [|discriminate|discriminate].
  destruct (at_index (es_layer st1) (V3 0 0 0)) as [a|] eqn:Ea; [|discriminate].
  destruct (at_index (es_layer st2) (V3 0 0 0)) as [b|] eqn:Eb; [|discriminate].
  apply andb_true_iff in H; destruct H as (_ & H).
  exists (cfg_ex false f1 f0 f0), t_flip, st, st1, st2, a, b; split; [reflexivity|]; split; [exact E0|].
  split; [eapply pops_steps; exact E1|]; split; [exact E2|]; split; [exact Ea|]; split; [exact Eb | exact H].
Qed.
Print Assumptions C30_step_refuted.
(** In full Euclidean mode a voxel 1.5 m outside the surface ends with distance 0. *)
Definition t_full : Layer KTsdf :=
  tsdf_ex [tv_ex (fbits 0xbfc00000); tv_ex (fbits 0xbdcccccd); un_ex; tv_ex (fbits 0x3fc00000); un_ex; un_ex; un_ex; un_ex].
Definition full_check : bool :=
  let c := cfg_ex true f1 f0 f0 in
  match rbind (esdf_new c t_full esdf_ex) (updateFromTsdfLayerBatch c 50 t_full) with
  | Ok (Some st) =>
      match at_index (es_layer st) (V3 1 1 0), at_index t_full (V3 1 1 0) with
      | Some v, Some tv => flt f0 (t_distance (tv : TsdfVoxel)) && fle (e_distance (v : EsdfVoxel)) f0 && e_observed (v : EsdfVoxel)
      | _, _ => false
      end
  | _ => false
  end.
Theorem C30_sides_full_refuted : exists c t st0 st (v : EsdfVoxel) (tv : TsdfVoxel) fuel, ec_full c = true /\ esdf_new c t esdf_ex = Ok st0 /\
  updateFromTsdfLayerBatch c fuel t st0 = Ok (Some st) /\
  at_index t (V3 1 1 0) = Some tv /\ outside (t_distance tv) /\
  at_index (es_layer st) (V3 1 1 0) = Some v /\ e_observed v = true /\ inside (e_distance v).
Proof.
  assert (H : full_check = true) by (vm_compute; reflexivity).
  unfold full_check in H; cbv zeta in H.
  destruct (esdf_new (cfg_ex true f1 f0 f0) t_full esdf_ex) as [st0| |] eqn:E0; [|discriminate|discriminate]; cbn [rbind] in H.
  destruct (updateFromTsdfLayerBatch (cfg_ex true f1 f0 f0) 50 t_full st0) as [[st|]| |] eqn:E1; [|discriminate|discriminate|discriminate].
  destruct (at_index (es_layer st) (V3 1 1 0)) as [v|] eqn:Ev; [|discriminate].
  destruct (at_index t_full (V3 1 1 0)) as [tv|] eqn:Et; [|discriminate].
  apply andb_true_iff in H; destruct H as (H & H3); apply andb_true_iff in H; destruct H as (H1 & H2).
  exists (cfg_ex true f1 f0 f0), t_full, st0, st, v, tv, 50%nat; split; [reflexivity|]; split; [exact E0|]; split; [exact E1|].
  split; [exact Et|]; split; [exact H1|]; split; [exact Ev|]; split; [exact H3 | exact H2].
Qed.
Print Assumptions C30_sides_full_refuted.

(** ** C32: batch updates *)
(** A new integrator is idle, and clearing makes it idle again. *)
Theorem C32_new_idle : forall c t e st, 0 <= ec_buckets c -> esdf_new c t e = Ok st -> idle c st.
Proof.
  intros c t e st Hb H; unfold esdf_new in H.
  match type of H with (if ?b then _ else _) = _ => destruct b end; [|discriminate]; injection H as <-.
  constructor; cbn [es_open es_raise bq_setNum bq_new bq_num bq_max bq_buckets bq_last bq_count]; try reflexivity; lia.
Qed.
Print Assumptions C32_new_idle.
(** An idle integrator whose TSDF has its sides apart: the batch update ends, never
    aborts, whatever the bound on iterations beyond some number, and leaves the
    integrator idle. *)
Theorem C32_batch_partial : forall c t st, batch_input c t st ->
  exists n st', (forall fuel, (n <= fuel)%nat -> updateFromTsdfLayerBatch c fuel t st = Ok (Some st')) /\
    idle c st' /\ es_updated st' = [] /\ regular (es_layer st').
Proof.
  intros c t st [H1 H2 H3 H4 H5 H6 H7 H8 H9].
  destruct (batch_total c _ H1 t H5 H7 st H8 H6 eq_refl H2 H4 H3 H9) as (n & st' & B1 & B2 & B3 & B4 & _).
  exists n, st'; split; [exact B1|]; split; [exact B2|]; split; [exact B3 | exact B4].
Qed.
Print Assumptions C32_batch_partial.
(** Whatever the TSDF holds, and with the occupied crust and repeated queueing
    switched on or off, the update of an idle integrator never aborts. *)
Theorem C32_no_abort_partial : forall c t st fuel, valid_config c (l_size (es_layer st)) -> ec_full c = false -> regular t ->
  l_vps (es_layer st) = l_vps t -> voxel_count t <= 2 ^ 62 -> 25 * Z.of_nat fuel <= 2 ^ 62 -> idle c st ->
  exists o, updateFromTsdfLayerBatch c fuel t st = Ok o.
Proof.
  intros c t st fuel H1 H2 H3 H4 H5 H6 H7; apply (batch_no_abort c _ H1 t H3 ltac:(lia) st H7 H4 eq_refl H2 fuel H6 H5).
Qed.
Print Assumptions C32_no_abort_partial.
(** After a robot position was added the queue holds voxels that the batch update
    has removed: it aborts. *)
Definition tsdf_none : Layer KTsdf := MkLayer (k := KTsdf) vs_ex 2 [].
Definition c_robot : econfig := cfg_ex false f1 (fbits 0x3ecccccd) (fbits 0x3f19999a).
Definition robot_check : bool :=
  match rbind (esdf_new c_robot tsdf_none esdf_ex) (addNewRobotPosition c_robot 100 (V3 f0 f0 f0)) with
  | Ok (Some st) => match updateFromTsdfLayerBatch c_robot 50 tsdf_none st with Abort => true | _ => false end
  | _ => false
  end.
Theorem C32_batch_refuted : exists c t st0 st p fuel fuel', esdf_new c t esdf_ex = Ok st0 /\
  addNewRobotPosition c fuel p st0 = Ok (Some st) /\ updateFromTsdfLayerBatch c fuel' t st = Abort.
Proof.
  assert (H : robot_check = true) by (vm_compute; reflexivity).
  unfold robot_check in H.
  destruct (esdf_new c_robot tsdf_none esdf_ex) as [st0| |] eqn:E0; [|discriminate|discriminate]; cbn [rbind] in H.
  destruct (addNewRobotPosition c_robot 100 (V3 f0 f0 f0) st0) as [[st|]| |] eqn:E1; [|discriminate|discriminate|discriminate].
  destruct (updateFromTsdfLayerBatch c_robot 50 tsdf_none st) as [o| |] eqn:E2; [discriminate| |discriminate].
  exists c_robot, tsdf_none, st0, st, (V3 f0 f0 f0), 100%nat, 50%nat; auto.
Qed.
Print Assumptions C32_batch_refuted.

(** ** C63: neighbouring distances *)
Lemma batch_same : forall c t st st' fuel, batch_input c t st -> updateFromTsdfLayerBatch c fuel t st = Ok (Some st') ->
  idle c st' /\ regular (es_layer st') /\ l_size (es_layer st') = l_size (es_layer st) /\ l_vps (es_layer st') = l_vps t /\
  parents_ok c (l_size (es_layer st)) (es_layer st') /\ separated (es_layer st') /\ (forall g off, imp c (es_layer st') g off -> False) /\
  exists L : Layer KEsdf, (forall a, vat L a = option_map (image c) (vat t a)) /\ lift_rel (k := KEsdf) sided L (es_layer st') /\ lift_rel (k := KEsdf) touched L (es_layer st').
Proof.
  intros c t st st' fuel [H1 H2 H3 H4 H5 H6 H7 H8 H9] HB.
  destruct (batch_total c _ H1 t H5 H7 st H8 H6 eq_refl H2 H4 H3 H9) as (n & st2 & B1 & B2 & B3 & B4 & B5 & B6 & B7 & B8 & B9 & B10).
  destruct (phase1 c _ H1 t H5 H7 st H8 H6 eq_refl) as (st1 & p & R & _ & _ & E & _).
  pose proof (B1 n (le_n n)) as Bn; rewrite (batch_unfold c t st H6 n st1 R E) in Bn; rewrite (batch_unfold c t st H6 fuel st1 R E) in HB.
  pose proof (open_more c n (n + fuel) _ _ Bn ltac:(lia)) as M1; pose proof (open_more c fuel (n + fuel) _ _ HB ltac:(lia)) as M2.
  rewrite M1 in M2; injection M2 as <-; auto 12.
Qed.
(** After a batch update no distance exceeds a neighbour's by more than the step and
    the update threshold: for observed neighbours at [g] (nearer than the maximum
    distance) and [h = g + off], with [h] not fixed, both are on the same side and
    the distance of [h] is at most one step further away. *)
Theorem C63_neighbours : forall c t st st' fuel g off step (v w : EsdfVoxel), batch_input c t st ->
  updateFromTsdfLayerBatch c fuel t st = Ok (Some st') ->
  is_step (l_size (es_layer st)) off step -> exact_index g -> at_index (es_layer st') g = Some v -> at_index (es_layer st') (idx_add g off) = Some w ->
  e_observed v = true -> e_observed w = true -> e_fixed w = false -> flt (fabs (e_distance v)) (ec_max c) = true ->
  (outside (e_distance v) /\ outside (e_distance w) /\ fle (e_distance w) (fadd (fadd (e_distance v) step) (ec_min_diff c)) = true) \/
  (inside (e_distance v) /\ inside (e_distance w) /\ fle (fsub (fsub (e_distance v) step) (ec_min_diff c)) (e_distance w) = true).
Proof.
  intros c t st st' fuel g off step v w HI HB (kd & Hin & ->) Hg Hv Hw Ov Ow Fw Hn.
  destruct (batch_same c t st st' fuel HI HB) as (_ & _ & S & _ & _ & SEP & NI & _).
  assert (NB : beyond c (e_distance v) = false).
  { destruct (vc_max _ _ (bi_config _ _ _ HI)) as (FM & PM & _).
    pose proof (Update_proofs.fabs_lt_fin _ _ Hn FM) as Fv; apply flt_iff in Hn; destruct Hn as (_ & _ & Hn).
    rewrite (ER_fin (fabs (e_distance v))) in Hn by (rewrite fabs_fin; exact Fv); rewrite (ER_fin (ec_max c)) in Hn by exact FM; rewrite fabs_R in Hn; apply Rabs_def2 in Hn.
    unfold beyond, fge; apply orb_false_iff; split;
      [destruct (fle (ec_max c) (e_distance v)) eqn:X | destruct (fle (e_distance v) (fneg (ec_max c))) eqn:X]; try reflexivity; apply fle_iff in X; destruct X as (_ & _ & X).
    - rewrite (ER_fin (ec_max c)) in X by exact FM; rewrite (ER_fin (e_distance v)) in X by exact Fv; lra.
    - rewrite (ER_fin (e_distance v)) in X by exact Fv; rewrite (ER_fin (fneg (ec_max c))) in X by (rewrite fneg_fin; exact FM); rewrite fneg_R in X; lra. }
  destruct (no_imp_follows c _ (bi_config _ _ _ HI) (es_layer st') g off kd v w S NI Hin Hg Hv Hw Ov Ow Fw NB) as (U1 & U2).
  destruct (SEP g off kd v w Hin Hg Hv Hw Ov Ow Fw) as [(A & B)|(A & B)]; [left | right]; auto.
Qed.
Print Assumptions C63_neighbours.

(** ** C64: what the update takes over from the TSDF *)
(** A batch update that ends, from any state and in any mode: the ESDF has the voxels
    of the TSDF; a voxel is observed exactly if its TSDF weight reaches the minimum
    or the crust is filled in; a seen voxel within the fixed band has the TSDF
    distance, bit by bit, and is fixed; no other voxel is fixed. *)
Theorem C64_tsdf_copied : forall c t st st' fuel g, ffin (ec_min_diff c) = true -> (0 <= FR (ec_min_diff c))%R ->
  ffin (ec_default c) = true -> (0 < FR (ec_default c))%R -> regular t -> l_vps (es_layer st) = l_vps t ->
  updateFromTsdfLayerBatch c fuel t st = Ok (Some st') -> exact_index g ->
  match at_index t g with
  | None => at_index (es_layer st') g = None
  | Some tv => exists v, at_index (es_layer st') g = Some v /\
      (e_observed v = true <-> seen c tv \/ ec_crust c = true) /\
      (e_fixed v = true <-> seen c tv /\ isFixed c (t_distance (tv : TsdfVoxel)) = true) /\
      (e_fixed v = true -> e_distance v = t_distance (tv : TsdfVoxel)) /\
      (e_observed v = false -> e_distance v = f0)
  end.
Proof.
  intros c t st st' fuel g Fm Pm Fd Pd HR HV HB Hg; unfold updateFromTsdfLayerBatch, updateFromTsdfBlocks in HB.
  match type of HB with (if ?b then _ else _) = _ => destruct b end; [|discriminate].
  apply rbind_ok in HB; destruct HB as (st1 & R & HB); apply rbind_ok in HB; destruct HB as ([st2|] & R2 & HB); [|discriminate].
  destruct (batch_image c (conj Fm Pm) (conj Fd Pd) t st st1 (es_updated st) HR HV R) as (B1 & B2 & _ & _ & B5).
  pose proof (raise_frame c _ _ (proj1 (processRaiseSet_steps c _ _ _ R2))) as F2.
  pose proof (open_frame c _ _ (proj1 (processOpenSet_steps c _ _ _ HB))) as F3.
  pose proof (lift_at _ _ _ g (lift_trans (k := KEsdf) frame frame_trans _ _ _ F2 F3)) as K.
  rewrite (reg_at _ _ HR Hg); rewrite (reg_at _ _ B1 Hg), B2, B5 in K.
  destruct (vat t (adr (l_vps t) g)) as [tv|]; cbn [option_map] in K; destruct (at_index (es_layer st') g) as [v|]; try contradiction; [|reflexivity].
  exists v; split; [reflexivity|]; destruct K as (K1 & _ & K3 & K4); rewrite K1, K3; unfold image, seen in *.
  destruct (flt (t_weight tv) (ec_min_weight c)).
  - destruct (ec_crust c); cbn [e_observed e_fixed e_distance vdefault] in *; (split; [|split; [|split]]); try (split; [discriminate|]); try (split; auto); try discriminate.
    + intros (X & _); discriminate.
    + intros [X|X]; discriminate.
    + intros (X & _); discriminate.
    + intros _; apply K4; right; reflexivity.
  - destruct (isFixed c (t_distance tv)); cbn [e_observed e_fixed e_distance] in *; (split; [|split; [|split]]); try (split; auto); try discriminate.
    + intros _; apply K4; left; reflexivity.
    + intros (_ & X); discriminate.
Qed.
Print Assumptions C64_tsdf_copied.

Lemma strict_eq : forall x y : f32, ffin x = true -> ffin y = true -> FR x <> 0%R -> FR x = FR y -> x = y.
Proof.
  intros x y Fx Fy Nx E.
  assert (S : forall z : f32, ffin z = true -> FR z <> 0%R -> Binary.is_finite_strict 24 128 z = true).
  { intros [s|s|s q Hq|s m e Hme] F N; try discriminate; [|reflexivity]; exfalso; apply N; reflexivity. }
  apply Binary.B2R_inj; [apply S; assumption | apply S; [assumption | rewrite <- E; exact Nx] | exact E].
Qed.
Lemma sgnmul_default : forall x d, ffin d = true -> (0 < FR d)%R -> (signum x = 1 -> sgnmul x d = d) /\ (signum x = -1 -> sgnmul x d = fneg d).
Proof.
  intros x d Fd Pd; destruct (sgnmul_R x d Fd) as (E & F); split; intros S; rewrite S in E.
  - apply strict_eq; [exact F | exact Fd | rewrite E; lra | rewrite E; lra].
  - apply strict_eq; [exact F | rewrite fneg_fin; exact Fd | rewrite E; lra | rewrite fneg_R, E; lra].
Qed.
(** ** C65: where the distances come from *)
(** After a batch update the distance of every observed voxel is the length of a path
    of neighbouring voxels from a fixed voxel (each step up to the update threshold),
    or the default distance with the sign of the TSDF; and it is on the TSDF's side. *)
Theorem C65_distances_traced : forall c t st st' fuel g (v : EsdfVoxel) (tv : TsdfVoxel), batch_input c t st ->
  (FR (ec_max c) <= bpow radix2 22 * FR (l_size (es_layer st)))%R ->
  updateFromTsdfLayerBatch c fuel t st = Ok (Some st') -> exact_index g ->
  at_index t g = Some tv -> at_index (es_layer st') g = Some v -> e_observed v = true -> fnan (t_distance tv) = false ->
  (traced c (es_layer st') g \/ far_from c (t_distance tv) (e_distance v)) /\
  (outside (t_distance tv) -> outside (e_distance v)) /\ (inside (t_distance tv) -> inside (e_distance v)).
Proof.
  intros c t st st' fuel g v tv HI Hfine HB Hg Ht Hv Ov Nt.
  destruct (batch_same c t st st' fuel HI HB) as (_ & HR & S & V & PAR & _ & NI & L & IM & SD & TC).
  pose proof (bi_config _ _ _ HI) as Hc; pose proof (bi_tsdf _ _ _ HI) as HT.
  assert (IMG : forall h (w : EsdfVoxel), exact_index h -> at_index (es_layer st') h = Some w -> exists tw, at_index t h = Some tw /\ sided (image c tw) w /\ touched (image c tw) w).
  { intros h w Hh Hw; rewrite (reg_at _ _ HR Hh), V in Hw; rewrite (reg_at _ _ HT Hh).
    destruct (vat L (adr (l_vps t) h)) as [x|] eqn:Ex.
    - destruct (proj2 SD _ _ Ex) as (y & Y1 & Y2); rewrite Hw in Y1; injection Y1 as <-.
      destruct (proj2 TC _ _ Ex) as (y & Y1 & Y3); rewrite Hw in Y1; injection Y1 as <-.
      rewrite IM in Ex; destruct (vat t (adr (l_vps t) h)) as [tw|]; [|discriminate]; injection Ex as <-; eauto.
    - apply (shape_vat _ _ _ (proj1 SD)) in Ex; congruence. }
  destruct (IMG g v Hg Hv) as (tv' & T1 & SI & TO); rewrite Ht in T1; injection T1 as <-.
  assert (Oi : e_observed (image c tv) = true) by (destruct SI as ((O & _) & _); congruence).
  split.
  - destruct TO as [(D & P)|(off & kd & Hin & P)].
    + destruct (e_fixed (image c tv)) eqn:Fi.
      * left; destruct SI as ((_ & _ & F & _) & _); eapply TR_fixed; [exact Hv | exact Ov | congruence].
      * right; unfold far_from; rewrite D; destruct (image_observed c (bi_crust _ _ _ HI) tv Oi) as (_ & _ & FAR).
        destruct (FAR Fi) as (NF & ->); unfold far_value.
        destruct (vc_default _ _ Hc) as (Fd & Pd); destruct (sgnmul_default (t_distance tv) _ Fd Pd) as (S1 & S2).
        destruct (signum_cases _ Nt) as [(E & K)|[(E & K)|(E & K)]].
        { left; split; [apply outside_iff; auto | apply S1, E]. }
        { rewrite (zero_fixed c _ Hc) in NF by assumption; discriminate. }
        { right; split; [apply inside_iff; split; [exact Nt | lra] | apply S2, E]. }
    + left; apply (traced_all c _ Hc Hfine (es_layer st') HR S PAR NI) with (n := Z.to_nat (rank (e_distance v) + 1)) (w := v); auto.
      * intros h w Hh Hw Nz; destruct (IMG h w Hh Hw) as (tw & _ & ((_ & _ & F & FP) & _) & TW).
        destruct TW as [(_ & P')|TW]; [rewrite image_parent in P'; contradiction|]; split; [|exact TW].
        rewrite F; destruct (e_fixed (image c tw)) eqn:Fi; [|reflexivity]; destruct FP as (_ & P'); [auto|]; rewrite image_parent in P'; contradiction.
      * pose proof (rank_nonneg (e_distance v)); lia.
      * right; rewrite P; apply (opp_nz _ _ Hin).
  - destruct SI as (_ & S1 & S2); destruct (image_side c _ Hc (bi_crust _ _ _ HI) tv Oi) as (I1 & I2); auto.
Qed.
Print Assumptions C65_distances_traced.

(** ** A concrete case: a block of 4 by 4 by 4 voxels cut by a surface *)
Definition c_ex : econfig :=
  MkEC false (fbits 0x40000000) (fbits 0x3e800000) (fbits 0x40000000) (fbits 0x3a800000) (fbits 0x358637bd) 20 false false f0 f0.
Definition vs8 : f32 := fbits 0x3e000000.
Definition row_ex : list TsdfVoxel := [tv_ex (fbits 0xbec00000); tv_ex (fbits 0xbe000000); tv_ex (fbits 0x3e000000); tv_ex (fbits 0x3ec00000)].
Definition t_ex : Layer KTsdf :=
  MkLayer (k := KTsdf) vs8 4 [(V3 0 0 0, set_voxels (k := KTsdf) (concat (repeat row_ex 16)) (new_block (k := KTsdf) 4 vs8 (V3 f0 f0 f0)))].
Definition e_ex : Layer KEsdf := MkLayer (k := KEsdf) vs8 4 [].
Lemma t_ex_regular : regular t_ex.
Proof.
  constructor; [exists 2; split; [lia | reflexivity]|].
  intros i b H; unfold l_get, t_ex in H; cbn [l_blocks alookup] in H; destruct (idx_eqb_spec i (V3 0 0 0)) as [E|]; [|discriminate].
  subst i; injection H as <-; split; [reflexivity|]; split; [vm_compute; reflexivity|]; repeat split; cbn; lia.
Qed.
Definition apart_check : bool :=
  let cs := [0; 1; 2; 3] in
  forallb (fun x => forallb (fun y => forallb (fun z => forallb (fun od =>
    match vat t_ex (adr 4 (V3 x y z)), vat t_ex (adr 4 (idx_add (V3 x y z) (fst od))) with
    | Some u, Some w => isFixed c_ex (t_distance w) || (flt f0 (t_distance u) && flt f0 (t_distance w)) || (fle (t_distance u) f0 && fle (t_distance w) f0)
    | _, _ => true
    end) neighbors26) cs) cs) cs.
Lemma t_ex_apart : sides_apart c_ex t_ex.
Proof.
  assert (K : apart_check = true) by (vm_compute; reflexivity).
  intros g off step u w (kd & Hin & _) Hg Hu Hw _ _ NF.
  rewrite (reg_at _ _ t_ex_regular Hg) in Hu.
  assert (Hr : all3 (fun x => In x [0; 1; 2; 3]) g).
  { unfold vat, l_get, t_ex in Hu; cbn [l_blocks l_vps alookup adr fst] in Hu; match type of Hu with context [idx_eqb ?a ?b] => destruct (idx_eqb_spec a b) as [E|] end; [|discriminate].
    destruct g as [x y z]; cbn [map3 all3 vx vy vz] in *; injection E as Ex Ey Ez.
    assert (R : forall x, x / 4 = 0 -> In x [0; 1; 2; 3]).
    { intros a Ha; pose proof (Z.div_mod a 4 ltac:(lia)); pose proof (Z.mod_pos_bound a 4 ltac:(lia)); cbn [In]; lia. }
    (split; [|split]); apply R; assumption. }
  assert (Hg' : exact_index (idx_add g off)).
  { assert (O : Forall (fun od => all3 (fun x => Z.abs x <= 1) (fst od)) neighbors26) by (repeat constructor; cbn; lia).
    rewrite Forall_forall in O; specialize (O _ Hin); destruct g as [x y z], off as [a b d]; cbn [all3 vx vy vz fst idx_add In] in *.
    destruct Hr as (R1 & R2 & R3), O as (O1 & O2 & O3); unfold exact_index, idx_add, zip3, all3 in *; cbn [vx vy vz] in *; repeat split; lia. }
  rewrite (reg_at _ _ t_ex_regular Hg') in Hw.
  destruct g as [x y z], Hr as (R1 & R2 & R3); cbn [vx vy vz] in R1, R2, R3.
  unfold apart_check in K; cbv zeta in K; rewrite forallb_forall in K; specialize (K x R1); rewrite forallb_forall in K; specialize (K y R2).
  rewrite forallb_forall in K; specialize (K z R3); rewrite forallb_forall in K; specialize (K _ Hin); cbn [fst] in K.
  change (l_vps t_ex) with 4 in Hu, Hw; rewrite Hu, Hw in K.
  apply orb_true_iff in K; destruct K as [K|K].
  - apply orb_true_iff in K; destruct K as [K|K]; [congruence|]; apply andb_true_iff in K; left; exact K.
  - apply andb_true_iff in K; right; exact K.
Qed.
Lemma c_ex_valid : valid_config c_ex vs8.
Proof.
  assert (E1 : FR (fbits 0x40000000) = (IZR 8388608 * bpow radix2 (-22))%R) by reflexivity.
  assert (E2 : FR (fbits 0x3e800000) = (IZR 8388608 * bpow radix2 (-25))%R) by reflexivity.
  assert (E3 : FR (fbits 0x3a800000) = (IZR 8388608 * bpow radix2 (-33))%R) by reflexivity.
  assert (E4 : FR vs8 = (IZR 8388608 * bpow radix2 (-26))%R) by reflexivity.
  assert (B : bpow radix2 (-22) = (8 * bpow radix2 (-25))%R) by (change (-22) with (3 + -25); rewrite bpow_plus; reflexivity).
  assert (B2 : bpow radix2 (-22) = (16 * bpow radix2 (-26))%R) by (change (-22) with (4 + -26); rewrite bpow_plus; reflexivity).
  pose proof (bpow_gt_0 radix2 (-22)); pose proof (bpow_gt_0 radix2 (-33)).
  constructor; cbn [c_ex ec_min_diff ec_default ec_max ec_min ec_buckets]; rewrite ?E1, ?E2, ?E3, ?E4; try lia; (split; [reflexivity|]); try lra.
  split; [lra|]; change 8388608 with (2 ^ 23); rewrite (IZR_Zpower radix2) by lia; rewrite <- bpow_plus; apply bpow_lt; lia.
Qed.
Lemma new_ok : forall c t e, (l_vps e =? l_vps t) && near_sizes (l_size e) (l_size t) = true -> exists st, esdf_new c t e = Ok st /\ es_layer st = e.
Proof. intros c t e H; unfold esdf_new; rewrite H; eexists; split; reflexivity. Qed.
Example C_batch_input : exists st, esdf_new c_ex t_ex e_ex = Ok st /\ batch_input c_ex t_ex st.
Proof.
  destruct (new_ok c_ex t_ex e_ex) as (st & E & L); [vm_compute; reflexivity|].
  exists st; split; [exact E|]; constructor; rewrite ?L.
  - exact c_ex_valid.
  - reflexivity.
  - reflexivity.
  - reflexivity.
  - exact t_ex_regular.
  - reflexivity.
  - vm_compute; discriminate.
  - exact (C32_new_idle c_ex t_ex e_ex st ltac:(cbn [c_ex ec_buckets]; lia) E).
  - exact t_ex_apart.
Qed.
(** the run itself: the outer columns end one step beyond the fixed band, at 0.25 m
    and -0.25 m *)
Example C_batch_run :
  dist_at (rbind (rbind (esdf_new c_ex t_ex e_ex) (updateFromTsdfLayerBatch c_ex 200 t_ex)) (fun o => match o with Some st => Ok st | None => Abort end)) (V3 3 1 2) = Some 0x3e800000 /\
  dist_at (rbind (rbind (esdf_new c_ex t_ex e_ex) (updateFromTsdfLayerBatch c_ex 200 t_ex)) (fun o => match o with Some st => Ok st | None => Abort end)) (V3 0 1 2) = Some 0xbe800000.
Proof. split; vm_compute; reflexivity. Qed.
