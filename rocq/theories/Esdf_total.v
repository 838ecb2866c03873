(** Total correctness of the batch update of an idle integrator. *)
From Coq Require Import ZArith List Bool Lia Reals Lra.
From Verif Require Import F32 F32_lemmas Types Index Neighbor Voxel Serialize Assoc Assoc_lemmas Layer Threads Threads_proofs
  Index_proofs Queue Queue_spec Queue_proofs Planning Esdf Esdf_spec Esdf_proofs Esdf_float Esdf_range Esdf_grid Esdf_open Esdf_batch Esdf_term Connect_proofs.
Import ListNotations.
Open Scope Z_scope.
Ltac Zify.zify_post_hook ::= idtac.

(** a voxel keeps distance and parent, or has one of its neighbours as parent *)
Definition touched (v v' : EsdfVoxel) : Prop :=
  (e_distance v' = e_distance v /\ e_parent v' = e_parent v) \/ exists off kd, In (off, kd) neighbors26 /\ e_parent v' = idx_opp off.
Lemma writes_touched : forall c vs l l', ec_full c = false -> writes c vs l l' -> lift_rel (k := KEsdf) touched l l'.
Proof.
  intros c vs l l' Hq; apply writes_lift.
  - intros v; left; auto.
  - intros u v w [(A & B)|A] [(D & E)|D]; [left; split; congruence | right; exact D | right | right; exact D].
    destruct A as (off & kd & A1 & A2); exists off, kd; split; [exact A1 | congruence].
  - intros v; left; auto.
  - intros v nv nv' off kd [H1 H2 H3 (pa & d & d' & q & K1 & K2 & -> & _)]; right; exists off, kd; split; [assumption|].
    unfold open_parent in K1; rewrite Hq in K1; injection K1 as <- _; reflexivity.
Qed.

Section Total.
  Variable c : econfig.
  Variable vs : f32.
  Hypothesis Hc : valid_config c vs.
  Variable t : Layer KTsdf.
  Hypothesis Ht : regular t.
  Hypothesis Hcount : voxel_count t <= 2 ^ 63.

  Lemma default_pos : ffin (ec_default c) = true /\ (0 < FR (ec_default c))%R.
  Proof. exact (vc_default _ _ Hc). Qed.
  Lemma image_fixed : forall tv, e_fixed (image c tv) = true -> image c tv = MkEsdf (t_distance tv) true false true true zero3 /\
    seen c tv /\ isFixed c (t_distance tv) = true.
  Proof.
    intros tv; unfold image, seen; destruct (flt (t_weight tv) (ec_min_weight c)); [destruct (ec_crust c); discriminate|].
    destruct (isFixed c (t_distance tv)); [auto | discriminate].
  Qed.
  Lemma image_queue : forall tv, e_in_queue (image c tv) = e_fixed (image c tv).
  Proof.
    intros tv; unfold image; destruct (flt (t_weight tv) (ec_min_weight c)); [destruct (ec_crust c); reflexivity|].
    destruct (isFixed c (t_distance tv)); reflexivity.
  Qed.
  Lemma image_parent : forall tv, e_parent (image c tv) = zero3.
  Proof.
    intros tv; unfold image; destruct (flt (t_weight tv) (ec_min_weight c)); [destruct (ec_crust c); reflexivity|].
    destruct (isFixed c (t_distance tv)); reflexivity.
  Qed.

  (** ** The first phase *)
  Record pstate (st : estate) (p : pending) : Prop := MkPs {
    ps_built : built c t (es_layer st);
    ps_q : qinv (es_open st) p;
    ps_conf : qconf c (es_open st);
    ps_nd : NoDup (map snd p);
    ps_in : forall g, inq p g -> exists v : EsdfVoxel, vat (es_layer st) (adr (l_vps t) g) = Some v /\ e_fixed v = true;
    ps_fix : forall a (v : EsdfVoxel), vat (es_layer st) a = Some v -> e_fixed v = true -> exists g, adr (l_vps t) g = a /\ inq p g }.
  Lemma ps_bound : forall st p, pstate st p -> Z.of_nat (length p) <= 2 ^ 63.
  Proof.
    intros st p H; apply Z.le_trans with (2 := Hcount); apply (queue_bound t p Ht (ps_nd _ _ H)).
    intros g Hg; destruct (ps_in _ _ H g Hg) as (v & V & _); destruct (bl_link _ _ _ (ps_built _ _ H) _ _ V) as (tv & T & _); eauto.
  Qed.

  Lemma voxels_total : forall bi tb (tvs : list TsdfVoxel) s st p, l_get t bi = Some tb ->
    (forall n tv, nth_error tvs n = Some tv -> vat t (bi, (s + n)%nat) = Some tv) ->
    (forall n, (n < s + length tvs)%nat -> vat (es_layer st) (bi, n) <> None) -> pstate st p ->
    exists st' p', rfold (tsdf_voxel c false bi) (combine (seq s (length tvs)) tvs) st = Ok st' /\ pstate st' p'.
  Proof.
    intros bi tb tvs; induction tvs as [|tv tvs IH]; intros s st p Hb Htv Hn HP; cbn [length seq combine rfold] in *.
    - exists st, p; auto.
    - pose proof (ps_built _ _ HP) as HB; pose proof (bl_vps _ _ _ HB) as HV.
      destruct (vat (es_layer st) (bi, s)) as [v|] eqn:Ev; [|exfalso; apply (Hn s); [lia | exact Ev]].
      pose proof (Htv 0%nat tv eq_refl) as Etv; rewrite Nat.add_0_r in Etv.
      destruct (bl_link _ _ _ HB _ _ Ev) as (tv' & E' & Hcv); rewrite Etv in E'; injection E' as <-.
      assert (Hs : (s < num_voxels (l_vps (es_layer st)))%nat).
      { rewrite HV; destruct (reg_block _ Ht _ _ Hb) as (_ & E & _); rewrite <- E; apply nth_error_Some.
        unfold vat in Etv; cbn [fst snd] in Etv; rewrite Hb in Etv; congruence. }
      destruct (lin_index (l_vps (es_layer st)) s) as (vi & Evi & Eadr); [rewrite HV; apply reg_vps_small, Ht | exact Hs |].
      specialize (Eadr bi).
      destruct (vox_step c (Hmd c vs Hc) default_pos bi st s tv v vi Ev Hcv Evi) as (L' & psh & S1 & S2 & S3 & S4 & S5).
      set (g := glob (l_vps (es_layer st)) bi vi) in *; rewrite HV in Eadr.
      assert (LINK : built c t L').
      { constructor; [eapply reg_shape; [exact S1 | apply HB] | rewrite (proj1 (proj2 S1)); exact HV |].
        intros a w Hw; rewrite S2 in Hw; destruct (addr_dec a (bi, s)) as [->|]; [exists tv; split; [exact Etv | right; congruence] | apply HB, Hw]. }
      assert (ONE : exists q p', (if psh then bq_push (es_open st) g (f64_of_f32 (t_distance tv)) else Ok (es_open st)) = Ok q /\
        pstate (MkES L' q (es_raise st) (es_updated st)) p').
      { destruct psh.
        - destruct (S3 eq_refl) as (N & F & _ & Fx).
          assert (Dv : e_fixed v = false) by (destruct Hcv as [-> | ->]; [reflexivity | contradiction]).
          destruct (vc_min _ _ Hc) as (M1 & M2 & M3).
          destruct (push_total c vs Hc (es_open st) p g (t_distance tv) (ps_q _ _ HP) (ps_conf _ _ HP)) as (q & i & Q1 & Q2 & Q3).
          { apply (fixed_pushable c (vc_max _ _ Hc)); assumption. }
          { pose proof (ps_bound _ _ HP); lia. }
          exists q, (p ++ [(i, g)]); split; [exact Q1|].
          assert (Ng : ~ inq p g) by (intros K; destruct (ps_in _ _ HP g K) as (w & W1 & W2); rewrite Eadr, Ev in W1; injection W1 as <-; congruence).
          constructor; cbn [es_layer es_open]; auto.
          + apply once_snoc; [apply HP | exact Ng].
          + intros h Hh; apply inq_snoc in Hh; rewrite S2; destruct (addr_dec (adr (l_vps t) h) (bi, s)) as [E|E]; [eauto|].
            destruct Hh as [Hh| ->]; [apply (ps_in _ _ HP h Hh) | contradiction].
          + intros a w Hw Fw; rewrite S2 in Hw; destruct (addr_dec a (bi, s)) as [->|E].
            * exists g; split; [exact Eadr | apply inq_snoc; right; reflexivity].
            * destruct (ps_fix _ _ HP a w Hw Fw) as (h & H1 & H2); exists h; split; [exact H1 | apply inq_snoc; left; exact H2].
        - exists (es_open st), p; split; [reflexivity|].
          assert (NF : e_fixed v = e_fixed (image c tv)).
          { destruct (e_fixed (image c tv)) eqn:F; [rewrite (S4 eq_refl eq_refl); exact F|]; destruct Hcv as [-> | ->]; [reflexivity | exact F]. }
          constructor; cbn [es_layer es_open]; auto; try apply HP.
          + intros h Hh; destruct (ps_in _ _ HP h Hh) as (w & W1 & W2); rewrite S2; destruct (addr_dec (adr (l_vps t) h) (bi, s)) as [E|E]; [|eauto].
            rewrite E, Ev in W1; injection W1 as <-; exists (image c tv); split; [reflexivity | congruence].
          + intros a w Hw Fw; rewrite S2 in Hw; destruct (addr_dec a (bi, s)) as [->|E].
            * apply (ps_fix _ _ HP _ v Ev); congruence.
            * apply (ps_fix _ _ HP a w Hw Fw). }
      destruct ONE as (q & p' & O1 & O2); rewrite O1 in S5; cbn [rbind] in S5; rewrite S5; cbn [rbind].
      apply (IH (S s) _ p'); auto.
      + intros n tw Hw; rewrite <- (Htv (S n) tw Hw); f_equal; f_equal; lia.
      + intros n Hlt K; cbn [es_layer] in K; rewrite S2 in K; destruct (addr_dec (bi, n) (bi, s)); [discriminate|].
        apply (Hn n); [lia | exact K].
  Qed.

  Lemma opened_pstate : forall st p bi tb, l_get t bi = Some tb -> pstate st p -> pstate (with_layer st (opened (es_layer st) bi)) p.
  Proof.
    intros st p bi tb Hb HP.
    assert (HF : forall a v, vat (es_layer st) a = Some v -> vat (opened (es_layer st) bi) a = Some v).
    { intros (i, n) v Hv; rewrite opened_vat; cbn [fst]; destruct (idx_eqb_spec i bi) as [->|]; [|exact Hv].
      destruct (l_get (es_layer st) bi) eqn:E; [exact Hv|]; unfold vat in Hv; cbn [fst] in Hv; rewrite E in Hv; discriminate. }
    constructor; cbn [es_layer es_open with_layer]; try apply HP.
    - apply (opened_built c t _ _ tb Ht Hb), HP.
    - intros g Hg; destruct (ps_in _ _ HP g Hg) as (v & V1 & V2); exists v; split; [apply HF, V1 | exact V2].
    - intros a v Hv Fv; rewrite opened_vat in Hv; destruct (idx_eqb_spec (fst a) bi) as [E|]; [|apply (ps_fix _ _ HP a v Hv Fv)].
      destruct (l_get (es_layer st) bi) eqn:El; [apply (ps_fix _ _ HP a v Hv Fv)|].
      apply nth_repeat_some in Hv; destruct Hv as (-> & _); discriminate.
  Qed.
  Lemma blocks_total : forall blocks st p, pstate st p -> exists st' p', rfold (tsdf_block c false t) blocks st = Ok st' /\ pstate st' p'.
  Proof.
    induction blocks as [|bi bs IH]; intros st p HP; cbn [rfold]; [exists st, p; auto|].
    assert (ONE : exists st1 p1, tsdf_block c false t st bi = Ok st1 /\ pstate st1 p1).
    { unfold tsdf_block; destruct (l_get t bi) as [tb|] eqn:Eb; [|exists st, p; auto]; cbv zeta; fold (opened (es_layer st) bi).
      pose proof (opened_pstate st p bi tb Eb HP) as HP'.
      apply (voxels_total bi tb (b_voxels tb) 0 _ p Eb); [| |exact HP'].
      - intros n tv Hn; unfold vat; cbn [fst snd]; rewrite Eb; exact Hn.
      - intros n Hn K; cbn [es_layer with_layer] in K; unfold vat in K; cbn [fst snd] in K; rewrite opened_get, idx_eqb_refl in K.
        pose proof (opened_get (es_layer st) bi bi) as G; rewrite idx_eqb_refl in G.
        pose proof (ps_built _ _ HP') as HB'; cbn [es_layer with_layer] in HB'.
        destruct (reg_block _ (bl_reg _ _ _ HB') _ _ G) as (_ & E & _); apply nth_error_None in K.
        destruct (reg_block _ Ht _ _ Eb) as (_ & E' & _); rewrite (bl_vps _ _ _ HB') in E; cbn [vox] in *; lia. }
    destruct ONE as (st1 & p1 & O1 & O2); rewrite O1; cbn [rbind]; apply (IH st1 p1 O2).
  Qed.

  (** ** Idle states *)
  Lemma idle_qinv : forall st, idle c st -> qinv (es_open st) [] /\ qconf c (es_open st).
  Proof.
    intros st [I1 I2 I3 I4 I5 _]; split; [|split; assumption]; destruct (es_open st) as [n mx bs la co]; cbn [bq_num bq_max bq_buckets bq_last bq_count] in *; subst.
    destruct (vc_max _ _ Hc) as (F & P & _); destruct (f64_of_f32_R _ F) as (E & G); pose proof (vc_buckets _ _ Hc).
    apply q_fresh; [lia | exact G | rewrite E; exact P | exact I4].
  Qed.
  Lemma empty_idle : forall st, qinv (es_open st) [] -> qconf c (es_open st) -> es_raise st = [] -> idle c st.
  Proof.
    intros st HQ (Q1 & Q2) HR; constructor; auto.
    - rewrite (nth_ext_map _ (bq_buckets (es_open st)) (Z.to_nat (bq_num (es_open st))) (fun i => keys_in (Z.of_nat i) []) (q_len _ _ HQ)).
      + rewrite Q1; generalize (Z.to_nat (ec_buckets c)) as n; clear; intros n; generalize 0%nat; induction n as [|n IH]; intros s; [reflexivity|].
        cbn [seq map repeat]; f_equal; apply IH.
      + intros i Hi; rewrite <- (q_bucket _ _ HQ) by lia; rewrite Nat2Z.id; reflexivity.
    - apply HQ.
    - rewrite (q_count _ _ HQ); reflexivity.
  Qed.

  (** ** The whole update *)
  Variable st : estate.
  Hypothesis Hidle : idle c st.
  Hypothesis Hvps : l_vps (es_layer st) = l_vps t.
  Hypothesis Hsize : l_size (es_layer st) = vs.

  Definition cleared : estate := with_updated (with_layer st (removeAllBlocks (es_layer st))) [].
  Lemma cleared_pstate : pstate cleared [].
  Proof.
    destruct (idle_qinv st Hidle) as (Q1 & Q2); constructor; cbn [cleared es_layer es_open with_updated with_layer]; auto.
    - constructor.
      + constructor; cbn [removeAllBlocks with_blocks l_vps]; [rewrite Hvps; apply Ht|].
        intros i b Hi; discriminate.
      + exact Hvps.
      + intros a v Hv; discriminate.
    - constructor.
    - intros g (b & []).
    - intros a v Hv; discriminate.
  Qed.
  (** the state after the first phase *)
  Lemma phase1 : exists st1 p, rfold (tsdf_block c false t) (getAllAllocatedBlocks t ++ es_updated st) cleared = Ok st1 /\
    oinv st1 p /\ qconf c (es_open st1) /\ es_raise st1 = [] /\ es_updated st1 = [] /\ l_size (es_layer st1) = vs /\ l_vps (es_layer st1) = l_vps t /\
    (forall a, vat (es_layer st1) a = option_map (image c) (vat t a)) /\
    once (es_layer st1) p /\ Z.of_nat (length p) <= 2 ^ 63.
  Proof.
    destruct (blocks_total (getAllAllocatedBlocks t ++ es_updated st) cleared [] cleared_pstate) as (st1 & p & R & P).
    exists st1, p; split; [exact R|].
    destruct (batch_image c (Hmd c vs Hc) default_pos t st st1 (es_updated st) Ht Hvps R) as (B1 & B2 & B3 & B4 & B5).
    assert (UP : es_updated st1 = []).
    { destruct (blocks_partial c (Hmd c vs Hc) default_pos t (getAllAllocatedBlocks t ++ es_updated st) cleared st1 Ht) as (_ & _ & _ & U & _);
        [apply (ps_built _ _ cleared_pstate) | exact R | exact U]. }
    assert (GET : forall g v, exact_index g -> at_index (es_layer st1) g = Some v -> vat (es_layer st1) (adr (l_vps t) g) = Some v)
      by (intros g v He; rewrite (reg_at _ _ B1 He), B2; auto).
    assert (INQ : forall g, inq p g -> exact_index g /\ exists v : EsdfVoxel, at_index (es_layer st1) g = Some v /\ e_fixed v = true).
    { intros g Hg; destruct (ps_in _ _ P g Hg) as (v & V1 & V2).
      assert (He : exact_index g) by (rewrite <- B2 in V1; apply (vat_exact _ _ _ B1 V1)).
      split; [exact He|]; exists v; split; [rewrite (reg_at _ _ B1 He), B2; exact V1 | exact V2]. }
    split; [|split; [apply P|]; split; [rewrite B4; apply Hidle|]; split; [exact UP|]; split; [congruence|]; split; [exact B2|]; split; [exact B5|]; split].
    - constructor; [exact B1 | apply P | |].
      + intros g Hg; destruct (INQ g Hg) as (He & v & V & _); eauto.
      + intros g v He Hv Hq; apply GET in Hv; [|exact He].
        assert (Fv : e_fixed v = true) by (rewrite B5 in Hv; destruct (vat t (adr (l_vps t) g)) as [tv|]; [|discriminate]; injection Hv as <-; rewrite <- image_queue; exact Hq).
        destruct (ps_fix _ _ P _ _ Hv Fv) as (h & H1 & H2); apply adr_inj in H1; [subst h; exact H2 | apply reg_vps_small, Ht].
    - split; [apply P|]; intros g Hg; destruct (INQ g Hg) as (He & v & V1 & V2); exists v; split; [exact V1|].
      apply GET in V1; [|exact He]; rewrite B5 in V1; destruct (vat t (adr (l_vps t) g)) as [tv|]; [|discriminate]; injection V1 as <-; rewrite image_queue; exact V2.
    - apply (ps_bound _ _ P).
  Qed.
  Lemma raise_nil : forall fuel s, es_raise s = [] -> processRaiseSet c fuel s = Ok (Some s).
  Proof. intros [|fuel] s H; cbn [processRaiseSet]; rewrite H; reflexivity. Qed.
  Lemma batch_unfold : forall fuel st1, rfold (tsdf_block c false t) (getAllAllocatedBlocks t ++ es_updated st) cleared = Ok st1 ->
    es_raise st1 = [] -> updateFromTsdfLayerBatch c fuel t st = processOpenSet c fuel st1.
  Proof.
    intros fuel st1 R E; unfold updateFromTsdfLayerBatch, updateFromTsdfBlocks.
    cbn [es_layer with_updated with_layer removeAllBlocks with_blocks l_vps]; rewrite <- Hvps, Z.eqb_refl.
    fold (removeAllBlocks (es_layer st)); fold cleared; rewrite R; cbn [rbind]; rewrite raise_nil by exact E; reflexivity.
  Qed.

  Hypothesis Hquasi : ec_full c = false.
  (** no abort whatever the TSDF *)
  Lemma batch_no_abort : forall fuel, 25 * Z.of_nat fuel <= 2 ^ 62 -> voxel_count t <= 2 ^ 62 ->
    exists o, updateFromTsdfLayerBatch c fuel t st = Ok o.
  Proof.
    intros fuel Hf Hv62; destruct phase1 as (st1 & p & R & I & Q & E & _ & S & V & IM & O & B).
    rewrite (batch_unfold fuel st1 R E); apply (open_no_abort c vs Hc Hquasi fuel st1 p S I Q).
    assert (Z.of_nat (length p) <= voxel_count t).
    { apply (queue_bound t p Ht (proj1 O)); intros g Hg; destruct (oi_in _ _ I g Hg) as (He & v & Hv).
      rewrite (reg_at _ _ (oi_reg _ _ I) He), V, IM in Hv; destruct (vat t (adr (l_vps t) g)) as [tv|]; [eauto | discriminate]. }
    lia.
  Qed.

  Hypothesis Hcrust : ec_crust c = false.
  Hypothesis Hmulti : ec_multi c = false.
  Hypothesis Hapart : sides_apart c t.

  Lemma far_side : forall td, (outside td -> outside (far_value c td)) /\ (inside td -> inside (far_value c td)).
  Proof.
    intros td; destruct default_pos as (Fd & Pd); destruct (sgnmul_R td _ Fd) as (E & F); fold (far_value c td) in E, F.
    rewrite !outside_iff, !inside_iff; rewrite (ER_fin (far_value c td)) by exact F; rewrite E.
    split; intros (N & K); (split; [apply ffin_nnan, F|]); destruct (signum_cases td N) as [(S & R)|[(S & R)|(S & R)]]; rewrite S; lra.
  Qed.
  (** what is observed after the first phase *)
  Lemma image_observed : forall tv, e_observed (image c tv) = true ->
    seen c tv /\ (e_distance (image c tv) = t_distance tv \/ e_distance (image c tv) = far_value c (t_distance tv)) /\
    (e_fixed (image c tv) = false -> isFixed c (t_distance tv) = false /\ e_distance (image c tv) = far_value c (t_distance tv)).
  Proof.
    intros tv; unfold image, seen; rewrite Hcrust; destruct (flt (t_weight tv) (ec_min_weight c)); [discriminate|].
    intros _; split; [reflexivity|]; destruct (isFixed c (t_distance tv)); cbn [e_distance e_fixed]; split; auto; discriminate.
  Qed.
  Lemma image_side : forall tv, e_observed (image c tv) = true ->
    (outside (t_distance tv) -> outside (e_distance (image c tv))) /\ (inside (t_distance tv) -> inside (e_distance (image c tv))).
  Proof.
    intros tv H; destruct (image_observed tv H) as (_ & [-> | ->] & _); [auto | apply far_side].
  Qed.
  Lemma zero_fixed : forall td, fnan td = false -> ER td = 0%R -> isFixed c td = true.
  Proof.
    intros td N Z; unfold isFixed; apply flt_iff; destruct (vc_min _ _ Hc) as (F & P & _).
    split; [rewrite fabs_nan; exact N|]; split; [apply ffin_nnan, F|].
    assert (Ft : ffin td = true) by (pose proof max32_pos; destruct td as [s|[|]|s q Hq|s m e Hme]; try reflexivity; try discriminate; cbn [ER] in Z; lra).
    rewrite (ER_fin (ec_min c)) by exact F; rewrite (ER_fin (fabs td)) by (rewrite fabs_fin; exact Ft).
    rewrite (ER_fin td) in Z by exact Ft; rewrite fabs_R, Z, Rabs_R0; exact P.
  Qed.
  Lemma far_same : forall a b, isFixed c a = false -> isFixed c b = false -> same_side (far_value c a) (far_value c b) ->
    (outside a \/ inside a) -> (outside b \/ inside b) -> far_value c a = far_value c b.
  Proof.
    assert (SG : forall a, isFixed c a = false -> outside a -> signum a = 1).
    { intros a _ H; apply outside_iff in H; destruct H as (N & H); destruct (signum_cases a N) as [(S & R)|[(S & R)|(S & R)]]; [exact S | lra | lra]. }
    assert (SI : forall a, isFixed c a = false -> inside a -> signum a = -1).
    { intros a F H; apply inside_iff in H; destruct H as (N & H); destruct (signum_cases a N) as [(S & R)|[(S & R)|(S & R)]]; [lra | | exact S].
      rewrite zero_fixed in F by assumption; discriminate. }
    assert (X : forall a, outside (far_value c a) -> inside a -> False).
    { intros a H K; apply far_side in K; eapply side_excl; [exact H | exact K]. }
    assert (Y : forall a, inside (far_value c a) -> outside a -> False).
    { intros a H K; apply far_side in K; eapply side_excl; [exact K | exact H]. }
    intros a b Fa Fb [(S1 & S2)|(S1 & S2)] [Ha|Ha] [Hb|Hb]; try (exfalso; eauto; fail); unfold far_value, sgnmul;
      [rewrite (SG a Fa Ha), (SG b Fb Hb) | rewrite (SI a Fa Ha), (SI b Fb Hb)]; reflexivity.
  Qed.

  Lemma open_more : forall n m s s', processOpenSet c n s = Ok (Some s') -> (n <= m)%nat -> processOpenSet c m s = Ok (Some s').
  Proof.
    induction n as [|n IH]; intros [|m] s s' H Hm; try lia; try exact H; cbn [processOpenSet] in *; destruct (bq_empty (es_open s)); try exact H; try discriminate.
    apply rbind_ok in H; destruct H as (s1 & H1 & H2); rewrite H1; cbn [rbind]; apply (IH m s1 s' H2); lia.
  Qed.

  Lemma batch_total : exists n st', (forall fuel, (n <= fuel)%nat -> updateFromTsdfLayerBatch c fuel t st = Ok (Some st')) /\
    idle c st' /\ es_updated st' = [] /\ regular (es_layer st') /\ l_size (es_layer st') = vs /\ l_vps (es_layer st') = l_vps t /\
    parents_ok c vs (es_layer st') /\ separated (es_layer st') /\ (forall g off, imp c (es_layer st') g off -> False) /\
    exists L : Layer KEsdf, (forall a, vat L a = option_map (image c) (vat t a)) /\ lift_rel (k := KEsdf) sided L (es_layer st') /\ lift_rel (k := KEsdf) touched L (es_layer st').
  Proof.
    destruct phase1 as (st1 & p & R & I & Q & E & U & S & V & IM & O & B).
    assert (GET : forall g v, exact_index g -> at_index (es_layer st1) g = Some v -> exists tv : TsdfVoxel, at_index t g = Some tv /\ v = image c tv).
    { intros g v He Hv; rewrite (reg_at _ _ (oi_reg _ _ I) He), V, IM in Hv; rewrite (reg_at _ _ Ht He).
      destruct (vat t (adr (l_vps t) g)) as [tv|]; [|discriminate]; injection Hv as <-; eauto. }
    assert (NEXT : forall g off kd v, In (off, kd) neighbors26 -> exact_index g -> at_index (es_layer st1) g = Some v -> exact_index (idx_add g off)).
    { intros g off kd v Hin He Hv; rewrite (reg_at _ _ (oi_reg _ _ I) He) in Hv; apply (at_exact _ _ _ _ (oi_reg _ _ I) Hv), (off_small _ _ Hin). }
    assert (SIDES : forall g off kd v nv, In (off, kd) neighbors26 -> exact_index g -> at_index (es_layer st1) g = Some v ->
      at_index (es_layer st1) (idx_add g off) = Some nv -> e_observed v = true -> e_observed nv = true -> e_fixed nv = false ->
      exists tu tw : TsdfVoxel, v = image c tu /\ nv = image c tw /\ ((outside (t_distance tu) /\ outside (t_distance tw)) \/ (inside (t_distance tu) /\ inside (t_distance tw)))).
    { intros g off kd v nv Hin He Hv Hnv Ov On Fn.
      destruct (GET g v He Hv) as (tu & U1 & ->); destruct (GET _ nv (NEXT _ _ _ _ Hin He Hv) Hnv) as (tw & W1 & ->).
      exists tu, tw; split; [reflexivity|]; split; [reflexivity|].
      destruct (image_observed tu Ov) as (S1 & _); destruct (image_observed tw On) as (S2 & _ & F2).
      apply (Hapart g off (fmul kd (l_size t)) tu tw); auto; [exists kd; auto | apply F2, Fn]. }
    assert (SEP : separated (es_layer st1)).
    { intros g off kd v nv Hin He Hv Hnv Ov On Fn; destruct (SIDES g off kd v nv Hin He Hv Hnv Ov On Fn) as (tu & tw & -> & -> & [(A & D)|(A & D)]);
        [left | right]; split; apply image_side; assumption. }
    assert (PAR : parents_ok c vs (es_layer st1)).
    { intros g off kd w Hin _ He Hw Hp; destruct (GET _ w He Hw) as (tw & _ & ->); rewrite image_parent in Hp.
      exfalso; apply (proj2 (off_small _ _ Hin)); apply idx_opp_inj; rewrite <- Hp; reflexivity. }
    assert (ROOT : forall g v, inq p g -> at_index (es_layer st1) g = Some v -> rooted v).
    { intros g v Hg Hv; destruct (proj2 O g Hg) as (w & W1 & W2); rewrite Hv in W1; injection W1 as <-.
      destruct (GET g v (proj1 (oi_in _ _ I g Hg)) Hv) as (tv & _ & ->); left; rewrite <- image_queue; exact W2. }
    assert (IMP : forall g off, imp c (es_layer st1) g off -> inq p g).
    { intros g off (kd & v & nv & Hin & He & Hv & Hnv & Ov & _ & On & Fn & Hi).
      destruct (e_fixed v) eqn:Fv.
      - destruct (GET g v He Hv) as (tu & _ & ->); apply (oi_flag _ _ I g (image c tu) He Hv); rewrite image_queue; exact Fv.
      - exfalso; destruct (SIDES g off kd v nv Hin He Hv Hnv Ov On Fn) as (tu & tw & -> & -> & HS).
        destruct (image_observed tu Ov) as (_ & _ & F1); destruct (image_observed tw On) as (_ & _ & F2).
        destruct (F1 Fv) as (F3 & D1), (F2 Fn) as (F4 & D2).
        rewrite D1, D2 in Hi; rewrite (far_same _ _ F3 F4) in Hi; [| | destruct HS as [(? & ?)|(? & ?)]; auto | destruct HS as [(? & ?)|(? & ?)]; auto].
        + rewrite (improves_self c _ _ (Hmd c vs Hc)) in Hi; [discriminate|]; rewrite S; apply (step_ok c vs Hc off kd Hin).
        + destruct HS as [(A & D)|(A & D)]; [left | right]; split; apply far_side; assumption. }
    destruct (open_ends c vs Hc Hquasi (Z.to_nat (measure (es_layer st1) p)) st1 p S I Q SEP Hmulti O) as (st' & p' & P1 & P2 & P3 & P7 & P4).
    - exists KTsdf, t; split; [exact Ht|]; split; [congruence|]; split; [exact Hcount|].
      intros a v Hv; rewrite IM in Hv; destruct (vat t a) as [tv|]; [eauto | discriminate].
    - rewrite Z2Nat.id; [lia|]; unfold measure; pose proof (mass_nonneg (es_layer st1)); lia.
    - subst p'; exists (Z.to_nat (measure (es_layer st1) p)), st'; split.
      { intros fuel Hf; rewrite (batch_unfold fuel st1 R E); eapply open_more; eassumption. }
      pose proof (writes_shape _ _ _ _ (rn_writes _ _ _ _ _ _ P2)) as SH.
      split; [apply empty_idle; [apply P2 | apply P2 | rewrite (rn_raise _ _ _ _ _ _ P2); exact E]|].
      split; [rewrite (rn_updated _ _ _ _ _ _ P2); exact U|]; split; [apply (oi_reg _ _ (rn_inv _ _ _ _ _ _ P2))|].
      split; [rewrite (proj1 SH); exact S|]; split; [rewrite (proj1 (proj2 SH)); exact V|].
      split; [apply (P7 SEP (conj PAR ROOT))|].
      split; [apply (ran_separated c vs Hc Hquasi _ _ _ _ P2 SEP)|].
      split.
      + destruct (processOpenSet_steps _ _ _ _ P1) as (P5 & P6).
        destruct (steps_oinv c Hquasi (Hmd c vs Hc) st1 st' P5 p) as (p2 & I2 & _ & M2); auto; [rewrite S; apply (Hgs c vs Hc)|].
        intros g off Hi; specialize (M2 g off Hi).
        assert (EP : p2 = []) by (rewrite (empty_ok _ _ (oi_q _ _ I2)) in P6; destruct p2; [reflexivity | discriminate]).
        subst p2; destruct M2 as (b & []).
      + exists (es_layer st1); split; [exact IM|]; split.
        * eapply writes_sided; [exact Hquasi | apply (Hgs c vs Hc) | apply (rn_writes _ _ _ _ _ _ P2)].
        * eapply writes_touched; [exact Hquasi | apply (rn_writes _ _ _ _ _ _ P2)].
  Qed.
End Total.
