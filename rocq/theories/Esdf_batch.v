(** The first phase of a batch update: what one TSDF voxel, one block and a list of
    blocks do to the ESDF layer. *)
From Coq Require Import ZArith List Bool Lia Reals Lra.
From Verif Require Import F32 F32_lemmas Types Index Neighbor Voxel Serialize Assoc Assoc_lemmas Layer Threads
  Index_proofs Queue Queue_spec Queue_proofs Planning Esdf Esdf_spec Esdf_proofs Esdf_float Esdf_grid Esdf_open Connect_proofs.
Import ListNotations.
Open Scope Z_scope.
Ltac Zify.zify_post_hook ::= idtac.

(** what the first phase makes of a TSDF voxel *)
Definition image (c : econfig) (tv : TsdfVoxel) : EsdfVoxel :=
  if flt (t_weight tv) (ec_min_weight c) then
    if ec_crust c then MkEsdf (fneg (ec_default c)) true true false false zero3 else vdefault KEsdf
  else if isFixed c (t_distance tv) then MkEsdf (t_distance tv) true false true true zero3
  else MkEsdf (far_value c (t_distance tv)) true false false false zero3.
(** the global index of a voxel of a block *)
Definition glob (vps : Z) (bi vi : idx3) : idx3 := getGlobalVoxelIndexFromBlockAndVoxelIndex bi vi vps.
Lemma div_glob : forall v b r, 0 <= r < v -> (b * v + r) / v = b /\ (b * v + r) mod v = r.
Proof.
  intros v b r H; split.
  - rewrite Z.div_add_l, Z.div_small by lia; lia.
  - rewrite Z.add_comm, Z_mod_plus_full, Z.mod_small by lia; reflexivity.
Qed.
Lemma adr_glob : forall v bi vi, 0 < v -> all3 (fun c => 0 <= c < v) vi ->
  adr v (glob v bi vi) = (bi, Z.to_nat (computeLinearIndexFromVoxelIndex v vi)).
Proof.
  intros v [b1 b2 b3] [v1 v2 v3] Hv (H1 & H2 & H3); cbn [vx vy vz] in *; unfold adr, glob, getGlobalVoxelIndexFromBlockAndVoxelIndex.
  unfold zip3, map3; cbn [vx vy vz].
  destruct (div_glob v b1 v1 H1) as (-> & ->), (div_glob v b2 v2 H2) as (-> & ->), (div_glob v b3 v3 H3) as (-> & ->); reflexivity.
Qed.
Lemma lin_index : forall v lin, 0 < v <= 1024 -> (lin < num_voxels v)%nat -> exists vi,
  computeVoxelIndexFromLinearIndex v (Z.of_nat lin) = Some vi /\ forall bi, adr v (glob v bi vi) = (bi, lin).
Proof.
  intros v lin Hv Hl; pose proof (cube_small v Hv) as HC; rewrite num_voxels_reg in Hl by exact Hv.
  destruct (linear_inverse v (Z.of_nat lin)) as (vi & E1 & E2 & E3); try lia.
  exists vi; split; [exact E1|]; intros bi; rewrite adr_glob by (auto; lia); rewrite E3, Nat2Z.id; reflexivity.
Qed.

Section Batch.
  Variable c : econfig.
  Hypothesis Hmd : small_pos (ec_min_diff c).
  Hypothesis Hdef : ffin (ec_default c) = true /\ (0 < FR (ec_default c))%R.

  Lemma signum_far : forall td, signum (far_value c td) = signum td.
  Proof.
    intros td; unfold far_value; destruct Hdef as (Fd & Pd); destruct (sgnmul_R td _ Fd) as (E & F).
    assert (N : fnan (sgnmul td (ec_default c)) = false) by (apply ffin_nnan, F).
    destruct (signum_cases _ N) as [(S & R)|[(S & R)|(S & R)]]; rewrite S; rewrite (ER_fin (sgnmul td (ec_default c))) in R by exact F; rewrite E in R;
      pose proof (signum_abs td) as HA; assert (HZ : signum td = 1 \/ signum td = 0 \/ signum td = -1) by lia;
      destruct HZ as [HZ|[HZ|HZ]]; rewrite HZ in *; try reflexivity; exfalso; cbn in R; lra.
  Qed.
  Lemma no_change : forall td, lowers c td td = false /\ raises c td td = false.
  Proof.
    intros td; unfold lowers, raises, fgt; rewrite (slack_self_lt td _ Hmd), (slack_self_gt td _ Hmd), !andb_false_r; auto.
  Qed.

  (** one voxel: the new layer, and whether the voxel is pushed *)
  Lemma vox_step : forall bi (st : estate) lin (tv : TsdfVoxel) (v : EsdfVoxel) vi,
    vat (es_layer st) (bi, lin) = Some v -> v = vdefault KEsdf \/ v = image c tv ->
    computeVoxelIndexFromLinearIndex (l_vps (es_layer st)) (Z.of_nat lin) = Some vi ->
    exists L' (psh : bool), same_shape (es_layer st) L' /\
      (forall a, vat L' a = if addr_dec a (bi, lin) then Some (image c tv) else vat (es_layer st) a) /\
      (psh = true -> v <> image c tv /\ e_fixed (image c tv) = true /\ flt (t_weight tv) (ec_min_weight c) = false /\ isFixed c (t_distance tv) = true) /\
      (psh = false -> e_fixed (image c tv) = true -> v = image c tv) /\
      tsdf_voxel c false bi st (lin, tv) =
      rbind (if psh then bq_push (es_open st) (glob (l_vps (es_layer st)) bi vi) (f64_of_f32 (t_distance tv)) else Ok (es_open st))
        (fun q => Ok (MkES L' q (es_raise st) (es_updated st))).
  Proof.
    intros bi st lin tv v vi Hv Hc Hvi.
    assert (SET : forall (L : Layer KEsdf) w w', vat L (bi, lin) = Some w -> forall a, vat (vset L (bi, lin) w') a = if addr_dec a (bi, lin) then Some w' else vat L a)
      by (intros L w w' Hw a; apply (vat_vset L (bi, lin) w' w a Hw)).
    assert (G : forall L w, vat L (bi, lin) = Some w -> vget (k := KEsdf) L (bi, lin) = Ok w)
      by (intros L w Hw; unfold vget; rewrite Hw; reflexivity).
    unfold tsdf_voxel, image in *; destruct (flt (t_weight tv) (ec_min_weight c)) eqn:Ew.
    - cbn [negb andb]; destruct (ec_crust c) eqn:Ec.
      + rewrite (G _ _ Hv); cbn [rbind]; eexists; exists false; split; [|split; [|split; [|split]]].
        5: reflexivity.
        * apply shape_vset.
        * intros a; rewrite (SET _ v) by exact Hv; destruct (addr_dec a (bi, lin)); [|reflexivity].
          f_equal; destruct Hc as [-> | ->]; reflexivity.
        * discriminate.
        * discriminate.
      + exists (es_layer st), false; split; [apply shape_refl|]; split; [|split; [discriminate|split; [discriminate|]]].
        * intros a; destruct (addr_dec a (bi, lin)) as [->|]; [|reflexivity]; rewrite Hv; f_equal; destruct Hc as [-> | ->]; reflexivity.
        * destruct st; reflexivity.
    - rewrite (G _ _ Hv), Hvi; cbn [rbind of_opt]; fold (glob (l_vps (es_layer st)) bi vi).
      destruct (isFixed c (t_distance tv)) eqn:Ef.
      + destruct Hc as [-> | ->].
        * cbn [e_observed e_hallucinated vdefault negb orb]; unfold new_voxel; cbn [e_hallucinated]; rewrite Ef.
          set (w0 := ev_fixed (ev_dist (MkEsdf f0 false false false false (V3 0 0 0)) (t_distance tv)) true).
          set (L1 := vset (k := KEsdf) (es_layer st) (bi, lin) w0).
          assert (H1 : vat L1 (bi, lin) = Some w0) by (apply vat_vset_same with (1 := Hv)).
          set (L2 := vset (k := KEsdf) L1 (bi, lin) (ev_queue w0 true)).
          assert (H2 : vat L2 (bi, lin) = Some (ev_queue w0 true)) by (apply vat_vset_same with (1 := H1)).
          set (L3 := vset (k := KEsdf) L2 (bi, lin) (ev_parent (ev_queue w0 true) zero3)).
          assert (H3 : vat L3 (bi, lin) = Some (ev_parent (ev_queue w0 true) zero3)) by (apply vat_vset_same with (1 := H2)).
          exists (vset (k := KEsdf) L3 (bi, lin) (ev_seen (ev_parent (ev_queue w0 true) zero3) true false)), true.
          split; [|split; [|split; [|split]]].
          { eapply shape_trans; [|apply shape_vset]; eapply shape_trans; [|apply shape_vset]; eapply shape_trans; apply shape_vset. }
          { intros a; rewrite (SET _ _ _ H3); destruct (addr_dec a (bi, lin)) as [->|N]; [reflexivity|].
            unfold L3; rewrite (SET _ _ _ H2); destruct (addr_dec a (bi, lin)); [contradiction|].
            unfold L2; rewrite (SET _ _ _ H1); destruct (addr_dec a (bi, lin)); [contradiction|].
            unfold L1; rewrite (SET _ _ _ Hv); destruct (addr_dec a (bi, lin)); [contradiction|]; reflexivity. }
          { intros _; split; [discriminate | auto]. }
          { discriminate. }
          cbv zeta; fold w0; unfold queue_voxel; change (es_layer (st_set st (bi, lin) w0)) with L1; rewrite (G _ _ H1); cbn [rbind]; cbv zeta.
          unfold open_push; change (es_open (st_set (st_set st (bi, lin) w0) (bi, lin) (ev_queue w0 true))) with (es_open st).
          change (e_distance w0) with (t_distance tv).
          destruct (bq_push (es_open st) _ _) as [q| |]; cbn [rbind]; [|reflexivity|reflexivity].
          cbn [es_layer with_open st_set with_layer].
          fold L1; fold L2; rewrite (G _ _ H2); cbn [rbind es_layer st_set with_layer with_open]; fold L1; fold L2; fold L3; rewrite (G _ _ H3); reflexivity.
        * cbn [e_observed e_hallucinated negb orb]; unfold old_voxel; rewrite Ef; cbn [orb negb e_distance].
          destruct (no_change (t_distance tv)) as (-> & ->); cbn [rbind]; rewrite (G _ _ Hv); cbn [rbind].
          eexists; exists false; split; [|split; [|split; [|split]]].
          5: reflexivity.
          { apply shape_vset. }
          { intros a; rewrite (SET _ _ _ Hv); destruct (addr_dec a (bi, lin)); reflexivity. }
          { discriminate. }
          { auto. }
      + destruct Hc as [-> | ->].
        * cbn [e_observed e_hallucinated vdefault negb orb]; unfold new_voxel; cbn [e_hallucinated]; rewrite Ef.
          set (w0 := ev_fixed (ev_dist (MkEsdf f0 false false false false (V3 0 0 0)) (far_value c (t_distance tv))) false).
          set (L1 := vset (k := KEsdf) (es_layer st) (bi, lin) w0).
          assert (H1 : vat L1 (bi, lin) = Some w0) by (apply vat_vset_same with (1 := Hv)).
          set (L2 := vset (k := KEsdf) L1 (bi, lin) (ev_parent w0 zero3)).
          assert (H2 : vat L2 (bi, lin) = Some (ev_parent w0 zero3)) by (apply vat_vset_same with (1 := H1)).
          exists (vset (k := KEsdf) L2 (bi, lin) (ev_seen (ev_parent w0 zero3) true false)), false.
          split; [|split; [|split; [|split]]].
          { eapply shape_trans; [|apply shape_vset]; eapply shape_trans; apply shape_vset. }
          { intros a; rewrite (SET _ _ _ H2); destruct (addr_dec a (bi, lin)) as [->|N]; [reflexivity|].
            unfold L2; rewrite (SET _ _ _ H1); destruct (addr_dec a (bi, lin)); [contradiction|].
            unfold L1; rewrite (SET _ _ _ Hv); destruct (addr_dec a (bi, lin)); [contradiction|]; reflexivity. }
          { discriminate. }
          { discriminate. }
          cbv zeta; fold w0; cbn [rbind es_layer st_set with_layer]; fold L1; rewrite (G _ _ H1); cbn [rbind es_layer st_set with_layer].
          fold L1; fold L2; rewrite (G _ _ H2); reflexivity.
        * cbn [e_observed e_hallucinated negb orb]; unfold old_voxel; rewrite Ef; cbn [orb negb e_distance e_fixed].
          rewrite signum_far, Z.eqb_refl; cbn [negb rbind]; rewrite (G _ _ Hv); cbn [rbind].
          eexists; exists false; split; [|split; [|split; [|split]]].
          5: reflexivity.
          { apply shape_vset. }
          { intros a; rewrite (SET _ _ _ Hv); destruct (addr_dec a (bi, lin)); reflexivity. }
          { discriminate. }
          { discriminate. }
  Qed.

  (** ** Layers built so far *)
  Definition linked (t : Layer KTsdf) (L : Layer KEsdf) : Prop :=
    forall a v, vat L a = Some v -> exists tv, vat t a = Some tv /\ (v = vdefault KEsdf \/ v = image c tv).
  (** every voxel of these blocks is done *)
  Definition done (t : Layer KTsdf) (L : Layer KEsdf) (bi : idx3) : Prop :=
    forall lin tv, vat t (bi, lin) = Some tv -> vat L (bi, lin) = Some (image c tv).
  Definition grows (t : Layer KTsdf) (L L' : Layer KEsdf) : Prop :=
    forall a tv, vat t a = Some tv -> vat L a = Some (image c tv) -> vat L' a = Some (image c tv).

  Lemma voxels_partial : forall (t : Layer KTsdf) bi tb (tvs : list TsdfVoxel) s st st', regular t -> l_vps (es_layer st) = l_vps t -> l_get t bi = Some tb ->
    (forall n tv, nth_error tvs n = Some tv -> vat t (bi, (s + n)%nat) = Some tv) ->
    (forall n, (n < s + length tvs)%nat -> vat (es_layer st) (bi, n) <> None) ->
    linked t (es_layer st) ->
    rfold (tsdf_voxel c false bi) (combine (seq s (length tvs)) tvs) st = Ok st' ->
    same_shape (es_layer st) (es_layer st') /\ linked t (es_layer st') /\ grows t (es_layer st) (es_layer st') /\
    es_raise st' = es_raise st /\ es_updated st' = es_updated st /\
    (forall n tv, nth_error tvs n = Some tv -> vat (es_layer st') (bi, (s + n)%nat) = Some (image c tv)).
  Proof.
    intros t bi tb tvs; induction tvs as [|tv tvs IH]; intros s st st' HR HV Hb Ht Hn HL H; cbn [length seq combine rfold] in *.
    - injection H as <-; split; [apply shape_refl|]; split; [exact HL|]; split; [intros a tv _ E; exact E|].
      split; [reflexivity|]; split; [reflexivity|]; intros [|n] tv E; discriminate.
    - apply rbind_ok in H; destruct H as (st1 & H1 & H).
      destruct (vat (es_layer st) (bi, s)) as [v|] eqn:Ev; [|exfalso; apply (Hn s); [lia | exact Ev]].
      pose proof (Ht 0%nat tv eq_refl) as Etv; rewrite Nat.add_0_r in Etv.
      destruct (HL _ _ Ev) as (tv' & E' & Hc); rewrite Etv in E'; injection E' as <-.
      assert (Hs : (s < num_voxels (l_vps (es_layer st)))%nat).
      { rewrite HV; destruct (reg_block _ HR _ _ Hb) as (_ & E & _); rewrite <- E; apply nth_error_Some.
        unfold vat in Etv; cbn [fst snd] in Etv; rewrite Hb in Etv; congruence. }
      destruct (lin_index (l_vps (es_layer st)) s) as (vi & Evi & _); [rewrite HV; apply reg_vps_small, HR | exact Hs |].
      destruct (vox_step bi st s tv v vi Ev Hc Evi) as (L' & psh & S1 & S2 & _ & _ & S5).
      rewrite S5 in H1; apply rbind_ok in H1; destruct H1 as (q & _ & H1); injection H1 as <-.
      set (st1 := MkES L' q (es_raise st) (es_updated st)) in *.
      destruct (IH (S s) st1 st' HR) as (A1 & A2 & A3 & A4 & A5 & A6); auto.
      + cbn [es_layer st1]; rewrite (proj1 (proj2 S1)); exact HV.
      + intros n tw Hw; rewrite <- (Ht (S n) tw Hw); f_equal; f_equal; lia.
      + intros n Hlt K; cbn [es_layer st1] in K; rewrite S2 in K; destruct (addr_dec (bi, n) (bi, s)); [discriminate|].
        apply (Hn n); [lia | exact K].
      + intros a w Hw; cbn [es_layer st1] in Hw; rewrite S2 in Hw; destruct (addr_dec a (bi, s)) as [->|].
        * exists tv; split; [exact Etv|]; right; congruence.
        * apply HL, Hw.
      + split; [eapply shape_trans; [exact S1 | exact A1]|]; split; [exact A2|]; split; [|split; [exact A4|]; split; [exact A5|]].
        * intros a tw Ew Ea; apply A3; [exact Ew|]; cbn [es_layer st1]; rewrite S2; destruct (addr_dec a (bi, s)) as [->|]; [congruence | exact Ea].
        * intros [|n] tw Hw; cbn [nth_error] in Hw.
          { injection Hw as <-; rewrite Nat.add_0_r; apply A3; [exact Etv|]; cbn [es_layer st1]; rewrite S2.
            destruct (addr_dec (bi, s) (bi, s)); [reflexivity | contradiction]. }
          { rewrite <- (A6 n tw Hw); f_equal; f_equal; lia. }
  Qed.

  (** the block the phase works in *)
  Definition opened (L : Layer KEsdf) (bi : idx3) : Layer KEsdf :=
    set_block (allocateBlockPtrByIndex L bi) bi (set_updated upd_bool_true).
  Lemma opened_get : forall L bi j, l_get (opened L bi) j =
    if idx_eqb j bi then Some (set_updated upd_bool_true (match l_get L bi with Some b => b
        | None => new_block (l_vps L) (l_size L) (new_block_origin (l_vps L) (l_size L) bi) end))
    else l_get L j.
  Proof.
    intros L bi j; unfold opened; rewrite set_block_get; unfold allocateBlockPtrByIndex, allocateNewBlock.
    destruct (idx_eqb j bi) eqn:E.
    - destruct (l_get L bi) as [b|] eqn:Eb; [rewrite Eb; reflexivity|].
      unfold l_get, with_blocks; cbn [l_blocks]; rewrite alookup_ainsert; unfold l_get in Eb; rewrite Eb, idx_eqb_refl; reflexivity.
    - destruct (l_get L bi) as [b|] eqn:Eb; [reflexivity|].
      unfold l_get, with_blocks; cbn [l_blocks]; rewrite alookup_ainsert, E; unfold l_get.
      destruct (alookup j (l_blocks L)); reflexivity.
  Qed.
  Lemma opened_dims : forall L bi, l_size (opened L bi) = l_size L /\ l_vps (opened L bi) = l_vps L.
  Proof.
    intros L bi; unfold opened, set_block, allocateBlockPtrByIndex, allocateNewBlock.
    destruct (l_get L bi) as [b|] eqn:E; [rewrite E; split; reflexivity|].
    match goal with |- context [l_get ?m bi] => destruct (l_get m bi) end; split; reflexivity.
  Qed.
  Lemma opened_vat : forall L bi a, vat (opened L bi) a =
    if idx_eqb (fst a) bi then match l_get L bi with Some _ => vat L a
                               | None => nth_error (repeat (vdefault KEsdf) (num_voxels (l_vps L))) (snd a) end
    else vat L a.
  Proof.
    intros L bi (i, n); unfold vat; cbn [fst snd]; rewrite opened_get; destruct (idx_eqb_spec i bi) as [->|]; [|reflexivity].
    destruct (l_get L bi); reflexivity.
  Qed.
  Lemma nth_repeat_some : forall A (x : A) n i y, nth_error (repeat x n) i = Some y -> y = x /\ (i < n)%nat.
  Proof.
    intros A x n i y H; split; [apply nth_error_In, repeat_spec in H; exact H|].
    rewrite <- (repeat_length x n); apply nth_error_Some; congruence.
  Qed.

  Definition same_dims (t : Layer KTsdf) (L : Layer KEsdf) : Prop := l_vps L = l_vps t.
  Record built (t : Layer KTsdf) (L : Layer KEsdf) : Prop := MkBuilt {
    bl_reg : regular L;
    bl_vps : l_vps L = l_vps t;
    bl_link : linked t L }.
  Lemma opened_built : forall t L bi tb, regular t -> l_get t bi = Some tb -> built t L -> built t (opened L bi).
  Proof.
    intros t L bi tb HR Hb [B1 B2 B3]; destruct (opened_dims L bi) as (D1 & D2); constructor.
    - constructor; rewrite D2; [apply B1|].
      intros i b Hi; rewrite opened_get in Hi; destruct (idx_eqb_spec i bi) as [->|]; [|apply (reg_block _ B1 _ _ Hi)].
      injection Hi as <-; destruct (l_get L bi) as [b|] eqn:Eb; [apply (reg_block _ B1 _ _ Eb)|].
      cbn [b_vps b_voxels set_updated new_block]; split; [reflexivity|]; split; [apply repeat_length|].
      rewrite B2; apply (reg_block _ HR _ _ Hb).
    - congruence.
    - intros a v Hv; rewrite opened_vat in Hv; destruct (idx_eqb_spec (fst a) bi) as [<-|]; [|apply B3, Hv].
      destruct (l_get L (fst a)) eqn:El; [apply B3, Hv|].
      apply nth_repeat_some in Hv; destruct Hv as (-> & Hv).
      destruct (reg_block _ HR _ _ Hb) as (_ & E & _); rewrite <- B2 in E.
      destruct (nth_error (b_voxels tb) (snd a)) as [tv|] eqn:Etv.
      + exists tv; split; [unfold vat; rewrite Hb; exact Etv | left; reflexivity].
      + apply nth_error_None in Etv; lia.
  Qed.
  Lemma opened_grows : forall t L bi, grows t L (opened L bi).
  Proof.
    intros t L bi (i, n) tv Ht Hv; rewrite opened_vat; cbn [fst]; destruct (idx_eqb_spec i bi) as [->|]; [|exact Hv].
    destruct (l_get L bi) eqn:E; [exact Hv|]; unfold vat in Hv; cbn [fst] in Hv; rewrite E in Hv; discriminate.
  Qed.

  Lemma block_partial : forall t bi st st', regular t -> built t (es_layer st) ->
    tsdf_block c false t st bi = Ok st' ->
    built t (es_layer st') /\ grows t (es_layer st) (es_layer st') /\ es_raise st' = es_raise st /\ es_updated st' = es_updated st /\
    l_size (es_layer st') = l_size (es_layer st) /\ done t (es_layer st') bi.
  Proof.
    intros t bi st st' HR HB H; unfold tsdf_block in H; destruct (l_get t bi) as [tb|] eqn:Eb.
    2: { injection H as <-; split; [exact HB|]; split; [intros a tv _ E; exact E|]; repeat split; auto.
         intros lin tv E; unfold vat in E; cbn [fst] in E; rewrite Eb in E; discriminate. }
    cbv zeta in H; fold (opened (es_layer st) bi) in H.
    pose proof (opened_built t (es_layer st) bi tb HR Eb HB) as HB'.
    assert (HN : forall n, (n < 0 + length (b_voxels tb))%nat -> vat (opened (es_layer st) bi) (bi, n) <> None).
    { intros n Hn K; unfold vat in K; cbn [fst snd] in K; rewrite opened_get, idx_eqb_refl in K.
      pose proof (opened_get (es_layer st) bi bi) as G; rewrite idx_eqb_refl in G.
      destruct (reg_block _ (bl_reg _ _ HB') _ _ G) as (_ & E & _); apply nth_error_None in K.
      destruct (reg_block _ HR _ _ Eb) as (_ & E' & _); rewrite (bl_vps _ _ HB') in E; lia. }
    destruct (voxels_partial t bi tb (b_voxels tb) 0 (with_layer st (opened (es_layer st) bi)) st') as (A1 & A2 & A3 & A4 & A5 & A6); auto.
    - exact (bl_vps _ _ HB').
    - intros n tv Hn; unfold vat; cbn [fst snd]; rewrite Eb; exact Hn.
    - exact (bl_link _ _ HB').
    - cbn [es_layer with_layer] in *; split; [|split; [|repeat split; auto]].
      + constructor; [eapply reg_shape; [exact A1 | exact (bl_reg _ _ HB')] | rewrite (proj1 (proj2 A1)); exact (bl_vps _ _ HB') | exact A2].
      + intros a tv Ht Hv; apply A3; [exact Ht|]; apply (opened_grows t (es_layer st) bi a tv); assumption.
      + rewrite (proj1 A1); apply opened_dims.
      + intros lin tv Hl; apply (A6 lin); unfold vat in Hl; cbn [fst snd] in Hl; rewrite Eb in Hl; exact Hl.
  Qed.
  Lemma blocks_partial : forall t blocks st st', regular t -> built t (es_layer st) ->
    rfold (tsdf_block c false t) blocks st = Ok st' ->
    built t (es_layer st') /\ grows t (es_layer st) (es_layer st') /\ es_raise st' = es_raise st /\ es_updated st' = es_updated st /\
    l_size (es_layer st') = l_size (es_layer st) /\ (forall bi, In bi blocks -> done t (es_layer st') bi).
  Proof.
    intros t blocks; induction blocks as [|b bs IH]; intros st st' HR HB H; cbn [rfold] in H.
    - injection H as <-; split; [exact HB|]; split; [intros a tv _ E; exact E|]; repeat split; auto; intros bi [].
    - apply rbind_ok in H; destruct H as (st1 & H1 & H).
      destruct (block_partial t b st st1 HR HB H1) as (A1 & A2 & A3 & A4 & A5 & A6).
      destruct (IH st1 st' HR A1 H) as (B1 & B2 & B3 & B4 & B5 & B6).
      split; [exact B1|]; split; [intros a tv Ht Hv; apply B2; [exact Ht|]; apply A2; assumption|].
      repeat split; try congruence.
      intros bi [<-|Hin]; [|apply B6, Hin].
      intros lin tv Hl; apply B2; [exact Hl | apply A6, Hl].
  Qed.
  (** starting from no blocks, going through all blocks of the TSDF: the ESDF layer
      is the image of the TSDF layer *)
  Lemma batch_image : forall t st st' more, regular t -> l_vps (es_layer st) = l_vps t ->
    rfold (tsdf_block c false t) (getAllAllocatedBlocks t ++ more) (with_updated (with_layer st (removeAllBlocks (es_layer st))) []) = Ok st' ->
    regular (es_layer st') /\ l_vps (es_layer st') = l_vps t /\ l_size (es_layer st') = l_size (es_layer st) /\
    es_raise st' = es_raise st /\
    forall a, vat (es_layer st') a = option_map (image c) (vat t a).
  Proof.
    intros t st st' more HR HV H.
    assert (HB0 : built t (removeAllBlocks (es_layer st))).
    { cbn [es_layer with_updated with_layer]; constructor.
      + constructor; cbn [removeAllBlocks with_blocks l_vps]; [rewrite HV; apply HR|].
        intros i b Hi; discriminate.
      + exact HV.
      + intros a v Hv; discriminate. }
    destruct (blocks_partial t _ (with_updated (with_layer st (removeAllBlocks (es_layer st))) []) st' HR HB0 H) as (B1 & B2 & B3 & B4 & B5 & B6).
    - split; [apply B1|]; split; [apply B1|]; split; [exact B5|]; split; [exact B3|].
      intros (bi, lin); destruct (vat t (bi, lin)) as [tv|] eqn:Et; cbn [option_map].
      + apply B6; [|exact Et]; apply in_app_iff; left; unfold getAllAllocatedBlocks; apply akeys_In.
        unfold vat in Et; cbn [fst] in Et; destruct (l_get t bi) as [tb|] eqn:E; [exists tb; exact E | discriminate].
      + destruct (vat (es_layer st') (bi, lin)) as [v|] eqn:Ev; [|reflexivity].
        destruct (bl_link _ _ B1 _ _ Ev) as (tv & E & _); congruence.
  Qed.
End Batch.
