(** The first phase of an update from an occupancy layer, and what the whole update computes. *)
From Coq Require Import ZArith List Bool Lia Reals Lra.
From Flocq Require Import Core Binary.
From Verif Require Import F32 F32_lemmas Types Index Neighbor Voxel Assoc Assoc_lemmas Layer Threads Threads_proofs
  Index_proofs Queue Queue_spec Queue_proofs Planning Esdf Esdf_spec Esdf_proofs Esdf_float Esdf_range Esdf_grid Esdf_open Esdf_batch Esdf_term
  Sphere_proofs EsdfOcc EsdfOcc_spec EsdfOcc_view EsdfOcc_proofs.
Import ListNotations.
Open Scope Z_scope.
Ltac Zify.zify_post_hook ::= idtac.

Section Start.
  Variables (c : ocfg) (vs : f32) (occ : Layer KOcc).
  Notation V := (l_vps occ).
  Hypothesis HS : occ_settings c vs.
  Hypothesis HT : tidy occ.
  Hypothesis Hroom : voxel_count occ <= 2 ^ 63.
  Let HV : 0 < V <= 1024 := td_vps _ HT.

  Definition img (o : OccupancyVoxel) : EsdfVoxel := if o_observed o then occ_image c o (vdefault KEsdf) else vdefault KEsdf.
  Record stage (dn : addr -> Prop) (bs : list idx3) (st : ostate) (p : pending) : Prop := MkStage {
    s_shape : shaped vs V (os_layer st);
    s_q : oqueue c V (os_open st) p;
    s_blocks : forall i, l_get (os_layer st) i <> None <-> In i bs;
    s_in : forall i, In i bs -> l_get occ i <> None;
    s_val : forall a v, vat (os_layer st) a = Some v -> exists o : OccupancyVoxel, vat occ a = Some o /\ ((v = vdefault KEsdf /\ ~ dn a) \/ (v = img o /\ dn a));
    s_once : NoDup (map snd p);
    s_pend : forall b g, In (b, g) p <-> b = 0 /\ In (fst (adr V g)) bs /\ dn (adr V g) /\ exists o : OccupancyVoxel, vat occ (adr V g) = Some o /\ occupied o }.

  Lemma stage_ext dn dn' bs st p : (forall a o, In (fst a) bs -> vat occ a = Some o -> (dn a <-> dn' a)) -> stage dn bs st p -> stage dn' bs st p.
  Proof.
    intros E [A B C D F G H]. constructor; auto.
    - intros a v Ea. destruct (F a v Ea) as (o & Eo & K). exists o. split; [exact Eo|].
      assert (I : In (fst a) bs) by (apply C; unfold vat in Ea; destruct (l_get (os_layer st) (fst a)); [discriminate|discriminate]).
      rewrite <- (E a o I Eo). exact K.
    - intros b g. rewrite H. split; intros (E0 & I & K & o & Eo & Oo); (split; [exact E0|]); (split; [exact I|]); (split; [|exists o; auto]); apply (E _ o I Eo); exact K.
  Qed.
  Lemma stage_room dn bs st p : stage dn bs st p -> Z.of_nat (length p) <= 2 ^ 63.
  Proof.
    intros [A B C D F G H]. etransitivity; [|exact Hroom]. rewrite <- all_addrs_length. apply inj_le.
    replace (length p) with (length (map (fun e => adr V (snd e)) p)) by apply map_length. apply NoDup_incl_length.
    - rewrite <- map_map with (f := snd) (g := adr V). apply FinFun.Injective_map_NoDup; [|exact G]. intros g h E. eapply adr_inj; eassumption.
    - intros a Ha. apply in_map_iff in Ha. destruct Ha as ((b, g) & <- & Hin). apply H in Hin. destruct Hin as (_ & _ & _ & o & Eo & _). eapply all_addrs_in, Eo.
  Qed.
  Lemma index_of bi lin : (lin < num_voxels V)%nat -> exists vi, computeVoxelIndexFromLinearIndex V (Z.of_nat lin) = Some vi /\
    adr V (glob V bi vi) = (bi, lin) /\ kof V (glob V bi vi) = (bi, vi).
  Proof.
    intros Hl. pose proof (cube_small V HV) as HC. rewrite num_voxels_reg in Hl by exact HV.
    destruct (linear_inverse V (Z.of_nat lin)) as (vi & E1 & E2 & E3); try lia.
    exists vi. split; [exact E1|]. split; [rewrite adr_glob by (auto; lia); rewrite E3, Nat2Z.id; reflexivity|].
    clear - E2. destruct bi as [b1 b2 b3], vi as [v1 v2 v3]. destruct E2 as (H1 & H2 & H3). cbn [vx vy vz] in *.
    unfold kof, glob, getGlobalVoxelIndexFromBlockAndVoxelIndex, zip3, map3. cbn [vx vy vz].
    destruct (div_glob V b1 v1 H1) as (-> & ->), (div_glob V b2 v2 H2) as (-> & ->), (div_glob V b3 v3 H3) as (-> & ->). reflexivity.
  Qed.

  Lemma voxel_step dn bs st p bi lin (o : OccupancyVoxel) : stage dn bs st p -> In bi bs -> vat occ (bi, lin) = Some o -> ~ dn (bi, lin) ->
    exists st' p', occ_voxel c bi st (lin, o) = Ok st' /\ stage (fun a => dn a \/ a = (bi, lin)) bs st' p'.
  Proof.
    intros SG Hb Eo Nd. pose proof SG as [A B C D F G H].
    assert (Hl : (lin < num_voxels V)%nat).
    { unfold vat in Eo. cbn [fst snd] in Eo. destruct (l_get occ bi) as [ob|] eqn:Eb; [|discriminate]. destruct (td_block _ HT _ _ Eb) as (_ & Lb & _).
      rewrite <- Lb. apply nth_error_Some. rewrite Eo. discriminate. }
    assert (Ev : vat (os_layer st) (bi, lin) = Some (vdefault KEsdf)).
    { assert (X : vat (os_layer st) (bi, lin) <> None).
      { unfold vat. cbn [fst snd]. destruct (l_get (os_layer st) bi) as [b|] eqn:Eb; [|exfalso; now apply (C bi)].
        destruct (sh_block _ _ _ A _ _ Eb) as (_ & Lb & _). apply nth_error_Some. rewrite Lb. exact Hl. }
      destruct (vat (os_layer st) (bi, lin)) as [v|] eqn:E; [|congruence]. destruct (F _ _ E) as (o' & _ & [(-> & _)|(_ & X1)]); [reflexivity|contradiction]. }
    destruct (index_of bi lin Hl) as (vi & Evi & Ea & Ek). set (g := glob V bi vi) in *.
    assert (Ng : ~ In g (map snd p)).
    { intros X. apply in_map_iff in X. destruct X as ((b & g') & E & X). cbn [snd] in E. subst g'. apply H in X. rewrite Ea in X. tauto. }
    assert (Old : forall b g', (In (b, g') p <-> b = 0 /\ In (fst (adr V g')) bs /\ (dn (adr V g') \/ adr V g' = (bi, lin)) /\ exists o0 : OccupancyVoxel, vat occ (adr V g') = Some o0 /\ occupied o0) \/ (adr V g' = (bi, lin) /\ occupied o)).
    { intros b g'. destruct (addr_dec (adr V g') (bi, lin)) as [E|N].
      - destruct (o_observed o) eqn:Oo, (fgt (o_log o) f0) eqn:Lo; try (right; split; [exact E|split; assumption]); left; (split; [intros X; apply H in X; rewrite E in X; tauto|]);
          intros (_ & _ & _ & o0 & E0 & (O1 & O2)); rewrite E, Eo in E0; injection E0 as <-; congruence.
      - left. rewrite H. split; intros (E0 & I & K & X); (split; [exact E0|]); (split; [exact I|]); (split; [|exact X]); tauto. }
    unfold occ_voxel. destruct (o_observed o) eqn:Oo; cbn [negb].
    2:{ exists st, p. split; [reflexivity|]. constructor; auto.
        - intros a v E. destruct (F a v E) as (o' & E' & K). exists o'. split; [exact E'|]. destruct (addr_dec a (bi, lin)) as [->|N].
          + right. rewrite Ev in E. injection E as <-. split; [|right; reflexivity]. rewrite Eo in E'. injection E' as <-. unfold img. rewrite Oo. reflexivity.
          + destruct K as [(K1 & K2)|(K1 & K2)]; [left; split; [exact K1|tauto]|right; split; [exact K1|tauto]].
        - intros b g'. destruct (Old b g') as [X|(_ & (X & _))]; [exact X|congruence]. }
    unfold vget. rewrite Ev. cbn [of_opt rbind]. rewrite (sh_vps _ _ _ A), Evi. cbn [of_opt rbind].
    set (L1 := vset (k := KEsdf) (os_layer st) (bi, lin) (occ_image c o (vdefault KEsdf))).
    assert (A1 : shaped vs V L1) by (apply shaped_vset, A).
    assert (C1 : forall i, l_get L1 i <> None <-> In i bs).
    { intros i. rewrite <- C. pose proof (shape_vset (k := KEsdf) (os_layer st) (bi, lin) (occ_image c o (vdefault KEsdf))) as (_ & _ & X). specialize (X i). fold L1 in X.
      destruct (l_get (os_layer st) i), (l_get L1 i); split; intros Y; try contradiction; congruence. }
    assert (F1 : forall a v, vat L1 a = Some v -> exists o0 : OccupancyVoxel, vat occ a = Some o0 /\ ((v = vdefault KEsdf /\ ~ (dn a \/ a = (bi, lin))) \/ (v = img o0 /\ (dn a \/ a = (bi, lin))))).
    { intros a v E. unfold L1 in E. rewrite (vat_vset _ _ _ _ a Ev) in E. destruct (addr_dec a (bi, lin)) as [->|N].
      - injection E as <-. exists o. split; [exact Eo|]. right. split; [unfold img; rewrite Oo; reflexivity|right; reflexivity].
      - destruct (F a v E) as (o' & E' & K). exists o'. split; [exact E'|]. destruct K as [(K1 & K2)|(K1 & K2)]; [left; split; [exact K1|tauto]|right; split; [exact K1|tauto]]. }
    destruct (fgt (o_log o) f0) eqn:Lo.
    - pose proof B as [B1 B2 B3].
      destruct (push_ok (os_open st) _ (bi, vi) (f64_of_f32 f0) 0 B1) as (q' & Eq & Iq & Nq & Mq).
      + rewrite B2, B3. apply bucket_zero; [apply (os_buckets_ok _ _ HS)|apply (os_max_ok _ _ HS)|apply (os_max_ok _ _ HS)].
      + rewrite B2. pose proof (os_buckets_ok _ _ HS). lia.
      + rewrite map_length. pose proof (stage_room _ _ _ _ SG). lia.
      + exists (MkOS L1 q'), (p ++ [(0, g)]). unfold os_push, os_set. cbn [os_open os_layer]. rewrite Eq. cbn [rbind]. split; [reflexivity|].
        constructor; cbn [os_layer os_open]; auto.
        * constructor; [|congruence|congruence]. rewrite map_app. cbn [map]. unfold kp at 2. cbn [fst snd]. rewrite Ek. exact Iq.
        * rewrite map_app. apply NoDup_snoc; assumption.
        * intros b g'. rewrite in_app_iff. cbn [In]. destruct (addr_dec (adr V g') (bi, lin)) as [E|N].
          -- assert (g' = g) by (eapply adr_inj; [exact HV|congruence]). subst g'. split.
             ++ intros [X|[X|[]]]; [exfalso; apply Ng; apply in_map_iff; exists (b, g); auto|]. injection X as <-. split; [reflexivity|]. rewrite E. split; [exact Hb|]. split; [now right|].
                exists o. split; [exact Eo|split; assumption].
             ++ intros (-> & _). right. left. reflexivity.
          -- destruct (Old b g') as [X|(X & _)]; [|contradiction]. rewrite <- X. split; [|tauto]. intros [Y|[Y|[]]]; [exact Y|]. injection Y as _ <-. contradiction.
    - exists (os_set st (bi, lin) (occ_image c o (vdefault KEsdf))), p. split; [reflexivity|]. constructor; cbn [os_set os_layer os_open]; auto.
      intros b g'. destruct (Old b g') as [X|(_ & (_ & X))]; [exact X|congruence].
  Qed.

  Lemma voxels_step dn bs bi : In bi bs -> forall (ovs : list OccupancyVoxel) s st p, 
    (forall n o, nth_error ovs n = Some o -> vat occ (bi, (s + n)%nat) = Some o) -> (forall n, ~ dn (bi, n)) ->
    stage (fun a => dn a \/ (fst a = bi /\ (snd a < s)%nat)) bs st p ->
    exists st' p', rfold (occ_voxel c bi) (combine (seq s (length ovs)) ovs) st = Ok st' /\
      stage (fun a => dn a \/ (fst a = bi /\ (snd a < s + length ovs)%nat)) bs st' p'.
  Proof.
    intros Hb. induction ovs as [|o ovs IH]; intros s st p Ho Hd SG; cbn [length seq combine rfold].
    - exists st, p. split; [reflexivity|]. rewrite Nat.add_0_r. exact SG.
    - destruct (voxel_step _ bs st p bi s o SG Hb) as (st1 & p1 & E1 & S1).
      + pose proof (Ho O o eq_refl) as X. rewrite Nat.add_0_r in X. exact X.
      + cbn [fst snd]. intros [X|(_ & X)]; [exact (Hd s X)|lia].
      + rewrite E1. cbn [rbind]. destruct (IH (S s) st1 p1) as (st' & p' & E2 & S2).
        * intros n o' En. pose proof (Ho (S n) o' En) as X. replace (S s + n)%nat with (s + S n)%nat by lia. exact X.
        * exact Hd.
        * eapply stage_ext; [|exact S1]. intros (i, n) o' _ _. cbn [fst snd]. split.
          -- intros [[X|(X & Y)]|X]; [now left|right; split; [exact X|lia]|injection X as -> ->; right; split; [reflexivity|lia]].
          -- intros [X|(-> & Y)]; [now (left; left)|]. assert (n = s \/ (n < s)%nat) as [->|Z] by lia; [now right|left; right; auto].
        * exists st', p'. split; [exact E2|]. eapply stage_ext; [|exact S2]. intros a o' _ _. replace (S s + length ovs)%nat with (s + S (length ovs))%nat by lia. reflexivity.
  Qed.

  Lemma block_step bs st p bi : stage (fun _ => True) bs st p -> ~ In bi bs -> l_get occ bi <> None ->
    exists st' p', occ_block c occ st bi = Ok st' /\ stage (fun _ => True) (bi :: bs) st' p'.
  Proof.
    intros SG Nb Hb. pose proof SG as [A B C D F G H]. unfold occ_block. destruct (l_get occ bi) as [ob|] eqn:Eb; [|congruence].
    destruct (td_block _ HT _ _ Eb) as (Vb & Lb & Ib).
    set (L1 := allocateBlockPtrByIndex (os_layer st) bi). destruct (Sphere_proofs.alloc_dims _ (os_layer st) bi) as (D1 & D2).
    assert (None_ : l_get (os_layer st) bi = None) by (destruct (l_get (os_layer st) bi) eqn:E; [exfalso; apply Nb, C; congruence|reflexivity]).
    assert (Get : forall j, l_get L1 j = if idx_eqb j bi then Some (new_block V vs (new_block_origin V vs bi)) else l_get (os_layer st) j).
    { intros j. unfold L1. rewrite Sphere_proofs.alloc_get, (sh_vps _ _ _ A), (sh_size _ _ _ A). destruct (idx_eqb_spec j bi) as [->|N]; [rewrite None_; reflexivity|].
      destruct (l_get (os_layer st) j); reflexivity. }
    assert (S0 : stage (fun a => In (fst a) bs \/ (fst a = bi /\ (snd a < 0)%nat)) (bi :: bs) (MkOS L1 (os_open st)) p).
    { constructor; cbn [os_layer os_open]; auto.
      - constructor; [unfold L1; rewrite D2; apply A|unfold L1; rewrite D1; apply A|]. intros i b E. rewrite Get in E. destruct (idx_eqb_spec i bi) as [->|N]; [|apply (sh_block _ _ _ A _ _ E)].
        injection E as <-. cbn [new_block b_vps b_voxels]. rewrite repeat_length. auto.
      - intros i. rewrite Get. cbn [In]. destruct (idx_eqb_spec i bi) as [->|N]; [split; [auto|congruence]|]. rewrite C. split; [auto|]. intros [X|X]; [congruence|exact X].
      - intros i [<-|X]; [congruence|auto].
      - intros (i, n) v E. unfold vat in E. cbn [fst snd] in E. rewrite Get in E. cbn [fst snd]. destruct (idx_eqb_spec i bi) as [->|N].
        + cbn [new_block b_voxels] in E. apply nth_repeat_some in E. destruct E as (-> & Hn).
          unfold vat. cbn [fst snd]. rewrite Eb. rewrite <- Lb in Hn. apply nth_error_Some in Hn. destruct (nth_error (b_voxels ob) n) as [o|] eqn:En; [|congruence].
          exists o. split; [reflexivity|]. left. split; [reflexivity|]. intros [X|(_ & X)]; [contradiction|lia].
        + destruct (F (i, n) v E) as (o & Eo & [(_ & K)|(K & _)]); [exfalso; apply K; exact I|]. exists o. split; [exact Eo|]. right. split; [exact K|]. left. apply C.
          unfold vat in E. cbn [fst] in E. destruct (l_get (os_layer st) i); [discriminate|discriminate].
      - intros b g. rewrite H. cbn [In]. split.
        + intros (E & X & _ & Y). split; [exact E|]. split; [now right|]. split; [now left|exact Y].
        + intros (E & X & [Y|(_ & Y)] & Z); [|lia]. split; [exact E|]. split; [exact Y|]. split; [exact I|exact Z]. }
    destruct (voxels_step (fun a => In (fst a) bs) (bi :: bs) bi (or_introl eq_refl) (b_voxels ob) O (MkOS L1 (os_open st)) p) as (st' & p' & E & SE).
    - intros n o En. unfold vat. cbn [fst snd plus]. rewrite Eb. exact En.
    - intros n. exact Nb.
    - exact S0.
    - exists st', p'. split; [exact E|]. eapply stage_ext; [|exact SE]. intros (i, n) o Hi Ho. cbn [fst snd] in *. split; [auto|]. intros _. destruct Hi as [<-|Hi]; [right|left; exact Hi].
      split; [reflexivity|]. unfold vat in Ho. cbn [fst snd] in Ho. rewrite Eb in Ho. assert (K : nth_error (b_voxels ob) n <> None) by (rewrite Ho; discriminate). apply (proj1 (nth_error_Some _ _)) in K. exact K.
  Qed.
  Lemma blocks_step : forall todo bs st p, stage (fun _ => True) bs st p -> NoDup todo -> (forall i, In i todo -> ~ In i bs /\ l_get occ i <> None) ->
    exists st' p', rfold (occ_block c occ) todo st = Ok st' /\ stage (fun _ => True) (rev todo ++ bs) st' p'.
  Proof.
    induction todo as [|bi todo IH]; intros bs st p SG ND Hi; cbn [rfold rev]; [exists st, p; split; [reflexivity|exact SG]|].
    inversion ND as [|? ? Nb ND']; subst. destruct (Hi bi (or_introl eq_refl)) as (H1 & H2).
    destruct (block_step bs st p bi SG H1 H2) as (st1 & p1 & E1 & S1). rewrite E1. cbn [rbind].
    destruct (IH (bi :: bs) st1 p1 S1 ND') as (st' & p' & E2 & S2).
    - intros i X. destruct (Hi i (or_intror X)) as (Y1 & Y2). split; [|exact Y2]. intros [<-|Z]; contradiction.
    - exists st', p'. split; [exact E2|]. rewrite <- app_assoc. exact S2.
  Qed.

  Lemma stage_inv bs st p : stage (fun _ => True) bs st p -> (forall i, l_get occ i <> None -> In i bs) ->
    inv c vs V (cell occ) st p None.
  Proof.
    intros [A B C D F G H] All. constructor; [exact A| |exact B|].
    - intros g. rewrite (cell_vat occ). rewrite (cell_at _ _ _ _ A).
      destruct (vat occ (adr V g)) as [o|] eqn:Eo.
      + assert (Ib : l_get occ (fst (adr V g)) <> None) by (unfold vat in Eo; destruct (l_get occ (fst (adr V g))); [discriminate|discriminate]).
        assert (X : vat (os_layer st) (adr V g) <> None).
        { unfold vat in *. destruct (l_get occ (fst (adr V g))) as [ob|] eqn:Eb; [|congruence]. destruct (td_block _ HT _ _ Eb) as (_ & Lb & _).
          pose proof (proj2 (C _) (All _ ltac:(rewrite Eb; discriminate))) as Y. destruct (l_get (os_layer st) (fst (adr V g))) as [b|] eqn:E; [|congruence].
          destruct (sh_block _ _ _ A _ _ E) as (_ & L2 & _). apply nth_error_Some. rewrite L2, <- Lb. apply nth_error_Some. rewrite Eo. discriminate. }
        destruct (vat (os_layer st) (adr V g)) as [v|] eqn:E; [|congruence]. exists v. split; [reflexivity|].
        destruct (F _ _ E) as (o' & E' & [(_ & K)|(-> & _)]); [exfalso; apply K; exact I|]. rewrite Eo in E'. injection E' as <-.
        unfold img, occ_image. destruct (o_observed o); [|split; [reflexivity|discriminate]]. destruct (fgt (o_log o) f0); split; reflexivity.
      + destruct (vat (os_layer st) (adr V g)) as [v|] eqn:E; [|reflexivity]. destruct (F _ _ E) as (o' & E' & _). congruence.
    - apply init_view; auto.
      + intros b g Hin. apply H in Hin. destruct Hin as (-> & Ib & _ & o & Eo & (Oo & Lo)). split; [reflexivity|]. exists false.
        rewrite (cell_at _ _ _ _ A).
        destruct (vat (os_layer st) (adr V g)) as [v|] eqn:E.
        * destruct (F _ _ E) as (o' & E' & [(_ & K)|(-> & _)]); [exfalso; apply K; exact I|]. rewrite Eo in E'. injection E' as <-. unfold img, occ_image. rewrite Oo, Lo. reflexivity.
        * exfalso. unfold vat in Eo, E. destruct (l_get occ (fst (adr V g))) as [ob|] eqn:Eb; [|congruence]. destruct (td_block _ HT _ _ Eb) as (_ & Lb & _).
          pose proof (proj2 (C _) Ib) as Y. destruct (l_get (os_layer st) (fst (adr V g))) as [b|] eqn:E2; [|congruence].
          destruct (sh_block _ _ _ A _ _ E2) as (_ & L2 & _). apply nth_error_None in E. rewrite L2, <- Lb in E. apply nth_error_None in E. congruence.
      + intros g v E. rewrite (cell_at _ _ _ _ A) in E. destruct (F _ _ E) as (o & Eo & [(_ & K)|(-> & _)]); [exfalso; apply K; exact I|].
        unfold img, occ_image. destruct (o_observed o) eqn:Oo; [|left; split; reflexivity]. right. destruct (fgt (o_log o) f0) eqn:Lo.
        * left. exists false. split; [reflexivity|]. exists 0. apply H. split; [reflexivity|]. split; [|split; [exact I|exists o; split; [exact Eo|split; assumption]]].
          apply C. unfold vat in E. destruct (l_get (os_layer st) (fst (adr V g))); [discriminate|discriminate].
        * right. exists false. reflexivity.
  Qed.
  Lemma stage_start st : occ_idle c st -> l_vps (os_layer st) = V -> l_size (os_layer st) = vs -> l_blocks (os_layer st) = [] ->
    stage (fun _ => True) [] st [].
  Proof.
    intros (Q1 & Q2 & Q3 & Q4 & Q5) HL Hz HB. assert (N : forall i, l_get (os_layer st) i = None) by (intros i; unfold l_get; rewrite HB; reflexivity).
    constructor.
    - constructor; auto. intros i b E. rewrite N in E. discriminate.
    - constructor; [|exact Q1|exact Q2]. cbn [map]. destruct (os_open st) as [n m bu la co]. cbn [bq_num bq_max bq_buckets bq_last bq_count] in *. subst.
      destruct (os_max_ok _ _ HS) as (Fm & Pm & _). destruct (f64_of_f32_R _ Fm) as (Em & Gm). apply q_fresh; auto.
      + pose proof (os_buckets_ok _ _ HS). lia.
      + rewrite Em. exact Pm.
    - intros i. rewrite N. split; [congruence|intros []].
    - intros i [].
    - intros a v E. unfold vat in E. rewrite N in E. discriminate.
    - constructor.
    - intros b g. split; [intros []|]. intros (_ & [] & _).
  Qed.

  (** ** what holds at the end *)
  Lemma final_ok st : inv c vs V (cell occ) st [] None -> distances_ok c occ (os_layer st) /\ occ_idle c st.
  Proof.
    intros [A R Q GI]. set (F := cell (os_layer st)) in *.
    assert (NQ : forall g, ~ inq [] g) by (intros g (b & [])).
    destruct (os_default_ok _ _ HS) as (Fdf & Pdf). destruct (os_max_ok _ _ HS) as (Fmx & Pmx & _).
    assert (FX : forall g v (o : OccupancyVoxel), F g = Some v -> cell occ g = Some o -> o_observed o = true -> e_observed v = true /\ e_fixed v = fgt (o_log o) f0 /\ good c v).
    { intros g v o E Eo Oo. pose proof (R g) as X. rewrite Eo in X. destruct X as (v' & E' & X1 & X2). rewrite E in E'. injection E' as <-. rewrite Oo in X1. split; [exact X1|]. split; [auto|].
      eapply (g_val _ _ _ _ _ GI); eassumption. }
    assert (EX : forall g v, F g = Some v -> e_observed v = true -> exists o : OccupancyVoxel, cell occ g = Some o /\ o_observed o = true /\ e_fixed v = fgt (o_log o) f0).
    { intros g v E Ov. pose proof (R g) as X. destruct (cell occ g) as [o|]; [|congruence]. destruct X as (v' & E' & X1 & X2). rewrite E in E'. injection E' as <-. exists o. split; [reflexivity|]. split; [congruence|]. apply X2. congruence. }
    (* traces are paths *)
    assert (TP : forall g, tr vs F g -> forall v, F g = Some v -> opath c occ vs true g (e_distance v)).
    { induction 1 as [g v E Ov Xv|u off kd v w T IH E0 E1 Ow Xw Hn P L]; intros y Ey.
      - rewrite E in Ey. injection Ey as <-. destruct (EX g v E Ov) as (o & Eo & Oo & Fo). pose proof (g_val _ _ _ _ _ GI _ _ E Ov) as Gd. unfold good in Gd. rewrite Xv in Gd.
        destruct Gd as (-> & _). eapply OP_start; [exact Eo|]. split; [exact Oo|congruence].
      - rewrite E1 in Ey. injection Ey as <-. assert (Pz : e_parent w <> zero3) by (rewrite P; eapply opp_nz; exact Hn).
        destruct (g_parent _ _ _ _ _ GI _ _ E1 Ow Xw Pz) as (u' & off' & kd' & v' & H1 & H2 & H3 & H4 & H5 & H6 & H7).
        rewrite P in H3. apply idx_opp_inj in H3. subst off'. apply add_off_inj_l in H2. subst u'. fold F in H4. rewrite E0 in H4. injection H4 as <-.
        assert (kd' = kd) by (eapply neighbors_fun; eassumption). subst kd'.
        destruct H7 as [H7|[H7|H7]]; [destruct (NQ _ H7)|discriminate|]. rewrite H7. destruct (EX _ w E1 Ow) as (o & Eo & Oo & _).
        eapply OP_step; [apply IH, E0|intros _; apply H5| |exact Eo|exact Oo]. exists kd. auto. }
    (* no path is shorter *)
    assert (PL : forall g d, opath c occ vs true g d -> exists v, F g = Some v /\ e_observed v = true /\ good c v /\ ffin d = true /\ (0 <= FR d)%R /\ (FR (e_distance v) <= FR d)%R).
    { induction 1 as [g o Eo (Oo & Lo)|g off stp d o P IH L Hs Eo Oo].
      - pose proof (R g) as X. rewrite Eo in X. destruct X as (v & E & _). destruct (FX g v o E Eo Oo) as (X1 & X2 & X3). exists v. split; [exact E|]. split; [exact X1|]. split; [exact X3|].
        split; [reflexivity|]. rewrite f0_R. split; [lra|]. unfold good in X3. rewrite X2, Lo in X3. destruct X3 as (-> & _). rewrite f0_R. lra.
      - destruct IH as (v & E & Ov & Gv & Fd & Pd & Le). specialize (L eq_refl). destruct Hs as (kd & Hn & ->).
        destruct (add_step c vs HS d off kd Fd Pd L Hn) as (Fa & La & Pa).
        pose proof (R (idx_add g off)) as X. rewrite Eo in X. destruct X as (w & Ew & _). fold F in Ew. destruct (FX _ w o Ew Eo Oo) as (X1 & X2 & X3).
        exists w. split; [exact Ew|]. split; [exact X1|]. split; [exact X3|]. split; [exact Fa|]. split; [lra|].
        destruct (e_fixed w) eqn:Xw; [unfold good in X3; rewrite Xw in X3; destruct X3 as (-> & _); rewrite f0_R; lra|].
        destruct (good_val c v Gv) as (Fv & Pv). destruct (good_val c w X3) as (Fw & Pw).
        assert (Lv : flt (e_distance v) (oc_max c) = true) by (apply flt_R in L; [|exact Fd|exact Fmx]; apply flt_R; [exact Fv|exact Fmx|lra]).
        assert (far v \/ e_distance v = oc_default c) as [Fr|De].
        { unfold far. destruct (e_fixed v) eqn:Xv; [now (left; left)|]. destruct (idx_eq_dec (e_parent v) zero3) as [Z|Z]; [|left; right; exact Z].
          right. unfold good in Gv. rewrite Xv in Gv. apply Gv, Z. }
        + assert (K : flt (fadd (e_distance v) (fmul kd vs)) (e_distance w) = false).
          { eapply (g_settled _ _ _ _ _ GI g v off kd w); eauto; [repeat split; assumption|discriminate]. }
          destruct (add_step c vs HS _ off kd Fv Pv Lv Hn) as (Fb & _ & _).
          apply nlt_ER in K; [|apply ffin_nnan, Fb|apply ffin_nnan, Fw]. rewrite !ER_fin in K by assumption.
          destruct (stp_ok c vs HS off kd Hn) as ((Fs & Ps) & Ls).
          assert (M : (FR (fadd (e_distance v) (fmul kd vs)) <= FR (fadd d (fmul kd vs)))%R).
          { assert (B : forall x, ffin x = true -> (0 <= FR x)%R -> flt x (oc_max c) = true -> FR (fadd x (fmul kd vs)) = rnd32 (FR x + FR (fmul kd vs))).
            { intros x Fx Px Lx. apply flt_R in Lx; [|exact Fx|exact Fmx]. destruct (os_max_ok _ _ HS) as (_ & _ & M2).
              apply (fadd_R x _ Fx Fs). apply F32_err.rnd32_small. rewrite Rabs_pos_eq by lra. change 127 with (1 + 126). rewrite bpow_plus. change (bpow radix2 1) with 2%R. lra. }
            rewrite (B _ Fv Pv Lv), (B _ Fd Pd L). apply rnd32_le. lra. }
          lra.
        + unfold good in X3. rewrite Xw in X3. destruct X3 as (_ & (_ & X3) & _). rewrite De in Le. lra. }
    split.
    - intros g. pose proof (R g) as X. destruct (cell occ g) as [o|] eqn:Eo; [|exact X]. destruct X as (v & E & X1 & X2). exists v. split; [exact E|]. split; [exact X1|]. split.
      + intros (Oo & Lo). destruct (FX g v o E Eo Oo) as (_ & Y1 & Y2). rewrite Lo in Y1. split; [|exact Y1]. unfold good in Y2. rewrite Y1 in Y2. apply Y2.
      + intros (Oo & Lo). destruct (FX g v o E Eo Oo) as (Ov & Y1 & Y2). rewrite Lo in Y1. rewrite (sh_size _ _ _ A). split; [exact Y1|].
        unfold good in Y2. rewrite Y1 in Y2. destruct Y2 as (Fv & (Pv & Lv) & Zv). split; [|split].
        * destruct (idx_eq_dec (e_parent v) zero3) as [Z|Z]; [left; auto|right]. apply (TP g); [|exact E]. eapply (g_traced _ _ _ _ _ GI); [exact E|exact Ov|right; exact Z].
        * apply fle_R; assumption.
        * intros d P. destruct (PL g d P) as (v' & E' & _ & _ & Fd & _ & Le). rewrite E in E'. injection E' as <-. apply fle_R; assumption.
    - destruct Q as [[Q1 Q2 Q3 Q4 Q5 Q6 Q7] Q8 Q9]. split; [exact Q8|]. split; [exact Q9|]. cbn [map] in *. split; [|split; [apply Q6|exact Q7]]. rewrite <- Q8.
      apply nth_ext with (d := []) (d' := []); [rewrite repeat_length; exact Q3|]. intros n Hn. rewrite Q3 in Hn.
      specialize (Q4 (Z.of_nat n) ltac:(lia)). rewrite Nat2Z.id in Q4. rewrite (nth_error_nth _ _ _ Q4). rewrite nth_repeat. reflexivity.
  Qed.

  Lemma update_run st blocks : occ_idle c st -> l_vps (os_layer st) = V -> l_size (os_layer st) = vs -> l_blocks (os_layer st) = [] ->
    NoDup blocks -> (forall i, In i blocks <-> l_get occ i <> None) ->
    (exists n0 : nat, forall fuel, (n0 <= fuel)%nat -> exists st', updateFromOccBlocks c fuel occ blocks st = Ok (Some st')) /\
    forall fuel, exists r, updateFromOccBlocks c fuel occ blocks st = Ok r /\
      forall st', r = Some st' -> distances_ok c occ (os_layer st') /\ occ_idle c st' /\ l_size (os_layer st') = vs /\ l_vps (os_layer st') = V.
  Proof.
    intros HI HL Hz HB ND Hb. pose proof (stage_start st HI HL Hz HB) as S0.
    destruct (blocks_step blocks [] st [] S0 ND) as (st1 & p1 & E1 & S1); [intros i X; split; [intros []|apply Hb, X]|].
    rewrite app_nil_r in S1.
    assert (I1 : inv c vs V (cell occ) st1 p1 None) by (apply (stage_inv (rev blocks)); [exact S1|]; intros i X; apply -> in_rev; apply Hb, X).
    assert (HC : forall g (o : OccupancyVoxel), cell occ g = Some o -> In (adr V g) (all_addrs occ)) by (intros g o E; eapply all_addrs_in, E).
    assert (HR : Z.of_nat (length (all_addrs occ)) <= 2 ^ 63) by (rewrite all_addrs_length; exact Hroom).
    unfold updateFromOccBlocks. rewrite E1. cbn [rbind]. split.
    - exists (Z.to_nat (meas st1 p1)). intros fuel Hf. eapply process_ends; try eassumption. lia.
    - intros fuel. destruct (process_safe c vs V (cell occ) HS HV _ HC HR fuel st1 p1 I1) as (r & Er & Kr). exists r. split; [exact Er|].
      intros st' E. specialize (Kr st' E). destruct (final_ok st' Kr) as (D & I2). split; [exact D|]. split; [exact I2|]. split; apply (i_shape _ _ _ _ _ _ _ Kr).
  Qed.
End Start.
