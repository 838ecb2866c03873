(** What a robot position does to the ESDF layer and to the integrator's queues. *)
From Coq Require Import ZArith List Bool Reals Lra Lia Permutation.
From Flocq Require Import Core.
From Verif Require Import F32 F32_lemmas Types Assoc Assoc_lemmas Index Index_float Index_proofs Voxel Layer Planning Threads Threads_proofs
  Queue Queue_spec Queue_proofs Esdf Esdf_spec Esdf_proofs Esdf_range Esdf_grid Esdf_batch Esdf_term Interp_spec Interp_axis Sphere_spec Sphere_proofs Robot_spec.
Import ListNotations.
Open Scope Z_scope.
Ltac Zify.zify_post_hook ::= idtac.

(** ** Steps on the layer only *)
Definition clr (c : econfig) (v : EsdfVoxel) : bool := (negb (e_observed v) || e_hallucinated v)%bool.
Definition rl_clear (c : econfig) (L : Layer KEsdf) (bv : idx3 * idx3) : res (Layer KEsdf) :=
  rbind (voxel_of L (fst bv) (snd bv)) (fun ab => rbind (vget (k := KEsdf) L (fst ab)) (fun v =>
    Ok (if clr c v then vset (k := KEsdf) L (fst ab) (told_free c v) else L))).
Definition rl_occupy (c : econfig) (L : Layer KEsdf) (bv : idx3 * idx3) : res (Layer KEsdf) :=
  rbind (voxel_of L (fst bv) (snd bv)) (fun ab => rbind (vget (k := KEsdf) L (fst ab)) (fun v =>
    Ok (if negb (e_observed v) then vset (k := KEsdf) L (fst ab) (told_occupied c v) else L))).
Definition do_clear (c : econfig) (v : EsdfVoxel) : EsdfVoxel := if clr c v then told_free c v else v.
Definition do_occupy (c : econfig) (v : EsdfVoxel) : EsdfVoxel := if negb (e_observed v) then told_occupied c v else v.

Lemma change_vset : forall L a f v, vat (k := KEsdf) L a = Some v -> one_change L (vset (k := KEsdf) L a (f v)) a f.
Proof.
  intros L a f v V. assert (V' := V). unfold vat in V'. destruct (l_get L (fst a)) as [b|] eqn:B; [|discriminate]. clear V'.
  split; [unfold vset; rewrite B; reflexivity|]. split; [unfold vset; rewrite B; reflexivity|]. split; [|split].
  - intros j N. rewrite vset_get. destruct (idx_eqb_spec j (fst a)); [congruence|reflexivity].
  - intros b' E. rewrite vset_get, idx_eqb_refl, E. cbn [option_map]. eexists. split; [reflexivity|].
    unfold block_geom. cbn [b_vps b_size b_origin b_voxels set_voxels]. repeat split. apply set_th_length.
  - intros a'. rewrite (vat_vset _ _ _ _ _ V). destruct (addr_dec a' a); [|reflexivity]. rewrite V. reflexivity.
Qed.
Lemma placed_valid : forall n s L g, 0 < n <= 1024 -> placed n s L (fst (adr n g)) ->
  exists bl v, voxel_of L (fst (spl n g)) (snd (spl n g)) = Ok (adr n g, bl) /\ isValidVoxelIndex (b_vps bl) (snd (spl n g)) = true /\ vat (k := KEsdf) L (adr n g) = Some v.
Proof.
  intros n s L g Hn (b & E & V & Sz & O & Len). exists b.
  pose proof (adr_range n g Hn) as AR. rewrite <- Len in AR.
  destruct (nth_error (b_voxels b) (snd (adr n g))) as [v|] eqn:Q; [|apply nth_error_None in Q; lia].
  exists v. split; [|split].
  - unfold voxel_of. change (fst (spl n g)) with (fst (adr n g)). rewrite E. unfold adr, spl. cbn [fst snd]. rewrite V. reflexivity.
  - rewrite V. assert (W : wrap32 n = n) by (unfold wrap32; rewrite Z.mod_small; lia).
    assert (Mn : all3 (fun c => 0 <= c < n) (snd (spl n g))) by (apply mod3; lia).
    unfold isValidVoxelIndex. rewrite W. destruct Mn as (M1 & M2 & M3). cbv zeta beta. rewrite !(proj2 (Z.ltb_ge _ _)) by lia. rewrite !(proj2 (Z.leb_gt _ _)) by lia. reflexivity.
  - unfold vat. rewrite E. exact Q.
Qed.
Lemma rl_clear_step : forall c n s L g, 0 < n <= 1024 -> placed n s L (fst (adr n g)) ->
  exists L2, rl_clear c L (spl n g) = Ok L2 /\ one_change L L2 (adr n g) (do_clear c).
Proof.
  intros c n s L g Hn P. destruct (placed_valid n s L g Hn P) as (bl & v & EV & _ & V).
  unfold rl_clear. rewrite EV. cbn [rbind fst]. unfold vget. rewrite V. cbn [of_opt rbind].
  destruct (clr c v) eqn:E; (eexists; split; [reflexivity|]).
  - replace (told_free c v) with (do_clear c v) by (unfold do_clear; rewrite E; reflexivity). apply change_vset, V.
  - apply (change_none _ _ _ v V). unfold do_clear. rewrite E. reflexivity.
Qed.
Lemma rl_occupy_step : forall c n s L g, 0 < n <= 1024 -> placed n s L (fst (adr n g)) ->
  exists L2, rl_occupy c L (spl n g) = Ok L2 /\ one_change L L2 (adr n g) (do_occupy c).
Proof.
  intros c n s L g Hn P. destruct (placed_valid n s L g Hn P) as (bl & v & EV & _ & V).
  unfold rl_occupy. rewrite EV. cbn [rbind fst]. unfold vget. rewrite V. cbn [of_opt rbind].
  destruct (e_observed v) eqn:E; cbn [negb]; (eexists; split; [reflexivity|]).
  - apply (change_none _ _ _ v V). unfold do_occupy. rewrite E. reflexivity.
  - replace (told_occupied c v) with (do_occupy c v) by (unfold do_occupy; rewrite E; reflexivity). apply change_vset, V.
Qed.
Lemma placed_kept : forall n s L L2 a f i, one_change L L2 a f -> placed n s L i -> placed n s L2 i.
Proof.
  intros n s L L2 a f i (_ & _ & O1 & O2 & _) (b & E & P). destruct (idx_eqb_spec i (fst a)) as [->|N].
  - destruct (O2 b E) as (b2 & E2 & G1 & G2 & G3 & G4). exists b2. split; [exact E2|]. destruct P as (P1 & P2 & P3 & P4). repeat split; congruence.
  - exists b. rewrite (O1 i N). auto.
Qed.
Lemma insert_In : forall st b i, In i (es_updated (insert_updated st b)) <-> In i (es_updated st) \/ b = i.
Proof.
  intros st b i. unfold insert_updated. destruct (existsb (idx_eqb b) (es_updated st)) eqn:E.
  - apply existsb_exists in E. destruct E as (j & I & E). apply idx_eqb_true in E. subst j. split; [auto|]. intros [H | <-]; auto.
  - cbn [es_updated with_updated]. rewrite in_app_iff. cbn [In]. tauto.
Qed.
Lemma insert_rest : forall st b, es_layer (insert_updated st b) = es_layer st /\ es_open (insert_updated st b) = es_open st /\ es_raise (insert_updated st b) = es_raise st.
Proof. intros st b. unfold insert_updated. destruct (existsb _ _); auto. Qed.

Lemma queued_app : forall q a q1 b q2, queued q a q1 -> queued q1 b q2 -> queued q (a ++ b) q2.
Proof. intros q a q1 b q2 H. induction H as [|q g d q1 r q2' P H IH]; intros K; [exact K|]. cbn [app]. econstructor; [exact P|]. apply IH, K. Qed.

Section robot.
  Variable c : econfig.
  Variables (n : Z) (s : f32).
  Hypothesis Hn : 0 < n <= 1024.
  Variable val : idx3 -> EsdfVoxel.

  Lemma clear_fold : forall vs st L2, l_vps (es_layer st) = n -> NoDup (map (adr n) vs) -> (forall g, In g vs -> placed n s (es_layer st) (fst (adr n g))) ->
    (forall g, In g vs -> vat (k := KEsdf) (es_layer st) (adr n g) = Some (val g)) ->
    rfold (rl_clear c) (map (spl n) vs) (es_layer st) = Ok L2 ->
    exists st2, rfold (robot_clear c) (map (spl n) vs) st = Ok st2 /\ es_layer st2 = L2 /\ es_open st2 = es_open st /\
      es_raise st2 = es_raise st ++ filter (fun g => e_hallucinated (val g)) vs /\
      (forall i, In i (es_updated st2) <-> In i (es_updated st) \/ exists g, In g vs /\ clr c (val g) = true /\ block_of n g = i).
  Proof.
    induction vs as [|g vs IH]; intros st L2 EN ND PL VA E.
    - cbn [map rfold] in *. injection E as <-. exists st. cbn [filter]. rewrite app_nil_r. repeat split; auto.
      intros [H | (g & [] & _)]; exact H.
    - cbn [map] in ND. inversion ND as [|? ? NI ND']; subst.
      cbn [map rfold] in E |- *.
      destruct (rl_clear_step c _ s (es_layer st) g Hn (PL g (or_introl eq_refl))) as (L1 & E1 & O1). rewrite E1 in E. cbn [rbind] in E.
      destruct (placed_valid _ s (es_layer st) g Hn (PL g (or_introl eq_refl))) as (bl & v & EV & IV & V).
      rewrite (VA g (or_introl eq_refl)) in V. injection V as <-.
      assert (ST : exists st1, robot_clear c st (spl (l_vps (es_layer st)) g) = Ok st1 /\ es_layer st1 = L1 /\ es_open st1 = es_open st /\
        es_raise st1 = es_raise st ++ (if e_hallucinated (val g) then [g] else []) /\
        (forall i, In i (es_updated st1) <-> In i (es_updated st) \/ (clr c (val g) = true /\ block_of (l_vps (es_layer st)) g = i))).
      { unfold rl_clear in E1. rewrite EV in E1. cbn [rbind fst] in E1. unfold vget in E1. rewrite (VA g (or_introl eq_refl)) in E1. cbn [of_opt rbind] in E1.
        unfold robot_clear. rewrite (surjective_pairing (spl (l_vps (es_layer st)) g)). cbv iota beta.
        rewrite EV. cbn [rbind fst snd]. rewrite IV. cbn [negb]. unfold vget. rewrite (VA g (or_introl eq_refl)). cbn [of_opt rbind].
        fold (clr c (val g)). destruct (clr c (val g)) eqn:CL.
        - injection E1 as <-. rewrite join_spl by lia.
          change (fst (spl (l_vps (es_layer st)) g)) with (block_of (l_vps (es_layer st)) g).
          destruct (insert_rest (st_set (if e_hallucinated (val g) then raise_push st g else st) (adr (l_vps (es_layer st)) g) (ev_parent (ev_seen (ev_dist (val g) (ec_default c)) true true) zero3)) (block_of (l_vps (es_layer st)) g)) as (X1 & X2 & X3).
          eexists. split; [reflexivity|]. rewrite X1, X2, X3. destruct (e_hallucinated (val g)).
          + split; [reflexivity|]. split; [reflexivity|]. split; [reflexivity|]. intros i. rewrite insert_In. cbn [es_updated st_set with_layer raise_push with_raise]. tauto.
          + split; [reflexivity|]. split; [reflexivity|]. split; [symmetry; apply app_nil_r|]. intros i. rewrite insert_In. cbn [es_updated st_set with_layer]. tauto.
        - injection E1 as <-. exists st. split; [reflexivity|]. split; [reflexivity|]. split; [reflexivity|].
          unfold clr in CL. apply orb_false_iff in CL. rewrite (proj2 CL), app_nil_r. split; [reflexivity|]. intros i. split; [auto|]. intros [H | (H & _)]; [exact H|discriminate]. }
      destruct ST as (st1 & S1 & S2 & S3 & S4 & S5). rewrite S1. cbn [rbind].
      assert (O1' := O1). destruct O1' as (_ & O2 & _ & _ & O5).
      destruct (IH st1 L2) as (st2 & T1 & T2 & T3 & T4 & T5).
      + rewrite S2. exact O2.
      + exact ND'.
      + intros h I. rewrite S2. apply (placed_kept _ _ _ _ _ _ _ O1). apply PL. now right.
      + intros h I. rewrite S2, O5. destruct (addr_dec _ _) as [EA|]; [|apply VA; now right]. exfalso. apply NI. rewrite <- EA. apply in_map, I.
      + rewrite S2. exact E.
      + exists st2. split; [exact T1|]. split; [exact T2|]. split; [congruence|]. split.
        * rewrite T4, S4, <- app_assoc. cbn [filter]. destruct (e_hallucinated (val g)); reflexivity.
        * intros i. rewrite T5, S5. split.
          -- intros [[H | (H1 & H2)] | (h & H1 & H2)]; [auto| |]; right; [exists g | exists h]; cbn [In]; tauto.
          -- intros [H | (h & [<- | H1] & H2 & H3)]; [auto | tauto | right; exists h; auto].
  Qed.

  Variable vs0 : f32.
  Hypothesis Hc : valid_config c vs0.
  Definition pushes_it (v : EsdfVoxel) : bool := (e_observed v && negb (e_in_queue v))%bool.
  Lemma occupy_fold : forall vs st L2 (p : list (Z * idx3)), l_vps (es_layer st) = n -> NoDup (map (adr n) vs) -> (forall g, In g vs -> placed n s (es_layer st) (fst (adr n g))) ->
    (forall g, In g vs -> vat (k := KEsdf) (es_layer st) (adr n g) = Some (val g)) ->
    (forall g, In g vs -> e_observed (val g) = true -> pushable c (e_distance (val g))) ->
    qinv (es_open st) p -> qconf c (es_open st) -> Z.of_nat (length p + length vs) < 2 ^ 64 ->
    rfold (rl_occupy c) (map (spl n) vs) (es_layer st) = Ok L2 ->
    exists st2, rfold (robot_occupy c) (map (spl n) vs) st = Ok st2 /\ es_layer st2 = L2 /\ es_raise st2 = es_raise st /\
      queued (es_open st) (map (fun g => (g, e_distance (val g))) (filter (fun g => pushes_it (val g)) vs)) (es_open st2) /\
      (forall i, In i (es_updated st2) <-> In i (es_updated st) \/ exists g, In g vs /\ e_observed (val g) = false /\ block_of n g = i).
  Proof.
    induction vs as [|g vs IH]; intros st L2 p EN ND PL VA PU QI QC LE E.
    - cbn [map rfold] in *. injection E as <-. exists st. cbn [filter map]. repeat split; auto; [constructor|].
      intros [H | (g & [] & _)]; exact H.
    - cbn [map] in ND. inversion ND as [|? ? NI ND']; subst.
      cbn [map rfold] in E |- *. cbn [length] in LE.
      destruct (rl_occupy_step c _ s (es_layer st) g Hn (PL g (or_introl eq_refl))) as (L1 & E1 & O1). rewrite E1 in E. cbn [rbind] in E.
      destruct (placed_valid _ s (es_layer st) g Hn (PL g (or_introl eq_refl))) as (bl & v & EV & IV & V).
      rewrite (VA g (or_introl eq_refl)) in V. injection V as <-.
      assert (ST : exists st1 p1, robot_occupy c st (spl (l_vps (es_layer st)) g) = Ok st1 /\ es_layer st1 = L1 /\ es_raise st1 = es_raise st /\
        queued (es_open st) (if pushes_it (val g) then [(g, e_distance (val g))] else []) (es_open st1) /\
        qinv (es_open st1) p1 /\ qconf c (es_open st1) /\ (length p1 <= S (length p))%nat /\
        (forall i, In i (es_updated st1) <-> In i (es_updated st) \/ (e_observed (val g) = false /\ block_of (l_vps (es_layer st)) g = i))).
      { unfold rl_occupy in E1. rewrite EV in E1. cbn [rbind fst] in E1. unfold vget in E1. rewrite (VA g (or_introl eq_refl)) in E1. cbn [of_opt rbind] in E1.
        unfold robot_occupy, pushes_it. rewrite (surjective_pairing (spl (l_vps (es_layer st)) g)). cbv iota beta.
        rewrite EV. cbn [rbind fst snd]. rewrite IV. cbn [negb]. unfold vget. rewrite (VA g (or_introl eq_refl)). cbn [of_opt rbind].
        destruct (e_observed (val g)) eqn:OB; cbn [negb andb] in *.
        - injection E1 as <-. destruct (e_in_queue (val g)) eqn:IQ; cbn [negb].
          + exists st, p. split; [reflexivity|]. split; [reflexivity|]. split; [reflexivity|]. split; [constructor|]. split; [exact QI|]. split; [exact QC|]. split; [lia|].
            intros i. split; [auto|]. intros [H | (H & _)]; [exact H|discriminate].
          + rewrite join_spl by lia. destruct (push_total c vs0 Hc (es_open st) p g (e_distance (val g)) QI QC (PU g (or_introl eq_refl) OB) ltac:(lia)) as (q' & i & P1 & P2 & P3).
            unfold open_push. rewrite P1. cbn [rbind]. exists (with_open st q'), (p ++ [(i, g)]). split; [reflexivity|]. split; [reflexivity|]. split; [reflexivity|].
            cbn [es_open with_open es_updated]. split; [econstructor; [exact P1 | constructor]|]. split; [exact P2|]. split; [exact P3|]. split; [rewrite app_length; cbn [length]; lia|].
            intros j. split; [auto|]. intros [H | (H & _)]; [exact H|discriminate].
        - injection E1 as <-.
          change (fst (spl (l_vps (es_layer st)) g)) with (block_of (l_vps (es_layer st)) g).
          destruct (insert_rest (st_set st (adr (l_vps (es_layer st)) g) (ev_parent (ev_seen (ev_dist (val g) (fneg (ec_default c))) true true) zero3)) (block_of (l_vps (es_layer st)) g)) as (X1 & X2 & X3).
          eexists. exists p. split; [reflexivity|]. rewrite X1, X2, X3. split; [reflexivity|]. split; [reflexivity|]. split; [constructor|]. split; [exact QI|]. split; [exact QC|]. split; [lia|].
          intros i. rewrite insert_In. cbn [es_updated st_set with_layer]. tauto. }
      destruct ST as (st1 & p1 & S1 & S2 & S3 & S4 & Q1 & Q2 & Q3 & S5). rewrite S1. cbn [rbind].
      assert (O1' := O1). destruct O1' as (_ & O2 & _ & _ & O5).
      destruct (IH st1 L2 p1) as (st2 & T1 & T2 & T3 & T4 & T5).
      + rewrite S2. exact O2.
      + exact ND'.
      + intros h I. rewrite S2. apply (placed_kept _ _ _ _ _ _ _ O1). apply PL. now right.
      + intros h I. rewrite S2, O5. destruct (addr_dec _ _) as [EA|]; [|apply VA; now right]. exfalso. apply NI. rewrite <- EA. apply in_map, I.
      + intros h I. apply PU. now right.
      + exact Q1.
      + exact Q2.
      + lia.
      + rewrite S2. exact E.
      + exists st2. split; [exact T1|]. split; [exact T2|]. split; [congruence|]. split.
        * pose proof (queued_app _ _ _ _ _ S4 T4) as QA. cbn [filter]. destruct (pushes_it (val g)); exact QA.
        * intros i. rewrite T5, S5. split.
          -- intros [[H | (H1 & H2)] | (h & H1 & H2)]; [auto| |]; right; [exists g | exists h]; cbn [In]; tauto.
          -- intros [H | (h & [<- | H1] & H2 & H3)]; [auto | tauto | right; exists h; auto].
  Qed.
End robot.

(** ** How many voxels a sphere can hold *)
Lemma span_length : forall (vs : list idx3), NoDup vs -> (forall g, In g vs -> all3 (fun c => Z.abs c <= 2 ^ 18) g) -> Z.of_nat (length vs) < 2 ^ 58.
Proof.
  intros vs N B. set (k := Z.to_nat (2 ^ 19 + 1)). set (zs := map (fun i => Z.of_nat i - 2 ^ 18) (seq 0 k)).
  set (all := map (fun p : Z * (Z * Z) => V3 (fst p) (fst (snd p)) (snd (snd p))) (list_prod zs (list_prod zs zs))).
  assert (IZ : forall z, Z.abs z <= 2 ^ 18 -> In z zs).
  { intros z H. apply in_map_iff. exists (Z.to_nat (z + 2 ^ 18)). split; [lia|]. apply in_seq. unfold k. lia. }
  assert (LZ : length zs = k) by (unfold zs; rewrite map_length, seq_length; reflexivity).
  assert (L : (length vs <= length all)%nat).
  { apply NoDup_incl_length; [exact N|]. intros g I. destruct (B g I) as (B1 & B2 & B3). apply in_map_iff. exists (vx g, (vy g, vz g)).
    split; [destruct g; reflexivity|]. apply in_prod; [auto|]. apply in_prod; auto. }
  unfold all in L. rewrite map_length, !prod_length, LZ in L. assert (K : Z.of_nat k = 2 ^ 19 + 1) by (unfold k; lia).
  clear - L K. apply Nat2Z.inj_le in L. rewrite !Nat2Z.inj_mul, K in L. eapply Z.le_lt_trans; [exact L|]. reflexivity.
Qed.

(** ** The whole operation *)
Lemma sphere_cong : forall fuel (l l' : Layer KEsdf) p r, l_size l' = l_size l -> l_vps l' = l_vps l -> getSphereAroundPoint fuel l' p r = getSphereAroundPoint fuel l p r.
Proof. intros fuel l l' p r E1 E2. unfold getSphereAroundPoint. rewrite E1, E2. reflexivity. Qed.
Lemma clr_iff : forall c v, clr c v = true <-> cleared_by_robot v.
Proof. intros c v. unfold clr, cleared_by_robot. rewrite orb_true_iff, negb_true_iff. tauto. Qed.
Lemma effect_value : forall (l l' : Layer KEsdf) vs f, sphere_layer l -> sphere_layer l' -> sphere_effect l l' vs f ->
  (forall g, In g vs -> value_at l' g = f g (value_at l g)) /\ (forall g, exact_index g -> ~ In g vs -> value_at l' g = value_at l g).
Proof.
  intros l l' vs f (R & _) (R' & _) (S1 & S2 & S3 & S4 & S5). split.
  - intros g I. unfold value_at at 1. rewrite (S4 g I). reflexivity.
  - intros g X N. destruct (S3 (block_of (l_vps l) g)) as [H | E]; [unfold value_at at 1; rewrite (S5 g X N H); reflexivity|].
    unfold value_at. rewrite (reg_at _ _ R' X), (reg_at _ _ R X), S2. unfold vat. change (fst (adr (l_vps l) g)) with (block_of (l_vps l) g). rewrite E. reflexivity.
Qed.
Section whole.
  Variables (c : econfig) (fuel : nat) (p : pt3) (st : estate) (pend : list (Z * idx3)).
  Let l := es_layer st.
  Hypothesis SL : sphere_layer l.
  Hypothesis PC : point_in_range (l_size l) p.
  Hypothesis R1 : radius_in_range (l_size l) (ec_clear_r c).
  Hypothesis R2 : radius_in_range (l_size l) (ec_occ_r c).
  Hypothesis F1 : (2 * (FR (ec_clear_r c) / FR (l_size l)) + 3 < INR fuel)%R.
  Hypothesis F2 : (2 * (FR (ec_occ_r c) / FR (l_size l)) + 3 < INR fuel)%R.
  Hypothesis Hc : valid_config c (l_size l).
  Hypothesis QU : forall h w, at_index (k := KEsdf) l h = Some w -> e_observed w = true -> pushable c (e_distance w).
  Hypothesis QI : qinv (es_open st) pend.
  Hypothesis QC : qconf c (es_open st).
  Hypothesis QL : Z.of_nat (length pend) + 2 ^ 58 < 2 ^ 64.

  Lemma robot_whole : exists m1 m2 st' qs,
    getSphereAroundPoint fuel l p (ec_clear_r c) = Ok (Some m1) /\ getSphereAroundPoint fuel l p (ec_occ_r c) = Ok (Some m2) /\
    addNewRobotPosition c fuel p st = Ok (Some st') /\
    let near := voxels_of (l_vps l) m1 in let far := voxels_of (l_vps l) m2 in
    robot_effect c l (es_layer st') near far /\ sphere_layer (es_layer st') /\
    es_raise st' = es_raise st ++ filter (fun g => e_hallucinated (value_at l g)) near /\
    (forall i, In i (es_updated st') <-> In i (es_updated st) \/ exists g, overwritten l near far g /\ block_of (l_vps l) g = i) /\
    queued (es_open st) qs (es_open st') /\ NoDup (map fst qs) /\
    (forall g d, In (g, d) qs <-> In g far /\ (e_observed (value_at l g) = true \/ In g near) /\ e_in_queue (value_at l g) = false /\ d = e_distance (value_at (es_layer st') g)).
  Proof.
    assert (Vn : 0 < l_vps l <= 1024) by (apply reg_vps_small, SL).
    destruct (sphere_write_full l SL p (ec_clear_r c) fuel PC R1 F1 (rl_clear c) (fun _ => do_clear c)) as (m1 & A1 & L1 & M1 & AL1 & W1 & SE1 & SL1 & V1 & HL1 & ND1 & PV1).
    { intros L g P. apply (rl_clear_step c _ (l_size l)); auto. }
    exists m1. set (n := l_vps l) in *. set (near := voxels_of n m1) in *.
    destruct (clear_fold c n (l_size l) Vn (value_at l) near (with_layer st A1) L1) as (st1 & T1 & T2 & T3 & T4 & T5).
    { exact V1. } { exact ND1. } { intros g I. apply PV1, I. } { intros g I. apply PV1, I. } { rewrite <- HL1. exact W1. }
    cbn [with_layer es_open es_raise es_updated] in T3, T4, T5.
    destruct (SE1) as (Z1 & Z2 & _).
    assert (PC' : point_in_range (l_size L1) p) by (rewrite Z1; exact PC). assert (R2' : radius_in_range (l_size L1) (ec_occ_r c)) by (rewrite Z1; exact R2).
    assert (F2' : (2 * (FR (ec_occ_r c) / FR (l_size L1)) + 3 < INR fuel)%R) by (rewrite Z1; exact F2).
    destruct (sphere_write_full L1 SL1 p (ec_occ_r c) fuel PC' R2' F2' (rl_occupy c) (fun _ => do_occupy c)) as (m2 & A2 & L2 & M2 & AL2 & W2 & SE2 & SL2 & V2 & HL2 & ND2 & PV2).
    { intros L g P. rewrite Z2 in *. apply (rl_occupy_step c _ (l_size L1)); auto. }
    exists m2. rewrite Z2 in *. fold n in SE2, V2, HL2, ND2, PV2 |- *. set (far := voxels_of n m2) in *.
    destruct (effect_value _ _ _ _ SL SL1 SE1) as (EV1 & EV1'). destruct (effect_value _ _ _ _ SL1 SL2 SE2) as (EV2 & EV2').
    assert (EXN : forall g, In g near -> exact_index g) by (intros g I; apply PV1, I).
    assert (EXF : forall g, In g far -> exact_index g) by (intros g I; apply PV2, I).
    assert (DEC : forall g, In g near \/ ~ In g near). { intros g. destruct (in_dec idx_eq_dec g near); auto. }
    (* the voxels after clearing *)
    assert (OBN : forall g, In g near -> e_observed (value_at L1 g) = true).
    { intros g I. rewrite (EV1 g I). unfold do_clear, clr. destruct (e_observed (value_at l g)) eqn:O; cbn [negb orb]; [|reflexivity]. destruct (e_hallucinated _); [reflexivity|exact O]. }
    assert (PU : forall g, In g far -> e_observed (value_at L1 g) = true -> pushable c (e_distance (value_at L1 g))).
    { assert (PD : pushable c (ec_default c)).
      { destruct (vc_default _ _ Hc) as (D1 & D2). destruct (vc_max _ _ Hc) as (_ & D3 & _). split; [apply ffin_nnan, D1|]. rewrite ER_fin by exact D1. lra. }
      assert (PO : forall g, e_observed (value_at l g) = true -> pushable c (e_distance (value_at l g))).
      { intros g. unfold value_at. destruct (at_index (k := KEsdf) l g) as [w|] eqn:E; [apply (QU g w E)|]. cbn. discriminate. }
      intros g I. destruct (DEC g) as [J | J].
      - rewrite (EV1 g J). unfold do_clear. destruct (clr c _) eqn:CL; [intros _; exact PD|apply PO].
      - rewrite (EV1' g (EXF g I) J). apply PO. }
    assert (LF : Z.of_nat (length far) < 2 ^ 58).
    { apply span_length; [|intros g I; apply PV2, I]. eapply NoDup_map_inv; exact ND2. }
    destruct (occupy_fold c n (l_size L1) Vn (value_at L1) (l_size l) Hc far (with_layer st1 A2) L2 pend) as (st2 & Y1 & Y2 & Y3 & Y4 & Y5).
    { exact V2. } { exact ND2. } { intros g I. apply PV2, I. } { intros g I. apply PV2, I. } { exact PU. }
    { cbn [with_layer es_open]. rewrite T3. exact QI. } { cbn [with_layer es_open]. rewrite T3. exact QC. } { lia. } { rewrite <- HL2. exact W2. }
    cbn [with_layer es_open es_raise es_updated] in Y3, Y4, Y5. rewrite T3 in Y4.
    exists st2. eexists. split; [exact M1|]. split; [rewrite <- (sphere_cong fuel l L1 p (ec_occ_r c) Z1 Z2); exact M2|]. split.
    { unfold addNewRobotPosition. fold l. rewrite AL1. cbn [rbind]. rewrite HL1. fold near. rewrite T1. cbn [rbind]. rewrite T2, AL2. cbn [rbind]. rewrite HL2. fold far. rewrite Y1. reflexivity. }
    cbv zeta. rewrite Y2. assert (SE1' := SE1). assert (SE2' := SE2). destruct SE1' as (_ & _ & B3 & B4 & _). destruct SE2' as (D1 & D2 & D3 & D4 & D5). fold n in B3.
    (* every voxel of the two spheres is stored in the end *)
    assert (STO : forall g, In g near \/ In g far -> at_index (k := KEsdf) L2 g = Some (value_at L2 g)).
    { intros g I. assert (exists v, at_index (k := KEsdf) L2 g = Some v) as (v & E); [|unfold value_at; rewrite E; reflexivity].
      destruct (in_dec idx_eq_dec g far) as [J | J]; [eexists; apply (D4 g J)|]. destruct I as [I | I]; [|contradiction].
      destruct (D3 (block_of (l_vps L1) g)) as [H | E]; [eexists; apply (D5 g (EXN g I) J H)|].
      destruct SL1 as (RG1 & _). destruct SL2 as (RG2 & _). eexists. rewrite (reg_at _ _ RG2 (EXN g I)), D2. unfold vat. change (fst (adr (l_vps L1) g)) with (block_of (l_vps L1) g). rewrite E.
      pose proof (B4 g I) as Q. rewrite (reg_at _ _ RG1 (EXN g I)) in Q. unfold vat in Q. change (fst (adr (l_vps L1) g)) with (block_of (l_vps L1) g) in Q. exact Q. }
    assert (VN : forall g, In g near -> value_at L2 g = do_clear c (value_at l g)).
    { intros g I. destruct (in_dec idx_eq_dec g far) as [J | J].
      - rewrite (EV2 g J). unfold do_occupy. rewrite (OBN g I). cbn [negb]. apply EV1, I.
      - rewrite (EV2' g (EXN g I) J). apply EV1, I. }
    assert (VF : forall g, In g far -> ~ In g near -> value_at L2 g = do_occupy c (value_at l g)).
    { intros g I J. rewrite (EV2 g I), (EV1' g (EXF g I) J). reflexivity. }
    split; [|split; [exact SL2|split; [rewrite Y3; exact T4|split; [|split; [exact Y4|split]]]]].
    - split; [congruence|]. split; [congruence|]. split; [|split; [|split; [|split; [|split]]]].
      + intros g I CL. rewrite STO by auto. rewrite (VN g I). unfold do_clear. rewrite (proj2 (clr_iff c _) CL). reflexivity.
      + intros g I J O. rewrite STO by auto. rewrite (VF g I J). unfold do_occupy. rewrite O. reflexivity.
      + intros g I CL. rewrite STO by auto. rewrite (VN g I). unfold do_clear. destruct (clr c _) eqn:E; [|reflexivity]. apply clr_iff in E. contradiction.
      + intros g I J O. rewrite STO by auto. rewrite (VF g I J). unfold do_occupy. rewrite O. reflexivity.
      + intros g X J K. rewrite (EV2' g X K). apply (EV1' g X J).
      + intros i. destruct (D3 i) as [(g & I & E) | E]; [left; exists g; rewrite Z2 in E; auto|]. destruct (B3 i) as [(g & I & E') | E']; [left; exists g; auto|right; congruence].
    - intros i. rewrite Y5, T5. unfold overwritten. split.
      + intros [[H | (g & H1 & H2 & H3)] | (g & H1 & H2 & H3)]; [auto| |]; right; exists g; (split; [|exact H3]).
        * left. split; [exact H1|]. apply (clr_iff c), H2.
        * right. split; [exact H1|]. destruct (DEC g) as [J | J]; [rewrite (OBN g J) in H2; discriminate|]. split; [exact J|]. rewrite <- (EV1' g (EXF g H1) J). exact H2.
      + intros [H | (g & [(H1 & H2) | (H1 & H2 & H4)] & H3)]; [auto| |].
        * left. right. exists g. split; [exact H1|]. split; [apply clr_iff, H2|exact H3].
        * right. exists g. split; [exact H1|]. split; [rewrite (EV1' g (EXF g H1) H2); exact H4|exact H3].
    - rewrite map_map. cbn [fst]. rewrite map_id. apply NoDup_filter. eapply NoDup_map_inv; exact ND2.
    - intros g d. rewrite in_map_iff. split.
      + intros (h & E & I). apply filter_In in I. destruct I as (I & PB). assert (h = g) by (injection E; auto). subst h.
        assert (ED : d = e_distance (value_at L1 g)) by (injection E; auto). unfold pushes_it in PB. apply andb_true_iff in PB. destruct PB as (O & IQ). apply negb_true_iff in IQ.
        assert (E2 : value_at L2 g = value_at L1 g). { rewrite (EV2 g I). unfold do_occupy. rewrite O. reflexivity. }
        split; [exact I|]. split; [|split; [|rewrite E2; exact ED]].
        * destruct (DEC g) as [J | J]; [auto|]. left. rewrite <- (EV1' g (EXF g I) J). exact O.
        * destruct (DEC g) as [J | J]; [|rewrite <- (EV1' g (EXF g I) J); exact IQ]. rewrite (EV1 g J) in IQ. unfold do_clear in IQ. destruct (clr c _); exact IQ.
      + intros (I & OR & IQ & ->). assert (O : e_observed (value_at L1 g) = true).
        { destruct (DEC g) as [J | J]; [apply OBN, J|]. rewrite (EV1' g (EXF g I) J). tauto. }
        exists g. split.
        * f_equal. rewrite (EV2 g I). unfold do_occupy. rewrite O. reflexivity.
        * apply filter_In. split; [exact I|]. unfold pushes_it. rewrite O. cbn [andb]. apply negb_true_iff.
          destruct (DEC g) as [J | J]; [|rewrite (EV1' g (EXF g I) J); exact IQ]. rewrite (EV1 g J). unfold do_clear. destruct (clr c _); exact IQ.
  Qed.
End whole.
