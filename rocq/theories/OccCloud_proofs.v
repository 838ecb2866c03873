(** Lemmas about [OccCloud]. *)
From Coq Require Import ZArith Reals List Bool Lia Lra Permutation.
From Flocq Require Import Core Binary.
From Verif Require Import F32 F32_lemmas F32_err Types Index Index_proofs Voxel Serialize Assoc Assoc_lemmas Layer Threads Threads_proofs Update Ray
  Vec_proofs Dist_proofs Merge_proofs Facing_proofs Ray_spec Ray_proofs RayEnds_spec RayEnds_proofs Planning Mesh_spec Update_spec Connect_proofs Cloud Cloud_spec Cloud_proofs Total_proofs OccCloud OccCloud_spec.
Import ListNotations.
Open Scope Z_scope.
Ltac Zify.zify_post_hook ::= idtac.

(** ** one voxel *)
Definition ofresh (l : Layer KOcc) (b : idx3) : Block KOcc := new_block (l_vps l) (l_size l) (new_block_origin (l_vps l) (l_size l) b).
Definition obase (l : Layer KOcc) (b : idx3) : Block KOcc := match l_get l b with Some x => x | None => ofresh l b end.
Definition ofull (vps : Z) (x : Block KOcc) : Prop := b_vps x = vps /\ Z.of_nat (length (b_voxels x)) = vps * vps * vps.
Definition oreach (l : Layer KOcc) (done : list (bool * idx3)) (b : idx3) : Prop := exists e, In e done /\ home_block l (snd e) = b.
Definition ocontent (l : Layer KOcc) (g : idx3) : OccupancyVoxel := content l g.
Definition oabout (g : idx3) (done : list (bool * idx3)) : list bool := map fst (filter (fun e => idx_eqb (snd e) g) done).
Record oobs (cfg : OccConfig) (l : Layer KOcc) (done : list (bool * idx3)) (l' : Layer KOcc) : Prop := {
  oo_geo : l_size l' = l_size l /\ l_vps l' = l_vps l;
  oo_full : forall b x, l_get l' b = Some x -> ofull (l_vps l) x;
  oo_others : forall b, ~ oreach l done b -> l_get l' b = l_get l b;
  oo_marked : forall b, oreach l done b -> exists x, l_get l' b = Some x /\ b_updated x = upd_all /\
    b_vps x = b_vps (obase l b) /\ b_size x = b_size (obase l b) /\ b_origin x = b_origin (obase l b) /\ b_has_data x = b_has_data (obase l b);
  oo_voxels : forall g, ocontent l' g = occ_updates cfg (oabout g done) (ocontent l g) }.

Lemma ofull_fresh : forall (l : Layer KOcc) n b, 0 <= n <= 10 -> l_vps l = 2 ^ n -> ofull (l_vps l) (ofresh l b).
Proof.
  intros l n b Hn V. split; [reflexivity|]. unfold ofresh, new_block. cbn [b_voxels]. rewrite repeat_length. unfold num_voxels.
  assert (P : 0 < 2 ^ n) by (apply Z.pow_pos_nonneg; lia). assert (P10 : 2 ^ n <= 2 ^ 10) by (apply Z.pow_le_mono_r; lia).
  change (2 ^ 10) with 1024 in P10. rewrite V. unfold u64. rewrite Z.mod_small; [rewrite Z2Nat.id; nia|].
  change (2 ^ 64) with 18446744073709551616. nia.
Qed.
Lemma oreach_dec : forall l done b, oreach l done b \/ ~ oreach l done b.
Proof.
  intros l done b. induction done as [|q qs IH].
  - right. intros (q & [] & _).
  - destruct (idx_eq_dec (home_block l (snd q)) b) as [E|N].
    + left. exists q. split; [left; auto|auto].
    + destruct IH as [(q' & I & E)|H]; [left; exists q'; split; [right; auto|auto]|].
      right. intros (q' & [<- | I] & E); [auto|]. apply H. exists q'; auto.
Qed.
Lemma ocontent_eq : forall l g, ocontent l g =
  match l_get l (map3 (fun c => c / l_vps l) g) with
  | Some b => match nth_error (b_voxels b) (slot (l_vps l) g) with Some v => v | None => vdefault KOcc end
  | None => vdefault KOcc end.
Proof.
  intros l g. unfold ocontent, content, voxel_at. cbv zeta. fold (slot (l_vps l) g). destruct (l_get l (map3 (fun c => c / l_vps l) g)); reflexivity.
Qed.
Lemma ofresh_default : forall l b n v, nth_error (b_voxels (ofresh l b)) n = Some v -> v = vdefault KOcc.
Proof. intros l b n v H. apply nth_error_In in H. apply repeat_spec in H. auto. Qed.
Lemma oobs_start : forall cfg l, sound_layer l -> oobs cfg l [] l.
Proof.
  intros cfg l (_ & F). constructor; auto.
  - intros b (q & [] & _).
Qed.
Lemma get_aset : forall (l : Layer KOcc) b x b', l_get (with_blocks l (aset b x (l_blocks l))) b' = if idx_eqb b' b then Some x else l_get l b'.
Proof. intros l b x b'. unfold l_get. cbn [with_blocks l_blocks]. rewrite alookup_aset. destruct (idx_eqb b' b); reflexivity. Qed.

Lemma oobs_step : forall cfg l done l1 cached hit g, sound_layer l -> oobs cfg l done l1 -> near_index g ->
  (forall b, cached = Some b -> oreach l done b) ->
  exists l2, occ_touch cfg hit (l1, cached) g = Ok (l2, Some (home_block l g)) /\ oobs cfg l (done ++ [(hit, g)]) l2.
Proof.
  intros cfg l done l1 cached hit g ((n & Hn & V) & F) [(GS & GV) FU OT MA VO] Hg HC.
  assert (PV : 0 < l_vps l) by (rewrite V; apply Z.pow_pos_nonneg; lia).
  destruct (slot_ok (l_vps l1) n g ltac:(congruence) Hn Hg) as (E1 & E2 & E3).
  unfold occ_touch. rewrite E1. cbn [of_opt rbind]. rewrite E2. cbn [rbind]. rewrite GV in E3. rewrite GV in *.
  assert (HB : home_block l g = map3 (fun c => c / l_vps l) g) by reflexivity.
  set (b := map3 (fun c => c / l_vps l) g) in *.
  (* the block after allocation and marking *)
  set (x := set_updated upd_all (match l_get l1 b with Some x0 => x0 | None => ofresh l b end)).
  assert (FF : ofresh l1 b = ofresh l b) by (unfold ofresh; rewrite GS, GV; auto).
  assert (FX : ofull (l_vps l) x).
  { unfold x, set_updated. destruct (l_get l1 b) eqn:W; [exact (FU b _ W)|]. exact (ofull_fresh l n b Hn V). }
  assert (ALLOC : exists l2, (if match cached with Some b0 => idx_eqb b b0 | None => false end then Ok l1
     else rbind (of_opt (l_get (allocateBlockPtrByIndex l1 b) b)) (fun b0 =>
            Ok (with_blocks (allocateBlockPtrByIndex l1 b) (aset b (set_updated upd_all b0) (l_blocks (allocateBlockPtrByIndex l1 b)))))) = Ok l2 /\
     l_size l2 = l_size l /\ l_vps l2 = l_vps l /\ forall b', l_get l2 b' = if idx_eqb b' b then Some x else l_get l1 b').
  { destruct (match cached with Some b0 => idx_eqb b b0 | None => false end) eqn:EC.
    - exists l1. split; [auto|]. split; [auto|]. split; [auto|]. intros b'. destruct (idx_eqb_spec b' b) as [-> | NE]; [|auto].
      destruct cached as [b0|]; [|discriminate]. destruct (idx_eqb_spec b b0) as [<- |]; [|discriminate].
      destruct (MA b (HC b eq_refl)) as (y & Y & U & _). unfold x. rewrite Y. rewrite <- U. destruct y as [y1 y2 y3 y4 y5 y6]. reflexivity.
    - unfold allocateBlockPtrByIndex. destruct (l_get l1 b) as [y|] eqn:W.
      + rewrite W. cbn [of_opt rbind]. eexists. split; [reflexivity|]. split; [exact GS|]. split; [exact GV|]. intros b'. rewrite get_aset. unfold x. reflexivity.
      + assert (W2 : forall b', l_get (allocateNewBlock l1 b) b' = if idx_eqb b' b then Some (ofresh l b) else l_get l1 b').
        { intros b'. unfold allocateNewBlock, l_get. cbn [with_blocks l_blocks]. rewrite alookup_ainsert. destruct (idx_eqb_spec b' b) as [-> | NE].
          - fold (l_get l1 b). rewrite W. fold (ofresh l1 b). rewrite FF. reflexivity.
          - destruct (alookup b' (l_blocks l1)); reflexivity. }
        rewrite W2, idx_eqb_refl. cbn [of_opt rbind]. eexists. split; [reflexivity|]. split; [exact GS|]. split; [exact GV|]. intros b'. rewrite get_aset.
        destruct (idx_eqb_spec b' b) as [-> | NE]; [unfold x; reflexivity|]. rewrite W2. destruct (idx_eqb_spec b' b); [contradiction|reflexivity]. }
  destruct ALLOC as (l2 & EA & S2 & V2 & G2). cbv zeta. rewrite EA. cbn [rbind]. rewrite G2, idx_eqb_refl. cbn [of_opt rbind].
  destruct FX as (X1 & X2). rewrite X1, E3.
  pose proof (slot_lt (l_vps l) g PV) as SL.
  destruct (nth_error (b_voxels x) (slot (l_vps l) g)) as [v|] eqn:NV.
  2: { apply nth_error_None in NV. lia. }
  cbn [of_opt rbind]. eexists. split; [rewrite <- HB; reflexivity|].
  set (x' := set_voxels (k:=KOcc) (set_th (slot (l_vps l) g) (updateOccupancyVoxel cfg hit v) (b_voxels x)) x).
  set (l3 := with_blocks l2 (aset b x' (l_blocks l2))).
  assert (G3 : forall b', l_get l3 b' = if idx_eqb b' b then Some x' else l_get l1 b').
  { intros b'. unfold l3. rewrite get_aset. destruct (idx_eqb_spec b' b) as [-> | NE]; [auto|]. rewrite G2. destruct (idx_eqb_spec b' b); [contradiction|auto]. }
  assert (R : forall b', oreach l (done ++ [(hit, g)]) b' <-> oreach l done b' \/ b' = b).
  { intros b'. split.
    - intros (q' & I & E'). apply in_app_or in I as [I|[<- | []]]; [left; exists q'; auto|right; auto].
    - intros [(q' & I & E')| ->]; [exists q'; split; [apply in_or_app; auto|auto]|exists (hit, g); split; [apply in_or_app; right; left; auto|auto]]. }
  assert (CB : ocontent l1 g = v).
  { rewrite ocontent_eq, GV. fold b. unfold x, set_updated in NV. cbn [b_voxels] in NV. destruct (l_get l1 b) as [y|] eqn:W; [rewrite NV; reflexivity|].
    apply ofresh_default in NV. auto. }
  constructor.
  - split; [exact S2|exact V2].
  - intros b' y H. rewrite G3 in H. destruct (idx_eqb_spec b' b) as [-> | NE]; [|eapply FU; eauto].
    inversion H; subst y. split; [exact X1|]. unfold x', set_voxels. cbn [b_voxels]. rewrite set_th_length. exact X2.
  - intros b' H. rewrite R in H. rewrite G3. destruct (idx_eqb_spec b' b) as [-> | NE]; [intuition|]. apply OT. intuition.
  - intros b' H. apply R in H. rewrite G3. destruct (idx_eqb_spec b' b) as [-> | NE].
    + eexists. split; [reflexivity|]. split; [reflexivity|].
      unfold x', x, set_voxels, set_updated. cbn [b_vps b_size b_origin b_has_data].
      destruct (oreach_dec l done b) as [H'|H'].
      * destruct (MA b H') as (y & Y1 & _ & Y2). rewrite Y1. exact Y2.
      * rewrite (OT b H'). unfold obase. destruct (l_get l b); auto.
    + destruct H as [H|H]; [|congruence]. apply MA; auto.
  - intros g'. unfold oabout. rewrite filter_app, map_app. unfold occ_updates. rewrite fold_left_app. fold (oabout g' done). fold (occ_updates cfg (oabout g' done) (ocontent l g')).
    rewrite <- VO. cbn [filter snd]. rewrite (ocontent_eq l3). change (l_vps l3) with (l_vps l2). rewrite V2, G3.
    destruct (idx_eqb_spec g g') as [<- | N]; cbn [map fold_left fst].
    + fold b. rewrite idx_eqb_refl. unfold x', set_voxels. cbn [b_voxels]. rewrite (set_th_same _ _ _ _ NV), CB. reflexivity.
    + rewrite (ocontent_eq l1), GV. destruct (idx_eqb_spec (map3 (fun c => c / l_vps l) g') b) as [EB | NB]; [|reflexivity].
      rewrite EB. unfold x', set_voxels. cbn [b_voxels]. rewrite set_th_other. 2: { intros ES. apply N. eapply slot_inj; eauto. }
      unfold x, set_updated. cbn [b_voxels]. destruct (l_get l1 b) eqn:W; [auto|].
      destruct (nth_error (b_voxels (ofresh l b)) (slot (l_vps l) g')) eqn:ND; [|auto]. apply ofresh_default in ND. auto.
Qed.

Lemma oobs_run : forall cfg l hit gs done l1 cached, sound_layer l -> oobs cfg l done l1 -> Forall near_index gs ->
  (forall b, cached = Some b -> oreach l done b) ->
  exists l2 c2, rfold (occ_touch cfg hit) gs (l1, cached) = Ok (l2, c2) /\ oobs cfg l (done ++ map (fun g => (hit, g)) gs) l2.
Proof.
  intros cfg l hit gs. induction gs as [|g gs IH]; intros done l1 cached W O NG HC.
  - exists l1, cached. split; [reflexivity|]. cbn [map]. rewrite app_nil_r. exact O.
  - inversion NG as [|? ? N1 N2]; subst. destruct (oobs_step cfg l done l1 cached hit g W O N1 HC) as (l2 & E & O2).
    destruct (IH (done ++ [(hit, g)]) l2 (Some (home_block l g)) W O2 N2) as (l3 & c3 & E3 & O3).
    { intros b H. inversion H; subst. exists (hit, g). split; [apply in_or_app; right; left; auto|reflexivity]. }
    exists l3, c3. cbn [rfold]. rewrite E. cbn [rbind]. split; [exact E3|]. cbn [map]. rewrite <- app_assoc in O3. exact O3.
Qed.

(** ** the sets *)
Lemma cell_in_spec : forall g s, cell_in g s = true <-> In g s.
Proof.
  intros g s. unfold cell_in. rewrite existsb_exists. split.
  - intros (x & I & E). destruct (idx_eqb_spec g x); [subst; auto|discriminate].
  - intros I. exists g. rewrite idx_eqb_refl. auto.
Qed.
Lemma insert_in : forall s g x, In x (set_insert s g) <-> In x s \/ x = g.
Proof.
  intros s g x. unfold set_insert. destruct (cell_in g s) eqn:E.
  - apply cell_in_spec in E. intuition. subst; auto.
  - cbn [In]. intuition.
Qed.
Lemma insert_nodup : forall s g, NoDup s -> NoDup (set_insert s g).
Proof.
  intros s g H. unfold set_insert. destruct (cell_in g s) eqn:E; [auto|]. constructor; [|auto]. intros I. apply cell_in_spec in I. congruence.
Qed.
Lemma insert_all_in : forall gs s x, In x (set_insert_all s gs) <-> In x s \/ In x gs.
Proof.
  unfold set_insert_all. induction gs as [|g gs IH]; intros s x; cbn [fold_left In]; [tauto|]. rewrite IH, insert_in. intuition.
Qed.
Lemma insert_all_nodup : forall gs s, NoDup s -> NoDup (set_insert_all s gs).
Proof. unfold set_insert_all. induction gs as [|g gs IH]; intros s H; cbn [fold_left]; [auto|]. apply IH, insert_nodup, H. Qed.

Section Sweep.
  Variable fuel : nat.
  Variable garbage : caster.
  Variable cfg : OccCloudConfig.
  Variable l : Layer KOcc.
  Variable T : pose.
  Notation inv := (inv_of (l_size l)).
  Notation ok sets := (NoDup (fst sets) /\ NoDup (snd sets)).
  Notation sweep pts sets := (swept fuel garbage cfg l T pts (fun g => In g (snd sets)) (fun g => In g (fst sets))).

  Lemma use_cases : forall p,
    let d := norm3 (pt_sub (p_apply T p) (p_position T)) in
    match occ_use_of cfg T p with
    | Unused => flt d (oo_min_ray cfg) = true
    | Clears => flt d (oo_min_ray cfg) = false /\ fgt d (oo_max_ray cfg) = true
    | Surface => flt d (oo_min_ray cfg) = false /\ fgt d (oo_max_ray cfg) = false
    end.
  Proof.
    intros p d. unfold occ_use_of. cbv zeta. fold d. unfold fgt. destruct (flt d (oo_min_ray cfg)); [reflexivity|]. destruct (flt (oo_max_ray cfg) d); auto.
  Qed.
  (** the sets after one point *)
  Definition point_effect (p : pt3) (s s' : list idx3 * list idx3) : Prop :=
    match occ_use_of cfg T p with
    | Unused => s' = s
    | Clears => exists e, end_voxel cfg l T p e /\
        (In e (fst s) /\ s' = s \/ exists cells, occ_ray fuel garbage cfg l T p cells /\ s' = (set_insert_all (fst s) cells, snd s))
    | Surface => exists e, end_voxel cfg l T p e /\
        (In e (snd s) /\ s' = s \/ exists cells, occ_ray fuel garbage cfg l T p cells /\
           ((length cells < 3)%nat /\ s' = s \/
            (3 <= length cells)%nat /\ s' = (set_insert_all (fst s) (removelast cells), set_insert (snd s) (last cells e))))
    end.
  Lemma point_ok : forall s p s', occ_point fuel garbage cfg inv T s p = Ok (Some s') -> point_effect p s s'.
  Proof.
    intros [free occ] p s' E. unfold point_effect, end_voxel, occ_ray, occ_end. pose proof (use_cases p) as U. cbv zeta in U. unfold occ_point in E.
    destruct (occ_use_of cfg T p).
    - rewrite U in E. inversion E; auto.
    - destruct U as (U1 & U2). rewrite U1, U2 in E.
      set (en := pt_scale (pt_add (p_position T) (pt_scale (normalized3 (pt_sub (p_apply T p) (p_position T))) (oo_max_ray cfg))) inv) in *.
      destruct (getGridIndexFromScaledPoint en) as [e|]; cbn [of_opt rbind] in E; [|discriminate]. exists e. split; [auto|]. cbn [fst snd].
      destruct (cell_in e free) eqn:C; [left; apply cell_in_spec in C; inversion E; auto|]. right. unfold obind in E.
      destruct (castRay fuel garbage (pt_scale (p_position T) inv) en) as [[cells|]| |] eqn:R; cbn [rbind] in E; try discriminate. exists cells. inversion E; auto.
    - destruct U as (U1 & U2). rewrite U1, U2 in E. set (en := pt_scale (p_apply T p) inv) in *.
      destruct (getGridIndexFromScaledPoint en) as [e|]; cbn [of_opt rbind] in E; [|discriminate]. exists e. split; [auto|]. cbn [fst snd].
      destruct (cell_in e occ) eqn:C; [left; apply cell_in_spec in C; inversion E; auto|]. right. unfold obind in E.
      destruct (castRay fuel garbage (pt_scale (p_position T) inv) en) as [[cells|]| |] eqn:R; cbn [rbind] in E; try discriminate. exists cells. split; [auto|].
      destruct (Z.ltb_spec 2 (Z.of_nat (length cells))); inversion E; [right|left]; (split; [lia|auto]).
  Qed.
  Lemma effect_grows : forall p s s', point_effect p s s' -> (forall g, In g (fst s) -> In g (fst s')) /\ (forall g, In g (snd s) -> In g (snd s')).
  Proof.
    intros p s s' E. unfold point_effect in E. destruct (occ_use_of cfg T p).
    - subst; auto.
    - destruct E as (e & _ & [(_ & ->)|(cells & _ & ->)]); [auto|]. cbn [fst snd]. split; intros g I; [apply insert_all_in|]; auto.
    - destruct E as (e & _ & [(_ & ->)|(cells & _ & [(_ & ->)|(_ & ->)])]); [auto|auto|]. cbn [fst snd]. split; intros g I; [apply insert_all_in|apply insert_in]; auto.
  Qed.
  Lemma effect_nodup : forall p s s', point_effect p s s' -> ok s -> ok s'.
  Proof.
    intros p s s' E (N1 & N2). unfold point_effect in E. destruct (occ_use_of cfg T p).
    - subst; auto.
    - destruct E as (e & _ & [(_ & ->)|(cells & _ & ->)]); [auto|]. cbn [fst snd]. split; [apply insert_all_nodup|]; auto.
    - destruct E as (e & _ & [(_ & ->)|(cells & _ & [(_ & ->)|(_ & ->)])]); [auto|auto|]. cbn [fst snd]. split; [apply insert_all_nodup|apply insert_nodup]; auto.
  Qed.
  Lemma front_last : forall (cells : list idx3) e, (3 <= length cells)%nat -> cells = removelast cells ++ [last cells e].
  Proof. intros cells e H. apply app_removelast_last. intros ->. cbn in H. lia. Qed.
  Lemma effect_swept : forall p s s' done, point_effect p s s' -> sweep done s -> sweep (done ++ [p]) s'.
  Proof.
    intros p s s' done E [H S F C]. destruct (effect_grows p s s' E) as (G1 & G2).
    assert (ID : forall x, In x done -> In x (done ++ [p])) by (intros; apply in_or_app; auto).
    assert (IP : In p (done ++ [p])) by (apply in_or_app; right; left; auto).
    constructor.
    - intros g I. unfold point_effect in E. assert (OLD : In g (snd s) -> exists p0 voxels front, In p0 (done ++ [p]) /\ occ_use_of cfg T p0 = Surface /\ occ_ray fuel garbage cfg l T p0 voxels /\ (3 <= length voxels)%nat /\ voxels = front ++ [g]).
      { intros I0. destruct (H g I0) as (p0 & v & f & X1 & X). exists p0, v, f. auto. }
      destruct (occ_use_of cfg T p) eqn:U.
      + subst s'; auto.
      + destruct E as (e & _ & [(_ & ->)|(cells & _ & ->)]); auto.
      + destruct E as (e & _ & [(_ & ->)|(cells & R & [(_ & ->)|(L & ->)])]); auto. cbn [snd] in I. apply insert_in in I as [I|I]; [auto|].
        exists p, cells, (removelast cells). split; [auto|]. split; [auto|]. split; [auto|]. split; [auto|]. rewrite I. apply front_last; auto.
    - intros g I. unfold point_effect in E.
      assert (OLD : In g (fst s) -> exists p0 voxels, In p0 (done ++ [p]) /\ occ_ray fuel garbage cfg l T p0 voxels /\ (occ_use_of cfg T p0 = Clears /\ In g voxels \/
         occ_use_of cfg T p0 = Surface /\ (3 <= length voxels)%nat /\ exists front e, voxels = front ++ [e] /\ In g front)).
      { intros I0. destruct (S g I0) as (p0 & v & X1 & X). exists p0, v. auto. }
      destruct (occ_use_of cfg T p) eqn:U.
      + subst s'; auto.
      + destruct E as (e & _ & [(_ & ->)|(cells & R & ->)]); auto. cbn [fst] in I. apply insert_all_in in I as [I|I]; [auto|]. exists p, cells. auto.
      + destruct E as (e & _ & [(_ & ->)|(cells & R & [(_ & ->)|(L & ->)])]); auto. cbn [fst] in I. apply insert_all_in in I as [I|I]; [auto|].
        exists p, cells. split; [auto|]. split; [auto|]. right. split; [auto|]. split; [auto|]. exists (removelast cells), (last cells e). split; [apply front_last; auto|auto].
    - intros q I U. apply in_app_or in I as [I|[<- | []]].
      + destruct (F q I U) as [(v & V & Hv)|(v & R & [L|(f & e & X1 & X2 & X3)])]; [left; exists v; auto|right; exists v; auto|].
        right. exists v. split; [auto|]. right. exists f, e. auto.
      + unfold point_effect in E. rewrite U in E. destruct E as (e & V & [(Ie & ->)|(cells & R & [(L & ->)|(L & ->)])]).
        * left. exists e. auto.
        * right. exists cells. auto.
        * right. exists cells. split; [auto|]. right. exists (removelast cells), (last cells e). split; [apply front_last; auto|]. cbn [fst snd].
          split; [apply insert_in; auto|]. intros g Ig. apply insert_all_in; auto.
    - intros q I U. apply in_app_or in I as [I|[<- | []]].
      + destruct (C q I U) as [(v & V & Hv)|(v & R & X)]; [left; exists v; auto|right; exists v; auto].
      + unfold point_effect in E. rewrite U in E. destruct E as (e & V & [(Ie & ->)|(cells & R & ->)]).
        * left. exists e. auto.
        * right. exists cells. split; [auto|]. intros g Ig. cbn [fst]. apply insert_all_in; auto.
  Qed.
  Lemma points_swept : forall pts done s s', occ_points fuel garbage cfg inv T s pts = Ok (Some s') -> ok s -> sweep done s -> ok s' /\ sweep (done ++ pts) s'.
  Proof.
    induction pts as [|p pts IH]; intros done s s' E N S; cbn [occ_points] in E.
    - inversion E; subst. rewrite app_nil_r. auto.
    - unfold obind in E. destruct (occ_point fuel garbage cfg inv T s p) as [[s1|]| |] eqn:P; cbn [rbind] in E; try discriminate.
      apply point_ok in P. destruct (IH (done ++ [p]) s1 s' E (effect_nodup _ _ _ P N) (effect_swept _ _ _ _ P S)) as (A & B).
      rewrite <- app_assoc in B. auto.
  Qed.
  Lemma sweep_start : sweep [] (([], []) : list idx3 * list idx3).
  Proof. constructor; cbn [fst snd]; intros ? []. Qed.
End Sweep.

(** ** the map *)
Lemma filter_none : forall (A : Type) (f : A -> bool) s, (forall x, In x s -> f x = false) -> filter f s = [].
Proof. intros A f s. induction s as [|a s IH]; intros H; [auto|]. cbn [filter]. rewrite (H a (or_introl eq_refl)). apply IH. intros x I. apply H. right; auto. Qed.
Lemma about_map : forall g b s, NoDup s -> oabout g (map (fun x => (b, x)) s) = if cell_in g s then [b] else [].
Proof.
  intros g b s N. unfold oabout. induction N as [|a s NI N IH]; [reflexivity|]. cbn [map filter cell_in existsb snd].
  destruct (idx_eqb_spec a g) as [-> | NE].
  - rewrite idx_eqb_refl. cbn [orb]. rewrite filter_none; [reflexivity|]. intros x I. apply in_map_iff in I as (y & <- & Iy). cbn [snd].
    destruct (idx_eqb_spec y g) as [-> | ]; [contradiction|auto].
  - destruct (idx_eqb_spec g a) as [E|_]; [congruence|]. cbn [orb]. exact IH.
Qed.
Lemma oobs_end : forall cfg l misses hits l', sound_layer l -> NoDup misses -> NoDup hits -> (forall g, In g misses -> ~ In g hits) ->
  oobs cfg l (map (fun g => (false, g)) misses ++ map (fun g => (true, g)) hits) l' ->
  occ_observed cfg l (fun g => In g hits) (fun g => In g misses) l'.
Proof.
  intros cfg l misses hits l' W NM NH DJ [(GS & GV) FU OT MA VO]. set (done := map (fun g => (false, g)) misses ++ map (fun g => (true, g)) hits) in *.
  assert (R : forall b, oreach l done b <-> exists g, (In g hits \/ In g misses) /\ home_block l g = b).
  { intros b. unfold oreach, done. split.
    - intros (e & I & E). exists (snd e). split; [|auto]. apply in_app_or in I as [I|I]; apply in_map_iff in I as (y & <- & Iy); auto.
    - intros (g & [I|I] & E); [exists (true, g)|exists (false, g)]; (split; [|auto]); apply in_or_app; [right|left]; apply in_map_iff; exists g; auto. }
  assert (AB : forall g, oabout g done = (if cell_in g misses then [false] else []) ++ (if cell_in g hits then [true] else [])).
  { intros g. rewrite <- (about_map g false misses NM), <- (about_map g true hits NH). unfold oabout, done. rewrite filter_app, map_app. reflexivity. }
  assert (CI : forall g s, (In g s -> cell_in g s = true) /\ (~ In g s -> cell_in g s = false)).
  { intros g s. split; [apply cell_in_spec|]. intros H. destruct (cell_in g s) eqn:E; [apply cell_in_spec in E; contradiction|auto]. }
  constructor.
  - intros g I. change (ocontent l' g = updateOccupancyVoxel cfg true (ocontent l g)). rewrite VO, AB.
    rewrite (proj1 (CI g hits) I), (proj2 (CI g misses)); [reflexivity|]. intros X; exact (DJ g X I).
  - intros g I. change (ocontent l' g = updateOccupancyVoxel cfg false (ocontent l g)). rewrite VO, AB.
    rewrite (proj1 (CI g misses) I), (proj2 (CI g hits)); [reflexivity|]. exact (DJ g I).
  - intros g I1 I2. change (ocontent l' g = ocontent l g). rewrite VO, AB, (proj2 (CI g misses) I2), (proj2 (CI g hits) I1). reflexivity.
  - intros b. unfold hasBlock. rewrite <- R. destruct (oreach_dec l done b) as [H|H].
    + destruct (MA b H) as (x & -> & _). tauto.
    + rewrite (OT b H). tauto.
  - intros b H. apply OT. rewrite R. auto.
  - intros g I. destruct (MA (home_block l g)) as (x & X & U & K); [apply R; exists g; auto|]. exists x. auto.
  - split; [|auto]. destruct W as (V & _). split; [rewrite GV; auto|]. intros i x H. rewrite GV. apply (FU i); auto.
Qed.

Lemma swept_near : forall fuel garbage cfg l T points hit seen, occ_rays_near fuel garbage cfg l T points ->
  swept fuel garbage cfg l T points hit seen -> forall g, hit g \/ seen g -> near_index g.
Proof.
  intros fuel garbage cfg l T points hit seen N [H S _ _] g [I|I].
  - destruct (H g I) as (p & v & f & X1 & X2 & X3 & X4 & X5). pose proof (N p v X1 ltac:(congruence) X3) as F. rewrite Forall_forall in F. apply F. rewrite X5. apply in_or_app. right. left. auto.
  - destruct (S g I) as (p & v & X1 & X2 & [(X3 & X4)|(X3 & X4 & f & e & X5 & X6)]); pose proof (N p v X1 ltac:(congruence) X2) as F; rewrite Forall_forall in F; apply F; [auto|].
    rewrite X5. apply in_or_app; auto.
Qed.
Lemma integrate_ok : forall fuel garbage cfg T points walk1 walk2 l sets, sound_layer l -> (forall s, Permutation (walk1 s) s) -> (forall s, Permutation (walk2 s) s) ->
  occ_rays_near fuel garbage cfg l T points ->
  occ_points fuel garbage cfg (inv_of (l_size l)) T ([], []) points = Ok (Some sets) ->
  exists l', occ_integrate fuel garbage cfg T points walk1 walk2 l = Ok (Some l') /\
    swept fuel garbage cfg l T points (fun g => In g (snd sets)) (fun g => In g (fst sets)) /\
    occ_observed (oo_log cfg) l (fun g => In g (snd sets)) (fun g => In g (fst sets) /\ ~ In g (snd sets)) l'.
Proof.
  intros fuel garbage cfg T points walk1 walk2 l [free occ] W P1 P2 NR E.
  destruct (points_swept fuel garbage cfg l T points [] ([], []) (free, occ) E) as ((N1 & N2) & S). { split; constructor. } { apply sweep_start. }
  cbn [app] in S. cbn [fst snd] in *. unfold occ_integrate. rewrite E. unfold obind. cbn [rbind].
  set (fr := filter (fun g => negb (cell_in g occ)) free).
  assert (FI : forall g, In g fr <-> In g free /\ ~ In g occ).
  { intros g. unfold fr. rewrite filter_In. rewrite negb_true_iff. split; intros (A & B); (split; [auto|]).
    - intros I. apply cell_in_spec in I. congruence.
    - destruct (cell_in g occ) eqn:C; [apply cell_in_spec in C; contradiction|auto]. }
  pose proof (swept_near fuel garbage cfg l T points _ _ NR S) as NE.
  assert (NF : Forall near_index (walk1 fr)). { apply Forall_forall. intros g I. apply NE. right. apply FI. apply (Permutation_in _ (P1 fr)), I. }
  assert (NO : Forall near_index (walk2 occ)). { apply Forall_forall. intros g I. apply NE. left. apply (Permutation_in _ (P2 occ)), I. }
  destruct (oobs_run (oo_log cfg) l false (walk1 fr) [] l None W (oobs_start _ _ W) NF ltac:(discriminate)) as (l1 & c1 & E1 & O1). cbn [app] in O1.
  destruct (oobs_run (oo_log cfg) l true (walk2 occ) _ l1 None W O1 NO ltac:(discriminate)) as (l2 & c2 & E2 & O2).
  exists l2. rewrite E1. cbn [rbind fst]. rewrite E2. cbn [rbind fst]. split; [reflexivity|]. split; [exact S|].
  assert (K : occ_observed (oo_log cfg) l (fun g => In g (walk2 occ)) (fun g => In g (walk1 fr)) l2).
  { apply oobs_end; auto.
    - apply (Permutation_NoDup (Permutation_sym (P1 fr))). apply NoDup_filter, N1.
    - apply (Permutation_NoDup (Permutation_sym (P2 occ))), N2.
    - intros g I J. apply (Permutation_in _ (P1 fr)), FI in I. apply (Permutation_in _ (P2 occ)) in J. tauto. }
  assert (Q2 : forall g, In g (walk2 occ) <-> In g occ) by (intros g; split; apply Permutation_in; [|symmetry]; apply P2).
  assert (Q1 : forall g, In g (walk1 fr) <-> In g free /\ ~ In g occ).
  { intros g. rewrite <- FI. split; apply Permutation_in; [|symmetry]; apply P1. }
  destruct K as [K1 K2 K3 K4 K5 K6 K7]. constructor.
  - intros g H. apply K1, Q2, H.
  - intros g H. apply K2, Q1, H.
  - intros g H1 H2. apply K3; [rewrite Q2|rewrite Q1]; auto.
  - intros b. rewrite K4. split; (intros [H|(g & H & HB)]; [auto|right; exists g; split; [|auto]]); rewrite Q1, Q2 in *; tauto.
  - intros b H. apply K5. intros (g & Hg & HB). apply H. exists g. rewrite Q1, Q2 in Hg. tauto.
  - intros g H. apply K6. rewrite Q1, Q2. tauto.
  - auto.
Qed.

(** ** rays that fit *)
Lemma cast_good : forall fuel garbage (S : R) inv a ra b rb, (bpow radix2 (-20) <= S)%R -> (S <= bpow radix2 20)%R -> ffin inv = true ->
  (bpow radix2 (-20) <= FR inv <= bpow radix2 10)%R -> (S * FR inv <= bpow radix2 20)%R -> good S a ra -> good S b rb -> 2 ^ 24 <= Z.of_nat fuel ->
  exists vb v, getGridIndexFromScaledPoint (pt_scale b inv) = Some vb /\
    castRay fuel garbage (pt_scale a inv) (pt_scale b inv) = Ok (Some v) /\ Forall near_index v.
Proof.
  intros fuel g S inv a ra b rb S1 S2 Fi Hi HS Ga Gb HF.
  assert (SI : (S * FR inv <= bpow radix2 28)%R) by (eapply Rle_trans; [exact HS|]; apply bpow_le; lia).
  pose proof (bpow_gt_0 radix2 (-20)) as BP. assert (QP : (0 < S * FR inv)%R) by (apply Rmult_lt_0_compat; lra).
  destruct (good_voxel _ a _ inv S1 S2 Ga Fi Hi SI) as (va & Va & _ & Ia). destruct (good_voxel _ b _ inv S1 S2 Gb Fi Hi SI) as (vb & Vb & _ & Ib).
  assert (BD : forall x r v, good S x r -> in_voxel (bpow radix2 (-18) * (S * FR inv) + 2 / 1000000) (FR inv) r v -> all3 (fun c => Z.abs c <= 2 ^ 21 + 10) v).
  { intros x r v ((_ & X) & (_ & Y) & (_ & Z)) (I1 & I2 & I3).
    assert (K : forall c i, (Rabs c <= 2 * S)%R -> in_cell (bpow radix2 (-18) * (S * FR inv) + 2 / 1000000) (c * FR inv) i -> Z.abs i <= 2 ^ 21 + 10).
    { intros c i H I. apply (in_cell_bound (S * FR inv) (c * FR inv)); auto.
      rewrite Rabs_mult, (Rabs_pos_eq (FR inv)), <- Rmult_assoc by lra. apply Rmult_le_compat_r; lra. }
    split; [exact (K _ _ X I1)|]. split; [exact (K _ _ Y I2)|exact (K _ _ Z I3)]. }
  pose proof (BD _ _ _ Ga Ia) as (X1 & X2 & X3). pose proof (BD _ _ _ Gb Ib) as (Y1 & Y2 & Y3). exists vb.
  assert (M : manhattan va vb <= 6 * 2 ^ 21 + 60) by (unfold manhattan; lia). assert (M0 : 0 <= manhattan va vb) by (unfold manhattan; lia).
  destruct (ray_chain g _ _ va vb Va Vb ltac:(lia)) as (v & C & Len & H & CH).
  exists v. split; [exact Vb|]. split; [apply C; lia|]. assert (LV : Z.of_nat (length v) = manhattan va vb + 1) by lia.
  apply Forall_forall. intros x I.
  assert (DB : Z.abs (vx (direction (pt_scale a inv) (pt_scale b inv))) <= 1 /\ Z.abs (vy (direction (pt_scale a inv) (pt_scale b inv))) <= 1 /\ Z.abs (vz (direction (pt_scale a inv) (pt_scale b inv))) <= 1)
    by (unfold direction, zip3; cbn [vx vy vz]; split; [|split]; apply sgn_le).
  pose proof (chain_within _ v va (2 ^ 21 + 10) DB H CH ltac:(unfold all3; auto) x I) as (Z1 & Z2 & Z3). unfold near_index, all3. lia.
Qed.
Lemma zero_f0 : FR f0 = 0%R /\ ffin f0 = true.
Proof. split; reflexivity. Qed.
Lemma occ_ray_total : forall fuel garbage cfg l T p, 2 ^ 24 <= Z.of_nat fuel -> occ_use_of cfg T p <> Unused -> occ_ray_fits cfg l T p ->
  exists e v, end_voxel cfg l T p e /\ occ_ray fuel garbage cfg l T p v /\ Forall near_index v.
Proof.
  intros fuel g cfg l T p HF U (A & HS). unfold end_voxel, occ_ray, occ_end. cbv zeta. pose proof (use_cases cfg T p) as UC. cbv zeta in UC.
  set (o := p_position T) in *. set (q := p_apply T p) in *. set (inv := inv_of (l_size l)) in *. set (L := oo_max_ray cfg) in *. destruct zero_f0 as (Z0 & F0).
  destruct (S_facts o q f0 L inv A) as (S1 & S2 & _ & _ & _ & _ & NO & NQ & _).
  assert (S3 : (sumS o q f0 <= bpow radix2 20)%R) by (eapply Rle_trans; [exact S2|]; apply bpow_le; lia).
  pose proof A as (O & P & _ & _ & (FL & BL) & L0 & Fi & Hi & HN).
  assert (HS' : (sumS o q f0 * FR inv <= bpow radix2 20)%R) by (unfold sumS; rewrite Z0, Rplus_0_r; exact HS).
  pose proof (good_self o q f0 L inv A o (fin15 o O) NO) as GO. pose proof (good_self o q f0 L inv A q (fin15 q P) NQ) as GQ.
  destruct (occ_use_of cfg T p) eqn:EU; [congruence| |].
  - destruct UC as (_ & UC).
    assert (EL : fmin (fmax (fsub (norm3 (pt_sub q o)) f0) f0) L = L).
    { destruct (norm_err q o) as (Fn & e & He & En).
      { apply (upto3_mono 15 40); [lia|exact P]. } { apply (upto3_mono 15 40); [lia|exact O]. } { eapply Rle_trans; [|exact HN]. apply bpow_le. lia. }
      set (d := norm3 (pt_sub q o)) in *. assert (LT : (FR L < FR d)%R) by (apply flt_R; auto).
      destruct (fsub_R d f0 Fn F0) as (E1 & F1). { rewrite Z0, Rminus_0_r, rnd32_FR. apply FR_lt_max. }
      rewrite Z0, Rminus_0_r, rnd32_FR in E1. unfold fmax.
      assert (C : flt (fsub d f0) f0 = false). { destruct (flt (fsub d f0) f0) eqn:C; [|auto]. apply flt_R in C; auto. rewrite E1, Z0 in C. lra. }
      rewrite C. unfold fmin. assert (C2 : flt L (fsub d f0) = true) by (apply flt_R; auto; rewrite E1; exact LT). rewrite C2. reflexivity. }
    destruct (len_close o q f0 L inv A) as (CL & LB). rewrite EL in CL.
    destruct (good_move o q f0 L inv A _ _ o CL LB (fin15 o O) NO) as (GM & _).
    destruct (cast_good fuel g _ inv _ _ _ _ S1 S3 Fi Hi HS' GO GM HF) as (e & v & X1 & X2 & X3). exists e, v. auto.
  - destruct (cast_good fuel g _ inv _ _ _ _ S1 S3 Fi Hi HS' GO GQ HF) as (e & v & X1 & X2 & X3). exists e, v. auto.
Qed.
Lemma occ_points_total : forall fuel garbage cfg l T points s, 2 ^ 24 <= Z.of_nat fuel ->
  (forall p, In p points -> occ_use_of cfg T p <> Unused -> occ_ray_fits cfg l T p) ->
  exists s', occ_points fuel garbage cfg (inv_of (l_size l)) T s points = Ok (Some s').
Proof.
  intros fuel g cfg l T points. induction points as [|p points IH]; intros s HF H; cbn [occ_points]; [eexists; reflexivity|].
  assert (X : exists s1, occ_point fuel g cfg (inv_of (l_size l)) T s p = Ok (Some s1)).
  { destruct s as [free occ]. unfold occ_point. pose proof (use_cases cfg T p) as UC. cbv zeta in UC.
    pose proof (occ_ray_total fuel g cfg l T p HF) as RT. unfold end_voxel, occ_ray, occ_end in RT. cbv zeta in RT.
    destruct (occ_use_of cfg T p) eqn:U.
    - rewrite UC. eexists; reflexivity.
    - destruct UC as (U1 & U2). rewrite U1, U2. destruct RT as (e & v & E1 & E2 & _); [discriminate|apply H; [left; auto|congruence]|].
      rewrite E1. cbn [of_opt rbind]. destruct (cell_in e free); [eexists; reflexivity|]. rewrite E2. cbn [obind rbind]. eexists; reflexivity.
    - destruct UC as (U1 & U2). rewrite U1, U2. destruct RT as (e & v & E1 & E2 & _); [discriminate|apply H; [left; auto|congruence]|].
      rewrite E1. cbn [of_opt rbind]. destruct (cell_in e occ); [eexists; reflexivity|]. rewrite E2. cbn [obind rbind]. destruct (2 <? _); eexists; reflexivity. }
  destruct X as (s1 & X). rewrite X. cbn [obind rbind]. apply IH; auto. intros q I. apply H. right; auto.
Qed.
