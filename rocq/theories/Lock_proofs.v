(** Proofs about concurrent voxel updates. *)
From Coq Require Import ZArith List Bool Lia.
From Verif Require Import F32 Types Index Voxel Layer Assoc_lemmas Threads Threads_proofs Queue Update Update_spec.
Import ListNotations.
Open Scope nat_scope.

Local Opaque fadd fsub fmul fdiv flt fabs blendTwoColors req_sdf req_weight.

Section L.
  Variable cfg : TsdfConfig.
  Variable vs : f32.
  Variable mem0 : idx3 -> TsdfVoxel.
  Variable progs : list (list request).

  Definition colour_res (q : request) (v : TsdfVoxel) : res Color :=
    if flt (fabs (req_sdf vs q)) (c_trunc cfg)
    then of_opt (blendTwoColors (t_color v) (t_weight v) (q_color q) (req_weight cfg vs q))
    else Ok (t_color v).
  Definition nw_of q v := fadd (t_weight v) (req_weight cfg vs q).
  Definition ns_of q v := new_sdf (req_sdf vs q) (req_weight cfg vs q) (t_distance v) (t_weight v) (nw_of q v).

  (** what is in memory while a thread works on [q], [v] the value before *)
  Definition rel (q : request) (pc : upc) (v m : TsdfVoxel) : Prop :=
    match pc with
    | UIdle => False
    | ULocked => m = v
    | UWeight nw => m = v /\ nw = nw_of q v /\ flt nw kEpsilon = false
    | USdf nw ns => m = v /\ nw = nw_of q v /\ flt nw kEpsilon = false /\ ns = ns_of q v
    | UColor nw ns => nw = nw_of q v /\ flt nw kEpsilon = false /\ ns = ns_of q v /\
        exists c, colour_res q v = Ok c /\ m = MkTsdf (t_distance v) (t_weight v) c
    | UDist nw => nw = nw_of q v /\ flt nw kEpsilon = false /\
        exists c, colour_res q v = Ok c /\ m = MkTsdf (clip_sdf (c_trunc cfg) (ns_of q v)) (t_weight v) c
    | UDone => updateTsdfVoxel cfg vs q v = Ok m
    | UUndef => updateTsdfVoxel cfg vs q v = UB
    end.

  Lemma update_unfold : forall q v, updateTsdfVoxel cfg vs q v =
    if flt (nw_of q v) kEpsilon then Ok v
    else rbind (colour_res q v) (fun c => Ok (MkTsdf (clip_sdf (c_trunc cfg) (ns_of q v)) (fmin (c_max_weight cfg) (nw_of q v)) c)).
  Proof. intros q v. unfold updateTsdfVoxel, nw_of, colour_res, ns_of, nw_of. cbv zeta. apply eq_refl. Qed.

  Definition crit (s : ustate) (t : nat) (q : request) (pc : upc) : Prop :=
    exists rest, nth_error (us_threads s) t = Some (MkUT pc (q :: rest)) /\ pc <> UIdle.

  Definition val (o : order) (i : idx3) : res TsdfVoxel := updates cfg vs (calls_for i o) (mem0 i).

  Record inv (s : ustate) (o : order) : Prop := MkInv {
    inv_len : length (us_threads s) = length progs;
    inv_in : forall e, In e o -> fst e < length progs;
    inv_prog : forall t p th, nth_error progs t = Some p -> nth_error (us_threads s) t = Some th ->
      p = calls_of t o ++ ut_todo th;
    inv_lock : forall m t, us_lock s m = Some t <-> exists q pc, crit s t q pc /\ mutex_of (q_idx q) = m;
    inv_pc : forall t th, nth_error (us_threads s) t = Some th -> ut_todo th = [] -> ut_pc th = UIdle;
    inv_busy : forall t q pc, crit s t q pc -> exists v, val o (q_idx q) = Ok v /\ rel q pc v (us_mem s (q_idx q));
    inv_free : forall i, (forall t q pc, crit s t q pc -> q_idx q <> i) -> val o i = Ok (us_mem s i) }.

  Lemma idx_eqb_eq : forall a b, idx_eqb a b = true -> a = b.
  Proof. intros a b H. destruct (idx_eqb_spec a b); congruence. Qed.

  Lemma nth_map_idle : forall t, nth_error (map (MkUT UIdle) progs) t =
    option_map (MkUT UIdle) (nth_error progs t).
  Proof. intros. apply nth_error_map. Qed.

  Lemma inv_init : inv (uinit mem0 progs) [].
  Proof.
    constructor; cbn [uinit us_mem us_lock us_threads].
    - apply map_length.
    - intros e [].
    - intros t p th Hp Ht. rewrite nth_map_idle, Hp in Ht. cbn in Ht. injection Ht as <-. reflexivity.
    - intros m t. split; [discriminate|]. intros (q & pc & (rest & H & N) & _). cbn [uinit us_threads] in H.
      rewrite nth_map_idle in H. destruct (nth_error progs t); cbn in H; [injection H as <- _; congruence|discriminate].
    - intros t th H _. rewrite nth_map_idle in H. destruct (nth_error progs t); cbn in H; [injection H as <-; reflexivity|discriminate].
    - intros t q pc (rest & H & N). cbn [uinit us_threads] in H.
      rewrite nth_map_idle in H. destruct (nth_error progs t); cbn in H; [injection H as <- _; congruence|discriminate].
    - intros i _. reflexivity.
  Qed.

  (** two threads inside the critical sections of the same mutex are the same thread *)
  Lemma crit_excl : forall s o t q pc t' q' pc', inv s o -> crit s t q pc -> crit s t' q' pc' ->
    mutex_of (q_idx q) = mutex_of (q_idx q') -> t = t'.
  Proof.
    intros s o t q pc t' q' pc' I H H' E.
    assert (A : us_lock s (mutex_of (q_idx q)) = Some t) by (apply (inv_lock _ _ I); eauto).
    assert (B : us_lock s (mutex_of (q_idx q)) = Some t') by (apply (inv_lock _ _ I); exists q', pc'; auto).
    congruence.
  Qed.

  Lemma nth_set : forall (l : list uthread) t x t' y, nth_error l t = Some y ->
    nth_error (set_th t x l) t' = if Nat.eqb t' t then Some x else nth_error l t'.
  Proof.
    intros l t x t' y H.
    destruct (Nat.eqb_spec t' t) as [->|N]; [eapply set_th_same; eauto|apply set_th_other; auto].
  Qed.

  (** a step inside the critical section *)
  Lemma inv_local : forall s o t q rest pc pc' mem' v, inv s o ->
    nth_error (us_threads s) t = Some (MkUT pc (q :: rest)) -> pc <> UIdle -> pc' <> UIdle ->
    val o (q_idx q) = Ok v -> rel q pc' v (mem' (q_idx q)) ->
    (forall j, j <> q_idx q -> mem' j = us_mem s j) ->
    inv (MkUS mem' (us_lock s) (set_th t (MkUT pc' (q :: rest)) (us_threads s))) o.
  Proof.
    intros s o t q rest pc pc' mem' v I Ht Np Np' Hv Hr Hm.
    set (s' := MkUS _ _ _).
    assert (NT : forall t', nth_error (us_threads s') t' = if Nat.eqb t' t then Some (MkUT pc' (q :: rest)) else nth_error (us_threads s) t').
    { intros. subst s'. cbn [us_threads]. eapply nth_set; eauto. }
    assert (CR : forall t' q', (exists pc'', crit s' t' q' pc'') <-> (exists pc'', crit s t' q' pc'')).
    { intros t' q'. unfold crit. split; intros (p & r & E & N).
      - rewrite NT in E. destruct (Nat.eqb_spec t' t) as [->|NE]; [injection E as <- <- <-; eauto|eauto].
      - destruct (Nat.eqb_spec t' t) as [->|NE].
        + rewrite Ht in E. injection E as <- <- <-. exists pc', rest. rewrite NT, Nat.eqb_refl. auto.
        + exists p, r. rewrite NT. destruct (Nat.eqb_spec t' t); [congruence|auto]. }
    assert (CT : crit s t q pc) by (exists rest; auto).
    constructor.
    - subst s'. cbn [us_threads]. rewrite set_th_length. apply I.
    - apply I.
    - intros t' p th Hp Hth. rewrite NT in Hth. destruct (Nat.eqb_spec t' t) as [->|NE].
      + injection Hth as <-. cbn [ut_todo]. apply (inv_prog _ _ I t p _ Hp Ht).
      + eapply (inv_prog _ _ I); eauto.
    - intros m t'. subst s'. cbn [us_lock]. rewrite (inv_lock _ _ I m t'). split.
      + intros (q' & p' & C & E). destruct (proj2 (CR t' q') (ex_intro _ p' C)) as (p'' & C'). eauto.
      + intros (q' & p' & C & E). destruct (proj1 (CR t' q') (ex_intro _ p' C)) as (p'' & C'). eauto.
    - intros t' th Hth E. rewrite NT in Hth. destruct (Nat.eqb_spec t' t) as [->|NE].
      + injection Hth as <-. discriminate.
      + eapply (inv_pc _ _ I); eauto.
    - intros t' q' p' (r & E & N). rewrite NT in E. destruct (Nat.eqb_spec t' t) as [->|NE].
      + injection E as <- <- <-. exists v. split; auto.
      + assert (C' : crit s t' q' p') by (exists r; auto). destruct (inv_busy _ _ I _ _ _ C') as (v' & V & R).
        exists v'. split; auto. subst s'. cbn [us_mem]. rewrite Hm; auto. intros EQ. apply NE.
        symmetry. eapply crit_excl; eauto. rewrite EQ. auto.
    - intros i Hi. assert (NI : i <> q_idx q).
      { intros ->. apply (Hi t q pc'); [|reflexivity]. exists rest. rewrite NT, Nat.eqb_refl. auto. }
      subst s'. cbn [us_mem]. rewrite Hm by auto. apply (inv_free _ _ I). intros t' q' p' C.
      destruct (proj2 (CR t' q') (ex_intro _ p' C)) as (p'' & C'). eapply Hi; eauto.
  Qed.

  Lemma set_mem_same : forall m i v, set_mem m i v i = v.
  Proof. intros. unfold set_mem. rewrite idx_eqb_refl. auto. Qed.
  Lemma set_mem_other : forall m i v j, j <> i -> set_mem m i v j = m j.
  Proof.
    intros. unfold set_mem. destruct (idx_eqb j i) eqn:E; auto. apply idx_eqb_eq in E. congruence.
  Qed.

  Lemma updates_app : forall qs qs' v, updates cfg vs (qs ++ qs') v = rbind (updates cfg vs qs v) (updates cfg vs qs').
  Proof.
    intros qs qs'. induction qs as [|q qs IH]; intros v; cbn; auto.
    destruct (updateTsdfVoxel cfg vs q v); cbn [rbind]; auto.
  Qed.
  Lemma calls_for_snoc : forall i o t q, calls_for i (o ++ [(t, q)]) =
    calls_for i o ++ (if idx_eqb (q_idx q) i then [q] else []).
  Proof.
    intros. unfold calls_for. rewrite filter_app, map_app. cbn. destruct (idx_eqb (q_idx q) i); reflexivity.
  Qed.
  Lemma calls_of_snoc : forall t o t' q, calls_of t (o ++ [(t', q)]) =
    calls_of t o ++ (if Nat.eqb t' t then [q] else []).
  Proof.
    intros. unfold calls_of. rewrite filter_app, map_app. cbn. destruct (Nat.eqb t' t); reflexivity.
  Qed.
  Lemma updates_snoc : forall qs q v v1, updates cfg vs qs v = Ok v1 ->
    updates cfg vs (qs ++ [q]) v = updateTsdfVoxel cfg vs q v1.
  Proof.
    intros. rewrite updates_app, H. cbn [rbind updates]. destruct (updateTsdfVoxel cfg vs q v1); reflexivity.
  Qed.

  (** leaving the critical section *)
  Lemma inv_unlock : forall s o t q rest, inv s o ->
    nth_error (us_threads s) t = Some (MkUT UDone (q :: rest)) ->
    inv (MkUS (us_mem s) (set_lock (us_lock s) (mutex_of (q_idx q)) None)
           (set_th t (MkUT UIdle rest) (us_threads s))) (o ++ [(t, q)]).
  Proof.
    intros s o t q rest I Ht. set (s' := MkUS _ _ _).
    assert (CT : crit s t q UDone) by (exists rest; split; [auto|discriminate]).
    assert (NT : forall t', nth_error (us_threads s') t' = if Nat.eqb t' t then Some (MkUT UIdle rest) else nth_error (us_threads s) t').
    { intros. subst s'. cbn [us_threads]. eapply nth_set; eauto. }
    assert (LT : t < length progs). { rewrite <- (inv_len _ _ I). apply nth_error_Some. congruence. }
    assert (CR : forall t' q' p', crit s' t' q' p' <-> crit s t' q' p' /\ t' <> t).
    { intros t' q' p'. unfold crit. split.
      - intros (r & E & N). rewrite NT in E. destruct (Nat.eqb_spec t' t) as [->|NE]; [injection E as <- _; congruence|].
        split; eauto.
      - intros ((r & E & N) & NE). exists r. rewrite NT. destruct (Nat.eqb_spec t' t); [congruence|auto]. }
    destruct (inv_busy _ _ I _ _ _ CT) as (v & V & R). cbn [rel] in R.
    assert (VAL : forall i, val (o ++ [(t, q)]) i = if idx_eqb (q_idx q) i then Ok (us_mem s i) else val o i).
    { intros i. unfold val. rewrite calls_for_snoc. destruct (idx_eqb (q_idx q) i) eqn:E.
      - apply idx_eqb_eq in E. subst i. rewrite (updates_snoc _ _ _ _ V). auto.
      - rewrite app_nil_r. auto. }
    constructor.
    - subst s'. cbn [us_threads]. rewrite set_th_length. apply I.
    - intros e He. apply in_app_iff in He. destruct He as [He|[<-|[]]]; [apply (inv_in _ _ I); auto|auto].
    - intros t' p th Hp Hth. rewrite calls_of_snoc. rewrite NT in Hth. destruct (Nat.eqb_spec t' t) as [->|NE].
      + injection Hth as <-. cbn [ut_todo]. rewrite Nat.eqb_refl, <- app_assoc. apply (inv_prog _ _ I t p _ Hp Ht).
      + destruct (Nat.eqb_spec t t'); [congruence|]. rewrite app_nil_r. eapply (inv_prog _ _ I); eauto.
    - intros m t'. subst s'. cbn [us_lock]. unfold set_lock. destruct (Z.eqb_spec m (mutex_of (q_idx q))) as [->|NM].
      + split; [discriminate|]. intros (q' & p' & C & E). apply CR in C. destruct C as (C & NE). exfalso. apply NE.
        eapply crit_excl; eauto.
      + rewrite (inv_lock _ _ I m t'). split.
        * intros (q' & p' & C & E). exists q', p'. split; auto. apply CR. split; auto. intros ->.
          destruct C as (r & E1 & _). rewrite Ht in E1. injection E1 as _ <- _. congruence.
        * intros (q' & p' & C & E). apply CR in C. destruct C. eauto.
    - intros t' th Hth E. rewrite NT in Hth. destruct (Nat.eqb_spec t' t) as [->|NE].
      + injection Hth as <-. reflexivity.
      + eapply (inv_pc _ _ I); eauto.
    - intros t' q' p' C. apply CR in C. destruct C as (C & NE). rewrite VAL.
      destruct (idx_eqb (q_idx q) (q_idx q')) eqn:E.
      + apply idx_eqb_eq in E. exfalso. apply NE. eapply crit_excl; eauto. rewrite E. auto.
      + subst s'. cbn [us_mem]. eapply (inv_busy _ _ I); eauto.
    - intros i Hi. rewrite VAL. subst s'. cbn [us_mem]. destruct (idx_eqb (q_idx q) i) eqn:E; auto.
      apply (inv_free _ _ I). intros t' q' p' C EQ. destruct (Nat.eq_dec t' t) as [->|NE].
      + destruct C as (r & E1 & _). rewrite Ht in E1. injection E1 as _ <- _. subst i. rewrite idx_eqb_refl in E. discriminate.
      + apply (Hi t' q' p'); auto. apply CR. auto.
  Qed.

  (** entering it *)
  Lemma inv_enter : forall s o t q rest, inv s o ->
    nth_error (us_threads s) t = Some (MkUT UIdle (q :: rest)) -> us_lock s (mutex_of (q_idx q)) = None ->
    inv (MkUS (us_mem s) (set_lock (us_lock s) (mutex_of (q_idx q)) (Some t))
           (set_th t (MkUT ULocked (q :: rest)) (us_threads s))) o.
  Proof.
    intros s o t q rest I Ht HL. set (s' := MkUS _ _ _).
    assert (NT : forall t', nth_error (us_threads s') t' = if Nat.eqb t' t then Some (MkUT ULocked (q :: rest)) else nth_error (us_threads s) t').
    { intros. subst s'. cbn [us_threads]. eapply nth_set; eauto. }
    assert (NC : forall t' q' p', crit s t' q' p' -> mutex_of (q_idx q') <> mutex_of (q_idx q)).
    { intros t' q' p' C E. assert (us_lock s (mutex_of (q_idx q)) = Some t') by (apply (inv_lock _ _ I); eauto). congruence. }
    assert (CR : forall t' q' p', crit s' t' q' p' <-> crit s t' q' p' \/ (t' = t /\ q' = q /\ p' = ULocked)).
    { intros t' q' p'. unfold crit. split.
      - intros (r & E & N). rewrite NT in E. destruct (Nat.eqb_spec t' t) as [->|NE]; [injection E as <- <- <-; auto|].
        left; eauto.
      - intros [(r & E & N) | (-> & -> & ->)].
        + exists r. rewrite NT. destruct (Nat.eqb_spec t' t) as [->|NE]; [|auto]. rewrite Ht in E. injection E as <- _ _. congruence.
        + exists rest. rewrite NT, Nat.eqb_refl. split; [auto|discriminate]. }
    constructor.
    - subst s'. cbn [us_threads]. rewrite set_th_length. apply I.
    - apply I.
    - intros t' p th Hp Hth. rewrite NT in Hth. destruct (Nat.eqb_spec t' t) as [->|NE].
      + injection Hth as <-. cbn [ut_todo]. apply (inv_prog _ _ I t p _ Hp Ht).
      + eapply (inv_prog _ _ I); eauto.
    - intros m t'. subst s'. cbn [us_lock]. unfold set_lock. destruct (Z.eqb_spec m (mutex_of (q_idx q))) as [->|NM].
      + split.
        * intros E. injection E as <-. exists q, ULocked. split; auto. apply CR. auto.
        * intros (q' & p' & C & E). apply CR in C. destruct C as [C | (-> & -> & ->)]; [exfalso; eapply NC; eauto|auto].
      + rewrite (inv_lock _ _ I m t'). split.
        * intros (q' & p' & C & E). exists q', p'. split; auto. apply CR. auto.
        * intros (q' & p' & C & E). apply CR in C. destruct C as [C | (-> & -> & ->)]; [eauto|congruence].
    - intros t' th Hth E. rewrite NT in Hth. destruct (Nat.eqb_spec t' t) as [->|NE].
      + injection Hth as <-. discriminate.
      + eapply (inv_pc _ _ I); eauto.
    - intros t' q' p' C. apply CR in C. destruct C as [C | (-> & -> & ->)].
      + subst s'. cbn [us_mem]. eapply (inv_busy _ _ I); eauto.
      + exists (us_mem s (q_idx q)). split; [|reflexivity]. apply (inv_free _ _ I). intros t' q' p' C E. eapply NC; eauto. congruence.
    - intros i Hi. subst s'. cbn [us_mem]. apply (inv_free _ _ I). intros t' q' p' C. apply (Hi t' q' p'). apply CR. auto.
  Qed.

  Lemma inv_step : forall s o t, inv s o -> exists o', inv (ustep cfg vs s t) o'.
  Proof.
    intros s o t I. unfold ustep. destruct (nth_error (us_threads s) t) as [[pc [|q rest]]|] eqn:Ht; eauto.
    assert (B : pc <> UIdle -> exists v, val o (q_idx q) = Ok v /\ rel q pc v (us_mem s (q_idx q))).
    { intros N. apply (inv_busy _ _ I t). exists rest. auto. }
    destruct pc as [| |nw|nw ns|nw ns|nw| |].
    - destruct (us_lock s (mutex_of (q_idx q))) eqn:HL; [eauto|]. exists o. apply inv_enter; auto.
    - destruct (B ltac:(discriminate)) as (v & V & R). cbn [rel] in R. exists o.
      eapply inv_local; eauto; try discriminate.
      + destruct (flt _ kEpsilon); discriminate.
      + rewrite R. destruct (flt _ kEpsilon) eqn:E; cbn [rel]; [|auto]. rewrite update_unfold. unfold nw_of. rewrite E. auto.
    - destruct (B ltac:(discriminate)) as (v & V & R1 & R2 & R3). exists o.
      eapply inv_local; eauto; try discriminate. rewrite R1. cbn [rel]. repeat split; auto. subst nw. reflexivity.
    - destruct (B ltac:(discriminate)) as (v & V & R1 & R2 & R3 & R4). rewrite R1.
      destruct (flt (fabs (req_sdf vs q)) (c_trunc cfg)) eqn:E1.
      + destruct (blendTwoColors _ _ _ _) as [c|] eqn:E2.
        * exists o. eapply inv_local; eauto; try discriminate; [|intros; apply set_mem_other; auto].
          rewrite set_mem_same. cbn [rel]. repeat split; auto. exists c. unfold colour_res. rewrite E1, E2. auto.
        * exists o. eapply inv_local; eauto; try discriminate. cbn [rel].
          rewrite update_unfold. rewrite <- R2, R3. unfold colour_res. rewrite E1, E2. reflexivity.
      + exists o. eapply inv_local; eauto; try discriminate. cbn [rel]. repeat split; auto.
        exists (t_color v). unfold colour_res. rewrite E1, R1. destruct v; auto.
    - destruct (B ltac:(discriminate)) as (v & V & R2 & R3 & R4 & c & R5 & R6). exists o. rewrite R6.
      eapply inv_local; eauto; try discriminate; [|intros; apply set_mem_other; auto].
      rewrite set_mem_same. cbn [rel t_weight t_color]. repeat split; auto. exists c. subst ns. auto.
    - destruct (B ltac:(discriminate)) as (v & V & R2 & R3 & c & R5 & R6). exists o. rewrite R6.
      eapply inv_local; eauto; try discriminate; [|intros; apply set_mem_other; auto].
      rewrite set_mem_same. cbn [rel t_distance t_color]. rewrite update_unfold, <- R2, R3, R5. reflexivity.
    - exists (o ++ [(t, q)]). apply inv_unlock; auto.
    - eauto.
  Qed.

  Lemma inv_run : forall sched s o, inv s o -> exists o', inv (urun cfg vs s sched) o'.
  Proof.
    induction sched as [|t sched IH]; intros s o I; cbn; eauto.
    destruct (inv_step s o t I) as (o' & I'). eauto.
  Qed.

  Lemma finished_serial : forall s o, inv s o -> ufinished s ->
    interleaves progs o /\ serial_result cfg vs mem0 (us_mem s) o.
  Proof.
    intros s o I F. split; [split|].
    - apply (inv_in _ _ I).
    - intros t p Hp. assert (L : t < length (us_threads s)) by (rewrite (inv_len _ _ I); apply nth_error_Some; congruence).
      destruct (nth_error (us_threads s) t) as [th|] eqn:Ht; [|apply nth_error_None in Ht; lia].
      destruct (F th) as (_ & E); [eapply nth_error_In; eauto|].
      rewrite (inv_prog _ _ I t p th Hp Ht), E, app_nil_r. auto.
    - intros i. apply (inv_free _ _ I). intros t q pc (r & Ht & N). destruct (F _ (nth_error_In _ _ Ht)) as (_ & E). discriminate.
  Qed.

  (** ** deadlock freedom *)
  Definition pcw (pc : upc) : nat :=
    match pc with UIdle => 0 | ULocked => 1 | UWeight _ => 2 | USdf _ _ => 3 | UColor _ _ => 4 | UDist _ => 5 | UDone => 6 | UUndef => 6 end.
  Definition work (th : uthread) : nat := 7 * length (ut_todo th) - pcw (ut_pc th).
  Definition total (l : list uthread) : nat := list_sum (map work l).

  Lemma total_set : forall l t x y, nth_error l t = Some y -> work x < work y -> total (set_th t x l) < total l.
  Proof.
    intros l t x y H W. unfold total. revert t H. induction l as [|z l IH]; intros [|t] H; try discriminate; cbn [set_th map list_sum fold_right nth_error] in *.
    - injection H as ->. lia.
    - specialize (IH t H). unfold list_sum in *. lia.
  Qed.

  Definition undef_free (s : ustate) : Prop := forall th, In th (us_threads s) -> ut_pc th <> UUndef.

  Lemma step_works : forall s o, inv s o -> ~ ufinished s -> undef_free s ->
    exists t, total (us_threads (ustep cfg vs s t)) < total (us_threads s).
  Proof.
    intros s o I NF UF.
    assert (D : (exists t th, nth_error (us_threads s) t = Some th /\ ut_pc th <> UIdle) \/
                (forall th, In th (us_threads s) -> ut_pc th = UIdle)).
    { clear. induction (us_threads s) as [|th l IH].
      - right. intros th [].
      - destruct (ut_pc th) eqn:E; [|left; exists 0, th; cbn; split; [auto|congruence]..].
        destruct IH as [(t & th' & A & B)|IH]; [left; exists (S t), th'; auto|right]. intros th' [<-|H]; auto. }
    destruct D as [(t & [pc todo] & Ht & N)|D].
    - destruct todo as [|q rest].
      { pose proof (inv_pc _ _ I t _ Ht eq_refl). cbn in *. congruence. }
      exists t. unfold ustep. rewrite Ht. cbn [ut_pc] in N.
      assert (U : pc <> UUndef) by (apply (UF (MkUT pc (q :: rest))); eapply nth_error_In; eauto).
      destruct pc as [| |nw|nw ns|nw ns|nw| |]; try congruence; cbn [us_threads].
      + eapply total_set; eauto. unfold work. cbn [ut_pc ut_todo length]. destruct (flt _ kEpsilon); cbn [pcw]; lia.
      + eapply total_set; eauto. unfold work. cbn [ut_pc ut_todo length pcw]. lia.
      + destruct (flt _ _); [destruct (blendTwoColors _ _ _ _)|]; cbn [us_threads]; (eapply total_set; eauto); unfold work; cbn [ut_pc ut_todo length pcw]; lia.
      + eapply total_set; eauto. unfold work. cbn [ut_pc ut_todo length pcw]. lia.
      + eapply total_set; eauto. unfold work. cbn [ut_pc ut_todo length pcw]. lia.
      + eapply total_set; eauto. unfold work. cbn [ut_pc ut_todo length pcw]. lia.
    - assert (E : exists t th, nth_error (us_threads s) t = Some th /\ ut_todo th <> []).
      { assert (G : forall l, (forall th, In th l -> ut_pc th = UIdle) -> ~ (forall th, In th l -> ut_pc th = UIdle /\ ut_todo th = []) ->
                 exists t th, nth_error l t = Some th /\ ut_todo th <> []).
        { clear. induction l as [|th l IH]; intros A B; [exfalso; apply B; intros th []|].
          destruct (ut_todo th) eqn:E; [|exists 0, th; cbn; split; [auto|congruence]].
          destruct IH as (t & th' & X & Y); [intros; apply A; right; auto| |exists (S t), th'; auto].
          intros C. apply B. intros th' [<-|H]; [split; [apply A; left; auto|auto]|auto]. }
        apply G; auto. }
      destruct E as (t & [pc todo] & Ht & N). cbn [ut_todo] in N. destruct todo as [|q rest]; [congruence|].
      pose proof (D _ (nth_error_In _ _ Ht)) as P. cbn in P. subst pc.
      exists t. unfold ustep. rewrite Ht. destruct (us_lock s (mutex_of (q_idx q))) as [t'|] eqn:HL.
      + apply (inv_lock _ _ I) in HL. destruct HL as (q' & p' & (r & E & NP) & _). exfalso. apply NP.
        apply (D _ (nth_error_In _ _ E)).
      + cbn [us_threads]. eapply total_set; eauto. unfold work. cbn [ut_pc ut_todo length pcw]. lia.
  Qed.

  Lemma urun_app : forall a b s, urun cfg vs s (a ++ b) = urun cfg vs (urun cfg vs s a) b.
  Proof. induction a; intros; cbn; auto. Qed.

  (** every order of the given calls is defined *)
  Hypothesis DEF : forall i qs, incl qs (concat progs) -> exists v, updates cfg vs qs (mem0 i) = Ok v.

  Lemma inv_undef_free : forall s o, inv s o -> undef_free s.
  Proof.
    intros s o I th Hin E. apply In_nth_error in Hin. destruct Hin as (t & Ht).
    destruct th as [pc todo]. cbn in E. subst pc. destruct todo as [|q rest].
    { pose proof (inv_pc _ _ I t _ Ht eq_refl). discriminate. }
    destruct (inv_busy _ _ I t q UUndef) as (v & V & R); [exists rest; split; [auto|discriminate]|].
    cbn [rel] in R.
    assert (PI : forall t' p', nth_error progs t' = Some p' -> incl p' (concat progs)).
    { intros t' p' Hp x Hx. apply in_concat. exists p'. split; [eapply nth_error_In; eauto|auto]. }
    assert (TH : forall t', t' < length progs -> exists p' th', nth_error progs t' = Some p' /\ nth_error (us_threads s) t' = Some th').
    { intros t' L. destruct (nth_error progs t') eqn:E1; [|apply nth_error_None in E1; lia].
      destruct (nth_error (us_threads s) t') eqn:E2; [eauto|]. apply nth_error_None in E2. rewrite (inv_len _ _ I) in E2. lia. }
    destruct (DEF (q_idx q) (calls_for (q_idx q) o ++ [q])) as (v' & D).
    { intros x Hx. apply in_app_iff in Hx. destruct Hx as [Hx|[<-|[]]].
      - unfold calls_for in Hx. apply in_map_iff in Hx. destruct Hx as (e & <- & He). apply filter_In in He. destruct He as (He & _).
        destruct (TH (fst e) (inv_in _ _ I e He)) as (p' & th' & P1 & P2). apply (PI _ _ P1).
        rewrite (inv_prog _ _ I _ _ _ P1 P2). apply in_app_iff. left. unfold calls_of. apply in_map. apply filter_In.
        split; [auto|apply Nat.eqb_refl].
      - destruct (TH t) as (p' & th' & P1 & P2). { rewrite <- (inv_len _ _ I). apply nth_error_Some. congruence. }
        apply (PI _ _ P1). rewrite (inv_prog _ _ I _ _ _ P1 P2). rewrite Ht in P2. injection P2 as <-.
        apply in_app_iff. right. left. auto. }
    unfold val in V. rewrite (updates_snoc _ _ _ _ V) in D. congruence.
  Qed.

  Lemma can_finish : forall n s o, inv s o -> total (us_threads s) <= n -> exists sched, ufinished (urun cfg vs s sched).
  Proof.
    induction n as [|n IH]; intros s o I L.
    - assert (D : ufinished s \/ ~ ufinished s).
      { clear. unfold ufinished. induction (us_threads s) as [|th l IHl]; [left; intros th []|].
        destruct IHl as [A|A]; [|right; intros B; apply A; intros; apply B; right; auto].
        destruct th as [pc todo]. destruct pc, todo; try (left; intros th [<-|H]; auto; fail);
          right; intros B; destruct (B _ (or_introl eq_refl)) as (X & Y); discriminate. }
      destruct D as [D|D]; [exists []; auto|].
      destruct (step_works s o I D (inv_undef_free s o I)) as (t & T). lia.
    - assert (D : ufinished s \/ ~ ufinished s).
      { clear. unfold ufinished. induction (us_threads s) as [|th l IHl]; [left; intros th []|].
        destruct IHl as [A|A]; [|right; intros B; apply A; intros; apply B; right; auto].
        destruct th as [pc todo]. destruct pc, todo; try (left; intros th [<-|H]; auto; fail);
          right; intros B; destruct (B _ (or_introl eq_refl)) as (X & Y); discriminate. }
      destruct D as [D|D]; [exists []; auto|].
      destruct (step_works s o I D (inv_undef_free s o I)) as (t & T).
      destruct (inv_step s o t I) as (o' & I'). destruct (IH _ _ I') as (sched & F); [lia|].
      exists (t :: sched). auto.
  Qed.
End L.
