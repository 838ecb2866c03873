(** Proofs about concurrent block allocation ([Threads.astep]). *)
From Coq Require Import ZArith List Bool Permutation Lia Arith.
From Verif Require Import F32 Types Index Assoc Assoc_lemmas Layer Threads Threads_proofs.
Import ListNotations.
Open Scope nat_scope.

Definition block_of (vi : f32) (g : idx3) : option idx3 := getBlockIndexFromGlobalVoxelIndex g vi.
Definition resolve (st : astate) (b : idx3) : option nat :=
  match alookup b (a_layer st) with Some p => Some p | None => alookup b (a_temp st) end.
Definition critical (pc : apc) : bool :=
  match pc with PLocked _ | PMissing _ | PUnlock _ _ => true | _ => false end.

Section A.
  Variables (vi : f32) (fg : bool) (m : bmap) (fresh0 : nat) (reqs : list (list idx3)).
  Definition pc_ok (st : astate) (th : athread) : Prop :=
    match at_pc th with
    | PStart | PUndefined => True
    | PWait b | PLocked b => exists g r, at_todo th = g :: r /\ block_of vi g = Some b /\
        alookup b (a_layer st) = None
    | PMissing b => exists g r, at_todo th = g :: r /\ block_of vi g = Some b /\
        alookup b (a_layer st) = None /\ alookup b (a_temp st) = None
    | PUnlock b p => exists g r, at_todo th = g :: r /\ block_of vi g = Some b /\
        alookup b (a_layer st) = None /\ alookup b (a_temp st) = Some p
    end.
  Definition served (t : nat) (log : list (nat * idx3 * nat)) : list idx3 :=
    map (fun e => snd (fst e)) (filter (fun e => Nat.eqb (fst (fst e)) t) log).
  Record ainv (st : astate) : Prop := {
    y_layer : a_layer st = m;
    y_keys : NoDup (akeys (a_temp st));
    y_disj : forall b, In b (akeys (a_temp st)) -> alookup b m = None;
    y_made : a_made st = map snd (a_temp st);
    y_made_seq : a_made st = seq fresh0 (length (a_made st));
    y_fresh : a_fresh st = fresh0 + length (a_made st);
    y_len : length (a_threads st) = length reqs;
    y_log : forall t g p, In (t, g, p) (a_log st) -> exists b, block_of vi g = Some b /\ resolve st b = Some p;
    y_temp : forall b, In b (akeys (a_temp st)) -> exists g r, In r reqs /\ In g r /\ block_of vi g = Some b;
    y_th : forall t th, nth_error (a_threads st) t = Some th ->
      pc_ok st th /\
      (forall b p, at_last th = Some (b, p) -> resolve st b = Some p) /\
      (critical (at_pc th) = true <-> a_mutex st = Some t) /\
      (exists r, nth_error reqs t = Some r /\ served t (a_log st) ++ at_todo th = r);
    y_mutex : forall t, a_mutex st = Some t -> t < length reqs }.

  Lemma ainv_init : ainv (ainit m fresh0 reqs).
  Proof.
    constructor; cbn [ainit a_layer a_temp a_made a_fresh a_threads a_log a_mutex akeys map length];
      try reflexivity; try (intros; contradiction); try lia.
    - constructor.
    - apply map_length.
    - intros t th H; rewrite nth_error_map in H; destruct (nth_error reqs t) as [r|] eqn:E; [|discriminate].
      injection H as <-; cbn [at_last at_pc at_todo critical]; repeat split; try discriminate.
      exists r; split; reflexivity.
    - discriminate.
  Qed.

  Lemma served_snoc : forall t t' g p log,
    served t (log ++ [(t', g, p)]) = served t log ++ (if Nat.eqb t' t then [g] else []).
  Proof.
    intros; unfold served; rewrite filter_app, map_app; cbn [filter fst]; destruct (Nat.eqb t' t); reflexivity.
  Qed.

  (** a step that only moves thread [t] to another pc *)
  Lemma goto_inv : forall st t th pc mx, ainv st -> nth_error (a_threads st) t = Some th ->
    pc_ok st (MkAT pc (at_todo th) (at_last th)) ->
    (mx = a_mutex st /\ critical pc = critical (at_pc th) \/
     mx = Some t /\ critical pc = true /\ a_mutex st = None) ->
    ainv (a_goto st t th pc mx).
  Proof.
    intros st t th pc mx [] Ht Hpc Hmx; unfold a_goto.
    assert (Htl : t < length reqs) by (rewrite <- y_len0; apply nth_error_Some; congruence).
    constructor; cbn [a_layer a_temp a_made a_fresh a_threads a_log a_mutex]; try assumption.
    - rewrite set_th_length; assumption.
    - intros t' th' H'.
      destruct (Nat.eq_dec t t') as [<-|Hne].
      + rewrite (set_th_same _ _ _ _ Ht) in H'; injection H' as <-.
        destruct (y_th0 t th Ht) as (_ & HL & HM & HR).
        split; [exact Hpc|]; split; [exact HL|]; split; [|exact HR].
        cbn [at_pc]; destruct Hmx as [(-> & ->)|(-> & -> & _)]; [exact HM | tauto].
      + rewrite set_th_other in H' by exact Hne.
        destruct (y_th0 t' th' H') as (HP & HL & HM & HR).
        split; [exact HP|]; split; [exact HL|]; split; [|exact HR].
        destruct Hmx as [(-> & _)|(-> & _ & HN)]; [exact HM|].
        rewrite HM, HN; split; [discriminate | congruence].
    - intros t' H'; destruct Hmx as [(-> & _)|(-> & _ & _)]; [apply y_mutex0, H' | congruence].
  Qed.

  Lemma return_inv : forall st t th p b mx g r, ainv st -> nth_error (a_threads st) t = Some th ->
    at_todo th = g :: r -> block_of vi g = Some b -> resolve st b = Some p ->
    (critical (at_pc th) = false /\ mx = a_mutex st \/ critical (at_pc th) = true /\ mx = None) ->
    ainv (a_return st t th p b mx).
  Proof.
    intros st t th p b mx g r [] Ht Hg Hb Hp Hmx; unfold a_return; rewrite Hg.
    destruct (y_th0 t th Ht) as (_ & _ & HMt & (r0 & HR1 & HR2)).
    constructor; cbn [a_layer a_temp a_made a_fresh a_threads a_log a_mutex]; try assumption.
    - rewrite set_th_length; assumption.
    - intros t' g' p' H'; apply in_app_iff in H'; destruct H' as [H'|[H'|[]]].
      + apply (y_log0 _ _ _ H').
      + injection H' as <- <- <-; exists b; split; assumption.
    - intros t' th' H'.
      destruct (Nat.eq_dec t t') as [<-|Hne].
      + rewrite (set_th_same _ _ _ _ Ht) in H'; injection H' as <-; cbn [at_pc at_todo at_last].
        split; [exact I|]; split; [intros b' p' E; injection E as <- <-; exact Hp|]; split.
        * cbn [critical]; split; [discriminate|]; intros E.
          destruct Hmx as [(HC & ->)|(_ & ->)]; [|discriminate].
          apply HMt in E; congruence.
        * exists r0; split; [exact HR1|]; rewrite served_snoc, Nat.eqb_refl, <- app_assoc; cbn [app].
          rewrite <- Hg; exact HR2.
      + rewrite set_th_other in H' by exact Hne.
        destruct (y_th0 t' th' H') as (HP & HL & HM & (r1 & HQ1 & HQ2)).
        split; [exact HP|]; split; [exact HL|]; split.
        * destruct Hmx as [(_ & ->)|(HC & ->)]; [exact HM|].
          apply HMt in HC; rewrite HM, HC; split; [intros E; injection E; congruence | discriminate].
        * exists r1; split; [exact HQ1|]; rewrite served_snoc, (proj2 (Nat.eqb_neq t t') Hne), app_nil_r; exact HQ2.
    - intros t' H'; destruct Hmx as [(_ & ->)|(_ & ->)]; [apply y_mutex0, H' | discriminate].
  Qed.

  Lemma akeys_snoc : forall A (l : amap A) b p, akeys (l ++ [(b, p)]) = akeys l ++ [b].
  Proof. intros; unfold akeys; rewrite map_app; reflexivity. Qed.

  Lemma emplace_inv : forall st t th b g r, ainv st -> nth_error (a_threads st) t = Some th ->
    at_pc th = PMissing b -> at_todo th = g :: r -> block_of vi g = Some b ->
    alookup b (a_layer st) = None -> alookup b (a_temp st) = None ->
    ainv (MkA (a_layer st) (ainsert b (a_fresh st) (a_temp st)) (S (a_fresh st)) (a_made st ++ [a_fresh st])
        (a_mutex st) (set_th t (MkAT (PLocked b) (at_todo th) (at_last th)) (a_threads st)) (a_log st)).
  Proof.
    intros st t th b g r [] Ht Hpc Hg Hb HL HT.
    assert (Hmono : forall b' p', alookup b' (a_temp st) = Some p' ->
       alookup b' (ainsert b (a_fresh st) (a_temp st)) = Some p').
    { intros b' p' E; unfold ainsert; rewrite HT, alookup_app, E; reflexivity. }
    assert (Hres : forall st' b' p', a_layer st' = a_layer st -> a_temp st' = ainsert b (a_fresh st) (a_temp st) ->
       resolve st b' = Some p' -> resolve st' b' = Some p').
    { intros st' b' p' E1 E2; unfold resolve; rewrite E1, E2; destruct (alookup b' (a_layer st)); auto. }
    assert (EI : ainsert b (a_fresh st) (a_temp st) = a_temp st ++ [(b, a_fresh st)])
      by (unfold ainsert; rewrite HT; reflexivity).
    assert (Hin : In r reqs \/ exists r0, In r0 reqs /\ In g r0).
    { right; destruct (y_th0 t th Ht) as (_ & _ & _ & (r0 & HR1 & HR2)).
      exists r0; split; [eapply nth_error_In; exact HR1|]; rewrite <- HR2, Hg; apply in_app_iff; right; left; reflexivity. }
    constructor; cbn [a_layer a_temp a_made a_fresh a_threads a_log a_mutex]; try assumption.
    - apply NoDup_ainsert; assumption.
    - intros b' H'; rewrite EI, akeys_snoc in H'; apply in_app_iff in H'; destruct H' as [H'|[<-|[]]].
      + apply y_disj0, H'.
      + rewrite <- y_layer0; exact HL.
    - rewrite EI, map_app, <- y_made0; reflexivity.
    - rewrite app_length; cbn [length]; replace (length (a_made st) + 1) with (S (length (a_made st))) by lia.
      rewrite seq_S, <- y_made_seq0, y_fresh0; reflexivity.
    - rewrite app_length; cbn [length]; lia.
    - rewrite set_th_length; assumption.
    - intros t' g' p' H'; destruct (y_log0 _ _ _ H') as (b' & E1 & E2).
      exists b'; split; [exact E1|]; eapply Hres; [reflexivity..|exact E2].
    - intros b' H'; rewrite EI, akeys_snoc in H'; apply in_app_iff in H'; destruct H' as [H'|[<-|[]]].
      + apply y_temp0, H'.
      + destruct Hin as [Hin|(r0 & Hi1 & Hi2)].
        * destruct (y_th0 t th Ht) as (_ & _ & _ & (r0 & HR1 & HR2)).
          exists g, r0; repeat split; [eapply nth_error_In; exact HR1 | | exact Hb].
          rewrite <- HR2, Hg; apply in_app_iff; right; left; reflexivity.
        * exists g, r0; auto.
    - intros t' th' H'.
      destruct (Nat.eq_dec t t') as [<-|Hne].
      + rewrite (set_th_same _ _ _ _ Ht) in H'; injection H' as <-; cbn [at_pc at_todo at_last].
        destruct (y_th0 t th Ht) as (_ & HL' & HM & HR).
        split; [exists g, r; auto|]; split; [intros; eapply Hres; [reflexivity..|apply HL'; assumption]|].
        split; [|exact HR]. rewrite Hpc in HM; exact HM.
      + rewrite set_th_other in H' by exact Hne.
        destruct (y_th0 t' th' H') as (HP & HL' & HM & HR).
        split; [|split; [intros; eapply Hres; [reflexivity..|apply HL'; assumption]|split; [exact HM|exact HR]]].
        (* the other thread is not in the critical section *)
        assert (HMt : a_mutex st = Some t).
        { destruct (y_th0 t th Ht) as (_ & _ & HM' & _); apply HM'; rewrite Hpc; reflexivity. }
        assert (HC : critical (at_pc th') = false).
        { destruct (critical (at_pc th')) eqn:EC; [|reflexivity].
          pose proof (proj1 HM eq_refl); congruence. }
        unfold pc_ok in *; destruct (at_pc th'); cbn [critical] in HC; try discriminate; assumption.
  Qed.

  Lemma goto_goto : forall st t th pc mx pc' mx', nth_error (a_threads st) t = Some th ->
    a_goto (a_goto st t th pc mx) t (MkAT pc (at_todo th) (at_last th)) pc' mx' = a_goto st t th pc' mx'.
  Proof.
    intros st t th pc mx pc' mx' H; unfold a_goto; cbn [a_layer a_temp a_fresh a_made a_threads a_log at_todo at_last].
    f_equal. clear H. revert t; induction (a_threads st) as [|x l IH]; intros [|t]; cbn; try reflexivity.
    rewrite IH; reflexivity.
  Qed.

  Lemma astep_inv : forall st t, ainv st -> ainv (astep vi fg st t).
  Proof.
    intros st t HI; unfold astep.
    destruct (nth_error (a_threads st) t) as [th|] eqn:Ht; [|exact HI].
    pose proof (y_th _ HI t th Ht) as (HP & HL & HM & HR); unfold pc_ok in HP.
    destruct (at_pc th) as [|b|b|b|b p|] eqn:Epc.
    - destruct (at_todo th) as [|g r] eqn:Eg; [exact HI|].
      destruct (getBlockIndexFromGlobalVoxelIndex g vi) as [b|] eqn:Eb.
      + match goal with |- context [match ?X with Some p => a_return _ _ _ p _ _ | None => _ end] => set (last := X) end.
        assert (Hlast : match last with Some p => resolve st b = Some p | None => alookup b (a_layer st) = None end).
        { subst last; destruct (at_last th) as [(b', p)|] eqn:El.
          - destruct (negb fg && idx_eqb b b') eqn:EE.
            + apply andb_prop in EE; destruct EE as (_ & EE); destruct (idx_eqb_spec b b') as [->|]; [|discriminate].
              apply HL; reflexivity.
            + unfold resolve; destruct (alookup b (a_layer st)); reflexivity.
          - unfold resolve; destruct (alookup b (a_layer st)); reflexivity. }
        destruct last as [p|].
        * eapply return_inv; try eassumption; left; rewrite Epc; split; reflexivity.
        * apply goto_inv; [assumption..| |left; rewrite Epc; split; reflexivity].
          unfold pc_ok; cbn [at_pc at_todo]; exists g, r; auto.
      + apply goto_inv; [assumption..|exact I | left; rewrite Epc; split; reflexivity].
    - destruct (a_mutex st) eqn:Em; [exact HI|].
      apply goto_inv; [assumption..| |right; auto].
      unfold pc_ok; cbn [at_pc at_todo]; exact HP.
    - destruct HP as (g & r & E1 & E2 & E3); destruct (alookup b (a_temp st)) as [p|] eqn:El.
      + apply goto_inv; [assumption..| |left; rewrite Epc; split; reflexivity].
        unfold pc_ok; cbn [at_pc at_todo]; exists g, r; auto.
      + apply goto_inv; [assumption..| |left; rewrite Epc; split; reflexivity].
        unfold pc_ok; cbn [at_pc at_todo]; exists g, r; auto.
    - destruct HP as (g & r & E1 & E2 & E3 & E4).
      pose proof (emplace_inv st t th b g r HI Ht Epc E1 E2 E3 E4) as HI'.
      set (st1 := MkA _ _ _ _ _ (set_th _ _ _) _) in HI'.
      assert (Ht1 : nth_error (a_threads st1) t = Some (MkAT (PLocked b) (at_todo th) (at_last th)))
        by (subst st1; cbn [a_threads]; eapply set_th_same, Ht).
      cbv zeta.
      assert (EL : alookup b (ainsert b (a_fresh st) (a_temp st)) = Some (a_fresh st)).
      { rewrite alookup_ainsert, idx_eqb_refl, E4; reflexivity. }
      rewrite EL.
      assert (EG : forall pc mx, a_goto (MkA (a_layer st) (ainsert b (a_fresh st) (a_temp st)) (S (a_fresh st))
          (a_made st ++ [a_fresh st]) (a_mutex st) (a_threads st) (a_log st)) t th pc mx =
          a_goto st1 t (MkAT (PLocked b) (at_todo th) (at_last th)) pc mx).
      { intros pc mx; symmetry; subst st1.
        apply (goto_goto (MkA (a_layer st) (ainsert b (a_fresh st) (a_temp st)) (S (a_fresh st))
          (a_made st ++ [a_fresh st]) (a_mutex st) (a_threads st) (a_log st)) t th (PLocked b) (a_mutex st)).
        exact Ht. }
      rewrite EG; apply goto_inv; [assumption..| |left; split; reflexivity].
      unfold pc_ok; cbn [at_pc at_todo]; exists g, r; auto.
    - destruct HP as (g & r & E1 & E2 & E3 & E4).
      eapply return_inv; try eassumption; [|right; rewrite Epc; split; reflexivity].
      unfold resolve; rewrite E3; exact E4.
    - exact HI.
  Qed.
  Lemma arun_inv : forall sched st, ainv st -> ainv (arun vi fg sched st).
  Proof.
    induction sched as [|t sched IH]; intros st H; [exact H|].
    cbn [arun fold_left]; apply IH, astep_inv, H.
  Qed.
  Lemma reach_inv : forall sched, ainv (arun vi fg sched (ainit m fresh0 reqs)).
  Proof. intros; apply arun_inv, ainv_init. Qed.

  (** ** the final insertion *)
  Lemma fold_insert : forall (t l : bmap) b, NoDup (akeys t) -> (forall b', In b' (akeys t) -> alookup b' l = None) ->
    alookup b (fold_left (fun m kv => ainsert (fst kv) (snd kv) m) t l) =
    match alookup b l with Some p => Some p | None => alookup b t end.
  Proof.
    induction t as [|(k, p) t IH]; intros l b HN HD; cbn [fold_left fst snd alookup].
    - destruct (alookup b l); reflexivity.
    - unfold akeys in HN, HD; cbn [map fst] in HN, HD; inversion HN as [|? ? Hk HN']; subst.
      assert (Hkl : alookup k l = None) by (apply HD; left; reflexivity).
      rewrite IH; [|exact HN'|].
      + rewrite alookup_ainsert; destruct (idx_eqb_spec b k) as [->|Hne].
        * rewrite Hkl; reflexivity.
        * destruct (alookup b l); reflexivity.
      + intros b' Hb'; rewrite alookup_ainsert; destruct (idx_eqb_spec b' k) as [->|Hne]; [contradiction|].
        rewrite (HD b') by (right; exact Hb'); reflexivity.
  Qed.
  Lemma final_layer : forall st b, ainv st ->
    alookup b (a_layer (updateLayerWithStoredBlocks st)) = resolve st b.
  Proof.
    intros st b [] ; unfold updateLayerWithStoredBlocks, resolve; cbn [a_layer].
    apply fold_insert; [assumption|]; rewrite y_layer0; assumption.
  Qed.

  (** ** progress *)
  Definition pc_rank (pc : apc) : nat :=
    match pc with PStart => 5 | PWait _ => 4 | PLocked _ => 3 | PMissing _ => 2 | PUnlock _ _ => 1 | PUndefined => 0 end.
  Definition th_rank (th : athread) : nat :=
    match at_todo th with [] => 0 | _ :: r => 6 * length r + pc_rank (at_pc th) end.
  Definition rank (st : astate) : nat := list_sum (map th_rank (a_threads st)).
  Lemma rank_set : forall st t th th', nth_error (a_threads st) t = Some th -> th_rank th' < th_rank th ->
    list_sum (map th_rank (set_th t th' (a_threads st))) < rank st.
  Proof.
    intros st t th th' H HR; unfold rank.
    destruct (set_th_split _ _ th' _ H) as (l1 & l2 & E1 & E2 & _); rewrite E2, E1, !map_app, !list_sum_app.
    cbn [map list_sum fold_right]; unfold list_sum; cbn [fold_right]; lia.
  Qed.
  Definition can_move (st : astate) (t : nat) : Prop :=
    exists th, nth_error (a_threads st) t = Some th /\ at_todo th <> [] /\ at_pc th <> PUndefined /\
      match at_pc th with PWait _ => a_mutex st = None | _ => True end.
  Lemma move_decreases : forall st t, can_move st t -> rank (astep vi fg st t) < rank st.
  Proof.
    intros st t (th & Ht & Htodo & Hu & Hw); unfold astep; rewrite Ht.
    destruct (at_todo th) as [|g r] eqn:Eg; [congruence|].
    assert (HRth : forall x, at_pc th = x -> th_rank th = 6 * length r + pc_rank x)
      by (intros x <-; unfold th_rank; rewrite Eg; reflexivity).
    assert (Hret : forall p b mx x, at_pc th = x -> 0 < pc_rank x -> rank (a_return st t th p b mx) < rank st).
    { intros p b mx x Ex Hx; unfold a_return; rewrite Eg; unfold rank at 1; cbn [a_threads].
      eapply rank_set; [exact Ht|]; rewrite (HRth _ Ex); unfold th_rank; cbn [at_todo at_pc].
      destruct r; cbn [length pc_rank]; lia. }
    assert (Hgo : forall pc mx x, at_pc th = x -> pc_rank pc < pc_rank x -> rank (a_goto st t th pc mx) < rank st).
    { intros pc mx x Ex Hx; unfold a_goto, rank at 1; cbn [a_threads].
      eapply rank_set; [exact Ht|]; rewrite (HRth _ Ex); unfold th_rank; cbn [at_todo at_pc]; rewrite Eg; lia. }
    destruct (at_pc th) as [|b|b|b|b p|] eqn:Epc.
    - destruct (getBlockIndexFromGlobalVoxelIndex g vi) as [b|].
      + match goal with |- context [match ?X with Some p => a_return _ _ _ p _ _ | None => _ end] => destruct X end.
        * eapply Hret; [reflexivity | cbn; lia].
        * eapply Hgo; [reflexivity | cbn; lia].
      + eapply Hgo; [reflexivity | cbn; lia].
    - rewrite Hw; eapply Hgo; [reflexivity | cbn; lia].
    - destruct (alookup b (a_temp st)); eapply Hgo; try reflexivity; cbn; lia.
    - cbv zeta; unfold a_goto, rank at 1; cbn [a_threads].
      eapply rank_set; [exact Ht|]; rewrite (HRth _ eq_refl); unfold th_rank; cbn [at_todo at_pc]; rewrite Eg; cbn; lia.
    - eapply Hret; [reflexivity | cbn; lia].
    - congruence.
  Qed.
  Definition finished (st : astate) : Prop :=
    forall t th, nth_error (a_threads st) t = Some th -> at_todo th = [].
  Lemma no_deadlock : forall st, ainv st ->
    (forall r g, In r reqs -> In g r -> block_of vi g <> None) ->
    (forall t th, nth_error (a_threads st) t = Some th -> at_pc th <> PUndefined) ->
    finished st \/ exists t, t < length reqs /\ can_move st t.
  Proof.
    intros st HI Hdef Hund.
    destruct (a_mutex st) as [o|] eqn:Em.
    - pose proof (y_mutex _ HI o Em) as Ho; rewrite <- (y_len _ HI) in Ho.
      apply nth_error_Some in Ho; destruct (nth_error (a_threads st) o) as [th|] eqn:Eo; [|congruence].
      destruct (y_th _ HI o th Eo) as (HP & _ & HM & _); apply HM in Em.
      right; exists o; split; [rewrite <- (y_len _ HI); apply nth_error_Some; congruence|].
      exists th; split; [exact Eo|]; unfold pc_ok in HP.
      destruct (at_pc th); cbn [critical] in Em; try discriminate;
        destruct HP as (g & r & -> & _); (split; [discriminate | split; [discriminate | exact I]]).
    - destruct (Exists_dec (fun th => at_todo th <> []) (a_threads st)) as [HE|HE].
      { intros th; destruct (at_todo th); [right; congruence | left; discriminate]. }
      + right; apply Exists_exists in HE; destruct HE as (th & Hin & Hne).
        apply In_nth_error in Hin; destruct Hin as (t & Et); exists t; split.
        * rewrite <- (y_len _ HI); apply nth_error_Some; congruence.
        * exists th; split; [exact Et|]; split; [exact Hne|]; split; [eapply Hund; exact Et|].
          destruct (at_pc th); auto.
      + left; intros t th Et; destruct (at_todo th) eqn:E; [reflexivity|exfalso; apply HE].
        apply Exists_exists; exists th; split; [eapply nth_error_In; exact Et | rewrite E; discriminate].
  Qed.
  Lemma never_undefined : (forall r g, In r reqs -> In g r -> block_of vi g <> None) ->
    forall sched t th, nth_error (a_threads (arun vi fg sched (ainit m fresh0 reqs))) t = Some th ->
      at_pc th <> PUndefined.
  Proof.
    intros Hdef sched.
    assert (G : forall sched st, ainv st ->
      (forall t th, nth_error (a_threads st) t = Some th -> at_pc th <> PUndefined) ->
      forall t th, nth_error (a_threads (arun vi fg sched st)) t = Some th -> at_pc th <> PUndefined).
    { clear sched; induction sched as [|t' sched IH]; intros st HI H; [exact H|].
      cbn [arun fold_left]; apply IH; [apply astep_inv, HI|].
      intros t th; unfold astep; destruct (nth_error (a_threads st) t') as [th'|] eqn:Et'; [|apply H].
      assert (Hset : forall th0, at_pc th0 <> PUndefined -> forall t th,
        nth_error (set_th t' th0 (a_threads st)) t = Some th -> at_pc th <> PUndefined).
      { intros th0 H0 t1 th1 E1; destruct (Nat.eq_dec t' t1) as [<-|Hne].
        - rewrite (set_th_same _ _ _ _ Et') in E1; injection E1 as <-; exact H0.
        - rewrite set_th_other in E1 by exact Hne; eapply H; exact E1. }
      assert (Hret : forall p b mx t th, nth_error (a_threads (a_return st t' th' p b mx)) t = Some th -> at_pc th <> PUndefined).
      { intros p b mx t1 th1; unfold a_return; destruct (at_todo th'); [apply H|]; cbn [a_threads]; apply Hset; discriminate. }
      assert (Hgo : forall pc mx, pc <> PUndefined -> forall t th,
        nth_error (a_threads (a_goto st t' th' pc mx)) t = Some th -> at_pc th <> PUndefined).
      { intros pc mx Hp t1 th1; unfold a_goto; cbn [a_threads]; apply Hset; exact Hp. }
      destruct (at_pc th') as [|b|b|b|b p|] eqn:Epc.
      - destruct (at_todo th') as [|g r] eqn:Eg; [apply H|].
        destruct (getBlockIndexFromGlobalVoxelIndex g vi) as [b|] eqn:Eb.
        + match goal with |- context [match ?X with Some p => a_return _ _ _ p _ _ | None => _ end] => destruct X end.
          * apply Hret.
          * apply Hgo; discriminate.
        + exfalso; destruct (y_th _ HI t' th' Et') as (_ & _ & _ & (r0 & HR1 & HR2)).
          apply (Hdef r0 g); [eapply nth_error_In; exact HR1 | | exact Eb].
          rewrite <- HR2, Eg; apply in_app_iff; right; left; reflexivity.
      - destruct (a_mutex st); [apply H | apply Hgo; discriminate].
      - destruct (alookup b (a_temp st)); apply Hgo; discriminate.
      - cbv zeta; unfold a_goto; cbn [a_threads]; apply Hset; discriminate.
      - apply Hret.
      - apply H. }
    apply G; [apply ainv_init|].
    intros t th H; cbn [ainit a_threads] in H; rewrite nth_error_map in H.
    destruct (nth_error reqs t); [|discriminate]; injection H as <-; discriminate.
  Qed.
  (** every schedule can be continued to one in which all requests are served *)
  Lemma can_finish : (forall r g, In r reqs -> In g r -> block_of vi g <> None) ->
    forall sched, exists rest, finished (arun vi fg (sched ++ rest) (ainit m fresh0 reqs)).
  Proof.
    intros Hdef sched.
    remember (rank (arun vi fg sched (ainit m fresh0 reqs))) as k eqn:Ek.
    revert sched Ek; induction k as [k IH] using (well_founded_induction lt_wf); intros sched Ek.
    destruct (no_deadlock _ (reach_inv sched) Hdef (never_undefined Hdef sched)) as [Hf|(t & _ & Hm)].
    - exists []; rewrite app_nil_r; exact Hf.
    - pose proof (move_decreases _ _ Hm) as Hd.
      assert (Eapp : arun vi fg (sched ++ [t]) (ainit m fresh0 reqs) =
        astep vi fg (arun vi fg sched (ainit m fresh0 reqs)) t) by (unfold arun; rewrite fold_left_app; reflexivity).
      rewrite <- Eapp in Hd.
      destruct (IH _ ltac:(rewrite Ek; exact Hd) (sched ++ [t]) eq_refl) as (rest & Hr).
      exists (t :: rest); rewrite <- app_assoc in Hr; exact Hr.
  Qed.
End A.
