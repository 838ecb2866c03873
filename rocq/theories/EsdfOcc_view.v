(** Propagation from occupied voxels, on the map from indices to voxels. *)
From Coq Require Import ZArith List Bool Lia Reals Lra.
From Flocq Require Import Core Binary.
From Verif Require Import F32 F32_lemmas Types Index Neighbor Voxel Assoc Assoc_lemmas Layer Threads
  Queue Queue_spec Queue_proofs Planning Esdf Esdf_spec Esdf_proofs Esdf_float Esdf_range Esdf_grid Esdf_open Esdf_term EsdfOcc EsdfOcc_spec.
Import ListNotations.
Open Scope Z_scope.
Ltac Zify.zify_post_hook ::= idtac.

Notation view := (idx3 -> option EsdfVoxel).
Definition vupd (F : view) (g : idx3) (v : EsdfVoxel) : view := fun h => if idx_eqb h g then Some v else F h.
Lemma vupd_same F g v : vupd F g v g = Some v.
Proof. unfold vupd. now rewrite idx_eqb_refl. Qed.
Lemma vupd_other F g v h : h <> g -> vupd F g v h = F h.
Proof. intros N. unfold vupd. destruct (idx_eqb_spec h g); [contradiction|reflexivity]. Qed.

(** ** floats *)
Lemma flt_ER a b : fnan a = false -> fnan b = false -> (flt a b = true <-> (ER a < ER b)%R).
Proof. intros. rewrite flt_iff. tauto. Qed.
Lemma nlt_ER a b : fnan a = false -> fnan b = false -> (flt a b = false <-> (ER b <= ER a)%R).
Proof.
  intros Na Nb. pose proof (flt_ER a b Na Nb) as H. destruct (flt a b); split; intros X; try discriminate; try reflexivity.
  - exfalso. pose proof (proj1 H eq_refl). lra.
  - apply Rnot_lt_le. intros Y. apply H in Y. discriminate.
Qed.
Lemma fle_ER a b : fnan a = false -> fnan b = false -> (fle a b = true <-> (ER a <= ER b)%R).
Proof. intros. rewrite fle_iff. tauto. Qed.
Lemma fin_eq a b : ffin a = true -> ffin b = true -> (FR a = FR b)%R -> (FR a <> 0)%R -> a = b.
Proof.
  intros Fa Fb E N. apply (B2R_inj 24 128); [| |exact E].
  - destruct a as [[]|[]|? ? ?|? ? ? ?]; try discriminate; try reflexivity; exfalso; apply N; reflexivity.
  - assert (FR b <> 0)%R by (rewrite <- E; exact N). destruct b as [[]|[]|? ? ?|? ? ? ?]; try discriminate; try reflexivity; exfalso; apply H; reflexivity.
Qed.
Lemma nb_sym : forall off kd, In (off, kd) neighbors26 -> In (idx_opp off, kd) neighbors26.
Proof.
  assert (K : Forall (fun o => In (idx_opp (fst o), snd o) neighbors26) neighbors26).
  { unfold neighbors26, kDistances. generalize f1 sqrt2f sqrt3f. intros a b d. cbn.
    repeat (constructor; [cbn; repeat (first [left; reflexivity|right])|]). constructor. }
  rewrite Forall_forall in K. intros off kd H. exact (K _ H).
Qed.
Lemma add_opp g off : idx_add (idx_add g off) (idx_opp off) = g.
Proof. destruct g as [a b d], off as [x y z]. unfold idx_add, idx_opp, zip3, map3. cbn [vx vy vz]. f_equal; lia. Qed.

Section View.
  Variables (c : ocfg) (vs : f32).
  Hypothesis HS : occ_settings c vs.
  Notation mx := (oc_max c).
  Notation df := (oc_default c).
  Notation stp kd := (fmul kd vs).

  Definition far (v : EsdfVoxel) : Prop := e_fixed v = true \/ e_parent v <> zero3.
  Definition active (v : EsdfVoxel) : Prop := e_observed v = true /\ flt (e_distance v) mx = true /\ far v.
  Definition good (v : EsdfVoxel) : Prop :=
    if e_fixed v then e_distance v = f0 /\ e_parent v = zero3
    else ffin (e_distance v) = true /\ (0 < FR (e_distance v) <= FR df)%R /\ (e_parent v = zero3 -> e_distance v = df).
  Definition fixed_at (F : view) (g : idx3) : Prop := exists v, F g = Some v /\ e_fixed v = true.
  Inductive tr (F : view) : idx3 -> Prop :=
  | tr_fix : forall g v, F g = Some v -> e_observed v = true -> e_fixed v = true -> tr F g
  | tr_step : forall u off kd v w, tr F u -> F u = Some v -> F (idx_add u off) = Some w -> e_observed w = true -> e_fixed w = false ->
      In (off, kd) neighbors26 -> e_parent w = idx_opp off -> fle (fadd (e_distance v) (stp kd)) (e_distance w) = true -> tr F (idx_add u off).
  Record ginv (F : view) (p : pending) (cur : option idx3) : Prop := MkG {
    g_once : NoDup (map snd p);
    g_cur : forall g, cur = Some g -> ~ inq p g;
    g_wait : forall g, inq p g -> exists v, F g = Some v /\ e_in_queue v = true /\ active v;
    g_flag : forall g v, F g = Some v -> e_in_queue v = true -> inq p g \/ cur = Some g;
    g_val : forall g v, F g = Some v -> e_observed v = true -> good v;
    g_first : exists pf pn, p = pf ++ pn /\ Forall (fun e => fst e = 0 /\ fixed_at F (snd e)) pf /\
                Forall (fun e => 0 <= fst e /\ ~ fixed_at F (snd e)) pn;
    g_settled : forall g v off kd w, F g = Some v -> active v -> ~ inq p g -> cur <> Some g -> In (off, kd) neighbors26 ->
      F (idx_add g off) = Some w -> e_observed w = true -> e_fixed w = false -> flt (fadd (e_distance v) (stp kd)) (e_distance w) = false;
    g_parent : forall g w, F g = Some w -> e_observed w = true -> e_fixed w = false -> e_parent w <> zero3 ->
      exists u off kd v, In (off, kd) neighbors26 /\ g = idx_add u off /\ e_parent w = idx_opp off /\ F u = Some v /\ active v /\
        fle (fadd (e_distance v) (stp kd)) (e_distance w) = true /\
        (inq p u \/ cur = Some u \/ e_distance w = fadd (e_distance v) (stp kd));
    g_traced : forall g w, F g = Some w -> e_observed w = true -> far w -> tr F g }.

  Lemma Gsize : good_size vs.
  Proof. destruct (os_size_ok _ _ HS) as (F & P & L), (os_max_ok _ _ HS) as (_ & _ & M). split; [exact F|]. lra. Qed.
  Lemma stp_ok off kd : In (off, kd) neighbors26 -> step_pos (stp kd) /\ (FR (stp kd) <= FR mx)%R.
  Proof.
    intros H. destruct (step_R vs off (stp kd) Gsize) as (A & B); [exists kd; auto|]. split; [exact A|].
    destruct (os_size_ok _ _ HS) as (_ & _ & L). lra.
  Qed.
  Lemma good_val v : good v -> ffin (e_distance v) = true /\ (0 <= FR (e_distance v))%R.
  Proof.
    unfold good. destruct (e_fixed v).
    - intros (-> & _). split; [reflexivity|]. cbn. lra.
    - intros (F & (P & _) & _). split; [exact F|lra].
  Qed.
  (** adding a step to a distance below the maximum *)
  Lemma add_step d off kd : ffin d = true -> (0 <= FR d)%R -> flt d mx = true -> In (off, kd) neighbors26 ->
    ffin (fadd d (stp kd)) = true /\ (FR d <= FR (fadd d (stp kd)))%R /\ (0 < FR (fadd d (stp kd)))%R.
  Proof.
    intros Fd P L H. destruct (stp_ok off kd H) as ((Fs & Ps) & Ls). destruct (os_max_ok _ _ HS) as (Fm & _ & M).
    apply flt_R in L; [|assumption|assumption].
    assert (B : (Rabs (FR d + FR (stp kd)) <= bpow radix2 127)%R).
    { rewrite Rabs_pos_eq by lra. change 127 with (1 + 126). rewrite bpow_plus. change (bpow radix2 1) with 2%R. lra. }
    destruct (fadd_R d (stp kd) Fd Fs ltac:(now apply F32_err.rnd32_small)) as (E & F). split; [exact F|]. rewrite E. split.
    - rewrite <- (rnd32_FR d) at 1. apply rnd32_le. lra.
    - apply Rlt_le_trans with (FR (stp kd)); [exact Ps|]. rewrite <- (rnd32_FR (stp kd)) at 1. apply rnd32_le. lra.
  Qed.
  Lemma active_far v : active v -> far v. Proof. intros (_ & _ & H). exact H. Qed.

  (** ** one neighbour takes a shorter way *)
  Definition relax (w : EsdfVoxel) (d : f32) (off : idx3) (q : bool) : EsdfVoxel := ev_queue (ev_parent (ev_dist w d) (idx_opp off)) q.
  Lemma relax_inv F p u v off kd w p' q :
    ginv F p (Some u) -> F u = Some v -> active v -> In (off, kd) neighbors26 ->
    F (idx_add u off) = Some w -> e_observed w = true -> e_fixed w = false ->
    let n := idx_add u off in let nd := fadd (e_distance v) (stp kd) in
    flt nd (e_distance w) = true ->
    (p' = p /\ q = e_in_queue w /\ (flt nd mx = false \/ e_in_queue w = true)) \/
    (exists i, p' = p ++ [(i, n)] /\ q = true /\ e_in_queue w = false /\ flt nd mx = true /\ 0 <= i) ->
    ginv (vupd F n (relax w nd off q)) p' (Some u).
  Proof.
    intros G Fu Av Hn Fw Ow Xw n nd Lt Hp. set (w' := relax w nd off q). set (F' := vupd F n w').
    destruct G as [G1 G2 G3 G4 G5 G6 G7 G8 G9].
    assert (Nu : n <> u) by (apply add_off_neq; eapply off_small; eassumption).
    assert (Same : forall h, h <> n -> F' h = F h) by (intros h N; apply vupd_other, N).
    assert (At : F' n = Some w') by apply vupd_same.
    pose proof (G5 _ _ Fu (proj1 Av)) as Gv. destruct (good_val v Gv) as (Fv & Pv).
    destruct (add_step (e_distance v) off kd Fv Pv (proj1 (proj2 Av)) Hn) as (Fd & Ged & Pd). fold nd in Fd, Ged, Pd.
    pose proof (G5 _ _ Fw Ow) as Gw. destruct (good_val w Gw) as (Fwd & Pw).
    assert (Ltr : (FR nd < FR (e_distance w))%R) by (apply flt_R in Lt; assumption).
    assert (Fm : ffin mx = true) by apply (os_max_ok _ _ HS).
    assert (Inc : forall g, inq p g -> inq p' g).
    { intros g H. destruct Hp as [(-> & _)|(i & -> & _)]; [exact H|]. apply inq_snoc. now left. }
    assert (Dec : forall g, g <> n -> inq p' g -> inq p g).
    { intros g N H. destruct Hp as [(-> & _)|(i & -> & _)]; [exact H|]. apply inq_snoc in H. destruct H; [assumption|contradiction]. }
    (* once below the maximum the neighbour waits *)
    assert (Wait : flt nd mx = true -> inq p' n /\ q = true).
    { intros L. destruct Hp as [(-> & -> & [X|X])|(i & -> & -> & _)]; [congruence| |].
      - split; [|exact X]. destruct (G4 _ _ Fw X) as [Y|Y]; [exact Y|]. exfalso. apply Nu. injection Y as Y. exact (eq_sym Y).
      - split; [|reflexivity]. apply inq_snoc. now right. }
    assert (OldAct : active w -> flt nd mx = true).
    { intros (_ & L & _). apply flt_R; [exact Fd|exact Fm|]. apply flt_R in L; [lra|exact Fwd|exact Fm]. }
    assert (Aw' : active w' <-> flt nd mx = true).
    { unfold active, w', relax. cbn [e_observed e_distance ev_queue ev_parent ev_dist]. split; [tauto|]. intros L. split; [exact Ow|]. split; [exact L|].
      right. cbn [e_parent]. eapply opp_nz. exact Hn. }
    assert (Fx : forall g, fixed_at F' g <-> fixed_at F g).
    { intros g. unfold fixed_at. destruct (idx_eq_dec g n) as [->|N]; [|rewrite Same by exact N; reflexivity]. rewrite At. fold n in Fw.
      rewrite Fw. split; intros (x & E & X); injection E as <-; cbn in X; congruence. }
    constructor.
    - destruct Hp as [(-> & _)|(i & -> & _ & Q & _)]; [exact G1|]. apply once_snoc; [exact G1|].
      intros X. destruct (G3 _ X) as (y & E & Y & _). unfold n in E. rewrite Fw in E. injection E as <-. congruence.
    - intros g E X. injection E as <-. apply (G2 u eq_refl). apply Dec; [congruence|exact X].
    - intros g X. destruct (idx_eq_dec g n) as [->|N].
      + exists w'. split; [exact At|]. assert (L : flt nd mx = true).
        { destruct Hp as [(-> & _)|(i & _ & _ & _ & L & _)]; [|exact L]. destruct (G3 _ X) as (y & E & _ & Y). unfold n in E. rewrite Fw in E. injection E as <-. now apply OldAct. }
        split; [apply Wait, L|]. now apply Aw'.
      + rewrite Same by exact N. apply G3. now apply Dec.
    - intros g y E Y. destruct (idx_eq_dec g n) as [->|N].
      + rewrite At in E. injection E as <-. cbn in Y. left. destruct Hp as [(-> & Q & _)|(i & -> & _)]; [|apply inq_snoc; now right].
        rewrite Y in Q. destruct (G4 _ _ Fw (eq_sym Q)) as [Z|Z]; [exact Z|]. exfalso. apply Nu. injection Z as Z. exact (eq_sym Z).
      + rewrite Same in E by exact N. destruct (G4 _ _ E Y) as [Z|Z]; [left; now apply Inc|now right].
    - intros g y E Y. destruct (idx_eq_dec g n) as [->|N]; [|rewrite Same in E by exact N; now apply (G5 g)].
      rewrite At in E. injection E as <-. unfold good in Gw |- *. rewrite Xw in Gw. cbn [w' relax e_fixed ev_queue ev_parent ev_dist e_distance e_parent]. rewrite Xw.
      split; [exact Fd|]. split; [lra|]. intros Z. exfalso. revert Z. eapply opp_nz. exact Hn.
    - destruct G6 as (pf & pn & -> & A & B).
      assert (A' : Forall (fun e => fst e = 0 /\ fixed_at F' (snd e)) pf) by (eapply Forall_impl; [|exact A]; intros e (X & Y); split; [exact X|now apply Fx]).
      assert (B' : Forall (fun e => 0 <= fst e /\ ~ fixed_at F' (snd e)) pn) by (eapply Forall_impl; [|exact B]; intros e (X & Y); split; [exact X|now rewrite Fx]).
      destruct Hp as [(-> & _)|(i & -> & _ & _ & _ & I)]; [exists pf, pn; auto|]. exists pf, (pn ++ [(i, n)]). split; [now rewrite app_assoc|]. split; [exact A'|].
      apply Forall_app. split; [exact B'|]. constructor; [|constructor]. cbn. split; [exact I|]. rewrite Fx. intros (y & E & Y). unfold n in E. rewrite Fw in E. injection E as <-. congruence.
    - intros g y off' kd' w0 E Ay Nq Nc Ho E0 O0 X0. destruct (idx_eq_dec g n) as [->|N].
      { rewrite At in E. injection E as <-. exfalso. apply Nq. exact (proj1 (Wait (proj1 Aw' Ay))). }
      rewrite Same in E by exact N. assert (Nq' : ~ inq p g) by (intros X; apply Nq, Inc, X).
      destruct (idx_eq_dec (idx_add g off') n) as [En|N0].
      + rewrite En, At in E0. injection E0 as <-. 
        assert (Old : flt (fadd (e_distance y) (stp kd')) (e_distance w) = false).
        { eapply G7; [exact E|exact Ay|exact Nq'|exact Nc|exact Ho|rewrite En; exact Fw|exact Ow|exact Xw]. }
        destruct (good_val y (G5 _ _ E (proj1 Ay))) as (Fy & Py).
        destruct (add_step _ off' kd' Fy Py (proj1 (proj2 Ay)) Ho) as (Fs & _).
        cbn [w' relax e_distance ev_queue ev_parent ev_dist]. apply nlt_ER; [apply ffin_nnan, Fs|apply ffin_nnan, Fd|].
        apply nlt_ER in Old; [|apply ffin_nnan, Fs|apply ffin_nnan, Fwd]. rewrite !ER_fin in * by assumption. lra.
      + rewrite Same in E0 by exact N0. eapply G7; eassumption.
    - intros g y E Oy Xy Py. destruct (idx_eq_dec g n) as [->|N].
      + rewrite At in E. injection E as <-. exists u, off, kd, v. split; [exact Hn|]. split; [reflexivity|]. split; [reflexivity|].
        rewrite Same by congruence. split; [exact Fu|]. split; [exact Av|]. split; [|right; left; reflexivity].
        cbn [w' relax e_distance ev_queue ev_parent ev_dist]. fold nd. apply fle_ER; [apply ffin_nnan, Fd|apply ffin_nnan, Fd|lra].
      + rewrite Same in E by exact N. destruct (G8 _ _ E Oy Xy Py) as (u0 & off0 & kd0 & v0 & H0 & E1 & E2 & E3 & A0 & L0 & C0).
        destruct (idx_eq_dec u0 n) as [->|N0].
        * unfold n in E3. rewrite Fw in E3. injection E3 as <-. exists n, off0, kd0, w'. split; [exact H0|]. split; [exact E1|]. split; [exact E2|].
          split; [exact At|]. pose proof (OldAct A0) as L. split; [now apply Aw'|]. split; [|left; now apply Wait].
          cbn [w' relax e_distance ev_queue ev_parent ev_dist].
          destruct (stp_ok _ _ H0) as ((Fs & _) & _).
          destruct (add_step nd off0 kd0 Fd ltac:(lra) L H0) as (Fs' & _). destruct (add_step _ off0 kd0 Fwd Pw (proj1 (proj2 A0)) H0) as (Fs2 & _).
          destruct (good_val y (G5 _ _ E Oy)) as (Fy & _).
          apply fle_ER in L0; [|apply ffin_nnan, Fs2|apply ffin_nnan, Fy]. apply fle_ER; [apply ffin_nnan, Fs'|apply ffin_nnan, Fy|].
          eapply Rle_trans; [|exact L0]. apply fadd_mono; [apply ffin_nnan, Fd|apply ffin_nnan, Fwd|exact Fs|]. rewrite !ER_fin by assumption. lra.
        * exists u0, off0, kd0, v0. rewrite Same by exact N0. repeat (split; [assumption|]). destruct C0 as [C0|[C0|C0]]; auto.
    - assert (TrU : tr F u) by (apply (G9 u v Fu (proj1 Av) (active_far _ Av))).
      (* voxels closer than the old distance of n keep their trace *)
      assert (Low : forall g, tr F g -> forall y, F g = Some y -> e_observed y = true -> (FR (e_distance y) < FR (e_distance w))%R -> tr F' g).
      { induction 1 as [g y0 E O X|u0 off0 kd0 v0 w0 T IH E0 E1 O1 X1 H0 P0 L0]; intros y Ey Oy Ly.
        - assert (N : g <> n) by (intros ->; unfold n in E; rewrite Fw in E; injection E as <-; congruence).
          apply tr_fix with y0; [rewrite Same by exact N; exact E|exact O|exact X].
        - rewrite E1 in Ey. injection Ey as <-.
          assert (N : idx_add u0 off0 <> n) by (intros En; rewrite En in E1; unfold n in E1; rewrite Fw in E1; injection E1 as <-; lra).
          assert (O0 : e_observed v0 = true) by (inversion T; subst; congruence).
          destruct (good_val v0 (G5 _ _ E0 O0)) as (Fv0 & Pv0). destruct (good_val w0 (G5 _ _ E1 O1)) as (Fw0 & _).
          destruct (stp_ok _ _ H0) as ((Fs & Ps) & _).
          pose proof (fadd_ge (e_distance v0) (stp kd0) (ffin_nnan _ Fv0) (conj Fs (Rlt_le _ _ Ps))) as (Na & Ga).
          apply fle_ER in L0 as L0'; [|exact Na|apply ffin_nnan, Fw0]. rewrite (ER_fin (e_distance v0)) in Ga by exact Fv0. rewrite (ER_fin (e_distance w0)) in L0' by exact Fw0.
          assert (Lv : (FR (e_distance v0) < FR (e_distance w))%R) by lra.
          assert (N0 : u0 <> n) by (intros ->; unfold n in E0; rewrite Fw in E0; injection E0 as <-; lra).
          eapply tr_step; [exact (IH v0 E0 O0 Lv)|rewrite Same by exact N0; exact E0|rewrite Same by exact N; exact E1|exact O1|exact X1|exact H0|exact P0|exact L0]. }
      assert (TrN : tr F' n).
      { apply tr_step with kd v w'; [apply (Low u TrU v Fu (proj1 Av)); lra|rewrite Same by congruence; exact Fu|exact At|exact Ow|exact Xw|exact Hn|reflexivity|].
        cbn [w' relax e_distance ev_queue ev_parent ev_dist]. fold nd. apply fle_ER; [apply ffin_nnan, Fd|apply ffin_nnan, Fd|lra]. }
      assert (All : forall g, tr F g -> tr F' g).
      { induction 1 as [g y0 E O X|u0 off0 kd0 v0 w0 T IH E0 E1 O1 X1 H0 P0 L0].
        - assert (N : g <> n) by (intros ->; unfold n in E; rewrite Fw in E; injection E as <-; congruence).
          apply tr_fix with y0; [rewrite Same by exact N; exact E|exact O|exact X].
        - destruct (idx_eq_dec (idx_add u0 off0) n) as [->|N]; [exact TrN|].
          destruct (idx_eq_dec u0 n) as [->|N0].
          + unfold n in E0 at 1. rewrite Fw in E0. injection E0 as <-.
            eapply tr_step; [exact IH|exact At|rewrite Same by exact N; exact E1|exact O1|exact X1|exact H0|exact P0|].
            cbn [w' relax e_distance ev_queue ev_parent ev_dist]. destruct (stp_ok _ _ H0) as ((Fs & Ps) & _).
            pose proof (fadd_ge (e_distance w) (stp kd0) (ffin_nnan _ Fwd) (conj Fs (Rlt_le _ _ Ps))) as (Na & _).
            pose proof (fadd_ge nd (stp kd0) (ffin_nnan _ Fd) (conj Fs (Rlt_le _ _ Ps))) as (Nb & _).
            destruct (good_val w0 (G5 _ _ E1 O1)) as (Fw0 & _).
            apply fle_ER in L0; [|exact Na|apply ffin_nnan, Fw0]. apply fle_ER; [exact Nb|apply ffin_nnan, Fw0|].
            eapply Rle_trans; [|exact L0]. apply fadd_mono; [apply ffin_nnan, Fd|apply ffin_nnan, Fwd|exact Fs|]. rewrite !ER_fin by assumption. lra.
          + eapply tr_step; [exact IH|rewrite Same by exact N0; exact E0|rewrite Same by exact N; exact E1|exact O1|exact X1|exact H0|exact P0|exact L0]. }
      intros g y E Oy Fy. destruct (idx_eq_dec g n) as [->|N]; [exact TrN|]. rewrite Same in E by exact N. apply All. eapply G9; eassumption.
  Qed.

  (** ** taking the next voxel *)
  Lemma pop_view F p u r : ginv F p None -> next p = Some (u, r) ->
    ginv F r (Some u) /\ length p = S (length r) /\
    exists v, F u = Some v /\ active v /\ e_in_queue v = true /\ (e_fixed v = true \/ forall g, inq r g -> ~ fixed_at F g).
  Proof.
    intros [G1 G2 G3 G4 G5 G6 G7 G8 G9] En. destruct (next_inq _ _ _ En) as (I1 & I2 & I3 & I4).
    destruct (G3 _ I1) as (v & Ev & Qv & Av).
    assert (ND : NoDup (u :: map snd r)).
    { eapply Permutation.Permutation_NoDup; [|exact G1]. unfold next in En. destruct (lowest p) as [m|]; [|discriminate].
      clear - En. revert r En. induction p as [|(b, x) p IH]; intros r E; cbn [take] in E; [discriminate|]. destruct (b =? m).
      - injection E as <- <-. reflexivity.
      - destruct (take m p) as [(y, r')|] eqn:Et; [|discriminate]. injection E as -> <-. cbn [map snd].
        rewrite Permutation.perm_swap. apply Permutation.perm_skip. apply IH. reflexivity. }
    inversion ND as [|? ? Nu ND']; subst.
    assert (Sub : forall e, In e r -> In e p).
    { unfold next in En. destruct (lowest p) as [m|]; [|discriminate]. apply (take_spec p m u r En). }
    assert (First : exists pf pn, r = pf ++ pn /\ Forall (fun e => fst e = 0 /\ fixed_at F (snd e)) pf /\
                Forall (fun e => 0 <= fst e /\ ~ fixed_at F (snd e)) pn /\ (e_fixed v = true \/ pf = [])).
    { destruct G6 as (pf & pn & E & A & B). destruct pf as [|(b, x) pf].
      - exists [], r. split; [reflexivity|]. split; [constructor|]. split; [|right; reflexivity]. rewrite Forall_forall in *. intros e He. apply B.
        cbn in E. rewrite <- E. now apply Sub.
      - inversion A as [|? ? (Hb & Hx) A']; subst. cbn in Hb, Hx. subst b.
        assert (L : lowest (((0, x) :: pf) ++ pn) = Some 0).
        { cbn [app lowest]. destruct (lowest (pf ++ pn)) as [m|] eqn:El; [|reflexivity]. f_equal. apply Z.min_l.
          destruct (proj1 (lowest_spec _ _ El)) as (y & Hy). apply in_app_iff in Hy. rewrite Forall_forall in A', B. destruct Hy as [Hy|Hy].
          - destruct (A' _ Hy) as (X & _). cbn in X. lia.
          - destruct (B _ Hy) as (X & _). cbn in X. lia. }
        unfold next in En. rewrite L in En. cbn [app take] in En. rewrite Z.eqb_refl in En. injection En as <- <-.
        exists pf, pn. split; [reflexivity|]. split; [exact A'|]. split; [exact B|]. left. destruct Hx as (y & E & Y). congruence. }
    split; [|split; [exact I4|]].
    - constructor; auto.
      + intros g E. injection E as <-. intros (b & Hb). apply Nu. apply in_map_iff. exists (b, u). auto.
      + intros g y E Y. destruct (G4 _ _ E Y) as [X|X]; [|discriminate]. destruct (I2 _ X) as [Z| ->]; auto.
      + destruct First as (pf & pn & E & A & B & _). exists pf, pn. auto.
      + intros g y off kd w E Ay Nq Nc. apply (G7 g y off kd w E Ay); [|discriminate]. intros X. destruct (I2 _ X) as [Z| ->]; [contradiction|congruence].
      + intros g w E O X P. destruct (G8 g w E O X P) as (u0 & off & kd & v0 & H1 & H2 & H3 & H4 & H5 & H6 & H7).
        exists u0, off, kd, v0. repeat (split; [assumption|]). destruct H7 as [H7|[H7|H7]]; [|discriminate|auto]. destruct (I2 _ H7) as [Z| ->]; auto.
    - exists v. repeat (split; [assumption|]). destruct First as (pf & pn & E & A & B & [X| ->]); [left; exact X|right].
      cbn in E. subst r. intros g (b & Hb). rewrite Forall_forall in B. apply (B _ Hb).
  Qed.

  (** ** the voxel is done *)
  Definition flagless (v w : EsdfVoxel) : Prop :=
    e_distance v = e_distance w /\ e_observed v = e_observed w /\ e_fixed v = e_fixed w /\ e_parent v = e_parent w.
  Lemma tr_flagless F F' : (forall g v, F g = Some v -> exists v', F' g = Some v' /\ flagless v v') -> forall g, tr F g -> tr F' g.
  Proof.
    intros H. induction 1 as [g v E O X|u off kd v w T IH E0 E1 O X Hn P L].
    - destruct (H _ _ E) as (v' & E' & (_ & O' & X' & _)). apply tr_fix with v'; congruence.
    - destruct (H _ _ E0) as (v' & E0' & (D0 & _)). destruct (H _ _ E1) as (w' & E1' & (D1 & O1 & X1 & P1)).
      apply tr_step with kd v' w'; try congruence; assumption.
  Qed.
  Lemma finish_view F p u v : ginv F p (Some u) -> F u = Some v -> active v ->
    (forall off kd w, In (off, kd) neighbors26 -> F (idx_add u off) = Some w -> e_observed w = true -> e_fixed w = false ->
       flt (fadd (e_distance v) (stp kd)) (e_distance w) = false) ->
    ginv (vupd F u (ev_queue v false)) p None.
  Proof.
    intros [G1 G2 G3 G4 G5 G6 G7 G8 G9] Eu Av Set_. set (v' := ev_queue v false). set (F' := vupd F u v').
    assert (Same : forall h, h <> u -> F' h = F h) by (intros h N; apply vupd_other, N).
    assert (At : F' u = Some v') by apply vupd_same.
    assert (To : forall g y, F g = Some y -> exists y', F' g = Some y' /\ flagless y y').
    { intros g y E. destruct (idx_eq_dec g u) as [->|N].
      - exists v'. rewrite Eu in E. injection E as <-. split; [exact At|]. repeat split.
      - exists y. rewrite Same by exact N. split; [exact E|]. repeat split. }
    assert (Fro : forall g y, F' g = Some y -> exists y0, F g = Some y0 /\ flagless y0 y).
    { intros g y E. destruct (idx_eq_dec g u) as [->|N].
      - exists v. rewrite At in E. injection E as <-. split; [exact Eu|]. repeat split.
      - exists y. rewrite Same in E by exact N. split; [exact E|]. repeat split. }
    assert (Act : forall y y', flagless y y' -> (active y <-> active y')).
    { intros y y' (E1 & E2 & E3 & E4). unfold active, far. rewrite E1, E2, E3, E4. reflexivity. }
    assert (Fx : forall g, fixed_at F g <-> fixed_at F' g).
    { intros g. split; intros (y & E & X).
      - destruct (To _ _ E) as (y' & E' & (_ & _ & K & _)). exists y'. split; [exact E'|congruence].
      - destruct (Fro _ _ E) as (y' & E' & (_ & _ & K & _)). exists y'. split; [exact E'|congruence]. }
    constructor.
    - exact G1.
    - discriminate.
    - intros g X. assert (N : g <> u) by (intros ->; exact (G2 u eq_refl X)). rewrite Same by exact N. now apply G3.
    - intros g y E Y. destruct (idx_eq_dec g u) as [->|N]; [rewrite At in E; injection E as <-; discriminate|].
      rewrite Same in E by exact N. destruct (G4 _ _ E Y) as [X|X]; [now left|]. congruence.
    - intros g y E O. destruct (Fro _ _ E) as (y0 & E0 & (K1 & K2 & K3 & K4)). pose proof (G5 g y0 E0 ltac:(congruence)) as G. unfold good in *. rewrite <- K1, <- K3, <- K4. exact G.
    - destruct G6 as (pf & pn & E & A & B). exists pf, pn. split; [exact E|]. split; eapply Forall_impl; try eassumption.
      + intros e (X & Y). split; [exact X|now apply Fx].
      + intros e (X & Y). split; [exact X|now rewrite <- Fx].
    - intros g y off kd w E Ay Nq _ Hn Ew Ow Xw. destruct (Fro _ _ E) as (y0 & E0 & K). destruct (Fro _ _ Ew) as (w0 & Ew0 & Kw).
      pose proof (proj2 (Act _ _ K) Ay) as Ay0. destruct K as (K1 & _), Kw as (L1 & L2 & L3 & _). rewrite <- K1, <- L1.
      destruct (idx_eq_dec g u) as [->|N].
      + rewrite Eu in E0. injection E0 as <-. apply (Set_ off kd w0 Hn Ew0); congruence.
      + apply (G7 g y0 off kd w0 E0 Ay0 Nq); try congruence; assumption.
    - intros g w E O X P. destruct (Fro _ _ E) as (w0 & E0 & (K1 & K2 & K3 & K4)).
      destruct (G8 g w0 E0 ltac:(congruence) ltac:(congruence) ltac:(congruence)) as (u0 & off & kd & v0 & H1 & H2 & H3 & H4 & H5 & H6 & H7).
      destruct (To _ _ H4) as (v1 & E1 & K). pose proof (proj1 (Act _ _ K) H5) as A1. destruct K as (J1 & _). rewrite <- K1.
      exists u0, off, kd, v1. rewrite <- J1. split; [exact H1|]. split; [exact H2|]. split; [congruence|]. split; [exact E1|]. split; [exact A1|]. split; [exact H6|].
      destruct H7 as [H7|[H7|H7]]; [now left| |now (right; right)]. right. right. injection H7 as H7. subst u0. rewrite Eu in H4. injection H4 as <-.
      destruct (good_val v (G5 _ _ Eu (proj1 Av))) as (Fv & Pv). destruct (add_step _ off kd Fv Pv (proj1 (proj2 Av)) H1) as (Fa & _ & Pa).
      destruct (good_val w0 (G5 _ _ E0 ltac:(congruence))) as (Fw0 & _).
      apply fle_ER in H6; [|apply ffin_nnan, Fa|apply ffin_nnan, Fw0]. rewrite !ER_fin in H6 by assumption.
      assert (N : flt (fadd (e_distance v) (stp kd)) (e_distance w0) = false) by (apply (Set_ off kd w0 H1); congruence).
      apply nlt_ER in N; [|apply ffin_nnan, Fa|apply ffin_nnan, Fw0]. rewrite !ER_fin in N by assumption.
      apply fin_eq; [exact Fw0|exact Fa|lra|lra].
    - intros g w E O X. destruct (Fro _ _ E) as (w0 & E0 & (K1 & K2 & K3 & K4)). apply (tr_flagless F F' To). apply (G9 g w0 E0); [congruence|].
      unfold far in *. rewrite K3, K4. exact X.
  Qed.

  (** ** the start *)
  Definition occ_v (h : bool) : EsdfVoxel := MkEsdf f0 true h true true zero3.
  Definition free_v (h : bool) : EsdfVoxel := MkEsdf df true h false false zero3.
  Lemma init_view (F : view) p : NoDup (map snd p) -> (forall b g, In (b, g) p -> b = 0 /\ exists h, F g = Some (occ_v h)) ->
    (forall g v, F g = Some v -> (e_observed v = false /\ e_in_queue v = false) \/ (exists h, v = occ_v h /\ inq p g) \/ (exists h, v = free_v h)) ->
    ginv F p None.
  Proof.
    intros ND Hp HF. destruct (os_max_ok _ _ HS) as (Fm & Pm & _). destruct (os_default_ok _ _ HS) as (Fd & Pd).
    assert (Ao : forall h, active (occ_v h)).
    { intros h. split; [reflexivity|]. split; [|left; reflexivity]. cbn [occ_v e_distance]. apply flt_R; [reflexivity|exact Fm|]. cbn. lra. }
    constructor.
    - exact ND.
    - discriminate.
    - intros g (b & Hb). destruct (Hp _ _ Hb) as (_ & h & E). exists (occ_v h). auto.
    - intros g v E Q. destruct (HF _ _ E) as [(_ & X)|[(h & -> & X)|(h & ->)]]; [congruence|now left|discriminate].
    - intros g v E O. destruct (HF _ _ E) as [(X & _)|[(h & -> & X)|(h & ->)]]; [congruence|split; reflexivity|].
      split; [exact Fd|]. split; [cbn; lra|reflexivity].
    - exists p, []. split; [now rewrite app_nil_r|]. split; [|constructor]. apply Forall_forall. intros (b & g) Hb. destruct (Hp _ _ Hb) as (-> & h & E).
      split; [reflexivity|]. exists (occ_v h). auto.
    - intros g v off kd w E A Nq. exfalso. apply Nq. destruct (HF _ _ E) as [(X & _)|[(h & -> & X)|(h & ->)]]; [destruct A; congruence|exact X|].
      destruct A as (_ & _ & [A|A]); [discriminate|]. exfalso. apply A. reflexivity.
    - intros g w E O X P. exfalso. destruct (HF _ _ E) as [(Y & _)|[(h & -> & Y)|(h & ->)]]; [congruence|discriminate|apply P; reflexivity].
    - intros g w E O X. destruct (HF _ _ E) as [(Y & _)|[(h & -> & Y)|(h & ->)]]; [congruence|eapply tr_fix; [exact E|reflexivity|reflexivity]|].
      destruct X as [X|X]; [discriminate|]. exfalso. apply X. reflexivity.
  Qed.
End View.
