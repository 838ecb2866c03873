(** C57: the threads of one ICP run. *)
From Coq Require Import ZArith Reals List Bool Lia Lra Permutation.
From Flocq Require Import Core.
From Verif Require Import F32 F32_lemmas F32_err Types Index Layer Threads Threads_proofs Icp Icp_spec Icp_proofs.
Import ListNotations.
Open Scope Z_scope.
Ltac Zify.zify_post_hook ::= idtac.

Section C57.
  Context {pose info pair delta : Type}.
  Variable match_point : pose -> pt3 -> option pair.
  Variable solve : list pair -> option (delta * info).
  Variable fuse : pose * info -> delta * info -> pose * info.
  Variables (mb : Z) (keep : f32) (k : Z) (points : list pt3) (T : nat) (x0 : pose * info) (unset : pose).
  Notation state := (@icp_state pose info delta).
  Notation step := (icp_step match_point solve fuse mb keep k points).
  Notation run := (icp_run match_point solve fuse mb keep k points).
  Notation reached := (reached match_point solve fuse mb keep k points T x0 unset).
  Notation size := (Z.of_nat (length points)).

  (** C57: at any moment of any schedule the mini-batches handed to the alignment step are
      distinct multiples of the batch size, none starts beyond the requested fraction of the
      cloud (up to one rounding), and no point is in two of them. *)
  Theorem C57_disjoint st : icp_settings mb keep points T -> reached st ->
    NoDup (starts st) /\
    (forall s, In s (starts st) -> (mb | s) /\ 0 <= s <= size /\ (IZR s <= FR keep * IZR size * (1 + / 16777216))%R) /\
    (forall s s' i, In s (starts st) -> In s' (starts st) -> in_batch mb s i -> in_batch mb s' i -> s = s').
  Proof.
    intros HS R. destruct (inv_reached _ _ _ _ _ _ _ _ _ _ HS st R) as (_ & (kk & rej & E1 & E2 & P & _ & _ & Fs & _) & _).
    assert (Mu : forall s, In s (starts st) -> exists j, s = mult mb j /\ (j < kk)%nat).
    { intros s Hs. assert (X : In s (map (mult mb) (seq 0 kk))).
      { eapply Permutation_in; [exact P|]. rewrite !in_app_iff. auto. }
      apply in_map_iff in X. destruct X as (j & <- & Hj). apply in_seq in Hj. exists j. split; [reflexivity|lia]. }
    split; [|split].
    - pose proof (mult_NoDup _ _ _ _ HS kk) as N. apply (Permutation_NoDup (Permutation_sym P)) in N.
      apply NoDup_remove_app_l in N || idtac. clear - N. induction (flat_map held (x_threads st)) as [|a l IH]; cbn in N.
      + clear - N. revert N. generalize (starts st). intros l. induction l as [|a l IH]; cbn; intros N; [constructor|].
        inversion N as [|? ? N1 N2]; subst. constructor; [intros X; apply N1; apply in_app_iff; now left|auto].
      + inversion N; subst. auto.
    - intros s Hs. destruct (Mu s Hs) as (j & -> & Hj). rewrite Forall_forall in Fs. pose proof (Fs _ Hs) as B.
      pose proof (mult_small _ _ _ _ HS j ltac:(lia)) as Hm. pose proof HS as (_ & Fk & Rk & Hn & _).
      split; [exists (Z.of_nat j); reflexivity|]. split; [split; [lia|]|].
      + eapply within_small; [exact Fk|exact Rk|exact Hn|exact Hm|exact B].
      + eapply within_sound; [exact Fk|exact Rk|exact Hn|exact Hm|exact B].
    - intros s s' i Hs Hs' B B'. destruct (Mu s Hs) as (j & -> & _). destruct (Mu s' Hs') as (j' & -> & _).
      destruct HS as (Hm & _). unfold in_batch, mult in *. f_equal. nia.
  Qed.

  (** C57: once every thread has returned, exactly the mini-batches starting inside the fraction
      have been processed; so every point of the requested fraction is in exactly one of them. *)
  Theorem C57_cover st : icp_settings mb keep points T -> (0 < T)%nat -> reached st -> all_done st ->
    (forall s, (mb | s) -> 0 <= s -> (IZR s <= FR keep * IZR size)%R -> In s (starts st)) /\
    (forall i, 0 <= i -> (IZR i <= FR keep * IZR size)%R -> exists! s, In s (starts st) /\ in_batch mb s i).
  Proof.
    intros HS HT R D. destruct (inv_reached _ _ _ _ _ _ _ _ _ _ HS st R) as (IA & (kk & rej & E1 & E2 & P & Fr & Lr & Fs & _) & _).
    pose proof HS as (Hm & Fk & Rk & Hn & _).
    assert (Hh : flat_map held (x_threads st) = []).
    { unfold all_done in D. clear - D. induction D as [|th l H D IH]; cbn; [reflexivity|]. unfold held at 1. now rewrite H. }
    assert (Hr : rej <> []).
    { intros ->. cbn in Lr. destruct IA as (L & _). unfold all_done in D. destruct (x_threads st) as [|th l]; [cbn in L; lia|].
      inversion D as [|? ? H _]; subst. cbn [flat_map] in Lr. unfold fin at 1 in Lr. rewrite H in Lr. discriminate. }
    rewrite Hh in P. cbn [app] in P.
    assert (C : forall s, (mb | s) -> 0 <= s -> (IZR s <= FR keep * IZR size)%R -> In s (starts st)).
    { intros s (q & ->) Hs B. assert (Hq : 0 <= q) by nia. set (j := Z.to_nat q). assert (Ej : q * mb = mult mb j) by (unfold mult, j; nia).
      pose proof (within_cover keep points Fk Rk Hn _ Hs B) as Bf. rewrite Ej in *.
      destruct rej as [|r rej']; [congruence|]. inversion Fr as [|? ? Br _]; subst.
      assert (Ir : In r (map (mult mb) (seq 0 kk))) by (eapply Permutation_in; [exact P|]; apply in_app_iff; right; now left).
      apply in_map_iff in Ir. destruct Ir as (jr & <- & Hjr). apply in_seq in Hjr.
      assert (Lj : (j < jr)%nat).
      { destruct (le_lt_dec jr j) as [Le|]; [exfalso|assumption].
        rewrite (beyond_mono keep points Fk Rk Hn (mult mb jr) (mult mb j)) in Bf; [discriminate|unfold mult; nia| |exact Br].
        pose proof (within_small keep points Fk Rk Hn) as W.
        assert (mult mb j <= size).
        { rewrite <- Ej. apply le_IZR. rewrite Ej. eapply Rle_trans; [exact B|]. assert (0 <= IZR size)%R by (apply (IZR_le 0); lia). nra. }
        lia. }
      assert (Ij : In (mult mb j) (starts st ++ mult mb jr :: rej')).
      { eapply Permutation_in; [symmetry; exact P|]. apply in_map. apply in_seq. lia. }
      apply in_app_iff in Ij. destruct Ij as [Ij|Ij]; [exact Ij|]. rewrite Forall_forall in Fr. rewrite (Fr _ Ij) in Bf. discriminate. }
    split; [exact C|]. intros i Hi B. exists (mb * (i / mb)). split.
    - split.
      + apply C; [exists (i / mb); ring| |].
        * pose proof (Z.div_pos i mb Hi ltac:(lia)). nia.
        * eapply Rle_trans; [|exact B]. apply IZR_le. apply Z.mul_div_le. lia.
      + unfold in_batch. pose proof (Z.mul_div_le i mb ltac:(lia)). pose proof (Z.mul_succ_div_gt i mb ltac:(lia)). lia.
    - intros s (Hs & Hb). destruct (proj1 (proj2 (C57_disjoint st HS R)) s Hs) as ((q & ->) & _). unfold in_batch in Hb.
      rewrite (Z.mul_comm q). f_equal. symmetry. apply Z.div_unique with (r := i - mb * q); nia.
  Qed.

  (** C57: each successful step is counted once and fused once: at the end the reported number of
      updates is the number of successful steps, and the final pose and information are the
      result of fusing every one of them, one after the other, into the initial guess. *)
  Theorem C57_counted st : icp_settings mb keep points T -> reached st -> all_done st ->
    x_num st = Z.of_nat (length (successes st)) /\
    exists order, Permutation order (successes st) /\ x_shared st = fold_left fuse order x0.
  Proof.
    intros HS R D. destruct (inv_reached _ _ _ _ _ _ _ _ _ _ HS st R) as (_ & _ & (fl & P & Es & N0 & En & _)).
    assert (H1 : flat_map pend (x_threads st) = [] /\ flat_map counting (x_threads st) = []).
    { unfold all_done in D. clear - D. induction D as [|th l H D (I1 & I2)]; cbn; [auto|]. unfold pend at 1, counting at 1. rewrite H. auto. }
    destruct H1 as (H1 & H2). rewrite H1, app_nil_r in P. rewrite H2 in En. cbn in En. split.
    - rewrite <- (Permutation_length P). lia.
    - exists fl. auto.
  Qed.
  (** ... and at every moment before that the count is never ahead of the successes. *)
  Theorem C57_counted_during st : icp_settings mb keep points T -> reached st ->
    0 <= x_num st <= Z.of_nat (length (successes st)).
  Proof.
    intros HS R. destruct (inv_reached _ _ _ _ _ _ _ _ _ _ HS st R) as (_ & _ & (fl & P & Es & N0 & En & _)).
    apply Permutation_length in P. rewrite app_length in P. lia.
  Qed.

  (** C57: a step that succeeded matched at least the required number of points of its own
      mini-batch, and nothing but those points. *)
  Theorem C57_success st t s p e : icp_settings mb keep points T -> reached st -> In (t, s, p, Some e) (x_calls st) ->
    let used := firstn (Z.to_nat mb) (skipn (Z.to_nat s) points) in
    exists ms, solve ms = Some e /\ k <= Z.of_nat (length ms) /\
      ms = flat_map (fun q => match match_point p q with Some m => [m] | None => [] end) used.
  Proof.
    intros HS R H used.
    assert (Hs : 0 <= s <= size).
    { apply (proj1 (proj2 (C57_disjoint st HS R))). unfold starts. apply in_map_iff. eexists. split; [|exact H]. reflexivity. }
    assert (Eu : batch mb points s = used).
    { destruct HS as (Hm & _ & _ & Hn & _). unfold batch, used. assert (u64 (s + u64 mb) = s + mb) as ->.
      { unfold u64. rewrite (Z.mod_small mb) by lia. apply Z.mod_small. lia. }
      destruct (Z_le_gt_dec (s + mb) size).
      - f_equal. lia.
      - rewrite !firstn_all2; [reflexivity|rewrite skipn_length; lia|rewrite skipn_length; lia]. }
    destruct R as (sched & ->).
    assert (G : forall sched st, Forall (fun c => snd c = stepICP match_point solve mb k points (snd (fst (fst c))) (snd (fst c))) (x_calls st) ->
      Forall (fun c => snd c = stepICP match_point solve mb k points (snd (fst (fst c))) (snd (fst c))) (x_calls (run sched st))).
    { clear. induction sched as [|t sched IH]; intros st F; [exact F|]. cbn [icp_run fold_left]. apply IH.
      unfold icp_step. destruct (nth_error (x_threads st) t) as [[pc p]|]; [|exact F].
      destruct pc; try exact F; try (destruct (x_mutex st); exact F).
      cbn. apply Forall_app. split; [exact F|]. constructor; [reflexivity|constructor]. }
    specialize (G sched (icp_init T x0 unset) (Forall_nil _)). rewrite Forall_forall in G. specialize (G _ H). cbn [fst snd] in G.
    unfold stepICP in G. cbn zeta in G. destruct (_ <? k) eqn:L in G; [discriminate|]. apply Z.ltb_ge in L.
    exists (matches match_point p (batch mb points s)). split; [auto|]. split; [exact L|].
    rewrite Eu. clear. induction used as [|q l IH]; cbn; [reflexivity|]. rewrite IH. now destruct (match_point p q).
  Qed.

  (** C57: every alignment step starts from the initial guess fused with successful steps
      made so far, never from anything else: the pose it is given is that of the shared
      estimate at an earlier moment. *)
  Theorem C57_poses st t s p r : icp_settings mb keep points T -> reached st -> In (t, s, p, r) (x_calls st) ->
    exists order rest, Permutation (order ++ rest) (successes st) /\ p = fst (fold_left fuse order x0).
  Proof.
    intros HS (sched & ->) H.
    set (seen := fun sched p => exists s1 s2, sched = s1 ++ s2 /\ p = fst (x_shared (run s1 (icp_init T x0 unset)))).
    assert (Mono : forall sc p t', seen sc p -> seen (sc ++ [t']) p).
    { intros sc q t' (s1 & s2 & -> & ->). exists s1, (s2 ++ [t']). rewrite app_assoc. auto. }
    assert (Now : forall sc, seen sc (fst (x_shared (run sc (icp_init T x0 unset))))).
    { intros sc. exists sc, []. now rewrite app_nil_r. }
    assert (Snoc : forall sc t', run (sc ++ [t']) (icp_init T x0 unset) = step (run sc (icp_init T x0 unset)) t').
    { intros sc t'. unfold icp_run. rewrite fold_left_app. reflexivity. }
    assert (G : forall sc, (forall c, In c (x_calls (run sc (icp_init T x0 unset))) -> seen sc (snd (fst c))) /\
      (forall i th, nth_error (x_threads (run sc (icp_init T x0 unset))) i = Some th ->
         match it_pc th with WantPose | HasPose => True | _ => seen sc (it_pose th) end)).
    { intros sc. induction sc as [|t' sc (I1 & I2)] using rev_ind.
      - split; [intros c []|]. intros i th Hi. apply nth_error_In, repeat_spec in Hi. subst th. exact I.
      - pose proof (Now (sc ++ [t'])) as N'. rewrite Snoc in *. pose proof (Now sc) as N. clear Snoc Now.
        remember (run sc (icp_init T x0 unset)) as st0 eqn:E0. clear E0.
        assert (M1 : forall c, In c (x_calls st0) -> seen (sc ++ [t']) (snd (fst c))) by (intros; apply Mono, I1; auto).
        assert (M2 : forall i th, nth_error (x_threads st0) i = Some th ->
           match it_pc th with WantPose | HasPose => True | _ => seen (sc ++ [t']) (it_pose th) end).
        { intros i th Hi. specialize (I2 i th Hi). destruct (it_pc th); auto. }
        assert (SET : forall pc q i th, match pc with WantPose | HasPose => True | _ => seen (sc ++ [t']) q end ->
           nth_error (set_th t' (MkIT pc q) (x_threads st0)) i = Some th ->
           match it_pc th with WantPose | HasPose => True | _ => seen (sc ++ [t']) (it_pose th) end).
        { intros pc q i th Hq Hi. destruct (Nat.eq_dec i t') as [->|Ne].
          - destruct (nth_error (x_threads st0) t') as [y|] eqn:Ey.
            + rewrite (set_th_same _ _ _ _ Ey) in Hi. injection Hi as <-. exact Hq.
            + exfalso. apply nth_error_None in Ey. assert (Z0 : nth_error (set_th t' (MkIT pc q) (x_threads st0)) t' <> None) by congruence.
              apply nth_error_Some in Z0. rewrite set_th_length in Z0. lia.
          - rewrite set_th_other in Hi by auto. eapply M2; eauto. }
        unfold icp_step in *. destruct (nth_error (x_threads st0) t') as [[pc q]|] eqn:Et; [|split; [exact M1|exact M2]].
        pose proof (M2 _ _ Et) as Q. cbn [it_pc it_pose] in Q.
        destruct pc; try (destruct (x_mutex st0)); unfold goto, set_mutex in *; cbn [x_calls x_threads x_shared x_idx x_mutex x_num] in *;
          try (split; [exact M1|first [exact M2 | intros i th; apply SET; first [exact I | exact Q | exact N' | apply Mono; exact N]]]).
        all: try (split; [exact M1|intros i th; apply SET; destruct (beyond _ _ _); exact Q]).
        all: split; [intros c Hc; apply in_app_iff in Hc; destruct Hc as [Hc|[<-|[]]]; [auto|exact Q]
                    |intros i th; apply SET; destruct (stepICP _ _ _ _ _ _ _); exact Q]. }
    destruct (G sched) as (G1 & _). destruct (G1 _ H) as (s1 & s2 & -> & Ep). cbn [fst snd] in Ep.
    assert (R1 : reached (run s1 (icp_init T x0 unset))) by (exists s1; reflexivity).
    destruct (inv_reached _ _ _ _ _ _ _ _ _ _ HS _ R1) as (_ & _ & (fl & P & Es & _)).
    assert (K : forall s2 st0, exists more, successes (run s2 st0) = successes st0 ++ more).
    { clear. induction s2 as [|a s2 IH]; intros st0; [exists []; now rewrite app_nil_r|].
      destruct (IH (step st0 a)) as (m2 & E2). cbn [icp_run fold_left]. unfold icp_run in E2. rewrite E2.
      assert (exists m1, successes (step st0 a) = successes st0 ++ m1) as (m1 & ->).
      { unfold icp_step. destruct (nth_error (x_threads st0) a) as [[pc q]|]; [|exists []; now rewrite app_nil_r].
        destruct pc; try (destruct (x_mutex st0)); try (exists []; rewrite app_nil_r; reflexivity).
        all: eexists; unfold successes; cbn [goto x_calls]; rewrite flat_map_app; reflexivity. }
      exists (m1 ++ m2). now rewrite app_assoc. }
    assert (Es2 : run (s1 ++ s2) (icp_init T x0 unset) = run s2 (run s1 (icp_init T x0 unset))) by (unfold icp_run; apply fold_left_app).
    destruct (K s2 (run s1 (icp_init T x0 unset))) as (more & Em). rewrite Es2, Em.
    exists fl, (flat_map pend (x_threads (run s1 (icp_init T x0 unset))) ++ more). split.
    - rewrite app_assoc. apply Permutation_app_tail. exact P.
    - rewrite Ep, Es. reflexivity.
  Qed.

  (** C57: the threads cannot block each other for good. *)
  Theorem C57_no_deadlock st : icp_settings mb keep points T -> reached st -> ~ all_done st ->
    exists t, (t < T)%nat /\ step st t <> st.
  Proof.
    intros HS R ND. destruct (inv_reached _ _ _ _ _ _ _ _ _ _ HS st R) as (IA & IB & _).
    destruct (not_stuck points T st IA ND) as (t & Lt & F). exists t. split; [exact Lt|]. intros X.
    pose proof (free_step match_point solve fuse mb keep k points T HS st t IB F) as M. rewrite X in M. lia.
  Qed.
  (** C57: under every schedule that keeps giving every thread a turn, all threads return. *)
  Theorem C57_terminates (sched : nat -> nat) : icp_settings mb keep points T ->
    (forall t m, (t < T)%nat -> exists m', (m <= m')%nat /\ sched m' = t) ->
    exists m, all_done (run (map sched (seq 0 m)) (icp_init T x0 unset)).
  Proof.
    intros HS Fair. set (at_ m := run (map sched (seq 0 m)) (icp_init T x0 unset)).
    assert (Rm : forall m, reached (at_ m)) by (intros m; exists (map sched (seq 0 m)); reflexivity).
    assert (Sm : forall m, at_ (S m) = step (at_ m) (sched m)).
    { intros m. unfold at_. rewrite seq_S, map_app. unfold icp_run. rewrite fold_left_app. reflexivity. }
    assert (G : forall c m, measure mb points T (at_ m) < Z.of_nat c -> exists m', all_done (at_ m')).
    { induction c as [|c IH]; intros m Hc.
      - destruct (inv_reached _ _ _ _ _ _ _ _ _ _ HS _ (Rm m)) as (_ & IB & _). pose proof (measure_pos mb keep points T HS _ IB). lia.
      - assert (Dec : all_done (at_ m) \/ ~ all_done (at_ m)).
        { unfold all_done. destruct (Forall_dec (fun th : @ithread pose info delta => it_pc th = Done)
            ltac:(intros th; cbv beta; destruct (it_pc th); [right|right|right|right|right|right|right|right|right|right|right|right|left]; congruence) (x_threads (at_ m))); auto. }
        destruct Dec as [D|ND]; [exists m; exact D|].
        destruct (inv_reached _ _ _ _ _ _ _ _ _ _ HS _ (Rm m)) as (IA & IB & _).
        destruct (not_stuck points T _ IA ND) as (t & Lt & F). destruct (Fair t m Lt) as (m' & Lm & Et).
        (* either some move before m' changed the state, or t moves at m' *)
        assert (Q : forall d, (exists j, measure mb points T (at_ (m + j)%nat) < measure mb points T (at_ m)) \/ at_ (m + d)%nat = at_ m).
        { induction d as [|d [X|X]]; [right; now rewrite Nat.add_0_r|now left|].
          destruct (stuck (at_ (m + d)%nat) (sched (m + d)%nat)) eqn:Sd.
          - right. rewrite Nat.add_succ_r, Sm, stuck_step by exact Sd. exact X.
          - left. exists (S d). rewrite Nat.add_succ_r, Sm. destruct (inv_reached _ _ _ _ _ _ _ _ _ _ HS _ (Rm (m + d)%nat)) as (_ & IBd & _).
            pose proof (free_step match_point solve fuse mb keep k points T HS _ _ IBd Sd). rewrite X in *. lia. }
        destruct (Q (m' - m)%nat) as [(j & X)|X].
        + apply (IH (m + j)%nat). lia.
        + replace (m + (m' - m))%nat with m' in X by lia. apply (IH (S m')). rewrite Sm, Et, X.
          pose proof (free_step match_point solve fuse mb keep k points T HS _ _ IB F). lia. }
    destruct (G (Z.to_nat (measure mb points T (at_ 0%nat) + 1)) 0%nat) as (m & D); [|exists m; exact D].
    destruct (inv_reached _ _ _ _ _ _ _ _ _ _ HS _ (Rm 0%nat)) as (_ & IB & _). pose proof (measure_pos mb keep points T HS _ IB). lia.
  Qed.
End C57.
Print Assumptions C57_disjoint.
Print Assumptions C57_cover.
Print Assumptions C57_counted.
Print Assumptions C57_counted_during.
Print Assumptions C57_success.
Print Assumptions C57_poses.
Print Assumptions C57_no_deadlock.
Print Assumptions C57_terminates.

(** The threshold is three or [min_match_ratio] of a mini-batch, whichever is more, up to
    the rounding of one multiplication and to the next integer below. *)
Theorem C57_threshold mb r : 0 <= mb <= 2 ^ 20 -> ffin r = true -> (0 <= FR r <= 1)%R ->
  exists k, min_matches mb r = Some k /\ 3 <= k /\
    (Rmax 3 (IZR mb * FR r) - (1 + / 15) <= IZR k <= Rmax 3 (IZR mb * FR r) + / 15)%R.
Proof.
  intros M F R. destruct (f32_of_Z_R mb) as (E & Fm); [lia|].
  assert (MB : (0 <= IZR mb <= 1048576)%R) by (split; apply IZR_le; lia).
  assert (P : (0 <= IZR mb * FR r <= 1048576)%R).
  { split; [apply Rmult_le_pos; lra|]. rewrite <- (Rmult_1_r 1048576). apply Rmult_le_compat; lra. }
  destruct (fmul_rel (f32_of_Z mb) r Fm F) as (Fp & d & e & D1 & D2 & Q).
  { rewrite E, Rabs_pos_eq by lra. eapply Rle_trans; [apply P|]. change 1048576%R with (bpow radix2 20). apply bpow_le; lia. }
  rewrite E in Q. set (x := fmul (f32_of_Z mb) r) in *. set (y := (IZR mb * FR r)%R) in *.
  assert (U : (Rabs (FR x - y) <= / 15)%R).
  { rewrite Q. replace (y * (1 + d) + e - y)%R with (y * d + e)%R by ring.
    eapply Rle_trans; [apply Rabs_triang|]. rewrite Rabs_mult, (Rabs_pos_eq y) by lra.
    assert (A : (y * Rabs d <= 1048576 * (/ 16777216 / 1))%R).
    { apply Rmult_le_compat; [lra|apply Rabs_pos|lra|]. eapply Rle_trans; [exact D1|]. unfold u32r. lra. }
    assert (B : (Rabs e <= / 16777216)%R).
    { eapply Rle_trans; [exact D2|]. unfold t32r. apply Rle_trans with (bpow radix2 (-24)); [apply bpow_le; lia|]. simpl. lra. }
    lra. }
  apply Rabs_le_inv in U.
  assert (X0 : (0 <= FR x)%R).
  { destruct (fmul_R (f32_of_Z mb) r Fm F) as (G & _).
    { rewrite E. apply rnd32_small. rewrite Rabs_pos_eq by (fold y; lra). fold y. eapply Rle_trans; [apply P|]. change 1048576%R with (bpow radix2 20). apply bpow_le; lia. }
    unfold x. rewrite G, <- rnd32_0, E. apply rnd32_le. fold y. lra. }
  unfold min_matches. fold x. rewrite (ftruncZ_R x Fp), Ztrunc_floor by exact X0.
  pose proof (Zfloor_lb (FR x)) as L1. pose proof (Zfloor_ub (FR x)) as L2. set (z := Zfloor (FR x)) in *.
  assert (Z1 : 0 <= z) by (apply Zfloor_lub; simpl; lra).
  assert (Z2 : z <= 1048577) by (apply le_IZR; lra).
  unfold to_int32, in_range. replace ((- 2 ^ 31 <=? z) && (z <=? 2 ^ 31 - 1))%bool with true by (symmetry; apply andb_true_iff; split; apply Z.leb_le; lia).
  exists (Z.max 3 z). split; [reflexivity|]. split; [lia|].
  destruct (Z.max_spec 3 z) as [(H & ->)|(H & ->)].
  - assert (IZR 3 < IZR z)%R by (apply IZR_lt; exact H). unfold Rmax. destruct (Rle_dec 3 y); lra.
  - assert (IZR z <= IZR 3)%R by (apply IZR_le; exact H). unfold Rmax. destruct (Rle_dec 3 y); lra.
Qed.
Print Assumptions C57_threshold.
Example C57_threshold_case : min_matches 20 (f32_of_f64 (f64_lit 1 (-1))) = Some 10.
Proof. vm_compute. reflexivity. Qed.

(** Outside the settings: with a batch size of 0 no thread ever returns, whatever the schedule. *)
Theorem C57_zero_batch_refuted {pose info pair delta : Type} (match_point : pose -> pt3 -> option pair)
  (solve : list pair -> option (delta * info)) fuse keep k points T x0 unset sched :
  ffin keep = true -> (0 <= FR keep <= 1)%R -> Z.of_nat (length points) < 2 ^ 24 -> (0 < T)%nat ->
  ~ all_done (icp_run match_point solve fuse 0 keep k points sched (icp_init T x0 unset)).
Proof.
  intros Fk Rk Hn HT.
  set (good := fun st : @icp_state pose info delta => x_idx st = 0 /\ length (x_threads st) = T /\
    Forall (fun th => it_pc th <> Done /\ forall s, it_pc th = Got s -> s = 0) (x_threads st)).
  assert (B0 : beyond keep points 0 = false).
  { apply within_cover; auto; [lia|]. apply Rmult_le_pos; [lra|]. apply (IZR_le 0). lia. }
  assert (Fset : forall l t th (x : @ithread pose info delta), nth_error l t = Some th ->
     Forall (fun th => it_pc th <> Done /\ forall s, it_pc th = Got s -> s = 0) l ->
     (it_pc x <> Done /\ forall s, it_pc x = Got s -> s = 0) ->
     Forall (fun th => it_pc th <> Done /\ forall s, it_pc th = Got s -> s = 0) (set_th t x l)).
  { intros l t th x H F G. destruct (set_th_split l t x th H) as (l1 & l2 & E & E' & _). rewrite E'. rewrite E in F.
    apply Forall_app in F. destruct F as (F1 & F2). inversion F2; subst. apply Forall_app. split; [exact F1|]. now constructor. }
  assert (Gstep : forall st t, good st -> good (icp_step match_point solve fuse 0 keep k points st t)).
  { intros st t (E & L & F). unfold icp_step. destruct (nth_error (x_threads st) t) as [[pc p]|] eqn:Et; [|exact (conj E (conj L F))].
    assert (Q : forall pc' p' idx m sh num calls, idx = 0 -> pc' <> Done -> (forall s, pc' = Got s -> s = 0) ->
      good (MkIcp idx m sh num (set_th t (MkIT pc' p') (x_threads st)) calls)).
    { intros. split; [assumption|]. cbn [x_threads]. split; [now rewrite set_th_length|]. eapply Fset; [exact Et|exact F|]. cbn. auto. }
    destruct pc as [| | | |s|s|e|e|e x| |m| |]; try (apply Q; [exact E|discriminate|discriminate]).
    - destruct (x_mutex st); [exact (conj E (conj L F))|]. apply Q; [exact E|discriminate|discriminate].
    - apply Q; [rewrite E; reflexivity|discriminate|]. intros s X. injection X as <-. exact E.
    - assert (s = 0) as ->. { rewrite Forall_forall in F. apply (F _ (nth_error_In _ _ Et)). reflexivity. }
      rewrite B0. apply Q; [exact E|discriminate|discriminate].
    - cbn zeta. apply Q; [exact E| |]; destruct (stepICP _ _ _ _ _ _ _); discriminate.
    - destruct (x_mutex st); [exact (conj E (conj L F))|]. apply Q; [exact E|discriminate|discriminate].
    - exact (conj E (conj L F)). }
  assert (G : good (icp_run match_point solve fuse 0 keep k points sched (icp_init T x0 unset))).
  { assert (G0 : good (icp_init T x0 unset)).
    { split; [reflexivity|]. split; [apply repeat_length|]. apply Forall_forall. intros th H. cbn in H. apply repeat_spec in H. subst th. split; discriminate. }
    revert G0. generalize (@icp_init pose info delta T x0 unset). clear - Gstep. induction sched as [|t sched IH]; intros st G; [exact G|]. cbn. apply IH. now apply Gstep. }
  destruct G as (_ & L & F). unfold all_done. intros D. destruct (x_threads _) as [|th l]; [cbn in L; lia|].
  inversion D; inversion F; subst. tauto.
Qed.
Print Assumptions C57_zero_batch_refuted.

(** A concrete run: seven points, batches of three, half of the cloud requested, two threads.
    The poses are numbers, every point matches, and fusing adds. *)
Definition ex_pts : list pt3 := repeat (V3 f0 f0 f0) 7.
Definition ex_half : f32 := f32_lit 1 (-1).
Definition ex_end : @icp_state Z Z Z :=
  icp_run (fun (_ : Z) p => Some p) (fun ms => Some (Z.of_nat (length ms), 1)) (fun x e => (fst x + fst e, snd x + snd e))
    3 ex_half 3 ex_pts (concat (repeat [0; 1]%nat 30)) (icp_init 2 (100, 0) 0).
Example C57_settings : icp_settings 3 ex_half ex_pts 2.
Proof.
  split; [lia|]. split; [reflexivity|]. split; [|split; cbn; lia].
  assert (FR ex_half = / 2)%R as -> by (unfold ex_half, f32_lit, FR; cbn; unfold Defs.F2R; cbn; lra). lra.
Qed.
Example C57_run : all_done ex_end /\ starts ex_end = [0; 3] /\ x_num ex_end = 2 /\ x_shared ex_end = (106, 2) /\
  reached (fun (_ : Z) p => Some p) (fun ms => Some (Z.of_nat (length ms), 1)) (fun x e => (fst x + fst e, snd x + snd e))
    3 ex_half 3 ex_pts 2 (100, 0) 0 ex_end.
Proof.
  split; [vm_compute; repeat constructor|]. split; [vm_compute; reflexivity|]. split; [vm_compute; reflexivity|].
  split; [vm_compute; reflexivity|]. eexists. reflexivity.
Qed.
Example C57_fair : forall t m, (t < 2)%nat -> exists m', (m <= m')%nat /\ Nat.modulo m' 2 = t.
Proof.
  intros t m H. exists (m * 2 + t)%nat. split; [lia|]. rewrite Nat.add_comm, Nat.mod_add by lia. apply Nat.mod_small. exact H.
Qed.
