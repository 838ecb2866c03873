(** Proofs about the ICP threads. *)
From Coq Require Import ZArith Reals List Bool Lia Lra Permutation.
From Flocq Require Import Core Binary.
From Verif Require Import F32 F32_lemmas F32_err Types Index Layer Threads Threads_proofs RosQueue_proofs Icp Icp_spec.
Import ListNotations.
Open Scope Z_scope.
Ltac Zify.zify_post_hook ::= idtac.

Section Beyond.
  Variables (keep : f32) (points : list pt3).
  Hypothesis Fk : ffin keep = true.
  Hypothesis Rk : (0 <= FR keep <= 1)%R.
  Let n := Z.of_nat (length points).
  Hypothesis Hn : n < 2 ^ 24.
  Notation beyond := (beyond keep points).
  Let lim := rnd32 (FR keep * IZR n).
  Lemma n_pos : 0 <= n. Proof. unfold n. lia. Qed.
  Lemma nR : (0 <= IZR n)%R. Proof. apply (IZR_le 0). apply n_pos. Qed.
  Lemma lim_ok : FR (fmul keep (f32_of_Z n)) = lim /\ ffin (fmul keep (f32_of_Z n)) = true /\ (0 <= lim <= IZR n)%R.
  Proof.
    destruct (f32_of_Z_R n ltac:(pose proof n_pos; lia)) as (E & F). pose proof nR as N0.
    assert (B : (0 <= FR keep * IZR n <= IZR n)%R).
    { split; [apply Rmult_le_pos; lra|]. rewrite <- (Rmult_1_l (IZR n)) at 2. apply Rmult_le_compat_r; lra. }
    assert (L : (Rabs (FR keep * IZR n) <= bpow radix2 127)%R).
    { rewrite Rabs_pos_eq by lra. eapply Rle_trans; [apply B|]. apply Rle_trans with (IZR (2 ^ 24)); [apply IZR_le; lia|].
      change (2 ^ 24) with (radix2 ^ 24). rewrite IZR_Zpower by lia. apply bpow_le; lia. }
    destruct (fmul_R keep (f32_of_Z n) Fk F) as (P & Q). { rewrite E. now apply rnd32_small. }
    rewrite E in P. split; [exact P|]. split; [exact Q|]. unfold lim. split.
    - rewrite <- rnd32_0. apply rnd32_le. lra.
    - replace (IZR n) with (rnd32 (IZR n)) at 2; [apply rnd32_le; lra|]. rewrite <- E. apply rnd32_FR.
  Qed.
  Lemma beyond_R s : 0 <= s < 2 ^ 63 -> (beyond s = true <-> (lim < rnd32 (IZR s))%R).
  Proof.
    intros Hs. destruct (f32_of_Z_round s ltac:(lia)) as (E & F). destruct lim_ok as (P & Q & _).
    unfold Icp.beyond, fgt. fold n. rewrite flt_R by assumption. rewrite P, E. reflexivity.
  Qed.
  Lemma beyond_mono s s' : 0 <= s <= s' -> s' < 2 ^ 63 -> beyond s = true -> beyond s' = true.
  Proof.
    intros H H' B. apply beyond_R in B; [|lia]. apply beyond_R; [lia|]. eapply Rlt_le_trans; [exact B|].
    apply rnd32_le. apply IZR_le. lia.
  Qed.
  Lemma beyond_big s : n < s < 2 ^ 63 -> beyond s = true.
  Proof.
    intros H. pose proof n_pos. apply (beyond_mono (n + 1)); [lia|lia|]. apply beyond_R; [lia|].
    destruct lim_ok as (_ & _ & B). replace (rnd32 (IZR (n + 1))) with (IZR (n + 1)).
    - rewrite plus_IZR. lra.
    - destruct (f32_of_Z_R (n + 1) ltac:(lia)) as (E & _). rewrite <- E. symmetry. apply rnd32_FR.
  Qed.
  Lemma within_small s : 0 <= s < 2 ^ 63 -> beyond s = false -> s <= n.
  Proof. intros H B. destruct (Z_le_gt_dec s n) as [|G]; [assumption|]. rewrite beyond_big in B by lia. discriminate. Qed.
  Lemma within_cover s : 0 <= s -> (IZR s <= FR keep * IZR n)%R -> beyond s = false.
  Proof.
    intros H B. assert (S : s <= n).
    { apply le_IZR. eapply Rle_trans; [exact B|]. rewrite <- (Rmult_1_l (IZR n)) at 2. apply Rmult_le_compat_r; [apply nR|lra]. }
    apply not_true_iff_false. rewrite beyond_R by lia. apply Rle_not_lt. unfold lim. apply rnd32_le. exact B.
  Qed.
  Lemma within_sound s : 0 <= s < 2 ^ 63 -> beyond s = false -> (IZR s <= FR keep * IZR n * (1 + / 16777216))%R.
  Proof.
    intros H B. pose proof (within_small s H B) as Sn. assert (Pz : (0 <= FR keep * IZR n)%R) by (apply Rmult_le_pos; [lra|apply nR]).
    assert (L : (IZR s <= lim)%R).
    { apply Rnot_lt_le. intros X. apply not_true_iff_false in B. apply B. apply beyond_R; [exact H|].
      destruct (f32_of_Z_R s ltac:(lia)) as (E & _). rewrite <- E, rnd32_FR, E. exact X. }
    destruct (Z.eq_dec s 0) as [->|N0]; [apply Rmult_le_pos; lra|].
    assert (S1 : (1 <= IZR s)%R) by (apply IZR_le; lia).
    assert (Big : (bpow radix2 (-126) <= Rabs (FR keep * IZR n))%R).
    { rewrite Rabs_pos_eq by exact Pz. apply Rnot_lt_le. intros X. assert (lim <= rnd32 (bpow radix2 (-126)))%R by (apply rnd32_le; lra).
      assert (Eb : rnd32 (bpow radix2 (-126)) = bpow radix2 (-126)).
      { replace (bpow radix2 (-126)) with (IZR 1 * bpow radix2 (-126))%R by lra. apply rnd32_exact; lia. }
      assert (bpow radix2 (-126) <= bpow radix2 (-1))%R by (apply bpow_le; lia). assert (bpow radix2 (-1) = / 2)%R by reflexivity. lra. }
    destruct (rnd32_rel _ Big) as (d & Hd & Ed). unfold lim in L. rewrite Ed in L.
    eapply Rle_trans; [exact L|]. apply Rmult_le_compat_l; [exact Pz|]. rewrite bpow_m24 in Hd. unfold u32r in Hd. apply Rabs_le_inv in Hd. lra.
  Qed.
End Beyond.

(** ** lists of per-thread contributions *)
Section Contrib.
  Context {A B : Type} (f : A -> list B).
  Lemma fm_set l t y : nth_error l t = Some y -> exists rest, Permutation (flat_map f l) (f y ++ rest) /\
    forall x, Permutation (flat_map f (set_th t x l)) (f x ++ rest).
  Proof.
    intros H. destruct (set_th_split l t y y H) as (l1 & l2 & E & _ & L).
    exists (flat_map f l1 ++ flat_map f l2). split.
    - rewrite E, flat_map_app. cbn [flat_map]. rewrite !app_assoc. apply Permutation_app_tail. apply Permutation_app_comm.
    - intros x. destruct (set_th_split l t x y H) as (l1' & l2' & E' & Ex & L').
      assert (l1' = l1 /\ l2' = l2) as (-> & ->).
      { rewrite E in E'. clear - E' L L'. subst t. revert l1' L' E'. induction l1 as [|a l1 IH]; intros [|a' l1'] L' E'; cbn in *; try discriminate.
        - injection E' as ->. auto.
        - injection E' as -> E'. destruct (IH l1' ltac:(lia) E') as (-> & ->). auto. }
      rewrite Ex, flat_map_app. cbn [flat_map]. rewrite !app_assoc. apply Permutation_app_tail. apply Permutation_app_comm.
  Qed.
  Lemma fm_same l t y x : nth_error l t = Some y -> f x = f y -> flat_map f (set_th t x l) = flat_map f l.
  Proof.
    revert t. induction l as [|a l IH]; intros [|t] H E; cbn in *; try discriminate.
    - injection H as ->. now rewrite E.
    - f_equal. now apply IH.
  Qed.
End Contrib.

Section Run.
  Context {pose info pair delta : Type}.
  Variable match_point : pose -> pt3 -> option pair.
  Variable solve : list pair -> option (delta * info).
  Variable fuse : pose * info -> delta * info -> pose * info.
  Variables (mb : Z) (keep : f32) (k : Z) (points : list pt3) (T : nat) (x0 : pose * info) (unset : pose).
  Hypothesis HS : icp_settings mb keep points T.
  Notation state := (@icp_state pose info delta).
  Notation step := (icp_step match_point solve fuse mb keep k points).
  Notation bey := (beyond keep points).
  Let n := Z.of_nat (length points).

  Definition holds (pc : @ipc pose info delta) : bool :=
    match pc with HasPose | FreePose | HasUpdate _ | Write _ _ | ReadCount | WriteCount _ | FreeUpdate => true | _ => false end.
  Definition held (th : @ithread pose info delta) : list Z := match it_pc th with Got s | Work s => [s] | _ => [] end.
  Definition fin (th : @ithread pose info delta) : list unit := match it_pc th with Done => [tt] | _ => [] end.
  Definition pend (th : @ithread pose info delta) : list (delta * info) :=
    match it_pc th with WantUpdate e | HasUpdate e | Write e _ => [e] | _ => [] end.
  Definition counting (th : @ithread pose info delta) : list unit := match it_pc th with ReadCount | WriteCount _ => [tt] | _ => [] end.

  Definition invA (st : state) : Prop :=
    length (x_threads st) = T /\
    (forall t th, nth_error (x_threads st) t = Some th -> (holds (it_pc th) = true <-> x_mutex st = Some t)) /\
    (forall t, x_mutex st = Some t -> (t < T)%nat).
  Lemma invA_init : invA (icp_init T x0 unset).
  Proof.
    split; [apply repeat_length|]. split; [|discriminate]. intros t th H. cbn in H. apply nth_error_In, repeat_spec in H. subst th.
    cbn. split; discriminate.
  Qed.
  Lemma invA_step st t : invA st -> invA (step st t).
  Proof.
    intros (L & A & M). unfold icp_step. destruct (nth_error (x_threads st) t) as [[pc p]|] eqn:E; [|exact (conj L (conj A M))].
    assert (Lt : (t < T)%nat) by (rewrite <- L; apply nth_error_Some; congruence).
    pose proof (A t _ E) as At. cbn [it_pc] in At.
    assert (Gen : forall m pc' p' idx sh num calls,
              (holds pc' = true <-> m = Some t) ->
              (forall u, u <> t -> (m = Some u <-> x_mutex st = Some u)) ->
              invA (MkIcp idx m sh num (set_th t (MkIT pc' p') (x_threads st)) calls)).
    { intros m pc' p' idx sh num calls H1 H2. unfold invA. cbn [x_threads x_mutex]. rewrite set_th_length. split; [exact L|]. split.
      - intros u th Hu. destruct (Nat.eq_dec t u) as [<-|N].
        + rewrite (set_th_same _ _ _ _ E) in Hu. injection Hu as <-. exact H1.
        + rewrite set_th_other in Hu by exact N. rewrite (A u th Hu). symmetry. apply H2. congruence.
      - intros u Hu. destruct (Nat.eq_dec t u) as [<-|N]; [exact Lt|]. apply M. apply H2; [congruence|exact Hu]. }
    destruct pc; cbn [holds] in At.
    - destruct (x_mutex st) eqn:Em; [unfold invA; rewrite Em; exact (conj L (conj A M))|]. apply Gen; cbn; [tauto|]. intros u N. split; congruence.
    - apply Gen; cbn [x_mutex goto]; [exact At|tauto].
    - apply Gen; cbn [holds]; [split; discriminate|]. intros u N. split; [discriminate|]. intros X. assert (x_mutex st = Some t) by now apply At. congruence.
    - apply Gen; [exact At|tauto].
    - apply Gen; [|tauto]. destruct (bey _); exact At.
    - apply Gen; [|tauto]. destruct (stepICP _ _ _ _ _ _ _); exact At.
    - destruct (x_mutex st) eqn:Em; [unfold invA; rewrite Em; exact (conj L (conj A M))|]. apply Gen; cbn; [tauto|]. intros u N. split; congruence.
    - apply Gen; [exact At|tauto].
    - apply Gen; [exact At|tauto].
    - apply Gen; [exact At|tauto].
    - apply Gen; [exact At|tauto].
    - apply Gen; cbn [holds]; [split; discriminate|]. intros u N. split; [discriminate|]. intros X. assert (x_mutex st = Some t) by now apply At. congruence.
    - exact (conj L (conj A M)).
  Qed.

  (** ** the counter *)
  Definition mult (j : nat) : Z := Z.of_nat j * mb.
  Definition bound : Z := n / mb + 1 + Z.of_nat T.
  Definition invB (st : state) : Prop :=
    exists kk rej, x_idx st = mult kk /\ Z.of_nat kk <= bound /\
      Permutation (flat_map held (x_threads st) ++ starts st ++ rej) (map mult (seq 0 kk)) /\
      Forall (fun s => bey s = true) rej /\ length rej = length (flat_map fin (x_threads st)) /\
      Forall (fun s => bey s = false) (starts st) /\
      (forall t th s, nth_error (x_threads st) t = Some th -> it_pc th = Work s -> bey s = false).
  Lemma mb_pos : 0 < mb < 2 ^ 31. Proof. destruct HS as (H & _). lia. Qed.
  Lemma n_lt : 0 <= n < 2 ^ 24. Proof. unfold n. destruct HS as (_ & _ & _ & H & _). lia. Qed.
  Lemma bound_small : bound + 1 <= 2 ^ 26 /\ 0 <= bound.
  Proof.
    pose proof mb_pos. pose proof n_lt. assert (0 <= n / mb <= n).
    { split; [apply Z.div_pos; lia|]. apply Z.div_le_upper_bound; [lia|]. nia. }
    unfold bound. destruct HS as (_ & _ & _ & _ & H2). lia.
  Qed.
  Lemma mult_small j : Z.of_nat j <= bound + 1 -> 0 <= mult j < 2 ^ 63.
  Proof. intros H. pose proof bound_small. pose proof mb_pos. unfold mult. nia. Qed.
  Lemma mult_inj i j : mult i = mult j -> i = j.
  Proof. unfold mult. pose proof mb_pos. nia. Qed.
  Lemma mult_NoDup kk : NoDup (map mult (seq 0 kk)).
  Proof. apply FinFun.Injective_map_NoDup; [exact mult_inj|apply seq_NoDup]. Qed.
  Lemma held_fin_len : forall ths, (length (flat_map held ths) + length (flat_map fin ths) <= length ths)%nat.
  Proof.
    induction ths as [|[pc p] ths IH]; cbn [flat_map length]; [lia|]. rewrite !app_length.
    assert (length (held (MkIT pc p)) + length (fin (MkIT pc p)) <= 1)%nat by (destruct pc; cbn; lia). lia.
  Qed.
  (** at most T starts beyond the limit can be out, so the counter stays small *)
  Lemma count_bound kk H0 S0 R0 : Permutation (H0 ++ S0 ++ R0) (map mult (seq 0 kk)) -> Z.of_nat kk <= bound + 1 ->
    Forall (fun s => bey s = false) S0 -> (length H0 + length R0 <= T)%nat -> Z.of_nat kk <= bound.
  Proof.
    intros P Hk FS L. destruct (Z_le_gt_dec (Z.of_nat kk) bound) as [|G]; [assumption|exfalso].
    pose proof mb_pos as Mb. pose proof n_lt as Nl.
    assert (Q0 : 0 <= n / mb) by (apply Z.div_pos; lia).
    set (q := Z.to_nat (n / mb + 1)). assert (Eq : Z.of_nat q = n / mb + 1) by (unfold q; lia).
    assert (Big : forall j, (q <= j < kk)%nat -> bey (mult j) = true).
    { intros j Hj. destruct HS as (_ & Fk & Rk & Hn & _). apply beyond_big; auto. fold n. split; [|apply mult_small; lia].
      unfold mult. pose proof (Z.mul_succ_div_gt n mb ltac:(lia)). nia. }
    assert (Inc : incl (map mult (seq q (kk - q))) (H0 ++ R0)).
    { intros s Hs. apply in_map_iff in Hs. destruct Hs as (j & <- & Hj). apply in_seq in Hj.
      assert (In (mult j) (H0 ++ S0 ++ R0)).
      { eapply Permutation_in; [symmetry; exact P|]. apply in_map. apply in_seq. lia. }
      rewrite !in_app_iff in H. apply in_app_iff. destruct H as [H|[H|H]]; auto. exfalso.
      rewrite Forall_forall in FS. specialize (FS _ H). rewrite Big in FS by lia. discriminate. }
    apply NoDup_incl_length in Inc.
    - rewrite map_length, seq_length, app_length in Inc. unfold bound in G. lia.
    - apply FinFun.Injective_map_NoDup; [exact mult_inj|apply seq_NoDup].
  Qed.
  Lemma fm_nil {A B} (f : A -> list B) a m : f a = [] -> flat_map f (repeat a m) = [].
  Proof. intros E. induction m; cbn; [reflexivity|]. now rewrite E, IHm. Qed.
  Lemma invB_init : invB (icp_init T x0 unset).
  Proof.
    exists 0%nat, []. split; [reflexivity|]. split; [apply bound_small|]. cbn [icp_init x_threads].
    rewrite !fm_nil by reflexivity. split; [constructor|]. split; [constructor|]. split; [reflexivity|]. split; [constructor|].
    intros t th s H E. apply nth_error_In, repeat_spec in H. subst th. discriminate.
  Qed.
  (** a move that changes neither the start a thread holds nor the counter *)
  Lemma invB_quiet st t pc pc' p p' m sh num : invB st -> nth_error (x_threads st) t = Some (MkIT pc p) ->
    held (MkIT pc' p') = [] -> held (MkIT pc p) = [] -> fin (MkIT pc' p') = [] -> fin (MkIT pc p) = [] ->
    invB (MkIcp (x_idx st) m sh num (set_th t (MkIT pc' p') (x_threads st)) (x_calls st)).
  Proof.
    intros (kk & rej & E1 & E2 & P & Fr & Lr & Fs & Fw) E H1 H2 H3 H4. exists kk, rej. cbn [x_idx x_threads].
    rewrite (fm_same held _ _ _ _ E) by congruence. rewrite (fm_same fin _ _ _ _ E) by congruence.
    unfold starts in *. cbn [x_calls]. repeat (split; [assumption|]).
    intros u th s Hu Hw. destruct (Nat.eq_dec t u) as [<-|N].
    - rewrite (set_th_same _ _ _ _ E) in Hu. injection Hu as <-. cbn in Hw. subst pc'. discriminate.
    - rewrite set_th_other in Hu by exact N. eapply Fw; eassumption.
  Qed.
  Lemma invB_step st t : invA st -> invB st -> invB (step st t).
  Proof.
    intros IA IB. unfold icp_step. destruct (nth_error (x_threads st) t) as [[pc p]|] eqn:E; [|exact IB].
    destruct pc as [| | | |s|s|e|e|e x| |m| |].
    - destruct (x_mutex st); [exact IB|]. eapply invB_quiet; [exact IB|exact E|reflexivity..].
    - eapply invB_quiet; [exact IB|exact E|reflexivity..].
    - eapply invB_quiet; [exact IB|exact E|reflexivity..].
    - (* fetch_add *)
      destruct IB as (kk & rej & E1 & E2 & P & Fr & Lr & Fs & Fw). unfold goto. cbn [x_idx x_mutex x_shared x_num x_threads x_calls].
      destruct (fm_set held _ _ _ E) as (rest & P1 & P2). cbn in P1.
      set (th' := MkIT (Got (x_idx st)) p). pose proof (P2 th') as P3. cbn in P3.
      assert (Ei : u64 (x_idx st + u64 mb) = mult (S kk)).
      { pose proof (mult_small (S kk) ltac:(lia)). pose proof mb_pos. rewrite E1. unfold u64. rewrite (Z.mod_small mb) by lia.
        replace (mult kk + mb) with (mult (S kk)) by (unfold mult; lia). apply Z.mod_small. lia. }
      assert (Pn : Permutation (flat_map held (set_th t th' (x_threads st)) ++ starts st ++ rej) (map mult (seq 0 (S kk)))).
      { rewrite seq_S, map_app. cbn [map plus]. rewrite <- E1. rewrite P3. cbn [app]. rewrite <- P1.
        rewrite <- P. apply Permutation_cons_append. }
      exists (S kk), rej. cbn [x_idx x_threads]. fold th'. rewrite (fm_same fin _ _ _ th' E) by reflexivity.
      split; [exact Ei|]. split.
      + eapply count_bound; [exact Pn|lia|exact Fs|]. rewrite Lr.
        rewrite <- (fm_same fin _ _ _ th' E) by reflexivity.
        eapply Nat.le_trans; [apply held_fin_len|]. rewrite set_th_length. apply Nat.eq_le_incl. apply IA.
      + split; [exact Pn|]. split; [exact Fr|]. split; [exact Lr|]. split; [exact Fs|].
        intros u th s Hu Hw. destruct (Nat.eq_dec t u) as [<-|N].
        * rewrite (set_th_same _ _ _ _ E) in Hu. injection Hu as <-. discriminate.
        * rewrite set_th_other in Hu by exact N. eapply Fw; eassumption.
    - (* comparison *)
      destruct IB as (kk & rej & E1 & E2 & P & Fr & Lr & Fs & Fw). destruct (bey s) eqn:Bs.
      + destruct (fm_set held _ _ _ E) as (rest & P1 & P2). cbn in P1. pose proof (P2 (MkIT Done p)) as P3. cbn in P3.
        destruct (fm_set fin _ _ _ E) as (rest' & Q1 & Q2). cbn in Q1. pose proof (Q2 (MkIT Done p)) as Q3. cbn in Q3.
        exists kk, (s :: rej). unfold goto. cbn [x_idx x_threads]. split; [exact E1|]. split; [exact E2|]. split.
        { rewrite <- P, P1, P3. unfold starts. cbn [x_calls app]. rewrite app_assoc. symmetry. rewrite <- Permutation_middle. rewrite <- app_assoc. reflexivity. }
        split; [now constructor|]. split.
        { apply Permutation_length in Q1, Q3. rewrite Q3. cbn [length]. congruence. }
        split; [exact Fs|]. intros u th s' Hu Hw. destruct (Nat.eq_dec t u) as [<-|N].
        * rewrite (set_th_same _ _ _ _ E) in Hu. injection Hu as <-. discriminate.
        * rewrite set_th_other in Hu by exact N. eapply Fw; eassumption.
      + exists kk, rej. unfold goto. cbn [x_idx x_threads].
        rewrite (fm_same held _ _ _ _ E) by reflexivity. rewrite (fm_same fin _ _ _ _ E) by reflexivity.
        repeat (split; [assumption|]). intros u th s' Hu Hw. destruct (Nat.eq_dec t u) as [<-|N].
        * rewrite (set_th_same _ _ _ _ E) in Hu. injection Hu as <-. cbn in Hw. congruence.
        * rewrite set_th_other in Hu by exact N. eapply Fw; eassumption.
    - (* a step on a batch *)
      destruct IB as (kk & rej & E1 & E2 & P & Fr & Lr & Fs & Fw). pose proof (Fw t _ s E eq_refl) as Bs. cbn zeta.
      set (r := stepICP _ _ _ _ _ _ _). set (pc' := match r with Some e => WantUpdate e | None => Loop end).
      assert (Hh : held (MkIT pc' p) = [] /\ fin (MkIT pc' p) = []) by (unfold pc'; destruct r; auto). destruct Hh as (Hh & Hf).
      destruct (fm_set held _ _ _ E) as (rest & P1 & P2). cbn in P1. pose proof (P2 (MkIT pc' p)) as P3. rewrite Hh in P3. cbn in P3.
      exists kk, rej. unfold goto. cbn [x_idx x_threads]. rewrite (fm_same fin _ _ _ _ E) by (rewrite Hf; reflexivity).
      assert (Es : forall idx m sh num ths, starts (MkIcp idx m sh num ths (x_calls st ++ [(t, s, p, r)])) = starts st ++ [s]).
      { intros. unfold starts. cbn [x_calls]. rewrite map_app. reflexivity. }
      cbn [x_calls x_mutex x_shared x_num]. rewrite Es.
      split; [exact E1|]. split; [exact E2|]. split.
      { rewrite <- P, P1, P3. cbn [app]. rewrite <- app_assoc. cbn [app]. rewrite !app_assoc. symmetry. apply Permutation_middle. }
      split; [exact Fr|]. split; [exact Lr|]. split; [apply Forall_app; split; [exact Fs|now constructor]|].
      intros u th s' Hu Hw. destruct (Nat.eq_dec t u) as [<-|N].
      * rewrite (set_th_same _ _ _ _ E) in Hu. injection Hu as <-. cbn in Hw. unfold pc' in Hw. destruct r; discriminate.
      * rewrite set_th_other in Hu by exact N. eapply Fw; eassumption.
    - destruct (x_mutex st); [exact IB|]. eapply invB_quiet; [exact IB|exact E|reflexivity..].
    - eapply invB_quiet; [exact IB|exact E|reflexivity..].
    - eapply invB_quiet; [exact IB|exact E|reflexivity..].
    - eapply invB_quiet; [exact IB|exact E|reflexivity..].
    - eapply invB_quiet; [exact IB|exact E|reflexivity..].
    - eapply invB_quiet; [exact IB|exact E|reflexivity..].
    - exact IB.
  Qed.

  (** ** the updates *)
  Definition invC (st : state) : Prop :=
    exists fl, Permutation (fl ++ flat_map pend (x_threads st)) (successes st) /\ x_shared st = fold_left fuse fl x0 /\
      0 <= x_num st /\ x_num st + Z.of_nat (length (flat_map counting (x_threads st))) = Z.of_nat (length fl) /\
      (forall t th e x, nth_error (x_threads st) t = Some th -> it_pc th = Write e x -> x = fuse (x_shared st) e) /\
      (forall t th m, nth_error (x_threads st) t = Some th -> it_pc th = WriteCount m -> m = x_num st).
  Lemma invC_init : invC (icp_init T x0 unset).
  Proof.
    exists []. cbn [icp_init x_threads x_shared x_num]. rewrite !fm_nil by reflexivity.
    split; [constructor|]. split; [reflexivity|]. split; [lia|]. split; [reflexivity|].
    split; intros t th; intros; apply nth_error_In, repeat_spec in H; subst th; discriminate.
  Qed.
  Lemma succ_le (st : state) : (length (successes st) <= length (starts st))%nat.
  Proof.
    unfold successes, starts. rewrite map_length. induction (x_calls st) as [|[c r] cs IH]; cbn [flat_map length]; [lia|].
    rewrite app_length. destruct r; cbn [snd length]; lia.
  Qed.
  Lemma num_small st : invB st -> invC st -> x_num st < 2 ^ 32.
  Proof.
    intros (kk & rej & _ & E2 & P & _) (fl & Q & _ & _ & En & _). apply Permutation_length in P, Q.
    rewrite !app_length in P. rewrite app_length in Q. rewrite map_length, seq_length in P. pose proof (succ_le st). pose proof bound_small. lia.
  Qed.
  Lemma other_holds st t u : invA st -> u <> t -> x_mutex st = Some t ->
    forall th, nth_error (x_threads st) u = Some th -> holds (it_pc th) = false.
  Proof.
    intros (_ & A & _) N M th H. apply not_true_iff_false. intros X. apply (A u th H) in X. congruence.
  Qed.
  (** a move outside the critical section that leaves a thread's pending update alone *)
  Lemma invC_quiet st t pc pc' p p' idx m : invC st -> nth_error (x_threads st) t = Some (MkIT pc p) ->
    pend (MkIT pc' p') = pend (MkIT pc p) -> counting (MkIT pc' p') = counting (MkIT pc p) ->
    (forall e x, pc' = Write e x -> x = fuse (x_shared st) e) -> (forall j, pc' = WriteCount j -> j = x_num st) ->
    invC (MkIcp idx m (x_shared st) (x_num st) (set_th t (MkIT pc' p') (x_threads st)) (x_calls st)).
  Proof.
    intros (fl & P & Es & N0 & En & Fw & Fn) E H1 H2 H3 H4. exists fl. cbn [x_threads x_shared x_num].
    rewrite (fm_same pend _ _ _ _ E) by exact H1. rewrite (fm_same counting _ _ _ _ E) by exact H2.
    repeat (split; [assumption|]). split.
    - intros u th e x Hu Hw. destruct (Nat.eq_dec t u) as [<-|N].
      + rewrite (set_th_same _ _ _ _ E) in Hu. injection Hu as <-. now apply H3.
      + rewrite set_th_other in Hu by exact N. eapply Fw; eassumption.
    - intros u th j Hu Hw. destruct (Nat.eq_dec t u) as [<-|N].
      + rewrite (set_th_same _ _ _ _ E) in Hu. injection Hu as <-. now apply H4.
      + rewrite set_th_other in Hu by exact N. eapply Fn; eassumption.
  Qed.
  Lemma invC_step st t : invA st -> invB st -> invC st -> invC (step st t).
  Proof.
    intros IA IB IC. unfold icp_step. destruct (nth_error (x_threads st) t) as [[pc p]|] eqn:E; [|exact IC].
    assert (Mt : holds pc = true -> x_mutex st = Some t) by (intros X; apply (proj1 (proj2 IA) t _ E); exact X).
    destruct pc as [| | | |s|s|e|e|e x| |m| |].
    - destruct (x_mutex st); [exact IC|]. eapply invC_quiet; [exact IC|exact E|reflexivity|reflexivity|discriminate|discriminate].
    - eapply invC_quiet; [exact IC|exact E|reflexivity|reflexivity|discriminate|discriminate].
    - eapply invC_quiet; [exact IC|exact E|reflexivity|reflexivity|discriminate|discriminate].
    - eapply invC_quiet; [exact IC|exact E|reflexivity|reflexivity|discriminate|discriminate].
    - eapply invC_quiet; [exact IC|exact E|destruct (bey s); reflexivity|destruct (bey s); reflexivity|destruct (bey s); discriminate|destruct (bey s); discriminate].
    - destruct IC as (fl & P & Es & N0 & En & Fw & Fn). cbn zeta. set (r := stepICP _ _ _ _ _ _ _).
      set (pc' := match r with Some e => WantUpdate e | None => Loop end).
      destruct (fm_set pend _ _ _ E) as (rest & P1 & P2). cbn in P1. pose proof (P2 (MkIT pc' p)) as P3.
      exists fl. unfold goto. cbn [x_threads x_shared x_num x_calls]. rewrite (fm_same counting _ _ _ _ E) by (unfold pc'; destruct r; reflexivity).
      split.
      { unfold successes in *. cbn [x_calls]. rewrite flat_map_app. cbn [flat_map snd]. rewrite app_nil_r, <- P, P3, P1.
        unfold pc'. destruct r as [e|]; cbn; [|now rewrite app_nil_r]. rewrite <- app_assoc. apply Permutation_app_head. apply Permutation_cons_append. }
      split; [exact Es|]. split; [exact N0|]. split; [exact En|]. split.
      + intros u th e x Hu Hw. destruct (Nat.eq_dec t u) as [<-|N].
        * rewrite (set_th_same _ _ _ _ E) in Hu. injection Hu as <-. cbn in Hw. unfold pc' in Hw. destruct r; discriminate.
        * rewrite set_th_other in Hu by exact N. eapply Fw; eassumption.
      + intros u th j Hu Hw. destruct (Nat.eq_dec t u) as [<-|N].
        * rewrite (set_th_same _ _ _ _ E) in Hu. injection Hu as <-. cbn in Hw. unfold pc' in Hw. destruct r; discriminate.
        * rewrite set_th_other in Hu by exact N. eapply Fn; eassumption.
    - destruct (x_mutex st); [exact IC|]. eapply invC_quiet; [exact IC|exact E|reflexivity|reflexivity|discriminate|discriminate].
    - eapply invC_quiet; [exact IC|exact E|reflexivity|reflexivity| |discriminate]. intros e' x' X. injection X as <- <-. reflexivity.
    - (* the shared pose is written *)
      specialize (Mt eq_refl). pose proof IC as (fl & P & Es & N0 & En & Fw & Fn). pose proof (Fw t _ e x E eq_refl) as Ex.
      destruct (fm_set pend _ _ _ E) as (rest & P1 & P2). cbn in P1. pose proof (P2 (MkIT ReadCount (fst x))) as P3. cbn in P3.
      destruct (fm_set counting _ _ _ E) as (rest' & Q1 & Q2). cbn in Q1. pose proof (Q2 (MkIT ReadCount (fst x))) as Q3. cbn in Q3.
      exists (fl ++ [e]). unfold goto. cbn [x_threads x_shared x_num x_calls]. split.
      { unfold successes in *. cbn [x_calls]. rewrite <- P, P3, P1. rewrite <- app_assoc. reflexivity. }
      split. { rewrite fold_left_app. cbn [fold_left]. rewrite <- Es. exact Ex. }
      split; [exact N0|]. split. { apply Permutation_length in Q1, Q3. rewrite Q3, app_length. cbn [length]. lia. }
      split.
      + intros u th e' x' Hu Hw. destruct (Nat.eq_dec t u) as [<-|N].
        * rewrite (set_th_same _ _ _ _ E) in Hu. injection Hu as <-. discriminate.
        * rewrite set_th_other in Hu by exact N. pose proof (other_holds st t u IA ltac:(congruence) Mt th Hu) as X. rewrite Hw in X. discriminate.
      + intros u th j Hu Hw. destruct (Nat.eq_dec t u) as [<-|N].
        * rewrite (set_th_same _ _ _ _ E) in Hu. injection Hu as <-. discriminate.
        * rewrite set_th_other in Hu by exact N. eapply Fn; eassumption.
    - eapply invC_quiet; [exact IC|exact E|reflexivity|reflexivity|discriminate|]. intros j X. injection X as <-. reflexivity.
    - (* the count is written *)
      specialize (Mt eq_refl). pose proof (num_small st IB IC) as Ns. destruct IC as (fl & P & Es & N0 & En & Fw & Fn).
      pose proof (Fn t _ m E eq_refl) as ->.
      destruct (fm_set counting _ _ _ E) as (rest' & Q1 & Q2). cbn in Q1. pose proof (Q2 (MkIT FreeUpdate p)) as Q3. cbn in Q3.
      exists fl. unfold goto. cbn [x_threads x_shared x_num x_calls]. rewrite (fm_same pend _ _ _ _ E) by reflexivity.
      assert (Eu : u64 (x_num st + 1) = x_num st + 1) by (unfold u64; apply Z.mod_small; lia). rewrite Eu.
      split; [exact P|]. split; [exact Es|]. split; [lia|]. split. { apply Permutation_length in Q1, Q3. cbn [length] in Q1. lia. }
      split.
      + intros u th e' x' Hu Hw. destruct (Nat.eq_dec t u) as [<-|N].
        * rewrite (set_th_same _ _ _ _ E) in Hu. injection Hu as <-. discriminate.
        * rewrite set_th_other in Hu by exact N. eapply Fw; eassumption.
      + intros u th j Hu Hw. destruct (Nat.eq_dec t u) as [<-|N].
        * rewrite (set_th_same _ _ _ _ E) in Hu. injection Hu as <-. discriminate.
        * rewrite set_th_other in Hu by exact N. pose proof (other_holds st t u IA ltac:(congruence) Mt th Hu) as X. rewrite Hw in X. discriminate.
    - eapply invC_quiet; [exact IC|exact E|reflexivity|reflexivity|discriminate|discriminate].
    - exact IC.
  Qed.
  Lemma inv_run sched : forall st, invA st -> invB st -> invC st ->
    let st' := icp_run match_point solve fuse mb keep k points sched st in invA st' /\ invB st' /\ invC st'.
  Proof.
    induction sched as [|t sched IH]; intros st IA IB IC; cbn; [auto|].
    apply IH; [now apply invA_step|now apply invB_step|now apply invC_step].
  Qed.
  Lemma inv_reached st : reached match_point solve fuse mb keep k points T x0 unset st -> invA st /\ invB st /\ invC st.
  Proof. intros (sched & ->). apply inv_run; [apply invA_init|apply invB_init|apply invC_init]. Qed.

  (** ** progress *)
  Definition rank (pc : @ipc pose info delta) : Z :=
    match pc with
    | WantPose => 3 | HasPose => 2 | FreePose => 1 | Loop => 0 | Got _ => 8 | Work _ => 7 | WantUpdate _ => 6
    | HasUpdate _ => 5 | Write _ _ => 4 | ReadCount => 3 | WriteCount _ => 2 | FreeUpdate => 1 | Done => 0
    end.
  Definition ranks (ths : list (@ithread pose info delta)) : Z := fold_right (fun th a => rank (it_pc th) + a) 0 ths.
  Definition measure (st : state) : Z := 10 * (bound + 1 - x_idx st / mb) + ranks (x_threads st).
  Lemma rank_pos pc : 0 <= rank pc. Proof. destruct pc; cbn; lia. Qed.
  Lemma ranks_pos ths : 0 <= ranks ths.
  Proof. induction ths as [|th ths IH]; [cbn; lia|]. change (ranks (th :: ths)) with (rank (it_pc th) + ranks ths). pose proof (rank_pos (it_pc th)). lia. Qed.
  Lemma ranks_set : forall ths t th th', nth_error ths t = Some th -> ranks (set_th t th' ths) = ranks ths - rank (it_pc th) + rank (it_pc th').
  Proof.
    induction ths as [|a ths IH]; intros [|t] th th' H; try discriminate; cbn [nth_error] in H; cbn [set_th].
    - injection H as ->. unfold ranks. cbn [fold_right]. lia.
    - unfold ranks in *. cbn [fold_right]. rewrite (IH t th th' H). lia.
  Qed.
  Lemma idx_div st : invB st -> exists kk, x_idx st = mult kk /\ x_idx st / mb = Z.of_nat kk /\ Z.of_nat kk <= bound.
  Proof.
    intros (kk & rej & E1 & E2 & _). exists kk. split; [exact E1|]. split; [|exact E2]. rewrite E1. unfold mult. apply Z.div_mul. pose proof mb_pos. lia.
  Qed.
  Lemma measure_pos st : invB st -> 0 <= measure st.
  Proof. intros IB. destruct (idx_div st IB) as (kk & _ & E & L). unfold measure. rewrite E. pose proof (ranks_pos (x_threads st)). lia. Qed.
  Definition stuck (st : state) (t : nat) : bool :=
    match nth_error (x_threads st) t with
    | None => true
    | Some th => match it_pc th with
                 | Done => true
                 | WantPose | WantUpdate _ => match x_mutex st with Some _ => true | None => false end
                 | _ => false
                 end
    end.
  Lemma stuck_step st t : stuck st t = true -> step st t = st.
  Proof.
    unfold stuck, icp_step. destruct (nth_error (x_threads st) t) as [[pc p]|]; [|reflexivity]. cbn [it_pc].
    destruct pc; try discriminate; try reflexivity; destruct (x_mutex st); try discriminate; reflexivity.
  Qed.
  Lemma free_step st t : invB st -> stuck st t = false -> measure (step st t) < measure st.
  Proof.
    intros IB. unfold stuck, icp_step. destruct (nth_error (x_threads st) t) as [[pc p]|] eqn:E; [|discriminate]. cbn [it_pc].
    assert (Q : forall pc' p' m sh num calls, rank pc' < rank pc ->
      measure (MkIcp (x_idx st) m sh num (set_th t (MkIT pc' p') (x_threads st)) calls) < measure st).
    { intros. unfold measure. cbn [x_idx x_threads]. rewrite (ranks_set _ _ _ _ E). cbn [it_pc]. lia. }
    destruct pc as [| | | |s|s|e|e|e x| |m| |]; try discriminate; try (intros _; apply Q; cbn; lia).
    - destruct (x_mutex st); [discriminate|]. intros _. apply Q. cbn. lia.
    - intros _. destruct (idx_div st IB) as (kk & E1 & E2 & L). unfold measure, goto. cbn [x_idx x_threads].
      rewrite (ranks_set _ _ _ _ E). cbn [it_pc rank]. rewrite E2.
      assert (Ei : u64 (x_idx st + u64 mb) = mult (S kk)).
      { pose proof (mult_small (S kk) ltac:(lia)). pose proof mb_pos. rewrite E1. unfold u64. rewrite (Z.mod_small mb) by lia.
        replace (mult kk + mb) with (mult (S kk)) by (unfold mult; lia). apply Z.mod_small. lia. }
      rewrite Ei. unfold mult. rewrite Z.div_mul by (pose proof mb_pos; lia). lia.
    - intros _. apply Q. destruct (bey s); cbn; lia.
    - intros _. cbn zeta. apply Q. destruct (stepICP _ _ _ _ _ _ _); cbn; lia.
    - destruct (x_mutex st); [discriminate|]. intros _. apply Q. cbn. lia.
  Qed.
  Lemma not_stuck st : invA st -> ~ all_done st -> exists t, (t < T)%nat /\ stuck st t = false.
  Proof.
    intros (L & A & M) ND. destruct (x_mutex st) as [t|] eqn:Em.
    - pose proof (M t eq_refl) as Lt. exists t. split; [exact Lt|]. destruct (nth_error (x_threads st) t) as [th|] eqn:E.
      + unfold stuck. rewrite E. pose proof (proj2 (A t th E) eq_refl) as X. destruct (it_pc th); try discriminate; reflexivity.
      + apply nth_error_None in E. lia.
    - assert (exists th, In th (x_threads st) /\ it_pc th <> Done) as (th & Hi & Hn).
      { unfold all_done in ND. clear - ND. induction (x_threads st) as [|a l IH]; [exfalso; apply ND; constructor|].
        assert (D : it_pc a = Done \/ it_pc a <> Done) by (destruct (it_pc a); [right|right|right|right|right|right|right|right|right|right|right|right|left]; congruence).
        destruct D as [D|D].
        - destruct IH as (th & Hi & Hn); [intros F; apply ND; now constructor|]. exists th. split; [now right|exact Hn].
        - exists a. split; [now left|exact D]. }
      apply In_nth_error in Hi. destruct Hi as (t & E). exists t. split; [rewrite <- L; apply nth_error_Some; congruence|].
      unfold stuck. rewrite E, Em. destruct (it_pc th); try reflexivity. congruence.
  Qed.
  Lemma reached_step st t : reached match_point solve fuse mb keep k points T x0 unset st ->
    reached match_point solve fuse mb keep k points T x0 unset (step st t).
  Proof. intros (sched & ->). exists (sched ++ [t]). unfold icp_run. rewrite fold_left_app. reflexivity. Qed.
End Run.
