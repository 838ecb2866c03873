(** Proofs about [Threads]. *)
From Coq Require Import ZArith List Bool Permutation Lia Arith.
From Verif Require Import F32 Types Index Assoc Assoc_lemmas Layer Threads.
Import ListNotations.
Open Scope Z_scope.

(** ** lists of consecutive integers *)
Definition zseq (n : Z) : list Z := map Z.of_nat (seq 0 (Z.to_nat n)).
Lemma zseq_In : forall n i, In i (zseq n) <-> 0 <= i < n.
Proof.
  intros n i; unfold zseq; rewrite in_map_iff; split.
  - intros (k & <- & Hk); apply in_seq in Hk; lia.
  - intros H; exists (Z.to_nat i); split; [lia|]; apply in_seq; lia.
Qed.
Lemma NoDup_zseq : forall n, NoDup (zseq n).
Proof.
  intros; unfold zseq; apply FinFun.Injective_map_NoDup; [intros a b; lia | apply seq_NoDup].
Qed.
Lemma zseq_length : forall n, length (zseq n) = Z.to_nat n.
Proof. intros; unfold zseq; rewrite map_length, seq_length; reflexivity. Qed.
Lemma zseq_succ : forall n, 0 <= n -> zseq (n + 1) = zseq n ++ [n].
Proof.
  intros n Hn; unfold zseq; replace (Z.to_nat (n + 1)) with (S (Z.to_nat n)) by lia.
  rewrite seq_S, map_app; cbn [map]; do 2 f_equal; lia.
Qed.

(** ** the mixed order *)
Lemma mixed_range : forall n s, 0 <= s < n -> 0 <= mixed_impl n s < n.
Proof.
  intros n s Hs; unfold mixed_impl, number_of_groups, step_size.
  destruct (Z.leb_spec (n / 1024 * 1024) s) as [H|H]; [exact Hs|].
  assert (Hg : 0 < n / 1024) by lia.
  pose proof (Z.mod_pos_bound s (n / 1024) Hg).
  assert (0 <= s / (n / 1024)) by (apply Z.div_pos; lia).
  assert (s / (n / 1024) < 1024) by (apply Z.div_lt_upper_bound; lia).
  pose proof (Z.mul_div_le n 1024 ltac:(lia)); nia.
Qed.
Lemma mixed_inj : forall n s s', 0 <= s < n -> 0 <= s' < n ->
  mixed_impl n s = mixed_impl n s' -> s = s'.
Proof.
  intros n s s' Hs Hs'; unfold mixed_impl, number_of_groups, step_size.
  assert (Hn : 0 <= n / 1024) by (apply Z.div_pos; lia).
  pose proof (Z.mul_div_le n 1024 ltac:(lia)).
  destruct (Z.leb_spec (n / 1024 * 1024) s) as [A|A];
    destruct (Z.leb_spec (n / 1024 * 1024) s') as [B|B]; intros E; [exact E| | |].
  - assert (Hg : 0 < n / 1024) by lia.
    pose proof (Z.mod_pos_bound s' (n / 1024) Hg).
    assert (s' / (n / 1024) < 1024) by (apply Z.div_lt_upper_bound; lia). nia.
  - assert (Hg : 0 < n / 1024) by lia.
    pose proof (Z.mod_pos_bound s (n / 1024) Hg).
    assert (s / (n / 1024) < 1024) by (apply Z.div_lt_upper_bound; lia). nia.
  - assert (Hg : 0 < n / 1024) by lia.
    assert (s / (n / 1024) < 1024) by (apply Z.div_lt_upper_bound; lia).
    assert (s' / (n / 1024) < 1024) by (apply Z.div_lt_upper_bound; lia).
    assert (0 <= s / (n / 1024)) by (apply Z.div_pos; lia).
    assert (0 <= s' / (n / 1024)) by (apply Z.div_pos; lia).
    pose proof (Z.div_mod s (n / 1024) ltac:(lia)).
    pose proof (Z.div_mod s' (n / 1024) ltac:(lia)).
    assert (s / (n / 1024) = s' / (n / 1024)) by nia.
    assert (s mod (n / 1024) = s' mod (n / 1024)) by nia. nia.
Qed.

Definition inj_on (n : Z) (f : Z -> Z) : Prop :=
  (forall s, 0 <= s < n -> 0 <= f s < n) /\
  (forall s s', 0 <= s < n -> 0 <= s' < n -> f s = f s' -> s = s').
Lemma NoDup_map_on : forall (f : Z -> Z) l,
  (forall a b, In a l -> In b l -> f a = f b -> a = b) -> NoDup l -> NoDup (map f l).
Proof.
  intros f l; induction l as [|a l IH]; intros Hf Hl; cbn [map]; [constructor|].
  inversion Hl; subst; constructor.
  - rewrite in_map_iff; intros (b & E & Hb).
    assert (b = a) by (apply Hf; [right; exact Hb | left; reflexivity | exact E]); congruence.
  - apply IH; [|assumption]; intros; apply Hf; [right|right|]; assumption.
Qed.
Lemma inj_on_perm : forall n f, inj_on n f -> Permutation (map f (zseq n)) (zseq n).
Proof.
  intros n f (Hr & Hi); apply NoDup_Permutation_bis.
  - apply NoDup_map_on; [|apply NoDup_zseq].
    intros a b Ha Hb; apply zseq_In in Ha; apply zseq_In in Hb; apply Hi; assumption.
  - rewrite map_length; apply le_n.
  - intros x Hx; apply in_map_iff in Hx; destruct Hx as (s & <- & Hs).
    apply zseq_In; apply Hr; apply zseq_In; exact Hs.
Qed.
Lemma mixed_inj_on : forall n, inj_on n (mixed_impl n).
Proof. intros n; split; [apply mixed_range | apply mixed_inj]. Qed.

(** ** the sorted order *)
Lemma with_norms_nth : forall pts i k,
  nth_error (with_norms i pts) k =
  option_map (fun p => (i + Z.of_nat k, f64_of_f32 (sqnorm p))) (nth_error pts k).
Proof.
  induction pts as [|p pts IH]; intros i k; [destruct k; reflexivity|].
  destruct k as [|k]; cbn [with_norms nth_error option_map].
  - rewrite Z.add_0_r; reflexivity.
  - rewrite IH; destruct (nth_error pts k); cbn [option_map]; [|reflexivity].
    replace (i + 1 + Z.of_nat k) with (i + Z.of_nat (S k)) by lia; reflexivity.
Qed.
Lemma with_norms_length : forall pts i, length (with_norms i pts) = length pts.
Proof. induction pts; intros; cbn [with_norms length]; [|rewrite IHpts]; reflexivity. Qed.
Lemma with_norms_fst : forall pts i,
  map fst (with_norms i pts) = map (fun k => i + Z.of_nat k) (seq 0 (length pts)).
Proof.
  induction pts as [|p pts IH]; intros i; [reflexivity|].
  cbn [with_norms map length seq fst]; rewrite IH, <- seq_shift, map_map; f_equal; [lia|].
  apply map_ext; intros; lia.
Qed.
Lemma sorted_inj_on : forall pts arr, Permutation (with_norms 0 pts) arr ->
  inj_on (Z.of_nat (length pts)) (sorted_impl arr).
Proof.
  intros pts arr HP.
  assert (HF : Permutation (zseq (Z.of_nat (length pts))) (map fst arr)).
  { replace (zseq (Z.of_nat (length pts))) with (map fst (with_norms 0 pts)).
    - apply Permutation_map; exact HP.
    - rewrite with_norms_fst; unfold zseq; rewrite Nat2Z.id; apply map_ext; intros; lia. }
  assert (HN : NoDup (map fst arr)) by (apply (Permutation_NoDup HF); apply NoDup_zseq).
  assert (HL : length arr = length pts) by (rewrite <- (Permutation_length HP), with_norms_length; reflexivity).
  assert (G : forall s, 0 <= s < Z.of_nat (length pts) ->
             nth_error (map fst arr) (Z.to_nat s) = Some (sorted_impl arr s)).
  { intros s Hs; unfold sorted_impl; rewrite nth_error_map.
    destruct (nth_error arr (Z.to_nat s)) eqn:E; [reflexivity|].
    apply nth_error_None in E; lia. }
  split.
  - intros s Hs; apply zseq_In; apply (Permutation_in _ (Permutation_sym HF)).
    eapply nth_error_In; apply G; exact Hs.
  - intros s s' Hs Hs' E.
    assert (E' : nth_error (map fst arr) (Z.to_nat s) = nth_error (map fst arr) (Z.to_nat s'))
      by (rewrite (G s Hs), (G s' Hs'), E; reflexivity).
    pose proof (proj1 (NoDup_nth_error (map fst arr)) HN (Z.to_nat s) (Z.to_nat s')) as K.
    rewrite map_length, HL in K; specialize (K ltac:(lia) E'); lia.
Qed.

(** ** set_th *)
Section Seth.
  Context {A : Type}.
  Lemma set_th_length : forall (l : list A) n x, length (set_th n x l) = length l.
  Proof. induction l; intros [|n] x; cbn [set_th length]; try rewrite IHl; reflexivity. Qed.
  Lemma set_th_same : forall (l : list A) n x y, nth_error l n = Some y -> nth_error (set_th n x l) n = Some x.
  Proof. induction l; intros [|n] x y H; cbn in *; try discriminate; [reflexivity | eapply IHl; exact H]. Qed.
  Lemma set_th_other : forall (l : list A) n m x, n <> m -> nth_error (set_th n x l) m = nth_error l m.
  Proof.
    induction l; intros [|n] [|m] x H; cbn; try reflexivity; [congruence | apply IHl; congruence].
  Qed.
  Lemma set_th_split : forall (l : list A) n x y, nth_error l n = Some y ->
    exists l1 l2, l = l1 ++ y :: l2 /\ set_th n x l = l1 ++ x :: l2 /\ length l1 = n.
  Proof.
    induction l as [|a l IH]; intros [|n] x y H; cbn in H; try discriminate.
    - injection H as ->; exists [], l; repeat split.
    - destruct (IH n x y H) as (l1 & l2 & -> & E & L).
      exists (a :: l1), l2; cbn [set_th app length]; rewrite E, L; repeat split.
  Qed.
End Seth.

(** ** the index getter *)
Definition held1 (t : tstate) : list Z := match t with TGot s => [s] | _ => [] end.
Definition done1 (t : tstate) : nat := match t with TDone => 1%nat | _ => 0%nat end.
Definition held (l : list tstate) : list Z := concat (map held1 l).
Definition ndone (l : list tstate) : nat := list_sum (map done1 l).
Lemma held_split : forall l1 x l2, held (l1 ++ x :: l2) = held l1 ++ held1 x ++ held l2.
Proof. intros; unfold held; rewrite map_app, concat_app; reflexivity. Qed.
Lemma ndone_split : forall l1 x l2, ndone (l1 ++ x :: l2) = (ndone l1 + (done1 x + ndone l2))%nat.
Proof. intros; unfold ndone; rewrite map_app, list_sum_app; reflexivity. Qed.
Lemma held_done_le : forall l, (length (held l) + ndone l <= length l)%nat.
Proof.
  induction l as [|x l IH]; [cbn; lia|].
  change (held (x :: l)) with (held1 x ++ held l); rewrite app_length.
  change (ndone (x :: l)) with (done1 x + ndone l)%nat.
  destruct x; cbn [held1 done1 length]; lia.
Qed.
Lemma held_idle : forall n, held (repeat TIdle n) = [].
Proof. induction n; [reflexivity | exact IHn]. Qed.
Lemma ndone_idle : forall n, ndone (repeat TIdle n) = 0%nat.
Proof. induction n; [reflexivity | exact IHn]. Qed.

Lemma flen : forall A (f : A -> bool) l, (length (filter f l) <= length l)%nat.
Proof. intros A f l; induction l as [|a l IH]; cbn [filter length]; [lia|]; destruct (f a); cbn [length]; lia. Qed.
Section Getter.
  Variables (impl : Z -> Z) (n : Z) (T : nat).
  Hypothesis Hn : 0 <= n.
  Hypothesis HT : n + Z.of_nat T < 2 ^ 64.
  Record inv (st : istate) : Prop := {
    v_threads : length (i_threads st) = T;
    v_ctr : 0 <= i_counter st;
    v_ghost : exists S D,
      map snd (i_taken st) = map impl S /\
      Permutation (zseq (i_counter st)) (S ++ D ++ held (i_threads st)) /\
      Forall (fun s => s < n) S /\ Forall (fun s => n <= s) D /\
      length D = ndone (i_threads st) }.
  Lemma inv_init : inv (iinit T).
  Proof.
    constructor; [apply repeat_length | cbn; lia|].
    exists [], []; cbn [iinit i_counter i_threads i_taken]; rewrite held_idle, ndone_idle.
    repeat split; constructor.
  Qed.
  Lemma S_bound : forall c S R, Permutation (zseq c) (S ++ R) -> Forall (fun s => s < n) S ->
    NoDup S /\ Forall (fun s => 0 <= s < n) S /\ Z.of_nat (length S) <= n.
  Proof.
    intros c S R HP HS.
    assert (HN : NoDup (S ++ R)) by (apply (Permutation_NoDup HP), NoDup_zseq).
    assert (HN' : NoDup S).
    { clear -HN; induction S as [|a S IH]; [constructor|]; inversion HN; subst; constructor.
      - rewrite in_app_iff in *; tauto.
      - apply IH; assumption. }
    assert (HF : Forall (fun s => 0 <= s < n) S).
    { rewrite Forall_forall in *; intros s Hs; split; [|apply HS, Hs].
      assert (In s (zseq c)) by (apply (Permutation_in _ (Permutation_sym HP)), in_app_iff; left; exact Hs).
      apply zseq_In in H; lia. }
    repeat split; [assumption..|].
    assert (L : (length S <= length (zseq n))%nat).
    { apply NoDup_incl_length; [exact HN'|]; intros s Hs; apply zseq_In.
      rewrite Forall_forall in HF; apply HF, Hs. }
    rewrite zseq_length in L; lia.
  Qed.
  Lemma inv_step : forall st t, inv st -> inv (istep impl n st t).
  Proof.
    intros st t [HL HC (S & D & HT' & HP & HS & HD & HK)]; unfold istep.
    destruct (nth_error (i_threads st) t) as [x|] eqn:Ex; [|constructor; [assumption..|]; exists S, D; auto].
    destruct x as [|s|]; [| |constructor; [assumption..|]; exists S, D; auto].
    - destruct (set_th_split _ _ (TGot (i_counter st)) _ Ex) as (l1 & l2 & E1 & E2 & _).
      rewrite E1, held_split in HP; rewrite E1, ndone_split in HK; cbn [held1 done1 app] in HP, HK.
      destruct (S_bound _ _ _ HP HS) as (_ & _ & HSn).
      pose proof (Permutation_length HP) as PL; rewrite zseq_length, !app_length in PL.
      pose proof (held_done_le l1); pose proof (held_done_le l2).
      assert (LL : length (i_threads st) = (length l1 + 1 + length l2)%nat)
        by (rewrite E1, app_length; cbn [length]; lia).
      assert (EC : u64 (i_counter st + 1) = i_counter st + 1) by (unfold u64; apply Z.mod_small; lia).
      rewrite EC; constructor; cbn [i_threads i_counter i_taken]; [rewrite set_th_length; exact HL | lia|].
      exists S, D; rewrite E2, held_split, ndone_split; cbn [held1 done1]; repeat split; [assumption| |assumption..].
      rewrite zseq_succ by exact HC.
      rewrite HP; rewrite <- !app_assoc; do 2 apply Permutation_app_head.
      apply Permutation_app_head. rewrite Permutation_app_comm; reflexivity.
    - destruct (Z.leb_spec n s) as [Hs|Hs].
      + destruct (set_th_split _ _ TDone _ Ex) as (l1 & l2 & E1 & E2 & _).
        rewrite E1, held_split in HP; rewrite E1, ndone_split in HK; cbn [held1 done1 app] in HP, HK.
        constructor; cbn [i_threads i_counter i_taken]; [rewrite set_th_length; exact HL | exact HC |].
        exists S, (D ++ [s]); rewrite E2, held_split, ndone_split, app_length; cbn [held1 done1 app length].
        repeat split; [assumption| |assumption | |lia].
        * rewrite HP; apply Permutation_app_head; rewrite <- app_assoc; apply Permutation_app_head.
          cbn [app]; rewrite <- Permutation_middle; reflexivity.
        * apply Forall_app; split; [assumption|]; constructor; [exact Hs | constructor].
      + destruct (set_th_split _ _ TIdle _ Ex) as (l1 & l2 & E1 & E2 & _).
        rewrite E1, held_split in HP; rewrite E1, ndone_split in HK; cbn [held1 done1 app] in HP, HK.
        constructor; cbn [i_threads i_counter i_taken]; [rewrite set_th_length; exact HL | exact HC |].
        exists (S ++ [s]), D; rewrite E2, held_split, ndone_split; cbn [held1 done1 app length].
        repeat split; [| | |assumption..].
        * rewrite !map_app, HT'; reflexivity.
        * rewrite HP, <- app_assoc; apply Permutation_app_head; cbn [app].
          rewrite !app_assoc, <- Permutation_middle; reflexivity.
        * apply Forall_app; split; [assumption|]; constructor; [exact Hs | constructor].
  Qed.
  Lemma inv_run : forall sched st, inv st -> inv (irun impl n sched st).
  Proof.
    induction sched as [|t sched IH]; intros st H; [exact H|].
    cbn [irun fold_left]; apply IH, inv_step, H.
  Qed.
  Hypothesis HI : inj_on n impl.
  (** at any moment *)
  Lemma taken_safe : forall st, inv st ->
    NoDup (map snd (i_taken st)) /\ (forall t i, In (t, i) (i_taken st) -> 0 <= i < n) /\
    (length (i_taken st) <= Z.to_nat n)%nat.
  Proof.
    intros st [_ _ (S & D & HT' & HP & HS & _)].
    destruct (S_bound _ _ _ HP HS) as (HN & HF & HLn); rewrite Forall_forall in HF.
    repeat split.
    - rewrite HT'; apply NoDup_map_on; [|exact HN]; intros a b Ha Hb; apply HI; apply HF; assumption.
    - apply in_map with (f := snd) in H; rewrite HT' in H; cbn [snd] in H.
      apply in_map_iff in H; destruct H as (s & <- & Hs); apply HI, HF, Hs.
    - apply in_map with (f := snd) in H; rewrite HT' in H; cbn [snd] in H.
      apply in_map_iff in H; destruct H as (s & <- & Hs); apply HI, HF, Hs.
    - rewrite <- (map_length snd), HT', map_length; lia.
  Qed.
  (** once a thread was told the cloud is exhausted, every index has been handed
      to somebody or is in flight; once all were told, all have been handed out *)
  Lemma all_done : forall st, inv st -> (0 < T)%nat -> Forall (fun x => x = TDone) (i_threads st) ->
    Permutation (map snd (i_taken st)) (zseq n).
  Proof.
    intros st [HL HC (S & D & HT' & HP & HS & HD & HK)] H0 HA.
    assert (Hh : held (i_threads st) = []).
    { clear -HA; induction HA as [|x l E HA IH]; [reflexivity|]; subst x.
      change (held (TDone :: l)) with (held l); exact IH. }
    assert (Hd : ndone (i_threads st) = length (i_threads st)).
    { clear -HA; induction HA as [|x l E HA IH]; [reflexivity|]; subst x.
      change (ndone (TDone :: l)) with (1 + ndone l)%nat; rewrite IH; reflexivity. }
    rewrite Hh, app_nil_r in HP; rewrite Hd, HL in HK.
    destruct D as [|d D]; [cbn in HK; lia|].
    assert (Hc : n < i_counter st).
    { assert (In d (zseq (i_counter st)))
        by (apply (Permutation_in _ (Permutation_sym HP)), in_app_iff; right; left; reflexivity).
      apply zseq_In in H; inversion HD; subst; lia. }
    destruct (S_bound _ _ _ HP HS) as (HN & HF & _).
    rewrite HT', <- (inj_on_perm n impl HI); apply Permutation_map, Permutation_sym.
    apply NoDup_Permutation; [apply NoDup_zseq | exact HN |].
    intros s; rewrite zseq_In; split.
    - intros Hs; assert (Hin : In s (S ++ d :: D)) by (apply (Permutation_in _ HP), zseq_In; lia).
      apply in_app_iff in Hin; destruct Hin as [?|Hin]; [assumption|].
      rewrite Forall_forall in HD; specialize (HD _ Hin); cbn beta in HD; lia.
    - rewrite Forall_forall in HF; apply HF.
  Qed.

  (** progress: number of steps thread [t] has taken *)
  Definition taken_by (t : nat) (st : istate) : nat :=
    length (filter (fun p => Nat.eqb (fst p) t) (i_taken st)).
  Definition phase (x : tstate) : nat := match x with TGot _ => 1%nat | _ => 0%nat end.
  Lemma steps_count : forall sched st t x0, nth_error (i_threads st) t = Some x0 ->
    exists x, nth_error (i_threads (irun impl n sched st)) t = Some x /\
      (x = TDone \/
       (x0 <> TDone /\
       2 * taken_by t (irun impl n sched st) + phase x =
       2 * taken_by t st + phase x0 + count_occ Nat.eq_dec sched t)%nat).
  Proof.
    induction sched as [|t' sched IH]; intros st t x0 H0.
    - exists x0; split; [exact H0|]; destruct x0; [right; split; [discriminate|]|right; split; [discriminate|]|left; reflexivity];
        cbn; lia.
    - cbn [irun fold_left]. change (fold_left (istep impl n) sched (istep impl n st t'))
        with (irun impl n sched (istep impl n st t')).
      assert (Hx : exists x1, nth_error (i_threads (istep impl n st t')) t = Some x1 /\
        (x1 = TDone \/ (x0 <> TDone /\ (2 * taken_by t (istep impl n st t') + phase x1 =
           2 * taken_by t st + phase x0 + count_occ Nat.eq_dec [t'] t)%nat))).
      { unfold istep; cbn [count_occ].
        destruct (Nat.eq_dec t' t) as [->|Ht].
        - rewrite H0; destruct x0 as [|s|].
          + eexists; split; [cbn [i_threads]; eapply set_th_same, H0|].
            right; split; [discriminate|]; unfold taken_by; cbn [i_taken phase]; lia.
          + destruct (n <=? s).
            * eexists; split; [cbn [i_threads]; eapply set_th_same, H0|]; left; reflexivity.
            * eexists; split; [cbn [i_threads]; eapply set_th_same, H0|].
              right; split; [discriminate|]; unfold taken_by; cbn [i_taken phase].
              rewrite filter_app, app_length; cbn [filter fst]; rewrite Nat.eqb_refl; cbn [length]; lia.
          + exists TDone; split; [exact H0 | left; reflexivity].
        - assert (HH : forall x y (cond : Prop), nth_error (i_threads st) t' = Some y ->
              nth_error (set_th t' x (i_threads st)) t = Some x0)
            by (intros; rewrite set_th_other by exact Ht; exact H0).
          destruct (nth_error (i_threads st) t') as [[|s|]|] eqn:E'.
          + exists x0; split; [cbn [i_threads]; rewrite set_th_other by exact Ht; exact H0|].
            destruct x0; [right|right|left]; try reflexivity; (split; [discriminate|]); unfold taken_by; cbn [i_taken]; lia.
          + destruct (n <=? s).
            * exists x0; split; [cbn [i_threads]; rewrite set_th_other by exact Ht; exact H0|].
              destruct x0; [right|right|left]; try reflexivity; (split; [discriminate|]); unfold taken_by; cbn [i_taken]; lia.
            * exists x0; split; [cbn [i_threads]; rewrite set_th_other by exact Ht; exact H0|].
              destruct x0; [right|right|left]; try reflexivity; (split; [discriminate|]); unfold taken_by; cbn [i_taken];
                rewrite filter_app, app_length; cbn [filter fst];
                rewrite (proj2 (Nat.eqb_neq t' t) Ht); cbn [length]; lia.
          + exists x0; split; [exact H0|]; destruct x0; [right|right|left]; try reflexivity; (split; [discriminate|]); lia.
          + exists x0; split; [exact H0|]; destruct x0; [right|right|left]; try reflexivity; (split; [discriminate|]); lia. }
      destruct Hx as (x1 & E1 & D1).
      destruct (IH _ _ _ E1) as (x & Ex & Dx); exists x; split; [exact Ex|].
      destruct Dx as [->|(N1 & Dx)]; [left; reflexivity|].
      destruct D1 as [->|(N0 & D1)]; [congruence|].
      right; split; [exact N0|]; change (t' :: sched) with ([t'] ++ sched); rewrite count_occ_app; lia.
  Qed.
  Lemma eventually_done : forall sched t, (t < T)%nat ->
    (2 * Z.to_nat n + 2 <= count_occ Nat.eq_dec sched t)%nat ->
    nth_error (i_threads (irun impl n sched (iinit T))) t = Some TDone.
  Proof.
    intros sched t Ht Hc.
    assert (H0 : nth_error (i_threads (iinit T)) t = Some TIdle).
    { cbn [iinit i_threads]; rewrite (nth_error_nth' _ TIdle) by (rewrite repeat_length; exact Ht).
      f_equal; apply nth_repeat. }
    destruct (steps_count sched _ _ _ H0) as (x & Ex & [->|(_ & Dx)]); [exact Ex|exfalso].
    destruct (taken_safe _ (inv_run sched _ inv_init)) as (_ & _ & HL).
    assert (taken_by t (irun impl n sched (iinit T)) <= length (i_taken (irun impl n sched (iinit T))))%nat
      by (unfold taken_by; apply flen).
    destruct x; unfold phase in Dx; cbn in Dx; lia.
  Qed.
End Getter.

(** ** bundles *)
Definition surface (valid : Z -> validity) (i : Z) : bool := match valid i with Surface => true | _ => false end.
Definition clearing (valid : Z -> validity) (i : Z) : bool := match valid i with Clearing => true | _ => false end.
Definition members (m : bundle_map) : list Z := concat (map snd m).

Lemma push_members : forall v i m, Permutation (members (bundle_push v i m)) (i :: members m).
Proof.
  intros v i m; unfold bundle_push, members.
  destruct (alookup v m) as [l|] eqn:E.
  - revert l E; induction m as [|(w, l') m IH]; intros l E; cbn [alookup] in E; [discriminate|].
    cbn [aset]; destruct (idx_eqb v w) eqn:Ev; cbn [map snd concat].
    + injection E as ->; rewrite <- app_assoc; cbn [app]; rewrite <- Permutation_middle; reflexivity.
    + rewrite (IH _ E), <- Permutation_middle; reflexivity.
  - rewrite map_app, concat_app; cbn [map snd concat]; rewrite app_nil_r, Permutation_app_comm; reflexivity.
Qed.
Lemma alookup_push : forall v i m w, alookup w (bundle_push v i m) =
  if idx_eqb w v then Some (match alookup v m with Some l => l ++ [i] | None => [i] end) else alookup w m.
Proof.
  intros v i m w; unfold bundle_push.
  destruct (alookup v m) as [l|] eqn:E.
  - rewrite alookup_aset; reflexivity.
  - rewrite alookup_app; cbn [alookup].
    destruct (idx_eqb_spec w v) as [->|H].
    + rewrite E; reflexivity.
    + destruct (alookup w m); reflexivity.
Qed.
Lemma push_NoDup : forall v i m, NoDup (akeys m) -> NoDup (akeys (bundle_push v i m)).
Proof.
  intros v i m H; unfold bundle_push; destruct (alookup v m) eqn:E.
  - apply NoDup_aset, H.
  - unfold akeys; rewrite map_app; apply NoDup_snoc; [exact H | apply alookup_None, E].
Qed.
Definition keyed (vox : Z -> option idx3) (m : bundle_map) : Prop :=
  NoDup (akeys m) /\ forall v l, alookup v m = Some l -> l <> [] /\ forall i, In i l -> vox i = Some v.
Lemma push_keyed : forall vox v i m, vox i = Some v -> keyed vox m -> keyed vox (bundle_push v i m).
Proof.
  intros vox v i m Hv (HN & HK); split; [apply push_NoDup, HN|].
  intros w l; rewrite alookup_push; destruct (idx_eqb_spec w v) as [->|H]; [|apply HK].
  intros E; injection E as <-; destruct (alookup v m) as [l|] eqn:El; split.
  - destruct l; discriminate.
  - intros j Hj; apply in_app_iff in Hj; destruct Hj as [Hj|[<-|[]]]; [eapply HK; eassumption | exact Hv].
  - discriminate.
  - intros j [<-|[]]; exact Hv.
Qed.
Lemma bundleRays_spec : forall valid vox order vm cm vm' cm',
  bundleRays valid vox order (vm, cm) = Some (vm', cm') ->
  Permutation (members vm') (filter (surface valid) order ++ members vm) /\
  Permutation (members cm') (filter (clearing valid) order ++ members cm) /\
  (keyed vox vm -> keyed vox vm') /\ (keyed vox cm -> keyed vox cm').
Proof.
  intros valid vox order; induction order as [|i order IH]; intros vm cm vm' cm' H; cbn [bundleRays] in H.
  - injection H as <- <-; split; [reflexivity | split; [reflexivity | split; auto]].
  - assert (ES : surface valid i = match valid i with Surface => true | _ => false end) by reflexivity.
    assert (EC : clearing valid i = match valid i with Clearing => true | _ => false end) by reflexivity.
    cbn [filter]; rewrite ES, EC.
    destruct (valid i) eqn:Ev.
    + exact (IH _ _ _ _ H).
    + destruct (vox i) as [v|] eqn:Eo; [|discriminate]; cbn [fst snd] in H.
      destruct (IH _ _ _ _ H) as (P1 & P2 & K1 & K2); split; [|split; [exact P2|split; [|exact K2]]].
      * rewrite P1, push_members, <- Permutation_middle; reflexivity.
      * intros K; apply K1, push_keyed; assumption.
    + destruct (vox i) as [v|] eqn:Eo; [|discriminate]; cbn [fst snd] in H.
      destruct (IH _ _ _ _ H) as (P1 & P2 & K1 & K2); split; [exact P1|split; [|split; [exact K1|]]].
      * rewrite P2, push_members, <- Permutation_middle; reflexivity.
      * intros K; apply K2, push_keyed; assumption.
Qed.
Lemma bundleRays_defined : forall valid vox order maps,
  (forall i, In i order -> valid i <> Invalid -> vox i <> None) ->
  bundleRays valid vox order maps <> None.
Proof.
  intros valid vox order; induction order as [|i order IH]; intros maps H; cbn [bundleRays]; [discriminate|].
  destruct (valid i) eqn:Ev.
  - apply IH; intros; apply H; [right|]; assumption.
  - destruct (vox i) eqn:Eo; [|exfalso; apply (H i); [left; reflexivity | congruence | exact Eo]].
    apply IH; intros; apply H; [right|]; assumption.
  - destruct (vox i) eqn:Eo; [|exfalso; apply (H i); [left; reflexivity | congruence | exact Eo]].
    apply IH; intros; apply H; [right|]; assumption.
Qed.

Lemma share_In : forall T t size k,
  In k (thread_share T t size) <-> (k < size)%nat /\ u64 (Z.of_nat k + t + 1) mod T = 0.
Proof.
  intros; unfold thread_share; rewrite filter_In, in_seq, Z.eqb_eq; intuition lia.
Qed.
Lemma share_unique : forall T size k, 0 < T -> (k < size)%nat -> Z.of_nat size + T < 2 ^ 64 ->
  exists! t, 0 <= t < T /\ In k (thread_share T t size).
Proof.
  intros T size k HT Hk HB.
  assert (Hu : forall t, 0 <= t < T -> u64 (Z.of_nat k + t + 1) = Z.of_nat k + t + 1)
    by (intros t Ht; unfold u64; apply Z.mod_small; lia).
  set (r := (Z.of_nat k + 1) mod T).
  assert (Hr : 0 <= r < T) by (apply Z.mod_pos_bound; lia).
  pose proof (Z.div_mod (Z.of_nat k + 1) T ltac:(lia)) as HD; fold r in HD.
  set (q := (Z.of_nat k + 1) / T) in *.
  exists (if r =? 0 then 0 else T - r); split.
  - destruct (Z.eqb_spec r 0) as [E|E].
    + split; [lia|]; apply share_In; split; [exact Hk|]; rewrite Hu by lia.
      replace (Z.of_nat k + 0 + 1) with (q * T) by lia; apply Z.mod_mul; lia.
    + split; [lia|]; apply share_In; split; [exact Hk|]; rewrite Hu by lia.
      replace (Z.of_nat k + (T - r) + 1) with ((q + 1) * T) by lia; apply Z.mod_mul; lia.
  - intros t (Ht & Hs); apply share_In in Hs; destruct Hs as (_ & Hs); rewrite Hu in Hs by exact Ht.
    apply Z.mod_divide in Hs; [|lia]; destruct Hs as (c & Hc).
    assert (HE : (c - q) * T = r + t) by nia.
    destruct (Z.eqb_spec r 0) as [E|E].
    + assert (c - q < 1) by nia; nia.
    + assert (0 < c - q < 2) by nia; assert (c - q = 1) as X by lia; rewrite X in HE; lia.
Qed.
Lemma share_once : forall T t size, NoDup (thread_share T t size).
Proof. intros; unfold thread_share; apply NoDup_filter, seq_NoDup. Qed.
