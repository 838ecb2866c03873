(** Properties C26, C27, C28 and C59: the approximate hash set and the bucket
    queue. *)
From Coq Require Import ZArith List Bool Lia Reals Lra.
From Flocq Require Import Core.
From Verif Require Import F32 F32_lemmas Types Index Layer Threads Queue Queue_spec Queue_proofs.
Import ListNotations.
Open Scope Z_scope.

(** ** C26. Specification: a history is the list of calls, the latest first.
    [last_in_slot bits past h] ([Queue_spec]) is the hash most recently inserted
    since the last reset among those that agree with [h] modulo [2^bits]. *)
Definition reported (bits : Z) (past : list hs_op) (h : Z) : bool :=
  match last_in_slot bits past h with Some v => v =? h | None => false end.

(** Between resets: presence is exactly "the latest insertion into that slot was [h]";
    [replaceHash] returns whether it was not. Every hash including 0, any history
    without reset. *)
Theorem C26_answers : forall bits thr past h, 0 < bits <= 30 -> 0 <= thr <= 2 ^ 62 ->
  Forall op_ok past -> ~ In HReset past -> hash_ok h ->
  exists s, hs_after bits thr past = Ok s /\
    hs_present s h = Ok (reported bits past h) /\
    exists s', hs_replace s h = Ok (s', negb (reported bits past h)).
Proof.
  intros bits thr past h Hb Ht HF HN Hh.
  destruct (hs_after_inv bits thr Hb Ht past HF) as (s & Es & _); exists s; split; [exact Es|].
  destruct (Z.eq_dec h 0) as [->|H0].
  - apply (present_zero bits thr Hb Ht past s Es HF); left.
    eapply offset_no_reset; [exact HN | exact Es].
  - apply (present_ok bits thr Hb Ht past s h Es HF); unfold hash_ok in Hh; lia.
Qed.
Print Assumptions C26_answers.

(** directly after inserting an element it is reported present, after any history
    with any resets and for any element *)
Theorem C26_present_after_insert : forall bits thr past h, 0 < bits <= 30 -> 0 <= thr <= 2 ^ 62 ->
  Forall op_ok past -> hash_ok h ->
  exists s, hs_after bits thr (HReplace h :: past) = Ok s /\ hs_present s h = Ok true.
Proof.
  intros bits thr past h Hb Ht HF Hh.
  assert (HF' : Forall op_ok (HReplace h :: past)) by (constructor; assumption).
  destruct (hs_after_inv bits thr Hb Ht _ HF') as (s & Es & _); exists s; split; [exact Es|].
  assert (HL : last_in_slot bits (HReplace h :: past) h = Some h) by (cbn [last_in_slot]; rewrite Z.eqb_refl; reflexivity).
  destruct (Z.eq_dec h 0) as [->|H0].
  - destruct (present_zero bits thr Hb Ht _ s Es HF') as (E & _); [right; rewrite HL; discriminate|].
    rewrite E; unfold present_spec; rewrite HL; reflexivity.
  - destruct (present_ok bits thr Hb Ht _ s h Es HF') as (E & _); [unfold hash_ok in Hh; lia|].
    rewrite E; unfold present_spec; rewrite HL, Z.eqb_refl; reflexivity.
Qed.
Print Assumptions C26_present_after_insert.

(** it stays reported until a reset or the insertion of another element with the
    same masked slot *)
Theorem C26_displaced_only_by_slot : forall bits thr later past h, 0 < bits <= 30 -> 0 <= thr <= 2 ^ 62 ->
  Forall op_ok (later ++ HReplace h :: past) -> hash_ok h -> ~ In HReset later ->
  (forall h', In (HReplace h') later -> h' mod 2 ^ bits = h mod 2 ^ bits -> h' = h) ->
  exists s, hs_after bits thr (later ++ HReplace h :: past) = Ok s /\ hs_present s h = Ok true.
Proof.
  intros bits thr later past h Hb Ht HF Hh HN HD.
  assert (HL : last_in_slot bits (later ++ HReplace h :: past) h = Some h).
  { clear HF; induction later as [|o later IH]; cbn [app last_in_slot]; [rewrite Z.eqb_refl; reflexivity|].
    assert (IH' : last_in_slot bits (later ++ HReplace h :: past) h = Some h).
    { apply IH; [intros X; apply HN; right; exact X | intros h' X; apply HD; right; exact X]. }
    destruct o as [x|x|]; [exact IH' | | exfalso; apply HN; left; reflexivity].
    destruct (Z.eqb_spec (x mod 2 ^ bits) (h mod 2 ^ bits)) as [E|_]; [|exact IH'].
    f_equal; apply HD; [left; reflexivity | exact E]. }
  destruct (hs_after_inv bits thr Hb Ht _ HF) as (s & Es & _); exists s; split; [exact Es|].
  destruct (Z.eq_dec h 0) as [->|H0].
  - destruct (present_zero bits thr Hb Ht _ s Es HF) as (E & _); [right; rewrite HL; discriminate|].
    rewrite E; unfold present_spec; rewrite HL; reflexivity.
  - destruct (present_ok bits thr Hb Ht _ s h Es HF) as (E & _); [unfold hash_ok in Hh; lia|].
    rewrite E; unfold present_spec; rewrite HL, Z.eqb_refl; reflexivity.
Qed.
Print Assumptions C26_displaced_only_by_slot.

Example C26_example :
  let past := [HReplace 21; HPresent 5; HReplace 6; HReplace 5] in
  Forall op_ok past /\ ~ In HReset past /\
  map (reported 4 past) [5; 6; 21] = [false; true; true] /\
  match hs_after 4 3 past with
  | Ok s => map (hs_present s) [5; 6; 21; 0] = [Ok false; Ok true; Ok true; Ok false]
  | _ => False
  end.
Proof.
  cbv zeta; split; [repeat constructor; unfold op_ok, hash_ok; lia|].
  split; [intros [H|[H|[H|[H|[]]]]]; discriminate|]; split; reflexivity.
Qed.

(** ** C27. Partial: every element whose hash is not 0. Missing: the hash 0, for
    which the claim is false, see the refutation. *)
Theorem C27_reset_empties_partial : forall bits thr past h, 0 < bits <= 30 -> 0 <= thr <= 2 ^ 62 ->
  Forall op_ok past -> 0 < h < 2 ^ 64 ->
  exists s, hs_after bits thr past = Ok s /\
    hs_present s h = Ok (reported bits past h) /\
    exists s', hs_replace s h = Ok (s', negb (reported bits past h)).
Proof.
  intros bits thr past h Hb Ht HF Hh.
  destruct (hs_after_inv bits thr Hb Ht past HF) as (s & Es & _); exists s; split; [exact Es|].
  apply (present_ok bits thr Hb Ht past s h Es HF Hh).
Qed.
Print Assumptions C27_reset_empties_partial.

(** in the words of the property: after a reset an element that has not been
    inserted again is not present *)
Theorem C27_absent_until_inserted_partial : forall bits thr later past h, 0 < bits <= 30 -> 0 <= thr <= 2 ^ 62 ->
  Forall op_ok (later ++ HReset :: past) -> 0 < h < 2 ^ 64 -> ~ In (HReplace h) later ->
  exists s, hs_after bits thr (later ++ HReset :: past) = Ok s /\ hs_present s h = Ok false.
Proof.
  intros bits thr later past h Hb Ht HF Hh HN.
  destruct (C27_reset_empties_partial bits thr _ h Hb Ht HF Hh) as (s & Es & Ep & _).
  exists s; split; [exact Es|]; rewrite Ep; f_equal; clear -HN; unfold reported.
  assert (G : forall v, last_in_slot bits (later ++ HReset :: past) h = Some v -> v <> h).
  { intros v; induction later as [|o later IH]; cbn [app last_in_slot]; [discriminate|].
    assert (IH' : last_in_slot bits (later ++ HReset :: past) h = Some v -> v <> h)
      by (apply IH; intros X; apply HN; right; exact X).
    destruct o as [x|x|]; [exact IH' | | discriminate].
    destruct (Z.eqb_spec (x mod 2 ^ bits) (h mod 2 ^ bits)); [|exact IH'].
    intros E; injection E as <-; intros ->; apply HN; left; reflexivity. }
  destruct (last_in_slot bits (later ++ HReset :: past) h) as [v|]; [|reflexivity].
  apply Z.eqb_neq, G; reflexivity.
Qed.
Print Assumptions C27_absent_until_inserted_partial.

Example C27_example :
  match hs_after 4 3 [HReset; HReplace 33; HReset; HReplace 17; HReplace 1] with
  | Ok s => map (hs_present s) [1; 17; 33] = [Ok false; Ok false; Ok false]
  | _ => False
  end.
Proof. reflexivity. Qed.

(** The full claim is false: the voxel with index (0,0,0) has hash 0, bins hold 0
    from construction, and only bin 0 is protected. After the first (cheap) reset of a
    set nothing was ever inserted into, the origin voxel is reported present, so the
    fast integrator skips it. These are the template arguments of
    tsdf_integrator.h:314-337 (20 bits, threshold 10000; also for every other choice). *)
Theorem C27_hash_zero_refuted :
  index_hash (V3 0 0 0) = 0 /\
  forall bits thr, 0 < bits <= 30 -> 2 <= thr <= 2 ^ 62 ->
  exists s, hs_after bits thr [HReset] = Ok s /\ hs_present s 0 = Ok true.
Proof.
  split; [reflexivity|]; intros bits thr Hb Ht.
  cbn [hs_after rbind hs_step]; eexists; split; [reflexivity|].
  unfold hs_reset; cbn [hs_new hs_offset hs_threshold hs_bits hs_array].
  change (u64 (0 + 1)) with 1; rewrite (proj2 (Z.leb_gt thr 1)) by lia.
  unfold hs_present, hs_index; cbn [hs_bits hs_offset hs_array]; rewrite Z.land_0_l.
  change (u64 (0 + 1)) with 1.
  rewrite (clear_get bits thr Hb 1); [reflexivity|].
  assert (0 < 2 ^ bits) by (apply Z.pow_pos_nonneg; lia); lia.
Qed.
Print Assumptions C27_hash_zero_refuted.

(** ** C59: concurrent [replaceHash]. [sched] interleaves the loads and stores of any
    number of calls. If [h] was not stored and some call for [h] returned, then at
    least one call for [h] returned true: no element is skipped by everybody. *)
Theorem C59_somebody_is_told : forall s hs sched t h r,
  nth_error (hs_array s) (Z.to_nat (hs_index s h)) <> Some h ->
  let y := hsys_run sched (MkHSys s (map HStart hs)) in
  nth_error (hy_threads y) t = Some (HDone h r) ->
  exists t', nth_error (hy_threads y) t' = Some (HDone h true).
Proof.
  intros s hs sched t h r H0 y Et; pose proof (cinv_run s sched hs) as HI; fold y in HI.
  destruct r; [exists t; exact Et|].
  pose proof (c_th _ _ HI t) as C; rewrite Et in C; destruct C as [C|C]; [contradiction | exact C].
Qed.
Print Assumptions C59_somebody_is_told.

(** whatever is found in the set afterwards was there before or was inserted by a
    call that returned true *)
Theorem C59_no_invented_element : forall s hs sched h,
  let y := hsys_run sched (MkHSys s (map HStart hs)) in
  hs_present (hy_set y) h = Ok true ->
  hs_present s h = Ok true \/ exists t, nth_error (hy_threads y) t = Some (HDone h true).
Proof.
  intros s hs sched h y Hp; pose proof (cinv_run s sched hs) as HI; fold y in HI.
  unfold hs_present in *; rewrite (idx_same s y h HI) in Hp.
  destruct (nth_error (hs_array (hy_set y)) (Z.to_nat (hs_index s h))) as [v|] eqn:E; [|discriminate].
  injection Hp as Hv; apply Z.eqb_eq in Hv; subst v.
  destruct (c_arr _ _ HI _ _ E) as [E0|E0]; [left; rewrite E0, Z.eqb_refl; reflexivity | right; exact E0].
Qed.
Print Assumptions C59_no_invented_element.

(** "exactly one" is false: load and store are separate, so two threads can both be
    told that they inserted the element *)
Theorem C59_exactly_one_refuted :
  let y := hsys_run [0; 1; 0; 1]%nat (MkHSys (hs_new 4 3) (map HStart [5; 5])) in
  hs_present (hs_new 4 3) 5 = Ok false /\
  hy_threads y = [HDone 5 true; HDone 5 true].
Proof. split; reflexivity. Qed.

(** ** C28 *)
(** Specification: the elements that were pushed and not popped, in push order, each
    with its bucket. [next] takes the oldest of the lowest bucket. *)
Section Spec.
  Context {T : Type}.
  Record sq : Type := MkSQ { sq_num : Z; sq_max : f64; sq_items : list (Z * T) }.
  Definition sq_step (s : sq) (o : bq_op T) : res (sq * bq_out T) :=
    match o with
    | QPush k v => match bucket_of (sq_num s) (sq_max s) v with
                   | Some b => Ok (MkSQ (sq_num s) (sq_max s) (sq_items s ++ [(b, k)]), OUnit)
                   | None => UB
                   end
    | QPop => Ok (match next (sq_items s) with
                  | Some (_, rest) => MkSQ (sq_num s) (sq_max s) rest
                  | None => s
                  end, OUnit)
    | QFront => match next (sq_items s) with Some (x, _) => Ok (s, OKey x) | None => Abort end
    | QEmpty => Ok (s, OBool (match sq_items s with [] => true | _ => false end))
    | QClear => Ok (MkSQ (sq_num s) (sq_max s) [], OUnit)
    | QSetNum n mx => Ok (MkSQ n mx [], OUnit)
    end.
  Fixpoint sq_run (s : sq) (os : list (bq_op T)) : res (sq * list (bq_out T)) :=
    match os with
    | [] => Ok (s, [])
    | o :: os' => rbind (sq_step s o) (fun p => rbind (sq_run (fst p) os') (fun r => Ok (fst r, snd p :: snd r)))
    end.
  (** 1 to 2^31-1 buckets, a positive finite maximum; pushed values are not NaN and
      not below minus the maximum *)
  Definition params_ok (n : Z) (mx : f64) : Prop := 1 <= n <= 2 ^ 31 - 1 /\ dfin mx = true /\ (0 < DR mx)%R.
  Fixpoint ops_ok (mx : f64) (os : list (bq_op T)) : Prop :=
    match os with
    | [] => True
    | QPush _ v :: os' => value_ok mx v /\ ops_ok mx os'
    | QSetNum n mx' :: os' => params_ok n mx' /\ ops_ok mx' os'
    | _ :: os' => ops_ok mx os'
    end.
End Spec.

Section C28.
  Context {T : Type}.
  Definition agree (a : res (bq T * list (bq_out T))) (b : res (sq * list (bq_out T))) : Prop :=
    match a, b with
    | Ok (q, o), Ok (s, o') => o = o' /\ bq_num q = sq_num s /\
        (forall i, 0 <= i < sq_num s ->
           nth_error (bq_buckets q) (Z.to_nat i) = Some (keys_in i (sq_items s)))
    | Abort, Abort => True
    | _, _ => False
    end.
  Lemma run_agree : forall os q s, qinv q (sq_items s) -> bq_num q = sq_num s -> bq_max q = sq_max s ->
    ops_ok (sq_max s) os -> Z.of_nat (length (sq_items s)) + Z.of_nat (length os) < 2 ^ 64 ->
    agree (bq_run q os) (sq_run s os).
  Proof.
    induction os as [|o os IH]; intros q s HI En Em HO HL; cbn [bq_run sq_run].
    - cbn [agree]; split; [reflexivity|]; split; [exact En|]; intros i Hi; apply (q_bucket _ _ HI); lia.
    - assert (K : forall out q' s', bq_step q o = Ok (q', out) -> sq_step s o = Ok (s', out) ->
        qinv q' (sq_items s') -> bq_num q' = sq_num s' -> bq_max q' = sq_max s' ->
        ops_ok (sq_max s') os -> (length (sq_items s') <= S (length (sq_items s)))%nat ->
        agree (rbind (bq_step q o) (fun p => rbind (bq_run (fst p) os) (fun r => Ok (fst r, snd p :: snd r))))
              (rbind (sq_step s o) (fun p => rbind (sq_run (fst p) os) (fun r => Ok (fst r, snd p :: snd r))))).
      { intros out q' s' E1 E2 HI' En' Em' HO' HL'; rewrite E1, E2; cbn [rbind fst snd].
        specialize (IH q' s' HI' En' Em' HO' ltac:(cbn [length] in HL; lia)).
        destruct (bq_run q' os) as [(q1, o1)| |], (sq_run s' os) as [(s1, o1')| |]; cbn [agree rbind fst snd] in *; try contradiction; [|exact I].
        destruct IH as (-> & IH); split; [reflexivity | exact IH]. }
      destruct o as [k v| | | | |n mx]; cbn [ops_ok] in HO; cbn [bq_step sq_step] in *.
      + destruct HO as (Hv & HO); destruct (q_max _ _ HI) as (Hf & Hp); rewrite Em in Hf, Hp.
        destruct (bucket_of_spec (sq_num s) (sq_max s) v) as (EB & HB); [rewrite <- En; apply HI | exact Hf | exact Hp | exact Hv|].
        rewrite <- En, <- Em in EB, HB.
        destruct (push_ok q (sq_items s) k v _ HI EB HB ltac:(cbn [length] in HL; lia)) as (q' & Eq & HI' & En' & Em').
        rewrite En, Em in EB; rewrite EB in K |- *; rewrite Eq in K |- *; cbn [rbind] in K |- *.
        eapply K; [reflexivity | reflexivity | cbn [sq_items]; rewrite <- En, <- Em; exact HI' | cbn [sq_num]; congruence | cbn [sq_max]; congruence | exact HO |].
        cbn [sq_items]; rewrite app_length; cbn [length]; lia.
      + destruct (pop_ok q (sq_items s) HI ltac:(lia)) as (q' & Eq & En' & Em' & HI').
        rewrite Eq in K |- *; cbn [rbind] in K |- *.
        destruct (next (sq_items s)) as [(x, r)|] eqn:EN.
        * eapply K; [reflexivity | reflexivity | exact HI' | cbn [sq_num]; congruence | cbn [sq_max]; congruence | exact HO |].
          unfold next in EN; destruct (lowest (sq_items s)) as [m|]; [|discriminate].
          destruct (take_spec _ _ _ _ EN) as (_ & _ & HLen & _); cbn [sq_items]; lia.
        * eapply K; [reflexivity | reflexivity | exact HI' | congruence | congruence | exact HO | lia].
      + pose proof (front_ok q (sq_items s) HI) as HF; destruct (next (sq_items s)) as [(x, r)|].
        * destruct HF as (q' & Eq & En' & Em' & HI'); rewrite Eq in K |- *; cbn [rbind fst snd] in K |- *.
          eapply K; [reflexivity | reflexivity | exact HI' | congruence | congruence | exact HO | lia].
        * rewrite HF; exact I.
      + eapply K; [rewrite (empty_ok _ _ HI); reflexivity | reflexivity | exact HI | exact En | exact Em | exact HO | lia].
      + eapply K; [reflexivity | reflexivity | | cbn; congruence | cbn; congruence | exact HO | cbn; lia].
        apply q_fresh; [apply HI | apply HI | apply HI | lia].
      + destruct HO as ((Hn & Hf & Hp) & HO).
        eapply K; [reflexivity | reflexivity | | reflexivity | reflexivity | exact HO | cbn; lia].
        apply q_fresh; [exact Hn | exact Hf | exact Hp | apply HI].
  Qed.

  (** C28: any sequence of calls gives the answers of the specification ([front] on
      an empty queue aborts in both), and the buckets then hold exactly the elements
      pushed and not popped, oldest first *)
  Theorem C28_refines : forall n mx (os : list (bq_op T)), params_ok n mx -> ops_ok mx os ->
    Z.of_nat (length os) < 2 ^ 64 ->
    agree (bq_run (bq_new n mx) os) (sq_run (MkSQ n mx []) os).
  Proof.
    intros n mx os (Hn & Hf & Hp) HO HL; apply run_agree; [|reflexivity|reflexivity|exact HO|cbn; lia].
    apply q_fresh; [exact Hn | exact Hf | exact Hp | lia].
  Qed.
  (** front is the oldest element of the lowest non-empty bucket: what [next] means *)
  Theorem C28_front_is_oldest_of_lowest : forall (l : list (Z * T)) x r, next l = Some (x, r) ->
    exists l1 b l2, l = l1 ++ (b, x) :: l2 /\ r = l1 ++ l2 /\
      (forall c y, In (c, y) l1 -> b < c) /\ (forall c y, In (c, y) l2 -> b <= c).
  Proof.
    intros l x r E; unfold next in E; destruct (lowest l) as [b|] eqn:El; [|discriminate].
    destruct (lowest_spec _ _ El) as (_ & HL); clear El.
    revert r E HL; induction l as [|(c, y) l IH]; intros r E HL; cbn [take] in E; [discriminate|].
    destruct (Z.eqb_spec c b) as [->|Hne].
    - injection E as <- <-; exists [], b, l; repeat split; [intros ? ? [] | intros c z H; apply (HL c z); right; exact H].
    - destruct (take b l) as [(x', r')|] eqn:Et; [|discriminate]; injection E as <- <-.
      destruct (IH r' eq_refl) as (l1 & b' & l2 & -> & -> & H1 & H2); [intros c' z H; apply (HL c' z); right; exact H|].
      exists ((c, y) :: l1), b', l2; repeat split; [| exact H2].
      intros c' z [H|H]; [|eapply H1, H]. injection H as <- <-.
      assert (b' = b); [|subst; specialize (HL c y (or_introl eq_refl)); lia].
      clear -Et H1; apply Z.le_antisymm.
      + destruct (Z.le_gt_cases b' b) as [H|H]; [exact H|exfalso].
        destruct (take_spec _ _ _ _ Et) as (Hk & Ho & _).
        specialize (Ho b' ltac:(lia)); unfold keys_in in Ho.
        apply (f_equal (@length T)) in Ho; rewrite !map_length, !filter_app, !app_length in Ho; cbn [filter fst] in Ho.
        rewrite Z.eqb_refl in Ho; cbn [length] in Ho; lia.
      + destruct (Z.le_gt_cases b b') as [H|H]; [exact H|exfalso].
        destruct (take_spec _ _ _ _ Et) as (Hk & Ho & _).
        specialize (Ho b' ltac:(lia)); unfold keys_in in Ho.
        apply (f_equal (@length T)) in Ho; rewrite !map_length, !filter_app, !app_length in Ho; cbn [filter fst] in Ho.
        rewrite Z.eqb_refl in Ho; cbn [length] in Ho; lia.
  Qed.
  (** popping everything, without pushes in between, returns the elements bucket by
      bucket, in push order within a bucket *)
  Fixpoint drain (n : nat) (l : list (Z * T)) : list T :=
    match n with
    | O => []
    | S n' => match next l with Some (x, r) => x :: drain n' r | None => [] end
    end.
  Definition by_bucket (n : Z) (l : list (Z * T)) : list T :=
    concat (map (fun i => keys_in (Z.of_nat i) l) (seq 0 (Z.to_nat n))).
  Theorem C28_drain_sorted : forall n (l : list (Z * T)), (forall b x, In (b, x) l -> 0 <= b < n) ->
    drain (length l) l = by_bucket n l.
  Proof.
    intros n l; remember (length l) as k eqn:Ek; revert l Ek; induction k as [|k IH]; intros l Ek HR.
    - destruct l; [|discriminate]; cbn [drain]; unfold by_bucket.
      induction (seq 0 (Z.to_nat n)); [reflexivity | exact IHl].
    - destruct (next_some l) as (m & x & r & Hm & Hn & Ht); [intros ->; discriminate|].
      cbn [drain]; rewrite Hn.
      destruct (take_spec _ _ _ _ Ht) as (Hk & Ho & HL & Hs).
      destruct (lowest_spec _ _ Hm) as ((x' & Hx) & Hlow); pose proof (HR _ _ Hx) as Hmr.
      rewrite (IH r); [|lia|intros b y H; apply (HR b y), Hs, H].
      unfold by_bucket; replace (Z.to_nat n) with (Z.to_nat m + (1 + (Z.to_nat n - Z.to_nat m - 1)))%nat by lia.
      rewrite !seq_app, !map_app, !concat_app; cbn [seq map concat Nat.add].
      rewrite Z2Nat.id by lia; rewrite !app_nil_r, Hk.
      assert (E0 : forall l' : list (Z * T), (forall b y, In (b, y) l' -> m <= b) ->
        concat (map (fun i => keys_in (Z.of_nat i) l') (seq 0 (Z.to_nat m))) = []).
      { intros l' H'; apply concat_nil_Forall, Forall_forall; intros z Hz; apply in_map_iff in Hz.
        destruct Hz as (i & <- & Hi); apply in_seq in Hi.
        apply keys_in_nil; intros b y Hb; specialize (H' _ _ Hb); lia. }
      rewrite !E0; [|exact Hlow | intros b y H; apply (Hlow b y), Hs, H]; cbn [app].
      do 2 f_equal; f_equal; apply map_ext_in; intros i Hi; apply in_seq in Hi; apply Ho; lia.
  Qed.
End C28.
Print Assumptions C28_refines.
Print Assumptions C28_front_is_oldest_of_lowest.
Print Assumptions C28_drain_sorted.

(** buckets order non-negative values; everything from the maximum on shares the last *)
Theorem C28_bucket_order : forall n mx v w i j, params_ok n mx ->
  value_ok mx v -> value_ok mx w -> (0 <= EDR v <= EDR w)%R ->
  bucket_of n mx v = Some i -> bucket_of n mx w = Some j -> 0 <= i <= j /\ j < n.
Proof.
  intros n mx v w i j (Hn & Hf & Hp) Hv Hw Hvw Ei Ej.
  pose proof (bucket_mono n mx v w i j Hn Hf Hp Hv Hw Hvw Ei Ej).
  destruct (bucket_of_spec n mx v Hn Hf Hp Hv) as (B1 & R1), (bucket_of_spec n mx w Hn Hf Hp Hw) as (B2 & R2).
  rewrite B1 in Ei; rewrite B2 in Ej; injection Ei as <-; injection Ej as <-; lia.
Qed.
Print Assumptions C28_bucket_order.
Theorem C28_last_bucket : forall n mx v, params_ok n mx -> dnan v = false -> (DR mx <= EDR v)%R ->
  bucket_of n mx v = Some (n - 1).
Proof. intros n mx v (Hn & Hf & Hp); apply bucket_max; assumption. Qed.
Print Assumptions C28_last_bucket.

Definition ex_val (z : Z) : f64 := f64_of_Z z.
Example C28_example :
  params_ok 20 (ex_val 10) /\
  ops_ok (ex_val 10) [QPush 1%nat (ex_val 7); QPush 2%nat (ex_val 3); QPush 3%nat (ex_val 50); QPush 4%nat (ex_val (-3));
    QFront; QPop; QFront; QPush 5%nat (ex_val 1); QFront] /\
  match bq_run (bq_new 20 (ex_val 10)) [QPush 1%nat (ex_val 7); QPush 2%nat (ex_val 3); QPush 3%nat (ex_val 50);
    QPush 4%nat (ex_val (-3)); QFront; QPop; QFront; QPush 5%nat (ex_val 1); QFront; QEmpty] with
  | Ok (q, out) => out = [OUnit; OUnit; OUnit; OUnit; OKey 2%nat; OUnit; OKey 4%nat; OUnit; OKey 5%nat; OBool false] /\ bq_count q = 4
  | _ => False
  end.
Proof.
  assert (HR : forall z, Z.abs z <= 100 -> dfin (ex_val z) = true /\ DR (ex_val z) = IZR z)
    by (intros z Hz; destruct (f64_of_Z_R z ltac:(lia)); split; assumption).
  assert (HV : forall z, Z.abs z <= 100 -> -10 <= z -> value_ok (ex_val 10) (ex_val z)).
  { intros z H1 H2; destruct (HR z H1) as (F & E), (HR 10 ltac:(lia)) as (F' & E'); split; [apply dfin_nnan, F|].
    rewrite EDR_fin by exact F; rewrite E, E'; rewrite <- opp_IZR; apply IZR_le; lia. }
  split; [split; [lia | destruct (HR 10 ltac:(lia)) as (F & E); split; [exact F | rewrite E; lra]]|].
  split; [cbn [ops_ok]; repeat split; apply HV; lia | vm_compute; split; reflexivity].
Qed.
