(** Proofs about [Queue]. *)
From Coq Require Import ZArith List Bool Lia Arith Reals Lra.
From Flocq Require Import Core IEEE754.Binary.
From Verif Require Import F32 F32_lemmas F32_err Types Index Layer Threads Threads_proofs Queue Queue_spec.
Import ListNotations.
Open Scope Z_scope.

(** ** ApproxHashSet *)
Lemma last_slot_mod : forall bits past h h', h mod 2 ^ bits = h' mod 2 ^ bits ->
  last_in_slot bits past h = last_in_slot bits past h'.
Proof.
  intros bits past h h' E; induction past as [|[x|x|] past IH]; cbn [last_in_slot]; [reflexivity|exact IH| |reflexivity].
  rewrite E, IH; reflexivity.
Qed.
Lemma last_slot_in : forall bits past h v, last_in_slot bits past h = Some v -> v mod 2 ^ bits = h mod 2 ^ bits.
Proof.
  intros bits past h v; induction past as [|[x|x|] past IH]; cbn [last_in_slot]; try discriminate; [exact IH|].
  destruct (Z.eqb_spec (x mod 2 ^ bits) (h mod 2 ^ bits)); [|exact IH]; intros E; injection E as <-; assumption.
Qed.

Section HS.
  Variables bits thr : Z.
  Hypothesis Hb : 0 < bits <= 30.
  Hypothesis Ht : 0 <= thr <= 2 ^ 62.
  Let M := 2 ^ bits.
  Lemma M_pos : 1 < M <= 2 ^ 30.
  Proof.
    unfold M; split; [|apply Z.pow_le_mono_r; lia].
    apply (Z.lt_le_trans _ (2 ^ 1)); [reflexivity | apply Z.pow_le_mono_r; lia].
  Qed.
  Definition init_val (k : Z) : Z := if k =? 0 then 2 ^ 64 - 1 else 0.
  Lemma clear_get : forall k, 0 <= k < M + thr ->
    nth_error (hs_clear_array bits thr) (Z.to_nat k) = Some (init_val k).
  Proof.
    intros k Hk; unfold hs_clear_array, hs_size; fold M.
    assert (HR : forall n j, (j < n)%nat -> nth_error (repeat 0 n) j = Some 0).
    { induction n; intros [|j] Hj; try lia; [reflexivity|]; cbn; apply IHn; lia. }
    unfold init_val; destruct (Z.eqb_spec k 0) as [->|H0].
    - eapply set_th_same; apply HR; lia.
    - rewrite set_th_other by lia; apply HR; lia.
  Qed.
  Lemma clear_length : length (hs_clear_array bits thr) = Z.to_nat (M + thr).
  Proof. unfold hs_clear_array; rewrite set_th_length, repeat_length; reflexivity. Qed.

  Record hinv (past : list hs_op) (s : hashset) : Prop := {
    hi_bits : hs_bits s = bits; hi_thr : hs_threshold s = thr;
    hi_off : 0 <= hs_offset s /\ (hs_offset s = 0 \/ hs_offset s < thr);
    hi_len : length (hs_array s) = Z.to_nat (M + thr);
    hi_A : forall k v, 0 <= k < M + thr -> nth_error (hs_array s) (Z.to_nat k) = Some v ->
      v = init_val k \/
      (exists o, 0 <= o < hs_offset s /\ v mod M + o = k) \/
      (last_in_slot bits past v = Some v /\ v mod M + hs_offset s = k);
    hi_B : forall h v, last_in_slot bits past h = Some v ->
      nth_error (hs_array s) (Z.to_nat (h mod M + hs_offset s)) = Some v }.

  Lemma index_eq : forall past s h, hinv past s -> 0 <= h ->
    hs_index s h = h mod M + hs_offset s /\ 0 <= hs_index s h < M + thr.
  Proof.
    intros past s h [] Hh; unfold hs_index, hs_mask; rewrite hi_bits0.
    replace (2 ^ bits - 1) with (Z.ones bits) by (rewrite Z.ones_equiv; lia).
    rewrite Z.land_ones by lia; fold M.
    pose proof M_pos; pose proof (Z.mod_pos_bound h M ltac:(lia)).
    assert (h mod M + hs_offset s < M + thr) by lia.
    unfold u64; rewrite Z.mod_small by lia; lia.
  Qed.
  Lemma slot_get : forall past s h, hinv past s -> 0 <= h ->
    exists v, nth_error (hs_array s) (Z.to_nat (hs_index s h)) = Some v.
  Proof.
    intros past s h HI Hh; destruct (index_eq past s h HI Hh) as (_ & Hr).
    destruct (nth_error (hs_array s) (Z.to_nat (hs_index s h))) eqn:E; [eauto|].
    apply nth_error_None in E; rewrite (hi_len _ _ HI) in E; lia.
  Qed.
  Lemma hinv_new : hinv [] (hs_new bits thr).
  Proof.
    constructor; cbn [hs_new hs_bits hs_threshold hs_offset hs_array last_in_slot]; try reflexivity; try lia.
    - apply clear_length.
    - intros k v Hk E; left; rewrite clear_get in E by exact Hk; congruence.
    - discriminate.
  Qed.
  Lemma hinv_reset : forall past s, hinv past s -> hinv (HReset :: past) (hs_reset s).
  Proof.
    intros past s HI; pose proof HI as []; unfold hs_reset.
    assert (EU : u64 (hs_offset s + 1) = hs_offset s + 1) by (unfold u64; apply Z.mod_small; lia).
    rewrite EU, hi_bits0, hi_thr0; destruct (Z.leb_spec thr (hs_offset s + 1)).
    - constructor; cbn [hs_bits hs_threshold hs_offset hs_array last_in_slot]; try reflexivity; try lia.
      + apply clear_length.
      + intros k v Hk E; left; rewrite clear_get in E by exact Hk; congruence.
      + discriminate.
    - constructor; cbn [hs_bits hs_threshold hs_offset hs_array last_in_slot]; try reflexivity; try lia; try assumption.
      + intros k v Hk E; destruct (hi_A0 k v Hk E) as [?|[(o & Ho & Eo)|(_ & Eo)]]; [left; assumption|right; left..].
        * exists o; split; [lia | exact Eo].
        * exists (hs_offset s); split; [lia | exact Eo].
      + discriminate.
  Qed.
  Lemma hinv_replace : forall past s h s' b, hinv past s -> hash_ok h -> hs_replace s h = Ok (s', b) ->
    hinv (HReplace h :: past) s'.
  Proof.
    intros past s h s' b HI (Hh & _) H; pose proof HI as []; unfold hs_replace in H.
    destruct (index_eq past s h HI Hh) as (EI & Hr).
    destruct (slot_get past s h HI Hh) as (v & Ev); rewrite Ev in H.
    pose proof M_pos as HM.
    assert (Hself : last_in_slot bits (HReplace h :: past) h = Some h)
      by (cbn [last_in_slot]; rewrite Z.eqb_refl; reflexivity).
    destruct (Z.eqb_spec v h) as [E0|Hne]; [rewrite E0 in Ev; clear v E0|]; injection H as <- <-.
    - constructor; try assumption.
      + intros k v Hk E; destruct (Z.eq_dec k (hs_index s h)) as [->|Hk'].
        * rewrite Ev in E; injection E as <-; right; right; split; [exact Hself | lia].
        * destruct (hi_A0 k v Hk E) as [?|[?|(El & Eo)]]; [left; assumption | right; left; assumption | right; right].
          split; [|exact Eo]; cbn [last_in_slot]; destruct (Z.eqb_spec (h mod 2 ^ bits) (v mod 2 ^ bits)) as [EE|_]; [|exact El].
          exfalso; apply Hk'; rewrite EI; fold M in EE; lia.
      + intros h' v; cbn [last_in_slot]; destruct (Z.eqb_spec (h mod 2 ^ bits) (h' mod 2 ^ bits)) as [EE|_]; [|apply hi_B0].
        intros E; injection E as <-; fold M in EE; rewrite <- EE, <- EI; exact Ev.
    - constructor; cbn [hs_bits hs_threshold hs_offset hs_array]; try assumption.
      + rewrite set_th_length; assumption.
      + intros k v' Hk E; destruct (Z.eq_dec k (hs_index s h)) as [->|Hk'].
        * rewrite (set_th_same _ _ _ _ Ev) in E; injection E as <-; right; right; split; [exact Hself | lia].
        * rewrite set_th_other in E by lia.
          destruct (hi_A0 k v' Hk E) as [?|[?|(El & Eo)]]; [left; assumption | right; left; assumption | right; right].
          split; [|exact Eo]; cbn [last_in_slot]; destruct (Z.eqb_spec (h mod 2 ^ bits) (v' mod 2 ^ bits)) as [EE|_]; [|exact El].
          exfalso; apply Hk'; rewrite EI; fold M in EE; lia.
      + intros h' v'; cbn [last_in_slot]; destruct (Z.eqb_spec (h mod 2 ^ bits) (h' mod 2 ^ bits)) as [EE|NE]; [fold M in EE | fold M in NE].
        * intros E; injection E as <-; rewrite <- EE, <- EI; eapply set_th_same; exact Ev.
        * intros E; rewrite set_th_other; [apply hi_B0; exact E|].
          pose proof (Z.mod_pos_bound h M ltac:(lia)); pose proof (Z.mod_pos_bound h' M ltac:(lia)); lia.
  Qed.
  Lemma hinv_present : forall past s h, hinv past s -> hinv (HPresent h :: past) s.
  Proof. intros past s h []; constructor; assumption. Qed.
  Lemma hs_after_inv : forall past, Forall op_ok past ->
    exists s, hs_after bits thr past = Ok s /\ hinv past s.
  Proof.
    induction past as [|o past IH]; intros HF; [exists (hs_new bits thr); split; [reflexivity | apply hinv_new]|].
    inversion HF as [|? ? Ho HF']; subst; destruct (IH HF') as (s & Es & HI).
    cbn [hs_after]; rewrite Es; cbn [rbind hs_step]; destruct o as [h|h|]; cbn [op_ok hs_step] in *.
    - unfold hs_present; destruct (slot_get past s h HI (proj1 Ho)) as (v & Ev); rewrite Ev; cbn [rbind].
      exists s; split; [reflexivity | apply hinv_present, HI].
    - destruct (hs_replace s h) as [(s', b)| |] eqn:ER; cbn [rbind fst].
      + exists s'; split; [reflexivity | eapply hinv_replace; eassumption].
      + unfold hs_replace in ER; destruct (slot_get past s h HI (proj1 Ho)) as (v & Ev); rewrite Ev in ER.
        destruct (v =? h); discriminate.
      + unfold hs_replace in ER; destruct (slot_get past s h HI (proj1 Ho)) as (v & Ev); rewrite Ev in ER.
        destruct (v =? h); discriminate.
    - exists (hs_reset s); split; [reflexivity | apply hinv_reset, HI].
  Qed.

  Definition present_spec (past : list hs_op) (h : Z) : bool :=
    match last_in_slot bits past h with Some v => v =? h | None => false end.
  Lemma slot_val : forall past s h v, hinv past s -> 0 <= h < 2 ^ 64 ->
    nth_error (hs_array s) (Z.to_nat (hs_index s h)) = Some v ->
    (v =? h) = present_spec past h \/
    (h = 0 /\ v = 0 /\ last_in_slot bits past 0 = None /\ 0 < hs_offset s).
  Proof.
    intros past s h v HI Hh Ev; destruct (index_eq past s h HI (proj1 Hh)) as (EI & Hr); unfold present_spec.
    pose proof M_pos as HM.
    destruct (last_in_slot bits past h) as [v'|] eqn:EL.
    - apply (hi_B _ _ HI) in EL; rewrite <- EI, Ev in EL; injection EL as <-; left; reflexivity.
    - destruct (Z.eqb_spec v h) as [->|Hne]; [|left; reflexivity].
      destruct (hi_A _ _ HI _ _ Hr Ev) as [E|[(o & Ho & Eo)|(El & _)]].
      + unfold init_val in E; destruct (Z.eqb_spec (hs_index s h) 0) as [E0|E0].
        * exfalso; rewrite EI in E0; destruct HI as [? ? [? ?] ?].
          assert (h mod M = 0) as Hm by (pose proof (Z.mod_pos_bound h M ltac:(lia)); lia).
          apply Z.mod_divide in Hm; [|lia]; destruct Hm as (c & Hc).
          assert (Hd : M = 2 * 2 ^ (bits - 1)).
          { unfold M; replace (2 * 2 ^ (bits - 1)) with (2 ^ 1 * 2 ^ (bits - 1)) by reflexivity.
            rewrite <- Z.pow_add_r by lia; f_equal; lia. }
          assert (Hev : Z.even h = true) by (rewrite Hc, Hd, Z.even_mul, Z.even_mul; cbn; apply orb_true_r).
          rewrite E in Hev; discriminate.
        * right; subst h; rewrite Zmod_0_l in EI; destruct HI as [? ? [? ?] ?]; repeat split; [exact EL | lia].
      + exfalso; lia.
      + congruence.
  Qed.
  Lemma present_ok : forall past s h, hs_after bits thr past = Ok s -> Forall op_ok past -> 0 < h < 2 ^ 64 ->
    hs_present s h = Ok (present_spec past h) /\
    exists s', hs_replace s h = Ok (s', negb (present_spec past h)).
  Proof.
    intros past s h Es HF Hh; destruct (hs_after_inv past HF) as (s0 & Es0 & HI).
    rewrite Es in Es0; injection Es0 as <-.
    destruct (slot_get past s h HI ltac:(lia)) as (v & Ev).
    destruct (slot_val past s h v HI ltac:(lia) Ev) as [E|(-> & _)]; [|lia].
    unfold hs_present, hs_replace; rewrite Ev, E; split; [reflexivity|].
    destruct (present_spec past h); eexists; reflexivity.
  Qed.
  (** the hash 0: right unless the last reset was a cheap one and slot 0 is unused since *)
  Lemma present_zero : forall past s, hs_after bits thr past = Ok s -> Forall op_ok past ->
    hs_offset s = 0 \/ last_in_slot bits past 0 <> None ->
    hs_present s 0 = Ok (present_spec past 0) /\
    exists s', hs_replace s 0 = Ok (s', negb (present_spec past 0)).
  Proof.
    intros past s Es HF H0; destruct (hs_after_inv past HF) as (s0 & Es0 & HI).
    rewrite Es in Es0; injection Es0 as <-.
    destruct (slot_get past s 0 HI ltac:(lia)) as (v & Ev).
    destruct (slot_val past s 0 v HI ltac:(lia) Ev) as [E|(_ & _ & EL & Ho)]; [|destruct H0; [lia | congruence]].
    unfold hs_present, hs_replace; rewrite Ev, E; split; [reflexivity|].
    destruct (present_spec past 0); eexists; reflexivity.
  Qed.
  (** no reset, no cheap offset *)
  Lemma offset_no_reset : forall past s, ~ In HReset past -> hs_after bits thr past = Ok s -> hs_offset s = 0.
  Proof.
    induction past as [|o past IH]; intros s HN Es; cbn [hs_after] in Es; [injection Es as <-; reflexivity|].
    destruct (hs_after bits thr past) as [s1| |] eqn:E1; cbn [rbind] in Es; try discriminate.
    assert (H1 : hs_offset s1 = 0) by (apply IH; [intros X; apply HN; right; exact X | reflexivity]).
    destruct o as [h|h|]; cbn [hs_step] in Es.
    - destruct (hs_present s1 h); cbn [rbind] in Es; try discriminate; congruence.
    - unfold hs_replace in Es; destruct (nth_error _ _) as [v|]; [|discriminate].
      destruct (v =? h); cbn [rbind fst] in Es; injection Es as <-; exact H1.
    - exfalso; apply HN; left; reflexivity.
  Qed.
End HS.

(** ** concurrent replaceHash *)
Definition told (y : hsys) (h : Z) : Prop := exists t, nth_error (hy_threads y) t = Some (HDone h true).
Section Conc.
  Variable s0 : hashset.
  Definition init_slot (h : Z) : option Z := nth_error (hs_array s0) (Z.to_nat (hs_index s0 h)).
  Record cinv (y : hsys) : Prop := {
    c_off : hs_bits (hy_set y) = hs_bits s0 /\ hs_offset (hy_set y) = hs_offset s0;
    c_arr : forall k v, nth_error (hs_array (hy_set y)) k = Some v -> nth_error (hs_array s0) k = Some v \/ told y v;
    c_th : forall t, match nth_error (hy_threads y) t with
      | Some (HLoaded h v) => init_slot h = Some v \/ told y v
      | Some (HDone h false) => init_slot h = Some h \/ told y h
      | _ => True
      end }.
  Lemma idx_same : forall y h, cinv y -> hs_index (hy_set y) h = hs_index s0 h.
  Proof. intros y h [(E1 & E2) _ _]; unfold hs_index; rewrite E1, E2; reflexivity. Qed.
  Lemma cinv_step : forall y t, cinv y -> cinv (hstep y t).
  Proof.
    intros y t HI; unfold hstep.
    destruct (nth_error (hy_threads y) t) as [[h|h v|h r]|] eqn:Et; try exact HI.
    - destruct (nth_error (hs_array (hy_set y)) (Z.to_nat (hs_index (hy_set y) h))) as [v|] eqn:Ev; [|exact HI].
      assert (Hm : forall x, told y x -> told (MkHSys (hy_set y) (set_th t (HLoaded h v) (hy_threads y))) x).
      { intros x (t' & E'); exists t'; cbn [hy_threads]; rewrite set_th_other; [exact E'|]; intros <-; congruence. }
      constructor; cbn [hy_set]; [apply HI | |].
      + intros k w E; destruct (c_arr _ HI k w E) as [?|?]; [left; assumption | right; apply Hm; assumption].
      + intros t'; cbn [hy_threads]; destruct (Nat.eq_dec t t') as [<-|Hne].
        * rewrite (set_th_same _ _ _ _ Et). destruct (c_arr _ HI _ _ Ev) as [E|E].
          -- left; unfold init_slot; rewrite <- (idx_same y h HI); exact E.
          -- right; apply Hm, E.
        * rewrite set_th_other by exact Hne; pose proof (c_th _ HI t') as C.
          destruct (nth_error (hy_threads y) t') as [[ | |? []]|]; try exact I; destruct C as [?|C]; try (left; assumption); right; apply Hm, C.
    - assert (Hm : forall s' r x, told y x -> told (MkHSys s' (set_th t (HDone h r) (hy_threads y))) x).
      { intros s' r x (t' & E'); exists t'; cbn [hy_threads]; rewrite set_th_other; [exact E'|]; intros <-; congruence. }
      pose proof (c_th _ HI t) as Ct; rewrite Et in Ct.
      destruct (Z.eqb_spec v h) as [->|Hvh].
      + constructor; cbn [hy_set]; [apply HI | |].
        * intros k w E; destruct (c_arr _ HI k w E) as [?|?]; [left; assumption | right; apply Hm; assumption].
        * intros t'; cbn [hy_threads]; destruct (Nat.eq_dec t t') as [<-|Hne].
          -- rewrite (set_th_same _ _ _ _ Et); destruct Ct as [?|C]; [left; assumption | right; apply Hm, C].
          -- rewrite set_th_other by exact Hne; pose proof (c_th _ HI t') as C.
             destruct (nth_error (hy_threads y) t') as [[ | |? []]|]; try exact I; destruct C as [?|C]; try (left; assumption); right; apply Hm, C.
      + set (s1 := MkHS _ _ _ _).
        assert (Hh : told (MkHSys s1 (set_th t (HDone h true) (hy_threads y))) h).
        { exists t; cbn [hy_threads]; eapply set_th_same; exact Et. }
        constructor; cbn [hy_set]; [apply HI | |].
        * intros k w E; subst s1; cbn [hs_array] in E.
          destruct (Nat.eq_dec (Z.to_nat (hs_index (hy_set y) h)) k) as [<-|Hk].
          -- destruct (nth_error (hs_array (hy_set y)) (Z.to_nat (hs_index (hy_set y) h))) as [w'|] eqn:Ew.
             ++ rewrite (set_th_same _ _ _ _ Ew) in E; injection E as <-; right; exact Hh.
             ++ apply nth_error_None in Ew.
                assert (X : nth_error (set_th (Z.to_nat (hs_index (hy_set y) h)) h (hs_array (hy_set y))) (Z.to_nat (hs_index (hy_set y) h)) = None)
                  by (apply nth_error_None; rewrite set_th_length; exact Ew).
                congruence.
          -- rewrite set_th_other in E by exact Hk.
             destruct (c_arr _ HI k w E) as [?|?]; [left; assumption | right; apply Hm; assumption].
        * intros t'; cbn [hy_threads]; destruct (Nat.eq_dec t t') as [<-|Hne].
          -- rewrite (set_th_same _ _ _ _ Et); exact I.
          -- rewrite set_th_other by exact Hne; pose proof (c_th _ HI t') as C.
             destruct (nth_error (hy_threads y) t') as [[ | |? []]|]; try exact I; destruct C as [?|C]; try (left; assumption); right; apply Hm, C.
  Qed.
  Lemma cinv_run : forall sched hs, cinv (hsys_run sched (MkHSys s0 (map HStart hs))).
  Proof.
    intros sched hs.
    assert (G : forall sched y, cinv y -> cinv (hsys_run sched y)).
    { clear; induction sched as [|t sched IH]; intros y H; [exact H|]; cbn [hsys_run fold_left]; apply IH, cinv_step, H. }
    apply G; constructor; cbn [hy_set hy_threads].
    - split; reflexivity.
    - intros; left; assumption.
    - intros t; rewrite nth_error_map; destruct (nth_error hs t); exact I.
  Qed.
End Conc.

(** ** BucketQueue *)
Section BQ.
  Context {T : Type}.
  Notation pending := (list (Z * T)) (only parsing).
  Lemma lowest_None : forall l : pending, lowest l = None <-> l = [].
  Proof. intros [|(b, x) l]; cbn [lowest]; split; congruence || reflexivity. Qed.
  Lemma lowest_spec : forall (l : pending) m, lowest l = Some m ->
    (exists x, In (m, x) l) /\ forall b x, In (b, x) l -> m <= b.
  Proof.
    induction l as [|(b, x) l IH]; intros m E; cbn [lowest] in E; [discriminate|].
    destruct (lowest l) as [m'|] eqn:El.
    - injection E as <-; destruct (IH _ eq_refl) as ((x' & H1) & H2); split.
      + destruct (Z.min_spec b m') as [(_ & ->)|(_ & ->)]; [exists x; left; reflexivity | exists x'; right; exact H1].
      + intros c y [E|H]; [injection E as -> ->; lia | specialize (H2 _ _ H); lia].
    - apply lowest_None in El; subst l; injection E as <-; split; [exists x; left; reflexivity|].
      intros c y [E|[]]; injection E as -> ->; lia.
  Qed.
  Lemma take_spec : forall (l : pending) b x r, take b l = Some (x, r) ->
    keys_in b l = x :: keys_in b r /\ (forall c, c <> b -> keys_in c r = keys_in c l) /\
    length l = S (length r) /\ forall e, In e r -> In e l.
  Proof.
    induction l as [|(c, y) l IH]; intros b x r E; cbn [take] in E; [discriminate|].
    destruct (Z.eqb_spec c b) as [->|Hcb].
    - injection E as <- <-; unfold keys_in; cbn [filter fst]; rewrite Z.eqb_refl; split; [reflexivity|]; split; [|split; [reflexivity|]].
      + intros c' H; rewrite (proj2 (Z.eqb_neq b c')) by congruence; reflexivity.
      + intros e He; right; exact He.
    - destruct (take b l) as [(y', r')|] eqn:Et; [|discriminate]; injection E as <- <-.
      destruct (IH _ _ _ Et) as (H1 & H2 & H3 & H4); unfold keys_in in *; cbn [filter fst]; split; [|split; [|split]].
      + rewrite (proj2 (Z.eqb_neq c b)) by exact Hcb; exact H1.
      + intros c' H; specialize (H2 c' H); destruct (c =? c'); cbn [map snd]; [f_equal|]; exact H2.
      + cbn [length]; lia.
      + intros e [->|He]; [left; reflexivity | right; apply H4, He].
  Qed.
  Lemma take_some : forall (l : pending) b x, In (b, x) l -> exists y r, take b l = Some (y, r).
  Proof.
    induction l as [|(c, y) l IH]; intros b x; [intros []|]; intros [E|H].
    - injection E as -> ->; cbn [take]; rewrite Z.eqb_refl; eauto.
    - cbn [take]; destruct (c =? b); [eauto|]; destruct (IH _ _ H) as (y' & r & ->); eauto.
  Qed.
  Lemma next_some : forall l : pending, l <> [] -> exists m x r, lowest l = Some m /\ next l = Some (x, r) /\ take m l = Some (x, r).
  Proof.
    intros l H; destruct (lowest l) as [m|] eqn:E; [|apply lowest_None in E; congruence].
    destruct (proj1 (lowest_spec _ _ E)) as (x & Hx); destruct (take_some _ _ _ Hx) as (y & r & Et).
    exists m, y, r; unfold next; rewrite E; auto.
  Qed.

  Record qinv (q : bq T) (l : pending) : Prop := {
    q_num : 1 <= bq_num q <= 2 ^ 31 - 1;
    q_max : dfin (bq_max q) = true /\ (0 < DR (bq_max q))%R;
    q_len : length (bq_buckets q) = Z.to_nat (bq_num q);
    q_bucket : forall i, 0 <= i < bq_num q -> nth_error (bq_buckets q) (Z.to_nat i) = Some (keys_in i l);
    q_range : forall b x, In (b, x) l -> 0 <= b < bq_num q;
    q_last : 0 <= bq_last q /\ forall b x, In (b, x) l -> bq_last q <= b;
    q_count : bq_count q = Z.of_nat (length l) }.

  Lemma nth_repeat_nil : forall n i, (i < n)%nat -> nth_error (repeat (@nil T) n) i = Some [].
  Proof. induction n; intros [|i] H; try lia; [reflexivity|]; cbn; apply IHn; lia. Qed.
  Lemma q_fresh : forall n mx last, 1 <= n <= 2 ^ 31 - 1 -> dfin mx = true -> (0 < DR mx)%R -> 0 <= last ->
    qinv (MkBQ n mx (repeat [] (Z.to_nat n)) last 0) [].
  Proof.
    intros n mx last Hn H1 H2 Hl; constructor; cbn [bq_num bq_max bq_buckets bq_last bq_count]; auto.
    - apply repeat_length.
    - intros i Hi; apply nth_repeat_nil; lia.
    - intros b x [].
    - split; [exact Hl | intros b x []].
  Qed.
  Lemma set_bucket : forall q l l' i f, qinv q l -> 0 <= i < bq_num q ->
    f (keys_in i l) = keys_in i l' -> (forall c, c <> i -> keys_in c l' = keys_in c l) ->
    exists bs, bq_upd i f (bq_buckets q) = Ok bs /\ length bs = Z.to_nat (bq_num q) /\
      forall j, 0 <= j < bq_num q -> nth_error bs (Z.to_nat j) = Some (keys_in j l').
  Proof.
    intros q l l' i f HI Hi Hf Ho; unfold bq_upd; rewrite (proj2 (Z.ltb_ge i 0)) by lia.
    rewrite (q_bucket _ _ HI i Hi); eexists; split; [reflexivity|]; split.
    - rewrite set_th_length; apply HI.
    - intros j Hj; destruct (Z.eq_dec j i) as [->|Hne].
      + rewrite (set_th_same _ _ _ _ (q_bucket _ _ HI i Hi)), Hf; reflexivity.
      + rewrite set_th_other by lia; rewrite (q_bucket _ _ HI j Hj), Ho by exact Hne; reflexivity.
  Qed.
  Lemma push_ok : forall q l k v i, qinv q l -> bucket_of (bq_num q) (bq_max q) v = Some i -> 0 <= i < bq_num q ->
    Z.of_nat (length l) + 1 < 2 ^ 64 ->
    exists q', bq_push q k v = Ok q' /\ qinv q' (l ++ [(i, k)]) /\ bq_num q' = bq_num q /\ bq_max q' = bq_max q.
  Proof.
    intros q l k v i HI Hb Hi HL; unfold bq_push.
    rewrite (proj2 (Z.eqb_neq (bq_num q) 0)) by (pose proof (q_num _ _ HI); lia); rewrite Hb.
    destruct (set_bucket q l (l ++ [(i, k)]) i (fun b => b ++ [k]) HI Hi) as (bs & Eb & El & Eg).
    - unfold keys_in; rewrite filter_app, map_app; cbn [filter fst]; rewrite Z.eqb_refl; reflexivity.
    - intros c Hc; unfold keys_in; rewrite filter_app, map_app; cbn [filter fst].
      rewrite (proj2 (Z.eqb_neq i c)) by congruence; apply app_nil_r.
    - rewrite Eb; cbn [rbind]; eexists; split; [reflexivity|]; split; [|split; reflexivity].
      pose proof (q_last _ _ HI) as (L0 & L1).
      constructor; cbn [bq_num bq_max bq_buckets bq_last bq_count]; [apply HI | apply HI | exact El | exact Eg | | |].
      + intros b x H; apply in_app_iff in H; destruct H as [H|[H|[]]]; [apply (q_range _ _ HI _ _ H)|].
        injection H as <- <-; exact Hi.
      + destruct (Z.ltb_spec i (bq_last q)); split; try lia;
          intros b x Hx; apply in_app_iff in Hx; destruct Hx as [Hx|[Hx|[]]];
          try (specialize (L1 _ _ Hx); lia); injection Hx as <- <-; lia.
      + rewrite (q_count _ _ HI), app_length; cbn [length]; unfold u64; rewrite Z.mod_small by lia; lia.
  Qed.
  Lemma keys_in_nil : forall (l : pending) i, (forall b x, In (b, x) l -> b <> i) -> keys_in i l = [].
  Proof.
    induction l as [|(b, x) l IH]; intros i H; [reflexivity|]; unfold keys_in; cbn [filter fst].
    rewrite (proj2 (Z.eqb_neq b i)) by (eapply H; left; reflexivity).
    apply IH; intros c y Hc; eapply H; right; exact Hc.
  Qed.
  Lemma scan_ok : forall q l m x r, qinv q l -> lowest l = Some m -> take m l = Some (x, r) ->
    forall fuel last, 0 <= last <= m -> m - last < Z.of_nat fuel ->
    bq_scan fuel (bq_buckets q) (bq_num q) last = Ok m.
  Proof.
    intros q l m x r HI Hm Ht.
    destruct (lowest_spec _ _ Hm) as ((x' & Hx) & Hlow).
    pose proof (q_range _ _ HI _ _ Hx) as Hr.
    destruct (take_spec _ _ _ _ Ht) as (Hk & _).
    induction fuel as [|fuel IH]; intros last Hl Hf; [lia|].
    cbn [bq_scan]; rewrite (proj2 (Z.ltb_ge last 0)) by lia.
    rewrite (q_bucket _ _ HI) by lia.
    destruct (Z.eq_dec last m) as [->|Hne]; [rewrite Hk; reflexivity|].
    rewrite keys_in_nil by (intros b y Hb; specialize (Hlow _ _ Hb); lia).
    rewrite (proj2 (Z.ltb_lt last (bq_num q))) by lia; apply IH; lia.
  Qed.
  Lemma scan_next : forall q l m x r, qinv q l -> lowest l = Some m -> take m l = Some (x, r) ->
    bq_scan (scan_fuel q) (bq_buckets q) (bq_num q) (bq_last q) = Ok m.
  Proof.
    intros q l m x r HI Hm Ht; eapply scan_ok; try eassumption.
    - destruct (lowest_spec _ _ Hm) as ((x' & Hx) & _); pose proof (q_last _ _ HI) as (? & HL).
      split; [assumption | apply (HL _ _ Hx)].
    - destruct (lowest_spec _ _ Hm) as ((x' & Hx) & _); pose proof (q_range _ _ HI _ _ Hx).
      pose proof (q_last _ _ HI) as (? & _); unfold scan_fuel; rewrite (q_len _ _ HI); lia.
  Qed.
  Lemma empty_ok : forall q l, qinv q l -> bq_empty q = match l with [] => true | _ => false end.
  Proof.
    intros q l HI; unfold bq_empty; rewrite (q_count _ _ HI).
    destruct l; cbn [length]; [reflexivity | apply Z.eqb_neq; lia].
  Qed.
  Lemma pop_ok : forall q l, qinv q l -> Z.of_nat (length l) < 2 ^ 64 ->
    exists q', bq_pop q = Ok q' /\ bq_num q' = bq_num q /\ bq_max q' = bq_max q /\
    qinv q' (match next l with Some (_, r) => r | None => l end).
  Proof.
    intros q l HI HL; unfold bq_pop; rewrite (empty_ok _ _ HI).
    destruct l as [|e l0] eqn:El; [exists q; auto|]; rewrite <- El in *.
    destruct (next_some l) as (m & x & r & Hm & Hn & Ht); [congruence|].
    rewrite Hn, (scan_next q l m x r HI Hm Ht); cbn [rbind].
    destruct (lowest_spec _ _ Hm) as ((x' & Hx) & Hlow); pose proof (q_range _ _ HI _ _ Hx) as Hr.
    rewrite (proj2 (Z.ltb_lt m (bq_num q))) by lia.
    destruct (take_spec _ _ _ _ Ht) as (Hk & Ho & Hlen & Hsub).
    destruct (set_bucket q l r m (fun b => tl b) HI Hr) as (bs & Eb & Elen & Eg).
    - rewrite Hk; reflexivity.
    - exact Ho.
    - rewrite Eb; cbn [rbind]; eexists; split; [reflexivity|]; split; [reflexivity|]; split; [reflexivity|].
      constructor; cbn [bq_num bq_max bq_buckets bq_last bq_count]; [apply HI | apply HI | exact Elen | exact Eg | | |].
      + intros b y Hy; eapply q_range; [exact HI | apply Hsub, Hy].
      + split; [lia|]; intros b y Hy; apply (Hlow b y), Hsub, Hy.
      + rewrite (q_count _ _ HI); unfold u64; rewrite Z.mod_small; lia.
  Qed.
  Lemma front_ok : forall q l, qinv q l ->
    match next l with
    | Some (x, r) => exists q', bq_front q = Ok (q', x) /\ bq_num q' = bq_num q /\ bq_max q' = bq_max q /\ qinv q' l
    | None => bq_front q = Abort
    end.
  Proof.
    intros q l HI; unfold bq_front; rewrite (empty_ok _ _ HI).
    rewrite (proj2 (Z.eqb_neq (bq_num q) 0)) by (pose proof (q_num _ _ HI); lia); cbn [orb].
    destruct l as [|e l0] eqn:El; [reflexivity|]; rewrite <- El in *.
    destruct (next_some l) as (m & x & r & Hm & Hn & Ht); [congruence|].
    rewrite Hn, (scan_next q l m x r HI Hm Ht); cbn [rbind].
    destruct (lowest_spec _ _ Hm) as ((x' & Hx) & Hlow); pose proof (q_range _ _ HI _ _ Hx) as Hr.
    destruct (take_spec _ _ _ _ Ht) as (Hk & _).
    rewrite (q_bucket _ _ HI m Hr), Hk; eexists; split; [reflexivity|]; split; [reflexivity|]; split; [reflexivity|].
    destruct HI; constructor; cbn [bq_num bq_max bq_buckets bq_last bq_count]; auto.
    split; [lia | exact Hlow].
  Qed.
End BQ.

(** ** buckets of values *)
Open Scope R_scope.
Lemma dabs_R : forall x, DR (dabs x) = Rabs (DR x).
Proof. intros. apply (B2R_Babs 53 1024). Qed.
Lemma dabs_fin : forall x, dfin (dabs x) = dfin x.
Proof. intros. apply (is_finite_Babs 53 1024). Qed.
Definition clamped (mx v : f64) : f64 := if dgt v mx then mx else v.
Definition bucket_prod (n : Z) (mx v : f64) : f64 := dmul (ddiv (dabs (clamped mx v)) mx) (f64_of_Z (n - 1)).
Lemma clamped_ok : forall mx v, dfin mx = true -> 0 < DR mx -> value_ok mx v ->
  dfin (clamped mx v) = true /\ - DR mx <= DR (clamped mx v) <= DR mx /\
  DR (clamped mx v) = Rmin (EDR v) (DR mx).
Proof.
  intros mx v Hm Hp (Hn & Hl); unfold clamped, dgt.
  pose proof (dlt_iff mx v) as HD; rewrite EDR_fin in HD by exact Hm.
  destruct (dlt mx v).
  - destruct (proj1 HD eq_refl) as (_ & _ & HL); repeat split; [exact Hm | lra | lra |].
    rewrite Rmin_right by lra; reflexivity.
  - assert (HL : EDR v <= DR mx).
    { destruct (Rle_lt_dec (EDR v) (DR mx)) as [H|H]; [exact H|].
      assert (false = true) by (apply HD; split; [apply dfin_nnan, Hm | split; assumption]); discriminate. }
    assert (Hf : dfin v = true).
    { pose proof (DR_lt_max mx) as Hmx; rewrite Rabs_pos_eq in Hmx by lra.
      pose proof max64_pos.
      destruct v as [s|[|]|s pl e|s m e b]; try reflexivity; try discriminate; cbn [EDR] in *; lra. }
    rewrite EDR_fin in * by exact Hf; repeat split; [exact Hf | lra | lra |].
    rewrite Rmin_left by lra; reflexivity.
Qed.
Lemma prod_R : forall n mx v, (1 <= n <= 2 ^ 31 - 1)%Z -> dfin mx = true -> 0 < DR mx -> value_ok mx v ->
  dfin (bucket_prod n mx v) = true /\
  DR (bucket_prod n mx v) = rnd64 (rnd64 (Rabs (DR (clamped mx v)) / DR mx) * IZR (n - 1)) /\
  0 <= DR (bucket_prod n mx v) <= IZR (n - 1).
Proof.
  intros n mx v Hn Hm Hp Hv; destruct (clamped_ok mx v Hm Hp Hv) as (Hf & Hr & _).
  set (c := clamped mx v) in *; unfold bucket_prod; fold c.
  set (q := Rabs (DR c) / DR mx).
  assert (Hq : 0 <= q <= 1).
  { unfold q; split.
    - apply Rmult_le_pos; [apply Rabs_pos | apply Rlt_le, Rinv_0_lt_compat, Hp].
    - apply Rmult_le_reg_r with (DR mx); [exact Hp|]; unfold Rdiv; rewrite Rmult_assoc, Rinv_l, Rmult_1_r, Rmult_1_l by lra.
      apply Rabs_le; lra. }
  assert (Hrq : 0 <= rnd64 q <= 1).
  { split; [rewrite <- rnd64_0 | rewrite <- (rnd64_Z 1) by (cbn; lia)]; apply rnd64_le; lra. }
  assert (Hbig : 1 < max64) by (unfold max64; change 1 with (bpow radix2 0); apply bpow_lt; reflexivity).
  destruct (ddiv_R (dabs c) mx) as (D1 & D2).
  { rewrite dabs_fin; exact Hf. }
  { lra. }
  { rewrite dabs_R; fold q; rewrite Rabs_pos_eq by lra; lra. }
  rewrite dabs_R in D1; fold q in D1.
  destruct (f64_of_Z_R (n - 1)) as (Z1 & Z2); [lia|].
  assert (Hn0 : 0 <= IZR (n - 1)) by (apply IZR_le; lia).
  assert (Hn31 : IZR (n - 1) < max64).
  { apply Rlt_trans with (IZR (2 ^ 31)); [apply IZR_lt; lia|].
    change (IZR (2 ^ 31)) with (IZR (radix2 ^ 31)); rewrite IZR_Zpower by lia; apply bpow_lt; reflexivity. }
  assert (Hp2 : 0 <= rnd64 q * IZR (n - 1) <= IZR (n - 1)) by (split; [apply Rmult_le_pos; lra | nra]).
  assert (Hr2 : 0 <= rnd64 (rnd64 q * IZR (n - 1)) <= IZR (n - 1)).
  { split; [rewrite <- rnd64_0 | rewrite <- (rnd64_Z (n - 1)) at 2 by lia]; apply rnd64_le; lra. }
  destruct (dmul_R (ddiv (dabs c) mx) (f64_of_Z (n - 1))) as (M1 & M2).
  { exact D2. }
  { exact Z2. }
  { rewrite D1, Z1, Rabs_pos_eq by lra; lra. }
  rewrite D1, Z1 in M1; rewrite M1; repeat split; [exact M2 | lra | lra].
Qed.
Lemma bucket_of_spec : forall n mx v, (1 <= n <= 2 ^ 31 - 1)%Z -> dfin mx = true -> 0 < DR mx -> value_ok mx v ->
  bucket_of n mx v = Some (Zfloor (DR (bucket_prod n mx v))) /\
  (0 <= Zfloor (DR (bucket_prod n mx v)) < n)%Z.
Proof.
  intros n mx v Hn Hm Hp Hv; destruct (prod_R n mx v Hn Hm Hp Hv) as (Hf & _ & H0 & H1).
  assert (HZ : (0 <= Zfloor (DR (bucket_prod n mx v)) <= n - 1)%Z).
  { split; [apply Zfloor_lub; exact H0|]. apply le_IZR; apply Rle_trans with (2 := H1), Zfloor_lb. }
  split; [|lia]; unfold bucket_of; fold (clamped mx v); fold (bucket_prod n mx v).
  rewrite dfloorZ_R by exact Hf; unfold to_int32, in_range.
  rewrite (proj2 (Z.leb_le _ _)) by lia; rewrite (proj2 (Z.leb_le _ _)) by lia; cbn [andb].
  rewrite (proj2 (Z.leb_gt _ _)) by lia; reflexivity.
Qed.
Lemma bucket_mono : forall n mx v w i j, (1 <= n <= 2 ^ 31 - 1)%Z -> dfin mx = true -> 0 < DR mx ->
  value_ok mx v -> value_ok mx w -> 0 <= EDR v <= EDR w ->
  bucket_of n mx v = Some i -> bucket_of n mx w = Some j -> (i <= j)%Z.
Proof.
  intros n mx v w i j Hn Hm Hp Hv Hw Hvw Ei Ej.
  destruct (bucket_of_spec n mx v Hn Hm Hp Hv) as (Bi & _); rewrite Bi in Ei; injection Ei as <-.
  destruct (bucket_of_spec n mx w Hn Hm Hp Hw) as (Bj & _); rewrite Bj in Ej; injection Ej as <-.
  apply Zfloor_le.
  destruct (prod_R n mx v Hn Hm Hp Hv) as (_ & -> & _), (prod_R n mx w Hn Hm Hp Hw) as (_ & -> & _).
  destruct (clamped_ok mx v Hm Hp Hv) as (_ & _ & ->), (clamped_ok mx w Hm Hp Hw) as (_ & _ & ->).
  apply rnd64_le, Rmult_le_compat_r; [apply IZR_le; lia|]; apply rnd64_le.
  apply Rmult_le_compat_r; [apply Rlt_le, Rinv_0_lt_compat, Hp|].
  assert (0 <= Rmin (EDR v) (DR mx)) by (apply Rmin_glb; lra).
  assert (Rmin (EDR v) (DR mx) <= Rmin (EDR w) (DR mx)).
  { apply Rmin_glb; [|apply Rmin_r]; apply Rle_trans with (EDR v); [apply Rmin_l | lra]. }
  rewrite !Rabs_pos_eq by lra; assumption.
Qed.
(** everything at or beyond the maximum goes to the last bucket *)
Lemma bucket_max : forall n mx v, (1 <= n <= 2 ^ 31 - 1)%Z -> dfin mx = true -> 0 < DR mx ->
  dnan v = false -> DR mx <= EDR v -> bucket_of n mx v = Some (n - 1)%Z.
Proof.
  intros n mx v Hn Hm Hp Hv Hge; assert (Hok : value_ok mx v) by (split; [exact Hv | lra]).
  destruct (bucket_of_spec n mx v Hn Hm Hp Hok) as (-> & _).
  destruct (prod_R n mx v Hn Hm Hp Hok) as (_ & -> & _).
  destruct (clamped_ok mx v Hm Hp Hok) as (_ & _ & ->).
  rewrite Rmin_right by exact Hge; rewrite Rabs_pos_eq by lra.
  replace (DR mx / DR mx) with 1 by (field; lra).
  rewrite (rnd64_Z 1) by (cbn; lia); rewrite Rmult_1_l, rnd64_Z by lia; rewrite Zfloor_IZR; reflexivity.
Qed.
