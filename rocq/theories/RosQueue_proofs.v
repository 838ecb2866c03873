(** Proofs about the queues. *)
From Coq Require Import ZArith Reals List Bool Lia Lra Permutation.
From Flocq Require Import Core Binary.
From Verif Require Import F32 F32_lemmas F32_err Types RosQueue RosQueue_spec.
Import ListNotations.
Open Scope Z_scope.

Lemma subseq_refl {A} (l : list A) : subseq l l.
Proof. induction l; constructor; auto. Qed.
Lemma subseq_nil {A} (l : list A) : subseq [] l.
Proof. induction l; constructor; auto. Qed.
Lemma subseq_app {A} (a b c d : list A) : subseq a c -> subseq b d -> subseq (a ++ b) (c ++ d).
Proof. intros H; induction H; intros; cbn; try constructor; auto. Qed.
Lemma subseq_trans {A} (a b c : list A) : subseq a b -> subseq b c -> subseq a c.
Proof.
  intros H1 H2; revert a H1; induction H2; intros a H1.
  - exact H1.
  - inversion H1; subst; constructor; auto.
  - constructor; auto.
Qed.

Section clouds.
  Context {C P : Type}.
  Variables (stamp : C -> Z) (lookup : nat -> C -> option P).
  Notation act := (action C P).
  Lemma left_app (a b : list act) : left (a ++ b) = left a ++ left b.
  Proof. apply flat_map_app. Qed.
  Lemma queued_app (a b : list act) : queued (a ++ b) = queued a ++ queued b.
  Proof. apply flat_map_app. Qed.
  Lemma arrived_app (a b : list act) : arrived (a ++ b) = arrived a ++ arrived b.
  Proof. apply flat_map_app. Qed.
  Lemma throttled_app (a b : list act) : throttled (a ++ b) = throttled a ++ throttled b.
  Proof. apply flat_map_app. Qed.

  (** an action that only concerns waiting clouds *)
  Definition inner (a : act) : bool :=
    match a with AThrottled _ | AQueued _ => false | _ => true end.
  Lemma inner_none (l : list act) : forallb inner l = true -> queued l = [] /\ arrived l = [] /\ throttled l = [].
  Proof.
    induction l as [|a l IH]; intros H; [auto|].
    cbn in H; apply andb_prop in H; destruct H as [Ha Hl].
    destruct (IH Hl) as (A & B & D); destruct a; cbn in *; try discriminate; auto.
  Qed.

  (** every drop follows a failed lookup of the same cloud with a full queue *)
  Definition drops_ok (log : list act) : Prop :=
    forall pre c post, log = pre ++ ADropped c :: post ->
      exists pre' n, pre = pre' ++ [ANoPose c n] /\ (10 <= n)%nat.
  Definition no_drops (log : list act) : Prop := forall c, ~ In (ADropped c) log.

  Lemma drop_front_small (q : list C) : (length q < 10)%nat ->
    drop_front (P := P) q = (q, []).
  Proof.
    destruct q as [|c q]; [reflexivity|]; intros H; unfold drop_front; fold (@drop_front C P).
    replace (Nat.leb kMaxQueueSize (length (c :: q))) with false; [reflexivity|].
    symmetry; apply Nat.leb_gt; exact H.
  Qed.
  Lemma drop_front_ten c (q : list C) : length q = 9%nat ->
    drop_front (P := P) (c :: q) = (q, [ADropped c]).
  Proof.
    intros H; cbn [drop_front length]; rewrite H.
    change (Nat.leb kMaxQueueSize 10) with true; cbv iota.
    rewrite drop_front_small by lia; reflexivity.
  Qed.

  Lemma drain_spec q n : (length q <= 10)%nat ->
    let '(q', n', a) := drain (P := P) lookup q n in
    left a ++ q' = q /\ (length q' < 10)%nat /\ forallb inner a = true /\ drops_ok a.
  Proof.
    revert n; induction q as [|c q IH]; intros n L.
    - cbn; repeat split; auto; try lia. intros pre c post E; destruct pre; discriminate.
    - cbn [length] in L. unfold drain; fold (@drain C P lookup).
      destruct (lookup n c) as [p|] eqn:EL.
      + specialize (IH (S n) ltac:(lia)). destruct (drain lookup q (S n)) as [[r n'] a].
        destruct IH as (A & B & D & F). repeat split; auto.
        * cbn; fold (left a); f_equal; exact A.
        * intros pre c' post E; destruct pre as [|x pre]; [discriminate|].
          injection E as E1 E2. destruct (F _ _ _ E2) as (pre' & m & G & H).
          exists (x :: pre'), m; split; [rewrite G; reflexivity|exact H].
      + destruct (Nat.eq_dec (length q) 9) as [E|N].
        * rewrite (drop_front_ten c q E). repeat split; auto; try lia.
          intros pre c' post Eq. destruct pre as [|x [|y pre]]; [discriminate| |].
          -- injection Eq as E1 E2 E3; subst. exists [], (length (c' :: q)); split; [reflexivity|cbn; lia].
          -- injection Eq as E1 E2 E3; destruct pre; discriminate.
        * rewrite drop_front_small by (cbn; lia). repeat split; auto.
          -- cbn; lia.
          -- intros pre c' post Eq. destruct pre as [|x pre]; [discriminate|].
             injection Eq as E1 E2; destruct pre; discriminate.
  Qed.

  Lemma drops_app (a b : list act) : drops_ok a -> drops_ok b -> drops_ok (a ++ b).
  Proof.
    intros HA HB pre c post E.
    assert (G : (exists m, a = pre ++ ADropped c :: m) \/ (exists m, pre = a ++ m /\ b = m ++ ADropped c :: post)).
    { clear HA HB; revert pre E; induction a as [|x a IH]; intros pre E.
      - right; exists pre; auto.
      - destruct pre as [|y pre]; injection E as E1 E2; subst.
        + left; exists a; reflexivity.
        + destruct (IH pre E2) as [(m & G)|(m & G & H)].
          * left; exists m; rewrite G; reflexivity.
          * right; exists m; rewrite G; auto. }
    destruct G as [(m & G)|(m & G & H)].
    - exact (HA _ _ _ G).
    - destruct (HB _ _ _ H) as (pre' & n & K & L).
      exists (a ++ pre'), n; rewrite G, K, app_assoc; auto.
  Qed.

  (** every throttled cloud came too soon after the last accepted one *)
  Definition throttle_ok (min_time : Z) (log : list act) : Prop :=
    forall pre c post, log = pre ++ AThrottled c :: post ->
      stamp c - last_accepted stamp pre <= min_time.
  Definition accept_ok (min_time : Z) (log : list act) : Prop :=
    forall pre c post, log = pre ++ AQueued c :: post ->
      stamp c - last_accepted stamp pre > min_time.

  Lemma split_arrival (log a : list act) x pre y post :
    forallb inner a = true -> inner y = false ->
    log ++ x :: a = pre ++ y :: post ->
    (exists m, log = pre ++ y :: m) \/ (pre = log /\ y = x).
  Proof.
    intros Ha Hy. revert pre; induction log as [|z log IH]; intros pre E.
    - destruct pre as [|w pre]; injection E as E1 E2; subst; [auto|].
      exfalso. assert (I : In y (pre ++ y :: post)) by (apply in_or_app; right; left; reflexivity).
      rewrite forallb_forall in Ha. rewrite (Ha _ I) in Hy; discriminate.
    - destruct pre as [|w pre]; injection E as E1 E2; subst.
      + left; exists log; reflexivity.
      + destruct (IH pre E2) as [(m & ->)|(-> & ->)]; [left; exists m; reflexivity|auto].
  Qed.

  Record good (min_time : Z) (cs : list C) (s : intake C P) : Prop := {
    g_small : (length (in_queue s) < 10)%nat;
    g_flow : queued (in_log s) = left (in_log s) ++ in_queue s;
    g_arrived : arrived (in_log s) = cs;
    g_drops : drops_ok (in_log s);
    g_last : in_last s = last_accepted stamp (in_log s);
    g_throttle : throttle_ok min_time (in_log s);
    g_accept : accept_ok min_time (in_log s);
  }.

  Lemma good_step min_time cs s c : good min_time cs s ->
    good min_time (cs ++ [c]) (insertPointcloud stamp lookup min_time s c).
  Proof.
    intros [G1 G2 G3 G4 G5 G6 G7]. unfold insertPointcloud.
    set (acc := min_time <? stamp c - in_last s).
    assert (Hacc : acc = true -> stamp c - in_last s > min_time) by (unfold acc; intros H; apply Z.ltb_lt in H; lia).
    assert (Hrej : acc = false -> stamp c - in_last s <= min_time) by (unfold acc; intros H; apply Z.ltb_ge in H; lia).
    assert (L : (length (if acc then in_queue s ++ [c] else in_queue s) <= 10)%nat)
      by (destruct acc; [rewrite app_length; cbn; lia|lia]).
    pose proof (drain_spec _ (in_calls s) L) as D. cbv zeta.
    destruct (drain lookup (if acc then in_queue s ++ [c] else in_queue s) (in_calls s)) as [[q' n'] a].
    destruct D as (D1 & D2 & D3 & D4). destruct (inner_none _ D3) as (Q & A & T).
    assert (X : drops_ok ((if acc then AQueued c else AThrottled c) :: a)).
    { change (drops_ok ([if acc then AQueued c else AThrottled c] ++ a)); apply drops_app; auto.
      intros pre c' post E; destruct pre as [|y pre]; [destruct acc; discriminate|].
      injection E as E1 E2; destruct pre; discriminate. }
    constructor; cbn [in_queue in_log in_last].
    - exact D2.
    - rewrite queued_app, left_app, <- app_assoc, G2, <- app_assoc. f_equal.
      change (queued ((if acc then AQueued c else AThrottled c) :: a))
        with ((match (if acc then AQueued c else AThrottled (P := P) c) with AQueued c => [c] | _ => [] end) ++ queued a).
      rewrite Q. destruct acc; cbn; fold (left a); rewrite D1; [reflexivity|apply app_nil_r].
    - rewrite arrived_app, G3. f_equal.
      destruct acc; cbn; fold (arrived a); rewrite A; reflexivity.
    - apply drops_app; auto.
    - unfold last_accepted. rewrite queued_app. destruct acc; cbn; fold (queued a); rewrite Q.
      + rewrite map_app; cbn; rewrite last_last; reflexivity.
      + rewrite app_nil_r; exact G5.
    - intros pre c' post E. destruct (split_arrival _ _ _ _ (AThrottled c') _ D3 eq_refl E) as [(m & H)|(H & K)].
      + exact (G6 _ _ _ H).
      + subst pre; destruct acc; [discriminate|]. injection K as ->. rewrite <- G5; auto.
    - intros pre c' post E. destruct (split_arrival _ _ _ _ (AQueued c') _ D3 eq_refl E) as [(m & H)|(H & K)].
      + exact (G7 _ _ _ H).
      + subst pre; destruct acc; [|discriminate]. injection K as ->. rewrite <- G5; auto.
  Qed.
  Lemma good_new min_time : good min_time [] intake_new.
  Proof.
    constructor; cbn; auto; try lia; intros pre c post E; destruct pre; discriminate.
  Qed.
  Lemma good_all min_time cs : good min_time cs (insert_all stamp lookup min_time cs).
  Proof.
    unfold insert_all.
    assert (H : forall l d s, good min_time d s ->
              good min_time (d ++ l) (fold_left (insertPointcloud stamp lookup min_time) l s)).
    { induction l as [|c l IH]; intros d s G; cbn; [rewrite app_nil_r; exact G|].
      replace (d ++ c :: l) with ((d ++ [c]) ++ l) by (rewrite <- app_assoc; reflexivity).
      apply IH, good_step, G. }
    apply (H cs [] _ (good_new min_time)).
  Qed.

  (** order facts read off any log *)
  Lemma integrated_left (log : list act) : subseq (integrated log) (left log).
  Proof.
    induction log as [|a l IH]; [constructor|].
    destruct a; cbn; fold (integrated l) (left l); try constructor; auto.
  Qed.
  Lemma queued_arrived (log : list act) : subseq (queued log) (arrived log).
  Proof.
    induction log as [|a l IH]; [constructor|].
    destruct a; cbn; fold (queued l) (arrived l); try constructor; auto.
  Qed.
  Lemma arrived_perm (log : list act) : Permutation (arrived log) (throttled log ++ queued log).
  Proof.
    induction log as [|a l IH]; [constructor|].
    destruct a; cbn; fold (queued l) (arrived l) (throttled l); auto.
    apply Permutation_cons_app; exact IH.
  Qed.
  Lemma left_perm (log : list act) : Permutation (left log) (integrated log ++ dropped log).
  Proof.
    induction log as [|a l IH]; [constructor|].
    destruct a; cbn; fold (left l) (integrated l) (dropped l); auto.
    apply Permutation_cons_app; exact IH.
  Qed.
  Lemma subseq_NoDup {A} (a b : list A) : subseq a b -> NoDup b -> NoDup a.
  Proof.
    intros H; induction H; intros N; inversion N; subst; auto. constructor; auto.
    intros I; apply H2. clear -H I. induction H; cbn in *; intuition.
  Qed.
  (** a lookup made for an integrated cloud answered with that pose *)
  Lemma drain_pose q n : let '(_, _, a) := drain (P := P) lookup q n in
    forall c p, In (AIntegrated c p) a -> exists k, lookup k c = Some p.
  Proof.
    revert n; induction q as [|c q IH]; intros n; [intros ? ? []|].
    unfold drain; fold (@drain C P lookup). destruct (lookup n c) as [p|] eqn:E.
    - specialize (IH (S n)). destruct (drain lookup q (S n)) as [[r n'] a].
      intros c' p' [H|H]; [injection H as -> ->; exists n; exact E|auto].
    - assert (D : forall c' p', ~ In (AIntegrated c' p') (snd (drop_front (P := P) (c :: q)))).
      { generalize (c :: q); clear. induction l as [|c l IH]; intros c' p'; cbn [drop_front]; [auto|].
        destruct (Nat.leb _ _); [|auto]. destruct (drop_front l) as [r a] eqn:E.
        intros [H|H]; [discriminate|]. eapply IH; exact H. }
      destruct (drop_front (c :: q)) as [r a]. intros c' p' [H|H]; [discriminate|].
      exfalso; eapply D; exact H.
  Qed.
  Lemma insert_pose min_time cs c p :
    In (AIntegrated c p) (in_log (insert_all stamp lookup min_time cs)) -> exists k, lookup k c = Some p.
  Proof.
    unfold insert_all.
    assert (H : forall l s, (In (AIntegrated c p) (in_log s) -> exists k, lookup k c = Some p) ->
              In (AIntegrated c p) (in_log (fold_left (insertPointcloud stamp lookup min_time) l s)) ->
              exists k, lookup k c = Some p).
    { induction l as [|x l IH]; intros s Hs; [exact Hs|]. apply IH.
      unfold insertPointcloud. cbv zeta.
      set (acc := min_time <? stamp x - in_last s).
      pose proof (drain_pose (if acc then in_queue s ++ [x] else in_queue s) (in_calls s)) as D.
      destruct (drain _ _ _) as [[q' n'] a]. cbn [in_log]. rewrite in_app_iff.
      intros [I|[I|I]]; auto. destruct acc; discriminate. }
    apply H; intros [].
  Qed.
End clouds.

Section poses.
  Context {P : Type}.
  Notation pq := (list (stamped P)).

  Definition skipped (tol t : Z) (p : stamped P) : Prop := fst p <= t /\ tol <= t - fst p.
  Lemma scan_app tol t (passed l r : pq) : Forall (skipped tol t) l ->
    scan tol t passed (l ++ r) = scan tol t (rev l ++ passed) r.
  Proof.
    revert passed; induction l as [|p l IH]; intros passed F; [reflexivity|].
    inversion F as [|? ? [A B] F']; subst. cbn [scan app].
    destruct (Z.ltb_spec t (fst p)) as [|_]; [lia|]. destruct (Z.ltb_spec (t - fst p) tol) as [|_]; [lia|].
    rewrite IH by exact F'. cbn [rev]. rewrite <- app_assoc. reflexivity.
  Qed.
  (** where the loop stops *)
  Lemma scan_split tol t (q : pq) : exists l r, q = l ++ r /\ Forall (skipped tol t) l /\
    match r with
    | [] => scan tol t [] q = (rev l, [], false)
    | p :: _ => (t < fst p /\ scan tol t [] q = (rev l, r, fst p - t <? tol)) \/
                (fst p <= t /\ t - fst p < tol /\ scan tol t [] q = (rev l, r, true))
    end.
  Proof.
    assert (G : forall passed, exists l r, q = l ++ r /\ Forall (skipped tol t) l /\
      match r with
      | [] => scan tol t passed q = (rev l ++ passed, [], false)
      | p :: _ => (t < fst p /\ scan tol t passed q = (rev l ++ passed, r, fst p - t <? tol)) \/
                  (fst p <= t /\ t - fst p < tol /\ scan tol t passed q = (rev l ++ passed, r, true))
      end).
    { induction q as [|p q IH]; intros passed.
      - exists [], []; repeat split; auto.
      - cbn [scan]. destruct (Z.ltb_spec t (fst p)).
        + exists [], (p :: q); repeat split; auto.
        + destruct (Z.ltb_spec (t - fst p) tol).
          * exists [], (p :: q); repeat split; auto.
          * destruct (IH (p :: passed)) as (l & r & E & F & M).
            exists (p :: l), r; rewrite E; split; [reflexivity|]. split; [constructor; [split; lia|exact F]|].
            rewrite <- E. destruct r as [|p' r]; cbn [rev]; rewrite <- !app_assoc; exact M. }
    destruct (G []) as (l & r & E & F & M). exists l, r. rewrite app_nil_r in M. auto.
  Qed.
  Lemma increasing_app (l r : pq) : increasing (l ++ r) -> increasing l /\ increasing r /\
    (forall a b, In a l -> In b r -> fst a < fst b).
  Proof.
    induction l as [|p l IH]; intros H; [cbn in *; intuition|].
    cbn [app increasing] in H. destruct H as [H1 H2]. destruct (IH H2) as (A & B & D).
    assert (X : forall b, In b (l ++ r) -> fst p < fst b).
    { clear -H1 H2. revert p H1 H2; induction (l ++ r) as [|y z IH]; intros p H1 H2 b [].
      - subst; exact H1.
      - destruct H2 as [H2 H3]. destruct z as [|w z]; [destruct H|].
        apply (IH p); [lia|exact H3|exact H]. }
    split; [|split; auto].
    - cbn [increasing]; split; auto. destruct l as [|p' l]; auto.
    - intros a b [->|Ia] Ib; [apply X, in_or_app; auto|auto].
  Qed.

  Lemma f32_of_Z_round z : Z.abs z <= 2 ^ 63 ->
    FR (f32_of_Z z) = rnd32 (IZR z) /\ ffin (f32_of_Z z) = true.
  Proof.
    intros H. pose proof (f32_lit_R z 0) as L. simpl bpow in L. rewrite Rmult_1_r in L. apply L.
    apply rnd32_small. rewrite <- abs_IZR. apply Rle_trans with (IZR (2 ^ 63)); [apply IZR_le; exact H|].
    change (2 ^ 63) with (radix2 ^ 63). rewrite IZR_Zpower by lia. apply bpow_le; lia.
  Qed.
  Lemma rnd32_Z z : (0 <= z)%Z -> exists d, (Rabs d <= u32r /\ rnd32 (IZR z) = IZR z * (1 + d))%R.
  Proof.
    intros H. destruct (Z.eq_dec z 0) as [->|N].
    - exists 0%R. rewrite Rabs_R0, rnd32_0. unfold u32r. split; lra.
    - destruct (rnd32_rel (IZR z)) as (d & D & E).
      + rewrite Rabs_pos_eq by (apply IZR_le; exact H). apply Rle_trans with 1%R.
        * change 1%R with (bpow radix2 0). apply bpow_le; lia.
        * apply IZR_le; lia.
      + exists d; split; [|exact E]. eapply Rle_trans; [exact D|]. unfold u32r. simpl. lra.
  Qed.
  Lemma ratio_ok a s : 0 <= a <= s -> 0 < s <= 2 ^ 63 ->
    let r := fdiv (f32_of_Z a) (f32_of_Z s) in
    (ffin r = true /\ 0 <= FR r <= 1 /\ Rabs (FR r - IZR a / IZR s) <= / 2097152)%R.
  Proof.
    intros [Ha Has] [Hs Hs'] r.
    destruct (f32_of_Z_round a) as (EA & FA); [lia|]. destruct (f32_of_Z_round s) as (ES & FS); [lia|].
    destruct (rnd32_Z a Ha) as (da & Da & Ra). destruct (rnd32_Z s ltac:(lia)) as (ds & Ds & Rs).
    pose proof (IZR_le 0 a Ha) as Ka. pose proof (IZR_le a s Has) as Kas.
    pose proof (IZR_le 1 s ltac:(lia)) as Ks.
    assert (OA : (0 <= rnd32 (IZR a))%R) by (rewrite <- rnd32_0; apply rnd32_le; exact Ka).
    assert (OAS : (rnd32 (IZR a) <= rnd32 (IZR s))%R) by (apply rnd32_le; exact Kas).
    assert (OS : (1 <= rnd32 (IZR s))%R).
    { pose proof (rnd32_exact 1 0 ltac:(lia) ltac:(lia)) as X. simpl bpow in X.
      rewrite Rmult_1_l in X. rewrite <- X. apply rnd32_le; exact Ks. }
    set (A := rnd32 (IZR a)) in *. set (S' := rnd32 (IZR s)) in *.
    assert (Q : (0 <= A / S' <= 1)%R).
    { split; [apply Rmult_le_pos; [exact OA|left; apply Rinv_0_lt_compat; lra]|].
      apply Rmult_le_reg_r with S'; [lra|]. unfold Rdiv; rewrite Rmult_assoc, Rinv_l by lra. lra. }
    assert (NS : FR (f32_of_Z s) <> 0%R) by (rewrite ES; lra).
    assert (B1 : (1 <= bpow radix2 127)%R) by (change 1%R with (bpow radix2 0); apply bpow_le; lia).
    destruct (fdiv_R (f32_of_Z a) (f32_of_Z s) FA NS) as (ER & FRn).
    { rewrite EA, ES. apply rnd32_small. rewrite Rabs_pos_eq by lra. fold A S'. lra. }
    fold r in ER, FRn. rewrite EA, ES in ER. fold A S' in ER.
    split; [exact FRn|]. rewrite ER. split.
    - split; [rewrite <- rnd32_0; apply rnd32_le; lra|].
      pose proof (rnd32_exact 1 0 ltac:(lia) ltac:(lia)) as X. simpl bpow in X.
      rewrite Rmult_1_l in X. rewrite <- X. apply rnd32_le; lra.
    - destruct (rnd32_err (A / S')) as (d & e & D & E & W). rewrite W.
      assert (T : (bpow radix2 (-150) <= / 1000000000000)%R).
      { apply Rle_trans with (bpow radix2 (-50)); [apply bpow_le; lia|]. simpl. lra. }
      assert (U : (bpow radix2 (-24) <= / 16777216)%R) by (simpl; lra).
      set (x := (IZR a / IZR s)%R).
      assert (X : (0 <= x <= 1)%R).
      { unfold x; split; [apply Rmult_le_pos; [exact Ka|left; apply Rinv_0_lt_compat; lra]|].
        apply Rmult_le_reg_r with (IZR s); [lra|]. unfold Rdiv; rewrite Rmult_assoc, Rinv_l by lra. lra. }
      unfold u32r in *.
      pose proof (Rabs_le_inv _ _ Da) as Da'. pose proof (Rabs_le_inv _ _ Ds) as Ds'.
      assert (Y : (A / S' * (1 + ds) = x * (1 + da))%R).
      { unfold x. rewrite Ra, Rs. field. split; lra. }
      set (y := (A / S')%R) in *.
      pose proof (Rabs_le_inv _ _ D) as D'. pose proof (Rabs_le_inv _ _ E) as E'.
      assert (M1 : (Rabs (y * ds) <= 1 * / 16777216)%R).
      { rewrite Rabs_mult. apply Rmult_le_compat; try apply Rabs_pos; [rewrite Rabs_pos_eq; lra|exact Ds]. }
      assert (M2 : (Rabs (x * da) <= 1 * / 16777216)%R).
      { rewrite Rabs_mult. apply Rmult_le_compat; try apply Rabs_pos; [rewrite Rabs_pos_eq; lra|exact Da]. }
      assert (M3 : (Rabs (y * d) <= 1 * / 16777216)%R).
      { rewrite Rabs_mult. apply Rmult_le_compat; try apply Rabs_pos; [rewrite Rabs_pos_eq; lra|]. lra. }
      apply Rabs_le_inv in M1. apply Rabs_le_inv in M2. apply Rabs_le_inv in M3.
      apply Rabs_le. lra.
  Qed.
End poses.
