(** C51 (point cloud queue) and C52 (pose queue). *)
From Coq Require Import ZArith Reals List Bool Lia Lra Permutation.
From Verif Require Import F32 F32_lemmas Types RosQueue RosQueue_spec RosQueue_proofs.
Import ListNotations.
Open Scope Z_scope.

(** C51. After every call fewer than ten clouds wait. *)
Theorem C51_bounded : forall (C P : Type) (stamp : C -> Z) (lookup : nat -> C -> option P) min_time cs,
  (length (in_queue (insert_all stamp lookup min_time cs)) < 10)%nat.
Proof. intros. apply (g_small _ _ _ _ (good_all stamp lookup min_time cs)). Qed.
Print Assumptions C51_bounded.

(** C51. Clouds are integrated in arrival order; every cloud that arrived met
    exactly one fate: throttled, integrated, dropped, or still waiting, behind all
    those that left the queue. *)
Theorem C51_order_once : forall (C P : Type) (stamp : C -> Z) (lookup : nat -> C -> option P) min_time cs,
  let s := insert_all stamp lookup min_time cs in
  subseq (integrated (in_log s) ++ in_queue s) cs /\
  Permutation cs (throttled (in_log s) ++ integrated (in_log s) ++ dropped (in_log s) ++ in_queue s).
Proof.
  intros C P stamp lookup min_time cs s.
  destruct (good_all stamp lookup min_time cs) as [G1 G2 G3 G4 G5 G6 G7]. fold s in G1, G2, G3, G4, G5, G6, G7.
  split.
  - eapply subseq_trans; [|rewrite <- G3; apply queued_arrived]. rewrite G2.
    apply subseq_app; [apply integrated_left|apply subseq_refl].
  - rewrite <- G3 at 1. rewrite arrived_perm. apply Permutation_app_head. rewrite G2, (left_perm (in_log s)).
    rewrite <- app_assoc. reflexivity.
Qed.
Print Assumptions C51_order_once.
(** so a cloud that arrives once is integrated at most once *)
Theorem C51_at_most_once : forall (C P : Type) (stamp : C -> Z) (lookup : nat -> C -> option P) min_time cs,
  NoDup cs -> NoDup (integrated (in_log (insert_all stamp lookup min_time cs))).
Proof.
  intros C P stamp lookup min_time cs N. destruct (C51_order_once C P stamp lookup min_time cs) as (A & B).
  eapply subseq_NoDup; [|exact N]. eapply subseq_trans; [|exact A].
  rewrite <- (app_nil_r (integrated _)) at 1. apply subseq_app; [apply subseq_refl|apply subseq_nil].
Qed.
Print Assumptions C51_at_most_once.

(** C51. A cloud is dropped only right after the lookup of its own transform failed
    with at least ten clouds waiting; a cloud is throttled exactly when its stamp is
    not more than [min_time] after the stamp of the last accepted one; an integrated
    cloud is integrated with a pose that was looked up for it. *)
Theorem C51_reasons : forall (C P : Type) (stamp : C -> Z) (lookup : nat -> C -> option P) min_time cs,
  let log := in_log (insert_all stamp lookup min_time cs) in
  (forall pre c post, log = pre ++ ADropped c :: post ->
     exists pre' n, pre = pre' ++ [ANoPose c n] /\ (10 <= n)%nat) /\
  (forall pre c post, log = pre ++ AThrottled c :: post -> stamp c - last_accepted stamp pre <= min_time) /\
  (forall pre c post, log = pre ++ AQueued c :: post -> stamp c - last_accepted stamp pre > min_time) /\
  (forall c p, In (AIntegrated c p) log -> exists n, lookup n c = Some p).
Proof.
  intros C P stamp lookup min_time cs log.
  destruct (good_all stamp lookup min_time cs) as [G1 G2 G3 G4 G5 G6 G7].
  split; [exact G4|]. split; [exact G6|]. split; [exact G7|]. intros c p. apply insert_pose.
Qed.
Print Assumptions C51_reasons.

(** C51. While transforms are available nothing waits and nothing is dropped. *)
Theorem C51_available : forall (C P : Type) (stamp : C -> Z) (lookup : nat -> C -> option P) min_time cs,
  (forall n c, lookup n c <> None) ->
  let s := insert_all stamp lookup min_time cs in
  in_queue s = [] /\ dropped (in_log s) = [] /\ Permutation cs (throttled (in_log s) ++ integrated (in_log s)).
Proof.
  intros C P stamp lookup min_time cs H s.
  assert (D : forall q n, let '(q', _, a) := drain lookup q n in q' = [] /\ dropped a = []).
  { induction q as [|c q IH]; intros n; [split; reflexivity|].
    unfold drain; fold (@drain C P lookup). destruct (lookup n c) eqn:E; [|destruct (H _ _ E)].
    specialize (IH (S n)). destruct (drain lookup q (S n)) as [[r n'] a]. exact IH. }
  assert (K : in_queue s = [] /\ dropped (in_log s) = []).
  { unfold s, insert_all.
    assert (G : forall l st, in_queue st = [] /\ dropped (in_log st) = [] ->
       let st' := fold_left (insertPointcloud stamp lookup min_time) l st in
       in_queue st' = [] /\ dropped (in_log st') = []).
    { induction l as [|c l IH]; intros st Hst; [exact Hst|]. apply IH. unfold insertPointcloud. cbv zeta.
      set (acc := min_time <? stamp c - in_last st).
      specialize (D (if acc then in_queue st ++ [c] else in_queue st) (in_calls st)).
      destruct (drain _ _ _) as [[q' n'] a]. cbn [in_queue in_log]. destruct D as [D1 D2]. split; [exact D1|].
      unfold dropped. rewrite flat_map_app. fold (dropped (in_log st)). rewrite (proj2 Hst).
      destruct acc; cbn; exact D2. }
    apply G; split; reflexivity. }
  split; [apply K|]. split; [apply K|].
  destruct (C51_order_once C P stamp lookup min_time cs) as (_ & B). fold s in B.
  rewrite (proj1 K), (proj2 K), !app_nil_r in B. exact B.
Qed.
Print Assumptions C51_available.

(** Thirteen clouds, of which one arrives too soon; no transforms for the first eleven
    lookups: the first cloud is dropped, then all the others go through in order. *)
Example C51_case :
  let cs := [10;20;30;40;50;60;70;80;90;95;100;110;120] in
  let s := insert_all (fun c => c) (fun n c => if (11 <=? Z.of_nat n) then Some c else None) 5 cs in
  integrated (in_log s) = [20;30;40;50;60;70;80;90;100;110;120] /\ dropped (in_log s) = [10] /\
  throttled (in_log s) = [95] /\ in_queue s = [].
Proof. vm_compute. repeat split. Qed.

(** C52. What a successful lookup returns, and what it leaves in the queue. *)
Theorem C52_found : forall (P : Type) tol t (q q' : list (stamped P)) res,
  increasing q -> (forall a b, In a q -> In b q -> fst b - fst a <= 2 ^ 63) ->
  lookupTransformQueue tol t q = Some (res, q') ->
  (exists l, q = l ++ q') /\
  match res with
  | Exact p => In p q /\ Z.abs (fst p - t) < tol /\ hd_error q' = Some p
  | Between a b r =>
      consecutive a b q /\ fst a <= t < fst b /\ tol <= t - fst a /\ tol <= fst b - t /\
      hd_error q' = Some a /\
      (ffin r = true /\ 0 <= FR r <= 1 /\
       Rabs (FR r - IZR (t - fst a) / IZR (fst b - fst a)) <= / 2097152)%R
  end.
Proof.
  intros P tol t q q' res I W H. unfold lookupTransformQueue in H.
  destruct (scan_split tol t q) as (l & r & E & F & M).
  destruct q as [|p0 q0]; [discriminate|]. set (q := p0 :: q0) in *.
  destruct r as [|p r]; [rewrite M in H; discriminate|].
  assert (Hp : In p q) by (rewrite E; apply in_or_app; right; left; reflexivity).
  destruct M as [(T & M)|(T & T' & M)]; rewrite M in H.
  - destruct (Z.ltb_spec (fst p - t) tol) as [Hm|Hm].
    + injection H as <- <-. split; [exists l; exact E|]. repeat split; auto. lia.
    + destruct (rev l) as [|o m] eqn:R; [discriminate|]. injection H as <- <-.
      assert (L : l = rev m ++ [o]) by (rewrite <- (rev_involutive l), R; reflexivity).
      assert (Fo : skipped tol t o).
      { rewrite Forall_forall in F. apply F. rewrite L. apply in_or_app; right; left; reflexivity. }
      destruct Fo as [Fo1 Fo2].
      assert (Eq : q = rev m ++ o :: p :: r) by (rewrite E, L, <- app_assoc; reflexivity).
      split; [exists (rev m); exact Eq|]. split; [exists (rev m), r; exact Eq|].
      split; [lia|]. split; [lia|]. split; [lia|]. split; [reflexivity|].
      replace (fst p - t + (t - fst o)) with (fst p - fst o) by lia.
      assert (Ho : In o q) by (rewrite Eq; apply in_or_app; right; left; reflexivity).
      specialize (W o p Ho Hp). apply ratio_ok; lia.
  - injection H as <- <-. split; [exists l; exact E|]. repeat split; auto. lia.
Qed.
Print Assumptions C52_found.

(** C52. It fails exactly when the time is outside the range of the queue: every pose
    is at least the tolerance after it, or every pose at least the tolerance before. *)
Theorem C52_fails : forall (P : Type) tol t (q : list (stamped P)), increasing q -> 0 < tol ->
  (lookupTransformQueue tol t q = None <->
   (forall p, In p q -> t + tol <= fst p) \/ (forall p, In p q -> fst p + tol <= t)).
Proof.
  intros P tol t q I Ht. unfold lookupTransformQueue.
  destruct (scan_split tol t q) as (l & r & E & F & M).
  destruct q as [|p0 q0]; [split; [intros _; left; intros ? []|reflexivity]|]. set (q := p0 :: q0) in *.
  rewrite Forall_forall in F.
  destruct r as [|p r].
  - rewrite M. rewrite app_nil_r in E. split; [|reflexivity]. intros _. right. intros p Hp.
    rewrite E in Hp. destruct (F _ Hp). lia.
  - assert (Hp : In p q) by (rewrite E; apply in_or_app; right; left; reflexivity).
    rewrite E in I. destruct (increasing_app l (p :: r) I) as (_ & Ir & _).
    destruct M as [(T & M)|(T & T' & M)]; rewrite M.
    + destruct (Z.ltb_spec (fst p - t) tol) as [Hm|Hm].
      * split; [discriminate|]. intros [H|H]; specialize (H _ Hp); lia.
      * destruct (rev l) as [|o m] eqn:R.
        -- split; [|reflexivity]. intros _. left. intros b Hb.
           assert (L : l = []) by (rewrite <- (rev_involutive l), R; reflexivity).
           rewrite E, L in Hb. destruct Hb as [->|Hb]; [lia|].
           destruct (increasing_app [p] r Ir) as (_ & _ & X).
           specialize (X p b (or_introl eq_refl) Hb). lia.
        -- split; [discriminate|].
           assert (Ho : In o l) by (apply in_rev; rewrite R; left; reflexivity).
           assert (Ho' : In o q) by (rewrite E; apply in_or_app; left; exact Ho).
           destruct (F _ Ho). intros [H1|H1]; [specialize (H1 _ Ho')|specialize (H1 _ Hp)]; lia.
    + split; [discriminate|]. intros [H|H]; specialize (H _ Hp); lia.
Qed.
Print Assumptions C52_fails.

(** C52. Dropping the older poses loses nothing for later times: a lookup at a time
    not before the last one answers as if nothing had been dropped. *)
Theorem C52_forward : forall (P : Type) tol t t' (q q' : list (stamped P)) res,
  increasing q -> lookupTransformQueue tol t q = Some (res, q') -> t <= t' ->
  lookupTransformQueue tol t' q' = lookupTransformQueue tol t' q.
Proof.
  intros P tol t t' q q' res I H Le.
  destruct (scan_split tol t q) as (l & r & E & F & M).
  assert (K : exists l' h r', q = l' ++ h :: r' /\ q' = h :: r' /\ Forall (skipped tol t') l' /\
              (fst h <= t' \/ fst h - t' < tol)).
  { assert (F' : Forall (skipped tol t') l)
      by (eapply Forall_impl; [|exact F]; intros p [A B]; split; lia).
    unfold lookupTransformQueue in H. destruct q as [|p0 q0]; [discriminate|]. set (q := p0 :: q0) in *.
    destruct r as [|p r]; [rewrite M in H; discriminate|].
    destruct M as [(T & M)|(T & T' & M)]; rewrite M in H.
    - destruct (Z.ltb_spec (fst p - t) tol) as [Hm|Hm].
      + injection H as <- <-. exists l, p, r. repeat split; auto. right; lia.
      + destruct (rev l) as [|o m] eqn:R; [discriminate|]. injection H as <- <-.
        assert (L : l = rev m ++ [o]) by (rewrite <- (rev_involutive l), R; reflexivity).
        exists (rev m), o, (p :: r). rewrite L in F'. apply Forall_app in F'. destruct F' as [Fm Fo].
        inversion Fo as [|? ? [Fo1 Fo2] _]; subst. repeat split; auto. rewrite E, <- app_assoc; reflexivity.
    - injection H as <- <-. exists l, p, r. repeat split; auto. left; lia. }
  destruct K as (l' & h & r' & -> & -> & Fl & Hh).
  unfold lookupTransformQueue.
  assert (X : forall x : option (found P * list (stamped P)), (match l' ++ h :: r' with [] => None | _ :: _ => x end) = x)
    by (intros; destruct l'; reflexivity).
  rewrite X. rewrite scan_app by exact Fl. rewrite app_nil_r. clear X.
  cbn [scan]. destruct (Z.ltb_spec t' (fst h)) as [A|A].
  - destruct (Z.ltb_spec (fst h - t') tol) as [B|B]; [reflexivity|lia].
  - destruct (Z.ltb_spec (t' - fst h) tol) as [B|B]; [reflexivity|].
    assert (Y : forall passed, exists m rest ok, scan tol t' (h :: passed) r' = (m ++ h :: passed, rest, ok) /\
                scan tol t' [h] r' = (m ++ [h], rest, ok)).
    { clear. intros passed.
      assert (G : forall k, exists m rest ok, scan tol t' (k ++ h :: passed) r' = (m ++ h :: passed, rest, ok) /\
                scan tol t' (k ++ [h]) r' = (m ++ [h], rest, ok)).
      { induction r' as [|p r IH]; intros k; cbn [scan]; [exists k, [], false; auto|].
        destruct (t' <? fst p); [do 3 eexists; split; reflexivity|].
        destruct (t' - fst p <? tol); [do 3 eexists; split; reflexivity|]. apply (IH (p :: k)). }
      apply (G []). }
    destruct (Y (rev l')) as (m & rest & ok & Y1 & Y2). rewrite Y1, Y2.
    destruct rest as [|p rest]; [reflexivity|]. destruct ok; [reflexivity|].
    destruct m; reflexivity.
Qed.
Print Assumptions C52_forward.

(** Poses at 0, 10, 20, 30 with tolerance 2: a time within the tolerance, one in
    between (interpolated half way), and one past the end. *)
Example C52_case : let q := [(0, 0%nat); (10, 1%nat); (20, 2%nat); (30, 3%nat)] in
  increasing q /\
  lookupTransformQueue 2 11 q = Some (Exact (10, 1%nat), skipn 1 q) /\
  (match lookupTransformQueue 2 15 q with
   | Some (Between (10, 1%nat) (20, 2%nat) r, q') => (fword r =? 0x3f000000) && (Nat.eqb (length q') 3)
   | _ => false end) = true /\
  lookupTransformQueue 2 40 q = None.
Proof. vm_compute. repeat split. Qed.

(** It is the first pose within the tolerance that is returned, not the nearest one:
    with tolerance 5 a time stamped exactly in the queue gets an earlier pose. *)
Theorem C52_nearest_refuted : ~ (forall (q : list (stamped nat)) tol t p q',
  increasing q -> lookupTransformQueue tol t q = Some (Exact p, q') ->
  forall p', In p' q -> Z.abs (fst p - t) <= Z.abs (fst p' - t)).
Proof.
  intros H. specialize (H [(0, 0%nat); (4, 1%nat)] 5 4 (0, 0%nat) [(0, 0%nat); (4, 1%nat)]).
  assert (A : Z.abs (0 - 4) <= Z.abs (4 - 4)); [|lia].
  apply (H ltac:(vm_compute; auto) eq_refl (4, 1%nat)). right; left; reflexivity.
Qed.
Print Assumptions C52_nearest_refuted.
