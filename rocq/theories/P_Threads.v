(** Properties C19, C20 and C21: work distribution and allocation under every
    thread schedule. *)
From Coq Require Import ZArith List Bool Permutation Lia Reals Lra.
From Verif Require Import F32 F32_lemmas Types Index Assoc Assoc_lemmas Layer Threads Threads_proofs Alloc_proofs.
Import ListNotations.
Open Scope Z_scope.

(** ** specification *)
(** what [std::sort] with comparison [a.second < b.second] guarantees *)
Definition std_sort (l l' : list (Z * f64)) : Prop :=
  Permutation l l' /\
  forall i j a b, (i < j)%nat -> nth_error l' i = Some a -> nth_error l' j = Some b ->
    dlt (snd b) (snd a) = false.
(** the two orders of [ThreadSafeIndexFactory::get] for a cloud *)
Inductive getter (pts : list pt3) : (Z -> Z) -> Prop :=
| GMixed : getter pts (mixed_impl (Z.of_nat (length pts)))
| GSorted : forall arr, std_sort (with_norms 0 pts) arr -> getter pts (sorted_impl arr).
(** all indices of the cloud *)
Definition all_indices (pts : list pt3) : list Z := map Z.of_nat (seq 0 (length pts)).
Definition given (st : istate) : list Z := map snd (i_taken st).
Definition told_exhausted (st : istate) (t : nat) : Prop := nth_error (i_threads st) t = Some TDone.

Lemma getter_inj : forall pts impl, getter pts impl -> inj_on (Z.of_nat (length pts)) impl.
Proof.
  intros pts impl [|arr (HP & _)]; [apply mixed_inj_on | apply sorted_inj_on; exact HP].
Qed.
Lemma all_indices_zseq : forall pts, all_indices pts = zseq (Z.of_nat (length pts)).
Proof. intros; unfold all_indices, zseq; rewrite Nat2Z.id; reflexivity. Qed.

(** C19: at any moment of any execution no index has been given twice *)
Theorem C19_never_twice : forall pts impl T sched, getter pts impl ->
  Z.of_nat (length pts) + Z.of_nat T < 2 ^ 64 ->
  let st := irun impl (Z.of_nat (length pts)) sched (iinit T) in
  NoDup (given st) /\ forall i, In i (given st) -> 0 <= i < Z.of_nat (length pts).
Proof.
  intros pts impl T sched HG HB st.
  destruct (taken_safe impl (Z.of_nat (length pts)) T (Nat2Z.is_nonneg _) (getter_inj _ _ HG) st) as (H1 & H2 & _).
  { apply inv_run; [lia | exact HB | apply inv_init]. }
  split; [exact H1|]; intros i Hi; apply in_map_iff in Hi; destruct Hi as ((t & i') & <- & Hi); eapply H2, Hi.
Qed.
Print Assumptions C19_never_twice.

(** C19: when every thread has been told the cloud is exhausted, the indices given
    out are all indices of the cloud, each exactly once *)
Theorem C19_every_index_once : forall pts impl T sched, getter pts impl ->
  Z.of_nat (length pts) + Z.of_nat T < 2 ^ 64 -> (0 < T)%nat ->
  let st := irun impl (Z.of_nat (length pts)) sched (iinit T) in
  (forall t, (t < T)%nat -> told_exhausted st t) ->
  Permutation (given st) (all_indices pts).
Proof.
  intros pts impl T sched HG HB H0 st HD; rewrite all_indices_zseq.
  assert (HI : inv impl (Z.of_nat (length pts)) T st)
    by (apply inv_run; [lia | exact HB | apply inv_init]).
  apply (all_done impl (Z.of_nat (length pts)) T (Nat2Z.is_nonneg _) HB (getter_inj _ _ HG) st HI H0).
  apply Forall_forall; intros x Hx; apply In_nth_error in Hx; destruct Hx as (t & Et).
  assert (Ht : (t < T)%nat) by (rewrite <- (v_threads _ _ _ _ HI); apply nth_error_Some; congruence).
  specialize (HD t Ht); unfold told_exhausted in HD; congruence.
Qed.
Print Assumptions C19_every_index_once.

(** C19: a thread that keeps asking is told so, whatever the other threads do:
    after at most [2n+2] of its own steps *)
Theorem C19_exhaustion_reported : forall pts impl T sched t, getter pts impl ->
  Z.of_nat (length pts) + Z.of_nat T < 2 ^ 64 -> (t < T)%nat ->
  (2 * length pts + 2 <= count_occ Nat.eq_dec sched t)%nat ->
  told_exhausted (irun impl (Z.of_nat (length pts)) sched (iinit T)) t.
Proof.
  intros pts impl T sched t HG HB Ht HC; apply eventually_done; [lia | exact HB | apply getter_inj, HG | exact Ht|].
  rewrite Nat2Z.id; exact HC.
Qed.
Print Assumptions C19_exhaustion_reported.

(** C19: the orders themselves (one thread receives them in sequence) *)
Theorem C19_orders_are_permutations : forall pts impl, getter pts impl ->
  Permutation (map impl (all_indices pts)) (all_indices pts).
Proof.
  intros pts impl HG; rewrite all_indices_zseq; apply inj_on_perm, getter_inj, HG.
Qed.
Print Assumptions C19_orders_are_permutations.

Theorem C19_sorted_by_norm : forall pts arr s s' p p', std_sort (with_norms 0 pts) arr ->
  0 <= s < s' -> s' < Z.of_nat (length pts) ->
  nth_error pts (Z.to_nat (sorted_impl arr s)) = Some p ->
  nth_error pts (Z.to_nat (sorted_impl arr s')) = Some p' ->
  dlt (f64_of_f32 (sqnorm p')) (f64_of_f32 (sqnorm p)) = false.
Proof.
  intros pts arr s s' p p' (HP & HS) Hs Hs' Ep Ep'.
  assert (HL : length arr = length pts) by (rewrite <- (Permutation_length HP), with_norms_length; reflexivity).
  assert (G : forall x q, 0 <= x < Z.of_nat (length pts) -> nth_error pts (Z.to_nat (sorted_impl arr x)) = Some q ->
    exists a, nth_error arr (Z.to_nat x) = Some a /\ snd a = f64_of_f32 (sqnorm q)).
  { intros x q Hx Eq; unfold sorted_impl in Eq.
    destruct (nth_error arr (Z.to_nat x)) as [a|] eqn:Ea; [|apply nth_error_None in Ea; lia].
    exists a; split; [reflexivity|].
    pose proof (nth_error_In _ _ Ea) as Hin; apply (Permutation_in _ (Permutation_sym HP)) in Hin.
    apply In_nth_error in Hin; destruct Hin as (k & Ek); rewrite with_norms_nth in Ek.
    destruct (nth_error pts k) as [q'|] eqn:Eq'; [|discriminate]; cbn [option_map] in Ek.
    assert (E1 : Z.to_nat (fst a) = k) by (injection Ek; intros <-; cbn [fst]; lia).
    assert (E2 : snd a = f64_of_f32 (sqnorm q')) by (injection Ek; intros <-; reflexivity).
    rewrite E1, Eq' in Eq; injection Eq as ->; exact E2. }
  destruct (G s p ltac:(lia) Ep) as (a & Ea & <-), (G s' p' ltac:(lia) Ep') as (b & Eb & <-).
  apply (HS (Z.to_nat s) (Z.to_nat s')); [lia | exact Ea | exact Eb].
Qed.
Print Assumptions C19_sorted_by_norm.

Definition ex_pts : list pt3 := [V3 (f32_of_Z 3) f0 f0; V3 f1 f0 f0; V3 f0 (f32_of_Z 2) f0].
Definition ex_arr : list (Z * f64) :=
  match with_norms 0 ex_pts with [a; b; c] => [b; c; a] | l => l end.
Lemma ex_sorted : std_sort (with_norms 0 ex_pts) ex_arr.
Proof.
  split.
  - unfold ex_arr; cbn [ex_pts with_norms].
    apply (Permutation_cons_app [_; _] []); reflexivity.
  - intros i j a b Hij; unfold ex_arr, ex_pts; cbn [with_norms].
    destruct i as [|[|[|i]]], j as [|[|[|j]]]; cbn [nth_error]; try lia;
      try (intros E; (discriminate || (intros E'; discriminate)));
      try (intros E E'; injection E as <-; injection E' as <-; vm_compute; reflexivity);
      intros E E'; destruct j; discriminate.
Qed.
(** three threads, sorted order: indices 1, 2, 0 go to threads 2, 0, 1 *)
Example C19_example :
  getter ex_pts (sorted_impl ex_arr) /\
  let st := irun (sorted_impl ex_arr) 3 [2; 0; 1; 1; 0; 2; 0; 0; 1; 1; 2; 2]%nat (iinit 3) in
  i_taken st = [(1%nat, 0); (0%nat, 2); (2%nat, 1)] /\ forall t, (t < 3)%nat -> told_exhausted st t.
Proof.
  split; [apply GSorted, ex_sorted|]; cbv zeta; split; [vm_compute; reflexivity|].
  intros t Ht; unfold told_exhausted; destruct t as [|[|[|t]]]; [vm_compute; reflexivity..|lia].
Qed.
(** the mixed order on 2050 points interleaves two groups of 1024 *)
Example C19_mixed_example :
  map (mixed_impl 2050) [0; 1; 2; 3; 2047; 2048; 2049] = [0; 1024; 1; 1025; 2047; 2048; 2049].
Proof. vm_compute; reflexivity. Qed.

(** ** C20 *)
(** how often index [i] occurs in a bundle map *)
Definition occurrences (i : Z) (m : bundle_map) : nat := count_occ Z.eq_dec (concat (map snd m)) i.

Theorem C20_bundles : forall pts impl valid vox vm cm, getter pts impl ->
  bundleRays valid vox (map impl (all_indices pts)) ([], []) = Some (vm, cm) ->
  NoDup (akeys vm) /\ NoDup (akeys cm) /\
  (forall v l, In (v, l) vm \/ In (v, l) cm -> l <> [] /\ forall i, In i l -> vox i = Some v) /\
  (forall i, 0 <= i < Z.of_nat (length pts) ->
     match valid i with
     | Invalid => occurrences i vm = 0%nat /\ occurrences i cm = 0%nat
     | Surface => occurrences i vm = 1%nat /\ occurrences i cm = 0%nat
     | Clearing => occurrences i vm = 0%nat /\ occurrences i cm = 1%nat
     end) /\
  (forall v l i, In (v, l) vm \/ In (v, l) cm -> In i l -> 0 <= i < Z.of_nat (length pts)).
Proof.
  intros pts impl valid vox vm cm HG HB.
  destruct (bundleRays_spec _ _ _ _ _ _ _ HB) as (P1 & P2 & K1 & K2).
  assert (K0 : keyed vox []) by (split; [constructor | intros; discriminate]).
  destruct (K1 K0) as (N1 & L1), (K2 K0) as (N2 & L2).
  pose proof (C19_orders_are_permutations _ _ HG) as HP.
  unfold members in P1, P2; cbn [map concat] in P1, P2; rewrite app_nil_r in P1, P2.
  split; [exact N1|]; split; [exact N2|]; split.
  { intros v l [H|H]; [apply L1|apply L2]; apply alookup_NoDup; assumption. }
  assert (CO : forall P i, 0 <= i < Z.of_nat (length pts) ->
    count_occ Z.eq_dec (filter P (map impl (all_indices pts))) i = if P i then 1%nat else 0%nat).
  { intros P i Hi.
    assert (HNd : NoDup (map impl (all_indices pts)))
      by (apply (Permutation_NoDup (Permutation_sym HP)); rewrite all_indices_zseq; apply NoDup_zseq).
    assert (Hin : In i (map impl (all_indices pts)))
      by (apply (Permutation_in _ (Permutation_sym HP)); rewrite all_indices_zseq; apply zseq_In; exact Hi).
    destruct (P i) eqn:EP.
    - apply NoDup_count_occ'; [apply NoDup_filter, HNd | apply filter_In; auto].
    - apply count_occ_not_In; rewrite filter_In; intros (_ & E); congruence. }
  assert (CP : forall l l' i, Permutation l l' -> count_occ Z.eq_dec l i = count_occ Z.eq_dec l' i)
    by (intros l l' i H; apply (proj1 (Permutation_count_occ Z.eq_dec _ _) H)).
  split.
  - intros i Hi; unfold occurrences; rewrite !(CP _ _ _ P1), !(CP _ _ _ P2), !(CO _ _ Hi).
    unfold surface, clearing; destruct (valid i); split; reflexivity.
  - intros v l i H Hi; apply zseq_In; rewrite <- all_indices_zseq; apply (Permutation_in _ HP).
    destruct H as [H|H].
    + assert (In i (concat (map snd vm))) as X
        by (apply in_concat; exists l; split; [apply in_map_iff; exists (v, l); split; [reflexivity|exact H] | exact Hi]).
      apply (Permutation_in _ P1), filter_In in X; apply X.
    + assert (In i (concat (map snd cm))) as X
        by (apply in_concat; exists l; split; [apply in_map_iff; exists (v, l); split; [reflexivity|exact H] | exact Hi]).
      apply (Permutation_in _ P2), filter_In in X; apply X.
Qed.
Print Assumptions C20_bundles.

(** the bundling fails only when a valid point has no voxel index *)
Theorem C20_defined : forall pts impl valid vox, getter pts impl ->
  (forall i, 0 <= i < Z.of_nat (length pts) -> valid i <> Invalid -> vox i <> None) ->
  bundleRays valid vox (map impl (all_indices pts)) ([], []) <> None.
Proof.
  intros pts impl valid vox HG H; apply bundleRays_defined; intros i Hi; apply H.
  apply zseq_In; rewrite <- all_indices_zseq; apply (Permutation_in _ (C19_orders_are_permutations _ _ HG)), Hi.
Qed.
Print Assumptions C20_defined.

(** each bundle is integrated by exactly one thread, once *)
Theorem C20_one_thread : forall (threads : Z) (m : bundle_map) k v l, 0 < threads ->
  Z.of_nat (length m) + threads < 2 ^ 64 -> nth_error m k = Some (v, l) ->
  (exists! t, 0 <= t < threads /\ In k (thread_share threads t (length m))) /\
  forall t, NoDup (thread_share threads t (length m)).
Proof.
  intros threads m k v l HT HB Hk; split.
  - apply share_unique; [exact HT | apply nth_error_Some; congruence | exact HB].
  - intros; apply share_once.
Qed.
Print Assumptions C20_one_thread.

Example C20_example :
  let valid i := match i with 0 => Surface | 1 => Invalid | 2 => Clearing | _ => Surface end in
  let vox i := Some (V3 (i / 2) 0 0) in
  bundleRays valid vox (map (mixed_impl 5) [0; 1; 2; 3; 4]) ([], []) =
    Some ([(V3 0 0 0, [0]); (V3 1 0 0, [3]); (V3 2 0 0, [4])], [(V3 1 0 0, [2])]) /\
  map (fun t => thread_share 2 t 3) [0; 1] = [[1%nat]; [0%nat; 2%nat]].
Proof. split; reflexivity. Qed.

(** which points are valid, in terms of their distance to the sensor: never nearer
    than the minimum, beyond the maximum only to clear *)
Theorem C20_validity : forall min_len max_len ac fs d,
  ffin min_len = true -> ffin max_len = true -> ffin d = true ->
  let v := isPointValid min_len max_len ac fs d in
  (v = Invalid <-> (FR d < FR min_len \/ FR max_len < FR d /\ ac = false /\ fs = false)%R) /\
  (v = Surface <-> (FR min_len <= FR d <= FR max_len)%R /\ fs = false).
Proof.
  intros min_len max_len ac fs d H1 H2 H3 v; subst v; unfold isPointValid, fgt.
  pose proof (flt_R d min_len H3 H1) as A; pose proof (flt_R max_len d H2 H3) as B.
  destruct (flt d min_len), (flt max_len d);
    repeat match goal with H : true = true <-> ?P |- _ => assert P by (apply H; reflexivity); clear H end;
    repeat match goal with H : false = true <-> ?P |- _ => assert (~ P) by (rewrite <- H; discriminate); clear H end;
    destruct ac, fs; cbn [orb]; split; split; try discriminate; try (intros; reflexivity); intros X;
    repeat split; try lra; try tauto; try (exfalso; lra);
    destruct X as [X|X]; try lra; destruct X; intuition (discriminate || lra).
Qed.
Print Assumptions C20_validity.

(** ** C21 *)
(** [returned st t g p]: thread [t] asked for voxel [g] and was given block [p] *)
Definition returned (st : astate) (t : nat) (g : idx3) (p : nat) : Prop := In (t, g, p) (a_log st).
(** the layer is a map whose blocks exist and are distinct *)
Definition layer_ok (m : bmap) (fresh : nat) : Prop :=
  (forall b p, alookup b m = Some p -> (p < fresh)%nat) /\
  (forall b b' p, alookup b m = Some p -> alookup b' m = Some p -> b = b').

Section C21.
  Variables (vi : f32) (forget : bool) (m : bmap) (fresh : nat) (reqs : list (list idx3)) (sched : list nat).
  Hypothesis Hm : layer_ok m fresh.
  Let st := arun vi forget sched (ainit m fresh reqs).
  Lemma st_inv : ainv vi m fresh reqs st.
  Proof. apply reach_inv. Qed.

  (** same voxel, same block, for any two requests at any two moments *)
  Theorem C21_same_block : forall t t' g g' p p', returned st t g p -> returned st t' g' p' ->
    (block_of vi g = block_of vi g' <-> p = p').
  Proof.
    intros t t' g g' p p' H H'; pose proof st_inv as HI.
    destruct (y_log _ _ _ _ _ HI _ _ _ H) as (b & Eb & Er), (y_log _ _ _ _ _ HI _ _ _ H') as (b' & Eb' & Er').
    rewrite Eb, Eb'; split; [congruence|]; intros <-; f_equal.
    unfold resolve in Er, Er'; rewrite (y_layer _ _ _ _ _ HI) in Er, Er'.
    assert (HT : forall b q, alookup b (a_temp st) = Some q -> (fresh <= q)%nat).
    { intros b0 q Eq; apply alookup_In, (in_map snd) in Eq; cbn [snd] in Eq.
      rewrite <- (y_made _ _ _ _ _ HI), (y_made_seq _ _ _ _ _ HI) in Eq; apply in_seq in Eq; lia. }
    destruct Hm as (Hlt & Hinj).
    destruct (alookup b m) as [q|] eqn:E1; destruct (alookup b' m) as [q'|] eqn:E2.
    - eapply Hinj; [rewrite E1; exact Er | rewrite E2; exact Er'].
    - apply HT in Er'; injection Er as ->; apply Hlt in E1; lia.
    - apply HT in Er; injection Er' as ->; apply Hlt in E2; lia.
    - assert (HN : NoDup (map snd (a_temp st)))
        by (rewrite <- (y_made _ _ _ _ _ HI), (y_made_seq _ _ _ _ _ HI); apply seq_NoDup).
      apply alookup_In in Er; apply alookup_In in Er'.
      clear -HN Er Er'; induction (a_temp st) as [|(k, q) l IH]; [destruct Er|].
      cbn [map snd] in HN; inversion HN as [|? ? Hq HN']; subst.
      destruct Er as [E|Er], Er' as [E'|Er'].
      + congruence.
      + injection E as -> ->; exfalso; apply Hq; apply in_map_iff; exists (b', p); auto.
      + injection E' as -> ->; exfalso; apply Hq; apply in_map_iff; exists (b, p); auto.
      + apply IH; assumption.
  Qed.
  (** a block the layer already has is used and never replaced *)
  Theorem C21_existing_used : forall t g p b q, returned st t g p -> block_of vi g = Some b ->
    alookup b m = Some q -> p = q.
  Proof.
    intros t g p b q H Hb Hq; pose proof st_inv as HI.
    destruct (y_log _ _ _ _ _ HI _ _ _ H) as (b' & Eb & Er).
    assert (b' = b) by congruence; subst b'.
    unfold resolve in Er; rewrite (y_layer _ _ _ _ _ HI), Hq in Er; congruence.
  Qed.
  (** blocks are created only for requested indices the layer lacks, one each *)
  Theorem C21_one_block_per_index :
    NoDup (akeys (a_temp st)) /\ a_made st = map snd (a_temp st) /\ NoDup (a_made st) /\
    (forall b, In b (akeys (a_temp st)) -> alookup b m = None /\
       exists g r, In r reqs /\ In g r /\ block_of vi g = Some b).
  Proof.
    pose proof st_inv as HI; split; [apply HI|]; split; [apply HI|]; split.
    - rewrite (y_made_seq _ _ _ _ _ HI); apply seq_NoDup.
    - intros b Hb; split; [apply (y_disj _ _ _ _ _ HI _ Hb) | apply (y_temp _ _ _ _ _ HI _ Hb)].
  Qed.
  (** after [updateLayerWithStoredBlocks] *)
  Theorem C21_final_layer : finished st ->
    let m' := a_layer (updateLayerWithStoredBlocks st) in
    (forall b p, alookup b m = Some p -> alookup b m' = Some p) /\
    (forall r g, In r reqs -> In g r -> exists t p b, returned st t g p /\ block_of vi g = Some b /\ alookup b m' = Some p) /\
    (forall b p, alookup b m' = Some p -> alookup b m = Some p \/
       exists r g, In r reqs /\ In g r /\ block_of vi g = Some b) /\
    a_temp (updateLayerWithStoredBlocks st) = [].
  Proof.
    intros Hf m'; pose proof st_inv as HI.
    assert (EF : forall b, alookup b m' = match alookup b m with Some p => Some p | None => alookup b (a_temp st) end).
    { intros b; subst m'; rewrite (final_layer vi m fresh reqs st b HI); unfold resolve.
      rewrite (y_layer _ _ _ _ _ HI); reflexivity. }
    split; [intros b p E; rewrite EF, E; reflexivity|]; split; [|split; [|reflexivity]].
    - intros r g Hr Hg; apply In_nth_error in Hr; destruct Hr as (t & Et).
      assert (Hl : (t < length (a_threads st))%nat)
        by (rewrite (y_len _ _ _ _ _ HI); apply nth_error_Some; congruence).
      apply nth_error_Some in Hl; destruct (nth_error (a_threads st) t) as [th|] eqn:Eth; [|congruence].
      destruct (y_th _ _ _ _ _ HI t th Eth) as (_ & _ & _ & (r' & Er & Es)).
      rewrite (Hf t th Eth), app_nil_r in Es; assert (Hrr : r' = r) by congruence; rewrite Hrr in Es; clear Hrr.
      rewrite <- Es in Hg; unfold served in Hg; apply in_map_iff in Hg.
      destruct Hg as (((t0 & g0) & p) & Eg & Hin); cbn [fst snd] in Eg; subst g0.
      apply filter_In in Hin; destruct Hin as (Hin & _).
      destruct (y_log _ _ _ _ _ HI _ _ _ Hin) as (b & Eb & Ep).
      exists t0, p, b; split; [exact Hin|]; split; [exact Eb|].
      rewrite EF; unfold resolve in Ep; rewrite (y_layer _ _ _ _ _ HI) in Ep; exact Ep.
    - intros b p; rewrite EF; destruct (alookup b m) eqn:E; [intros H; left; exact H|].
      intros Ep; right.
      destruct (y_temp _ _ _ _ _ HI b) as (g & r & ?); [|exists r, g; tauto].
      apply akeys_In; exists p; exact Ep.
  Qed.
End C21.
Print Assumptions C21_same_block.
Print Assumptions C21_existing_used.
Print Assumptions C21_one_block_per_index.
Print Assumptions C21_final_layer.

(** no deadlock: any execution can be continued until every request is served *)
Theorem C21_no_deadlock : forall vi forget m fresh reqs,
  (forall r g, In r reqs -> In g r -> block_of vi g <> None) ->
  forall sched, exists rest, finished (arun vi forget (sched ++ rest) (ainit m fresh reqs)).
Proof. exact can_finish. Qed.
Print Assumptions C21_no_deadlock.

(** two threads ask for voxels of the same missing block and of an existing one;
    thread 1 waits for the mutex while thread 0 is inside *)
Example C21_example :
  let vi := vps_inv_common 16 in
  let m := [(V3 0 0 0, 7%nat)] in
  let reqs := [[V3 16 0 0; V3 3 0 0]; [V3 17 0 0; V3 16 1 1]] in
  layer_ok m 8 /\
  let st := arun vi false [0; 0; 1; 1; 0; 1; 0; 0; 1; 1; 1; 1; 0]%nat (ainit m 8 reqs) in
  a_log st = [(0%nat, V3 16 0 0, 8%nat); (1%nat, V3 17 0 0, 8%nat); (1%nat, V3 16 1 1, 8%nat); (0%nat, V3 3 0 0, 7%nat)] /\
  a_layer (updateLayerWithStoredBlocks st) = [(V3 0 0 0, 7%nat); (V3 1 0 0, 8%nat)].
Proof.
  cbv zeta; split; [|split; vm_compute; reflexivity].
  split; intros b.
  - intros p; cbn [alookup]; destruct (idx_eqb b _); [|discriminate]; intros E; injection E as <-; repeat constructor.
  - intros b' p; cbn [alookup]; destruct (idx_eqb_spec b (V3 0 0 0)), (idx_eqb_spec b' (V3 0 0 0)); congruence.
Qed.
