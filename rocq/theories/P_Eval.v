(** Evaluating a layer against ground truth (C45). *)
From Coq Require Import ZArith List Bool Reals Lra Lia.
From Flocq Require Import Core.
From Verif Require Import F32 F32_lemmas F32_err Types Index Voxel Assoc Assoc_lemmas Layer Planning Interp Eval LayerUtils_spec LayerUtils_proofs Eval_spec Eval_proofs P_Sphere.
Import ListNotations.
Open Scope Z_scope.

(** Two layers of the same geometry, and an error layer or none. *)
Definition comparable {k} (gt test : Layer k) (el : option (Layer k)) : Prop :=
  regular gt /\ regular test /\ l_vps gt = l_vps test /\
  forall l, el = Some l -> regular l /\ l_vps l = l_vps test.

Lemma spec_of : forall k (gt test : Layer k) m el, comparable gt test el ->
  exists d t d' el', tally m (pairs gt test) (only_in test gt ++ only_in gt test) t d /\
    evaluateLayersRmse gt test m el = Ok (d', el') /\ err_state m gt test (l_blocks test) el el' /\
    ed_max d' = ed_max d /\ ed_min d' = ed_min d /\ ed_evaluated d' = ed_evaluated d /\ ed_ignored d' = ed_ignored d /\
    ed_overlapping d' = ed_overlapping d /\ ed_non_overlapping d' = ed_non_overlapping d /\
    ed_rmse d' = if ed_evaluated d =? 0 then f0 else f32_of_f64 (dsqrt (ddiv t (f64_of_Z (ed_evaluated d)))).
Proof.
  intros k gt test m el (RG & RT & V & RE). destruct (evaluate_spec m gt test RG RT V el RE) as (d & t & el' & T & E & X).
  exists d, t. eexists. exists el'. split; [exact T|]. split; [exact E|]. split; [exact X|]. cbn [ed_max ed_min ed_evaluated ed_ignored ed_overlapping ed_non_overlapping ed_rmse].
  repeat (split; [reflexivity|]). reflexivity.
Qed.
Lemma filter_split : forall A (f g : A -> bool) xs,
  count (fun x => f x && negb (g x)) xs + count (fun x => f x && g x) xs = count f xs.
Proof.
  intros A f g xs. unfold count. induction xs as [|x xs IH]; [reflexivity|]. cbn [filter].
  destruct (f x), (g x); cbn [andb negb length]; lia.
Qed.

(** The evaluation never fails, and counts: evaluated and ignored voxels among the
    voxels both layers observed, which are the overlapping ones. *)
Theorem C45_counts : forall k (gt test : Layer k) m el, comparable gt test el ->
  exists d el', evaluateLayersRmse gt test m el = Ok (d, el') /\
    ed_overlapping d = count both_observed (pairs gt test) /\
    ed_evaluated d = count (fun p => both_observed p && negb (excluded m p)) (pairs gt test) /\
    ed_ignored d = count (fun p => both_observed p && excluded m p) (pairs gt test) /\
    ed_evaluated d + ed_ignored d = ed_overlapping d.
Proof.
  intros k gt test m el H. destruct (spec_of k gt test m el H) as (d0' & t & d & el' & [A1 A2 A3 A4 A5 A6 A7 A8] & E & _ & _ & _ & B1 & B2 & B3 & _).
  exists d, el'. split; [exact E|]. rewrite B1, B2, B3, A5, A6, A7. split; [reflexivity|]. split; [reflexivity|]. split; [reflexivity|]. apply filter_split.
Qed.
Print Assumptions C45_counts.
(** What is counted as non-overlapping: the observed voxels of blocks the other
    layer lacks, and in the common blocks every voxel not observed in both layers. *)
Theorem C45_non_overlapping : forall k (gt test : Layer k) m el d el', comparable gt test el ->
  evaluateLayersRmse gt test m el = Ok (d, el') ->
  ed_non_overlapping d = count (fun p => negb (both_observed p)) (pairs gt test) +
                         count (isObservedVoxel k) (only_in test gt) + count (isObservedVoxel k) (only_in gt test).
Proof.
  intros k gt test m el d el' H E. destruct (spec_of k gt test m el H) as (d1 & t & d2 & el2 & [A1 A2 A3 A4 A5 A6 A7 A8] & E' & _ & _ & _ & _ & _ & _ & B4 & _).
  rewrite E in E'. injection E' as -> ->. rewrite B4, A8. unfold count. rewrite filter_app, app_length. lia.
Qed.
Print Assumptions C45_non_overlapping.
(** The maximum error is the largest magnitude among the evaluated errors. *)
Theorem C45_max : forall k (gt test : Layer k) m el d el', comparable gt test el ->
  evaluateLayersRmse gt test m el = Ok (d, el') -> Forall (fun e => ffin e = true) (errors m gt test) ->
  ffin (ed_max d) = true /\ Forall (fun e => Rabs (FR e) <= FR (ed_max d))%R (errors m gt test) /\
  (errors m gt test <> [] -> exists e, In e (errors m gt test) /\ FR (ed_max d) = Rabs (FR e)) /\
  (errors m gt test = [] -> ed_max d = f0).
Proof.
  intros k gt test m el d el' H E F. destruct (spec_of k gt test m el H) as (d1 & t & d2 & el2 & [A1 A2 A3 A4 A5 A6 A7 A8] & E' & _ & B0 & _).
  rewrite E in E'. injection E' as -> ->. rewrite B0, A3. change (errs m (pairs gt test)) with (errors m gt test).
  destruct (fold_maxerr (errors m gt test) f0 eq_refl F) as (F1 & O & L & A). split; [exact F1|]. split; [exact A|]. split.
  - intros NE. destruct O as [O | (e & I & ->)]; [|exists e; split; [exact I|apply fabs_R]].
    destruct (errors m gt test) as [|e es] eqn:Q; [congruence|]. exists e. split; [now left|].
    apply Forall_inv in A. rewrite O in *. pose proof (Rabs_pos (FR e)). change (FR f0) with 0%R in *. lra.
  - intros ->. reflexivity.
Qed.
Print Assumptions C45_max.
(** The RMSE is the root of the mean of the squared errors up to rounding, and so
    lies between the smallest and the largest magnitude up to rounding. *)
Theorem C45_rmse : forall k (gt test : Layer k) m el d el', comparable gt test el ->
  evaluateLayersRmse gt test m el = Ok (d, el') -> errors_ok (errors m gt test) ->
  errors m gt test <> [] -> Z.of_nat (length (errors m gt test)) <= 2 ^ 29 ->
  ffin (ed_rmse d) = true /\
  (Rabs (FR (ed_rmse d) - exact_rms (errors m gt test)) <= / 1048576 * exact_rms (errors m gt test) + bpow radix2 (-70))%R /\
  forall lo hi, (0 <= lo)%R -> Forall (fun e => lo <= Rabs (FR e) <= hi)%R (errors m gt test) ->
    (lo * (1 - / 1048576) - bpow radix2 (-70) <= FR (ed_rmse d) <= hi * (1 + / 1048576) + bpow radix2 (-70))%R.
Proof.
  intros k gt test m el d el' H E EO NE L. destruct (spec_of k gt test m el H) as (d1 & t & d2 & el2 & [A1 A2 A3 A4 A5 A6 A7 A8] & E' & _ & _ & _ & _ & _ & _ & _ & B).
  rewrite E in E'. injection E' as -> ->. change (errs m (pairs gt test)) with (errors m gt test) in *.
  assert (Q : ed_evaluated d1 = Z.of_nat (length (errors m gt test))) by (rewrite A5; unfold errors; rewrite map_length; reflexivity).
  destruct (rms_err _ EO NE L) as (F & X). rewrite B, Q, A2.
  replace (Z.of_nat (length (errors m gt test)) =? 0) with false by (symmetry; apply Z.eqb_neq; destruct (errors m gt test); [congruence|cbn [length]; lia]).
  split; [exact F|]. split; [exact X|]. intros lo hi L0 Hb. pose proof (rms_between _ lo hi NE L0 Hb) as (P1 & P2). apply Rabs_le_inv in X. lra.
Qed.
Print Assumptions C45_rmse.
Theorem C45_rmse_nothing : forall k (gt test : Layer k) m el d el', comparable gt test el ->
  evaluateLayersRmse gt test m el = Ok (d, el') -> errors m gt test = [] -> ed_rmse d = f0.
Proof.
  intros k gt test m el d el' H E N. destruct (spec_of k gt test m el H) as (d1 & t & d2 & el2 & [A1 A2 A3 A4 A5 A6 A7 A8] & E' & _ & _ & _ & _ & _ & _ & _ & B).
  rewrite E in E'. injection E' as -> ->. rewrite B, A5.
  assert (Q : length (errors m gt test) = 0%nat) by (rewrite N; reflexivity). unfold errors in Q. rewrite map_length in Q. unfold count. rewrite Q. reflexivity.
Qed.
Print Assumptions C45_rmse_nothing.
(** The error layer: in the blocks both layers have, an evaluated voxel becomes
    observed with the magnitude of its error, the others keep their value; other
    blocks are left alone. *)
Theorem C45_error_layer : forall k (gt test : Layer k) m l, k = KTsdf \/ k = KEsdf -> comparable gt test (Some l) ->
  exists d l', evaluateLayersRmse gt test m (Some l) = Ok (d, Some l') /\
    l_size l' = l_size l /\ l_vps l' = l_vps l /\
    (forall i, l_get gt i = None \/ l_get test i = None -> l_get l' i = l_get l i) /\
    forall i gb tb j g t, l_get gt i = Some gb -> l_get test i = Some tb ->
      nth_error (b_voxels gb) j = Some g -> nth_error (b_voxels tb) j = Some t ->
      exists b' v, l_get l' i = Some b' /\ nth_error (b_voxels b') j = Some v /\
        if evaluated m (g, t) then getVoxelSdf k v = fabs (error_of (g, t)) /\ isObservedVoxel k v = true
        else Some v = match l_get l i with Some b => nth_error (b_voxels b) j | None => Some (vdefault k) end.
Proof.
  intros k gt test m l K H. pose proof H as H'. destruct H' as (RG & RT & V & RE). destruct (RE l eq_refl) as ((_ & RL) & VL).
  destruct (spec_of k gt test m (Some l) H) as (d1 & t & d & el' & _ & E & X & _).
  destruct el' as [l'|]; [|destruct X]. exists d, l'. split; [exact E|]. destruct X as (S1 & S2 & X). split; [exact S1|]. split; [exact S2|]. split.
  - intros i N. specialize (X i). change (alookup i (l_blocks test)) with (l_get test i) in X. destruct N as [N|N]; rewrite N in X; [destruct (l_get test i)|]; exact X.
  - intros i gb tb j g tv G1 G2 N1 N2. specialize (X i). change (alookup i (l_blocks test)) with (l_get test i) in X. rewrite G1, G2 in X. destruct X as (b' & Gb & Vb).
    set (old := match l_get l i with Some b => b_voxels b | None => _ end) in Vb.
    assert (LO : length old = num_voxels (l_vps test)). { unfold old. destruct (l_get l i) as [b|] eqn:Eb; [rewrite (RL i b Eb), VL; reflexivity|apply repeat_length]. }
    assert (LT : (j < num_voxels (l_vps test))%nat). { rewrite <- (proj2 RT i tb G2). apply nth_error_Some. congruence. }
    destruct (nth_error old j) as [o|] eqn:No; [|apply nth_error_None in No; lia].
    exists b', (err_vox m (g, tv) o). split; [exact Gb|]. split.
    + rewrite Vb. unfold err_after. rewrite nth_error_map. change (option_map (fun pv => err_vox m (fst pv) (snd pv)) (nth_error (combine (combine (b_voxels gb) (b_voxels tb)) old) j) = Some (err_vox m (g, tv) o)).
      assert (C : forall A B (xs : list A) (ys : list B) j x y, nth_error xs j = Some x -> nth_error ys j = Some y -> nth_error (combine xs ys) j = Some (x, y)).
      { clear. intros A B. induction xs as [|x0 xs IH]; intros ys j x y P Q; destruct j, ys; cbn in *; try discriminate; [congruence|eauto]. }
      rewrite (C _ _ _ _ _ _ _ (C _ _ _ _ _ _ _ N1 N2) No). reflexivity.
    + unfold err_vox. destruct (evaluated m (g, tv)).
      * destruct K as [-> | ->]; split; reflexivity.
      * unfold old in No. destruct (l_get l i) as [b|]; [symmetry; exact No|]. apply nth_error_In in No. apply repeat_spec in No. rewrite No. reflexivity.
Qed.
Print Assumptions C45_error_layer.

(** The reported minimum error says nothing: it is 0 for every pair of layers. *)
Theorem C45_min_is_zero : forall k (gt test : Layer k) m el d el', comparable gt test el ->
  evaluateLayersRmse gt test m el = Ok (d, el') -> ed_min d = f0.
Proof.
  intros k gt test m el d el' H E. destruct (spec_of k gt test m el H) as (d1 & t & d2 & el2 & [A1 A2 A3 A4 A5 A6 A7 A8] & E' & _ & _ & B & _).
  rewrite E in E'. injection E' as -> ->. rewrite B. exact A4.
Qed.
Print Assumptions C45_min_is_zero.

Definition ev_layer (a b : Z) : Layer KTsdf :=
  MkLayer (k := KTsdf) f1 1 [
    (V3 0 0 0, MkBlock (k := KTsdf) 1 f1 (V3 f0 f0 f0) false upd_none [MkTsdf (f32_of_Z a) f1 color0]);
    (V3 b 0 0, MkBlock (k := KTsdf) 1 f1 (V3 f0 f0 f0) false upd_none [MkTsdf (f32_of_Z (-3)) f1 color0])].
Lemma ev_regular : forall a b, b <> 0 -> regular (ev_layer a b).
Proof.
  intros a b N. split.
  - unfold getAllAllocatedBlocks, ev_layer. cbn [l_blocks akeys map fst]. constructor; [intros [H|[]]; injection H; auto|constructor; [intros []|constructor]].
  - intros i x H. apply alookup_In in H. destruct H as [H|[H|[]]]; injection H as _ <-; reflexivity.
Qed.
Example C45_example : comparable (ev_layer 4 1) (ev_layer 2 2) (Some (ev_layer 4 1)) /\
  errors_ok (errors EAll (ev_layer 4 1) (ev_layer 2 2)) /\
  match evaluateLayersRmse (ev_layer 4 1) (ev_layer 2 2) EAll None with
  | Ok (d, None) => (fword (ed_rmse d) =? fword (f32_of_Z 2)) && (ed_evaluated d =? 1) && (ed_non_overlapping d =? 2)
  | _ => false end = true /\
  match evaluateLayersRmse (ev_layer 4 1) (ev_layer 2 1) EBehindGt None with
  | Ok (d, None) => (ed_evaluated d =? 1) && (ed_ignored d =? 1) && (ed_overlapping d =? 2)
  | _ => false end = true.
Proof.
  split; [|split; [|split; vm_compute; reflexivity]].
  - split; [apply ev_regular; lia|]. split; [apply ev_regular; lia|]. split; [reflexivity|]. intros l E. injection E as <-. split; [apply ev_regular; lia|reflexivity].
  - assert (Q : errors EAll (ev_layer 4 1) (ev_layer 2 2) = [fsub (f32_of_Z 2) (f32_of_Z 4)]) by reflexivity. rewrite Q.
    constructor; [|constructor]. assert (X : fsub (f32_of_Z 2) (f32_of_Z 4) = f32_of_Z (-2)) by (apply fword_inj; vm_compute; reflexivity). rewrite X.
    destruct (f32_of_Z_R (-2)) as (A & B); [lia|]. split; [exact B|]. rewrite A, <- abs_IZR. cbn. lra.
Qed.
(** Hence the claim about the minimum fails: the only error here is 2. *)
Theorem C45_min_refuted : exists (gt test : Layer KTsdf) d, comparable gt test None /\
  evaluateLayersRmse gt test EAll None = Ok (d, None) /\ map fword (errors EAll gt test) = [fword (f32_of_Z (-2))] /\
  ed_min d = f0.
Proof.
  exists (ev_layer 4 1), (ev_layer 2 2).
  assert (C : comparable (ev_layer 4 1) (ev_layer 2 2) None).
  { split; [apply ev_regular; lia|]. split; [apply ev_regular; lia|]. split; [reflexivity|]. intros l E. discriminate. }
  destruct (C45_counts _ _ _ EAll None C) as (d & el' & E & _).
  destruct (spec_of _ _ _ EAll None C) as (d1 & t & d2 & el2 & _ & E' & X & _). rewrite E in E'. injection E' as -> ->.
  destruct el2; [destruct X|]. exists d2. split; [exact C|]. split; [exact E|]. split; [vm_compute; reflexivity|]. exact (C45_min_is_zero _ _ _ _ _ _ _ C E).
Qed.
Print Assumptions C45_min_refuted.
(** Voxels nobody has observed count as non-overlapping if the block is common. *)
Theorem C45_unobserved_counted : exists (gt test : Layer KTsdf), comparable gt test None /\
  match evaluateLayersRmse gt test EAll None with
  | Ok (d, None) => (ed_non_overlapping d =? 8) && (ed_overlapping d =? 0) | _ => false end = true /\
  forall i b v, l_get gt i = Some b \/ l_get test i = Some b -> In v (b_voxels b) -> isObservedVoxel KTsdf v = false.
Proof.
  set (l := MkLayer (k := KTsdf) f1 2 [(V3 0 0 0, new_block (k := KTsdf) 2 f1 (V3 f0 f0 f0))]).
  assert (R : regular l).
  { split; [constructor; [intros []|constructor]|]. intros i x H. apply alookup_In in H. destruct H as [H|[]]; injection H as _ <-; reflexivity. }
  exists l, l. split; [|split; [vm_compute; reflexivity|]].
  - split; [exact R|]. split; [exact R|]. split; [reflexivity|]. intros x E. discriminate.
  - intros i b v H I. assert (G : l_get l i = Some b) by (destruct H; assumption). apply alookup_In in G. destruct G as [G|[]]. injection G as _ <-.
    apply repeat_spec in I. rewrite I. vm_compute. reflexivity.
Qed.
Print Assumptions C45_unobserved_counted.
