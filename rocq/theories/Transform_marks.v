(** Proofs about transforming layers: which output blocks are considered. *)
From Coq Require Import ZArith List Bool Reals Lra Lia Psatz.
From Flocq Require Import Core.
From Verif Require Import F32 F32_lemmas F32_err Index_float Types Index Index_proofs Voxel Assoc Assoc_lemmas Layer MeshInt Mesh_spec Interp Interp_spec
  Neighbor_proofs Transform Transform_spec.
Import ListNotations.
Open Scope R_scope.
Ltac Zify.zify_post_hook ::= idtac.

(** the list of samples is the set of visited points *)
Lemma samples_visited : forall fuel x hi step xs, axis_samples fuel x hi step = Some xs -> forall y, In y xs <-> visited hi step x y.
Proof.
  induction fuel as [|fuel IH]; intros x hi step xs H y; cbn [axis_samples] in H; destruct (flt x hi) eqn:L.
  - discriminate H.
  - injection H as <-. split; [contradiction|]. intros V. destruct V; congruence.
  - destruct (axis_samples fuel (fadd x step) hi step) as [ys|] eqn:E; [|discriminate H]. cbn [option_map] in H. injection H as <-.
    specialize (IH _ _ _ _ E y). cbn [In]. rewrite IH. split.
    + intros [<-|V]; [apply visit_here, L | apply visit_next; assumption].
    + intros V. inversion V; subst; auto.
  - injection H as <-. split; [contradiction|]. intros V. destruct V; congruence.
Qed.

Lemma rmap_in : forall A B (f : A -> res B) l r, rmap f l = Ok r -> forall b, In b r <-> exists a, In a l /\ f a = Ok b.
Proof.
  intros A B f l. induction l as [|a l IH]; intros r H b; cbn [rmap] in H.
  - injection H as <-. split; [contradiction | intros (a & [] & _)].
  - destruct (f a) as [c| |] eqn:F; cbn [rbind] in H; [|discriminate H|discriminate H].
    destruct (rmap f l) as [cs| |] eqn:R; cbn [rbind] in H; [|discriminate H|discriminate H]. injection H as <-. cbn [In]. rewrite (IH _ eq_refl b). split.
    + intros [<-|(d & I & E)]; [exists a; auto | exists d; auto].
    + intros (d & [<-|I] & E); [left; congruence | right; exists d; auto].
Qed.
Lemma rmap_ok : forall A B (f : A -> res B) l, (forall a, In a l -> exists b, f a = Ok b) -> exists r, rmap f l = Ok r.
Proof.
  intros A B f l. induction l as [|a l IH]; intros H; cbn [rmap]; [eauto|].
  destruct (H a (or_introl eq_refl)) as (b & ->). destruct IH as (r & ->); [intros c I; apply H; right; exact I|]. cbn [rbind]. eauto.
Qed.

Lemma grid_in : forall (xs ys zs : list f32) p,
  In p (flat_map (fun x => flat_map (fun y => map (fun z => V3 x y z) zs) ys) xs) <-> In (vx p) xs /\ In (vy p) ys /\ In (vz p) zs.
Proof.
  intros xs ys zs p. rewrite in_flat_map. split.
  - intros (x & Hx & H). apply in_flat_map in H. destruct H as (y & Hy & H). apply in_map_iff in H. destruct H as (z & <- & Hz). auto.
  - intros (Hx & Hy & Hz). exists (vx p). split; [exact Hx|]. apply in_flat_map. exists (vy p). split; [exact Hy|]. apply in_map_iff. exists (vz p). split; [apply v3_eq; reflexivity | exact Hz].
Qed.

(** the points visited around the transformed centre [c] *)
Definition around (bs_out r : f32) (c p : pt3) : Prop :=
  visited (fadd (vx c) r) bs_out (fsub (vx c) r) (vx p) /\
  visited (fadd (vy c) r) bs_out (fsub (vy c) r) (vy p) /\
  visited (fadd (vz c) r) bs_out (fsub (vz c) r) (vz p).

Lemma block_marks_in : forall fuel bi_s bo T i m, block_marks fuel bi_s bo T i = Ok (Some m) ->
  forall bi, In bi m <-> exists p, around bo (mark_offset bi_s) (T (getCenterPointFromGridIndex i bi_s)) p /\ getGridIndexFromPoint p (fdiv f1 bo) = Some bi.
Proof.
  intros fuel bi_s bo T i m H bi. unfold block_marks in H. cbv zeta in H. set (c := T _) in *. set (r := mark_offset bi_s) in *. unfold samples in H. unfold around.
  destruct (axis_samples fuel (fsub (vx c) r) (fadd (vx c) r) bo) as [[|x xs]|] eqn:EX; [|pose proof (samples_visited _ _ _ _ _ EX) as SX|discriminate H].
  { injection H as <-. pose proof (samples_visited _ _ _ _ _ EX) as SX. split; [contradiction|]. intros (p & (A & _) & _). apply SX in A. contradiction. }
  destruct (axis_samples fuel (fsub (vy c) r) (fadd (vy c) r) bo) as [[|y ys]|] eqn:EY; [|pose proof (samples_visited _ _ _ _ _ EY) as SY|discriminate H].
  { injection H as <-. pose proof (samples_visited _ _ _ _ _ EY) as SY. split; [contradiction|]. intros (p & (_ & A & _) & _). apply SY in A. contradiction. }
  destruct (axis_samples fuel (fsub (vz c) r) (fadd (vz c) r) bo) as [zs|] eqn:EZ; [|discriminate H]. pose proof (samples_visited _ _ _ _ _ EZ) as SZ.
  match type of H with rbind ?R _ = _ => destruct R as [is| |] eqn:ER end; [cbn [rbind] in H|discriminate H|discriminate H].
  injection H as <-. rewrite (rmap_in _ _ _ _ _ ER bi). split.
  - intros (p & I & E). apply grid_in in I. destruct I as (A & B & C). exists p. split; [repeat split; [apply SX|apply SY|apply SZ]; assumption|].
    destruct (getGridIndexFromPoint p (fdiv f1 bo)); [|discriminate E]. cbn [of_opt] in E. congruence.
  - intros (p & (A & B & C) & E). exists p. split; [apply grid_in; repeat split; [apply SX|apply SY|apply SZ]; assumption|]. rewrite E. reflexivity.
Qed.

Lemma all_marks_in : forall fuel bi_s bo T is m, all_marks fuel bi_s bo T is = Ok (Some m) ->
  forall bi, In bi m <-> exists i p, In i is /\ around bo (mark_offset bi_s) (T (getCenterPointFromGridIndex i bi_s)) p /\ getGridIndexFromPoint p (fdiv f1 bo) = Some bi.
Proof.
  intros fuel bi_s bo T is. induction is as [|i is IH]; intros m H bi; cbn [all_marks] in H.
  - injection H as <-. split; [contradiction | intros (i & p & [] & _)].
  - destruct (block_marks fuel bi_s bo T i) as [[m1|]| |] eqn:E1; cbn [rbind] in H; try discriminate H.
    destruct (all_marks fuel bi_s bo T is) as [[m2|]| |] eqn:E2; cbn [rbind option_map] in H; try discriminate H.
    injection H as <-. rewrite in_app_iff, (block_marks_in _ _ _ _ _ _ E1 bi), (IH _ eq_refl bi). split.
    + intros [(p & A & B)|(j & p & A & B & C)]; [exists i, p; cbn [In]; auto | exists j, p; cbn [In]; auto].
    + intros (j & p & [<-|A] & B & C); [left; eauto | right; eauto].
Qed.

(** one over the block size *)
Lemma fdiv1_R : forall s, wide_size s -> exists d, Rabs d <= 2 * u /\ FR (fdiv f1 s) = / FR s * (1 + d) /\ ffin (fdiv f1 s) = true.
Proof.
  intros s Hs. pose proof (wide_pos s Hs) as Sp. destruct Hs as (F & L & H). pose proof f1_R as E1. assert (F1 : ffin f1 = true) by reflexivity.
  assert (LI : bpow radix2 (-60) <= / FR s).
  { change (-60)%Z with (- (60))%Z. rewrite bpow_opp. apply Rinv_le; [exact Sp | exact H]. }
  assert (HI : / FR s <= bpow radix2 60).
  { replace (bpow radix2 60) with (/ bpow radix2 (-60)) by (rewrite <- bpow_opp; reflexivity). apply Rinv_le; [apply bpow_gt_0 | exact L]. }
  destruct (fdiv_R f1 s F1 ltac:(lra)) as (E & Fd).
  { rewrite E1. unfold Rdiv. rewrite Rmult_1_l. apply rnd32_small. rewrite Rabs_pos_eq by (left; apply Rinv_0_lt_compat, Sp).
    apply Rle_trans with (1 := HI). apply bpow_le; lia. }
  rewrite E1 in E. unfold Rdiv in E. rewrite Rmult_1_l in E.
  destruct (rnd32_rel (/ FR s)) as (e & He & R).
  { rewrite Rabs_pos_eq by (left; apply Rinv_0_lt_compat, Sp). eapply Rle_trans; [|exact LI]. apply bpow_le; lia. }
  rewrite bp_m24 in He. fold u in He. exists e. split; [pose proof u_pos; lra|]. split; [rewrite E; exact R | exact Fd].
Qed.

Lemma grid_value1 : forall p s, ffin p = true -> wide_size s ->
  Rabs (FR p / FR s) <= bpow radix2 24 ->
  ffin (fadd (fmul p (fdiv f1 s)) kEpsilon) = true /\
  Rabs (FR (fadd (fmul p (fdiv f1 s)) kEpsilon) - FR p / FR s) <= gtol (FR p / FR s).
Proof.
  intros p s Fp Hs Ht. pose proof (wide_pos s Hs) as Sp.
  destruct (fdiv1_R s Hs) as (d & Hd & Ed & Fd).
  set (t := FR p / FR s) in *.
  assert (Em: FR p * FR (fdiv f1 s) = t * (1 + d)) by (rewrite Ed; unfold t; field; lra).
  change (bpow radix2 24) with 16777216 in Ht.
  pose proof small_e as SE.
  destruct (rnd32_err (t * (1 + d))) as (d1 & e1 & Hd1 & He1 & R1).
  rewrite bp_m24 in Hd1. fold u in Hd1.
  assert (C1: Rabs ((1 + d) * (1 + d1) - 1) <= 3 * u + / 1048576 * u).
  { eapply Rle_trans; [apply rel_comb; eauto|]. unfold u; lra. }
  set (D1 := (1 + d) * (1 + d1) - 1) in *.
  assert (W: rnd32 (t * (1 + d)) = t * (1 + D1) + e1) by (rewrite R1; unfold D1; ring).
  assert (Ht0: 0 <= Rabs t) by apply Rabs_pos.
  assert (Bw: Rabs (t * (1 + D1) + e1) <= 2 * 16777216).
  { eapply Rle_trans; [apply Rabs_tri; [apply Rabs_prod with (B := 1 + (3 * u + / 1048576 * u)); [apply Ht|]|apply He1]|].
    - apply Rabs_tri; [rewrite Rabs_R1; lra|auto].
    - unfold u; lra. }
  destruct (fmul_R p (fdiv f1 s) Fp Fd) as (E2 & F2).
  { rewrite Em, W. eapply Rle_lt_trans; [apply Bw|].
    apply Rle_lt_trans with (bpow radix2 25); [change (bpow radix2 25) with 33554432; lra|apply bpow_lt; lia]. }
  rewrite Em, W in E2.
  destruct kEpsilon_R as (Ek & Fk).
  set (w := t * (1 + D1) + e1) in *.
  destruct (rnd32_err (w + FR kEpsilon)) as (d2 & e2 & Hd2 & He2 & R2).
  rewrite bp_m24 in Hd2. fold u in Hd2.
  assert (V: rnd32 (w + FR kEpsilon) - t = t * ((1 + D1) * (1 + d2) - 1) + (e1 * (1 + d2) + (FR kEpsilon * (1 + d2) + e2))).
  { rewrite R2. unfold w. ring. }
  assert (M: Rabs (rnd32 (w + FR kEpsilon) - t) <= gtol t).
  { rewrite V. unfold gtol. rewrite (Rmult_comm (5 * u)).
    apply Rabs_tri.
    - apply Rabs_prod; [lra|]. eapply Rle_trans; [apply rel_comb; eauto|]. unfold u; lra.
    - assert (B1: Rabs (1 + d2) <= 2).
      { eapply Rle_trans; [apply Rabs_tri; [|apply Hd2]; rewrite Rabs_R1; apply Rle_refl|]. unfold u; lra. }
      eapply Rle_trans; [apply Rabs_tri; [apply Rabs_prod; [apply He1|apply B1]|
         apply Rabs_tri; [apply Rabs_prod; [rewrite Rabs_pos_eq by apply Ek; apply Ek|apply B1]|apply He2]]|].
      lra. }
  assert (Bv: Rabs (rnd32 (w + FR kEpsilon)) < max32).
  { apply Rle_lt_trans with (4 * 16777216).
    - replace (rnd32 (w + FR kEpsilon)) with ((rnd32 (w + FR kEpsilon) - t) + t) by ring.
      eapply Rle_trans; [apply Rabs_tri; [apply M|apply Ht]|]. unfold gtol, u; lra.
    - apply Rle_lt_trans with (bpow radix2 26); [change (bpow radix2 26) with 67108864; lra|apply bpow_lt; lia]. }
  rewrite <- E2 in Bv, M.
  destruct (fadd_R _ _ F2 Fk Bv) as (E3 & F3).
  split; auto. rewrite E3. exact M.
Qed.
(** the index exists, and is within a cell and a hundredth of the point *)
Lemma grid1 : forall p s, ffin p = true -> wide_size s -> Rabs (FR p / FR s) <= 262144 ->
  exists n, grid_axis p (fdiv f1 s) = Some n /\ IZR n - gtol (FR p / FR s) <= FR p / FR s < IZR n + 1 + gtol (FR p / FR s).
Proof.
  intros p s Fp Hs Ht. set (t := FR p / FR s) in *.
  destruct (grid_value1 p s Fp Hs) as (F & E). { fold t. change (bpow radix2 24) with 16777216. lra. }
  fold t in E. unfold grid_axis. rewrite ffloorZ_R by auto. set (v := FR (fadd (fmul p (fdiv f1 s)) kEpsilon)) in *. exists (Zfloor v).
  pose proof (Zfloor_lb v) as LB. pose proof (Zfloor_ub v) as UB.
  assert (G : gtol t <= 1). { unfold gtol, u. lra. }
  apply Rabs_le_inv in E. apply Rabs_le_inv in Ht.
  split; [|split; lra]. apply in_range_Some. split; [reflexivity|].
  assert (- 300000 < Zfloor v < 300000)%Z by (split; apply lt_IZR; lra). lia.
Qed.

(** half the diagonal of a block *)
Lemma kd_R : ffin kUnitCubeDiagonalLength = true /\ 1.73205 <= FR kUnitCubeDiagonalLength <= 1.73206.
Proof.
  split; [reflexivity|].
  assert (E: FR kUnitCubeDiagonalLength = IZR 14529495 * bpow radix2 (-23)) by reflexivity.
  rewrite E. change (bpow radix2 (-23)) with (/ 8388608). lra.
Qed.

Lemma mark_offset_R : forall s, wide_size s -> ffin (mark_offset s) = true /\ 0.866 * FR s <= FR (mark_offset s) <= 0.8661 * FR s.
Proof.
  intros s Hs. pose proof (wide_pos s Hs) as Sp. destruct Hs as (F & L & H). destruct kd_R as (FK & K).
  assert (B61 : bpow radix2 (-60) = 2 * bpow radix2 (-61)) by (change (-60)%Z with (1 + -61)%Z; rewrite bpow_plus; reflexivity).
  unfold mark_offset. set (k := FR kUnitCubeDiagonalLength) in *.
  assert (LB : bpow radix2 (-60) <= Rabs (k * FR s) <= bpow radix2 61).
  { rewrite Rabs_pos_eq by nra. change (bpow radix2 61) with (2 * bpow radix2 60). split; nra. }
  destruct (fmul_R kUnitCubeDiagonalLength s FK F) as (E1 & F1).
  { fold k. apply rnd32_small. eapply Rle_trans; [apply LB|]. apply bpow_le; lia. }
  destruct (rnd32_rel (k * FR s)) as (e & He & R1). { eapply Rle_trans; [|apply LB]. apply bpow_le; lia. }
  rewrite bp_m24 in He. fold k in E1. rewrite R1 in E1. apply Rabs_le_inv in He.
  destruct (f64_of_f32_R _ F1) as (E2 & F2).
  set (m := fmul kUnitCubeDiagonalLength s) in *.
  assert (C1 : 1.73204 <= k * (1 + e) <= 1.73207).
  { clear - K He. assert (- (2 * / 16777216) <= k * e <= 2 * / 16777216) by nra. lra. }
  set (c1 := k * (1 + e)) in *. replace (k * FR s * (1 + e)) with (c1 * FR s) in E1 by (unfold c1; ring).
  assert (MB : 1.73204 * FR s <= FR m <= 1.73207 * FR s) by (rewrite E1; split; apply Rmult_le_compat_r; lra).
  assert (MB' : bpow radix2 (-60) <= Rabs (FR m) <= bpow radix2 61).
  { rewrite Rabs_pos_eq by nra. change (bpow radix2 61) with (2 * bpow radix2 60). split; nra. }
  destruct (f64_lit_R 1 (-1)) as (Eh & Fh).
  { rewrite rnd64_exact by lia. rewrite Rmult_1_l, Rabs_pos_eq by apply bpow_ge_0. apply bpow_lt; lia. }
  rewrite rnd64_exact in Eh by lia. rewrite Rmult_1_l in Eh.
  change (bpow radix2 (-1)) with (/ 2) in Eh. change (f64_lit 1 (-1)) with dhalf in *.
  assert (HB : bpow radix2 (-61) <= Rabs (FR m * / 2) <= bpow radix2 61).
  { rewrite Rabs_mult, (Rabs_pos_eq (/ 2)) by lra. rewrite B61 in MB'. pose proof (bpow_gt_0 radix2 61). lra. }
  destruct (rnd64_rel (FR m * / 2)) as (e1 & He1 & R2). { eapply Rle_trans; [|apply HB]. apply bpow_le; lia. }
  rewrite bp_m53 in He1. apply Rabs_le_inv in He1.
  destruct (dmul_R _ _ F2 Fh) as (E3 & F3).
  { rewrite E2, Eh. apply rnd64_small. eapply Rle_trans; [apply HB|]. apply bpow_le; lia. }
  rewrite E2, Eh, R2 in E3.
  set (q := dmul (f64_of_f32 m) dhalf) in *.
  assert (C2 : 0.86601 <= c1 * / 2 * (1 + e1) <= 0.86604).
  { clear - C1 He1. assert (- (2 * / 9007199254740992) <= c1 * e1 <= 2 * / 9007199254740992) by nra. lra. }
  set (c2 := c1 * / 2 * (1 + e1)) in *. replace (FR m * / 2 * (1 + e1)) with (c2 * FR s) in E3 by (rewrite E1; unfold c2; ring).
  assert (QB : 0.86601 * FR s <= DR q <= 0.86604 * FR s) by (rewrite E3; split; apply Rmult_le_compat_r; lra).
  assert (QB' : bpow radix2 (-61) <= Rabs (DR q) <= bpow radix2 61).
  { rewrite Rabs_pos_eq by nra. rewrite B61 in L. change (bpow radix2 61) with (2 * bpow radix2 60). split; nra. }
  destruct (rnd32_rel (DR q)) as (e2 & He2 & R3). { eapply Rle_trans; [|apply QB']. apply bpow_le; lia. }
  rewrite bp_m24 in He2. apply Rabs_le_inv in He2.
  destruct (f32_of_f64_R q F3) as (E4 & F4).
  { apply rnd32_small. eapply Rle_trans; [apply QB'|]. apply bpow_le; lia. }
  rewrite R3 in E4. split; [exact F4|]. rewrite E4, E3.
  assert (C3 : 0.866 <= c2 * (1 + e2) <= 0.8661).
  { clear - C2 He2. assert (- (2 * / 16777216) <= c2 * e2 <= 2 * / 16777216) by nra. lra. }
  replace (c2 * FR s * (1 + e2)) with (c2 * (1 + e2) * FR s) by ring. split; apply Rmult_le_compat_r; lra.
Qed.

Section Reach.
  Variable bo : f32.
  Hypothesis Hbo : wide_size bo.
  Let B := FR bo.
  Lemma B_pos : 0 < B. Proof. apply wide_pos, Hbo. Qed.
  Lemma B_big : forall x, Rabs x <= 300000 * B -> Rabs x <= bpow radix2 127.
  Proof.
    intros x H. pose proof B_pos. destruct Hbo as (_ & _ & U). fold B in U. apply Rle_trans with (300000 * bpow radix2 60); [lra|].
    apply Rle_trans with (bpow radix2 20 * bpow radix2 60); [apply Rmult_le_compat_r; [apply bpow_ge_0 | rewrite bp_20; lra]|]. rewrite <- bpow_plus. apply bpow_le; lia.
  Qed.
  Lemma near_sum : forall a b, ffin a = true -> ffin b = true -> Rabs (FR a + FR b) <= 300000 * B ->
    ffin (fadd a b) = true /\ Rabs (FR (fadd a b) - (FR a + FR b)) <= B / 32.
  Proof.
    intros a b Fa Fb H. pose proof B_pos. destruct (fadd_rel a b Fa Fb (B_big _ H)) as (F & e & He & E). split; [exact F|]. rewrite E.
    replace ((FR a + FR b) * (1 + e) - (FR a + FR b)) with ((FR a + FR b) * e) by ring. eapply Rle_trans; [apply Rabs_prod; [exact H | exact He]|]. unfold u32r. lra.
  Qed.
  Lemma near_diff : forall a b, ffin a = true -> ffin b = true -> Rabs (FR a - FR b) <= 300000 * B ->
    ffin (fsub a b) = true /\ Rabs (FR (fsub a b) - (FR a - FR b)) <= B / 32.
  Proof.
    intros a b Fa Fb H. pose proof B_pos. destruct (fsub_rel a b Fa Fb (B_big _ H)) as (F & e & He & E). split; [exact F|]. rewrite E.
    replace ((FR a - FR b) * (1 + e) - (FR a - FR b)) with ((FR a - FR b) * e) by ring. eapply Rle_trans; [apply Rabs_prod; [exact H | exact He]|]. unfold u32r. lra.
  Qed.

  (** the loops end *)
  Lemma axis_ends : forall fuel x hi, ffin x = true -> ffin hi = true -> - (131072 * B) <= FR x -> FR hi <= 131072 * B -> FR hi - FR x <= IZR (Z.of_nat fuel) * (B / 2) ->
    exists xs, axis_samples fuel x hi bo = Some xs /\ forall y, In y xs -> ffin y = true /\ Rabs (FR y) <= 131072 * B.
  Proof.
    pose proof B_pos as BP.
    induction fuel as [|fuel IH]; intros x hi Fx Fh L U D; cbn [axis_samples]; destruct (flt x hi) eqn:E.
    - apply flt_R in E; [|assumption|assumption]. change (IZR (Z.of_nat 0)) with 0 in D. lra.
    - exists []. split; [reflexivity | contradiction].
    - apply flt_R in E; [|assumption|assumption].
      destruct (near_sum x bo Fx (proj1 Hbo)) as (F1 & E1). { fold B. apply Rabs_le. lra. }
      fold B in E1. apply Rabs_le_inv in E1.
      destruct (IH (fadd x bo) hi F1 Fh) as (xs & -> & Hxs); [lra | exact U | |].
      { rewrite Nat2Z.inj_succ, succ_IZR in D. lra. }
      cbn [option_map]. exists (x :: xs). split; [reflexivity|]. intros y [<-|I]; [|apply Hxs, I]. split; [exact Fx|]. apply Rabs_le. lra.
    - exists []. split; [reflexivity | contradiction].
  Qed.

  Variables (lin : Layer KTsdf) (T : pt3 -> pt3).
  Hypothesis Hlin : wide_size (l_block_size lin).
  Hypothesis HR : in_reach lin T bo.
  Let r := mark_offset (l_block_size lin).
  Lemma r_R : ffin r = true /\ 0 < FR r <= 867 * B.
  Proof. pose proof B_pos. pose proof (wide_pos _ Hlin). destruct (mark_offset_R _ Hlin) as (F & L). destruct HR as (S & _). fold B in S. split; [exact F|]. fold r in L. lra. Qed.
  Lemma samples_ok : forall fuel c, (4000 <= Z.of_nat fuel)%Z -> ffin c = true -> Rabs (FR c / FR bo) <= 65536 ->
    exists xs, samples fuel c r bo = Some xs /\ forall y, In y xs -> ffin y = true /\ Rabs (FR y / FR bo) <= 262144.
  Proof.
    intros fuel c Hf Fc Hc. pose proof B_pos as BP. destruct r_R as (Fr & Rr).
    assert (Cb : - (65536 * B) <= FR c <= 65536 * B).
    { assert (E : FR c = FR c / FR bo * B) by (unfold B in *; field; lra). apply Rabs_le_inv in Hc. rewrite E. split; nra. }
    destruct (near_sum c r Fc Fr) as (F1 & E1); [apply Rabs_le; lra|]. destruct (near_diff c r Fc Fr) as (F2 & E2); [apply Rabs_le; lra|].
    apply Rabs_le_inv in E1. apply Rabs_le_inv in E2. apply IZR_le in Hf.
    destruct (axis_ends fuel (fsub c r) (fadd c r) F2 F1) as (xs & E & H); [lra | lra | nra |].
    exists xs. split; [exact E|]. intros y I. destruct (H y I) as (Fy & Hy). split; [exact Fy|]. unfold Rdiv. fold B. rewrite Rabs_mult, (Rabs_pos_eq (/ B)) by (left; apply Rinv_0_lt_compat, BP).
    apply Rmult_le_reg_r with B; [exact BP|]. rewrite Rmult_assoc, Rinv_l, Rmult_1_r by lra. lra.
  Qed.

  Lemma marks_ok : forall fuel is, (4000 <= Z.of_nat fuel)%Z -> (forall i, In i is -> exists b, l_get lin i = Some b) ->
    exists m, all_marks fuel (l_block_size lin) bo T is = Ok (Some m).
  Proof.
    intros fuel is Hf. induction is as [|i is IH]; intros HI; cbn [all_marks]; [eauto|].
    destruct IH as (m & ->); [intros j J; apply HI; right; exact J|].
    destruct (HI i (or_introl eq_refl)) as (b & Hb). destruct (proj2 HR i b Hb) as ((FX & CX) & (FY & CY) & (FZ & CZ)).
    unfold block_marks. cbv zeta. fold r. set (c := T _) in *.
    destruct (samples_ok fuel _ Hf FX CX) as (xs & -> & HX). destruct xs as [|x xs]; [cbn [rbind option_map]; eauto|].
    destruct (samples_ok fuel _ Hf FY CY) as (ys & -> & HY). destruct ys as [|y ys]; [cbn [rbind option_map]; eauto|].
    destruct (samples_ok fuel _ Hf FZ CZ) as (zs & -> & HZ).
    set (XS := x :: xs) in *. set (YS := y :: ys) in *.
    match goal with |- context [rmap ?f ?l] => destruct (rmap_ok _ _ f l) as (is' & E) end.
    { intros p I. apply grid_in in I. destruct I as (I1 & I2 & I3).
      destruct (HX _ I1) as (F1 & B1), (HY _ I2) as (F2 & B2), (HZ _ I3) as (F3 & B3).
      destruct (grid1 _ bo F1 Hbo B1) as (n1 & E1 & _), (grid1 _ bo F2 Hbo B2) as (n2 & E2 & _), (grid1 _ bo F3 Hbo B3) as (n3 & E3 & _).
      unfold getGridIndexFromPoint, map3. rewrite E1, E2, E3. unfold seq3. cbn [vx vy vz of_opt]. eauto. }
    rewrite E. cbn [rbind option_map]. eauto.
  Qed.
End Reach.

(** a block whose centre stays where it is is considered *)
Lemma cover_axis : forall bo i c, sane_size bo -> wide_size bo -> (Z.abs i <= 1000)%Z -> ffin c = true -> FR c = FR (center_axis i bo) ->
  let r := mark_offset bo in exists x, visited (fadd c r) bo (fsub c r) x /\ grid_axis x (fdiv f1 bo) = Some i.
Proof.
  intros bo i c Hs Hw Hi Fc Ec r. pose proof (wide_pos bo Hw) as BP. destruct (center_axis_R i bo Hs ltac:(lia)) as (d & Hd & Ed & _). rewrite Ed in Ec.
  destruct (mark_offset_R bo Hw) as (Fr & Rr). fold r in Fr, Rr. set (B := FR bo) in *.
  assert (Ib : -1000 <= IZR i <= 1000) by (split; apply IZR_le; lia).
  assert (Cb : Rabs (FR c - (IZR i + / 2) * B) <= B / 1000).
  { rewrite Ec. replace ((IZR i + / 2) * B * (1 + d) - (IZR i + / 2) * B) with ((IZR i + / 2) * d * B) by ring.
    rewrite Rabs_mult, (Rabs_pos_eq B) by lra. assert (Rabs ((IZR i + / 2) * d) <= 1001 * (2 * u)) by (apply Rabs_prod; [apply Rabs_le; lra | exact Hd]). unfold u in *. nra. }
  apply Rabs_le_inv in Cb.
  assert (IB : -1000 * B <= IZR i * B <= 1000 * B) by (split; apply Rmult_le_compat_r; lra).
  destruct (near_sum bo Hw c r Fc Fr) as (F1 & E1); [fold B; apply Rabs_le; lra|]. destruct (near_diff bo Hw c r Fc Fr) as (F2 & E2); [fold B; apply Rabs_le; lra|].
  fold B in E1, E2. apply Rabs_le_inv in E1. apply Rabs_le_inv in E2.
  destruct (near_sum bo Hw (fsub c r) bo F2 (proj1 Hw)) as (F3 & E3); [fold B; apply Rabs_le; lra|]. fold B in E3. apply Rabs_le_inv in E3.
  exists (fadd (fsub c r) bo). split.
  - apply visit_next; [apply flt_R; [assumption|assumption|lra]|]. apply visit_here. apply flt_R; [assumption|assumption|lra].
  - set (x := fadd (fsub c r) bo) in *.
    assert (Xb : (IZR i + 0.5) * B <= FR x <= (IZR i + 0.75) * B) by lra.
    assert (Q : IZR i + 0.5 <= FR x / FR bo <= IZR i + 0.75).
    { fold B. split; apply Rmult_le_reg_r with B; try exact BP; unfold Rdiv; rewrite Rmult_assoc, Rinv_l, Rmult_1_r by lra; lra. }
    destruct (grid1 x bo F3 Hw) as (n & -> & N); [apply Rabs_le; lra|]. set (t := FR x / FR bo) in *.
    assert (G : gtol t <= 0.01). { unfold gtol, u. assert (Rabs t <= 1001) by (apply Rabs_le; lra). lra. }
    f_equal. assert (n < i + 1)%Z by (apply lt_IZR; rewrite plus_IZR; lra). assert (i < n + 1)%Z by (apply lt_IZR; rewrite plus_IZR; lra). lia.
Qed.
Lemma still_considered : forall (lin : Layer KTsdf) T i b, sane_size (l_block_size lin) -> wide_size (l_block_size lin) -> still T -> l_get lin i = Some b ->
  all3 (fun c => (Z.abs c <= 1000)%Z) i -> considered lin T (l_block_size lin) i.
Proof.
  intros lin T i b Hs Hw ST Hb (H1 & H2 & H3). set (bo := l_block_size lin) in *.
  destruct (center_axis_R (vx i) bo Hs ltac:(lia)) as (_ & _ & _ & F1). destruct (center_axis_R (vy i) bo Hs ltac:(lia)) as (_ & _ & _ & F2).
  destruct (center_axis_R (vz i) bo Hs ltac:(lia)) as (_ & _ & _ & F3).
  destruct (ST (getCenterPointFromGridIndex i bo)) as ((G1 & G2 & G3) & E1 & E2 & E3); [split; [exact F1 | split; [exact F2 | exact F3]]|].
  set (c := T _) in *.
  destruct (cover_axis bo (vx i) (vx c) Hs Hw H1 G1 E1) as (x & V1 & X1). destruct (cover_axis bo (vy i) (vy c) Hs Hw H2 G2 E2) as (y & V2 & X2).
  destruct (cover_axis bo (vz i) (vz c) Hs Hw H3 G3 E3) as (z & V3' & X3).
  exists i, b, (V3 x y z). split; [exact Hb|]. split; [fold bo; fold c; cbv zeta; cbn [vx vy vz]; auto|].
  unfold getGridIndexFromPoint, map3. cbn [vx vy vz]. rewrite X1, X2, X3. unfold seq3. cbn [vx vy vz]. f_equal. apply v3_eq; reflexivity.
Qed.
