(** Proofs about the drawing of viewpoints. *)
From Coq Require Import ZArith Reals List Bool Lia Lra.
From Flocq Require Import Core Relative Mult_error Binary.
From Verif Require Import F32 F32_lemmas F32_err Types Index Ray Voxel Layer Merge_proofs Sim Sim_spec Sim_proofs Sim_geom SimView SimView_spec.
Import ListNotations.
Open Scope R_scope.

Lemma FR_two : FR ftwo = 2.
Proof. exact (proj1 (f32_of_Z_R 2 ltac:(lia))). Qed.
Lemma fin_two : ffin ftwo = true.
Proof. reflexivity. Qed.
Lemma FR_one : FR f1 = 1.
Proof. exact (proj1 (f32_of_Z_R 1 ltac:(lia))). Qed.
Lemma rnd_fix x y : rnd32 x = x -> rnd32 y = y -> x <= y -> x <= rnd32 y.
Proof. intros _ -> H. exact H. Qed.
(** a float is as near to its sum with a number as the rounded sum *)
Lemma rnd_nearest (a : f32) x : Rabs (rnd32 x - x) <= Rabs (FR a - x).
Proof.
  unfold rnd32. destruct (round_N_pt radix2 (FLT_exp (-149) 24) (fun t => negb (Z.even t)) x) as (_ & H).
  apply H. exact (FR_format a).
Qed.
Lemma shrink x k : (x = 0 \/ bpow radix2 (-102) <= Rabs x) -> (-2 <= k)%Z -> rnd32 x = x -> rnd32 (x * bpow radix2 k) = x * bpow radix2 k.
Proof.
  intros [-> | B] K E. { rewrite Rmult_0_l. apply rnd32_0. }
  apply round_generic; [auto with typeclass_instances|].
  assert (F : generic_format radix2 (FLT_exp (-149) 24) x) by (rewrite <- E; apply generic_format_round; auto with typeclass_instances).
  apply mult_bpow_exact_FLT; [exact F|].
  assert (-102 < mag radix2 x)%Z; [|lia]. apply mag_gt_bpow. exact B.
Qed.
Lemma double_fix x : rnd32 x = x -> rnd32 (2 * x) = 2 * x.
Proof.
  intros E. assert (F : generic_format radix2 (FLT_exp (-149) 24) x) by (rewrite <- E; apply generic_format_round; auto with typeclass_instances).
  apply round_generic; [auto with typeclass_instances|]. rewrite Rmult_comm. change 2 with (bpow radix2 1).
  apply mult_bpow_pos_exact_FLT; [exact F|lia].
Qed.

(** one axis: the position lies between half the lower bound and the upper bound *)
Lemma axis_ok lo hi r : usual_bound lo -> usual_bound hi -> FR lo <= 0 -> 0 <= FR hi -> ffin r = true -> -1 <= FR r <= 1 ->
  let m := fdiv lo ftwo in
  let x := fadd (fdiv (fmul (fsub hi (fdiv m ftwo)) (fadd r f1)) ftwo) m in
  ffin x = true /\ FR lo / 2 <= FR x <= FR hi.
Proof.
  intros (Fl & Sl & Bl) (Fh & Sh & Bh) L H Fr R m x.
  assert (P127 : 4 * bpow radix2 38 <= bpow radix2 127).
  { change 4 with (bpow radix2 2). rewrite <- bpow_plus. apply bpow_le; lia. }
  assert (P0 : 0 < bpow radix2 38) by apply bpow_gt_0.
  rewrite Rabs_left1 in Bl by exact L. rewrite Rabs_pos_eq in Bh by exact H.
  assert (T0 : FR ftwo <> 0) by (rewrite FR_two; lra).
  assert (SM : forall y, Rabs y <= 4 * bpow radix2 38 -> Rabs (rnd32 y) < max32) by (intros y Hy; apply rnd32_small; lra).
  (* m and its half *)
  assert (Em : FR m = FR lo / 2 /\ ffin m = true).
  { destruct (fdiv_R lo ftwo Fl T0) as (E & F). { rewrite FR_two. apply SM. apply Rabs_le; lra. }
    split; [|exact F]. unfold m. rewrite E, FR_two. replace (FR lo / 2) with (FR lo * bpow radix2 (-1)) by (simpl; lra).
    apply shrink; [|lia|apply rnd32_FR]. destruct Sl as [Z|B]; [left; exact Z|right]. eapply Rle_trans; [|exact B]. apply bpow_le; lia. }
  destruct Em as (Em & Fm).
  assert (Es : FR (fdiv m ftwo) = FR lo / 4 /\ ffin (fdiv m ftwo) = true).
  { destruct (fdiv_R m ftwo Fm T0) as (E & F). { rewrite FR_two, Em. apply SM. apply Rabs_le; lra. }
    split; [|exact F]. rewrite E, FR_two, Em. replace (FR lo / 2 / 2) with (FR lo * bpow radix2 (-2)) by (simpl; lra).
    rewrite shrink; [simpl; lra| |lia|apply rnd32_FR]. destruct Sl as [Z|B]; [left; exact Z|right]. eapply Rle_trans; [|exact B]. apply bpow_le; lia. }
  destruct Es as (Es & Fs). set (s := fdiv m ftwo) in *.
  (* the size *)
  destruct (fsub_R hi s Fh Fs) as (Ez & Fz). { rewrite Es. apply SM. apply Rabs_le; lra. }
  set (z := fsub hi s) in *. rewrite Es in Ez.
  assert (Z1 : FR hi <= FR z) by (rewrite Ez, <- (rnd32_FR hi); apply rnd32_le; rewrite rnd32_FR; lra).
  assert (Z2 : FR z <= FR hi - FR lo / 2).
  { pose proof (rnd_nearest hi (FR hi - FR lo / 4)) as N. rewrite <- Ez in N.
    replace (FR hi - (FR hi - FR lo / 4)) with (FR lo / 4) in N by ring. rewrite (Rabs_left1 (FR lo / 4)) in N by lra.
    apply Rabs_le_inv in N. lra. }
  (* the share *)
  assert (E1 : FR f1 = 1) by exact FR_one.
  destruct (fadd_R r f1 Fr eq_refl) as (Ep & Fp). { rewrite E1. apply rnd32_small. apply Rle_trans with (bpow radix2 1); [simpl; apply Rabs_le; lra|apply bpow_le; lia]. }
  set (p := fadd r f1) in *. rewrite E1 in Ep.
  assert (P1 : 0 <= FR p <= 2).
  { rewrite Ep. split.
    - rewrite <- rnd32_0. apply rnd32_le. lra.
    - replace 2 with (rnd32 2) by (apply (rnd32_Z 2); lia). apply rnd32_le. lra. }
  (* the product *)
  assert (ZP : 0 <= FR z * FR p <= 2 * FR z) by (split; [apply Rmult_le_pos; lra|rewrite (Rmult_comm 2); apply Rmult_le_compat_l; lra]).
  destruct (fmul_R z p Fz Fp) as (Eq & Fq). { apply SM. apply Rabs_le. lra. }
  set (q := fmul z p) in *.
  assert (Q : 0 <= FR q <= 2 * FR z).
  { rewrite Eq. split; [rewrite <- rnd32_0; apply rnd32_le; lra|]. rewrite <- (double_fix (FR z)) by apply rnd32_FR. apply rnd32_le. lra. }
  destruct (fdiv_R q ftwo Fq T0) as (Eh & Fhh). { rewrite FR_two. apply SM. apply Rabs_le. lra. }
  set (h := fdiv q ftwo) in *. rewrite FR_two in Eh.
  assert (HH : 0 <= FR h <= FR z).
  { rewrite Eh. split; [rewrite <- rnd32_0; apply rnd32_le; lra|]. rewrite <- (rnd32_FR z). apply rnd32_le. lra. }
  destruct (fadd_R h m Fhh Fm) as (Ex & Fx). { rewrite Em. apply SM. apply Rabs_le. lra. }
  fold x in Ex, Fx. split; [exact Fx|]. rewrite Ex, Em. split.
  - rewrite <- Em, <- (rnd32_FR m). apply rnd32_le. rewrite rnd32_FR, Em. lra.
  - rewrite <- (rnd32_FR hi). apply rnd32_le. rewrite rnd32_FR || idtac. lra.
Qed.

Lemma place_ok lo hi r : around_origin lo hi -> a_draw r ->
  within_box (space_min lo) hi (place lo hi r) /\
  FR (vx (space_min lo)) = FR (vx lo) / 2 /\ FR (vy (space_min lo)) = FR (vy lo) / 2 /\ FR (vz (space_min lo)) = FR (vz lo) / 2.
Proof.
  intros ((L1 & L2 & L3) & (H1 & H2 & H3) & (N1 & N2 & N3) & (P1 & P2 & P3)) ((F1 & R1) & (F2 & R2) & (F3 & R3)).
  assert (HALF : forall a, usual_bound a -> FR (fdiv a ftwo) = FR a / 2).
  { intros a (Fa & Sa & Ba).
    assert (B127 : bpow radix2 38 <= bpow radix2 127) by (apply bpow_le; lia).
    destruct (fdiv_R a ftwo Fa) as (E & F); rewrite ?FR_two in *; [lra| |].
    - apply rnd32_small. unfold Rdiv. rewrite Rabs_mult, (Rabs_pos_eq (/ 2)) by lra. pose proof (Rabs_pos (FR a)). lra.
    - rewrite E. replace (FR a / 2) with (FR a * bpow radix2 (-1)) by (simpl; lra). apply shrink; [|lia|apply rnd32_FR].
      destruct Sa as [Z|B]; [left; exact Z|right]. eapply Rle_trans; [|exact B]. apply bpow_le; lia. }
  unfold within_box, place, space_size, space_min, zip3, map3. cbn [vx vy vz]. rewrite !HALF by assumption.
  split; [|auto]. split; [|split]; apply axis_ok; assumption.
Qed.

(** the loop stops at the first plausible position *)
Lemma attempts_some w lo hi m draws k n p n' : attempts w lo hi m draws k n = Some (p, n') ->
  exists j, (n <= j < n + k)%nat /\ n' = S j /\ p = place lo hi (draws j) /\ plausible w m p = true /\
    forall i, (n <= i < j)%nat -> plausible w m (place lo hi (draws i)) = false.
Proof.
  revert n. induction k as [|k IH]; intros n H; cbn [attempts] in H; [discriminate H|].
  destruct (plausible w m (place lo hi (draws n))) eqn:E.
  - injection H as <- <-. exists n. split; [lia|]. split; [reflexivity|]. split; [reflexivity|]. split; [exact E|]. intros i Hi. lia.
  - apply IH in H. destruct H as (j & J & A & B & C & D). exists j. split; [lia|]. split; [exact A|]. split; [exact B|]. split; [exact C|].
    intros i Hi. destruct (Nat.eq_dec i n) as [-> |]; [exact E|apply D; lia].
Qed.
Lemma attempts_none w lo hi m draws k n : attempts w lo hi m draws k n = None ->
  forall i, (n <= i < n + k)%nat -> plausible w m (place lo hi (draws i)) = false.
Proof.
  revert n. induction k as [|k IH]; intros n H i Hi; [lia|]. cbn [attempts] in H.
  destruct (plausible w m (place lo hi (draws n))) eqn:E; [discriminate H|].
  destruct (Nat.eq_dec i n) as [-> |]; [exact E|]. apply (IH (S n) H). lia.
Qed.

(** twice the distance, in float *)
Lemma twice_ok m : ffin m = true -> 0 <= FR m -> FR m <= bpow radix2 100 ->
  let t := f32_of_f64 (dmul (f64_of_f32 m) d2) in ffin t = true /\ FR t = 2 * FR m.
Proof.
  intros F P B t. destruct (f64_of_f32_R m F) as (E & Fd).
  assert (D2 : DR d2 = 2) by (apply (f64_of_Z_R 2); lia).
  assert (B2 : Rabs (FR m * 2) <= bpow radix2 101).
  { replace (bpow radix2 101) with (bpow radix2 100 * 2) by (change 2 with (bpow radix2 1); rewrite <- bpow_plus; reflexivity).
    rewrite Rabs_pos_eq by lra. lra. }
  destruct (dmul_R (f64_of_f32 m) d2 Fd eq_refl) as (Q & Fq).
  { rewrite E, D2. apply rnd64_small. eapply Rle_trans; [exact B2|apply bpow_le; lia]. }
  rewrite E, D2 in Q.
  assert (X : rnd64 (FR m * 2) = FR m * 2).
  { apply round_generic; [auto with typeclass_instances|]. change 2 with (bpow radix2 1).
    apply mult_bpow_pos_exact_FLT; [|lia]. rewrite <- E. apply DR_format. }
  rewrite X in Q. destruct (f32_of_f64_R (dmul (f64_of_f32 m) d2) Fq) as (R1 & R2).
  { rewrite Q. apply rnd32_small. eapply Rle_trans; [exact B2|apply bpow_le; lia]. }
  split; [exact R2|]. unfold t. rewrite R1, Q. rewrite (Rmult_comm (FR m)). apply double_fix, rnd32_FR.
Qed.
