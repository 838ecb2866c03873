(** Error of the end points of a ray. *)
From Coq Require Import ZArith Reals List Bool Lia Lra.
From Flocq Require Import Core.
From Verif Require Import F32 F32_lemmas F32_err Types Index Layer Update Update_spec Update_proofs Merge_proofs Dist_proofs Sim_geom Vec_proofs Facing_spec Facing_proofs
  Ray Ray_spec Ray_proofs RayEnds_spec.
Import ListNotations.
Open Scope R_scope.

Definition close (x : f32) (r e : R) : Prop := ffin x = true /\ Rabs (FR x - r) <= e.
Lemma close_le : forall x r e e', close x r e -> e <= e' -> close x r e'.
Proof. intros x r e e' (F & H) L. split; auto. lra. Qed.
Lemma close_bound : forall x r e A, close x r e -> Rabs r <= A -> Rabs (FR x) <= A + e.
Proof. intros x r e A (_ & H) B. replace (FR x) with (r + (FR x - r)) by ring. eapply Rle_trans; [apply Rabs_triang|]. lra. Qed.
Lemma u_pos : 0 < u32r. Proof. unfold u32r. lra. Qed.
Lemma close_add : forall x a e y b f A B, close x a e -> close y b f -> Rabs a <= A -> Rabs b <= B -> A + B + e + f <= bpow radix2 100 ->
  close (fadd x y) (a + b) (e + f + u32r * (A + B + e + f)).
Proof.
  intros x a e y b f A B X Y HA HB H. pose proof (close_bound _ _ _ _ X HA) as BX. pose proof (close_bound _ _ _ _ Y HB) as BY.
  assert (S : Rabs (FR x + FR y) <= A + B + e + f) by (eapply Rle_trans; [apply Rabs_triang|]; lra).
  destruct X as (Fx & X), Y as (Fy & Y).
  destruct (fadd_rel x y Fx Fy) as (F & d & Hd & E). { eapply Rle_trans; [exact S|]. eapply Rle_trans; [exact H|]. apply bpow_le. lia. }
  split; auto. rewrite E. replace ((FR x + FR y) * (1 + d) - (a + b)) with ((FR x - a) + (FR y - b) + d * (FR x + FR y)) by ring.
  eapply Rle_trans; [apply Rabs_triang|]. rewrite Rabs_mult.
  assert (Rabs d * Rabs (FR x + FR y) <= u32r * (A + B + e + f)) by (apply Rmult_le_compat; auto using Rabs_pos).
  pose proof (Rabs_triang (FR x - a) (FR y - b)). lra.
Qed.
Lemma close_sub : forall x a e y b f A B, close x a e -> close y b f -> Rabs a <= A -> Rabs b <= B -> A + B + e + f <= bpow radix2 100 ->
  close (fsub x y) (a - b) (e + f + u32r * (A + B + e + f)).
Proof.
  intros x a e y b f A B X Y HA HB H. pose proof (close_bound _ _ _ _ X HA) as BX. pose proof (close_bound _ _ _ _ Y HB) as BY.
  assert (S : Rabs (FR x - FR y) <= A + B + e + f) by (replace (FR x - FR y) with (FR x + - FR y) by ring; eapply Rle_trans; [apply Rabs_triang|]; rewrite Rabs_Ropp; lra).
  destruct X as (Fx & X), Y as (Fy & Y).
  destruct (fsub_rel x y Fx Fy) as (F & d & Hd & E). { eapply Rle_trans; [exact S|]. eapply Rle_trans; [exact H|]. apply bpow_le. lia. }
  split; auto. rewrite E. replace ((FR x - FR y) * (1 + d) - (a - b)) with ((FR x - a) + - (FR y - b) + d * (FR x - FR y)) by ring.
  eapply Rle_trans; [apply Rabs_triang|]. rewrite Rabs_mult.
  assert (Rabs d * Rabs (FR x - FR y) <= u32r * (A + B + e + f)) by (apply Rmult_le_compat; auto using Rabs_pos).
  pose proof (Rabs_triang (FR x - a) (- (FR y - b))). rewrite Rabs_Ropp in *. lra.
Qed.
Lemma close_mul : forall x a e y b f A B, close x a e -> close y b f -> Rabs a <= A -> Rabs b <= B -> (A + e) * (B + f) <= bpow radix2 100 ->
  close (fmul x y) (a * b) (A * f + B * e + e * f + u32r * ((A + e) * (B + f)) + t32r).
Proof.
  intros x a e y b f A B X Y HA HB H. pose proof (close_bound _ _ _ _ X HA) as BX. pose proof (close_bound _ _ _ _ Y HB) as BY.
  assert (S : Rabs (FR x * FR y) <= (A + e) * (B + f)) by (rewrite Rabs_mult; apply Rmult_le_compat; auto using Rabs_pos).
  destruct X as (Fx & X), Y as (Fy & Y).
  destruct (fmul_rel x y Fx Fy) as (F & d & t & Hd & Ht & E). { eapply Rle_trans; [exact S|]. eapply Rle_trans; [exact H|]. apply bpow_le. lia. }
  split; auto. rewrite E. replace (FR x * FR y * (1 + d) + t - a * b) with (a * (FR y - b) + b * (FR x - a) + (FR x - a) * (FR y - b) + d * (FR x * FR y) + t) by ring.
  repeat (eapply Rle_trans; [apply Rabs_triang|]; apply Rplus_le_compat); auto; rewrite Rabs_mult; apply Rmult_le_compat; auto using Rabs_pos.
Qed.
Lemma close_exact : forall x, ffin x = true -> close x (FR x) 0.
Proof. intros x F. split; auto. rewrite Rminus_diag_eq, Rabs_R0; auto. lra. Qed.

(** direction of the ray *)
Lemma norm_sub_bound : forall o p, normR (sub3R p o) <= normR (map3 FR o) + normR (map3 FR p).
Proof.
  intros o p. assert (E : sub3R p o = vadd (map3 FR p) (map3 Ropp (map3 FR o))) by (unfold sub3R, vadd, zip3, map3; cbn [vx vy vz]; f_equal; ring).
  rewrite E. eapply Rle_trans; [apply norm_tri|]. assert (N : normR (map3 Ropp (map3 FR o)) = normR (map3 FR o)).
  { unfold normR. f_equal. unfold dotR, map3. cbn [vx vy vz]. ring. }
  rewrite N. lra.
Qed.
Lemma dir_err : forall o p, all3 (fin_upto 15) o -> all3 (fin_upto 15) p -> bpow radix2 (-20) <= normR (sub3R p o) ->
  near3 (12 * u32r) (normalized3 (pt_sub p o)) (unitR (sub3R p o)).
Proof.
  intros o p O P L. set (D := sub3R p o) in *. set (N := normR D) in *. set (d := pt_sub p o).
  assert (N0 : 0 < N) by (pose proof (bpow_gt_0 radix2 (-20)); lra).
  destruct (comp_le_norm D) as (K1 & K2 & K3). fold N in K1, K2, K3.
  assert (C : forall a b, fin_upto 15 a -> fin_upto 15 b -> Rabs (FR a - FR b) <= N ->
     fin_upto 45 (fsub a b) /\ Rabs (FR (fsub a b) - (FR a - FR b)) <= u32r * N).
  { intros a b A B H. destruct (sub40 a b (upto_mono 15 40 a ltac:(lia) A) (upto_mono 15 40 b ltac:(lia) B)) as (F & Bd & e & He & E). split.
    - split; [exact F|]. rewrite E, Rabs_mult. replace 45%Z with (41 + 4)%Z by lia. rewrite bpow_plus. apply Rmult_le_compat; auto using Rabs_pos.
      apply Rabs_le_inv in He. apply Rabs_le. change (bpow radix2 4) with 16. unfold u32r in He. lra.
    - rewrite E. replace ((FR a - FR b) * (1 + e) - (FR a - FR b)) with (e * (FR a - FR b)) by ring. rewrite Rabs_mult. apply Rmult_le_compat; auto using Rabs_pos. }
  destruct O as (O1 & O2 & O3), P as (P1 & P2 & P3).
  destruct (C _ _ P1 O1 K1) as (F1 & E1), (C _ _ P2 O2 K2) as (F2 & E2), (C _ _ P3 O3 K3) as (F3 & E3). clear C.
  assert (Fd : all3 (fin_upto 45) d) by (split; [exact F1|split; [exact F2|exact F3]]).
  assert (UN : 0 <= u32r * N) by (apply Rmult_le_pos; [pose proof u_pos|]; lra).
  assert (NC : Rabs (normR (vecR d) - N) <= 7 / 4 * (u32r * N)) by (apply norm_close; auto).
  assert (NL : normR (vecR d) >= N / 2) by (apply Rabs_le_inv in NC; unfold u32r in NC; lra).
  assert (dL : bpow radix2 (-50) <= normR (vecR d)).
  { apply Rle_trans with (bpow radix2 (-21)); [apply bpow_le; lia|]. change (-20)%Z with (-21 + 1)%Z in L. rewrite (bpow_plus radix2 (-21) 1) in L. change (bpow radix2 1) with 2 in L. lra. }
  destruct (normalized_err d Fd dL) as (G & D1 & D2 & D3). destruct (comp_le_norm (vecR d)) as (J1 & J2 & J3).
  assert (Q : forall n c nn, Rabs c <= normR (vecR d) -> Rabs (c - nn) <= u32r * N -> Rabs (n - c / normR (vecR d)) <= 9 * u32r -> Rabs (n - nn / N) <= 12 * u32r).
  { intros n c nn Hc H1 H3. set (Cn := normR (vecR d)) in *. assert (C0 : 0 < Cn) by lra.
    replace (n - nn / N) with ((n - c / Cn) + ((c - nn) + c / Cn * (N - Cn)) / N) by (field; lra).
    eapply Rle_trans; [apply Rabs_triang|].
    assert (B1 : Rabs (c / Cn) <= 1).
    { unfold Rdiv. rewrite Rabs_mult, (Rabs_pos_eq (/ Cn)) by (left; apply Rinv_0_lt_compat; auto).
      apply (Rmult_le_reg_r Cn); auto. rewrite Rmult_assoc, Rinv_l by lra. lra. }
    assert (IN : 0 < / N) by (apply Rinv_0_lt_compat; auto).
    assert (S : Rabs ((c - nn) + c / Cn * (N - Cn)) <= 3 * u32r * N).
    { eapply Rle_trans; [apply Rabs_triang|]. rewrite Rabs_mult, (Rabs_minus_sym N Cn).
      assert (Rabs (c / Cn) * Rabs (Cn - N) <= 1 * (7 / 4 * (u32r * N))) by (apply Rmult_le_compat; auto using Rabs_pos). lra. }
    unfold Rdiv at 2. rewrite Rabs_mult, (Rabs_pos_eq (/ N)) by lra.
    assert (S2 : Rabs ((c - nn) + c / Cn * (N - Cn)) * / N <= 3 * u32r * N * / N) by (apply Rmult_le_compat_r; lra).
    rewrite Rmult_assoc, Rinv_r in S2 by lra. lra. }
  split; [exact G|]. split; [exact (Q _ _ _ J1 E1 D1)|split; [exact (Q _ _ _ J2 E2 D2)|exact (Q _ _ _ J3 E3 D3)]].
Qed.

(** one axis of a point at distance [l] from [b] *)
Definition sumS (o p : pt3) (T : f32) : R := normR (map3 FR o) + normR (map3 FR p) + FR T.
Lemma axis_move : forall S n u l lr b, bpow radix2 (-20) <= S -> S <= bpow radix2 22 -> close n u (12 * u32r) -> Rabs u <= 1 ->
  close l lr (13 * u32r * S) -> Rabs lr <= S -> ffin b = true -> Rabs (FR b) <= S ->
  close (fadd b (fmul n l)) (FR b + lr * u) (30 * u32r * S) /\ close (fsub b (fmul n l)) (FR b - lr * u) (30 * u32r * S) /\
  Rabs (FR b + lr * u) <= 2 * S /\ Rabs (FR b - lr * u) <= 2 * S.
Proof.
  intros S n u l lr b S1 S2 Hn Hu Hl Hlr Fb Hb. pose proof u_pos as U.
  assert (SP : 0 < S) by (pose proof (bpow_gt_0 radix2 (-20)); lra).
  assert (TS : t32r <= u32r * S / 1000).
  { apply Rle_trans with (u32r * bpow radix2 (-20) / 1000); [|apply Rmult_le_compat_r; [lra|apply Rmult_le_compat_l; lra]].
    rewrite <- bpow_m24, <- bpow_plus. unfold t32r. apply Rle_trans with (bpow radix2 (-54)); [apply bpow_le; lia|].
    change (-24 + -20)%Z with (-54 + 10)%Z. rewrite (bpow_plus radix2 (-54) 10). change (bpow radix2 10) with 1024. pose proof (bpow_gt_0 radix2 (-54)). lra. }
  assert (B100 : 4 * bpow radix2 22 <= bpow radix2 100) by (change 4 with (bpow radix2 2); rewrite <- bpow_plus; apply bpow_le; lia).
  assert (US : u32r * (13 * u32r * S) <= u32r * S / 1000).
  { replace (u32r * (13 * u32r * S)) with ((u32r * S) * (13 * u32r)) by ring. replace (u32r * S / 1000) with ((u32r * S) * / 1000) by (unfold Rdiv; ring).
    apply Rmult_le_compat_l; [apply Rmult_le_pos; lra|unfold u32r; lra]. }
  assert (US0 : 0 < u32r * S) by (apply Rmult_lt_0_compat; lra).
  assert (US1 : u32r * S <= S / 1000000) by (unfold u32r; lra).
  assert (M : close (fmul n l) (u * lr) (27 * u32r * S)).
  { eapply close_le; [apply (close_mul n u (12 * u32r) l lr (13 * u32r * S) 1 S Hn Hl Hu Hlr)|].
    - apply Rle_trans with (2 * (2 * S)); [apply Rmult_le_compat; unfold u32r; lra|]. lra.
    - replace (u32r * ((1 + 12 * u32r) * (S + 13 * u32r * S))) with (u32r * S + u32r * (13 * u32r * S) + 12 * u32r * (u32r * S) + 12 * u32r * (u32r * (13 * u32r * S))) by ring.
      assert (12 * u32r * (u32r * S) <= u32r * S / 1000) by (unfold u32r in *; lra).
      assert (12 * u32r * (u32r * (13 * u32r * S)) <= u32r * S / 1000) by (unfold u32r in *; lra).
      assert (12 * u32r * (13 * u32r * S) <= u32r * S / 50) by lra. lra. }
  assert (PB : Rabs (u * lr) <= S). { rewrite Rabs_mult. rewrite <- (Rmult_1_l S). apply Rmult_le_compat; auto using Rabs_pos. }
  rewrite !(Rmult_comm lr u).
  assert (BIG : S + S + 0 + 27 * u32r * S <= bpow radix2 100) by lra.
  assert (LE : 0 + 27 * u32r * S + u32r * (S + S + 0 + 27 * u32r * S) <= 30 * u32r * S).
  { replace (u32r * (S + S + 0 + 27 * u32r * S)) with (2 * (u32r * S) + 27 * u32r * (u32r * S)) by ring.
    assert (27 * u32r * (u32r * S) <= u32r * S / 2) by (unfold u32r in *; lra). lra. }
  split; [|split; [|split]].
  - eapply close_le; [apply (close_add b (FR b) 0 _ _ _ S S (close_exact b Fb) M Hb PB BIG)|exact LE].
  - eapply close_le; [apply (close_sub b (FR b) 0 _ _ _ S S (close_exact b Fb) M Hb PB BIG)|exact LE].
  - eapply Rle_trans; [apply Rabs_triang|]. lra.
  - replace (FR b - u * lr) with (FR b + - (u * lr)) by ring. eapply Rle_trans; [apply Rabs_triang|]. rewrite Rabs_Ropp. lra.
Qed.

(** scaling and rounding down to a voxel *)
Lemma int64_some : forall z, (- 2 ^ 62 <= z <= 2 ^ 62)%Z -> to_int64 (Some z) = Some z.
Proof. intros z H. unfold to_int64, in_range. replace ((_ <=? z)%Z && (z <=? _)%Z) with true; [reflexivity|]. symmetry. apply andb_true_iff. rewrite !Z.leb_le. lia. Qed.
Lemma axis_voxel : forall S x r inv, bpow radix2 (-20) <= S -> S <= bpow radix2 20 -> close x r (30 * u32r * S) -> Rabs r <= 2 * S ->
  ffin inv = true -> bpow radix2 (-20) <= FR inv <= bpow radix2 10 -> S * FR inv <= bpow radix2 28 ->
  exists i, scaled_grid_axis (fmul x inv) = Some i /\ (Z.abs i <= 2 ^ 29 + 2000)%Z /\
    in_cell (bpow radix2 (-18) * (S * FR inv) + 2 / 1000000) (r * FR inv) i.
Proof.
  intros S x r inv S1 S2 Hx Hr Fi Hi SI. pose proof u_pos as U. set (v := FR inv) in *.
  assert (SP : 0 < S) by (pose proof (bpow_gt_0 radix2 (-20)); lra). assert (VP : 0 < v) by (pose proof (bpow_gt_0 radix2 (-20)); lra).
  set (Q := S * v) in *. assert (QP : 0 < Q) by (apply Rmult_lt_0_compat; auto).
  assert (QL : bpow radix2 (-40) <= Q) by (unfold Q; change (-40)%Z with (-20 + -20)%Z; rewrite bpow_plus; apply Rmult_le_compat; try apply bpow_ge_0; lra).
  assert (TQ : t32r <= u32r * Q / 2).
  { apply Rle_trans with (u32r * bpow radix2 (-40) / 2); [|apply Rmult_le_compat_r; [lra|apply Rmult_le_compat_l; lra]].
    rewrite <- bpow_m24, <- bpow_plus. unfold t32r. apply Rle_trans with (bpow radix2 (-65)); [apply bpow_le; lia|].
    change (-24 + -40)%Z with (-65 + 1)%Z. rewrite (bpow_plus radix2 (-65) 1). change (bpow radix2 1) with 2. lra. }
  assert (P28 : bpow radix2 28 = 268435456) by reflexivity.
  assert (P100 : 1000000000000 <= bpow radix2 100). { apply Rle_trans with (bpow radix2 40); [cbn; lra|apply bpow_le; lia]. }
  assert (UQ : 0 < u32r * Q) by (apply Rmult_lt_0_compat; lra).
  assert (UQ2 : u32r * (u32r * Q) <= u32r * Q / 1000000) by (unfold u32r in *; lra).
  assert (M : close (fmul x inv) (r * v) (33 * u32r * Q)).
  { eapply close_le; [apply (close_mul x r (30 * u32r * S) inv v 0 (2 * S) v Hx (close_exact inv Fi) Hr)|].
    - rewrite Rabs_pos_eq by lra. apply Rle_refl.
    - replace ((2 * S + 30 * u32r * S) * (v + 0)) with (Q * (2 + 30 * u32r)) by (unfold Q; ring).
      assert (Q * (2 + 30 * u32r) <= 268435456 * 3) by (apply Rmult_le_compat; try lra; unfold u32r; lra). lra.
    - replace (2 * S * 0 + v * (30 * u32r * S) + 30 * u32r * S * 0 + u32r * ((2 * S + 30 * u32r * S) * (v + 0)))
        with (32 * (u32r * Q) + 30 * (u32r * (u32r * Q))) by (unfold Q; ring). lra. }
  assert (RB : Rabs (r * v) <= 2 * Q).
  { rewrite Rabs_mult, (Rabs_pos_eq v) by lra. unfold Q. rewrite <- Rmult_assoc. apply Rmult_le_compat_r; lra. }
  destruct kEpsilon_pos as (KP & FK). assert (KB : FR kEpsilon <= 11 / 10000000).
  { assert (E : FR kEpsilon = IZR 8796093 * bpow radix2 (-43)) by reflexivity. rewrite E. cbn. lra. }
  assert (G : close (fadd (fmul x inv) kEpsilon) (r * v + FR kEpsilon) (33 * u32r * Q + 0 + u32r * (2 * Q + 2 / 1000000 + 33 * u32r * Q + 0))).
  { apply close_add; auto using close_exact; [rewrite Rabs_pos_eq; lra|]. unfold u32r. lra. }
  destruct G as (FG & G). set (w := FR (fadd (fmul x inv) kEpsilon)) in *.
  assert (GE : Rabs (w - (r * v + FR kEpsilon)) <= 36 * (u32r * Q) + 1 / 1000000000).
  { eapply Rle_trans; [exact G|]. replace (u32r * (2 * Q + 2 / 1000000 + 33 * u32r * Q + 0)) with (2 * (u32r * Q) + 33 * (u32r * (u32r * Q)) + u32r * (2 / 1000000)) by ring.
    assert (u32r * (2 / 1000000) <= 1 / 1000000000) by (unfold u32r; lra). lra. }
  assert (Z1 : IZR (Zfloor w) <= w) by apply Zfloor_lb. assert (Z2 : w < IZR (Zfloor w) + 1) by apply Zfloor_ub.
  apply Rabs_le_inv in GE. apply Rabs_le_inv in RB.
  assert (UQ3 : 36 * (u32r * Q) <= 1000) by (unfold u32r in *; lra).
  assert (B1 : (Zfloor w < 2 ^ 29 + 2000)%Z). { apply lt_IZR. change (IZR (2 ^ 29 + 2000)) with 536872912. lra. }
  assert (B2 : (- (2 ^ 29 + 2000) < Zfloor w)%Z). { apply lt_IZR. change (IZR (- (2 ^ 29 + 2000))) with (-536872912). lra. }
  exists (Zfloor w). split; [|split].
  - unfold scaled_grid_axis. rewrite (ffloorZ_R _ FG). apply int64_some. fold w. lia.
  - lia.
  - unfold in_cell. assert (K18 : bpow radix2 (-18) * Q = 64 * (u32r * Q)).
    { rewrite <- bpow_m24. change 64 with (bpow radix2 6). rewrite <- Rmult_assoc, <- bpow_plus. reflexivity. }
    rewrite K18. lra.
Qed.

Definition good (S : R) (x : pt3) (r : v3 R) : Prop :=
  (close (vx x) (vx r) (30 * u32r * S) /\ Rabs (vx r) <= 2 * S) /\ (close (vy x) (vy r) (30 * u32r * S) /\ Rabs (vy r) <= 2 * S) /\
  (close (vz x) (vz r) (30 * u32r * S) /\ Rabs (vz r) <= 2 * S).
Lemma good_voxel : forall S x r inv, bpow radix2 (-20) <= S -> S <= bpow radix2 20 -> good S x r ->
  ffin inv = true -> bpow radix2 (-20) <= FR inv <= bpow radix2 10 -> S * FR inv <= bpow radix2 28 ->
  exists v, getGridIndexFromScaledPoint (pt_scale x inv) = Some v /\ all3 (fun i => (Z.abs i <= 2 ^ 29 + 2000)%Z) v /\
    in_voxel (bpow radix2 (-18) * (S * FR inv) + 2 / 1000000) (FR inv) r v.
Proof.
  intros S x r inv S1 S2 ((X1 & X2) & (Y1 & Y2) & (Z1 & Z2)) Fi Hi SI.
  destruct (axis_voxel S _ _ inv S1 S2 X1 X2 Fi Hi SI) as (i & Ei & Bi & Ci).
  destruct (axis_voxel S _ _ inv S1 S2 Y1 Y2 Fi Hi SI) as (j & Ej & Bj & Cj).
  destruct (axis_voxel S _ _ inv S1 S2 Z1 Z2 Fi Hi SI) as (k & Ek & Bk & Ck).
  exists (V3 i j k). split; [|split].
  - unfold getGridIndexFromScaledPoint, pt_scale, seq3, map3. cbn [vx vy vz]. now rewrite Ei, Ej, Ek.
  - repeat split; assumption.
  - repeat split; first [apply Ci|apply Cj|apply Ck].
Qed.

Section Ends.
  Variables (o p : pt3) (T L inv : f32).
  Hypothesis A : ray_args o p T L inv.
  Let S := sumS o p T.
  Let D := sub3R p o.
  Let N := normR D.
  Let u := normalized3 (pt_sub p o).

  Lemma norm_15 : forall q, all3 (fin_upto 15) q -> 0 <= normR (map3 FR q) <= 7 / 4 * bpow radix2 15.
  Proof.
    intros q ((F1 & B1) & (F2 & B2) & (F3 & B3)). split; [apply norm_nn|]. apply norm_small; auto using bpow_ge_0.
  Qed.
  Lemma S_facts : bpow radix2 (-20) <= S /\ S <= bpow radix2 18 /\ N <= S /\ 0 <= FR T <= S /\ 0 < N /\ N <= bpow radix2 18 /\
    normR (map3 FR o) <= S /\ normR (map3 FR p) <= S /\ N + FR T <= S.
  Proof.
    destruct A as (O & P & (_ & HT) & T0 & _ & _ & _ & _ & HN). destruct (norm_15 o O), (norm_15 p P).
    pose proof (norm_sub_bound o p) as NB. fold D in NB, HN. fold N in NB, HN. unfold S, sumS.
    rewrite Rabs_pos_eq in HT by exact T0. pose proof (bpow_gt_0 radix2 (-20)).
    change (bpow radix2 18) with 262144. change (bpow radix2 15) with 32768 in *. repeat split; lra.
  Qed.
  Lemma u_close : near3 (12 * u32r) u (unitR D).
  Proof. destruct A as (O & P & _ & _ & _ & _ & _ & _ & HN). exact (dir_err o p O P HN). Qed.
  Lemma unit_le : Rabs (vx D / N) <= 1 /\ Rabs (vy D / N) <= 1 /\ Rabs (vz D / N) <= 1.
  Proof.
    destruct S_facts as (_ & _ & _ & _ & NP & _). destruct (comp_le_norm D) as (K1 & K2 & K3). fold N in K1, K2, K3.
    assert (Q : forall c, Rabs c <= N -> Rabs (c / N) <= 1).
    { intros c H. unfold Rdiv. rewrite Rabs_mult, (Rabs_pos_eq (/ N)) by (left; apply Rinv_0_lt_compat; auto).
      apply (Rmult_le_reg_r N); auto. rewrite Rmult_assoc, Rinv_l by lra. lra. }
    repeat split; apply Q; assumption.
  Qed.
  Lemma good_move : forall l lr b, close l lr (13 * u32r * S) -> Rabs lr <= S -> all3 (fun c => ffin c = true) b -> normR (map3 FR b) <= S ->
    good S (pt_add b (pt_scale u l)) (further o p lr b) /\ good S (pt_sub b (pt_scale u l)) (further o p (- lr) b).
  Proof.
    intros l lr b Hl Hlr (F1 & F2 & F3) HB. destruct S_facts as (S1 & S2 & _). destruct u_close as ((G1 & G2 & G3) & E1 & E2 & E3).
    destruct unit_le as (U1 & U2 & U3). destruct (comp_le_norm (map3 FR b)) as (B1 & B2 & B3).
    assert (S3 : S <= bpow radix2 22) by (eapply Rle_trans; [exact S2|]; apply bpow_le; lia).
    assert (BL : forall x, x <= normR (map3 FR b) -> x <= S) by (intros; lra). apply BL in B1, B2, B3. clear BL.
    destruct (axis_move S _ _ l lr (vx b) S1 S3 (conj G1 E1) U1 Hl Hlr F1 B1) as (M1 & M2 & M3 & M4).
    destruct (axis_move S _ _ l lr (vy b) S1 S3 (conj G2 E2) U2 Hl Hlr F2 B2) as (M5 & M6 & M7 & M8).
    destruct (axis_move S _ _ l lr (vz b) S1 S3 (conj G3 E3) U3 Hl Hlr F3 B3) as (M9 & M10 & M11 & M12).
    split; unfold good, further, pt_add, pt_sub, pt_scale, zip3, map3; fold D; fold N; cbn [vx vy vz].
    - repeat split; try apply M1; try apply M5; try apply M9; assumption.
    - replace (FR (vx b) + - lr * (vx D / N)) with (FR (vx b) - lr * (vx D / N)) by ring.
      replace (FR (vy b) + - lr * (vy D / N)) with (FR (vy b) - lr * (vy D / N)) by ring.
      replace (FR (vz b) + - lr * (vz D / N)) with (FR (vz b) - lr * (vz D / N)) by ring.
      repeat split; try apply M2; try apply M6; try apply M10; assumption.
  Qed.
  Lemma good_self : forall b, all3 (fun c => ffin c = true) b -> normR (map3 FR b) <= S -> good S b (map3 FR b).
  Proof.
    intros b (F1 & F2 & F3) HB. destruct (comp_le_norm (map3 FR b)) as (B1 & B2 & B3). destruct S_facts as (S1 & _).
    assert (SP : 0 < S) by (pose proof (bpow_gt_0 radix2 (-20)); lra). assert (E : 0 <= 30 * u32r * S) by (unfold u32r; lra).
    repeat split; try assumption; cbn [map3 vx vy vz] in *; try (rewrite Rminus_diag_eq, Rabs_R0; auto); lra.
  Qed.
  Lemma fin15 : forall q, all3 (fin_upto 15) q -> all3 (fun c => ffin c = true) q.
  Proof. intros q ((F1 & _) & (F2 & _) & (F3 & _)). repeat split; assumption. Qed.
  Lemma fmin_R a b : ffin a = true -> ffin b = true -> ffin (fmin a b) = true /\ FR (fmin a b) = Rmin (FR a) (FR b).
  Proof.
    intros Fa Fb. unfold fmin. destruct (flt b a) eqn:E.
    - apply (proj1 (flt_R b a Fb Fa)) in E. split; auto. unfold Rmin. destruct (Rle_dec (FR a) (FR b)); lra.
    - split; auto. unfold Rmin. destruct (Rle_dec (FR a) (FR b)); auto. exfalso.
      assert (flt b a = true) by (apply flt_R; auto; lra). congruence.
  Qed.
  Lemma Rmin_close a a' b e : Rabs (a' - a) <= e -> Rabs (Rmin a' b - Rmin a b) <= e.
  Proof.
    intros H. assert (0 <= e) by (eapply Rle_trans; [apply Rabs_pos|exact H]). apply Rabs_le_inv in H. apply Rabs_le. unfold Rmin.
    destruct (Rle_dec a' b); destruct (Rle_dec a b); lra.
  Qed.
  Let len := Rmin (Rmax (N - FR T) 0) (FR L).
  Lemma len_close : close (fmin (fmax (fsub (norm3 (pt_sub p o)) T) f0) L) len (13 * u32r * S) /\ Rabs len <= S.
  Proof.
    destruct A as (O & P & (FT & HT) & T0 & (FL & _) & L0 & _ & _ & HN). fold D in HN. fold N in HN.
    destruct S_facts as (S1 & S2 & S3 & S4 & NP & N18 & _ & _ & NT). pose proof u_pos as U.
    destruct (norm_err p o) as (Fn & e & He & En).
    { apply (upto3_mono 15 40); [lia|exact P]. } { apply (upto3_mono 15 40); [lia|exact O]. }
    { eapply Rle_trans; [|exact HN]. apply bpow_le. lia. }
    fold D in En. fold N in En.
    assert (Cn : close (norm3 (pt_sub p o)) N (11 * u32r * N)).
    { split; [exact Fn|]. rewrite En. replace (N * (1 + e) - N) with (e * N) by ring. rewrite Rabs_mult, (Rabs_pos_eq N) by lra.
      apply Rmult_le_compat_r; lra. }
    assert (UN : 0 < u32r * N) by (apply Rmult_lt_0_compat; lra).
    assert (Cs : close (fsub (norm3 (pt_sub p o)) T) (N - FR T) (13 * u32r * S)).
    { eapply close_le; [apply (close_sub _ _ _ _ _ _ N (FR T) Cn (close_exact T FT))|].
      - rewrite Rabs_pos_eq; lra. - rewrite Rabs_pos_eq; lra.
      - apply Rle_trans with (2 * bpow radix2 18 + bpow radix2 18); [unfold u32r in *; lra|].
        apply Rle_trans with (4 * bpow radix2 18); [pose proof (bpow_gt_0 radix2 18); lra|]. change 4 with (bpow radix2 2). rewrite <- bpow_plus. apply bpow_le. lia.
      - replace (u32r * (N + FR T + 11 * u32r * N + 0)) with (u32r * (N + FR T) + 11 * u32r * (u32r * N)) by ring.
        assert (u32r * (N + FR T) <= u32r * S) by (apply Rmult_le_compat_l; lra).
        assert (u32r * N <= u32r * S) by (apply Rmult_le_compat_l; lra).
        assert (11 * u32r * (u32r * N) <= u32r * N / 2) by (unfold u32r in *; lra). lra. }
    destruct Cs as (Fs & Cs). destruct (fmax_R _ f0 Fs eq_refl) as (Fm & Em). change (FR f0) with 0 in Em.
    destruct (fmin_R _ L Fm FL) as (Fl & El). split.
    - split; [exact Fl|]. rewrite El, Em. unfold len. apply Rmin_close. apply Rmax_close; [exact Cs|]. rewrite Rminus_diag_eq, Rabs_R0; auto. unfold u32r. lra.
    - assert (0 <= len) by (unfold len; apply Rmin_glb; [apply Rmax_r|exact L0]).
      assert (len <= S). { unfold len. eapply Rle_trans; [apply Rmin_l|]. apply Rmax_lub; lra. }
      rewrite Rabs_pos_eq; auto.
  Qed.

  Lemma ends_ok : forall clearing carving, exists s e,
    ray_points o p clearing carving L inv T = (pt_scale s inv, pt_scale e inv) /\
    good S s (ray_near clearing carving (FR T) (FR L) o p) /\ good S e (ray_far clearing (FR T) (FR L) o p).
  Proof.
    intros clearing carving. destruct S_facts as (S1 & S2 & _ & TS & _ & _ & HO & HP & _).
    destruct A as (O & P & (FT & _) & T0 & _). pose proof u_pos.
    assert (CT : close T (FR T) (13 * u32r * S)). { eapply close_le; [apply close_exact; exact FT|]. apply Rmult_le_pos; [lra|]. pose proof (bpow_gt_0 radix2 (-20)). lra. }
    assert (TB : Rabs (FR T) <= S) by (rewrite Rabs_pos_eq; lra).
    destruct len_close as (CL & LB).
    destruct (good_move _ _ o CL LB (fin15 o O) HO) as (GL & _). destruct (good_move _ _ p CT TB (fin15 p P) HP) as (GF & GN).
    pose proof (good_self o (fin15 o O) HO) as GO.
    unfold ray_points. fold u. destruct clearing, carving; (eexists; eexists; split; [reflexivity|]); unfold ray_near, ray_far; split; assumption.
  Qed.
End Ends.
