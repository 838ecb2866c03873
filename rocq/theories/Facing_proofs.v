(** Orientation of the triangles of marching cubes, and of stored normals. *)
From Coq Require Import ZArith Reals List Bool Lia Lra.
From Flocq Require Import Core.
From Verif Require Import F32 F32_lemmas F32_err Types Index Voxel Assoc Layer Ray Update Update_spec Merge_proofs Dist_proofs
  Marching MeshInt Mesh_spec Mesh_proofs Connect_proofs Vec_proofs Facing_spec.
Import ListNotations.
Open Scope R_scope.

(** ** the table *)
Definition crossZ (a b : idx3) : idx3 :=
  (V3 (vy a * vz b - vz a * vy b) (vz a * vx b - vx a * vz b) (vx a * vy b - vy a * vx b))%Z.
Definition dotZ (a b : idx3) : Z := (vx a * vx b + vy a * vy b + vz a * vz b)%Z.
Definition neg_b (p : Z) (e : nat) : idx3 :=
  corner_offset (if inside_b p (fst (edge_ends e)) then fst (edge_ends e) else snd (edge_ends e)).
Definition pos_b (p : Z) (e : nat) : idx3 :=
  corner_offset (if inside_b p (fst (edge_ends e)) then snd (edge_ends e) else fst (edge_ends e)).
Definition volZ (a b c d : idx3) : Z := dotZ (crossZ (idx_sub b a) (idx_sub c a)) d.
(** the values of a function affine in each of three arguments at the corners of the unit cube *)
Definition corners (F : bool -> bool -> bool -> Z) : list Z :=
  [F false false false; F false false true; F false true false; F false true true;
   F true false false; F true false true; F true true false; F true true true].
Definition pos8 (F : bool -> bool -> bool -> Z) : bool :=
  forallb (Z.leb 0) (corners F) && existsb (Z.ltb 0) (corners F).
Definition pick (p : Z) (e : nat) (b : bool) : idx3 := if b then pos_b p e else neg_b p e.
Definition toward (p : Z) (a b c : nat) (d : idx3) : bool :=
  pos8 (fun x y z => volZ (pick p a x) (pick p b y) (pick p c z) d).
Definition front_b (p : Z) (e : nat) : idx3 := idx_sub (pos_b p e) (neg_b p e).
Definition facing_check (p : Z) : bool :=
  forallb (fun t => let '(a, b, c) := t in
     toward p a b c (idx_add (idx_add (front_b p a) (front_b p b)) (front_b p c)) &&
     (let ta := toward p a b c (front_b p a) in let tb := toward p a b c (front_b p b) in let tc := toward p a b c (front_b p c) in
      (ta && tb) || (tb && tc) || (ta && tc))) (tris p).
Lemma facing_checked : forallb facing_check pats = true.
Proof. vm_compute. reflexivity. Qed.

(** ** multi-affine functions *)
Definition mixR (tau : R) (a b : v3 R) : v3 R := vadd a (vscale tau (vsub b a)).
Definition vol (a b c d : v3 R) : R := dotR (facing a b c) d.
Lemma vol_mix : forall x y z a a' b b' c c' d,
  vol (mixR x a a') (mixR y b b') (mixR z c c') d =
  (1 - x) * (1 - y) * (1 - z) * vol a b c d + (1 - x) * (1 - y) * z * vol a b c' d +
  (1 - x) * y * (1 - z) * vol a b' c d + (1 - x) * y * z * vol a b' c' d +
  x * (1 - y) * (1 - z) * vol a' b c d + x * (1 - y) * z * vol a' b c' d +
  x * y * (1 - z) * vol a' b' c d + x * y * z * vol a' b' c' d.
Proof.
  intros. unfold vol, dotR, facing, crossR, mixR, vadd, vsub, vscale, zip3, map3. cbn [vx vy vz]. ring.
Qed.
Definition posR (g : idx3) : v3 R := map3 IZR g.
Lemma vol_Z : forall a b c d, vol (posR a) (posR b) (posR c) (posR d) = IZR (volZ a b c d).
Proof.
  intros. unfold vol, volZ, dotR, dotZ, facing, crossR, crossZ, vsub, posR, idx_sub, zip3, map3. cbn [vx vy vz].
  rewrite !plus_IZR, !mult_IZR, !minus_IZR, !mult_IZR, !minus_IZR. reflexivity.
Qed.
Lemma sub_posR : forall a b, vsub (posR a) (posR b) = posR (idx_sub a b).
Proof. intros. unfold vsub, posR, idx_sub, zip3, map3. cbn [vx vy vz]. now rewrite !minus_IZR. Qed.
Lemma add_posR : forall a b, vadd (posR a) (posR b) = posR (idx_add a b).
Proof. intros. unfold vadd, posR, idx_add, zip3, map3. cbn [vx vy vz]. now rewrite !plus_IZR. Qed.

Lemma pos8_ok : forall p a b c d x y z, toward p a b c d = true -> 0 < x < 1 -> 0 < y < 1 -> 0 < z < 1 ->
  0 < vol (mixR x (posR (neg_b p a)) (posR (pos_b p a))) (mixR y (posR (neg_b p b)) (posR (pos_b p b)))
          (mixR z (posR (neg_b p c)) (posR (pos_b p c))) (posR d).
Proof.
  intros p a b c d x y z H X Y Z'. rewrite vol_mix, !vol_Z. unfold toward, pos8 in H. apply andb_true_iff in H. destruct H as (H1 & H2).
  unfold corners, pick in H1, H2. cbn [forallb existsb] in H1, H2.
  rewrite !andb_true_iff, !Z.leb_le in H1. rewrite !orb_true_iff, !Z.ltb_lt in H2.
  destruct H1 as (A1 & A2 & A3 & A4 & A5 & A6 & A7 & A8 & _).
  assert (W : forall u v w k, (0 <= k)%Z -> 0 < u -> 0 < v -> 0 < w -> 0 <= u * v * w * IZR k /\ ((0 < k)%Z -> 0 < u * v * w * IZR k)).
  { intros u v w k K U V W. assert (0 < u * v * w) by (repeat apply Rmult_lt_0_compat; auto). split.
    - apply Rmult_le_pos; [lra|]. now apply IZR_le.
    - intros. apply Rmult_lt_0_compat; auto. now apply IZR_lt. }
  destruct (W (1 - x) (1 - y) (1 - z) _ A1 ltac:(lra) ltac:(lra) ltac:(lra)) as (B1 & C1).
  destruct (W (1 - x) (1 - y) z _ A2 ltac:(lra) ltac:(lra) ltac:(lra)) as (B2 & C2).
  destruct (W (1 - x) y (1 - z) _ A3 ltac:(lra) ltac:(lra) ltac:(lra)) as (B3 & C3).
  destruct (W (1 - x) y z _ A4 ltac:(lra) ltac:(lra) ltac:(lra)) as (B4 & C4).
  destruct (W x (1 - y) (1 - z) _ A5 ltac:(lra) ltac:(lra) ltac:(lra)) as (B5 & C5).
  destruct (W x (1 - y) z _ A6 ltac:(lra) ltac:(lra) ltac:(lra)) as (B6 & C6).
  destruct (W x y (1 - z) _ A7 ltac:(lra) ltac:(lra) ltac:(lra)) as (B7 & C7).
  destruct (W x y z _ A8 ltac:(lra) ltac:(lra) ltac:(lra)) as (B8 & C8).
  clear W. repeat (destruct H2 as [H2|H2]); try discriminate H2;
    [apply C1 in H2|apply C2 in H2|apply C3 in H2|apply C4 in H2|apply C5 in H2|apply C6 in H2|apply C7 in H2|apply C8 in H2]; lra.
Qed.

Lemma ends_b : forall s e, (e < 12)%nat -> let p := calculateVertexConfiguration s in
  corner_pos (neg_end s e) = posR (neg_b p e) /\ corner_pos (pos_end s e) = posR (pos_b p e).
Proof.
  intros s e He p. destruct (pairs_small e He) as (H1 & _ & _). unfold corner_pos, posR, neg_b, pos_b, neg_end, pos_end.
  unfold p. rewrite (inside_bit s _ H1). now destruct (flt _ _).
Qed.
Lemma facing_ok : forall s (tau : nat -> R) a b c, In (a, b, c) (cube_triangles s) -> (forall e, 0 < tau e < 1) ->
  let N := facing (on_edge s (tau a) a) (on_edge s (tau b) b) (on_edge s (tau c) c) in
  0 < dotR N (vadd (vadd (to_front s a) (to_front s b)) (to_front s c)) /\
  ((0 < dotR N (to_front s a) /\ 0 < dotR N (to_front s b)) \/ (0 < dotR N (to_front s b) /\ 0 < dotR N (to_front s c)) \/
   (0 < dotR N (to_front s a) /\ 0 < dotR N (to_front s c))).
Proof.
  intros s tau a b c Ht T N. set (p := calculateVertexConfiguration s).
  assert (E12 : forall e, In e [a; b; c] -> (e < 12)%nat) by (intros e He; exact (proj1 (cube_edges s (a, b, c) e Ht He))).
  destruct (ends_b s a (E12 a ltac:(cbn; tauto))) as (Na & Pa), (ends_b s b (E12 b ltac:(cbn; tauto))) as (Nb & Pb), (ends_b s c (E12 c ltac:(cbn; tauto))) as (Nc & Pc).
  fold p in Na, Pa, Nb, Pb, Nc, Pc.
  pose proof facing_checked as C. rewrite forallb_forall in C. specialize (C p (pats_In p (proj1 (config_bits s)))).
  unfold facing_check in C. rewrite forallb_forall in C. specialize (C (a, b, c) Ht). cbv beta iota zeta in C.
  apply andb_true_iff in C. destruct C as (C0 & C1).
  assert (K : forall d, toward p a b c d = true -> 0 < dotR N (posR d)).
  { intros d Hd. pose proof (pos8_ok p a b c d _ _ _ Hd (T a) (T b) (T c)) as Q. unfold N, on_edge, to_front.
    rewrite Na, Pa, Nb, Pb, Nc, Pc. exact Q. }
  unfold to_front. rewrite Na, Pa, Nb, Pb, Nc, Pc. rewrite !sub_posR, !add_posR.
  split; [apply K; exact C0|]. unfold front_b in C1. rewrite !orb_true_iff, !andb_true_iff in C1. intuition auto.
Qed.

(** ** error of the stored normal *)
Lemma upto_mono : forall j k x, (j <= k)%Z -> fin_upto j x -> fin_upto k x.
Proof. intros j k x L (F & B). split; auto. eapply Rle_trans; [exact B|]. now apply bpow_le. Qed.
Lemma upto3_mono : forall j k p, (j <= k)%Z -> all3 (fin_upto j) p -> all3 (fin_upto k) p.
Proof. intros j k p L (A & B & C). repeat split; eauto using upto_mono; eapply upto_mono; eauto. Qed.
Lemma pair_cauchy : forall a1 a2 b1 b2 A B, 0 <= A -> 0 <= B -> a1 * a1 + a2 * a2 <= A * A -> b1 * b1 + b2 * b2 <= B * B ->
  Rabs (a1 * b1) + Rabs (a2 * b2) <= A * B.
Proof.
  intros a1 a2 b1 b2 A B HA HB HA2 HB2.
  pose proof (cauchy_abs (V3 a1 a2 0) (V3 b1 b2 0)) as C. unfold adotR, normR, dotR in C. cbn [vx vy vz] in C.
  rewrite Rmult_0_l, Rabs_R0, !Rplus_0_r in C.
  eapply Rle_trans; [exact C|]. apply Rmult_le_compat; try apply sqrt_pos.
  - rewrite <- (sqrt_square A HA). apply sqrt_le_1_alt. lra.
  - rewrite <- (sqrt_square B HB). apply sqrt_le_1_alt. lra.
Qed.
Lemma det_err : forall a1 o1 b1 p1 a2 o2 b2 p2 M, fin_upto 20 a1 -> fin_upto 20 o1 -> fin_upto 20 b1 -> fin_upto 20 p1 ->
  fin_upto 20 a2 -> fin_upto 20 o2 -> fin_upto 20 b2 -> fin_upto 20 p2 -> bpow radix2 (-41) <= M ->
  let x1 := (FR a1 - FR o1) * (FR b1 - FR p1) in let x2 := (FR a2 - FR o2) * (FR b2 - FR p2) in
  Rabs x1 + Rabs x2 <= M ->
  let r := fsub (fmul (fsub a1 o1) (fsub b1 p1)) (fmul (fsub a2 o2) (fsub b2 p2)) in
  fin_upto 45 r /\ Rabs (FR r - (x1 - x2)) <= 6 * u32r * M.
Proof.
  intros a1 o1 b1 p1 a2 o2 b2 p2 M A1 O1 B1 P1 A2 O2 B2 P2 HM x1 x2 S r.
  assert (U : forall x, fin_upto 20 x -> fin_upto 40 x) by (intros; eapply upto_mono; [|eassumption]; lia).
  destruct (term_err a1 o1 b1 p1 (U _ A1) (U _ O1) (U _ B1) (U _ P1)) as (F1 & _ & E1). fold x1 in E1.
  destruct (term_err a2 o2 b2 p2 (U _ A2) (U _ O2) (U _ B2) (U _ P2)) as (F2 & _ & E2). fold x2 in E2.
  unfold r. set (t1 := fmul _ _) in F1, E1 |- *. set (t2 := fmul (fsub a2 o2) _) in F2, E2 |- *.
  assert (D : forall a o, fin_upto 20 a -> fin_upto 20 o -> Rabs (FR a - FR o) <= bpow radix2 21).
  { intros a o (_ & Ba) (_ & Bo). replace (FR a - FR o) with (FR a + - FR o) by ring. eapply Rle_trans; [apply Rabs_triang|]. rewrite Rabs_Ropp.
    replace 21%Z with (20 + 1)%Z by lia. rewrite (bpow_plus radix2 20 1). change (bpow radix2 1) with 2. lra. }
  assert (X : forall a o b p, fin_upto 20 a -> fin_upto 20 o -> fin_upto 20 b -> fin_upto 20 p -> Rabs ((FR a - FR o) * (FR b - FR p)) <= bpow radix2 42).
  { intros. rewrite Rabs_mult. replace 42%Z with (21 + 21)%Z by lia. rewrite bpow_plus. apply Rmult_le_compat; auto using Rabs_pos. }
  pose proof (X _ _ _ _ A1 O1 B1 P1) as X1. pose proof (X _ _ _ _ A2 O2 B2 P2) as X2. fold x1 in X1. fold x2 in X2.
  pose proof t32r_small as TS. pose proof t32r_pos as TP. assert (UP : 0 < u32r) by (unfold u32r; lra).
  assert (P42 : 1 <= bpow radix2 42) by (change 1 with (bpow radix2 0); apply bpow_le; lia).
  assert (Y : forall t x, Rabs (FR t - x) <= 4 * u32r * Rabs x + t32r -> Rabs x <= bpow radix2 42 -> Rabs (FR t) <= 2 * bpow radix2 42).
  { intros t x Et Hx. replace (FR t) with (x + (FR t - x)) by ring. eapply Rle_trans; [apply Rabs_triang|]. pose proof (Rabs_pos x). unfold u32r in *. lra. }
  pose proof (Y _ _ E1 X1) as Y1. pose proof (Y _ _ E2 X2) as Y2.
  assert (Dt : Rabs (FR t1 - FR t2) <= 4 * bpow radix2 42).
  { replace (FR t1 - FR t2) with (FR t1 + - FR t2) by ring. eapply Rle_trans; [apply Rabs_triang|]. rewrite Rabs_Ropp. lra. }
  assert (P44 : 4 * bpow radix2 42 = bpow radix2 44) by (change 4 with (bpow radix2 2); rewrite <- bpow_plus; reflexivity).
  destruct (fsub_rel t1 t2 F1 F2) as (F & e & He & E). { eapply Rle_trans; [exact Dt|]. rewrite P44. apply bpow_le. lia. }
  split.
  - split; [exact F|]. rewrite E, Rabs_mult. replace 45%Z with (44 + 1)%Z by lia. rewrite (bpow_plus radix2 44 1), <- P44. change (bpow radix2 1) with 2.
    apply Rmult_le_compat; auto using Rabs_pos. apply Rabs_le_inv in He. apply Rabs_le. unfold u32r in He. lra.
  - rewrite E. replace ((FR t1 - FR t2) * (1 + e) - (x1 - x2)) with ((FR t1 - x1) * (1 + e) + - ((FR t2 - x2) * (1 + e)) + e * (x1 - x2)) by ring.
    eapply Rle_trans; [apply Rabs_triang|]. eapply Rle_trans; [apply Rplus_le_compat_r; apply Rabs_triang|]. rewrite Rabs_Ropp, !Rabs_mult.
    assert (N : Rabs (1 + e) <= 1 + u32r) by (eapply Rle_trans; [apply Rabs_triang|]; rewrite Rabs_R1; lra).
    assert (Z1 : Rabs (FR t1 - x1) * Rabs (1 + e) <= (4 * u32r * Rabs x1 + t32r) * (1 + u32r)) by (apply Rmult_le_compat; auto using Rabs_pos).
    assert (Z2 : Rabs (FR t2 - x2) * Rabs (1 + e) <= (4 * u32r * Rabs x2 + t32r) * (1 + u32r)) by (apply Rmult_le_compat; auto using Rabs_pos).
    assert (Z3 : Rabs e * Rabs (x1 - x2) <= u32r * (Rabs x1 + Rabs x2)).
    { apply Rmult_le_compat; auto using Rabs_pos. replace (x1 - x2) with (x1 + - x2) by ring. eapply Rle_trans; [apply Rabs_triang|]. rewrite Rabs_Ropp. lra. }
    assert (TM : 4 * t32r <= u32r * bpow radix2 (-41) / 2).
    { rewrite <- bpow_m24, <- bpow_plus. unfold t32r. apply Rle_trans with (bpow radix2 (-148)).
      - replace (-148)%Z with (-150 + 2)%Z by lia. rewrite (bpow_plus radix2 (-150) 2). change (bpow radix2 2) with 4. lra.
      - apply Rle_trans with (bpow radix2 (-66)); [apply bpow_le; lia|]. change (-24 + -41)%Z with (-66 + 1)%Z. rewrite (bpow_plus radix2 (-66) 1). change (bpow radix2 1) with 2. lra. }
    assert (UM : u32r * bpow radix2 (-41) <= u32r * M) by (apply Rmult_le_compat_l; lra).
    pose proof (Rabs_pos x1). pose proof (Rabs_pos x2).
    assert (UX : u32r * (Rabs x1 + Rabs x2) <= u32r * M) by (apply Rmult_le_compat_l; lra).
    unfold u32r in *. lra.
Qed.

Lemma norm_tri : forall a b, normR (vadd a b) <= normR a + normR b.
Proof.
  intros a b. pose proof (norm_nn a). pose proof (norm_nn b). apply Rsqr_incr_0_var; [|lra]. unfold Rsqr. rewrite norm_sq.
  pose proof (norm_sq a). pose proof (norm_sq b). pose proof (cauchy_abs a b) as C. pose proof (dot_adot a b) as D. apply Rabs_le_inv in D.
  assert (E : dotR (vadd a b) (vadd a b) = dotR a a + dotR b b + 2 * dotR a b) by (unfold dotR, vadd, zip3; cbn [vx vy vz]; ring).
  rewrite E. nra.
Qed.
Lemma norm_small : forall d eps, 0 <= eps -> Rabs (vx d) <= eps -> Rabs (vy d) <= eps -> Rabs (vz d) <= eps -> normR d <= 7 / 4 * eps.
Proof.
  intros d eps H0 H1 H2 H3. unfold normR. rewrite <- (sqrt_square (7 / 4 * eps)) by lra. apply sqrt_le_1_alt. unfold dotR.
  assert (Q : forall x, Rabs x <= eps -> x * x <= eps * eps). { intros x Hx. apply Rabs_le_inv in Hx. nra. }
  pose proof (Q _ H1). pose proof (Q _ H2). pose proof (Q _ H3). nra.
Qed.
Lemma norm_close : forall a b eps, 0 <= eps -> Rabs (vx a - vx b) <= eps -> Rabs (vy a - vy b) <= eps -> Rabs (vz a - vz b) <= eps ->
  Rabs (normR a - normR b) <= 7 / 4 * eps.
Proof.
  intros a b eps H0 H1 H2 H3.
  assert (A : a = vadd b (vsub a b)). { clear; destruct a as [a1 a2 a3], b as [b1 b2 b3]. unfold vadd, vsub, zip3. cbn [vx vy vz]. f_equal; ring. }
  assert (B : b = vadd a (vsub b a)). { clear; destruct a as [a1 a2 a3], b as [b1 b2 b3]. unfold vadd, vsub, zip3. cbn [vx vy vz]. f_equal; ring. }
  pose proof (norm_tri b (vsub a b)) as T1. rewrite <- A in T1. pose proof (norm_tri a (vsub b a)) as T2. rewrite <- B in T2.
  assert (S1 : normR (vsub a b) <= 7 / 4 * eps) by (apply norm_small; auto).
  assert (S2 : normR (vsub b a) <= 7 / 4 * eps) by (apply norm_small; auto; unfold vsub, zip3; cbn [vx vy vz]; rewrite Rabs_minus_sym; auto).
  apply Rabs_le. lra.
Qed.
Lemma unit_comp : forall n nn c N C M, 0 < N -> 0 < C -> 0 < M -> N <= M -> Rabs c <= C -> Rabs (c - nn) <= 6 * u32r * M ->
  Rabs (C - N) <= 7 / 4 * (6 * u32r * M) -> Rabs (n - c / C) <= 9 * u32r -> Rabs (n - nn / N) <= bpow radix2 (-19) * M / N.
Proof.
  intros n nn c N C M HN HC HM NM Hc H1 H2 H3.
  replace (n - nn / N) with ((n - c / C) + ((c - nn) + c / C * (N - C)) / N) by (field; lra).
  eapply Rle_trans; [apply Rabs_triang|].
  assert (B1 : Rabs (c / C) <= 1).
  { unfold Rdiv. rewrite Rabs_mult, (Rabs_pos_eq (/ C)) by (left; apply Rinv_0_lt_compat; auto).
    apply (Rmult_le_reg_r C); auto. rewrite Rmult_assoc, Rinv_l by lra. lra. }
  assert (IN : 0 < / N) by (apply Rinv_0_lt_compat; auto).
  assert (MN : 1 <= M / N) by (apply (Rmult_le_reg_r N); auto; unfold Rdiv; rewrite Rmult_assoc, Rinv_l by lra; lra).
  assert (S : Rabs ((c - nn) + c / C * (N - C)) <= 17 * u32r * M).
  { eapply Rle_trans; [apply Rabs_triang|]. rewrite Rabs_mult, (Rabs_minus_sym N C).
    assert (Rabs (c / C) * Rabs (C - N) <= 1 * (7 / 4 * (6 * u32r * M))) by (apply Rmult_le_compat; auto using Rabs_pos).
    assert (0 < u32r * M) by (apply Rmult_lt_0_compat; [unfold u32r; lra|auto]). lra. }
  unfold Rdiv at 2. rewrite Rabs_mult, (Rabs_pos_eq (/ N)) by lra.
  assert (S2 : Rabs ((c - nn) + c / C * (N - C)) * / N <= 17 * u32r * M * / N) by (apply Rmult_le_compat_r; lra).
  replace (17 * u32r * M * / N) with (17 * u32r * (M / N)) in S2 by (unfold Rdiv; ring).
  replace (bpow radix2 (-19) * M / N) with (32 * u32r * (M / N)).
  2:{ rewrite <- bpow_m24. change 32 with (bpow radix2 5). rewrite <- bpow_plus. change (5 + -24)%Z with (-19)%Z. unfold Rdiv. ring. }
  assert (0 < u32r) by (unfold u32r; lra). assert (u32r * 1 <= u32r * (M / N)) by (apply Rmult_le_compat_l; lra). lra.
Qed.

Definition face_normal (p q r : pt3) : pt3 := normalized3 (cross3 (pt_sub q p) (pt_sub r p)).
Lemma normal_ok : forall p q r, wide_triangle p q r -> unit_normal p q r (face_normal p q r).
Proof.
  intros p q r ((P1 & P2 & P3) & (Q1 & Q2 & Q3) & (R1 & R2 & R3) & A & W).
  set (a := sub3R q p) in *. set (b := sub3R r p) in *. set (N := normal_dir p q r) in *. set (M := normR a * normR b) in *.
  pose proof (norm_nn a) as NA. pose proof (norm_nn b) as NB. pose proof (norm_sq a) as SA. pose proof (norm_sq b) as SB. unfold dotR in SA, SB.
  assert (N0 : 0 < normR N) by (pose proof (bpow_gt_0 radix2 (-40)); lra).
  assert (NM : normR N <= M).
  { unfold M. apply Rsqr_incr_0_var; [|apply Rmult_le_pos; auto]. unfold Rsqr. rewrite norm_sq.
    replace (normR a * normR b * (normR a * normR b)) with ((normR a * normR a) * (normR b * normR b)) by ring. rewrite !norm_sq.
    assert (L : dotR N N = dotR a a * dotR b b - dotR a b * dotR a b) by (unfold N, normal_dir; fold a b; unfold dotR, crossR; cbn [vx vy vz]; ring).
    rewrite L. nra. }
  assert (M0 : 0 < M) by lra.
  assert (ML : bpow radix2 (-41) <= M). { apply Rle_trans with (bpow radix2 (-40)); [apply bpow_le; lia|lra]. }
  assert (SQ : forall x : R, 0 <= x * x) by (intros; nra). pose proof (SQ (vx a)). pose proof (SQ (vy a)). pose proof (SQ (vz a)). pose proof (SQ (vx b)). pose proof (SQ (vy b)). pose proof (SQ (vz b)). clear SQ.
  assert (C1 : Rabs (vy a * vz b) + Rabs (vz a * vy b) <= M) by (apply pair_cauchy; auto; lra).
  assert (C2 : Rabs (vz a * vx b) + Rabs (vx a * vz b) <= M) by (apply pair_cauchy; auto; lra).
  assert (C3 : Rabs (vx a * vy b) + Rabs (vy a * vx b) <= M) by (apply pair_cauchy; auto; lra).
  destruct (det_err _ _ _ _ _ _ _ _ M Q2 P2 R3 P3 Q3 P3 R2 P2 ML C1) as (F1 & E1).
  destruct (det_err _ _ _ _ _ _ _ _ M Q3 P3 R1 P1 Q1 P1 R3 P3 ML C2) as (F2 & E2).
  destruct (det_err _ _ _ _ _ _ _ _ M Q1 P1 R2 P2 Q2 P2 R1 P1 ML C3) as (F3 & E3).
  set (c := cross3 (pt_sub q p) (pt_sub r p)).
  assert (Fc : all3 (fin_upto 45) c) by (repeat split; first [apply F1|apply F2|apply F3]).
  assert (UM : 0 <= 6 * u32r * M) by (unfold u32r; lra).
  assert (NC : Rabs (normR (vecR c) - normR N) <= 7 / 4 * (6 * u32r * M)) by (apply norm_close; auto).
  assert (CL : bpow radix2 (-50) <= normR (vecR c)).
  { apply Rabs_le_inv in NC. assert (K : 11 * u32r * M <= normR N / 2).
    { apply Rle_trans with (11 * u32r * (65536 * normR N)); [|unfold u32r; lra]. apply Rmult_le_compat_l; [unfold u32r; lra|].
      change (bpow radix2 (-16)) with (/ 65536) in W. lra. }
    assert (bpow radix2 (-50) <= bpow radix2 (-40) / 2).
    { apply Rle_trans with (bpow radix2 (-41)); [apply bpow_le; lia|]. change (-40)%Z with (-41 + 1)%Z. rewrite (bpow_plus radix2 (-41) 1). change (bpow radix2 1) with 2. lra. }
    unfold u32r in *. lra. }
  assert (C0 : 0 < normR (vecR c)) by (pose proof (bpow_gt_0 radix2 (-50)); lra).
  destruct (normalized_err c Fc CL) as (G & D1 & D2 & D3). destruct (comp_le_norm (vecR c)) as (K1 & K2 & K3).
  unfold unit_normal. fold a b N M. fold c. unfold face_normal. fold c. cbv zeta. split; [exact G|].
  split; [|split]; (eapply unit_comp; [exact N0|exact C0|exact M0|exact NM| | |exact NC| ]);
    [exact K1|exact E1|exact D1|exact K2|exact E2|exact D2|exact K3|exact E3|exact D3].
Qed.

(** ** normals along the extraction *)
Definition fn_rel (p q r n : pt3) : Prop := n = face_normal p q r.
Lemma normals_app : forall P vs ns vs' ns', normals_of P vs ns -> normals_of P vs' ns' -> normals_of P (vs ++ vs') (ns ++ ns').
Proof. intros P vs ns vs' ns' H H'. induction H; cbn [app]; [exact H'|constructor; auto]. Qed.
Lemma normals_impl : forall (P Q : pt3 -> pt3 -> pt3 -> pt3 -> Prop) vs ns, (forall p q r n, P p q r n -> Q p q r n) -> normals_of P vs ns -> normals_of Q vs ns.
Proof. intros P Q vs ns H X. induction X; constructor; auto. Qed.
Definition good_normals (m : mesh) (next : Z) : Prop :=
  normals_of fn_rel (m_vertices m) (m_normals m) /\ next = Z.of_nat (length (m_vertices m)).
Lemma emit_normals : forall p q r m next m' n', good_normals m next -> emit_triangle p q r next m = Ok (m', n') -> good_normals m' n'.
Proof.
  intros p q r m next m' n' (H & ->). unfold emit_triangle. set (k := length (m_vertices m)).
  replace (Z.to_nat (Z.of_nat k)) with (k + 0)%nat by lia.
  replace (Z.to_nat (Z.of_nat k + 1)) with (k + 1)%nat by lia.
  replace (Z.to_nat (Z.of_nat k + 2)) with (k + 2)%nat by lia.
  rewrite !nth_error_app2 by lia. fold k. rewrite !(Nat.add_comm k), !Nat.add_sub. cbn [nth_error].
  intros E. injection E as <- <-. split; cbn [m_vertices m_normals].
  - apply normals_app; [exact H|]. repeat constructor.
  - rewrite app_length. cbn [length]. lia.
Qed.
Lemma row_normals : forall k row ev next m m' n', (length row <= k)%nat -> good_normals m next -> mesh_row row ev next m = Ok (m', n') -> good_normals m' n'.
Proof.
  induction k as [|k IH]; intros row ev next m m' n' L G E; (destruct row as [|e0 row]; [discriminate E|]); [cbn in L; lia|].
  cbn [mesh_row] in E. destruct (e0 =? -1)%Z. { injection E as <- <-. exact G. }
  destruct row as [|e1 [|e2 row]]; try discriminate E.
  destruct (read_edge ev e2), (read_edge ev e1), (read_edge ev e0); try discriminate E.
  apply rbind_ok in E. destruct E as ((m1 & n1) & E1 & E2). cbn [fst snd] in E2.
  eapply IH; [|eapply emit_normals; eauto|exact E2]. cbn in L. lia.
Qed.
Lemma cube_normals : forall x s next m m' n', good_normals m next -> meshCube x s next m = Ok (m', n') -> good_normals m' n'.
Proof.
  intros x s next m m' n' G. unfold meshCube. destruct (_ =? 0)%Z; [intros E; injection E as <- <-; exact G|].
  destruct (nth_error _ _) as [row|]; [|discriminate]. intros E. eapply row_normals; eauto.
Qed.
Lemma cubes_normals : forall k (l : Layer k) mw b vis mn mn', good_normals (fst mn) (snd mn) -> extract_cubes l mw b vis mn = Ok mn' ->
  good_normals (fst mn') (snd mn').
Proof.
  intros k l mw b. induction vis as [|(bd & i) vis IH]; intros mn mn' G E; cbn [extract_cubes] in E.
  { injection E as <-. exact G. }
  apply rbind_ok in E. destruct E as (mn1 & E1 & E2). eapply IH; [|exact E2]. unfold extract_cube in E1.
  apply rbind_ok in E1. destruct E1 as ([ss|] & _ & E1); [|injection E1 as <-; exact G].
  destruct mn1 as (m1 & n1). eapply cube_normals; eauto.
Qed.
Lemma block_normals : forall k (l : Layer k) mw b m0 m, extractBlockMesh l mw b (clear_mesh m0) = Ok m ->
  normals_of fn_rel (m_vertices m) (m_normals m).
Proof.
  intros k l mw b m0 m E. unfold extractBlockMesh in E. apply rbind_ok in E. destruct E as (mn & E1 & E2). injection E2 as <-.
  apply cubes_normals in E1; [exact (proj1 E1)|]. split; [constructor|reflexivity].
Qed.
