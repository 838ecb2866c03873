(** Proofs about the interpolation formula, exact and in floats. *)
From Coq Require Import ZArith List Bool Reals Lra Lia Permutation.
From Flocq Require Import Core.
From Verif Require Import F32 F32_lemmas F32_err Types Index Voxel Layer Interp Interp_spec.
Import ListNotations.
Open Scope R_scope.

Lemma exact_interp_trilinear : forall x y z d, exact_interp x y z d = trilinear d x y z.
Proof.
  intros. unfold exact_interp, exact_q, interp_table, trilinear, lerp, corner_no.
  cbn [seq map nth rsum fold_right Nat.mul Nat.add]. ring.
Qed.
Lemma lerp_range : forall t a b lo hi, 0 <= t <= 1 -> lo <= a <= hi -> lo <= b <= hi -> lo <= lerp t a b <= hi.
Proof. intros. unfold lerp. split; nra. Qed.
Lemma trilinear_range : forall d x y z lo hi, 0 <= x <= 1 -> 0 <= y <= 1 -> 0 <= z <= 1 ->
  (forall i, (i < 8)%nat -> lo <= d i <= hi) -> lo <= trilinear d x y z <= hi.
Proof.
  intros d x y z lo hi X Y Z H. unfold trilinear, corner_no. repeat apply lerp_range; auto; apply H; cbn; lia.
Qed.

(** ** summation in any order *)
Fixpoint plus_count (t : sum_order) : nat := match t with Term _ => 0 | Plus a b => S (plus_count a + plus_count b) end.
Lemma terms_length : forall t, length (terms t) = S (plus_count t).
Proof. induction t; cbn [terms plus_count length]; [reflexivity|]. rewrite app_length, IHt1, IHt2. lia. Qed.
Lemma rsum_app : forall a b, rsum (a ++ b) = rsum a + rsum b.
Proof. unfold rsum. induction a; intros; cbn [app fold_right]; [lra|]. rewrite IHa. lra. Qed.
Lemma rsum_perm : forall a b, Permutation a b -> rsum a = rsum b.
Proof. unfold rsum. intros a b P. induction P; cbn [fold_right] in *; lra. Qed.
Lemma rsum_abs_ge : forall l, 0 <= rsum (map Rabs l).
Proof. induction l; cbn; [lra|]. pose proof (Rabs_pos a). unfold rsum in IHl. lra. Qed.
Lemma rsum_le_abs : forall l, Rabs (rsum l) <= rsum (map Rabs l).
Proof. unfold rsum. induction l; cbn [fold_right map]; [rewrite Rabs_R0; lra|]. eapply Rle_trans; [apply Rabs_triang|]. lra. Qed.

Definition gam (n : nat) : R := (1 + u32r) ^ n - 1.
Lemma u32r_pos : 0 < u32r. Proof. unfold u32r. lra. Qed.
Lemma gam_pos : forall n, 0 <= gam n.
Proof. intros n. unfold gam. pose proof u32r_pos. assert (1 <= (1 + u32r) ^ n) by (apply pow_R1_Rle; lra). lra. Qed.
Lemma gam_mono : forall n m, (n <= m)%nat -> gam n <= gam m.
Proof. intros n m H. unfold gam. pose proof u32r_pos. assert ((1 + u32r) ^ n <= (1 + u32r) ^ m) by (apply Rle_pow; [lra|auto]). lra. Qed.
Lemma gam7 : gam 7 <= 8 * u32r.
Proof. unfold gam, u32r. cbn. lra. Qed.

Lemma ordered_sum_err : forall t x B, (plus_count t <= 7)%nat ->
  (forall i, In i (terms t) -> ffin (x i) = true) ->
  rsum (map (fun i => Rabs (FR (x i))) (terms t)) <= B -> B <= bpow radix2 120 ->
  ffin (ordered_sum t x) = true /\
  Rabs (FR (ordered_sum t x) - rsum (map (fun i => FR (x i)) (terms t)))
    <= gam (plus_count t) * rsum (map (fun i => Rabs (FR (x i))) (terms t)).
Proof.
  induction t as [i|a IHa b IHb]; intros x B C F Sm L; cbn [ordered_sum terms plus_count] in *.
  - split; [apply F; left; auto|]. cbn [map rsum fold_right]. rewrite Rplus_0_r, Rminus_diag_eq, Rabs_R0 by auto.
    apply Rmult_le_pos; [apply gam_pos|]. pose proof (Rabs_pos (FR (x i))). lra.
  - rewrite map_app, rsum_app in *. rewrite map_app, rsum_app.
    set (Aa := rsum (map (fun i => Rabs (FR (x i))) (terms a))) in *.
    set (Ab := rsum (map (fun i => Rabs (FR (x i))) (terms b))) in *.
    assert (Pa : 0 <= Aa). { unfold Aa. rewrite <- map_map. apply rsum_abs_ge. }
    assert (Pb : 0 <= Ab). { unfold Ab. rewrite <- map_map. apply rsum_abs_ge. }
    destruct (IHa x Aa) as (Fa & Ea); [lia|intros; apply F; apply in_or_app; auto|apply Rle_refl|lra|].
    destruct (IHb x Ab) as (Fb & Eb); [lia|intros; apply F; apply in_or_app; auto|apply Rle_refl|lra|].
    fold Aa in Ea. fold Ab in Eb.
    set (Sa := rsum (map (fun i => FR (x i)) (terms a))) in *. set (Sb := rsum (map (fun i => FR (x i)) (terms b))) in *.
    assert (Ka : Rabs Sa <= Aa). { unfold Sa, Aa. eapply Rle_trans; [apply rsum_le_abs|]. rewrite map_map. apply Rle_refl. }
    assert (Kb : Rabs Sb <= Ab). { unfold Sb, Ab. eapply Rle_trans; [apply rsum_le_abs|]. rewrite map_map. apply Rle_refl. }
    pose proof (gam_mono (plus_count a) 7 ltac:(lia)) as Ga. pose proof (gam_mono (plus_count b) 7 ltac:(lia)) as Gb. pose proof gam7 as G7.
    pose proof (gam_pos (plus_count a)) as Ga0. pose proof (gam_pos (plus_count b)) as Gb0.
    set (ya := FR (ordered_sum a x)) in *. set (yb := FR (ordered_sum b x)) in *.
    assert (Q1 : gam (plus_count a) * Aa <= Aa). { rewrite <- (Rmult_1_l Aa) at 2. apply Rmult_le_compat_r; [auto|]. unfold u32r in *. lra. }
    assert (Q2 : gam (plus_count b) * Ab <= Ab). { rewrite <- (Rmult_1_l Ab) at 2. apply Rmult_le_compat_r; [auto|]. unfold u32r in *. lra. }
    assert (Bs : Rabs (ya + yb) <= bpow radix2 127).
    { apply Rle_trans with (4 * bpow radix2 120).
      - apply Rabs_le_inv in Ea. apply Rabs_le_inv in Eb. apply Rabs_le_inv in Ka. apply Rabs_le_inv in Kb. apply Rabs_le. lra.
      - change 4 with (bpow radix2 2). rewrite <- bpow_plus. apply bpow_le. lia. }
    destruct (fadd_rel _ _ Fa Fb Bs) as (Fs & e & Be & Es). split; [auto|]. rewrite Es. fold ya yb.
    replace ((ya + yb) * (1 + e) - (Sa + Sb)) with ((1 + e) * ((ya - Sa) + (yb - Sb)) + e * (Sa + Sb)) by ring.
    assert (Pe : Rabs (1 + e) <= 1 + u32r). { eapply Rle_trans; [apply Rabs_triang|]. rewrite Rabs_R1. lra. }
    assert (gab : forall n m A, 0 <= A -> (n <= m)%nat -> (1 + u32r) * (gam n * A) + u32r * A <= gam (S m) * A).
    { intros n m A PA H. replace ((1 + u32r) * (gam n * A) + u32r * A) with (gam (S n) * A) by (unfold gam; cbn [pow]; ring).
      apply Rmult_le_compat_r; auto. apply gam_mono. lia. }
    pose proof (gab (plus_count a) (plus_count a + plus_count b)%nat Aa Pa ltac:(lia)) as T1.
    pose proof (gab (plus_count b) (plus_count a + plus_count b)%nat Ab Pb ltac:(lia)) as T2.
    eapply Rle_trans; [apply Rabs_triang|]. rewrite !Rabs_mult.
    assert (X1 : Rabs (1 + e) * Rabs (ya - Sa + (yb - Sb)) <= (1 + u32r) * (gam (plus_count a) * Aa + gam (plus_count b) * Ab)).
    { apply Rmult_le_compat; try apply Rabs_pos; auto. eapply Rle_trans; [apply Rabs_triang|]. lra. }
    assert (X2 : Rabs e * Rabs (Sa + Sb) <= u32r * (Aa + Ab)).
    { apply Rmult_le_compat; try apply Rabs_pos; auto. eapply Rle_trans; [apply Rabs_triang|]. lra. }
    lra.
Qed.
Lemma complete_sum_err : forall t x A, complete_order t -> (forall i, (i < 8)%nat -> ffin (x i) = true) ->
  rsum (map (fun i => Rabs (FR (x i))) (seq 0 8)) <= A -> A <= bpow radix2 120 ->
  ffin (ordered_sum t x) = true /\
  Rabs (FR (ordered_sum t x) - rsum (map (fun i => FR (x i)) (seq 0 8))) <= 8 * u32r * A.
Proof.
  intros t x A P F Sm L. assert (C : plus_count t = 7%nat).
  { apply Permutation_length in P. rewrite terms_length, seq_length in P. lia. }
  rewrite <- (rsum_perm _ _ (Permutation_map (fun i => Rabs (FR (x i))) P)) in Sm.
  destruct (ordered_sum_err t x A) as (Fs & E); [lia| |auto|auto|].
  { intros i H. apply F. apply (Permutation_in _ P) in H. apply in_seq in H. lia. }
  split; [auto|]. rewrite <- (rsum_perm _ _ (Permutation_map (fun i => FR (x i)) P)).
  eapply Rle_trans; [apply E|]. rewrite C. apply Rmult_le_compat; auto.
  - apply gam_pos.
  - rewrite <- map_map. apply rsum_abs_ge.
  - apply gam7.
Qed.
Lemma unit_mul : forall c x, (c = -1 \/ c = 0 \/ c = 1)%Z -> ffin x = true ->
  ffin (fmul (f32_of_Z c) x) = true /\ FR (fmul (f32_of_Z c) x) = IZR c * FR x.
Proof.
  intros c x H F. destruct (f32_of_Z_R c ltac:(lia)) as (E & Fc).
  assert (R : rnd32 (FR (f32_of_Z c) * FR x) = IZR c * FR x).
  { rewrite E. destruct H as [->|[->| ->]].
    - replace (-1 * FR x) with (- FR x) by ring. rewrite rnd32_opp, rnd32_FR. reflexivity.
    - rewrite Rmult_0_l. apply rnd32_0.
    - rewrite Rmult_1_l. apply rnd32_FR. }
  destruct (fmul_R (f32_of_Z c) x Fc F) as (E2 & F2).
  - rewrite R. rewrite Rabs_mult, <- abs_IZR. eapply Rle_lt_trans; [|apply (FR_lt_max x)].
    rewrite <- (Rmult_1_l (Rabs (FR x))) at 2. apply Rmult_le_compat_r; [apply Rabs_pos|]. apply IZR_le. lia.
  - split; [auto|]. rewrite E2. exact R.
Qed.
Lemma table_entry : forall i j, let c := nth i (nth j interp_table []) 0%Z in (c = -1 \/ c = 0 \/ c = 1)%Z.
Proof.
  intros i j. cbv zeta.
  do 8 (destruct j as [|j]; [cbn [nth interp_table]; do 8 (destruct i as [|i]; [cbn [nth]; auto|]); cbn [nth]; destruct i; auto|]).
  cbn [nth interp_table]. destruct j, i; auto.
Qed.
(** number of non-zero entries of row [j] *)
Definition row_weight (j : nat) : R := nth j [1; 2; 2; 2; 4; 4; 4; 8] 0.
Lemma row_abs : forall j d D, (j < 8)%nat -> (forall i, (i < 8)%nat -> Rabs (d i) <= D) ->
  rsum (map (fun i => Rabs (IZR (nth i (nth j interp_table []) 0%Z) * d i)) (seq 0 8)) <= row_weight j * D.
Proof.
  intros j d D H B. assert (K : forall i, (i < 8)%nat -> 0 <= Rabs (d i) <= D) by (intros; split; [apply Rabs_pos|auto]).
  pose proof (K 0%nat ltac:(lia)). pose proof (K 1%nat ltac:(lia)). pose proof (K 2%nat ltac:(lia)). pose proof (K 3%nat ltac:(lia)).
  pose proof (K 4%nat ltac:(lia)). pose proof (K 5%nat ltac:(lia)). pose proof (K 6%nat ltac:(lia)). pose proof (K 7%nat ltac:(lia)).
  do 8 (destruct j as [|j]; [cbn [nth interp_table seq map rsum fold_right row_weight]; unfold row_weight; cbn [nth];
    rewrite !Rabs_mult, ?Rabs_R0, ?Rabs_R1, ?(Rabs_Ropp 1);
    repeat match goal with |- context [Rabs (-1)] => replace (Rabs (-1)) with 1 by (rewrite <- (Rabs_Ropp (-1)), Rabs_pos_eq; lra) end; lra|]).
  lia.
Qed.
Lemma term_err : forall q row w r W, ffin q = true -> ffin row = true -> 0 <= w <= 1.43 -> Rabs (FR q - w) <= 4 * u32r ->
  Rabs (FR row - r) <= 8 * u32r * W -> Rabs r <= W -> W <= bpow radix2 110 ->
  ffin (fmul q row) = true /\ Rabs (FR (fmul q row) - w * r) <= 17 * u32r * W + t32r.
Proof.
  intros q row w r W Fq Fr Hw Hq Hr Br BW. pose proof (Rabs_pos r). pose proof u32r_pos as Up. assert (Us : u32r <= / 1000000) by (unfold u32r; lra).
  assert (Bq : Rabs (FR q) <= 1.44). { apply Rabs_le_inv in Hq. apply Rabs_le. lra. }
  assert (Brow : Rabs (FR row) <= 1.001 * W).
  { replace (FR row) with (FR row - r + r) by ring. eapply Rle_trans; [apply Rabs_triang|].
    assert (8 * u32r * W <= 0.001 * W) by (apply Rmult_le_compat_r; lra). lra. }
  assert (Bp : Rabs (FR q * FR row) <= 1.442 * W).
  { rewrite Rabs_mult. apply Rle_trans with (1.44 * (1.001 * W)); [apply Rmult_le_compat; auto using Rabs_pos|lra]. }
  destruct (fmul_rel q row Fq Fr) as (F & d & e & Bd & Be & E).
  { apply Rle_trans with (1 := Bp). apply Rle_trans with (2 * bpow radix2 110); [lra|]. change 2 with (bpow radix2 1). rewrite <- bpow_plus. apply bpow_le. lia. }
  split; [auto|]. rewrite E.
  replace (FR q * FR row * (1 + d) + e - w * r) with (FR q * FR row * d + e + (FR q * (FR row - r) + (FR q - w) * r)) by ring.
  assert (A1 : Rabs (FR q * FR row * d) <= 1.442 * W * u32r) by (rewrite Rabs_mult; apply Rmult_le_compat; auto using Rabs_pos).
  assert (A2 : Rabs (FR q * (FR row - r)) <= 1.44 * (8 * u32r * W)) by (rewrite Rabs_mult; apply Rmult_le_compat; auto using Rabs_pos).
  assert (A3 : Rabs ((FR q - w) * r) <= 4 * u32r * W) by (rewrite Rabs_mult; apply Rmult_le_compat; auto using Rabs_pos).
  assert (0 <= u32r * W) by (apply Rmult_le_pos; lra).
  eapply Rle_trans; [apply Rabs_triang|]. eapply Rle_trans; [apply Rplus_le_compat; [apply Rabs_triang|apply Rabs_triang]|]. lra.
Qed.
Lemma mono2 : forall a b, ffin a = true -> ffin b = true -> 0 <= FR a <= 1.125 -> 0 <= FR b <= 1.125 ->
  ffin (fmul a b) = true /\ Rabs (FR (fmul a b) - FR a * FR b) <= 1.5 * u32r.
Proof.
  intros a b Fa Fb Ha Hb.
  assert (P : 0 <= FR a * FR b <= 1.27) by nra.
  destruct (fmul_rel a b Fa Fb) as (F & d & e & Bd & Be & E).
  { rewrite Rabs_pos_eq by lra. apply Rle_trans with (bpow radix2 1); [cbn; lra|apply bpow_le; lia]. }
  split; [auto|]. rewrite E. replace (FR a * FR b * (1 + d) + e - FR a * FR b) with (FR a * FR b * d + e) by ring.
  eapply Rle_trans; [apply Rabs_triang|].
  assert (Rabs (FR a * FR b * d) <= 1.27 * u32r). { rewrite Rabs_mult. apply Rmult_le_compat; auto using Rabs_pos. rewrite Rabs_pos_eq; lra. }
  pose proof t32r_small. unfold u32r in *. lra.
Qed.
Lemma q_err : forall o j, all3 (fun x => ffin x = true /\ 0 <= FR x <= 1.125) o -> (j < 8)%nat ->
  ffin (nth j (q_vector o) f0) = true /\
  Rabs (FR (nth j (q_vector o) f0) - nth j (exact_q (FR (vx o)) (FR (vy o)) (FR (vz o))) 0) <= 4 * u32r /\
  0 <= nth j (exact_q (FR (vx o)) (FR (vy o)) (FR (vz o))) 0 <= 1.43.
Proof.
  intros o j ((Fx & Bx) & (Fy & By) & (Fz & Bz)) H. pose proof u32r_pos. unfold q_vector, exact_q.
  destruct (f32_of_Z_R 1 ltac:(lia)) as (E1 & F1). change (f32_of_Z 1) with f1 in *.
  destruct (mono2 (vx o) (vy o) Fx Fy Bx By) as (Fxy & Exy). destruct (mono2 (vy o) (vz o) Fy Fz By Bz) as (Fyz & Eyz).
  destruct (mono2 (vz o) (vx o) Fz Fx Bz Bx) as (Fzx & Ezx).
  assert (Pxy : 0 <= FR (vx o) * FR (vy o) <= 1.2657) by nra. assert (Pyz : 0 <= FR (vy o) * FR (vz o) <= 1.2657) by nra.
  assert (Pzx : 0 <= FR (vz o) * FR (vx o) <= 1.2657) by nra.
  destruct j as [|[|[|[|[|[|[|[|j]]]]]]]]; [..|lia]; cbn [nth].
  - rewrite E1. split; [auto|]. rewrite Rminus_diag_eq, Rabs_R0 by auto. lra.
  - split; [auto|]. rewrite Rminus_diag_eq, Rabs_R0 by auto. lra.
  - split; [auto|]. rewrite Rminus_diag_eq, Rabs_R0 by auto. lra.
  - split; [auto|]. rewrite Rminus_diag_eq, Rabs_R0 by auto. lra.
  - split; [auto|]. lra.
  - split; [auto|]. lra.
  - split; [auto|]. lra.
  - set (p := fmul (vx o) (vy o)) in *. assert (Us : u32r <= / 1000000) by (unfold u32r; lra).
    assert (Bp : Rabs (FR p) <= 1.266). { apply Rabs_le_inv in Exy. apply Rabs_le. lra. }
    assert (B3 : Rabs (FR p * FR (vz o)) <= 1.425). { rewrite Rabs_mult, (Rabs_pos_eq (FR (vz o))) by lra. apply Rle_trans with (1.266 * 1.125); [apply Rmult_le_compat; auto using Rabs_pos; lra|lra]. }
    destruct (fmul_rel p (vz o) Fxy Fz) as (F3 & d & e & Bd & Be & E3). { apply Rle_trans with (1 := B3). apply Rle_trans with (bpow radix2 1); [cbn; lra|apply bpow_le; lia]. }
    split; [auto|]. split.
    + rewrite E3. replace (FR p * FR (vz o) * (1 + d) + e - FR (vx o) * FR (vy o) * FR (vz o)) with (FR p * FR (vz o) * d + e + (FR p - FR (vx o) * FR (vy o)) * FR (vz o)) by ring.
      assert (A1 : Rabs (FR p * FR (vz o) * d) <= 1.425 * u32r) by (rewrite Rabs_mult; apply Rmult_le_compat; auto using Rabs_pos).
      assert (A2 : Rabs ((FR p - FR (vx o) * FR (vy o)) * FR (vz o)) <= 1.5 * u32r * 1.125).
      { rewrite Rabs_mult. apply Rmult_le_compat; auto using Rabs_pos. rewrite Rabs_pos_eq; lra. }
      eapply Rle_trans; [apply Rabs_triang|]. eapply Rle_trans; [apply Rplus_le_compat_r; apply Rabs_triang|]. pose proof t32r_small. unfold u32r in *. lra.
    + nra.
Qed.
Lemma interp_float_err : forall rows top o ds D,
  (forall j, (j < 8)%nat -> complete_order (rows j)) -> complete_order top ->
  all3 (fun x => ffin x = true /\ 0 <= FR x <= 1.125) o ->
  (forall i, (i < 8)%nat -> ffin (nth i ds f0) = true /\ Rabs (FR (nth i ds f0)) <= D) -> D <= bpow radix2 100 ->
  ffin (interpMember rows top (q_vector o) ds) = true /\
  Rabs (FR (interpMember rows top (q_vector o) ds) - trilinear (fun i => FR (nth i ds f0)) (FR (vx o)) (FR (vy o)) (FR (vz o)))
    <= / 2 ^ 14 * D + bpow radix2 (-140).
Proof.
  intros rows top o ds D HR HT HO HD BD. rewrite <- exact_interp_trilinear. unfold interpMember, exact_interp. cbv zeta.
  set (d := fun i => FR (nth i ds f0)). set (w := fun j => nth j (exact_q (FR (vx o)) (FR (vy o)) (FR (vz o))) 0).
  set (row := fun j => ordered_sum (rows j) (fun i => fmul (f32_of_Z (nth i (nth j interp_table []) 0%Z)) (nth i ds f0))).
  set (ex := fun j => rsum (map (fun i => IZR (nth i (nth j interp_table []) 0%Z) * d i) (seq 0 8))).
  assert (P0 : 0 <= D). { destruct (HD 0%nat ltac:(lia)) as (_ & B). pose proof (Rabs_pos (FR (nth 0 ds f0))). lra. }
  pose proof u32r_pos as Up. assert (Us : u32r <= / 1000000) by (unfold u32r; lra). pose proof t32r_pos as Tp.
  assert (Wj : forall j, (j < 8)%nat -> 1 <= row_weight j <= 8).
  { intros j H. unfold row_weight. destruct j as [|[|[|[|[|[|[|[|j]]]]]]]]; [..|lia]; cbn [nth]; lra. }
  assert (B110 : 8 * D <= bpow radix2 110). { apply Rle_trans with (bpow radix2 3 * bpow radix2 100); [apply Rmult_le_compat; [lra|auto|cbn; lra|auto]|]. rewrite <- bpow_plus. apply bpow_le. lia. }
  assert (Row : forall j, (j < 8)%nat -> ffin (row j) = true /\ Rabs (FR (row j) - ex j) <= 8 * u32r * (row_weight j * D) /\ Rabs (ex j) <= row_weight j * D /\ row_weight j * D <= bpow radix2 110).
  { intros j H. pose proof (Wj j H) as Ww.
    assert (WB : row_weight j * D <= bpow radix2 110). { apply Rle_trans with (2 := B110). apply Rmult_le_compat_r; lra. }
    assert (Ent : forall i, (i < 8)%nat -> ffin (fmul (f32_of_Z (nth i (nth j interp_table []) 0%Z)) (nth i ds f0)) = true /\
        FR (fmul (f32_of_Z (nth i (nth j interp_table []) 0%Z)) (nth i ds f0)) = IZR (nth i (nth j interp_table []) 0%Z) * d i).
    { intros i Hi. apply unit_mul; [apply table_entry|apply HD; auto]. }
    assert (RA := row_abs j d D H (fun i Hi => proj2 (HD i Hi))).
    destruct (complete_sum_err (rows j) (fun i => fmul (f32_of_Z (nth i (nth j interp_table []) 0%Z)) (nth i ds f0)) (row_weight j * D) (HR j H)) as (F & E).
    - intros i Hi. apply Ent; auto.
    - eapply Rle_trans; [|exact RA]. apply Req_le. f_equal. apply map_ext_in. intros i Hi. apply in_seq in Hi. f_equal. apply Ent. lia.
    - apply Rle_trans with (1 := WB). apply bpow_le. lia.
    - split; [exact F|]. split; [|split; [|auto]].
      + replace (ex j) with (rsum (map (fun i => FR (fmul (f32_of_Z (nth i (nth j interp_table []) 0%Z)) (nth i ds f0))) (seq 0 8))); [exact E|].
        unfold ex. f_equal. apply map_ext_in. intros i Hi. apply in_seq in Hi. apply Ent. lia.
      + eapply Rle_trans; [apply rsum_le_abs|]. rewrite map_map. exact RA. }
  set (b := fun j => fmul (nth j (q_vector o) f0) (row j)).
  assert (Bj : forall j, (j < 8)%nat -> ffin (b j) = true /\ Rabs (FR (b j) - w j * ex j) <= 17 * u32r * (row_weight j * D) + t32r /\ Rabs (FR (b j)) <= 1.45 * (row_weight j * D) + t32r).
  { intros j H. destruct (Row j H) as (Fr & Er & Br & WB). destruct (q_err o j HO H) as (Fq & Eq & Bq).
    destruct (term_err _ _ _ _ _ Fq Fr Bq Eq Er Br WB) as (Fb & Eb). split; [exact Fb|]. split; [exact Eb|].
    replace (FR (b j)) with (FR (b j) - w j * ex j + w j * ex j) by ring. eapply Rle_trans; [apply Rabs_triang|].
    assert (Rabs (w j * ex j) <= 1.43 * (row_weight j * D)). { rewrite Rabs_mult. apply Rmult_le_compat; auto using Rabs_pos. rewrite Rabs_pos_eq by apply Bq. apply Bq. }
    assert (17 * u32r * (row_weight j * D) <= 0.02 * (row_weight j * D)). { apply Rmult_le_compat_r; [apply Rmult_le_pos; [pose proof (Wj j H); lra|auto]|lra]. }
    fold (b j) in Eb. fold (w j) in Eb. lra. }
  assert (SA : rsum (map (fun j => Rabs (FR (b j))) (seq 0 8)) <= 40 * D + 8 * t32r).
  { pose proof (proj2 (proj2 (Bj 0%nat ltac:(lia)))) as Q0. pose proof (proj2 (proj2 (Bj 1%nat ltac:(lia)))) as Q1. pose proof (proj2 (proj2 (Bj 2%nat ltac:(lia)))) as Q2.
    pose proof (proj2 (proj2 (Bj 3%nat ltac:(lia)))) as Q3. pose proof (proj2 (proj2 (Bj 4%nat ltac:(lia)))) as Q4. pose proof (proj2 (proj2 (Bj 5%nat ltac:(lia)))) as Q5.
    pose proof (proj2 (proj2 (Bj 6%nat ltac:(lia)))) as Q6. pose proof (proj2 (proj2 (Bj 7%nat ltac:(lia)))) as Q7.
    unfold row_weight in *. cbn [nth] in *. cbn [seq map rsum fold_right]. lra. }
  destruct (complete_sum_err top b (40 * D + 8 * t32r) HT) as (F & E).
  { intros i H. apply Bj. auto. }
  { exact SA. }
  { pose proof t32r_small.
    assert (K1 : 64 * bpow radix2 100 = bpow radix2 106) by (change 64 with (bpow radix2 6); rewrite <- bpow_plus; reflexivity).
    assert (K2 : 2 * bpow radix2 106 = bpow radix2 107) by (change 2 with (bpow radix2 1); rewrite <- bpow_plus; reflexivity).
    pose proof (bpow_le radix2 0 106 ltac:(lia)) as K3. change (bpow radix2 0) with 1 in K3.
    pose proof (bpow_le radix2 107 120 ltac:(lia)). lra. }
  split; [exact F|]. fold b. set (r := ordered_sum top b) in *.
  assert (SE : Rabs (rsum (map (fun j => FR (b j)) (seq 0 8)) - rsum (map (fun j => w j * ex j) (seq 0 8))) <= 17 * 27 * u32r * D + 8 * t32r).
  { pose proof (proj1 (proj2 (Bj 0%nat ltac:(lia)))) as Q0. pose proof (proj1 (proj2 (Bj 1%nat ltac:(lia)))) as Q1. pose proof (proj1 (proj2 (Bj 2%nat ltac:(lia)))) as Q2.
    pose proof (proj1 (proj2 (Bj 3%nat ltac:(lia)))) as Q3. pose proof (proj1 (proj2 (Bj 4%nat ltac:(lia)))) as Q4. pose proof (proj1 (proj2 (Bj 5%nat ltac:(lia)))) as Q5.
    pose proof (proj1 (proj2 (Bj 6%nat ltac:(lia)))) as Q6. pose proof (proj1 (proj2 (Bj 7%nat ltac:(lia)))) as Q7.
    unfold row_weight in *. cbn [nth] in Q0, Q1, Q2, Q3, Q4, Q5, Q6, Q7. cbn [seq map rsum fold_right].
    apply Rabs_le_inv in Q0, Q1, Q2, Q3, Q4, Q5, Q6, Q7. clearbody b w ex. apply Rabs_le. lra. }
  change (Rabs (FR r - rsum (map (fun j => w j * ex j) (seq 0 8))) <= / 2 ^ 14 * D + bpow radix2 (-140)).
  replace (FR r - rsum (map (fun j => w j * ex j) (seq 0 8))) with
    (FR r - rsum (map (fun j => FR (b j)) (seq 0 8)) + (rsum (map (fun j => FR (b j)) (seq 0 8)) - rsum (map (fun j => w j * ex j) (seq 0 8)))) by ring.
  eapply Rle_trans; [apply Rabs_triang|]. eapply Rle_trans; [apply Rplus_le_compat; [exact E|exact SE]|].
  assert (T9 : 9 * t32r <= bpow radix2 (-140)).
  { unfold t32r. apply Rle_trans with (bpow radix2 4 * bpow radix2 (-150)); [apply Rmult_le_compat_r; [apply bpow_ge_0|cbn; lra]|]. rewrite <- bpow_plus. apply bpow_le. lia. }
  assert (8 * u32r * (8 * t32r) <= t32r). { rewrite <- (Rmult_1_l t32r) at 2. rewrite <- Rmult_assoc. apply Rmult_le_compat_r; lra. }
  assert (u32r * D = / 2 ^ 14 * D * / 1024) by (unfold u32r; cbn; lra). lra.
Qed.
