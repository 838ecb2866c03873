(** Ray intersections of simulated objects against real geometry. *)
From Coq Require Import ZArith Reals List Bool Lia Lra Psatz.
From Flocq Require Import Core Binary.
From Verif Require Import F32 F32_lemmas F32_err Types Index Voxel Serialize Assoc Layer Update Update_spec
  Merge_proofs Dist_proofs Timing_proofs Index_float Sim Sim_spec Sim_geom SimHit_spec.
Import ListNotations.
Open Scope R_scope.

(** [x] is finite and within [e] of [v] *)
Definition ap (x : f32) (v e : R) : Prop := ffin x = true /\ Rabs (FR x - v) <= e.
Lemma u_small : 0 < u32r /\ u32r <= 6 / 100000000.
Proof. unfold u32r. lra. Qed.
Lemma t_small : 0 < t32r /\ t32r <= / 1000000000000.
Proof. pose proof t32r_pos. pose proof t32r_small. lra. Qed.
Lemma ap_abs x v e : ap x v e -> Rabs (FR x) <= Rabs v + e.
Proof. intros (_ & H). replace (FR x) with (v + (FR x - v)) by ring. eapply Rle_trans; [apply Rabs_triang|lra]. Qed.
Lemma ap_exact x : ffin x = true -> ap x (FR x) 0.
Proof. intros F. split; [exact F|]. rewrite Rminus_eq_0, Rabs_R0. lra. Qed.
Lemma ap_le x v e e' : ap x v e -> e <= e' -> ap x v e'.
Proof. intros (F & H) L. split; [exact F|lra]. Qed.
Lemma ap_neg x v e : ap x v e -> ap (fneg x) (- v) e.
Proof. intros (F & H). split; [rewrite fneg_fin; exact F|]. rewrite fneg_R. replace (- FR x - - v) with (- (FR x - v)) by ring. rewrite Rabs_Ropp. exact H. Qed.
Lemma ap_add a b x y ea eb X : ap a x ea -> ap b y eb -> Rabs x + Rabs y + ea + eb <= X -> X <= bpow radix2 126 ->
  ap (fadd a b) (x + y) (ea + eb + u32r * X).
Proof.
  intros A B HX XB. pose proof (ap_abs _ _ _ A) as A'. pose proof (ap_abs _ _ _ B) as B'. destruct A as (Fa & A), B as (Fb & B).
  assert (S : Rabs (FR a + FR b) <= X) by (eapply Rle_trans; [apply Rabs_triang|lra]).
  destruct (fadd_rel a b Fa Fb) as (F & e & He & E); [eapply Rle_trans; [exact S|]; eapply Rle_trans; [exact XB|apply bpow_le; lia]|].
  split; [exact F|]. rewrite E. replace ((FR a + FR b) * (1 + e) - (x + y)) with ((FR a - x) + (FR b - y) + (FR a + FR b) * e) by ring.
  eapply Rle_trans; [apply Rabs_triang|]. apply Rplus_le_compat; [eapply Rle_trans; [apply Rabs_triang|lra]|].
  rewrite Rabs_mult, Rmult_comm. apply Rmult_le_compat; auto using Rabs_pos.
Qed.
Lemma ap_sub a b x y ea eb X : ap a x ea -> ap b y eb -> Rabs x + Rabs y + ea + eb <= X -> X <= bpow radix2 126 ->
  ap (fsub a b) (x - y) (ea + eb + u32r * X).
Proof.
  intros A B HX XB. pose proof (ap_abs _ _ _ A) as A'. pose proof (ap_abs _ _ _ B) as B'. destruct A as (Fa & A), B as (Fb & B).
  assert (S : Rabs (FR a - FR b) <= X) by (unfold Rminus; eapply Rle_trans; [apply Rabs_triang|]; rewrite Rabs_Ropp; lra).
  destruct (fsub_rel a b Fa Fb) as (F & e & He & E); [eapply Rle_trans; [exact S|]; eapply Rle_trans; [exact XB|apply bpow_le; lia]|].
  split; [exact F|]. rewrite E. replace ((FR a - FR b) * (1 + e) - (x - y)) with ((FR a - x) + - (FR b - y) + (FR a - FR b) * e) by ring.
  eapply Rle_trans; [apply Rabs_triang|]. apply Rplus_le_compat; [eapply Rle_trans; [apply Rabs_triang|]; rewrite Rabs_Ropp; lra|].
  rewrite Rabs_mult, Rmult_comm. apply Rmult_le_compat; auto using Rabs_pos.
Qed.
Lemma ap_mul a b x y ea eb X Y : ap a x ea -> ap b y eb -> 0 <= ea -> 0 <= eb -> Rabs x + ea <= X -> Rabs y + eb <= Y -> X * Y <= bpow radix2 126 ->
  ap (fmul a b) (x * y) (ea * Y + eb * X + u32r * (X * Y) + t32r).
Proof.
  intros A B Pa Pb HX HY XB. pose proof (ap_abs _ _ _ A) as A'. pose proof (ap_abs _ _ _ B) as B'. destruct A as (Fa & A), B as (Fb & B).
  assert (S : Rabs (FR a * FR b) <= X * Y) by (rewrite Rabs_mult; apply Rmult_le_compat; auto using Rabs_pos; lra).
  destruct (fmul_rel a b Fa Fb) as (F & d & e & Hd & He & E); [eapply Rle_trans; [exact S|]; eapply Rle_trans; [exact XB|apply bpow_le; lia]|].
  split; [exact F|]. rewrite E. replace (FR a * FR b * (1 + d) + e - x * y) with ((FR a - x) * y + (FR b - y) * FR a + FR a * FR b * d + e) by ring.
  eapply Rle_trans; [apply Rabs_triang|]. apply Rplus_le_compat; [|exact He].
  eapply Rle_trans; [apply Rabs_triang|]. apply Rplus_le_compat.
  - eapply Rle_trans; [apply Rabs_triang|]. rewrite !Rabs_mult. apply Rplus_le_compat; apply Rmult_le_compat; auto using Rabs_pos; lra.
  - rewrite Rabs_mult, Rmult_comm. apply Rmult_le_compat; auto using Rabs_pos.
Qed.
Lemma mul_bound x y X Y : Rabs x <= X -> Rabs y <= Y -> Rabs (x * y) <= X * Y.
Proof. intros. rewrite Rabs_mult. apply Rmult_le_compat; auto using Rabs_pos. Qed.
(** three products summed as Eigen does *)
Lemma dot_any X Y a b : 1 <= X -> 1 <= Y -> X * Y <= bpow radix2 100 -> all3 (bounded X) a -> all3 (bounded Y) b ->
  ap (dot3 a b) (dotR (V3R a) (V3R b)) (/ 1500000 * (X * Y)) /\ Rabs (dotR (V3R a) (V3R b)) <= 3 * (X * Y).
Proof.
  intros X1 Y1 B ((F1 & A1) & (F2 & A2) & (F3 & A3)) ((G1 & B1) & (G2 & B2) & (G3 & B3)).
  assert (P1 : 1 <= X * Y) by nra. assert (BB : 16 * bpow radix2 100 <= bpow radix2 126) by (change 16 with (bpow radix2 4); rewrite <- bpow_plus; apply bpow_le; lia).
  pose proof u_small as (U0 & U). pose proof t_small as (T0 & T). unfold dotR, V3R. cbn [vx vy vz].
  pose proof (mul_bound _ _ _ _ A1 B1) as M1. pose proof (mul_bound _ _ _ _ A2 B2) as M2. pose proof (mul_bound _ _ _ _ A3 B3) as M3.
  set (P := X * Y) in *.
  assert (E1 : forall x y, ffin x = true -> ffin y = true -> Rabs (FR x) <= X -> Rabs (FR y) <= Y -> ap (fmul x y) (FR x * FR y) (/ 15000000 * P)).
  { intros x y Fx Fy Hx Hy. eapply ap_le; [apply (ap_mul x y _ _ 0 0 X Y (ap_exact x Fx) (ap_exact y Fy)); try lra; fold P; lra|]. fold P. nra. }
  pose proof (E1 _ _ F1 G1 A1 B1) as Q1. pose proof (E1 _ _ F2 G2 A2 B2) as Q2. pose proof (E1 _ _ F3 G3 A3 B3) as Q3.
  pose proof (ap_add _ _ _ _ _ _ (3 * P) Q2 Q3 ltac:(lra) ltac:(lra)) as Q4.
  assert (M4 : Rabs (FR (vy a) * FR (vy b) + FR (vz a) * FR (vz b)) <= 2 * P) by (eapply Rle_trans; [apply Rabs_triang|lra]).
  assert (UP : u32r * (3 * P) <= 6 / 100000000 * (3 * P)) by (apply Rmult_le_compat_r; lra).
  pose proof (ap_add _ _ _ _ _ _ (4 * P) Q1 Q4 ltac:(lra) ltac:(lra)) as Q5.
  assert (UP' : u32r * (4 * P) <= 6 / 100000000 * (4 * P)) by (apply Rmult_le_compat_r; lra).
  split.
  - rewrite Rplus_assoc. unfold dot3. eapply ap_le; [exact Q5|]. clear -UP UP' P1. lra.
  - rewrite Rplus_assoc. eapply Rle_trans; [apply Rabs_triang|]. lra.
Qed.
(** the difference of two points *)
Definition V3D (a b : pt3) : v3 R := V3 (FR (vx a) - FR (vx b)) (FR (vy a) - FR (vy b)) (FR (vz a) - FR (vz b)).
Lemma m_bound M : 1 <= M -> M <= bpow radix2 38 -> M * M <= bpow radix2 76 /\ 1 <= M * M.
Proof. intros M1 M2. split; [|nra]. change 76%Z with (38 + 38)%Z. rewrite bpow_plus. apply Rmult_le_compat; lra. Qed.
Lemma sub_ap M a b : 1 <= M -> M <= bpow radix2 38 -> bounded M a -> bounded M b ->
  ap (fsub a b) (FR a - FR b) (/ 8000000 * M) /\ bounded ((2 + / 1000) * M) (fsub a b) /\ Rabs (FR a - FR b) <= 2 * M.
Proof.
  intros M1 M2 (Fa & A) (Fb & B). pose proof u_small as (U0 & U).
  assert (B38 : 2 * bpow radix2 38 <= bpow radix2 126) by (change 2 with (bpow radix2 1); rewrite <- bpow_plus; apply bpow_le; lia).
  pose proof (ap_sub a b _ _ 0 0 (2 * M) (ap_exact a Fa) (ap_exact b Fb) ltac:(lra) ltac:(lra)) as Q.
  assert (UP : u32r * (2 * M) <= 6 / 100000000 * (2 * M)) by (apply Rmult_le_compat_r; lra).
  assert (D : Rabs (FR a - FR b) <= 2 * M) by (unfold Rminus; eapply Rle_trans; [apply Rabs_triang|]; rewrite Rabs_Ropp; lra).
  assert (Q' : ap (fsub a b) (FR a - FR b) (/ 8000000 * M)) by (eapply ap_le; [exact Q|lra]).
  split; [exact Q'|]. split; [|exact D]. split; [apply Q'|]. pose proof (ap_abs _ _ _ Q'). lra.
Qed.
(** a dot product with a rounded difference *)
Lemma dot_diff M X a b n : 1 <= M -> M <= bpow radix2 38 -> 1 <= X -> X <= 2 -> all3 (bounded M) a -> all3 (bounded M) b -> all3 (bounded X) n ->
  ap (dot3 n (pt_sub a b)) (dotR (V3R n) (V3D a b)) (/ 500000 * (X * M)) /\
  ap (dot3 (pt_sub a b) n) (dotR (V3R n) (V3D a b)) (/ 500000 * (X * M)) /\ Rabs (dotR (V3R n) (V3D a b)) <= 6 * (X * M).
Proof.
  intros M1 M2 X1 X2 (A1 & A2 & A3) (B1 & B2 & B3) N.
  destruct (sub_ap M _ _ M1 M2 A1 B1) as (S1 & T1 & R1). destruct (sub_ap M _ _ M1 M2 A2 B2) as (S2 & T2 & R2). destruct (sub_ap M _ _ M1 M2 A3 B3) as (S3 & T3 & R3).
  assert (BD : all3 (bounded ((2 + / 1000) * M)) (pt_sub a b)) by exact (conj T1 (conj T2 T3)).
  assert (B38 : 8 * bpow radix2 38 <= bpow radix2 100) by (change 8 with (bpow radix2 3); rewrite <- bpow_plus; apply bpow_le; lia).
  assert (XM : X * M <= 2 * M) by (apply Rmult_le_compat_r; lra). assert (XM1 : M <= X * M) by nra.
  assert (XY : X * ((2 + / 1000) * M) <= bpow radix2 100) by (replace (X * ((2 + / 1000) * M)) with ((2 + / 1000) * (X * M)) by ring; lra).
  destruct (dot_any X ((2 + / 1000) * M) n (pt_sub a b) X1 ltac:(lra) XY N BD) as ((F & E) & _).
  destruct (dot_any ((2 + / 1000) * M) X (pt_sub a b) n ltac:(lra) X1 ltac:(rewrite Rmult_comm; exact XY) BD N) as ((F' & E') & _).
  destruct N as ((N1 & N2) & (N3 & N4) & (N5 & N6)).
  assert (D : Rabs (dotR (V3R n) (V3R (pt_sub a b)) - dotR (V3R n) (V3D a b)) <= 3 * (/ 8000000 * (X * M))).
  { unfold dotR, V3R, V3D, pt_sub, zip3. cbn [vx vy vz]. destruct S1 as (_ & S1), S2 as (_ & S2), S3 as (_ & S3).
    set (x := FR (fsub (vx a) (vx b))) in *. set (y := FR (fsub (vy a) (vy b))) in *. set (z := FR (fsub (vz a) (vz b))) in *.
    replace (FR (vx n) * x + FR (vy n) * y + FR (vz n) * z - (FR (vx n) * (FR (vx a) - FR (vx b)) + FR (vy n) * (FR (vy a) - FR (vy b)) + FR (vz n) * (FR (vz a) - FR (vz b))))
      with (FR (vx n) * (x - (FR (vx a) - FR (vx b))) + FR (vy n) * (y - (FR (vy a) - FR (vy b))) + FR (vz n) * (z - (FR (vz a) - FR (vz b)))) by ring.
    pose proof (mul_bound _ _ _ _ N2 S1). pose proof (mul_bound _ _ _ _ N4 S2). pose proof (mul_bound _ _ _ _ N6 S3).
    eapply Rle_trans; [apply Rabs_triang|]. eapply Rle_trans; [apply Rplus_le_compat_r, Rabs_triang|]. lra. }
  assert (C : dotR (V3R (pt_sub a b)) (V3R n) = dotR (V3R n) (V3R (pt_sub a b))) by (unfold dotR; ring). rewrite C in E'.
  split; [|split].
  - split; [exact F|]. replace (FR (dot3 n (pt_sub a b)) - _) with (FR (dot3 n (pt_sub a b)) - dotR (V3R n) (V3R (pt_sub a b)) + (dotR (V3R n) (V3R (pt_sub a b)) - dotR (V3R n) (V3D a b))) by ring.
    eapply Rle_trans; [apply Rabs_triang|]. lra.
  - split; [exact F'|]. replace (FR (dot3 (pt_sub a b) n) - _) with (FR (dot3 (pt_sub a b) n) - dotR (V3R n) (V3R (pt_sub a b)) + (dotR (V3R n) (V3R (pt_sub a b)) - dotR (V3R n) (V3D a b))) by ring.
    eapply Rle_trans; [apply Rabs_triang|]. lra.
  - unfold dotR, V3R, V3D. cbn [vx vy vz]. pose proof (mul_bound _ _ _ _ N2 R1). pose proof (mul_bound _ _ _ _ N4 R2). pose proof (mul_bound _ _ _ _ N6 R3).
    eapply Rle_trans; [apply Rabs_triang|]. eapply Rle_trans; [apply Rplus_le_compat_r, Rabs_triang|]. lra.
Qed.

(** ** Planes *)
Lemma eps_R : ffin kEpsilon = true /\ / 2000000 <= FR kEpsilon <= / 999999.
Proof.
  split; [reflexivity|]. assert (E : FR kEpsilon = IZR 8796093 * bpow radix2 (-43)) by reflexivity. rewrite E.
  assert (B : bpow radix2 (-43) = / IZR (2 ^ 43)) by reflexivity. rewrite B. change (2 ^ 43)%Z with 8796093022208%Z. lra.
Qed.
Lemma flt_false a b : ffin a = true -> ffin b = true -> flt a b = false -> FR b <= FR a.
Proof. intros A B H. apply Rnot_lt_le. intros L. rewrite (proj2 (flt_R a b A B) L) in H. discriminate H. Qed.
Lemma flt_false' a b : ffin a = true -> ffin b = true -> FR b <= FR a -> flt a b = false.
Proof. intros A B H. destruct (flt a b) eqn:E; [|reflexivity]. apply (flt_R a b A B) in E. lra. Qed.
Lemma f0_R : ffin f0 = true /\ FR f0 = 0.
Proof. split; reflexivity. Qed.
Section plane.
  Variables (M : R) (c n o d : pt3) (m : f32).
  Hypotheses (M1 : 1 <= M) (M2 : M <= bpow radix2 38) (C : all3 (bounded M) c) (O : all3 (bounded M) o) (BM : bounded M m)
    (N : all3 (bounded (1 + / 1000)) n) (D : all3 (bounded (1 + / 1000)) d).
  Let k := dotR (V3R n) (V3R d).
  Let s := dotR (V3R n) (V3D c o).
  Let den := dot3 d n.
  Let num := dot3 (pt_sub c o) n.
  Lemma den_ap : ap den k (/ 1400000).
  Proof.
    assert (B : (1 + / 1000) * (1 + / 1000) <= bpow radix2 100) by (apply Rle_trans with (bpow radix2 1); [change (bpow radix2 1) with 2; lra|apply bpow_le; lia]).
    destruct (dot_any (1 + / 1000) (1 + / 1000) d n ltac:(lra) ltac:(lra) B D N) as ((F & E) & _).
    split; [exact F|]. unfold k, den. replace (dotR (V3R n) (V3R d)) with (dotR (V3R d) (V3R n)) by (unfold dotR; ring). lra.
  Qed.
  Lemma num_ap : ap num s (/ 450000 * M) /\ Rabs s <= 7 * M.
  Proof. destruct (dot_diff M (1 + / 1000) c o n M1 M2 ltac:(lra) ltac:(lra) C O N) as (_ & A & B). fold s in A, B. fold num in A. split; [eapply ap_le; [exact A|]|]; lra. Qed.
  Lemma height_eq t : height (V3R c) (V3R n) (on_ray o d t) = t * k - s.
  Proof. unfold height, vsub, on_ray, k, s, dotR, V3R, V3D. cbn [vx vy vz]. ring. Qed.
  Lemma quot_R : / 2000000 <= Rabs (FR den) -> ffin (fdiv num den) = true /\ FR (fdiv num den) = rnd32 (FR num / FR den).
  Proof.
    intros H. destruct num_ap as (A & B). pose proof (ap_abs _ _ _ A) as A'. destruct A as (F & A).
    assert (Z : FR den <> 0) by (intros Z; rewrite Z, Rabs_R0 in H; lra).
    destruct (fdiv_R num den F Z) as (E & G); [|auto].
    apply rnd32_small. unfold Rdiv. rewrite Rabs_mult, Rabs_inv.
    apply Rle_trans with (bpow radix2 42 * bpow radix2 22).
    - apply Rmult_le_compat; try apply Rabs_pos; [rewrite <- Rabs_inv; apply Rabs_pos| |].
      + replace (bpow radix2 42) with (16 * bpow radix2 38) by (change 16 with (bpow radix2 4); rewrite <- bpow_plus; reflexivity). lra.
      + apply Rle_trans with (/ / 2000000); [apply Rinv_le; lra|]. rewrite Rinv_inv. change (bpow radix2 22) with 4194304. lra.
    - rewrite <- bpow_plus. apply bpow_le. lia.
  Qed.
  Lemma plane_sound t : plane_hit c n o d m = Some t ->
    ffin t = true /\ 0 <= FR t <= FR m /\ Rabs (height (V3R c) (V3R n) (on_ray o d (FR t))) <= / 100000 * M.
  Proof.
    intros H. unfold plane_hit in H. cbv zeta in H. fold den in H. fold num in H. destruct den_ap as (Fd & Ed). destruct num_ap as ((Fn & En) & Bs).
    destruct eps_R as (Fe & Ee). destruct BM as (Fm & Bm).
    destruct (flt (fabs den) kEpsilon) eqn:L1; [discriminate H|]. apply flt_false in L1; [|rewrite fabs_fin; exact Fd|exact Fe]. rewrite fabs_R in L1.
    assert (L : / 2000000 <= Rabs (FR den)) by lra. destruct (quot_R L) as (Ft & Et).
    destruct (flt (fdiv num den) f0) eqn:L2; [discriminate H|]. apply flt_false in L2; [|exact Ft|reflexivity]. change (FR f0) with 0 in L2.
    destruct (fgt (fdiv num den) m) eqn:L3; [discriminate H|]. unfold fgt in L3. apply flt_false in L3; [|exact Fm|exact Ft].
    injection H as <-. split; [exact Ft|]. split; [lra|].
    assert (Z : FR den <> 0) by (intros Z; rewrite Z, Rabs_R0 in L; lra).
    assert (TB : Rabs (FR (fdiv num den)) <= M) by (rewrite Rabs_pos_eq by lra; apply Rabs_le_inv in Bm; lra).
    rewrite height_eq. destruct (rnd32_err (FR num / FR den)) as (e1 & e2 & He1 & He2 & E). rewrite E in Et. set (t := FR (fdiv num den)) in *.
    assert (T : t * FR den = FR num * (1 + e1) + e2 * FR den) by (rewrite Et; field; exact Z).
    replace (t * k - s) with (- (t * (FR den - k)) + (FR num - s) + (FR num * e1 + e2 * FR den)) by (replace (FR num * e1 + e2 * FR den) with (t * FR den - FR num) by (rewrite T; ring); ring).
    assert (G1 : Rabs (t * (FR den - k)) <= M * / 1400000) by (apply mul_bound; assumption).
    assert (AN : Rabs (FR num) <= 8 * M) by (pose proof (ap_abs num s _ (conj Fn En)); lra).
    assert (G2 : Rabs (FR num * e1) <= 8 * M * u32r) by (apply mul_bound; assumption).
    assert (AD : Rabs (FR den) <= 8).
    { pose proof (ap_abs den k _ (conj Fd Ed)) as AD. assert (B : (1 + / 1000) * (1 + / 1000) <= bpow radix2 100) by (apply Rle_trans with (bpow radix2 1); [change (bpow radix2 1) with 2; lra|apply bpow_le; lia]).
      destruct (dot_any (1 + / 1000) (1 + / 1000) n d ltac:(lra) ltac:(lra) B N D) as (_ & K). fold k in K. lra. }
    assert (G3 : Rabs (e2 * FR den) <= t32r * 8) by (apply mul_bound; assumption). pose proof u_small. pose proof t_small.
    assert (UM : 8 * M * u32r <= 8 * M * (6 / 100000000)) by (apply Rmult_le_compat_l; lra).
    eapply Rle_trans; [apply Rabs_triang|]. eapply Rle_trans; [apply Rplus_le_compat; [apply Rabs_triang|apply Rabs_triang]|]. rewrite Rabs_Ropp. lra.
  Qed.
  Lemma plane_complete tau : height (V3R c) (V3R n) (on_ray o d tau) = 0 -> 2 / 1000000 <= Rabs k ->
    2 / 100000 * M <= tau * Rabs k -> tau * Rabs k <= FR m * Rabs k - 2 / 100000 * M ->
    exists t, plane_hit c n o d m = Some t.
  Proof.
    intros Hh Hk Ht1 Ht2. rewrite height_eq in Hh. destruct den_ap as (Fd & Ed). destruct num_ap as ((Fn & En) & Bs). destruct eps_R as (Fe & Ee). destruct BM as (Fm & Bm).
    apply Rabs_le_inv in Bm. apply Rabs_le_inv in Ed. apply Rabs_le_inv in En.
    assert (L : / 999999 <= Rabs (FR den) /\ 0 <= FR num / FR den <= FR m).
    { assert (MP : 0 <= FR m) by nra.
      assert (KM : FR m * / 1400000 <= M * / 1400000) by (apply Rmult_le_compat_r; lra).
      unfold Rabs in Hk, Ht1, Ht2. destruct (Rcase_abs k) as [K|K].
      - assert (DN : FR den < 0) by lra. split; [unfold Rabs; destruct (Rcase_abs (FR den)); lra|].
        assert (NN : FR num <= 0) by lra. replace (FR num / FR den) with ((- FR num) / (- FR den)) by (field; lra).
        split; [apply Rmult_le_pos; [lra|left; apply Rinv_0_lt_compat; lra]|].
        apply Rmult_le_reg_r with (- FR den); [lra|]. unfold Rdiv. rewrite Rmult_assoc, Rinv_l by lra.
        assert (FR m * - FR den >= FR m * (- k - / 1400000)) by (apply Rle_ge, Rmult_le_compat_l; lra). lra.
      - assert (DN : 0 < FR den) by lra. split; [unfold Rabs; destruct (Rcase_abs (FR den)); lra|].
        assert (NN : 0 <= FR num) by lra.
        split; [apply Rmult_le_pos; [lra|left; apply Rinv_0_lt_compat; lra]|].
        apply Rmult_le_reg_r with (FR den); [lra|]. unfold Rdiv. rewrite Rmult_assoc, Rinv_l by lra.
        assert (FR m * FR den >= FR m * (k - / 1400000)) by (apply Rle_ge, Rmult_le_compat_l; lra). lra. }
    destruct L as (L & Q1 & Q2). destruct (quot_R ltac:(lra)) as (Ft & Et).
    unfold plane_hit. cbv zeta. fold den. fold num.
    rewrite (flt_false' (fabs den) kEpsilon); [|rewrite fabs_fin; exact Fd|exact Fe|rewrite fabs_R; lra].
    rewrite (flt_false' (fdiv num den) f0); [|exact Ft|reflexivity|].
    2:{ change (FR f0) with 0. rewrite Et. assert (Z : rnd32 0 = 0) by apply round_0, valid_rnd_N. rewrite <- Z. apply rnd32_le, Q1. }
    unfold fgt. rewrite (flt_false' m (fdiv num den)); [eauto|exact Fm|exact Ft|]. rewrite Et, <- (rnd32_FR m). apply rnd32_le, Q2.
  Qed.
End plane.

(** ** Spheres *)
Definition apd (x : f64) (v e : R) : Prop := dfin x = true /\ Rabs (DR x - v) <= e.
Lemma u64_small : 0 < u64r /\ u64r <= / 1000000000000000.
Proof. unfold u64r. lra. Qed.
Lemma t64_small : 0 < t64r /\ t64r <= / 1000000000000.
Proof.
  unfold t64r. split; [apply bpow_gt_0|]. apply Rle_trans with (bpow radix2 (-40)); [apply bpow_le; lia|].
  assert (B : bpow radix2 (-40) = / IZR (2 ^ 40)) by reflexivity. rewrite B. change (2 ^ 40)%Z with 1099511627776%Z. lra.
Qed.
Lemma rnd64_near x S : Rabs x <= 100 * S -> 1 <= S -> Rabs (rnd64 x - x) <= / 1000000000 * S.
Proof.
  intros H S1. destruct (rnd64_err x) as (d & e & Hd & He & ->). pose proof u64_small. pose proof t64_small.
  replace (x * (1 + d) + e - x) with (x * d + e) by ring. eapply Rle_trans; [apply Rabs_triang|].
  pose proof (mul_bound _ _ _ _ H Hd). assert (100 * S * u64r <= 100 * S * / 1000000000000000) by (apply Rmult_le_compat_l; lra). lra.
Qed.
Lemma rnd32_err' x : exists d e, Rabs d <= u32r /\ Rabs e <= t32r /\ rnd32 x = x * (1 + d) + e.
Proof. destruct (rnd32_err x) as (d & e & H). exists d, e. exact H. Qed.
Lemma rnd32_near x S : Rabs x <= 80 * S -> 1 <= S -> Rabs (rnd32 x - x) <= / 200000 * S.
Proof.
  intros H S1. destruct (rnd32_err' x) as (d & e & Hd & He & ->). pose proof u_small. pose proof t_small.
  replace (x * (1 + d) + e - x) with (x * d + e) by ring. eapply Rle_trans; [apply Rabs_triang|].
  pose proof (mul_bound _ _ _ _ H Hd). assert (80 * S * u32r <= 80 * S * (6 / 100000000)) by (apply Rmult_le_compat_l; lra). lra.
Qed.
Lemma near_trans a b c x y : Rabs (a - b) <= x -> Rabs (b - c) <= y -> Rabs (a - c) <= x + y.
Proof. intros H K. replace (a - c) with ((a - b) + (b - c)) by ring. eapply Rle_trans; [apply Rabs_triang|lra]. Qed.
Lemma sq_near a b e X : Rabs (a - b) <= e -> Rabs a <= X -> Rabs b <= X -> 0 <= e -> Rabs (a * a - b * b) <= e * (2 * X).
Proof.
  intros H A B E. replace (a * a - b * b) with ((a - b) * (a + b)) by ring. apply mul_bound; [exact H|]. eapply Rle_trans; [apply Rabs_triang|lra].
Qed.
Lemma apd_sub S a b x y ea eb : 1 <= S -> S <= bpow radix2 76 -> apd a x ea -> apd b y eb -> ea <= S -> eb <= S -> Rabs (x - y) <= 80 * S ->
  apd (dsub a b) (x - y) (ea + eb + / 1000000000 * S).
Proof.
  intros S1 S2 (Fa & A) (Fb & B) Ea Eb XY.
  assert (BD : 100 * bpow radix2 76 <= bpow radix2 1023) by (apply Rle_trans with (bpow radix2 7 * bpow radix2 76); [apply Rmult_le_compat_r; [apply bpow_ge_0|change (bpow radix2 7) with 128; lra]|rewrite <- bpow_plus; apply bpow_le; lia]).
  assert (N : Rabs (DR a - DR b - (x - y)) <= ea + eb).
  { replace (DR a - DR b - (x - y)) with ((DR a - x) + - (DR b - y)) by ring. eapply Rle_trans; [apply Rabs_triang|]. rewrite Rabs_Ropp. lra. }
  assert (H : Rabs (DR a - DR b) <= 100 * S). { apply Rabs_le_inv in N. apply Rabs_le_inv in XY. apply Rabs_le. lra. }
  destruct (dsub_R a b Fa Fb) as (E & F); [apply rnd64_small; lra|]. split; [exact F|]. rewrite E.
  replace (ea + eb + / 1000000000 * S) with (/ 1000000000 * S + (ea + eb)) by ring. eapply near_trans; [apply rnd64_near; [exact H|exact S1]|exact N].
Qed.
Lemma apd_add S a b x y ea eb : 1 <= S -> S <= bpow radix2 76 -> apd a x ea -> apd b y eb -> ea <= S -> eb <= S -> Rabs (x + y) <= 80 * S ->
  apd (dadd a b) (x + y) (ea + eb + / 1000000000 * S).
Proof.
  intros S1 S2 (Fa & A) (Fb & B) Ea Eb XY.
  assert (BD : 100 * bpow radix2 76 <= bpow radix2 1023) by (apply Rle_trans with (bpow radix2 7 * bpow radix2 76); [apply Rmult_le_compat_r; [apply bpow_ge_0|change (bpow radix2 7) with 128; lra]|rewrite <- bpow_plus; apply bpow_le; lia]).
  assert (N : Rabs (DR a + DR b - (x + y)) <= ea + eb).
  { replace (DR a + DR b - (x + y)) with ((DR a - x) + (DR b - y)) by ring. eapply Rle_trans; [apply Rabs_triang|]. lra. }
  assert (H : Rabs (DR a + DR b) <= 100 * S). { apply Rabs_le_inv in N. apply Rabs_le_inv in XY. apply Rabs_le. lra. }
  destruct (dadd_R a b Fa Fb) as (E & F); [apply rnd64_small; lra|]. split; [exact F|]. rewrite E.
  replace (ea + eb + / 1000000000 * S) with (/ 1000000000 * S + (ea + eb)) by ring. eapply near_trans; [apply rnd64_near; [exact H|exact S1]|exact N].
Qed.
Lemma dsq_apd S x : 1 <= S -> S <= bpow radix2 76 -> ffin x = true -> FR x * FR x <= 80 * S -> apd (dsq x) (FR x * FR x) (/ 1000000000 * S).
Proof.
  intros S1 S2 F H. destruct (f64_of_f32_R x F) as (E & Fd). assert (P : 0 <= FR x * FR x) by apply Rle_0_sqr.
  assert (BD : 100 * bpow radix2 76 <= bpow radix2 1023) by (apply Rle_trans with (bpow radix2 7 * bpow radix2 76); [apply Rmult_le_compat_r; [apply bpow_ge_0|change (bpow radix2 7) with 128; lra]|rewrite <- bpow_plus; apply bpow_le; lia]).
  destruct (dmul_R (f64_of_f32 x) (f64_of_f32 x) Fd Fd) as (G & K); [rewrite E; apply rnd64_small; rewrite Rabs_pos_eq by exact P; lra|].
  split; [exact K|]. unfold dsq. rewrite G, E. apply rnd64_near; [rewrite Rabs_pos_eq by exact P; lra|exact S1].
Qed.
Lemma unit_bounded d : unit_dir d -> all3 (bounded (1 + / 1000)) d.
Proof.
  intros (F1 & F2 & F3 & U). unfold dotR, V3R in U. cbn [vx vy vz] in U. apply Rabs_le_inv in U.
  assert (K : forall x, x * x <= 1 + / 100000 -> Rabs x <= 1 + / 1000) by (intros x H; apply Rabs_le; split; nra).
  pose proof (Rle_0_sqr (FR (vx d))). pose proof (Rle_0_sqr (FR (vy d))). pose proof (Rle_0_sqr (FR (vz d))). unfold Rsqr in *.
  repeat split; try assumption; apply K; lra.
Qed.
Lemma sqnorm_dot e : sqnorm e = dot3 e e. Proof. reflexivity. Qed.
Section sphere.
  Variables (M : R) (c : pt3) (r : f32) (o d : pt3) (m : f32).
  Hypotheses (M1 : 1 <= M) (M2 : M <= bpow radix2 38) (C : all3 (bounded M) c) (O : all3 (bounded M) o) (BM : bounded M m) (BR : bounded M r) (D : unit_dir d).
  Let e := pt_sub o c.
  Let de := dot3 d e.
  Let B0 := dotR (V3R d) (V3D o c).
  Let E0 := dotR (V3D o c) (V3D o c).
  Let DD := dotR (V3R d) (V3R d).
  Let U0 := B0 * B0 - E0 + FR r * FR r.
  Lemma level_eq t : sphere_level (V3R c) (FR r) (on_ray o d t) = (t + B0) * (t + B0) - U0 + t * t * (DD - 1).
  Proof. unfold sphere_level, vsub, on_ray, U0, B0, E0, DD, dotR, V3R, V3D. cbn [vx vy vz]. ring. Qed.
  Lemma de_ap : ap de B0 (/ 450000 * M) /\ Rabs B0 <= 7 * M.
  Proof. destruct (dot_diff M (1 + / 1000) o c d M1 M2 ltac:(lra) ltac:(lra) O C (unit_bounded d D)) as (A & _ & B). fold e in A. fold de in A. fold B0 in A, B. split; [eapply ap_le; [exact A|]|]; lra. Qed.
  Lemma e0_ap : ap (sqnorm e) E0 (/ 200000 * (M * M)) /\ 0 <= E0 <= 12 * (M * M).
  Proof.
    destruct (m_bound M M1 M2) as (MM & MM1). destruct O as (O1 & O2 & O3), C as (C1 & C2 & C3).
    destruct (sub_ap M _ _ M1 M2 O1 C1) as ((_ & S1) & T1 & R1). destruct (sub_ap M _ _ M1 M2 O2 C2) as ((_ & S2) & T2 & R2). destruct (sub_ap M _ _ M1 M2 O3 C3) as ((_ & S3) & T3 & R3).
    assert (BD : all3 (bounded ((2 + / 1000) * M)) e) by exact (conj T1 (conj T2 T3)).
    assert (X : (2 + / 1000) * M * ((2 + / 1000) * M) <= bpow radix2 100).
    { replace ((2 + / 1000) * M * ((2 + / 1000) * M)) with ((2 + / 1000) * (2 + / 1000) * (M * M)) by ring.
      apply Rle_trans with (bpow radix2 3 * bpow radix2 76); [apply Rmult_le_compat; try lra; change (bpow radix2 3) with 8; lra|rewrite <- bpow_plus; apply bpow_le; lia]. }
    destruct (dot_any ((2 + / 1000) * M) ((2 + / 1000) * M) e e ltac:(lra) ltac:(lra) X BD BD) as ((F & E) & _). rewrite sqnorm_dot.
    pose proof (proj2 T1) as T1'. pose proof (proj2 T2) as T2'. pose proof (proj2 T3) as T3'.
    pose proof (sq_near _ _ _ ((2 + / 1000) * M) S1 T1' ltac:(lra) ltac:(lra)) as Q1. pose proof (sq_near _ _ _ ((2 + / 1000) * M) S2 T2' ltac:(lra) ltac:(lra)) as Q2. pose proof (sq_near _ _ _ ((2 + / 1000) * M) S3 T3' ltac:(lra) ltac:(lra)) as Q3.
    assert (N : Rabs (dotR (V3R e) (V3R e) - E0) <= / 600000 * (M * M)).
    { unfold E0, dotR, V3R, V3D, e, pt_sub, zip3. cbn [vx vy vz].
      set (x := FR (fsub (vx o) (vx c))) in *. set (y := FR (fsub (vy o) (vy c))) in *. set (z := FR (fsub (vz o) (vz c))) in *.
      apply Rabs_le_inv in Q1. apply Rabs_le_inv in Q2. apply Rabs_le_inv in Q3. apply Rabs_le. lra. }
    split; [split; [exact F|]|].
    - eapply Rle_trans; [eapply near_trans; [exact E|exact N]|]. lra.
    - unfold E0, dotR, V3D. cbn [vx vy vz]. pose proof (Rle_0_sqr (FR (vx o) - FR (vx c))). pose proof (Rle_0_sqr (FR (vy o) - FR (vy c))). pose proof (Rle_0_sqr (FR (vz o) - FR (vz c))). unfold Rsqr in *.
      pose proof (mul_bound _ _ _ _ R1 R1) as W1. pose proof (mul_bound _ _ _ _ R2 R2) as W2. pose proof (mul_bound _ _ _ _ R3 R3) as W3. rewrite Rabs_pos_eq in W1, W2, W3 by assumption. lra.
  Qed.
  Let under := f32_of_f64 (dadd (dsub (dsq de) (f64_of_f32 (sqnorm e))) (dsq r)).
  Lemma under_ap : ap under U0 (/ 20000 * (M * M)) /\ Rabs U0 <= 63 * (M * M).
  Proof.
    destruct (m_bound M M1 M2) as (MM & MM1). destruct de_ap as (A & AB). destruct e0_ap as ((Fe & Ee) & EB). pose proof (ap_abs _ _ _ A) as A'. destruct A as (Fa & A). destruct BR as (Fr & Br).
    assert (De : Rabs (FR de) <= (7 + / 1000) * M) by lra.
    assert (DeB : FR de * FR de <= 50 * (M * M)). { pose proof (mul_bound _ _ _ _ De De) as W. rewrite Rabs_pos_eq in W by apply Rle_0_sqr. nra. }
    assert (B0B : 0 <= B0 * B0 <= 49 * (M * M)). { pose proof (mul_bound _ _ _ _ AB AB) as W. rewrite Rabs_pos_eq in W by apply Rle_0_sqr. split; [apply Rle_0_sqr|lra]. }
    assert (RB : 0 <= FR r * FR r <= M * M). { pose proof (mul_bound _ _ _ _ Br Br) as W. rewrite Rabs_pos_eq in W by apply Rle_0_sqr. split; [apply Rle_0_sqr|lra]. }
    pose proof (sq_near _ _ _ ((7 + / 1000) * M) A De ltac:(lra) ltac:(lra)) as Q.
    destruct (dsq_apd (M * M) de MM1 MM Fa ltac:(lra)) as (F1 & Q1).
    assert (P1 : apd (dsq de) (B0 * B0) (/ 30000 * (M * M))) by (split; [exact F1|]; eapply Rle_trans; [eapply near_trans; [exact Q1|exact Q]|]; lra).
    pose proof (dsq_apd (M * M) r MM1 MM Fr ltac:(lra)) as P2.
    destruct (f64_of_f32_R _ Fe) as (Gd & Fd). assert (P3 : apd (f64_of_f32 (sqnorm e)) E0 (/ 200000 * (M * M))) by (split; [exact Fd|rewrite Gd; exact Ee]).
    assert (UB : Rabs (B0 * B0 - E0) <= 62 * (M * M)) by (apply Rabs_le; lra).
    pose proof (apd_sub (M * M) _ _ _ _ _ _ MM1 MM P1 P3 ltac:(lra) ltac:(lra) ltac:(lra)) as P4.
    assert (UB' : Rabs U0 <= 63 * (M * M)) by (unfold U0; apply Rabs_le; apply Rabs_le_inv in UB; lra).
    destruct (apd_add (M * M) _ _ _ _ _ _ MM1 MM P4 P2 ltac:(lra) ltac:(lra) ltac:(fold U0; lra)) as (F5 & P5). fold U0 in P5.
    set (x := dadd _ _) in *.
    assert (XB : Rabs (DR x) <= 80 * (M * M)). { apply Rabs_le_inv in P5. apply Rabs_le_inv in UB'. apply Rabs_le. lra. }
    assert (BD : 80 * bpow radix2 76 <= bpow radix2 127) by (apply Rle_trans with (bpow radix2 7 * bpow radix2 76); [apply Rmult_le_compat_r; [apply bpow_ge_0|change (bpow radix2 7) with 128; lra]|rewrite <- bpow_plus; apply bpow_le; lia]).
    destruct (f32_of_f64_R x F5) as (E6 & F6); [apply rnd32_small; lra|]. fold under in E6, F6.
    split; [|exact UB']. split; [exact F6|]. rewrite E6. eapply Rle_trans; [eapply near_trans; [apply rnd32_near; [exact XB|exact MM1]|exact P5]|]. lra.
  Qed.
  (** the square root *)
  Lemma root_ok : 0 <= FR under -> let q := sqrt (FR under) in
    ffin (fsqrt under) = true /\ Rabs (FR (fsqrt under) - q) <= / 1900000 * M /\ 0 <= q <= 8 * M /\ q * q = FR under /\ Rabs (q * q - U0) <= / 20000 * (M * M).
  Proof.
    intros P q. destruct (m_bound M M1 M2) as (MM & MM1). destruct under_ap as ((F & E) & B). destruct (fsqrt_R under F P) as (G & K).
    assert (Q2 : q * q = FR under) by (apply sqrt_sqrt, P). assert (Q0 : 0 <= q) by apply sqrt_pos.
    assert (Q8 : q <= 8 * M). { apply Rabs_le_inv in E. apply Rabs_le_inv in B. apply Rnot_lt_le. intros L. assert (64 * (M * M) < q * q) by nra. lra. }
    split; [exact K|]. split; [|split; [lra|split; [exact Q2|rewrite Q2; exact E]]].
    rewrite G. destruct (rnd32_err' (sqrt (FR under))) as (e1 & e2 & H1 & H2 & ->). fold q. replace (q * (1 + e1) + e2 - q) with (q * e1 + e2) by ring.
    eapply Rle_trans; [apply Rabs_triang|]. pose proof u_small. pose proof t_small. assert (W : Rabs q <= 8 * M) by (rewrite Rabs_pos_eq; lra).
    pose proof (mul_bound _ _ _ _ W H1). assert (8 * M * u32r <= 8 * M * (6 / 100000000)) by (apply Rmult_le_compat_l; lra). lra.
  Qed.
  Let t := fsub (fneg de) (fsqrt under).
  Lemma t_ok : 0 <= FR under -> let q := sqrt (FR under) in
    ffin t = true /\ FR t = rnd32 (- FR de - FR (fsqrt under)) /\ Rabs (FR t + B0 - - q) <= / 250000 * M.
  Proof.
    intros P q. destruct (root_ok P) as (F & E & Q & _ & _). fold q in E, Q. destruct de_ap as (A & AB). pose proof (ap_abs _ _ _ A) as A'. destruct A as (Fa & A).
    assert (BD : 16 * bpow radix2 38 <= bpow radix2 127) by (change 16 with (bpow radix2 4); rewrite <- bpow_plus; apply bpow_le; lia).
    assert (W : Rabs (- FR de - FR (fsqrt under)) <= 16 * M). { apply Rabs_le_inv in E. apply Rabs_le_inv in A. apply Rabs_le_inv in AB. apply Rabs_le. lra. }
    destruct (fsub_R (fneg de) (fsqrt under)) as (G & K); [rewrite fneg_fin; exact Fa|exact F|rewrite fneg_R; apply rnd32_small; lra|]. rewrite fneg_R in G.
    split; [exact K|]. split; [exact G|]. fold t in G. rewrite G. destruct (rnd32_err' (- FR de - FR (fsqrt under))) as (e1 & e2 & H1 & H2 & ->).
    pose proof (mul_bound _ _ _ _ W H1) as W'. pose proof u_small. pose proof t_small. assert (16 * M * u32r <= 16 * M * (6 / 100000000)) by (apply Rmult_le_compat_l; lra).
    apply Rabs_le_inv in W'. apply Rabs_le_inv in E. apply Rabs_le_inv in A. apply Rabs_le_inv in H2. apply Rabs_le. lra.
  Qed.
  Lemma DD_near : Rabs (DD - 1) <= / 100000. Proof. destruct D as (_ & _ & _ & H). exact H. Qed.
  Lemma sphere_sound t' : sphere_hit c r o d m = Some t' ->
    ffin t' = true /\ 0 <= FR t' <= FR m /\ Rabs (sphere_level (V3R c) (FR r) (on_ray o d (FR t'))) <= / 5000 * (M * M) /\
    dotR (V3R d) (vsub (on_ray o d (FR t')) (V3R c)) <= / 50000 * M.
  Proof.
    intros H. unfold sphere_hit in H. cbv zeta in H. fold e in H. fold de in H. fold under in H. fold t in H. destruct (m_bound M M1 M2) as (MM & MM1).
    destruct under_ap as ((Fu & _) & _). destruct BM as (Fm & Bm).
    destruct (flt under f0) eqn:L1; [discriminate H|]. apply flt_false in L1; [|exact Fu|reflexivity]. change (FR f0) with 0 in L1.
    destruct (t_ok L1) as (Ft & _ & T). destruct (root_ok L1) as (_ & _ & Q & _ & QU). set (q := sqrt (FR under)) in *.
    destruct (flt t f0) eqn:L2; [discriminate H|]. apply flt_false in L2; [|exact Ft|reflexivity]. change (FR f0) with 0 in L2.
    destruct (fgt t m) eqn:L3; [discriminate H|]. unfold fgt in L3. apply flt_false in L3; [|exact Fm|exact Ft].
    assert (t' = t) by congruence. subst t'. clear H.
    split; [exact Ft|]. split; [lra|]. apply Rabs_le_inv in Bm. pose proof DD_near as HD.
    assert (TB : Rabs (FR t) <= M) by (rewrite Rabs_pos_eq; lra).
    assert (T2 : Rabs (FR t * FR t * (DD - 1)) <= M * M * / 100000) by (apply mul_bound; [apply mul_bound; exact TB|exact HD]).
    assert (T1 : Rabs (FR t * (DD - 1)) <= M * / 100000) by (apply mul_bound; assumption). split.
    - rewrite level_eq. assert (W1 : Rabs (FR t + B0) <= (8 + / 1000) * M) by (apply Rabs_le_inv in T; apply Rabs_le; lra).
      assert (W2 : Rabs (- q) <= (8 + / 1000) * M) by (rewrite Rabs_Ropp, Rabs_pos_eq; lra).
      pose proof (sq_near _ _ _ _ T W1 W2 ltac:(lra)) as S. replace (- q * - q) with (q * q) in S by ring.
      apply Rabs_le_inv in S. apply Rabs_le_inv in QU. apply Rabs_le_inv in T2. apply Rabs_le. lra.
    - replace (dotR (V3R d) (vsub (on_ray o d (FR t)) (V3R c))) with ((FR t + B0) + FR t * (DD - 1)) by (unfold B0, DD, dotR, vsub, on_ray, V3R, V3D; cbn [vx vy vz]; ring).
      apply Rabs_le_inv in T. apply Rabs_le_inv in T1. lra.
  Qed.
  Lemma sphere_complete tau : / 5000 * (M * M) <= sphere_level (V3R c) (FR r) (on_ray o d 0) ->
    sphere_level (V3R c) (FR r) (on_ray o d tau) <= - (/ 5000 * (M * M)) -> 0 <= tau <= FR m -> exists t', sphere_hit c r o d m = Some t'.
  Proof.
    intros H0 HT TT. rewrite level_eq in H0, HT. destruct (m_bound M M1 M2) as (MM & MM1). pose proof DD_near as HD. destruct BM as (Fm & Bm). apply Rabs_le_inv in Bm.
    assert (TB : Rabs tau <= M) by (rewrite Rabs_pos_eq; lra).
    assert (T2 : Rabs (tau * tau * (DD - 1)) <= M * M * / 100000) by (apply mul_bound; [apply mul_bound; exact TB|exact HD]). apply Rabs_le_inv in T2.
    destruct under_ap as ((Fu & Eu) & _). destruct de_ap as ((Fa & A) & AB). apply Rabs_le_inv in A. apply Rabs_le_inv in AB.
    pose proof (Rle_0_sqr (tau + B0)) as SQ. unfold Rsqr in SQ.
    unfold sphere_hit. cbv zeta. fold e. fold de. fold under. fold t.
    assert (L1 : 0 <= FR under) by (apply Rabs_le_inv in Eu; lra).
    rewrite (flt_false' under f0); [|exact Fu|reflexivity|exact L1].
    destruct (t_ok L1) as (Ft & Et & _). destruct (root_ok L1) as (_ & ES & Q & _ & QU). set (q := sqrt (FR under)) in *. apply Rabs_le_inv in ES. apply Rabs_le_inv in QU.
    rewrite (flt_false' t f0); [|exact Ft|reflexivity|].
    2:{ change (FR f0) with 0. rewrite Et. assert (Z : rnd32 0 = 0) by apply round_0, valid_rnd_N. rewrite <- Z. apply rnd32_le. apply Rnot_lt_le. intros L.
        assert (NB : B0 < 0). { apply Rnot_le_lt. intros NB. assert (0 <= 2 * tau * B0) by (apply Rmult_le_pos; lra). pose proof (Rle_0_sqr tau). unfold Rsqr in *. lra. }
        assert (QB : - B0 - / 300000 * M < q) by lra.
        destruct (Rle_dec 0 (- B0 - / 300000 * M)) as [G|G].
        - assert ((- B0 - / 300000 * M) * (- B0 - / 300000 * M) <= q * q) by (apply Rmult_le_compat; lra).
          assert (- B0 * M <= 7 * M * M) by (apply Rmult_le_compat_r; lra). pose proof (Rle_0_sqr (/ 300000 * M)). unfold Rsqr in *. lra.
        - assert ((- B0) * (- B0) <= / 300000 * M * (/ 300000 * M)) by (apply Rmult_le_compat; lra). pose proof (Rle_0_sqr q). unfold Rsqr in *. lra. }
    unfold fgt. rewrite (flt_false' m t); [eauto|exact Fm|exact Ft|]. rewrite Et, <- (rnd32_FR m). apply rnd32_le. apply Rnot_lt_le. intros L.
    assert (QT : tau + B0 < - q + / 300000 * M) by lra.
    destruct (Rle_dec (/ 300000 * M) q) as [G|G].
    - assert ((q - / 300000 * M) * (q - / 300000 * M) <= (- (tau + B0)) * (- (tau + B0))) by (apply Rmult_le_compat; lra).
      assert (q * M <= 8 * M * M) by (apply Rmult_le_compat_r; lra). pose proof (Rle_0_sqr (/ 300000 * M)). unfold Rsqr in *. lra.
    - assert (q * q <= / 300000 * M * (/ 300000 * M)) by (apply Rmult_le_compat; lra). lra.
  Qed.
End sphere.
