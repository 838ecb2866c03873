(** Which voxels an interpolation uses along one axis. *)
From Coq Require Import ZArith List Bool Reals Lra Lia.
From Flocq Require Import Core.
From Verif Require Import F32 F32_lemmas F32_err Types Index Index_float Voxel Layer Interp Interp_spec.
Import ListNotations.
Open Scope R_scope.
Ltac Zify.zify_post_hook ::= idtac.

(** origin and centre coordinates as the code computes them *)
Definition org (vps : Z) (s : f32) (b : Z) : f32 := fmul (f32_of_Z b) (block_size_of vps s).
Definition ctr (vps : Z) (s : f32) (b v : Z) : f32 := fadd (org vps s b) (center_axis v s).

Lemma org_val : forall vps s b, sane_size s -> (1 <= vps <= 2 ^ 10)%Z -> (Z.abs b <= 2 ^ 20)%Z ->
  ffin (org vps s b) = true /\
  Rabs (FR (org vps s b) / FR s - IZR b * IZR vps) <= 2.01 * u * (Rabs (IZR b * IZR vps)) + IZR vps * / 500000000.
Proof.
  intros vps s b Hs Hv Hb. pose proof (sane_pos s Hs) as Sp.
  destruct (block_size_R vps s Hs ltac:(lia)) as (db & Hdb & Ebs & Hw).
  destruct (origin_R b (block_size_of vps s) Hw Hb) as (d & e & Hd & He & E & F).
  fold (org vps s b) in E, F. split; [exact F|]. pose proof (wide_pos _ Hw) as Bp.
  assert (V : 1 <= IZR vps <= 1024) by (split; apply IZR_le; lia).
  assert (Ho : FR (org vps s b) / FR s = IZR vps * (1 + db) * (IZR b * (1 + d) + e)).
  { replace (FR (org vps s b) / FR s) with (FR (org vps s b) / FR (block_size_of vps s) * (FR (block_size_of vps s) / FR s)) by (field; lra).
    rewrite E, Ebs. field. lra. }
  rewrite Ho. set (B := IZR b) in *. set (W := IZR vps) in *.
  replace (W * (1 + db) * (B * (1 + d) + e) - B * W) with (B * W * ((1 + db) * (1 + d) - 1) + W * ((1 + db) * e)) by ring.
  pose proof (rel_comb db d u u Hdb Hd) as C.
  apply Rle_trans with (Rabs (B * W) * (2.01 * u) + W * / 500000000); [|lra].
  apply Rabs_tri.
  - apply Rabs_prod; [lra|]. eapply Rle_trans; [exact C|]. unfold u. lra.
  - apply Rabs_prod; [rewrite Rabs_pos_eq; lra|]. apply Rle_trans with (1.5 * / 1073741824); [|lra].
    apply Rabs_prod; [|exact He]. apply Rabs_le. apply Rabs_le_inv in Hdb. unfold u in Hdb. lra.
Qed.

Lemma ctr_val : forall vps s b v, sane_size s -> (1 <= vps <= 2 ^ 10)%Z -> (Z.abs b * vps <= 2 ^ 17)%Z -> (0 <= v < vps)%Z ->
  ffin (ctr vps s b v) = true /\
  Rabs (FR (ctr vps s b v) / FR s - (IZR (b * vps + v) + / 2)) <= 3.02 * u * (Rabs (IZR b * IZR vps)) + 4 * u * IZR vps.
Proof.
  intros vps s b v Hs Hv Hb Hvv. pose proof (sane_pos s Hs) as Sp.
  destruct (org_val vps s b Hs Hv) as (Fo & Eo); [nia|].
  destruct (center_axis_R v s Hs) as (d & Hd & Ec & Fc); [lia|].
  assert (V : 1 <= IZR vps <= 1024) by (split; apply IZR_le; lia).
  assert (Vv : 0 <= IZR v <= IZR vps - 1). { split; [apply IZR_le; lia|]. rewrite <- minus_IZR. apply IZR_le. lia. }
  set (W := IZR vps) in *. set (o := FR (org vps s b) / FR s) in *.
  assert (BW : Rabs (IZR b * W) <= 131072). { unfold W. rewrite <- mult_IZR, <- abs_IZR. apply IZR_le. rewrite Z.abs_mul, (Z.abs_eq vps) by lia. lia. }
  set (X := Rabs (IZR b * W)) in *. assert (X0 : 0 <= X) by apply Rabs_pos.
  assert (Oo : Rabs o <= 131200).
  { replace o with (o - IZR b * W + IZR b * W) by ring. eapply Rle_trans; [apply Rabs_tri; [exact Eo|apply Rle_refl]|]. fold X. unfold u. lra. }
  assert (Q : (FR (org vps s b) + FR (center_axis v s)) / FR s = o + (IZR v + / 2) * (1 + d)).
  { rewrite Ec. unfold o. field. lra. }
  assert (Cv : Rabs ((IZR v + / 2) * (1 + d)) <= 1030).
  { apply Rle_trans with (1024 * 1.001); [|lra]. apply Rabs_prod; [rewrite Rabs_pos_eq; lra|]. apply Rabs_le. apply Rabs_le_inv in Hd. unfold u in Hd. lra. }
  assert (Bsum : Rabs ((FR (org vps s b) + FR (center_axis v s)) / FR s) <= 140000).
  { rewrite Q. eapply Rle_trans; [apply Rabs_tri; [exact Oo|exact Cv]|]. lra. }
  destruct (fadd_rel (org vps s b) (center_axis v s) Fo Fc) as (F & e & He & E).
  { apply Rle_trans with (bpow radix2 (18 + 40)); [|apply bpow_le; lia]. apply size_bound with s 140000; auto. cbn. lra. }
  fold (ctr vps s b v) in F, E. split; [exact F|]. rewrite E.
  replace ((FR (org vps s b) + FR (center_axis v s)) * (1 + e) / FR s) with ((o + (IZR v + / 2) * (1 + d)) * (1 + e)).
  2:{ rewrite <- Q. field. lra. }
  rewrite plus_IZR, mult_IZR. fold W.
  change u32r with u in He.
  replace ((o + (IZR v + / 2) * (1 + d)) * (1 + e) - (IZR b * W + IZR v + / 2)) with
    ((o - IZR b * W) * (1 + e) + (IZR b * W * e + (IZR v + / 2) * ((1 + d) * (1 + e) - 1))) by ring.
  pose proof (rel_comb d e (2 * u) u Hd He) as C.
  assert (P1 : Rabs (1 + e) <= 1.0001). { apply Rabs_le. apply Rabs_le_inv in He. unfold u in He. lra. }
  eapply Rle_trans; [apply Rabs_tri; [apply Rabs_prod; [exact Eo|exact P1]|apply Rabs_tri; [apply Rabs_prod; [apply Rle_refl|exact He]|
    apply Rabs_prod with (A := W); [rewrite Rabs_pos_eq; lra|exact C]]]|].
  fold X. unfold u. nra.
Qed.
Lemma clamp_range : forall vps n, (1 <= vps)%Z -> (0 <= clamp_axis vps n < vps)%Z.
Proof. intros. unfold clamp_axis. lia. Qed.
Lemma axis_cell : forall vps s p, sane_size s -> (1 <= vps <= 2 ^ 10)%Z -> ffin p = true -> Rabs (FR p / FR s) <= 65536 ->
  exists b n, grid_axis p (inv_of (block_size_of vps s)) = Some b /\
    grid_axis (fsub p (org vps s b)) (inv_of s) = Some n /\
    (Z.abs b * vps <= 2 ^ 17 - vps)%Z /\
    IZR (b * vps + clamp_axis vps n) - border_tol vps (FR p / FR s) <= FR p / FR s
      <= IZR (b * vps + clamp_axis vps n) + 1 + border_tol vps (FR p / FR s).
Proof.
  intros vps s p Hs Hv Fp Ht. pose proof (sane_pos s Hs) as Sp.
  destruct (block_size_R vps s Hs ltac:(lia)) as (db & Hdb & Ebs & Hw). pose proof (wide_pos _ Hw) as Bp.
  set (bs := block_size_of vps s) in *. set (t := FR p / FR s) in *.
  assert (V : 1 <= IZR vps <= 1024) by (split; apply IZR_le; lia). set (W := IZR vps) in *.
  set (T := FR p / FR bs) in *. pose proof (Rabs_pos t) as T0.
  assert (Et : t = T * W * (1 + db)). { unfold t, T. rewrite Ebs. field. rewrite Ebs in Bp. nra. }
  assert (Hdb' : - / 16777216 <= db <= / 16777216) by (apply Rabs_le_inv in Hdb; unfold u in Hdb; lra).
  assert (ETW : Rabs (T * W) <= 1.0001 * Rabs t).
  { rewrite Et, (Rabs_mult _ (1 + db)), (Rabs_pos_eq (1 + db)) by lra. pose proof (Rabs_pos (T * W)). nra. }
  assert (ET : Rabs T <= 1.0001 * Rabs t).
  { eapply Rle_trans; [|exact ETW]. rewrite Rabs_mult, (Rabs_pos_eq W) by lra. pose proof (Rabs_pos T). nra. }
  destruct (grid_axis_of_value p bs Fp Hw) as (b & Gb & Lb & Ub). { fold T. change (bpow radix2 24) with 16777216. lra. }
  fold T in Lb, Ub.
  assert (GT : gtol T * W <= 5.001 * u * Rabs t + W * / 262144).
  { unfold gtol. rewrite Rmult_plus_distr_r. replace (5 * u * Rabs T * W) with (5 * u * Rabs (T * W)) by (rewrite Rabs_mult, (Rabs_pos_eq W) by lra; ring).
    unfold u. lra. }
  assert (G0 : 0 <= gtol T) by (unfold gtol, u; pose proof (Rabs_pos T); lra).
  set (r := t - IZR b * W).
  assert (Ed : Rabs (T * W * db) <= 1.0001 * u * Rabs t).
  { rewrite Rabs_mult. apply Rle_trans with (1.0001 * Rabs t * u); [|lra]. apply Rmult_le_compat; auto using Rabs_pos. }
  apply Rabs_le_inv in Ed.
  assert (Rr : - (6.01 * u * Rabs t + W * / 262144) <= r <= W + (6.01 * u * Rabs t + W * / 262144)).
  { unfold r. replace (t - IZR b * W) with ((T - IZR b) * W + T * W * db) by (rewrite Et; ring).
    assert (- (gtol T * W) <= (T - IZR b) * W <= W + gtol T * W) by (split; nra). lra. }
  assert (Bb : Rabs (IZR b * W) <= 1.001 * Rabs t + 1.01 * W).
  { replace (IZR b * W) with (t - r) by (unfold r; ring). apply Rabs_le. assert (- Rabs t <= t <= Rabs t) by (apply Rabs_le_inv; lra). unfold u in Rr. lra. }
  assert (Zb : (Z.abs b * vps <= 2 ^ 17 - vps)%Z).
  { apply le_IZR. rewrite mult_IZR, abs_IZR, minus_IZR. fold W. replace (Rabs (IZR b) * W) with (Rabs (IZR b * W)) by (rewrite Rabs_mult, (Rabs_pos_eq W) by lra; auto).
    change (IZR (2 ^ 17)) with 131072. lra. }
  destruct (org_val vps s b Hs Hv) as (Fo & Eo); [nia|]. fold W in Eo.
  set (o := org vps s b) in *.
  assert (E2 : Rabs (FR o / FR s - IZR b * W) <= 2.02 * u * Rabs t + W * / 4000000).
  { eapply Rle_trans; [exact Eo|]. unfold u. lra. }
  assert (L0 : (FR p - FR o) / FR s = r - (FR o / FR s - IZR b * W)) by (unfold r, t; field; lra).
  set (q := (FR p - FR o) / FR s) in *.
  apply Rabs_le_inv in E2.
  assert (Bq : Rabs q <= 1.01 * W + 1). { rewrite L0. apply Rabs_le. unfold u in *. lra. }
  destruct (fsub_rel p o Fp Fo) as (Fs & e & He & Es).
  { apply Rle_trans with (bpow radix2 (11 + 40)); [|apply bpow_le; lia]. apply size_bound with s (1.01 * W + 1); auto. cbn. lra. }
  assert (Eq : FR (fsub p o) / FR s = q * (1 + e)). { rewrite Es. unfold q. field. lra. }
  change u32r with u in He.
  assert (Bq2 : Rabs (q * (1 + e)) <= 1.011 * W + 1.001).
  { rewrite Rabs_mult. apply Rle_trans with ((1.01 * W + 1) * 1.0001); [|lra]. apply Rmult_le_compat; auto using Rabs_pos.
    apply Rabs_le. apply Rabs_le_inv in He. unfold u in He. lra. }
  assert (Dq : Rabs (q * e) <= u * (1.01 * W + 1)).
  { rewrite Rabs_mult, Rmult_comm. apply Rmult_le_compat; auto using Rabs_pos. }
  destruct (grid_axis_of_value (fsub p o) s Fs (sane_wide s Hs)) as (n & Gn & Ln & Un).
  { rewrite Eq. change (bpow radix2 24) with 16777216. lra. }
  rewrite Eq in Ln, Un.
  assert (GQ : 0 <= gtol (q * (1 + e)) <= 5 * u * (1.011 * W + 1.001) + / 262144).
  { unfold gtol. pose proof (Rabs_pos (q * (1 + e))). split; unfold u; lra. }
  exists b, n. split; [exact Gb|]. split; [exact Gn|]. split; [exact Zb|].
  rewrite plus_IZR, mult_IZR. unfold border_tol. fold W t.
  apply Rabs_le_inv in Dq. replace (q * (1 + e)) with (q + q * e) in * by ring.
  assert (Rn : IZR n - (2.03 * u * Rabs t + W * / 1000000 + / 200000) <= r <= IZR n + 1 + (2.03 * u * Rabs t + W * / 1000000 + / 200000)).
  { clear - T0 V E2 L0 Dq Ln Un GQ. unfold u in *. set (z := FR o / FR s - IZR b * W) in *. set (qe := q * e) in *.
    set (gq := gtol (q + qe)) in *. clearbody z qe gq q r W. set (at_ := Rabs t) in *. clearbody at_. split; lra. }
  assert (G : IZR (clamp_axis vps n) - (/ 1048576 * Rabs t + / 131072 * W + / 65536) <= r <= IZR (clamp_axis vps n) + 1 + (/ 1048576 * Rabs t + / 131072 * W + / 65536)).
  { unfold clamp_axis. destruct (Z_lt_le_dec n 0) as [N|N].
    - replace (Z.max (Z.min n (vps - 1)) 0) with 0%Z by lia. assert (IZR n <= -1) by (apply IZR_le; lia). unfold u in *. lra.
    - destruct (Z_lt_le_dec n vps) as [N'|N'].
      + replace (Z.max (Z.min n (vps - 1)) 0) with n by lia. unfold u in *. lra.
      + replace (Z.max (Z.min n (vps - 1)) 0) with (vps - 1)%Z by lia. rewrite minus_IZR. fold W.
        assert (W <= IZR n) by (apply IZR_le; lia). unfold u in *. lra. }
  unfold r in G. lra.
Qed.
Lemma rnd32_pos : forall x, 0 <= x -> 0 <= rnd32 x.
Proof. intros. rewrite <- rnd32_0. apply rnd32_le. auto. Qed.
(** the offset of a point from a centre, in voxels *)
Lemma offset_val : forall vps s p b v, sane_size s -> (1 <= vps <= 2 ^ 10)%Z -> ffin p = true -> Rabs (FR p / FR s) <= 65536 ->
  (Z.abs b * vps <= 2 ^ 17)%Z -> (0 <= v < vps)%Z -> Rabs (FR p / FR s - (IZR (b * vps + v) + / 2)) <= 2 ->
  let x := fmul (fsub p (ctr vps s b v)) (inv_of s) in
  ffin x = true /\ Rabs (FR x - (FR p / FR s - (IZR (b * vps + v) + / 2))) <= off_tol vps (FR p / FR s) /\
  (flt (fsub p (ctr vps s b v)) f0 = false -> 0 <= FR x).
Proof.
  intros vps s p b v Hs Hv Fp Ht Hb Hvv HD x. pose proof (sane_pos s Hs) as Sp.
  destruct (ctr_val vps s b v Hs Hv Hb Hvv) as (Fc & Ec).
  assert (V : 1 <= IZR vps <= 1024) by (split; apply IZR_le; lia).
  assert (Vv : 0 <= IZR v <= IZR vps - 1). { split; [apply IZR_le; lia|]. rewrite <- minus_IZR. apply IZR_le. lia. }
  set (c := ctr vps s b v) in *. set (t := FR p / FR s) in *. set (m := IZR (b * vps + v) + / 2) in *.
  assert (BW : Rabs (IZR b * IZR vps) <= Rabs t + IZR vps + 2).
  { replace (IZR b * IZR vps) with (t - (t - m) - (IZR v + / 2)) by (unfold m; rewrite plus_IZR, mult_IZR; ring).
    apply Rabs_le. assert (- Rabs t <= t <= Rabs t) by (apply Rabs_le_inv; lra). apply Rabs_le_inv in HD. lra. }
  set (W := IZR vps) in *. pose proof (Rabs_pos t) as T0.
  assert (E1 : Rabs (FR c / FR s - m) <= 3.02 * u * Rabs t + 14 * u * W).
  { eapply Rle_trans; [exact Ec|]. unfold u. lra. }
  set (d := (FR p - FR c) / FR s).
  assert (Ed : d = t - FR c / FR s) by (unfold d, t; field; lra).
  assert (Bd : Rabs d <= 3).
  { rewrite Ed. replace (t - FR c / FR s) with ((t - m) - (FR c / FR s - m)) by ring. apply Rabs_le.
    apply Rabs_le_inv in HD, E1. unfold u in E1. lra. }
  destruct (fsub_rel p c Fp Fc) as (Fs & e & He & Es).
  { apply Rle_trans with (bpow radix2 (2 + 40)); [|apply bpow_le; lia]. apply size_bound with s 3; auto. cbn. lra. }
  destruct (inv_of_R s (sane_wide s Hs)) as (e2 & He2 & Ei & Fi).
  change u32r with u in *.
  assert (He' := He). assert (He2' := He2). apply Rabs_le_inv in He', He2'. unfold u in He', He2'.
  assert (Ep : FR (fsub p c) * FR (inv_of s) = d * ((1 + e) * (1 + e2))). { rewrite Es, Ei. unfold d. field. lra. }
  pose proof (rel_comb e e2 u (2 * u) He He2) as C.
  assert (Bp : Rabs (FR (fsub p c) * FR (inv_of s)) <= 4).
  { rewrite Ep. apply Rle_trans with (3 * 1.1); [|lra]. apply Rabs_prod; auto. apply Rabs_le. apply Rabs_le_inv in C. unfold u in C. lra. }
  destruct (fmul_rel (fsub p c) (inv_of s) Fs Fi) as (Fx & e3 & e4 & He3 & He4 & Ex).
  { eapply Rle_trans; [exact Bp|]. change 4 with (bpow radix2 2). apply bpow_le. lia. }
  fold x in Fx, Ex. split; [exact Fx|]. split.
  - assert (T4 : t32r <= / 1000000000). { unfold t32r. apply Rle_trans with (bpow radix2 (-30)); [apply bpow_le; lia|cbn; lra]. }
    rewrite Ex, Ep. change u32r with u in He3.
    replace (d * ((1 + e) * (1 + e2)) * (1 + e3) + e4 - (t - m)) with
      (d * ((1 + ((1 + e) * (1 + e2) - 1)) * (1 + e3) - 1) + e4 - (FR c / FR s - m)) by (rewrite Ed; ring).
    pose proof (rel_comb ((1 + e) * (1 + e2) - 1) e3 _ u C He3) as C3.
    assert (P : Rabs (d * ((1 + ((1 + e) * (1 + e2) - 1)) * (1 + e3) - 1)) <= 13 * u).
    { eapply Rle_trans; [apply Rabs_prod; [exact Bd|exact C3]|]. unfold u. lra. }
    apply Rabs_le. apply Rabs_le_inv in P, He4, E1. unfold off_tol. fold W. unfold u in *. lra.
  - intros NL. assert (H : 0 <= FR (fsub p c)).
    { apply Rnot_lt_le. intros L. assert (flt (fsub p c) f0 = true); [|congruence]. apply flt_R; auto. }
    destruct (fmul_R (fsub p c) (inv_of s) Fs Fi) as (E & _).
    { apply rnd32_small. eapply Rle_trans; [exact Bp|]. change 4 with (bpow radix2 2). apply bpow_le. lia. }
    unfold x. rewrite E. apply rnd32_pos. apply Rmult_le_pos; auto. rewrite Ei. apply Rmult_le_pos; [|lra]. apply Rlt_le, Rinv_0_lt_compat. auto.
Qed.
(** a point strictly below the centre, as the code sees it *)
Lemma fsub_neg : forall p c, ffin p = true -> ffin c = true -> Rabs (FR p - FR c) <= bpow radix2 127 ->
  (flt (fsub p c) f0 = true <-> FR p < FR c).
Proof.
  intros p c Fp Fc B. destruct (fsub_rel p c Fp Fc B) as (Fs & e & He & E). rewrite flt_R by auto. change (FR f0) with 0.
  rewrite E. apply Rabs_le_inv in He. unfold u32r in He. split; intros; nra.
Qed.

Lemma axis_base : forall vps s p b n, sane_size s -> (1 <= vps <= 2 ^ 10)%Z -> ffin p = true -> Rabs (FR p / FR s) <= 65536 ->
  grid_axis p (inv_of (block_size_of vps s)) = Some b -> grid_axis (fsub p (org vps s b)) (inv_of s) = Some n ->
  let c := ctr vps s b (clamp_axis vps n) in
  let a := set_axis vps (fsub p c) b (clamp_axis vps n) in
  (0 <= snd a < vps)%Z /\ surrounded vps s p (fst a * vps + snd a) /\
  let x := fmul (fsub p (ctr vps s (fst a) (snd a))) (inv_of s) in
  ffin x = true /\ 0 <= FR x <= 1.125 /\
  Rabs (FR x - (FR p / FR s - (IZR (fst a * vps + snd a) + / 2))) <= off_tol vps (FR p / FR s).
Proof.
  intros vps s p b n Hs Hv Fp Ht Gb Gn c a.
  destruct (axis_cell vps s p Hs Hv Fp Ht) as (b' & n' & Gb' & Gn' & Zb & L & U).
  rewrite Gb in Gb'. injection Gb' as <-. rewrite Gn in Gn'. injection Gn' as <-.
  pose proof (clamp_range vps n ltac:(lia)) as Cv. set (v := clamp_axis vps n) in *.
  pose proof (sane_pos s Hs) as Sp.
  destruct (ctr_val vps s b v Hs Hv ltac:(lia) Cv) as (Fc & Ec). fold c in Fc, Ec.
  set (t := FR p / FR s) in *.
  assert (V : 1 <= IZR vps <= 1024) by (split; apply IZR_le; lia).
  pose proof (Rabs_pos t) as T0.
  assert (BT : 0 <= border_tol vps t <= 0.0704) by (unfold border_tol; lra).
  assert (OT : off_tol vps t <= 0.02) by (unfold off_tol; lra).
  assert (Vv : 0 <= IZR v <= IZR vps - 1). { split; [apply IZR_le; lia|]. rewrite <- minus_IZR. apply IZR_le. lia. }
  assert (BW : Rabs (IZR b * IZR vps) <= Rabs t + IZR vps + 1).
  { rewrite plus_IZR, mult_IZR in L, U. apply Rabs_le. assert (- Rabs t <= t <= Rabs t) by (apply Rabs_le_inv; lra). lra. }
  assert (E1 : Rabs (FR c / FR s - (IZR (b * vps + v) + / 2)) <= 3.02 * u * Rabs t + 14 * u * IZR vps).
  { eapply Rle_trans; [exact Ec|]. unfold u. lra. }
  assert (E1' : Rabs (FR c / FR s - (IZR (b * vps + v) + / 2)) <= border_tol vps t).
  { eapply Rle_trans; [exact E1|]. unfold border_tol, u. lra. }
  apply Rabs_le_inv in E1'.
  assert (NB : flt (fsub p c) f0 = true <-> t < FR c / FR s).
  { rewrite fsub_neg; auto.
    - unfold t. split; intros H.
      + apply Rmult_lt_compat_r; auto. apply Rinv_0_lt_compat; auto.
      + apply Rmult_lt_reg_r with (/ FR s); auto. apply Rinv_0_lt_compat; auto.
    - apply Rle_trans with (bpow radix2 (2 + 40)); [|apply bpow_le; lia]. apply size_bound with s 3; auto; [|cbn; lra].
      replace ((FR p - FR c) / FR s) with (t - FR c / FR s) by (unfold t; field; lra). apply Rabs_le. lra. }
  unfold a, set_axis. destruct (flt (fsub p c) f0) eqn:FL.
  - assert (TL : t < FR c / FR s) by tauto.
    set (a' := if (v - 1 <? 0)%Z then (b - 1, v - 1 + vps)%Z else (b, v - 1)%Z).
    assert (A : (fst a' * vps + snd a' = b * vps + v - 1)%Z /\ (0 <= snd a' < vps)%Z /\ (Z.abs (fst a') * vps <= 2 ^ 17)%Z).
    { unfold a'. destruct (v - 1 <? 0)%Z eqn:K; cbn [fst snd]; [apply Z.ltb_lt in K|apply Z.ltb_ge in K]; repeat split; try lia; nia. }
    clearbody a'. destruct A as (A1 & A2 & A3). rewrite A1. split; [exact A2|].
    assert (G : IZR (b * vps + v - 1) = IZR (b * vps + v) - 1) by (rewrite minus_IZR; auto).
    split. { unfold surrounded. fold t. cbv zeta. rewrite G. lra. }
    destruct (offset_val vps s p (fst a') (snd a') Hs Hv Fp Ht A3 A2) as (Fx & Ex & _).
    { rewrite A1, G. fold t. apply Rabs_le. lra. }
    rewrite A1 in Ex. fold t in Ex. split; [exact Fx|]. split; [|exact Ex].
    apply Rabs_le_inv in Ex. rewrite G in Ex. lra.
  - assert (TL : FR c / FR s <= t). { apply Rnot_lt_le. intros H. apply NB in H. discriminate. }
    cbn [fst snd]. split; [exact Cv|]. split. { unfold surrounded. fold t. cbv zeta. lra. }
    destruct (offset_val vps s p b v Hs Hv Fp Ht ltac:(lia) Cv) as (Fx & Ex & Nx).
    { fold t. apply Rabs_le. lra. }
    fold c in Nx, Fx, Ex. fold t in Ex. split; [exact Fx|]. split; [|exact Ex].
    specialize (Nx FL). apply Rabs_le_inv in Ex. fold c. lra.
Qed.
