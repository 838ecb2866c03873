(** Colours of mesh vertices: the voxel a vertex takes its colour from. *)
From Coq Require Import ZArith Reals List Bool Lia Lra.
From Flocq Require Import Core Binary.
From Verif Require Import F32 F32_lemmas F32_err Types Index Index_proofs Index_float Voxel Assoc Assoc_lemmas Layer Planning Marching
  MeshInt Mesh_spec MeshInt_proofs MeshLayer_proofs P_Mesh MeshMsg_spec MeshReach_proofs Interp Interp_spec Interp_axis Interp_proofs MeshColor_spec.
Import ListNotations.
Open Scope R_scope.
Ltac Zify.zify_post_hook ::= idtac.

(** a corner of a cube, in voxels *)
Lemma corner_val : forall n s b v o, sane_size s -> (1 <= n <= 2 ^ 10)%Z -> ((Z.abs b + 2) * n <= 32768)%Z -> (0 <= v < n)%Z -> (0 <= o <= 1)%Z ->
  ffin (corner_of (block_size_of n s) s b v o) = true /\
  Rabs (FR (corner_of (block_size_of n s) s b v o) / FR s - (IZR (b * n + v + o) + / 2)) <= / 100.
Proof.
  intros n s b v o Hs Hn Hb Hv Ho. pose proof (sane_pos s Hs) as Sp.
  destruct (ctr_val n s b v Hs Hn ltac:(lia) Hv) as (Fc & Ec).
  change (corner_of (block_size_of n s) s b v o) with (fadd (ctr n s b v) (fmul (f32_of_Z o) s)).
  set (c := ctr n s b v) in *.
  assert (V : 1 <= IZR n <= 1024) by (split; apply IZR_le; lia).
  assert (BW : Rabs (IZR b * IZR n) <= 32768). { rewrite <- mult_IZR, <- abs_IZR. apply IZR_le. rewrite Z.abs_mul, (Z.abs_eq n) by lia. lia. }
  assert (E1 : Rabs (FR c / FR s - (IZR (b * n + v) + / 2)) <= 6.2 / 1000). { eapply Rle_trans; [exact Ec|]. unfold u. lra. }
  assert (G : Rabs (IZR (b * n + v)) <= 32768). { rewrite <- abs_IZR. apply IZR_le. nia. }
  assert (Or : 0 <= IZR o <= 1) by (split; apply IZR_le; lia).
  destruct (f32_of_Z_R o ltac:(lia)) as (Eo & Fo). destruct Hs as (Fs & Bs).
  assert (M : ffin (fmul (f32_of_Z o) s) = true /\ FR (fmul (f32_of_Z o) s) = IZR o * FR s).
  { assert (RD : rnd32 (FR (f32_of_Z o) * FR s) = IZR o * FR s).
    { rewrite Eo. assert (o = 0 \/ o = 1)%Z as [-> | ->] by lia; [rewrite Rmult_0_l; apply rnd32_0|rewrite Rmult_1_l; apply rnd32_FR]. }
    destruct (fmul_R (f32_of_Z o) s Fo Fs) as (Em & Fm).
    { rewrite RD. assert (o = 0 \/ o = 1)%Z as [-> | ->] by lia; [rewrite Rmult_0_l, Rabs_R0; apply bpow_gt_0|rewrite Rmult_1_l; apply FR_lt_max]. }
    split; [exact Fm|]. now rewrite Em. }
  destruct M as (Fm & Em).
  apply Rabs_le_inv in E1. apply Rabs_le_inv in G.
  set (q := FR c / FR s) in *. assert (Q : FR c = q * FR s) by (unfold q; field; lra).
  assert (B : Rabs (FR c + FR (fmul (f32_of_Z o) s)) <= bpow radix2 127).
  { rewrite Em, Q, <- Rmult_plus_distr_r. apply Rle_trans with (bpow radix2 (16 + 40)); [|apply bpow_le; lia].
    apply size_bound with s 65536; [split; assumption| |cbn; lra].
    replace ((q + IZR o) * FR s / FR s) with (q + IZR o) by (field; lra). apply Rabs_le. lra. }
  destruct (fadd_rel _ _ Fc Fm B) as (F & e & He & E). split; [exact F|]. rewrite E, Em, Q.
  replace ((q * FR s + IZR o * FR s) * (1 + e) / FR s) with ((q + IZR o) * (1 + e)) by (field; lra).
  rewrite plus_IZR. apply Rabs_le_inv in He. unfold u32r in He.
  assert (Be : Rabs ((q + IZR o) * e) <= 33000 * / 16777216). { apply Rabs_prod; apply Rabs_le; lra. }
  apply Rabs_le_inv in Be. apply Rabs_le. lra.
Qed.
(** a vertex, in voxels *)
Lemma vertex_val : forall n s b v oa ob tau r, sane_size s -> (1 <= n <= 2 ^ 10)%Z -> ((Z.abs b + 2) * n <= 32768)%Z -> (0 <= v < n)%Z ->
  (0 <= oa <= 1)%Z -> (0 <= ob <= 1)%Z -> 0 <= tau <= 1 ->
  on_segment tau (corner_of (block_size_of n s) s b v oa) (corner_of (block_size_of n s) s b v ob) r ->
  ffin r = true /\ IZR (b * n + v + Z.min oa ob) + 45 / 100 <= FR r / FR s <= IZR (b * n + v + Z.max oa ob) + 55 / 100.
Proof.
  intros n s b v oa ob tau r Hs Hn Hb Hv Ha Hb' Ht (Fr & D & _). split; [exact Fr|]. pose proof (sane_pos s Hs) as Sp.
  destruct (corner_val n s b v oa Hs Hn Hb Hv Ha) as (_ & Ea). destruct (corner_val n s b v ob Hs Hn Hb Hv Hb') as (_ & Eb).
  set (ca := corner_of _ s b v oa) in *. set (cb := corner_of _ s b v ob) in *.
  set (a := FR ca / FR s) in *. set (c := FR cb / FR s) in *.
  assert (Qa : FR ca = a * FR s) by (unfold a; field; lra). assert (Qb : FR cb = c * FR s) by (unfold c; field; lra).
  apply Rabs_le_inv in Ea, Eb.
  assert (Ga : Rabs (IZR (b * n + v + oa)) <= 32768) by (rewrite <- abs_IZR; apply IZR_le; nia).
  assert (Gb : Rabs (IZR (b * n + v + ob)) <= 32768) by (rewrite <- abs_IZR; apply IZR_le; nia).
  apply Rabs_le_inv in Ga, Gb.
  assert (Aa : Rabs a <= 32769) by (apply Rabs_le; lra). assert (Ab : Rabs c <= 32769) by (apply Rabs_le; lra).
  assert (D2 : Rabs (FR r / FR s - (a + tau * (c - a))) <= 34 / 1000).
  { replace (FR r / FR s - (a + tau * (c - a))) with ((FR r - (FR ca + tau * (FR cb - FR ca))) / FR s) by (rewrite Qa, Qb; field; lra).
    unfold Rdiv at 1. rewrite Rabs_mult, (Rabs_pos_eq (/ FR s)) by (left; apply Rinv_0_lt_compat; lra).
    apply Rmult_le_reg_r with (FR s); [lra|]. rewrite Rmult_assoc, Rinv_l, Rmult_1_r by lra. eapply Rle_trans; [exact D|].
    rewrite Qa, Qb, !Rabs_mult, (Rabs_pos_eq (FR s)) by lra. change (2 ^ 21)%Z with 2097152%Z.
    assert (T : bpow radix2 (-149) <= FR s * / 16777216).
    { destruct (sane_wide s Hs) as (_ & W). apply Rle_trans with (bpow radix2 (-60) * / 16777216); [|apply Rmult_le_compat_r; [lra|apply W]].
      apply Rle_trans with (bpow radix2 (-84)); [apply bpow_le; lia|].
      replace (-84)%Z with (-60 + -24)%Z by lia. rewrite bpow_plus. apply Rmult_le_compat_l; [apply bpow_ge_0|]. rewrite bpow_m24. unfold u32r. lra. }
    assert (P : (Rabs a + Rabs c) * FR s <= 65538 * FR s) by (apply Rmult_le_compat_r; lra). lra. }
  apply Rabs_le_inv in D2.
  assert (M : IZR (b * n + v + Z.min oa ob) + / 2 - / 100 <= a + tau * (c - a) <= IZR (b * n + v + Z.max oa ob) + / 2 + / 100).
  { assert (IZR (b * n + v + Z.min oa ob) <= IZR (b * n + v + oa) <= IZR (b * n + v + Z.max oa ob)) by (split; apply IZR_le; lia).
    assert (IZR (b * n + v + Z.min oa ob) <= IZR (b * n + v + ob) <= IZR (b * n + v + Z.max oa ob)) by (split; apply IZR_le; lia).
    set (lo := IZR (b * n + v + Z.min oa ob)) in *. set (hi := IZR (b * n + v + Z.max oa ob)) in *.
    replace (a + tau * (c - a)) with ((1 - tau) * a + tau * c) by ring.
    replace (lo + / 2 - / 100) with ((1 - tau) * (lo + / 2 - / 100) + tau * (lo + / 2 - / 100)) by ring.
    replace (hi + / 2 + / 100) with ((1 - tau) * (hi + / 2 + / 100) + tau * (hi + / 2 + / 100)) by ring.
    split; apply Rplus_le_compat; apply Rmult_le_compat_l; lra. }
  lra.
Qed.
(** the local index of a coordinate near block [b] *)
Lemma local_cell : forall n s p b, sane_size s -> (1 <= n <= 2 ^ 10)%Z -> ffin p = true -> Rabs (FR p / FR s) <= 65536 ->
  (Z.abs b * n <= 32768)%Z -> - 2 <= FR p / FR s - IZR (b * n) <= IZR n + 2 ->
  exists i, grid_axis (fsub p (org n s b)) (inv_of s) = Some i /\ in_cell n s p (b * n + i).
Proof.
  intros n s p b Hs Hv Fp Ht Hb HD. pose proof (sane_pos s Hs) as Sp. set (t := FR p / FR s) in *.
  assert (V : 1 <= IZR n <= 1024) by (split; apply IZR_le; lia). set (W := IZR n) in *. pose proof (Rabs_pos t) as T0.
  destruct (org_val n s b Hs Hv) as (Fo & Eo); [nia|]. fold W in Eo. rewrite mult_IZR in HD. fold W in HD.
  set (o := org n s b) in *. set (r := t - IZR b * W) in *.
  assert (Bb : Rabs (IZR b * W) <= Rabs t + W + 2).
  { replace (IZR b * W) with (t - r) by (unfold r; ring). apply Rabs_le. assert (- Rabs t <= t <= Rabs t) by (apply Rabs_le_inv; lra). lra. }
  assert (E2 : Rabs (FR o / FR s - IZR b * W) <= 2.02 * u * Rabs t + W * / 1000000).
  { eapply Rle_trans; [exact Eo|]. unfold u. lra. }
  assert (L0 : (FR p - FR o) / FR s = r - (FR o / FR s - IZR b * W)) by (unfold r, t; field; lra).
  set (q := (FR p - FR o) / FR s) in *. apply Rabs_le_inv in E2.
  assert (Bq : Rabs q <= 1.01 * W + 3). { rewrite L0. apply Rabs_le. unfold u in *. lra. }
  destruct (fsub_rel p o Fp Fo) as (Fs & e & He & Es).
  { apply Rle_trans with (bpow radix2 (11 + 40)); [|apply bpow_le; lia]. apply size_bound with s (1.01 * W + 3); auto. cbn. lra. }
  assert (Eq : FR (fsub p o) / FR s = q * (1 + e)). { rewrite Es. unfold q. field. lra. }
  change u32r with u in He.
  assert (Bq2 : Rabs (q * (1 + e)) <= 1.011 * W + 3.01).
  { rewrite Rabs_mult. apply Rle_trans with ((1.01 * W + 3) * 1.0001); [|lra]. apply Rmult_le_compat; auto using Rabs_pos.
    apply Rabs_le. apply Rabs_le_inv in He. unfold u in He. lra. }
  assert (Dq : Rabs (q * e) <= u * (1.01 * W + 3)).
  { rewrite Rabs_mult, Rmult_comm. apply Rmult_le_compat; auto using Rabs_pos. }
  destruct (grid_axis_of_value (fsub p o) s Fs (sane_wide s Hs)) as (i & Gn & Ln & Un).
  { rewrite Eq. change (bpow radix2 24) with 16777216. lra. }
  rewrite Eq in Ln, Un.
  assert (GQ : 0 <= gtol (q * (1 + e)) <= 5 * u * (1.011 * W + 3.01) + / 262144).
  { unfold gtol. pose proof (Rabs_pos (q * (1 + e))). split; unfold u; lra. }
  exists i. split; [exact Gn|]. unfold in_cell, border_tol. cbv zeta. fold t W. rewrite plus_IZR, mult_IZR. fold W.
  apply Rabs_le_inv in Dq. replace (q * (1 + e)) with (q + q * e) in * by ring.
  assert (G : IZR i - (/ 1048576 * Rabs t + / 131072 * W + / 65536) <= r <= IZR i + 1 + (/ 1048576 * Rabs t + / 131072 * W + / 65536)).
  { clear - T0 V E2 L0 Dq Ln Un GQ. unfold u in *. set (z := FR o / FR s - IZR b * W) in *. set (qe := q * e) in *.
    set (gq := gtol (q + qe)) in *. clearbody z qe gq q r W. set (at_ := Rabs t) in *. clearbody at_. split; lra. }
  unfold r in G. lra.
Qed.
(** a cell that contains a vertex is between the ends of its edge *)
Lemma cell_between : forall n s p lo hi h, (1 <= n <= 2 ^ 10)%Z -> (Z.abs lo <= 32768)%Z -> (Z.abs hi <= 32768)%Z ->
  IZR lo + 45 / 100 <= FR p / FR s <= IZR hi + 55 / 100 -> in_cell n s p h -> (lo <= h <= hi)%Z.
Proof.
  intros n s p lo hi h Hn Hl Hh B C. unfold in_cell, border_tol in C. cbv zeta in C. set (t := FR p / FR s) in *.
  assert (V : 1 <= IZR n <= 1024) by (split; apply IZR_le; lia).
  assert (Bl : Rabs (IZR lo) <= 32768) by (rewrite <- abs_IZR; apply IZR_le; lia).
  assert (Bh : Rabs (IZR hi) <= 32768) by (rewrite <- abs_IZR; apply IZR_le; lia).
  apply Rabs_le_inv in Bl, Bh. assert (T : Rabs t <= 32769) by (apply Rabs_le; lra).
  split; apply Zlt_succ_le; apply lt_IZR; rewrite succ_IZR; lra.
Qed.

Open Scope Z_scope.
Lemma edge_line : forall e g h, (e < 12)%nat ->
  let a := corner g (fst (edge_ends e)) in let c := corner g (snd (edge_ends e)) in
  Z.min (vx a) (vx c) <= vx h <= Z.max (vx a) (vx c) -> Z.min (vy a) (vy c) <= vy h <= Z.max (vy a) (vy c) ->
  Z.min (vz a) (vz c) <= vz h <= Z.max (vz a) (vz c) -> h = a \/ h = c.
Proof.
  intros e [gx gy gz] [hx hy hz] He.
  do 12 (destruct e as [|e]; [cbn [edge_ends nth kEdgeIndexPairs fst snd]; unfold corner, idx_add, zip3, corner_offset; cbn [nth cube_index_offsets vx vy vz];
    intros X Y Z; assert (HX : hx = gx \/ hx = gx + 1) by lia; assert (HY : hy = gy \/ hy = gy + 1) by lia; assert (HZ : hz = gz \/ hz = gz + 1) by lia;
    first [left; f_equal; lia|right; f_equal; lia|
      destruct HX as [HX|HX]; [left; f_equal; lia|right; f_equal; lia]|destruct HX as [HX|HX]; [right; f_equal; lia|left; f_equal; lia]|
      destruct HY as [HY|HY]; [left; f_equal; lia|right; f_equal; lia]|destruct HY as [HY|HY]; [right; f_equal; lia|left; f_equal; lia]|
      destruct HZ as [HZ|HZ]; [left; f_equal; lia|right; f_equal; lia]|destruct HZ as [HZ|HZ]; [right; f_equal; lia|left; f_equal; lia]]|]).
  exfalso. lia.
Qed.
Lemma wrap32_small : forall n, 1 <= n <= 2 ^ 10 -> wrap32 n = n.
Proof. intros. apply wrap32_id. lia. Qed.

Lemma near_bound : forall n b v o, 1 <= n -> (Z.abs b + 2) * n <= 32768 -> 0 <= v < n -> 0 <= o <= 1 -> Z.abs (b * n + v + o) <= 32768.
Proof. intros. assert (Z.abs (b * n) = Z.abs b * n) by (rewrite Z.abs_mul, (Z.abs_eq n) by lia; reflexivity). lia. Qed.

Section Colour.
  Context {k : vkind}.
  Variables (l : Layer k) (mw : f32).
  Hypothesis BL : built_layer l.
  Hypothesis BR : blocks_in_range l.
  Hypothesis SD : sane_sdf l mw.
  Let n := l_vps l.
  Let s := l_size l.

  Lemma usable_colour : forall v d, getSdfIfValid k mw v = Some d -> exists c, getColorIfValid k mw v = Some c /\ voxel_colour k mw v c.
  Proof.
    clear. destruct k; cbn; intros v d H; try discriminate H.
    - destruct (fle (t_weight v) mw) eqn:E; [discriminate H|]. exists (t_color v). auto.
    - destruct (e_observed v) eqn:E; [|discriminate H]. eexists. split; [reflexivity|]. auto.
  Qed.
  Section Block.
    Variables (bi : idx3) (b : Block k).
    Hypothesis Eb : l_get l bi = Some b.
    Lemma cc_axes v i : corner_coords s (computeCoordinatesFromVoxelIndex (b_origin b) (b_size b) v) i =
      V3 (corner_of (block_size_of n s) s (vx bi) (vx v) (vx (corner_offset i)))
         (corner_of (block_size_of n s) s (vy bi) (vy v) (vy (corner_offset i)))
         (corner_of (block_size_of n s) s (vz bi) (vz v) (vz (corner_offset i))).
    Proof. destruct BL as (_ & _ & H). destruct (H bi b Eb) as (_ & -> & -> & _). reflexivity. Qed.
    Lemma cc_ok v i : 0 <= vx v < n -> 0 <= vy v < n -> 0 <= vz v < n ->
      pt_ok (corner_coords s (computeCoordinatesFromVoxelIndex (b_origin b) (b_size b) v) i).
    Proof.
      intros Hx Hy Hz. rewrite cc_axes. destruct BL as (Hs & Hn & _). destruct (BR bi b Eb) as (B1 & B2 & B3). fold n in B1, B2, B3, Hn. fold s in Hs.
      destruct (offset_01 l i) as (O1 & O2 & O3).
      assert (X : forall c w o, (Z.abs c + 2) * n <= 32768 -> 0 <= w < n -> 0 <= o <= 1 -> coord_ok (corner_of (block_size_of n s) s c w o)).
      { intros c w o Hc Hw Ho. destruct (corner_val n s c w o Hs Hn Hc Hw Ho) as (F & D). split; [exact F|].
        pose proof (sane_pos s Hs) as Sp. set (x := FR (corner_of (block_size_of n s) s c w o)) in *.
        assert (G : (Rabs (IZR (c * n + w + o)) <= 32768)%R) by (rewrite <- abs_IZR; apply IZR_le; nia).
        apply Rabs_le_inv in G, D. apply Rle_trans with (bpow radix2 (16 + 40)); [|apply bpow_le; lia].
        apply size_bound with s 65536%R; [exact Hs| |cbn; lra]. apply Rabs_le. lra. }
      split; [|split]; cbn [vx vy vz]; now apply X.
    Qed.
    (** what the address computations find for a vertex on an edge between usable voxels *)
    Lemma colour_found : forall p e v, 0 <= vx v < n -> 0 <= vy v < n -> 0 <= vz v < n -> (e < 12)%nat ->
      let g := global_of n bi v in
      let a := corner g (fst (edge_ends e)) in let c := corner g (snd (edge_ends e)) in
      (exists d, sdf_at l mw a = Some d) -> (exists d, sdf_at l mw c = Some d) ->

      (ffin (vx p) = true /\ IZR (Z.min (vx a) (vx c)) + 45 / 100 <= FR (vx p) / FR s <= IZR (Z.max (vx a) (vx c)) + 55 / 100)%R ->
      (ffin (vy p) = true /\ IZR (Z.min (vy a) (vy c)) + 45 / 100 <= FR (vy p) / FR s <= IZR (Z.max (vy a) (vy c)) + 55 / 100)%R ->
      (ffin (vz p) = true /\ IZR (Z.min (vz a) (vz c)) + 45 / 100 <= FR (vz p) / FR s <= IZR (Z.max (vz a) (vz c)) + 55 / 100)%R ->
      exists col, vertex_color l mw b p = Ok col /\ coloured_by l mw p col.
    Proof.
      intros p e v Hx Hy Hz He g a c Ua Uc Px Py Pz.
      pose proof BL as (Hs & Hn & HB). fold n in Hn, HB. fold s in Hs. destruct (HB bi b Eb) as (Bv & Bs & Bo & Bl).
      destruct (BR bi b Eb) as (B1 & B2 & B3). fold n in B1, B2, B3. pose proof (sane_pos s Hs) as Sp.
      (* every voxel between the ends is usable *)
      assert (US : forall h, in_cell n s (vx p) (vx h) -> in_cell n s (vy p) (vy h) -> in_cell n s (vz p) (vz h) ->
                exists w col, voxel_at l h = Some w /\ getColorIfValid k mw w = Some col /\ coloured_by l mw p col).
      { intros h Cx Cy Cz. pose proof (offset_01 l (fst (edge_ends e))) as (O1 & O2 & O3). pose proof (offset_01 l (snd (edge_ends e))) as (Q1 & Q2 & Q3).
        assert (K : forall z, z = a \/ z = c -> Z.abs (vx z) <= 32768 /\ Z.abs (vy z) <= 32768 /\ Z.abs (vz z) <= 32768).
        { intros z [-> | ->]; unfold a, c, g, corner, global_of, idx_add, zip3; cbn [vx vy vz]; (split; [|split]); apply near_bound; try lia; assumption. }
        destruct (K a (or_introl eq_refl)) as (A1 & A2 & A3). destruct (K c (or_intror eq_refl)) as (C1 & C2 & C3).
        assert (L : h = a \/ h = c).
        { assert (MM : forall x y, Z.abs x <= 32768 -> Z.abs y <= 32768 -> Z.abs (Z.min x y) <= 32768 /\ Z.abs (Z.max x y) <= 32768) by (clear; intros; lia).
          destruct (MM _ _ A1 C1) as (M1 & M2). destruct (MM _ _ A2 C2) as (M3 & M4). destruct (MM _ _ A3 C3) as (M5 & M6).
          exact (edge_line e g h He (cell_between n s (vx p) _ _ _ Hn M1 M2 (proj2 Px) Cx) (cell_between n s (vy p) _ _ _ Hn M3 M4 (proj2 Py) Cy)
            (cell_between n s (vz p) _ _ _ Hn M5 M6 (proj2 Pz) Cz)). }
        assert (S0 : exists d, sdf_at l mw h = Some d) by (destruct L as [-> | ->]; assumption).
        destruct S0 as (d & S0). unfold sdf_at in S0. destruct (voxel_at l h) as [w|] eqn:Ew; [|discriminate S0].
        destruct (usable_colour w d S0) as (col & K1 & K2). exists w, col. split; [reflexivity|]. split; [exact K1|].
        exists h, w. split; [exact Ew|]. split; [exact K2|]. unfold lies_in. auto. }
      assert (T : forall x lo hi, (IZR lo + 45 / 100 <= FR x / FR s <= IZR hi + 55 / 100)%R -> Z.abs lo <= 32768 -> Z.abs hi <= 32768 -> (Rabs (FR x / FR s) <= 65536)%R).
      { intros x lo hi H Hl Hh. assert (Bl' : (Rabs (IZR lo) <= 32768)%R) by (rewrite <- abs_IZR; apply IZR_le; lia).
        assert (Bh : (Rabs (IZR hi) <= 32768)%R) by (rewrite <- abs_IZR; apply IZR_le; lia). apply Rabs_le_inv in Bl', Bh. apply Rabs_le. lra. }
      assert (AX : forall x bb vv oa ob, (Z.abs bb + 2) * n <= 32768 -> 0 <= vv < n -> 0 <= oa <= 1 -> 0 <= ob <= 1 ->
                (ffin x = true /\ IZR (Z.min (bb * n + vv + oa) (bb * n + vv + ob)) + 45 / 100 <= FR x / FR s <= IZR (Z.max (bb * n + vv + oa) (bb * n + vv + ob)) + 55 / 100)%R ->
                ffin x = true /\ (Rabs (FR x / FR s) <= 65536)%R /\ exists i, grid_axis (fsub x (org n s bb)) (inv_of s) = Some i /\ in_cell n s x (bb * n + i)).
      { intros x bb vv oa ob Hb Hv Ho1 Ho2 (Fx & H). split; [exact Fx|].
        assert (R0 : (Rabs (FR x / FR s) <= 65536)%R). { pose proof (near_bound n bb vv oa ltac:(lia) Hb Hv Ho1). pose proof (near_bound n bb vv ob ltac:(lia) Hb Hv Ho2). eapply T; [exact H|lia|lia]. } split; [exact R0|].
        apply local_cell; auto; [lia|].
        assert (V : (1 <= IZR n)%R) by (apply IZR_le; lia).
        assert (M1 : (IZR (bb * n) <= IZR (Z.min (bb * n + vv + oa) (bb * n + vv + ob)))%R) by (apply IZR_le; lia).
        assert (M2 : (IZR (Z.max (bb * n + vv + oa) (bb * n + vv + ob)) <= IZR (bb * n) + IZR n)%R) by (rewrite <- plus_IZR; apply IZR_le; lia). lra. }
      pose proof (offset_01 l (fst (edge_ends e))) as (O1 & O2 & O3). pose proof (offset_01 l (snd (edge_ends e))) as (Q1 & Q2 & Q3).
      destruct (AX (vx p) (vx bi) (vx v) _ _ B1 Hx O1 Q1 Px) as (Fx & Tx & ix & Gx & Cx).
      destruct (AX (vy p) (vy bi) (vy v) _ _ B2 Hy O2 Q2 Py) as (Fy & Ty & iy & Gy & Cy).
      destruct (AX (vz p) (vz bi) (vz v) _ _ B3 Hz O3 Q3 Pz) as (Fz & Tz & iz & Gz & Cz).
      unfold vertex_color. rewrite Bo, Bs, Bv. fold s. fold n.
      assert (EI : computeVoxelIndexFromCoordinates (new_block_origin n s bi) (inv_of s) p = Some (V3 ix iy iz)).
      { unfold computeVoxelIndexFromCoordinates, getGridIndexFromPoint, pt_sub, new_block_origin, getOriginPointFromGridIndex, zip3, map3, seq3. cbn [vx vy vz].
        fold (org n s (vx bi)) (org n s (vy bi)) (org n s (vz bi)). rewrite Gx, Gy, Gz. reflexivity. }
      rewrite EI. cbn [of_opt rbind].
      destruct (isValidVoxelIndex n (V3 ix iy iz)) eqn:EV.
      - unfold isValidVoxelIndex in EV. rewrite wrap32_small in EV by lia. cbn [vx vy vz] in EV.
        rewrite !andb_true_iff, !negb_true_iff, !orb_false_iff, !Z.ltb_ge, !Z.leb_gt in EV.
        destruct (US (V3 (vx bi * n + ix) (vy bi * n + iy) (vz bi * n + iz)) Cx Cy Cz) as (w & col & K1 & K2 & K3).
        exists col. split; [|exact K3]. unfold voxel_at in K1. fold n in K1. unfold map3 in K1. cbn [vx vy vz] in K1.
        rewrite !div_base, !mod_base in K1 by lia.
        replace (V3 (vx bi) (vy bi) (vz bi)) with bi in K1 by (destruct bi; reflexivity). rewrite Eb in K1.
        unfold getVoxelByVoxelIndex. rewrite Bv. fold n. destruct (lin_small n ix iy iz Hn) as (-> & _); try lia. rewrite K1. cbn [of_opt rbind]. rewrite K2. reflexivity.
      - destruct (axis_cell n s (vx p) Hs Hn Fx Tx) as (bx & nx & Gbx & Nx & _ & Sx).
        destruct (axis_cell n s (vy p) Hs Hn Fy Ty) as (by_ & ny & Gby & Ny & _ & Sy).
        destruct (axis_cell n s (vz p) Hs Hn Fz Tz) as (bz & nz & Gbz & Nz & _ & Sz).
        pose proof (clamp_range n nx ltac:(lia)) as Rx. pose proof (clamp_range n ny ltac:(lia)) as Ry. pose proof (clamp_range n nz ltac:(lia)) as Rz.
        destruct (US (V3 (bx * n + clamp_axis n nx) (by_ * n + clamp_axis n ny) (bz * n + clamp_axis n nz)) Sx Sy Sz) as (w & col & K1 & K2 & K3).
        exists col. split; [|exact K3]. unfold voxel_at in K1. fold n in K1. unfold map3 in K1. cbn [vx vy vz] in K1.
        rewrite !div_base, !mod_base in K1 by lia.
        assert (EB : computeBlockIndexFromCoordinates n s p = Some (V3 bx by_ bz)).
        { unfold computeBlockIndexFromCoordinates, getGridIndexFromPoint, map3, seq3. cbn [vx vy vz]. rewrite Gbx, Gby, Gbz. reflexivity. }
        rewrite EB. cbn [of_opt rbind]. destruct (l_get l (V3 bx by_ bz)) as [nb|] eqn:En; [|discriminate K1].
        destruct (HB _ nb En) as (Nv & Ns & No & _). rewrite Nv, Ns, No. fold n s.
        assert (ET : computeTruncatedVoxelIndexFromCoordinates n (new_block_origin n s (V3 bx by_ bz)) (inv_of s) p = Some (V3 (clamp_axis n nx) (clamp_axis n ny) (clamp_axis n nz))).
        { unfold computeTruncatedVoxelIndexFromCoordinates, computeVoxelIndexFromCoordinates, getGridIndexFromPoint, pt_sub, new_block_origin,
            getOriginPointFromGridIndex, zip3, map3, seq3. cbn [vx vy vz]. fold (org n s bx) (org n s by_) (org n s bz). rewrite Nx, Ny, Nz. reflexivity. }
        rewrite ET. cbn [of_opt rbind]. unfold getVoxelByVoxelIndex. rewrite Nv. fold n.
        destruct (lin_small n _ _ _ Hn Rx Ry Rz) as (-> & _). rewrite K1. cbn [of_opt rbind]. rewrite K2. reflexivity.
    Qed.
    Lemma cube_colours v : 0 <= vx v < n -> 0 <= vy v < n -> 0 <= vz v < n ->
      Forall (fun p => exists col, vertex_color l mw b p = Ok col /\ coloured_by l mw p col) (cube_points l mw b bi v).
    Proof.
      intros Hx Hy Hz. unfold cube_points. destruct (cube_values l mw bi v) as [ss|] eqn:Ev; [|constructor].
      assert (VAL : forall i, (i < 8)%nat -> sdf_at l mw (corner (global_of n bi v) i) = Some (nth_sdf ss i)).
      { intros i Hi. unfold cube_values in Ev. pose proof (collect_len _ _ _ Ev) as L. rewrite map_length in L.
        pose proof (collect_nth l _ _ _ i f0 Ev) as X. rewrite L in X. specialize (X Hi). fold (nth_sdf ss i) in X. fold n in X.
        rewrite nth_error_map in X. assert (EE : nth_error eight i = Some i) by (do 8 (destruct i as [|i]; [reflexivity|]); lia).
        rewrite EE in X. cbn in X. congruence. }
      assert (OK : forall i, (i < 8)%nat -> coord_ok (nth_sdf ss i)) by (intros i Hi; eapply SD; exact (VAL i Hi)).
      apply Forall_forall. intros p Hp. apply in_flat_map in Hp. destruct Hp as (t & Ht & Hp).
      assert (Ee : exists e, In e (triangle_edges t) /\
                 p = edge_point (corner_coords (l_size l) (computeCoordinatesFromVoxelIndex (b_origin b) (b_size b) v)) (nth_sdf ss) e).
      { destruct t as [[e1 e2] e3]. cbn in Hp. destruct Hp as [<- | [<- | [<- | []]]]; eexists; (split; [|reflexivity]); cbn; auto. }
      destruct Ee as (e & He & ->). destruct (C33_edges (nth_sdf ss)) as (Sc & _). destruct (Sc t e Ht He) as (L12 & Ch).
      destruct (edge_ends_lt e L12) as (La & Lb). unfold sign_change in Ch. unfold edge_point.
      assert (EP : edge_ends e = (fst (edge_ends e), snd (edge_ends e))) by (destruct (edge_ends e); reflexivity).
      rewrite EP in Ch |- *. set (ea := fst (edge_ends e)) in *. set (ec := snd (edge_ends e)) in *.
      destruct (C37_vertex_on_edge _ _ _ _ (cc_ok v ea Hx Hy Hz) (cc_ok v ec Hx Hy Hz) (OK ea La) (OK ec Lb) Ch) as (tau & Ht1 & _ & S1 & S2 & S3).
      cbn zeta in S1, S2, S3. fold s. rewrite !cc_axes in S1, S2, S3 |- *. cbn [vx vy vz] in S1, S2, S3.
      pose proof BL as (Hs & Hn & _). fold n in Hn. fold s in Hs. destruct (BR bi b Eb) as (B1 & B2 & B3). fold n in B1, B2, B3.
      destruct (offset_01 l ea) as (O1 & O2 & O3). destruct (offset_01 l ec) as (P1 & P2 & P3).
      eapply (colour_found _ e v Hx Hy Hz L12).
      - eexists. exact (VAL ea La).
      - eexists. exact (VAL ec Lb).
      - fold ea ec. unfold corner, global_of, idx_add, zip3. cbn [vx vy vz]. rewrite Z.add_min_distr_l, Z.add_max_distr_l. eapply vertex_val; eauto.
      - fold ea ec. unfold corner, global_of, idx_add, zip3. cbn [vx vy vz]. rewrite Z.add_min_distr_l, Z.add_max_distr_l. eapply vertex_val; eauto.
      - fold ea ec. unfold corner, global_of, idx_add, zip3. cbn [vx vy vz]. rewrite Z.add_min_distr_l, Z.add_max_distr_l. eapply vertex_val; eauto.
    Qed.
    Lemma block_colours : Forall (fun p => exists col, vertex_color l mw b p = Ok col /\ coloured_by l mw p col) (block_points l mw bi).
    Proof.
      unfold block_points. rewrite Eb. apply Forall_forall. intros p Hp. apply in_flat_map in Hp. destruct Hp as (v & Hv & Hp).
      apply C35_each_cube_once in Hv. destruct Hv as (Hx & Hy & Hz). pose proof (cube_colours v Hx Hy Hz) as F. rewrite Forall_forall in F. now apply F.
    Qed.
  End Block.
End Colour.
