(** Mesh vertices stay in the reach of their block. *)
From Coq Require Import ZArith Reals List Bool Lia Lra.
From Flocq Require Import Core Binary.
From Verif Require Import F32 F32_lemmas F32_err Types Index Index_float Voxel Assoc Assoc_lemmas Layer Planning Marching
  MeshInt Mesh_spec MeshInt_proofs Intensity_spec P_Mesh MeshMsg MeshMsg_spec.
Import ListNotations.
Open Scope R_scope.
Ltac Zify.zify_post_hook ::= idtac.

Definition corner_of (bs s : f32) (b v o : Z) : f32 :=
  fadd (fadd (fmul (f32_of_Z b) bs) (center_axis v s)) (fmul (f32_of_Z o) s).

Lemma corner_axis n s b v o : sane_size s -> (4 <= n)%Z -> ((Z.abs b + 2) * n <= 32768)%Z -> (0 <= v < n)%Z -> (0 <= o <= 1)%Z ->
  let bs := block_size_of n s in let K := IZR (Z.abs b) in
  ffin (corner_of bs s b v o) = true /\
  Rabs (FR (corner_of bs s b v o) / FR bs - (IZR b + (IZR v + / 2 + IZR o) / IZR n)) <= (K + 2) * (6 * / 16777216).
Proof.
  intros Sn Hn Hb Hv Ho bs K.
  assert (Hn2 : (n <= 65536)%Z) by nia. assert (Hbb : (Z.abs b <= 8190)%Z) by nia.
  destruct (block_size_R n s Sn ltac:(lia)) as (d0 & Hd0 & E0 & W). fold bs in E0, W.
  pose proof (sane_pos s Sn) as Sp. pose proof (wide_pos bs W) as Bp.
  assert (K0 : 0 <= K <= 8190) by (unfold K; split; [apply (IZR_le 0); lia|apply IZR_le; lia]).
  assert (Ki : Rabs (IZR b) = K) by (unfold K; symmetry; apply abs_IZR).
  assert (Nr : 4 <= IZR n <= 65536) by (split; apply IZR_le; lia).
  assert (Vr : 0 <= IZR v <= IZR n - 1) by (split; [apply (IZR_le 0); lia|replace (IZR n - 1) with (IZR (n - 1)) by (rewrite minus_IZR; ring); apply IZR_le; lia]).
  assert (Or : 0 <= IZR o <= 1) by (split; apply IZR_le; lia).
  destruct (origin_R b bs W ltac:(lia)) as (d & e & Hd & He & Eo & Fo).
  destruct (center_axis_R v s Sn ltac:(lia)) as (d1 & Hd1 & Ec & Fc).
  unfold u in *. set (og := fmul (f32_of_Z b) bs) in *. set (ce := center_axis v s) in *.
  set (B := FR bs) in *. set (S := FR s) in *.
  apply Rabs_le_inv in Hd0. apply Rabs_le_inv in Hd. apply Rabs_le_inv in Hd1. apply Rabs_le_inv in He.
  set (q := S / B).
  assert (Nq : IZR n * q = / (1 + d0)) by (unfold q; rewrite E0; field; repeat split; lra).
  assert (Iq : Rabs (/ (1 + d0) - 1) <= 101 / 100 * / 16777216).
  { replace (/ (1 + d0) - 1) with (- d0 * / (1 + d0)) by (field; lra). rewrite Rabs_mult, Rabs_Ropp.
    assert (I1 : 0 < / (1 + d0)) by (apply Rinv_0_lt_compat; lra).
    assert (I2 : / (1 + d0) <= 101 / 100). { apply Rmult_le_reg_l with (1 + d0); [lra|]. rewrite Rinv_r by lra. lra. }
    rewrite (Rabs_pos_eq (/ (1 + d0))) by lra. rewrite Rmult_comm. apply Rmult_le_compat; try lra; [apply Rabs_pos|apply Rabs_le; lra]. }
  rewrite <- Nq in Iq. apply Rabs_le_inv in Iq.
  set (A := FR og / B) in *.
  assert (DA : Rabs (A - IZR b) <= (K + 1) * / 16777216).
  { rewrite Eo. replace (IZR b * (1 + d) + e - IZR b) with (IZR b * d + e) by ring. eapply Rle_trans; [apply Rabs_triang|].
    rewrite Rabs_mult, Ki. assert (K * Rabs d <= K * / 16777216) by (apply Rmult_le_compat_l; [lra|apply Rabs_le; lra]).
    assert (Rabs e <= / 16777216) by (apply Rabs_le; lra). lra. }
  apply Rabs_le_inv in DA.
  set (f := (IZR v + / 2) / IZR n).
  assert (Fr : 0 <= f <= 1).
  { unfold f. split; [apply Rmult_le_pos; [lra|left; apply Rinv_0_lt_compat; lra]|].
    apply Rmult_le_reg_r with (IZR n); [lra|]. unfold Rdiv. rewrite Rmult_assoc, Rinv_l by lra. lra. }
  set (C := FR ce / B).
  assert (EC : C = f * (IZR n * q * (1 + d1))).
  { unfold C, f, q. rewrite Ec. field. split; lra. }
  assert (W1 : Rabs (IZR n * q * (1 + d1) - 1) <= 31 / 10 * / 16777216).
  { replace (IZR n * q * (1 + d1) - 1) with ((IZR n * q - 1) + d1 * (IZR n * q)) by ring. eapply Rle_trans; [apply Rabs_triang|].
    rewrite Rabs_mult. assert (Rabs d1 * Rabs (IZR n * q) <= 2 * / 16777216 * (101 / 100)).
    { apply Rmult_le_compat; try apply Rabs_pos; apply Rabs_le; lra. }
    assert (Rabs (IZR n * q - 1) <= 101 / 100 * / 16777216) by (apply Rabs_le; lra). lra. }
  assert (DC : Rabs (C - f) <= 31 / 10 * / 16777216).
  { rewrite EC. replace (f * (IZR n * q * (1 + d1)) - f) with (f * (IZR n * q * (1 + d1) - 1)) by ring. rewrite Rabs_mult.
    rewrite <- (Rmult_1_l (31 / 10 * / 16777216)). apply Rmult_le_compat; try apply Rabs_pos; [apply Rabs_le; lra|exact W1]. }
  apply Rabs_le_inv in DC.
  assert (Ib : - K <= IZR b <= K) by (apply Rabs_le_inv; lra).
  assert (EA : FR og = A * B) by (unfold A; field; lra). assert (EC' : FR ce = C * B) by (unfold C; field; lra).
  assert (BB : B <= bpow radix2 60) by apply W.
  assert (Lim : forall x, Rabs x <= 65536 -> Rabs (x * B) <= bpow radix2 127).
  { intros x Hx. rewrite Rabs_mult, (Rabs_pos_eq B) by lra. apply Rle_trans with (bpow radix2 16 * bpow radix2 60).
    - apply Rmult_le_compat; try lra; [apply Rabs_pos|simpl; lra].
    - rewrite <- bpow_plus. apply bpow_le; lia. }
  destruct (fadd_rel og ce Fo Fc) as (F1 & d2 & Hd2 & E1).
  { rewrite EA, EC', <- Rmult_plus_distr_r. apply Lim. apply Rabs_le. lra. }
  fold og ce. set (r1 := fadd og ce) in *. unfold u32r in Hd2.
  assert (D1 : Rabs (FR r1 / B - (A + C)) <= (K + 2) * / 16777216).
  { rewrite E1, EA, EC'. replace ((A * B + C * B) * (1 + d2) / B - (A + C)) with ((A + C) * d2) by (field; lra).
    rewrite Rabs_mult. apply Rmult_le_compat; try apply Rabs_pos; [apply Rabs_le; lra|exact Hd2]. }
  apply Rabs_le_inv in D1.
  destruct (f32_of_Z_R o ltac:(lia)) as (Eo1 & Fo1).
  assert (Os : ffin (fmul (f32_of_Z o) s) = true /\ FR (fmul (f32_of_Z o) s) = IZR o * S).
  { assert (R : rnd32 (IZR o * S) = IZR o * S).
    { assert (o = 0 \/ o = 1)%Z as [-> | ->] by lia; [rewrite Rmult_0_l; apply rnd32_0|rewrite Rmult_1_l; apply rnd32_FR]. }
    destruct (fmul_R (f32_of_Z o) s Fo1 ltac:(apply Sn)) as (P1 & P2).
    { rewrite Eo1. apply rnd32_small. destruct Sn as (_ & _ & Sh). apply Rle_trans with (bpow radix2 40); [|apply bpow_le; lia].
      fold S in Sh |- *. rewrite Rabs_pos_eq by (apply Rmult_le_pos; lra). apply Rle_trans with (1 * S); [apply Rmult_le_compat_r; lra|lra]. }
    rewrite Eo1 in P1. split; [exact P2|]. rewrite P1. fold S. exact R. }
  destruct Os as (Fos & Eos). set (os := fmul (f32_of_Z o) s) in *.
  assert (EO : FR os = IZR o * q * B) by (rewrite Eos; unfold q; field; lra).
  assert (Iv : 0 < / IZR n <= / 4) by (split; [apply Rinv_0_lt_compat; lra|apply Rinv_le_contravar; lra]).
  assert (DO : Rabs (IZR o * q - IZR o / IZR n) <= 101 / 100 * / 16777216).
  { replace (IZR o * q - IZR o / IZR n) with (IZR o * / IZR n * (IZR n * q - 1)) by (field; lra).
    rewrite Rabs_mult. rewrite <- (Rmult_1_l (101 / 100 * / 16777216)). apply Rmult_le_compat; try apply Rabs_pos; [|apply Rabs_le; lra].
    rewrite Rabs_mult, !Rabs_pos_eq by lra. replace 1 with (1 * 1) by ring. apply Rmult_le_compat; lra. }
  apply Rabs_le_inv in DO.
  assert (Fo2 : 0 <= IZR o / IZR n <= / 4).
  { unfold Rdiv. split; [apply Rmult_le_pos; lra|]. rewrite <- (Rmult_1_l (/ 4)). apply Rmult_le_compat; lra. }
  set (r1' := FR r1 / B) in *. assert (ER1 : FR r1 = r1' * B) by (unfold r1'; field; lra).
  destruct (fadd_rel r1 os F1 Fos) as (F2 & d3 & Hd3 & E2).
  { rewrite ER1, EO, <- Rmult_plus_distr_r. apply Lim. apply Rabs_le. lra. }
  change (corner_of bs s b v o) with (fadd r1 os) in *. split; [exact F2|]. unfold u32r in Hd3.
  assert (D3 : Rabs (FR (fadd r1 os) / B - (r1' + IZR o * q)) <= (K + 3) * / 16777216).
  { rewrite E2, ER1, EO. replace ((r1' * B + IZR o * q * B) * (1 + d3) / B - (r1' + IZR o * q)) with ((r1' + IZR o * q) * d3) by (field; lra).
    rewrite Rabs_mult. apply Rmult_le_compat; try apply Rabs_pos; [apply Rabs_le; lra|exact Hd3]. }
  apply Rabs_le_inv in D3.
  replace ((IZR v + / 2 + IZR o) / IZR n) with (f + IZR o / IZR n) by (unfold f; field; lra).
  apply Rabs_le. lra.
Qed.

Lemma corner_pos n v o : (4 <= n)%Z -> (0 <= v < n)%Z -> (0 <= o <= 1)%Z ->
  / (2 * IZR n) <= (IZR v + / 2 + IZR o) / IZR n <= 1 + / (2 * IZR n).
Proof.
  intros Hn Hv Ho. assert (Nr : 4 <= IZR n) by (apply IZR_le; lia).
  assert (Vr : 0 <= IZR v <= IZR n - 1) by (split; [apply (IZR_le 0); lia|replace (IZR n - 1) with (IZR (n - 1)) by (rewrite minus_IZR; ring); apply IZR_le; lia]).
  assert (Or : 0 <= IZR o <= 1) by (split; apply IZR_le; lia).
  assert (Iv : 0 < / IZR n) by (apply Rinv_0_lt_compat; lra).
  replace (/ (2 * IZR n)) with (/ 2 * / IZR n) by (field; lra). unfold Rdiv.
  assert (1 = IZR n * / IZR n) by (field; lra). split.
  - apply Rmult_le_compat_r; lra.
  - rewrite H. rewrite <- Rmult_plus_distr_r. apply Rmult_le_compat_r; lra.
Qed.

Lemma reach_axis n s b va oa vb ob tau r : sane_size s -> (4 <= n)%Z -> ((Z.abs b + 2) * n <= 32768)%Z ->
  (0 <= va < n)%Z -> (0 <= oa <= 1)%Z -> (0 <= vb < n)%Z -> (0 <= ob <= 1)%Z -> 0 <= tau <= 1 ->
  on_segment tau (corner_of (block_size_of n s) s b va oa) (corner_of (block_size_of n s) s b vb ob) r ->
  axis_in (block_size_of n s) r b.
Proof.
  intros Sn Hn Hb Hva Hoa Hvb Hob Ht (Fr & D & _).
  destruct (corner_axis n s b va oa Sn Hn Hb Hva Hoa) as (Fa & Da). destruct (corner_axis n s b vb ob Sn Hn Hb Hvb Hob) as (Fb & Db).
  pose proof (corner_pos n va oa Hn Hva Hoa) as Pa. pose proof (corner_pos n vb ob Hn Hvb Hob) as Pb.
  assert (Hn2 : (n <= 65536)%Z) by nia. assert (Hbb : (Z.abs b <= 8190)%Z) by nia.
  destruct (block_size_R n s Sn ltac:(lia)) as (_ & _ & _ & W). pose proof (wide_pos _ W) as Bp.
  set (bs := block_size_of n s) in *. cbn zeta in Da, Db. set (K := IZR (Z.abs b)) in *.
  set (ca := corner_of bs s b va oa) in *. set (cb := corner_of bs s b vb ob) in *.
  set (pa := (IZR va + / 2 + IZR oa) / IZR n) in *. set (pb := (IZR vb + / 2 + IZR ob) / IZR n) in *.
  assert (Nr : 4 <= IZR n) by (apply IZR_le; lia).
  assert (KN : (K + 2) * IZR n <= 32768).
  { unfold K. rewrite <- (plus_IZR _ 2), <- mult_IZR. apply IZR_le. exact Hb. }
  assert (K0 : 0 <= K) by (unfold K; apply (IZR_le 0); lia).
  assert (Ki : Rabs (IZR b) = K) by (unfold K; symmetry; apply abs_IZR).
  set (h := / (2 * IZR n)) in *.
  assert (Hh : 0 < h <= / 8) by (unfold h; split; [apply Rinv_0_lt_compat; lra|apply Rinv_le_contravar; lra]).
  assert (Kh : (K + 2) <= 65536 * h).
  { unfold h. apply Rmult_le_reg_r with (IZR n); [lra|]. eapply Rle_trans; [exact KN|]. right. field. lra. }
  apply Rabs_le_inv in Da. apply Rabs_le_inv in Db.
  assert (Ib : - K <= IZR b <= K) by (apply Rabs_le_inv; lra).
  set (B := FR bs) in *. set (a' := FR ca / B) in *. set (b' := FR cb / B) in *.
  assert (Ea : FR ca = a' * B) by (unfold a'; field; lra). assert (Eb : FR cb = b' * B) by (unfold b'; field; lra).
  assert (K8 : K + 2 <= 8192) by lra.
  assert (Aa : Rabs a' <= K + 2) by (apply Rabs_le; lra). assert (Ab : Rabs b' <= K + 2) by (apply Rabs_le; lra).
  set (r' := FR r / B).
  assert (D' : Rabs (r' - (a' + tau * (b' - a'))) <= (K + 2) * (17 * / 16777216)).
  { replace (r' - (a' + tau * (b' - a'))) with ((FR r - (FR ca + tau * (FR cb - FR ca))) / B) by (unfold r'; rewrite Ea, Eb; field; lra).
    unfold Rdiv. rewrite Rabs_mult, (Rabs_pos_eq (/ B)) by (left; apply Rinv_0_lt_compat; lra).
    apply Rmult_le_reg_r with B; [lra|]. rewrite Rmult_assoc, Rinv_l, Rmult_1_r by lra. eapply Rle_trans; [exact D|].
    rewrite Ea, Eb, !Rabs_mult, (Rabs_pos_eq B) by lra. change (2 ^ 21)%Z with 2097152%Z.
    assert (T : bpow radix2 (-149) <= B * / 16777216).
    { apply Rle_trans with (bpow radix2 (-60) * / 16777216); [|apply Rmult_le_compat_r; [lra|apply W]].
      apply Rle_trans with (bpow radix2 (-84)); [apply bpow_le; lia|].
      replace (-84)%Z with (-60 + -24)%Z by lia. rewrite bpow_plus. apply Rmult_le_compat_l; [apply bpow_ge_0|]. rewrite bpow_m24. unfold u32r. lra. }
    apply Rle_trans with (((K + 2) * (16 * / 16777216)) * B + B * / 16777216); [|].
    - apply Rplus_le_compat; [|exact T]. rewrite <- Rmult_plus_distr_r, <- Rmult_assoc. apply Rmult_le_compat_r; [lra|]. lra.
    - replace ((K + 2) * (17 * / 16777216) * B) with ((K + 2) * (16 * / 16777216) * B + B * ((K + 2) * / 16777216)) by ring.
      apply Rplus_le_compat_l. apply Rmult_le_compat_l; lra. }
  apply Rabs_le_inv in D'.
  assert (M : IZR b + h - (K + 2) * (6 * / 16777216) <= a' + tau * (b' - a') <= IZR b + 1 + h + (K + 2) * (6 * / 16777216)).
  { replace (a' + tau * (b' - a')) with ((1 - tau) * a' + tau * b') by ring.
    set (lo := IZR b + h - (K + 2) * (6 * / 16777216)). set (hi := IZR b + 1 + h + (K + 2) * (6 * / 16777216)).
    assert (lo <= a' <= hi) by (unfold lo, hi; lra). assert (lo <= b' <= hi) by (unfold lo, hi; lra).
    replace lo with ((1 - tau) * lo + tau * lo) by ring. replace hi with ((1 - tau) * hi + tau * hi) by ring.
    split; apply Rplus_le_compat; apply Rmult_le_compat_l; lra. }
  split; [exact Fr|]. split; [|fold B r' K; lra].
  apply le_IZR. fold K. lra.
Qed.

Section Block.
  Variables (k : vkind) (l : Layer k) (mw : f32) (bi : idx3) (b : Block k).
  Hypothesis R : regular l.
  Hypothesis SD : sane_sdf l mw.
  Hypothesis SL : sendable_layer l.
  Hypothesis Eb : l_get l bi = Some b.
  Let bs := l_block_size l.
  Lemma corner_coords_axes v i : corner_coords (l_size l) (computeCoordinatesFromVoxelIndex (b_origin b) (b_size b) v) i =
    V3 (corner_of bs (l_size l) (vx bi) (vx v) (vx (corner_offset i)))
       (corner_of bs (l_size l) (vy bi) (vy v) (vy (corner_offset i)))
       (corner_of bs (l_size l) (vz bi) (vz v) (vz (corner_offset i))).
  Proof. destruct (R bi b Eb) as (_ & -> & -> & _). reflexivity. Qed.
  Lemma corner_pt_ok v i : (0 <= vx v < l_vps l)%Z -> (0 <= vy v < l_vps l)%Z -> (0 <= vz v < l_vps l)%Z ->
    pt_ok (corner_coords (l_size l) (computeCoordinatesFromVoxelIndex (b_origin b) (b_size b) v) i).
  Proof.
    intros Hx Hy Hz. rewrite corner_coords_axes. destruct SL as (Sn & Hn & Sb). destruct (Sb bi b Eb) as (B1 & B2 & B3).
    destruct (offset_01 l i) as (O1 & O2 & O3).
    assert (X : forall c w o, ((Z.abs c + 2) * l_vps l <= 32768)%Z -> (0 <= w < l_vps l)%Z -> (0 <= o <= 1)%Z ->
              coord_ok (corner_of bs (l_size l) c w o)).
    { intros c w o Hc Hw Ho. destruct (corner_axis (l_vps l) (l_size l) c w o Sn Hn Hc Hw Ho) as (F & D).
      split; [exact F|]. pose proof (corner_pos _ _ _ Hn Hw Ho) as P. cbn zeta in D.
      change (block_size_of (l_vps l) (l_size l)) with bs in D. fold bs.
      assert (Hn2 : (l_vps l <= 65536)%Z) by nia. assert (Hbb : (Z.abs c <= 8190)%Z) by nia.
      destruct (block_size_R (l_vps l) (l_size l) Sn ltac:(lia)) as (_ & _ & _ & W). change (block_size_of (l_vps l) (l_size l)) with bs in W.
      pose proof (wide_pos _ W) as Bp. set (x := FR (corner_of bs (l_size l) c w o)) in *.
      assert (Nr : 4 <= IZR (l_vps l)) by (apply IZR_le; lia).
      assert (Hh : 0 < / (2 * IZR (l_vps l)) <= / 8) by (split; [apply Rinv_0_lt_compat; lra|apply Rinv_le_contravar; lra]).
      assert (K0 : 0 <= IZR (Z.abs c) <= 8190) by (split; [apply (IZR_le 0); lia|apply IZR_le; lia]).
      assert (Ki : Rabs (IZR c) = IZR (Z.abs c)) by (symmetry; apply abs_IZR).
      assert (Ib : - 8190 <= IZR c <= 8190) by (apply Rabs_le_inv; lra).
      apply Rabs_le_inv in D.
      assert (Ax : Rabs (x / FR bs) <= 10000) by (apply Rabs_le; lra).
      replace x with (x / FR bs * FR bs) by (field; lra). rewrite Rabs_mult, (Rabs_pos_eq (FR bs)) by lra.
      apply Rle_trans with (bpow radix2 20 * bpow radix2 60); [|rewrite <- bpow_plus; apply bpow_le; lia].
      apply Rmult_le_compat; try apply Rabs_pos; try lra; [simpl; lra|apply W]. }
    split; [|split]; cbn [vx vy vz]; now apply X.
  Qed.
  Lemma values_ok v ss : cube_values l mw bi v = Some ss -> forall i, (i < 8)%nat -> coord_ok (nth_sdf ss i).
  Proof.
    intros E i Hi. unfold cube_values in E. pose proof (collect_len _ _ _ E) as L.
    rewrite map_length in L. pose proof (collect_nth l _ _ _ i f0 E) as X.
    rewrite L in X. specialize (X Hi). fold (nth_sdf ss i) in X.
    apply nth_error_In in X. apply in_map_iff in X. destruct X as [j [X _]]. eapply SD; exact X.
  Qed.
  Lemma edge_ends_lt e : (e < 12)%nat -> (fst (edge_ends e) < 8)%nat /\ (snd (edge_ends e) < 8)%nat.
  Proof. intros H. do 12 (destruct e as [|e]; [cbn; lia|]). lia. Qed.
  Lemma cube_points_in v : (0 <= vx v < l_vps l)%Z -> (0 <= vy v < l_vps l)%Z -> (0 <= vz v < l_vps l)%Z ->
    Forall (vertex_in bs bi) (cube_points l mw b bi v).
  Proof.
    intros Hx Hy Hz. unfold cube_points. destruct (cube_values l mw bi v) as [ss|] eqn:Ev; [|constructor].
    apply Forall_forall. intros p Hp. apply in_flat_map in Hp. destruct Hp as (t & Ht & Hp).
    assert (Ee : exists e, In e (triangle_edges t) /\
               p = edge_point (corner_coords (l_size l) (computeCoordinatesFromVoxelIndex (b_origin b) (b_size b) v)) (nth_sdf ss) e).
    { destruct t as [[e1 e2] e3]. cbn in Hp. destruct Hp as [<- | [<- | [<- | []]]]; eexists; (split; [|reflexivity]); cbn; auto. }
    destruct Ee as (e & He & ->). destruct (C33_edges (nth_sdf ss)) as (Sc & _). destruct (Sc t e Ht He) as (L12 & Ch).
    destruct (edge_ends_lt e L12) as (La & Lb). unfold sign_change in Ch. unfold edge_point.
    destruct (edge_ends e) as [ea eb]. cbn [fst snd] in La, Lb.
    destruct (C37_vertex_on_edge _ _ _ _ (corner_pt_ok v ea Hx Hy Hz) (corner_pt_ok v eb Hx Hy Hz) (values_ok v ss Ev ea La) (values_ok v ss Ev eb Lb) Ch)
      as (tau & Ht1 & _ & S1 & S2 & S3).
    cbn zeta in S1, S2, S3. rewrite !corner_coords_axes in S1, S2, S3 |- *. cbn [vx vy vz] in S1, S2, S3.
    destruct SL as (Sn & Hn & Sb). destruct (Sb bi b Eb) as (B1 & B2 & B3).
    destruct (offset_01 l ea) as (O1 & O2 & O3). destruct (offset_01 l eb) as (P1 & P2 & P3).
    split; [|split].
    - eapply (reach_axis (l_vps l) (l_size l) (vx bi) (vx v) _ (vx v)); [exact Sn|exact Hn|exact B1|exact Hx|exact O1|exact Hx|exact P1|exact Ht1|exact S1].
    - eapply (reach_axis (l_vps l) (l_size l) (vy bi) (vy v) _ (vy v)); [exact Sn|exact Hn|exact B2|exact Hy|exact O2|exact Hy|exact P2|exact Ht1|exact S2].
    - eapply (reach_axis (l_vps l) (l_size l) (vz bi) (vz v) _ (vz v)); [exact Sn|exact Hn|exact B3|exact Hz|exact O3|exact Hz|exact P3|exact Ht1|exact S3].
  Qed.
End Block.

Lemma block_points_in k (l : Layer k) mw bi : regular l -> sane_sdf l mw -> sendable_layer l ->
  Forall (vertex_in (l_block_size l) bi) (block_points l mw bi).
Proof.
  intros R SD SL. unfold block_points. destruct (l_get l bi) as [b|] eqn:Eb; [|constructor].
  apply Forall_forall. intros p Hp. apply in_flat_map in Hp. destruct Hp as (v & Hv & Hp).
  apply C35_each_cube_once in Hv. destruct Hv as (Hx & Hy & Hz).
  pose proof (cube_points_in k l mw bi b R SD SL Eb v Hx Hy Hz) as F. rewrite Forall_forall in F. now apply F.
Qed.
