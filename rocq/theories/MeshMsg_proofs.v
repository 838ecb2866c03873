(** Quantisation of mesh vertices. *)
From Coq Require Import ZArith Reals List Bool Lia Lra.
From Flocq Require Import Core Binary.
From Verif Require Import F32 F32_lemmas F32_err Types Index Index_float Voxel Assoc Assoc_lemmas Layer Planning Marching
  MeshInt MeshMsg MeshMsg_spec.
Import ListNotations.
Open Scope R_scope.
Ltac Zify.zify_post_hook ::= idtac.

Lemma norm_axis bs v i : wide_size bs -> axis_in bs v i ->
  let n := normalize_axis (inv_of bs) v i in
  ffin n = true /\ 0 <= FR n <= 572 / 1000 /\
  Rabs (FR n - (FR v / FR bs - IZR i) / 2) <= (IZR (Z.abs i) + 2) * (3 * / 16777216).
Proof.
  intros W (Fv & Hi & Lo & Hi') n. pose proof (wide_pos bs W) as Sp.
  destruct (inv_of_R bs W) as (d & Hd & Ei & Fi). unfold u in Hd.
  set (x := FR v / FR bs) in *. set (K := IZR (Z.abs i)) in *.
  assert (K0 : 0 <= K <= 8192) by (unfold K; split; [apply (IZR_le 0); lia|apply IZR_le; lia]).
  assert (Ki : Rabs (IZR i) = K) by (unfold K; symmetry; apply abs_IZR).
  assert (Xb : Rabs x <= K + 2).
  { replace x with ((x - IZR i) + IZR i) by ring. eapply Rle_trans; [apply Rabs_triang|]. rewrite Ki, Rabs_pos_eq by lra. lra. }
  assert (Em : FR (inv_of bs) * FR v = x * (1 + d)) by (rewrite Ei; unfold x; field; lra).
  apply Rabs_le_inv in Hd.
  assert (Mb : Rabs (x * (1 + d)) <= 2 * (K + 2)).
  { rewrite Rabs_mult, Rmult_comm. apply Rmult_le_compat; try apply Rabs_pos; [apply Rabs_le; lra|exact Xb]. }
  destruct (fmul_rel (inv_of bs) v Fi Fv) as (Fm & d2 & e2 & Hd2 & He2 & E2).
  { rewrite Em. eapply Rle_trans; [exact Mb|]. apply Rle_trans with (bpow radix2 20); [simpl; lra|apply bpow_le; lia]. }
  rewrite Em in E2. set (m := fmul (inv_of bs) v) in *.
  assert (T : t32r <= / 1000000000000000000) by (apply Rle_trans with (bpow radix2 (-60)); [apply bpow_le; lia|simpl; lra]).
  assert (Dm : Rabs (FR m - x) <= (K + 2) * (31 / 10 * / 16777216)).
  { rewrite E2. unfold u32r in Hd2.
    replace (x * (1 + d) * (1 + d2) + e2 - x) with (x * ((1 + d) * (1 + d2) - 1) + e2) by ring.
    assert (P : Rabs ((1 + d) * (1 + d2) - 1) <= 305 / 100 * / 16777216).
    { replace ((1 + d) * (1 + d2) - 1) with (d + d2 * (1 + d)) by ring. eapply Rle_trans; [apply Rabs_triang|].
      rewrite Rabs_mult. assert (Rabs d2 * Rabs (1 + d) <= / 16777216 * (101 / 100)).
      { apply Rmult_le_compat; try apply Rabs_pos; [exact Hd2|apply Rabs_le; lra]. }
      assert (Rabs d <= 2 * / 16777216) by (apply Rabs_le; lra). lra. }
    eapply Rle_trans; [apply Rabs_triang|]. rewrite Rabs_mult.
    assert (Rabs x * Rabs ((1 + d) * (1 + d2) - 1) <= (K + 2) * (305 / 100 * / 16777216)).
    { apply Rmult_le_compat; try apply Rabs_pos; assumption. }
    lra. }
  destruct (f32_of_Z_R i ltac:(lia)) as (Ez & Fz).
  apply Rabs_le_inv in Dm.
  assert (Sb : -1 <= FR m - IZR i <= 12 / 10).
  { split; lra. }
  destruct (fsub_rel m (f32_of_Z i) Fm Fz) as (Fs & d3 & Hd3 & E3).
  { rewrite Ez. apply Rle_trans with 2; [apply Rabs_le; lra|]. change 2 with (bpow radix2 1). apply bpow_le; lia. }
  rewrite Ez in E3. set (s := fsub m (f32_of_Z i)) in *.
  assert (W3 : Rabs ((FR m - IZR i) * d3) <= 12 / 10 * / 16777216).
  { rewrite Rabs_mult. apply Rmult_le_compat; try apply Rabs_pos; [apply Rabs_le; lra|exact Hd3]. }
  apply Rabs_le_inv in W3.
  assert (Eh : FR fhalf = / 2) by (unfold fhalf, f32_lit, FR; cbn; unfold F2R; cbn; lra).
  assert (Es : Rabs (FR s - (x - IZR i)) <= (K + 2) * (31 / 10 * / 16777216) + 12 / 10 * / 16777216).
  { rewrite E3. apply Rabs_le. lra. }
  apply Rabs_le_inv in Es.
  assert (Hs : -1 <= FR s <= 12 / 10) by lra.
  destruct (fmul_rel fhalf s eq_refl Fs) as (Fn & d4 & e4 & Hd4 & He4 & E4).
  { rewrite Eh. apply Rle_trans with 2; [|change 2 with (bpow radix2 1); apply bpow_le; lia].
    rewrite Rabs_mult, (Rabs_pos_eq (/ 2)) by lra. assert (Rabs (FR s) <= 2) by (apply Rabs_le; lra). lra. }
  rewrite Eh in E4. change (fmul fhalf s) with n in *.
  assert (W4 : Rabs (/ 2 * FR s * d4) <= 6 / 10 * / 16777216).
  { rewrite Rabs_mult. apply Rmult_le_compat; try apply Rabs_pos; [apply Rabs_le; lra|exact Hd4]. }
  apply Rabs_le_inv in W4. apply Rabs_le_inv in He4.
  assert (D : Rabs (FR n - (x - IZR i) / 2) <= (K + 2) * (3 * / 16777216)).
  { rewrite E4. apply Rabs_le. lra. }
  split; [exact Fn|]. split; [|exact D]. apply Rabs_le_inv in D. lra.
Qed.

Lemma quantize_ok n : ffin n = true -> 0 <= FR n <= 572 / 1000 ->
  exists z, quantize n = Some z /\ (0 <= z <= 65535)%Z /\ (z <= 40000)%Z /\
    Rabs (IZR z * (2 / 65535) - 2 * FR n) <= 2 / 65535 + 2 * / 16777216.
Proof.
  intros F H. destruct (f32_of_Z_R 65535 ltac:(lia)) as (E & Fc). fold f65535 in E, Fc.
  assert (T : t32r <= / 1000000000000000000) by (apply Rle_trans with (bpow radix2 (-60)); [apply bpow_le; lia|simpl; lra]).
  destruct (fmul_rel f65535 n Fc F) as (Fp & d & e & Hd & He & Ep).
  { rewrite E. apply Rle_trans with (bpow radix2 20); [rewrite Rabs_pos_eq by lra; simpl; lra|apply bpow_le; lia]. }
  rewrite E in Ep. set (p := fmul f65535 n) in *.
  assert (P0 : 0 <= FR p).
  { destruct (fmul_R f65535 n Fc F) as (Q & _).
    { rewrite E. apply rnd32_small. apply Rle_trans with (bpow radix2 20); [rewrite Rabs_pos_eq by lra; simpl; lra|apply bpow_le; lia]. }
    unfold p. rewrite Q, E, <- rnd32_0. apply rnd32_le. lra. }
  assert (W : Rabs (65535 * FR n * d) <= 65535 * (572 / 1000) * / 16777216).
  { rewrite Rabs_mult. apply Rmult_le_compat; try apply Rabs_pos; [|exact Hd]. rewrite Rabs_pos_eq by lra. lra. }
  apply Rabs_le_inv in W. apply Rabs_le_inv in He.
  unfold quantize. fold p. rewrite (ftruncZ_R p Fp).
  rewrite Ztrunc_floor by exact P0. pose proof (Zfloor_lb (FR p)) as L. pose proof (Zfloor_ub (FR p)) as U.
  set (z := Zfloor (FR p)) in *.
  assert (Z0 : (0 <= z)%Z) by (apply Zfloor_lub; exact P0).
  assert (Z1 : (z <= 40000)%Z). { apply le_IZR. lra. }
  exists z. split; [|split; [lia|split; [exact Z1|]]].
  - unfold to_uint16, in_range. replace ((0 <=? z)%Z && (z <=? 65535)%Z) with true; [reflexivity|].
    symmetry. apply andb_true_iff. split; apply Z.leb_le; lia.
  - apply Rabs_le. lra.
Qed.

Lemma decode_ok bs v i : wide_size bs -> axis_in bs v i ->
  exists z, quantize (normalize_axis (inv_of bs) v i) = Some z /\ (0 <= z <= 65535)%Z /\
    ffin (decode_axis bs i z) = true /\ Rabs (FR (decode_axis bs i z) - FR v) <= step bs i.
Proof.
  intros W A. destruct (norm_axis bs v i W A) as (Fn & Bn & Dn). pose proof (wide_pos bs W) as Sp.
  destruct (quantize_ok _ Fn Bn) as (z & Q & Rz & Rz' & Dz). exists z. split; [exact Q|]. split; [exact Rz|].
  destruct A as (Fv & Hi & Lo & Hi'). set (n := normalize_axis (inv_of bs) v i) in *.
  set (x := FR v / FR bs) in *. unfold step. set (K := IZR (Z.abs i)) in *.
  assert (K0 : 0 <= K <= 8192) by (unfold K; split; [apply (IZR_le 0); lia|apply IZR_le; lia]).
  assert (Ki : Rabs (IZR i) = K) by (unfold K; symmetry; apply abs_IZR).
  assert (T : t32r <= / 1000000000000000000) by (apply Rle_trans with (bpow radix2 (-60)); [apply bpow_le; lia|simpl; lra]).
  destruct (f32_of_Z_R 65535 ltac:(lia)) as (E & Fc). fold f65535 in E, Fc.
  destruct (f32_of_Z_R 2 ltac:(lia)) as (E2 & F2).
  destruct (fdiv_rel (f32_of_Z 2) f65535 F2) as (Fk & d & e & Hd & He & Ek).
  { rewrite E. lra. } { rewrite E, E2. apply Rle_trans with 2; [apply Rabs_le; lra|change 2 with (bpow radix2 1); apply bpow_le; lia]. }
  fold point_conv_factor in Fk, Ek. rewrite E, E2 in Ek. set (k := point_conv_factor) in *.
  assert (Kb : Rabs (FR k - 2 / 65535) <= 2 / 65535 * (101 / 100 * / 16777216)).
  { rewrite Ek. assert (Wd : Rabs (2 / 65535 * d) <= 2 / 65535 * / 16777216).
    { rewrite Rabs_mult, Rabs_pos_eq by lra. apply Rmult_le_compat_l; [lra|exact Hd]. }
    apply Rabs_le_inv in Wd. apply Rabs_le_inv in He. apply Rabs_le. lra. }
  destruct (f32_of_Z_R z ltac:(lia)) as (Ez & Fz).
  assert (Zr : 0 <= IZR z <= 40000) by (split; [apply (IZR_le 0); lia|apply IZR_le; lia]).
  apply Rabs_le_inv in Kb.
  assert (Pb : Rabs (IZR z * FR k - IZR z * (2 / 65535)) <= 15 / 10 * / 16777216).
  { replace (IZR z * FR k - IZR z * (2 / 65535)) with (IZR z * (FR k - 2 / 65535)) by ring.
    rewrite Rabs_mult, (Rabs_pos_eq (IZR z)) by lra.
    apply Rle_trans with (40000 * (2 / 65535 * (101 / 100 * / 16777216))); [|lra].
    apply Rmult_le_compat; try apply Rabs_pos; try lra. apply Rabs_le; lra. }
  apply Rabs_le_inv in Pb. apply Rabs_le_inv in Dz. apply Rabs_le_inv in Dn.
  assert (Pr : -1 <= IZR z * FR k <= 13 / 10) by lra.
  destruct (fmul_rel (f32_of_Z z) k Fz Fk) as (Fw & d1 & e1 & Hd1 & He1 & Ew).
  { rewrite Ez. apply Rle_trans with 2; [apply Rabs_le; lra|change 2 with (bpow radix2 1); apply bpow_le; lia]. }
  rewrite Ez in Ew. set (w := fmul (f32_of_Z z) k) in *.
  assert (Wb : Rabs (IZR z * FR k * d1) <= 13 / 10 * / 16777216).
  { rewrite Rabs_mult. apply Rmult_le_compat; try apply Rabs_pos; [apply Rabs_le; lra|exact Hd1]. }
  apply Rabs_le_inv in Wb. apply Rabs_le_inv in He1.
  assert (Dw : Rabs (FR w - (x - IZR i)) <= 2 / 65535 + (K + 2) * (6 * / 16777216) + 5 * / 16777216) by (apply Rabs_le; lra).
  apply Rabs_le_inv in Dw.
  destruct (f32_of_Z_R i ltac:(lia)) as (Ei & Fi).
  assert (Ib : - K <= IZR i <= K) by (apply Rabs_le_inv; lra).
  destruct (fadd_rel w (f32_of_Z i) Fw Fi) as (Fa & d3 & Hd3 & Ea).
  { rewrite Ei. apply Rle_trans with (bpow radix2 20); [simpl; apply Rabs_le; lra|apply bpow_le; lia]. }
  rewrite Ei in Ea. set (a := fadd w (f32_of_Z i)) in *.
  assert (Ab : Rabs (FR w + IZR i) <= K + 2) by (apply Rabs_le; lra).
  assert (W3 : Rabs ((FR w + IZR i) * d3) <= (K + 2) * / 16777216).
  { rewrite Rabs_mult. apply Rmult_le_compat; try apply Rabs_pos; assumption. }
  apply Rabs_le_inv in W3.
  assert (Aa : Rabs (FR a) <= K + 3) by (rewrite Ea; apply Rabs_le_inv in Ab; apply Rabs_le; lra).
  destruct (fmul_rel a bs Fa ltac:(apply W)) as (Fd & d4 & e4 & Hd4 & He4 & Ed).
  { rewrite Rabs_mult, (Rabs_pos_eq (FR bs)) by lra. apply Rle_trans with (bpow radix2 20 * bpow radix2 60).
    - apply Rmult_le_compat; try apply Rabs_pos; [lra|simpl; lra|apply W].
    - rewrite <- bpow_plus. apply bpow_le; lia. }
  change (fmul a bs) with (decode_axis bs i z) in *.
  split; [exact Fd|]. rewrite Ed.
  pose proof (wide_tail bs e4 W He4) as T4.
  assert (Ev : FR v = x * FR bs) by (unfold x; field; lra). rewrite Ev.
  replace (FR a * FR bs * (1 + d4) + e4 - x * FR bs) with (FR bs * (FR a * (1 + d4) + e4 / FR bs - x)) by (field; lra).
  rewrite Rabs_mult, (Rabs_pos_eq (FR bs)) by lra. apply Rmult_le_compat_l; [lra|].
  assert (W5 : Rabs (FR a * d4) <= (K + 3) * / 16777216).
  { rewrite Rabs_mult. apply Rmult_le_compat; try apply Rabs_pos; assumption. }
  apply Rabs_le_inv in W5. apply Rabs_le_inv in T4. rewrite Ea in W5 |- *. apply Rabs_le. lra.
Qed.

Lemma sq_small n : ffin n = true -> 0 <= FR n <= 572 / 1000 ->
  ffin (fmul n n) = true /\ 0 <= FR (fmul n n) <= 328 / 1000.
Proof.
  intros F H. assert (B : 0 <= FR n * FR n <= 327184 / 1000000).
  { split; [apply Rmult_le_pos; lra|]. replace (327184 / 1000000) with (572 / 1000 * (572 / 1000)) by lra.
    apply Rmult_le_compat; lra. }
  assert (L : Rabs (FR n * FR n) <= bpow radix2 0) by (simpl; apply Rabs_le; lra).
  assert (T : t32r <= / 1000000000000000000) by (apply Rle_trans with (bpow radix2 (-60)); [apply bpow_le; lia|simpl; lra]).
  destruct (fmul_rel n n F F) as (Fm & d & e & Hd & He & E).
  { eapply Rle_trans; [exact L|]. apply bpow_le; lia. }
  destruct (fmul_R n n F F) as (Q & _). { apply rnd32_small. eapply Rle_trans; [exact L|]. apply bpow_le; lia. }
  split; [exact Fm|]. split.
  - rewrite Q, <- rnd32_0. apply rnd32_le. lra.
  - rewrite E. assert (W : Rabs (FR n * FR n * d) <= 1 * / 16777216).
    { rewrite Rabs_mult. apply Rmult_le_compat; try apply Rabs_pos; [exact L|exact Hd]. }
    apply Rabs_le_inv in W. apply Rabs_le_inv in He. lra.
Qed.
Lemma add_small a b A B : ffin a = true -> ffin b = true -> 0 <= FR a <= A -> 0 <= FR b <= B -> A + B <= 1 ->
  ffin (fadd a b) = true /\ 0 <= FR (fadd a b) <= A + B + / 1000000.
Proof.
  intros Fa Fb Ha Hb L. destruct (fadd_rel a b Fa Fb) as (F & d & Hd & E).
  { apply Rle_trans with (bpow radix2 1); [simpl; apply Rabs_le; lra|apply bpow_le; lia]. }
  split; [exact F|]. rewrite E. assert (W : Rabs d <= / 16777216) by exact Hd. apply Rabs_le_inv in W.
  split; [apply Rmult_le_pos; lra|].
  assert ((FR a + FR b) * d <= 1 * / 16777216) by
    (apply Rle_trans with (Rabs ((FR a + FR b) * d)); [apply RRle_abs|];
     rewrite Rabs_mult; apply Rmult_le_compat; try apply Rabs_pos; [apply Rabs_le; lra|exact Hd]).
  lra.
Qed.

Lemma ge0 n : ffin n = true -> 0 <= FR n -> fge n f0 = true.
Proof.
  intros F H. unfold fge. rewrite fle_R by (reflexivity || exact F). change (FR f0) with 0. exact H.
Qed.
Lemma encode_vertex_ok bs i v : wide_size bs -> vertex_in bs i v ->
  exists q, encode_vertex bs i v = Ok q /\ all3 (fun z => word16 z) q /\ near_vertex bs i (decode_vertex bs i q) v.
Proof.
  intros W (A1 & A2 & A3).
  destruct (norm_axis _ _ _ W A1) as (F1 & B1 & _). destruct (norm_axis _ _ _ W A2) as (F2 & B2 & _).
  destruct (norm_axis _ _ _ W A3) as (F3 & B3 & _).
  destruct (decode_ok _ _ _ W A1) as (z1 & Q1 & R1 & _ & D1). destruct (decode_ok _ _ _ W A2) as (z2 & Q2 & R2 & _ & D2).
  destruct (decode_ok _ _ _ W A3) as (z3 & Q3 & R3 & _ & D3).
  unfold encode_vertex, sqnorm. cbn [vx vy vz].
  set (n1 := normalize_axis (inv_of bs) (vx v) (vx i)) in *. set (n2 := normalize_axis (inv_of bs) (vy v) (vy i)) in *.
  set (n3 := normalize_axis (inv_of bs) (vz v) (vz i)) in *.
  destruct (sq_small n1 F1 B1) as (S1 & T1). destruct (sq_small n2 F2 B2) as (S2 & T2). destruct (sq_small n3 F3 B3) as (S3 & T3).
  destruct (add_small (fmul n2 n2) (fmul n3 n3) _ _ S2 S3 T2 T3 ltac:(lra)) as (S4 & T4).
  destruct (add_small (fmul n1 n1) (fadd (fmul n2 n2) (fmul n3 n3)) _ _ S1 S4 T1 T4 ltac:(lra)) as (S5 & T5).
  replace (fle _ f1) with true.
  2:{ symmetry. rewrite fle_R by (reflexivity || exact S5). replace (FR f1) with 1 by (symmetry; apply (f32_of_Z_R 1); lia). lra. }
  rewrite !ge0 by (assumption || lra). cbn [andb]. unfold map3. cbn [vx vy vz]. rewrite Q1, Q2, Q3. cbn [seq3 vx vy vz of_opt].
  exists (V3 z1 z2 z3). split; [reflexivity|]. split; [split; [exact R1|split; [exact R2|exact R3]]|].
  split; [exact D1|split; [exact D2|exact D3]].
Qed.

Lemma channel_ok z : byte z -> encode_channel (channel_msg z) = Some z.
Proof.
  intros H. assert (T : forallb (fun n => match encode_channel (channel_msg (Z.of_nat n)) with Some y => Z.eqb y (Z.of_nat n) | None => false end)
             (seq 0 256) = true) by (vm_compute; reflexivity).
  rewrite forallb_forall in T. specialize (T (Z.to_nat z)). rewrite Z2Nat.id in T by (unfold byte in H; lia).
  destruct (encode_channel (channel_msg z)) as [y|].
  - f_equal. apply Z.eqb_eq, T. apply in_seq. unfold byte in H. lia.
  - discriminate T. apply in_seq. unfold byte in H. lia.
Qed.
Lemma gray_ok : encode_channel fhalf = Some 127%Z. Proof. vm_compute. reflexivity. Qed.

Definition rgb_of (c : Color) : idx3 := V3 (cr c) (cg c) (cb c).
Definition colors_of (mode : color_mode) (m : mesh) (n : nat) (vs : list pt3) : list idx3 :=
  match mode with
  | kColor => map rgb_of (skipn n (m_colors m))
  | kNormals => []
  | kGray => map (fun _ => V3 127 127 127)%Z vs
  end.
Lemma skipn_nth {A} (l : list A) n a : nth_error l n = Some a -> skipn n l = a :: skipn (S n) l.
Proof. revert n. induction l as [|x l IH]; intros [|n] H; try discriminate; cbn in *; [congruence|]. now apply IH. Qed.

Lemma encode_vertices_ok mode bs i m : wide_size bs -> colors_sendable mode m ->
  forall vs n, Forall (vertex_in bs i) vs -> (n + length vs = length (m_vertices m))%nat ->
  exists qs, encode_vertices mode bs i m n vs = Ok (qs, colors_of mode m n vs) /\
    Forall (all3 word16) qs /\ Forall2 (near_vertex bs i) (map (decode_vertex bs i) qs) vs.
Proof.
  intros W C. induction vs as [|v vs IH]; intros n V L; cbn [encode_vertices].
  - exists []. split; [|split; constructor]. f_equal. f_equal. destruct mode; cbn; try reflexivity.
    destruct (C eq_refl) as (E & _). cbn in L. rewrite skipn_all2 by lia. reflexivity.
  - inversion V as [|? ? V1 V2]; subst. cbn [length] in L.
    destruct (encode_vertex_ok bs i v W V1) as (q & E & Rq & D). rewrite E. cbn [rbind].
    destruct (IH (S n) V2 ltac:(lia)) as (qs & Eq & Rqs & Ds).
    assert (X : encode_color mode m n = Ok (match mode with kColor => match nth_error (m_colors m) n with Some c => [rgb_of c] | None => [] end
              | kNormals => [] | kGray => [V3 127 127 127]%Z end) /\
              (mode = kColor -> nth_error (m_colors m) n <> None)).
    { unfold encode_color. destruct mode; cbn beta iota.
      - destruct (C eq_refl) as (El & Fb). destruct (nth_error (m_colors m) n) as [c|] eqn:En.
        + split; [|congruence]. apply nth_error_In in En. rewrite Forall_forall in Fb. destruct (Fb c En) as (B1 & B2 & B3).
          unfold map3. cbn [vx vy vz]. rewrite !channel_ok by assumption. reflexivity.
        + apply nth_error_None in En. lia.
      - split; [reflexivity|congruence].
      - split; [|congruence]. unfold map3. cbn [vx vy vz]. rewrite gray_ok. reflexivity. }
    destruct X as (Ec & Nc). rewrite Ec. cbn [rbind]. rewrite Eq. cbn [rbind fst snd].
    exists (q :: qs). split; [|split; [now constructor|cbn [map]; now constructor]].
    f_equal. f_equal. destruct mode; cbn [colors_of].
    + destruct (nth_error (m_colors m) n) as [c|] eqn:En; [|exfalso; now apply Nc].
      rewrite (skipn_nth _ _ _ En). reflexivity.
    + reflexivity.
    + reflexivity.
Qed.

Lemma zip3l_map qs : zip3l (map vx qs) (map vy qs) (map vz qs) = Some (qs : list idx3).
Proof. induction qs as [|[x y z] qs IH]; cbn; [reflexivity|]. rewrite IH. reflexivity. Qed.
Lemma Forall2_len {A B} (P : A -> B -> Prop) l l' : Forall2 P l l' -> length l = length l'.
Proof. induction 1; cbn; congruence. Qed.

Lemma encode_block_ok mode bs i m : wide_size bs -> sendable mode bs i m ->
  exists b, encode_block mode bs i m = Ok b /\ mb_index b = i /\ describes mode bs b m.
Proof.
  intros W (V & C). destruct (encode_vertices_ok mode bs i m W C (m_vertices m) 0 V eq_refl) as (qs & E & Rq & D).
  unfold encode_block. rewrite E. cbn [rbind fst snd]. eexists. split; [reflexivity|]. split; [reflexivity|].
  pose proof (Forall2_len _ _ _ D) as L. rewrite map_length in L.
  unfold describes. cbn [mb_x mb_y mb_z mb_r mb_g mb_b mb_index]. rewrite !map_length.
  assert (X : forall f, (forall q, all3 word16 q -> word16 (f q)) -> Forall word16 (map f qs)).
  { intros f Hf. apply Forall_forall. intros z Hz. apply in_map_iff in Hz. destruct Hz as (q & <- & Hq).
    apply Hf. rewrite Forall_forall in Rq. now apply Rq. }
  split; [apply X; intros q Hq; apply Hq|]. split; [apply X; intros q Hq; apply Hq|]. split; [apply X; intros q Hq; apply Hq|].
  split; [exact L|]. split; [exact L|]. split; [exact L|]. split.
  - exists (map (decode_vertex bs i) qs). split; [|exact D]. unfold decode_block. cbn [mb_x mb_y mb_z mb_index].
    rewrite zip3l_map. reflexivity.
  - unfold colors_sent, colors_of. destruct mode; cbn [mb_r mb_g mb_b skipn].
    + rewrite !map_map. auto.
    + auto.
    + rewrite !map_map. auto.
Qed.

(** ** The whole message *)
Section Blocks.
Variables (mode : color_mode) (bs : f32).
Hypothesis W : wide_size bs.
Lemma encode_blocks_ok : forall is mm, NoDup is ->
  (forall i, In i is -> exists m, alookup i mm = Some m /\ sendable mode bs i m) ->
  exists bl mm', encode_blocks mode bs is mm = Ok (bl, mm') /\ map mb_index bl = is /\
    Forall (fun b => exists m, alookup (mb_index b) mm = Some m /\ describes mode bs b m) bl /\
    forall i, alookup i mm' = if existsb (idx_eqb i) is
              then match alookup i mm with Some m => if nonempty (m_vertices m) then Some (sent m) else None | None => None end
              else alookup i mm.
Proof.
  induction is as [|i is IH]; intros mm ND H; cbn [encode_blocks].
  - exists [], mm. repeat split; constructor.
  - inversion ND as [|? ? N ND']; subst. destruct (H i (or_introl eq_refl)) as (m & Em & S). rewrite Em.
    destruct (encode_block_ok mode bs i m W S) as (b & Eb & Ib & Db). rewrite Eb. cbn [rbind].
    set (mm1 := if nonempty (m_vertices m) then aset i (sent m) mm else aerase i mm).
    assert (G : forall j, alookup j mm1 = if idx_eqb j i then (if nonempty (m_vertices m) then Some (sent m) else None) else alookup j mm).
    { intros j. unfold mm1. destruct (nonempty (m_vertices m)); [apply alookup_aset|apply alookup_aerase]. }
    assert (K : forall j, In j is -> alookup j mm1 = alookup j mm).
    { intros j Hj. rewrite G, idx_eqb_neq; [reflexivity|]. intros ->. contradiction. }
    destruct (IH mm1 ND') as (bl & mm' & E & Ix & Fb & Gb).
    { intros j Hj. rewrite K by exact Hj. apply H. now right. }
    match goal with |- context [encode_blocks mode bs is ?t] => change t with mm1 end. rewrite E. cbn [rbind fst snd]. exists (b :: bl), mm'. split; [reflexivity|]. split; [cbn; congruence|]. split.
    + constructor.
      * exists m. rewrite Ib. auto.
      * rewrite Forall_forall in *. intros b' Hb'. destruct (Fb b' Hb') as (m' & Em' & D').
        exists m'. split; [|exact D']. rewrite <- K; [exact Em'|]. rewrite <- Ix. now apply in_map.
    + intros j. rewrite Gb. cbn [existsb]. destruct (idx_eqb_spec j i) as [->|Nj].
      * cbn [orb]. rewrite Em. replace (existsb (idx_eqb i) is) with false.
        -- rewrite G, idx_eqb_refl. reflexivity.
        -- symmetry. apply not_true_iff_false. intros X. apply existsb_exists in X. destruct X as (k & Hk & Ek).
           destruct (idx_eqb_spec i k) as [->|]; [contradiction|discriminate].
      * cbn [orb]. rewrite G, idx_eqb_neq by exact Nj. reflexivity.
Qed.
End Blocks.

Lemma updated_In mm i : NoDup (akeys mm) ->
  In i (getAllUpdatedMeshes mm) <-> exists m, alookup i mm = Some m /\ m_updated m = true.
Proof.
  intros ND. unfold getAllUpdatedMeshes. rewrite in_map_iff. split.
  - intros ((k & m) & E & Hf). cbn in E. subst k. apply filter_In in Hf. destruct Hf as (Hi & U).
    exists m. split; [now apply alookup_NoDup|exact U].
  - intros (m & E & U). exists (i, m). split; [reflexivity|]. apply filter_In. split; [now apply alookup_In|exact U].
Qed.
Lemma updated_NoDup (mm : mesh_map) : NoDup (akeys mm) -> NoDup (getAllUpdatedMeshes mm).
Proof. intros ND. unfold getAllUpdatedMeshes. apply NoDup_map_filter. exact ND. Qed.

Lemma message_ok mode bs mm : wide_size bs -> NoDup (akeys mm) ->
  (forall i m, alookup i mm = Some m -> m_updated m = true -> sendable mode bs i m) ->
  exists msg mm', generateVoxbloxMeshMsg mode bs mm = Ok (msg, mm') /\ mm_edge msg = bs /\
    NoDup (map mb_index (mm_blocks msg)) /\
    (forall i, In i (map mb_index (mm_blocks msg)) <-> exists m, alookup i mm = Some m /\ m_updated m = true) /\
    Forall (fun b => exists m, alookup (mb_index b) mm = Some m /\ describes mode bs b m) (mm_blocks msg) /\
    forall i, alookup i mm' = after_sending (alookup i mm).
Proof.
  intros W ND H. destruct (encode_blocks_ok mode bs W (getAllUpdatedMeshes mm) mm (updated_NoDup mm ND)) as (bl & mm' & E & Ix & Fb & G).
  { intros i Hi. apply updated_In in Hi; [|exact ND]. destruct Hi as (m & Em & U). exists m. split; [exact Em|]. now apply H. }
  unfold generateVoxbloxMeshMsg. rewrite E. cbn [rbind fst snd]. eexists. exists mm'. split; [reflexivity|].
  cbn [mm_edge mm_blocks]. split; [reflexivity|]. rewrite Ix. split; [now apply updated_NoDup|].
  split; [intros i; now apply updated_In|]. split; [exact Fb|].
  intros i. rewrite G. unfold after_sending. destruct (alookup i mm) as [m|] eqn:Em.
  - destruct (m_updated m) eqn:U.
    + replace (existsb (idx_eqb i) (getAllUpdatedMeshes mm)) with true; [reflexivity|]. symmetry. apply existsb_exists.
      exists i. split; [apply updated_In; [exact ND|]; now exists m|apply idx_eqb_refl].
    + replace (existsb (idx_eqb i) (getAllUpdatedMeshes mm)) with false; [reflexivity|]. symmetry. apply not_true_iff_false.
      intros X. apply existsb_exists in X. destruct X as (k & Hk & Ek). destruct (idx_eqb_spec i k) as [<-|]; [|discriminate].
      apply updated_In in Hk; [|exact ND]. destruct Hk as (m' & Em' & U'). congruence.
  - destruct (existsb _ _); reflexivity.
Qed.
