(** Proofs for C95 and C96. *)
From Coq Require Import ZArith Reals List Bool Lia Lra.
From Flocq Require Import Core.
From Verif Require Import F32 F32_lemmas Types Index Index_proofs Index_float Voxel Assoc Layer Threads Threads_proofs Planning Ray Update Update_spec
  Interp Interp_spec Interp_proofs Intensity Intensity_spec Intensity_proofs MeshInt MeshMsg MeshMsg_spec ColorMap ColorMap_spec ColorMap_proofs
  Merge_proofs F32_err Vec_proofs IntServer IntServer_spec.
Import ListNotations.
Open Scope Z_scope.
Ltac Zify.zify_post_hook ::= idtac.

(** ** Lookups *)
Lemma raw_axis : forall q bs, word16 q -> wide_size bs -> (/ 9 <= FR bs)%R ->
  exists b, grid_axis (f32_of_Z q) (inv_of bs) = Some b /\ 0 <= b <= 2 ^ 20 /\ (Rabs (FR (f32_of_Z q) / FR bs - IZR b) <= 2)%R.
Proof.
  intros q bs Hq Hs L. destruct (f32_of_Z_R q ltac:(unfold word16 in Hq; lia)) as (E & F).
  pose proof (wide_pos bs Hs) as P.
  assert (Q0 : (0 <= IZR q)%R) by (apply IZR_le; destruct Hq; lia).
  assert (Q1 : (IZR q <= 65535)%R) by (apply IZR_le; destruct Hq; lia).
  assert (T0 : (0 <= FR (f32_of_Z q) / FR bs)%R) by (rewrite E; apply Rmult_le_pos; [exact Q0|]; left; apply Rinv_0_lt_compat; exact P).
  assert (T1 : (FR (f32_of_Z q) / FR bs <= 600000)%R).
  { rewrite E. apply (Rmult_le_reg_r (FR bs)); [exact P|]. unfold Rdiv. rewrite Rmult_assoc, Rinv_l by lra. lra. }
  destruct (grid_axis_of_value _ _ F Hs) as (n & G & B).
  { rewrite Rabs_pos_eq by exact T0. change (bpow radix2 24) with 16777216%R. lra. }
  exists n. split; [exact G|]. unfold gtol, u in B. rewrite Rabs_pos_eq in B by exact T0. change (bpow radix2 (-24)) with (/ 16777216)%R in B.
  split; [split|].
  - (* the float computed is not negative *)
    unfold grid_axis in G. destruct (grid_value _ _ F Hs) as (F2 & _).
    { rewrite Rabs_pos_eq by exact T0. change (bpow radix2 24) with 16777216%R. lra. }
    rewrite ffloorZ_R in G by exact F2.
    assert (V : (0 <= FR (fadd (fmul (f32_of_Z q) (inv_of bs)) kEpsilon))%R).
    { destruct (inv_of_R bs Hs) as (di & Hdi & Ei & Fi). destruct kEpsilon_R as ((K0 & K1) & FK).
      assert (I0 : (0 <= FR (inv_of bs))%R).
      { rewrite Ei. apply Rabs_le_inv in Hdi. unfold u in Hdi. change (bpow radix2 (-24)) with (/ 16777216)%R in Hdi. apply Rmult_le_pos; [left; apply Rinv_0_lt_compat; exact P|]. lra. }
      assert (S : (0 <= FR (f32_of_Z q) * FR (inv_of bs))%R) by (apply Rmult_le_pos; [rewrite E; exact Q0|exact I0]).
      assert (U : (FR (f32_of_Z q) * FR (inv_of bs) <= bpow radix2 24)%R).
      { change (bpow radix2 24) with 16777216%R. rewrite Ei. apply Rabs_le_inv in Hdi. unfold u in Hdi. change (bpow radix2 (-24)) with (/ 16777216)%R in Hdi.
        replace (FR (f32_of_Z q) * (/ FR bs * (1 + di)))%R with (FR (f32_of_Z q) / FR bs * (1 + di))%R by (unfold Rdiv; ring).
        apply Rle_trans with (FR (f32_of_Z q) / FR bs * 2)%R; [apply Rmult_le_compat_l; lra|]. lra. }
      destruct (fmul_R (f32_of_Z q) (inv_of bs) F Fi) as (E1 & F1).
      { apply Rle_lt_trans with (bpow radix2 25); [|apply bpow_lt; lia]. apply Rabs_le. 
        assert (rnd32 (FR (f32_of_Z q) * FR (inv_of bs)) <= rnd32 (bpow radix2 24))%R by (apply rnd32_le; exact U).
        assert (rnd32 0 <= rnd32 (FR (f32_of_Z q) * FR (inv_of bs)))%R by (apply rnd32_le; exact S).
        assert (rnd32 0 = 0)%R by apply round_0, valid_rnd_N.
        assert (rnd32 (bpow radix2 24) = bpow radix2 24)%R.
        { apply round_generic; [apply valid_rnd_N|]. apply generic_format_bpow. cbn. lia. }
        assert (bpow radix2 24 <= bpow radix2 25)%R by (apply bpow_le; lia). pose proof (bpow_ge_0 radix2 25). lra. }
      assert (W : (0 <= FR (fmul (f32_of_Z q) (inv_of bs)))%R).
      { rewrite E1. assert (rnd32 0 = 0)%R by apply round_0, valid_rnd_N. rewrite <- H. apply rnd32_le. exact S. }
      unfold ffin in F2. destruct (fadd_R (fmul (f32_of_Z q) (inv_of bs)) kEpsilon F1 FK) as (E2 & _).
      { apply Rle_lt_trans with (bpow radix2 26); [|apply bpow_lt; lia]. apply Rabs_le.
        assert (HW : (FR (fmul (f32_of_Z q) (inv_of bs)) <= bpow radix2 24)%R).
        { rewrite E1. assert (H : rnd32 (bpow radix2 24) = bpow radix2 24) by (apply round_generic; [apply valid_rnd_N|]; apply generic_format_bpow; cbn; lia).
          rewrite <- H. apply rnd32_le. exact U. }
        assert (H25 : (FR (fmul (f32_of_Z q) (inv_of bs)) + FR kEpsilon <= bpow radix2 25)%R).
        { change (bpow radix2 25) with 33554432%R. change (bpow radix2 24) with 16777216%R in HW. lra. }
        assert (H1 : (rnd32 (FR (fmul (f32_of_Z q) (inv_of bs)) + FR kEpsilon) <= rnd32 (bpow radix2 25))%R) by (apply rnd32_le; exact H25).
        assert (H2 : (rnd32 0 <= rnd32 (FR (fmul (f32_of_Z q) (inv_of bs)) + FR kEpsilon))%R) by (apply rnd32_le; lra).
        assert (H3 : rnd32 0 = 0%R) by apply round_0, valid_rnd_N.
        assert (H4 : rnd32 (bpow radix2 25) = bpow radix2 25) by (apply round_generic; [apply valid_rnd_N|]; apply generic_format_bpow; cbn; lia).
        assert (bpow radix2 25 <= bpow radix2 26)%R by (apply bpow_le; lia). pose proof (bpow_ge_0 radix2 26). lra. }
      rewrite E2. assert (H : rnd32 0 = 0%R) by apply round_0, valid_rnd_N. rewrite <- H. apply rnd32_le. lra. }
    apply Zfloor_le in V. rewrite (Zfloor_IZR 0) in V. set (z := Zfloor _) in *. apply in_range_Some in G. destruct G as (G & _). injection G as <-. exact V.
  - apply le_IZR. change (IZR (2 ^ 20)) with 1048576%R. lra.
  - apply Rabs_le. lra.
Qed.

(** a lookup at the numbers of a vertex is defined, in a block with no negative index, and finds a
    voxel of the layer *)
Lemma raw_lookup : forall (l : Layer KInt) x y z, intensity_map l -> word16 x -> word16 y -> word16 z ->
  exists o, getNearestVoxel l (raw_point x y z) = Ok o /\
    forall v, o = Some v -> exists bi n, all3 (fun c => 0 <= c) bi /\ vat l (bi, n) = Some v.
Proof.
  intros l x y z ((Hs & Hn & HB) & _ & Ls & Ln) Hx Hy Hz.
  destruct (block_size_R (l_vps l) (l_size l) Hs ltac:(lia)) as (d & Hd & Ebs & Ws).
  pose proof (sane_pos _ Hs) as Sp. set (n := l_vps l) in *. set (s := l_size l) in *. set (bs := block_size_of n s) in *.
  assert (Nr : (4 <= IZR n <= 1024)%R) by (split; apply IZR_le; lia).
  apply Rabs_le_inv in Hd. unfold u in Hd. change (bpow radix2 (-24)) with (/ 16777216)%R in Hd.
  assert (NS : (/ 8 <= IZR n * FR s)%R).
  { apply Rle_trans with (4 * FR s)%R; [lra|]. apply Rmult_le_compat_r; lra. }
  assert (B9 : (/ 9 <= FR bs)%R). { rewrite Ebs. apply Rle_trans with (/ 8 * (1 + d))%R; [lra|]. apply Rmult_le_compat_r; lra. }
  assert (Axis : forall q, word16 q -> exists b, grid_axis (f32_of_Z q) (inv_of bs) = Some b /\ 0 <= b /\
            ffin (f32_of_Z q) = true /\ ffin (fmul (f32_of_Z b) bs) = true /\
            (Rabs ((FR (f32_of_Z q) - FR (fmul (f32_of_Z b) bs)) / FR s) <= bpow radix2 23)%R).
  { intros q Hq. destruct (raw_axis q bs Hq Ws B9) as (b & G & (Bl & Bh) & A). destruct (f32_of_Z_R q ltac:(unfold word16 in Hq; lia)) as (E & F).
    exists b. split; [exact G|]. split; [exact Bl|]. split; [exact F|].
    destruct (origin_R b bs Ws ltac:(lia)) as (d' & e & Hd' & He & Eo & Fo). split; [exact Fo|].
    pose proof (wide_pos _ Ws) as Wp.
    assert (Br : (0 <= IZR b <= 1048576)%R) by (split; [apply IZR_le; exact Bl|change 1048576%R with (IZR (2 ^ 20)); apply IZR_le; exact Bh]).
    assert (D : (Rabs ((FR (f32_of_Z q) - FR (fmul (f32_of_Z b) bs)) / FR bs) <= 3)%R).
    { replace ((FR (f32_of_Z q) - FR (fmul (f32_of_Z b) bs)) / FR bs)%R with ((FR (f32_of_Z q) / FR bs - IZR b) - IZR b * d' - e)%R.
      - unfold u in Hd'. change (bpow radix2 (-24)) with (/ 16777216)%R in Hd'.
        assert (P : (Rabs (IZR b * d') <= 1048576 * / 16777216)%R) by (apply Rabs_prod; [rewrite Rabs_pos_eq; lra|exact Hd']).
        apply Rabs_le_inv in P. apply Rabs_le_inv in He. apply Rabs_le_inv in A. apply Rabs_le. lra.
      - unfold Rdiv at 2. rewrite Rmult_minus_distr_r. fold (Rdiv (FR (f32_of_Z q)) (FR bs)) (Rdiv (FR (fmul (f32_of_Z b) bs)) (FR bs)). rewrite Eo. ring. }
    replace ((FR (f32_of_Z q) - FR (fmul (f32_of_Z b) bs)) / FR s)%R
      with ((FR (f32_of_Z q) - FR (fmul (f32_of_Z b) bs)) / FR bs * (IZR n * (1 + d)))%R by (rewrite Ebs; field; lra).
    apply Rle_trans with (3 * (1024 * 2))%R; [|change (bpow radix2 23) with 8388608%R; lra].
    apply Rabs_prod; [exact D|]. apply Rabs_prod; [rewrite Rabs_pos_eq; lra|apply Rabs_le; lra]. }
  destruct (Axis x Hx) as (bx & Gx & Px & Fx & Ox & Tx). destruct (Axis y Hy) as (by_ & Gy & Py & Fy & Oy & Ty). destruct (Axis z Hz) as (bz & Gz & Pz & Fz & Oz & Tz).
  unfold getNearestVoxel, raw_point.
  assert (EB : computeBlockIndexFromCoordinates (l_vps l) (l_size l) (V3 (f32_of_Z x) (f32_of_Z y) (f32_of_Z z)) = Some (V3 bx by_ bz)).
  { unfold computeBlockIndexFromCoordinates, getGridIndexFromPoint, map3, seq3. cbn [vx vy vz]. fold n s. fold bs. rewrite Gx, Gy, Gz. reflexivity. }
  rewrite EB. cbn [of_opt rbind]. destruct (l_get l (V3 bx by_ bz)) as [b|] eqn:G; [|exists None; split; [reflexivity|intros v H; discriminate H]].
  destruct (HB _ _ G) as (V0 & S0 & O0 & L0). rewrite V0, S0, O0.
  destruct (truncated_contains n (new_block_origin n s (V3 bx by_ bz)) (V3 (f32_of_Z x) (f32_of_Z y) (f32_of_Z z)) s Hs ltac:(lia)) as (i & E & (I1 & I2 & I3) & _).
  { unfold new_block_origin, getOriginPointFromGridIndex, map3, all3. cbn [vx vy vz]. fold bs. auto. }
  { unfold all3. cbn [vx vy vz]. auto. }
  { unfold new_block_origin, getOriginPointFromGridIndex, zip3, map3, all3. cbn [vx vy vz]. fold bs. auto. }
  rewrite E. cbn [of_opt rbind]. destruct (lin_small n (vx i) (vy i) (vz i) ltac:(lia) I1 I2 I3) as (El & R).
  destruct (nth_error (b_voxels b) (Z.to_nat (computeLinearIndexFromVoxelIndex n i))) as [v|] eqn:N.
  - exists (Some v). split; [reflexivity|]. intros w W. injection W as <-. exists (V3 bx by_ bz), (Z.to_nat (computeLinearIndexFromVoxelIndex n i)).
    split; [unfold all3; cbn [vx vy vz]; auto|]. unfold vat. cbn [fst snd]. rewrite G. exact N.
  - exfalso. apply nth_error_None in N. destruct i as [ix iy iz]. cbn [vx vy vz] in *. rewrite El in N. lia.
Qed.

(** ** Recolouring *)
Lemma resize_length : forall n l, length (resize n l) = n.
Proof. intros n l. unfold resize. rewrite app_length, firstn_length, repeat_length. lia. Qed.
Lemma resize_nth : forall k l n, (n < k)%nat -> nth n (resize k l) 0 = nth n l 0.
Proof.
  intros k l n H. unfold resize. destruct (Nat.lt_ge_cases n (length l)) as [L|L].
  - rewrite app_nth1 by (rewrite firstn_length; lia). rewrite <- (firstn_skipn k l) at 2. rewrite app_nth1 by (rewrite firstn_length; lia). reflexivity.
  - rewrite (nth_overflow l) by exact L. rewrite app_nth2 by (rewrite firstn_length; lia). apply nth_repeat.
Qed.
Lemma set_th_nth : forall (l : list Z) n m x, (n < length l)%nat -> nth m (set_th n x l) 0 = if Nat.eqb n m then x else nth m l 0.
Proof.
  induction l as [|a l IH]; intros [|n] [|m] x H; cbn in *; try lia; try reflexivity. apply IH. lia.
Qed.
Lemma weight_measured : forall v n, weight_is v n -> 0 <= n <= 100 -> (dgt (f64_of_f32 (i_weight v)) d0 = true <-> measured v).
Proof.
  intros v n (F & E) Hn. destruct (f64_of_f32_R _ F) as (Ed & Fd). unfold dgt. rewrite dlt_R by (reflexivity || exact Fd).
  change (DR d0) with 0%R. rewrite Ed. unfold measured. destruct (Rlt_bool_spec 0 (FR (i_weight v))); split; intros; try tauto; try discriminate; destruct H0; lra.
Qed.
Lemma found_measured : forall l v bi n, weights_ok l -> vat l (bi, n) = Some v -> (dgt (f64_of_f32 (i_weight v)) d0 = true <-> measured v).
Proof.
  intros l v bi n W V. destruct (W (bi, n)) as (k & Hk & Wk). unfold content in Wk. rewrite V in Wk. exact (weight_measured v k Wk Hk).
Qed.

Lemma vertex_step : forall lo hi l b n, span lo hi -> intensity_map l -> aligned b -> (n < length (mb_x b))%nat ->
  exists b', recolor_vertex (ironbow lo hi) l b n = Ok b' /\
    mb_index b' = mb_index b /\ mb_x b' = mb_x b /\ mb_y b' = mb_y b /\ mb_z b' = mb_z b /\
    length (mb_r b') = length (mb_x b) /\ length (mb_g b') = length (mb_x b) /\ length (mb_b b') = length (mb_x b) /\
    (forall m, (m < length (mb_x b))%nat -> m <> n -> color_of b' m = color_of b m) /\
    exists o, getNearestVoxel l (vertex_numbers b n) = Ok o /\
      (forall v, o = Some v -> measured v -> heat lo hi (i_intensity v) (color_of b' n)) /\
      ((forall v, o = Some v -> ~ measured v) -> color_of b' n = color_of b n) /\
      (forall v, o = Some v -> exists bi n, all3 (fun c => 0 <= c) bi /\ vat l (bi, n) = Some v).
Proof.
  intros lo hi l b n S M (Ly & Lz & Wx & Wy & Wz) Hn.
  assert (Nx : exists x, nth_error (mb_x b) n = Some x) by (destruct (nth_error (mb_x b) n) eqn:E; [eauto|apply nth_error_None in E; lia]).
  assert (Ny : exists x, nth_error (mb_y b) n = Some x) by (destruct (nth_error (mb_y b) n) eqn:E; [eauto|apply nth_error_None in E; lia]).
  assert (Nz : exists x, nth_error (mb_z b) n = Some x) by (destruct (nth_error (mb_z b) n) eqn:E; [eauto|apply nth_error_None in E; lia]).
  destruct Nx as (x & Nx), Ny as (y & Ny), Nz as (z & Nz).
  assert (Hx : word16 x) by (rewrite Forall_forall in Wx; apply Wx; eapply nth_error_In; exact Nx).
  assert (Hy : word16 y) by (rewrite Forall_forall in Wy; apply Wy; eapply nth_error_In; exact Ny).
  assert (Hz : word16 z) by (rewrite Forall_forall in Wz; apply Wz; eapply nth_error_In; exact Nz).
  assert (EV : vertex_numbers b n = raw_point x y z).
  { unfold vertex_numbers, raw_point. rewrite (nth_error_nth _ _ 0 Nx), (nth_error_nth _ _ 0 Ny), (nth_error_nth _ _ 0 Nz). reflexivity. }
  destruct (raw_lookup l x y z M Hx Hy Hz) as (o & L & Lv).
  rewrite EV. unfold recolor_vertex. rewrite Nx, Ny, Nz, L. cbn [rbind].
  set (k := length (mb_x b)) in *.
  assert (Same : exists b', Ok (MkMB (mb_index b) (mb_x b) (mb_y b) (mb_z b) (resize k (mb_r b)) (resize k (mb_g b)) (resize k (mb_b b))) = Ok b' /\
    mb_index b' = mb_index b /\ mb_x b' = mb_x b /\ mb_y b' = mb_y b /\ mb_z b' = mb_z b /\
    length (mb_r b') = k /\ length (mb_g b') = k /\ length (mb_b b') = k /\ forall m, (m < k)%nat -> color_of b' m = color_of b m).
  { eexists. split; [reflexivity|]. cbn [mb_index mb_x mb_y mb_z mb_r mb_g mb_b]. rewrite !resize_length. repeat split.
    intros m Hm. unfold color_of. cbn [mb_r mb_g mb_b]. rewrite !resize_nth by exact Hm. reflexivity. }
  destruct o as [v|].
  - destruct (Lv v eq_refl) as (bi & p & Pb & V). destruct M as (_ & W & _). pose proof (found_measured l v bi p W V) as FM.
    destruct (dgt (f64_of_f32 (i_weight v)) d0) eqn:G.
    + destruct (ironbow_spec lo hi (i_intensity v) S) as (c & Ec & _ & Sh). rewrite Ec. cbn [of_opt rbind].
      eexists. split; [reflexivity|]. cbn [mb_index mb_x mb_y mb_z mb_r mb_g mb_b]. rewrite !set_th_length, !resize_length.
      do 4 (split; [reflexivity|]). do 3 (split; [reflexivity|]). split.
      * intros m Hm Ne. unfold color_of. cbn [mb_r mb_g mb_b]. rewrite !set_th_nth by (rewrite resize_length; exact Hn).
        destruct (Nat.eqb_spec n m) as [E|_]; [congruence|]. rewrite !resize_nth by exact Hm. reflexivity.
      * exists (Some v). split; [reflexivity|]. split; [|split; [|intros w Ew; injection Ew as <-; eauto]].
        -- intros w Ew _. injection Ew as <-. unfold heat, color_of. cbn [mb_r mb_g mb_b vx vy vz].
           rewrite !set_th_nth by (rewrite resize_length; exact Hn). rewrite Nat.eqb_refl. destruct Sh as (_ & Sh). split; [reflexivity|exact Sh].
        -- intros No. exfalso. apply (No v eq_refl). apply FM. reflexivity.
    + destruct Same as (b' & Eb & I1 & I2 & I3 & I4 & I5 & I6 & I7 & I8). exists b'. split; [exact Eb|]. repeat (split; [assumption|]).
      split; [intros m Hm _; exact (I8 m Hm)|]. exists (Some v). split; [reflexivity|]. split; [|split; [|intros w Ew; injection Ew as <-; eauto]].
      * intros w Ew Mw. injection Ew as <-. apply FM in Mw. discriminate Mw.
      * intros _. exact (I8 n Hn).
  - destruct Same as (b' & Eb & I1 & I2 & I3 & I4 & I5 & I6 & I7 & I8). exists b'. split; [exact Eb|]. repeat (split; [assumption|]).
    split; [intros m Hm _; exact (I8 m Hm)|]. exists None. split; [reflexivity|]. split; [intros v Ev; discriminate Ev|]. split; [|intros v Ev; discriminate Ev].
    intros _. exact (I8 n Hn).
Qed.

(** what holds after the vertices before [k] *)
Definition colored_to (lo hi : f32) (l : Layer KInt) (b : mesh_block) (k : nat) (b' : mesh_block) : Prop :=
  mb_index b' = mb_index b /\ mb_x b' = mb_x b /\ mb_y b' = mb_y b /\ mb_z b' = mb_z b /\
  (k = 0%nat -> b' = b) /\
  (k <> 0%nat -> length (mb_r b') = length (mb_x b) /\ length (mb_g b') = length (mb_x b) /\ length (mb_b b') = length (mb_x b)) /\
  (forall n, (k <= n < length (mb_x b))%nat -> color_of b' n = color_of b n) /\
  forall n, (n < k)%nat -> exists o, getNearestVoxel l (vertex_numbers b n) = Ok o /\
      (forall v, o = Some v -> measured v -> heat lo hi (i_intensity v) (color_of b' n)) /\
      ((forall v, o = Some v -> ~ measured v) -> color_of b' n = color_of b n) /\
      (forall v, o = Some v -> exists bi n, all3 (fun c => 0 <= c) bi /\ vat l (bi, n) = Some v).
Lemma block_steps : forall lo hi l b j k b0, span lo hi -> intensity_map l -> aligned b -> (k + j = length (mb_x b))%nat ->
  colored_to lo hi l b k b0 ->
  exists b', rfold (recolor_vertex (ironbow lo hi) l) (seq k j) b0 = Ok b' /\ colored_to lo hi l b (length (mb_x b)) b'.
Proof.
  intros lo hi l b j. induction j as [|j IH]; intros k b0 S M A Hk C; cbn [seq rfold].
  - exists b0. split; [reflexivity|]. replace (length (mb_x b)) with k by lia. exact C.
  - destruct C as (C1 & C2 & C3 & C4 & C5 & C6 & C7 & C8).
    destruct (vertex_step lo hi l b0 k S M) as (b1 & E & D1 & D2 & D3 & D4 & D5 & D6 & D7 & D8 & o & D9 & D10 & D11 & D12).
    { unfold aligned. rewrite C2, C3, C4. exact A. } { rewrite C2. lia. }
    rewrite E. cbn [rbind]. apply (IH (Datatypes.S k) b1 S M A ltac:(lia)).
    rewrite C2 in *. rewrite C3, C4, C1 in *.
    assert (EN : vertex_numbers b0 k = vertex_numbers b k) by (unfold vertex_numbers; rewrite C2, C3, C4; reflexivity).
    split; [exact D1|]. split; [exact D2|]. split; [exact D3|]. split; [exact D4|]. split; [intros H; discriminate H|]. split; [auto|].
    split.
    + intros n Hn. rewrite D8 by lia. apply C7. lia.
    + intros n Hn. destruct (Nat.eq_dec n k) as [->|Ne].
      * exists o. rewrite <- EN. split; [exact D9|]. split; [exact D10|]. split; [|exact D12]. intros H. rewrite (D11 H). apply C7. lia.
      * destruct (C8 n ltac:(lia)) as (o' & O1 & O2 & O3 & O4). exists o'. split; [exact O1|]. rewrite D8 by lia. auto.
Qed.
Lemma block_ok : forall lo hi l b, span lo hi -> intensity_map l -> aligned b ->
  exists b', recolor_block (ironbow lo hi) l b = Ok b' /\ colored_to lo hi l b (length (mb_x b)) b'.
Proof.
  intros lo hi l b S M A. unfold recolor_block. apply block_steps; auto.
  unfold colored_to. do 4 (split; [reflexivity|]). split; [reflexivity|]. split; [intros H; now elim H|]. split; [reflexivity|]. intros n Hn. lia.
Qed.
Lemma colored_all : forall lo hi l b b', colored_to lo hi l b (length (mb_x b)) b' -> recolored lo hi l vertex_numbers b b'.
Proof.
  intros lo hi l b b' (C1 & C2 & C3 & C4 & C5 & C6 & C7 & C8). repeat (split; [assumption|]).
  split; [intros H; apply C5; rewrite H; reflexivity|]. split; [intros H; apply C6; destruct (mb_x b); [congruence|discriminate]|].
  intros n Hn. destruct (C8 n Hn) as (o & O1 & O2 & O3 & _). exists o. auto.
Qed.
Lemma list_same : forall (a b : list Z), length a = length b -> (forall n, (n < length a)%nat -> nth n a 0 = nth n b 0) -> a = b.
Proof. intros a b L H. apply (nth_ext a b 0 0 L H). Qed.

(** ** The camera *)
Lemma half_R : forall n, 0 <= n <= 2 ^ 22 -> FR (half_of n) = (IZR n / 2)%R /\ ffin (half_of n) = true.
Proof.
  intros n Hn. unfold half_of. destruct (f64_of_Z_R n ltac:(lia)) as (En & Fn). destruct (f64_of_Z_R 2 ltac:(lia)) as (E2 & F2).
  assert (Q : (IZR n / 2 = IZR n * bpow radix2 (-1))%R) by (change (bpow radix2 (-1)) with (/ 2)%R; reflexivity).
  assert (X : rnd64 (IZR n / 2) = (IZR n / 2)%R) by (rewrite Q; apply rnd64_exact; lia).
  assert (Nr : (0 <= IZR n <= 4194304)%R) by (split; [apply IZR_le; lia|change 4194304%R with (IZR (2 ^ 22)); apply IZR_le; lia]).
  destruct (ddiv_R (f64_of_Z n) (f64_of_Z 2) Fn) as (Ed & Fd).
  { rewrite E2. lra. }
  { rewrite En, E2, X. rewrite Rabs_pos_eq by lra. apply Rlt_le_trans with (bpow radix2 23); [change (bpow radix2 23) with 8388608%R; lra|apply bpow_le; lia]. }
  rewrite En, E2, X in Ed.
  assert (Y : rnd32 (IZR n / 2) = (IZR n / 2)%R) by (rewrite Q; apply rnd32_exact; lia).
  destruct (f32_of_f64_R _ Fd) as (E & F).
  { rewrite Ed, Y. rewrite Rabs_pos_eq by lra. apply Rlt_le_trans with (bpow radix2 23); [change (bpow radix2 23) with 8388608%R; lra|apply bpow_le; lia]. }
  rewrite Ed, Y in E. auto.
Qed.
Lemma offset_exact : forall j n, 0 <= j < n -> n <= 2 ^ 22 ->
  FR (fsub (f32_of_Z j) (half_of n)) = (IZR j - IZR n / 2)%R /\ ffin (fsub (f32_of_Z j) (half_of n)) = true.
Proof.
  intros j n Hj Hn. destruct (half_R n ltac:(lia)) as (Eh & Fh). destruct (f32_of_Z_R j ltac:(lia)) as (Ej & Fj).
  assert (X : rnd32 (IZR j - IZR n / 2) = (IZR j - IZR n / 2)%R).
  { replace (IZR j - IZR n / 2)%R with (IZR (2 * j - n) * bpow radix2 (-1))%R by (rewrite minus_IZR, mult_IZR; change (bpow radix2 (-1)) with (/ 2)%R; field).
    apply rnd32_exact; lia. }
  assert (Jr : (0 <= IZR j <= 4194304)%R) by (split; [apply IZR_le; lia|change 4194304%R with (IZR (2 ^ 22)); apply IZR_le; lia]).
  assert (Nr : (0 <= IZR n <= 4194304)%R) by (split; [apply IZR_le; lia|change 4194304%R with (IZR (2 ^ 22)); apply IZR_le; lia]).
  destruct (fsub_R (f32_of_Z j) (half_of n) Fj Fh) as (E & F).
  { rewrite Ej, Eh, X. apply Rle_lt_trans with (bpow radix2 23); [|apply bpow_lt; lia]. change (bpow radix2 23) with 8388608%R. apply Rabs_le. lra. }
  rewrite Ej, Eh, X in E. auto.
Qed.
(** the bearing before rotation *)
Lemma bearing_ok : forall f rows cols i j, ffin f = true -> (1 <= FR f <= bpow radix2 22)%R -> 0 <= i < rows -> 0 <= j < cols -> rows <= 2 ^ 22 -> cols <= 2 ^ 22 ->
  near3 (9 * u32r) (normalized3 (V3 (fsub (f32_of_Z j) (half_of cols)) (fsub (f32_of_Z i) (half_of rows)) f)) (unitR (pixel_ray f rows cols i j)).
Proof.
  intros f rows cols i j Ff Hf Hi Hj Hr Hc. destruct (offset_exact j cols Hj Hc) as (Ex & Fx). destruct (offset_exact i rows Hi Hr) as (Ey & Fy).
  set (v := V3 _ _ f). assert (EV : vecR v = pixel_ray f rows cols i j) by (unfold v, vecR, map3, pixel_ray; cbn [vx vy vz]; rewrite Ex, Ey; reflexivity).
  rewrite <- EV. apply normalized_err.
  - assert (Small : forall a n, 0 <= a < n -> n <= 2 ^ 22 -> (Rabs (IZR a - IZR n / 2) <= bpow radix2 45)%R).
    { intros a n Ha Hn. apply Rle_trans with (bpow radix2 23); [|apply bpow_le; lia]. change (bpow radix2 23) with 8388608%R.
      assert ((0 <= IZR a <= 4194304)%R) by (split; [apply IZR_le; lia|change 4194304%R with (IZR (2 ^ 22)); apply IZR_le; lia]).
      assert ((0 <= IZR n <= 4194304)%R) by (split; [apply IZR_le; lia|change 4194304%R with (IZR (2 ^ 22)); apply IZR_le; lia]). apply Rabs_le. lra. }
    unfold all3, v, fin_upto. cbn [vx vy vz]. rewrite Ex, Ey. split; [split; [exact Fx|apply Small; assumption]|].
    split; [split; [exact Fy|apply Small; assumption]|]. split; [exact Ff|]. rewrite Rabs_pos_eq by lra. apply Rle_trans with (bpow radix2 22); [lra|apply bpow_le; lia].
  - destruct (comp_le_norm (vecR v)) as (_ & _ & B). change (vz (vecR v)) with (FR f) in B. rewrite Rabs_pos_eq in B by lra.
    apply Rle_trans with 1%R; [|eapply Rle_trans; [apply Hf|exact B]]. change 1%R with (bpow radix2 0). apply bpow_le. lia.
Qed.

Lemma filter_S : forall (p : nat -> bool) l, filter p (map S l) = map S (filter (fun t => p (S t)) l).
Proof. intros p l. induction l as [|a l IH]; [reflexivity|]. cbn [map filter]. rewrite IH. destruct (p (S a)); reflexivity. Qed.
Lemma row_map : forall rot f rows cols sub i px j m,
  row_pixels rot f rows cols sub i j m px =
  map (fun t => (pixel_bearing rot f rows cols i (j + Z.of_nat t), nth t px f0))
      (filter (fun t => (m + Z.of_nat t) mod sub =? 0) (seq 0 (length px))).
Proof.
  intros rot f rows cols sub i px. induction px as [|x px IH]; intros j m; [reflexivity|].
  cbn [row_pixels length]. rewrite <- cons_seq, <- seq_shift. cbn [filter]. rewrite filter_S, IH.
  rewrite !Z.add_0_r.
  assert (E : map (fun t => (pixel_bearing rot f rows cols i (j + 1 + Z.of_nat t), nth t px f0))
                (filter (fun t => (m + 1 + Z.of_nat t) mod sub =? 0) (seq 0 (length px))) =
              map (fun t => (pixel_bearing rot f rows cols i (j + Z.of_nat t), nth t (x :: px) f0))
                (map S (filter (fun t => (m + Z.of_nat (S t)) mod sub =? 0) (seq 0 (length px))))).
  { rewrite map_map. cbn [nth].
    replace (filter (fun t => (m + Z.of_nat (S t)) mod sub =? 0) (seq 0 (length px)))
      with (filter (fun t => (m + 1 + Z.of_nat t) mod sub =? 0) (seq 0 (length px)))
      by (apply filter_ext; intros t; f_equal; f_equal; lia).
    apply map_ext. intros t. f_equal. f_equal. lia. }
  rewrite E. destruct (m mod sub =? 0); cbn [app map nth]; rewrite ?Z.add_0_r; reflexivity.
Qed.
Lemma filter_plus : forall (p : nat -> bool) c l, filter p (map (fun t => (c + t)%nat) l) = map (fun t => (c + t)%nat) (filter (fun t => p (c + t)%nat) l).
Proof. intros p c l. induction l as [|a l IH]; [reflexivity|]. cbn [map filter]. rewrite IH. destruct (p (c + a)%nat); reflexivity. Qed.
Lemma seq_plus : forall c k, seq c k = map (fun t => (c + t)%nat) (seq 0 k).
Proof.
  intros c k. revert c. induction k as [|k IH]; intros c; [reflexivity|]. cbn [seq map]. rewrite Nat.add_0_r. f_equal. rewrite (IH (S c)), (IH 1%nat), map_map.
  apply map_ext_in. intros t _. lia.
Qed.
Lemma image_map : forall rot f rows sub c img i, (0 < c)%nat -> Forall (fun row => length row = c) img ->
  image_pixels rot f rows (Z.of_nat c) sub i (i * Z.of_nat c) img =
  map (fun t => (pixel_bearing rot f rows (Z.of_nat c) (i + Z.of_nat (t / c)) (Z.of_nat (t mod c)), nth (t mod c) (nth (t / c) img []) f0))
      (filter (fun t => (i * Z.of_nat c + Z.of_nat t) mod sub =? 0) (seq 0 (c * length img))).
Proof.
  intros rot f rows sub c img i Hc H. revert i. induction H as [|row img Hr H IH]; intros i; [rewrite Nat.mul_0_r; reflexivity|].
  cbn [image_pixels length]. rewrite row_map, Hr. replace (i * Z.of_nat c + Z.of_nat c) with ((i + 1) * Z.of_nat c) by lia. rewrite IH.
  replace (c * S (length img))%nat with (c + c * length img)%nat by lia. rewrite seq_app, filter_app, map_app. cbn [plus]. f_equal.
  - apply map_ext_in. intros t Ht. apply filter_In in Ht. destruct Ht as (Ht & _). apply in_seq in Ht.
    rewrite Nat.div_small, Nat.mod_small by lia. cbn [nth]. rewrite !Z.add_0_l, !Z.add_0_r. reflexivity.
  - rewrite (seq_plus c), filter_plus, map_map.
    replace (filter (fun t => (i * Z.of_nat c + Z.of_nat (c + t)) mod sub =? 0) (seq 0 (c * length img)))
      with (filter (fun t => ((i + 1) * Z.of_nat c + Z.of_nat t) mod sub =? 0) (seq 0 (c * length img)))
      by (apply filter_ext; intros t; f_equal; f_equal; lia).
    apply map_ext. intros t. replace (c + t)%nat with (t + 1 * c)%nat by lia. rewrite Nat.div_add, Nat.mod_add by lia.
    replace (t / c + 1)%nat with (S (t / c)) by lia. cbn [nth]. f_equal. f_equal. lia.
Qed.
