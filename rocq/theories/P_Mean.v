(** Property C75, what a bundle of points is merged into. *)
From Coq Require Import ZArith Reals List Bool Lia Lra.
From Flocq Require Import Core Binary.
From Verif Require Import F32 F32_lemmas F32_err Types Index Voxel Assoc Layer Update Ray Update_proofs Update_spec Mesh_spec
  Merge_proofs P_Weight Cloud Cloud_spec Cloud_proofs Mean_spec Mean_proofs P_Cloud.
Import ListNotations.
Open Scope R_scope.

(** weights of points up to 2^20 m away *)
Lemma weight_range : forall cfg p, ffin (vz p) = true -> Rabs (FR (vz p)) <= bpow radix2 20 ->
  ffin (getVoxelWeight cfg p) = true /\ FR (getVoxelWeight cfg p) <= bpow radix2 41.
Proof.
  intros cfg p Fz Hz. destruct (c_const_weight cfg) eqn:C.
  - rewrite (C71_constant cfg p C). unfold getVoxelWeight. rewrite C. split; [reflexivity|]. cbn. lra.
  - destruct (C71_depth cfg p C Fz) as (A & B). destruct (Rle_lt_dec (Rabs (FR (vz p))) (FR kEpsilon)) as [H|H].
    + rewrite (A H). split; [|cbn; lra]. unfold getVoxelWeight. rewrite C. cbv zeta.
      replace (fgt (fabs (vz p)) kEpsilon) with false; [reflexivity|]. symmetry. apply not_true_is_false. intros X. unfold fgt in X.
      apply flt_R in X; [|apply kEpsilon_pos|rewrite fabs_fin; exact Fz]. rewrite fabs_R in X. lra.
    + destruct B as (F & E). { split; [exact H|]. eapply Rle_trans; [exact Hz|]. apply bpow_le. lia. }
      split; [exact F|]. set (w := FR (getVoxelWeight cfg p)) in *.
      assert (Ke : bpow radix2 (-20) <= FR kEpsilon) by (change (FR kEpsilon) with (IZR 8796093 * bpow radix2 (-43)); cbn; lra).
      assert (L : bpow radix2 (-40) <= FR (vz p) * FR (vz p)).
      { rewrite <- (Rabs_pos_eq (FR (vz p) * FR (vz p))) by apply Rle_0_sqr. rewrite Rabs_mult. replace (-40)%Z with (-20 + -20)%Z by lia. rewrite bpow_plus. pose proof (bpow_gt_0 radix2 (-20)). apply Rmult_le_compat; lra. }
      apply Rabs_le_inv in E. destruct (Rle_lt_dec w (bpow radix2 41)) as [|X]; [assumption|exfalso].
      assert (bpow radix2 41 * bpow radix2 (-40) <= w * (FR (vz p) * FR (vz p))) as Y.
      { apply Rmult_le_compat; try apply bpow_ge_0; lra. }
      rewrite <- bpow_plus in Y. change (bpow radix2 (41 + -40)) with 2 in Y. change (bpow radix2 (-22)) with (/ 4194304) in E. lra.
Qed.

Section Mean.
  Variables (cc : CloudConfig) (cl : cloud).
  Definition items (c : pt3 -> f32) (is : list Z) : list (f32 * f32) :=
    map (fun i => (c (point_of cl i), weight_of cc cl i)) (filter (counts cc cl) is).
  Lemma merge_run : length (cl_points cl) = length (cl_colors cl) -> forall is mc mp mw mc' mp' mw',
    (forall i, In i is -> In i (indices cl)) ->
    merge_points cc cl false is mc mp mw = Ok (mc', mp', mw') ->
    forall c : pt3 -> f32, c = vx \/ c = vy \/ c = vz -> mean_run (items c is) (c mp) mw = (c mp', mw').
  Proof.
    intros LEN is. induction is as [|i is IH]; intros mc mp mw mc' mp' mw' II E c HC; cbn [merge_points] in E.
    - inversion E; subst. reflexivity.
    - rewrite (point_at_ok cl i LEN (II i (or_introl eq_refl))) in E. cbn [rbind] in E. unfold items. cbn [filter]. unfold counts at 1.
      change (getVoxelWeight (cc_tsdf cc) (point_of cl i)) with (weight_of cc cl i) in E.
      destruct (flt (weight_of cc cl i) kEpsilon) eqn:W; cbn [negb].
      + apply (IH _ _ _ _ _ _ (fun j J => II j (or_intror J)) E c HC).
      + cbn [map mean_run]. destruct (blendTwoColors mc mw (color_of cl i) (weight_of cc cl i)) as [mc1|]; cbn [of_opt rbind] in E; [|discriminate].
        rewrite <- (IH _ _ _ _ _ _ (fun j J => II j (or_intror J)) E c HC). unfold mean_step. f_equal. destruct HC as [->|[->| ->]]; reflexivity.
  Qed.
  Lemma items_w : forall c is, wsum (items c is) = Rsum (fun i => FR (weight_of cc cl i)) (filter (counts cc cl) is).
  Proof. intros c is. unfold items. induction (filter (counts cc cl) is) as [|i l IH]; [reflexivity|]. cbn [map wsum Rsum]. rewrite IH. reflexivity. Qed.
  Lemma items_p : forall c is, psum (items c is) = Rsum (fun i => FR (weight_of cc cl i) * FR (c (point_of cl i))) (filter (counts cc cl) is).
  Proof. intros c is. unfold items. induction (filter (counts cc cl) is) as [|i l IH]; [reflexivity|]. cbn [map psum Rsum]. rewrite IH. reflexivity. Qed.
  Lemma items_ok : forall B c is, B <= bpow radix2 20 -> c = vx \/ c = vy \/ c = vz -> (forall i, In i is -> within B cl i) -> Forall (item B) (items c is).
  Proof.
    intros B c is HB HC HI. unfold items. apply Forall_forall. intros pw I. apply in_map_iff in I as (i & <- & I). apply filter_In in I as (I & C).
    destruct (HI i I) as (X & Y & Z). unfold item. cbn [fst snd].
    assert (F : ffin (c (point_of cl i)) = true /\ Rabs (FR (c (point_of cl i))) <= B) by (destruct HC as [->|[->| ->]]; assumption).
    split; [apply F|]. split; [apply F|]. destruct (weight_range (cc_tsdf cc) (point_of cl i)) as (W1 & W2); [apply Z|lra|].
    split; [exact W1|]. split; [|exact W2]. unfold counts in C. apply negb_true_iff in C.
    destruct (Rle_lt_dec (FR kEpsilon) (FR (weight_of cc cl i))) as [L|L].
    - eapply Rle_trans; [|exact L]. change (FR kEpsilon) with (IZR 8796093 * bpow radix2 (-43)). cbn. lra.
    - apply flt_R in L; [|exact W1|apply kEpsilon_pos]. congruence.
  Qed.
End Mean.

(** A surface group is merged into the weighted mean of its points and the sum of their weights, up
    to rounding: [n] roundings for [n] points. *)
Theorem C75_mean : forall cc cl is mc mp mw B,
  length (cl_points cl) = length (cl_colors cl) -> (forall i, In i is -> In i (indices cl) /\ within B cl i) ->
  bpow radix2 (-40) <= B <= bpow radix2 20 -> (Z.of_nat (length is) <= 2 ^ 16)%Z ->
  merged cc cl false is mc mp mw ->
  let used := filter (counts cc cl) is in
  let w := fun i => FR (weight_of cc cl i) in
  Rabs (FR mw - Rsum w used) <= INR (length used) * bpow radix2 (-23) * Rsum w used /\
  mean_of (length used) B w (point_of cl) used mp.
Proof.
  intros cc cl is mc mp mw B LEN HI HB HN M used w.
  assert (K : forall c : pt3 -> f32, c = vx \/ c = vy \/ c = vz -> c (V3 f0 f0 f0) = f0) by (intros c [->|[->| ->]]; reflexivity).
  assert (L : forall c, length (items cc cl c is) = length used) by (intros c; unfold items; rewrite map_length; reflexivity).
  assert (R : forall c : pt3 -> f32, c = vx \/ c = vy \/ c = vz ->
    Rabs (FR mw - Rsum w used) <= INR (length used) * bpow radix2 (-23) * Rsum w used /\
    Rabs (FR (c mp) * Rsum w used - Rsum (fun i => w i * FR (c (point_of cl i))) used) <= INR (length used) * bpow radix2 (-21) * B * Rsum w used).
  { intros c HC. pose proof (merge_run cc cl LEN is _ _ _ _ _ _ (fun i I => proj1 (HI i I)) M c HC) as E. rewrite (K c HC) in E.
    pose proof (mean_zero B (items cc cl c is) HB) as Z. rewrite E, L, items_w, items_p in Z. apply Z.
    - unfold used. pose proof (filter_len _ (counts cc cl) is). lia.
    - apply items_ok; [apply HB|exact HC|]. intros i I. apply HI, I. }
  split; [apply (R vx); auto|]. intros c HC. apply (R c HC).
Qed.
Print Assumptions C75_mean.

(** ** colours *)
Lemma one_unique : forall y, ffin y = true -> FR y = 1 -> y = f1.
Proof.
  intros y F E. apply B2R_Bsign_inj; auto; try (unfold ffin in F; exact F).
  - change (FR y = FR f1). rewrite E. symmetry. apply (f32_of_Z_R 1). lia.
  - destruct y as [| | |s mx e H]; try discriminate; [cbn in E; lra|]. cbn. destruct s; [|reflexivity]. exfalso.
    unfold FR, B2R, F2R in E. cbn [Fnum Fexp cond_Zopp] in E. pose proof (bpow_gt_0 radix2 e). assert (IZR (Z.neg mx) < 0) by (apply IZR_lt; lia).
    assert (IZR (Z.neg mx) * bpow radix2 e < 0) by (apply Ropp_lt_cancel; rewrite Ropp_0, Ropp_mult_distr_l; apply Rmult_lt_0_compat; lra).
    change (- Z.pos mx)%Z with (Z.neg mx) in E. lra.
Qed.
Definition first_channel_b (s : bool) : bool :=
  forallb (fun b => match blend_channel 0 (B754_zero 24 128 s) b f1 with Some z => (z =? b)%Z | None => false end) (map Z.of_nat (seq 0 256)).
Lemma first_channel : forall s b, is_byte b -> blend_channel 0 (B754_zero 24 128 s) b f1 = Some b.
Proof.
  intros s b H. assert (T : first_channel_b s = true) by (destruct s; vm_compute; reflexivity). unfold first_channel_b in T. rewrite forallb_forall in T.
  specialize (T b). unfold is_byte in H. assert (I : In b (map Z.of_nat (seq 0 256))) by (apply in_map_iff; exists (Z.to_nat b); rewrite in_seq; lia).
  specialize (T I). destruct (blend_channel 0 _ b f1) as [z|]; [|discriminate]. apply Z.eqb_eq in T. congruence.
Qed.
(** the first colour replaces the initial black *)
Lemma first_color : forall c w, color_ok c -> ffin w = true -> bpow radix2 (-20) <= FR w <= bpow radix2 41 ->
  FR (fadd f0 w) = FR w /\ ffin (fadd f0 w) = true /\ blendTwoColors (MkColor 0 0 0 0) f0 c w = Some c.
Proof.
  intros c w (C1 & C2 & C3 & C4) F (L & U). pose proof (bpow_gt_0 radix2 (-20)) as P.
  assert (Z0 : FR f0 = 0) by reflexivity. assert (B127 : bpow radix2 41 <= bpow radix2 127) by (apply bpow_le; lia).
  destruct (fadd_R f0 w eq_refl F) as (E & F'). { rewrite Z0, Rplus_0_l. apply rnd32_small. rewrite Rabs_pos_eq; lra. }
  rewrite Z0, Rplus_0_l, rnd32_FR in E. split; [exact E|]. split; [exact F'|]. unfold blendTwoColors. set (t := fadd f0 w) in *.
  destruct (fdiv_R w t F) as (E1 & F1); [lra|rewrite E; unfold Rdiv; rewrite Rinv_r by lra; apply rnd32_small; rewrite Rabs_R1; change 1 with (bpow radix2 0); apply bpow_le; lia|].
  rewrite E in E1. unfold Rdiv in E1. rewrite Rinv_r, (rnd32_Z 1) in E1 by (try lia; lra). rewrite (one_unique _ F1 E1).
  destruct (fdiv_R f0 t eq_refl) as (E2 & F2); [lra|unfold Rdiv; rewrite Z0, Rmult_0_l, rnd32_0, Rabs_R0; apply bpow_gt_0|].
  rewrite Z0 in E2. unfold Rdiv in E2. rewrite Rmult_0_l, rnd32_0 in E2.
  assert (exists s, fdiv f0 t = B754_zero 24 128 s) as (s & ->).
  { destruct (fdiv f0 t) as [s| | |s mx e H]; try discriminate; [exists s; reflexivity|]. exfalso. unfold FR, B2R in E2. apply eq_0_F2R in E2. destruct s; discriminate. }
  cbn [cr cg cb ca]. rewrite !first_channel by assumption. destruct c; reflexivity.
Qed.

Lemma mean_start : forall B, 0 < B -> mean_ok B 0 0 0 f0 f0.
Proof.
  intros B HB. assert (Z : FR f0 = 0) by reflexivity.
  constructor; try reflexivity; rewrite ?Z; cbn [INR]; rewrite ?Rabs_R0; try lra; rewrite ?Rmult_0_l, ?Rminus_0_r, ?Rabs_R0; lra.
Qed.
Lemma between_more : forall cl seen i mc mc', color_ok mc -> color_ok (color_of cl i) -> between_colors cl seen mc ->
  (forall ch : Color -> Z, ch = cr \/ ch = cg \/ ch = cb \/ ch = ca -> Z.min (ch mc) (ch (color_of cl i)) <= ch mc' <= Z.max (ch mc) (ch (color_of cl i)))%Z ->
  between_colors cl (seen ++ [i]) mc' /\ color_ok mc'.
Proof.
  intros cl seen i mc mc' (M1 & M2 & M3 & M4) (C1 & C2 & C3 & C4) H HB. split.
  - intros ch HC. destruct (H ch HC) as ((j & J1 & J2) & (k & K1 & K2)). specialize (HB ch HC). split.
    + destruct (Z.le_gt_cases (ch (color_of cl i)) (ch mc')); [exists i; split; [apply in_or_app; right; left; reflexivity|assumption]|].
      exists j. split; [apply in_or_app; auto|]. lia.
    + destruct (Z.le_gt_cases (ch mc') (ch (color_of cl i))); [exists i; split; [apply in_or_app; right; left; reflexivity|assumption]|].
      exists k. split; [apply in_or_app; auto|]. lia.
  - pose proof (HB cr ltac:(auto)). pose proof (HB cg ltac:(auto)). pose proof (HB cb ltac:(auto)). pose proof (HB ca ltac:(auto 6)). unfold color_ok, is_byte in *. lia.
Qed.

Section Colors.
  Variables (cc : CloudConfig) (cl : cloud) (B : R).
  Hypothesis LEN : length (cl_points cl) = length (cl_colors cl).
  Hypothesis HB : bpow radix2 (-40) <= B <= bpow radix2 20.
  Hypothesis HC : forall i, In i (indices cl) -> color_ok (color_of cl i).
  Lemma counted_item : forall i, within B cl i -> counts cc cl i = true -> item B (vx (point_of cl i), weight_of cc cl i).
  Proof.
    intros i W C. pose proof (items_ok cc cl B vx [i] (proj2 HB) ltac:(auto)) as H.
    assert (H' : Forall (item B) (items cc cl vx [i])) by (apply H; intros j [<- |[]]; exact W). unfold items in H'. cbn [filter] in H'. rewrite C in H'. cbn [map] in H'. inversion H'; subst. assumption.
  Qed.
  (** after some point has counted *)
  Lemma colors_next : forall is seen k S W mc mp mw, (forall i, In i is -> In i (indices cl) /\ within B cl i) ->
    (Z.of_nat (k + length is) <= 2 ^ 16)%Z -> mean_ok B k S W (vx mp) mw -> color_ok mc -> between_colors cl seen mc ->
    exists mc' mp' mw', merge_points cc cl false is mc mp mw = Ok (mc', mp', mw') /\ color_ok mc' /\
      between_colors cl (seen ++ filter (counts cc cl) is) mc'.
  Proof.
    induction is as [|i is IH]; intros seen k S W mc mp mw HI HK OK MC BC; cbn [merge_points filter].
    - exists mc, mp, mw. rewrite app_nil_r. auto.
    - destruct (HI i (or_introl eq_refl)) as (I & WI). rewrite (point_at_ok cl i LEN I). cbn [rbind].
      change (getVoxelWeight (cc_tsdf cc) (point_of cl i)) with (weight_of cc cl i).
      destruct (counts cc cl i) eqn:CI; pose proof CI as CI'; unfold counts in CI'; cbn [length] in HK.
      + apply negb_true_iff in CI'. rewrite CI'. pose proof (counted_item i WI CI) as IT. pose proof IT as (_ & _ & Fw & Lw & Uw). cbn [fst snd] in *.
        destruct (mean_next B k S W (vx mp) mw _ _ HB ltac:(lia) OK IT) as [X1 X2 X3 X4 X5 X6 X7 X8].
        pose proof (mo_m _ _ _ _ _ _ OK) as Fm. pose proof (mo_m0 _ _ _ _ _ _ OK) as M0. pose proof (mo_W _ _ _ _ _ _ OK) as (W0 & W1). pose proof (mo_w _ _ _ _ _ _ OK) as E1.
        pose proof (bpow_gt_0 radix2 (-20)) as P20.
        assert (K0 : 0 <= INR k <= 65535). { split; [apply pos_INR|]. rewrite INR_IZR_INZ. apply IZR_le. lia. }
        assert (KU : INR k * (2 * u32r) * W <= 1 * W) by (apply Rmult_le_compat_r; [lra|rewrite u_eq; lra]). apply Rabs_le_inv in E1.
        assert (K41 : INR k * bpow radix2 41 <= bpow radix2 57) by (replace (bpow radix2 57) with (65536 * bpow radix2 41) by (cbn; lra); apply Rmult_le_compat_r; [apply bpow_ge_0|lra]).
        assert (B127 : 4 * bpow radix2 57 <= bpow radix2 127) by (replace (4 * bpow radix2 57) with (bpow radix2 59) by (cbn; lra); apply bpow_le; lia).
        assert (B41 : bpow radix2 41 <= bpow radix2 57) by (apply bpow_le; lia).
        destruct (blend_colors mc (color_of cl i) mw (weight_of cc cl i) MC (HC i I) Fm Fw M0 ltac:(lra) ltac:(lra) ltac:(lra)) as (c & EC & R1 & R2 & R3 & R4).
        rewrite EC. cbn [of_opt rbind].
        destruct (between_more cl seen i mc c MC (HC i I) BC) as (BM & CM). { intros ch [->|[->|[->| ->]]]; assumption. }
        destruct (IH (seen ++ [i]) (Datatypes.S k) (S + FR (weight_of cc cl i) * FR (vx (point_of cl i))) (W + FR (weight_of cc cl i)) c
          (zip3 (fun a b => fdiv (fadd (fmul a mw) (fmul b (weight_of cc cl i))) (fadd mw (weight_of cc cl i))) mp (point_of cl i)) (fadd mw (weight_of cc cl i)))
          as (mc' & mp' & mw' & E & CO & BT); auto.
        { intros j J. apply HI. right; exact J. } { lia. } { constructor; assumption. }
        exists mc', mp', mw'. split; [exact E|]. split; [exact CO|]. rewrite <- app_assoc in BT. exact BT.
      + apply negb_false_iff in CI'. rewrite CI'. apply (IH seen k S W mc mp mw); auto. { intros j J. apply HI. right; exact J. } lia.
  Qed.
  Lemma colors_start : forall is, (forall i, In i is -> In i (indices cl) /\ within B cl i) -> (Z.of_nat (length is) <= 2 ^ 16)%Z ->
    exists mc mp mw, merge_points cc cl false is (MkColor 0 0 0 0) (V3 f0 f0 f0) f0 = Ok (mc, mp, mw) /\ color_ok mc /\
      match filter (counts cc cl) is with [] => mc = MkColor 0 0 0 0 /\ mp = V3 f0 f0 f0 /\ mw = f0 | used => between_colors cl used mc end.
  Proof.
    induction is as [|i is IH]; intros HI HK.
    - exists (MkColor 0 0 0 0), (V3 f0 f0 f0), f0. cbn. split; [reflexivity|]. split; [|auto]. repeat split; cbn; lia.
    - cbn [merge_points filter]. destruct (HI i (or_introl eq_refl)) as (I & WI). rewrite (point_at_ok cl i LEN I). cbn [rbind].
      change (getVoxelWeight (cc_tsdf cc) (point_of cl i)) with (weight_of cc cl i).
      destruct (counts cc cl i) eqn:CI; pose proof CI as CI'; unfold counts in CI'; cbn [length] in HK.
      + apply negb_true_iff in CI'. rewrite CI'. pose proof (counted_item i WI CI) as IT. pose proof IT as (_ & _ & Fw & Lw & Uw). cbn [fst snd] in *.
        destruct (first_color _ _ (HC i I) Fw (conj Lw Uw)) as (_ & _ & FC). rewrite FC. cbn [of_opt rbind].
        assert (B0 : 0 < B) by (pose proof (bpow_gt_0 radix2 (-40)); lra).
        pose proof (mean_next B 0 0 0 f0 f0 _ _ HB ltac:(lia) (mean_start B B0) IT) as OK.
        refine (colors_next is [i] 1 _ _ (color_of cl i) (zip3 (fun a b => fdiv (fadd (fmul a f0) (fmul b (weight_of cc cl i))) (fadd f0 (weight_of cc cl i))) (V3 f0 f0 f0) (point_of cl i)) (fadd f0 (weight_of cc cl i)) _ _ OK (HC i I) _).
        { intros j J. apply HI. right; exact J. } { lia. }
        intros ch HCh. split; exists i; (split; [left; reflexivity|lia]).
      + apply negb_false_iff in CI'. rewrite CI'. apply IH. { intros j J. apply HI. right; exact J. } lia.
  Qed.
End Colors.
(** Merging is always defined, and the colour lies between the colours of the points that count. A
    group in which no point counts gives a black point of weight 0 at the sensor. *)
Theorem C75_colors : forall cc cl is B,
  length (cl_points cl) = length (cl_colors cl) -> (forall i, In i (indices cl) -> color_ok (color_of cl i)) ->
  (forall i, In i is -> In i (indices cl) /\ within B cl i) ->
  bpow radix2 (-40) <= B <= bpow radix2 20 -> (Z.of_nat (length is) <= 2 ^ 16)%Z ->
  exists mc mp mw, merged cc cl false is mc mp mw /\ color_ok mc /\
    match filter (counts cc cl) is with
    | [] => mc = MkColor 0 0 0 0 /\ mp = V3 f0 f0 f0 /\ mw = f0
    | used => between_colors cl used mc
    end.
Proof. intros cc cl is B LEN HC HI HB HN. apply (colors_start cc cl B LEN HB HC is HI HN). Qed.
Print Assumptions C75_colors.

(** A clearing group is replaced by its first point that counts. *)
Theorem C75_clearing : forall cc cl is B,
  length (cl_points cl) = length (cl_colors cl) -> (forall i, In i (indices cl) -> color_ok (color_of cl i)) ->
  (forall i, In i is -> In i (indices cl) /\ within B cl i) -> bpow radix2 (-40) <= B <= bpow radix2 20 ->
  exists mc mp mw, merged cc cl true is mc mp mw /\
    match find (counts cc cl) is with
    | None => mc = MkColor 0 0 0 0 /\ mp = V3 f0 f0 f0 /\ mw = f0
    | Some i => mc = color_of cl i /\ FR mw = FR (weight_of cc cl i) /\
        forall c : pt3 -> f32, c = vx \/ c = vy \/ c = vz -> Rabs (FR (c mp) - FR (c (point_of cl i))) <= bpow radix2 (-21) * B
    end.
Proof.
  intros cc cl is B LEN HC HI HB. induction is as [|i is IH].
  - exists (MkColor 0 0 0 0), (V3 f0 f0 f0), f0. cbn. unfold merged. auto.
  - unfold merged. cbn [merge_points find]. destruct (HI i (or_introl eq_refl)) as (I & WI). rewrite (point_at_ok cl i LEN I). cbn [rbind].
    change (getVoxelWeight (cc_tsdf cc) (point_of cl i)) with (weight_of cc cl i).
    destruct (counts cc cl i) eqn:CI; pose proof CI as CI'; unfold counts in CI'.
    + apply negb_true_iff in CI'. rewrite CI'. pose proof (counted_item cc cl B HB i WI CI) as IT. pose proof IT as (_ & _ & Fw & Lw & Uw). cbn [fst snd] in *.
      destruct (first_color _ _ (HC i I) Fw (conj Lw Uw)) as (WE & WF & FC). rewrite FC. cbn [of_opt rbind].
      eexists _, _, _. split; [reflexivity|]. split; [reflexivity|]. split; [exact WE|]. intros c HCc.
      assert (IT' : Forall (item B) (items cc cl c [i])) by (apply items_ok; [apply HB|exact HCc|intros j [<- |[]]; exact WI]).
      pose proof (mean_zero B (items cc cl c [i]) HB) as M. unfold items in *. cbn [filter] in *. rewrite CI in *. cbn [map length mean_run wsum psum] in *.
      destruct (M ltac:(cbn; lia) IT') as (_ & M2). rewrite !Rplus_0_r, Rmult_1_l in M2.
      replace (c (zip3 _ (V3 f0 f0 f0) (point_of cl i))) with (mean_step f0 f0 (c (point_of cl i)) (weight_of cc cl i)) by (destruct HCc as [->|[->| ->]]; reflexivity).
      pose proof (bpow_gt_0 radix2 (-20)) as P20. set (w := FR (weight_of cc cl i)) in *.
      apply Rmult_le_reg_r with w; [lra|]. rewrite <- (Rabs_pos_eq w) at 1 by lra. rewrite <- Rabs_mult. eapply Rle_trans; [|exact M2]. right. f_equal. ring.
    + apply negb_false_iff in CI'. rewrite CI'. apply IH. intros j J. apply HI. right; exact J.
Qed.
Print Assumptions C75_clearing.

(** *** examples *)
Definition cx_ok_b (i : Z) : bool :=
  let p := point_of cx_cloud i in
  forallb (fun c => ffin c && fle c (f32_of_Z 16) && fle (f32_of_Z (-16)) c) [vx p; vy p; vz p].
Lemma cx_within : forall i, In i (indices cx_cloud) -> within 16 cx_cloud i.
Proof.
  intros i I. assert (T : forallb cx_ok_b (indices cx_cloud) = true) by (vm_compute; reflexivity). rewrite forallb_forall in T. specialize (T i I).
  unfold cx_ok_b in T. cbv zeta in T. rewrite forallb_forall in T.
  assert (K : forall c, ffin c && fle c (f32_of_Z 16) && fle (f32_of_Z (-16)) c = true -> ffin c = true /\ Rabs (FR c) <= 16).
  { intros c H. apply andb_prop in H as (H & H3). apply andb_prop in H as (H1 & H2). split; [exact H1|].
    destruct (f32_of_Z_R 16) as (E1 & F1); [lia|]. destruct (f32_of_Z_R (-16)) as (E2 & F2); [lia|].
    apply fle_R in H2; auto. apply fle_R in H3; auto. rewrite E1 in H2. rewrite E2 in H3. apply Rabs_le. split; lra. }
  unfold within, all3. split; [|split]; apply K, T; cbn [In]; auto.
Qed.
Lemma cx_colors : forall i, In i (indices cx_cloud) -> color_ok (color_of cx_cloud i).
Proof.
  intros i I. assert (T : forallb (fun i => forallb (fun z => (0 <=? z)%Z && (z <? 256)%Z) (let c := color_of cx_cloud i in [cr c; cg c; cb c; ca c])) (indices cx_cloud) = true) by (vm_compute; reflexivity).
  rewrite forallb_forall in T. specialize (T i I). cbv zeta in T. rewrite forallb_forall in T.
  assert (K : forall z, (0 <=? z)%Z && (z <? 256)%Z = true -> is_byte z) by (unfold is_byte; intros; lia).
  split; [|split; [|split]]; apply K, T; cbn [In]; auto.
Qed.
(** two of the points of the cloud of C74 and C75 fall into one voxel *)
Example C75_mean_example : length (cl_points cx_cloud) = length (cl_colors cx_cloud) /\
  (forall i, In i [0; 3]%Z -> In i (indices cx_cloud) /\ within 16 cx_cloud i) /\
  bpow radix2 (-40) <= 16 <= bpow radix2 20 /\
  map (counts (cx_cc true) cx_cloud) [0; 3]%Z = [true; true] /\
  exists mc mp mw, merged (cx_cc true) cx_cloud false [0; 3]%Z mc mp mw /\ cr mc = 50%Z.
Proof.
  split; [reflexivity|]. split. { intros i I. assert (J : In i (indices cx_cloud)) by (destruct I as [<- |[<- |[]]]; cbn; auto). split; [exact J|apply cx_within, J]. }
  split; [cbn; lra|]. split; [vm_compute; reflexivity|].
  assert (T : match merge_points (cx_cc true) cx_cloud false [0; 3]%Z (MkColor 0 0 0 0) (V3 f0 f0 f0) f0 with Ok (mc, _, _) => (cr mc =? 50)%Z | _ => false end = true) by (vm_compute; reflexivity).
  unfold merged. destruct (merge_points _ _ _ _ _ _ _) as [((mc, mp), mw)| |]; try discriminate. exists mc, mp, mw. split; [reflexivity|]. apply Z.eqb_eq, T.
Qed.

(** Not true: "points that do not count change nothing". A group of points at depth 0 (a horizontal
    beam of a lidar) is merged into a point of weight 0 at the sensor; its ray has no direction, the
    distance computed along it is not a number, and a voxel at the sensor that was observed before
    loses its distance: it becomes minus the truncation distance, deep inside an obstacle. *)
Definition zx_layer : Layer KTsdf :=
  with_blocks cx_layer (map (fun kv => (fst kv, set_voxels (k:=KTsdf) (map (fun _ => MkTsdf (cx_lit 2) f1 (MkColor 1 2 3 4)) (b_voxels (snd kv))) (snd kv))) (l_blocks cx_layer)).
Definition zx_cloud : cloud := MkCloud cx_pose [V3 (cx_lit 7) (cx_lit 5) f0] [MkColor 10 20 30 255] false.
Definition zx_run : res (option (Layer KTsdf)) :=
  merged_integrate 100 cx_garbage (cx_cc false) zx_cloud [0%Z] (fun m => m) 1 (repeat 0%nat 20) (repeat 0%nat 20) zx_layer.
Theorem C75_weightless_refuted :
  counts (cx_cc false) zx_cloud 0 = false /\
  exists l', zx_run = Ok (Some l') /\
    let before := content zx_layer (V3 0 0 0)%Z in let after := content l' (V3 0 0 0)%Z in
    fword (t_distance before) = fword (cx_lit 2) /\ fword (t_weight before) = fword f1 /\
    fword (t_distance after) = fword (fneg (c_trunc cx_cfg)) /\ fword (t_weight after) = fword f1.
Proof.
  split; [vm_compute; reflexivity|].
  assert (T : match zx_run with Ok (Some l') => (fword (t_distance (content l' (V3 0 0 0)%Z)) =? fword (fneg (c_trunc cx_cfg)))%Z && (fword (t_weight (content l' (V3 0 0 0)%Z)) =? fword f1)%Z | _ => false end = true) by (vm_compute; reflexivity).
  destruct zx_run as [[l'|]| |]; try discriminate. apply andb_prop in T as (T1 & T2). exists l'. split; [reflexivity|]. cbv zeta.
  split; [vm_compute; reflexivity|]. split; [vm_compute; reflexivity|]. split; apply Z.eqb_eq; assumption.
Qed.
Print Assumptions C75_weightless_refuted.
