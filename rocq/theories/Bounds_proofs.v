From Coq Require Import ZArith List Bool Reals Lra Lia.
From Flocq Require Import Core.
From Verif Require Import F32 F32_lemmas F32_err Types Assoc Assoc_lemmas Index Index_proofs Index_float Interp_axis Voxel Layer Bounds Bounds_spec.
Import ListNotations.
Open Scope R_scope.
Ltac Zify.zify_post_hook ::= idtac.

(** ** One axis *)
Lemma org_le : forall vps s a b, sane_size s -> (1 <= vps <= 2 ^ 10)%Z -> (Z.abs a <= 2 ^ 20)%Z -> (Z.abs b <= 2 ^ 20)%Z ->
  (a <= b)%Z -> FR (org vps s a) <= FR (org vps s b).
Proof.
  intros vps s a b Hs Hv Ha Hb L.
  destruct (block_size_R vps s Hs ltac:(lia)) as (db & Hdb & Ebs & Hw). pose proof (wide_pos _ Hw) as Bp.
  assert (A : forall i, (Z.abs i <= 2 ^ 20)%Z -> FR (org vps s i) = rnd32 (IZR i * FR (block_size_of vps s))).
  { intros i Hi. destruct (f32_of_Z_R i ltac:(lia)) as (Ei & Fi). unfold org. rewrite <- Ei. apply fmul_R; auto; [apply Hw|].
    rewrite Ei. apply rnd32_small. apply Rle_trans with (bpow radix2 80); [|apply bpow_le; lia].
    assert (Hi' : Rabs (IZR i) <= bpow radix2 20) by (apply IZR_lt_bpow; lia).
    change 80%Z with (20 + 60)%Z. rewrite bpow_plus. apply Rabs_prod; [exact Hi'|]. rewrite Rabs_pos_eq by lra. apply Hw. }
  rewrite !A by auto. apply rnd32_le. apply Rmult_le_compat_r; [lra|]. apply IZR_le. exact L.
Qed.

(** the origin is at most 2^20 blocks of at most 2^60 away *)
Lemma org_range : forall vps s b, sane_size s -> (1 <= vps <= 2 ^ 10)%Z -> (Z.abs b <= 2 ^ 20)%Z ->
  ffin (org vps s b) = true /\ Rabs (FR (org vps s b)) <= bpow radix2 90.
Proof.
  intros vps s b Hs Hv Hb. destruct (org_val vps s b Hs Hv Hb) as (F & E). split; [exact F|].
  pose proof (sane_pos s Hs) as Sp. assert (V : 1 <= IZR vps <= 1024) by (split; apply IZR_le; lia).
  assert (B : Rabs (IZR b) <= 1048576) by (rewrite <- abs_IZR; apply IZR_le; lia).
  assert (BV : Rabs (IZR b * IZR vps) <= 1048576 * 1024) by (apply Rabs_prod; [exact B|rewrite Rabs_pos_eq; lra]).
  assert (T : Rabs (FR (org vps s b) / FR s) <= bpow radix2 40).
  { change (bpow radix2 40) with 1099511627776. replace (FR (org vps s b) / FR s) with (IZR b * IZR vps + (FR (org vps s b) / FR s - IZR b * IZR vps)) by ring.
    eapply Rle_trans; [apply Rabs_tri; [exact BV|exact E]|]. unfold u. pose proof (Rabs_pos (IZR b * IZR vps)). lra. }
  replace (FR (org vps s b)) with (FR (org vps s b) / FR s * FR s) by (field; lra).
  apply Rle_trans with (bpow radix2 (40 + 40)); [|apply bpow_le; lia]. rewrite bpow_plus.
  apply Rabs_prod; [exact T|]. rewrite Rabs_pos_eq by lra. apply Hs.
Qed.
Definition top (vps : Z) (s : f32) (b : Z) : f32 := fadd (org vps s b) (block_size_of vps s).
Lemma small_sum : forall a b, ffin a = true -> ffin b = true -> Rabs (FR a) <= bpow radix2 90 -> Rabs (FR b) <= bpow radix2 90 ->
  FR (fadd a b) = rnd32 (FR a + FR b) /\ ffin (fadd a b) = true.
Proof.
  intros a b Fa Fb A B. apply fadd_R; auto. apply rnd32_small. apply Rle_trans with (bpow radix2 90 + bpow radix2 90).
  - apply Rabs_tri; auto.
  - replace (bpow radix2 90 + bpow radix2 90) with (bpow radix2 91) by (change 91%Z with (90 + 1)%Z; rewrite bpow_plus; change (bpow radix2 1) with 2; ring).
    apply bpow_le; lia.
Qed.
Lemma bs_range : forall vps s, sane_size s -> (1 <= vps <= 2 ^ 10)%Z ->
  ffin (block_size_of vps s) = true /\ Rabs (FR (block_size_of vps s)) <= bpow radix2 90.
Proof.
  intros vps s Hs Hv. destruct (block_size_R vps s Hs ltac:(lia)) as (db & _ & _ & Hw). pose proof (wide_pos _ Hw) as Bp.
  split; [apply Hw|]. rewrite Rabs_pos_eq by lra. eapply Rle_trans; [apply Hw|]. apply bpow_le; lia.
Qed.
Lemma top_R : forall vps s b, sane_size s -> (1 <= vps <= 2 ^ 10)%Z -> (Z.abs b <= 2 ^ 20)%Z ->
  FR (top vps s b) = rnd32 (FR (org vps s b) + FR (block_size_of vps s)) /\ ffin (top vps s b) = true.
Proof.
  intros vps s b Hs Hv Hb. destruct (org_range vps s b Hs Hv Hb) as (Fo & Ro). destruct (bs_range vps s Hs Hv) as (Fb & Rb).
  apply small_sum; auto.
Qed.
Lemma top_le : forall vps s a b, sane_size s -> (1 <= vps <= 2 ^ 10)%Z -> (Z.abs a <= 2 ^ 20)%Z -> (Z.abs b <= 2 ^ 20)%Z ->
  (a <= b)%Z -> FR (top vps s a) <= FR (top vps s b).
Proof.
  intros vps s a b Hs Hv Ha Hb L. rewrite (proj1 (top_R vps s a Hs Hv Ha)), (proj1 (top_R vps s b Hs Hv Hb)).
  apply rnd32_le. apply Rplus_le_compat_r. apply org_le; auto.
Qed.
(** a voxel's offset in its block is between 0 and the block size *)
Lemma offset_in : forall vps s v, sane_size s -> (1 <= vps <= 2 ^ 10)%Z -> (0 <= v < vps)%Z ->
  ffin (center_axis v s) = true /\ 0 <= FR (center_axis v s) <= FR (block_size_of vps s).
Proof.
  intros vps s v Hs Hv Hvv. pose proof (sane_pos s Hs) as Sp.
  destruct (center_axis_R v s Hs ltac:(lia)) as (d & Hd & Ec & Fc). destruct (block_size_R vps s Hs ltac:(lia)) as (db & Hdb & Ebs & Hw).
  split; [exact Fc|]. rewrite Ec, Ebs.
  assert (V : 1 <= IZR vps <= 1024) by (split; apply IZR_le; lia).
  assert (Vv : 0 <= IZR v <= IZR vps - 1). { split; [apply IZR_le; lia|]. rewrite <- minus_IZR. apply IZR_le. lia. }
  apply Rabs_le_inv in Hd. apply Rabs_le_inv in Hdb. unfold u in *. split.
  - apply Rmult_le_pos; [apply Rmult_le_pos|]; lra.
  - replace ((IZR v + / 2) * FR s * (1 + d)) with (FR s * ((IZR v + / 2) * (1 + d))) by ring.
    replace (IZR vps * FR s * (1 + db)) with (FR s * (IZR vps * (1 + db))) by ring. apply Rmult_le_compat_l; [lra|].
    apply Rle_trans with ((IZR vps - / 2) * (1 + 2 * (/ 16777216))); [apply Rmult_le_compat; lra|].
    apply Rle_trans with (IZR vps * (1 - / 16777216)); [lra|]. apply Rmult_le_compat_l; lra.
Qed.
Lemma ctr_between : forall vps s b v, sane_size s -> (1 <= vps <= 2 ^ 10)%Z -> (Z.abs b <= 2 ^ 20)%Z -> (0 <= v < vps)%Z ->
  FR (org vps s b) <= FR (ctr vps s b v) <= FR (top vps s b).
Proof.
  intros vps s b v Hs Hv Hb Hvv. destruct (org_range vps s b Hs Hv Hb) as (Fo & Ro). destruct (bs_range vps s Hs Hv) as (Fb & Rb).
  destruct (offset_in vps s v Hs Hv Hvv) as (Fc & C0 & C1).
  assert (Rc : Rabs (FR (center_axis v s)) <= bpow radix2 90). { rewrite Rabs_pos_eq by lra. eapply Rle_trans; [exact C1|]. eapply Rle_trans; [apply Rle_abs|exact Rb]. }
  unfold ctr. rewrite (proj1 (small_sum _ _ Fo Fc Ro Rc)), (proj1 (top_R vps s b Hs Hv Hb)). split; [|apply rnd32_le; lra].
  rewrite <- (rnd32_FR (org vps s b)) at 1. apply rnd32_le. lra.
Qed.

(** ** Where the faces are *)
Lemma top_val : forall vps s b, sane_size s -> (1 <= vps <= 2 ^ 10)%Z -> (Z.abs b * vps <= 2 ^ 17)%Z ->
  Rabs (FR (top vps s b) / FR s - (IZR b + 1) * IZR vps) <= / 20.
Proof.
  intros vps s b Hs Hv Hb. pose proof (sane_pos s Hs) as Sp. assert (Hb' : (Z.abs b <= 2 ^ 20)%Z) by nia.
  destruct (org_val vps s b Hs Hv Hb') as (Fo & Eo). destruct (org_range vps s b Hs Hv Hb') as (_ & Ro). destruct (bs_range vps s Hs Hv) as (Fb & Rb).
  destruct (block_size_R vps s Hs ltac:(lia)) as (db & Hdb & Ebs & Hw).
  destruct (fadd_rel (org vps s b) (block_size_of vps s) Fo Fb) as (F & d & Hd & E).
  { apply Rle_trans with (bpow radix2 90 + bpow radix2 90); [apply Rabs_tri; auto|].
    replace (bpow radix2 90 + bpow radix2 90) with (bpow radix2 91) by (change 91%Z with (90 + 1)%Z; rewrite bpow_plus; change (bpow radix2 1) with 2; ring).
    apply bpow_le; lia. }
  fold (top vps s b) in E. rewrite E, Ebs.
  assert (V : 1 <= IZR vps <= 1024) by (split; apply IZR_le; lia).
  assert (BW : Rabs (IZR b * IZR vps) <= 131072). { rewrite <- mult_IZR, <- abs_IZR. apply IZR_le. rewrite Z.abs_mul, (Z.abs_eq vps) by lia. lia. }
  set (W := IZR vps) in *. set (o := FR (org vps s b) / FR s) in *.
  assert (X0 : 0 <= Rabs (IZR b * W)) by apply Rabs_pos.
  replace ((FR (org vps s b) + W * FR s * (1 + db)) * (1 + d) / FR s - (IZR b + 1) * W)
    with ((o - IZR b * W) + (W * db + d * (o + W * (1 + db)))) by (unfold o; field; lra).
  assert (Oo : Rabs o <= 131100).
  { replace o with (IZR b * W + (o - IZR b * W)) by ring. eapply Rle_trans; [apply Rabs_tri; [exact BW|exact Eo]|]. unfold u. lra. }
  assert (Wd : Rabs (W * db) <= 1024 * / 16777216) by (apply Rabs_prod; [rewrite Rabs_pos_eq; lra|exact Hdb]).
  assert (T : Rabs (d * (o + W * (1 + db))) <= / 16777216 * (131100 + (1024 + 1024 * / 16777216))).
  { apply Rabs_prod; [unfold u32r in Hd; simpl in Hd; lra|]. apply Rabs_tri; [exact Oo|]. replace (W * (1 + db)) with (W + W * db) by ring. apply Rabs_tri; [rewrite Rabs_pos_eq; lra|exact Wd]. }
  eapply Rle_trans; [apply Rabs_tri; [exact Eo|apply Rabs_tri; [exact Wd|exact T]]|]. unfold u. lra.
Qed.
Lemma org_near : forall vps s b, sane_size s -> (1 <= vps <= 2 ^ 10)%Z -> (Z.abs b * vps <= 2 ^ 17)%Z ->
  Rabs (FR (org vps s b) / FR s - IZR b * IZR vps) <= / 20.
Proof.
  intros vps s b Hs Hv Hb. destruct (org_val vps s b Hs Hv ltac:(nia)) as (_ & Eo). eapply Rle_trans; [exact Eo|].
  assert (V : 1 <= IZR vps <= 1024) by (split; apply IZR_le; lia).
  assert (BW : Rabs (IZR b * IZR vps) <= 131072). { rewrite <- mult_IZR, <- abs_IZR. apply IZR_le. rewrite Z.abs_mul, (Z.abs_eq vps) by lia. lia. }
  unfold u. pose proof (Rabs_pos (IZR b * IZR vps)). lra.
Qed.
Lemma ctr_near : forall vps s b v, sane_size s -> (1 <= vps <= 2 ^ 10)%Z -> (Z.abs b * vps <= 2 ^ 17)%Z -> (0 <= v < vps)%Z ->
  Rabs (FR (ctr vps s b v) / FR s - (IZR (b * vps + v) + / 2)) <= / 20.
Proof.
  intros vps s b v Hs Hv Hb Hvv. destruct (ctr_val vps s b v Hs Hv Hb Hvv) as (_ & Eo). eapply Rle_trans; [exact Eo|].
  assert (V : 1 <= IZR vps <= 1024) by (split; apply IZR_le; lia).
  assert (BW : Rabs (IZR b * IZR vps) <= 131072). { rewrite <- mult_IZR, <- abs_IZR. apply IZR_le. rewrite Z.abs_mul, (Z.abs_eq vps) by lia. lia. }
  unfold u. pose proof (Rabs_pos (IZR b * IZR vps)). lra.
Qed.
Lemma unscale : forall s a b x y d, 0 < FR s -> Rabs (a / FR s - x) <= d -> Rabs (b / FR s - y) <= d ->
  Rabs (a - b) <= (Rabs (x - y) + 2 * d) * FR s.
Proof.
  intros s a b x y d Sp A B. replace (a - b) with ((a / FR s - b / FR s) * FR s) by (field; lra).
  apply Rabs_prod; [|rewrite Rabs_pos_eq; lra].
  replace (a / FR s - b / FR s) with ((x - y) + ((a / FR s - x) - (b / FR s - y))) by ring.
  apply Rabs_tri; [apply Rle_refl|]. unfold Rminus at 1. replace (2 * d) with (d + d) by ring. apply Rabs_tri; [exact A|]. rewrite Rabs_Ropp. exact B.
Qed.
(** the first and the last voxel of a block lie at its faces *)
Lemma first_voxel : forall vps s b, sane_size s -> (1 <= vps <= 2 ^ 10)%Z -> (Z.abs b * vps <= 2 ^ 17)%Z ->
  Rabs (FR (ctr vps s b 0) - FR (org vps s b)) < 0.65 * FR s.
Proof.
  intros vps s b Hs Hv Hb. pose proof (sane_pos s Hs) as Sp.
  eapply Rle_lt_trans; [apply (unscale s _ _ _ _ (/ 20) Sp (ctr_near vps s b 0 Hs Hv Hb ltac:(lia)) (org_near vps s b Hs Hv Hb))|].
  rewrite Z.add_0_r, mult_IZR. replace (IZR b * IZR vps + / 2 - IZR b * IZR vps) with (/ 2) by ring. rewrite Rabs_pos_eq by lra. apply Rmult_lt_compat_r; lra.
Qed.
Lemma last_voxel : forall vps s b, sane_size s -> (1 <= vps <= 2 ^ 10)%Z -> (Z.abs b * vps <= 2 ^ 17)%Z ->
  Rabs (FR (ctr vps s b (vps - 1)) - FR (top vps s b)) < 0.65 * FR s.
Proof.
  intros vps s b Hs Hv Hb. pose proof (sane_pos s Hs) as Sp.
  eapply Rle_lt_trans; [apply (unscale s _ _ _ _ (/ 20) Sp (ctr_near vps s b (vps - 1) Hs Hv Hb ltac:(lia)) (top_val vps s b Hs Hv Hb))|].
  rewrite plus_IZR, mult_IZR, minus_IZR. replace (IZR b * IZR vps + (IZR vps - 1) + / 2 - (IZR b + 1) * IZR vps) with (- / 2) by field. rewrite Rabs_Ropp, Rabs_pos_eq by lra. apply Rmult_lt_compat_r; lra.
Qed.
(** a position before or behind a face has a smaller or a larger block index *)
Lemma axis_index : forall vps s p, sane_size s -> (1 <= vps <= 2 ^ 10)%Z -> ffin p = true -> Rabs (FR p / FR s) <= 262144 ->
  exists n, grid_axis p (inv_of (block_size_of vps s)) = Some n /\
    IZR n * IZR vps - / 10 <= FR p / FR s < (IZR n + 1) * IZR vps + / 10.
Proof.
  intros vps s p Hs Hv Fp Hp. pose proof (sane_pos s Hs) as Sp.
  destruct (block_size_R vps s Hs ltac:(lia)) as (db & Hdb & Ebs & Hw). pose proof (wide_pos _ Hw) as Bp.
  assert (V : 1 <= IZR vps <= 1024) by (split; apply IZR_le; lia). set (W := IZR vps) in *. set (t := FR p / FR s) in *.
  assert (Q : FR p / FR (block_size_of vps s) = t / W / (1 + db)). { rewrite Ebs. unfold t. apply Rabs_le_inv in Hdb. unfold u in Hdb. field. lra. }
  set (q := FR p / FR (block_size_of vps s)) in *.
  assert (D : Rabs db <= / 16777216) by exact Hdb. apply Rabs_le_inv in D.
  assert (Eq : q * W * (1 + db) = t) by (rewrite Q; field; lra).
  assert (Aq : Rabs q * W <= 262145).
  { assert (Rabs q * W * (1 + db) <= 262144).
    { rewrite <- Eq in Hp. rewrite Rabs_mult, Rabs_mult in Hp. rewrite (Rabs_pos_eq W), (Rabs_pos_eq (1 + db)) in Hp by lra. exact Hp. }
    pose proof (Rabs_pos q). assert (0 <= Rabs q * W) by (apply Rmult_le_pos; lra). nra. }
  assert (A1 : Rabs q <= 262145). { pose proof (Rabs_pos q). nra. }
  destruct (grid_axis_of_value p (block_size_of vps s) Fp Hw) as (n & En & Hn).
  { fold q. change (bpow radix2 24) with 16777216. lra. }
  exists n. split; [exact En|]. fold q in Hn.
  assert (G : gtol q * W <= 0.083).
  { unfold gtol, u. replace ((5 * / 16777216 * Rabs q + / 262144) * W) with (5 * / 16777216 * (Rabs q * W) + W * / 262144) by ring. lra. }
  assert (Tq : Rabs (t - q * W) <= 0.0157).
  { rewrite <- Eq. replace (q * W * (1 + db) - q * W) with (q * W * db) by ring. rewrite Rabs_mult, Rabs_mult, (Rabs_pos_eq W) by lra.
    apply Rle_trans with (262145 * / 16777216); [|lra]. apply Rmult_le_compat; try apply Rabs_pos; auto. apply Rmult_le_pos; [apply Rabs_pos|lra]. }
  apply Rabs_le_inv in Tq. destruct Hn as (N1 & N2).
  assert (M1 : (IZR n - gtol q) * W <= q * W) by (apply Rmult_le_compat_r; lra).
  assert (M2 : q * W < (IZR n + 1 + gtol q) * W) by (apply Rmult_lt_compat_r; lra).
  split; nra.
Qed.

(** ** The loop over the blocks *)
Lemma fold_min : forall r b, let m := fold_left (zip3 Z.min) r b in
  (forall i, In i (b :: r) -> (vx m <= vx i /\ vy m <= vy i /\ vz m <= vz i)%Z) /\
  (exists i, In i (b :: r) /\ vx i = vx m) /\ (exists i, In i (b :: r) /\ vy i = vy m) /\ (exists i, In i (b :: r) /\ vz i = vz m).
Proof.
  induction r as [|x r IH]; intros b; cbn [fold_left].
  - cbv zeta. repeat split; try (destruct H as [<-|[]]; lia); exists b; split; auto; left; reflexivity.
  - cbv zeta in *. destruct (IH (zip3 Z.min b x)) as (L & (ix & Ix & Ex) & (iy & Iy & Ey) & (iz & Iz & Ez)).
    set (m := fold_left (zip3 Z.min) r (zip3 Z.min b x)) in *.
    assert (B : (vx m <= Z.min (vx b) (vx x) /\ vy m <= Z.min (vy b) (vy x) /\ vz m <= Z.min (vz b) (vz x))%Z)
      by (apply (L (zip3 Z.min b x)); left; reflexivity).
    split; [|split; [|split]].
    + intros i [<-|[<-|Hi]]; [lia|lia|]. apply L. right. exact Hi.
    + destruct Ix as [<-|Ix]; [|exists ix; split; [right; right; exact Ix|exact Ex]].
      cbn [zip3 vx] in Ex. destruct (Z.min_spec (vx b) (vx x)) as [(_ & E)|(_ & E)]; rewrite E in Ex; [exists b|exists x]; split; auto; cbn; auto.
    + destruct Iy as [<-|Iy]; [|exists iy; split; [right; right; exact Iy|exact Ey]].
      cbn [zip3 vy] in Ey. destruct (Z.min_spec (vy b) (vy x)) as [(_ & E)|(_ & E)]; rewrite E in Ey; [exists b|exists x]; split; auto; cbn; auto.
    + destruct Iz as [<-|Iz]; [|exists iz; split; [right; right; exact Iz|exact Ez]].
      cbn [zip3 vz] in Ez. destruct (Z.min_spec (vz b) (vz x)) as [(_ & E)|(_ & E)]; rewrite E in Ez; [exists b|exists x]; split; auto; cbn; auto.
Qed.
Lemma fold_max : forall r b, let m := fold_left (zip3 Z.max) r b in
  (forall i, In i (b :: r) -> (vx i <= vx m /\ vy i <= vy m /\ vz i <= vz m)%Z) /\
  (exists i, In i (b :: r) /\ vx i = vx m) /\ (exists i, In i (b :: r) /\ vy i = vy m) /\ (exists i, In i (b :: r) /\ vz i = vz m).
Proof.
  induction r as [|x r IH]; intros b; cbn [fold_left].
  - cbv zeta. repeat split; try (destruct H as [<-|[]]; lia); exists b; split; auto; left; reflexivity.
  - cbv zeta in *. destruct (IH (zip3 Z.max b x)) as (L & (ix & Ix & Ex) & (iy & Iy & Ey) & (iz & Iz & Ez)).
    set (m := fold_left (zip3 Z.max) r (zip3 Z.max b x)) in *.
    assert (B : (Z.max (vx b) (vx x) <= vx m /\ Z.max (vy b) (vy x) <= vy m /\ Z.max (vz b) (vz x) <= vz m)%Z)
      by (apply (L (zip3 Z.max b x)); left; reflexivity).
    split; [|split; [|split]].
    + intros i [<-|[<-|Hi]]; [lia|lia|]. apply L. right. exact Hi.
    + destruct Ix as [<-|Ix]; [|exists ix; split; [right; right; exact Ix|exact Ex]].
      cbn [zip3 vx] in Ex. destruct (Z.max_spec (vx b) (vx x)) as [(_ & E)|(_ & E)]; rewrite E in Ex; [exists x|exists b]; split; auto; cbn; auto.
    + destruct Iy as [<-|Iy]; [|exists iy; split; [right; right; exact Iy|exact Ey]].
      cbn [zip3 vy] in Ey. destruct (Z.max_spec (vy b) (vy x)) as [(_ & E)|(_ & E)]; rewrite E in Ey; [exists x|exists b]; split; auto; cbn; auto.
    + destruct Iz as [<-|Iz]; [|exists iz; split; [right; right; exact Iz|exact Ez]].
      cbn [zip3 vz] in Ez. destruct (Z.max_spec (vz b) (vz x)) as [(_ & E)|(_ & E)]; rewrite E in Ez; [exists x|exists b]; split; auto; cbn; auto.
Qed.

(** ** The function *)
Section Bounds.
  Context {k : vkind} (l : Layer k).
  Hypothesis Hs : sane_size (l_size l).
  Hypothesis Hv : (1 <= l_vps l <= 2 ^ 10)%Z.
  Hypothesis LO : laid_out l.
  Hypothesis BR : blocks_in_range l.
  Let n := l_vps l.
  Let s := l_size l.

  Lemma small_index : forall i b, l_get l i = Some b -> all3 (fun c => (Z.abs c <= 2 ^ 20)%Z) i.
  Proof.
    intros i b Hi. pose proof (BR i b Hi) as R. unfold all3 in *. destruct R as (A & B & C). assert (1 <= l_vps l)%Z by lia. repeat split; nia.
  Qed.
  Lemma centre_val : forall i b v, l_get l i = Some b ->
    computeCoordinatesFromVoxelIndex (b_origin b) (b_size b) v =
    V3 (ctr n s (vx i) (vx v)) (ctr n s (vy i) (vy v)) (ctr n s (vz i) (vz v)).
  Proof. intros i b v Hi. destruct (LO i b Hi) as (_ & E2 & E3). rewrite E2, E3. reflexivity. Qed.
  Lemma in_keys : forall i, In i (getAllAllocatedBlocks l) <-> exists b, l_get l i = Some b.
  Proof. intros i. unfold getAllAllocatedBlocks, l_get. apply akeys_In. Qed.

  Lemma bounds_whole : l_blocks l <> [] -> exists lo hi, computeMapBoundsFromLayer l = Ok (lo, hi) /\
    (forall c, centre_in l c -> in_box lo hi c) /\ snug (0.65 * FR s) l lo hi /\
    (forall p, near_origin s p -> beyond (0.2 * FR s) lo hi p -> getBlockPtrByCoordinates l p = Ok None).
  Proof.
    intros NE. unfold computeMapBoundsFromLayer.
    destruct (getAllAllocatedBlocks l) as [|i0 r] eqn:K.
    { unfold getAllAllocatedBlocks, akeys in K. apply map_eq_nil in K. contradiction. }
    cbn [bounds_indices]. destruct (fold_min r i0) as (Lm & Mx & My & Mz). destruct (fold_max r i0) as (LM & NX & NY & NZ).
    set (lo := fold_left (zip3 Z.min) r i0) in *. set (hi := fold_left (zip3 Z.max) r i0) in *.
    assert (GA : forall i, In i (i0 :: r) <-> exists b, l_get l i = Some b).
    { intros i. pose proof (in_keys i) as Q. rewrite K in Q. exact Q. }
    assert (GE : forall f (z : Z), (exists i, In i (i0 :: r) /\ f i = z) -> exists i b, l_get l i = Some b /\ f i = z).
    { intros f z (i & Hi & E). apply GA in Hi. destruct Hi as (b & Hb). eauto. }
    apply GE in Mx, My, Mz, NX, NY, NZ. clear GE.
    assert (Lm' : forall i b, l_get l i = Some b -> (vx lo <= vx i /\ vy lo <= vy i /\ vz lo <= vz i)%Z).
    { intros i b Hi. apply Lm. apply GA. eauto. }
    assert (LM' : forall i b, l_get l i = Some b -> (vx i <= vx hi /\ vy i <= vy hi /\ vz i <= vz hi)%Z).
    { intros i b Hi. apply LM. apply GA. eauto. }
    clear Lm LM. eexists _, _. split; [reflexivity|].
    assert (RX : forall i b, l_get l i = Some b -> (Z.abs (vx i) * n <= 2 ^ 17)%Z) by (intros i b H; apply (BR i b H)).
    assert (RY : forall i b, l_get l i = Some b -> (Z.abs (vy i) * n <= 2 ^ 17)%Z) by (intros i b H; apply (BR i b H)).
    assert (RZ : forall i b, l_get l i = Some b -> (Z.abs (vz i) * n <= 2 ^ 17)%Z) by (intros i b H; apply (BR i b H)).
    assert (SX : forall z, (Z.abs z * n <= 2 ^ 17)%Z -> (Z.abs z <= 2 ^ 20)%Z) by (intros z Hz; unfold n in Hz; nia).
    assert (Lx : (Z.abs (vx lo) * n <= 2 ^ 17)%Z) by (destruct Mx as (i & b & Hi & <-); eauto).
    assert (Ly : (Z.abs (vy lo) * n <= 2 ^ 17)%Z) by (destruct My as (i & b & Hi & <-); eauto).
    assert (Lz : (Z.abs (vz lo) * n <= 2 ^ 17)%Z) by (destruct Mz as (i & b & Hi & <-); eauto).
    assert (Hx : (Z.abs (vx hi) * n <= 2 ^ 17)%Z) by (destruct NX as (i & b & Hi & <-); eauto).
    assert (Hy : (Z.abs (vy hi) * n <= 2 ^ 17)%Z) by (destruct NY as (i & b & Hi & <-); eauto).
    assert (Hz : (Z.abs (vz hi) * n <= 2 ^ 17)%Z) by (destruct NZ as (i & b & Hi & <-); eauto).
    assert (OD : forall z, (Z.abs z * n <= 2 ^ 17)%Z -> DR (f64_of_f32 (fmul (f32_of_Z z) (block_size_of (l_vps l) (l_size l)))) = FR (org n s z)).
    { intros z Hz'. apply f64_of_f32_R. apply (org_range n s z Hs Hv (SX z Hz')). }
    assert (TD : forall z, (Z.abs z * n <= 2 ^ 17)%Z -> DR (f64_of_f32 (fadd (fmul (f32_of_Z z) (block_size_of (l_vps l) (l_size l))) (block_size_of (l_vps l) (l_size l)))) = FR (top n s z)).
    { intros z Hz'. apply f64_of_f32_R. apply (top_R n s z Hs Hv (SX z Hz')). }
    unfold in_box, snug, beyond. unfold getOriginPointFromGridIndex. unfold map3. cbn [vx vy vz]. rewrite !OD, !TD by auto.
    split; [|split].
    - intros c (i & b & v & Hi & Rv & ->). rewrite (centre_val i b v Hi). cbn [vx vy vz].
      rewrite (proj1 (LO i b Hi)) in Rv. destruct Rv as (V1 & V2 & V3').
      destruct (Lm' i b Hi) as (A1 & A2 & A3). destruct (LM' i b Hi) as (B1 & B2 & B3).
      assert (AX : forall z v a c, (Z.abs z * n <= 2 ^ 17)%Z -> (Z.abs a * n <= 2 ^ 17)%Z -> (Z.abs c * n <= 2 ^ 17)%Z -> (a <= z <= c)%Z -> (0 <= v < l_vps l)%Z ->
        FR (org n s a) <= FR (ctr n s z v) <= FR (top n s c)).
      { intros z v0 a c Qz Qa Qc Q Qv. destruct (ctr_between n s z v0 Hs Hv (SX z Qz) Qv) as (T1 & T2).
        pose proof (org_le n s a z Hs Hv (SX a Qa) (SX z Qz) (proj1 Q)). pose proof (top_le n s z c Hs Hv (SX z Qz) (SX c Qc) (proj2 Q)). lra. }
      split; [|split]; apply AX; eauto.
    - assert (FI : forall i b, l_get l i = Some b -> centre_in l (V3 (ctr n s (vx i) 0) (ctr n s (vy i) 0) (ctr n s (vz i) 0))).
      { intros i b Hi. exists i, b, (V3 0 0 0)%Z. split; [exact Hi|]. split; [rewrite (proj1 (LO i b Hi)); unfold all3; cbn [vx vy vz]; lia|].
        rewrite (centre_val i b _ Hi). reflexivity. }
      assert (LA : forall i b, l_get l i = Some b -> centre_in l (V3 (ctr n s (vx i) (n - 1)) (ctr n s (vy i) (n - 1)) (ctr n s (vz i) (n - 1)))).
      { intros i b Hi. exists i, b, (V3 (n - 1) (n - 1) (n - 1))%Z. split; [exact Hi|].
        split; [rewrite (proj1 (LO i b Hi)); unfold all3, n; cbn [vx vy vz]; lia|]. rewrite (centre_val i b _ Hi). reflexivity. }
      intros ax [<-|[<-|[<-|[]]]]; cbn [vx vy vz]; rewrite ?OD, ?TD by auto.
      + destruct Mx as (i & b & Hi & E). destruct NX as (j & c & Hj & E'). rewrite <- E, <- E'.
        split; [exists (V3 (ctr n s (vx i) 0) (ctr n s (vy i) 0) (ctr n s (vz i) 0))|exists (V3 (ctr n s (vx j) (n - 1)) (ctr n s (vy j) (n - 1)) (ctr n s (vz j) (n - 1)))]; cbn [vx vy vz]; (split; [eauto|]).
        * apply first_voxel; auto. eapply RX; eauto.
        * apply last_voxel; auto. eapply RX; eauto.
      + destruct My as (i & b & Hi & E). destruct NY as (j & c & Hj & E'). rewrite <- E, <- E'.
        split; [exists (V3 (ctr n s (vx i) 0) (ctr n s (vy i) 0) (ctr n s (vz i) 0))|exists (V3 (ctr n s (vx j) (n - 1)) (ctr n s (vy j) (n - 1)) (ctr n s (vz j) (n - 1)))]; cbn [vx vy vz]; (split; [eauto|]).
        * apply first_voxel; auto. eapply RY; eauto.
        * apply last_voxel; auto. eapply RY; eauto.
      + destruct Mz as (i & b & Hi & E). destruct NZ as (j & c & Hj & E'). rewrite <- E, <- E'.
        split; [exists (V3 (ctr n s (vx i) 0) (ctr n s (vy i) 0) (ctr n s (vz i) 0))|exists (V3 (ctr n s (vx j) (n - 1)) (ctr n s (vy j) (n - 1)) (ctr n s (vz j) (n - 1)))]; cbn [vx vy vz]; (split; [eauto|]).
        * apply first_voxel; auto. eapply RZ; eauto.
        * apply last_voxel; auto. eapply RZ; eauto.
    - intros p (Px & Py & Pz) BY.
      destruct (axis_index n s (vx p) Hs Hv (proj1 Px) (proj2 Px)) as (ix & Ex & Ix).
      destruct (axis_index n s (vy p) Hs Hv (proj1 Py) (proj2 Py)) as (iy & Ey & Iy).
      destruct (axis_index n s (vz p) Hs Hv (proj1 Pz) (proj2 Pz)) as (iz & Ez & Iz).
      unfold getBlockPtrByCoordinates, computeBlockIndexFromCoordinates, getGridIndexFromPoint. unfold map3, seq3. cbn [vx vy vz].
      fold n s. rewrite Ex, Ey, Ez. cbn [of_opt rbind]. f_equal.
      destruct (l_get l (V3 ix iy iz)) as [b|] eqn:G; [|reflexivity]. exfalso.
      destruct (Lm' _ _ G) as (A1 & A2 & A3). destruct (LM' _ _ G) as (B1 & B2 & B3). cbn [vx vy vz] in *.
      pose proof (sane_pos _ Hs) as Sp. fold s in Sp.
      assert (LOW : forall p z i, (Z.abs z * n <= 2 ^ 17)%Z -> FR p < FR (org n s z) - 0.2 * FR s ->
        IZR i * IZR n - / 10 <= FR p / FR s < (IZR i + 1) * IZR n + / 10 -> (z <= i)%Z -> False).
      { intros q z i Qz Q (I1 & _) Lz'. pose proof (org_near n s z Hs Hv Qz) as O. apply Rabs_le_inv in O.
        assert (FR q / FR s < FR (org n s z) / FR s - 0.2). { apply (Rmult_lt_reg_r (FR s)); [exact Sp|]. unfold Rminus. rewrite Rmult_plus_distr_r. unfold Rdiv. rewrite !Rmult_assoc, Rinv_l, !Rmult_1_r by lra. lra. }
        assert (IZR z * IZR n <= IZR i * IZR n). { apply Rmult_le_compat_r; [apply (IZR_le 0); unfold n; lia|apply IZR_le; exact Lz']. } lra. }
      assert (HIG : forall p z i, (Z.abs z * n <= 2 ^ 17)%Z -> FR (top n s z) + 0.2 * FR s < FR p ->
        IZR i * IZR n - / 10 <= FR p / FR s < (IZR i + 1) * IZR n + / 10 -> (i <= z)%Z -> False).
      { intros q z i Qz Q (_ & I2) Lz'. pose proof (top_val n s z Hs Hv Qz) as O. apply Rabs_le_inv in O.
        assert (FR (top n s z) / FR s + 0.2 < FR q / FR s). { apply (Rmult_lt_reg_r (FR s)); [exact Sp|]. rewrite Rmult_plus_distr_r. unfold Rdiv. rewrite !Rmult_assoc, Rinv_l, !Rmult_1_r by lra. lra. }
        assert ((IZR i + 1) * IZR n <= (IZR z + 1) * IZR n). { apply Rmult_le_compat_r; [apply (IZR_le 0); unfold n; lia|]. apply Rplus_le_compat_r. apply IZR_le; exact Lz'. } lra. }
      destruct BY as [B|[B|[B|[B|[B|B]]]]]; [eapply (LOW (vx p))|eapply (HIG (vx p))|eapply (LOW (vy p))|eapply (HIG (vy p))|eapply (LOW (vz p))|eapply (HIG (vz p))]; try exact B; eauto.
  Qed.
End Bounds.
