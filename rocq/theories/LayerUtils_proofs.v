(** Proofs about comparing and centring layers. *)
From Coq Require Import ZArith List Bool Reals Lra Lia.
From Flocq Require Import Core.
From Verif Require Import F32 F32_lemmas F32_err Types Index Voxel Serialize Assoc Assoc_lemmas Layer LayerUtils LayerUtils_spec Connect_proofs.
Import ListNotations.
Open Scope Z_scope.

Lemma d1em10_R : dfin d1em10 = true /\ DR d1em10 = (IZR 7737125245533627 * bpow radix2 (-86))%R.
Proof. split; reflexivity. Qed.

(** no float lies between 1e-10 and the double nearest to it *)
Lemma tol_gap : forall x : R, generic_format radix2 (FLT_exp (-149) 24) x -> (0 <= x)%R ->
  ((x < DR d1em10)%R <-> (x < / 10000000000)%R).
Proof.
  intros x G P. destruct d1em10_R as (_ & ->).
  assert (D1 : (/ 10000000000 < IZR 7737125245533627 * bpow radix2 (-86))%R).
  { replace (bpow radix2 (-86)) with (/ IZR (2 ^ 86))%R by reflexivity.
    apply (Rmult_lt_reg_r (10000000000 * IZR (2 ^ 86))%R). { apply Rmult_lt_0_compat; [lra|apply IZR_lt; reflexivity]. }
    replace (/ 10000000000 * (10000000000 * IZR (2 ^ 86)))%R with (IZR (2 ^ 86)) by (field).
    replace (IZR 7737125245533627 * / IZR (2 ^ 86) * (10000000000 * IZR (2 ^ 86)))%R with (IZR 7737125245533627 * 10000000000)%R.
    2:{ field. apply not_eq_sym, Rlt_not_eq, IZR_lt. reflexivity. }
    rewrite <- mult_IZR. apply IZR_lt. reflexivity. }
  split; [|lra]. intros L.
  destruct (Rlt_le_dec x (/ 10000000000)) as [|Ge]; [auto|exfalso].
  assert (M : mag radix2 x = (-33)%Z :> Z).
  { apply mag_unique_pos. split.
    - apply Rle_trans with (2:=Ge). replace (bpow radix2 (-33 - 1)) with (/ IZR (2 ^ 34))%R by reflexivity.
      apply Rinv_le; [lra|]. apply IZR_le. vm_compute. discriminate.
    - apply Rlt_trans with (1:=L). replace (bpow radix2 (-33)) with (IZR (2 ^ 53) * bpow radix2 (-86))%R.
      2:{ replace (-33)%Z with (53 + -86)%Z by reflexivity. rewrite bpow_plus. reflexivity. }
      apply Rmult_lt_compat_r; [apply bpow_gt_0|apply IZR_lt; reflexivity]. }
  red in G. unfold F2R, cexp in G. cbn [Fnum Fexp] in G. rewrite M in G.
  change (FLT_exp (-149) 24 (-33)) with (-57)%Z in G.
  set (m := Ztrunc _) in G. clearbody m. subst x.
  replace (bpow radix2 (-57)) with (IZR (2 ^ 29) * bpow radix2 (-86))%R in *.
  2:{ replace (-57)%Z with (29 + -86)%Z by reflexivity. rewrite bpow_plus. reflexivity. }
  rewrite <- Rmult_assoc, <- mult_IZR in L. apply Rmult_lt_reg_r in L; [|apply bpow_gt_0]. apply lt_IZR in L.
  assert (m <= 14411518) by lia.
  apply (Rle_not_lt _ _ Ge). apply Rle_lt_trans with (IZR 14411518 * (IZR (2 ^ 29) * bpow radix2 (-86)))%R.
  { apply Rmult_le_compat_r; [|apply IZR_le; auto]. apply Rmult_le_pos; [apply IZR_le; discriminate|apply bpow_ge_0]. }
  replace (bpow radix2 (-86)) with (/ IZR (2 ^ 86))%R by reflexivity.
  apply (Rmult_lt_reg_r (10000000000 * IZR (2 ^ 86))%R). { apply Rmult_lt_0_compat; [lra|apply IZR_lt; reflexivity]. }
  replace (/ 10000000000 * (10000000000 * IZR (2 ^ 86)))%R with (IZR (2 ^ 86)) by field.
  replace (IZR 14411518 * (IZR (2 ^ 29) * / IZR (2 ^ 86)) * (10000000000 * IZR (2 ^ 86)))%R with (IZR 14411518 * IZR (2 ^ 29) * 10000000000)%R.
  2:{ field. apply not_eq_sym, Rlt_not_eq, IZR_lt. reflexivity. }
  rewrite <- !mult_IZR. apply IZR_lt. reflexivity.
Qed.

Lemma fsub_fin_inv : forall a b, ffin (fsub a b) = true -> ffin a = true /\ ffin b = true.
Proof.
  intros a b H. destruct a as [sa|sa|sa pa ea|sa ma ea ha], b as [sb|sb|sb pb eb|sb mb eb hb]; try (split; reflexivity);
    exfalso; cbn in H; try discriminate; try (destruct sa, sb; cbn in H; discriminate).
Qed.
Lemma fsub_big : forall a b, ffin a = true -> ffin b = true -> ffin (fsub a b) = false -> (max32 <= Rabs (rnd32 (FR a - FR b)))%R.
Proof.
  intros a b Fa Fb N. destruct (Rlt_le_dec (Rabs (rnd32 (FR a - FR b))) max32) as [L|]; auto.
  destruct (fsub_R a b Fa Fb L). congruence.
Qed.
Lemma dlt_notfin : forall x, ffin x = false -> dlt (f64_of_f32 (fabs x)) d1em10 = false.
Proof.
  intros x F. destruct (dlt _ _) eqn:E; auto. apply dlt_iff in E. destruct E as (N & _ & L).
  destruct x as [s|s|s p e|s m e h]; try discriminate F; cbn in N; try discriminate.
  exfalso. cbn [f64_of_f32 fabs] in L. change (fabs (Binary.B754_infinity 24 128 s)) with (Binary.B754_infinity 24 128 false) in L.
  cbn [f64_of_f32 EDR] in L. rewrite EDR_fin in L by reflexivity.
  assert (DR d1em10 < max64)%R. { apply Rle_lt_trans with (1 := Rle_abs _). apply DR_lt_max. } lra.
Qed.
Lemma near_iff : forall a b, near a b = true <-> close a b.
Proof.
  intros a b. unfold near, close.
  destruct (ffin (fsub a b)) eqn:F.
  - destruct (fsub_fin_inv a b F) as (Fa & Fb).
    assert (L : (Rabs (rnd32 (FR a - FR b)) < max32)%R).
    { pose proof (FR_lt_max (fsub a b)) as M. unfold FR, fsub in M.
      destruct (Rlt_le_dec (Rabs (rnd32 (FR a - FR b))) max32) as [|G]; auto. exfalso.
      pose proof (Binary.Bminus_correct 24 128 Hprec32 Hmax32 Bits.binop_nan_pl32 BinarySingleNaN.mode_NE a b Fa Fb) as C.
      rewrite Rlt_bool_false in C by exact G.
      destruct C as (C & _).
      assert (F2 : Binary.is_finite_FF (Binary.B2FF 24 128 (fsub a b)) = true) by (revert F; destruct (fsub a b); intros; try discriminate; reflexivity).
      assert (C2 : Binary.B2FF 24 128 (fsub a b) = Binary.F754_infinity (Binary.Bsign 24 128 a)) by exact C.
      rewrite C2 in F2. discriminate F2. }
    destruct (fsub_R a b Fa Fb L) as (E & _).
    assert (F' : ffin (fabs (fsub a b)) = true) by (rewrite fabs_fin; auto).
    destruct (f64_of_f32_R _ F') as (E2 & F2). destruct d1em10_R as (Fd & _).
    rewrite (dlt_R _ _ F2 Fd), E2, fabs_R.
    rewrite tol_gap; [|rewrite <- fabs_R; apply FR_format|apply Rabs_pos]. rewrite E. tauto.
  - rewrite dlt_notfin by auto. split; [discriminate|]. intros (Fa & Fb & L).
    pose proof (fsub_big a b Fa Fb F) as M. exfalso.
    assert (/ 10000000000 < max32)%R. { apply Rlt_trans with 1%R; [lra|]. rewrite max32_pow. change 1%R with (bpow radix2 0). apply bpow_lt. lia. } lra.
Qed.
Lemma close_sym : forall a b, close a b -> close b a.
Proof.
  intros a b (Fa & Fb & H). split; [auto|split; auto]. replace (FR b - FR a)%R with (- (FR a - FR b))%R by ring.
  rewrite rnd32_opp, Rabs_Ropp. auto.
Qed.
Lemma close_refl : forall a, ffin a = true -> close a a.
Proof. intros a F. split; [auto|split; auto]. rewrite Rminus_diag_eq, rnd32_0, Rabs_R0 by auto. lra. Qed.
Lemma close_bound : forall a b, close a b -> (Rabs (FR a - FR b) < / 10000000000 * (1 + / 1000000))%R.
Proof.
  intros a b (Fa & Fb & H).
  destruct (Rlt_le_dec (Rabs (FR a - FR b)) (/ 10000000000 * (1 + / 1000000))) as [|G]; auto. exfalso.
  assert (bpow radix2 (-126) <= Rabs (FR a - FR b))%R.
  { apply Rle_trans with (2 := G). apply Rle_trans with (bpow radix2 (-34)); [apply bpow_le; lia|].
    replace (bpow radix2 (-34)) with (/ IZR (2 ^ 34))%R by reflexivity. apply Rle_trans with (/ 10000000000)%R; [|lra].
    apply Rinv_le; [lra|apply IZR_le; vm_compute; discriminate]. }
  destruct (rnd32_rel _ H0) as (d & D & E).
  rewrite bpow_m24 in D. unfold u32r in D.
  rewrite E, Rabs_mult in H. assert (0.9999999 <= 1 + d)%R. { apply Rabs_le_inv in D. lra. }
  rewrite (Rabs_pos_eq (1 + d)) in H by lra.
  assert (Rabs (FR a - FR b) * (1 + d) >= / 10000000000 * (1 + / 1000000) * (1 - / 10000000))%R; [|lra].
  apply Rle_ge. apply Rmult_le_compat; try lra.
Qed.
Lemma close_enough : forall a b, ffin a = true -> ffin b = true ->
  (Rabs (FR a - FR b) <= / 10000000000 * (1 - / 1000000))%R -> close a b.
Proof.
  intros a b Fa Fb H. split; [auto|split; auto].
  rewrite <- rnd32_abs. apply Rle_lt_trans with (1 := rnd32_le _ _ H).
  set (x := (/ 10000000000 * (1 - / 1000000))%R).
  assert (B : (bpow radix2 (-126) <= Rabs x)%R).
  { rewrite Rabs_pos_eq by (unfold x; lra). apply Rle_trans with (bpow radix2 (-35)); [apply bpow_le; lia|].
    replace (bpow radix2 (-35)) with (/ IZR (2 ^ 35))%R by reflexivity. apply Rle_trans with (/ 20000000000)%R; [|unfold x; lra].
    apply Rinv_le; [lra|apply IZR_le; vm_compute; discriminate]. }
  destruct (rnd32_rel _ B) as (d & D & E). rewrite bpow_m24 in D. unfold u32r in D. apply Rabs_le_inv in D.
  rewrite E. unfold x.
  assert (/ 10000000000 * (1 - / 1000000) * (1 + d) <= / 10000000000 * (1 - / 1000000) * (1 + / 10000000))%R; [|lra].
  apply Rmult_le_compat_l; lra.
Qed.

(** ** voxels and blocks *)
Lemma color_eqb_iff : forall a b, color_eqb a b = true <-> a = b.
Proof.
  intros [r g b a] [r' g' b' a']. unfold color_eqb. cbn [cr cg cb ca]. rewrite !andb_true_iff, !Z.eqb_eq. split.
  - intros (((-> & ->) & ->) & ->). reflexivity.
  - intros H. injection H as -> -> -> ->. auto.
Qed.
Lemma idx_eqb_iff : forall a b, idx_eqb a b = true <-> a = b.
Proof. intros a b. destruct (idx_eqb_spec a b); split; congruence. Qed.
Lemma isSameVoxel_iff : forall k (a b : vox k) r, isSameVoxel k a b = Ok r -> (r = true <-> same_vox k a b).
Proof.
  intros [| | |] a b r E; cbn [isSameVoxel same_vox] in *; try discriminate; injection E as <-; cbn [vox] in *;
    rewrite ?andb_true_iff, ?near_iff, ?color_eqb_iff, ?eqb_true_iff, ?idx_eqb_iff; tauto.
Qed.
Lemma same_vox_sym : forall k (a b : vox k), same_vox k a b -> same_vox k b a.
Proof. intros [| | |] a b; cbn [same_vox]; intuition (try apply close_sym; try congruence). Qed.
Lemma same_vox_refl : forall k (a : vox k), finite_vox k a -> same_vox k a a.
Proof. intros [| | |] a; cbn [same_vox finite_vox]; intuition (try apply close_refl; try congruence). Qed.

Lemma same_voxels_iff : forall k a b acc r, same_voxels k a b acc = Ok r -> length a = length b ->
  (r = true <-> acc = true /\ Forall2 (same_vox k) a b).
Proof.
  induction a as [|x a IH]; intros [|y b] acc r E L; try discriminate L.
  - injection E as <-. split; [intros H; split; [exact H|constructor]|tauto].
  - cbn [same_voxels] in E. apply rbind_ok in E. destruct E as (s & E1 & E2).
    injection L as L. rewrite (IH _ _ _ E2 L), andb_true_iff, (isSameVoxel_iff _ _ _ _ E1). split.
    + intros ((A & B) & C). split; [exact A|constructor; auto].
    + intros (A & B). inversion B; subst. auto.
Qed.
Lemma same_voxels_acc : forall k a b r, same_voxels k a b false = Ok r -> r = false.
Proof.
  induction a as [|x a IH]; intros [|y b] r E; cbn [same_voxels] in E; try discriminate; try congruence.
  apply rbind_ok in E. destruct E as (s & _ & E). cbn [andb] in E. eauto.
Qed.
Lemma same_voxels_ok : forall k a b acc, k <> KInt -> (length a <= length b)%nat -> exists r, same_voxels k a b acc = Ok r.
Proof.
  intros k a b acc K. revert b acc. induction a as [|x a IH]; intros b acc L; [eexists; reflexivity|].
  destruct b as [|y b]; [inversion L|]. cbn [length] in L. cbn [same_voxels].
  destruct k; cbn [isSameVoxel rbind]; try (apply IH; lia). congruence.
Qed.
Lemma Forall2_len : forall A B (R : A -> B -> Prop) a b, Forall2 R a b -> length a = length b.
Proof. intros. induction H; cbn; congruence. Qed.
Lemma isSameBlock_iff : forall k (a b : Block k) r, isSameBlock a b = Ok r -> (r = true <-> same_block a b).
Proof.
  intros k a b r E. unfold isSameBlock in E.
  destruct (Nat.eqb (length (b_voxels a)) (length (b_voxels b))) eqn:L.
  - apply Nat.eqb_eq in L. rewrite (same_voxels_iff _ _ _ _ _ E L), !andb_true_iff, !near_iff, Z.eqb_eq. split.
    + intros (((((((A & B) & C) & D) & F) & G) & _) & V). constructor; auto.
    + intros [A B C (D & F & G) V]. auto 20.
  - rewrite andb_false_r in E. apply same_voxels_acc in E. subst r. split; [discriminate|].
    intros [_ _ _ _ V]. apply Forall2_len in V. apply Nat.eqb_neq in L. contradiction.
Qed.
Lemma same_block_sym : forall k (a b : Block k), same_block a b -> same_block b a.
Proof.
  intros k a b [A B C (D & F & G) V]. constructor; auto using close_sym.
  induction V; constructor; auto using same_vox_sym.
Qed.

(** ** layers *)
Lemma same_blocks_iff : forall k is (a b : Layer k) acc o, same_blocks is a b acc = Ok o ->
  (o = Some true <-> acc = true /\ forall i, In i is -> exists x y, l_get a i = Some x /\ l_get b i = Some y /\ same_block x y).
Proof.
  induction is as [|i is IH]; intros a b acc o E; cbn [same_blocks] in E.
  - injection E as <-. split; [intros H; injection H as ->; split; [auto|intros i []]|intros (-> & _); auto].
  - destruct (l_get a i) as [x|] eqn:A; [destruct (l_get b i) as [y|] eqn:B|].
    + apply rbind_ok in E. destruct E as (s & E1 & E2). rewrite (IH _ _ _ _ E2), andb_true_iff, (isSameBlock_iff _ _ _ _ E1). split.
      * intros ((H & S) & T). split; [auto|]. intros j [<-|J]; [exists x, y; auto|auto].
      * intros (H & T). split; [split; [auto|]|intros j J; apply T; right; auto].
        destruct (T i (or_introl eq_refl)) as (x' & y' & P & Q & S). congruence.
    + injection E as <-. split; [discriminate|]. intros (_ & T). destruct (T i (or_introl eq_refl)) as (x' & y' & P & Q & S). congruence.
    + injection E as <-. split; [discriminate|]. intros (_ & T). destruct (T i (or_introl eq_refl)) as (x' & y' & P & Q & S). congruence.
Qed.
Lemma same_blocks_ok : forall k is (a b : Layer k) acc, k <> KInt ->
  (forall i x y, l_get a i = Some x -> l_get b i = Some y -> (length (b_voxels x) <= length (b_voxels y))%nat) ->
  exists o, same_blocks is a b acc = Ok o.
Proof.
  intros k is a b acc K H. revert acc. induction is as [|i is IH]; intros acc; cbn [same_blocks]; [eexists; reflexivity|].
  destruct (l_get a i) eqn:A; [destruct (l_get b i) eqn:B|]; try (eexists; reflexivity).
  unfold isSameBlock. match goal with |- context [same_voxels k ?u ?v ?w] => destruct (same_voxels_ok k u v w K (H _ _ _ A B)) as (r & ->) end.
  cbn [rbind]. apply IH.
Qed.
Lemma l_get_keys : forall k (l : Layer k) i, In i (getAllAllocatedBlocks l) <-> exists b, l_get l i = Some b.
Proof. intros. apply akeys_In. Qed.

Lemma layer_bytes_eq : forall k (a b : Layer k), regular a -> regular b -> l_vps a = l_vps b ->
  length (l_blocks a) = length (l_blocks b) -> layer_bytes a = layer_bytes b.
Proof.
  intros k a b (Na & Ra) (Nb & Rb) V L. unfold layer_bytes.
  destruct (l_blocks a) as [|(i, x) m] eqn:A, (l_blocks b) as [|(j, y) m'] eqn:B; try discriminate L; [reflexivity|].
  rewrite L. unfold block_bytes. rewrite (Ra i x), (Rb j y), V; [reflexivity| |].
  - unfold l_get. rewrite B. cbn [alookup]. rewrite idx_eqb_refl. reflexivity.
  - unfold l_get. rewrite A. cbn [alookup]. rewrite idx_eqb_refl. reflexivity.
Qed.
Lemma same_count : forall k (a b : Layer k), NoDup (getAllAllocatedBlocks a) -> NoDup (getAllAllocatedBlocks b) ->
  (forall i, In i (getAllAllocatedBlocks a) <-> In i (getAllAllocatedBlocks b)) -> length (l_blocks a) = length (l_blocks b).
Proof.
  intros k a b Na Nb H. rewrite <- (map_length fst (l_blocks a)), <- (map_length fst (l_blocks b)).
  apply Nat.le_antisymm; apply NoDup_incl_length; auto; intros i; apply H.
Qed.
Lemma isSameLayer_iff : forall k (a b : Layer k) r, regular a -> regular b -> isSameLayer a b = Ok r ->
  (r = true <-> same_layer a b).
Proof.
  intros k a b r Ha Hb E. pose proof Ha as (Na & Ra). pose proof Hb as (Nb & Rb). unfold isSameLayer in E.
  apply rbind_ok in E. destruct E as (o1 & E1 & E). pose proof (same_blocks_iff _ _ _ _ _ _ E1) as I1.
  rewrite !andb_true_iff, !near_iff, Z.eqb_eq, Nat.eqb_eq in I1. unfold getNumberOfAllocatedBlocks in I1.
  assert (Main : same_layer a b -> o1 = Some true /\ forall i, In i (getAllAllocatedBlocks b) -> exists x y, l_get a i = Some x /\ l_get b i = Some y /\ same_block x y).
  { intros [S B V T].
    assert (P : forall i, In i (getAllAllocatedBlocks a) \/ In i (getAllAllocatedBlocks b) -> exists x y, l_get a i = Some x /\ l_get b i = Some y /\ same_block x y).
    { intros i J. rewrite !l_get_keys in J. specialize (T i). destruct (l_get a i) as [x|] eqn:A, (l_get b i) as [y|] eqn:C; try contradiction.
      - exists x, y; auto.
      - destruct J as [(? & ?)|(? & ?)]; discriminate. }
    split; [|intros i J; apply P; auto]. apply I1. split; [|intros i J; apply P; auto].
    split; [auto|]. apply same_count; auto. intros i. split; intros J.
    - destruct (P i (or_introl J)) as (x & y & _ & Y & _). apply l_get_keys. eauto.
    - destruct (P i (or_intror J)) as (x & y & X & _ & _). apply l_get_keys. eauto. }
  destruct o1 as [s1|].
  2:{ injection E as <-. split; [discriminate|]. intros S. destruct (Main S). discriminate. }
  apply rbind_ok in E. destruct E as (o2 & E2 & E). pose proof (same_blocks_iff _ _ _ _ _ _ E2) as I2.
  destruct o2 as [s2|].
  - injection E as <-. rewrite andb_true_iff. split.
    + intros (-> & _). destruct (proj1 I2 eq_refl) as (-> & T2). destruct (proj1 I1 eq_refl) as ((((S & B) & V) & C) & T1).
      constructor; auto. intros i. destruct (l_get a i) as [x|] eqn:A.
      * destruct (T1 i) as (x' & y' & P & Q & R); [apply l_get_keys; eauto|]. rewrite Q. congruence.
      * destruct (l_get b i) as [y|] eqn:D; [|auto]. destruct (T2 i) as (x' & y' & P & Q & R); [apply l_get_keys; eauto|]. congruence.
    + intros S. destruct (Main S) as (O1 & T2). injection O1 as ->.
      assert (O2 : Some s2 = Some true) by (apply I2; auto). injection O2 as ->. split; [auto|].
      destruct (proj1 I1 eq_refl) as (((_ & V) & C) & _). apply Z.eqb_eq. apply layer_bytes_eq; auto.
  - injection E as <-. split; [discriminate|]. intros S. destruct (Main S) as (O1 & T2). injection O1 as ->.
    assert (@None bool = Some true) by (apply I2; auto). discriminate.
Qed.
Lemma isSameLayer_ok : forall k (a b : Layer k), k <> KInt -> regular a -> regular b -> l_vps a = l_vps b ->
  exists r, isSameLayer a b = Ok r.
Proof.
  intros k a b K (_ & Ra) (_ & Rb) V. unfold isSameLayer.
  assert (H : forall i x y, l_get a i = Some x -> l_get b i = Some y -> (length (b_voxels x) <= length (b_voxels y))%nat).
  { intros i x y A B. rewrite (Ra _ _ A), (Rb _ _ B), V. auto. }
  match goal with |- context [same_blocks ?u a b ?w] => destruct (same_blocks_ok k u a b w K H) as (o & ->) end. cbn [rbind].
  destruct o as [s|]; [|eexists; reflexivity].
  destruct (same_blocks_ok k (getAllAllocatedBlocks b) a b s K H) as (o & ->). cbn [rbind]. destruct o; eexists; reflexivity.
Qed.
Lemma same_layer_sym : forall k (a b : Layer k), same_layer a b -> same_layer b a.
Proof.
  intros k a b [S B V T]. constructor; auto using close_sym. intros i. specialize (T i).
  destruct (l_get a i), (l_get b i); auto using same_block_sym.
Qed.
Lemma same_layer_refl : forall k (a : Layer k), finite_layer a -> same_layer a a.
Proof.
  intros k a (S & B & T). constructor; auto using close_refl. intros i. destruct (l_get a i) as [b|] eqn:E; [|auto].
  destruct (T i b E) as (P & Q & (X & Y & Z) & V). constructor; auto using close_refl.
  induction V; constructor; auto using same_vox_refl.
Qed.
