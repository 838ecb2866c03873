(** Proofs about serialization of voxels. *)
From Coq Require Import ZArith List Bool Lia.
From Verif Require Import F32 F32_lemmas Types Voxel Serialize.
Import ListNotations.
Open Scope Z_scope.

(** ** bits *)
Lemma byte_high : forall b n, is_byte b -> 8 <= n -> Z.testbit b n = false.
Proof.
  intros b n [H1 H2] Hn. destruct (Z.eq_dec b 0) as [->|]. { apply Z.testbit_0_l. }
  apply Z.bits_above_log2; [lia|].
  assert (Z.log2 b < 8) by (apply Z.log2_lt_pow2; lia). lia.
Qed.

Lemma bits_low : forall w n k, 0 <= w < 2 ^ k -> 0 <= k <= n -> Z.testbit w n = false.
Proof.
  intros w n k [H1 H2] Hn. destruct (Z.eq_dec w 0) as [->|]. { apply Z.testbit_0_l. }
  apply Z.bits_above_log2; [lia|].
  assert (Z.log2 w < k) by (apply Z.log2_lt_pow2; lia). lia.
Qed.

Lemma tb_255 : forall n, 0 <= n -> Z.testbit 255 n = (n <? 8).
Proof.
  intros. change 255 with (Z.ones 8). rewrite Z.testbit_ones_nonneg by lia. reflexivity.
Qed.

Lemma tb_mod : forall a k n, 0 <= k -> 0 <= n -> Z.testbit (a mod 2 ^ k) n = (n <? k) && Z.testbit a n.
Proof.
  intros. destruct (n <? k) eqn:E.
  - apply Z.ltb_lt in E. apply Z.mod_pow2_bits_low. lia.
  - apply Z.ltb_ge in E. rewrite Z.mod_pow2_bits_high by lia. reflexivity.
Qed.

Lemma tb_ones_shift : forall k s n, 0 <= k -> 0 <= s -> 0 <= n ->
  Z.testbit (Z.shiftl (Z.ones k) s) n = (s <=? n) && (n <? s + k).
Proof.
  intros. rewrite Z.shiftl_spec by lia.
  destruct (s <=? n) eqn:E.
  - apply Z.leb_le in E. rewrite Z.testbit_ones_nonneg by lia. simpl.
    destruct (n - s <? k) eqn:E1; destruct (n <? s + k) eqn:E2; try reflexivity; lia.
  - apply Z.leb_gt in E. simpl. apply Z.testbit_neg_r. lia.
Qed.

(** colour word *)
Definition color_word (c : Color) : Z :=
  Z.lor (Z.lor (Z.lor (ca c) (Z.shiftl (cb c) 8)) (Z.shiftl (cg c) 16)) (Z.shiftl (cr c) 24).
Definition word_color (w : Z) : Color :=
  MkColor (Z.shiftr w 24 mod 256) (Z.shiftr (Z.land w 0xFF0000) 16 mod 256)
    (Z.shiftr (Z.land w 0xFF00) 8 mod 256) (Z.land w 0xFF mod 256).

Lemma tbFF0000 : forall n, 0 <= n -> Z.testbit 0xFF0000 n = (16 <=? n) && (n <? 24).
Proof. intros. change 0xFF0000 with (Z.shiftl (Z.ones 8) 16). apply tb_ones_shift; lia. Qed.
Lemma tbFF00 : forall n, 0 <= n -> Z.testbit 0xFF00 n = (8 <=? n) && (n <? 16).
Proof. intros. change 0xFF00 with (Z.shiftl (Z.ones 8) 8). apply tb_ones_shift; lia. Qed.

Ltac bits :=
  repeat first [ rewrite Z.lor_spec | rewrite Z.land_spec | rewrite Z.shiftl_spec by lia
               | rewrite Z.shiftr_spec by lia | rewrite tb_255 by lia | rewrite tbFF0000 by lia
               | rewrite tbFF00 by lia ].

(** decide every comparison, then use the fact that bytes have no high bits *)
Ltac cmp :=
  repeat match goal with
  | |- context [?a <? ?b] => destruct (Z.ltb_spec a b); try lia
  | |- context [?a <=? ?b] => destruct (Z.leb_spec a b); try lia
  end.
Ltac high :=
  repeat match goal with
  | H : is_byte ?b |- context [Z.testbit ?b ?n] =>
      first [ rewrite (byte_high b n H) by lia | rewrite (Z.testbit_neg_r b n) by lia ]
  end.

Lemma word_of_color : forall c, color_ok c -> word_color (color_word c) = c.
Proof.
  intros [r g b a] (Hr & Hg & Hb & Ha); cbn [cr cg cb ca] in *.
  unfold word_color, color_word; cbn [cr cg cb ca].
  f_equal; apply Z.bits_inj'; intros n Hn; change 256 with (2 ^ 8);
    rewrite tb_mod by lia; bits; cmp; cbn [andb orb]; high; rewrite ?orb_false_r, ?orb_false_l, ?andb_true_r, ?andb_false_r; auto;
    try (f_equal; lia).
Qed.

Lemma color_of_word : forall w, 0 <= w < 2 ^ 32 -> color_word (word_color w) = w.
Proof.
  intros w Hw. unfold word_color, color_word; cbn [cr cg cb ca].
  apply Z.bits_inj'; intros n Hn. change 256 with (2 ^ 8).
  bits.
  assert (T : forall x m, Z.testbit (x mod 2 ^ 8) m = ((0 <=? m) && (m <? 8)) && Z.testbit x m).
  { intros x m. destruct (Z.leb_spec 0 m).
    - rewrite tb_mod by lia. reflexivity.
    - rewrite Z.testbit_neg_r by lia. reflexivity. }
  rewrite !T.
  destruct (Z.leb_spec 0 (n - 8)); destruct (Z.leb_spec 0 (n - 16)); destruct (Z.leb_spec 0 (n - 24));
    try lia; cbn [andb orb]; bits;
    replace (n - 24 + 24) with n by lia; replace (n - 16 + 16) with n by lia; replace (n - 8 + 8) with n by lia;
    cmp; cbn [andb orb]; rewrite ?andb_true_r, ?andb_false_r, ?orb_false_r; auto.
  - symmetry. apply (bits_low w n 32); lia.
Qed.

Lemma word_color_ok : forall w, color_ok (word_color w).
Proof. intros; unfold color_ok, is_byte; simpl; repeat split; apply Z.mod_pos_bound; lia. Qed.

(** ** lists of voxels *)
Lemma deser3_ser : forall A (f : Z -> Z -> Z -> A) (s : A -> list Z) (P : A -> Prop),
  (forall v, P v -> exists a b c, s v = [a; b; c] /\ f a b c = v) ->
  forall vs, Forall P vs -> deser3 f (length vs) (flat_map s vs) = vs.
Proof.
  induction vs; intros HF; simpl; auto. inversion HF; subst.
  destruct (H a) as (x & y & z & E & E2); auto. rewrite E. simpl. rewrite E2, IHvs; auto.
Qed.
Lemma deser2_ser : forall A (f : Z -> Z -> A) (s : A -> list Z) (P : A -> Prop),
  (forall v, P v -> exists a b, s v = [a; b] /\ f a b = v) ->
  forall vs, Forall P vs -> deser2 f (length vs) (flat_map s vs) = vs.
Proof.
  induction vs; intros HF; simpl; auto. inversion HF; subst.
  destruct (H a) as (x & y & E & E2); auto. rewrite E. simpl. rewrite E2, IHvs; auto.
Qed.

Lemma ser_vox_length : forall k v, length (ser_vox k v) = wpv k.
Proof. destruct k; reflexivity. Qed.
Lemma serialize_length : forall k vs, length (serializeToIntegers k vs) = (length vs * wpv k)%nat.
Proof.
  induction vs as [|v vs IH]; [reflexivity|]. unfold serializeToIntegers in *. cbn [flat_map length].
  rewrite app_length, ser_vox_length, IH. lia.
Qed.

Lemma tsdf_back : forall v, color_ok (t_color v) ->
  exists a b c, ser_tsdf v = [a; b; c] /\ deser_tsdf a b c = v.
Proof.
  intros [d w c] H. unfold ser_tsdf. eexists _, _, _; split; [reflexivity|].
  unfold deser_tsdf. cbn [t_distance t_weight t_color] in *.
  rewrite !fbits_fword. f_equal. apply word_of_color; auto.
Qed.
Lemma occ_back : forall v : OccupancyVoxel, True ->
  exists a b, ser_occ v = [a; b] /\ deser_occ a b = v.
Proof.
  intros [d o] _. eexists _, _; split; [reflexivity|].
  unfold deser_occ. cbn [o_log o_observed]. rewrite fbits_fword. destruct o; reflexivity.
Qed.
Lemma int_back : forall v : IntensityVoxel, True ->
  exists a b, ser_int v = [a; b] /\ deser_int a b = v.
Proof.
  intros [d w] _. eexists _, _; split; [reflexivity|].
  unfold deser_int. cbn [i_intensity i_weight]. rewrite !fbits_fword. reflexivity.
Qed.

(** ** ESDF direction *)
(** the parents that survive: int8 range, and no sign extension of a later
    component over an earlier one *)
Definition parent_survives (p : idx3) : Prop :=
  -128 <= vx p <= 127 /\ -128 <= vy p <= 127 /\ -128 <= vz p <= 127 /\
  (vy p < 0 -> vx p = -1) /\ (vz p < 0 -> vx p = -1 /\ vy p = -1).

Lemma i8_high : forall z n, -128 <= z <= 127 -> 7 <= n -> Z.testbit z n = (z <? 0).
Proof.
  intros z n Hz Hn. destruct (Z.ltb_spec z 0).
  - apply Z.bits_above_log2_neg; [lia|].
    destruct (Z.eq_dec z (-1)) as [->|]; [simpl; lia|].
    assert (Z.log2 (Z.pred (- z)) < 7) by (apply Z.log2_lt_pow2; lia). lia.
  - apply (bits_low z n 7); lia.
Qed.

Lemma clamp_i8_range : forall z, -128 <= clamp_i8 z <= 127.
Proof. intros; unfold clamp_i8; lia. Qed.

(** the byte read back for a component of value [z] when a negative later
    component ([neg]) has flooded it *)
Definition flood (z : Z) (neg : bool) : Z := if neg then -1 else z.

Lemma sext8_byte : forall z, -128 <= z <= 127 -> sext8 (z mod 256) = z.
Proof.
  intros z Hz. unfold sext8. destruct (Z.ltb_spec z 0).
  - replace (z mod 256) with (z + 256) by (symmetry; rewrite <- (Z.mod_small (z + 256) 256) by lia;
      rewrite <- Z.add_mod_idemp_r by lia; rewrite Z_mod_same_full; f_equal; lia).
    destruct (Z.ltb_spec (z + 256) 128); lia.
  - rewrite Z.mod_small by lia. destruct (Z.ltb_spec z 128); lia.
Qed.

Lemma dir_byte : forall z neg w, -128 <= z <= 127 -> 
  (forall n, 0 <= n < 8 -> Z.testbit w n = Z.testbit z n || neg) ->
  sext8 (Z.land w 255) = flood z neg.
Proof.
  intros z neg w Hz H.
  assert (E : Z.land w 255 = flood z neg mod 256).
  { apply Z.bits_inj'; intros n Hn. change 256 with (2 ^ 8). rewrite tb_mod by lia.
    rewrite Z.land_spec, tb_255 by lia. destruct (Z.ltb_spec n 8).
    - rewrite H by lia. destruct neg; simpl; rewrite ?orb_true_r, ?orb_false_r, ?andb_true_r; auto.
      symmetry. apply Z.bits_m1; lia.
    - rewrite andb_false_r. reflexivity. }
  rewrite E. apply sext8_byte. destruct neg; simpl; lia.
Qed.

Lemma dir_bits : forall x y z f n, 0 <= n < 32 -> 0 <= f < 16 ->
  Z.testbit (Z.lor (serializeDirection (V3 x y z)) f) n =
  (Z.testbit (clamp_i8 x) (n - 24) || Z.testbit (clamp_i8 y) (n - 16) || Z.testbit (clamp_i8 z) (n - 8))
  || Z.testbit f n.
Proof.
  intros. unfold serializeDirection, u32; cbn [vx vy vz].
  rewrite !Z.lor_spec, !tb_mod by lia.
  destruct (Z.ltb_spec n 32); [|lia]. cbn [andb]. rewrite !Z.shiftl_spec by lia. reflexivity.
Qed.

Lemma flag_high : forall f n, 0 <= f < 16 -> 4 <= n -> Z.testbit f n = false.
Proof. intros. apply (bits_low f n 4); lia. Qed.

Lemma dir_back : forall x y z f, 0 <= f < 16 ->
  deserializeDirection (Z.lor (serializeDirection (V3 x y z)) f) =
  V3 (flood (clamp_i8 x) ((y <? 0) || (z <? 0)))
     (flood (clamp_i8 y) (z <? 0))
     (clamp_i8 z).
Proof.
  intros x y z f Hf. unfold deserializeDirection.
  assert (S : forall c, (clamp_i8 c <? 0) = (c <? 0)).
  { intros; unfold clamp_i8. destruct (Z.ltb_spec c 0); [apply Z.ltb_lt|apply Z.ltb_ge]; lia. }
  f_equal.
  - apply dir_byte. { apply clamp_i8_range. }
    intros n Hn. rewrite Z.shiftr_spec, dir_bits, (flag_high f) by lia.
    replace (n + 24 - 24) with n by lia.
    rewrite (i8_high (clamp_i8 y)), (i8_high (clamp_i8 z)), !S by (try apply clamp_i8_range; lia).
    rewrite orb_false_r, orb_assoc. reflexivity.
  - apply dir_byte. { apply clamp_i8_range. }
    intros n Hn. rewrite Z.shiftr_spec, dir_bits, (flag_high f) by lia.
    replace (n + 16 - 16) with n by lia.
    rewrite (Z.testbit_neg_r (clamp_i8 x)), (i8_high (clamp_i8 z)), !S by (try apply clamp_i8_range; lia).
    rewrite orb_false_r. reflexivity.
  - rewrite (dir_byte (clamp_i8 z) false). { reflexivity. } { apply clamp_i8_range. }
    intros n Hn. rewrite Z.shiftr_spec, dir_bits, (flag_high f) by lia.
    replace (n + 8 - 8) with n by lia.
    rewrite (Z.testbit_neg_r (clamp_i8 x)), (Z.testbit_neg_r (clamp_i8 y)) by lia.
    rewrite !orb_false_r. reflexivity.
Qed.

Lemma dir_survives : forall x y z,
  V3 (flood (clamp_i8 x) ((y <? 0) || (z <? 0))) (flood (clamp_i8 y) (z <? 0)) (clamp_i8 z) = V3 x y z
  <-> parent_survives (V3 x y z).
Proof.
  intros. unfold parent_survives; cbn [vx vy vz]. unfold flood, clamp_i8. split.
  - intros H. injection H as H1 H2 H3.
    destruct (Z.ltb_spec y 0); destruct (Z.ltb_spec z 0); simpl in *; lia.
  - intros H. destruct (Z.ltb_spec y 0); destruct (Z.ltb_spec z 0); simpl; f_equal; lia.
Qed.

Definition esdf_flag (v : EsdfVoxel) : Z :=
  Z.lor (Z.lor (Z.lor (if e_observed v then 1 else 0) (if e_hallucinated v then 2 else 0))
               (if e_in_queue v then 4 else 0)) (if e_fixed v then 8 else 0).
Lemma esdf_flag_range : forall v, 0 <= esdf_flag v < 16.
Proof. intros [d [] [] [] [] p]; cbn; lia. Qed.

Lemma dir_low : forall p n, 0 <= n < 8 -> Z.testbit (serializeDirection p) n = false.
Proof.
  intros [x y z] n Hn.
  pose proof (dir_bits x y z 0 n) as H. rewrite Z.lor_0_r, Z.testbit_0_l in H.
  rewrite H by lia. rewrite !Z.testbit_neg_r by lia. reflexivity.
Qed.

Lemma land_pow2_test : forall w k, 0 <= k -> negb (Z.land w (2 ^ k) =? 0) = Z.testbit w k.
Proof.
  intros w k Hk. destruct (Z.testbit w k) eqn:E.
  - apply negb_true_iff, Z.eqb_neq. intro H.
    assert (T : Z.testbit (Z.land w (2 ^ k)) k = true).
    { rewrite Z.land_spec, E, Z.pow2_bits_true by lia. reflexivity. }
    rewrite H, Z.testbit_0_l in T. discriminate.
  - apply negb_false_iff, Z.eqb_eq. apply Z.bits_inj'. intros n Hn.
    rewrite Z.land_spec, Z.testbit_0_l. destruct (Z.eq_dec n k) as [->|].
    + rewrite E. reflexivity.
    + rewrite Z.pow2_bits_false by lia. apply andb_false_r.
Qed.

(** what an ESDF voxel becomes after a round trip *)
Definition esdf_after (v : EsdfVoxel) : EsdfVoxel :=
  let p := e_parent v in
  MkEsdf (e_distance v) (e_observed v) (e_hallucinated v) (e_in_queue v) (e_fixed v)
    (V3 (flood (clamp_i8 (vx p)) ((vy p <? 0) || (vz p <? 0)))
        (flood (clamp_i8 (vy p)) (vz p <? 0)) (clamp_i8 (vz p))).

Lemma esdf_word : forall v,
  ser_esdf v = [fword (e_distance v); Z.lor (serializeDirection (e_parent v)) (esdf_flag v)].
Proof.
  intros v. unfold ser_esdf. fold (esdf_flag v). f_equal. f_equal. f_equal.
  pose proof (esdf_flag_range v). change 0xFF with (Z.ones 8). rewrite Z.land_ones by lia.
  apply Z.mod_small. lia.
Qed.

Lemma esdf_back : forall v, exists a b, ser_esdf v = [a; b] /\ deser_esdf a b = esdf_after v.
Proof.
  intros v. rewrite esdf_word. eexists _, _; split; [reflexivity|].
  unfold deser_esdf. rewrite fbits_fword.
  change 1 with (2 ^ 0) at 1. change 2 with (2 ^ 1) at 2. change 4 with (2 ^ 2). change 8 with (2 ^ 3).
  rewrite !land_pow2_test, !Z.lor_spec, !dir_low by lia.
  assert (F : forall o h q f d p, let v := MkEsdf d o h q f p in
     Z.testbit (esdf_flag v) 0 = o /\ Z.testbit (esdf_flag v) 1 = h /\
     Z.testbit (esdf_flag v) 2 = q /\ Z.testbit (esdf_flag v) 3 = f).
  { intros [] [] [] [] d p; cbn; auto. }
  destruct v as [d o h q f p]. destruct (F o h q f d p) as (-> & -> & -> & ->).
  pose proof (esdf_flag_range (MkEsdf d o h q f p)). destruct p as [x y z].
  cbn [e_parent]. rewrite dir_back by auto. reflexivity.
Qed.

Lemma esdf_after_id : forall v, esdf_after v = v <-> parent_survives (e_parent v).
Proof.
  intros [d o h q f [x y z]]. unfold esdf_after. cbn [e_distance e_observed e_hallucinated e_in_queue e_fixed e_parent vx vy vz].
  split.
  - intros H. injection H as H1 H2 H3. apply dir_survives. congruence.
  - intros H. apply dir_survives in H. rewrite H. reflexivity.
Qed.

(** ** blocks *)
Lemma deserialize_unfold : forall k vs,
  deserializeFromIntegers k (length vs) (serializeToIntegers k vs)
  = Ok (deser_loop k (length vs) (serializeToIntegers k vs)).
Proof.
  intros. unfold deserializeFromIntegers. rewrite serialize_length, Nat.eqb_refl. reflexivity.
Qed.

Lemma roundtrip_lossless : forall k vs, k <> KEsdf -> Forall (vox_ok k) vs ->
  deserializeFromIntegers k (length vs) (serializeToIntegers k vs) = Ok vs.
Proof.
  intros k vs Hk HF. rewrite deserialize_unfold. f_equal.
  destruct k; [| contradiction | |]; simpl in *; unfold serializeToIntegers; simpl.
  - apply (deser3_ser _ _ _ _ tsdf_back); auto.
  - apply (deser2_ser _ _ _ _ occ_back); auto.
  - apply (deser2_ser _ _ _ _ int_back); auto.
Qed.

Lemma esdf_loop : forall vs : list EsdfVoxel,
  deser2 deser_esdf (length vs) (flat_map ser_esdf vs) = map esdf_after vs.
Proof.
  induction vs; auto. cbn [length flat_map map].
  destruct (esdf_back a) as (x & y & E & E2). rewrite E. simpl. rewrite E2, IHvs. reflexivity.
Qed.

Lemma roundtrip_esdf : forall vs,
  deserializeFromIntegers KEsdf (length vs) (serializeToIntegers KEsdf vs) = Ok (map esdf_after vs).
Proof. intros. rewrite deserialize_unfold. f_equal. apply esdf_loop. Qed.

Lemma roundtrip_any : forall k vs, Forall (vox_ok k) vs ->
  (match k as k return list (vox k) -> Prop with
   | KEsdf => Forall (fun v => parent_survives (e_parent v)) | _ => fun _ => True end) vs ->
  deserializeFromIntegers k (length vs) (serializeToIntegers k vs) = Ok vs.
Proof.
  intros k vs HF HE. destruct k; try (apply roundtrip_lossless; auto; discriminate).
  rewrite roundtrip_esdf. clear HF.
  assert (E : map esdf_after vs = vs).
  { induction HE as [|x l H HE IH]; simpl; auto. rewrite IH. f_equal. apply esdf_after_id; auto. }
  rewrite E. reflexivity.
Qed.

(** re-serialization *)
Lemma deser3_length : forall A (f : Z -> Z -> Z -> A) n d, length d = (n * 3)%nat -> length (deser3 f n d) = n.
Proof.
  induction n; intros d H; simpl; auto.
  destruct d as [|a [|b [|c d]]]; simpl in H; try lia. simpl. f_equal. apply IHn. lia.
Qed.
Lemma deser2_length : forall A (f : Z -> Z -> A) n d, length d = (n * 2)%nat -> length (deser2 f n d) = n.
Proof.
  induction n; intros d H; simpl; auto.
  destruct d as [|a [|b d]]; simpl in H; try lia. simpl. f_equal. apply IHn. lia.
Qed.

Lemma deserialize_length : forall k n d vs, deserializeFromIntegers k n d = Ok vs -> length vs = n.
Proof.
  unfold deserializeFromIntegers. intros k n d vs H.
  destruct (Nat.eqb_spec (n * wpv k) (length d)) as [E|]; [|discriminate].
  injection H as <-. destruct k; simpl in *; first [apply deser3_length | apply deser2_length]; lia.
Qed.

Lemma deser3_forall : forall A (f : Z -> Z -> Z -> A) (P : A -> Prop), (forall a b c, P (f a b c)) ->
  forall n d, Forall P (deser3 f n d).
Proof.
  induction n; intros; simpl; auto. destruct d as [|a [|b [|c d]]]; auto.
Qed.
Lemma deser2_forall : forall A (f : Z -> Z -> A) (P : A -> Prop), (forall a b, P (f a b)) ->
  forall n d, Forall P (deser2 f n d).
Proof.
  induction n; intros; simpl; auto. destruct d as [|a [|b d]]; auto.
Qed.

Lemma sext8_range : forall b, 0 <= b < 256 -> -128 <= sext8 b <= 127.
Proof. intros; unfold sext8. destruct (Z.ltb_spec b 128); lia. Qed.
Lemma land255_range : forall w, 0 <= Z.land w 255 < 256.
Proof. intros. change 255 with (Z.ones 8). rewrite Z.land_ones by lia. apply Z.mod_pos_bound. lia. Qed.

Lemma deserialize_ok : forall k n d vs, deserializeFromIntegers k n d = Ok vs -> Forall (vox_ok k) vs.
Proof.
  unfold deserializeFromIntegers. intros k n d vs H.
  destruct (Nat.eqb_spec (n * wpv k) (length d)) as [E|]; [|discriminate].
  injection H as <-. destruct k; simpl.
  - apply deser3_forall. intros; simpl. apply word_color_ok.
  - apply deser2_forall. intros; simpl. unfold deserializeDirection, all3, is_int32; cbn [vx vy vz].
    assert (R : forall w, -2 ^ 31 <= sext8 (Z.land w 255) < 2 ^ 31).
    { intros w. pose proof (sext8_range _ (land255_range w)). lia. }
    repeat split; apply R.
  - apply deser2_forall. auto.
  - apply deser2_forall. auto.
Qed.

Definition word_ok (w : Z) : Prop := 0 <= w < 2 ^ 32.

Lemma reserialize : forall k n d vs, k = KTsdf \/ k = KInt -> Forall word_ok d ->
  deserializeFromIntegers k n d = Ok vs -> serializeToIntegers k vs = d.
Proof.
  unfold deserializeFromIntegers. intros k n d vs Hk HF H.
  destruct (Nat.eqb_spec (n * wpv k) (length d)) as [E|]; [|discriminate].
  injection H as <-. destruct Hk as [-> | ->]; simpl in *.
  - revert d HF E. induction n; intros d HF E; simpl in *.
    + destruct d; [reflexivity|discriminate].
    + destruct d as [|a [|b [|c d]]]; simpl in E; try lia.
      inversion HF as [|? ? Ha HF1]; subst. inversion HF1 as [|? ? Hb HF2]; subst.
      inversion HF2 as [|? ? Hc HF3]; subst. unfold serializeToIntegers in *.
      cbn [deser3 flat_map]. rewrite IHn by (auto; lia).
      cbn [ser_vox]. unfold ser_tsdf, deser_tsdf. cbn [t_distance t_weight t_color].
      rewrite !fword_fbits by auto. fold (word_color c). fold (color_word (word_color c)).
      rewrite color_of_word by auto. reflexivity.
  - revert d HF E. induction n; intros d HF E; simpl in *.
    + destruct d; [reflexivity|discriminate].
    + destruct d as [|a [|b d]]; simpl in E; try lia.
      inversion HF as [|? ? Ha HF1]; subst. inversion HF1 as [|? ? Hb HF2]; subst.
      unfold serializeToIntegers in *.
      cbn [deser2 flat_map]. rewrite IHn by (auto; lia).
      cbn [ser_vox]. unfold ser_int, deser_int. cbn [i_intensity i_weight].
      rewrite !fword_fbits by auto. reflexivity.
Qed.

Lemma ser_words_ok : forall k vs, Forall (vox_ok k) vs -> Forall word_ok (serializeToIntegers k vs).
Proof.
  intros k vs HF. unfold serializeToIntegers. induction HF; simpl; auto.
  apply Forall_app; split; auto. clear IHHF HF.
  assert (CW : forall c, color_ok c -> word_ok (color_word c)).
  { intros [r g b a] (Hr & Hg & Hb & Ha); cbn [cr cg cb ca] in *. unfold word_ok, is_byte in *. unfold color_word; cbn [cr cg cb ca].
    rewrite !Z.shiftl_mul_pow2 by lia.
    assert (L : forall p q k, 0 <= k -> 0 <= p < 2 ^ k -> 0 <= q < 2 ^ k -> 0 <= Z.lor p q < 2 ^ k).
    { intros p q k0 Hk0 Hp Hq. split; [apply Z.lor_nonneg; lia|].
      destruct (Z.eq_dec (Z.lor p q) 0) as [->|]; [lia|]. apply Z.log2_lt_pow2.
      { assert (0 <= Z.lor p q) by (apply Z.lor_nonneg; lia). lia. }
      rewrite Z.log2_lor by lia. destruct (Z.eq_dec k0 0) as [->|].
      { assert (p = 0) by lia. assert (q = 0) by lia. subst. simpl in *. contradiction. }
      apply Z.max_lub_lt.
      - destruct (Z.eq_dec p 0) as [->|]; [simpl; lia|]. apply Z.log2_lt_pow2; lia.
      - destruct (Z.eq_dec q 0) as [->|]; [simpl; lia|]. apply Z.log2_lt_pow2; lia. }
    repeat apply L; lia. }
  assert (DW : forall p f, 0 <= f < 16 -> word_ok (Z.lor (serializeDirection p) f)).
  { intros p f Hf. unfold word_ok.
    assert (N : 0 <= Z.lor (serializeDirection p) f).
    { unfold serializeDirection, u32. rewrite !Z.lor_nonneg. repeat split; try lia; apply Z.mod_pos_bound; lia. }
    split; auto. destruct (Z.eq_dec (Z.lor (serializeDirection p) f) 0) as [->|]; [lia|].
    apply Z.log2_lt_pow2; [lia|].
    destruct (Z_lt_le_dec (Z.log2 (Z.lor (serializeDirection p) f)) 32) as [|G]; auto. exfalso.
    assert (T : Z.testbit (Z.lor (serializeDirection p) f) (Z.log2 (Z.lor (serializeDirection p) f)) = true)
      by (apply Z.bit_log2; lia).
    revert T G. generalize (Z.log2 (Z.lor (serializeDirection p) f)). intros m T G.
    rewrite Z.lor_spec, (flag_high f) in T by lia. unfold serializeDirection, u32 in T.
    rewrite !Z.lor_spec, !tb_mod in T by lia. destruct (Z.ltb_spec m 32); [lia|]. discriminate. }
  pose proof fword_range as FW.
  destruct k.
  - constructor; [apply FW|]. constructor; [apply FW|]. constructor; [|constructor]. exact (CW _ H).
  - change (ser_vox KEsdf x) with (ser_esdf x). rewrite esdf_word.
    constructor; [apply FW|]. constructor; [|constructor]. apply DW, esdf_flag_range.
  - constructor; [apply FW|]. constructor; [|constructor]. destruct (o_observed x); unfold word_ok; lia.
  - constructor; [apply FW|]. constructor; [|constructor]. apply FW.
Qed.
