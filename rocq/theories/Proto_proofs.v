(** Proofs about the wire format. *)
From Coq Require Import ZArith List Bool Lia Reals.
From Flocq Require Import Core IEEE754.Binary IEEE754.Bits.
From Verif Require Import F32 F32_lemmas Types Proto.
Import ListNotations.
Open Scope Z_scope.

(** ** floats *)
Lemma narrow_widen : forall x : f32, fnan x = false -> f32_of_f64 (f64_of_f32 x) = x.
Proof.
  intros x Hx. destruct (ffin x) eqn:Fx.
  - destruct (Req_dec (FR x) 0) as [Z0|NZ].
    + destruct x as [s|s|s pl Hpl|s m e Hme]; try discriminate.
      * reflexivity.
      * exfalso. unfold FR in Z0. simpl in Z0. apply eq_0_F2R in Z0. destruct s; discriminate.
    + destruct (f64_of_f32_R x Fx) as (E & F).
      assert (R : rnd32 (DR (f64_of_f32 x)) = FR x) by (rewrite E; apply rnd32_FR).
      destruct (f32_of_f64_R (f64_of_f32 x) F) as (E2 & F2).
      { rewrite R. apply FR_lt_max. }
      rewrite R in E2.
      assert (S : forall y : f32, ffin y = true -> FR y <> 0%R -> is_finite_strict 24 128 y = true).
      { intros [s|s|s pl Hpl|s m e Hme] Hf Hr; try discriminate; auto. }
      apply B2R_inj; [apply S; auto; rewrite E2; auto|apply S; auto|exact E2].
  - destruct x as [s|s|s pl Hpl|s m e Hme]; try discriminate. reflexivity.
Qed.

Lemma dbits_dword : forall x, dbits (dword x) = x.
Proof. intros. apply (binary_float_of_bits_of_binary_float 52 11 eq_refl eq_refl eq_refl). Qed.
Lemma dword_range : forall x, 0 <= dword x < 2 ^ 64.
Proof. intros. apply (bits_of_binary_float_range 52 11); reflexivity. Qed.

(** ** prefixes *)
Lemma prefix_split : forall A (p q a b : list A), p ++ q = a ++ b -> q <> [] ->
  (exists p', p = a ++ p' /\ p' ++ q = b) \/ (exists a2, a2 <> [] /\ p ++ a2 = a).
Proof.
  induction p as [|x p IH]; intros q a b H Hq; simpl in *.
  - destruct a as [|y a]; [left; exists []; auto|right; exists (y :: a); split; [discriminate|auto]].
  - destruct a as [|y a]; simpl in *.
    + left. exists (x :: p). auto.
    + injection H as -> H. destruct (IH _ _ _ H Hq) as [(p' & -> & E)|(a2 & N & E)].
      * left; exists p'; auto.
      * right; exists a2; split; auto. rewrite E; auto.
Qed.

(** ** varints *)
Lemma enc_var_nonempty : forall n z, (0 < n)%nat -> enc_var n z <> [].
Proof. destruct n; [lia|]. intros z _. simpl. destruct (z <? 128); discriminate. Qed.
Lemma enc_var_length : forall n z, (length (enc_var n z) <= n)%nat.
Proof.
  induction n; intros; simpl; auto. destruct (z <? 128); simpl; [lia|]. specialize (IHn (z / 128)). lia.
Qed.

Lemma dec_enc_var : forall n z r, 0 <= z < 128 ^ Z.of_nat n -> (0 < n)%nat ->
  dec_var n (enc_var n z ++ r) = Some (z, r).
Proof.
  induction n; intros z r Hz Hn; [lia|]. cbn [enc_var].
  destruct (Z.ltb_spec z 128).
  - simpl. destruct (Z.ltb_spec z 128); [reflexivity|lia].
  - cbn [app dec_var]. pose proof (Z.mod_pos_bound z 128 ltac:(lia)).
    destruct (Z.ltb_spec (z mod 128 + 128) 128); [lia|].
    rewrite Nat2Z.inj_succ, Z.pow_succ_r in Hz by lia.
    rewrite IHn.
    + f_equal. f_equal. pose proof (Z.div_mod z 128 ltac:(lia)). lia.
    + split; [apply Z.div_pos; lia|apply Z.div_lt_upper_bound; lia].
    + destruct n; [simpl in Hz; lia|lia].
Qed.

Lemma enc_var_prefix : forall n m z p a2, a2 <> [] -> p ++ a2 = enc_var n z -> dec_var m p = None.
Proof.
  induction n; intros m z p a2 Ha E.
  - simpl in E. apply app_eq_nil in E. destruct E as (_ & E). contradiction.
  - cbn [enc_var] in E. destruct (Z.ltb_spec z 128).
    + destruct p as [|x p]; [destruct m; reflexivity|]. injection E as -> E.
      apply app_eq_nil in E. destruct E as (_ & E). contradiction.
    + destruct p as [|x p]; [destruct m; reflexivity|]. injection E as -> E.
      pose proof (Z.mod_pos_bound z 128 ltac:(lia)).
      destruct m; [reflexivity|]. cbn [dec_var]. destruct (Z.ltb_spec (z mod 128 + 128) 128); [lia|].
      rewrite (IHn m _ p a2 Ha E). reflexivity.
Qed.

Lemma pow128_10 : 128 ^ Z.of_nat 10 = 2 ^ 70. Proof. reflexivity. Qed.
Lemma dec_varint64_enc : forall z r, 0 <= z < 2 ^ 64 -> dec_varint64 (enc_varint z ++ r) = Some (z, r).
Proof.
  intros. unfold dec_varint64, enc_varint. rewrite dec_enc_var by (rewrite ?pow128_10; lia).
  rewrite Z.mod_small by lia. reflexivity.
Qed.
Lemma dec_varint32_enc : forall z r, 0 <= z < 2 ^ 32 -> dec_varint32 (enc_varint z ++ r) = Some (z, r).
Proof.
  intros. unfold dec_varint32, enc_varint. rewrite dec_enc_var by (rewrite ?pow128_10; lia).
  rewrite Z.mod_small by lia. reflexivity.
Qed.
Lemma dec_varint64_prefix : forall z p a2, a2 <> [] -> p ++ a2 = enc_varint z -> dec_varint64 p = None.
Proof. intros. unfold dec_varint64. erewrite enc_var_prefix; eauto. Qed.
Lemma dec_varint32_prefix : forall z p a2, a2 <> [] -> p ++ a2 = enc_varint z -> dec_varint32 p = None.
Proof. intros. unfold dec_varint32. erewrite enc_var_prefix; eauto. Qed.

(** ** fixed width *)
Lemma enc_le_length : forall n z, length (enc_le n z) = n.
Proof. induction n; intros; simpl; auto. Qed.
Lemma dec_enc_le : forall n z r, 0 <= z < 256 ^ Z.of_nat n -> dec_le n (enc_le n z ++ r) = Some (z, r).
Proof.
  induction n; intros z r Hz.
  - simpl in *. f_equal. f_equal. lia.
  - cbn [enc_le app dec_le]. rewrite Nat2Z.inj_succ, Z.pow_succ_r in Hz by lia. rewrite IHn.
    + f_equal. f_equal. pose proof (Z.div_mod z 256 ltac:(lia)). lia.
    + split; [apply Z.div_pos; lia|apply Z.div_lt_upper_bound; lia].
Qed.
Lemma dec_le_short : forall n p, (length p < n)%nat -> dec_le n p = None.
Proof.
  induction n; intros p H; [lia|]. destruct p as [|b p]; [reflexivity|]. simpl in *.
  rewrite IHn by lia. reflexivity.
Qed.
Lemma prefix_length : forall A (p a2 a : list A), a2 <> [] -> p ++ a2 = a -> (length p < length a)%nat.
Proof. intros A p a2 a N <-. rewrite app_length. destruct a2; [contradiction|simpl; lia]. Qed.

(** ** fields *)
Definition field_ok (f : field) : Prop :=
  match f with
  | FVar n v => 1 <= n < 2 ^ 28 /\ 0 <= v < 2 ^ 64
  | FFix64 n v => 1 <= n < 2 ^ 28 /\ 0 <= v < 2 ^ 64
  | FLen n b => 1 <= n < 2 ^ 28 /\ Z.of_nat (length b) < 2 ^ 32
  | FFix32 n v => 1 <= n < 2 ^ 28 /\ 0 <= v < 2 ^ 32
  end.

Lemma enc_field_length : forall f, (1 <= length (enc_field f))%nat.
Proof.
  intros f. assert (L : forall z r, (1 <= length (enc_varint z ++ r))%nat).
  { intros. pose proof (enc_var_nonempty 10 z ltac:(lia)). unfold enc_varint.
    destruct (enc_var 10 z); [contradiction|simpl; lia]. }
  destruct f; apply L.
Qed.

Lemma tag_div : forall n k, 0 <= k < 8 -> (8 * n + k) / 8 = n.
Proof. intros. symmetry. apply (Z.div_unique _ _ _ k); lia. Qed.
Lemma tag_mod : forall n k, 0 <= k < 8 -> (8 * n + k) mod 8 = k.
Proof. intros. symmetry. apply (Z.mod_unique _ _ n); lia. Qed.

Lemma dec_enc_field : forall f r, field_ok f -> dec_field (enc_field f ++ r) = Some (f, r).
Proof.
  intros f r H. unfold dec_field. destruct f as [n v|n v|n b|n v]; destruct H as [Hn Hv]; cbn [enc_field];
    rewrite <- !app_assoc; rewrite dec_varint32_enc by lia.
  - replace (8 * n) with (8 * n + 0) by lia. rewrite tag_div, tag_mod by lia.
    destruct (Z.eqb_spec n 0); [lia|]. rewrite dec_varint64_enc by lia. reflexivity.
  - rewrite tag_div, tag_mod by lia.
    destruct (Z.eqb_spec n 0); [lia|]. rewrite dec_enc_le by (change (256 ^ Z.of_nat 8) with (2 ^ 64); lia). reflexivity.
  - rewrite tag_div, tag_mod by lia.
    destruct (Z.eqb_spec n 0); [lia|]. rewrite dec_varint32_enc by lia.
    rewrite app_length. destruct (Z.leb_spec (Z.of_nat (length b)) (Z.of_nat (length b + length r))); [|lia].
    rewrite Nat2Z.id, firstn_app, Nat.sub_diag, firstn_all, skipn_app, skipn_all, Nat.sub_diag. simpl.
    rewrite app_nil_r. reflexivity.
  - rewrite tag_div, tag_mod by lia.
    destruct (Z.eqb_spec n 0); [lia|]. rewrite dec_enc_le by (change (256 ^ Z.of_nat 4) with (2 ^ 32); lia). reflexivity.
Qed.

Lemma dec_field_prefix : forall f p a2, field_ok f -> a2 <> [] -> p ++ a2 = enc_field f -> dec_field p = None.
Proof.
  intros f p a2 H N E. unfold dec_field.
  destruct f as [n v|n v|n b|n v]; destruct H as [Hn Hv]; cbn [enc_field] in E;
    (destruct (prefix_split _ _ _ _ _ E N) as [(p' & -> & E')|(a3 & N3 & E')];
     [|rewrite (dec_varint32_prefix _ _ _ N3 E'); reflexivity]);
    rewrite dec_varint32_enc by lia.
  - replace (8 * n) with (8 * n + 0) by lia. rewrite tag_div, tag_mod by lia.
    destruct (n =? 0); auto. rewrite (dec_varint64_prefix _ _ _ N E'). reflexivity.
  - rewrite tag_div, tag_mod by lia. destruct (n =? 0); auto.
    rewrite dec_le_short; auto. pose proof (prefix_length _ _ _ _ N E'). rewrite enc_le_length in *. lia.
  - rewrite tag_div, tag_mod by lia. destruct (n =? 0); auto.
    destruct (prefix_split _ _ _ _ _ E' N) as [(p2 & -> & E2)|(a3 & N3 & E2)].
    + rewrite dec_varint32_enc by lia. pose proof (prefix_length _ _ _ _ N E2).
      destruct (Z.leb_spec (Z.of_nat (length b)) (Z.of_nat (length p2))); [lia|reflexivity].
    + rewrite (dec_varint32_prefix _ _ _ N3 E2). reflexivity.
  - rewrite tag_div, tag_mod by lia. destruct (n =? 0); auto.
    rewrite dec_le_short; auto. pose proof (prefix_length _ _ _ _ N E'). rewrite enc_le_length in *. lia.
Qed.

Lemma enc_fields_length : forall fs, (length fs <= length (enc_fields fs))%nat.
Proof.
  induction fs as [|f fs IH]; [simpl; auto|]. unfold enc_fields in *. cbn [flat_map length]. rewrite app_length.
  pose proof (enc_field_length f). lia.
Qed.

Lemma dec_fields_enc : forall fs fuel, Forall field_ok fs -> (length fs <= fuel)%nat ->
  dec_fields fuel (enc_fields fs) = Some fs.
Proof.
  induction fs as [|f fs IH]; intros fuel HF Hl; [destruct fuel; reflexivity|].
  inversion HF; subst. destruct fuel as [|fuel]; [simpl in Hl; lia|].
  assert (NE : enc_fields (f :: fs) <> []).
  { unfold enc_fields; cbn [flat_map]. pose proof (enc_field_length f). destruct (enc_field f); [simpl in *; lia|discriminate]. }
  cbn [dec_fields]. destruct (enc_fields (f :: fs)) eqn:E; [contradiction|]. rewrite <- E.
  unfold enc_fields. cbn [flat_map]. rewrite dec_enc_field by auto. fold (enc_fields fs).
  rewrite IH by (auto; simpl in Hl; lia). reflexivity.
Qed.

Lemma parse_enc : forall fs, Forall field_ok fs -> parse (enc_fields fs) = Some fs.
Proof. intros. unfold parse. apply dec_fields_enc; auto. apply enc_fields_length. Qed.

Lemma dec_fields_prefix : forall fs fuel p q, Forall field_ok fs -> q <> [] -> p ++ q = enc_fields fs ->
  dec_fields fuel p = None \/
  exists fs1 fs2, fs = fs1 ++ fs2 /\ fs2 <> [] /\ dec_fields fuel p = Some fs1.
Proof.
  induction fs as [|f fs IH]; intros fuel p q HF N E.
  - apply app_eq_nil in E. destruct E; contradiction.
  - inversion HF; subst. destruct p as [|x p0] eqn:Ep.
    { right. exists [], (f :: fs). split; auto. split; [discriminate|]. destruct fuel; reflexivity. }
    rewrite <- Ep in *. destruct fuel as [|fuel]; [left; rewrite Ep; reflexivity|].
    cbn [dec_fields]. replace (match p with [] => _ | _ => _ end) with
      (match dec_field p with
       | Some (f0, r) => match dec_fields fuel r with Some fs0 => Some (f0 :: fs0) | None => None end
       | None => None end) by (rewrite Ep; reflexivity).
    unfold enc_fields in E. cbn [flat_map] in E.
    destruct (prefix_split _ _ _ _ _ E N) as [(p' & E1 & E2)|(a2 & N2 & E2)].
    + rewrite E1, dec_enc_field by auto. destruct (IH fuel p' q) as [->|(fs1 & fs2 & E3 & N3 & ->)]; auto.
      right. exists (f :: fs1), fs2. rewrite E3. auto.
    + left. rewrite (dec_field_prefix f p a2); auto.
Qed.

Lemma parse_prefix : forall fs p q, Forall field_ok fs -> q <> [] -> p ++ q = enc_fields fs ->
  parse p = None \/ exists fs1 fs2, fs = fs1 ++ fs2 /\ fs2 <> [] /\ parse p = Some fs1.
Proof. intros. unfold parse. eapply dec_fields_prefix; eauto. Qed.

(** ** framed messages *)
Definition msg_ok (fs : list field) : Prop :=
  Forall field_ok fs /\ fs <> [] /\ Z.of_nat (length (enc_fields fs)) < 2 ^ 31.

Lemma msg_size_pos : forall fs, msg_ok fs -> 0 < Z.of_nat (length (enc_fields fs)) < 2 ^ 31.
Proof.
  intros fs (_ & N & H). pose proof (enc_fields_length fs). destruct fs; [contradiction|simpl in *; lia].
Qed.

Lemma read_write_msg : forall fs r, msg_ok fs ->
  exists eof, readProtoMsg (writeProtoMsg fs ++ r) = Some (fs, r, eof) /\
    (kChunk <= Z.of_nat (length r) -> eof = false).
Proof.
  intros fs r H. pose proof (msg_size_pos fs H) as S. destruct H as (HF & N & HL).
  unfold writeProtoMsg, readProtoMsg, u32. rewrite <- app_assoc.
  set (n := Z.of_nat (length (enc_fields fs))) in *. rewrite (Z.mod_small n) by lia.
  set (rest := enc_varint n ++ enc_fields fs ++ r).
  replace (dec_varint32 rest) with (Some (n, enc_fields fs ++ r)) by (symmetry; apply dec_varint32_enc; lia).
  destruct (Z.eqb_spec n 0); [lia|]. destruct (Z.ltb_spec n (2 ^ 31)); [|lia].
  replace (firstn (Z.to_nat n) (enc_fields fs ++ r)) with (enc_fields fs)
    by (unfold n; rewrite Nat2Z.id, firstn_app, Nat.sub_diag, firstn_all, firstn_O, app_nil_r; reflexivity).
  rewrite parse_enc by auto. rewrite skipn_app, skipn_all, Nat.sub_diag, skipn_O. cbn [app].
  eexists; split; [reflexivity|]. intros Hr. apply orb_false_iff. fold n. split; [|apply Z.ltb_ge; lia].
  apply Z.ltb_ge. unfold rest. rewrite !app_length, !Nat2Z.inj_add.
  generalize (Z.of_nat (length (enc_varint n))); intros a.
  fold n. replace (a + (n + Z.of_nat (length r)) - Z.of_nat (length r)) with (a + n) by lia.
  unfold kChunk in *.
  pose proof (Z.div_mod (a + n + (8192 - 1)) 8192 ltac:(lia)).
  pose proof (Z.mod_pos_bound (a + n + (8192 - 1)) 8192 ltac:(lia)). lia.
Qed.

Lemma read_msg_prefix : forall fs p q, msg_ok fs -> q <> [] -> p ++ q = writeProtoMsg fs ->
  readProtoMsg p = None \/
  exists fs1 fs2, fs = fs1 ++ fs2 /\ fs2 <> [] /\ readProtoMsg p = Some (fs1, [], true).
Proof.
  intros fs p q H N E. pose proof (msg_size_pos fs H) as S. destruct H as (HF & N0 & HL).
  unfold writeProtoMsg, u32 in E. set (n := Z.of_nat (length (enc_fields fs))) in *.
  rewrite (Z.mod_small n) in E by lia.
  destruct (prefix_split _ _ _ _ _ E N) as [(p' & -> & E')|(a2 & N2 & E')].
  - unfold readProtoMsg. rewrite dec_varint32_enc by lia.
    destruct (Z.eqb_spec n 0); [lia|]. destruct (Z.ltb_spec n (2 ^ 31)); [|lia].
    pose proof (prefix_length _ _ _ _ N E').
    rewrite firstn_all2 by (unfold n; rewrite Nat2Z.id; lia).
    destruct (parse_prefix fs p' q HF N E') as [-> | (fs1 & fs2 & E2 & N2 & ->)]; [left; reflexivity|].
    right. exists fs1, fs2. split; auto. split; auto. rewrite skipn_all.
    f_equal. f_equal. apply orb_true_iff. right. apply Z.ltb_lt. unfold n. lia.
  - left. unfold readProtoMsg. rewrite (dec_varint32_prefix n p a2); auto.
Qed.

(** ** the two messages *)
Lemma wrap32_u64 : forall v, is_int32 v -> wrap32 (u64 v) = v.
Proof.
  intros v H. unfold wrap32, u64, is_int32 in *.
  destruct (Z_lt_le_dec v 0).
  - assert (E : v mod 2 ^ 64 = v + 2 ^ 64) by (symmetry; apply (Z.mod_unique _ _ (-1)); lia).
    rewrite E.
    assert (E2 : (v + 2 ^ 64 + 2 ^ 31) mod 2 ^ 32 = v + 2 ^ 31)
      by (symmetry; apply (Z.mod_unique _ _ (2 ^ 32)); lia).
    rewrite E2. lia.
  - rewrite (Z.mod_small v) by lia. rewrite Z.mod_small by lia. lia.
Qed.

Lemma bp_data_fields : forall d p, Forall (fun w => 0 <= w < 2 ^ 32) d ->
  fold_left bp_merge (map (FVar 7) d) p =
  MkBP (bp_vps p) (bp_voxel_size p) (bp_x p) (bp_y p) (bp_z p) (bp_has_data p) (bp_data p ++ d).
Proof.
  induction d as [|w d IH]; intros p HF; cbn [map fold_left].
  - rewrite app_nil_r. destruct p; reflexivity.
  - inversion HF; subst. rewrite IH by auto. cbn. rewrite Z.mod_small by lia.
    rewrite <- app_assoc. reflexivity.
Qed.

Definition bp_ok (p : BlockProto) : Prop :=
  is_int32 (bp_vps p) /\ Forall (fun w => 0 <= w < 2 ^ 32) (bp_data p).

Lemma bp_back : forall p, bp_ok p -> bp_of_fields (bp_fields p) = p.
Proof.
  intros [v s x y z h d] (Hv & Hd). unfold bp_of_fields, bp_fields.
  cbn [bp_vps bp_voxel_size bp_x bp_y bp_z bp_has_data bp_data] in *.
  rewrite fold_left_app. rewrite bp_data_fields by auto.
  cbn [fold_left bp_merge bp_default bp_vps bp_voxel_size bp_x bp_y bp_z bp_has_data bp_data app].
  rewrite wrap32_u64, !dbits_dword by auto. f_equal. destruct h; reflexivity.
Qed.

Lemma bp_fields_ok : forall p, bp_ok p -> Forall field_ok (bp_fields p).
Proof.
  intros p (Hv & Hd). unfold bp_fields. apply Forall_app; split.
  - repeat constructor; cbn [field_ok]; try lia; try apply dword_range.
    + apply Z.mod_pos_bound; lia.
    + apply Z.mod_pos_bound; lia.
    + destruct (bp_has_data p); lia.
    + destruct (bp_has_data p); lia.
  - apply Forall_forall. intros f Hf. apply in_map_iff in Hf. destruct Hf as (w & <- & Hw).
    rewrite Forall_forall in Hd. specialize (Hd _ Hw). cbn [field_ok]. lia.
Qed.

(** a proper prefix of the fields of a block message has fewer words *)
Lemma bp_data_length_app : forall fs p, 
  Forall (fun f => match f with FLen 7 _ => False | _ => True end) fs ->
  length (bp_data (fold_left bp_merge fs p)) =
  (length (bp_data p) + length (filter (fun f => match f with FVar 7 _ => true | _ => false end) fs))%nat.
Proof.
  induction fs as [|f fs IH]; intros p HF; cbn [fold_left filter]; [simpl; lia|].
  inversion HF; subst. rewrite IH by auto. clear IH.
  destruct f as [n v|n v|n b|n v]; cbn [bp_merge].
  all: repeat match goal with |- context [match ?n with _ => _ end] => is_var n; destruct n end;
    cbn [bp_data length]; rewrite ?app_length; cbn [length]; try lia; try tauto.
Qed.

Lemma bp_prefix_short : forall p fs1 fs2, bp_data p <> [] -> bp_fields p = fs1 ++ fs2 -> fs2 <> [] ->
  (length (bp_data (bp_of_fields fs1)) < length (bp_data p))%nat.
Proof.
  intros p fs1 fs2 Hd E N. unfold bp_of_fields.
  set (is7 := fun f => match f with FVar 7 _ => true | _ => false end).
  assert (NL : Forall (fun f => match f with FLen 7 _ => False | _ => True end) (bp_fields p)).
  { unfold bp_fields. apply Forall_app; split; [repeat constructor|].
    apply Forall_forall. intros f Hf. apply in_map_iff in Hf. destruct Hf as (w & <- & Hw). exact I. }
  rewrite bp_data_length_app by (rewrite E in NL; apply Forall_app in NL; apply NL).
  cbn [bp_data bp_default length]. fold is7.
  assert (C : length (filter is7 (bp_fields p)) = length (bp_data p)).
  { unfold bp_fields. rewrite filter_app, app_length. cbn [filter is7 length Nat.add].
    generalize (bp_data p). intros d. induction d; simpl; auto. }
  rewrite <- C, E, filter_app, app_length.
  assert (0 < length (filter is7 fs2))%nat; [|lia].
  destruct (exists_last N) as (fs3 & f & ->).
  assert (L : is7 f = true).
  { assert (last (bp_fields p) f = f) by (rewrite E, app_assoc; apply last_last).
    unfold bp_fields in H. destruct (exists_last Hd) as (d0 & w & Ed). rewrite Ed, map_app, app_assoc in H.
    cbn [map] in H. rewrite last_last in H. rewrite <- H. reflexivity. }
  rewrite filter_app, app_length. cbn [filter]. rewrite L. simpl. lia.
Qed.

Definition lp_ok (p : LayerProto) : Prop :=
  0 <= lp_vps p < 2 ^ 32 /\ Z.of_nat (length (lp_type p)) < 100.
Lemma lp_back : forall p, lp_ok p -> lp_of_fields (lp_fields p) = p.
Proof.
  intros [s v t] (Hv & Ht). unfold lp_of_fields, lp_fields. cbn in *.
  rewrite dbits_dword, Z.mod_small by lia. reflexivity.
Qed.
Lemma enc_varint_length : forall z, (length (enc_varint z) <= 10)%nat.
Proof. intros; apply enc_var_length. Qed.
Lemma lp_msg_ok : forall p, lp_ok p -> msg_ok (lp_fields p).
Proof.
  intros [s v t] (Hv & Ht). cbn [lp_vps lp_type] in *. split; [|split].
  - repeat constructor; cbn [field_ok lp_vps lp_type]; try lia; try apply dword_range.
  - discriminate.
  - unfold enc_fields, lp_fields. cbn [flat_map enc_field lp_voxel_size lp_vps lp_type].
    rewrite app_nil_r, !app_length, enc_le_length.
    repeat match goal with |- context [length (enc_varint ?z)] =>
      pose proof (enc_varint_length z); generalize dependent (length (enc_varint z)); intros end.
    lia.
Qed.

(** a truncated layer header has lost its type *)
Lemma lp_prefix_type : forall p fs1 fs2, lp_fields p = fs1 ++ fs2 -> fs2 <> [] ->
  lp_type (lp_of_fields fs1) = [].
Proof.
  intros p fs1 fs2 E N. unfold lp_fields in E.
  destruct fs1 as [|a [|b [|c [|d fs1]]]]; cbn [app] in E.
  - reflexivity.
  - injection E as <- E. reflexivity.
  - injection E as <- <- E. reflexivity.
  - injection E as <- <- <- E. subst. contradiction.
  - injection E as _ _ _ E. discriminate.
Qed.
