(** Proofs about centring a layer. *)
From Coq Require Import ZArith List Bool Reals Lra Lia.
From Flocq Require Import Core.
From Verif Require Import F32 F32_lemmas F32_err Types Index Voxel Serialize Assoc Assoc_lemmas Layer LayerUtils LayerUtils_spec Connect_proofs.
Import ListNotations.
Open Scope Z_scope.

Definition shift1 {k} (s : idx3) (o : pt3) (kb : idx3 * Block k) : idx3 * Block k :=
  (idx_sub (fst kb) s, set_origin (pt_sub (b_origin (snd kb)) o) (snd kb)).
Lemma idx_sub_inj : forall i j s, idx_sub i s = idx_sub j s -> i = j.
Proof.
  intros [a b c] [d e f] [x y z] H. unfold idx_sub, zip3 in H. cbn [vx vy vz] in H. injection H as A B C. f_equal; lia.
Qed.
Lemma seq3_int : forall v j, seq3 (map3 (fun z => to_int32 (Some z)) v) = Some j -> j = v.
Proof.
  intros [a b c] j H. unfold seq3, map3, to_int32, in_range in H. cbn [vx vy vz] in H.
  repeat match type of H with context [if ?x then _ else _] => destruct x end; try discriminate. congruence.
Qed.
Lemma seq3_int_ok : forall v, all3 (fun z => Z.abs z <= 2 ^ 30) v -> seq3 (map3 (fun z => to_int32 (Some z)) v) = Some v.
Proof.
  intros [a b c] (A & B & C). cbn [vx vy vz] in *. unfold seq3, map3, to_int32, in_range. cbn [vx vy vz].
  repeat match goal with |- context [?x && ?y] => replace (x && y) with true by (symmetry; apply andb_true_iff; rewrite !Z.leb_le; lia) end.
  reflexivity.
Qed.
Lemma ainsert_fresh : forall B i (b : B) m, ~ In i (akeys m) -> ainsert i b m = m ++ [(i, b)].
Proof. intros B i b m H. unfold ainsert. apply alookup_None in H. rewrite H. reflexivity. Qed.
Lemma akeys_app : forall B (m m' : amap B), akeys (m ++ m') = akeys m ++ akeys m'.
Proof. intros. apply map_app. Qed.
Lemma shifted_ok : forall k s o (m acc : amap (Block k)) r, NoDup (akeys m) ->
  (forall i, In i (akeys m) -> ~ In (idx_sub i s) (akeys acc)) ->
  shifted s o m acc = Ok r -> r = acc ++ map (shift1 s o) m.
Proof.
  induction m as [|(i, b) m IH]; intros acc r N D E; cbn [shifted] in E.
  - injection E as <-. rewrite app_nil_r. reflexivity.
  - apply rbind_ok in E. destruct E as (j & E1 & E). apply of_opt_ok in E1. apply seq3_int in E1. subst j.
    inversion N as [|? ? Ni N']; subst.
    rewrite ainsert_fresh in E by (apply D; left; reflexivity).
    apply IH in E; [|auto|].
    + subst r. rewrite <- app_assoc. reflexivity.
    + intros j J. rewrite akeys_app, in_app_iff. intros [H|[H|[]]].
      * apply (D j); [right; auto|auto].
      * cbn [fst] in H. apply idx_sub_inj in H. subst j. apply Ni. exact J.
Qed.
Lemma shifted_total : forall k s o (m acc : amap (Block k)),
  (forall i, In i (akeys m) -> all3 (fun z => Z.abs z <= 2 ^ 30) (idx_sub i s)) -> exists r, shifted s o m acc = Ok r.
Proof.
  induction m as [|(i, b) m IH]; intros acc H; cbn [shifted]; [eexists; reflexivity|].
  rewrite (seq3_int_ok _ (H i (or_introl eq_refl))). cbn [of_opt rbind]. apply IH. intros j J. apply H. right. exact J.
Qed.
Lemma reinsert : forall k (m : amap (Block k)) (l : Layer k), NoDup (akeys (l_blocks l) ++ akeys m) ->
  fold_left (fun t kb => insertBlock t (fst kb) (snd kb)) m l = with_blocks l (l_blocks l ++ m).
Proof.
  induction m as [|(i, b) m IH]; intros l N; cbn [fold_left].
  - rewrite app_nil_r. destruct l; reflexivity.
  - cbn [akeys map fst] in N. fold (akeys m) in N.
    assert (F : ~ In i (akeys (l_blocks l))). { apply NoDup_remove_2 in N. intros J. apply N. apply in_or_app. auto. }
    rewrite IH.
    + unfold insertBlock. cbn [fst snd with_blocks l_blocks l_size l_vps]. rewrite (ainsert_fresh _ _ _ _ F), <- app_assoc. reflexivity.
    + unfold insertBlock. cbn [fst snd with_blocks l_blocks l_size l_vps]. rewrite (ainsert_fresh _ _ _ _ F), akeys_app, <- app_assoc. exact N.
Qed.
Lemma akeys_shift : forall k s o (m : amap (Block k)), akeys (map (shift1 s o) m) = map (fun i => idx_sub i s) (akeys m).
Proof. intros. unfold akeys. rewrite !map_map. reflexivity. Qed.
Lemma NoDup_shift : forall s l, NoDup l -> NoDup (map (fun i => idx_sub i s) l).
Proof.
  intros s l N. induction N; cbn; constructor; auto. intros J. apply in_map_iff in J. destruct J as (j & E & J).
  apply idx_sub_inj in E. congruence.
Qed.
Lemma center_shape : forall k (l l' : Layer k) o, NoDup (getAllAllocatedBlocks l) -> centerBlocksOfLayer l = Ok (l', o) ->
  exists s, index_centroid l = Some s /\ o = map3 (fun z => fmul (f32_of_Z z) (l_block_size l)) s /\
    l' = with_blocks l (map (shift1 s o) (l_blocks l)).
Proof.
  intros k l l' o N E. unfold centerBlocksOfLayer in E. apply rbind_ok in E. destruct E as (s & E1 & E). apply of_opt_ok in E1.
  set (o0 := map3 _ s) in E. cbv zeta in E. apply rbind_ok in E. destruct E as (m & E2 & E).
  apply shifted_ok in E2; [|exact N|intros i _ []]. cbn [app] in E2. subst m.
  assert (ND : NoDup (akeys (l_blocks (removeAllBlocks l)) ++ akeys (map (shift1 s o0) (l_blocks l)))).
  { cbn [removeAllBlocks with_blocks l_blocks akeys map app]. rewrite akeys_shift. apply NoDup_shift. exact N. }
  rewrite (reinsert _ _ _ ND) in E.
  destruct (Nat.eqb _ _) in E; [|discriminate]. injection E as <- <-. exists s. split; [auto|split; auto].
Qed.
Lemma center_total : forall k (l : Layer k) s, NoDup (getAllAllocatedBlocks l) -> index_centroid l = Some s ->
  (forall i b, l_get l i = Some b -> all3 (fun z => Z.abs z <= 2 ^ 30) (idx_sub i s)) ->
  exists l' o, centerBlocksOfLayer l = Ok (l', o).
Proof.
  intros k l s N E H. unfold centerBlocksOfLayer. rewrite E. cbn [of_opt rbind]. set (o0 := map3 _ s).
  destruct (shifted_total k s o0 (l_blocks l) []) as (m & Em).
  { intros i J. apply akeys_In in J. destruct J as (b & B). apply (H i b B). }
  rewrite Em. cbn [rbind]. apply shifted_ok in Em; [|exact N|intros i _ []]. cbn [app] in Em. subst m.
  assert (ND : NoDup (akeys (l_blocks (removeAllBlocks l)) ++ akeys (map (shift1 s o0) (l_blocks l)))).
  { cbn [removeAllBlocks with_blocks l_blocks akeys map app]. rewrite akeys_shift. apply NoDup_shift. exact N. }
  rewrite (reinsert _ _ _ ND). unfold getNumberOfAllocatedBlocks. cbn [removeAllBlocks with_blocks l_blocks app].
  rewrite map_length, Nat.eqb_refl. eauto.
Qed.
Lemma alookup_shift : forall k s o (m : amap (Block k)) i,
  alookup (idx_sub i s) (map (shift1 s o) m) = option_map (fun b => set_origin (pt_sub (b_origin b) o) b) (alookup i m).
Proof.
  induction m as [|(j, b) m IH]; intros i; [reflexivity|]. cbn [map alookup shift1 fst snd].
  destruct (idx_eqb_spec i j) as [->|N]; [rewrite idx_eqb_refl; reflexivity|].
  rewrite idx_eqb_neq; [apply IH|]. intros H. apply idx_sub_inj in H. contradiction.
Qed.

(** ** size of the centroid *)
Section Axis.
Local Open Scope R_scope.
Lemma rnd_near : forall x y : R, generic_format radix2 (FLT_exp (-149) 24) x -> Rabs (rnd32 (x + y) - (x + y)) <= Rabs y.
Proof.
  intros x y G. pose proof (round_N_pt radix2 (FLT_exp (-149) 24) (fun n => negb (Z.even n)) (x + y)) as [_ H].
  specialize (H x G). replace (x - (x + y)) with (- y) in H by ring. rewrite Rabs_Ropp in H. exact H.
Qed.
Lemma sum_bound : forall M (xs : list f32) acc n, 0 <= M -> ffin acc = true -> Rabs (FR acc) <= 2 * INR n * M ->
  Forall (fun x => ffin x = true /\ Rabs (FR x) <= M) xs -> 2 * INR (n + length xs) * M < max32 ->
  ffin (fold_left fadd xs acc) = true /\ Rabs (FR (fold_left fadd xs acc)) <= 2 * INR (n + length xs) * M.
Proof.
  intros M xs. induction xs as [|x xs IH]; intros acc n P Fa Ba H L; cbn [fold_left].
  - cbn [length] in *. rewrite Nat.add_0_r in *. auto.
  - inversion H as [|? ? (Fx & Bx) H']; subst. cbn [length] in *.
    assert (S1 : Rabs (rnd32 (FR acc + FR x)) <= 2 * INR (S n) * M).
    { pose proof (rnd_near (FR acc) (FR x) (FR_format acc)). rewrite S_INR.
      replace (rnd32 (FR acc + FR x)) with ((rnd32 (FR acc + FR x) - (FR acc + FR x)) + (FR acc + FR x)) by ring.
      eapply Rle_trans; [apply Rabs_triang|]. pose proof (Rabs_triang (FR acc) (FR x)). lra. }
    assert (S2 : 2 * INR (S n) * M <= 2 * INR (n + S (length xs)) * M).
    { apply Rmult_le_compat_r; auto. apply Rmult_le_compat_l; [lra|]. apply le_INR. lia. }
    destruct (fadd_R acc x Fa Fx) as (E & F); [lra|].
    replace (n + S (length xs))%nat with (S n + length xs)%nat in * by lia.
    apply IH; auto. rewrite E. auto.
Qed.
End Axis.
Lemma fold_pt_add : forall k (m : amap (Block k)) c,
  fold_left (fun c kb => pt_add c (b_origin (snd kb))) m c =
  V3 (fold_left fadd (map (fun kb => vx (b_origin (snd kb))) m) (vx c))
     (fold_left fadd (map (fun kb => vy (b_origin (snd kb))) m) (vy c))
     (fold_left fadd (map (fun kb => vz (b_origin (snd kb))) m) (vz c)).
Proof. induction m as [|(i, b) m IH]; intros [x y z]; cbn [fold_left map]; [reflexivity|]. rewrite IH. reflexivity. Qed.
Section Axis2.
Local Open Scope R_scope.
Lemma half1_R : FR half1 = / 2 /\ ffin half1 = true.
Proof. split; [|reflexivity]. unfold FR, half1. cbn. unfold Defs.F2R. cbn. lra. Qed.
Lemma count_R : forall n, (1 <= n <= 2 ^ 40)%Z -> ffin (f32_of_Z n) = true /\ IZR n * / 2 <= FR (f32_of_Z n).
Proof.
  intros n H. assert (B : Rabs (IZR n) <= bpow radix2 127).
  { rewrite <- abs_IZR. apply Rle_trans with (bpow radix2 40); [|apply bpow_le; lia]. change (bpow radix2 40) with (IZR (2 ^ 40)). apply IZR_le. lia. }
  destruct (f32_lit_R n 0) as (E & F). { change (bpow radix2 0) with 1. rewrite Rmult_1_r. apply rnd32_small. auto. }
  change (f32_lit n 0) with (f32_of_Z n) in *. change (bpow radix2 0) with 1 in E. rewrite Rmult_1_r in E. split; [auto|]. rewrite E.
  assert (1 <= IZR n) by (apply IZR_le; lia).
  destruct (rnd32_rel (IZR n)) as (d & D & R). { apply Rle_trans with 1; [change 1 with (bpow radix2 0); apply bpow_le; lia|rewrite Rabs_pos_eq; lra]. }
  rewrite R, bpow_m24 in *. unfold u32r in D. apply Rabs_le_inv in D. apply Rmult_le_compat_l; lra.
Qed.
Lemma div_bound : forall a b q, ffin a = true -> 0 < FR b -> Rabs (FR a) <= q * FR b -> / 100000000 <= q -> q <= bpow radix2 100 ->
  ffin (fdiv a b) = true /\ Rabs (FR (fdiv a b)) <= q * (1 + / 1000).
Proof.
  intros a b q Fa Pb H Q1 Q2.
  assert (D : Rabs (FR a / FR b) <= q).
  { unfold Rdiv. rewrite Rabs_mult, (Rabs_pos_eq (/ FR b)) by (left; apply Rinv_0_lt_compat; auto).
    apply (Rmult_le_reg_r (FR b)); auto. rewrite Rmult_assoc, Rinv_l by lra. lra. }
  destruct (fdiv_rel a b Fa) as (F & d & e & Bd & Be & E); [lra| |].
  { apply Rle_trans with (1 := D). apply Rle_trans with (1 := Q2). apply bpow_le. lia. }
  split; [auto|]. rewrite E. eapply Rle_trans; [apply Rabs_triang|]. rewrite Rabs_mult.
  pose proof t32r_small. unfold u32r in Bd. apply Rabs_le_inv in Bd. rewrite (Rabs_pos_eq (1 + d)) by lra.
  assert (Rabs (FR a / FR b) * (1 + d) <= q * (1 + / 16777216)).
  { apply Rmult_le_compat; [apply Rabs_pos|lra|auto|lra]. } lra.
Qed.
Lemma axis_int : forall (n : nat) bs (xs : list f32), length xs = n -> (1 <= n)%nat -> (Z.of_nat n <= 2 ^ 40)%Z ->
  ffin bs = true -> / 2 ^ 40 <= FR bs <= 2 ^ 40 ->
  Forall (fun x => ffin x = true /\ Rabs (FR x) <= 2 ^ 20 * FR bs) xs ->
  exists z, to_int32 (ftruncZ (fadd (fdiv (fdiv (fold_left fadd xs f0) (f32_of_Z (Z.of_nat n))) bs) half1)) = Some z /\ (Z.abs z <= 2 ^ 23)%Z.
Proof.
  intros n bs xs Ln N1 N2 Fb Bb H.
  assert (In : INR n = IZR (Z.of_nat n)) by apply INR_IZR_INZ.
  assert (N3 : 1 <= INR n <= 2 ^ 40). { rewrite In. split; [apply IZR_le; lia|]. replace (2 ^ 40) with (IZR (2 ^ 40)) by (cbn; lra). apply IZR_le. auto. }
  assert (Bm : 2 * INR n * (2 ^ 20 * FR bs) <= bpow radix2 101).
  { replace (bpow radix2 101) with (2 * 2 ^ 40 * (2 ^ 20 * 2 ^ 40)) by (cbn; lra).
    apply Rmult_le_compat; try lra. }
  destruct (sum_bound (2 ^ 20 * FR bs) xs f0 0) as (Fs & Bs); try reflexivity; try lra; auto.
  { change (FR f0) with 0. rewrite Rabs_R0. cbn. lra. }
  { rewrite Ln. cbn [Nat.add]. apply Rle_lt_trans with (1 := Bm). rewrite max32_pow. apply bpow_lt. lia. }
  cbn [Nat.add] in Bs. rewrite Ln in Bs.
  destruct (count_R (Z.of_nat n)) as (Fn & Bn); [lia|]. rewrite <- In in Bn.
  set (N := f32_of_Z (Z.of_nat n)) in *. clearbody N. set (S := fold_left fadd xs f0) in *. clearbody S.
  destruct (div_bound S N (4 * (2 ^ 20 * FR bs)) Fs) as (F1 & B1).
  { lra. }
  { apply Rle_trans with (1 := Bs). replace (2 * INR n * (2 ^ 20 * FR bs)) with (4 * (2 ^ 20 * FR bs) * (INR n * / 2)) by field.
    apply Rmult_le_compat_l; lra. }
  { lra. }
  { apply Rle_trans with (bpow radix2 62); [|apply bpow_le; lia]. cbn. lra. }
  destruct (div_bound (fdiv S N) bs (2 ^ 20 * 5) F1) as (F2 & B2).
  { lra. }
  { lra. }
  { lra. }
  { apply Rle_trans with (bpow radix2 62); [|apply bpow_le; lia]. cbn. lra. }
  set (q := fdiv (fdiv S N) bs) in *. clearbody q. destruct half1_R as (Eh & Fh).
  assert (B3 : Rabs (FR q + FR half1) <= 2 ^ 20 * 6). { eapply Rle_trans; [apply Rabs_triang|]. rewrite Eh, (Rabs_pos_eq (/ 2)) by lra. lra. }
  destruct (fadd_rel q half1 F2 Fh) as (F3 & e & Be & E3).
  { apply Rle_trans with (1 := B3). apply Rle_trans with (bpow radix2 62); [|apply bpow_le; lia]. cbn. lra. }
  rewrite (ftruncZ_R _ F3). set (z := Ztrunc _).
  assert (Bz : (Z.abs z <= 2 ^ 23)%Z).
  { apply le_IZR. rewrite abs_IZR. unfold z. rewrite <- Ztrunc_abs || idtac.
    apply Rle_trans with (Rabs (FR (fadd q half1))).
    - destruct (Rle_or_lt 0 (FR (fadd q half1))) as [P|P].
      + rewrite Ztrunc_floor by auto. rewrite !Rabs_pos_eq; auto; [apply Zfloor_lb|]. apply IZR_le. apply Zfloor_lub. exact P.
      + rewrite Ztrunc_ceil by lra. rewrite !Rabs_left1; [pose proof (Zceil_ub (FR (fadd q half1))); lra|lra|]. apply IZR_le. apply Zceil_glb. lra.
    - rewrite E3, Rabs_mult. unfold u32r in Be. apply Rabs_le_inv in Be. rewrite (Rabs_pos_eq (1 + e)) by lra.
      apply Rle_trans with (2 ^ 20 * 6 * 1.1); [|cbn; lra]. apply Rmult_le_compat; try lra. apply Rabs_pos. }
  exists z. split; auto. unfold to_int32, in_range.
  replace ((- 2 ^ 31 <=? z) && (z <=? 2 ^ 31 - 1))%Z with true; [reflexivity|]. symmetry. apply andb_true_iff. rewrite !Z.leb_le. lia.
Qed.
End Axis2.
Lemma moderate_centroid : forall k (l : Layer k), moderate l -> exists s, index_centroid l = Some s /\ all3 (fun z => Z.abs z <= 2 ^ 23) s.
Proof.
  intros k l (N & N1 & N2 & Fb & Bb & H). unfold index_centroid, centroid. rewrite fold_pt_add. unfold map3. cbn [vx vy vz].
  assert (P : forall i b, In (i, b) (l_blocks l) -> l_get l i = Some b) by (intros; apply alookup_NoDup; auto).
  unfold getNumberOfAllocatedBlocks in *.
  destruct (axis_int (length (l_blocks l)) (l_block_size l) (map (fun kb => vx (b_origin (snd kb))) (l_blocks l)) (map_length _ _) N1 N2 Fb Bb) as (x & -> & X).
  { apply Forall_forall. intros v J. apply in_map_iff in J. destruct J as ((i, b) & <- & J). apply P, H in J. apply J. }
  destruct (axis_int (length (l_blocks l)) (l_block_size l) (map (fun kb => vy (b_origin (snd kb))) (l_blocks l)) (map_length _ _) N1 N2 Fb Bb) as (y & -> & Y).
  { apply Forall_forall. intros v J. apply in_map_iff in J. destruct J as ((i, b) & <- & J). apply P, H in J. apply J. }
  destruct (axis_int (length (l_blocks l)) (l_block_size l) (map (fun kb => vz (b_origin (snd kb))) (l_blocks l)) (map_length _ _) N1 N2 Fb Bb) as (z & -> & Z).
  { apply Forall_forall. intros v J. apply in_map_iff in J. destruct J as ((i, b) & <- & J). apply P, H in J. apply J. }
  exists (V3 x y z). split; [reflexivity|split; auto].
Qed.
