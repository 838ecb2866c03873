From Coq Require Import ZArith List Bool Reals Lra Lia Permutation.
From Flocq Require Import Core IEEE754.Binary.
From Verif Require Import F32 F32_lemmas F32_err Types Assoc Index Index_float Neighbor_proofs Voxel Layer Mesh_spec Interp Interp_spec Interp_float Interp_axis Interp_proofs Grad WeightQ.
Import ListNotations.
Open Scope Z_scope.

(** the eight voxels are observed voxels of the layer *)
Lemma eight_from : forall k (l : Layer k) g xs, eight_voxels l g = Some xs -> length xs = 8%nat /\
  forall x, In x xs -> isObservedVoxel k x = true /\ exists h, voxel_at l h = Some x.
Proof.
  intros k l g xs. unfold eight_voxels, eight_corners. cbn [map].
  assert (K : forall (os : list (option (vox k))) ys, collect os = Some ys -> length ys = length os /\ forall y, In y ys -> In (Some y) os).
  { induction os as [|[a|] os IH]; cbn [collect]; intros ys H; [injection H as <-; cbn; auto| |discriminate].
    destruct (collect os) as [zs|]; [|discriminate]. injection H as <-. destruct (IH zs eq_refl) as (L & I). cbn [length]. split; [lia|].
    intros y [->|Hy]; cbn [In]; auto. }
  intros H. destruct (K _ _ H) as (L & I). split; [exact L|]. intros x Hx. specialize (I x Hx).
  assert (O : forall h, observed_at l h = Some x -> isObservedVoxel k x = true /\ exists h', voxel_at l h' = Some x).
  { intros h Hh. unfold observed_at in Hh. destruct (voxel_at l h) as [v|] eqn:V; [|discriminate]. destruct (isObservedVoxel k v) eqn:Q; [|discriminate].
    injection Hh as <-. split; [exact Q|]. exists h. exact V. }
  cbn [In] in I. repeat (destruct I as [I|I]; [eapply O, I|]). contradiction.
Qed.

Lemma member_err : forall k (f : vox k -> f32) rows top B xs o, (forall j, (j < 8)%nat -> complete_order (rows j)) -> complete_order top ->
  length xs = 8%nat ->
  all3 (fun x => ffin x = true /\ (0 <= FR x <= 1.125)%R) o -> (forall x, In x xs -> ffin (f x) = true /\ (Rabs (FR (f x)) <= B)%R) -> (B <= bpow radix2 100)%R ->
  ffin (interpMember rows top (q_vector o) (map f xs)) = true /\
  (Rabs (FR (interpMember rows top (q_vector o) (map f xs)) - trilinear (fun i => FR (nth i (map f xs) f0)) (FR (vx o)) (FR (vy o)) (FR (vz o)))
     <= / 2 ^ 14 * B + bpow radix2 (-140))%R.
Proof.
  intros k f rows top B xs o HR HT L Ho HB BB. apply interp_float_err; auto.
  intros i Hi. destruct (nth_error xs i) as [x|] eqn:N; [|apply nth_error_None in N; lia].
  rewrite (nth_error_nth (map f xs) i f0 (x := f x)) by (apply map_nth_error; exact N). apply HB. eapply nth_error_In; eauto.
Qed.

(** ** Sums of small integers are exact *)
Lemma int_sum : forall t (x : nat -> f32) (z : nat -> Z) m, (length (terms t) <= m)%nat -> (m <= 8)%nat ->
  (forall i, In i (terms t) -> ffin (x i) = true /\ FR (x i) = IZR (z i) /\ Z.abs (z i) <= 1) ->
  let s := fold_right Z.add 0 (map z (terms t)) in
  ffin (ordered_sum t x) = true /\ FR (ordered_sum t x) = IZR s /\ Z.abs s <= Z.of_nat (length (terms t)).
Proof.
  induction t as [i|a IHa b IHb]; intros x z m L M H; cbv zeta; cbn [ordered_sum terms] in *.
  - destruct (H i (or_introl eq_refl)) as (F & E & B). cbn [map fold_right length]. rewrite Z.add_0_r. repeat split; auto.
  - rewrite app_length in *. destruct (IHa x z m ltac:(lia) M) as (Fa & Ea & Ba); [intros j J; apply H; apply in_or_app; auto|].
    destruct (IHb x z m ltac:(lia) M) as (Fb & Eb & Bb); [intros j J; apply H; apply in_or_app; auto|].
    rewrite map_app, fold_right_app.
    assert (S : forall (p q : list Z), fold_right Z.add (fold_right Z.add 0 q) p = fold_right Z.add 0 p + fold_right Z.add 0 q).
    { induction p as [|y p IH]; intros q; cbn [fold_right]; [lia|]. rewrite IH. lia. }
    rewrite S. set (sa := fold_right Z.add 0 (map z (terms a))) in *. set (sb := fold_right Z.add 0 (map z (terms b))) in *.
    assert (X : rnd32 (IZR sa + IZR sb) = IZR (sa + sb)).
    { rewrite <- plus_IZR. replace (IZR (sa + sb)) with (IZR (sa + sb) * bpow radix2 0)%R by (cbn; ring). apply (rnd32_exact (sa + sb) 0); lia. }
    destruct (fadd_R (ordered_sum a x) (ordered_sum b x) Fa Fb) as (E & F).
    { rewrite Ea, Eb, X. apply Rle_lt_trans with (IZR 16); [rewrite <- abs_IZR; apply IZR_le; lia|].
      unfold max32. apply Rlt_le_trans with (bpow radix2 5); [cbn; lra|apply bpow_le; lia]. }
    split; [exact F|]. split; [rewrite E, Ea, Eb; exact X|lia].
Qed.
(** all eight values one: the result is exactly one *)
Lemma interp_ones : forall rows top o, (forall j, (j < 8)%nat -> complete_order (rows j)) -> complete_order top ->
  all3 (fun x => ffin x = true /\ (0 <= FR x <= 1.125)%R) o ->
  interpMember rows top (q_vector o) [f1; f1; f1; f1; f1; f1; f1; f1] = f1.
Proof.
  intros rows top o HR HT HO. unfold interpMember. set (ds := [f1; f1; f1; f1; f1; f1; f1; f1]).
  assert (D : forall i, (i < 8)%nat -> nth i ds f0 = f1) by (intros i Hi; do 8 (destruct i as [|i]; [reflexivity|]); lia).
  set (row := fun j => ordered_sum (rows j) (fun i => fmul (f32_of_Z (nth i (nth j interp_table []) 0)) (nth i ds f0))).
  assert (P : forall z (t : sum_order), complete_order t -> fold_right Z.add 0 (map z (terms t)) = fold_right Z.add 0 (map z (seq 0 8))).
  { intros z t C. unfold complete_order in C. induction C; cbn [map fold_right]; lia. }
  assert (LN : forall t, complete_order t -> length (terms t) = 8%nat) by (intros t C; apply Permutation_length in C; exact C).
  assert (IN : forall t i, complete_order t -> In i (terms t) -> (i < 8)%nat).
  { intros t i C H. apply (Permutation_in _ C) in H. apply in_seq in H. lia. }
  assert (R : forall j, (j < 8)%nat -> ffin (row j) = true /\ FR (row j) = IZR (if Nat.eqb j 0 then 1 else 0)).
  { intros j Hj. destruct (int_sum (rows j) (fun i => fmul (f32_of_Z (nth i (nth j interp_table []) 0)) (nth i ds f0)) (fun i => nth i (nth j interp_table []) 0) 8%nat) as (F & E & _).
    - rewrite LN by auto. lia.
    - lia.
    - intros i Hi. rewrite (D i (IN _ _ (HR j Hj) Hi)). destruct (unit_mul _ f1 (table_entry i j) eq_refl) as (F & E).
      split; [exact F|]. rewrite E, f1_R, Rmult_1_r. split; [reflexivity|]. destruct (table_entry i j) as [-> | [-> | ->]]; lia.
    - fold (row j) in F, E. split; [exact F|]. rewrite E. f_equal. rewrite P by auto.
      do 8 (destruct j as [|j]; [reflexivity|]). lia. }
  destruct (int_sum top (fun j => fmul (nth j (q_vector o) f0) (row j)) (fun j => if Nat.eqb j 0 then 1 else 0) 8%nat) as (F & E & _).
  - rewrite LN by auto. lia.
  - lia.
  - intros j Hj. apply (IN _ _ HT) in Hj. destruct (R j Hj) as (Fr & Er). destruct (q_err o j HO Hj) as (Fq & _ & _).
    assert (X : rnd32 (FR (nth j (q_vector o) f0) * FR (row j)) = IZR (if Nat.eqb j 0 then 1 else 0)).
    { rewrite Er. destruct j as [|j]; cbn [Nat.eqb].
      - unfold q_vector. cbn [nth]. rewrite f1_R, Rmult_1_r, <- f1_R at 1. rewrite rnd32_FR. apply f1_R.
      - rewrite Rmult_0_r. apply rnd32_0. }
    destruct (fmul_R (nth j (q_vector o) f0) (row j) Fq Fr) as (E & F).
    { rewrite X. rewrite <- abs_IZR. apply Rle_lt_trans with 1%R; [apply IZR_le; destruct (Nat.eqb j 0); cbn; lia|].
      unfold max32. change 1%R with (bpow radix2 0). apply bpow_lt; lia. }
    split; [exact F|]. split; [rewrite E; exact X|]. destruct (Nat.eqb j 0); cbn; lia.
  - rewrite P in E by auto. change (fold_right Z.add 0 (map (fun j => if Nat.eqb j 0 then 1 else 0) (seq 0 8))) with 1 in E.
    assert (S : forall a, ffin a = true -> FR a = 1%R -> Binary.is_finite_strict 24 128 a = true).
    { intros a Fa Ea. destruct a; try discriminate; auto. cbn in Ea. exfalso. lra. }
    apply (Binary.B2R_inj 24 128); [apply S; auto|reflexivity|]. change (FR (ordered_sum top (fun j => fmul (nth j (q_vector o) f0) (row j))) = FR f1). rewrite f1_R. exact E.
Qed.
Lemma map_ones : forall A (f : A -> f32) xs, length xs = 8%nat -> (forall x, In x xs -> f x = f1) -> map f xs = [f1; f1; f1; f1; f1; f1; f1; f1].
Proof.
  intros A f xs L H. do 8 (destruct xs as [|? xs]; [discriminate L|]). destruct xs; [|discriminate L].
  cbn [map]. rewrite !H by (cbn; tauto). reflexivity.
Qed.
