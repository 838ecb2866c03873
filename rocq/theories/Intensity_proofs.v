(** Proofs about ray casting and intensity integration. *)
From Coq Require Import ZArith Reals List Bool Lia Lra.
From Flocq Require Import Core Binary IEEE754.Bits Plus_error Relative.
From Verif Require Import F32 F32_lemmas F32_err Types Index Voxel Serialize Assoc Layer Threads Planning Ray
  Assoc_lemmas Threads_proofs Connect_proofs Esdf_proofs Sphere_proofs Update_proofs Ray_proofs Intensity Intensity_spec.
Import ListNotations.
Open Scope Z_scope.

(** ** Weights *)
Lemma of_Z_R z : Z.abs z <= 2 ^ 24 -> FR (f32_of_Z z) = IZR z /\ ffin (f32_of_Z z) = true.
Proof. apply f32_of_Z_R. Qed.
Lemma weight_inc_ok v n : weight_is v n -> 0 <= n <= 100 ->
  ffin (weight_inc (i_weight v)) = true /\ FR (weight_inc (i_weight v)) = IZR (n + 1).
Proof.
  intros [F R] H. unfold weight_inc.
  destruct (f64_of_f32_R _ F) as (D & DF). destruct (f64_of_Z_R 1 ltac:(lia)) as (D1 & DF1).
  assert (X : rnd64 (DR (f64_of_f32 (i_weight v)) + DR d1) = IZR (n + 1)).
  { rewrite D, R. change (DR d1) with (DR (f64_of_Z 1)). rewrite D1, <- plus_IZR.
    pose proof (rnd64_exact (n + 1) 0 ltac:(lia) ltac:(lia)) as E. simpl bpow in E. rewrite Rmult_1_r in E. exact E. }
  assert (B : (Rabs (IZR (n + 1)) <= 101)%R) by (rewrite <- abs_IZR; apply IZR_le; lia).
  assert (BM : (101 < max32)%R).
  { unfold max32. apply Rlt_le_trans with (bpow radix2 7); [simpl; lra|apply bpow_le; lia]. }
  assert (BD : (101 < max64)%R).
  { unfold max64. apply Rlt_le_trans with (bpow radix2 7); [simpl; lra|apply bpow_le; lia]. }
  destruct (dadd_R _ _ DF DF1) as (E & EF).
  { change (f64_of_Z 1) with d1. rewrite X. lra. }
  change (f64_of_Z 1) with d1 in E, EF. rewrite X in E.
  assert (Y : rnd32 (DR (dadd (f64_of_f32 (i_weight v)) d1)) = IZR (n + 1)).
  { rewrite E. pose proof (rnd32_exact (n + 1) 0 ltac:(lia) ltac:(lia)) as Q. simpl bpow in Q. rewrite Rmult_1_r in Q. exact Q. }
  destruct (f32_of_f64_R _ EF) as (G & GF); [rewrite Y; lra|]. rewrite Y in G. auto.
Qed.
Lemma update_surface_weight x v n : weight_is v n -> 0 <= n <= 100 ->
  weight_is (update_surface x v) (Z.min (n + 1) 100).
Proof.
  intros H B. destruct (weight_inc_ok v n H B) as (F & R). unfold update_surface, weight_is. cbn [i_weight].
  destruct (of_Z_R 100 ltac:(lia)) as (KR & KF). unfold fgt, kMaxWeight.
  destruct (flt (f32_of_Z 100) (weight_inc (i_weight v))) eqn:E.
  - apply flt_R in E; auto. rewrite R, KR in E. apply lt_IZR in E. replace (Z.min (n + 1) 100) with 100 by lia. auto.
  - split; auto. rewrite R. f_equal. destruct (Z_lt_dec 100 (n + 1)) as [L|L]; [|lia].
    exfalso. rewrite (proj2 (flt_R _ _ KF F)) in E; [discriminate|]. rewrite R, KR. apply IZR_lt; exact L.
Qed.
Lemma d1em6_bounds : dfin d1em6 = true /\ (0 < DR d1em6 < 1)%R.
Proof.
  split; [reflexivity|].
  assert (E : DR d1em6 = (IZR 4722366482869645 * bpow radix2 (-72))%R) by reflexivity.
  rewrite E. split.
  - apply Rmult_lt_0_compat; [lra|apply bpow_gt_0].
  - apply Rmult_lt_reg_r with (bpow radix2 72); [apply bpow_gt_0|].
    rewrite Rmult_assoc, <- bpow_plus. simpl. lra.
Qed.
Lemma unseen_iff v n : weight_is v n -> 0 <= n ->
  dlt (f64_of_f32 (i_weight v)) d1em6 = true <-> n = 0.
Proof.
  intros [F R] H. destruct (f64_of_f32_R _ F) as (D & DF). destruct d1em6_bounds as (EF & E0 & E1).
  rewrite (dlt_R _ _ DF EF), D, R. split.
  - intros L. assert (L' : (IZR n < 1)%R) by lra. apply lt_IZR in L'. lia.
  - intros ->. exact E0.
Qed.

(** ** Layers *)
Lemma alloc_regular k (l : Layer k) i : regular l -> regular (allocateBlockPtrByIndex l i).
Proof.
  intros R j b H. rewrite Sphere_proofs.alloc_get in H. destruct (Sphere_proofs.alloc_dims k l i) as (-> & ->).
  destruct (l_get l j) eqn:E; [injection H as <-; apply (R j _ E)|].
  destruct (idx_eqb_spec j i) as [Ej|]; [|discriminate]. injection H as <-. rewrite Ej.
  cbn. repeat split. apply repeat_length.
Qed.
Lemma alloc_content (l : Layer KInt) i a : content (allocateBlockPtrByIndex l i) a = content l a.
Proof.
  unfold content, vat. rewrite Sphere_proofs.alloc_get. destruct (l_get l (fst a)) as [b|] eqn:E; [reflexivity|].
  destruct (idx_eqb (fst a) i); [|reflexivity]. cbn [b_voxels new_block].
  destruct (nth_error _ (snd a)) as [v|] eqn:N; [|reflexivity].
  apply nth_error_In, repeat_spec in N. exact N.
Qed.
Lemma vset_regular k (l : Layer k) a v : regular l -> regular (vset l a v).
Proof.
  intros R j b H. rewrite vset_get in H.
  assert (D : l_size (vset l a v) = l_size l /\ l_vps (vset l a v) = l_vps l)
    by (unfold vset; destruct (l_get l (fst a)); split; reflexivity).
  destruct D as (-> & ->). destruct (idx_eqb_spec j (fst a)) as [Ej|].
  - destruct (l_get l (fst a)) as [b0|] eqn:E; [|discriminate]. injection H as <-.
    rewrite <- Ej in E. destruct (R j b0 E) as (A & B & C & D). cbn. rewrite set_th_length. auto.
  - apply (R j b H).
Qed.
Lemma vset_dims k (l : Layer k) a v : l_size (vset l a v) = l_size l /\ l_vps (vset l a v) = l_vps l.
Proof. unfold vset; destruct (l_get l (fst a)); split; reflexivity. Qed.

Lemma modify_ok (l l' : Layer KInt) bi p f : regular l -> modify l bi p f = Ok l' ->
  exists a, clamped_addr l bi p a /\ regular l' /\ l_size l' = l_size l /\ l_vps l' = l_vps l /\
    content l' a = f (content l a) /\ forall a', a' <> a -> content l' a' = content l a'.
Proof.
  intros R H. unfold modify in H. destruct (l_get l bi) as [b|] eqn:E; [|discriminate].
  apply rbind_ok in H. destruct H as (a & Ha & H). apply rbind_ok in H. destruct H as (v & Hv & H).
  injection H as <-. exists a. destruct (R _ _ E) as (R1 & R2 & R3 & R4).
  unfold coord_addr in Ha. apply rbind_ok in Ha. destruct Ha as (w & Hw & Ha). injection Ha as <-.
  apply of_opt_ok in Hw. rewrite R1, R2, R3 in Hw. rewrite R1 in *. unfold vget in Hv. apply of_opt_ok in Hv.
  destruct (vset_dims KInt l (bi, Z.to_nat (computeLinearIndexFromVoxelIndex (l_vps l) w)) (f v)) as (S1 & S2).
  split; [exists w; auto|]. split; [apply vset_regular; exact R|]. split; [exact S1|]. split; [exact S2|].
  split.
  - unfold content. rewrite (vat_vset_same _ _ _ _ Hv), Hv. reflexivity.
  - intros a' N. unfold content. rewrite (vat_vset_other _ _ _ _ _ Hv N). reflexivity.
Qed.

(** ** Around the surface *)
Definition sample (surface bearing : pt3) (s : f32) (p : pt3) : Prop :=
  exists k, In k [-2; -1; 0; 1; 2] /\ p = close_point surface bearing s k.
(** what may have happened to a voxel while propagating from [l1] *)
Definition propagated (surface bearing : pt3) (s x : f32) (bi : idx3) (l1 l : Layer KInt) : Prop :=
  regular l /\ l_size l = l_size l1 /\ l_vps l = l_vps l1 /\
  forall a, content l a = content l1 a \/
    (weight_is (content l1 a) 0 /\ i_intensity (content l a) = x /\ weight_is (content l a) 1 /\
     exists p, sample surface bearing s p /\ clamped_addr l1 bi p a).
Lemma prop_one_ok surface bearing s x bi l1 l l' k : In k [-2; -1; 0; 1; 2] -> weights_ok l1 ->
  propagated surface bearing s x bi l1 l -> prop_one surface bearing s x bi l k = Ok l' ->
  propagated surface bearing s x bi l1 l'.
Proof.
  intros Hk W (R & S1 & S2 & C) H. unfold prop_one in H.
  apply rbind_ok in H. destruct H as (nb & _ & H).
  apply modify_ok in H; [|apply alloc_regular; exact R].
  destruct H as (a & A & R' & D1 & D2 & Ha & Ho).
  destruct (Sphere_proofs.alloc_dims KInt l nb) as (E1 & E2). rewrite E1 in D1. rewrite E2 in D2.
  split; [exact R'|]. split; [congruence|]. split; [congruence|]. intros a'.
  destruct (addr_dec a' a) as [Ea|N]; [|rewrite Ho by exact N; rewrite alloc_content; apply C].
  rewrite Ea, Ha, alloc_content. unfold update_near.
  destruct (dlt (f64_of_f32 (i_weight (content l a))) d1em6) eqn:E; [|apply C].
  destruct (C a) as [Ca|(_ & _ & W1 & _)].
  - rewrite Ca in *. destruct (W a) as (n & Hn & Wn). apply (unseen_iff _ _ Wn) in E; [|lia]. subst n.
    right. cbn [i_intensity i_weight]. split; [exact Wn|]. split; [reflexivity|]. split.
    + destruct (weight_inc_ok _ _ Wn ltac:(lia)) as (F & G). split; [exact F|exact G].
    + exists (close_point surface bearing s k). split; [exists k; auto|].
      destruct A as (v & V1 & V2). rewrite E1, E2, S1, S2 in V1. rewrite E2, S2 in V2. exists v; auto.
  - apply (unseen_iff _ _ W1) in E; lia.
Qed.
Lemma rfold_keep {A S} (f : S -> A -> res S) (P : S -> Prop) : forall xs s s',
  (forall s s' x, In x xs -> P s -> f s x = Ok s' -> P s') -> P s -> rfold f xs s = Ok s' -> P s'.
Proof.
  induction xs as [|x xs IH]; intros s s' H Hs R; cbn [rfold] in R; [injection R as <-; exact Hs|].
  apply rbind_ok in R. destruct R as (s1 & R1 & R2). eapply IH; [| |exact R2].
  - intros; eapply H; eauto. right; auto.
  - eapply H; eauto. left; reflexivity.
Qed.
Lemma propagated_weights surface bearing s x bi l1 l : weights_ok l1 ->
  propagated surface bearing s x bi l1 l -> weights_ok l.
Proof.
  intros W (_ & _ & _ & C) a. destruct (C a) as [->|(_ & _ & W1 & _)]; [apply W|exists 1; split; [lia|exact W1]].
Qed.
Lemma mark_surface_ok l l' s surface bearing x : regular l -> weights_ok l ->
  mark_surface l s surface bearing x = Ok l' ->
  regular l' /\ weights_ok l' /\ l_size l' = l_size l /\ l_vps l' = l_vps l /\
  exists bi a0 n, computeBlockIndexFromCoordinates (l_vps l) (l_size l) surface = Some bi /\
    clamped_addr l bi surface a0 /\
    0 <= n <= 100 /\ weight_is (content l a0) n /\ weight_is (content l' a0) (Z.min (n + 1) 100) /\
    content l' a0 = update_surface x (content l a0) /\
    forall a, a <> a0 -> content l' a = content l a \/
      (weight_is (content l a) 0 /\ i_intensity (content l' a) = x /\ weight_is (content l' a) 1 /\
       exists p, sample surface bearing s p /\ clamped_addr l bi p a).
Proof.
  intros R W H. unfold mark_surface in H. apply rbind_ok in H. destruct H as (bi & B & H).
  unfold block_of_coords in B. apply of_opt_ok in B.
  apply rbind_ok in H. destruct H as (l1 & M & H).
  apply modify_ok in M; [|apply alloc_regular; exact R].
  destruct M as (a0 & A & R1 & D1 & D2 & Ha & Ho).
  destruct (Sphere_proofs.alloc_dims KInt l bi) as (E1 & E2). rewrite E1 in D1. rewrite E2 in D2.
  rewrite alloc_content in Ha.
  destruct (W a0) as (n & Hn & Wn).
  assert (W0 : weight_is (content l1 a0) (Z.min (n + 1) 100)) by (rewrite Ha; apply update_surface_weight; auto).
  assert (W1 : weights_ok l1).
  { intros a. destruct (addr_dec a a0) as [->|N]; [exists (Z.min (n + 1) 100); split; [lia|exact W0]|].
    rewrite Ho, alloc_content by exact N. apply W. }
  assert (Pr : propagated surface bearing s x bi l1 l').
  { eapply (rfold_keep (prop_one surface bearing s x bi) (propagated surface bearing s x bi l1)); [| |exact H].
    - intros s1 s2 k Hk P1 P2. eapply prop_one_ok; eauto.
    - split; [exact R1|]. split; [reflexivity|]. split; [reflexivity|]. intros; left; reflexivity. }
  pose proof (propagated_weights _ _ _ _ _ _ _ W1 Pr) as W'. destruct Pr as (R' & S1 & S2 & C).
  split; [exact R'|]. split; [exact W'|]. split; [congruence|]. split; [congruence|].
  exists bi, a0, n. split; [exact B|]. split; [destruct A as (v & V1 & V2); rewrite E1, E2 in V1; rewrite E2 in V2; exists v; auto|].
  split; [exact Hn|]. split; [exact Wn|].
  assert (K : content l' a0 = content l1 a0).
  { destruct (C a0) as [K|(K & _)]; [exact K|]. exfalso. destruct W0 as [_ W0]; destruct K as [_ K].
    rewrite W0 in K. apply eq_IZR in K. lia. }
  rewrite K. split; [exact W0|]. split; [exact Ha|].
  intros a N. destruct (C a) as [Ca|(Q1 & Q2 & Q3 & p & Q4 & v & V1 & V2)]; rewrite (Ho a N), alloc_content in *.
  - left; exact Ca.
  - right. split; [exact Q1|]. split; [exact Q2|]. split; [exact Q3|]. exists p. split; [exact Q4|].
    rewrite D1, D2 in V1. rewrite D2 in V2. exists v; auto.
Qed.

(** ** Whole calls *)
Lemma add_bearing_keep fuel tl max_d o l l' bx : regular l -> weights_ok l ->
  add_bearing fuel tl max_d o l bx = Ok (Some l') -> regular l' /\ weights_ok l'.
Proof.
  intros R W H. unfold add_bearing in H. apply rbind_ok in H. destruct H as (r & _ & H).
  destruct r as [[p|]|]; [|injection H as <-; auto|discriminate].
  apply rbind_ok in H. destruct H as (l1 & M & H). injection H as <-.
  apply mark_surface_ok in M; auto. tauto.
Qed.
Lemma add_bearings_keep fuel tl max_d o : forall bxs l l', regular l -> weights_ok l ->
  add_bearings fuel tl max_d o l bxs = Ok (Some l') -> regular l' /\ weights_ok l'.
Proof.
  induction bxs as [|bx bxs IH]; intros l l' R W H; cbn [add_bearings] in H; [injection H as <-; auto|].
  apply rbind_ok in H. destruct H as (ol & M & H). destruct ol as [l1|]; [|discriminate].
  destruct (add_bearing_keep _ _ _ _ _ _ _ R W M). eapply IH; eauto.
Qed.

(** ** Marching *)
Open Scope R_scope.
Lemma march_step_cases l o d t t' b : march_step l o d t = Ok (t', b) ->
  (b = false /\ exists x, t' = fadd t x /\ (x = l_size l \/ flt (l_size l) x = true)) \/
  (b = true /\ (exists bi bl a v, block_of_coords l (along o d t) = Ok bi /\ l_get l bi = Some bl /\
     coord_addr bl bi (along o d t) = Ok a /\ nth_error (b_voxels bl) (snd a) = Some v /\
     dlt (f64_of_f32 (t_weight v)) d1em6 = false /\
     ((flt (t_distance v) f0 = true /\ t' = t) \/
      (flt (t_distance v) f0 = false /\ flt (t_distance v) (l_size l) = true /\ t' = fadd t (t_distance v))))).
Proof.
  unfold march_step. intros H. apply rbind_ok in H. destruct H as (bi & B & H).
  destruct (l_get l bi) as [bl|] eqn:E; [|injection H as <- <-; left; eauto].
  apply rbind_ok in H. destruct H as (a & A & H).
  destruct (nth_error (b_voxels bl) (snd a)) as [v|] eqn:N; [|discriminate].
  destruct (dlt _ _) eqn:W; [injection H as <- <-; left; eauto|].
  destruct (flt (l_size l) (t_distance v)) eqn:D1; [injection H as <- <-; left; eauto|].
  destruct (flt (t_distance v) f0) eqn:D2.
  - injection H as <- <-. right. split; [reflexivity|]. exists bi, bl, a, v. repeat split; auto.
  - destruct (flt (t_distance v) (l_size l)) eqn:D3; [|injection H as <- <-; left; eauto].
    injection H as <- <-. right. split; [reflexivity|]. exists bi, bl, a, v. repeat split; auto.
Qed.

Lemma fadd_rel_pos a b : exists e, Rabs e <= u32r /\ rnd32 (FR a + FR b) = (FR a + FR b) * (1 + e).
Proof.
  destruct (FLT_plus_error_N_ex radix2 (-149) 24 (fun z => negb (Z.even z)) (FR a) (FR b)
     (FR_format a) (FR_format b)) as (e & He & Ee).
  exists e. split; [|exact Ee].
  eapply Rle_trans; [exact He|]. unfold u_ro, u32r. simpl bpow. lra.
Qed.
(** a step forward moves at least half a voxel, unless the march is over *)
Lemma forward t x s m : ffin t = true -> 0 <= FR t -> ffin s = true -> 0 < FR s -> ffin m = true ->
  FR m <= FR s * 4194304 -> FR t < FR m ->
  (x = s \/ flt s x = true) -> flt (fadd t x) m = true ->
  ffin (fadd t x) = true /\ FR t + FR s / 2 <= FR (fadd t x) /\ FR (fadd t x) < FR m.
Proof.
  intros Ft T0 Fs S0 Fm M Tm Hx L.
  assert (Fx : ffin x = true \/ x = B754_infinity 24 128 false).
  { destruct Hx as [->|Hx]; [auto|]. destruct (ffin x) eqn:E; [auto|]. right.
    apply flt_iff in Hx. destruct Hx as (_ & N & H). destruct x as [sg|sg|sg p Hp|sg mm e Hm]; try discriminate.
    destruct sg; [|reflexivity]. exfalso. rewrite (ER_fin s Fs) in H. cbn [ER] in H.
    pose proof (FR_lt_max s) as Q. apply Rabs_def2 in Q. lra. }
  destruct Fx as [Fx|Ex].
  - assert (Xs : FR s <= FR x) by (destruct Hx as [->|Hx]; [lra|apply flt_R in Hx; auto; lra]).
    assert (F : ffin (fadd t x) = true).
    { destruct (flt_fin_lo _ _ L Fm) as [F|F]; [exact F|]. exfalso.
      pose proof (Bplus_correct 24 128 Hprec32 Hmax32 binop_nan_pl32 mode_NE t x Ft Fx) as C.
      change (Bplus 24 128 Hprec32 Hmax32 binop_nan_pl32 mode_NE t x) with (fadd t x) in C.
      destruct (Rlt_bool _ _); destruct C as (C1 & C2).
      - rewrite F in C2. destruct C2 as (C2 & _); discriminate.
      - assert (H : Bsign 24 128 x = false).
        { destruct x as [sg|sg|sg p Hp|sg mm e Hm]; try discriminate; try (cbn in Xs; lra).
          destruct sg; [|reflexivity]. exfalso. unfold FR in Xs; cbn in Xs.
          assert (F2R (Float radix2 (Z.neg mm) e) < 0) by (apply F2R_lt_0; reflexivity). unfold FR in S0. lra. }
        rewrite F, C2, H in C1. discriminate. }
    apply flt_R in L; auto. destruct (fadd_fin t x Fx F) as (_ & R & _).
    split; [exact F|]. split; [|exact L]. rewrite R.
    apply Rle_trans with (rnd32 (FR t + FR s)); [|apply rnd32_le; lra].
    destruct (fadd_rel_pos t s) as (d2 & D2 & W2). rewrite W2.
    apply Rabs_le_inv in D2. unfold u32r in D2. nra.
  - exfalso. rewrite Ex in L. destruct t as [sg|sg|sg p Hp|sg mm e Hm]; try discriminate;
      (destruct m as [sg'|sg'|sg' p' Hp'|sg' mm' e' Hm']; try discriminate; cbn in L; destruct sg'; discriminate).
Qed.
Section marching.
  Variables (l : Layer KTsdf) (o d : pt3) (m : f32).
  Hypothesis Fs : ffin (l_size l) = true.
  Hypothesis S0 : 0 < FR (l_size l) <= bpow radix2 100.
  Hypothesis Fm : ffin m = true.
  Hypothesis M : FR m <= FR (l_size l) * 4194304.

  Lemma march_ends : forall n t, ffin t = true -> 0 <= FR t ->
    FR m - FR t <= INR n * (FR (l_size l) / 2) -> march n l o d m t <> Ok None.
  Proof.
    induction n as [|n IH]; intros t Ft T0 H; cbn [march].
    - destruct (flt t m) eqn:E; [|discriminate]. apply flt_R in E; auto. cbn in H. lra.
    - destruct (flt t m) eqn:E; [|discriminate]. pose proof E as E'. apply flt_R in E'; auto.
      destruct (march_step l o d t) as [[t' b]| |] eqn:St; cbn [rbind]; [|discriminate|discriminate].
      destruct b; cbn [fst snd]; [discriminate|].
      destruct (march_step_cases _ _ _ _ _ _ St) as [(_ & x & -> & Hx)|(C & _)]; [|discriminate].
      destruct (flt (fadd t x) m) eqn:L.
      + destruct (forward t x (l_size l) m Ft T0 Fs (proj1 S0) Fm M E' Hx L) as (F & A & B).
        apply IH; [exact F|lra|]. rewrite S_INR in H. lra.
      + destruct n as [|n]; cbn [march]; rewrite L; discriminate.
  Qed.
  Lemma march_found : forall n t t', ffin t = true -> 0 <= FR t -> march n l o d m t = Ok (Some (Some t')) ->
    exists t0, ffin t0 = true /\ FR t <= FR t0 < FR m /\ march_step l o d t0 = Ok (t', true).
  Proof.
    induction n as [|n IH]; intros t t' Ft T0 H; cbn [march] in H;
      (destruct (flt t m) eqn:E; [|discriminate]; try discriminate).
    pose proof E as E'. apply flt_R in E'; auto.
    destruct (march_step l o d t) as [[t1 b]| |] eqn:St; cbn [rbind] in H; [|discriminate|discriminate].
    destruct b; cbn [fst snd] in H.
    - injection H as <-. exists t. split; [exact Ft|]. split; [lra|exact St].
    - destruct (march_step_cases _ _ _ _ _ _ St) as [(_ & x & -> & Hx)|(C & _)]; [|discriminate].
      destruct (flt (fadd t x) m) eqn:L.
      + destruct (forward t x (l_size l) m Ft T0 Fs (proj1 S0) Fm M E' Hx L) as (F & A & B).
        destruct (IH _ _ F ltac:(lra) H) as (t0 & F0 & G & K). exists t0. split; [exact F0|]. split; [lra|exact K].
      + destruct n as [|n]; cbn [march] in H; rewrite L in H; discriminate.
  Qed.
  Lemma found_step t0 t' : regular l -> ffin t0 = true -> 0 <= FR t0 < FR m -> march_step l o d t0 = Ok (t', true) ->
    near_surface l (along o d t0) /\ ffin t' = true /\ FR t0 <= FR t' <= FR t0 + 2 * FR (l_size l).
  Proof.
    intros R F0 T0 H. destruct (march_step_cases _ _ _ _ _ _ H) as [(C & _)|(_ & bi & bl & a & v & B & G & A & N & W & D)];
      [discriminate|].
    assert (Dd : flt (t_distance v) (l_size l) = true).
    { destruct D as [(D & _)|(_ & D & _)]; [|exact D]. apply flt_iff in D. apply flt_iff.
      destruct D as (N1 & _ & L). split; [exact N1|]. split; [apply ffin_nnan; exact Fs|].
      rewrite (ER_fin (l_size l) Fs). cbn in L. destruct (t_distance v) as [?|?|? ? ?|? ? ? ?]; cbn [ER] in *; lra. }
    split.
    - exists a, v. unfold block_of_coords in B. apply of_opt_ok in B.
      destruct (R _ _ G) as (R1 & R2 & R3 & R4).
      unfold coord_addr in A. apply rbind_ok in A. destruct A as (w & Hw & A). injection A as <-.
      apply of_opt_ok in Hw. rewrite R1, R2, R3 in Hw. rewrite R1 in N. cbn [snd] in N. rewrite R1.
      split; [exists bi; split; [exact B|exists w; auto]|]. split; [unfold vat; cbn [fst snd]; rewrite G; exact N|]. auto.
    - destruct D as [(_ & ->)|(D1 & D2 & ->)]; [split; [exact F0|lra]|].
      assert (Fd : ffin (t_distance v) = true).
      { destruct (flt_fin_lo _ _ Dd Fs) as [E|E]; [exact E|]. rewrite E in D1. discriminate. }
      assert (Dp : 0 <= FR (t_distance v)).
      { apply Rnot_lt_le. intros L. assert (X : flt (t_distance v) f0 = true) by (apply flt_R; auto).
        rewrite X in D1; discriminate. }
      apply flt_R in D2; auto.
      assert (Hb : bpow radix2 100 * 4194305 <= bpow radix2 127).
      { apply Rle_trans with (bpow radix2 100 * bpow radix2 23).
        - apply Rmult_le_compat_l; [apply bpow_ge_0|]. simpl; lra.
        - rewrite <- bpow_plus. apply bpow_le; lia. }
      assert (Sum : Rabs (FR t0 + FR (t_distance v)) <= bpow radix2 127).
      { rewrite Rabs_pos_eq by lra. eapply Rle_trans; [|exact Hb].
        apply Rle_trans with (FR (l_size l) * 4194305); [lra|]. apply Rmult_le_compat_r; lra. }
      destruct (fadd_R t0 (t_distance v) F0 Fd (rnd32_small _ Sum)) as (E & F).
      split; [exact F|]. rewrite E. split.
      + rewrite <- (rnd32_FR t0) at 1. apply rnd32_le; lra.
      + destruct (fadd_rel_pos t0 (t_distance v)) as (e & He & ->). apply Rabs_le_inv in He. unfold u32r in He. nra.
  Qed.
End marching.
