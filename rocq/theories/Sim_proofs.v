(** Proofs about the simulated world. *)
From Coq Require Import ZArith Reals List Bool Lia Lra.
From Flocq Require Import Core Binary.
From Verif Require Import F32 F32_lemmas F32_err Types Index Voxel Serialize Assoc Layer Threads Planning Update Ray
  Assoc_lemmas Threads_proofs Connect_proofs Esdf_proofs Sphere_proofs Sim Sim_spec.
Import ListNotations.
Open Scope Z_scope.

Lemma flt_trans a b c : flt a b = true -> flt b c = true -> flt a c = true.
Proof. rewrite !flt_iff. intros (A & B & C) (D & E & F). repeat split; auto. lra. Qed.
Lemma flt_irrefl a : flt a a = false.
Proof. destruct (flt a a) eqn:E; [|reflexivity]. apply flt_iff in E. lra. Qed.
Lemma flt_asym a b : flt a b = true -> flt b a = false.
Proof. intros H. destruct (flt b a) eqn:E; [|reflexivity]. rewrite flt_iff in *. lra. Qed.
Lemma flt_not_trans a b c : fnan b = false -> flt a b = false -> flt b c = false -> flt a c = false.
Proof.
  intros N A B. destruct (flt a c) eqn:E; [|reflexivity]. apply flt_iff in E. destruct E as (E1 & E2 & E3).
  exfalso. destruct (Rlt_dec (ER a) (ER b)) as [L|L].
  - rewrite (proj2 (flt_iff a b)) in A by auto. discriminate.
  - rewrite (proj2 (flt_iff b c)) in B; [discriminate|]. repeat split; auto. lra.
Qed.
Lemma flt_nnan a b : flt a b = true -> fnan a = false /\ fnan b = false.
Proof. rewrite flt_iff. tauto. Qed.

(** ** The nearest distance *)
Lemma world_fst w p : forall m c, fst (fold_left (closer_color p) w (m, c)) = fold_left (closer p) w m.
Proof.
  induction w as [|o w IH]; intros m c; cbn [fold_left]; [reflexivity|].
  unfold closer_color at 2, closer at 2. cbn [fst]. destruct (flt _ m); apply IH.
Qed.
Lemma world_sdf_ok w p : forall m c, fnan m = false ->
  let rc := fold_left (closer_color p) w (m, c) in
  fnan (fst rc) = false /\ (fst rc = m \/ flt (fst rc) m = true) /\
  (forall o, In o w -> flt (obj_dist (o_shape o) p) (fst rc) = false) /\
  ((rc = (m, c) /\ forall o, In o w -> flt (obj_dist (o_shape o) p) m = false) \/
   exists w1 o w2, w = w1 ++ o :: w2 /\ rc = (obj_dist (o_shape o) p, o_color o) /\
     flt (fst rc) m = true /\
     forall o', In o' w1 -> fnan (obj_dist (o_shape o') p) = false -> flt (fst rc) (obj_dist (o_shape o') p) = true).
Proof.
  induction w as [|o w IH]; intros m c N; cbn [fold_left].
  - cbn [fst]. repeat split; auto; [intros ? []|]. left; split; [reflexivity|intros ? []].
  - set (d := obj_dist (o_shape o) p). assert (St : closer_color p (m, c) o = if flt d m then (d, o_color o) else (m, c)) by reflexivity.
    cbv zeta. rewrite !St. clear St.
    destruct (flt d m) eqn:E.
    + destruct (flt_nnan _ _ E) as (Nd & _). destruct (IH d (o_color o) Nd) as (A & B & C & D).
      set (rc := fold_left (closer_color p) w (d, o_color o)) in *.
      assert (Lm : flt (fst rc) m = true) by (destruct B as [-> | B]; [exact E|eapply flt_trans; eauto]).
      split; [exact A|]. split; [auto|]. split.
      * intros o' [<-|I]; [|auto]. fold d. destruct B as [-> | B]; [apply flt_irrefl|apply flt_asym; exact B].
      * right. destruct D as [(D1 & D2)|(w1 & o1 & w2 & D1 & D2 & D3 & D4)].
        -- exists [], o, w. repeat split; auto; intros ? [].
        -- exists (o :: w1), o1, w2. rewrite D1. repeat split; auto.
           intros o' [<-|I] Nn; [fold d; exact D3|auto].
    + destruct (IH m c N) as (A & B & C & D). set (rc := fold_left (closer_color p) w (m, c)) in *.
      split; [exact A|]. split; [exact B|]. split.
      * intros o' [<-|I]; [|auto]. fold d.
        destruct B as [-> | B]; [exact E|]. eapply flt_not_trans; [exact N|exact E|apply flt_asym; exact B].
      * destruct D as [(D1 & D2)|(w1 & o1 & w2 & D1 & D2 & D3 & D4)].
        -- left. split; [exact D1|]. intros o' [<-|I]; [exact E|auto].
        -- right. exists (o :: w1), o1, w2. rewrite D1. repeat split; auto.
           intros o' [<-|I] Nn; [|auto]. fold d in Nn |- *.
           apply flt_iff in D3. destruct D3 as (P1 & P2 & P3). apply flt_iff. repeat split; auto.
           destruct (Rlt_dec (ER d) (ER m)) as [L|L]; [|lra].
           rewrite (proj2 (flt_iff d m)) in E by auto. discriminate.
Qed.

(** ** The generated layer *)
Lemma in_bounds_box lo hi p : in_bounds lo hi p = true <-> in_box lo hi p.
Proof.
  unfold in_bounds, in_box, between, fge. rewrite !Bool.andb_true_iff, !fle_iff. tauto.
Qed.
Lemma in_bounds_not lo hi p : in_bounds lo hi p = false <-> ~ in_box lo hi p.
Proof. rewrite <- in_bounds_box. destruct (in_bounds lo hi p); split; intros H; try discriminate; auto. exfalso; apply H; reflexivity. Qed.
Lemma sim_voxels_nth f : forall vs i vs', sim_voxels f i vs = Some vs' ->
  length vs' = length vs /\
  forall n v, nth_error vs n = Some v -> exists v', f (i + n)%nat v = Some v' /\ nth_error vs' n = Some v'.
Proof.
  induction vs as [|v vs IH]; intros i vs' H; cbn [sim_voxels] in H.
  - injection H as <-. split; [reflexivity|]. intros [|n] v; discriminate.
  - destruct (f i v) as [v'|] eqn:E; [|discriminate]. destruct (sim_voxels f (S i) vs) as [r|] eqn:R; [|discriminate].
    injection H as <-. destruct (IH _ _ R) as (L & N). split; [cbn; lia|].
    intros [|n] x Hx; cbn in Hx.
    + injection Hx as <-. exists v'. rewrite Nat.add_0_r. auto.
    + destruct (N n x Hx) as (x' & A & B). exists x'. rewrite Nat.add_succ_r. auto.
Qed.

Section layer.
  Variables (w : list object) (lo hi : pt3) (m : f32).
  Notation generated := (Sim_spec.generated w lo hi m).
  Lemma sim_block_ok l0 done l i l' : generated done l0 l -> sim_block w lo hi m l i = Ok l' ->
    generated (i :: done) l0 l'.
  Proof.
    intros (S1 & S2 & G) H. unfold sim_block in H.
    set (la := allocateBlockPtrByIndex l i) in *.
    destruct (Sphere_proofs.alloc_dims KTsdf l i) as (A1 & A2). fold la in A1, A2.
    assert (AG : forall j, l_get la j = match l_get l j with Some b => Some b
       | None => if idx_eqb j i then Some (new_block (l_vps l) (l_size l) (new_block_origin (l_vps l) (l_size l) i)) else None end)
      by (intros; apply Sphere_proofs.alloc_get).
    destruct (l_get la i) as [b|] eqn:E; [|discriminate].
    apply rbind_ok in H. destruct H as (vs & V & H). injection H as <-. apply of_opt_ok in V.
    assert (Dm : l_size (set_block la i (set_voxels (k := KTsdf) vs)) = l_size la /\ l_vps (set_block la i (set_voxels (k := KTsdf) vs)) = l_vps la)
      by (unfold set_block; rewrite E; split; reflexivity).
    destruct Dm as (D1 & D2). split; [congruence|]. split; [congruence|].
    destruct (sim_voxels_nth _ _ _ _ V) as (L & N).
    intros j. rewrite set_block_get. destruct (idx_eqb_spec j i) as [Ej|Nj].
    - split; [intros C; exfalso; apply C; left; auto|]. intros _. rewrite E. cbn [option_map].
      eexists; split; [reflexivity|]. rewrite Ej.
      assert (Bb : In i done \/ b = fresh l0 i).
      { destruct (in_dec idx_eq_dec i done) as [I|NI]; [auto|]. right.
        destruct (G i) as (G1 & _). specialize (G1 NI). specialize (AG i). rewrite E, G1 in AG.
        unfold fresh. destruct (l_get l0 i) as [b0|]; [injection AG as ->; reflexivity|]. destruct (idx_eqb i i); [|discriminate].
        injection AG as ->. rewrite S1, S2. reflexivity. }
      destruct Bb as [I|Bb].
      + destruct (G i) as (_ & G2). destruct (G2 I) as (b1 & Q1 & (F1 & F2 & F3 & F4 & F5 & F6) & Q2).
        assert (b1 = b) by (specialize (AG i); rewrite E, Q1 in AG; injection AG as ->; reflexivity). subst b1.
        split; [repeat split; cbn; auto; exact (eq_trans L F6)|].
        intros n v Hn. destruct (Q2 n v Hn) as (v1 & V1 & j1 & J1 & J2 & J3).
        destruct (N n v1 V1) as (v2 & V2 & V3). exists v2. split; [exact V3|]. exists j1. split; [exact J1|].
        cbn [plus] in V2. unfold sim_one in V2. rewrite F1, J1, F2, F3 in V2. injection V2 as <-.
        fold (centre_of (fresh l0 i) j1). destruct (in_bounds lo hi (centre_of (fresh l0 i) j1)) eqn:IB.
        * apply in_bounds_box in IB. split; [reflexivity|contradiction].
        * apply in_bounds_not in IB. split; [contradiction|exact J3].
      + subst b. split; [repeat split; cbn; auto|]. intros n v Hn.
        destruct (N n v Hn) as (v2 & V2 & V3). exists v2. split; [exact V3|].
        cbn [plus] in V2. unfold sim_one in V2.
        destruct (computeVoxelIndexFromLinearIndex _ _) as [j1|] eqn:J; [|discriminate]. injection V2 as <-.
        exists j1. split; [exact J|]. fold (centre_of (fresh l0 i) j1). destruct (in_bounds lo hi (centre_of (fresh l0 i) j1)) eqn:IB.
        * apply in_bounds_box in IB. split; [reflexivity|contradiction].
        * apply in_bounds_not in IB. split; [contradiction|reflexivity].
    - rewrite AG. destruct (idx_eqb_spec j i) as [|_]; [contradiction|]. destruct (G j) as (G1 & G2). split.
      + intros C. rewrite <- G1 by (intros I; apply C; right; exact I). destruct (l_get l j); reflexivity.
      + intros [C|I]; [congruence|]. destruct (G2 I) as (b' & Q & R). exists b'. rewrite Q. auto.
  Qed.
  Lemma sim_blocks_ok : forall bs done l0 l l', generated done l0 l ->
    rfold (sim_block w lo hi m) bs l = Ok l' -> generated (rev bs ++ done) l0 l'.
  Proof.
    induction bs as [|i bs IH]; intros done l0 l l' G H; cbn [rfold] in H.
    - injection H as <-. exact G.
    - apply rbind_ok in H. destruct H as (l1 & H1 & H2). cbn [rev]. rewrite <- app_assoc. cbn [app].
      eapply IH; [|exact H2]. eapply sim_block_ok; eauto.
  Qed.
  Lemma generated_refl l : generated [] l l.
  Proof. split; [reflexivity|]. split; [reflexivity|]. intros i. split; [reflexivity|intros []]. Qed.
End layer.
Lemma all_some_In {A B} (f : A -> option B) : forall l r y, all_some f l = Some r ->
  (In y r <-> exists x, In x l /\ f x = Some y).
Proof.
  induction l as [|x l IH]; intros r y H; cbn [all_some] in H.
  - injection H as <-. split; [intros []|intros (x & [] & _)].
  - destruct (f x) as [z|] eqn:E; [|discriminate]. destruct (all_some f l) as [zs|] eqn:F; [|discriminate].
    injection H as <-. cbn [In]. rewrite (IH zs y eq_refl). split.
    + intros [<-|(x' & I & J)]; [exists x; auto|exists x'; auto].
    + intros (x' & [->|I] & J); [left; congruence|right; exists x'; auto].
Qed.

(** the sample points *)
Lemma float_mantissa bs : ffin bs = true -> exists m e, (Z.abs m < 2 ^ 24)%Z /\ (-149 <= e)%Z /\ FR bs = (IZR m * bpow radix2 e)%R.
Proof.
  intros F. destruct bs as [s|s|s pl Hp|s m e Hm]; try discriminate F.
  - exists 0, 0. split; [lia|]. split; [lia|]. unfold FR. cbn. lra.
  - pose proof Hm as HB. unfold SpecFloat.bounded in HB. apply Bool.andb_true_iff in HB. destruct HB as (HC & _).
    apply Zeq_bool_eq in HC. unfold SpecFloat.fexp in HC. rewrite Digits.Zpos_digits2_pos in HC.
    pose proof (Digits.Zdigits_correct radix2 (Zpos m)) as Dg. rewrite Z.abs_eq in Dg by lia.
    exists (cond_Zopp s (Zpos m)), e. rewrite abs_cond_Zopp. split; [|split; [unfold SpecFloat.emin in HC; lia|reflexivity]].
    cbn [Z.abs]. destruct Dg as (_ & Dg). eapply Z.lt_le_trans; [exact Dg|]. change (radix_val radix2) with 2. apply Z.pow_le_mono_r; lia.
Qed.
Lemma half_float bs : ffin bs = true -> (bpow radix2 (-100) <= FR bs <= bpow radix2 100)%R ->
  let h := f32_of_f64 (ddiv (f64_of_f32 bs) d2) in ffin h = true /\ FR h = (FR bs / 2)%R.
Proof.
  intros F B h. destruct (f64_of_f32_R bs F) as (Eb & Fb). destruct (f64_of_Z_R 2 ltac:(lia)) as (E2 & F2). fold d2 in E2, F2.
  destruct (float_mantissa bs F) as (m & e & Hm & He & E).
  assert (Q : (FR bs / 2 = IZR m * bpow radix2 (e - 1))%R) by (rewrite E; unfold Zminus; rewrite bpow_plus; change (bpow radix2 (-(1))) with (/ 2)%R; lra).
  assert (Hq : (Rabs (FR bs / 2) <= bpow radix2 100)%R) by (rewrite Rabs_pos_eq; pose proof (bpow_gt_0 radix2 (-100)); lra).
  assert (Ee : -149 <= e - 1).
  { destruct (Z_le_gt_dec (-149) (e - 1)) as [L|G]; [exact L|exfalso]. assert (e = -149) by lia. subst e.
    assert (IZR m < 16777216)%R by (apply (IZR_lt m 16777216); lia). rewrite E in B. destruct B as (B & _).
    assert (IZR m * bpow radix2 (-149) < bpow radix2 (-100))%R; [|lra].
    replace (bpow radix2 (-100)) with (bpow radix2 49 * bpow radix2 (-149))%R by (rewrite <- bpow_plus; reflexivity).
    apply Rmult_lt_compat_r; [apply bpow_gt_0|]. eapply Rlt_trans; [eassumption|]. change (bpow radix2 49) with (IZR (2 ^ 49)). apply IZR_lt. lia. }
  assert (X : rnd64 (FR bs / 2) = (FR bs / 2)%R) by (rewrite Q; apply rnd64_exact; lia).
  assert (Y : rnd32 (FR bs / 2) = (FR bs / 2)%R) by (rewrite Q; apply rnd32_exact; lia).
  destruct (ddiv_R (f64_of_f32 bs) d2 Fb) as (Ed & Fd).
  { rewrite E2. lra. }
  { rewrite Eb, E2. apply rnd64_small. eapply Rle_trans; [exact Hq|apply bpow_le; lia]. }
  rewrite Eb, E2, X in Ed. destruct (f32_of_f64_R _ Fd) as (Eh & Fh).
  { rewrite Ed. apply rnd32_small. eapply Rle_trans; [exact Hq|apply bpow_le; lia]. }
  rewrite Ed, Y in Eh. auto.
Qed.
Lemma rnd_bound x e : (-149 <= e)%Z -> (Rabs x <= bpow radix2 e)%R -> (Rabs (rnd32 x) <= bpow radix2 e)%R.
Proof.
  intros He H. rewrite <- rnd32_abs. apply rnd32_le in H. assert (E : rnd32 (bpow radix2 e) = bpow radix2 e).
  { rewrite <- (Rmult_1_l (bpow radix2 e)). apply (rnd32_exact 1 e); lia. }
  rewrite E in H. exact H.
Qed.
Lemma fsteps_ok : forall fuel x hi step xs, ffin x = true -> ffin hi = true -> ffin step = true ->
  (Rabs (FR x) <= bpow radix2 103 -> Rabs (FR hi) <= bpow radix2 102 -> 0 < FR step <= bpow radix2 100)%R -> 
  (Rabs (FR x) <= bpow radix2 103)%R -> (Rabs (FR hi) <= bpow radix2 102)%R ->
  fsteps fuel x hi step = Some xs -> stepped (FR step) (FR hi) (FR x) xs.
Proof.
  induction fuel as [|n IH]; intros x hi step xs Fx Fh Fs Bs Bx Bh H; pose proof (Bs Bx Bh) as B; cbn [fsteps] in H.
  - destruct (fle x hi) eqn:L; [discriminate H|]. injection H as <-. constructor. apply Rnot_le_lt. intros C. rewrite (proj2 (fle_R x hi Fx Fh) C) in L. discriminate L.
  - destruct (fle x hi) eqn:L.
    + destruct (fsteps n (fadd x step) hi step) as [ys|] eqn:E; [|discriminate H]. injection H as <-.
      apply (fle_R x hi Fx Fh) in L.
      assert (P : (Rabs (FR x + FR step) <= bpow radix2 103 + bpow radix2 100)%R) by (eapply Rle_trans; [apply Rabs_triang|]; rewrite (Rabs_pos_eq (FR step)) by lra; lra).
      assert (P103 : (bpow radix2 103 = 8 * bpow radix2 100 /\ bpow radix2 102 = 4 * bpow radix2 100)%R).
      { split; [change 8%R with (bpow radix2 3)|change 4%R with (bpow radix2 2)]; rewrite <- bpow_plus; reflexivity. }
      destruct P103 as (P3 & P2). pose proof (bpow_gt_0 radix2 100).
      assert (Q : (Rabs (FR x + FR step) <= bpow radix2 103)%R).
      { apply Rabs_le_inv in Bx. apply Rabs_le_inv in Bh. apply Rabs_le. lra. }
      destruct (fadd_R x step Fx Fs) as (Ea & Fa); [apply rnd32_small; eapply Rle_trans; [exact Q|apply bpow_le; lia]|].
      assert (Qa : (Rabs (FR (fadd x step)) <= bpow radix2 103)%R) by (rewrite Ea; apply rnd_bound; [lia|exact Q]).
      constructor; [exact L|exact Fx|reflexivity|]. rewrite <- Ea. apply IH; auto.
    + injection H as <-. constructor. apply Rnot_le_lt. intros C. rewrite (proj2 (fle_R x hi Fx Fh) C) in L. discriminate L.
Qed.
Lemma axis_samples_ok fuel lo hi bs xs : ffin lo = true -> ffin hi = true -> ffin bs = true -> (Rabs (FR lo) <= bpow radix2 100)%R -> (Rabs (FR hi) <= bpow radix2 100)%R ->
  (bpow radix2 (-100) <= FR bs <= bpow radix2 100)%R -> axis_samples fuel lo hi bs = Some xs -> axis_grid lo hi bs xs.
Proof.
  intros Fl Fh Fb Bl Bh Bb H. unfold axis_samples in H. cbv zeta in H. destruct (half_float bs Fb Bb) as (F2 & E2). set (h := f32_of_f64 _) in *.
  pose proof (bpow_gt_0 radix2 (-100)) as G. pose proof (bpow_gt_0 radix2 100) as G'.
  assert (P2 : (bpow radix2 102 = 4 * bpow radix2 100)%R) by (change 4%R with (bpow radix2 2); rewrite <- bpow_plus; reflexivity).
  apply Rabs_le_inv in Bl. apply Rabs_le_inv in Bh.
  assert (Q1 : (Rabs (FR lo - FR h) <= bpow radix2 102)%R) by (apply Rabs_le; lra). assert (Q2 : (Rabs (FR hi + FR h) <= bpow radix2 102)%R) by (apply Rabs_le; lra).
  destruct (fsub_R lo h Fl F2) as (E3 & F3); [apply rnd32_small; eapply Rle_trans; [exact Q1|apply bpow_le; lia]|].
  destruct (fadd_R hi h Fh F2) as (E4 & F4); [apply rnd32_small; eapply Rle_trans; [exact Q2|apply bpow_le; lia]|].
  unfold axis_grid. rewrite <- E2, <- E3, <- E4. eapply fsteps_ok; [exact F3|exact F4|exact Fb|intros _ _; lra| | |exact H].
  - rewrite E3. eapply Rle_trans; [apply (rnd_bound _ 102); [lia|exact Q1]|apply bpow_le; lia].
  - rewrite E4. apply rnd_bound; [lia|exact Q2].
Qed.
(** ** Views *)
Lemma flt_fle_false a b : fle a b = false -> flt a b = false.
Proof.
  intros H. destruct (flt a b) eqn:E; [|reflexivity]. apply flt_iff in E. destruct E as (A & B & C).
  rewrite (proj2 (fle_iff a b)) in H by (repeat split; auto; lra). discriminate.
Qed.
Lemma flt_fge_false a b : fge a b = true -> flt a b = false.
Proof.
  intros H. destruct (flt a b) eqn:E; [|reflexivity]. apply flt_iff in E. destruct E as (A & B & C).
  unfold fge in H. apply fle_iff in H. lra.
Qed.
Lemma fold_fmin_in (ts : list (bool * f32)) : forall m, let t := fold_left (fun m x => fmin m (snd x)) ts m in
  t = m \/ exists x, In x ts /\ t = snd x.
Proof.
  induction ts as [|x ts IH]; intros m; cbn [fold_left]; [auto|]. destruct (IH (fmin m (snd x))) as [E|(y & I & E)].
  - cbv zeta. rewrite E. unfold fmin. destruct (flt (snd x) m); [right; exists x; split; [left|]; auto|auto].
  - right. exists y. split; [right; exact I|exact E].
Qed.
Lemma hit_range o org dir m t : obj_hit o org dir m = Some t -> flt t f0 = false /\ flt m t = false.
Proof.
  destruct o as [c r|c s|c n|c r h]; cbn [obj_hit].
  - unfold sphere_hit. destruct (flt (f32_of_f64 _) f0); [discriminate|]. set (x := fsub _ _).
    destruct (flt x f0) eqn:A; [discriminate|]. unfold fgt. destruct (flt m x) eqn:B; [discriminate|]. intros [= <-]. auto.
  - unfold cube_hit. set (f2 := f32_of_Z 2). cbv zeta. set (lo := zip3 _ c s). set (hi := zip3 _ c s).
    destruct (flt (f32_of_f64 (ddiv d1 (f64_of_f32 (vx dir)))) f0);
    destruct (flt (f32_of_f64 (ddiv d1 (f64_of_f32 (vy dir)))) f0);
    destruct (flt (f32_of_f64 (ddiv d1 (f64_of_f32 (vz dir)))) f0);
    (destruct (_ || _); [discriminate|]); (destruct (_ || _); [discriminate|]);
    match goal with |- (if flt ?x f0 then _ else _) = _ -> _ => set (x' := x) end;
    (destruct (flt x' f0) eqn:A; [discriminate|]); unfold fgt at 1; (destruct (flt m x') eqn:B; [discriminate|]); intros [= <-]; auto.
  - unfold plane_hit. destruct (flt (fabs _) _); [discriminate|]. set (x := fdiv _ _).
    destruct (flt x f0) eqn:A; [discriminate|]. unfold fgt. destruct (flt m x) eqn:B; [discriminate|]. intros [= <-]. auto.
  - unfold cylinder_hit. destruct (flt (fabs _) _); [discriminate|]. cbv zeta.
    match goal with |- (if flt ?x f0 then _ else _) = _ -> _ => set (under := x) end.
    destruct (flt under f0); [discriminate|].
    match goal with |- (let '(t1, t2) := ?x in _) = _ -> _ => destruct x as [t1 t2] end.
    match goal with |- match filter ?f ?l with _ => _ end = _ -> _ => set (ts := filter f l) end.
    assert (A : forall x, In x ts -> fge (snd x) f0 = true).
    { intros x H. apply filter_In in H. destruct H as (H1 & H2). cbn [In] in H1.
      destruct H1 as [<-|[<-|[<-|[<-|[]]]]]; cbn [fst snd] in *; apply andb_true_iff in H2; destruct H2 as (H2 & _);
        apply andb_true_iff in H2; destruct H2 as (H2a & H2b); assumption. }
    assert (St : (let t := fold_left (fun m x => fmin m (snd x)) ts m in if fge t m then None else Some t) = Some t ->
      flt t f0 = false /\ flt m t = false).
    { cbv zeta. destruct (fge _ m) eqn:G; [discriminate|]. intros [= E]. rewrite E in G. clearbody ts. split; [|apply flt_fle_false, G].
      destruct (fold_fmin_in ts m) as [Q|(x & I & Q)]; cbv zeta in Q; rewrite E in Q.
      - rewrite Q in G |- *. destruct (flt m f0) eqn:L; [|reflexivity]. apply flt_nnan in L. destruct L as (L & _).
        unfold fge in G. rewrite (proj2 (fle_iff m m)) in G by (repeat split; auto; lra). discriminate.
      - rewrite Q. apply flt_fge_false, A, I. }
    destruct ts; [discriminate|exact St].
Qed.
Lemma nearer_ok org dir m : forall w best,
  (forall o t, In o w -> obj_hit (o_shape o) org dir m = Some t -> fnan t = false) ->
  (forall t c, best = Some (t, c) -> fnan t = false) ->
  let r := fold_left (nearer org dir m) w best in
  (r = best /\ forall o t', In o w -> obj_hit (o_shape o) org dir m = Some t' -> exists t c, best = Some (t, c) /\ flt t' t = false) \/
  exists t o, r = Some (t, o_color o) /\ first_nearest w org dir m t o /\ (forall t0 c0, best = Some (t0, c0) -> flt t t0 = true).
Proof.
  induction w as [|o w IH]; intros best N B; cbn [fold_left].
  - left. split; [reflexivity|intros o t' []].
  - assert (St : forall b, nearer org dir m b o = match obj_hit (o_shape o) org dir m with None => b | Some t =>
      match b with Some (t0, _) => if flt t t0 then Some (t, o_color o) else b | None => Some (t, o_color o) end end) by reflexivity.
    cbv zeta. rewrite !St. clear St.
    assert (N' : forall o t, In o w -> obj_hit (o_shape o) org dir m = Some t -> fnan t = false)
      by (intros o' t' I; apply N; right; exact I).
    destruct (obj_hit (o_shape o) org dir m) as [t|] eqn:E.
    + assert (Nt : fnan t = false) by (apply (N o); [left; reflexivity|exact E]).
      assert (K : (forall t0 c0, best = Some (t0, c0) -> flt t t0 = true) ->
        fold_left (nearer org dir m) w (Some (t, o_color o)) = best /\
          (forall o' t', In o' (o :: w) -> obj_hit (o_shape o') org dir m = Some t' -> exists t c, best = Some (t, c) /\ flt t' t = false) \/
        exists t1 o1, fold_left (nearer org dir m) w (Some (t, o_color o)) = Some (t1, o_color o1) /\
          first_nearest (o :: w) org dir m t1 o1 /\ (forall t0 c0, best = Some (t0, c0) -> flt t1 t0 = true)).
      { intros H. right. destruct (IH (Some (t, o_color o)) N') as [(R1 & R2)|(t1 & o1 & R1 & (w1 & w2 & R2 & R3 & R4 & R5) & R6)].
        { intros t0 c0 [= <- <-]. exact Nt. }
        - exists t, o. split; [exact R1|]. split; [|exact H]. exists [], w. split; [reflexivity|]. split; [exact E|].
          split; [intros o' t' []|]. intros o' t' I J. destruct (R2 o' t' I J) as (t0 & c0 & Q1 & Q2). injection Q1 as <- <-. exact Q2.
        - exists t1, o1. split; [exact R1|]. specialize (R6 _ _ eq_refl). split.
          + exists (o :: w1), w2. rewrite R2. split; [reflexivity|]. split; [exact R3|]. split; [|exact R5].
            intros o' t' [<-|I] J; [|eauto]. rewrite E in J. injection J as <-. exact R6.
          + intros t0 c0 Hb. eapply flt_trans; [exact R6|]. eapply H; exact Hb. }
      destruct best as [[t0 c0]|]; [|apply K; intros; discriminate].
      destruct (flt t t0) eqn:L.
      * apply K. intros t2 c2 [= <- <-]. exact L.
      * destruct (IH (Some (t0, c0)) N' B) as [(R1 & R2)|(t1 & o1 & R1 & (w1 & w2 & R2 & R3 & R4 & R5) & R6)].
        -- left. split; [exact R1|]. intros o' t' [<-|I] J; [|eauto]. rewrite E in J. injection J as <-. exists t0, c0. auto.
        -- right. exists t1, o1. split; [exact R1|]. split; [|exact R6]. exists (o :: w1), w2. rewrite R2. split; [reflexivity|].
           split; [exact R3|]. split; [|exact R5]. intros o' t' [<-|I] J; [|eauto]. rewrite E in J. injection J as <-.
           specialize (R6 _ _ eq_refl). apply flt_iff in R6. destruct R6 as (P1 & P2 & P3). apply flt_iff. repeat split; auto.
           destruct (Rlt_dec (ER t) (ER t0)) as [Lt|Lt]; [|lra]. rewrite (proj2 (flt_iff t t0)) in L by auto. discriminate.
    + destruct (IH best N' B) as [(R1 & R2)|(t1 & o1 & R1 & (w1 & w2 & R2 & R3 & R4 & R5) & R6)].
      * left. split; [exact R1|]. intros o' t' [<-|I] J; [congruence|eauto].
      * right. exists t1, o1. split; [exact R1|]. split; [|exact R6]. exists (o :: w1), w2. rewrite R2. split; [reflexivity|].
        split; [exact R3|]. split; [|exact R5]. intros o' t' [<-|I] J; [congruence|eauto].
Qed.
