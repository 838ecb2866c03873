(** Property C94: viewpoints drawn in the simulated world. *)
From Coq Require Import ZArith Reals List Bool Lia Lra Psatz.
From Flocq Require Import Core Binary.
From Verif Require Import F32 F32_lemmas F32_err Types Index Ray Update Voxel Layer Merge_proofs Sim Sim_spec Sim_proofs Sim_geom P_Sphere P_Sim
  SimView SimView_spec SimView_proofs.
Import ListNotations.
Open Scope R_scope.

(** a usable least distance *)
Definition least (m : f32) : Prop := ffin m = true /\ 0 <= FR m <= bpow radix2 100.
(** no object is nearer to [p] than [m], by the world's own distances *)
Definition far_from (w : list object) (m : f32) (p : pt3) : Prop := forall o, In o w -> flt (obj_dist (o_shape o) p) m = false.

Lemma fin_nan x : ffin x = true -> fnan x = false.
Proof. destruct x; intros H; try discriminate H; reflexivity. Qed.
Lemma plausible_iff w m p : least m -> plausible w m p = true <-> far_from w m p.
Proof.
  intros (F & P & B). destruct (twice_ok m F P B) as (Ft & Et). unfold plausible.
  set (t := f32_of_f64 _) in *. pose proof (fin_nan t Ft) as Nt. pose proof (ER_fin t Ft) as Vt.
  pose proof (fin_nan m F) as Nm. pose proof (ER_fin m F) as Vm.
  pose proof (C54_nearest w p t Nt) as (A & C & D). destruct (world_sdf_ok w p t color0 Nt) as (Nr & _).
  rewrite world_fst in Nr. fold (getDistanceToPoint w p t) in Nr. set (r := getDistanceToPoint w p t) in *.
  split.
  - intros G o I. destruct (flt (obj_dist (o_shape o) p) m) eqn:E; [|reflexivity].
    exfalso. unfold fge in G. apply fle_iff in G. destruct G as (_ & _ & G). apply flt_iff in E. destruct E as (E1 & _ & E3).
    specialize (D o I). assert (flt (obj_dist (o_shape o) p) r = true) as X; [|congruence].
    apply flt_iff. split; [exact E1|]. split; [exact Nr|lra].
  - intros G. unfold fge. apply fle_iff. split; [exact Nm|]. split; [exact Nr|]. destruct A as [A|(o & I & A)].
    + rewrite A, Vm, Vt. lra.
    + specialize (G o I). rewrite <- A in G. apply Rnot_lt_le. intros L. assert (flt r m = true) as X; [|congruence].
      apply flt_iff. auto.
Qed.

(** C94, partial (worlds containing the origin; cylinders and other worlds are refuted below): a viewpoint that is found lies in the world, no object is nearer than the distance
    asked for, and it is the first of the positions tried that is so. *)
Theorem C94_viewpoint_partial : forall w lo hi k m draws before p d, least m -> around_origin lo hi -> (forall n, a_draw (draws n)) ->
  generatePlausibleViewpoint w lo hi k m draws before = (true, (p, d)) ->
  within_box lo hi p /\ far_from w m p /\
  exists n, (n < k)%nat /\ p = place lo hi (draws n) /\ d = normalized3 (draws (S n)) /\
    forall i, (i < n)%nat -> ~ far_from w m (place lo hi (draws i)).
Proof.
  intros w lo hi k m draws before p d M W DR_ H. unfold generatePlausibleViewpoint in H.
  destruct (attempts w lo hi m draws k 0) as [(q, n')|] eqn:E; [|discriminate H].
  assert (q = p) as -> by congruence. assert (d = normalized3 (draws n')) as -> by congruence.
  apply attempts_some in E. destruct E as (n & N & -> & -> & C & D).
  destruct (place_ok lo hi (draws n) W (DR_ n)) as ((A1 & A2 & A3) & B1 & B2 & B3).
  destruct W as (_ & _ & (N1 & N2 & N3) & _).
  split. { rewrite B1 in A1. rewrite B2 in A2. rewrite B3 in A3. destruct A1 as (G1 & A1), A2 as (G2 & A2), A3 as (G3 & A3). unfold within_box. repeat split; first [assumption | lra]. }
  split. { apply plausible_iff; [exact M|exact C]. }
  exists n. split; [lia|]. split; [reflexivity|]. split; [reflexivity|]. intros i Hi F.
  apply plausible_iff in F; [|exact M]. rewrite D in F by lia. discriminate F.
Qed.
Print Assumptions C94_viewpoint_partial.
(** None is found only if every position tried was too near to an object, and then the
    caller's variables are as before. *)
Theorem C94_exhausted : forall w lo hi k m draws before out, least m ->
  generatePlausibleViewpoint w lo hi k m draws before = (false, out) ->
  out = before /\
  forall n, (n < k)%nat -> exists o, In o w /\ flt (obj_dist (o_shape o) (place lo hi (draws n))) m = true.
Proof.
  intros w lo hi k m draws before out M H. unfold generatePlausibleViewpoint in H.
  destruct (attempts w lo hi m draws k 0) as [(q, n')|] eqn:E; [discriminate H|].
  split; [congruence|]. intros n N. pose proof (attempts_none _ _ _ _ _ _ _ E n ltac:(lia)) as P.
  set (p := place lo hi (draws n)) in *.
  destruct (existsb (fun o => flt (obj_dist (o_shape o) p) m) w) eqn:X.
  - apply existsb_exists in X. destruct X as (o & I & Q). eauto.
  - exfalso. assert (F : far_from w m p).
    { intros o I. destruct (flt (obj_dist (o_shape o) p) m) eqn:Q; [|reflexivity].
      assert (existsb (fun o => flt (obj_dist (o_shape o) p) m) w = true) as Y; [|congruence]. apply existsb_exists. eauto. }
    apply plausible_iff in F; [|exact M]. congruence.
Qed.
Print Assumptions C94_exhausted.

(** The distance is the real one to the points of spheres and boxes. *)
Lemma dist_tri a b c : distR a c <= distR a b + distR b c.
Proof.
  unfold distR. set (x1 := vx a - vx b). set (y1 := vy a - vy b). set (z1 := vz a - vz b).
  set (x2 := vx b - vx c). set (y2 := vy b - vy c). set (z2 := vz b - vz c).
  replace (vx a - vx c) with (x1 + x2) by (unfold x1, x2; ring). replace (vy a - vy c) with (y1 + y2) by (unfold y1, y2; ring).
  replace (vz a - vz c) with (z1 + z2) by (unfold z1, z2; ring).
  clearbody x1 y1 z1 x2 y2 z2. assert (A0 : 0 <= x1 * x1 + (y1 * y1 + z1 * z1)) by nra. assert (B0 : 0 <= x2 * x2 + (y2 * y2 + z2 * z2)) by nra.
  set (A := x1 * x1 + (y1 * y1 + z1 * z1)) in *. set (B := x2 * x2 + (y2 * y2 + z2 * z2)) in *.
  pose proof (sqrt_pos A). pose proof (sqrt_pos B). pose proof (sqrt_sqrt A A0) as SA. pose proof (sqrt_sqrt B B0) as SB.
  assert (CS : x1 * x2 + (y1 * y2 + z1 * z2) <= sqrt A * sqrt B).
  { rewrite <- sqrt_mult by assumption. eapply Rle_trans; [apply Rle_abs|]. rewrite <- sqrt_Rsqr_abs. apply sqrt_le_1_alt.
    unfold Rsqr, A, B.
    pose proof (Rle_0_sqr (x1 * y2 - y1 * x2)) as Q1. pose proof (Rle_0_sqr (x1 * z2 - z1 * x2)) as Q2.
    pose proof (Rle_0_sqr (y1 * z2 - z1 * y2)) as Q3. unfold Rsqr in Q1, Q2, Q3. lra. }
  rewrite <- (sqrt_Rsqr (sqrt A + sqrt B)) by lra. apply sqrt_le_1_alt. unfold Rsqr. unfold A, B in *. nra.
Qed.
Lemma far_real w m p s c : far_from w m p -> least m -> In (MkObject s c) w -> ffin (obj_dist s p) = true -> FR m <= FR (obj_dist s p).
Proof.
  intros F (Fm & _) I Fd. specialize (F _ I). cbn [o_shape] in F. apply Rnot_lt_le. intros L. apply (flt_R _ _ Fd Fm) in L. congruence.
Qed.
Theorem C94_sphere : forall w m p c r col q, far_from w m p -> least m ->
  In (MkObject (Sphere c r) col) w -> all3 (fin_upto 38) c -> fin_upto 38 r -> all3 (fin_upto 38) p ->
  ball (V3R c) (FR r) q ->
  FR m - (/ 1000000 * (distR (V3R p) (V3R c) + FR r) + / 100000000) <= distR (V3R p) q.
Proof.
  intros w m p c r col q F M I C R P Q.
  assert (UP : forall x, fin_upto 38 x -> fin_upto 40 x).
  { intros x (Fx & Bx). split; [exact Fx|]. eapply Rle_trans; [exact Bx|apply bpow_le; lia]. }
  assert (UP3 : forall x, all3 (fin_upto 38) x -> all3 (fin_upto 40) x).
  { intros x (X1 & X2 & X3). split; [|split]; apply UP; assumption. }
  destruct (C68_sphere c r p (UP3 _ C) (UP3 _ P) (UP _ R)) as (Fd & E). cbn zeta in *.
  pose proof (far_real w m p _ col F M I Fd) as L. unfold ball in Q.
  assert (R0 : 0 <= FR r). { eapply Rle_trans; [|exact Q]. unfold distR. apply sqrt_pos. }
  rewrite (Rabs_pos_eq (FR r)) in E by exact R0. apply Rabs_le_inv in E.
  pose proof (dist_tri (V3R p) q (V3R c)). lra.
Qed.
Print Assumptions C94_sphere.
Theorem C94_box : forall w m p c s col q M, far_from w m p -> least m ->
  In (MkObject (Cube c s) col) w -> 1 <= M -> M <= bpow radix2 38 ->
  all3 (bounded M) c -> all3 (bounded M) s -> all3 (bounded M) p -> 0 <= FR (vx s) -> 0 <= FR (vy s) -> 0 <= FR (vz s) ->
  solid_box (V3R c) (V3R s) q ->
  FR m - (/ 100000 * M + / 500000) <= distR (V3R p) q.
Proof.
  intros w m p c s col q M F ML I M1 M2 C S P S1 S2 S3 Q.
  destruct (C68_cube M c s p M1 M2 C S P) as (Fd & E). pose proof (far_real w m p _ col F ML I Fd) as L. apply Rabs_le_inv in E.
  assert (D0 : 0 <= distR (V3R p) q) by (unfold distR; apply sqrt_pos).
  destruct (Rle_dec (box_sdf (V3R c) (V3R s) (V3R p)) 0) as [N|N]; [lra|].
  destruct (box_sdf_dist (V3R c) (V3R s) (V3R p) S1 S2 S3) as (_ & H).
  - intros (X1 & X2 & X3). apply N. unfold box_sdf. unfold over. destruct (Rle_dec _ 0) as [K|K]; [exact K|]. exfalso. apply K.
    apply Rmax_lub; [lra|]. apply Rmax_lub; lra.
  - specialize (H q Q). lra.
Qed.
Print Assumptions C94_box.

(** The direction is the draw's, of length one. *)
Theorem C94_direction : forall r, a_draw r -> / 1000 <= lengthR r -> heads (/ 100000) r (normalized3 r).
Proof.
  intros r ((F1 & R1) & (F2 & R2) & (F3 & R3)) L.
  assert (UP : forall x, ffin x = true -> -1 <= FR x <= 1 -> fin_upto 40 x).
  { intros x Fx Bx. split; [exact Fx|]. apply Rle_trans with (bpow radix2 0); [simpl; apply Rabs_le; lra|apply bpow_le; lia]. }
  destruct (norm_vec r) as (Fn & Pn & En). { split; [|split]; apply UP; assumption. }
  cbn zeta in En. fold (lengthR r) in En. set (n := lengthR r) in *.
  assert (U : u32r <= / 16000000) by (unfold u32r; lra).
  assert (T28 : bpow radix2 (-28) <= / 200000000) by (simpl; lra).
  assert (LB : n <= 2).
  { unfold n, lengthR. rewrite <- (sqrt_Rsqr 2) by lra. apply sqrt_le_1_alt. unfold Rsqr. nra. }
  apply Rabs_le_inv in En.
  assert (EN : (1 - / 150000) * n <= FR (norm3 r) <= (1 + / 150000) * n).
  { assert (11 * u32r * n <= 11 * / 16000000 * n) by (apply Rmult_le_compat_r; lra). lra. }
  assert (NP : 0 < FR (norm3 r)) by lra.
  assert (Z : fgt (sqnorm r) f0 = true).
  { unfold norm3 in *. clear - Fn NP. destruct (sqnorm r) as [sg|sg|sg pl Hp|sg mm e Hm]; destruct sg; try discriminate Fn.
    - change (FR (fsqrt (B754_zero 24 128 true))) with 0 in NP. lra.
    - change (FR (fsqrt (B754_zero 24 128 false))) with 0 in NP. lra.
    - reflexivity. }
  assert (AX : forall c, ffin c = true -> Rabs (FR c) <= n -> Rabs (FR (fdiv c (norm3 r)) - FR c / n) <= / 100000).
  { intros c Fc Bc. set (N := norm3 r) in *.
    assert (X : Rabs (FR c / FR N) <= 1 + / 100000).
    { unfold Rdiv. rewrite Rabs_mult, (Rabs_pos_eq (/ FR N)) by (apply Rlt_le, Rinv_0_lt_compat; exact NP).
      apply Rle_trans with (n * / FR N); [apply Rmult_le_compat_r; [apply Rlt_le, Rinv_0_lt_compat; exact NP|exact Bc]|].
      apply Rmult_le_reg_r with (FR N); [exact NP|]. rewrite Rmult_assoc, Rinv_l by lra. lra. }
    destruct (fdiv_rel c N Fc) as (_ & d & e & D1 & D2 & Q). { lra. }
    { eapply Rle_trans; [exact X|]. apply Rle_trans with (bpow radix2 1); [simpl; lra|apply bpow_le; lia]. }
    assert (Y : Rabs (FR c / FR N - FR c / n) <= / 140000).
    { replace (FR c / FR N - FR c / n) with (FR c / FR N * ((n - FR N) / n)) by (field; lra).
      rewrite Rabs_mult. assert (Rabs ((n - FR N) / n) <= / 150000).
      { apply Rabs_le. split; apply Rmult_le_reg_r with n; try lra; unfold Rdiv; rewrite Rmult_assoc, Rinv_l by lra; lra. }
      apply Rle_trans with ((1 + / 100000) * / 150000); [apply Rmult_le_compat; try apply Rabs_pos; assumption|lra]. }
    rewrite Q. replace (FR c / FR N * (1 + d) + e - FR c / n) with ((FR c / FR N - FR c / n) + (FR c / FR N * d + e)) by ring.
    eapply Rle_trans; [apply Rabs_triang|]. assert (Rabs (FR c / FR N * d + e) <= / 1000000).
    { eapply Rle_trans; [apply Rabs_triang|]. rewrite Rabs_mult.
      assert (Rabs (FR c / FR N) * Rabs d <= (1 + / 100000) * / 16000000) by (apply Rmult_le_compat; try apply Rabs_pos; lra).
      assert (Rabs e <= / 100000000).
      { eapply Rle_trans; [exact D2|]. unfold t32r. apply Rle_trans with (bpow radix2 (-40)); [apply bpow_le; lia|simpl; lra]. }
      lra. }
    lra. }
  assert (CMP : forall a b c, Rabs a <= sqrt (a * a + b * b + c * c)).
  { intros a b c. rewrite <- sqrt_Rsqr_abs. apply sqrt_le_1_alt. unfold Rsqr. nra. }
  unfold heads, normalized3. cbv zeta. rewrite Z. unfold map3. cbn [vx vy vz]. fold (norm3 r). fold n.
  split; [|split]; apply AX; try assumption; unfold n, lengthR.
  - apply CMP.
  - rewrite (Rplus_comm (_ * _) (FR (vy r) * _)). apply CMP.
  - rewrite Rplus_comm, <- Rplus_assoc. apply CMP.
Qed.
Print Assumptions C94_direction.

(** Not so: worlds that do not contain the origin. Between 10 and 20 on every axis a draw
    can put the viewpoint at 5, outside the world. *)
Definition corner (z : Z) : pt3 := V3 (f32_of_Z z) (f32_of_Z z) (f32_of_Z z).
Theorem C94_bounds_refuted : exists lo hi draws p d, all3 usual_bound lo /\ all3 usual_bound hi /\
  all3 (fun a => 0 < FR a) lo /\ (forall n, a_draw (draws n)) /\
  generatePlausibleViewpoint [] lo hi 1 f1 draws (lo, lo) = (true, (p, d)) /\ ~ within_box lo hi p.
Proof.
  assert (UZ : forall z, (0 < z < 2 ^ 24)%Z -> usual_bound (f32_of_Z z) /\ 0 < FR (f32_of_Z z)).
  { intros z Hz. destruct (f32_of_Z_R z) as (E & F); [lia|]. unfold usual_bound. rewrite E.
    assert (Z1 : 1 <= IZR z) by (apply IZR_le; lia). rewrite Rabs_pos_eq by lra.
    repeat split; [exact F| | |lra].
    - right. apply Rle_trans with (bpow radix2 0); [apply bpow_le; lia|simpl; lra].
    - apply Rle_trans with (bpow radix2 24); [|apply bpow_le; lia]. rewrite <- IZR_Zpower by lia. apply IZR_le. change (radix2 ^ 24)%Z with (2 ^ 24)%Z. lia. }
  exists (corner 10), (corner 20), (fun _ => corner (-1)), (corner 5), (normalized3 (corner (-1))).
  destruct (UZ 10%Z ltac:(lia)) as (A1 & A2). destruct (UZ 20%Z ltac:(lia)) as (B1 & _).
  split; [exact (conj A1 (conj A1 A1))|]. split; [exact (conj B1 (conj B1 B1))|]. split; [exact (conj A2 (conj A2 A2))|].
  split. { intros _. destruct (f32_of_Z_R (-1)) as (E & F); [lia|]. unfold a_draw, all3, corner. cbn [vx vy vz]. rewrite E, F. repeat split; lra. }
  split.
  - assert (P : place (corner 10) (corner 20) (corner (-1)) = corner 5).
    { unfold corner, place, space_size, space_min, zip3, map3. cbn [vx vy vz]. f_equal; apply fword_inj; vm_compute; reflexivity. }
    unfold generatePlausibleViewpoint. cbn [attempts]. rewrite P.
    replace (plausible [] f1 (corner 5)) with true by (vm_compute; reflexivity). reflexivity.
  - intros ((_ & H & _) & _). unfold corner in H. cbn [vx] in H.
    rewrite (proj1 (f32_of_Z_R 10 ltac:(lia))), (proj1 (f32_of_Z_R 5 ltac:(lia))) in H. lra.
Qed.
Print Assumptions C94_bounds_refuted.

(** Not so: the draws span the whole space. In a world around the origin no draw comes
    nearer to the lower faces than half way. *)
Theorem C94_span_refuted : forall lo hi r, around_origin lo hi -> a_draw r ->
  FR (vx lo) / 2 <= FR (vx (place lo hi r)) /\ FR (vy lo) / 2 <= FR (vy (place lo hi r)) /\ FR (vz lo) / 2 <= FR (vz (place lo hi r)).
Proof.
  intros lo hi r W D. destruct (place_ok lo hi r W D) as (((_ & A1) & (_ & A2) & (_ & A3)) & B1 & B2 & B3). lra.
Qed.
Print Assumptions C94_span_refuted.

(** Not so: cylinders. At (2,0,2) the cylinder of radius 1 and height 2 is sqrt 2 away, but
    a viewpoint is put there when 1.75 is asked for. *)
Definition low : f32 := f32_of_f64 (f64_lit 7 (-2)).
Theorem C94_cylinder_refuted : exists c r h hi draws p d D,
  (forall n, a_draw (draws n)) /\ around_origin (corner 0) hi /\ least low /\
  generatePlausibleViewpoint [MkObject (Cylinder c r h) color0] (corner 0) hi 1 low draws (c, c) = (true, (p, d)) /\
  dist_to (solid_cylinder (V3R c) (FR r) (FR h)) (V3R p) D /\ D + / 4 <= FR low.
Proof.
  assert (L : FR low = 7 / 4).
  { unfold low. assert (E : FR low = IZR 14680064 * bpow radix2 (-23)) by reflexivity. fold low. rewrite E. simpl. lra. }
  assert (Z0 : FR f0 = 0) by reflexivity. pose proof FR_one as E1. pose proof F2 as E2.
  exists o3, f1, (f32_of_Z 2), pt202, (fun _ => corner 1), pt202, (normalized3 (corner 1)), (sqrt 2).
  split. { intros _. destruct (f32_of_Z_R 1) as (E & F); [lia|]. unfold a_draw, all3, corner. cbn [vx vy vz]. rewrite E, F. repeat split; lra. }
  assert (P38 : 2 <= bpow radix2 38) by (apply Rle_trans with (bpow radix2 1); [simpl; lra|apply bpow_le; lia]).
  assert (PM : bpow radix2 (-100) <= 2) by (apply Rle_trans with (bpow radix2 1); [apply bpow_le; lia|simpl; lra]).
  assert (U0 : usual_bound f0) by (split; [reflexivity|rewrite Z0, Rabs_R0; split; [now left|lra]]).
  assert (U2 : usual_bound (f32_of_Z 2)) by (split; [reflexivity|rewrite E2, Rabs_pos_eq by lra; split; [now right|lra]]).
  split.
  { assert (C0 : corner 0 = V3 f0 f0 f0) by (unfold corner; f_equal; apply fword_inj; vm_compute; reflexivity). rewrite C0.
    unfold around_origin, pt202, all3. cbn [vx vy vz]. rewrite Z0, E2. repeat (split; try assumption); lra. }
  split. { split; [reflexivity|]. rewrite L. split; [lra|]. apply Rle_trans with (bpow radix2 1); [simpl; lra|apply bpow_le; lia]. }
  split.
  { assert (P : place (corner 0) pt202 (corner 1) = pt202).
    { unfold corner, pt202, place, space_size, space_min, zip3, map3. cbn [vx vy vz]. f_equal; apply fword_inj; vm_compute; reflexivity. }
    unfold generatePlausibleViewpoint. cbn [attempts]. rewrite P.
    replace (plausible _ low pt202) with true by (vm_compute; reflexivity). reflexivity. }
  unfold V3R, o3, pt202. cbn [vx vy vz]. rewrite Z0, E1, E2. split.
  - split.
    + exists (V3 1 0 1). split; [unfold solid_cylinder; cbn [vx vy vz]; lra|]. unfold distR. cbn [vx vy vz]. f_equal. lra.
    + intros [x y z] (Q1 & Q2). cbn [vx vy vz] in *. unfold distR. cbn [vx vy vz]. apply sqrt_le_1_alt.
      assert (x <= 1) by nra. nra.
  - rewrite L. assert (sqrt 2 <= 3 / 2); [|lra]. rewrite <- (sqrt_Rsqr (3 / 2)) by lra. apply sqrt_le_1_alt. unfold Rsqr. lra.
Qed.
Print Assumptions C94_cylinder_refuted.

(** a world with a sphere: the first position is too near, the second is taken *)
Definition dr (n : nat) : pt3 :=
  match n with O => V3 (fbits 0xbecccccd) (fbits 0xbecccccd) (fbits 0xbecccccd) | _ => corner 1 end.
Example C94_case : exists p d,
  generatePlausibleViewpoint [MkObject (Sphere (corner 0) f1) color0] (corner (-4)) (corner 4) 3 f1 dr (corner 0, corner 0) = (true, (p, d)) /\
  p = corner 3.
Proof.
  assert (P : place (corner (-4)) (corner 4) (dr 1%nat) = corner 3).
  { unfold dr, corner, place, space_size, space_min, zip3, map3. cbn [vx vy vz]. f_equal; apply fword_inj; vm_compute; reflexivity. }
  exists (corner 3), (normalized3 (dr 2%nat)). split; [|reflexivity]. unfold generatePlausibleViewpoint. cbn [attempts].
  replace (plausible _ f1 (place _ _ (dr 0%nat))) with false by (vm_compute; reflexivity). rewrite P.
  replace (plausible _ f1 (corner 3)) with true by (vm_compute; reflexivity). reflexivity.
Qed.
