(** C54: the simulated distance is the clamped distance to the nearest object.
    C68: the distance of each object is the signed distance to its surface, up to rounding.
    C69: a simulated view reports, pixel by pixel, the nearest surface on the ray. *)
From Coq Require Import ZArith Reals List Bool Lia Lra.
From Flocq Require Import Core Binary.
From Verif Require Import F32 F32_lemmas F32_err Types Index Voxel Serialize Assoc Layer Threads Planning Update Update_spec
  Merge_proofs Sim Sim_spec Sim_proofs Sim_geom Connect_proofs Update_proofs P_Sphere.
Import ListNotations.
Open Scope Z_scope.

(** ** C54 *)
Lemma ER_neg m : ER (fneg m) = (- ER m)%R.
Proof.
  destruct m as [s|s|s pl Hp|s mm e Hm]; cbn [ER fneg].
  - unfold FR; cbn. lra.
  - destruct s; cbn; lra.
  - unfold FR; cbn. lra.
  - exact (fneg_R (B754_finite 24 128 s mm e Hm)).
Qed.
(** For every world, point and bound that is a number the query returns the bound or the
    distance of an object, and neither the bound nor any object is below it. *)
Theorem C54_nearest : forall w p m, fnan m = false -> nearest_below w p m (getDistanceToPoint w p m).
Proof.
  intros w p m N. destruct (world_sdf_ok w p m color0 N) as (A & B & C & D). rewrite (world_fst w p m color0) in *.
  unfold getDistanceToPoint, nearest_below. split; [|split; [|exact C]].
  - destruct D as [(D1 & _)|(w1 & o & w2 & D1 & D2 & _)].
    + left. rewrite <- (world_fst w p m color0), D1. reflexivity.
    + right. exists o. split; [rewrite D1; apply in_or_app; right; left; reflexivity|].
      rewrite <- (world_fst w p m color0), D2. reflexivity.
  - destruct B as [-> | B]; [apply flt_irrefl|apply flt_asym, B].
Qed.
Print Assumptions C54_nearest.

(** The voxel written has weight 1, its distance is that nearest distance clamped to
    [-max, max], and its colour is that of the first nearest object, or the default colour
    when every object is at [max] or beyond. *)
Theorem C54_voxel : forall w p m, fnan m = false -> fle f0 m = true ->
  let v := sim_voxel w p m in
  t_weight v = f1 /\
  t_distance v = fmax (getDistanceToPoint w p m) (fneg m) /\
  flt (t_distance v) (fneg m) = false /\ flt m (t_distance v) = false /\
  ((t_color v = color0 /\ forall o, In o w -> flt (obj_dist (o_shape o) p) m = false) \/
   exists w1 o w2, w = w1 ++ o :: w2 /\ t_color v = o_color o /\
     getDistanceToPoint w p m = obj_dist (o_shape o) p /\ flt (obj_dist (o_shape o) p) m = true /\
     forall o', In o' w1 -> fnan (obj_dist (o_shape o') p) = false ->
       flt (obj_dist (o_shape o) p) (obj_dist (o_shape o') p) = true).
Proof.
  intros w p m N P v. destruct (world_sdf_ok w p m color0 N) as (A & B & C & D).
  unfold v, sim_voxel, world_sdf, getDistanceToPoint. rewrite <- (world_fst w p m color0).
  destruct (fold_left (closer_color p) w (m, color0)) as [d c] eqn:E. cbn [t_weight t_distance t_color fst] in *.
  split; [reflexivity|]. split; [reflexivity|].
  apply fle_iff in P. destruct P as (P1 & _ & P3).
  assert (Nn : fnan (fneg m) = false) by (rewrite fneg_nan; exact N).
  assert (En : (ER (fneg m) <= ER m)%R) by (rewrite ER_neg; change (ER f0) with 0%R in P3; lra).
  assert (Hd : (ER d <= ER m)%R).
  { destruct B as [-> | B]; [lra|]. apply flt_iff in B. lra. }
  split; [|split].
  - unfold fmax. destruct (flt d (fneg m)) eqn:L; [apply flt_irrefl|exact L].
  - unfold fmax. destruct (flt m _) eqn:L; [|reflexivity]. exfalso. apply flt_iff in L.
    destruct (flt d (fneg m)); lra.
  - destruct D as [(D1 & D2)|(w1 & o & w2 & D1 & D2 & D3 & D4)].
    + left. injection D1 as D1 D1'. split; [exact D1'|exact D2].
    + right. injection D2 as D2 D2'. exists w1, o, w2. rewrite <- D2. repeat split; auto.
Qed.
Print Assumptions C54_voxel.

(** Generating a layer visits the blocks that contain a sample point: every voxel of those
    blocks whose centre lies in the bounds is set as above, and every other voxel keeps its
    value. Partial: the visited blocks need not be all the blocks with a voxel in bounds. *)
Theorem C54_layer_partial : forall fuel w lo hi m l l',
  all3 (fin_upto 100) lo -> all3 (fin_upto 100) hi ->
  ffin (l_block_size l) = true -> (bpow radix2 (-100) <= FR (l_block_size l) <= bpow radix2 100)%R ->
  generateSdfFromWorld fuel w lo hi m l = Ok (Some l') ->
  exists xs ys zs visited,
    axis_grid (vx lo) (vx hi) (l_block_size l) xs /\ axis_grid (vy lo) (vy hi) (l_block_size l) ys /\ axis_grid (vz lo) (vz hi) (l_block_size l) zs /\
    (forall i, In i visited <-> exists x y z, In x xs /\ In y ys /\ In z zs /\ computeBlockIndexFromCoordinates (l_vps l) (l_size l) (V3 x y z) = Some i) /\
    generated w lo hi m visited l l'.
Proof.
  intros fuel w lo hi m l l' ((Fa & Ba) & (Fb & Bb) & (Fc & Bc)) ((Fd & Bd) & (Fe & Be) & (Ff & Bf)) Fs Bs H. unfold generateSdfFromWorld in H.
  destruct (sim_points _ _ _ _) as [ps|] eqn:P; [|discriminate].
  apply rbind_ok in H. destruct H as (bs & A & H). apply of_opt_ok in A.
  apply rbind_ok in H. destruct H as (l1 & F & H). injection H as <-.
  unfold sim_points in P.
  destruct (axis_samples fuel (vx lo) (vx hi) (l_block_size l)) as [xs|] eqn:X; [|discriminate P].
  destruct (axis_samples fuel (vy lo) (vy hi) (l_block_size l)) as [ys|] eqn:Y; [|discriminate P].
  destruct (axis_samples fuel (vz lo) (vz hi) (l_block_size l)) as [zs|] eqn:Z; [|discriminate P]. injection P as <-.
  exists xs, ys, zs, (rev bs ++ []).
  split; [exact (axis_samples_ok fuel _ _ _ _ Fa Fd Fs Ba Bd Bs X)|]. split; [exact (axis_samples_ok fuel _ _ _ _ Fb Fe Fs Bb Be Bs Y)|].
  split; [exact (axis_samples_ok fuel _ _ _ _ Fc Ff Fs Bc Bf Bs Z)|]. split.
  - intros i. rewrite app_nil_r, <- in_rev, (all_some_In _ _ _ i A). split.
    + intros (q & Q & E). apply in_flat_map in Q. destruct Q as (x & Ix & Q). apply in_flat_map in Q. destruct Q as (y & Iy & Q).
      apply in_map_iff in Q. destruct Q as (z & <- & Iz). exists x, y, z. auto.
    + intros (x & y & z & Ix & Iy & Iz & E). exists (V3 x y z). split; [|exact E].
      apply in_flat_map. exists x. split; [exact Ix|]. apply in_flat_map. exists y. split; [exact Iy|]. apply in_map_iff. exists z. auto.
  - eapply sim_blocks_ok; [apply generated_refl|exact F].
Qed.
Print Assumptions C54_layer_partial.

(** "Each in-bounds voxel is set" is false: the blocks are sampled one block size apart,
    starting half a block below the bounds, and the last sample can fall short of the
    block of the upper bound. Here the bounds are [0.375, 1.3125] on each axis, blocks
    have side 1, and the voxel centred at 1.25 is never allocated. *)
Definition el : Layer KTsdf := MkLayer (k := KTsdf) (f32_lit 1 (-1)) 2 [].
Definition blo : pt3 := let x := f32_lit 3 (-3) in V3 x x x.
Definition bhi : pt3 := let x := f32_lit 21 (-4) in V3 x x x.
Definition world1 : list object := [MkObject (Sphere (V3 f0 f0 f0) f1) (MkColor 1 2 3 4); MkObject (Cube (V3 f0 f0 f0) (V3 f1 f1 f1)) (MkColor 9 9 9 9)].
Lemma take_l : forall (r : res (option (Layer KTsdf))) (f : Layer KTsdf -> bool),
  match r with Ok (Some l) => f l | _ => false end = true -> exists l, r = Ok (Some l) /\ f l = true.
Proof. intros [[l|]| |] f H; try discriminate. exists l; auto. Qed.
Theorem C54_cover_refuted : ~ (forall fuel w lo hi m l l',
  generateSdfFromWorld fuel w lo hi m l = Ok (Some l') ->
  forall i j, 0 <= vx j < l_vps l -> 0 <= vy j < l_vps l -> 0 <= vz j < l_vps l ->
    in_box lo hi (centre_of (fresh l i) j) -> l_get l' i <> None).
Proof.
  intros H.
  assert (C : (match generateSdfFromWorld 10 world1 blo bhi f1 el with
    | Ok (Some l) => match l_get l (V3 1 1 1) with None => true | _ => false end | _ => false end) = true)
    by (vm_compute; reflexivity).
  apply take_l in C. destruct C as (l' & E & C).
  assert (I : in_box blo bhi (centre_of (fresh el (V3 1 1 1)) (V3 0 0 0))) by (apply in_bounds_box; vm_compute; reflexivity).
  apply (H 10%nat world1 blo bhi f1 el l' E (V3 1 1 1) (V3 0 0 0)).
  - cbn; lia.
  - cbn; lia.
  - cbn; lia.
  - exact I.
  - destruct (l_get l' (V3 1 1 1)); [discriminate|reflexivity].
Qed.
Print Assumptions C54_cover_refuted.

(** The hypotheses are met: the same run allocates the blocks next to the origin and sets
    the voxel centred at (0.75, 0.75, 0.75) from the sphere, in the sphere's colour. *)
Example C54_meets :
  fnan f1 = false /\ fle f0 f1 = true /\ all3 (fin_upto 100) blo /\ all3 (fin_upto 100) bhi /\
  ffin (l_block_size el) = true /\ (bpow radix2 (-100) <= FR (l_block_size el) <= bpow radix2 100)%R /\
  (match generateSdfFromWorld 10 world1 blo bhi f1 el with
   | Ok (Some l) => match l_get l (V3 0 0 0) with
      | Some b => match nth_error (b_voxels b) 7 with
         | Some v => (fword (t_distance v) =? fword (obj_dist (Sphere (V3 f0 f0 f0) f1) (centre_of b (V3 1 1 1)))) &&
                     flt (t_distance v) (f32_lit 3 (-3)) && (cb (t_color v) =? 3)
         | None => false end
      | None => false end
   | _ => false end) = true.
Proof.
  assert (Ea : FR (f32_lit 3 (-3)) = (IZR 12582912 * bpow radix2 (-25))%R) by reflexivity. assert (Eb : FR (f32_lit 21 (-4)) = (IZR 11010048 * bpow radix2 (-23))%R) by reflexivity.
  assert (Ec : l_block_size el = f1) by (apply fword_inj; vm_compute; reflexivity). assert (Ed : FR f1 = 1%R) by (apply (f32_of_Z_R 1); lia).
  assert (B : (bpow radix2 100 >= 4)%R) by (apply Rle_ge; change 4%R with (bpow radix2 2); apply bpow_le; lia).
  assert (B' : (bpow radix2 (-100) <= 1)%R) by (change 1%R with (bpow radix2 0); apply bpow_le; lia).
  assert (U1 : fin_upto 100 (f32_lit 3 (-3))) by (split; [reflexivity|rewrite Ea; change (bpow radix2 (-25)) with (/ 33554432)%R; rewrite Rabs_pos_eq by lra; lra]).
  assert (U2 : fin_upto 100 (f32_lit 21 (-4))) by (split; [reflexivity|rewrite Eb; change (bpow radix2 (-23)) with (/ 8388608)%R; rewrite Rabs_pos_eq by lra; lra]).
  split; [reflexivity|]. split; [reflexivity|]. split; [exact (conj U1 (conj U1 U1))|]. split; [exact (conj U2 (conj U2 U2))|].
  rewrite Ec. split; [reflexivity|]. split; [rewrite Ed; lra|]. vm_compute; reflexivity.
Qed.

(** ** C68 *)
Open Scope R_scope.
(** Sphere: the distance to the centre minus the radius. *)
Theorem C68_sphere : forall c r p, all3 (fin_upto 40) c -> all3 (fin_upto 40) p -> fin_upto 40 r ->
  let D := distR (V3R p) (V3R c) in
  let d := obj_dist (Sphere c r) p in
  ffin d = true /\ Rabs (FR d - (D - FR r)) <= / 1000000 * (D + Rabs (FR r)) + / 100000000.
Proof. exact sphere_ok. Qed.
Print Assumptions C68_sphere.

(** Cube: the signed distance to the axis-aligned box, which outside the box is the
    distance to the nearest of its points. *)
Theorem C68_cube : forall M c s p, 1 <= M -> M <= bpow radix2 38 ->
  all3 (bounded M) c -> all3 (bounded M) s -> all3 (bounded M) p ->
  let d := obj_dist (Cube c s) p in
  ffin d = true /\ Rabs (FR d - box_sdf (V3R c) (V3R s) (V3R p)) <= / 100000 * M + / 500000.
Proof. exact cube_ok. Qed.
Print Assumptions C68_cube.
Theorem C68_cube_outside : forall M c s p D, 1 <= M -> M <= bpow radix2 38 ->
  all3 (bounded M) c -> all3 (bounded M) s -> all3 (bounded M) p ->
  0 <= FR (vx s) -> 0 <= FR (vy s) -> 0 <= FR (vz s) ->
  ~ solid_box (V3R c) (V3R s) (V3R p) -> dist_to (solid_box (V3R c) (V3R s)) (V3R p) D ->
  Rabs (FR (obj_dist (Cube c s) p) - D) <= / 100000 * M + / 500000.
Proof.
  intros M c s p D M1 M2 C S P S1 S2 S3 N ((x & X1 & X2) & HD).
  destruct (box_sdf_dist (V3R c) (V3R s) (V3R p) S1 S2 S3 N) as ((y & Y1 & Y2) & HB).
  assert (E : D = box_sdf (V3R c) (V3R s) (V3R p)).
  { apply Rle_antisym; [rewrite <- Y2; apply HD, Y1|rewrite <- X2; apply HB, X1]. }
  rewrite E. apply cube_ok; assumption.
Qed.
Print Assumptions C68_cube_outside.

(** Plane with a normal of length one up to 1e-6: the signed distance along the normal. *)
Theorem C68_plane : forall M c n p, 1 <= M -> M <= bpow radix2 38 -> all3 (bounded M) c -> all3 (bounded M) p ->
  ffin (vx n) = true -> ffin (vy n) = true -> ffin (vz n) = true ->
  Rabs (distR (V3R n) (V3 0 0 0) - 1) <= / 1000000 ->
  let d := obj_dist (PlaneObject c n) p in
  ffin d = true /\
  Rabs (FR d - (dotR (V3R n) (V3R p) - dotR (V3R n) (V3R c)) / distR (V3R n) (V3 0 0 0)) <= / 20000 * M.
Proof. exact plane_ok. Qed.
Print Assumptions C68_plane.

(** Cylinder, at heights between its caps: the distance to the axis minus the radius.
    Partial: inside, the caps are ignored, and above or below the formula is wrong. *)
Theorem C68_cylinder_partial : forall c r h p, all3 (fin_upto 40) c -> all3 (fin_upto 40) p -> fin_upto 40 r ->
  fle (f32_of_f64 (dsub (f64_of_f32 (vz c)) (ddiv (f64_of_f32 h) d2))) (vz p) = true ->
  fle (vz p) (f32_of_f64 (dadd (f64_of_f32 (vz c)) (ddiv (f64_of_f32 h) d2))) = true ->
  let D := distR (V3 0 (FR (vx p)) (FR (vy p))) (V3 0 (FR (vx c)) (FR (vy c))) in
  let d := obj_dist (Cylinder c r h) p in
  ffin d = true /\ Rabs (FR d - (D - FR r)) <= / 1000000 * (D + Rabs (FR r)) + / 100000000.
Proof. exact cylinder_side_ok. Qed.
Print Assumptions C68_cylinder_partial.

(** Above a cap and outside the radius the reported distance is not the distance: at
    (2,0,2) from the cylinder of radius 1 and height 2 it is 2 instead of sqrt 2. *)
Definition o3 : pt3 := V3 f0 f0 f0.
Definition pt202 : pt3 := V3 (f32_of_Z 2) f0 (f32_of_Z 2).
Lemma F2 : FR (f32_of_Z 2) = 2. Proof. apply (f32_of_Z_R 2); lia. Qed.
Lemma F1 : FR f1 = 1. Proof. apply (f32_of_Z_R 1); lia. Qed.
Theorem C68_cylinder_refuted : ~ (forall c r h p D,
  all3 (bounded 4) c -> bounded 4 r -> bounded 4 h -> all3 (bounded 4) p ->
  ~ solid_cylinder (V3R c) (FR r) (FR h) (V3R p) ->
  dist_to (solid_cylinder (V3R c) (FR r) (FR h)) (V3R p) D ->
  Rabs (FR (obj_dist (Cylinder c r h) p) - D) <= / 2).
Proof.
  intros H. assert (Z0 : FR f0 = 0) by reflexivity.
  assert (B0 : bounded 4 f0) by (split; [reflexivity|rewrite Z0, Rabs_R0; lra]).
  assert (B1 : bounded 4 f1) by (split; [reflexivity|rewrite F1; apply Rabs_le; lra]).
  assert (B2 : bounded 4 (f32_of_Z 2)) by (split; [reflexivity|rewrite F2; apply Rabs_le; lra]).
  specialize (H o3 f1 (f32_of_Z 2) pt202 (sqrt 2) (conj B0 (conj B0 B0)) B1 B2 (conj B2 (conj B0 B2))).
  assert (V : FR (obj_dist (Cylinder o3 f1 (f32_of_Z 2)) pt202) = 2).
  { rewrite <- F2. f_equal. apply fword_inj. vm_compute. reflexivity. }
  rewrite V in H. unfold solid_cylinder, V3R, o3, pt202 in H. cbn [vx vy vz] in H. rewrite Z0, F1, F2 in H.
  assert (Q : Rabs (2 - sqrt 2) <= / 2).
  { apply H; [lra|]. split.
    - exists (V3 1 0 1). cbn [vx vy vz]. split; [split; lra|]. unfold distR. cbn [vx vy vz]. f_equal. ring.
    - intros s. destruct s as [x y z]. unfold distR. cbn [vx vy vz]. intros (A & B). apply sqrt_le_1_alt.
      assert (x <= 1) by nra. nra. }
  assert (sqrt 2 < 1.42). { rewrite <- (sqrt_square 1.42) by lra. apply sqrt_lt_1_alt. lra. }
  apply Rabs_le_inv in Q. lra.
Qed.
Print Assumptions C68_cylinder_refuted.

Example C68_meets : all3 (bounded 4) o3 /\ all3 (bounded 4) pt202 /\ all3 (fin_upto 40) pt202 /\
  Rabs (distR (V3R (V3 f1 f0 f0)) (V3 0 0 0) - 1) <= / 1000000 /\
  fword (obj_dist (Sphere o3 f1) (V3 (f32_of_Z 3) (f32_of_Z 4) f0)) = fword (f32_of_Z 4) /\
  fword (obj_dist (Cube o3 pt202) (V3 (f32_of_Z 4) f0 (f32_of_Z 5))) = fword (f32_of_Z 5) /\
  fword (obj_dist (Cube o3 (V3 f1 f1 f1)) (V3 f0 f0 f0)) = fword (f32_lit (-1) (-1)) /\
  fword (obj_dist (PlaneObject (V3 f0 f0 f1) (V3 f0 f0 f1)) pt202) = fword f1 /\
  fle (f32_of_f64 (dsub (f64_of_f32 f0) (ddiv (f64_of_f32 (f32_of_Z 4)) d2))) (vz pt202) = true /\
  fle (vz pt202) (f32_of_f64 (dadd (f64_of_f32 f0) (ddiv (f64_of_f32 (f32_of_Z 4)) d2))) = true.
Proof.
  assert (Z0 : FR f0 = 0) by reflexivity.
  assert (B0 : bounded 4 f0) by (split; [reflexivity|rewrite Z0, Rabs_R0; lra]).
  assert (B2 : bounded 4 (f32_of_Z 2)) by (split; [reflexivity|rewrite F2; apply Rabs_le; lra]).
  assert (U : forall x, bounded 4 x -> fin_upto 40 x).
  { intros x (A & B). split; [exact A|]. eapply Rle_trans; [exact B|]. change 4 with (bpow radix2 2). apply bpow_le; lia. }
  split; [exact (conj B0 (conj B0 B0))|]. split; [exact (conj B2 (conj B0 B2))|].
  split; [exact (conj (U _ B2) (conj (U _ B0) (U _ B2)))|]. split.
  - unfold distR, V3R. cbn [vx vy vz]. rewrite F1, Z0.
    assert (E : (1 - 0) * (1 - 0) + ((0 - 0) * (0 - 0) + (0 - 0) * (0 - 0)) = 1 * 1) by ring.
    rewrite E, sqrt_square by lra. replace (1 - 1) with 0 by ring. rewrite Rabs_R0. lra.
  - repeat (split; [vm_compute; reflexivity|]). vm_compute; reflexivity.
Qed.
Close Scope R_scope.

(** ** C69 *)
Lemma pt_nan_iff p : pt_nan p = false <-> numeric p.
Proof. unfold pt_nan, numeric. rewrite !orb_false_iff. tauto. Qed.
Lemma ray_at_point o d t : ray_at o d t = ray_point o d t. Proof. reflexivity. Qed.
(** Every point of a view lies at a distance in [0, max] along the ray of its pixel, on the
    first of the nearest objects there, in that object's colour; a pixel gives no point
    only if no object is hit there or the point is not a number, and at most one point.
    Partial: this needs that no object reports a distance that is not a number. *)
Theorem C69_partial : forall w org m dir,
  (forall o t, In o w -> obj_hit (o_shape o) org dir m = Some t -> fnan t = false) ->
  (sim_pixel w org m dir = [] /\
     ((forall o, In o w -> obj_hit (o_shape o) org dir m = None) \/
      exists t o, first_nearest w org dir m t o /\ ~ numeric (ray_point org dir t))) \/
  exists t o, sim_pixel w org m dir = [(ray_point org dir t, o_color o)] /\
    first_nearest w org dir m t o /\ numeric (ray_point org dir t) /\
    flt t f0 = false /\ flt m t = false.
Proof.
  intros w org m dir N. unfold sim_pixel.
  destruct (nearer_ok org dir m w None N) as [(R1 & R2)|(t & o & R1 & R2 & _)]; [discriminate| |]; cbv zeta in R1; rewrite R1.
  - left. split; [reflexivity|]. left. intros o I. destruct (obj_hit _ _ _ _) as [t|] eqn:E; [|reflexivity].
    destruct (R2 o t I E) as (t0 & c0 & Q & _). discriminate.
  - destruct (pt_nan (ray_at org dir t)) eqn:P.
    + left. split; [reflexivity|]. right. exists t, o. split; [exact R2|]. rewrite <- pt_nan_iff, <- ray_at_point, P. discriminate.
    + right. exists t, o. destruct R2 as (w1 & w2 & Q1 & Q2 & Q3). destruct (hit_range _ _ _ _ _ Q2). split; [rewrite ray_at_point; reflexivity|]. split; [exists w1, w2; auto|]. split; [apply pt_nan_iff; rewrite <- ray_at_point; exact P|auto].
Qed.
Print Assumptions C69_partial.
(** The whole view is the concatenation, in pixel order, of those points. *)
Theorem C69_view : forall w org m dirs, Forall (fun pc => numeric (fst pc)) (getPointcloudFromViewpoint w org m dirs) /\
  (length (getPointcloudFromViewpoint w org m dirs) <= length dirs)%nat /\
  forall pc, In pc (getPointcloudFromViewpoint w org m dirs) <-> exists d, In d dirs /\ In pc (sim_pixel w org m d).
Proof.
  intros w org m dirs. unfold getPointcloudFromViewpoint. split; [|split].
  - apply Forall_forall. intros pc H. apply in_flat_map in H. destruct H as (d & _ & H). unfold sim_pixel in H.
    destruct (fold_left _ w None) as [[t c]|]; [|destruct H]. destruct (pt_nan _) eqn:E; [destruct H|].
    destruct H as [<-|[]]. apply pt_nan_iff, E.
  - induction dirs as [|d dirs IH]; cbn [flat_map length]; [lia|]. rewrite app_length.
    assert (length (sim_pixel w org m d) <= 1)%nat; [|lia]. unfold sim_pixel.
    destruct (fold_left _ w None) as [[t c]|]; [|cbn; lia]. destruct (pt_nan _); cbn; lia.
  - intros pc. rewrite in_flat_map. split; intros (d & A & B); exists d; auto.
Qed.
Print Assumptions C69_view.

(** Without that hypothesis it is false: a ray that runs in the plane of a cube's lower x
    face makes the cube report a distance that is not a number, which is never replaced, so
    the pixel is lost although another object is hit. *)
Definition face_world : list object :=
  [MkObject (Cube o3 (V3 (f32_of_Z 2) (f32_of_Z 2) (f32_of_Z 2))) (MkColor 1 1 1 1);
   MkObject (Sphere (V3 (f32_of_Z (-1)) (f32_of_Z 5) f0) f1) (MkColor 2 2 2 2)].
Definition face_org : pt3 := V3 (f32_of_Z (-1)) (f32_of_Z (-3)) f0.
Definition face_dir : pt3 := V3 f0 f1 f0.
Lemma hit_at (h : option f32) x : (match h with Some t => fword t =? fword x | None => false end) = true -> h = Some x.
Proof. destruct h as [t|]; [|discriminate]. intros E. apply Z.eqb_eq in E. f_equal. apply fword_inj, E. Qed.
Theorem C69_refuted : ~ (forall w org m dir o t, In o w -> obj_hit (o_shape o) org dir m = Some t ->
  fnan t = false -> numeric (ray_point org dir t) -> sim_pixel w org m dir <> []).
Proof.
  intros H. apply (H face_world face_org (f32_of_Z 20) face_dir (MkObject (Sphere (V3 (f32_of_Z (-1)) (f32_of_Z 5) f0) f1) (MkColor 2 2 2 2)) (f32_of_Z 7)).
  - right; left; reflexivity.
  - apply hit_at. vm_compute. reflexivity.
  - vm_compute. reflexivity.
  - vm_compute. repeat split.
  - vm_compute. reflexivity.
Qed.
Print Assumptions C69_refuted.

(** The hypothesis is met by ordinary rays: from (-3,0,0) along x the cube is hit at 2. *)
Example C69_meets :
  obj_hit (Cube o3 (V3 (f32_of_Z 2) (f32_of_Z 2) (f32_of_Z 2))) (V3 (f32_of_Z (-3)) f0 f0) (V3 f1 f0 f0) (f32_of_Z 20) = Some (f32_of_Z 2) /\
  obj_hit (Sphere (V3 (f32_of_Z (-1)) (f32_of_Z 5) f0) f1) (V3 (f32_of_Z (-3)) f0 f0) (V3 f1 f0 f0) (f32_of_Z 20) = None /\
  (match sim_pixel face_world (V3 (f32_of_Z (-3)) f0 f0) (f32_of_Z 20) (V3 f1 f0 f0) with
   | [(p, c)] => (fword (vx p) =? fword (f32_of_Z (-1))) && (fword (vy p) =? 0) && (fword (vz p) =? 0) && (cr c =? 1)
   | _ => false end) = true.
Proof. split; [|split]; [apply hit_at; vm_compute; reflexivity|vm_compute; reflexivity|vm_compute; reflexivity]. Qed.
