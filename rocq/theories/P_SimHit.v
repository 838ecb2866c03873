(** C99: where a ray meets a simulated object, against real geometry.
    Statements are about the model of the ray intersections (Sim.v, objects.h:60-397), whose
    arithmetic is that of the code; the surfaces are those of SimHit_spec.v, in the reals. *)
From Coq Require Import ZArith Reals List Bool Lia Lra.
From Flocq Require Import Core Binary.
From Verif Require Import F32 F32_lemmas Types Index Voxel Update_spec Sim Sim_spec Sim_geom SimHit_spec SimHit_proofs SimBox_proofs SimCyl_proofs.
Import ListNotations.
Open Scope R_scope.

(** ** Planes *)
(** A reported hit is in front of the origin, in range, and on the plane up to rounding. *)
Theorem C99_plane_hit : forall M c n o d m t, scene M c o m -> direction n -> direction d -> obj_hit (PlaneObject c n) o d m = Some t ->
  ffin t = true /\ 0 <= FR t <= FR m /\ Rabs (height (V3R c) (V3R n) (on_ray o d (FR t))) <= / 100000 * M.
Proof. intros M c n o d m t ((M1 & M2) & C & O & B) N D H. exact (plane_sound M c n o d m M1 M2 C O B N D t H). Qed.
Print Assumptions C99_plane_hit.
(** A ray that crosses the plane at [tau], not nearly along it and not at the very ends of the range, is reported. *)
Theorem C99_plane_seen : forall M c n o d m tau, scene M c o m -> direction n -> direction d ->
  height (V3R c) (V3R n) (on_ray o d tau) = 0 -> let k := Rabs (dotR (V3R n) (V3R d)) in
  2 / 1000000 <= k -> 2 / 100000 * M <= tau * k -> tau * k <= FR m * k - 2 / 100000 * M ->
  exists t, obj_hit (PlaneObject c n) o d m = Some t.
Proof. intros M c n o d m tau ((M1 & M2) & C & O & B) N D Z k K A E. exact (plane_complete M c n o d m M1 M2 C O B N D tau Z K A E). Qed.
Print Assumptions C99_plane_seen.

(** ** Spheres *)
(** A reported hit is on the sphere, on the side that faces the origin. *)
Theorem C99_sphere_hit : forall M c r o d m t, scene M c o m -> within M r -> unit_dir d -> obj_hit (Sphere c r) o d m = Some t ->
  ffin t = true /\ 0 <= FR t <= FR m /\ Rabs (sphere_level (V3R c) (FR r) (on_ray o d (FR t))) <= / 5000 * (M * M) /\
  dotR (V3R d) (vsub (on_ray o d (FR t)) (V3R c)) <= / 50000 * M.
Proof. intros M c r o d m t ((M1 & M2) & C & O & B) R D H. exact (sphere_sound M c r o d m M1 M2 C O B R D t H). Qed.
Print Assumptions C99_sphere_hit.
(** A ray from outside that passes through the inside of the sphere within range is reported. *)
Theorem C99_sphere_seen : forall M c r o d m tau, scene M c o m -> within M r -> unit_dir d ->
  / 5000 * (M * M) <= sphere_level (V3R c) (FR r) (on_ray o d 0) -> 0 <= tau <= FR m ->
  sphere_level (V3R c) (FR r) (on_ray o d tau) <= - (/ 5000 * (M * M)) -> exists t, obj_hit (Sphere c r) o d m = Some t.
Proof. intros M c r o d m tau ((M1 & M2) & C & O & B) R D Z T L. exact (sphere_complete M c r o d m M1 M2 C O B R D tau Z L T). Qed.
Print Assumptions C99_sphere_seen.

(** ** Boxes *)
(** A reported hit is a point of the surface of the box: of the closed box, and in the plane of a face. *)
Theorem C99_box_hit : forall M c s o d m t, scene M c o m -> box_size M s -> direction d -> clear_of_faces M c s o d -> obj_hit (Cube c s) o d m = Some t ->
  ffin t = true /\ 0 <= FR t <= FR m /\ box_grown (V3R c) (V3R s) (/ 1000000 * M) (on_ray o d (FR t)) /\ at_face (V3R c) (V3R s) (/ 1000000 * M) (on_ray o d (FR t)).
Proof. intros M c s o d m t ((M1 & M2) & C & O & B) (S & SX & SY & SZ) D (DX & DY & DZ) H. exact (box_sound M c s o d m M1 M2 C S O B SX SY SZ D DX DY DZ t H). Qed.
Print Assumptions C99_box_hit.
(** A ray from outside that is inside the box at [tau] within range is reported, no later than [tau]. *)
Theorem C99_box_seen : forall M c s o d m tau, scene M c o m -> box_size M s -> direction d -> clear_of_faces M c s o d ->
  ~ box_grown (V3R c) (V3R s) (/ 1000000 * M) (on_ray o d 0) -> 0 <= tau <= FR m -> box_grown (V3R c) (V3R s) (- (/ 1000000 * M)) (on_ray o d tau) ->
  exists t, obj_hit (Cube c s) o d m = Some t /\ FR t <= tau.
Proof. intros M c s o d m tau ((M1 & M2) & C & O & B) (S & SX & SY & SZ) D (DX & DY & DZ) Z T L. exact (box_complete M c s o d m M1 M2 C S O B SX SY SZ D DX DY DZ tau Z T L). Qed.
Print Assumptions C99_box_seen.

(** ** Cylinders *)
(** A reported hit is on the side, between the caps, or on a cap, inside the side. For the side the
    margin grows as the ray gets steeper. *)
Theorem C99_cylinder_hit : forall M c r h o d m t, scene M c o m -> within M r -> within M h -> 0 <= FR h -> direction d -> obj_hit (Cylinder c r h) o d m = Some t ->
  let q := on_ray o d (FR t) in
  ffin t = true /\ 0 <= FR t < FR m /\
  ((FR (vx d) * FR (vx d) + FR (vy d) * FR (vy d)) * Rabs (side_level (V3R c) (FR r) q) <= / 10000 * (M * M) /\ Rabs (vz q - FR (vz c)) <= FR h / 2 + / 1000000 * M \/
   Rabs (Rabs (vz q - FR (vz c)) - FR h / 2) <= / 1000000 * M /\ side_level (V3R c) (FR r) q <= / 10000 * (M * M)).
Proof. intros M c r h o d m t ((M1 & M2) & C & O & B) R H P D E. exact (cylinder_sound M c r h o d m M1 M2 C O B R H P D t E). Qed.
Print Assumptions C99_cylinder_hit.
(** Missing: a cylinder in the way need not be seen. A sensor above a cylinder that looks straight
    down, range included, sees nothing, although the ray runs along the axis. *)
Definition up5 : pt3 := V3 f0 f0 (f32_of_Z 5).
Definition down : pt3 := V3 f0 f0 (f32_of_Z (-1)).
Theorem C99_cylinder_seen_refuted : ~ (forall M c r h o d m tau, scene M c o m -> within M r -> within M h -> 0 <= FR h -> unit_dir d ->
  0 <= tau <= FR m -> side_level (V3R c) (FR r) (on_ray o d tau) <= - (1 / 2) -> Rabs (vz (on_ray o d tau) - FR (vz c)) <= FR h / 2 - 1 / 2 ->
  1 <= Rabs (vz (on_ray o d 0) - FR (vz c)) - FR h / 2 -> exists t, obj_hit (Cylinder c r h) o d m = Some t).
Proof.
  intros H. assert (G : forall n, (Z.abs n <= 100)%Z -> within 10 (f32_of_Z n) <-> Rabs (IZR n) <= 10).
  { intros n N. destruct (f32_of_Z_R n ltac:(lia)) as (E & F). unfold within. rewrite E. tauto. }
  assert (B0 : within 10 f0) by (apply (G 0%Z); [lia|rewrite Rabs_R0; lra]).
  assert (T10 : 10 <= bpow radix2 38) by (apply Rle_trans with (bpow radix2 4); [change (bpow radix2 4) with 16; lra|apply bpow_le; lia]).
  assert (V : forall n, (Z.abs n <= 100)%Z -> FR (f32_of_Z n) = IZR n) by (intros n N; apply f32_of_Z_R; lia).
  destruct (H 10 (V3 f0 f0 f0) (f32_of_Z 1) (f32_of_Z 2) up5 down (f32_of_Z 10) 5) as (t & E).
  - split; [lra|]. split; [exact (conj B0 (conj B0 B0))|]. split; [refine (conj B0 (conj B0 _)); apply (G 5%Z); [lia|rewrite Rabs_pos_eq; lra]|apply (G 10%Z); [lia|rewrite Rabs_pos_eq; lra]].
  - apply (G 1%Z); [lia|rewrite Rabs_pos_eq; lra].
  - apply (G 2%Z); [lia|rewrite Rabs_pos_eq; lra].
  - rewrite V by lia. lra.
  - repeat split; try reflexivity. unfold dotR, V3R, down. cbn [vx vy vz]. rewrite V by lia. change (FR f0) with 0. apply Rabs_le. lra.
  - rewrite V by lia. lra.
  - unfold side_level, on_ray, V3R, up5, down. cbn [vx vy vz]. rewrite !V by lia. change (FR f0) with 0. lra.
  - unfold on_ray, up5, down. cbn [vx vy vz]. rewrite !V by lia. change (FR f0) with 0. rewrite Rabs_pos_eq; lra.
  - unfold on_ray, up5, down. cbn [vx vy vz]. rewrite !V by lia. change (FR f0) with 0. rewrite Rabs_pos_eq; lra.
  - assert (N : obj_hit (Cylinder (V3 f0 f0 f0) (f32_of_Z 1) (f32_of_Z 2)) up5 down (f32_of_Z 10) = None) by (vm_compute; reflexivity). rewrite N in E. discriminate E.
Qed.
Print Assumptions C99_cylinder_seen_refuted.

(** ** Concrete cases *)
Lemma int_within n : (Z.abs n <= 10)%Z -> within 10 (f32_of_Z n).
Proof. intros N. destruct (f32_of_Z_R n ltac:(lia)) as (E & F). split; [exact F|]. rewrite E. rewrite <- abs_IZR. apply IZR_le. lia. Qed.
Lemma ten_scene : scene 10 (V3 f0 f0 f0) (V3 (f32_of_Z (-5)) f0 f0) (f32_of_Z 10).
Proof.
  assert (T10 : 10 <= bpow radix2 38) by (apply Rle_trans with (bpow radix2 4); [change (bpow radix2 4) with 16; lra|apply bpow_le; lia]).
  pose proof (int_within 0 ltac:(lia)) as Z0. pose proof (int_within (-5) ltac:(lia)) as Z5. pose proof (int_within 10 ltac:(lia)) as Z10.
  split; [lra|]. split; [exact (conj Z0 (conj Z0 Z0))|]. split; [exact (conj Z5 (conj Z0 Z0))|exact Z10].
Qed.
Definition along : pt3 := V3 f1 f0 f0.
Lemma along_unit : unit_dir along /\ direction along.
Proof.
  assert (D : unit_dir along). { repeat split; try reflexivity. unfold dotR, V3R, along. cbn [vx vy vz]. change (FR f0) with 0. replace (FR f1) with 1 by (symmetry; apply (f32_of_Z_R 1); lia). apply Rabs_le. lra. }
  split; [exact D|]. exact (unit_bounded along D).
Qed.
(** from (-5,0,0) along the x axis: a sphere of radius 1, a box of side 2 and a cylinder of radius 1 at the origin are all met at 4, the plane x = 0 at 5 *)
Example C99_meets :
  scene 10 (V3 f0 f0 f0) (V3 (f32_of_Z (-5)) f0 f0) (f32_of_Z 10) /\ unit_dir along /\ direction along /\ within 10 (f32_of_Z 1) /\ within 10 (f32_of_Z 2) /\
  map (fun s => option_map Bits.bits_of_b32 (obj_hit s (V3 (f32_of_Z (-5)) f0 f0) along (f32_of_Z 10)))
    [Sphere (V3 f0 f0 f0) f1; Cube (V3 f0 f0 f0) (V3 (f32_of_Z 2) (f32_of_Z 2) (f32_of_Z 2)); Cylinder (V3 f0 f0 f0) f1 (f32_of_Z 2); PlaneObject (V3 f0 f0 f0) along] =
  map Some [Bits.bits_of_b32 (f32_of_Z 4); Bits.bits_of_b32 (f32_of_Z 4); Bits.bits_of_b32 (f32_of_Z 4); Bits.bits_of_b32 (f32_of_Z 5)].
Proof. split; [exact ten_scene|]. destruct along_unit as (A & B). split; [exact A|]. split; [exact B|]. split; [exact (int_within 1 ltac:(lia))|]. split; [exact (int_within 2 ltac:(lia))|]. vm_compute. reflexivity. Qed.
(** the hypotheses of the box theorems: the ray above runs parallel to four faces, away from their planes *)
Example C99_box_meets : box_size 10 (V3 (f32_of_Z 2) (f32_of_Z 2) (f32_of_Z 2)) /\ clear_of_faces 10 (V3 f0 f0 f0) (V3 (f32_of_Z 2) (f32_of_Z 2) (f32_of_Z 2)) (V3 (f32_of_Z (-5)) f0 f0) along /\
  ~ box_grown (V3R (V3 f0 f0 f0)) (V3R (V3 (f32_of_Z 2) (f32_of_Z 2) (f32_of_Z 2))) (/ 1000000 * 10) (on_ray (V3 (f32_of_Z (-5)) f0 f0) along 0) /\
  box_grown (V3R (V3 f0 f0 f0)) (V3R (V3 (f32_of_Z 2) (f32_of_Z 2) (f32_of_Z 2))) (- (/ 1000000 * 10)) (on_ray (V3 (f32_of_Z (-5)) f0 f0) along 5).
Proof.
  pose proof (int_within 2 ltac:(lia)) as W. assert (E2 : FR (f32_of_Z 2) = 2) by (apply f32_of_Z_R; lia). assert (E5 : FR (f32_of_Z (-5)) = -5) by (apply f32_of_Z_R; lia). assert (E1 : FR f1 = 1) by (apply (f32_of_Z_R 1); lia).
  split; [split; [exact (conj W (conj W W))|cbn [vx vy vz]; rewrite E2; lra]|]. split; [|split].
  - unfold clear_of_faces, off_faces, along. cbn [vx vy vz]. rewrite E1, E2. change (FR f0) with 0. split; [left|split; right].
    + rewrite Rabs_pos_eq by lra. change 1 with (bpow radix2 0). apply bpow_le. lia.
    + split; [reflexivity|]. split; [rewrite Rabs_pos_eq; lra|rewrite Rabs_left1; lra].
    + split; [reflexivity|]. split; [rewrite Rabs_pos_eq; lra|rewrite Rabs_left1; lra].
  - unfold box_grown, on_ray, V3R, along. cbn [vx vy vz]. rewrite E1, E2, E5. change (FR f0) with 0. intros (X & _). apply Rabs_le_inv in X. lra.
  - unfold box_grown, on_ray, V3R, along. cbn [vx vy vz]. rewrite E1, E2, E5. change (FR f0) with 0. repeat split; apply Rabs_le; lra.
Qed.
(** those of the sphere and plane theorems *)
Example C99_sphere_plane_meet : / 5000 * (10 * 10) <= sphere_level (V3R (V3 f0 f0 f0)) (FR (f32_of_Z 1)) (on_ray (V3 (f32_of_Z (-5)) f0 f0) along 0) /\
  sphere_level (V3R (V3 f0 f0 f0)) (FR (f32_of_Z 1)) (on_ray (V3 (f32_of_Z (-5)) f0 f0) along 5) <= - (/ 5000 * (10 * 10)) /\
  height (V3R (V3 f0 f0 f0)) (V3R along) (on_ray (V3 (f32_of_Z (-5)) f0 f0) along 5) = 0 /\
  (let k := Rabs (dotR (V3R along) (V3R along)) in 2 / 1000000 <= k /\ 2 / 100000 * 10 <= 5 * k /\ 5 * k <= FR (f32_of_Z 10) * k - 2 / 100000 * 10).
Proof.
  assert (E5 : FR (f32_of_Z (-5)) = -5) by (apply f32_of_Z_R; lia). assert (E1 : FR f1 = 1) by (apply (f32_of_Z_R 1); lia). assert (E10 : FR (f32_of_Z 10) = 10) by (apply f32_of_Z_R; lia).
  unfold sphere_level, height, dotR, vsub, on_ray, V3R, along. cbn [vx vy vz]. change (FR (f32_of_Z 1)) with (FR f1). rewrite E1, E5, E10. change (FR f0) with 0.
  split; [lra|]. split; [lra|]. split; [ring|]. cbv zeta. rewrite Rabs_pos_eq by lra. lra.
Qed.
