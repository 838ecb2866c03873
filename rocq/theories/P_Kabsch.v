(** C113: an alignment step finds the rigid motion of least squared error. *)
From Coq Require Import ZArith List Bool Reals Lra Lia.
From Flocq Require Import Core.
From Verif Require Import Types Kabsch Kabsch_spec Kabsch_proofs.
Import ListNotations.
Open Scope R_scope.

Lemma best_translation : forall r l t, l <> [] -> orthogonal r -> 
  t = zip3 Rminus (center (map snd l)) (rotate r (center (map fst l))) ->
  remaining r t l = sumf (fun m => ip (fst m) (fst m) + ip (snd m) (snd m)) (demeaned l) - 2 * gain r (H3 (demeaned l)).
Proof.
  intros r l t NE O ->. rewrite (remaining_centered r _ l NE O). cbn zeta. set (a := rotate r _). set (b := center (map snd l)).
  unfold zip3, ip. cbn [vx vy vz]. ring.
Qed.
Lemma least : forall (P : v3 (v3 R) -> Prop) r l, l <> [] -> (forall r', P r' -> rotation r') -> P r -> 
  (forall r', P r' -> gain r' (H3 (demeaned l)) <= gain r (H3 (demeaned l))) ->
  forall r' t', P r' -> remaining r (zip3 Rminus (center (map snd l)) (rotate r (center (map fst l)))) l <= remaining r' t' l.
Proof.
  intros P r l NE PR Pr G r' t' P'. rewrite (best_translation r l _ NE (proj1 (PR r Pr)) eq_refl). rewrite (remaining_centered r' t' l NE (proj1 (PR r' P'))). cbn zeta.
  set (e := zip3 Rminus (zip3 Rplus _ t') _). pose proof (G r' P') as Q. pose proof (pos_INR (length l)) as N.
  assert (Z : 0 <= ip e e) by (unfold ip; pose proof (Rle_0_sqr (vx e)); pose proof (Rle_0_sqr (vy e)); pose proof (Rle_0_sqr (vz e)); unfold Rsqr in *; lra).
  assert (0 <= INR (length l) * ip e e) by (apply Rmult_le_pos; assumption). unfold matched in *. lra.
Qed.

Lemma mean_moved : forall r l, moved r (zip3 Rminus (center (map snd l)) (rotate r (center (map fst l)))) (mean (map fst l)) = mean (map snd l).
Proof.
  intros r l. rewrite !mean_center. set (a := mean (map fst l)). set (b := mean (map snd l)). destruct b as [x y z]. unfold moved, rotate, row_dot, zip3, map3, ip. cbn [vx vy vz]. apply v3_eq; ring.
Qed.
(** C113, with roll and pitch. If the decomposition used is one of the scatter of the
    points, the result is a rotation that takes the mean of the points to the mean of their
    matches, and no rotation with any translation leaves less squared error. *)
Theorem C113_full : forall (l : list (v3 R * v3 R)) (svd3 : v3 (v3 R) -> v3 (v3 R) * v3 (v3 R)) (svd2 : (R * R) * (R * R) -> ((R * R) * (R * R)) * ((R * R) * (R * R))), l <> [] ->
  (let (u, v) := svd3 (scatter l) in svd_of (scatter l) u v) ->
  let (r, t) := transform_from true svd3 svd2 l in
  rotation r /\ moved r t (mean (map fst l)) = mean (map snd l) /\
  forall r' t', rotation r' -> remaining r t l <= remaining r' t' l.
Proof.
  intros l svd3 svd2 NE Q. unfold transform_from. rewrite scatter_H3 in Q. destruct (svd3 (H3 (demeaned l))) as (u, v) eqn:E.
  destruct (rotation3_best svd3 (demeaned l) u v E Q) as (R1 & R2). split; [exact R1|]. split; [apply mean_moved|].
  apply (least rotation); auto.
Qed.
Print Assumptions C113_full.
(** C113, yaw only: a rotation about the vertical axis, and the best of those. *)
Theorem C113_yaw : forall (l : list (v3 R * v3 R)) (svd3 : v3 (v3 R) -> v3 (v3 R) * v3 (v3 R)) (svd2 : (R * R) * (R * R) -> ((R * R) * (R * R)) * ((R * R) * (R * R))), l <> [] ->
  (let (u, v) := svd2 (flat (scatter l)) in svd2_of (flat (scatter l)) u v) ->
  let (r, t) := transform_from false svd3 svd2 l in
  yaw r /\ moved r t (mean (map fst l)) = mean (map snd l) /\
  forall r' t', yaw r' -> remaining r t l <= remaining r' t' l.
Proof.
  intros l svd3 svd2 NE Q. unfold transform_from. rewrite flat_H2 in Q. destruct (svd2 (H2 (demeaned l))) as (u, v) eqn:E.
  destruct (rotation2_best svd2 (demeaned l) u v E Q) as (R1 & R2). split; [exact R1|]. split; [apply mean_moved|].
  apply (least yaw); auto using yaw_rotation.
Qed.
Print Assumptions C113_yaw.
(** Consequently points that were moved rigidly are moved back exactly: nothing remains. *)
Lemma moved_zero : forall r t ps, remaining r t (map (fun p => (p, moved r t p)) ps) = 0.
Proof. intros r t ps. induction ps as [|p ps IH]; [reflexivity|]. cbn [map remaining]. rewrite IH. unfold ip, zip3. cbn [vx vy vz]. ring. Qed.
Lemma zero_moved : forall r t l, remaining r t l = 0 -> forall p q, In (p, q) l -> moved r t p = q.
Proof.
  intros r t l. assert (NN : forall l, 0 <= remaining r t l).
  { induction l0 as [|[p q] l0 IH]; cbn [remaining]; [lra|]. set (d := zip3 Rminus _ _). unfold ip.
    pose proof (Rle_0_sqr (vx d)); pose proof (Rle_0_sqr (vy d)); pose proof (Rle_0_sqr (vz d)); unfold Rsqr in *; lra. }
  induction l as [|[p q] l IH]; intros E p' q' I; [destruct I|]. cbn [remaining] in E. pose proof (NN l) as N. set (d := zip3 Rminus (moved r t p) q) in *. unfold ip in E.
  pose proof (Rle_0_sqr (vx d)); pose proof (Rle_0_sqr (vy d)); pose proof (Rle_0_sqr (vz d)); unfold Rsqr in *.
  destruct I as [I | I]; [|apply IH; [lra|exact I]]. injection I. intros <- <-.
  assert (D : vx d = 0 /\ vy d = 0 /\ vz d = 0) by (repeat split; apply Rsqr_0_uniq; unfold Rsqr; lra). destruct D as (D1 & D2 & D3).
  unfold d, zip3 in *. cbn [vx vy vz] in *. destruct (moved r t p) as [x y z]. destruct q as [x' y' z']. cbn [vx vy vz] in *. f_equal; lra.
Qed.
Theorem C113_exact : forall (ps : list (v3 R)) r0 t0 (svd3 : v3 (v3 R) -> v3 (v3 R) * v3 (v3 R)) (svd2 : (R * R) * (R * R) -> ((R * R) * (R * R)) * ((R * R) * (R * R))), ps <> [] -> rotation r0 ->
  let l := map (fun p => (p, moved r0 t0 p)) ps in
  (let (u, v) := svd3 (scatter l) in svd_of (scatter l) u v) ->
  let (r, t) := transform_from true svd3 svd2 l in
  forall p, In p ps -> moved r t p = moved r0 t0 p.
Proof.
  intros ps r0 t0 svd3 svd2 NE R0 l SV. assert (NL : l <> []) by (unfold l; destruct ps; [congruence|discriminate]).
  pose proof (C113_full l svd3 svd2 NL SV) as C. destruct (transform_from true svd3 svd2 l) as (r, t). destruct C as (_ & _ & C).
  specialize (C r0 t0 R0). unfold l in C at 2. rewrite moved_zero in C. intros p I.
  apply (zero_moved r t l); [|unfold l; apply (in_map (fun p => (p, moved r0 t0 p))); exact I].
  apply Rle_antisym; [exact C|]. clear. induction l as [|[p q] l IH]; cbn [remaining]; [lra|]. set (d := zip3 Rminus _ _). unfold ip.
  pose proof (Rle_0_sqr (vx d)); pose proof (Rle_0_sqr (vy d)); pose proof (Rle_0_sqr (vz d)); unfold Rsqr in *; lra.
Qed.
Print Assumptions C113_exact.

(** Four points turned by a quarter about the vertical axis and moved: the scatter has a
    decomposition, here one whose v is mirrored, so that the last column is negated. *)
Definition quarter : v3 (v3 R) := V3 (V3 0 (-1) 0) (V3 1 0 0) (V3 0 0 1).
Definition four : list (v3 R) := [V3 1 0 0; V3 (-1) 0 0; V3 0 2 0; V3 0 (-2) 0].
Definition turned : list (v3 R * v3 R) := map (fun p => (p, moved quarter (V3 5 6 7) p)) four.
Example C113_case : rotation quarter /\ yaw quarter /\ turned <> [] /\
  svd_of (scatter turned) (V3 (V3 0 1 0) (V3 (-1) 0 0) (V3 0 0 1)) (V3 (V3 1 0 0) (V3 0 1 0) (V3 0 0 (-1))) /\
  svd2_of (flat (scatter turned)) ((0, 1), (-1, 0)) ((1, 0), (0, 1)).
Proof.
  assert (Sc : scatter turned = V3 (V3 0 2 0) (V3 (-8) 0 0) (V3 0 0 0)).
  { unfold scatter, turned, four, quarter, mean, total, moved, products, zip3, map3, ip. cbn [map fst snd vx vy vz length]. replace (INR 4) with 4 by (cbn; ring). repeat apply v3_eq; field. }
  rewrite Sc. unfold flat. cbn [vx vy vz].
  split; [|split; [|split; [discriminate|split]]].
  - unfold rotation, orthogonal, unit_rows, columns, quarter, ip, volume. cbn [vx vy vz]. repeat split; ring.
  - exists 0, 1. split; [ring|]. unfold quarter. repeat apply v3_eq; ring.
  - unfold svd_of, orthogonal, unit_rows, columns, ip. cbn [vx vy vz]. split; [repeat split; ring|]. split; [repeat split; ring|].
    exists 8, 2, 0. split; [lra|]. split; [lra|]. split; [lra|]. unfold map3. cbn [vx vy vz]. repeat apply v3_eq; ring.
  - unfold svd2_of. cbn [fst snd]. split; [repeat split; ring|]. split; [repeat split; ring|]. exists 8, 2. split; [lra|]. split; [lra|]. repeat f_equal; ring.
Qed.
