(** Vocabulary for C54, C68 and C69. *)
From Coq Require Import ZArith Reals List.
From Flocq Require Import Core.
From Verif Require Import F32 F32_lemmas Types Index Voxel Serialize Assoc Layer Threads Planning Sim.
Import ListNotations.

(** the voxel centre, as the block computes it *)
Definition centre_of (b : Block KTsdf) (j : idx3) : pt3 :=
  computeCoordinatesFromVoxelIndex (b_origin b) (b_size b) j.
(** offset of a voxel in its block *)
Definition offset_of (vps : Z) (j : idx3) : nat := Z.to_nat (vx j + vps * (vy j + vps * vz j)).
(** the value a voxel should get: the nearest distance, clamped to [-max, max] *)
Definition nearest_below (w : list object) (p : pt3) (m r : f32) : Prop :=
  (r = m \/ exists o, In o w /\ r = obj_dist (o_shape o) p) /\
  flt m r = false /\ forall o, In o w -> flt (obj_dist (o_shape o) p) r = false.

(** ** Generated layers *)
(** a point in an axis-aligned box, faces included *)
Definition between (a x b : f32) : Prop := fnan a = false /\ fnan x = false /\ fnan b = false /\ (ER a <= ER x <= ER b)%R.
Definition in_box (lo hi p : pt3) : Prop :=
  between (vx lo) (vx p) (vx hi) /\ between (vy lo) (vy p) (vy hi) /\ between (vz lo) (vz p) (vz hi).
(** the values of a float loop from [x] in steps of [step] as long as [hi] is not passed *)
Inductive stepped (step hi : R) : R -> list f32 -> Prop :=
| stepped_end : forall x, (hi < x)%R -> stepped step hi x []
| stepped_next : forall x f xs, (x <= hi)%R -> ffin f = true -> FR f = x -> stepped step hi (rnd32 (x + step)) xs -> stepped step hi x (f :: xs).
(** the samples along one axis: from half a block below the bounds to half a block above, a block apart *)
Definition axis_grid (lo hi bs : f32) (xs : list f32) : Prop :=
  stepped (FR bs) (rnd32 (FR hi + FR bs / 2)) (rnd32 (FR lo - FR bs / 2)) xs.
(** the voxel at [n] of a visited block *)
Definition visited_voxel (w : list object) (lo hi : pt3) (m : f32) (b : Block KTsdf) (n : nat) (v v' : TsdfVoxel) : Prop :=
  exists j, computeVoxelIndexFromLinearIndex (b_vps b) (Z.of_nat n) = Some j /\
    (in_box lo hi (centre_of b j) -> v' = sim_voxel w (centre_of b j) m) /\ (~ in_box lo hi (centre_of b j) -> v' = v).
Definition same_frame (b b' : Block KTsdf) : Prop :=
  b_vps b' = b_vps b /\ b_size b' = b_size b /\ b_origin b' = b_origin b /\
  b_has_data b' = b_has_data b /\ b_updated b' = b_updated b /\ length (b_voxels b') = length (b_voxels b).
(** the block a layer has at [i], or a new one *)
Definition fresh (l : Layer KTsdf) (i : idx3) : Block KTsdf :=
  match l_get l i with Some b => b
  | None => new_block (l_vps l) (l_size l) (new_block_origin (l_vps l) (l_size l) i) end.
(** [l'] is [l] with the blocks of [done] generated *)
Definition generated (w : list object) (lo hi : pt3) (m : f32) (done : list idx3) (l l' : Layer KTsdf) : Prop :=
  l_size l' = l_size l /\ l_vps l' = l_vps l /\
  forall i, (~ In i done -> l_get l' i = l_get l i) /\
    (In i done -> exists b', l_get l' i = Some b' /\ same_frame (fresh l i) b' /\
       forall n v, nth_error (b_voxels (fresh l i)) n = Some v ->
         exists v', nth_error (b_voxels b') n = Some v' /\ visited_voxel w lo hi m (fresh l i) n v v').

(** ** Views *)
(** the point at distance [t] on a ray, one rounding per operation *)
Definition ray_point (o d : pt3) (t : f32) : pt3 :=
  V3 (fadd (vx o) (fmul t (vx d))) (fadd (vy o) (fmul t (vy d))) (fadd (vz o) (fmul t (vz d))).
(** no coordinate is NaN *)
Definition numeric (p : pt3) : Prop := fnan (vx p) = false /\ fnan (vy p) = false /\ fnan (vz p) = false.
(** [o] is the first of the nearest objects of [w] on a ray, hit at [t] *)
Definition first_nearest (w : list object) (org dir : pt3) (m t : f32) (o : object) : Prop :=
  exists w1 w2, w = w1 ++ o :: w2 /\ obj_hit (o_shape o) org dir m = Some t /\
    (forall o' t', In o' w1 -> obj_hit (o_shape o') org dir m = Some t' -> flt t t' = true) /\
    (forall o' t', In o' w2 -> obj_hit (o_shape o') org dir m = Some t' -> flt t' t = false).

Open Scope R_scope.
Definition V3R (p : pt3) : v3 R := V3 (FR (vx p)) (FR (vy p)) (FR (vz p)).
Definition distR (a b : v3 R) : R :=
  sqrt ((vx a - vx b) * (vx a - vx b) + ((vy a - vy b) * (vy a - vy b) + (vz a - vz b) * (vz a - vz b))).
(** signed distances to the surfaces of solids *)
Definition ball (c : v3 R) (r : R) (q : v3 R) : Prop := distR q c <= r.
Definition ball_sdf (c : v3 R) (r : R) (q : v3 R) : R := distR q c - r.
(** [D] is the distance from [q] to the set [S]: reached, and nothing is closer *)
Definition dist_to (S : v3 R -> Prop) (q : v3 R) (D : R) : Prop :=
  (exists s, S s /\ distR q s = D) /\ forall s, S s -> D <= distR q s.
(** an upright solid cylinder *)
Definition solid_cylinder (c : v3 R) (r h : R) (q : v3 R) : Prop :=
  (vx q - vx c) * (vx q - vx c) + (vy q - vy c) * (vy q - vy c) <= r * r /\
  vz c - h / 2 <= vz q <= vz c + h / 2.
(** signed distance to an axis-aligned box: outside, the distance to the box; inside,
    minus the distance to the nearest face *)
Definition over (c s q : R) : R := Rabs (q - c) - s / 2.
Definition box_sdf (c s q : v3 R) : R :=
  let a := over (vx c) (vx s) (vx q) in
  let b := over (vy c) (vy s) (vy q) in
  let e := over (vz c) (vz s) (vz q) in
  if Rle_dec (Rmax a (Rmax b e)) 0 then Rmax a (Rmax b e)
  else sqrt (Rmax a 0 * Rmax a 0 + (Rmax b 0 * Rmax b 0 + Rmax e 0 * Rmax e 0)).
Definition solid_box (c s q : v3 R) : Prop :=
  Rabs (vx q - vx c) <= vx s / 2 /\ Rabs (vy q - vy c) <= vy s / 2 /\ Rabs (vz q - vz c) <= vz s / 2.
