(** Rigid motions and how well they align points. *)
From Coq Require Import ZArith List Bool Reals.
From Verif Require Import Types.
Import ListNotations.
Open Scope R_scope.

(** a matrix by rows; applied to a point *)
Definition ip (a b : v3 R) : R := vx a * vx b + vy a * vy b + vz a * vz b.
Definition moved (r : v3 (v3 R)) (t p : v3 R) : v3 R := V3 (ip (vx r) p + vx t) (ip (vy r) p + vy t) (ip (vz r) p + vz t).
Definition columns (m : v3 (v3 R)) : v3 (v3 R) :=
  V3 (V3 (vx (vx m)) (vx (vy m)) (vx (vz m))) (V3 (vy (vx m)) (vy (vy m)) (vy (vz m))) (V3 (vz (vx m)) (vz (vy m)) (vz (vz m))).
(** perpendicular unit rows *)
Definition unit_rows (m : v3 (v3 R)) : Prop :=
  ip (vx m) (vx m) = 1 /\ ip (vy m) (vy m) = 1 /\ ip (vz m) (vz m) = 1 /\ ip (vx m) (vy m) = 0 /\ ip (vx m) (vz m) = 0 /\ ip (vy m) (vz m) = 0.
Definition orthogonal (m : v3 (v3 R)) : Prop := unit_rows m /\ unit_rows (columns m).
Definition volume (m : v3 (v3 R)) : R :=
  vx (vx m) * (vy (vy m) * vz (vz m) - vz (vy m) * vy (vz m)) + vy (vx m) * (vz (vy m) * vx (vz m) - vx (vy m) * vz (vz m)) +
  vz (vx m) * (vx (vy m) * vy (vz m) - vy (vy m) * vx (vz m)).
(** a rotation is not mirrored *)
Definition rotation (m : v3 (v3 R)) : Prop := orthogonal m /\ volume m = 1.
(** a rotation about the vertical axis *)
Definition yaw (m : v3 (v3 R)) : Prop := exists c s, c * c + s * s = 1 /\ m = V3 (V3 c (- s) 0) (V3 s c 0) (V3 0 0 1).

(** the sum of the squared distances that remain *)
Fixpoint remaining (r : v3 (v3 R)) (t : v3 R) (l : list (v3 R * v3 R)) : R :=
  match l with
  | [] => 0
  | (p, q) :: l' => let d := zip3 Rminus (moved r t p) q in ip d d + remaining r t l'
  end.
(** the sum of points *)
Fixpoint total (l : list (v3 R)) : v3 R := match l with [] => V3 0 0 0 | p :: l' => zip3 Rplus p (total l') end.

(** what a singular value decomposition of h is: h = u * diag(s) * v^T with orthogonal u and
    v, and s decreasing and not negative *)
Definition svd_of (h u v : v3 (v3 R)) : Prop :=
  orthogonal u /\ orthogonal v /\ exists s1 s2 s3, s1 >= s2 /\ s2 >= s3 /\ s3 >= 0 /\
    let e a b := s1 * (vx a * vx b) + s2 * (vy a * vy b) + s3 * (vz a * vz b) in
    h = map3 (fun a => map3 (e a) v) u.
Definition svd2_of (h u v : (R * R) * (R * R)) : Prop :=
  let orth m := fst (fst m) * fst (fst m) + snd (fst m) * snd (fst m) = 1 /\ fst (snd m) * fst (snd m) + snd (snd m) * snd (snd m) = 1 /\
    fst (fst m) * fst (snd m) + snd (fst m) * snd (snd m) = 0 in
  orth u /\ orth v /\ exists s1 s2, s1 >= s2 /\ s2 >= 0 /\
    let e (a b : R * R) := s1 * (fst a * fst b) + s2 * (snd a * snd b) in
    h = ((e (fst u) (fst v), e (fst u) (snd v)), (e (snd u) (fst v), e (snd u) (snd v))).

(** how the points vary together about their means: the sum of the products of every
    coordinate of a point with every coordinate of its match *)
Definition mean (l : list (v3 R)) : v3 R := map3 (fun x => x / INR (length l)) (total l).
Fixpoint products (a b : v3 R) (l : list (v3 R * v3 R)) : v3 (v3 R) :=
  match l with
  | [] => V3 (V3 0 0 0) (V3 0 0 0) (V3 0 0 0)
  | (p, q) :: l' => zip3 (zip3 Rplus) (map3 (fun x => map3 (fun y => x * y) (zip3 Rminus q b)) (zip3 Rminus p a)) (products a b l')
  end.
Definition scatter (l : list (v3 R * v3 R)) : v3 (v3 R) := products (mean (map fst l)) (mean (map snd l)) l.
(** the horizontal part *)
Definition flat (m : v3 (v3 R)) : (R * R) * (R * R) := ((vx (vx m), vy (vx m)), (vx (vy m), vy (vy m))).
