(** One alignment step of ICP: alignment/icp.h:138-173, src/alignment/icp.cc:48-75, read in
    exact arithmetic. Definitions only. The singular value decomposition (Eigen's
    [JacobiSVD]) is an argument: it returns the matrices u and v. *)
From Coq Require Import ZArith List Bool Reals.
From Flocq Require Import Core.
From Verif Require Import Types.
Import ListNotations.
Open Scope R_scope.

(** matched points: the point and where it should go (the columns of [src] and [tgt]) *)
Definition matched : Type := (v3 R * v3 R)%type.
(** 3x3 and 2x2 matrices by rows *)
Definition mat3 : Type := v3 (v3 R).
Definition mat2 : Type := ((R * R) * (R * R))%type.

Definition rsum (l : list R) : R := fold_right Rplus 0 l.
(** icp.cc:55-56 [rowwise().mean()] *)
Definition mean_of (f : v3 R -> R) (ps : list (v3 R)) : R := rsum (map f ps) / INR (length ps).
Definition center (ps : list (v3 R)) : v3 R := V3 (mean_of vx ps) (mean_of vy ps) (mean_of vz ps).
(** icp.cc:58-59 *)
Definition demean (c : v3 R) (p : v3 R) : v3 R := zip3 Rminus p c.
Definition demeaned (l : list matched) : list matched :=
  map (fun m => (demean (center (map fst l)) (fst m), demean (center (map snd l)) (snd m))) l.

(** icp.h:149-150: H = src * tgt^T, for dim = 3 and dim = 2 *)
Definition h_entry (f g : v3 R -> R) (l : list matched) : R := rsum (map (fun m => f (fst m) * g (snd m)) l).
Definition H3 (l : list matched) : mat3 :=
  V3 (V3 (h_entry vx vx l) (h_entry vx vy l) (h_entry vx vz l))
     (V3 (h_entry vy vx l) (h_entry vy vy l) (h_entry vy vz l))
     (V3 (h_entry vz vx l) (h_entry vz vy l) (h_entry vz vz l)).
Definition H2 (l : list matched) : mat2 :=
  ((h_entry vx vx l, h_entry vx vy l), (h_entry vy vx l, h_entry vy vy l)).

(** Eigen's determinants and products *)
Definition m3_det (m : mat3) : R :=
  vx (vx m) * (vy (vy m) * vz (vz m) - vz (vy m) * vy (vz m)) -
  vy (vx m) * (vx (vy m) * vz (vz m) - vz (vy m) * vx (vz m)) +
  vz (vx m) * (vx (vy m) * vy (vz m) - vy (vy m) * vx (vz m)).
Definition m2_det (m : mat2) : R := fst (fst m) * snd (snd m) - snd (fst m) * fst (snd m).
Definition row_dot (a b : v3 R) : R := vx a * vx b + vy a * vy b + vz a * vz b.
(** v * u^T: entry (i, j) is row i of v times row j of u *)
Definition m3_mul_t (v u : mat3) : mat3 := map3 (fun r => map3 (row_dot r) u) v.
Definition m2_mul_t (v u : mat2) : mat2 :=
  let d a b := fst a * fst b + snd a * snd b in
  ((d (fst v) (fst u), d (fst v) (snd u)), (d (snd v) (fst u), d (snd v) (snd u))).
(** icp.h:159-161: the last column of v is negated *)
Definition m3_flip (v : mat3) : mat3 := map3 (fun r => V3 (vx r) (vy r) (vz r * -1)) v.
Definition m2_flip (v : mat2) : mat2 := ((fst (fst v), snd (fst v) * -1), (fst (snd v), snd (snd v) * -1)).

(** icp.h:138-173 [getRotationFromMatchedPoints<3>] and [<2>]. Simplified: the matrix is the
    rotation (a quaternion in the code), the tests for validity are left out. *)
Definition rotation3 (svd : mat3 -> mat3 * mat3) (l : list matched) : mat3 :=
  let (u, v) := svd (H3 l) in
  let v := if Rlt_bool (m3_det u * m3_det v) 0 then m3_flip v else v in m3_mul_t v u.
Definition rotation2 (svd : mat2 -> mat2 * mat2) (l : list matched) : mat3 :=
  let (u, v) := svd (H2 l) in
  let v := if Rlt_bool (m2_det u * m2_det v) 0 then m2_flip v else v in
  let r := m2_mul_t v u in
  V3 (V3 (fst (fst r)) (snd (fst r)) 0) (V3 (fst (snd r)) (snd (snd r)) 0) (V3 0 0 1).

(** icp.cc:48-75 [getTransformFromMatchedPoints] *)
Definition rotate (m : mat3) (p : v3 R) : v3 R := map3 (fun r => row_dot r p) m.
Definition transform_from (refine_roll_pitch : bool) (svd3 : mat3 -> mat3 * mat3) (svd2 : mat2 -> mat2 * mat2) (l : list matched) : mat3 * v3 R :=
  let d := demeaned l in
  let r := if refine_roll_pitch then rotation3 svd3 d else rotation2 svd2 d in
  (r, zip3 Rminus (center (map snd l)) (rotate r (center (map fst l)))).
