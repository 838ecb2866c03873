(** Camera frustum: utils/camera_model.h, utils/camera_model.cc. The code is written
    over an arithmetic, so that it can be read with floats and with real numbers. *)
From Coq Require Import ZArith List Bool Reals.
From Flocq Require Import Core.
From Verif Require Import F32 Types.
Import ListNotations.

Record arith (T : Type) := MkArith { a_add : T -> T -> T; a_sub : T -> T -> T; a_mul : T -> T -> T; a_div : T -> T -> T; a_opp : T -> T; a_sqrt : T -> T; a_lt : T -> T -> bool; a_le : T -> T -> bool; a_zero : T }.
Arguments MkArith {T}. Arguments a_add {T}. Arguments a_sub {T}. Arguments a_mul {T}. Arguments a_div {T}. Arguments a_opp {T}. Arguments a_sqrt {T}. Arguments a_lt {T}. Arguments a_le {T}. Arguments a_zero {T}.
Definition floats : arith f32 := MkArith fadd fsub fmul fdiv fneg fsqrt flt fle f0.
Definition reals : arith R := MkArith Rplus Rminus Rmult Rdiv Ropp R_sqrt.sqrt Rlt_bool Rle_bool 0%R.

Section camera.
Context {T : Type} (A : arith T).
Notation pt := (v3 T).
Definition psub (a b : pt) : pt := zip3 (a_sub A) a b.
(** Eigen's reduction of three products: x + (y + z) *)
Definition pdot (a b : pt) : T := a_add A (a_mul A (vx a) (vx b)) (a_add A (a_mul A (vy a) (vy b)) (a_mul A (vz a) (vz b))).
Definition pcross (a b : pt) : pt :=
  V3 (a_sub A (a_mul A (vy a) (vz b)) (a_mul A (vz a) (vy b)))
     (a_sub A (a_mul A (vz a) (vx b)) (a_mul A (vx a) (vz b)))
     (a_sub A (a_mul A (vx a) (vy b)) (a_mul A (vy a) (vx b))).
(** Eigen (3.3) [normalized]: divided by the norm if the squared norm is positive,
    unchanged otherwise *)
Definition pnormalized (a : pt) : pt :=
  let z := pdot a a in
  if a_lt A (a_zero A) z then map3 (fun x => a_div A x (a_sqrt A z)) a else a.

Record plane := MkPlane { pl_normal : pt; pl_distance : T }.
(** camera_model.cc:5-12 [Plane::setFromPoints]; [distance_] is a double holding the
    float product *)
Definition setFromPoints (p1 p2 p3 : pt) : plane :=
  let normal := pnormalized (pcross (psub p2 p1) (psub p3 p1)) in MkPlane normal (pdot normal p1).
(** camera_model.cc:19-27 [Plane::isPointInside] *)
Definition isPointInside (p : plane) (point : pt) : bool := a_le A (pl_distance p) (pdot point (pl_normal p)).

(** camera_model.cc:41-81 [setIntrinsicsFromFoV]: the eight corners, given the distances
    and the tangents of the half angles. Simplified: the products are doubles rounded to
    floats in the code. *)
Definition corners (near far tan_h tan_v : T) : list pt :=
  let c d := [V3 d (a_mul A d tan_h) (a_mul A d tan_v); V3 d (a_mul A d tan_h) (a_mul A (a_opp A d) tan_v);
              V3 d (a_mul A (a_opp A d) tan_h) (a_mul A (a_opp A d) tan_v); V3 d (a_mul A (a_opp A d) tan_h) (a_mul A d tan_v)] in
  c near ++ c far.
(** camera_model.cc:103-146 [calculateBoundingPlanes], from the corners in the global
    frame ([corners_G]); [CHECK_EQ(corners_C_.size(), 8u)] is [None] *)
Definition bounding_planes (corners_G : list pt) : option (list plane) :=
  match corners_G with
  | [c0; c1; c2; c3; c4; c5; c6; c7] =>
      Some [setFromPoints c0 c2 c1; setFromPoints c4 c5 c6; setFromPoints c3 c6 c2;
            setFromPoints c0 c5 c4; setFromPoints c3 c4 c7; setFromPoints c2 c6 c5]
  | _ => None
  end.
(** camera_model.cc:170-178 [isPointInView] *)
Definition isPointInView (planes : list plane) (point : pt) : bool := forallb (fun p => isPointInside p point) planes.

(** camera_model.cc:148-157: the axis aligned box, from the start values [top] and
    [bottom] ([std::min], [std::max]) *)
Definition minimum (a b : T) : T := if a_lt A b a then b else a.
Definition maximum (a b : T) : T := if a_lt A a b then b else a.
Definition aabb (top bottom : T) (corners_G : list pt) : pt * pt :=
  let along (f : pt -> T) := (fold_left minimum (map f corners_G) top, fold_left maximum (map f corners_G) bottom) in
  (V3 (fst (along vx)) (fst (along vy)) (fst (along vz)), V3 (snd (along vx)) (snd (along vy)) (snd (along vz))).
End camera.
(** camera_model.cc:149-150: the largest double as a float; the conversion rounds to
    infinity *)
Definition float_aabb (corners_G : list (v3 f32)) : v3 f32 * v3 f32 := aabb floats finf fminf corners_G.
