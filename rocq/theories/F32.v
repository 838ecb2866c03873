(** IEEE-754 arithmetic as used by voxblox.

    [FloatingPoint] is [float] (/repo/voxblox/include/voxblox/core/common.h:22),
    some expressions are evaluated in [double] because of double literals.
    Every C++ operation is one correctly rounded (to nearest even) operation.
    This file only contains definitions. *)
From Coq Require Import ZArith Bool Rdefinitions.
From Flocq Require Import Core IEEE754.Binary IEEE754.Bits.
From Flocq Require IEEE754.BinarySingleNaN.
Open Scope Z_scope.

Notation mode_NE := BinarySingleNaN.mode_NE.

Definition f32 := binary32.
Definition f64 := binary64.

Definition Hprec32 : Prec_gt_0 24 := eq_refl.
Definition Hmax32 : BinarySingleNaN.Prec_lt_emax 24 128 := eq_refl.
Definition Hprec64 : Prec_gt_0 53 := eq_refl.
Definition Hmax64 : BinarySingleNaN.Prec_lt_emax 53 1024 := eq_refl.

(** ** float operators *)
Definition fadd : f32 -> f32 -> f32 := b32_plus mode_NE.
Definition fsub : f32 -> f32 -> f32 := b32_minus mode_NE.
Definition fmul : f32 -> f32 -> f32 := b32_mult mode_NE.
Definition fdiv : f32 -> f32 -> f32 := b32_div mode_NE.
Definition fsqrt : f32 -> f32 := b32_sqrt mode_NE.
Definition fneg : f32 -> f32 := b32_opp.
Definition fabs : f32 -> f32 := b32_abs.

(** [a < b], [a <= b], [a == b]: false as soon as one operand is NaN. *)
Definition flt (a b : f32) : bool :=
  match b32_compare a b with Some Lt => true | _ => false end.
Definition fle (a b : f32) : bool :=
  match b32_compare a b with Some Lt | Some Eq => true | _ => false end.
Definition feq (a b : f32) : bool :=
  match b32_compare a b with Some Eq => true | _ => false end.
Definition fgt (a b : f32) : bool := flt b a.
Definition fge (a b : f32) : bool := fle b a.

(** [std::min(a, b)] is [(b < a) ? b : a]; [std::max(a, b)] is
    [(a < b) ? b : a] (ISO C++11 25.4.7). *)
Definition fmin (a b : f32) : f32 := if flt b a then b else a.
Definition fmax (a b : f32) : f32 := if flt a b then b else a.

Definition fnan (a : f32) : bool := is_nan 24 128 a.
Definition ffin (a : f32) : bool := is_finite 24 128 a.
Definition FR (a : f32) : Rdefinitions.R := B2R 24 128 a.

(** ** double operators *)
Definition dadd : f64 -> f64 -> f64 := b64_plus mode_NE.
Definition dsub : f64 -> f64 -> f64 := b64_minus mode_NE.
Definition dmul : f64 -> f64 -> f64 := b64_mult mode_NE.
Definition ddiv : f64 -> f64 -> f64 := b64_div mode_NE.
Definition dsqrt : f64 -> f64 := b64_sqrt mode_NE.
Definition dneg : f64 -> f64 := b64_opp.
Definition dabs : f64 -> f64 := b64_abs.
Definition dlt (a b : f64) : bool :=
  match b64_compare a b with Some Lt => true | _ => false end.
Definition dle (a b : f64) : bool :=
  match b64_compare a b with Some Lt | Some Eq => true | _ => false end.
Definition deq (a b : f64) : bool :=
  match b64_compare a b with Some Eq => true | _ => false end.
Definition dgt (a b : f64) : bool := dlt b a.
Definition dge (a b : f64) : bool := dle b a.
Definition dnan (a : f64) : bool := is_nan 53 1024 a.
Definition dfin (a : f64) : bool := is_finite 53 1024 a.
Definition DR (a : f64) : Rdefinitions.R := B2R 53 1024 a.

(** ** conversions *)
(** Integer (any width) to float / double, rounded to nearest even. *)
Definition f32_of_Z (z : Z) : f32 :=
  binary_normalize 24 128 Hprec32 Hmax32 mode_NE z 0 false.
Definition f64_of_Z (z : Z) : f64 :=
  binary_normalize 53 1024 Hprec64 Hmax64 mode_NE z 0 false.
(** Value [m * 2^e], rounded: used for literals. *)
Definition f32_lit (m e : Z) : f32 :=
  binary_normalize 24 128 Hprec32 Hmax32 mode_NE m e false.
Definition f64_lit (m e : Z) : f64 :=
  binary_normalize 53 1024 Hprec64 Hmax64 mode_NE m e false.

Definition nan32 : f32 := proj1_sig default_nan_pl32.
Definition nan64 : f64 := proj1_sig default_nan_pl64.

(** float to double (exact) and double to float (rounding). The payload of a
    converted NaN is not modelled. *)
Definition f64_of_f32 (x : f32) : f64 :=
  match x with
  | B754_zero _ _ s => B754_zero 53 1024 s
  | B754_infinity _ _ s => B754_infinity 53 1024 s
  | B754_nan _ _ _ _ _ => nan64
  | B754_finite _ _ s m e _ =>
      binary_normalize 53 1024 Hprec64 Hmax64 mode_NE
        (if s then Zneg m else Zpos m) e s
  end.
Definition f32_of_f64 (x : f64) : f32 :=
  match x with
  | B754_zero _ _ s => B754_zero 24 128 s
  | B754_infinity _ _ s => B754_infinity 24 128 s
  | B754_nan _ _ _ _ _ => nan32
  | B754_finite _ _ s m e _ =>
      binary_normalize 24 128 Hprec32 Hmax32 mode_NE
        (if s then Zneg m else Zpos m) e s
  end.

(** Integer part functions: [None] for NaN and infinities. *)
Definition Zfloor_me (m e : Z) : Z :=
  if 0 <=? e then m * 2 ^ e else m / 2 ^ (- e).
Definition Ztrunc_me (m e : Z) : Z :=
  if 0 <=? e then m * 2 ^ e else Z.quot m (2 ^ (- e)).
(** round half away from zero, [std::round] *)
Definition Zround_me (m e : Z) : Z :=
  if 0 <=? e then m * 2 ^ e
  else Z.sgn m * ((2 * Z.abs m + 2 ^ (- e)) / (2 * 2 ^ (- e))).

Definition sgnm (s : bool) (m : positive) : Z := if s then Zneg m else Zpos m.

Definition ffloorZ (x : f32) : option Z :=
  match x with
  | B754_zero _ _ _ => Some 0
  | B754_finite _ _ s m e _ => Some (Zfloor_me (sgnm s m) e)
  | _ => None
  end.
Definition ftruncZ (x : f32) : option Z :=
  match x with
  | B754_zero _ _ _ => Some 0
  | B754_finite _ _ s m e _ => Some (Ztrunc_me (sgnm s m) e)
  | _ => None
  end.
Definition froundZ (x : f32) : option Z :=
  match x with
  | B754_zero _ _ _ => Some 0
  | B754_finite _ _ s m e _ => Some (Zround_me (sgnm s m) e)
  | _ => None
  end.
Definition dfloorZ (x : f64) : option Z :=
  match x with
  | B754_zero _ _ _ => Some 0
  | B754_finite _ _ s m e _ => Some (Zfloor_me (sgnm s m) e)
  | _ => None
  end.
Definition dtruncZ (x : f64) : option Z :=
  match x with
  | B754_zero _ _ _ => Some 0
  | B754_finite _ _ s m e _ => Some (Ztrunc_me (sgnm s m) e)
  | _ => None
  end.
Definition droundZ (x : f64) : option Z :=
  match x with
  | B754_zero _ _ _ => Some 0
  | B754_finite _ _ s m e _ => Some (Zround_me (sgnm s m) e)
  | _ => None
  end.

(** A float to integer cast is undefined when the truncated value does not fit
    the target type: [None]. *)
Definition in_range (lo hi : Z) (z : option Z) : option Z :=
  match z with
  | Some v => if (lo <=? v) && (v <=? hi) then Some v else None
  | None => None
  end.
Definition to_int32 := in_range (- 2 ^ 31) (2 ^ 31 - 1).
Definition to_int64 := in_range (- 2 ^ 63) (2 ^ 63 - 1).
Definition to_uint8 := in_range 0 255.
Definition to_uint16 := in_range 0 65535.
Definition to_uint32 := in_range 0 (2 ^ 32 - 1).
Definition to_uint64 := in_range 0 (2 ^ 64 - 1).

(** ** constants *)
Definition f0 : f32 := B754_zero 24 128 false.
Definition f1 : f32 := f32_of_Z 1.
Definition finf : f32 := B754_infinity 24 128 false.
Definition fminf : f32 := B754_infinity 24 128 true.
Definition d0 : f64 := B754_zero 53 1024 false.
Definition d1 : f64 := f64_of_Z 1.
Definition dhalf : f64 := f64_lit 1 (-1).

(** float with a given bit pattern *)
Definition fbits (w : Z) : f32 := b32_of_bits w.
Definition fword (x : f32) : Z := bits_of_b32 x.
Definition dbits (w : Z) : f64 := b64_of_bits w.
Definition dword (x : f64) : Z := bits_of_b64 x.

(** [kEpsilon = kFloatEpsilon = 1e-6] as float (common.h:142-143): the nearest
    float to 1e-6 has bit pattern 0x358637bd. *)
Definition kEpsilon : f32 := fbits 0x358637bd.
(** the double literal 1e-6: 0x3eb0c6f7a0b5ed8d *)
Definition d1em6 : f64 := dbits 0x3eb0c6f7a0b5ed8d.
