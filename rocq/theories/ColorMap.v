(** Colour maps: core/color.h and utils/color_maps.h. *)
From Coq Require Import ZArith List Bool.
From Verif Require Import F32 Voxel.
Import ListNotations.
Open Scope Z_scope.

(** [floor] on doubles: an integral double (exact); [None] for NaN and infinities *)
Definition dfloor (x : f64) : option f64 := match dfloorZ x with Some z => Some (f64_of_Z z) | None => None end.
Definition obind {A B} (x : option A) (f : A -> option B) : option B := match x with Some a => f a | None => None end.
(** a double assigned to a [uint8_t] *)
Definition byte_of (x : f64) : option Z := to_uint8 (dtruncZ x).
Definition rgb (r g b : f64) : option Color :=
  obind (byte_of r) (fun r => obind (byte_of g) (fun g => obind (byte_of b) (fun b => Some (MkColor r g b 255)))).

(** core/color.h:14-73 [rainbowColorMap]. [i = floor(h)] is an int; [None] is the
    undefined cast of a value that is no number. *)
Definition rainbowColorMap (h : f64) : option Color :=
  let s := d1 in let v := d1 in
  obind (dfloor h) (fun fl =>
  let h := dmul (dsub h fl) (f64_of_Z 6) in
  obind (to_int32 (dfloorZ h)) (fun i =>
  let f := dsub h (f64_of_Z i) in
  let f := if Z.even i then dsub d1 f else f in
  let m := dmul v (dsub d1 s) in
  let n := dmul v (dsub d1 (dmul s f)) in
  let c x := dmul (f64_of_Z 255) x in
  if (i =? 6) || (i =? 0) then rgb (c v) (c n) (c m)
  else if i =? 1 then rgb (c n) (c v) (c m)
  else if i =? 2 then rgb (c m) (c v) (c n)
  else if i =? 3 then rgb (c m) (c n) (c v)
  else if i =? 4 then rgb (c n) (c m) (c v)
  else if i =? 5 then rgb (c v) (c m) (c n)
  else Some (MkColor 255 127 127 255))).
(** core/color.h:76-85 [grayColorMap] *)
Definition grayColorMap (h : f64) : option Color :=
  obind (to_uint8 (droundZ (dmul h (f64_of_Z 255)))) (fun r => Some (MkColor r r r 255)).

(** utils/color_maps.h:33-34 (and 42-43, 51-52, 60-61, 82-83): [std::min(max_value_,
    std::max(min_value_, value))], then scaled to the range *)
Definition scaled (min_value max_value value : f32) : f32 :=
  let new_value := fmin max_value (fmax min_value value) in
  fdiv (fsub new_value min_value) (fsub max_value min_value).
(** utils/color_maps.h:32-36, 41-45, 50-54, 59-63 *)
Definition grayscale (min_value max_value value : f32) : option Color :=
  grayColorMap (f64_of_f32 (scaled min_value max_value value)).
Definition inverse_grayscale (min_value max_value value : f32) : option Color :=
  grayColorMap (dsub d1 (f64_of_f32 (scaled min_value max_value value))).
Definition rainbow (min_value max_value value : f32) : option Color :=
  rainbowColorMap (f64_of_f32 (scaled min_value max_value value)).
Definition inverse_rainbow (min_value max_value value : f32) : option Color :=
  rainbowColorMap (dsub d1 (f64_of_f32 (scaled min_value max_value value))).
(** utils/color_maps.h:68-79: the palette, and [increment_ = 1.0 / (size - 2)] *)
Definition palette : list Color :=
  [MkColor 0 0 0 255; MkColor 145 20 145 255; MkColor 255 138 0 255; MkColor 255 230 40 255; MkColor 255 255 255 255; MkColor 255 255 255 255].
Definition increment : f32 := f32_of_f64 (ddiv d1 (f64_of_Z 4)).
(** utils/color_maps.h:81-91 [IronbowColorMap::colorLookup]; [None] also for an index
    outside the palette *)
Definition ironbow (min_value max_value value : f32) : option Color :=
  let new_value := scaled min_value max_value value in
  obind (to_uint64 (ffloorZ (fdiv new_value increment))) (fun index =>
  obind (nth_error palette (Z.to_nat index)) (fun c1 =>
  obind (nth_error palette (Z.to_nat (index + 1))) (fun c2 =>
  blendTwoColors c1 (fsub (fmul increment (f32_of_Z (index + 1))) new_value)
                 c2 (fsub new_value (fmul increment (f32_of_Z index)))))).

(** utils/color_maps.h:112-121 [IrrationalIdColorMap]: [fmod(x, 1.f)] of a finite
    [x >= 0] is [x] minus its integer part (exact) *)
Definition fmod1 (x : f32) : option f32 := obind (ftruncZ x) (fun z => Some (fsub x (f32_of_Z z))).
Definition irrational_base : f32 := f32_of_f64 (dmul (f64_of_f32 (f32_of_Z 3)) (dbits 0x400921fb54442d18)).
Definition irrational_id (base : f32) (value : Z) : option Color :=
  obind (fmod1 (fdiv (f32_of_Z value) base)) (fun n => rainbowColorMap (f64_of_f32 n)).
