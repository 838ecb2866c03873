(** Vocabulary for C111. *)
From Coq Require Import ZArith Reals.
Open Scope R_scope.

(** how far revolution [r] is turned, in items: the first not at all, the 2^k revolutions from
    number 2^k on by odd multiples of 1/2^(k+1) *)
Definition turned (r : Z) : R :=
  if (r =? 0)%Z then 0 else IZR (2 * (r - 2 ^ Z.log2 r) + 1) / IZR (2 ^ (Z.log2 r + 1)).
(** the hue of an id, as a fraction of the colour circle, with [n] items per revolution *)
Definition hue_of (n v : Z) : R := (IZR (v mod n) + turned (v / n)) / IZR n.
(** rounding of the program *)
Definition hue_err (n v : Z) : R := (IZR v / IZR n + 9) / 16777216.
