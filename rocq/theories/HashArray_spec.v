(** Vocabulary for C110. *)
From Coq Require Import ZArith List Bool.
From Verif Require Import Types HashArray.
Import ListNotations.
Open Scope Z_scope.

(** the bin of a key among [2^bits]: the remainder of its hash; of an index the hash is
    x + 17191 y + 17191^2 z *)
Definition bin (bits : Z) (k : key) : Z :=
  match k with ByHash h => h mod 2 ^ bits | ByIndex i => (vx i + 17191 * vy i + 17191 * 17191 * vz i) mod 2 ^ bits end.
(** the most recent value written to the bin, if any *)
Fixpoint latest {A} (bits : Z) (b : Z) (past : list (key * A)) : option A :=
  match past with
  | [] => None
  | (k, v) :: past' => if bin bits k =? b then Some v else latest bits b past'
  end.
