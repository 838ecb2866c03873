(** Specification vocabulary for C26 to C28: what a history of calls means. *)
From Coq Require Import ZArith List Bool Reals.
From Verif Require Import F32 F32_lemmas Queue.
Import ListNotations.
Open Scope Z_scope.

(** the hash most recently inserted, since the last reset, into the slot of [h] *)
Fixpoint last_in_slot (bits : Z) (past : list hs_op) (h : Z) : option Z :=
  match past with
  | [] => None
  | HReset :: _ => None
  | HReplace h' :: past' => if h' mod 2 ^ bits =? h mod 2 ^ bits then Some h' else last_in_slot bits past' h
  | HPresent _ :: past' => last_in_slot bits past' h
  end.
Definition hash_ok (h : Z) : Prop := 0 <= h < 2 ^ 64.
Definition op_ok (o : hs_op) : Prop := match o with HPresent h | HReplace h => hash_ok h | HReset => True end.


Section Pending.
  Context {T : Type}.
  (** specification: elements in the order they were pushed, with their bucket *)
  Notation pending := (list (Z * T)) (only parsing).
  Fixpoint lowest (l : pending) : option Z :=
    match l with
    | [] => None
    | (b, _) :: l' => Some (match lowest l' with Some m => Z.min b m | None => b end)
    end.
  (** take out the oldest element of bucket [b] *)
  Fixpoint take (b : Z) (l : pending) : option (T * pending) :=
    match l with
    | [] => None
    | (c, x) :: l' => if c =? b then Some (x, l')
                      else match take b l' with Some (y, r) => Some (y, (c, x) :: r) | None => None end
    end.
  Definition next (l : pending) : option (T * pending) :=
    match lowest l with Some b => take b l | None => None end.
  Definition keys_in (i : Z) (l : pending) : list T := map snd (filter (fun e => fst e =? i) l).
End Pending.

Open Scope R_scope.
(** values the ESDF integrator may push: not NaN, not below [-max] *)
Definition value_ok (mx v : f64) : Prop := dnan v = false /\ - DR mx <= EDR v.

