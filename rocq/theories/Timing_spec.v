(** Vocabulary for the statements about timers. *)
From Coq Require Import String ZArith List Bool Reals.
From Flocq Require Import Core.
From Verif Require Import F32 Types Timing.
Import ListNotations.

(** the last [n] elements of a list *)
Definition lastn {A} (n : nat) (xs : list A) : list A := skipn (length xs - n) xs.
(** the exact sum *)
Definition rsum (xs : list f64) : R := fold_right (fun x s => (DR x + s)%R) 0%R xs.
(** finite samples of magnitude at most [M] *)
Definition samples_ok (M : R) (xs : list f64) : Prop :=
  Forall (fun x => dfin x = true /\ (Rabs (DR x) <= M)%R) xs.
(** samples added one after the other *)
Fixpoint acc_adds (a : accum) (xs : list f64) : res accum :=
  match xs with
  | [] => Ok a
  | x :: xs' => rbind (acc_add a x) (fun a' => acc_adds a' xs')
  end.
(** the samples that a history sends to a handle *)
Definition samples_for (h : nat) (cs : list tcall) : list f64 :=
  flat_map (fun c => match c with CAdd h' x => if Nat.eqb h' h then [x] else [] | _ => [] end) cs.
(** the number of resets among the first [i] calls *)
Definition resets_before (i : nat) (cs : list tcall) : nat :=
  length (filter (fun c => match c with CReset => true | _ => false end) (firstn i cs)).
