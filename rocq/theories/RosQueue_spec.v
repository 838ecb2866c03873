(** Vocabulary for C51 and C52. *)
From Coq Require Import ZArith Reals List.
From Verif Require Import RosQueue.
Import ListNotations.

(** [l] is obtained from [m] by leaving elements out, without changing the order *)
Inductive subseq {A} : list A -> list A -> Prop :=
| sub_nil : subseq [] []
| sub_take x l m : subseq l m -> subseq (x :: l) (x :: m)
| sub_skip x l m : subseq l m -> subseq l (x :: m).

Section fates.
  Context {C P : Type}.
  (** the clouds that met a given fate, in order *)
  Definition integrated (log : list (action C P)) : list C :=
    flat_map (fun a => match a with AIntegrated c _ => [c] | _ => [] end) log.
  Definition dropped (log : list (action C P)) : list C :=
    flat_map (fun a => match a with ADropped c => [c] | _ => [] end) log.
  Definition throttled (log : list (action C P)) : list C :=
    flat_map (fun a => match a with AThrottled c => [c] | _ => [] end) log.
  Definition queued (log : list (action C P)) : list C :=
    flat_map (fun a => match a with AQueued c => [c] | _ => [] end) log.
  (** clouds that left the queue *)
  Definition left (log : list (action C P)) : list C :=
    flat_map (fun a => match a with AIntegrated c _ => [c] | ADropped c => [c] | _ => [] end) log.
  (** clouds that arrived *)
  Definition arrived (log : list (action C P)) : list C :=
    flat_map (fun a => match a with AThrottled c => [c] | AQueued c => [c] | _ => [] end) log.
  (** the stamp of the last accepted cloud, 0 at first *)
  Definition last_accepted (stamp : C -> Z) (log : list (action C P)) : Z :=
    List.last (map stamp (queued log)) 0%Z.
End fates.

(** strictly increasing stamps *)
Fixpoint increasing {P} (q : list (stamped P)) : Prop :=
  match q with
  | [] => True
  | p :: q' => (match q' with [] => True | p' :: _ => (fst p < fst p')%Z end) /\ increasing q'
  end.
(** [a] is immediately followed by [b] in [q] *)
Definition consecutive {A} (a b : A) (q : list A) : Prop := exists l r, q = l ++ a :: b :: r.
