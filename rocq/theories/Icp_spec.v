(** Vocabulary for C57. *)
From Coq Require Import ZArith Reals List Bool Permutation.
From Verif Require Import F32 Types Index Layer Threads Icp.
Import ListNotations.
Open Scope Z_scope.

Section Spec.
  Context {pose info pair delta : Type}.
  Notation state := (@icp_state pose info delta).
  (** the mini-batches processed so far, by their first index *)
  Definition starts (st : state) : list Z := map (fun c => snd (fst (fst c))) (x_calls st).
  (** the results of the successful alignment steps so far *)
  Definition successes (st : state) : list (delta * info) :=
    flat_map (fun c => match snd c with Some e => [e] | None => [] end) (x_calls st).
  (** point [i] belongs to the mini-batch of [mb] points that starts at [s] *)
  Definition in_batch (mb : Z) (s i : Z) : Prop := s <= i < s + mb.
  Definition all_done (st : state) : Prop := Forall (fun th => it_pc th = Done) (x_threads st).
  (** states reached under some schedule *)
  Definition reached (match_point : pose -> pt3 -> option pair) solve fuse mb keep k points T x0 unset (st : state) : Prop :=
    exists sched, st = icp_run match_point solve fuse mb keep k points sched (icp_init T x0 unset).
End Spec.
(** ordinary settings: a positive batch size, a ratio between 0 and 1, a cloud of fewer than
    2^24 points, and no overflow of the counter *)
Definition icp_settings (mb : Z) (keep : f32) (points : list pt3) (T : nat) : Prop :=
  0 < mb <= 2 ^ 31 - 1 /\ ffin keep = true /\ (0 <= FR keep <= 1)%R /\
  Z.of_nat (length points) < 2 ^ 24 /\ Z.of_nat T <= 2 ^ 24.
