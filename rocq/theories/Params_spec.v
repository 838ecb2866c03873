(** Vocabulary for C112. *)
From Coq Require Import ZArith String Reals Bool.
From Flocq Require Import Core.
From Verif Require Import F32 F32_lemmas Params.
Open Scope R_scope.

(** a float is the given number, or the documented decimal if none is given, as nearly as a
    float can be *)
Definition reads (P : params) (k : string) (dec : R) (x : f32) : Prop :=
  match p_num P k with
  | Some d => dfin d = true -> Rabs (DR d) <= 10 ^ 30 -> ffin x = true /\ FR x = rnd32 (DR d)
  | None => ffin x = true /\ Rabs (FR x - dec) <= dec * bpow radix2 (-24)
  end.
Definition reads_flag (P : params) (k : string) (d : bool) (x : bool) : Prop := match p_bool P k with Some b => x = b | None => x = d end.
Definition reads_int (P : params) (k : string) (d : Z) (x : Z) : Prop := match p_int P k with Some b => x = b | None => x = d end.
Definition power_of_two (n : Z) : Prop := exists k, (0 <= k)%Z /\ n = (2 ^ k)%Z.
Definition is_int (n : Z) : Prop := (- 2 ^ 31 <= n < 2 ^ 31)%Z.
