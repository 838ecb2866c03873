(** Timers: /repo/voxblox/include/voxblox/utils/timing.h and
    /repo/voxblox/src/utils/timing.cc. Definitions only. The functions run under one
    mutex, so a history is a sequence of calls; the clock, the printing and
    [maxTagLength_] are not modelled. *)
From Coq Require Import String ZArith List Bool.
From Verif Require Import F32 Types Assoc Threads.
Import ListNotations.
Open Scope Z_scope.

(** the window size of the timers, timing.h:109 *)
Definition kWindow : Z := 50.
(** [Accumulator<double, double, 50>], timing.h:37-104; an unset slot of the array
    [samples_] is [None] *)
Record accum := MkAcc {
  ac_window : Z; ac_total : Z; ac_wsum : f64; ac_sum : f64; ac_min : f64; ac_max : f64;
  ac_samples : list (option f64) }.
(** [std::numeric_limits<double>::max()] and [::min()], the least positive normal
    number *)
Definition dbl_max : f64 := dbits 0x7fefffffffffffff.
Definition dbl_min : f64 := dbits 0x0010000000000000.
(** the constructor, timing.h:41-47 *)
Definition acc_new : accum := MkAcc 0 0 d0 d0 dbl_max dbl_min (repeat None (Z.to_nat kWindow)).
(** [++] on an [int]; beyond 2^31 - 1 it is undefined *)
Definition int_incr (z : Z) : res Z := if z <? 2 ^ 31 - 1 then Ok (z + 1) else UB.
(** reading a slot of the array *)
Definition slot (xs : list (option f64)) (i : Z) : res f64 :=
  match nth_error xs (Z.to_nat i) with Some (Some x) => Ok x | _ => UB end.
(** [Add], timing.h:49-67 *)
Definition acc_add (a : accum) (x : f64) : res accum :=
  rbind (int_incr (ac_window a)) (fun w =>
  rbind (if ac_window a <? kWindow
         then Ok (dadd (ac_wsum a) x, set_th (Z.to_nat (ac_window a)) (Some x) (ac_samples a))
         else let i := ac_window a mod kWindow in
              rbind (slot (ac_samples a) i) (fun oldest =>
              Ok (dadd (ac_wsum a) (dsub x oldest), set_th (Z.to_nat i) (Some x) (ac_samples a))))
    (fun ws =>
  rbind (int_incr (ac_total a)) (fun t =>
  Ok (MkAcc w t (fst ws) (dadd (ac_sum a) x)
        (if dlt x (ac_min a) then x else ac_min a)
        (if dgt x (ac_max a) then x else ac_max a) (snd ws))))).
(** [Mean], timing.h:73 *)
Definition acc_mean (a : accum) : f64 := ddiv (ac_sum a) (f64_of_Z (ac_total a)).
(** [RollingMean], timing.h:75-77 *)
Definition acc_rolling (a : accum) : f64 := ddiv (ac_wsum a) (f64_of_Z (Z.min (ac_window a) kWindow)).
(** [LazyVariance], timing.h:83-94: the loop over the slots *)
Fixpoint acc_var_loop (mean : f64) (xs : list (option f64)) (n : nat) (v : f64) : res f64 :=
  match n with
  | O => Ok v
  | S n' => match xs with
            | Some x :: xs' => acc_var_loop mean xs' n' (dadd v (dmul (dsub x mean) (dsub x mean)))
            | _ => UB
            end
  end.
Definition acc_variance (a : accum) : res f64 :=
  if ac_window a =? 0 then Ok d0
  else rbind (acc_var_loop (acc_rolling a) (ac_samples a) (Z.to_nat (Z.min (ac_window a) kWindow)) d0) (fun v =>
       Ok (ddiv v (f64_of_Z (Z.min (ac_window a) kWindow)))).

(** ** The registry *)
(** the members [tagMap_] and [timers_] of [Timing], timing.h:190-191 *)
Record timing := MkTiming { tm_tags : list (string * nat); tm_timers : list accum }.
Definition timing_new : timing := MkTiming [] [].
(** [std::map::find] *)
Fixpoint tag_find (t : string) (m : list (string * nat)) : option nat :=
  match m with
  | [] => None
  | (t', h) :: m' => if String.eqb t t' then Some h else tag_find t m'
  end.
(** [GetHandle], timing.cc:47-63 *)
Definition get_handle (st : timing) (t : string) : timing * nat :=
  match tag_find t (tm_tags st) with
  | Some h => (st, h)
  | None => let h := length (tm_timers st) in
            (MkTiming ((t, h) :: tm_tags st) (tm_timers st ++ [acc_new]), h)
  end.
(** [GetTag], timing.cc:65-76 *)
Fixpoint tag_of (h : nat) (m : list (string * nat)) : string :=
  match m with
  | [] => EmptyString
  | (t, h') :: m' => if Nat.eqb h' h then t else tag_of h m'
  end.
(** [AddTime], timing.cc:113-116; [timers_[handle]] is not range checked *)
Definition add_time (st : timing) (h : nat) (x : f64) : res timing :=
  rbind (of_opt (nth_error (tm_timers st) h)) (fun a =>
  rbind (acc_add a x) (fun a' => Ok (MkTiming (tm_tags st) (set_th h a' (tm_timers st))))).
(** [Reset], timing.cc:216-219 *)
Definition timing_reset (st : timing) : timing := MkTiming [] (tm_timers st).
(** [GetHz], timing.cc:161-166 *)
Definition get_hz (st : timing) (h : nat) : res f64 :=
  rbind (of_opt (nth_error (tm_timers st) h)) (fun a =>
  if dgt (acc_rolling a) d0 then Ok (ddiv d1 (acc_rolling a)) else Abort).

(** calls in a history *)
Inductive tcall := CHandle (t : string) | CAdd (h : nat) (x : f64) | CReset.
(** one call; handles are returned *)
Definition timing_step (st : timing) (c : tcall) : res (timing * option nat) :=
  match c with
  | CHandle t => let '(st', h) := get_handle st t in Ok (st', Some h)
  | CAdd h x => rbind (add_time st h x) (fun st' => Ok (st', None))
  | CReset => Ok (timing_reset st, None)
  end.
(** a history, with what each call returned *)
Fixpoint timing_run (st : timing) (cs : list tcall) : res (timing * list (option nat)) :=
  match cs with
  | [] => Ok (st, [])
  | c :: cs' => rbind (timing_step st c) (fun so =>
                rbind (timing_run (fst so) cs') (fun r => Ok (fst r, snd so :: snd r)))
  end.
