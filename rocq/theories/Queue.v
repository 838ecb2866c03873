(** /repo/voxblox/include/voxblox/utils/approx_hash_array.h and bucket_queue.h.
    Definitions only. *)
From Coq Require Import ZArith List Bool.
From Verif Require Import F32 Types Index Layer Threads.
Import ListNotations.
Open Scope Z_scope.

(** ** ApproxHashSet *)
(** approx_hash_array.h:176-184; [unmasked_bits] and [full_reset_threshold] are
    template arguments, hashes are [size_t] *)
Record hashset : Type := MkHS { hs_bits : Z; hs_threshold : Z; hs_offset : Z; hs_array : list Z }.
(** [pseudo_set_size_] 177-178 and [bit_mask_] 179 *)
Definition hs_size (bits thr : Z) : Z := 2 ^ bits + thr.
Definition hs_mask (bits : Z) : Z := 2 ^ bits - 1.
(** all bins 0, bin [offset] holds [numeric_limits<size_t>::max()] *)
Definition hs_clear_array (bits thr : Z) : list Z :=
  set_th 0 (2 ^ 64 - 1) (repeat 0 (Z.to_nat (hs_size bits thr))).
(** constructor 80-89 *)
Definition hs_new (bits thr : Z) : hashset := MkHS bits thr 0 (hs_clear_array bits thr).
(** [array_index], 98 and 127 *)
Definition hs_index (s : hashset) (hash : Z) : Z := u64 (Z.land hash (hs_mask (hs_bits s)) + hs_offset s).
(** isHashCurrentlyPresent 97-101 *)
Definition hs_present (s : hashset) (hash : Z) : res bool :=
  match nth_error (hs_array s) (Z.to_nat (hs_index s hash)) with
  | Some v => Ok (v =? hash)
  | None => UB
  end.
(** replaceHash 126-135, by one thread at a time *)
Definition hs_replace (s : hashset) (hash : Z) : res (hashset * bool) :=
  match nth_error (hs_array s) (Z.to_nat (hs_index s hash)) with
  | Some v =>
      if v =? hash then Ok (s, false)
      else Ok (MkHS (hs_bits s) (hs_threshold s) (hs_offset s)
                 (set_th (Z.to_nat (hs_index s hash)) hash (hs_array s)), true)
  | None => UB
  end.
(** resetApproxSet 157-171 *)
Definition hs_reset (s : hashset) : hashset :=
  if hs_threshold s <=? u64 (hs_offset s + 1) then
    MkHS (hs_bits s) (hs_threshold s) 0 (hs_clear_array (hs_bits s) (hs_threshold s))
  else MkHS (hs_bits s) (hs_threshold s) (u64 (hs_offset s + 1)) (hs_array s).
(** calls, most recent first in the history; the state after a history *)
Inductive hs_op : Type := HPresent (h : Z) | HReplace (h : Z) | HReset.
Definition hs_step (s : hashset) (o : hs_op) : res hashset :=
  match o with
  | HPresent h => rbind (hs_present s h) (fun _ => Ok s)
  | HReplace h => rbind (hs_replace s h) (fun p => Ok (fst p))
  | HReset => Ok (hs_reset s)
  end.
Fixpoint hs_after (bits thr : Z) (past : list hs_op) : res hashset :=
  match past with
  | [] => Ok (hs_new bits thr)
  | o :: past' => rbind (hs_after bits thr past') (fun s => hs_step s o)
  end.

(** core/block_hash.h:25-45 [AnyIndexHash]: [static_cast<unsigned int>] of the
    64-bit expression *)
Definition index_hash (i : idx3) : Z :=
  (u64 (vx i + vy i * 17191 + vz i * (17191 * 17191))) mod 2 ^ 32.

(** replaceHash by several threads: the load and the store are separate atomic
    actions. Each thread performs one call. *)
Inductive hthread : Type :=
| HStart (h : Z)              (* before the load *)
| HLoaded (h : Z) (v : Z)     (* between load and store *)
| HDone (h : Z) (r : bool).   (* returned *)
Record hsys : Type := MkHSys { hy_set : hashset; hy_threads : list hthread }.
Definition hstep (y : hsys) (t : nat) : hsys :=
  match nth_error (hy_threads y) t with
  | Some (HStart h) =>
      match nth_error (hs_array (hy_set y)) (Z.to_nat (hs_index (hy_set y) h)) with
      | Some v => MkHSys (hy_set y) (set_th t (HLoaded h v) (hy_threads y))
      | None => y
      end
  | Some (HLoaded h v) =>
      if v =? h then MkHSys (hy_set y) (set_th t (HDone h false) (hy_threads y))
      else MkHSys (MkHS (hs_bits (hy_set y)) (hs_threshold (hy_set y)) (hs_offset (hy_set y))
                    (set_th (Z.to_nat (hs_index (hy_set y) h)) h (hs_array (hy_set y))))
             (set_th t (HDone h true) (hy_threads y))
  | _ => y
  end.
Definition hsys_run (sched : list nat) (y : hsys) : hsys := fold_left hstep sched y.

(** ** BucketQueue *)
Section BucketQueue.
  Context {T : Type}.
  (** bucket_queue.h:95-104 *)
  Record bq : Type := MkBQ {
    bq_num : Z; bq_max : f64; bq_buckets : list (list T); bq_last : Z; bq_count : Z }.
  (** constructor 25-32; a negative count makes [resize] throw (not modelled) *)
  Definition bq_new (n : Z) (mx : f64) : bq := MkBQ n mx (repeat [] (Z.to_nat n)) 0 0.
  (** setNumBuckets 35-41: [last_bucket_index_] is left as it was *)
  Definition bq_setNum (q : bq) (n : Z) (mx : f64) : bq :=
    MkBQ n mx (repeat [] (Z.to_nat n)) (bq_last q) 0.
  (** the bucket of a value, 45-53; [None]: the int cast is undefined *)
  Definition bucket_of (n : Z) (mx value : f64) : option Z :=
    let v := if dgt value mx then mx else value in
    match to_int32 (dfloorZ (dmul (ddiv (dabs v) mx) (f64_of_Z (n - 1)))) with
    | Some i => Some (if n <=? i then n - 1 else i)
    | None => None
    end.
  (** replace bucket [i]; out of bounds is undefined *)
  Definition bq_upd (i : Z) (f : list T -> list T) (bs : list (list T)) : res (list (list T)) :=
    if i <? 0 then UB else
    match nth_error bs (Z.to_nat i) with
    | Some b => Ok (set_th (Z.to_nat i) (f b) bs)
    | None => UB
    end.
  (** push 43-59 *)
  Definition bq_push (q : bq) (key : T) (value : f64) : res bq :=
    if bq_num q =? 0 then Abort else
    match bucket_of (bq_num q) (bq_max q) value with
    | None => UB
    | Some i =>
        rbind (bq_upd i (fun b => b ++ [key]) (bq_buckets q)) (fun bs =>
          Ok (MkBQ (bq_num q) (bq_max q) bs (if i <? bq_last q then i else bq_last q) (u64 (bq_count q + 1))))
    end.
  (** the loop of pop and front, 65-68 and 78-81: the bucket is read before the
      bound is tested. [fuel] bounds the iterations, see [scan_fuel]. *)
  Fixpoint bq_scan (fuel : nat) (bs : list (list T)) (n last : Z) : res Z :=
    match fuel with
    | O => UB
    | S fuel' =>
        if last <? 0 then UB else
        match nth_error bs (Z.to_nat last) with
        | None => UB
        | Some [] => if last <? n then bq_scan fuel' bs n (last + 1) else Ok last
        | Some (_ :: _) => Ok last
        end
    end.
  (** the loop reads a bucket per iteration and stops at the end of the array *)
  Definition scan_fuel (q : bq) : nat := S (length (bq_buckets q)).
  (** empty 85 *)
  Definition bq_empty (q : bq) : bool := bq_count q =? 0.
  (** pop 61-73 *)
  Definition bq_pop (q : bq) : res bq :=
    if bq_empty q then Ok q else
    rbind (bq_scan (scan_fuel q) (bq_buckets q) (bq_num q) (bq_last q)) (fun l =>
      if l <? bq_num q then
        rbind (bq_upd l (fun b => tl b) (bq_buckets q)) (fun bs =>
          Ok (MkBQ (bq_num q) (bq_max q) bs l (u64 (bq_count q - 1))))
      else Ok (MkBQ (bq_num q) (bq_max q) (bq_buckets q) l (bq_count q))).
  (** front 75-83; moves [last_bucket_index_] *)
  Definition bq_front (q : bq) : res (bq * T) :=
    if (bq_num q =? 0) || bq_empty q then Abort else
    rbind (bq_scan (scan_fuel q) (bq_buckets q) (bq_num q) (bq_last q)) (fun l =>
      match nth_error (bq_buckets q) (Z.to_nat l) with
      | Some (x :: _) => Ok (MkBQ (bq_num q) (bq_max q) (bq_buckets q) l (bq_count q), x)
      | _ => UB
      end).
  (** clear 87-92 *)
  Definition bq_clear (q : bq) : bq := MkBQ (bq_num q) (bq_max q) (repeat [] (Z.to_nat (bq_num q))) 0 0.

  Inductive bq_op : Type :=
  | QPush (k : T) (v : f64) | QPop | QFront | QEmpty | QClear | QSetNum (n : Z) (mx : f64).
  Inductive bq_out : Type := OUnit | OKey (k : T) | OBool (b : bool).
  Definition bq_step (q : bq) (o : bq_op) : res (bq * bq_out) :=
    match o with
    | QPush k v => rbind (bq_push q k v) (fun q' => Ok (q', OUnit))
    | QPop => rbind (bq_pop q) (fun q' => Ok (q', OUnit))
    | QFront => rbind (bq_front q) (fun p => Ok (fst p, OKey (snd p)))
    | QEmpty => Ok (q, OBool (bq_empty q))
    | QClear => Ok (bq_clear q, OUnit)
    | QSetNum n mx => Ok (bq_setNum q n mx, OUnit)
    end.
  Fixpoint bq_run (q : bq) (os : list bq_op) : res (bq * list bq_out) :=
    match os with
    | [] => Ok (q, [])
    | o :: os' => rbind (bq_step q o) (fun p => rbind (bq_run (fst p) os') (fun r => Ok (fst r, snd p :: snd r)))
    end.
End BucketQueue.
Arguments bq T : clear implicits.
Arguments bq_op T : clear implicits.
Arguments bq_out T : clear implicits.
