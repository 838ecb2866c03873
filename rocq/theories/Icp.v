(** Multi-threaded ICP: /repo/voxblox/src/alignment/icp.cc:102-259. Definitions only.

    Poses, information vectors and the estimate from matched points (minkindr transforms,
    Eigen's SVD, the interpolator of C43) are parameters: [match_point T p] is the matched pair
    found for the point [p] with the pose [T] (lines 122-148), [solve ms] the transform and
    information vector computed from the matched pairs (76-100, 169-172), and [fuse] the update
    of the pose and of the information vector (196-213). *)
From Coq Require Import ZArith List Bool.
From Verif Require Import F32 Types Index Layer Threads.
Import ListNotations.
Open Scope Z_scope.

Section Icp.
  Context {pose info pair delta : Type}.
  Variable match_point : pose -> pt3 -> option pair.
  Variable solve : list pair -> option (delta * info).
  Variable fuse : pose * info -> delta * info -> pose * info.
  (** icp.h:86-93 *)
  Variables (mini_batch_size : Z) (min_match_ratio keep_ratio : f32).

  (** icp.cc:118-120: the points of the mini-batch that starts at [start] *)
  Definition batch (points : list pt3) (start : Z) : list pt3 :=
    let n := Z.of_nat (length points) in
    let stop := Z.min n (u64 (start + u64 mini_batch_size)) in
    firstn (Z.to_nat (stop - start)) (skipn (Z.to_nat start) points).
  (** 102-152 [matchPoints] *)
  Fixpoint matches (T : pose) (ps : list pt3) : list pair :=
    match ps with
    | [] => []
    | p :: ps' => match match_point T p with Some m => m :: matches T ps' | None => matches T ps' end
    end.
  (** 165-167: [max(3, int(mini_batch_size * min_match_ratio))]; the cast is undefined when the
      product does not fit *)
  Definition min_matches : option Z :=
    match to_int32 (ftruncZ (fmul (f32_of_Z mini_batch_size) min_match_ratio)) with
    | Some k => Some (Z.max 3 k)
    | None => None
    end.
  (** 154-176 [stepICP], with the threshold [k] of [min_matches] *)
  Definition stepICP (k : Z) (points : list pt3) (start : Z) (T : pose) : option (delta * info) :=
    let ms := matches T (batch points start) in
    if Z.of_nat (length ms) <? k then None else solve ms.
  (** 190: [start_idx > subsample_keep_ratio * points.size()], in floats *)
  Definition beyond (points : list pt3) (start : Z) : bool :=
    fgt (f32_of_Z start) (fmul keep_ratio (f32_of_Z (Z.of_nat (length points)))).

  (** ** where a thread stands in [runThread], 178-220 *)
  Inductive ipc : Type :=
  | WantPose                               (* 187: wants mutex_ *)
  | HasPose                                (* 188: holds it *)
  | FreePose                               (* end of the block: releases it *)
  | Loop                                   (* 192: before fetch_add *)
  | Got (start : Z)                        (* 193: before the comparison *)
  | Work (start : Z)                       (* 200: before stepICP *)
  | WantUpdate (e : delta * info)          (* 202: step succeeded, wants mutex_ *)
  | HasUpdate (e : delta * info)           (* 204-210: holds it, reads pose and information *)
  | Write (e : delta * info) (x : pose * info) (* 212-214: writes them *)
  | ReadCount                              (* 216: reads num_updates *)
  | WriteCount (n : Z)                     (* 216: writes num_updates *)
  | FreeUpdate                             (* releases mutex_ *)
  | Done.
  Record ithread : Type := MkIT { it_pc : ipc; it_pose : pose }.
  Record icp_state : Type := MkIcp {
    x_idx : Z;                             (* atomic_idx_ *)
    x_mutex : option nat;                  (* owner of mutex_ *)
    x_shared : pose * info;                (* *current_T_tsdf_sensor, *base_info_vector *)
    x_num : Z;                             (* *num_updates *)
    x_threads : list ithread;
    (* calls of stepICP so far: thread, start index, pose, result *)
    x_calls : list (nat * Z * pose * option (delta * info)) }.
  Definition goto (st : icp_state) (t : nat) (pc : ipc) (p : pose) : icp_state :=
    MkIcp (x_idx st) (x_mutex st) (x_shared st) (x_num st) (set_th t (MkIT pc p) (x_threads st)) (x_calls st).
  Definition set_mutex (m : option nat) (st : icp_state) : icp_state :=
    MkIcp (x_idx st) m (x_shared st) (x_num st) (x_threads st) (x_calls st).

  (** one atomic action of thread [t]; a thread that waits for a taken mutex does nothing *)
  Definition icp_step (k : Z) (points : list pt3) (st : icp_state) (t : nat) : icp_state :=
    match nth_error (x_threads st) t with
    | None => st
    | Some (MkIT pc p) =>
        match pc with
        | WantPose => match x_mutex st with None => goto (set_mutex (Some t) st) t HasPose p | Some _ => st end
        | HasPose => goto st t FreePose (fst (x_shared st))
        | FreePose => goto (set_mutex None st) t Loop p
        | Loop =>
            goto (MkIcp (u64 (x_idx st + u64 mini_batch_size)) (x_mutex st) (x_shared st) (x_num st) (x_threads st) (x_calls st))
              t (Got (x_idx st)) p
        | Got start => goto st t (if beyond points start then Done else Work start) p
        | Work start =>
            let r := stepICP k points start p in
            goto (MkIcp (x_idx st) (x_mutex st) (x_shared st) (x_num st) (x_threads st) (x_calls st ++ [(t, start, p, r)]))
              t (match r with Some e => WantUpdate e | None => Loop end) p
        | WantUpdate e => match x_mutex st with None => goto (set_mutex (Some t) st) t (HasUpdate e) p | Some _ => st end
        | HasUpdate e => goto st t (Write e (fuse (x_shared st) e)) p
        | Write e x =>
            goto (MkIcp (x_idx st) (x_mutex st) x (x_num st) (x_threads st) (x_calls st)) t ReadCount (fst x)
        | ReadCount => goto st t (WriteCount (x_num st)) p
        | WriteCount n =>
            goto (MkIcp (x_idx st) (x_mutex st) (x_shared st) (u64 (n + 1)) (x_threads st) (x_calls st)) t FreeUpdate p
        | FreeUpdate => goto (set_mutex None st) t Loop p
        | Done => st
        end
    end.
  (** a schedule is the list of the threads that take a step *)
  Definition icp_run (k : Z) (points : list pt3) (sched : list nat) (st : icp_state) : icp_state :=
    fold_left (icp_step k points) sched st.
  (** 222-248 [runICP]: the state when the threads start; [start_pose] is the initial guess (the
      threads' own pose variables start as the identity, given as [unset]) *)
  Definition icp_init (threads : nat) (start : pose * info) (unset : pose) : icp_state :=
    MkIcp 0 None start 0 (repeat (MkIT WantPose unset) threads) [].
End Icp.
