(** The point cloud queue (/repo/voxblox_ros/src/tsdf_server.cc) and the pose queue
    (/repo/voxblox_ros/src/transformer.cc). Definitions only. Times are nanoseconds;
    ros::Time and ros::Duration throw when a difference exceeds 2^31 seconds, which is
    not modelled. *)
From Coq Require Import ZArith List Bool.
From Verif Require Import F32 Types.
Import ListNotations.
Open Scope Z_scope.

(** ** Point clouds *)
Section clouds.
  (** a message (its stamp is the field the queue looks at) and a pose *)
  Context {C P : Type}.
  Variable stamp : C -> Z.
  (** what the n-th call of [lookupTransform] answers for a cloud: whatever the
      transform tree or the pose queue hold at that moment *)
  Variable lookup : nat -> C -> option P.

  (** what happens to clouds, in order *)
  Inductive action : Type :=
  | AThrottled (c : C)
  | AQueued (c : C)
  | AIntegrated (c : C) (p : P)     (* processPointCloudMessageAndInsert *)
  | ANoPose (c : C) (n : nat)       (* the lookup for the front failed, n clouds waiting *)
  | ADropped (c : C).
  (** [kMaxQueueSize], tsdf_server.cc:329 *)
  Definition kMaxQueueSize : nat := 10.
  (** the dropping loop, tsdf_server.cc:345-347 *)
  Fixpoint drop_front (q : list C) : list C * list action :=
    match q with
    | [] => ([], [])
    | c :: q' => if Nat.leb kMaxQueueSize (length q)
                 then let (r, a) := drop_front q' in (r, ADropped c :: a)
                 else (q, [])
    end.
  (** the loop of [insertPointcloud], tsdf_server.cc:365-371, over
      [getNextPointcloudFromQueue] (326-351); [n] counts the lookups so far *)
  Fixpoint drain (q : list C) (n : nat) : list C * nat * list action :=
    match q with
    | [] => ([], n, [])
    | c :: q' =>
        match lookup n c with
        | Some p => let '(r, n', a) := drain q' (S n) in (r, n', AIntegrated c p :: a)
        | None => let (r, a) := drop_front q in (r, S n, ANoPose c (length q) :: a)
        end
    end.
  (** [last_msg_time_ptcloud_], [pointcloud_queue_], lookups so far, what happened *)
  Record intake : Type := MkIntake { in_last : Z; in_queue : list C; in_calls : nat; in_log : list action }.
  (** [insertPointcloud], tsdf_server.cc:353-386; [min_time] is
      [min_time_between_msgs_]. [insertFreespacePointcloud] (388-421) is the same
      with its own members. *)
  Definition insertPointcloud (min_time : Z) (s : intake) (c : C) : intake :=
    let accept := min_time <? stamp c - in_last s in
    let last := if accept then stamp c else in_last s in
    let q := if accept then in_queue s ++ [c] else in_queue s in
    let '(q', n, a) := drain q (in_calls s) in
    MkIntake last q' n (in_log s ++ (if accept then AQueued c else AThrottled c) :: a).
  Definition intake_new : intake := MkIntake 0 [] 0 [].
  Definition insert_all (min_time : Z) (cs : list C) : intake :=
    fold_left (insertPointcloud min_time) cs intake_new.
End clouds.
Arguments action : clear implicits.
Arguments intake : clear implicits.

(** ** Poses *)
Section poses.
  Context {P : Type}.
  (** a stamped transform of [transform_queue_] *)
  Definition stamped : Type := (Z * P)%type.
  (** [T_G_D]: a pose of the queue, or the interpolation
      [oldest * exp(ratio * log(oldest^-1 * newest))], transformer.cc:168-185; the
      exponential map belongs to minkindr and is not modelled, nor is the product
      with the static transforms (191) *)
  Inductive found : Type := Exact (p : stamped) | Between (oldest newest : stamped) (ratio : f32).
  (** the loop, transformer.cc:135-150: the poses passed over (latest first), and
      where it stopped, with [match_found] *)
  Fixpoint scan (tol t : Z) (passed q : list stamped) : list stamped * list stamped * bool :=
    match q with
    | [] => (passed, [], false)
    | p :: q' =>
        if t <? fst p then (passed, q, fst p - t <? tol)
        else if t - fst p <? tol then (passed, q, true)
        else scan tol t (p :: passed) q'
    end.
  (** [lookupTransformQueue], transformer.cc:121-195: what is found and the queue
      afterwards. [static_cast<FloatingPoint>] of an int64 rounds. *)
  Definition lookupTransformQueue (tol t : Z) (q : list stamped) : option (found * list stamped) :=
    match q with
    | [] => None
    | _ :: _ =>
        let '(passed, rest, ok) := scan tol t [] q in
        match rest, passed with
        | p :: _, _ =>
            if ok then Some (Exact p, rest)
            else match passed with
                 | [] => None
                 | o :: _ =>
                     let offset_newest := fst p - t in
                     let offset_oldest := t - fst o in
                     Some (Between o p (fdiv (f32_of_Z offset_oldest) (f32_of_Z (offset_newest + offset_oldest))), o :: rest)
                 end
        | [], _ => None
        end
    end.
End poses.
Arguments stamped : clear implicits.
Arguments found : clear implicits.
