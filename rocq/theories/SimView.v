(** Drawing viewpoints in the simulated world: voxblox_ros/src/simulation_server.cc:163-200
    [SimulationServer::generatePlausibleViewpoint]. Definitions only. *)
From Coq Require Import ZArith List Bool.
From Verif Require Import F32 Types Index Ray Voxel Layer Sim.
Import ListNotations.
Open Scope Z_scope.

Definition ftwo : f32 := f32_of_Z 2.
(** 174: [space_min]. Eigen divides a float vector by a literal in float. *)
Definition space_min (lo : pt3) : pt3 := map3 (fun a => fdiv a ftwo) lo.
(** 175: [space_size] *)
Definition space_size (lo hi : pt3) : pt3 := zip3 (fun b m => fsub b (fdiv m ftwo)) hi (space_min lo).
(** 183-185: a draw of [setRandom], each component in [-1, 1], made to span the space *)
Definition place (lo hi r : pt3) : pt3 :=
  zip3 (fun a m => fadd (fdiv a ftwo) m)
    (zip3 (fun s p => fmul s (fadd p f1)) (space_size lo hi) r) (space_min lo).
(** 187: the test on a position; [max_distance = min_distance * 2.0] (171) is a double
    narrowed to float *)
Definition plausible (w : list object) (min_distance : f32) (position : pt3) : bool :=
  fge (getDistanceToPoint w position (f32_of_f64 (dmul (f64_of_f32 min_distance) d2))) min_distance.
(** 181-191: the attempts; [draws n] is the n-th result of [setRandom]. The answer is the
    position and the number of the next draw. *)
Fixpoint attempts (w : list object) (lo hi : pt3) (min_distance : f32) (draws : nat -> pt3) (left_ n : nat) : option (pt3 * nat) :=
  match left_ with
  | O => None
  | S left_ =>
      let position := place lo hi (draws n) in
      if plausible w min_distance position then Some (position, S n)
      else attempts w lo hi min_distance draws left_ (S n)
  end.
(** 163-200: the answer, [*ray_origin] and [*ray_direction] ([normalize] is
    [normalized3]); [before] is what the two were *)
Definition generatePlausibleViewpoint (w : list object) (lo hi : pt3) (max_attempts : nat) (min_distance : f32)
  (draws : nat -> pt3) (before : pt3 * pt3) : bool * (pt3 * pt3) :=
  match attempts w lo hi min_distance draws max_attempts 0 with
  | None => (false, before)
  | Some (position, n) => (true, (position, normalized3 (draws n)))
  end.
