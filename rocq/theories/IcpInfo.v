(** How much an alignment step counts: the information vector of a mini-batch and the
    weights of a pose update, /repo/voxblox/src/alignment/icp.cc:77-100, 114-137, 196-213 and
    239-241. Definitions only. *)
From Coq Require Import ZArith List Bool.
From Verif Require Import F32 Types.
Import ListNotations.

(** a vector of six: three for the translation, three for the rotation *)
Definition info6 : Type := (pt3 * pt3)%type.
Definition zip6 (f : f32 -> f32 -> f32) (a b : info6) : info6 := (zip3 f (fst a) (fst b), zip3 f (snd a) (snd b)).
(** icp.cc:77-100 [addNormalizedPointInfo]; [2.0 *] is a float product in Eigen *)
Definition twice (x : f32) : f32 := fmul (f32_of_Z 2) x.
Definition lever (p q m n : f32) : f32 := fadd (fmul (fmul (fmul p p) n) n) (fmul (fmul (fmul q q) m) m).
Definition addNormalizedPointInfo (point normal : pt3) (info : info6) : info6 :=
  (zip3 fadd (fst info) (map3 (fun c => twice (fmul c c)) normal),
   zip3 fadd (snd info)
     (map3 twice (V3 (lever (vy point) (vz point) (vy normal) (vz normal))
                     (lever (vx point) (vz point) (vx normal) (vz normal))
                     (lever (vx point) (vy point) (vx normal) (vy normal))))).
(** icp.cc:115-116, 131-132: the vector of a mini-batch, from the matched points (relative
    to the sensor) with their unit gradients *)
Definition batch_info (ms : list (pt3 * pt3)) : info6 :=
  fold_left (fun i m => addNormalizedPointInfo (fst m) (snd m) i) ms (V3 kEpsilon kEpsilon kEpsilon, V3 kEpsilon kEpsilon kEpsilon).
(** icp.cc:204-205 [weight], 209 [base_info_vector] *)
Definition update_weight (base est : info6) : info6 := zip6 fdiv est (zip6 fadd base est).
Definition update_base (base est : info6) : info6 := zip6 fadd base est.
(** icp.cc:239-241 *)
Definition initial_base (translation rotation : f32) : info6 := (V3 translation translation translation, V3 rotation rotation rotation).
(** the updates in the order in which they hold the mutex: the weights used and the
    information at the end *)
Fixpoint updates (base : info6) (ests : list info6) : list info6 * info6 :=
  match ests with
  | [] => ([], base)
  | e :: ests' => let (ws, b) := updates (update_base base e) ests' in (update_weight base e :: ws, b)
  end.
