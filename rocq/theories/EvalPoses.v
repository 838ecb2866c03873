(** Evaluating one layer against another at candidate poses:
    /repo/voxblox/include/voxblox/integrator/merge_integration.h:236-308. Definitions only.
    TSDF layers, as for [transformLayer] (Transform.v). *)
From Coq Require Import ZArith List Bool.
From Verif Require Import F32 Types Index Voxel Assoc Layer Threads Interp Transform Eval.
Import ListNotations.
Open Scope Z_scope.

(** 248: CHECK_NEAR on the voxel sizes as doubles, with the literal 1e-8 *)
Definition d1em8 : f64 := dbits 0x3e45798ee2308c3a.
Definition near_layers (a b : f32) : bool :=
  let x := f64_of_f32 a in let y := f64_of_f32 b in
  dle x (dadd y d1em8) && dge x (dsub y d1em8).
(** an entry of [aligned_layers_and_error_layers]: two shared pointers, possibly null *)
Definition aligned_entry : Type := (option (Layer KTsdf) * option (Layer KTsdf))%type.
(** 262-265: the vector gets one empty entry per pose unless it has that size already *)
Definition fit_entries (n : nat) (al : list aligned_entry) : list aligned_entry :=
  if Nat.eqb (length al) n then al else repeat (None, None) n.
(** 253-283: pose number [i] of [n]. A pose is the transformation and its [inverse()].
    The pointers of the entry share the layers filled by the two calls that follow, so
    the entry is written here after them. *)
Definition eval_pose (rows : nat -> sum_order) (top : sum_order) (order : list idx3 -> list idx3) (fuel : nat) (m : emode)
    (A B : Layer KTsdf) (n i : nat) (pose : (pt3 -> pt3) * (pt3 -> pt3)) (s : list edetails * option (list aligned_entry))
  : res (option (list edetails * option (list aligned_entry))) :=
  rbind (new_layer KTsdf (l_size B) (l_vps B)) (fun empty =>
  rbind (match snd s with None => Ok None | Some _ => rbind (new_layer KTsdf (l_size A) (l_vps A)) (fun e => Ok (Some e)) end) (fun el =>
  rbind (transformLayer rows top order fuel B (fst pose) (snd pose) empty) (fun o =>
  match o with
  | None => Ok None
  | Some moved =>
      rbind (evaluateLayersRmse A moved m el) (fun r =>
      Ok (Some (fst s ++ [fst r],
                option_map (fun al => set_th i (Some moved, snd r) (fit_entries n al)) (snd s))))
  end))).
Fixpoint eval_poses (rows : nat -> sum_order) (top : sum_order) (order : list idx3 -> list idx3) (fuel : nat) (m : emode)
    (A B : Layer KTsdf) (n i : nat) (poses : list ((pt3 -> pt3) * (pt3 -> pt3))) (s : list edetails * option (list aligned_entry))
  : res (option (list edetails * option (list aligned_entry))) :=
  match poses with
  | [] => Ok (Some s)
  | p :: ps =>
      rbind (eval_pose rows top order fuel m A B n i p s) (fun o =>
      match o with None => Ok None | Some s' => eval_poses rows top order fuel m A B n (S i) ps s' end)
  end.
(** [evaluateLayerRmseAtPoses] *)
Definition evaluateLayerRmseAtPoses (rows : nat -> sum_order) (top : sum_order) (order : list idx3 -> list idx3) (fuel : nat) (m : emode)
    (A B : Layer KTsdf) (poses : list ((pt3 -> pt3) * (pt3 -> pt3))) (details : list edetails) (aligned : option (list aligned_entry))
  : res (option (list edetails * option (list aligned_entry))) :=
  if near_layers (l_size A) (l_size B) && (l_vps A =? l_vps B)
  then eval_poses rows top order fuel m A B (length poses) 0 poses (details, aligned)
  else Abort.
