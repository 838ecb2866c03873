(** Vocabulary for the ESDF server and its subscribers. *)
From Coq Require Import ZArith List Bool.
From Verif Require Import F32 Types Index Voxel Layer RosMsg RosMsg_spec EsdfSync.
Import ListNotations.

(** two ESDF voxels agree in everything but the direction of the parent, which does not
    survive a message (C08) *)
Definition same_voxel (v w : EsdfVoxel) : Prop :=
  e_distance w = e_distance v /\ e_observed w = e_observed v /\ e_hallucinated w = e_hallucinated v /\
  e_in_queue w = e_in_queue v /\ e_fixed w = e_fixed v.
(** [b] has every block of [a], with the same voxels *)
Definition has_all (a b : Layer KEsdf) : Prop :=
  forall i vs, voxels_at a i = Some vs -> exists ws, voxels_at b i = Some ws /\ Forall2 same_voxel vs ws.
(** ... and no other block *)
Definition same_esdf (a b : Layer KEsdf) : Prop :=
  has_all a b /\ forall i, voxels_at a i = None -> voxels_at b i = None.
(** [b] has every block of the TSDF map [a], with the same voxels *)
Definition has_all_tsdf (a b : Layer KTsdf) : Prop := forall i vs, voxels_at a i = Some vs -> voxels_at b i = Some vs.

(** kinds of events *)
Definition usual_e (e : eevent) : Prop := match e with EeBase e => usual e | _ => True end.
Definition poses (e : eevent) : bool := match e with EePose _ => true | _ => false end.
Definition clears (e : eevent) : bool := match e with EeClear => true | _ => false end.
Definition rebuilds (e : eevent) : bool := match e with EeBatch => true | _ => false end.
(** a map received from elsewhere *)
Definition gets_esdf (e : eevent) : bool := match e with EeReceive _ => true | _ => false end.
Definition gets_tsdf (e : eevent) : bool := match e with EeBase e => receives e | _ => false end.
