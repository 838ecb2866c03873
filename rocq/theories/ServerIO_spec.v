(** Vocabulary for the map files of a server. *)
From Coq Require Import ZArith List Bool.
From Verif Require Import F32 Types Index Voxel Layer Proto LayerIO.
Import ListNotations.

(** Two layers agree on the blocks [saved] has: geometry, "has data" and all voxels;
    everywhere else [now] is what [before] was. *)
Definition restored {k} (saved before now : Layer k) : Prop :=
  l_size now = l_size saved /\ l_vps now = l_vps saved /\
  forall i, match l_get saved i with
            | Some b => exists b', l_get now i = Some b' /\
                b_vps b' = b_vps b /\ b_size b' = b_size b /\ b_origin b' = b_origin b /\
                b_has_data b' = b_has_data b /\ b_voxels b' = b_voxels b
            | None => l_get now i = l_get before i
            end.
(** the same configuration *)
Definition same_grid {k} (l l' : Layer k) : Prop := l_size l' = l_size l /\ l_vps l' = l_vps l.
