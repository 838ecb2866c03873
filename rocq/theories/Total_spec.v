(** Vocabulary for C76: inputs with which integration cannot fail. *)
From Coq Require Import ZArith Reals List Bool.
From Flocq Require Import Core.
From Verif Require Import F32 F32_lemmas Types Index Voxel Layer Update Ray Update_spec RayEnds_spec Mesh_spec Cloud Cloud_spec.
Import ListNotations.
Open Scope R_scope.

(** parameters in range, a positive voxel size *)
Definition fit_config (cc : CloudConfig) (l : Layer KTsdf) : Prop :=
  cfg_ok (cc_tsdf cc) /\ cfg_small (cc_tsdf cc) /\ ffin (l_size l) = true /\ 0 < FR (l_size l).
(** all voxels within the truncation band and the weight limit (as all integration leaves them, C07) *)
Definition safe_map (cfg : TsdfConfig) (l : Layer KTsdf) : Prop :=
  forall g, voxel_in cfg (content l g) /\ color_ok (t_color (content l g)).
(** the ray to [p] is not degenerate and stays within 2^20 voxels of the origin of the map *)
Definition ray_fits (cc : CloudConfig) (l : Layer KTsdf) (cl : cloud) (p : pt3) : Prop :=
  let o := p_position (cl_pose cl) in let q := p_apply (cl_pose cl) p in let T := c_trunc (cc_tsdf cc) in
  ray_args o q T (cc_max_ray cc) (inv_of (l_size l)) /\
  (normR (map3 FR o) + normR (map3 FR q) + FR T) * FR (inv_of (l_size l)) <= bpow radix2 20.
(** as many colours as points, bytes; all points at a finite depth up to 2^20 m; the rays of all used points fit *)
Definition fit_cloud (cc : CloudConfig) (l : Layer KTsdf) (cl : cloud) : Prop :=
  length (cl_points cl) = length (cl_colors cl) /\
  forall i, In i (indices cl) -> color_ok (color_of cl i) /\
    (ffin (vz (point_of cl i)) = true /\ Rabs (FR (vz (point_of cl i))) <= bpow radix2 20) /\
    (use_of cc cl i <> None -> ray_fits cc l cl (point_of cl i)).
(** every thread gets to run [n] more times *)
Definition runs_long (threads : nat) (n : Z) (sched : list nat) : Prop :=
  forall t, (t < threads)%nat -> (n <= Z.of_nat (count_occ Nat.eq_dec sched t))%Z.
(** additionally for the merged integrator: coordinates up to 2^20 m, no more than 2^16 points in one voxel, and
    the rays of the merged points fit; [order]: the points in the order they are taken *)
Definition fit_bundles (cc : CloudConfig) (l : Layer KTsdf) (cl : cloud) (order : list Z) : Prop :=
  (forall i, In i (indices cl) -> all3 (fun c => ffin c = true /\ Rabs (FR c) <= bpow radix2 20) (point_of cl i)) /\
  forall surfaces clearings, bundles cc (l_size l) cl order = Ok (surfaces, clearings) ->
  forall (clearing : bool) b, In b (if clearing then clearings else surfaces) ->
    (Z.of_nat (length (snd b)) <= 2 ^ 16)%Z /\
    forall mc mp mw, merged cc cl clearing (snd b) mc mp mw -> ray_fits cc l cl mp.
