(** Property C72: triangles face the free side, and the stored normals are their unit normals. *)
From Coq Require Import ZArith Reals List Bool Lia Lra.
From Flocq Require Import Core.
From Verif Require Import F32 F32_lemmas F32_err Types Index Voxel Assoc Assoc_lemmas Layer Ray Update Update_spec Merge_proofs
  Marching MeshInt Mesh_spec Mesh_proofs Connect_proofs Facing_spec Facing_proofs P_Mesh.
Import ListNotations.
Open Scope R_scope.

(** C72. For any corner values, and wherever the vertices lie strictly inside their edges: a triangle
    is not degenerate, its normal is on the front side of the sum of its three crossing directions
    and of at least two of them. *)
Theorem C72_facing : forall s (tau : nat -> R) a b c, In (a, b, c) (cube_triangles s) -> (forall e, 0 < tau e < 1) ->
  let N := facing (on_edge s (tau a) a) (on_edge s (tau b) b) (on_edge s (tau c) c) in
  0 < dotR N (vadd (vadd (to_front s a) (to_front s b)) (to_front s c)) /\
  ((0 < dotR N (to_front s a) /\ 0 < dotR N (to_front s b)) \/ (0 < dotR N (to_front s b) /\ 0 < dotR N (to_front s c)) \/
   (0 < dotR N (to_front s a) /\ 0 < dotR N (to_front s c))).
Proof. exact facing_ok. Qed.
Print Assumptions C72_facing.
(** two corners at the bottom are behind the surface: the two triangles are crossed upwards *)
Example C72_facing_example : cube_triangles ex_s = [(3, 8, 1); (1, 8, 9)]%nat /\
  to_front ex_s 8 = V3 (0 - 0) (0 - 0) (1 - 0) /\ to_front ex_s 3 = V3 (0 - 0) (1 - 0) (0 - 0).
Proof. split; [vm_compute; reflexivity|]. split; reflexivity. Qed.

(** When a block is meshed, the mesh holds for each triangle the same normal three times, and the
    normal is the unit vector of the direction from which the triangle is seen counterclockwise. *)
Theorem C72_normals : forall k cfg (l : Layer k) i b mm mm', l_get l i = Some b -> updateMeshForBlock cfg l i mm = Ok mm' ->
  exists m, alookup i mm' = Some m /\
    normals_of (fun p q r n => wide_triangle p q r -> unit_normal p q r n) (m_vertices m) (m_normals m).
Proof.
  intros k cfg l i b mm mm' Hb E. unfold updateMeshForBlock in E. destruct (alookup i mm) as [m0|]; [|discriminate E].
  rewrite Hb in E. apply rbind_ok in E. destruct E as (m1 & E1 & E). apply rbind_ok in E. destruct E as (m2 & E2 & E).
  assert (V : m_vertices m2 = m_vertices m1 /\ m_normals m2 = m_normals m1).
  { destruct (mc_use_color cfg); [|injection E2 as <-; auto]. unfold updateMeshColor in E2. apply rbind_ok in E2. destruct E2 as (cs & _ & E2).
    destruct (_ <? _)%nat; [discriminate E2|]. injection E2 as <-. auto. }
  injection E as <-. eexists. split; [rewrite alookup_aset, idx_eqb_refl; reflexivity|]. cbn [m_vertices m_normals]. destruct V as (-> & ->).
  eapply normals_impl; [|eapply block_normals; exact E1]. intros p q r n -> W. now apply normal_ok.
Qed.
Print Assumptions C72_normals.
(** the surface between voxels behind it at x = 0 and in front of it at x = 1: both normals are (1, 0, 0) *)
Example C72_normals_example :
  match updateMeshForBlock ex_cfg ex_l (V3 0 0 0)%Z (allocateMesh f1 (V3 0 0 0)%Z []) with
  | Ok mm => match alookup (V3 0 0 0)%Z mm with
             | Some m => (length (m_vertices m) =? 6)%nat && forallb (fun n => feq (vx n) f1 && feq (vy n) f0 && feq (vz n) f0) (m_normals m)
             | None => false end
  | _ => false end = true.
Proof. vm_compute. reflexivity. Qed.
Example C72_wide_example : wide_triangle (V3 f1 f0 f0) (V3 f1 f1 f0) (V3 f1 f0 f1).
Proof.
  destruct (f32_of_Z_R 1 ltac:(lia)) as (A1 & B1). fold f1 in A1, B1.
  assert (Z0 : fin_upto 20 f0). { split; [reflexivity|]. change (FR f0) with 0. rewrite Rabs_R0. apply bpow_ge_0. }
  assert (Z1 : fin_upto 20 f1). { split; [exact B1|]. rewrite A1, Rabs_R1. change 1 with (bpow radix2 0). apply bpow_le. lia. }
  assert (N1 : forall a, dotR a a = 1 -> normR a = 1) by (intros a H; unfold normR; rewrite H; apply sqrt_1).
  assert (E1 : normR (sub3R (V3 f1 f1 f0) (V3 f1 f0 f0)) = 1).
  { apply N1. unfold dotR, sub3R. cbn [vx vy vz]. rewrite A1. change (FR f0) with 0. ring. }
  assert (E2 : normR (sub3R (V3 f1 f0 f1) (V3 f1 f0 f0)) = 1).
  { apply N1. unfold dotR, sub3R. cbn [vx vy vz]. rewrite A1. change (FR f0) with 0. ring. }
  assert (E3 : normR (normal_dir (V3 f1 f0 f0) (V3 f1 f1 f0) (V3 f1 f0 f1)) = 1).
  { apply N1. unfold normal_dir, crossR, dotR, sub3R. cbn [vx vy vz]. rewrite A1. change (FR f0) with 0. ring. }
  unfold wide_triangle. rewrite E1, E2, E3. split; [repeat split; first [apply Z0|apply Z1]|].
  split; [repeat split; first [apply Z0|apply Z1]|]. split; [repeat split; first [apply Z0|apply Z1]|].
  split; [change 1 with (bpow radix2 0); apply bpow_le; lia|]. rewrite !Rmult_1_r. change 1 with (bpow radix2 0). apply bpow_le. lia.
Qed.
