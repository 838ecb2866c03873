(** Proofs about [Neighbor]. *)
From Coq Require Import ZArith List Bool Lia Reals Lra Psatz.
From Flocq Require Import Core.
From Verif Require Import F32 F32_lemmas Types Index Index_proofs Neighbor.
Import ListNotations.
Open Scope Z_scope.

Lemma carry_up_spec : forall f vps b v, 0 < vps -> (Z.to_nat (- v) <= f)%nat ->
  exists b' v', carry_up f vps b v = Some (b', v') /\ b' * vps + v' = b * vps + v /\
    0 <= v' /\ (v < 0 -> v' < vps) /\ (0 <= v -> v' = v).
Proof.
  induction f; intros vps b v Hv Hf; simpl.
  - destruct (Z.ltb_spec v 0); [lia|]. exists b, v. repeat split; lia.
  - destruct (Z.ltb_spec v 0).
    + destruct (IHf vps (b - 1) (v + vps)) as (b' & v' & E & H1 & H2 & H3 & H4); auto. lia.
      exists b', v'. repeat split; auto; try lia.
    + exists b, v. repeat split; lia.
Qed.

Lemma carry_down_spec : forall f vps b v, 0 < vps -> 0 <= v -> (Z.to_nat v <= f)%nat ->
  exists b' v', carry_down f vps b v = Some (b', v') /\ b' * vps + v' = b * vps + v /\
    0 <= v' < vps.
Proof.
  induction f; intros vps b v Hv H0 Hf; simpl.
  - destruct (Z.leb_spec vps v); [lia|]. exists b, v. repeat split; lia.
  - destruct (Z.leb_spec vps v).
    + destruct (IHf vps (b + 1) (v - vps)) as (b' & v' & E & H1 & H2); auto; try lia.
      exists b', v'. repeat split; auto; lia.
    + exists b, v. repeat split; lia.
Qed.

Lemma carry_axis_spec : forall vps b v, 0 < vps ->
  carry_axis vps b v = Some ((b * vps + v) / vps, (b * vps + v) mod vps).
Proof.
  intros vps b v Hv. unfold carry_axis.
  destruct (carry_up_spec (Z.to_nat (Z.abs v)) vps b v Hv ltac:(lia)) as (b' & v' & E & H1 & H2 & _).
  rewrite E.
  destruct (carry_down_spec (Z.to_nat (Z.abs v')) vps b' v' Hv H2 ltac:(lia)) as (b'' & v'' & E' & H3 & H4).
  rewrite E'. f_equal. f_equal.
  - symmetry. rewrite <- H1, <- H3. rewrite Z.div_add_l by lia. rewrite Z.div_small by auto. lia.
  - symmetry. rewrite <- H1, <- H3. rewrite Z.add_comm, Z.mod_add by lia. apply Z.mod_small; auto.
Qed.

Lemma direction_spec : forall b v d vps, 0 < vps ->
  exists b' v', getFromBlockAndVoxelIndexAndDirection b v d vps = Ok (Some (b', v')) /\
    all3 (fun c => 0 <= c < vps) v' /\
    getGlobalVoxelIndexFromBlockAndVoxelIndex b' v' vps =
      idx_add (getGlobalVoxelIndexFromBlockAndVoxelIndex b v vps) d.
Proof.
  intros [bx by_ bz] [x y z] [dx dy dz] vps Hv.
  unfold getFromBlockAndVoxelIndexAndDirection.
  destruct (Z.leb_spec vps 0); [lia|]. simpl.
  rewrite !carry_axis_spec by auto.
  do 2 eexists. split; [reflexivity|]. split.
  - repeat split; simpl; apply Z.mod_pos_bound; auto.
  - apply v3_eq; simpl;
    match goal with |- ?c / _ * _ + _ = _ => pose proof (Z.div_mod c vps ltac:(lia)); lia end.
Qed.

Lemma offset_spec : forall sb sv eb ev vps, vps <> 0 ->
  exists d, getOffsetBetweenVoxels sb sv eb ev vps = Ok d /\
   idx_add (getGlobalVoxelIndexFromBlockAndVoxelIndex sb sv vps) d =
   getGlobalVoxelIndexFromBlockAndVoxelIndex eb ev vps.
Proof.
  intros [? ? ?] [? ? ?] [? ? ?] [? ? ?] vps Hv. unfold getOffsetBetweenVoxels.
  destruct (Z.eqb_spec vps 0); [lia|]. eexists. split; [reflexivity|].
  apply v3_eq; simpl; ring.
Qed.

(** tables *)
Definition max_norm (d : idx3) : Z := Z.max (Z.abs (vx d)) (Z.max (Z.abs (vy d)) (Z.abs (vz d))).
Definition one_norm (d : idx3) : Z := Z.abs (vx d) + Z.abs (vy d) + Z.abs (vz d).
Definition sq_norm (d : idx3) : Z := vx d * vx d + vy d * vy d + vz d * vz d.

Lemma range1 : forall a, Z.abs a <= 1 -> a = -1 \/ a = 0 \/ a = 1.
Proof. lia. Qed.

Lemma offsets_complete : forall c d,
  In d (firstn (conn_num c) kOffsets) <->
  max_norm d = 1 /\ one_norm d <= (match c with kSix => 1 | kEighteen => 2 | kTwentySix => 3 end).
Proof.
  intros c [x y z]. split.
  - intros H. assert (F: forallb (fun d => (max_norm d =? 1) && (one_norm d <=?
       (match c with kSix => 1 | kEighteen => 2 | kTwentySix => 3 end))) (firstn (conn_num c) kOffsets) = true)
      by (destruct c; reflexivity).
    rewrite forallb_forall in F. apply F in H. apply andb_prop in H. lia.
  - unfold max_norm, one_norm; simpl. intros (M & O).
    destruct (range1 x) as [-> | [-> | ->]]; [lia| | |];
    destruct (range1 y) as [-> | [-> | ->]]; try lia;
    destruct (range1 z) as [-> | [-> | ->]]; try lia; try (exfalso; simpl in *; lia);
    destruct c; simpl in O; try lia; simpl; tauto.
Qed.

Lemma offsets_nodup : forall c, NoDup (firstn (conn_num c) kOffsets).
Proof.
  intros c. destruct c; simpl; repeat constructor; simpl; intros Hx;
  repeat (destruct Hx as [Hx|Hx]; [discriminate Hx|]); exact Hx.
Qed.

Lemma offsets_symmetric : forall c d, In d (firstn (conn_num c) kOffsets) ->
  In (map3 Z.opp d) (firstn (conn_num c) kOffsets).
Proof.
  intros c d H. apply offsets_complete in H. apply offsets_complete.
  unfold max_norm, one_norm in *. simpl. rewrite !Z.abs_opp. exact H.
Qed.

Lemma nth_offsets_sq : forall i, (i < 26)%nat ->
  exists d f, nth_error kOffsets i = Some d /\ nth_error kDistances i = Some f /\
    ((sq_norm d = 1 /\ f = f1) \/ (sq_norm d = 2 /\ f = sqrt2f) \/ (sq_norm d = 3 /\ f = sqrt3f)).
Proof.
  intros i H.
  do 26 (destruct i as [|i]; [do 2 eexists; split; [reflexivity|]; split; [reflexivity|];
     first [left; split; reflexivity | right; left; split; reflexivity | right; right; split; reflexivity]|]).
  lia.
Qed.

(** accuracy of the two square roots *)
Lemma sqrt2f_R : (Rabs (FR sqrt2f - sqrt 2) <= / 16777216)%R.
Proof.
  assert (E: (FR sqrt2f = 11863283 * / 8388608)%R) by (vm_compute; reflexivity || (unfold sqrt2f; vm_compute; field)).
  rewrite E. 
  assert (S: (11863283 * / 8388608 - / 16777216 <= sqrt 2 <= 11863283 * / 8388608 + / 16777216)%R).
  { split.
    - apply Rsqr_incr_0_var; [|apply sqrt_pos]. rewrite Rsqr_sqrt by lra. unfold Rsqr. lra.
    - apply Rsqr_incr_0_var; [|lra]. rewrite Rsqr_sqrt by lra. unfold Rsqr. lra. }
  apply Rabs_le. lra.
Qed.

Lemma sqrt3f_R : (Rabs (FR sqrt3f - sqrt 3) <= / 16777216)%R.
Proof.
  assert (E: (FR sqrt3f = 14529495 * / 8388608)%R) by (vm_compute; reflexivity).
  rewrite E.
  assert (S: (14529495 * / 8388608 - / 16777216 <= sqrt 3 <= 14529495 * / 8388608 + / 16777216)%R).
  { split.
    - apply Rsqr_incr_0_var; [|apply sqrt_pos]. rewrite Rsqr_sqrt by lra. unfold Rsqr. lra.
    - apply Rsqr_incr_0_var; [|lra]. rewrite Rsqr_sqrt by lra. unfold Rsqr. lra. }
  apply Rabs_le. lra.
Qed.

Lemma f1_R : FR f1 = 1%R.
Proof. apply f32_of_Z_R. lia. Qed.

Lemma distances_euclid : forall i, (i < 26)%nat ->
  exists d f, nth_error kOffsets i = Some d /\ nth_error kDistances i = Some f /\
    (Rabs (FR f - sqrt (IZR (vx d * vx d + vy d * vy d + vz d * vz d))) <= / 16777216)%R.
Proof.
  intros i Hi. destruct (nth_offsets_sq i Hi) as (d & f & E1 & E2 & H).
  exists d, f. repeat split; auto. fold (sq_norm d).
  destruct H as [(E & ->)|[(E & ->)|(E & ->)]]; rewrite E.
  - rewrite f1_R, sqrt_1. rewrite Rminus_eq_0, Rabs_R0. lra.
  - apply sqrt2f_R.
  - apply sqrt3f_R.
Qed.

Lemma conn_neighbours : forall c b v vps i d, 0 < vps ->
  nth_error (firstn (conn_num c) kOffsets) i = Some d ->
  exists b' v', nth_error (getFromBlockAndVoxelIndex c b v vps) i = Some (Ok (Some (b', v'))) /\
    all3 (fun x => 0 <= x < vps) v' /\
    getGlobalVoxelIndexFromBlockAndVoxelIndex b' v' vps =
      idx_add (getGlobalVoxelIndexFromBlockAndVoxelIndex b v vps) d /\
    nth_error (getFromGlobalIndex c (getGlobalVoxelIndexFromBlockAndVoxelIndex b v vps)) i
      = Some (getGlobalVoxelIndexFromBlockAndVoxelIndex b' v' vps).
Proof.
  intros c b v vps i d Hv Hn. destruct (direction_spec b v d vps Hv) as (b' & v' & E & R & G).
  exists b', v'. unfold getFromBlockAndVoxelIndex, getFromGlobalIndex.
  rewrite (map_nth_error _ _ _ Hn), (map_nth_error _ _ _ Hn), E. rewrite <- G. auto.
Qed.
