(** Properties C07, C08, C09: serialization of block voxels. *)
From Coq Require Import ZArith List Bool Lia.
From Verif Require Import F32 F32_lemmas Types Voxel Serialize Serialize_proofs.
Import ListNotations.
Open Scope Z_scope.

(** C07. [vox_ok] only says that colour channels are bytes. Equality is
    equality of floats including sign of zero and NaN payload. *)
Theorem C07_tsdf_lossless : forall vs : list TsdfVoxel,
  Forall (fun v => color_ok (t_color v)) vs ->
  deserializeFromIntegers KTsdf (length vs) (serializeToIntegers KTsdf vs) = Ok vs.
Proof. intros vs H. apply (roundtrip_lossless KTsdf); [discriminate|exact H]. Qed.
Print Assumptions C07_tsdf_lossless.

Theorem C07_occupancy_lossless : forall vs : list OccupancyVoxel,
  deserializeFromIntegers KOcc (length vs) (serializeToIntegers KOcc vs) = Ok vs.
Proof.
  intros vs. apply (roundtrip_lossless KOcc); [discriminate|]. apply Forall_forall; intros; exact I.
Qed.
Print Assumptions C07_occupancy_lossless.

Theorem C07_intensity_lossless : forall vs : list IntensityVoxel,
  deserializeFromIntegers KInt (length vs) (serializeToIntegers KInt vs) = Ok vs.
Proof.
  intros vs. apply (roundtrip_lossless KInt); [discriminate|]. apply Forall_forall; intros; exact I.
Qed.
Print Assumptions C07_intensity_lossless.

Example C07_example :
  let vs := [MkTsdf (fbits 0x7fc00123) (fbits 0x80000000) (MkColor 255 128 1 0);
             MkTsdf finf (fbits 0x3dcccccd) (MkColor 0 17 254 255)] in
  Forall (fun v => color_ok (t_color v)) vs /\
  serializeToIntegers KTsdf vs = [0x7fc00123; 0x80000000; 0xff800100; 0x7f800000; 0x3dcccccd; 0x0011feff].
Proof.
  split; [|vm_compute; reflexivity].
  repeat constructor; unfold is_byte; simpl; lia.
Qed.

(** C08. Everything but the parent direction is restored; the parent direction
    is restored exactly when its components fit int8 and no negative component
    comes after one different from -1. *)
Theorem C08_esdf_lossless_partial : forall vs : list EsdfVoxel,
  exists ws, deserializeFromIntegers KEsdf (length vs) (serializeToIntegers KEsdf vs) = Ok ws /\
    Forall2 (fun v w : EsdfVoxel =>
      e_distance w = e_distance v /\ e_observed w = e_observed v /\
      e_hallucinated w = e_hallucinated v /\ e_in_queue w = e_in_queue v /\ e_fixed w = e_fixed v /\
      let p := e_parent v in
      (e_parent w = p <->
       -128 <= vx p <= 127 /\ -128 <= vy p <= 127 /\ -128 <= vz p <= 127 /\
       (vy p < 0 -> vx p = -1) /\ (vz p < 0 -> vx p = -1 /\ vy p = -1))) vs ws.
Proof.
  intros vs. exists (map esdf_after vs). split; [apply roundtrip_esdf|].
  induction vs as [|v vs IH]; simpl; constructor; auto.
  repeat (split; [reflexivity|]).
  cbv zeta. rewrite <- (dir_survives (vx (e_parent v)) (vy (e_parent v)) (vz (e_parent v))).
  destruct v as [d o h q f [x y z]]. reflexivity.
Qed.
Print Assumptions C08_esdf_lossless_partial.

(** Full C08 is false: a parent direction of (1,-1,0), written by every ESDF
    update with a diagonal neighbour, comes back as (-1,-1,0). *)
Theorem C08_refuted : exists v : EsdfVoxel,
  all3 (fun c => Z.abs c <= 1) (e_parent v) /\
  exists w, deserializeFromIntegers KEsdf 1 (serializeToIntegers KEsdf [v]) = Ok [w] /\
    e_parent w <> e_parent v.
Proof.
  exists (MkEsdf f0 true false false false (V3 1 (-1) 0)). split.
  { repeat split; simpl; lia. }
  exists (MkEsdf f0 true false false false (V3 (-1) (-1) 0)). split; [vm_compute; reflexivity|discriminate].
Qed.
Print Assumptions C08_refuted.

(** a parent far away is clamped *)
Theorem C08_refuted_far : exists v w : EsdfVoxel,
  deserializeFromIntegers KEsdf 1 (serializeToIntegers KEsdf [v]) = Ok [w] /\
  vx (e_parent v) = 200 /\ vx (e_parent w) = 127.
Proof.
  exists (MkEsdf f0 true false false false (V3 200 0 0)), (MkEsdf f0 true false false false (V3 127 0 0)).
  split; [vm_compute; reflexivity|auto].
Qed.
Print Assumptions C08_refuted_far.

(** C09: the wrong number of words aborts, the right number always succeeds. *)
Theorem C09_length_checked : forall k n data,
  (length data <> n * wpv k)%nat <-> deserializeFromIntegers k n data = Abort.
Proof.
  intros. unfold deserializeFromIntegers. destruct (Nat.eqb_spec (n * wpv k) (length data)); split; intro H; try lia; try discriminate; auto.
Qed.
Print Assumptions C09_length_checked.

Theorem C09_right_length_loads : forall k n data, length data = (n * wpv k)%nat ->
  exists vs, deserializeFromIntegers k n data = Ok vs /\ length vs = n /\ Forall (vox_ok k) vs.
Proof.
  intros k n data H. assert (E : deserializeFromIntegers k n data = Ok (deser_loop k n data)).
  { unfold deserializeFromIntegers. rewrite H, Nat.eqb_refl. reflexivity. }
  exists (deser_loop k n data). split; [exact E|]. split.
  - apply (deserialize_length _ _ _ _ E).
  - apply (deserialize_ok _ _ _ _ E).
Qed.
Print Assumptions C09_right_length_loads.

Theorem C09_same_words : forall k n data vs, k = KTsdf \/ k = KInt ->
  Forall (fun w => 0 <= w < 2 ^ 32) data ->
  deserializeFromIntegers k n data = Ok vs -> serializeToIntegers k vs = data.
Proof. exact reserialize. Qed.
Print Assumptions C09_same_words.

Example C09_example :
  deserializeFromIntegers KTsdf 2 [1; 2; 3; 4; 5] = Abort /\
  exists vs, deserializeFromIntegers KTsdf 1 [0x7f800001; 2; 0xffffffff] = Ok vs /\
    serializeToIntegers KTsdf vs = [0x7f800001; 2; 0xffffffff].
Proof. split; [reflexivity|]. eexists; split; [reflexivity|vm_compute; reflexivity]. Qed.
