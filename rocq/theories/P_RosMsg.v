(** Map messages (C49) and the maps of subscribers (C50). *)
From Coq Require Import String ZArith List Bool Reals Lra Lia.
From Flocq Require Import Core.
From Verif Require Import F32 F32_lemmas F32_err Types Index Voxel Serialize Serialize_proofs Assoc Assoc_lemmas Layer Connect_proofs Planning RosMsg RosMsg_spec RosMsg_proofs P_Sphere.
Import ListNotations.
Open Scope Z_scope.

(** ** C49 *)
(** kUpdate: the listed blocks hold the voxels of the message (a new block is made
    where there was none, an existing block keeps its flags), the others are as
    they were. *)
Theorem C49_update : forall k (l : Layer k) m, fits l -> for_layer m l -> well_formed k m ->
  exists l', deserializeMsgToLayer m aUpdate l = Ok (true, l') /\ fits l' /\ l_vps l' = l_vps l /\ l_size l' = l_size l /\
    (forall i, ~ In i (indices m) -> l_get l' i = l_get l i) /\
    (forall b, In b (lm_blocks m) -> exists vs, content k (l_vps l) (bm_data b) vs /\
       l_get l' (bm_index b) = Some (set_voxels vs (match l_get l (bm_index b) with Some o => o | None => fresh l (bm_index b) end))).
Proof.
  intros k l m F G W. destruct (deserialize_ok k aUpdate l m F G W) as (l' & E & F' & V & S & U & R). exists l'.
  split; [exact E|]. split; [exact F'|]. split; [exact V|]. split; [exact S|]. split; [exact U|].
  intros b I. destruct (R b I) as (vs & C & Q). exists vs. split; [exact C|]. rewrite Q. unfold received. change (aUpdate =? aReset) with false. change (aUpdate =? aUpdate) with true. cbv iota.
  destruct (l_get l (bm_index b)); reflexivity.
Qed.
Print Assumptions C49_update.
(** kReset: the layer holds exactly the blocks of the message, as new blocks. *)
Theorem C49_reset : forall k (l : Layer k) m, fits l -> for_layer m l -> well_formed k m ->
  exists l', deserializeMsgToLayer m aReset l = Ok (true, l') /\ fits l' /\ l_vps l' = l_vps l /\ l_size l' = l_size l /\
    (forall i, ~ In i (indices m) -> l_get l' i = None) /\
    (forall b, In b (lm_blocks m) -> exists vs, content k (l_vps l) (bm_data b) vs /\
       l_get l' (bm_index b) = Some (set_voxels vs (fresh l (bm_index b)))).
Proof.
  intros k l m F G W. destruct (deserialize_ok k aReset l m F G W) as (l' & E & F' & V & S & U & R). exists l'.
  split; [exact E|]. split; [exact F'|]. split; [exact V|]. split; [exact S|]. split; [exact U|].
  intros b I. destruct (R b I) as (vs & C & Q). exists vs. split; [exact C|]. rewrite Q. reflexivity.
Qed.
Print Assumptions C49_reset.
(** kMerge, what holds: blocks not listed are untouched and listed blocks the layer
    lacks are added. Missing: listed blocks the layer has should be merged, but
    they stay as they are. *)
Theorem C49_merge_partial : forall k (l : Layer k) m, fits l -> for_layer m l -> well_formed k m ->
  exists l', deserializeMsgToLayer m aMerge l = Ok (true, l') /\ fits l' /\ l_vps l' = l_vps l /\ l_size l' = l_size l /\
    (forall i, ~ In i (indices m) \/ l_get l i <> None -> l_get l' i = l_get l i) /\
    (forall b, In b (lm_blocks m) -> l_get l (bm_index b) = None -> exists vs, content k (l_vps l) (bm_data b) vs /\
       l_get l' (bm_index b) = Some (set_voxels vs (fresh l (bm_index b)))).
Proof.
  intros k l m F G W. destruct (deserialize_ok k aMerge l m F G W) as (l' & E & F' & V & S & U & R). exists l'.
  split; [exact E|]. split; [exact F'|]. split; [exact V|]. split; [exact S|]. change (aMerge =? aReset) with false in *. cbv iota in *. split.
  - intros i H. destruct (in_dec idx_eq_dec i (indices m)) as [D|D]; [|apply U, D]. destruct H as [H|H]; [contradiction|].
    unfold indices in D. apply in_map_iff in D. destruct D as (b & <- & I). destruct (R b I) as (vs & _ & Q). rewrite Q. unfold received.
    destruct (l_get l (bm_index b)); [reflexivity|contradiction].
  - intros b I N. destruct (R b I) as (vs & C & Q). exists vs. split; [exact C|]. rewrite Q. unfold received. rewrite N. reflexivity.
Qed.
Print Assumptions C49_merge_partial.
(** Another kind of layer, other voxels per side or another voxel size: refused, and
    nothing changes, whatever the action. *)
Theorem C49_mismatch : forall k (l : Layer k) m action,
  lm_type m <> voxel_type k \/ lm_vps m <> l_vps l \/
  (dfin (lm_size m) = true /\ ffin (l_size l) = true /\ (Rabs (DR (lm_size m)) <= bpow radix2 1000)%R /\
   (/ 50000 < Rabs (DR (lm_size m) - FR (l_size l)))%R) ->
  deserializeMsgToLayer m action l = Ok (false, l).
Proof.
  intros k l m action [H | [H | (F1 & F2 & B & D)]].
  - apply mismatch_type, H.
  - apply mismatch_geometry. unfold same_geometry. apply Z.eqb_neq in H. rewrite H. reflexivity.
  - apply mismatch_geometry, geometry_no; assumption.
Qed.
Print Assumptions C49_mismatch.
(** A message with a block of the wrong length ends the receiving process. *)
Theorem C49_bad_length : forall k (l : Layer k) m action, fits l -> for_layer m l -> (action = aUpdate \/ action = aMerge) ->
  Exists (fun b => length (bm_data b) <> (num_voxels (l_vps l) * wpv k)%nat) (lm_blocks m) ->
  deserializeMsgToLayer m action l = Abort.
Proof.
  intros k l m action F G HA H. unfold deserializeMsgToLayer. rewrite (geometry_yes _ _ _ G). destruct G as (T & _). rewrite T, String.eqb_refl. cbn [negb].
  assert (Z1 : (action =? aReset) = false) by (destruct HA as [-> | ->]; reflexivity). rewrite Z1, (apply_bad k action _ l F HA H). reflexivity.
Qed.
Print Assumptions C49_bad_length.
(** Sending a whole layer makes the receiver's layer hold the same blocks with the
    same voxels (for ESDF layers, see C08: parent directions do not survive). *)
Theorem C49_transfer : forall k (a b : Layer k), k <> KEsdf -> complete a -> fits b -> l_size b = l_size a -> l_vps b = l_vps a ->
  exists m b', serializeLayerAsMsg a false aReset = Ok m /\ applyMsg m b = Ok (true, b') /\ same_map a b'.
Proof.
  intros k a b K C F S V. assert (FO : false = true -> forall i x, l_get a i = Some x -> upd_get (b_updated x) kMap = true) by discriminate.
  rewrite (serialize_msg k a false aReset (proj1 C) FO).
  destruct (transfer k a b aReset _ K C F S V eq_refl (or_intror eq_refl)) as (b' & E & _ & _ & _ & P & N).
  eexists. exists b'. split; [reflexivity|]. split; [exact E|]. intros i. destruct (voxels_at a i) as [vs|] eqn:Q; [rewrite (P i vs Q); reflexivity|rewrite (N i Q); reflexivity].
Qed.
Print Assumptions C49_transfer.

Definition vx1 (d : Z) : TsdfVoxel := MkTsdf (f32_of_Z d) f1 color0.
Definition blk1 (d : Z) : Block KTsdf := MkBlock (k := KTsdf) 1 f1 (V3 f0 f0 f0) false upd_all [vx1 d].
Definition lay1 (d : Z) : Layer KTsdf := MkLayer (k := KTsdf) f1 1 [(V3 0 0 0, blk1 d)].
Definition msg1 (is : list idx3) (d : Z) : layer_msg :=
  MkLM (f64_of_f32 f1) 1 "tsdf" aMerge (map (fun i => MkBM i (serializeToIntegers KTsdf [vx1 d])) is).
Lemma lay1_fits : forall d, fits (lay1 d).
Proof.
  intros d. split; [constructor; [intros []|constructor]|]. split; [reflexivity|]. intros i b H. apply alookup_In in H. destruct H as [H|[]]. injection H as _ <-. split; reflexivity.
Qed.
Lemma f1_val : FR f1 = 1%R.
Proof. replace f1 with (f32_of_Z 1) by (apply fword_inj; vm_compute; reflexivity). apply (f32_of_Z_R 1). lia. Qed.
Lemma msg1_for : forall is d e, for_layer (msg1 is d) (lay1 e).
Proof.
  intros is d e. split; [reflexivity|]. split; [reflexivity|]. destruct (f64_of_f32_R f1 eq_refl) as (E & F). split; [exact F|]. split; [reflexivity|].
  cbn [msg1 lm_size lay1 l_size]. rewrite E, Rminus_diag_eq by reflexivity. rewrite Rabs_R0. lra.
Qed.
Lemma msg1_wf : forall is d, NoDup is -> well_formed KTsdf (msg1 is d).
Proof.
  intros is d N. split.
  - unfold indices, msg1. cbn [lm_blocks]. rewrite map_map. cbn [bm_index]. rewrite map_id. exact N.
  - apply Forall_forall. intros b I. unfold msg1 in I. cbn [lm_blocks] in I. apply in_map_iff in I. destruct I as (i & <- & _). cbn [bm_data]. rewrite serialize_length. reflexivity.
Qed.
Example C49_example : fits (lay1 4) /\ for_layer (msg1 [V3 0 0 0; V3 1 0 0] 2) (lay1 4) /\ well_formed KTsdf (msg1 [V3 0 0 0; V3 1 0 0] 2) /\
  match deserializeMsgToLayer (msg1 [V3 0 0 0; V3 1 0 0] 2) aUpdate (lay1 4) with
  | Ok (true, l) => match voxels_at l (V3 0 0 0), voxels_at l (V3 1 0 0) with
     | Some [a], Some [b] => (fword (t_distance a) =? fword (f32_of_Z 2)) && (fword (t_distance b) =? fword (f32_of_Z 2))
     | _, _ => false end
  | _ => false end = true.
Proof.
  split; [apply lay1_fits|]. split; [apply msg1_for|]. split; [|vm_compute; reflexivity]. apply msg1_wf.
  constructor; [intros [H|[]]; discriminate|constructor; [intros []|constructor]].
Qed.
(** Merging does not happen: a voxel at 4 merged with one at 2, of equal weight,
    should end at 3, and stays at 4. *)
Theorem C49_merge_refuted : exists (l : Layer KTsdf) m v w, fits l /\ for_layer m l /\ well_formed KTsdf m /\
  voxels_at l (V3 0 0 0) = Some [v] /\ (exists d, In (MkBM (V3 0 0 0) d) (lm_blocks m) /\ content KTsdf 1 d [w]) /\
  match merge_vox KTsdf w v with Some u => fword (t_distance u) =? fword (f32_of_Z 3) | None => false end = true /\
  fword (t_distance v) = fword (f32_of_Z 4) /\
  exists l', deserializeMsgToLayer m aMerge l = Ok (true, l') /\ voxels_at l' (V3 0 0 0) = Some [v].
Proof.
  exists (lay1 4), (msg1 [V3 0 0 0] 2), (vx1 4), (vx1 2).
  assert (W : well_formed KTsdf (msg1 [V3 0 0 0] 2)) by (apply msg1_wf; constructor; [intros []|constructor]).
  split; [apply lay1_fits|]. split; [apply msg1_for|]. split; [exact W|]. split; [reflexivity|]. split.
  { exists (serializeToIntegers KTsdf [vx1 2]). split; [left; reflexivity|]. apply (roundtrip_lossless KTsdf [vx1 2]); [discriminate|]. constructor; [|constructor]. repeat split; discriminate. }
  split; [vm_compute; reflexivity|]. split; [reflexivity|].
  destruct (C49_merge_partial KTsdf (lay1 4) _ (lay1_fits 4) (msg1_for [V3 0 0 0] 2 4) W) as (l' & E & _ & _ & _ & K & _). exists l'. split; [exact E|].
  unfold voxels_at. rewrite K; [reflexivity|]. right. discriminate.
Qed.
Print Assumptions C49_merge_refuted.
(** A message that lists a block twice is applied for kUpdate if the layer has other
    blocks, and ends the receiving process for kReset. *)
Theorem C49_duplicate_aborts : deserializeMsgToLayer (msg1 [V3 0 0 0; V3 0 0 0] 2) aReset (lay1 4) = Abort /\
  deserializeMsgToLayer (msg1 [V3 0 0 0; V3 0 0 0] 2) aUpdate (lay1 4) = Abort.
Proof. split; vm_compute; reflexivity. Qed.
Print Assumptions C49_duplicate_aborts.

(** ** C50 *)
(** After a publication every subscriber holds the same map as the publisher, in
    every history of integration, loading, meshing and ESDF updates, clearing,
    publishing, and of subscribers joining and leaving. Missing: removing distant
    blocks, and maps received by the publisher. *)
Theorem C50_follow_partial : forall size vps es s, sane_map size vps -> Forall usual es ->
  existsb receives es = false -> existsb removes es = false ->
  server_run (server_new size vps) (es ++ [EvPublish]) = Ok s -> Forall (same_map (sv_map s)) (sv_subs s).
Proof.
  intros size vps es s SA U R RM E.
  assert (E' : exists s1, server_run (server_new size vps) es = Ok s1 /\ publishMap false s1 = Ok s).
  { clear - E. unfold server_run in *. revert E. generalize (server_new size vps). induction es as [|e es IH]; intros s0 E; cbn [app rfold] in *.
    - exists s0. split; [reflexivity|]. cbn [server_step] in E. destruct (publishMap false s0); [exact E|discriminate|discriminate].
    - destruct (server_step s0 e) as [s1| |]; try discriminate. cbn [rbind] in *. apply IH, E. }
  destruct E' as (s1 & E1 & E2). destruct (run_inv size vps es _ s1 (new_inv size vps SA) U R E1) as (I1 & X1). specialize (X1 RM (Forall_nil _)).
  destruct (publish_ok size vps false s1 I1) as (s2 & Q & _ & M & C & X). rewrite E2 in Q. injection Q as <-. specialize (X (or_intror X1)). rewrite M.
  rewrite Forall_forall in *. intros b I i. destruct (voxels_at (sv_map s1) i) as [vs|] eqn:V; [rewrite (C b I i vs V); reflexivity|].
  unfold voxels_at in *. destruct (l_get (sv_map s1) i) eqn:G; [discriminate|]. rewrite (X b I i G). reflexivity.
Qed.
Print Assumptions C50_follow_partial.
(** With distant blocks removed too, every subscriber still holds every block of the
    publisher with the same voxels. *)
Theorem C50_covers : forall size vps es s, sane_map size vps -> Forall usual es -> existsb receives es = false ->
  server_run (server_new size vps) es = Ok s -> exists s', publishMap false s = Ok s' /\ sv_map s' = sv_map s /\
    length (sv_subs s') = length (sv_subs s) /\
    Forall (fun b => forall i vs, voxels_at (sv_map s') i = Some vs -> voxels_at b i = Some vs) (sv_subs s').
Proof.
  intros size vps es s SA U R E. destruct (run_inv size vps es _ s (new_inv size vps SA) U R E) as (I1 & _).
  destruct (publish_ok size vps false s I1) as (s2 & Q & _ & M & C & _). exists s2. split; [exact Q|]. split; [exact M|]. split; [|rewrite M; exact C].
  clear - Q. unfold publishMap in Q. destruct (0 <? Z.of_nat (length (sv_subs s))); [|injection Q as <-; reflexivity]. apply rbind_ok in Q. destruct Q as (m & _ & Q). apply rbind_ok in Q. destruct Q as (subs & D & Q).
  injection Q as <-. cbn [sv_subs]. unfold deliver in D.
  assert (G : forall mm xs acc out, rfold (fun (acc0 : list (Layer KTsdf)) (s0 : Layer KTsdf) => rbind (applyMsg mm s0) (fun r => Ok (acc0 ++ [snd r]))) xs acc = Ok out -> length out = (length acc + length xs)%nat).
  { intros mm. induction xs as [|x xs IH]; intros acc out H; cbn [rfold] in H; [injection H as <-; cbn; lia|].
    apply rbind_ok in H. destruct H as (a1 & H1 & H). apply rbind_ok in H1. destruct H1 as (r & _ & H1). injection H1 as <-. rewrite (IH _ _ H), app_length. cbn [length]. lia. }
  apply G in D. exact D.
Qed.
Print Assumptions C50_covers.

Definition paint (d : Z) : TsdfVoxel -> TsdfVoxel := fun _ => vx1 d.
Lemma paint_usual : forall g d, usual (EvIntegrate g (paint d)).
Proof. intros g d v _. repeat split; discriminate. Qed.
Definition story : list event :=
  [EvIntegrate (V3 0 0 0) (paint 3); EvJoin; EvPublish; EvIntegrate (V3 5 0 0) (paint 4); EvConsume kMesh (V3 5 0 0); EvJoin; EvLeave 0; EvPublish; EvClear; EvIntegrate (V3 1 0 0) (paint 1)].
Example C50_example : sane_map f1 1 /\ Forall usual story /\ existsb receives story = false /\ existsb removes story = false /\
  match server_run (server_new f1 1) (story ++ [EvPublish]) with
  | Ok s => match sv_subs s with [b] => hasBlock b (V3 1 0 0) && negb (hasBlock b (V3 0 0 0)) && hasBlock (sv_map s) (V3 1 0 0) | _ => false end
  | _ => false end = true.
Proof.
  split; [split; [reflexivity|lia]|]. split; [|split; [reflexivity|split; [reflexivity|vm_compute; reflexivity]]].
  repeat (constructor; [try exact I; try apply paint_usual; try discriminate|]). constructor.
Qed.
(** Removed blocks stay with the subscriber. *)
Theorem C50_removal_refuted : exists es, Forall usual es /\ existsb receives es = false /\
  match server_run (server_new f1 1) (es ++ [EvPublish]) with
  | Ok s => match sv_subs s with [b] => hasBlock b (V3 0 0 0) && negb (hasBlock (sv_map s) (V3 0 0 0)) | _ => false end
  | _ => false end = true.
Proof.
  exists [EvJoin; EvIntegrate (V3 0 0 0) (paint 3); EvPublish; EvRemoveDistant (V3 (f32_of_Z 100) f0 f0) d1]. split; [|split; [reflexivity|vm_compute; reflexivity]].
  repeat (constructor; [try exact I; try apply paint_usual|]). constructor.
Qed.
Print Assumptions C50_removal_refuted.
(** A server that itself receives a map does not pass it on: received blocks do not
    carry the flag that publishing goes by. *)
Theorem C50_relay_refuted : exists es, Forall usual es /\ existsb removes es = false /\
  match server_run (server_new f1 1) (es ++ [EvPublish]) with
  | Ok s => match sv_subs s with [b] => negb (hasBlock b (V3 7 0 0)) && hasBlock (sv_map s) (V3 7 0 0) | _ => false end
  | _ => false end = true.
Proof.
  exists [EvJoin; EvPublish; EvReceive (MkLM (f64_of_f32 f1) 1 "tsdf" aUpdate [MkBM (V3 7 0 0) (serializeToIntegers KTsdf [vx1 2])])]. split; [|split; [reflexivity|vm_compute; reflexivity]].
  repeat (constructor; [exact I|]). constructor.
Qed.
Print Assumptions C50_relay_refuted.
