(** Property C93: an ESDF server and the subscribers of its two maps. *)
From Coq Require Import String ZArith List Bool Lia.
From Verif Require Import F32 Types Index Voxel Serialize Layer Proto LayerIO Connect_proofs Esdf Planning RosMsg RosMsg_spec RosMsg_proofs P_RosMsg
  EsdfSync EsdfSync_spec EsdfSync_proofs.
Import ListNotations.
Open Scope Z_scope.

Lemma run_snoc c fuel e : forall es s s', esdf_run c fuel (es ++ [e]) s = Ok (Some s') ->
  exists s1, esdf_run c fuel es s = Ok (Some s1) /\ esdf_step c fuel s1 e = Ok (Some s').
Proof.
  induction es as [|x es IH]; intros s s' E; cbn [app esdf_run] in *.
  - exists s. split; [reflexivity|]. apply rbind_ok in E. destruct E as ([s1|] & E1 & E); [|discriminate E]. cbn in E. congruence.
  - apply rbind_ok in E. destruct E as ([s1|] & E1 & E); [|discriminate E]. destruct (IH _ _ E) as (s2 & E2 & E3). exists s2. rewrite E1. auto.
Qed.

(** C93, the ESDF topic. After a publication every subscriber has exactly the server's
    ESDF map, up to parent directions, in every history of integration, ESDF updates,
    loading, clearing, publishing and of subscribers joining and leaving. Missing: poses
    (blocks dropped or hallucinated), batch rebuilds and relayed maps; see the refutations. *)
Theorem C93_esdf_partial : forall c fuel size vps es s0 s, sane_map size vps -> ec_esdf_pub c = true ->
  existsb gets_esdf es = false -> existsb poses es = false -> existsb rebuilds es = false ->
  esdf_server_new c size vps = Ok s0 -> esdf_run c fuel (es ++ [EePublish]) s0 = Ok (Some s) ->
  Forall (same_esdf (es_map s)) (es_subs s).
Proof.
  intros c fuel size vps es s0 s SA PUB R P B N E. apply run_snoc in E. destruct E as (s1 & E1 & E).
  destruct (enew size vps SA c s0 N) as (I0 & X0 & _). destruct (erun size vps SA c fuel es s0 s1 I0 R ltac:(congruence) E1) as (I1 & X1).
  specialize (X1 PUB P B X0). cbn [esdf_step] in E. apply rbind_ok in E. destruct E as (s2 & E2 & E). injection E as <-.
  destruct (both_esdf size vps SA c _ _ _ I1 E2) as (_ & M & CV & X & _). specialize (CV PUB). specialize (X X1). unfold eextra_free in X. rewrite M in *.
  apply Forall_forall. intros b Hb. rewrite Forall_forall in CV, X. split; [apply covers_all, CV, Hb|].
  intros i Q. unfold voxels_at in *. rewrite (X b Hb i); [reflexivity|]. destruct (l_get (es_map s1) i); [discriminate Q|reflexivity].
Qed.
Print Assumptions C93_esdf_partial.
(** With batch rebuilds, and with poses when no sphere is cleared around the robot, the
    subscribers still have every block the server has. *)
Theorem C93_esdf_covers : forall c fuel size vps es s0 s, sane_map size vps -> ec_esdf_pub c = true ->
  existsb gets_esdf es = false -> (existsb poses es = true -> ec_sphere c = false) ->
  esdf_server_new c size vps = Ok s0 -> esdf_run c fuel (es ++ [EePublish]) s0 = Ok (Some s) ->
  Forall (has_all (es_map s)) (es_subs s).
Proof.
  intros c fuel size vps es s0 s SA PUB R P N E. apply run_snoc in E. destruct E as (s1 & E1 & E).
  destruct (enew size vps SA c s0 N) as (I0 & X0 & _). destruct (erun size vps SA c fuel es s0 s1 I0 R P E1) as (I1 & _).
  cbn [esdf_step] in E. apply rbind_ok in E. destruct E as (s2 & E2 & E). injection E as <-.
  destruct (both_esdf size vps SA c _ _ _ I1 E2) as (_ & M & CV & _). rewrite M in *. eapply Forall_impl; [|exact (CV PUB)]. intros b. apply covers_all.
Qed.
Print Assumptions C93_esdf_covers.
(** Clearing the server leaves it and every ESDF subscriber with an empty ESDF map,
    whatever happened before (poses included). *)
Theorem C93_clear_esdf : forall c fuel size vps es s0 s, sane_map size vps -> ec_esdf_pub c = true ->
  existsb gets_esdf es = false -> (existsb poses es = true -> ec_sphere c = false) ->
  esdf_server_new c size vps = Ok s0 -> esdf_run c fuel (es ++ [EeClear]) s0 = Ok (Some s) ->
  forall i, hasBlock (es_map s) i = false /\ Forall (fun b => hasBlock b i = false) (es_subs s).
Proof.
  intros c fuel size vps es s0 s SA PUB R P N E i. apply run_snoc in E. destruct E as (s1 & E1 & E).
  destruct (enew size vps SA c s0 N) as (I0 & X0 & _). destruct (erun size vps SA c fuel es s0 s1 I0 R P E1) as ((MI & SI) & _).
  cbn [esdf_step] in E. apply rbind_ok in E. destruct E as (s2 & E2 & E). injection E as <-. unfold clearBoth in E2. cbv zeta in E2.
  set (sc := with_base _ _) in E2.
  assert (IC : einv size vps sc). { split; [|exact SI]. apply esub_map; [exact MI|constructor|discriminate]. }
  apply rbind_ok in E2. destruct E2 as (sm & E0 & E2).
  assert (Im : einv size vps sm /\ es_map sm = es_map sc).
  { destruct (ec_tsdf_pub c); [|injection E0 as <-; auto]. destruct (both_esdf size vps SA c _ _ _ IC E0) as (A & B & _). auto. }
  destruct Im as (Im & Mm). destruct (both_esdf size vps SA c _ _ _ Im E2) as (_ & M2 & _ & _ & X). specialize (X PUB eq_refl).
  assert (Z0 : l_get (es_map s2) i = None) by (rewrite M2, Mm; reflexivity).
  split; [unfold hasBlock; rewrite Z0; reflexivity|]. eapply Forall_impl; [|exact X]. intros b Hb. unfold hasBlock. rewrite (Hb i Z0). reflexivity.
Qed.
Print Assumptions C93_clear_esdf.

(** C93, the TSDF topic of the same server. Missing: poses, relayed maps, and clearing. *)
Theorem C93_tsdf_partial : forall c fuel size vps es s0 s, sane_map size vps -> ec_esdf_pub c = true -> ec_tsdf_pub c = true ->
  Forall usual_e es -> existsb gets_tsdf es = false -> existsb poses es = false -> existsb clears es = false ->
  esdf_server_new c size vps = Ok s0 -> esdf_run c fuel (es ++ [EePublish]) s0 = Ok (Some s) ->
  Forall (same_map (sv_map (es_base s))) (sv_subs (es_base s)).
Proof.
  intros c fuel size vps es s0 s SA PUB PUB2 U R P B N E. apply run_snoc in E. destruct E as (s1 & E1 & E).
  destruct (enew size vps SA c s0 N) as (_ & _ & I0 & X0). destruct (brun size vps c fuel es s0 s1 I0 U R E1) as (I1 & X1).
  specialize (X1 P B X0). cbn [esdf_step] in E. apply rbind_ok in E. destruct E as (s2 & E2 & E). injection E as <-.
  destruct (both_tsdf size vps c _ _ _ I1 E2) as (_ & M & CV & X). specialize (CV PUB PUB2). specialize (X X1). unfold extra_free in X. rewrite M in *.
  apply Forall_forall. intros b Hb i. rewrite Forall_forall in CV, X. destruct (voxels_at (sv_map (es_base s1)) i) as [vs|] eqn:Q; [rewrite (CV b Hb i vs Q); reflexivity|].
  unfold voxels_at in *. rewrite (X b Hb i); [reflexivity|]. destruct (l_get (sv_map (es_base s1)) i); [discriminate Q|reflexivity].
Qed.
Print Assumptions C93_tsdf_partial.
Theorem C93_tsdf_covers : forall c fuel size vps es s0 s, sane_map size vps -> ec_esdf_pub c = true -> ec_tsdf_pub c = true ->
  Forall usual_e es -> existsb gets_tsdf es = false ->
  esdf_server_new c size vps = Ok s0 -> esdf_run c fuel (es ++ [EePublish]) s0 = Ok (Some s) ->
  Forall (has_all_tsdf (sv_map (es_base s))) (sv_subs (es_base s)).
Proof.
  intros c fuel size vps es s0 s SA PUB PUB2 U R N E. apply run_snoc in E. destruct E as (s1 & E1 & E).
  destruct (enew size vps SA c s0 N) as (_ & _ & I0 & X0). destruct (brun size vps c fuel es s0 s1 I0 U R E1) as (I1 & _).
  cbn [esdf_step] in E. apply rbind_ok in E. destruct E as (s2 & E2 & E). injection E as <-.
  destruct (both_tsdf size vps c _ _ _ I1 E2) as (_ & M & CV & _). rewrite M. exact (CV PUB PUB2).
Qed.
Print Assumptions C93_tsdf_covers.
(** Publishing never fails and loses no subscriber. *)
Theorem C93_publish_total : forall c fuel size vps es s0 s, sane_map size vps -> Forall usual_e es ->
  existsb gets_esdf es = false -> existsb gets_tsdf es = false -> (existsb poses es = true -> ec_sphere c = false) ->
  esdf_server_new c size vps = Ok s0 -> esdf_run c fuel es s0 = Ok (Some s) ->
  exists s', esdf_step c fuel s EePublish = Ok (Some s') /\ es_map s' = es_map s /\ sv_map (es_base s') = sv_map (es_base s) /\
    length (es_subs s') = length (es_subs s) /\ length (sv_subs (es_base s')) = length (sv_subs (es_base s)).
Proof.
  intros c fuel size vps es s0 s SA U R1 R2 P N E. destruct (enew size vps SA c s0 N) as (I0 & _ & B0 & _).
  destruct (erun size vps SA c fuel es s0 s I0 R1 P E) as (I1 & _). destruct (brun size vps c fuel es s0 s B0 U R2 E) as (B1 & _).
  destruct (both_ok size vps SA c false s I1 B1) as (s' & E' & L1 & L2). exists s'. cbn [esdf_step]. rewrite E'. cbn [rbind].
  split; [reflexivity|]. split; [apply (both_esdf size vps SA c _ _ _ I1 E')|]. split; [apply (both_tsdf size vps c _ _ _ B1 E')|]. auto.
Qed.
Print Assumptions C93_publish_total.

(** ** Cases and refutations *)
Definition conf (pt pe sphere : bool) : econf :=
  MkEConf pt pe sphere (dbits 0x4059000000000000)
    (MkEC false (f32_of_Z 2) f1 (f32_of_Z 2) (fbits 0x3a83126f) (fbits 0x358637bd) 20 false false f1 (f32_of_Z 2)).
Definition ran (c : econf) (es : list eevent) (test : esdf_server -> bool) : bool :=
  match esdf_server_new c f1 1 with
  | Ok s0 => match esdf_run c 100 es s0 with Ok (Some s) => test s | _ => false end
  | _ => false
  end.
Definition tale : list eevent :=
  [EeBase (EvIntegrate (V3 0 0 0) (paint 0)); EeUpdate; EeJoin; EeBase EvJoin; EePublish; EeBase (EvIntegrate (V3 1 0 0) (paint 1));
   EeUpdate; EeJoin; EePublish; EeLeave 0; EeBase (EvIntegrate (V3 2 0 0) (paint 2)); EeUpdate].
Lemma tale_usual : Forall usual_e tale.
Proof. unfold tale. repeat (apply Forall_cons; [try exact I; try apply paint_usual|]). apply Forall_nil. Qed.
(** one subscriber of each kind, three blocks each *)
Example C93_case : sane_map f1 1 /\ Forall usual_e tale /\ existsb gets_esdf tale = false /\ existsb gets_tsdf tale = false /\
  existsb poses tale = false /\ existsb rebuilds tale = false /\ existsb clears tale = false /\
  ran (conf true true false) (tale ++ [EePublish]) (fun s =>
    match es_subs s, sv_subs (es_base s) with
    | [b], [t] => forallb (fun i => hasBlock b i && hasBlock t i && hasBlock (es_map s) i) [V3 0 0 0; V3 1 0 0; V3 2 0 0]
    | _, _ => false
    end) = true.
Proof.
  split; [split; [reflexivity|lia]|]. split; [apply tale_usual|]. repeat (split; [reflexivity|]). vm_compute. reflexivity.
Qed.

(** Clearing an ESDF server does not reset the subscribers of its TSDF map: the base
    class is asked to publish without the reset, so they keep every block. *)
Theorem C93_clear_refuted : exists es, Forall usual_e es /\ existsb gets_tsdf es = false /\ existsb poses es = false /\
  ran (conf true true false) (es ++ [EeClear; EePublish]) (fun s =>
    match sv_subs (es_base s) with [t] => hasBlock t (V3 0 0 0) && negb (hasBlock (sv_map (es_base s)) (V3 0 0 0)) | _ => false end) = true.
Proof.
  exists [EeBase EvJoin; EeBase (EvIntegrate (V3 0 0 0) (paint 1)); EePublish]. split; [|repeat split; vm_compute; reflexivity].
  repeat (apply Forall_cons; [try exact I; try apply paint_usual|]). apply Forall_nil.
Qed.
Print Assumptions C93_clear_refuted.
(** With [publish_tsdf_map] but without [publish_esdf_map] an ESDF server never publishes
    its TSDF map. *)
Theorem C93_silent_refuted : forall sphere body ic fuel s s',
  esdf_step (MkEConf true false sphere body ic) fuel s EePublish = Ok (Some s') -> s' = s.
Proof. intros sphere body ic fuel s s' E. cbn in E. congruence. Qed.
Print Assumptions C93_silent_refuted.
(** Blocks made for the sphere around a robot where the TSDF has none are not sent to a
    subscriber that is up to date otherwise. *)
Theorem C93_sphere_refuted : exists es, existsb gets_esdf es = false /\ existsb rebuilds es = false /\
  ran (conf true true true) (es ++ [EePublish]) (fun s =>
    match es_subs s with [b] => hasBlock (es_map s) (V3 0 0 0) && negb (hasBlock b (V3 0 0 0)) | _ => false end) = true.
Proof.
  exists [EeJoin; EePublish; EePose (V3 f0 f0 f0); EeUpdate]. repeat split; vm_compute; reflexivity.
Qed.
Print Assumptions C93_sphere_refuted.
(** Blocks that a batch rebuild drops stay with the subscribers. *)
Theorem C93_rebuild_refuted : exists es, existsb gets_esdf es = false /\ existsb poses es = false /\
  ran (conf true true false) (es ++ [EePublish]) (fun s =>
    match es_subs s with [b] => negb (hasBlock (es_map s) (V3 3 0 0)) && hasBlock b (V3 3 0 0) | _ => false end) = true.
Proof.
  exists [EeLoad (MkBP 1 (f64_of_f32 f1) (f64_of_f32 (f32_of_Z 3)) d0 d0 true [0; 0]); EeJoin; EePublish; EeBatch]. repeat split; vm_compute; reflexivity.
Qed.
Print Assumptions C93_rebuild_refuted.
(** So do blocks dropped because the robot is far away. *)
Theorem C93_distant_refuted : exists es, existsb gets_esdf es = false /\ existsb rebuilds es = false /\
  ran (conf true true false) (es ++ [EePublish]) (fun s =>
    match es_subs s with [b] => negb (hasBlock (es_map s) (V3 0 0 0)) && hasBlock b (V3 0 0 0) | _ => false end) = true.
Proof.
  exists [EeBase (EvIntegrate (V3 0 0 0) (paint 1)); EeUpdate; EeJoin; EePublish; EePose (V3 (f32_of_Z 1000) f0 f0)]. repeat split; vm_compute; reflexivity.
Qed.
Print Assumptions C93_distant_refuted.
(** Relayed blocks are not sent on. *)
Theorem C93_relay_refuted : exists es, existsb poses es = false /\ existsb rebuilds es = false /\
  ran (conf true true false) (es ++ [EePublish]) (fun s =>
    match es_subs s with [b] => hasBlock (es_map s) (V3 7 0 0) && negb (hasBlock b (V3 7 0 0)) | _ => false end) = true.
Proof.
  exists [EeJoin; EePublish; EeReceive (MkLM (f64_of_f32 f1) 1 "esdf" aUpdate [MkBM (V3 7 0 0) [0; 0]])]. repeat split; vm_compute; reflexivity.
Qed.
Print Assumptions C93_relay_refuted.
