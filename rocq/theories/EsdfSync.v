(** The ESDF server's maps and their subscribers: /repo/voxblox_ros/src/esdf_server.cc with
    the base class /repo/voxblox_ros/src/tsdf_server.cc. Definitions only; line numbers are
    those of esdf_server.cc unless tsdf_server.cc is named. *)
From Coq Require Import String ZArith List Bool.
From Verif Require Import F32 Types Index Voxel Serialize Assoc Layer Proto LayerIO Queue Planning Flags MeshInt RosMsg Esdf.
Import ListNotations.
Open Scope Z_scope.

(** the parameters of the node: [publish_tsdf_map], [publish_esdf_map],
    [clear_sphere_for_planning] and [max_block_distance_from_body] (58-61, tsdf_server.cc:70) *)
Record econf : Type := MkEConf { ec_tsdf_pub : bool; ec_esdf_pub : bool; ec_sphere : bool; ec_body : f64; ec_int : econfig }.
(** the base class with its subscribers, the ESDF integrator with [esdf_map_], the count
    [num_subscribers_esdf_map_] and the maps of the processes now subscribed to the ESDF topic *)
Record esdf_server : Type := MkESrv { es_base : server; es_st : estate; es_known : Z; es_subs : list (Layer KEsdf) }.
Definition es_map (s : esdf_server) : Layer KEsdf := es_layer (es_st s).
Definition with_base (s : esdf_server) (b : server) : esdf_server := MkESrv b (es_st s) (es_known s) (es_subs s).
Definition with_st (s : esdf_server) (st : estate) : esdf_server := MkESrv (es_base s) st (es_known s) (es_subs s).
Definition with_map (s : esdf_server) (l : Layer KEsdf) : esdf_server := with_st s (with_layer (es_st s) l).

(** [TsdfServer::publishMap], tsdf_server.cc:456-480, with its early return *)
Definition publishTsdf (c : econf) (reset : bool) (b : server) : res server :=
  if ec_tsdf_pub c then publishMap reset b else Ok b.
(** 233-247 at every subscriber *)
Definition deliver_esdf (m : layer_msg) (subs : list (Layer KEsdf)) : res (list (Layer KEsdf)) :=
  rfold (fun acc s => rbind (applyMsg m s) (fun r => Ok (acc ++ [snd r]))) subs [].
(** 149-168: the ESDF part of [publishMap] *)
Definition publishEsdf (reset : bool) (s : esdf_server) : res esdf_server :=
  let n := Z.of_nat (length (es_subs s)) in
  if 0 <? n then
    let reset := reset || (es_known s <? n) in
    rbind (serializeLayerAsMsg (es_map s) (negb reset) aUpdate) (fun m =>
    let m' := if reset then MkLM (lm_size m) (lm_vps m) (lm_type m) aReset (lm_blocks m) else m in
    rbind (deliver_esdf m' (es_subs s)) (fun subs => Ok (MkESrv (es_base s) (es_st s) n subs)))
  else Ok (MkESrv (es_base s) (es_st s) n (es_subs s)).
(** 144-170 [EsdfServer::publishMap]; the base class is called without an argument, so
    with [reset_remote_map = false] (tsdf_server.h:78) *)
Definition publishBoth (c : econf) (reset : bool) (s : esdf_server) : res esdf_server :=
  if negb (ec_esdf_pub c) then Ok s
  else rbind (publishEsdf reset s) (fun s =>
       rbind (publishTsdf c false (es_base s)) (fun b => Ok (with_base s b))).
(** 249-259 [EsdfServer::clear]; [TsdfServer::clear] (tsdf_server.cc:628-637) calls
    [publishMap], which is virtual *)
Definition clearBoth (c : econf) (s : esdf_server) : res esdf_server :=
  let s := with_st s (esdf_clear (with_layer (es_st s) (removeAllBlocks (es_map s)))) in
  let s := with_base s (on_map (es_base s) (removeAllBlocks (sv_map (es_base s)))) in
  rbind (if ec_tsdf_pub c then publishBoth c true s else Ok s) (publishBoth c true).

(** What can happen: events of the base class without those that publish; [updateEsdf]
    (192-197); [updateEsdfBatch] and the service (104-117, 199-204); the poses of a cloud
    (tsdf_server.cc:315-322 and 222-231); an ESDF block loaded by [loadMap] (181-190);
    [clear]; the timer's [publishMap]; an ESDF map message received (233-247); ESDF
    subscribers coming, with an empty map of the same geometry, or going. *)
Inductive eevent : Type :=
| EeBase (e : event)
| EeUpdate
| EeBatch
| EePose (p : pt3)
| EeLoad (p : BlockProto)
| EeClear
| EePublish
| EeReceive (m : layer_msg)
| EeJoin
| EeLeave (j : nat).
Definition base_only (e : event) : bool := match e with EvClear | EvPublish | EvRemoveDistant _ _ => false | _ => true end.
(** one event; [Ok None]: the integrator did not finish within [fuel] *)
Definition esdf_step (c : econf) (fuel : nat) (s : esdf_server) (e : eevent) : res (option esdf_server) :=
  let done {A} (f : A -> esdf_server) (r : res A) : res (option esdf_server) := rbind r (fun x => Ok (Some (f x))) in
  match e with
  | EeBase e => done (with_base s) (if base_only e then server_step (es_base s) e else Ok (es_base s))
  | EeUpdate =>
      if (0 <? Z.of_nat (getNumberOfAllocatedBlocks (sv_map (es_base s)))) then
        rbind (updateFromTsdfLayer (ec_int c) fuel true (sv_map (es_base s)) (es_st s)) (fun o =>
          Ok (match o with None => None | Some (t, st) => Some (with_st (with_base s (on_map (es_base s) t)) st) end))
      else Ok (Some s)
  | EeBatch =>
      rbind (updateFromTsdfLayerBatch (ec_int c) fuel (sv_map (es_base s)) (es_st s)) (fun o =>
        Ok (match o with None => None | Some st => Some (with_st s st) end))
  | EePose p =>
      let s := with_base s (on_map (es_base s) (removeDistantBlocks (sv_map (es_base s)) p (ec_body c))) in
      rbind (if ec_sphere c then addNewRobotPosition (ec_int c) fuel p (es_st s) else Ok (Some (es_st s))) (fun o =>
        Ok (match o with None => None | Some st => Some (with_st s (with_layer st (removeDistantBlocks (es_layer st) p (ec_body c)))) end))
  | EeLoad p => done (fun r => with_map s (snd r)) (addBlockFromProto (es_map s) p kReplace)
  | EeClear => done (fun s => s) (clearBoth c s)
  | EePublish => done (fun s => s) (publishBoth c false s)
  | EeReceive m => done (fun r => with_map s (snd r)) (applyMsg m (es_map s))
  | EeJoin => Ok (Some (MkESrv (es_base s) (es_st s) (es_known s) (es_subs s ++ [removeAllBlocks (es_map s)])))
  | EeLeave j => Ok (Some (MkESrv (es_base s) (es_st s) (es_known s) (firstn j (es_subs s) ++ skipn (S j) (es_subs s))))
  end.
Fixpoint esdf_run (c : econf) (fuel : nat) (es : list eevent) (s : esdf_server) : res (option esdf_server) :=
  match es with
  | [] => Ok (Some s)
  | e :: es => rbind (esdf_step c fuel s e) (fun o => match o with None => Ok None | Some s => esdf_run c fuel es s end)
  end.
(** 16-38 the constructor: empty maps of the same geometry *)
Definition esdf_server_new (c : econf) (size : f32) (vps : Z) : res esdf_server :=
  let b := server_new size vps in
  rbind (esdf_new (ec_int c) (sv_map b) (MkLayer size vps [])) (fun st => Ok (MkESrv b st 0 [])).
