(** Map messages: /repo/voxblox_ros/include/voxblox_ros/conversions_inl.h and the
    publishing side of /repo/voxblox_ros/src/tsdf_server.cc. Definitions only. *)
From Coq Require Import String ZArith List Bool.
From Verif Require Import F32 Types Index Voxel Serialize Assoc Layer Proto LayerIO Threads Marching MeshInt Planning Flags.
Import ListNotations.
Open Scope Z_scope.

(** voxblox_msgs/msg/Block.msg *)
Record block_msg : Type := MkBM { bm_index : idx3; bm_data : list Z }.
(** voxblox_msgs/msg/Layer.msg; [voxel_size] is a float64, [action] a uint8 *)
Record layer_msg : Type := MkLM {
  lm_size : f64; lm_vps : Z; lm_type : string; lm_action : Z; lm_blocks : list block_msg }.
(** conversions.h:20-24 [MapDerializationAction] *)
Definition aUpdate : Z := 0.
Definition aMerge : Z := 1.
Definition aReset : Z := 2.
(** the double 1e-5, conversions_inl.h:61 *)
Definition d1em5 : f64 := dbits 0x3ee4f8b588e368f1.

(** [serializeLayerAsMsg], conversions_inl.h:9-40; the size narrows to uint32 *)
Definition serializeLayerAsMsg {k} (l : Layer k) (only_updated : bool) (action : Z) : res layer_msg :=
  let is := if only_updated then getAllUpdatedBlocks l kMap else getAllAllocatedBlocks l in
  rbind (rfold (fun acc i => match l_get l i with
                             | Some b => Ok (acc ++ [MkBM i (serializeToIntegers k (b_voxels b))])
                             | None => Abort end) is []) (fun bs =>
  Ok (MkLM (f64_of_f32 (l_size l)) (u32 (l_vps l)) (voxel_type k) action bs)).

(** one block of a message, conversions_inl.h:76-103 *)
Definition apply_block {k} (action : Z) (l : Layer k) (m : block_msg) : res (Layer k) :=
  let i := bm_index m in
  if (action =? aUpdate) || negb (hasBlock l i) then
    let l1 := allocateBlockPtrByIndex l i in
    match l_get l1 i with
    | None => Abort
    | Some b => rbind (deserializeFromIntegers k (num_voxels (b_vps b)) (bm_data m)) (fun vs =>
                Ok (set_block l1 i (set_voxels vs)))
    end
  else if action =? aMerge then
    match l_get l i with
    | None => Abort
    | Some old =>
        let nb := new_block (k := k) (b_vps old) (b_size old) (b_origin old) in
        rbind (deserializeFromIntegers k (num_voxels (b_vps nb)) (bm_data m)) (fun vs =>
        rbind (mergeBlock old (set_voxels vs nb)) (fun b' =>
        Ok (set_block l i (fun _ => b'))))
    end
  else Ok l.
(** conversions_inl.h:63-68: the sizes match *)
Definition same_geometry {k} (l : Layer k) (m : layer_msg) : bool :=
  negb (negb (lm_vps m =? l_vps l) || dgt (dabs (dsub (lm_size m) (f64_of_f32 (l_size l)))) d1em5).
(** [deserializeMsgToLayer], conversions_inl.h:51-115 *)
Definition deserializeMsgToLayer {k} (m : layer_msg) (action : Z) (l : Layer k) : res (bool * Layer k) :=
  if negb (String.eqb (voxel_type k) (lm_type m)) then Ok (false, l)
  else if negb (same_geometry l m) then Ok (false, l)
  else
    let l0 := if action =? aReset then removeAllBlocks l else l in
    rbind (rfold (apply_block action) (lm_blocks m) l0) (fun l' =>
    let n := getNumberOfAllocatedBlocks l' in
    let ok := if action =? aReset then Nat.eqb n (length (lm_blocks m))
              else if (action =? aUpdate) || (action =? aMerge) then Nat.leb (length (lm_blocks m)) n
              else true in
    if ok then Ok (true, l') else Abort).
(** conversions_inl.h:42-49: the action of the message *)
Definition applyMsg {k} (m : layer_msg) (l : Layer k) : res (bool * Layer k) := deserializeMsgToLayer m (lm_action m) l.

(** ** A server and its subscribers *)
(** [tsdf_map_], [num_subscribers_tsdf_map_], and the maps of the processes
    subscribed to the topic now (not members: what the topic is connected to) *)
Record server : Type := MkServer { sv_map : Layer KTsdf; sv_known : Z; sv_subs : list (Layer KTsdf) }.
(** [publishMap], tsdf_server.cc:456-480, with [publish_tsdf_map_] set. The message
    reaches every subscriber at once and in order, and runs [tsdfMapCallback]
    (639-653) there. *)
Definition deliver (m : layer_msg) (subs : list (Layer KTsdf)) : res (list (Layer KTsdf)) :=
  rfold (fun acc s => rbind (applyMsg m s) (fun r => Ok (acc ++ [snd r]))) subs [].
Definition publishMap (reset : bool) (s : server) : res server :=
  let n := Z.of_nat (length (sv_subs s)) in
  if 0 <? n then
    let reset := reset || (sv_known s <? n) in
    rbind (serializeLayerAsMsg (sv_map s) (negb reset) aUpdate) (fun m =>
    let m' := if reset then MkLM (lm_size m) (lm_vps m) (lm_type m) aReset (lm_blocks m) else m in
    rbind (deliver m' (sv_subs s)) (fun subs => Ok (MkServer (sv_map s) n subs)))
  else Ok (MkServer (sv_map s) n (sv_subs s)).
(** what can happen to a server: a voxel update while integrating a cloud, a block
    loaded by [loadMap] (566-578, strategy kReplace), a mesher or ESDF integrator
    clearing its own flag of a block, [removeDistantBlocks] (315-317), [clear]
    (628-637), [publishMap], a map message received (639-653), and a subscriber
    coming (with an empty map of the same geometry) or going *)
Inductive event : Type :=
| EvIntegrate (g : idx3) (f : TsdfVoxel -> TsdfVoxel)
| EvLoad (p : BlockProto)
| EvConsume (bit : ubit) (i : idx3)
| EvRemoveDistant (c : pt3) (d : f64)
| EvClear
| EvPublish
| EvReceive (m : layer_msg)
| EvJoin
| EvLeave (j : nat).
Definition on_map (s : server) (l : Layer KTsdf) : server := MkServer l (sv_known s) (sv_subs s).
Definition server_step (s : server) (e : event) : res server :=
  match e with
  | EvIntegrate g f => rbind (integrate_voxel (sv_map s) g f) (fun l => Ok (on_map s l))
  | EvLoad p => rbind (addBlockFromProto (sv_map s) p kReplace) (fun r => Ok (on_map s (snd r)))
  | EvConsume bit i => Ok (on_map s (clear_flag bit i (sv_map s)))
  | EvRemoveDistant c d => Ok (on_map s (removeDistantBlocks (sv_map s) c d))
  | EvClear => publishMap true (on_map s (removeAllBlocks (sv_map s)))
  | EvPublish => publishMap false s
  | EvReceive m => rbind (applyMsg m (sv_map s)) (fun r => Ok (on_map s (snd r)))
  | EvJoin => Ok (MkServer (sv_map s) (sv_known s) (sv_subs s ++ [removeAllBlocks (sv_map s)]))
  | EvLeave j => Ok (MkServer (sv_map s) (sv_known s) (firstn j (sv_subs s) ++ skipn (S j) (sv_subs s)))
  end.
Definition server_run (s : server) (es : list event) : res server := rfold server_step es s.
Definition server_new (size : f32) (vps : Z) : server := MkServer (MkLayer size vps []) 0 [].
