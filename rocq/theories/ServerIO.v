(** Saving and loading the maps of a server.
    Models voxblox_ros/src/tsdf_server.cc:561-580 and voxblox_ros/src/esdf_server.cc:172-190. *)
From Coq Require Import ZArith List Bool.
From Verif Require Import F32 Types Index Voxel Layer Proto LayerIO.
Import ListNotations.
Open Scope Z_scope.

(** tsdf_server.h:261 [tsdf_map_], esdf_server.h:96 [esdf_map_]: the layers of the two maps *)
Record EsdfServer : Type := MkServer { s_tsdf : Layer KTsdf; s_esdf : Layer KEsdf }.

(** tsdf_server.cc:561-564 [TsdfServer::saveMap]: the contents of the file afterwards.
    [SaveLayer] clears the file by default (layer_io.h:64). *)
Definition TsdfServer_saveMap (tsdf : Layer KTsdf) (old : bytes) : res bytes := saveToFile tsdf old true.
(** tsdf_server.cc:566-580 [TsdfServer::loadMap]: the answer and the layer afterwards *)
Definition TsdfServer_loadMap (file : bytes) (tsdf : Layer KTsdf) : option (res (bool * Layer KTsdf)) :=
  LoadBlocksFromFile file kReplace true tsdf.

(** esdf_server.cc:172-179 [EsdfServer::saveMap] *)
Definition EsdfServer_saveMap (s : EsdfServer) (old : bytes) : res bytes :=
  rbind (TsdfServer_saveMap (s_tsdf s) old) (fun f => saveToFile (s_esdf s) f false).
(** esdf_server.cc:181-190 [EsdfServer::loadMap]; the ESDF is only looked for when the
    TSDF was loaded. [None] is fuel exhaustion, which C11 excludes. *)
Definition EsdfServer_loadMap (file : bytes) (s : EsdfServer) : option (res (bool * EsdfServer)) :=
  match TsdfServer_loadMap file (s_tsdf s) with
  | None => None
  | Some Abort => Some Abort
  | Some UB => Some UB
  | Some (Ok (false, t)) => Some (Ok (false, MkServer t (s_esdf s)))
  | Some (Ok (true, t)) =>
      match LoadBlocksFromFile file kReplace true (s_esdf s) with
      | None => None
      | Some Abort => Some Abort
      | Some UB => Some UB
      | Some (Ok (ok, e)) => Some (Ok (ok, MkServer t e))
      end
  end.
