(** Voxel updates: /repo/voxblox/src/integrator/tsdf_integrator.cc and
    /repo/voxblox/include/voxblox/integrator/occupancy_integrator.h, and the
    locking of TSDF voxels by several threads. Definitions only. *)
From Coq Require Import ZArith List Bool.
From Verif Require Import F32 Types Index Voxel Layer Threads Queue.
Import ListNotations.
Open Scope Z_scope.

(** ** TSDF *)
(** tsdf_integrator.h:56-69, the members read when a voxel is updated *)
Record TsdfConfig : Type := MkTC {
  c_trunc : f32;            (* default_truncation_distance *)
  c_max_weight : f32;
  c_const_weight : bool;    (* use_const_weight *)
  c_dropoff : bool;         (* use_weight_dropoff *)
  c_sparsity : bool;        (* use_sparsity_compensation_factor *)
  c_factor : f32 }.         (* sparsity_compensation_factor *)

(** Eigen [dot] of two float 3-vectors: x*x' + (y*y' + z*z') *)
Definition dot3 (a b : pt3) : f32 :=
  fadd (fmul (vx a) (vx b)) (fadd (fmul (vy a) (vy b)) (fmul (vz a) (vz b))).
(** Eigen [norm] *)
Definition norm3 (a : pt3) : f32 := fsqrt (sqnorm a).

(** tsdf_integrator.cc:216-229 [computeDistance] *)
Definition computeDistance (origin point voxel_center : pt3) : f32 :=
  let v_voxel_origin := pt_sub voxel_center origin in
  let v_point_origin := pt_sub point origin in
  let dist_G := norm3 v_point_origin in
  let dist_G_V := fdiv (dot3 v_voxel_origin v_point_origin) dist_G in
  fsub dist_G dist_G_V.

(** tsdf_integrator.cc:232-241 [getVoxelWeight] *)
Definition getVoxelWeight (cfg : TsdfConfig) (point_C : pt3) : f32 :=
  if c_const_weight cfg then f1 else
  let dist_z := fabs (vz point_C) in
  if fgt dist_z kEpsilon then fdiv f1 (fmul dist_z dist_z) else f0.

(** the arguments of one call of [updateTsdfVoxel], tsdf_integrator.cc:149-153 *)
Record request : Type := MkReq {
  q_origin : pt3; q_point : pt3; q_idx : idx3; q_color : Color; q_weight : f32 }.

(** tsdf_integrator.cc:156-159 *)
Definition req_sdf (voxel_size : f32) (q : request) : f32 :=
  computeDistance (q_origin q) (q_point q) (getCenterPointFromGridIndex (q_idx q) voxel_size).
(** tsdf_integrator.cc:161-182 [updated_weight] *)
Definition req_weight (cfg : TsdfConfig) (voxel_size : f32) (q : request) : f32 :=
  let sdf := req_sdf voxel_size q in
  let w :=
    if c_dropoff cfg && flt sdf (fneg voxel_size) then
      fmax (fdiv (fmul (q_weight q) (fadd (c_trunc cfg) sdf))
                 (fsub (c_trunc cfg) voxel_size)) f0
    else q_weight q in
  if c_sparsity cfg && flt (fabs sdf) (c_trunc cfg) then fmul w (c_factor cfg) else w.

(** 193-195 [new_sdf] *)
Definition new_sdf (sdf uw : f32) (d w nw : f32) : f32 :=
  fdiv (fadd (fmul sdf uw) (fmul d w)) nw.
(** 202-204 *)
Definition clip_sdf (trunc s : f32) : f32 :=
  if fgt s f0 then fmin trunc s else fmax (fneg trunc) s.

(** tsdf_integrator.cc:149-206 [updateTsdfVoxel] by one thread; undefined when
    the blended colour cannot be cast to uint8. *)
Definition updateTsdfVoxel (cfg : TsdfConfig) (voxel_size : f32) (q : request)
  (v : TsdfVoxel) : res TsdfVoxel :=
  let sdf := req_sdf voxel_size q in
  let uw := req_weight cfg voxel_size q in
  let nw := fadd (t_weight v) uw in
  if flt nw kEpsilon then Ok v else
  let ns := new_sdf sdf uw (t_distance v) (t_weight v) nw in
  rbind (if flt (fabs sdf) (c_trunc cfg)
         then of_opt (blendTwoColors (t_color v) (t_weight v) (q_color q) uw)
         else Ok (t_color v))
        (fun c => Ok (MkTsdf (clip_sdf (c_trunc cfg) ns) (fmin (c_max_weight cfg) nw) c)).

(** a sequence of updates of one voxel *)
Fixpoint updates (cfg : TsdfConfig) (voxel_size : f32) (qs : list request)
  (v : TsdfVoxel) : res TsdfVoxel :=
  match qs with
  | [] => Ok v
  | q :: qs' => rbind (updateTsdfVoxel cfg voxel_size q v) (updates cfg voxel_size qs')
  end.

(** ** several threads *)
(** tsdf_integrator.h:171-174 [mutexes_]: [ApproxHashArray<12, std::mutex>];
    approx_hash_array.h:36-51 [get]: hash & bit_mask_ *)
Definition mutex_of (i : idx3) : Z := Z.land (index_hash i) (2 ^ 12 - 1).

(** Where a thread is inside [updateTsdfVoxel]; every constructor is a point
    between two accesses to shared memory. *)
Inductive upc : Type :=
| UIdle                    (* before line 185: does not hold the mutex *)
| ULocked                  (* mutex held, nothing read *)
| UWeight (nw : f32)       (* new_weight computed, not below kFloatEpsilon *)
| USdf (nw ns : f32)       (* new_sdf computed *)
| UColor (nw ns : f32)     (* colour written, if it is to be *)
| UDist (nw : f32)         (* distance written *)
| UDone                    (* returning: lock_guard not yet destroyed *)
| UUndef.                  (* undefined cast in the colour blending *)
Record uthread : Type := MkUT { ut_pc : upc; ut_todo : list request }.
Record ustate : Type := MkUS {
  us_mem : idx3 -> TsdfVoxel;       (* the voxels, by global index *)
  us_lock : Z -> option nat;        (* owner of each mutex *)
  us_threads : list uthread }.

Definition set_mem (m : idx3 -> TsdfVoxel) (i : idx3) (v : TsdfVoxel) : idx3 -> TsdfVoxel :=
  fun j => if idx_eqb j i then v else m j.
Definition set_lock (l : Z -> option nat) (m : Z) (o : option nat) : Z -> option nat :=
  fun n => if n =? m then o else l n.

(** one step of thread [t] *)
Definition ustep (cfg : TsdfConfig) (vs : f32) (s : ustate) (t : nat) : ustate :=
  match nth_error (us_threads s) t with
  | Some (MkUT pc (q :: rest)) =>
      let i := q_idx q in
      let v := us_mem s i in
      let sdf := req_sdf vs q in
      let uw := req_weight cfg vs q in
      let goto m pc' := MkUS m (us_lock s) (set_th t (MkUT pc' (q :: rest)) (us_threads s)) in
      match pc with
      | UIdle => (* 185 lock_guard: blocks while another thread owns the mutex *)
          match us_lock s (mutex_of i) with
          | None => MkUS (us_mem s) (set_lock (us_lock s) (mutex_of i) (Some t))
                      (set_th t (MkUT ULocked (q :: rest)) (us_threads s))
          | Some _ => s
          end
      | ULocked => (* 187-191 *)
          let nw := fadd (t_weight v) uw in
          goto (us_mem s) (if flt nw kEpsilon then UDone else UWeight nw)
      | UWeight nw => (* 193-195 *)
          goto (us_mem s) (USdf nw (new_sdf sdf uw (t_distance v) (t_weight v) nw))
      | USdf nw ns => (* 198-201 *)
          if flt (fabs sdf) (c_trunc cfg) then
            match blendTwoColors (t_color v) (t_weight v) (q_color q) uw with
            | Some c => goto (set_mem (us_mem s) i (MkTsdf (t_distance v) (t_weight v) c)) (UColor nw ns)
            | None => goto (us_mem s) UUndef
            end
          else goto (us_mem s) (UColor nw ns)
      | UColor nw ns => (* 202-204 *)
          goto (set_mem (us_mem s) i (MkTsdf (clip_sdf (c_trunc cfg) ns) (t_weight v) (t_color v))) (UDist nw)
      | UDist nw => (* 205 *)
          goto (set_mem (us_mem s) i (MkTsdf (t_distance v) (fmin (c_max_weight cfg) nw) (t_color v))) UDone
      | UDone => (* the destructor of lock_guard *)
          MkUS (us_mem s) (set_lock (us_lock s) (mutex_of i) None)
            (set_th t (MkUT UIdle rest) (us_threads s))
      | UUndef => s
      end
  | _ => s
  end.
Fixpoint urun (cfg : TsdfConfig) (vs : f32) (s : ustate) (sched : list nat) : ustate :=
  match sched with [] => s | t :: sched' => urun cfg vs (ustep cfg vs s t) sched' end.
Definition uinit (mem : idx3 -> TsdfVoxel) (progs : list (list request)) : ustate :=
  MkUS mem (fun _ => None) (map (MkUT UIdle) progs).
(** all threads have returned from their last call *)
Definition ufinished (s : ustate) : Prop :=
  forall t, In t (us_threads s) -> ut_pc t = UIdle /\ ut_todo t = [].

(** ** occupancy *)
(** occupancy_integrator.h:55-58 cached log odds *)
Record OccConfig : Type := MkOC {
  oc_hit : f32; oc_miss : f32; oc_min : f32; oc_max : f32 }.
(** occupancy_integrator.h:60-76 [updateOccupancyVoxel] *)
Definition updateOccupancyVoxel (cfg : OccConfig) (occupied : bool) (v : OccupancyVoxel) : OccupancyVoxel :=
  let u := if occupied then oc_hit cfg else oc_miss cfg in
  if (fge u f0 && fge (o_log v) (oc_max cfg)) || (fle u f0 && fle (o_log v) (oc_min cfg))
  then MkOcc (o_log v) true
  else MkOcc (fmin (fmax (fadd (o_log v) u) (oc_min cfg)) (oc_max cfg)) true.
Definition occ_updates (cfg : OccConfig) (os : list bool) (v : OccupancyVoxel) : OccupancyVoxel :=
  fold_left (fun v o => updateOccupancyVoxel cfg o v) os v.
