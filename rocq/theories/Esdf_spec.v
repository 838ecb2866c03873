(** Specification vocabulary for the ESDF properties (C29 to C32, C43, C63 to C66). *)
From Coq Require Import ZArith List Bool Reals.
From Flocq Require Import Core.
From Verif Require Import F32 F32_lemmas Types Index Neighbor Voxel Assoc Layer Queue Planning Esdf.
Import ListNotations.
Open Scope Z_scope.

(** the voxel a layer returns for a global voxel index *)
Definition at_index {k} (l : Layer k) (g : idx3) : option (vox k) :=
  match getVoxelByGlobalIndex l g with Ok (Some v) => Some v | _ => None end.
(** indices that floats represent exactly *)
Definition exact_index (g : idx3) : Prop := all3 (fun c => Z.abs c <= 2 ^ 24) g.
(** layers whose indices are all exact: voxels per side a power of two, full
    blocks, every voxel and its neighbours within 2^24 of the origin *)
Record regular {k} (l : Layer k) : Prop := MkRegular {
  reg_vps : exists e, 0 <= e <= 10 /\ l_vps l = 2 ^ e;
  reg_block : forall i b, l_get l i = Some b ->
    b_vps b = l_vps l /\ length (b_voxels b) = num_voxels (l_vps l) /\
    all3 (fun c => (Z.abs c + 1) * l_vps l < 2 ^ 24) i }.

(** any number of iterations of the propagation loop *)
Inductive open_steps (c : econfig) : estate -> estate -> Prop :=
| OS_done : forall st, open_steps c st st
| OS_pop : forall st st1 st2, bq_empty (es_open st) = false -> open_pop c st = Ok st1 ->
    open_steps c st1 st2 -> open_steps c st st2.
Inductive raise_steps (c : econfig) : estate -> estate -> Prop :=
| RS_done : forall st, raise_steps c st st
| RS_pop : forall st st1 st2 g r, es_raise st = g :: r -> raise_visit c (with_raise st r) g = Ok st1 ->
    raise_steps c st1 st2 -> raise_steps c st st2.

(** the two sides of the surface, as the propagation tells them apart *)
Definition outside (d : f32) : Prop := flt f0 d = true.
Definition inside (d : f32) : Prop := fle d f0 = true.
Definition closer (d' d : f32) : Prop := flt (fabs d') (fabs d) = true.
(** the length of a step to a neighbour in quasi-Euclidean mode *)
Definition is_step (vs : f32) (off : idx3) (step : f32) : Prop :=
  exists kd, In (off, kd) neighbors26 /\ step = fmul kd vs.
(** elements waiting in the open queue *)
Definition waiting (st : estate) : list idx3 := concat (bq_buckets (es_open st)).

(** settings for which the float computations stay in range; [vs] is the voxel size *)
Record valid_config (c : econfig) (vs : f32) : Prop := MkValid {
  vc_min_diff : ffin (ec_min_diff c) = true /\ (0 <= FR (ec_min_diff c))%R;
  vc_default : ffin (ec_default c) = true /\ (0 < FR (ec_default c))%R;
  vc_max : ffin (ec_max c) = true /\ (0 < FR (ec_max c) < bpow radix2 126)%R;
  vc_min : ffin (ec_min c) = true /\ (0 < FR (ec_min c) <= FR (ec_max c))%R;
  vc_buckets : 1 <= ec_buckets c <= 2 ^ 30;
  vc_size : ffin vs = true /\ (0 < FR vs /\ 2 * FR vs <= FR (ec_max c))%R }.
(** the number of voxels a layer stores *)
Definition voxel_count {k} (l : Layer k) : Z :=
  fold_right (fun kb n => Z.of_nat (length (b_voxels (snd kb))) + n) 0 (l_blocks l).
(** nothing is waiting in the integrator *)
Record idle (c : econfig) (st : estate) : Prop := MkIdle {
  id_num : bq_num (es_open st) = ec_buckets c;
  id_max : bq_max (es_open st) = f64_of_f32 (ec_max c);
  id_buckets : bq_buckets (es_open st) = repeat [] (Z.to_nat (ec_buckets c));
  id_last : 0 <= bq_last (es_open st);
  id_count : bq_count (es_open st) = 0;
  id_raise : es_raise st = [] }.
(** a TSDF voxel the ESDF update takes into account *)
Definition seen (c : econfig) (tv : TsdfVoxel) : Prop := flt (t_weight tv) (ec_min_weight c) = false.
(** every seen voxel outside the fixed band has seen neighbours on its side only *)
Definition sides_apart (c : econfig) (t : Layer KTsdf) : Prop := forall g off step (u w : TsdfVoxel),
  is_step (l_size t) off step -> exact_index g ->
  at_index t g = Some u -> at_index t (idx_add g off) = Some w -> seen c u -> seen c w ->
  isFixed c (t_distance w) = false ->
  (outside (t_distance u) /\ outside (t_distance w)) \/ (inside (t_distance u) /\ inside (t_distance w)).

(** distance and parent of a voxel are left alone *)
Definition untouched (w w' : EsdfVoxel) : Prop := e_distance w' = e_distance w /\ e_parent w' = e_parent w.
(** the voxel [w] gets its distance from its neighbour [v], [off] away from it *)
Definition relaxed (step : f32) (off : idx3) (v w w' : EsdfVoxel) : Prop :=
  e_observed v = true /\ e_observed w = true /\ e_fixed w = false /\ e_parent w' = idx_opp off /\
  ((outside (e_distance v) /\ outside (e_distance w) /\ e_distance w' = fadd (e_distance v) step /\
      flt (e_distance w') (e_distance w) = true /\ outside (e_distance w')) \/
   (inside (e_distance v) /\ inside (e_distance w) /\ e_distance w' = fsub (e_distance v) step /\
      flt (e_distance w) (e_distance w') = true /\ inside (e_distance w')) \/
   (outside (e_distance v) /\ inside (e_distance w) /\ inside (e_distance w')) \/
   (inside (e_distance v) /\ outside (e_distance w) /\ outside (e_distance w'))).

(** [w] is one step further from the surface than [v], up to the update threshold *)
Definition follows (c : econfig) (step : f32) (v w : EsdfVoxel) : Prop :=
  (outside (e_distance v) /\ outside (e_distance w) /\ fle (fadd (e_distance v) step) (e_distance w) = true /\
     fle (e_distance w) (fadd (fadd (e_distance v) step) (ec_min_diff c)) = true) \/
  (inside (e_distance v) /\ inside (e_distance w) /\ fle (e_distance w) (fsub (e_distance v) step) = true /\
     fle (fsub (fsub (e_distance v) step) (ec_min_diff c)) (e_distance w) = true).
(** the distance at an index is the length of a path of observed voxels from a fixed
    voxel, each step along the parent of the next voxel *)
Inductive traced (c : econfig) (l : Layer KEsdf) : idx3 -> Prop :=
| TR_fixed : forall g (v : EsdfVoxel), at_index l g = Some v -> e_observed v = true -> e_fixed v = true -> traced c l g
| TR_step : forall g off step (v w : EsdfVoxel), is_step (l_size l) off step -> traced c l g ->
    at_index l g = Some v -> at_index l (idx_add g off) = Some w -> e_observed w = true -> e_fixed w = false ->
    e_parent w = idx_opp off -> follows c step v w -> traced c l (idx_add g off).
(** the distance given to a voxel the TSDF places outside the fixed band *)
Definition far_from (c : econfig) (td : f32) (d : f32) : Prop :=
  (outside td /\ d = ec_default c) \/ (inside td /\ d = fneg (ec_default c)).
(** a batch update of an idle integrator in the default mode, over a TSDF whose two
    sides are apart *)
Record batch_input (c : econfig) (t : Layer KTsdf) (st : estate) : Prop := MkBatchInput {
  bi_config : valid_config c (l_size (es_layer st));
  bi_quasi : ec_full c = false;
  bi_multi : ec_multi c = false;
  bi_crust : ec_crust c = false;
  bi_tsdf : regular t;
  bi_vps : l_vps (es_layer st) = l_vps t;
  bi_count : voxel_count t <= 2 ^ 63;
  bi_idle : idle c st;
  bi_apart : sides_apart c t }.
