(** Vocabulary for C71: the weight of an observation, over the reals. *)
From Coq Require Import ZArith Bool Reals.
From Verif Require Import F32 F32_lemmas Types Update.
Open Scope R_scope.

(** What a voxel at the signed distance [sdf] (negative behind the surface) gets of an observation
    of weight [w]: with drop-off everything up to one voxel of size [vs] behind the surface, then
    linearly less until nothing is left at the truncation distance; with sparsity compensation
    the factor within the truncation distance. *)
Definition weightR (cfg : TsdfConfig) (vs sdf w : R) : R :=
  let T := FR (c_trunc cfg) in
  let w1 := if c_dropoff cfg then
              if Rlt_dec sdf (- vs) then Rmax 0 (w * ((T + sdf) / (T - vs))) else w
            else w in
  if c_sparsity cfg then if Rlt_dec (Rabs sdf) T then w1 * FR (c_factor cfg) else w1 else w1.
