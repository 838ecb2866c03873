(** C31. The ESDF computed from an occupancy layer. *)
From Coq Require Import ZArith List Bool Lia Reals Lra.
From Flocq Require Import Core Binary.
From Verif Require Import F32 F32_lemmas Types Index Neighbor Voxel Assoc Assoc_lemmas Layer Queue Planning Esdf Esdf_spec Esdf_term
  EsdfOcc EsdfOcc_spec EsdfOcc_view EsdfOcc_proofs EsdfOcc_batch.
Import ListNotations.
Open Scope Z_scope.

Definition cleared (st : ostate) : ostate := MkOS (removeAllBlocks (os_layer st)) (os_open st).
(** what an update from an empty ESDF layer needs *)
Record occ_update (c : ocfg) (occ : Layer KOcc) (st : ostate) : Prop := MkOU {
  ou_settings : occ_settings c (l_size (os_layer st));
  ou_tidy : tidy occ;
  ou_vps : l_vps (os_layer st) = l_vps occ;
  ou_idle : occ_idle c st;
  ou_room : voxel_count occ <= 2 ^ 63 }.

(** a batch update never aborts or does anything undefined, for any number of iterations *)
Theorem C31_safe : forall c occ st fuel, occ_update c occ st -> exists r, updateFromOccLayerBatch c fuel occ st = Ok r.
Proof.
  intros c occ st fuel [A B C D E]. unfold updateFromOccLayerBatch.
  destruct (update_run c (l_size (os_layer st)) occ A B E (cleared st) (getAllAllocatedBlocks occ) D C eq_refl eq_refl (td_keys _ B)) as (_ & K).
  - intros i. unfold getAllAllocatedBlocks, l_get. rewrite akeys_In. destruct (alookup i (l_blocks occ)); split; try congruence; [eauto|]. intros (b & X). discriminate.
  - destruct (K fuel) as (r & X & _). eauto.
Qed.
Print Assumptions C31_safe.
(** it ends *)
Theorem C31_ends : forall c occ st, occ_update c occ st ->
  exists n0, forall fuel, (n0 <= fuel)%nat -> exists st', updateFromOccLayerBatch c fuel occ st = Ok (Some st').
Proof.
  intros c occ st [A B C D E]. unfold updateFromOccLayerBatch.
  destruct (update_run c (l_size (os_layer st)) occ A B E (cleared st) (getAllAllocatedBlocks occ) D C eq_refl eq_refl (td_keys _ B)) as (K & _); [|exact K].
  intros i. unfold getAllAllocatedBlocks, l_get. rewrite akeys_In. destruct (alookup i (l_blocks occ)); split; try congruence; [eauto|]. intros (b & X). discriminate.
Qed.
Print Assumptions C31_ends.
(** and leaves the shortest distances, ready for the next update *)
Theorem C31_distances : forall c occ st fuel st', occ_update c occ st -> updateFromOccLayerBatch c fuel occ st = Ok (Some st') ->
  distances_ok c occ (os_layer st') /\ l_size (os_layer st') = l_size (os_layer st) /\ occ_update c occ st'.
Proof.
  intros c occ st fuel st' [A B C D E] H. unfold updateFromOccLayerBatch in H.
  destruct (update_run c (l_size (os_layer st)) occ A B E (cleared st) (getAllAllocatedBlocks occ) D C eq_refl eq_refl (td_keys _ B)) as (_ & K).
  - intros i. unfold getAllAllocatedBlocks, l_get. rewrite akeys_In. destruct (alookup i (l_blocks occ)); split; try congruence; [eauto|]. intros (b & X). discriminate.
  - destruct (K fuel) as (r & X & Y). unfold cleared in X. rewrite H in X. injection X as <-. destruct (Y st' eq_refl) as (Y1 & Y2 & Y3 & Y4).
    split; [exact Y1|]. split; [exact Y3|]. constructor; auto. rewrite Y3. exact A.
Qed.
Print Assumptions C31_distances.
(** the same for the blocks in any order *)
Theorem C31_any_order : forall c occ st blocks fuel st', occ_update c occ st -> l_blocks (os_layer st) = [] ->
  NoDup blocks -> (forall i, In i blocks <-> l_get occ i <> None) ->
  updateFromOccBlocks c fuel occ blocks st = Ok (Some st') -> distances_ok c occ (os_layer st') /\ l_size (os_layer st') = l_size (os_layer st).
Proof.
  intros c occ st blocks fuel st' [A B C D E] HB ND Hb H.
  destruct (update_run c (l_size (os_layer st)) occ A B E st blocks D C eq_refl HB ND Hb) as (_ & K).
  destruct (K fuel) as (r & X & Y). rewrite H in X. injection X as <-. destruct (Y st' eq_refl) as (Y1 & _ & Y3 & _). auto.
Qed.
Print Assumptions C31_any_order.
(** and those distances are determined by the occupancy layer and the settings: the order of the
    blocks in the hash map does not matter *)
Theorem C31_unique : forall c occ (l1 l2 : Layer KEsdf) g v1 v2, occ_settings c (l_size l1) -> l_size l2 = l_size l1 ->
  distances_ok c occ l1 -> distances_ok c occ l2 -> cell l1 g = Some v1 -> cell l2 g = Some v2 -> e_observed v1 = true ->
  e_observed v2 = true /\ e_distance v1 = e_distance v2.
Proof.
  intros c occ l1 l2 g v1 v2 HS Hz D1 D2 E1 E2 O1. specialize (D1 g). specialize (D2 g). destruct (cell occ g) as [o|] eqn:Ec; [|congruence].
  destruct D1 as (w1 & X1 & A1 & B1 & C1). destruct D2 as (w2 & X2 & A2 & B2 & C2). rewrite E1 in X1. rewrite E2 in X2. injection X1 as <-. injection X2 as <-.
  assert (Oo : o_observed o = true) by congruence. split; [congruence|]. destruct (fgt (o_log o) f0) eqn:Lo.
  - destruct (B1 (conj Oo Lo)) as (-> & _), (B2 (conj Oo Lo)) as (-> & _). reflexivity.
  - destruct (C1 (conj Oo Lo)) as (_ & P1 & M1 & N1), (C2 (conj Oo Lo)) as (_ & P2 & M2 & N2). rewrite Hz in *.
    assert (L12 : fle (e_distance v1) (e_distance v2) = true) by (destruct P2 as [-> |P2]; [exact M1|apply N1, P2]).
    assert (L21 : fle (e_distance v2) (e_distance v1) = true) by (destruct P1 as [-> |P1]; [exact M2|apply N2, P1]).
    (* both are finite and positive *)
    assert (PZ : forall g d, opath c occ (l_size l1) true g d -> ffin d = true /\ (0 <= FR d)%R /\ (forall o' : OccupancyVoxel, cell occ g = Some o' -> fgt (o_log o') f0 = false -> (0 < FR d)%R)).
    { induction 1 as [h o' Eo (Oo' & Lo')|h off stp d o' P IH L Hs Eo Oo'].
      - split; [reflexivity|]. split; [rewrite f0_R; lra|]. intros o'' E'' L''. congruence.
      - destruct IH as (Fd & Pd & _). destruct Hs as (kd & Hn & ->). destruct (add_step c (l_size l1) HS d off kd Fd Pd (L eq_refl) Hn) as (Fa & _ & Pa). split; [exact Fa|]. split; [lra|]. intros; exact Pa. }
    destruct (os_default_ok _ _ HS) as (Fd & Pd).
    assert (Z1 : ffin (e_distance v1) = true).
    { destruct P1 as [-> |P1]; [exact Fd|apply (PZ _ _ P1)]. }
    assert (Z2 : ffin (e_distance v2) = true).
    { destruct P2 as [-> |P2]; [exact Fd|apply (PZ _ _ P2)]. }
    apply fle_R in L12; [|assumption|assumption]. apply fle_R in L21; [|assumption|assumption].
    destruct (Req_dec (FR (e_distance v1)) 0) as [Zr|Nz]; [|apply fin_eq; auto; lra].
    exfalso. destruct P1 as [Q|P1]; [rewrite Q in Zr; lra|]. destruct (PZ _ _ P1) as (_ & _ & K).
    specialize (K o Ec Lo). lra.
Qed.
Print Assumptions C31_unique.

(** ** a case *)
Definition ex_c : ocfg := MkOC (f32_of_Z 4) (f32_of_Z 4) 20.
Definition ex_occ_v : OccupancyVoxel := MkOcc f1 true.
Definition ex_free_v : OccupancyVoxel := MkOcc (fneg f1) true.
Definition ex_b (vs : list OccupancyVoxel) (x : f32) : Block KOcc := MkBlock (k := KOcc) 2 f1 (V3 x f0 f0) false upd_none vs.
(** an occupied voxel, an unobserved one, free ones *)
Definition ex_occ (first : OccupancyVoxel) : Layer KOcc := MkLayer (k := KOcc) f1 2
  [(V3 0 0 0, ex_b [first; ex_free_v; ex_free_v; ex_free_v; MkOcc f0 false; ex_free_v; ex_free_v; ex_free_v] f0);
   (V3 1 0 0, ex_b (repeat ex_free_v 8) (f32_of_Z 2))].
Definition ex_st : ostate := occ_new ex_c (MkLayer (k := KEsdf) f1 2 []).
Example C31_hyps : occ_update ex_c (ex_occ ex_occ_v) ex_st.
Proof.
  assert (F1 : FR f1 = 1%R /\ ffin f1 = true) by (apply (f32_of_Z_R 1); lia).
  assert (F4 : FR (f32_of_Z 4) = 4%R /\ ffin (f32_of_Z 4) = true) by (apply (f32_of_Z_R 4); lia).
  constructor.
  - constructor; cbn [ex_c oc_max oc_default oc_buckets].
    + destruct F4 as (-> & F4). split; [exact F4|]. split; [lra|]. apply Rle_lt_trans with (bpow radix2 2); [cbn; lra|apply bpow_lt; reflexivity].
    + destruct F4 as (-> & F4). split; [exact F4|lra].
    + lia.
    + cbn [ex_st occ_new os_layer l_size]. destruct F1 as (-> & F1), F4 as (-> & _). split; [exact F1|lra].
  - constructor.
    + cbn. lia.
    + cbn. constructor; [intros [X|[]]; discriminate|]. constructor; [intros []|constructor].
    + intros i b H. unfold l_get in H. cbn [ex_occ l_blocks alookup] in H.
      destruct (idx_eqb_spec i (V3 0 0 0)) as [->|_]; [injection H as <-; split; [reflexivity|]; split; [reflexivity|repeat split; cbn; lia]|].
      destruct (idx_eqb_spec i (V3 1 0 0)) as [->|_]; [injection H as <-; split; [reflexivity|]; split; [reflexivity|repeat split; cbn; lia]|discriminate].
  - reflexivity.
  - repeat split; cbn; lia.
  - cbn. lia.
Qed.
Definition ex_dist (st : ostate) (g : idx3) : option (bool * Z) := option_map (fun v : EsdfVoxel => (e_observed v, fword (e_distance v))) (cell (os_layer st) g).
Definition ex_run (r : res (option ostate)) (gs : list idx3) : option (list (option (bool * Z))) :=
  match r with Ok (Some st) => Some (map (ex_dist st) gs) | _ => None end.
(** distances 0, 1, sqrt 2, 3, none: the voxels were computed *)
Example C31_computes :
  ex_run (updateFromOccLayerBatch ex_c 200 (ex_occ ex_occ_v) ex_st) [V3 0 0 0; V3 1 0 0; V3 1 1 0; V3 3 0 0; V3 0 0 1; V3 0 0 2] =
  Some [Some (true, 0); Some (true, fword f1); Some (true, fword sqrt2f); Some (true, fword (f32_of_Z 3)); Some (false, 0); None].
Proof. vm_compute. reflexivity. Qed.

(** ** updates without clearing *)
(** When the occupied voxel becomes free and only its block is updated, the other block keeps
    distances to an obstacle that is gone: no voxel is occupied, yet the distance is not the
    default. *)
Theorem C31_incremental_refuted : exists c occ0 occ1 st st1 st2 fuel,
  occ_update c occ0 st /\ updateFromOccLayerBatch c fuel occ0 st = Ok (Some st1) /\
  (forall i, i <> V3 0 0 0 -> l_get occ1 i = l_get occ0 i) /\ (forall g (o : OccupancyVoxel), cell occ1 g = Some o -> ~ occupied o) /\
  updateFromOccBlocks c fuel occ1 [V3 0 0 0] st1 = Ok (Some st2) /\
  exists g (v : EsdfVoxel), cell (os_layer st2) g = Some v /\ e_observed v = true /\ flt (e_distance v) (oc_default c) = true.
Proof.
  set (t := match updateFromOccLayerBatch ex_c 200 (ex_occ ex_occ_v) ex_st with Ok (Some s1) =>
              match updateFromOccBlocks ex_c 200 (ex_occ ex_free_v) [V3 0 0 0] s1 with
              | Ok (Some s2) => match cell (os_layer s2) (V3 3 0 0) with Some v => e_observed (v : EsdfVoxel) && flt (e_distance (v : EsdfVoxel)) (oc_default ex_c) | None => false end
              | _ => false end | _ => false end).
  assert (T : t = true) by (vm_compute; reflexivity). unfold t in T. clear t.
  exists ex_c, (ex_occ ex_occ_v), (ex_occ ex_free_v), ex_st.
  destruct (updateFromOccLayerBatch ex_c 200 (ex_occ ex_occ_v) ex_st) as [[s1|]| |] eqn:E1; try discriminate T.
  destruct (updateFromOccBlocks ex_c 200 (ex_occ ex_free_v) [V3 0 0 0] s1) as [[s2|]| |] eqn:E2; try discriminate T.
  destruct (cell (os_layer s2) (V3 3 0 0)) as [v|] eqn:E3; try discriminate T. apply andb_true_iff in T. destruct T as (T1 & T2).
  exists s1, s2, 200%nat. split; [exact C31_hyps|]. split; [exact E1|]. split; [|split; [|split; [exact E2|exists (V3 3 0 0), v; auto]]].
  - intros i N. unfold l_get. cbn [ex_occ l_blocks alookup]. destruct (idx_eqb_spec i (V3 0 0 0)) as [->|_]; [contradiction|reflexivity].
  - intros g o Eo (_ & Lo). assert (X : In o (MkOcc f0 false :: repeat ex_free_v 16)).
    { unfold cell, l_get in Eo. cbn [ex_occ l_blocks alookup] in Eo. 
      destruct (idx_eqb _ (V3 0 0 0)); [apply nth_error_In in Eo; cbn in Eo |- *; tauto|].
      destruct (idx_eqb _ (V3 1 0 0)); [apply nth_error_In in Eo; cbn in Eo |- *; tauto|discriminate]. }
    destruct X as [<-|X]; [discriminate Lo|]. apply repeat_spec in X. subst o. vm_compute in Lo. discriminate Lo.
Qed.
Print Assumptions C31_incremental_refuted.
