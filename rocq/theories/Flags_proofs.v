(** Proofs about the update flags. *)
From Coq Require Import ZArith List Bool Lia Reals.
From Verif Require Import F32 F32_lemmas Types Index Voxel Serialize Assoc Assoc_lemmas Layer Threads Marching MeshInt Queue Planning Esdf Esdf_spec
  Esdf_proofs Esdf_float Esdf_grid Esdf_batch Flags Flags_spec Connect_proofs.
Import ListNotations.
Open Scope Z_scope.

Definition flagged (bit : ubit) (l : Layer KTsdf) (i : idx3) : Prop :=
  exists b, l_get l i = Some b /\ upd_get (b_updated b) bit = true.
Definition keeps_flag (bit : ubit) (l l' : Layer KTsdf) : Prop :=
  l_vps l' = l_vps l /\ forall i, flagged bit l i -> flagged bit l' i.
Lemma keeps_refl : forall bit l, keeps_flag bit l l.
Proof. intros bit l; split; auto. Qed.
Lemma keeps_flag_trans : forall bit l1 l2 l3, keeps_flag bit l1 l2 -> keeps_flag bit l2 l3 -> keeps_flag bit l1 l3.
Proof. intros bit l1 l2 l3 (A & B) (C & D); split; [congruence | auto]. Qed.

Lemma set_block_dims : forall (l : Layer KTsdf) i f, l_vps (set_block l i f) = l_vps l /\ l_size (set_block l i f) = l_size l.
Proof. intros l i f; unfold set_block; destruct (l_get l i); split; reflexivity. Qed.
Lemma alloc_dims : forall (l : Layer KTsdf) i, l_vps (allocateBlockPtrByIndex l i) = l_vps l.
Proof. intros l i; unfold allocateBlockPtrByIndex, allocateNewBlock; destruct (l_get l i); reflexivity. Qed.
Lemma alloc_get : forall (l : Layer KTsdf) i j b, l_get l j = Some b -> l_get (allocateBlockPtrByIndex l i) j = Some b.
Proof.
  intros l i j b H; unfold allocateBlockPtrByIndex, allocateNewBlock; destruct (l_get l i) eqn:E; [exact H|].
  unfold l_get, with_blocks; cbn [l_blocks]; rewrite alookup_ainsert; unfold l_get in H; rewrite H; reflexivity.
Qed.
Lemma alloc_has : forall (l : Layer KTsdf) i, exists b, l_get (allocateBlockPtrByIndex l i) i = Some b.
Proof.
  intros l i; unfold allocateBlockPtrByIndex, allocateNewBlock; destruct (l_get l i) as [b|] eqn:E; [eauto|].
  unfold l_get, with_blocks; cbn [l_blocks]; rewrite alookup_ainsert; unfold l_get in E; rewrite E, idx_eqb_refl; eauto.
Qed.
Lemma vset_flag : forall bit (l : Layer KTsdf) a v, keeps_flag bit l (vset (k := KTsdf) l a v).
Proof.
  intros bit l a v; split; [unfold vset; destruct (l_get l (fst a)); reflexivity|].
  intros i (b & Hb & Hf); unfold flagged, vset; destruct (l_get l (fst a)) as [b0|] eqn:E; [|eauto].
  unfold l_get, with_blocks; cbn [l_blocks]; rewrite alookup_aset; destruct (idx_eqb_spec i (fst a)) as [->|].
  - rewrite E in Hb; injection Hb as ->; eexists; split; [reflexivity | exact Hf].
  - exists b; auto.
Qed.
Lemma integrate_flags : forall bit l g f l', integrate_voxel l g f = Ok l' ->
  keeps_flag bit l l' /\ forall i, getBlockIndexFromGlobalVoxelIndex g (vps_inv_layer (l_vps l)) = Some i -> flagged bit l' i.
Proof.
  intros bit l g f l' H; unfold integrate_voxel in H; apply rbind_ok in H; destruct H as (bi & Hb & H); apply of_opt_ok in Hb.
  cbv zeta in H; set (l1 := set_block (allocateBlockPtrByIndex l bi) bi (set_updated upd_all)) in *.
  apply rbind_ok in H; destruct H as ([a|] & _ & H); [|discriminate].
  apply rbind_ok in H; destruct H as (v & _ & H); injection H as <-.
  assert (G : forall j, l_get l1 j = if idx_eqb j bi then option_map (set_updated upd_all) (l_get (allocateBlockPtrByIndex l bi) bi) else l_get (allocateBlockPtrByIndex l bi) j).
  { intros j; unfold l1; rewrite set_block_get; reflexivity. }
  assert (B : flagged bit l1 bi).
  { destruct (alloc_has l bi) as (b & E); exists (set_updated upd_all b); rewrite G, idx_eqb_refl, E; split; [reflexivity | destruct bit; reflexivity]. }
  assert (K : keeps_flag bit l l1).
  { split; [unfold l1; rewrite (proj1 (set_block_dims _ _ _)), alloc_dims; reflexivity|].
    intros i (b & Hi & Hf); destruct (idx_eqb_spec i bi) as [->|N]; [exact B|].
    exists b; rewrite G, (idx_eqb_neq _ _ N); split; [apply alloc_get, Hi | exact Hf]. }
  split; [eapply keeps_flag_trans; [exact K | apply vset_flag]|].
  intros i Hi; rewrite Hb in Hi; injection Hi as <-; apply (vset_flag bit l1 a (f v)), B.
Qed.

(** clearing one bit in some blocks *)
Lemma reset_other : forall u b1 b2, b1 <> b2 -> upd_get (upd_reset u b1) b2 = upd_get u b2.
Proof. intros u b1 b2 N; destruct b1, b2; try reflexivity; contradiction. Qed.
Lemma clear_set_block : forall bit i (l : Layer KTsdf), clear_flag bit i l = set_block l i (fun b => set_updated (upd_reset (b_updated b) bit) b).
Proof. intros; reflexivity. Qed.
Lemma clear_keeps : forall b1 b2 i (l : Layer KTsdf), b1 <> b2 -> keeps_flag b2 l (clear_flag b1 i l).
Proof.
  intros b1 b2 i l N; rewrite clear_set_block; split; [apply set_block_dims|].
  intros j (b & Hj & Hf); unfold flagged; rewrite set_block_get; destruct (idx_eqb_spec j i) as [->|]; [|eauto].
  rewrite Hj; cbn [option_map]; eexists; split; [reflexivity|]; cbn [b_updated set_updated]; rewrite reset_other; auto.
Qed.
Lemma clears_keep : forall b1 b2 is (l : Layer KTsdf), b1 <> b2 -> keeps_flag b2 l (fold_left (fun t i => clear_flag b1 i t) is l).
Proof.
  intros b1 b2 is; induction is as [|i is IH]; intros l N; cbn [fold_left]; [apply keeps_refl|].
  eapply keeps_flag_trans; [apply (clear_keeps b1 b2 i l N) | apply IH, N].
Qed.
Lemma mesh_blocks_layer : forall cfg clear is (l : Layer KTsdf) mm l' mm', mesh_blocks cfg clear is l mm = Ok (l', mm') ->
  l' = if clear then fold_left (fun t i => clear_flag kMesh i t) is l else l.
Proof.
  intros cfg clear is; induction is as [|i is IH]; intros l mm l' mm' H; cbn [mesh_blocks] in H.
  - injection H as <- _; destruct clear; reflexivity.
  - apply rbind_ok in H; destruct H as (m1 & _ & H); apply IH in H; destruct clear; exact H.
Qed.
Lemma mesh_call_flags : forall cfg only clear (l : Layer KTsdf) mm l' mm' bit, generateMesh cfg only clear l mm = Ok (l', mm') ->
  bit <> kMesh \/ clear = false -> keeps_flag bit l l'.
Proof.
  intros cfg only clear l mm l' mm' bit H N; apply mesh_blocks_layer in H; rewrite H; destruct clear; [|apply keeps_refl].
  destruct N as [N|N]; [|discriminate]; apply clears_keep; auto.
Qed.
Lemma esdf_call_flags : forall c fuel clear t st t' st' bit, updateFromTsdfLayer c fuel clear t st = Ok (Some (t', st')) ->
  bit <> kEsdf \/ clear = false -> keeps_flag bit t t'.
Proof.
  intros c fuel clear t st t' st' bit H N; unfold updateFromTsdfLayer in H; cbv zeta in H.
  apply rbind_ok in H; destruct H as ([st2|] & _ & H); [|discriminate]; injection H as <- _; destruct clear; [|apply keeps_refl].
  destruct N as [N|N]; [|discriminate]; apply (clears_keep kEsdf bit); auto.
Qed.
Lemma remove_flags : forall bit l i j, j <> i -> flagged bit l j -> flagged bit (removeBlock l i) j.
Proof.
  intros bit l i j N (b & Hb & Hf); exists b; split; [|exact Hf]; unfold removeBlock, l_get, with_blocks; cbn [l_blocks].
  rewrite alookup_aerase, idx_eqb_neq by exact N; exact Hb.
Qed.
(** one call, any bit *)
Lemma call_flags : forall mc ec fuel w k w' bit i, do_call mc ec fuel w k = Ok w' ->
  (bit = kMesh -> clears_mesh k = false) -> (bit = kEsdf -> clears_esdf k = false) -> k <> CRemove i ->
  l_vps (w_tsdf w') = l_vps (w_tsdf w) /\ (flagged bit (w_tsdf w) i -> flagged bit (w_tsdf w') i).
Proof.
  intros mc ec fuel w k w' bit i H N1 N2 N3; destruct k as [g f|j|only clear|clear|]; cbn [do_call] in H.
  - apply rbind_ok in H; destruct H as (l & H & K); injection K as <-; destruct (integrate_flags bit _ _ _ _ H) as ((A & B) & _); split; [exact A | apply B].
  - injection H as <-; cbn [w_tsdf]; split; [reflexivity|]; apply remove_flags; congruence.
  - apply rbind_ok in H; destruct H as ((l, mm) & H & K); injection K as <-; cbn [w_tsdf fst].
    destruct (mesh_call_flags mc only clear _ _ _ _ bit H) as (A & B); [|split; [exact A | apply B]].
    destruct bit; [left; discriminate | right | left; discriminate]; specialize (N1 eq_refl); destruct clear; [discriminate | reflexivity].
  - apply rbind_ok in H; destruct H as ([(l, e)|] & H & K); [|discriminate]; injection K as <-; cbn [w_tsdf].
    destruct (esdf_call_flags ec fuel clear _ _ _ _ bit H) as (A & B); [|split; [exact A | apply B]].
    destruct bit; [left; discriminate | left; discriminate | right]; specialize (N2 eq_refl); destruct clear; [discriminate | reflexivity].
  - apply rbind_ok in H; destruct H as ([e|] & H & K); [|discriminate]; injection K as <-; auto.
Qed.
Lemma vps_call : forall mc ec fuel w k w', do_call mc ec fuel w k = Ok w' -> l_vps (w_tsdf w') = l_vps (w_tsdf w).
Proof.
  intros mc ec fuel w k w' H.
  assert (E : exists i, k <> CRemove i).
  { destruct k as [| j | | |]; try (exists (V3 0 0 0); discriminate); exists (V3 (vx j + 1) 0 0); intros K; injection K as K; rewrite K in *; destruct j; cbn in K; injection K; lia. }
  destruct E as (i & Hi); apply (call_flags mc ec fuel w k w' kMap i H); try discriminate; exact Hi.
Qed.
Lemma calls_app : forall mc ec fuel ks1 ks2 w w', do_calls mc ec fuel w (ks1 ++ ks2) = Ok w' ->
  exists w1, do_calls mc ec fuel w ks1 = Ok w1 /\ do_calls mc ec fuel w1 ks2 = Ok w'.
Proof.
  intros mc ec fuel ks1; induction ks1 as [|k ks IH]; intros ks2 w w' H; [exists w; auto|].
  cbn [app do_calls] in *; apply rbind_ok in H; destruct H as (w1 & H1 & H); rewrite H1; cbn [rbind]; apply IH, H.
Qed.
Lemma calls_vps : forall mc ec fuel ks w w', do_calls mc ec fuel w ks = Ok w' -> l_vps (w_tsdf w') = l_vps (w_tsdf w).
Proof.
  intros mc ec fuel ks; induction ks as [|k ks IH]; intros w w' H; cbn [do_calls] in H; [congruence|].
  apply rbind_ok in H; destruct H as (w1 & H1 & H); rewrite (IH _ _ H), (vps_call _ _ _ _ _ _ H1); reflexivity.
Qed.
Lemma stale_flag : forall mc ec fuel bit clears ks w w' i,
  (forall k, clears k = false -> (bit = kMesh -> clears_mesh k = false) /\ (bit = kEsdf -> clears_esdf k = false)) ->
  do_calls mc ec fuel w ks = Ok w' -> stale clears (l_vps (w_tsdf w)) i ks -> flagged bit (w_tsdf w') i.
Proof.
  intros mc ec fuel bit clears ks w w' i HC H (before & g & f & after & -> & Hg & HF).
  apply calls_app in H; destruct H as (w1 & H1 & H); cbn [do_calls] in H; apply rbind_ok in H; destruct H as (w2 & H2 & H).
  assert (F : flagged bit (w_tsdf w2) i).
  { cbn [do_call] in H2; apply rbind_ok in H2; destruct H2 as (l & H2 & K); injection K as <-.
    apply (integrate_flags bit _ _ _ _ H2); rewrite (calls_vps _ _ _ _ _ _ H1); exact Hg. }
  clear H1 H2 Hg; revert w2 H F; induction after as [|k ks IH]; intros w2 H F; cbn [do_calls] in H; [injection H as <-; exact F|].
  apply rbind_ok in H; destruct H as (w3 & H3 & H); inversion HF as [|x y (Hk1 & Hk2) HF']; subst.
  apply (IH HF' w3 H); destruct (HC k Hk1) as (C1 & C2); apply (call_flags mc ec fuel w2 k w3 bit i H3 C1 C2 Hk2), F.
Qed.

(** ** The incremental update *)
Section Inc.
  Variable c : econfig.
  Hypothesis Hmd : small_pos (ec_min_diff c).

  (** only the voxel [a] changes *)
  Definition only_at (a : addr) (L L' : Layer KEsdf) : Prop :=
    same_shape L L' /\ forall b, b <> a -> vat L' b = vat L b.
  Lemma only_refl : forall a L, only_at a L L.
  Proof. intros a L; split; [apply shape_refl | auto]. Qed.
  Lemma only_trans : forall a L1 L2 L3, only_at a L1 L2 -> only_at a L2 L3 -> only_at a L1 L3.
  Proof. intros a L1 L2 L3 (A & B) (C & D); split; [eapply shape_trans; eassumption | intros b N; rewrite D, B; auto]. Qed.
  Lemma only_set : forall a (L : Layer KEsdf) (v v' : EsdfVoxel), vat L a = Some v -> only_at a L (vset (k := KEsdf) L a v') /\ vat (vset (k := KEsdf) L a v') a = Some v'.
  Proof.
    intros a L v v' H; split; [split; [apply shape_vset|]|apply (vat_vset_same (k := KEsdf) L a v' v H)].
    intros b N; rewrite (vat_vset (k := KEsdf) L a v' v b H); destruct (addr_dec b a); [contradiction | reflexivity].
  Qed.
  Lemma queue_only : forall st g a (v : EsdfVoxel) st', vat (es_layer st) a = Some v -> queue_voxel st g a = Ok st' ->
    only_at a (es_layer st) (es_layer st') /\ vat (es_layer st') a = Some (ev_queue v true).
  Proof.
    intros st g a v st' Hv H; unfold queue_voxel in H; apply rbind_ok in H; destruct H as (v0 & E & H); unfold vget in E; rewrite Hv in E; injection E as <-.
    cbv zeta in H; unfold open_push in H; apply rbind_ok in H; destruct H as (q & _ & H); injection H as <-; cbn [es_layer with_open st_set with_layer].
    apply (only_set a _ v); exact Hv.
  Qed.
  Lemma from_neighbors_only : forall g a ns (l l' : Layer KEsdf) b, from_neighbors c g a l ns = Ok (l', b) -> forall v : EsdfVoxel, vat l a = Some v ->
    only_at a l l' /\ exists v' : EsdfVoxel, vat l' a = Some v' /\ e_fixed v' = e_fixed v.
  Proof.
    intros g a ns; induction ns as [|(off, kd) ns IH]; intros l l' b H v Hv; cbn [from_neighbors] in H.
    - injection H as <- _; split; [apply only_refl | eauto].
    - apply rbind_ok in H; destruct H as ([na|] & _ & H); [|eauto].
      apply rbind_ok in H; destruct H as (nv & _ & H); apply rbind_ok in H; destruct H as (v0 & E & H).
      unfold vget in E; rewrite Hv in E; injection E as <-.
      match type of H with (if ?b then _ else _) = _ => destruct b end; [eauto|].
      match type of H with (if ?b then _ else _) = _ => destruct b end; [|eauto].
      injection H as <- _; destruct (only_set a l v (ev_parent (ev_dist v (fadd (e_distance nv) (sgnmul (e_distance v) kd))) (idx_opp off)) Hv) as (A & B).
      split; [exact A|]; eexists; split; [exact B | reflexivity].
  Qed.

  Lemma lowers_raises_within : forall ed td, lowers c ed td = false -> raises c ed td = false -> within c ed td.
  Proof.
    intros ed td HL HR; unfold lowers, raises, within, outside, inside, fgt in *.
    apply orb_false_iff in HL; destruct HL as (L1 & L2); apply orb_false_iff in HR; destruct HR as (R1 & R2).
    split; intros H; rewrite H in *; cbn [andb] in *; auto.
  Qed.
  Lemma within_self : forall td, within c td td.
  Proof. intros td; destruct (no_change c Hmd td) as (A & B); apply lowers_raises_within; assumption. Qed.

  Lemma inc_step : forall bi st lin (tv : TsdfVoxel) (v : EsdfVoxel) st', regular (es_layer st) -> (exists b, l_get (es_layer st) bi = Some b) ->
    vat (es_layer st) (bi, lin) = Some v ->
    tsdf_voxel c true bi st (lin, tv) = Ok st' ->
    only_at (bi, lin) (es_layer st) (es_layer st') /\ (seen c tv -> exists v' : EsdfVoxel, vat (es_layer st') (bi, lin) = Some v' /\ noted c tv v').
  Proof.
    intros bi st lin tv v st' HR (b & Hb) Hv H; unfold tsdf_voxel, seen in *.
    destruct (flt (t_weight tv) (ec_min_weight c)) eqn:Ew; [cbn [negb andb] in H; injection H as <-; split; [apply only_refl | discriminate]|].
    apply rbind_ok in H; destruct H as (v0 & E & H); unfold vget in E; rewrite Hv in E; injection E as <-.
    apply rbind_ok in H; destruct H as (vi & Evi & H); apply of_opt_ok in Evi; cbv zeta in H; fold (glob (l_vps (es_layer st)) bi vi) in H.
    set (g := glob (l_vps (es_layer st)) bi vi) in *.
    pose proof (reg_vps_small _ HR) as VS.
    assert (Hlin : (lin < num_voxels (l_vps (es_layer st)))%nat).
    { destruct (reg_block _ HR _ _ Hb) as (_ & EL & _); rewrite <- EL; apply nth_error_Some; unfold vat in Hv; cbn [fst snd] in Hv; rewrite Hb in Hv; congruence. }
    destruct (lin_index (l_vps (es_layer st)) lin VS Hlin) as (vi' & Evi' & AG); rewrite Evi in Evi'; injection Evi' as <-; specialize (AG bi).
    fold g in AG.
    apply rbind_ok in H; destruct H as (st1 & H1 & H); apply rbind_ok in H; destruct H as (v1 & E1 & H); injection H as <-.
    assert (K : only_at (bi, lin) (es_layer st) (es_layer st1) /\ exists w : EsdfVoxel, vat (es_layer st1) (bi, lin) = Some w /\
                (isFixed c (t_distance tv) = true -> e_fixed w = true -> within c (e_distance w) (t_distance tv)) /\
                (isFixed c (t_distance tv) = false -> e_fixed w = false)).
    { set (a := (bi, lin)) in *; clear E1.
      destruct (negb (e_observed v) || e_hallucinated v).
      - unfold new_voxel in H1; cbv zeta in H1.
        set (sr := if e_hallucinated v then raise_push st g else st) in *.
        assert (Er : es_layer sr = es_layer st) by (unfold sr; destruct (e_hallucinated v); reflexivity).
        assert (Hr : vat (es_layer sr) a = Some v) by (rewrite Er; exact Hv).
        apply rbind_ok in H1; destruct H1 as (st3 & H3 & H1); apply rbind_ok in H1; destruct H1 as (v3 & E3 & H1); injection H1 as <-.
        assert (K3 : only_at a (es_layer st) (es_layer st3) /\ exists w : EsdfVoxel, vat (es_layer st3) a = Some w /\
                (isFixed c (t_distance tv) = true -> e_distance w = t_distance tv) /\ (isFixed c (t_distance tv) = false -> e_fixed w = false)).
        { destruct (isFixed c (t_distance tv)).
          - destruct (only_set a (es_layer sr) v (ev_fixed (ev_dist v (t_distance tv)) true) Hr) as (A1 & A2).
            destruct (queue_only _ _ _ _ _ (A2 : vat (es_layer (st_set sr a _)) a = Some _) H3) as (B1 & B2).
            cbn [es_layer st_set with_layer] in B1; rewrite Er in A1, B1; split; [eapply only_trans; [exact A1 | exact B1]|]; eexists; split; [exact B2 | split; [reflexivity | discriminate]].
          - destruct (only_set a (es_layer sr) v (ev_fixed (ev_dist v (far_value c (t_distance tv))) false) Hr) as (A1 & A2).
            apply rbind_ok in H3; destruct H3 as ((l2, fl) & HU & H3); unfold updateVoxelFromNeighbors in HU; cbn [fst snd es_layer st_set with_layer] in *.
            set (L1 := vset (k := KEsdf) (es_layer sr) a (ev_fixed (ev_dist v (far_value c (t_distance tv))) false)) in *.
            assert (HP : voxel_ptr L1 g = Ok (Some a)).
            { assert (HR1 : regular L1) by (apply (reg_shape (es_layer st)); [rewrite <- Er; apply A1 | exact HR]).
              assert (Ev : l_vps L1 = l_vps (es_layer st)) by (unfold L1, vset; rewrite Er; destruct (l_get (es_layer st) (fst a)); reflexivity).
              assert (EX : exact_index g).
              { destruct (reg_block _ HR _ _ Hb) as (_ & _ & RB).
                assert (AV : all3 (fun x => 0 <= x < l_vps (es_layer st)) vi).
                { pose proof (cube_small _ VS); destruct (Index_proofs.linear_inverse (l_vps (es_layer st)) (Z.of_nat lin)) as (vi2 & X1 & X2 & _); try lia.
                  - rewrite num_voxels_reg in Hlin by exact VS; lia.
                  - rewrite Evi in X1; injection X1 as <-; exact X2. }
                unfold g, glob, getGlobalVoxelIndexFromBlockAndVoxelIndex, exact_index, all3, zip3, map3 in *; cbn [vx vy vz] in *.
                set (P := l_vps (es_layer st)) in *; destruct RB as (R1 & R2 & R3), AV as (V1 & V2 & V3').
                assert (AB : forall i x, (Z.abs i + 1) * P < 2 ^ 24 -> 0 <= x < P -> Z.abs (i * P + x) <= 2 ^ 24).
                { intros i x X Y; assert (Z.abs (i * P + x) <= Z.abs i * P + P); [|nia].
                  eapply Z.le_trans; [apply Z.abs_triangle|]; rewrite Z.abs_mul, (Z.abs_eq P), (Z.abs_eq x) by lia; lia. }
                repeat split; apply AB; assumption. }
              rewrite (reg_ptr_at L1 g HR1 EX), (reg_at L1 g HR1 EX), Ev, AG; unfold a in A2 |- *; rewrite A2; reflexivity. }
            rewrite HP in HU; cbn [rbind] in HU.
            destruct (from_neighbors_only g a _ _ _ _ HU _ A2) as (C1 & w & C2 & C3); cbn [e_fixed ev_fixed] in C3.
            rewrite Er in A1; destruct fl.
            + destruct (queue_only (with_layer (st_set sr a _) l2) g a w _ C2 H3) as (D1 & D2); cbn [es_layer with_layer] in D1.
              split; [eapply only_trans; [exact A1 | eapply only_trans; [exact C1 | exact D1]]|]; eexists; split; [exact D2 | split; [discriminate | intros _; exact C3]].
            + injection H3 as <-; cbn [es_layer with_layer]; split; [eapply only_trans; [exact A1 | exact C1]|]; exists w; split; [exact C2 | split; [discriminate | intros _; exact C3]]. }
        destruct K3 as (K3 & w & Kw & KD & KF); unfold vget in E3; rewrite Kw in E3; injection E3 as <-.
        destruct (only_set a (es_layer st3) w (ev_parent w zero3) Kw) as (F1 & F2); cbn [es_layer st_set with_layer].
        split; [eapply only_trans; [exact K3 | exact F1]|]; eexists; split; [exact F2|]; cbn [e_distance e_fixed ev_parent]; split; [intros I _; rewrite (KD I); apply within_self | exact KF].
      - unfold old_voxel in H1; cbv zeta in H1.
        assert (Q : forall (r : bool) w st2, queue_voxel (if r then raise_push (st_set st a w) g else st_set st a w) g a = Ok st2 ->
                     only_at a (es_layer st) (es_layer st2) /\ vat (es_layer st2) a = Some (ev_queue w true)).
        { intros r w st2 HQ; destruct (only_set a (es_layer st) v w Hv) as (A1 & A2).
          assert (V : vat (es_layer (if r then raise_push (st_set st a w) g else st_set st a w)) a = Some w) by (destruct r; exact A2).
          destruct (queue_only _ _ _ _ _ V HQ) as (B1 & B2); split; [|exact B2].
          eapply only_trans; [exact A1|]; destruct r; exact B1. }
        destruct (isFixed c (t_distance tv) || e_fixed v) eqn:EF.
        + destruct (isFixed c (t_distance tv)) eqn:IF; cbn [negb] in H1.
          * destruct (lowers c (e_distance v) (t_distance tv)) eqn:EL.
            { destruct (Q false _ _ H1) as (A & B); split; [exact A|]; eexists; split; [exact B|]; split; [intros _ _; apply within_self | discriminate]. }
            destruct (raises c (e_distance v) (t_distance tv)) eqn:ER.
            { destruct (Q true _ _ H1) as (A & B); split; [exact A|]; eexists; split; [exact B|]; split; [intros _ _; apply within_self | discriminate]. }
            injection H1 as <-; split; [apply only_refl|]; exists v; split; [exact Hv|]; split; [intros _ _; apply lowers_raises_within; assumption | discriminate].
          * destruct (Q true _ _ H1) as (A & B); split; [exact A|]; eexists; split; [exact B | split; [discriminate | reflexivity]].
        + apply orb_false_iff in EF; destruct EF as (-> & Ef).
          destruct (negb (signum (t_distance tv) =? signum (e_distance v))).
          * destruct (flt (t_distance tv) (e_distance v)).
            { destruct (Q false _ _ H1) as (A & B); split; [exact A|]; eexists; split; [exact B | split; [discriminate | intros _; exact Ef]]. }
            injection H1 as <-; cbn [es_layer raise_push with_raise st_set with_layer].
            destruct (only_set a (es_layer st) v (ev_parent (ev_dist v (far_value c (t_distance tv))) zero3) Hv) as (A1 & A2).
            split; [exact A1|]; eexists; split; [exact A2 | split; [discriminate | intros _; exact Ef]].
          * injection H1 as <-; split; [apply only_refl|]; exists v; split; [exact Hv | split; [discriminate | intros _; exact Ef]]. }
    destruct K as (K1 & w & K2 & K3); unfold vget in E1; rewrite K2 in E1; injection E1 as <-.
    destruct (only_set (bi, lin) (es_layer st1) w (ev_seen w true false) K2) as (A1 & A2); cbn [es_layer st_set with_layer].
    split; [eapply only_trans; [exact K1 | exact A1]|]; intros _; eexists; split; [exact A2|]; split; [reflexivity|]; split; [reflexivity | exact K3].
  Qed.

  (** noted voxels stay noted *)
  Definition noting (t : Layer KTsdf) (a : addr) (L : Layer KEsdf) : Prop :=
    forall tv, vat t a = Some tv -> seen c tv -> exists v, vat L a = Some v /\ noted c tv v.
  Lemma inc_voxels : forall (t : Layer KTsdf) bi (tvs : list TsdfVoxel) s st st', regular (es_layer st) -> (exists b, l_get (es_layer st) bi = Some b) ->
    (forall n tv, nth_error tvs n = Some tv -> vat t (bi, (s + n)%nat) = Some tv) ->
    (forall n, (n < s + length tvs)%nat -> vat (es_layer st) (bi, n) <> None) ->
    rfold (tsdf_voxel c true bi) (combine (seq s (length tvs)) tvs) st = Ok st' ->
    same_shape (es_layer st) (es_layer st') /\ (forall a, noting t a (es_layer st) -> noting t a (es_layer st')) /\
    (forall n, (n < length tvs)%nat -> noting t (bi, (s + n)%nat) (es_layer st')).
  Proof.
    intros t bi tvs; induction tvs as [|tv tvs IH]; intros s st st' HR (b & Hb) Ht Hn H; cbn [length seq combine rfold] in *.
    - injection H as <-; split; [apply shape_refl|]; split; [auto|]; intros n Hl; lia.
    - apply rbind_ok in H; destruct H as (st1 & H1 & H).
      destruct (vat (es_layer st) (bi, s)) as [v|] eqn:Ev; [|exfalso; apply (Hn s); [lia | exact Ev]].
      pose proof (Ht 0%nat tv eq_refl) as Etv; rewrite Nat.add_0_r in Etv.
      destruct (inc_step bi st s tv v st1 HR (ex_intro _ b Hb) Ev H1) as ((S1 & S2) & S3).
      assert (N1 : noting t (bi, s) (es_layer st1)) by (intros tw Ew Sw; rewrite Etv in Ew; injection Ew as <-; apply S3, Sw).
      assert (NP : forall a, noting t a (es_layer st) -> noting t a (es_layer st1)).
      { intros a Na; destruct (addr_dec a (bi, s)) as [->|N]; [exact N1|]; intros tw Ew Sw; rewrite (S2 a N); apply Na; assumption. }
      destruct (IH (S s) st1 st' (reg_shape _ _ S1 HR)) as (A1 & A2 & A3); auto.
      + destruct S1 as (_ & _ & S1); specialize (S1 bi); rewrite Hb in S1; destruct (l_get (es_layer st1) bi) as [b1|]; [eauto | contradiction].
      + intros n tw Hw; rewrite <- (Ht (S n) tw Hw); f_equal; f_equal; lia.
      + intros n Hlt K; apply (Hn n); [lia|]; apply (shape_vat _ _ _ S1), K.
      + split; [eapply shape_trans; [exact S1 | exact A1]|]; split; [auto|].
        intros [|n] Hl; [rewrite Nat.add_0_r; apply A2, N1|].
        replace (s + S n)%nat with (S s + n)%nat by lia; apply A3; lia.
  Qed.
  Lemma opened_regular : forall (t : Layer KTsdf) L bi tb, regular t -> l_get t bi = Some tb -> regular L -> l_vps L = l_vps t -> regular (opened L bi).
  Proof.
    intros t L bi tb HR Hb B1 B2; destruct (opened_dims L bi) as (D1 & D2); constructor; rewrite D2; [apply B1|].
    intros i b Hi; rewrite opened_get in Hi; destruct (idx_eqb_spec i bi) as [->|]; [|apply (reg_block _ B1 _ _ Hi)].
    injection Hi as <-; destruct (l_get L bi) as [b|] eqn:Eb; [apply (reg_block _ B1 _ _ Eb)|].
    cbn [b_vps b_voxels set_updated new_block]; split; [reflexivity|]; split; [apply repeat_length|].
    rewrite B2; apply (reg_block _ HR _ _ Hb).
  Qed.
  Lemma inc_block : forall t bi st st', regular t -> regular (es_layer st) -> l_vps (es_layer st) = l_vps t ->
    tsdf_block c true t st bi = Ok st' ->
    regular (es_layer st') /\ l_vps (es_layer st') = l_vps t /\ (forall a, noting t a (es_layer st) -> noting t a (es_layer st')) /\
    (forall n, noting t (bi, n) (es_layer st')).
  Proof.
    intros t bi st st' HR HL HV H; unfold tsdf_block in H; destruct (l_get t bi) as [tb|] eqn:Eb.
    2: { injection H as <-; split; [exact HL|]; split; [exact HV|]; split; [auto|].
         intros n tv E; unfold vat in E; cbn [fst] in E; rewrite Eb in E; discriminate. }
    cbv zeta in H; fold (opened (es_layer st) bi) in H.
    pose proof (opened_regular t (es_layer st) bi tb HR Eb HL HV) as HO; destruct (opened_dims (es_layer st) bi) as (D1 & D2).
    pose proof (opened_get (es_layer st) bi bi) as G; rewrite idx_eqb_refl in G.
    destruct (reg_block _ HR _ _ Eb) as (_ & EL & _).
    assert (HN : forall n, (n < 0 + length (b_voxels tb))%nat -> vat (opened (es_layer st) bi) (bi, n) <> None).
    { intros n Hn K; unfold vat in K; cbn [fst snd] in K; rewrite G in K.
      destruct (reg_block _ HO _ _ G) as (_ & E & _); apply nth_error_None in K; rewrite D2 in E; assert (Q : num_voxels (l_vps (es_layer st)) = num_voxels (l_vps t)) by (rewrite HV; reflexivity); cbn [vox] in *; lia. }
    destruct (inc_voxels t bi (b_voxels tb) 0 (with_layer st (opened (es_layer st) bi)) st' HO (ex_intro _ _ G)) as (A1 & A2 & A3); auto.
    { intros n tv Hn; unfold vat; cbn [fst snd]; rewrite Eb; exact Hn. }
    cbn [es_layer with_layer] in *; split; [eapply reg_shape; [exact A1 | exact HO]|]; split; [rewrite (proj1 (proj2 A1)), D2; exact HV|]; split.
    - intros (i, n) Na; apply A2; intros tv Ht Sv; destruct (Na tv Ht Sv) as (v & Hv & Nv); exists v; split; [|exact Nv].
      rewrite opened_vat; cbn [fst]; destruct (idx_eqb_spec i bi) as [->|]; [|exact Hv].
      destruct (l_get (es_layer st) bi) eqn:E; [exact Hv|]; unfold vat in Hv; cbn [fst] in Hv; rewrite E in Hv; discriminate.
    - intros n tv Ht; apply (A3 n); [|exact Ht]; unfold vat in Ht; cbn [fst snd] in Ht; rewrite Eb in Ht; apply nth_error_Some; cbn [vox] in *; intros Z0; rewrite Z0 in Ht; discriminate.
  Qed.
  Lemma inc_blocks : forall t blocks st st', regular t -> regular (es_layer st) -> l_vps (es_layer st) = l_vps t ->
    rfold (tsdf_block c true t) blocks st = Ok st' ->
    forall a, noting t a (es_layer st) \/ In (fst a) blocks -> noting t a (es_layer st').
  Proof.
    intros t blocks; induction blocks as [|bi bs IH]; intros st st' HR HL HV H a Ha; cbn [rfold] in H.
    - injection H as <-; destruct Ha as [Ha|[]]; exact Ha.
    - apply rbind_ok in H; destruct H as (st1 & H1 & H); destruct (inc_block t bi st st1 HR HL HV H1) as (A1 & A2 & A3 & A4).
      apply (IH st1 st' HR A1 A2 H); destruct Ha as [Ha|[Ha|Ha]]; [left; apply A3, Ha | left | right; exact Ha].
      destruct a as (i, n); cbn [fst] in Ha; subst i; apply A4.
  Qed.
  Lemma noting_frame : forall t a L L', lift_rel (k := KEsdf) frame L L' -> noting t a L -> noting t a L'.
  Proof.
    intros t a L L' (S & F) Na tv Ht Sv; destruct (Na tv Ht Sv) as (v & Hv & (N1 & N2 & N3 & N4)); destruct (F a v Hv) as (v' & Hv' & F1 & F2 & F3 & F4).
    exists v'; split; [exact Hv'|]; split; [congruence|]; split; [congruence|].
    split; [|intros I; specialize (N4 I); congruence].
    intros I Fx; destruct F4 as (E & _); [left; congruence|]; rewrite E; apply N3; congruence.
  Qed.
  Lemma update_notes : forall fuel clear t st t' st' i, regular t -> regular (es_layer st) -> flagged kEsdf t i ->
    updateFromTsdfLayer c fuel clear t st = Ok (Some (t', st')) -> propagated c t (es_layer st') i.
  Proof.
    intros fuel clear t st t' st' i HR HL (b & Hb & Hf) H; unfold updateFromTsdfLayer in H; cbv zeta in H.
    apply rbind_ok in H; destruct H as ([st2|] & H1 & H); [|discriminate]; injection H as _ <-.
    unfold updateFromTsdfBlocks in H1; destruct (Z.eqb_spec (l_vps t) (l_vps (es_layer (with_updated st [])))) as [EV|]; [|discriminate].
    apply rbind_ok in H1; destruct H1 as (st3 & R & H1); apply rbind_ok in H1; destruct H1 as ([st4|] & R2 & H1); [|discriminate].
    assert (IN : In i (getAllUpdatedBlocks t kEsdf ++ es_updated st)).
    { apply in_app_iff; left; unfold getAllUpdatedBlocks; apply in_map_iff; exists (i, b); split; [reflexivity|].
      apply filter_In; split; [apply alookup_In, Hb | exact Hf]. }
    intros n tv Ht Sv.
    pose proof (inc_blocks t _ (with_updated st []) st3 HR HL (eq_sym EV) R (i, n) (or_intror IN)) as N3.
    apply (noting_frame t (i, n) _ _ (open_frame c _ _ (proj1 (processOpenSet_steps c _ _ _ H1)))
             (noting_frame t (i, n) _ _ (raise_frame c _ _ (proj1 (processRaiseSet_steps c _ _ _ R2))) N3) tv Ht Sv).
  Qed.
End Inc.
