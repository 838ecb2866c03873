(** Proofs about transforming layers: blocks and the whole layer. *)
From Coq Require Import ZArith List Bool Reals Lra Lia.
From Flocq Require Import Core.
From Verif Require Import F32 F32_lemmas Index_float Types Index Index_proofs Voxel Serialize Assoc Assoc_lemmas Layer Threads MeshInt Planning Merge Mesh_spec Interp Interp_spec Interp_proofs Esdf_grid
  Transform Transform_spec Transform_proofs.
Import ListNotations.
Open Scope Z_scope.
Ltac Zify.zify_post_hook ::= idtac.

(** numbering the voxels of a block *)
Section Number.
  Variable n : Z.
  Hypothesis Hn : 1 <= n <= 2 ^ 10.
  Definition lidx (g : idx3) : nat := Z.to_nat (vx g mod n + n * (vy g mod n + n * (vz g mod n))).
  Lemma cube_le : 0 < n * n * n <= 2 ^ 30.
  Proof. apply cube_small. lia. Qed.
  Lemma lidx_lin : forall g, Z.of_nat (lidx g) = computeLinearIndexFromVoxelIndex n (map3 (fun c => c mod n) g) /\ 0 <= Z.of_nat (lidx g) < n * n * n.
  Proof.
    intros g. pose proof cube_le. destruct (linear_lt n (map3 (fun c => c mod n) g)) as (E & B); [lia|lia|apply mod3; lia|].
    rewrite E in *. unfold lidx, map3 in *. cbn [vx vy vz] in *. rewrite (Z.mul_comm (vz g mod n) n) in *. rewrite Z2Nat.id by lia. split; [reflexivity | exact B].
  Qed.
  Lemma lidx_index : forall g, computeVoxelIndexFromLinearIndex n (Z.of_nat (lidx g)) = Some (map3 (fun c => c mod n) g).
  Proof. intros g. pose proof cube_le. destruct (lidx_lin g) as (-> & _). apply linear_roundtrip; [lia|lia|apply mod3; lia]. Qed.
  Lemma num_is : Z.of_nat (num_voxels n) = n * n * n.
  Proof. pose proof cube_le. unfold num_voxels, u64. rewrite Z.mod_small by lia. lia. Qed.
  Lemma lidx_lt : forall g, (lidx g < num_voxels n)%nat.
  Proof. intros g. pose proof num_is. destruct (lidx_lin g). lia. Qed.
  Lemma lidx_onto : forall bi k, (k < num_voxels n)%nat -> exists g, block_of n g = bi /\ lidx g = k.
  Proof.
    intros bi k Hk. pose proof cube_le. pose proof num_is.
    destruct (linear_inverse n (Z.of_nat k)) as (v & _ & (A1 & A2 & A3) & E); [lia|lia|lia|].
    exists (V3 (vx bi * n + vx v) (vy bi * n + vy v) (vz bi * n + vz v)). split.
    - unfold block_of, map3. cbn [vx vy vz]. rewrite !div_base by lia. apply v3_eq; reflexivity.
    - apply Nat2Z.inj. rewrite (proj1 (lidx_lin _)), <- E. f_equal. unfold map3. cbn [vx vy vz]. rewrite !mod_base by lia. apply v3_eq; reflexivity.
  Qed.
  Lemma lidx_inj : forall g h, block_of n g = block_of n h -> lidx g = lidx h -> g = h.
  Proof.
    intros g h B L. apply (div_mod3 n g h ltac:(lia) B).
    assert (E : Some (map3 (fun c => c mod n) g) = Some (map3 (fun c => c mod n) h)) by (rewrite <- !lidx_index, L; reflexivity).
    injection E as E1 E2 E3. unfold map3. congruence.
  Qed.
End Number.

Section Blocks.
  Variables (rows : nat -> sum_order) (top : sum_order).
  Hypothesis HR : forall j, (j < 8)%nat -> complete_order (rows j).
  Hypothesis HT : complete_order top.
  Variables (D W : R) (lin : Layer KTsdf).
  Hypothesis TF : transformable D W lin.
  Variable Tinv : pt3 -> pt3.
  Variables (n : Z) (s : f32).
  Hypothesis Hn : 1 <= n <= 2 ^ 10.

  Lemma voxels_list : forall b vs m, (forall k v, nth_error vs k = Some v -> exists r, tl_voxel rows top lin Tinv b (m + k) v = Ok r) ->
    exists rs, tl_voxels rows top lin Tinv b m vs = Ok (map fst rs, existsb snd rs) /\ length rs = length vs /\
      forall k v, nth_error vs k = Some v -> exists r, nth_error rs k = Some r /\ tl_voxel rows top lin Tinv b (m + k) v = Ok r.
  Proof.
    intros b vs. induction vs as [|v vs IH]; intros m H; cbn [tl_voxels].
    - exists []. split; [reflexivity|]. split; [reflexivity|]. intros [|k] v E; discriminate E.
    - destruct (H 0%nat v eq_refl) as (r & E). rewrite Nat.add_0_r in E. rewrite E. cbn [rbind].
      destruct (IH (S m)) as (rs & A & L & N).
      { intros k w Hk. destruct (H (S k) w Hk) as (r' & E'). exists r'. rewrite <- E'. f_equal. lia. }
      rewrite A. cbn [rbind fst snd]. exists (r :: rs). split; [reflexivity|]. split; [cbn [length]; lia|].
      intros [|k] w Hk; cbn [nth_error] in *.
      + injection Hk as <-. exists r. split; [reflexivity|]. rewrite Nat.add_0_r. exact E.
      + destruct (N k w Hk) as (r' & A1 & A2). exists r'. split; [exact A1|]. rewrite <- A2. f_equal. lia.
  Qed.

  Local Notation block_effect := (reworked D W lin Tinv n s).

  Definition shaped (l : Layer KTsdf) : Prop := built_layer l /\ l_vps l = n /\ l_size l = s.

  Lemma alloc_shaped : forall l bi, shaped l -> shaped (allocateBlockPtrByIndex l bi).
  Proof.
    intros l bi ((S & V & B) & E1 & E2). unfold allocateBlockPtrByIndex. destruct (l_get l bi) as [b0|] eqn:G; [repeat split; try apply S; try apply V; auto; apply (B i b H)|].
    split; [|split; [exact E1 | exact E2]]. split; [exact S|]. split; [exact V|].
    intros i b Hb. unfold allocateNewBlock, l_get in Hb. cbn [l_blocks with_blocks] in Hb. rewrite alookup_ainsert in Hb.
    change (alookup i (l_blocks l)) with (l_get l i) in Hb. destruct (l_get l i) as [c|] eqn:Gi.
    - injection Hb as <-. apply (B _ _ Gi).
    - destruct (idx_eqb_spec i bi) as [->|]; [|discriminate Hb]. injection Hb as <-. cbn [new_block b_vps b_size b_origin b_voxels l_vps l_size allocateNewBlock with_blocks].
      split; [reflexivity|]. split; [reflexivity|]. split; [reflexivity|]. rewrite repeat_length, E1. apply num_is, Hn.
  Qed.
  Lemma alloc_get : forall (l : Layer KTsdf) bi i, l_get (allocateBlockPtrByIndex l bi) i =
    match l_get l i with Some b => Some b | None => if idx_eqb i bi then Some (new_block (l_vps l) (l_size l) (new_block_origin (l_vps l) (l_size l) bi)) else None end.
  Proof.
    intros l bi i. unfold allocateBlockPtrByIndex. destruct (l_get l bi) as [b0|] eqn:G.
    - destruct (l_get l i) as [c|] eqn:Gi; [reflexivity|]. destruct (idx_eqb_spec i bi) as [->|]; [congruence | reflexivity].
    - unfold allocateNewBlock, l_get. cbn [l_blocks with_blocks]. apply alookup_ainsert.
  Qed.
  Lemma voxel_at_block : forall (l : Layer KTsdf) g, l_vps l = n -> voxel_at l g = match l_get l (block_of n g) with Some b => nth_error (b_voxels b) (lidx n g) | None => None end.
  Proof. intros l g E. unfold voxel_at. rewrite E. reflexivity. Qed.

  Lemma block_step : forall l bi, shaped l -> (forall g, block_of n g = bi -> close_by (l_size lin) (Tinv (place n s g))) ->
    exists l', tl_block rows top lin Tinv l bi = Ok l' /\ shaped l' /\ block_effect l l' bi /\ forall i, i <> bi -> l_get l' i = l_get l i.
  Proof.
    intros l bi SH CB. unfold tl_block. set (l1 := allocateBlockPtrByIndex l bi).
    pose proof (alloc_shaped l bi SH) as SH1. fold l1 in SH1.
    destruct SH as (BL & EV & ES). pose proof SH1 as SH1'. destruct SH1' as ((S1 & V1 & B1) & EV1 & ES1).
    assert (G1 : exists b, l_get l1 bi = Some b /\ b_has_data b = had l bi /\ forall g, block_of n g = bi -> nth_error (b_voxels b) (lidx n g) = Some (old_voxel_at l g)).
    { unfold l1, had. rewrite alloc_get. destruct (l_get l bi) as [b|] eqn:G.
      - exists b. split; [reflexivity|]. split; [reflexivity|]. intros g Hg. unfold old_voxel_at. rewrite (voxel_at_block l g EV), Hg, G.
        destruct BL as (_ & _ & BL). destruct (BL _ _ G) as (_ & _ & _ & LV). rewrite EV in LV. pose proof (lidx_lt n Hn g) as LT. pose proof (num_is n Hn).
        destruct (nth_error (b_voxels b) (lidx n g)) eqn:N; [reflexivity|]. apply nth_error_None in N. lia.
      - rewrite idx_eqb_refl. eexists. split; [reflexivity|]. split; [reflexivity|]. intros g Hg. cbn [new_block b_voxels].
        unfold old_voxel_at. rewrite (voxel_at_block l g EV), Hg, G. rewrite EV.
        rewrite nth_error_nth' with (d := vdefault KTsdf) by (rewrite repeat_length; apply lidx_lt, Hn). f_equal. apply nth_repeat. }
    destruct G1 as (b & Gb & Hd & Old). rewrite Gb. destruct (B1 _ _ Gb) as (Bv & Bs & Bo & Bl). rewrite EV1 in Bv. rewrite ES1 in Bs. rewrite EV1, ES1 in Bo. rewrite EV1 in Bl.
    assert (One : forall g v, block_of n g = bi -> exists new got, tl_voxel rows top lin Tinv b (lidx n g) v = Ok (new, got) /\ carried D W lin (Tinv (place n s g)) v new got).
    { intros g v Hg. unfold tl_voxel. rewrite Bv, (lidx_index n Hn g). cbn [of_opt rbind]. cbv zeta. rewrite Bo, Bs, <- Hg. fold (place n s g).
      apply (carry_spec rows top HR HT D W lin TF). apply CB, Hg. }
    assert (Bl' : length (b_voxels b) = num_voxels n) by (apply Nat2Z.inj; rewrite (num_is n Hn); exact Bl).
    destruct (voxels_list b (b_voxels b) 0) as (rs & A & L & N).
    { intros k v Hk. destruct (lidx_onto n Hn bi k) as (g & Hg & <-); [rewrite <- Bl'; apply nth_error_Some; cbn [vox] in *; congruence|].
      destruct (One g v Hg) as (nw & gt & E & _). eauto. }
    assert (L' : length rs = num_voxels n) by (rewrite L; exact Bl').
    rewrite A. cbn [rbind fst snd].
    set (new := fun g => fst (nth (lidx n g) rs (vdefault KTsdf, false))). set (got := fun g => snd (nth (lidx n g) rs (vdefault KTsdf, false))).
    assert (NG : forall g, block_of n g = bi -> nth_error rs (lidx n g) = Some (new g, got g) /\ carried D W lin (Tinv (place n s g)) (old_voxel_at l g) (new g) (got g)).
    { intros g Hg. destruct (N _ _ (Old g Hg)) as (r & Nr & Er). cbn [plus] in Er. destruct (One g (old_voxel_at l g) Hg) as (nw & gt & E & C).
      rewrite E in Er. injection Er as <-. unfold new, got. rewrite (nth_error_nth _ _ _ Nr). cbn [fst snd]. auto. }
    rewrite Hd. destruct (had l bi || existsb snd rs) eqn:EH.
    - eexists. split; [reflexivity|]. set (nb := set_has_data true (set_voxels (k := KTsdf) (map fst rs) b)).
      assert (GA : forall i, l_get (with_blocks l1 (aset bi nb (l_blocks l1))) i = if idx_eqb i bi then Some nb else l_get l1 i) by (intros i; unfold l_get; cbn [with_blocks l_blocks]; apply alookup_aset).
      split; [|split].
      + split; [|split; [exact EV1 | exact ES1]]. split; [exact S1|]. split; [exact V1|]. intros i c Hc. rewrite GA in Hc. destruct (idx_eqb_spec i bi) as [->|]; [|apply (B1 _ _ Hc)].
        injection Hc as <-. cbn [nb set_has_data set_voxels b_vps b_size b_origin b_voxels with_blocks l_vps l_size]. rewrite EV1, ES1. split; [exact Bv|]. split; [exact Bs|]. split; [exact Bo|].
        rewrite map_length, L. exact Bl.
      + exists new, got. split; [intros g Hg; apply (NG g Hg)|]. left. split; [|split].
        * apply orb_true_iff in EH. destruct EH as [EH|EH]; [left; exact EH|]. right. apply existsb_exists in EH. destruct EH as (r & Ir & Sr).
          apply In_nth_error in Ir. destruct Ir as (k & Nk).
          destruct (lidx_onto n Hn bi k) as (g & Hg & <-); [rewrite <- L'; apply nth_error_Some; congruence|].
          exists g. split; [exact Hg|]. destruct (NG g Hg) as (E & _). rewrite Nk in E. injection E as ->. exact Sr.
        * exists nb. rewrite GA, idx_eqb_refl. auto.
        * intros g Hg. rewrite voxel_at_block by exact EV1. rewrite Hg, GA, idx_eqb_refl. cbn [nb set_has_data set_voxels b_voxels].
          destruct (NG g Hg) as (E & _). exact (map_nth_error fst _ _ E).
      + intros i Hi. rewrite GA, (idx_eqb_neq i bi Hi). unfold l1. rewrite alloc_get, (idx_eqb_neq i bi Hi). destruct (l_get l i); reflexivity.
    - apply orb_false_iff in EH. destruct EH as (EH1 & EH2).
      assert (GR : forall i, l_get (removeBlock l1 bi) i = if idx_eqb i bi then None else l_get l1 i) by (intros i; unfold l_get, removeBlock; cbn [with_blocks l_blocks]; apply alookup_aerase).
      eexists. split; [reflexivity|]. split; [|split].
      + split; [|split; [exact EV1 | exact ES1]]. split; [exact S1|]. split; [exact V1|]. intros i c Hc. rewrite GR in Hc. destruct (idx_eqb i bi); [discriminate|]. apply (B1 _ _ Hc).
      + exists new, got. split; [intros g Hg; apply (NG g Hg)|]. right. split; [|rewrite GR, idx_eqb_refl; reflexivity]. split; [exact EH1|].
        intros g Hg. destruct (NG g Hg) as (E & _). destruct (got g) eqn:EG; [|reflexivity]. exfalso.
        assert (X : existsb snd rs = true) by (apply existsb_exists; exists (new g, true); split; [eapply nth_error_In, E | reflexivity]). congruence.
      + intros i Hi. rewrite GR, (idx_eqb_neq i bi Hi). unfold l1. rewrite alloc_get, (idx_eqb_neq i bi Hi). destruct (l_get l i); reflexivity.
  Qed.

  Lemma effect_ext : forall (l m l' m' : Layer KTsdf) bi, l_vps l = n -> l_vps m = n -> l_vps l' = n -> l_vps m' = n ->
    l_get l bi = l_get m bi -> l_get l' bi = l_get m' bi -> block_effect l l' bi -> block_effect m m' bi.
  Proof.
    intros l m l' m' bi E1 E2 E3 E4 G G' (new & got & A & B). exists new, got.
    assert (EO : forall g, block_of n g = bi -> old_voxel_at m g = old_voxel_at l g).
    { intros g Hg. unfold old_voxel_at. rewrite !voxel_at_block, Hg, G by assumption. reflexivity. }
    assert (EN : forall g, block_of n g = bi -> voxel_at m' g = voxel_at l' g) by (intros g Hg; rewrite !voxel_at_block, Hg, G' by assumption; reflexivity).
    assert (EHd : had m bi = had l bi) by (unfold had; rewrite G; reflexivity).
    split; [intros g Hg; rewrite (EO g Hg); apply A, Hg|]. rewrite EHd, <- G'. destruct B as [(B1 & B2 & B3)|B]; [left|right; exact B].
    split; [exact B1|]. split; [exact B2|]. intros g Hg. rewrite (EN g Hg). apply B3, Hg.
  Qed.
  Lemma blocks_fold : forall bis l, NoDup bis -> shaped l -> (forall g, In (block_of n g) bis -> close_by (l_size lin) (Tinv (place n s g))) ->
    exists l', rfold (tl_block rows top lin Tinv) bis l = Ok l' /\ shaped l' /\
      (forall bi, In bi bis -> block_effect l l' bi) /\ forall i, ~ In i bis -> l_get l' i = l_get l i.
  Proof.
    induction bis as [|bi bis IH]; intros l ND SH CB; cbn [rfold].
    - exists l. split; [reflexivity|]. split; [exact SH|]. split; [contradiction | reflexivity].
    - apply NoDup_cons_iff in ND. destruct ND as (NI & ND).
      destruct (block_step l bi SH) as (l1 & E1 & SH1 & EF & FR1); [intros g Hg; apply CB; left; auto|]. rewrite E1. cbn [rbind].
      destruct (IH l1 ND SH1) as (l2 & E2 & SH2 & EF2 & FR2); [intros g Hg; apply CB; right; exact Hg|].
      exists l2. split; [exact E2|]. split; [exact SH2|]. split.
      + destruct SH as (_ & EV & _), SH1 as (_ & EV1 & _), SH2 as (_ & EV2 & _).
        intros i [<-|Hi].
        * apply (effect_ext l l l1 l2); auto. symmetry. apply FR2, NI.
        * apply (effect_ext l1 l l2 l2); auto. apply FR1. intros ->. contradiction.
      + intros i Hi. cbn [In] in Hi. rewrite FR2, FR1 by (intros ?; apply Hi; auto). reflexivity.
  Qed.
End Blocks.
