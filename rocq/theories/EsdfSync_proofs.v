(** Proofs about the ESDF server and its subscribers. *)
From Coq Require Import String ZArith List Bool Reals Lra Lia.
From Verif Require Import F32 F32_lemmas Types Index Voxel Serialize Serialize_proofs Assoc Assoc_lemmas Layer Proto LayerIO Threads Threads_proofs MeshInt Queue Planning
  Flags Flags_proofs Connect_proofs Esdf Esdf_proofs Sphere_proofs P_Serialize RosMsg RosMsg_spec RosMsg_proofs EsdfSync EsdfSync_spec.
Import ListNotations.
Open Scope Z_scope.

(** ** What every write of the integrator keeps, an update keeps *)
Section closed.
  Variable P : Layer KEsdf -> Prop.
  Hypothesis Pset : forall l a v, P l -> P (vset (k := KEsdf) l a v).
  Variable c : econfig.
  Notation K st := (P (es_layer st)).
  Lemma k_push st g d st' : open_push st g d = Ok st' -> K st -> K st'.
  Proof. intros E H. rewrite (open_push_layer _ _ _ _ E). exact H. Qed.
  Lemma k_fold A (f : estate -> A -> res estate) : (forall st x st', f st x = Ok st' -> K st -> K st') ->
    forall xs st st', rfold f xs st = Ok st' -> K st -> K st'.
  Proof.
    intros Hf xs. induction xs as [|x xs IH]; intros st st' E H; cbn [rfold] in E; [injection E as <-; exact H|].
    apply rbind_ok in E. destruct E as (s1 & E1 & E2). eauto.
  Qed.
  Lemma k_queue st g a st' : queue_voxel st g a = Ok st' -> K st -> K st'.
  Proof.
    intros E H. unfold queue_voxel in E. apply rbind_ok in E. destruct E as (v & _ & E). apply k_push in E; [exact E|].
    cbn [st_set with_layer es_layer]. apply Pset, H.
  Qed.
  Lemma k_raise st g r : K st -> K (with_raise st r) /\ K (raise_push st g). Proof. auto. Qed.
  Lemma k_neighbors g a : forall ns l l' b, from_neighbors c g a l ns = Ok (l', b) -> P l -> P l'.
  Proof.
    induction ns as [|(off, kd) ns IH]; intros l l' b E H; cbn [from_neighbors] in E; [injection E as <- _; exact H|].
    apply rbind_ok in E. destruct E as ([na|] & _ & E); [|eauto]. apply rbind_ok in E. destruct E as (nv & _ & E).
    apply rbind_ok in E. destruct E as (v & _ & E). destruct (negb _ || _); [eauto|]. destruct (_ && _); [|eauto].
    injection E as <- _. apply Pset, H.
  Qed.
  Lemma k_new inc g a v td st st' : new_voxel c inc g a v td st = Ok st' -> K st -> K st'.
  Proof.
    intros E H. unfold new_voxel in E. cbv zeta in E. apply rbind_ok in E. destruct E as (s3 & E1 & E). apply rbind_ok in E. destruct E as (v3 & _ & E).
    injection E as <-. cbn [st_set with_layer es_layer]. apply Pset.
    assert (H1 : K (if e_hallucinated v then raise_push st g else st)) by (destruct (e_hallucinated v); exact H).
    destruct (isFixed c td); [apply k_queue in E1; [exact E1|cbn [st_set with_layer es_layer]; apply Pset, H1]|].
    destruct inc; [|injection E1 as <-; cbn [st_set with_layer es_layer]; apply Pset, H1].
    apply rbind_ok in E1. destruct E1 as ((l2, b) & E2 & E1). cbn [fst snd] in E1.
    assert (H2 : P l2).
    { unfold updateVoxelFromNeighbors in E2. apply rbind_ok in E2. destruct E2 as ([x|] & _ & E2); [|discriminate E2].
      eapply k_neighbors; [exact E2|]. cbn [st_set with_layer es_layer]. apply Pset, H1. }
    destruct b; [apply k_queue in E1; [exact E1|exact H2]|injection E1 as <-; exact H2].
  Qed.
  Lemma k_old g a v td st st' : old_voxel c g a v td st = Ok st' -> K st -> K st'.
  Proof.
    intros E H. unfold old_voxel in E. cbv zeta in E.
    repeat match type of E with
    | (if ?b then _ else _) = _ => destruct b
    end; try (injection E as <-; exact H); try (injection E as <-; apply Pset, H); apply k_queue in E; try exact E; apply Pset, H.
  Qed.
  Lemma k_voxel inc bi st nt st' : tsdf_voxel c inc bi st nt = Ok st' -> K st -> K st'.
  Proof.
    intros E H. unfold tsdf_voxel in E. destruct nt as (lin, tv). destruct (flt _ _).
    - destruct (_ && _); [|injection E as <-; exact H]. apply rbind_ok in E. destruct E as (v & _ & E). injection E as <-. apply Pset, H.
    - apply rbind_ok in E. destruct E as (v & _ & E). apply rbind_ok in E. destruct E as (vi & _ & E). cbv zeta in E.
      apply rbind_ok in E. destruct E as (s1 & E1 & E). apply rbind_ok in E. destruct E as (v1 & _ & E). injection E as <-.
      cbn [st_set with_layer es_layer]. apply Pset. destruct (negb _ || _); [eapply k_new|eapply k_old]; eauto.
  Qed.
  Lemma k_raise_neighbor g st od st' : raise_neighbor c g st od = Ok st' -> K st -> K st'.
  Proof.
    intros E H. unfold raise_neighbor in E. cbv zeta in E. apply rbind_ok in E. destruct E as ([na|] & _ & E); [|injection E as <-; exact H].
    apply rbind_ok in E. destruct E as (nv & _ & E). destruct (negb _ || _); [injection E as <-; exact H|].
    apply rbind_ok in E. destruct E as ([] & _ & E); [injection E as <-; apply Pset, H|].
    destruct (negb _); [|injection E as <-; exact H]. apply rbind_ok in E. destruct E as (s1 & E1 & E). injection E as <-. apply Pset. eapply k_push; eauto.
  Qed.
  Lemma k_raise_set : forall fuel st st', processRaiseSet c fuel st = Ok (Some st') -> K st -> K st'.
  Proof.
    induction fuel as [|fuel IH]; intros st st' E H; cbn [processRaiseSet] in E; destruct (es_raise st) as [|g r]; try discriminate E;
      try (injection E as <-; exact H). apply rbind_ok in E. destruct E as (s1 & E1 & E2). apply (IH _ _ E2).
    unfold raise_visit in E1. apply rbind_ok in E1. destruct E1 as ([x|] & _ & E1); [|discriminate E1]. eapply (k_fold _ _ (k_raise_neighbor g)); [exact E1|exact H].
  Qed.
  Lemma k_open_neighbor vs g a st od st' : open_neighbor c vs g a st od = Ok st' -> K st -> K st'.
  Proof.
    intros E H. apply open_neighbor_cases in E. destruct E as [->|(na & nv & v & p & d & d' & _ & _ & _ & _ & _ & _ & _ & E)]; [exact H|].
    apply open_store_layer in E. destruct E as (q & _ & ->). apply Pset, H.
  Qed.
  Lemma k_open_set : forall fuel st st', processOpenSet c fuel st = Ok (Some st') -> K st -> K st'.
  Proof.
    induction fuel as [|fuel IH]; intros st st' E H; cbn [processOpenSet] in E; destruct (bq_empty (es_open st)); try discriminate E;
      try (injection E as <-; exact H). apply rbind_ok in E. destruct E as (s1 & E1 & E2). apply (IH _ _ E2).
    apply open_pop_visit in E1. destruct E1 as (q1 & g & q & _ & _ & E1). unfold open_visit in E1. apply rbind_ok in E1. destruct E1 as ([a|] & _ & E1); [|discriminate E1].
    apply rbind_ok in E1. destruct E1 as (v & _ & E1). cbv zeta in E1.
    assert (H1 : K (st_set (with_open st q) a (ev_queue v false))) by (apply Pset, H).
    destruct (_ || _); [injection E1 as <-; exact H1|]. eapply (k_fold _ _ (k_open_neighbor _ g a)); [exact E1|exact H1].
  Qed.
  Hypothesis Palloc : forall l bi, P l -> P (set_block (allocateBlockPtrByIndex l bi) bi (set_updated upd_bool_true)).
  Lemma k_update fuel (t : Layer KTsdf) blocks inc st st' : updateFromTsdfBlocks c fuel t blocks inc st = Ok (Some st') -> K st -> K st'.
  Proof.
    intros E H. unfold updateFromTsdfBlocks in E. destruct (_ =? _); [|discriminate E]. apply rbind_ok in E. destruct E as (s1 & E1 & E).
    apply rbind_ok in E. destruct E as ([s2|] & E2 & E); [|discriminate E]. eapply k_open_set; [exact E|]. eapply k_raise_set; [exact E2|].
    eapply k_fold; [|exact E1|exact H]. intros s0 bi s0' E0 H0. unfold tsdf_block in E0. destruct (l_get t bi) as [tb|]; [|injection E0 as <-; exact H0].
    cbv zeta in E0. eapply k_fold; [|exact E0|]; [intros; eapply k_voxel; eauto|]. cbn [with_layer es_layer]. apply Palloc, H0.
  Qed.
End closed.

(** ** The ESDF map and its subscribers *)
Section history.
  Variables (size : f32) (vps : Z).
  Hypothesis SANE : sane_map size vps.
  Definition block_good (b : Block KEsdf) : Prop := length (b_voxels b) = num_voxels vps /\ upd_get (b_updated b) kMap = true.
  Record emap_inv (l : Layer KEsdf) : Prop := MkEMI {
    em_nd : NoDup (getAllAllocatedBlocks l); em_size : l_size l = size; em_vps : l_vps l = vps;
    em_good : forall i b, l_get l i = Some b -> block_good b }.
  Definition esub_inv (b : Layer KEsdf) : Prop := fits b /\ l_size b = size /\ l_vps b = vps.
  Definition ecovers (a b : Layer KEsdf) : Prop := forall i vs, voxels_at a i = Some vs -> voxels_at b i = Some (map esdf_after vs).
  Definition eno_extra (a b : Layer KEsdf) : Prop := forall i, l_get a i = None -> l_get b i = None.

  Lemma eset_block : forall (l : Layer KEsdf) i f, emap_inv l -> (forall b, block_good b -> block_good (f b)) -> emap_inv (set_block l i f).
  Proof.
    intros l i f [ND S V G] H. destruct (set_block_dim l i f) as (D1 & D2). constructor; [apply set_block_nodup, ND|congruence|congruence|].
    intros j b. rewrite set_block_get. destruct (idx_eqb_spec j i) as [->|]; [|apply G].
    destruct (l_get l i) as [b0|] eqn:E; [|discriminate]. cbn [option_map]. intros Q. injection Q as <-. apply H, (G i b0 E).
  Qed.
  Lemma evset : forall (l : Layer KEsdf) a v, emap_inv l -> emap_inv (vset (k := KEsdf) l a v).
  Proof.
    intros l a v I. change (vset (k := KEsdf) l a v) with (set_block (k := KEsdf) l (fst a) (fun b => set_voxels (k := KEsdf) (set_th (snd a) v (b_voxels b)) b)).
    apply eset_block; [exact I|]. intros b (L & F). split; [|exact F]. cbn [set_voxels b_voxels]. rewrite set_th_length. exact L.
  Qed.
  Lemma ealloc : forall (l : Layer KEsdf) bi, emap_inv l -> emap_inv (set_block (allocateBlockPtrByIndex l bi) bi (set_updated upd_bool_true)).
  Proof.
    intros l bi [ND S V G]. destruct (set_block_dim (allocateBlockPtrByIndex l bi) bi (set_updated upd_bool_true)) as (D1 & D2).
    destruct (Sphere_proofs.alloc_dims _ l bi) as (A1 & A2). constructor; [apply set_block_nodup, alloc_nodup, ND|congruence|congruence|].
    intros j b. rewrite set_block_get, !Sphere_proofs.alloc_get, idx_eqb_refl. destruct (idx_eqb_spec j bi) as [->|N].
    - destruct (l_get l bi) as [b0|] eqn:E0; cbn [option_map]; intros Q; injection Q as <-.
      + destruct (G bi b0 E0). split; [assumption|reflexivity].
      + split; [|reflexivity]. cbn [set_updated b_voxels new_block]. rewrite <- V. apply repeat_length.
    - destruct (l_get l j) as [b0|] eqn:E0; [|discriminate]. intros Q. injection Q as <-. apply (G j b0 E0).
  Qed.
  Lemma esub_map : forall (l : Layer KEsdf) m, emap_inv l -> NoDup (akeys m) -> (forall i b, alookup i m = Some b -> l_get l i = Some b) -> emap_inv (with_blocks l m).
  Proof. intros l m [ND S V G] N H. constructor; [exact N|exact S|exact V|]. intros i b Q. apply (G i b), H, Q. Qed.
  Lemma eload : forall (l : Layer KEsdf) p ok l', emap_inv l -> addBlockFromProto l p kReplace = Ok (ok, l') ->
    emap_inv l' /\ forall i, l_get l' i = None -> l_get l i = None.
  Proof.
    intros l p ok l' [ND S1 V1 G0] E. unfold addBlockFromProto in E. destruct (isCompatible_block l p) eqn:IC; [|injection E as _ <-; split; [constructor; assumption|auto]].
    apply rbind_ok in E. destruct E as (b & Eb & E). apply rbind_ok in E. destruct E as (i & _ & E). cbn [rbind] in E. injection E as _ <-.
    unfold block_of_proto in Eb. apply rbind_ok in Eb. destruct Eb as (vs & Ev & Eb). injection Eb as <-. destruct SANE as (_ & V).
    assert (Vp : u64 (bp_vps p) = vps).
    { unfold isCompatible_block in IC. apply andb_prop in IC. destruct IC as (_ & IC). apply Z.eqb_eq in IC. rewrite IC, V1. unfold wrap32, u64. rewrite (Z.mod_small (vps + 2 ^ 31)) by lia. rewrite Z.mod_small by lia. lia. }
    rewrite Vp in Ev. assert (LD : length (bp_data p) = (num_voxels vps * wpv KEsdf)%nat).
    { unfold deserializeFromIntegers in Ev. destruct (Nat.eqb_spec (num_voxels vps * wpv KEsdf) (length (bp_data p))); [congruence|discriminate]. }
    destruct (C09_right_length_loads KEsdf _ _ LD) as (vs' & E' & L' & O'). rewrite Ev in E'. injection E' as <-.
    set (b := set_voxels vs _). set (mm := mark_updated i (aset i b (l_blocks l))).
    split.
    - constructor; [|exact S1|exact V1|].
      + unfold getAllAllocatedBlocks. cbn [with_blocks l_blocks]. unfold mm, mark_updated. rewrite alookup_aset, idx_eqb_refl. apply NoDup_aset, NoDup_aset, ND.
      + intros j x. unfold l_get. cbn [with_blocks l_blocks]. unfold mm, mark_updated. rewrite alookup_aset, idx_eqb_refl. rewrite !alookup_aset. destruct (idx_eqb_spec j i) as [->|N].
        * intros Q. injection Q as <-. split; [exact L'|reflexivity].
        * apply G0.
    - intros j H. unfold l_get in H. cbn [with_blocks l_blocks] in H. unfold mm, mark_updated in H. rewrite alookup_aset, idx_eqb_refl, !alookup_aset in H.
      destruct (idx_eqb j i); [discriminate|exact H].
  Qed.
  Lemma eerase : forall (l : Layer KEsdf) p d, emap_inv l -> emap_inv (removeDistantBlocks l p d).
  Proof.
    intros l p d I. unfold removeDistantBlocks. apply esub_map; [exact I| |]; pose proof (em_nd _ I) as ND; revert ND; unfold getAllAllocatedBlocks, l_get;
      generalize (l_blocks l); induction (needs_erasing l p d) as [|j is IH]; cbn [fold_left]; auto; intros m N.
    - apply IH. apply NoDup_map_filter. exact N.
    - intros i b Q. specialize (IH (aerase j m) ltac:(apply NoDup_map_filter; exact N) i b Q). rewrite alookup_aerase in IH. destruct (idx_eqb i j); [discriminate|exact IH].
  Qed.

  (** a message of the whole map, at one subscriber *)
  Lemma etransfer : forall (a b : Layer KEsdf) action m, emap_inv a -> esub_inv b ->
    m = MkLM (f64_of_f32 (l_size a)) (u32 (l_vps a)) (voxel_type KEsdf) action (msg_blocks (l_blocks a)) -> action = aUpdate \/ action = aReset ->
    exists b', applyMsg m b = Ok (true, b') /\ esub_inv b' /\ ecovers a b' /\
      (action = aReset \/ eno_extra a b -> eno_extra a b').
  Proof.
    intros a b action m [NDa Sa Va CA] (Fb & Sb & Vb) -> HA. unfold applyMsg. cbn [lm_action]. rewrite Sa, Va. destruct SANE as (Fs & Vs).
    set (m := MkLM _ _ _ _ _).
    assert (FL : for_layer m b).
    { unfold for_layer, m. cbn [lm_type lm_vps lm_size]. rewrite (u32_small _ Vs), Sb. destruct (f64_of_f32_R _ Fs) as (E1 & E2). rewrite E1.
      split; [reflexivity|]. split; [congruence|]. split; [exact E2|]. split; [exact Fs|]. rewrite Rminus_diag_eq by reflexivity. rewrite Rabs_R0. lra. }
    assert (LK : forall kv, In kv (l_blocks a) -> l_get a (fst kv) = Some (snd kv)) by (intros (i, x) I; apply alookup_NoDup; assumption).
    assert (WF : well_formed KEsdf m).
    { split; [unfold indices, m; cbn [lm_blocks]; rewrite msg_indices; exact NDa|]. apply Forall_forall. intros x I. unfold m in *. cbn [lm_blocks lm_vps] in *.
      apply in_map_iff in I. destruct I as (kv & <- & I). cbn [bm_data]. rewrite serialize_length, (proj1 (CA _ _ (LK _ I))), (u32_small _ Vs). reflexivity. }
    destruct (deserialize_ok KEsdf action b m Fb FL WF) as (b' & E & F' & V' & S' & U & R). exists b'. split; [exact E|].
    split; [split; [exact F'|split; congruence]|]. split.
    - intros i vs H. unfold voxels_at in H. destruct (l_get a i) as [ba|] eqn:Ea; [|discriminate]. injection H as <-.
      pose proof (alookup_In _ _ _ Ea) as I. destruct (R (MkBM i (serializeToIntegers KEsdf (b_voxels ba)))) as (vs & C & G).
      { unfold m. cbn [lm_blocks]. unfold msg_blocks. apply in_map_iff. exists (i, ba). split; [reflexivity|exact I]. }
      cbn [bm_data bm_index] in *. destruct (CA i ba Ea) as (L & _). unfold content in C. rewrite Vb, <- L in C. pose proof (roundtrip_esdf (b_voxels ba)) as RT. cbn [vox] in *. rewrite RT in C. injection C as <-.
      unfold voxels_at. rewrite G. cbn [option_map]. f_equal. unfold received. destruct (l_get (if action =? aReset then removeAllBlocks b else b) i) as [b0|] eqn:Eb0; [|reflexivity].
      destruct HA as [-> | ->]; [reflexivity|]. change (l_get (removeAllBlocks b) i) with (@None (Block KEsdf)) in Eb0. discriminate.
    - intros Q i H. rewrite U.
      + destruct HA as [-> | ->]; [|reflexivity]. destruct Q as [Q|Q]; [discriminate Q|]. apply Q, H.
      + unfold indices, m. cbn [lm_blocks]. rewrite msg_indices. apply alookup_None. exact H.
  Qed.
  Lemma edeliver : forall a action m subs acc, emap_inv a -> Forall esub_inv subs ->
    m = MkLM (f64_of_f32 (l_size a)) (u32 (l_vps a)) (voxel_type KEsdf) action (msg_blocks (l_blocks a)) -> action = aUpdate \/ action = aReset ->
    exists subs', rfold (fun acc s => rbind (applyMsg m s) (fun r => Ok (acc ++ [snd r]))) subs acc = Ok (acc ++ subs') /\
      length subs' = length subs /\ Forall esub_inv subs' /\ Forall (ecovers a) subs' /\
      (action = aReset \/ Forall (eno_extra a) subs -> Forall (eno_extra a) subs').
  Proof.
    intros a action m subs. induction subs as [|b subs IH]; intros acc MI H Em HA.
    - exists []. cbn [rfold]. rewrite app_nil_r. repeat split; auto.
    - apply Forall_cons_iff in H. destruct H as (Hb & H).
      destruct (etransfer a b action m MI Hb Em HA) as (b' & E & F' & C & N).
      destruct (IH (acc ++ [b']) MI H Em HA) as (subs' & E' & L & I & CV & NX). exists (b' :: subs'). cbn [rfold]. rewrite E. cbn [rbind snd]. rewrite E', <- app_assoc.
      split; [reflexivity|]. split; [cbn [length]; congruence|]. split; [constructor; assumption|]. split; [constructor; assumption|].
      intros Q. constructor.
      + apply N. destruct Q as [Q|Q]; [left; exact Q|right]. apply Forall_cons_iff in Q. apply Q.
      + apply NX. destruct Q as [Q|Q]; [left; exact Q|right]. apply Forall_cons_iff in Q. apply Q.
  Qed.
  Definition einv (s : esdf_server) : Prop := emap_inv (es_map s) /\ Forall esub_inv (es_subs s).
  Definition eextra_free (s : esdf_server) : Prop := Forall (eno_extra (es_map s)) (es_subs s).
  Lemma epublish : forall reset s, einv s -> exists n subs', publishEsdf reset s = Ok (MkESrv (es_base s) (es_st s) n subs') /\
    length subs' = length (es_subs s) /\ Forall esub_inv subs' /\ Forall (ecovers (es_map s)) subs' /\ (reset = true \/ eextra_free s -> Forall (eno_extra (es_map s)) subs').
  Proof.
    intros reset s (MI & SI). unfold publishEsdf. destruct (0 <? Z.of_nat (length (es_subs s))) eqn:L.
    - set (r := reset || _). rewrite (serialize_msg KEsdf (es_map s) (negb r) aUpdate (em_nd _ MI) (fun _ i b H => proj2 (em_good _ MI i b H))). cbn [rbind lm_size lm_vps lm_type lm_blocks].
      destruct (edeliver (es_map s) (if r then aReset else aUpdate)
        (if r then MkLM (f64_of_f32 (l_size (es_map s))) (u32 (l_vps (es_map s))) (voxel_type KEsdf) aReset (msg_blocks (l_blocks (es_map s)))
         else MkLM (f64_of_f32 (l_size (es_map s))) (u32 (l_vps (es_map s))) (voxel_type KEsdf) aUpdate (msg_blocks (l_blocks (es_map s)))) (es_subs s) [] MI SI)
        as (subs' & E & LE & I & CV & NX); [destruct r; reflexivity|destruct r; auto|].
      unfold deliver_esdf. rewrite E. cbn [rbind app]. eexists _, _. split; [reflexivity|]. split; [exact LE|]. split; [exact I|]. split; [exact CV|].
      intros Q. apply NX. destruct Q as [-> | Q]; [left; reflexivity|right; exact Q].
    - assert (E : es_subs s = []). { destruct (es_subs s); [reflexivity|]. apply Z.ltb_ge in L. cbn [length] in L. lia. }
      eexists _, _. split; [reflexivity|]. rewrite E. auto.
  Qed.

  (** both publications *)
  Variable c : econf.
  Notation binv := (RosMsg_proofs.inv size vps).
  Lemma both_esdf : forall reset s s', einv s -> publishBoth c reset s = Ok s' ->
    einv s' /\ es_map s' = es_map s /\ (ec_esdf_pub c = true -> Forall (ecovers (es_map s)) (es_subs s')) /\
    (eextra_free s -> eextra_free s') /\ (ec_esdf_pub c = true -> reset = true -> eextra_free s').
  Proof.
    intros reset s s' I E. unfold publishBoth in E. destruct (ec_esdf_pub c); cbn [negb] in E.
    - destruct (epublish reset s I) as (n & subs' & E1 & _ & SI & CV & NX). rewrite E1 in E. cbn [rbind] in E.
      apply rbind_ok in E. destruct E as (b & _ & E). injection E as <-. unfold eextra_free, einv, es_map in *. cbn [with_base es_st es_subs].
      split; [split; [apply I|exact SI]|]. split; [reflexivity|]. auto.
    - injection E as <-. split; [exact I|]. split; [reflexivity|]. split; [discriminate|]. split; [auto|discriminate].
  Qed.
  Lemma both_tsdf : forall reset s s', binv (es_base s) -> publishBoth c reset s = Ok s' ->
    binv (es_base s') /\ sv_map (es_base s') = sv_map (es_base s) /\
    (ec_esdf_pub c = true -> ec_tsdf_pub c = true -> Forall (covers (sv_map (es_base s))) (sv_subs (es_base s'))) /\
    (extra_free (es_base s) -> extra_free (es_base s')).
  Proof.
    intros reset s s' I E. unfold publishBoth in E. destruct (ec_esdf_pub c); cbn [negb] in E; [|injection E as <-; split; [exact I|]; split; [reflexivity|]; split; [discriminate|auto]].
    apply rbind_ok in E. destruct E as (s1 & E1 & E). apply rbind_ok in E. destruct E as (b & E2 & E). injection E as <-. cbn [with_base es_base].
    assert (EB : es_base s1 = es_base s).
    { unfold publishEsdf in E1. destruct (0 <? _); [|injection E1 as <-; reflexivity]. apply rbind_ok in E1. destruct E1 as (m & _ & E1). cbv zeta in E1.
      apply rbind_ok in E1. destruct E1 as (subs & _ & E1). injection E1 as <-. reflexivity. }
    rewrite EB in E2. unfold publishTsdf in E2. destruct (ec_tsdf_pub c); [|injection E2 as <-; split; [exact I|]; split; [reflexivity|]; split; [discriminate|auto]].
    destruct (publish_ok size vps false (es_base s) I) as (b' & E' & I' & M' & C' & X'). rewrite E' in E2. injection E2 as <-.
    split; [exact I'|]. split; [exact M'|]. split; [auto|]. unfold extra_free. rewrite M'. auto.
  Qed.
  (** publishing does not fail *)
  Lemma both_ok : forall reset s, einv s -> binv (es_base s) -> exists s', publishBoth c reset s = Ok s' /\
    length (es_subs s') = length (es_subs s) /\ length (sv_subs (es_base s')) = length (sv_subs (es_base s)).
  Proof.
    intros reset s I B. unfold publishBoth. destruct (ec_esdf_pub c); cbn [negb]; [|exists s; auto].
    destruct (epublish reset s I) as (n & subs' & E1 & L & _). rewrite E1. cbn [rbind es_base]. unfold publishTsdf.
    destruct (ec_tsdf_pub c); [|eexists; cbn [rbind]; split; [reflexivity|]; auto].
    destruct (publish_ok size vps false (es_base s) B) as (b' & E' & _). rewrite E'. cbn [rbind]. eexists. split; [reflexivity|]. cbn [with_base es_subs es_base].
    split; [exact L|]. clear - E'. unfold publishMap in E'. destruct (0 <? _); [|injection E' as <-; reflexivity]. apply rbind_ok in E'. destruct E' as (m & _ & E').
    cbv zeta in E'. apply rbind_ok in E'. destruct E' as (subs & D & E'). injection E' as <-. cbn [sv_subs]. unfold deliver in D.
    assert (G : forall m' bs acc subs, rfold (fun acc s => rbind (applyMsg m' s) (fun r => Ok (acc ++ [snd r]))) bs acc = Ok subs ->
      length subs = (length acc + length (bs : list (Layer KTsdf)))%nat).
    { clear. intros m'. induction bs as [|b bs IH]; intros acc subs D; cbn [rfold] in D; [injection D as <-; cbn; lia|].
      apply rbind_ok in D. destruct D as (acc' & D1 & D). apply rbind_ok in D1. destruct D1 as (r & _ & D1). injection D1 as <-. rewrite (IH _ _ D), app_length. cbn [length]. lia. }
    exact (G _ _ _ _ D).
  Qed.

  Lemma estep : forall fuel s e s', einv s -> gets_esdf e = false -> (poses e = true -> ec_sphere c = false) ->
    esdf_step c fuel s e = Ok (Some s') ->
    einv s' /\ (ec_esdf_pub c = true -> poses e = false -> rebuilds e = false -> eextra_free s -> eextra_free s').
  Proof.
    intros fuel s e s' (MI & SI) R PS E.
    assert (Grow : forall l, (forall i, l_get l i = None -> l_get (es_map s) i = None) -> eextra_free s -> Forall (eno_extra l) (es_subs s)).
    { intros l H X. eapply Forall_impl; [|exact X]. intros b Hb i Q. apply Hb, H, Q. }
    set (P0 := fun l : Layer KEsdf => forall i, l_get l i = None -> l_get (es_map s) i = None).
    assert (Pset : forall l a v, P0 l -> P0 (vset (k := KEsdf) l a v)).
    { intros l a v H i Q. rewrite vset_get in Q. destruct (idx_eqb_spec i (fst a)) as [Ei|]; [rewrite Ei|apply H, Q]. destruct (l_get l (fst a)) eqn:G; [discriminate|apply H, G]. }
    assert (Palloc : forall l bi, P0 l -> P0 (set_block (allocateBlockPtrByIndex l bi) bi (set_updated upd_bool_true))).
    { intros l bi H i Q. rewrite set_block_get, !Sphere_proofs.alloc_get, idx_eqb_refl in Q. destruct (idx_eqb_spec i bi) as [Ei|].
      - destruct (l_get l bi) eqn:G; discriminate Q.
      - destruct (l_get l i) eqn:G; [discriminate|apply H, G]. }
    destruct e as [e| | |p|p| | |m| |j]; cbn [esdf_step gets_esdf] in *; try discriminate R.
    - apply rbind_ok in E. destruct E as (b & _ & E). injection E as <-. split; [split; [exact MI|exact SI]|]. auto.
    - destruct (0 <? _); [|injection E as <-; split; [split|]; auto]. apply rbind_ok in E. destruct E as ([(t, st)|] & E1 & E); [|discriminate E]. injection E as <-.
      unfold updateFromTsdfLayer in E1. apply rbind_ok in E1. destruct E1 as ([st1|] & E1 & E2); [|discriminate E2]. injection E2 as _ <-.
      split; [split; [|exact SI]|].
      + cbn [es_map with_st es_st]. refine (k_update emap_inv evset (ec_int c) ealloc _ _ _ _ _ _ E1 _). exact MI.
      + intros _ _ _ X. unfold eextra_free in *. cbn [es_map with_st es_st es_subs with_base]. apply Grow; [|exact X].
        refine (k_update P0 Pset (ec_int c) Palloc _ _ _ _ _ _ E1 _). intros i Q. exact Q.
    - apply rbind_ok in E. destruct E as ([st|] & E1 & E); [|discriminate E]. injection E as <-. split; [split; [|exact SI]|intros _ _ Q; discriminate Q].
      unfold updateFromTsdfLayerBatch in E1. refine (k_update emap_inv evset (ec_int c) ealloc _ _ _ _ _ _ E1 _). cbn [with_updated with_layer es_layer].
      apply esub_map; [exact MI|constructor|discriminate].
    - specialize (PS eq_refl). rewrite PS in E. cbn [rbind] in E. injection E as <-. split; [split; [|exact SI]|intros _ Q; discriminate Q].
      cbn [es_map with_st es_st with_layer es_layer]. apply eerase. exact MI.
    - apply rbind_ok in E. destruct E as ((ok, l) & E1 & E). injection E as <-. destruct (eload _ _ _ _ MI E1) as (I1 & K1). split; [split; [exact I1|exact SI]|].
      intros _ _ _ X. unfold eextra_free. cbn [es_map with_map with_st es_st with_layer es_layer es_subs snd]. apply Grow; [exact K1|exact X].
    - apply rbind_ok in E. destruct E as (s2 & E1 & E). injection E as <-. unfold clearBoth in E1. cbv zeta in E1. set (s1 := with_base _ _) in E1.
      assert (I1 : einv s1). { split; [|exact SI]. apply esub_map; [exact MI|constructor|discriminate]. }
      apply rbind_ok in E1. destruct E1 as (sm & E0 & E1).
      assert (Im : einv sm). { destruct (ec_tsdf_pub c); [|injection E0 as <-; exact I1]. apply (both_esdf _ _ _ I1 E0). }
      destruct (both_esdf _ _ _ Im E1) as (I2 & _ & _ & _ & X). split; [exact I2|]. intros Pub _ _ _. apply X; auto.
    - apply rbind_ok in E. destruct E as (s2 & E1 & E). injection E as <-. destruct (both_esdf _ _ _ (conj MI SI) E1) as (I1 & _ & _ & X & _). auto.
    - injection E as <-. split.
      + split; [exact MI|]. cbn [es_subs]. apply Forall_app. split; [exact SI|]. constructor; [|constructor].
        destruct MI as [ND S V G]. destruct SANE as (Fs & _). split; [|split; [exact S|exact V]]. split; [constructor|]. split; [|discriminate].
        change (fnan (l_size (es_map s)) = false). rewrite S. apply fin_not_nan, Fs.
      + intros _ _ _ X. unfold eextra_free in *. cbn [es_map es_st es_subs]. apply Forall_app. split; [exact X|]. constructor; [|constructor]. intros i _. reflexivity.
    - injection E as <-. split.
      + split; [exact MI|]. cbn [es_subs]. apply Forall_drop, SI.
      + intros _ _ _ X. unfold eextra_free in *. cbn [es_map es_st es_subs]. apply Forall_drop, X.
  Qed.
  Lemma bstep : forall fuel s e s', binv (es_base s) -> usual_e e -> gets_tsdf e = false ->
    esdf_step c fuel s e = Ok (Some s') ->
    binv (es_base s') /\ (poses e = false -> clears e = false -> extra_free (es_base s) -> extra_free (es_base s')).
  Proof.
    intros fuel s e s' I U R E.
    destruct e as [e| | |p|p| | |m| |j]; cbn [esdf_step gets_tsdf usual_e] in *.
    - apply rbind_ok in E. destruct E as (b & E1 & E). injection E as <-. cbn [with_base es_base].
      destruct (base_only e) eqn:BO; [|injection E1 as <-; auto]. destruct (step_inv size vps _ _ _ I U R E1) as (I1 & X). split; [exact I1|].
      intros _ _. apply X. destruct e; try reflexivity. discriminate BO.
    - destruct (0 <? _); [|injection E as <-; auto]. apply rbind_ok in E. destruct E as ([(t, st)|] & E1 & E); [|discriminate E]. injection E as <-.
      unfold updateFromTsdfLayer in E1. apply rbind_ok in E1. destruct E1 as ([st1|] & _ & E2); [|discriminate E2]. injection E2 as <- _.
      cbn [with_st with_base es_base]. destruct I as [MI SI].
      set (blocks := _ ++ _). assert (G : forall bs l, map_inv size vps l -> let l' := fold_left (fun t i => set_block t i (fun b => set_updated (upd_reset (b_updated b) kEsdf) b)) bs l in
        map_inv size vps l' /\ forall i, l_get l' i = None -> l_get l i = None).
      { clear - SANE. induction bs as [|b bs IH]; intros l M; cbn [fold_left]; [auto|].
        assert (M1 : map_inv size vps (set_block l b (fun b => set_updated (upd_reset (b_updated b) kEsdf) b))).
        { apply set_block_inv; [exact M|]. intros x _ L O F. cbn [set_updated b_voxels b_updated]. split; [exact L|]. split; [exact O|]. rewrite reset_other; [exact F|discriminate]. }
        destruct (IH _ M1) as (I1 & I2). split; [exact I1|]. intros i Q. specialize (I2 i Q). rewrite set_block_get in I2.
        destruct (idx_eqb_spec i b) as [Ei|]; [rewrite Ei|exact I2]. destruct (l_get l b); [discriminate|reflexivity]. }
      destruct (G blocks _ MI) as (M1 & K1). split; [constructor; assumption|]. intros _ _ X. unfold extra_free in *. cbn [on_map sv_map sv_subs].
      eapply Forall_impl; [|exact X]. intros b Hb i Q. apply Hb, K1, Q.
    - apply rbind_ok in E. destruct E as ([st|] & E1 & E); [|discriminate E]. injection E as <-. auto.
    - apply rbind_ok in E. destruct E as ([st|] & E1 & E); [|discriminate E]. injection E as <-. cbn [with_st es_base with_base]. split; [|intros Q; discriminate Q].
      apply (step_inv size vps (es_base s) (EvRemoveDistant p (ec_body c)) _ I Logic.I eq_refl eq_refl).
    - apply rbind_ok in E. destruct E as ((ok, l) & E1 & E). injection E as <-. auto.
    - apply rbind_ok in E. destruct E as (s2 & E1 & E). injection E as <-. unfold clearBoth in E1. cbv zeta in E1. set (s1 := with_base _ _) in E1.
      assert (I1 : binv (es_base s1)). { destruct I as [MI SI]. constructor; [|exact SI]. apply sub_map_inv; [exact MI|constructor|discriminate]. }
      apply rbind_ok in E1. destruct E1 as (sm & E0 & E1).
      assert (Im : binv (es_base sm)). { destruct (ec_tsdf_pub c); [|injection E0 as <-; exact I1]. apply (both_tsdf _ _ _ I1 E0). }
      split; [apply (both_tsdf _ _ _ Im E1)|intros _ Q; discriminate Q].
    - apply rbind_ok in E. destruct E as (s2 & E1 & E). injection E as <-. destruct (both_tsdf _ _ _ I E1) as (I1 & _ & _ & X). auto.
    - apply rbind_ok in E. destruct E as ((ok, l) & E1 & E). injection E as <-. auto.
    - injection E as <-. auto.
    - injection E as <-. auto.
  Qed.
  (** runs *)
  Lemma erun : forall fuel es s s', einv s -> existsb gets_esdf es = false -> (existsb poses es = true -> ec_sphere c = false) ->
    esdf_run c fuel es s = Ok (Some s') ->
    einv s' /\ (ec_esdf_pub c = true -> existsb poses es = false -> existsb rebuilds es = false -> eextra_free s -> eextra_free s').
  Proof.
    intros fuel es. induction es as [|e es IH]; intros s s' I R PS E; cbn [esdf_run] in E; [injection E as <-; auto|].
    apply rbind_ok in E. destruct E as ([s1|] & E1 & E); [|discriminate E]. cbn [existsb] in *. apply orb_false_iff in R. destruct R as (R1 & R2).
    destruct (estep _ _ _ _ I R1 ltac:(intros Q; apply PS; rewrite Q; reflexivity) E1) as (I1 & X1).
    destruct (IH _ _ I1 R2 ltac:(intros Q; apply PS; rewrite Q; apply orb_true_r) E) as (I2 & X2). split; [exact I2|].
    intros Pub P B X. apply orb_false_iff in P, B. destruct P, B. auto.
  Qed.
  Lemma brun : forall fuel es s s', binv (es_base s) -> Forall usual_e es -> existsb gets_tsdf es = false ->
    esdf_run c fuel es s = Ok (Some s') ->
    binv (es_base s') /\ (existsb poses es = false -> existsb clears es = false -> extra_free (es_base s) -> extra_free (es_base s')).
  Proof.
    intros fuel es. induction es as [|e es IH]; intros s s' I U R E; cbn [esdf_run] in E; [injection E as <-; auto|].
    apply rbind_ok in E. destruct E as ([s1|] & E1 & E); [|discriminate E]. cbn [existsb] in *. apply orb_false_iff in R. destruct R as (R1 & R2).
    apply Forall_cons_iff in U. destruct U as (U1 & U2). destruct (bstep _ _ _ _ I U1 R1 E1) as (I1 & X1).
    destruct (IH _ _ I1 U2 R2 E) as (I2 & X2). split; [exact I2|]. intros P B X. apply orb_false_iff in P, B. destruct P, B. auto.
  Qed.
  Lemma enew : forall s, esdf_server_new c size vps = Ok s -> einv s /\ eextra_free s /\ binv (es_base s) /\ extra_free (es_base s).
  Proof.
    intros s E. unfold esdf_server_new in E. cbv zeta in E. apply rbind_ok in E. destruct E as (st & E1 & E). injection E as <-.
    unfold esdf_new in E1. destruct (_ && _); [|discriminate E1]. injection E1 as <-. cbn [es_base].
    split; [split; [constructor; [constructor|reflexivity|reflexivity|discriminate]|constructor]|]. split; [constructor|].
    split; [apply new_inv, SANE|constructor].
  Qed.
  Lemma after_same v : same_voxel v (esdf_after v). Proof. repeat split. Qed.
  Lemma covers_all a b : ecovers a b -> has_all a b.
  Proof.
    intros H i vs Q. exists (map esdf_after vs). split; [apply H, Q|]. clear. induction vs as [|v vs IH]; constructor; auto using after_same.
  Qed.
End history.
