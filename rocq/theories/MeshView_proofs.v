(** A viewer fed with mesh messages. *)
From Coq Require Import ZArith Reals List Bool Lia Lra.
From Flocq Require Import Core Binary.
From Verif Require Import F32 F32_lemmas F32_err Types Index Index_float Voxel Assoc Assoc_lemmas Layer Planning Marching
  MeshInt Mesh_spec MeshInt_proofs MeshLayer_proofs Connect_proofs Intensity_spec P_Mesh MeshMsg MeshMsg_spec MeshMsg_proofs MeshReach_proofs.
Import ListNotations.
Ltac Zify.zify_post_hook ::= idtac.

Lemma zip3l_len xs : forall ys zs qs, zip3l xs ys zs = Some qs -> length qs = length xs.
Proof.
  induction xs as [|x xs IH]; intros ys zs qs E; cbn in E; [injection E as <-; reflexivity|].
  destruct ys as [|y ys], zs as [|z zs]; try discriminate. destruct (zip3l xs ys zs) as [qs'|] eqn:E'; [|discriminate].
  injection E as <-. cbn. f_equal. eapply IH; exact E'.
Qed.
Lemma decode_len e b ps : decode_block e b = Ok ps -> length ps = length (mb_x b).
Proof.
  unfold decode_block. destruct (zip3l _ _ _) as [qs|] eqn:E; cbn; [|discriminate]. intros H. injection H as <-.
  rewrite map_length. eapply zip3l_len; exact E.
Qed.
Lemma show_block_ok e w b ps : decode_block e b = Ok ps ->
  exists w', show_block e w b = Ok w' /\ shown w' (mb_index b) = ps /\ forall i, i <> mb_index b -> shown w' i = shown w i.
Proof.
  intros E. unfold show_block. rewrite E. cbn [rbind]. eexists. split; [reflexivity|].
  pose proof (decode_len e b ps E) as L. unfold shown. split.
  - destruct (alookup (mb_index b) w) eqn:Ew.
    + destruct (mb_x b) as [|x xs]; cbn [nonempty].
      * rewrite alookup_aerase, idx_eqb_refl. destruct ps; [reflexivity|discriminate].
      * rewrite alookup_aset, idx_eqb_refl. reflexivity.
    + rewrite alookup_ainsert, Ew, idx_eqb_refl. reflexivity.
  - intros i N. destruct (alookup (mb_index b) w) eqn:Ew.
    + destruct (nonempty (mb_x b)); [rewrite alookup_aset|rewrite alookup_aerase]; rewrite idx_eqb_neq by exact N; reflexivity.
    + rewrite alookup_ainsert, (idx_eqb_neq _ _ N). destruct (alookup i w); reflexivity.
Qed.
Lemma show_blocks_ok e : forall bl w, NoDup (map mb_index bl) -> (forall b, In b bl -> exists ps, decode_block e b = Ok ps) ->
  exists w', rfold (show_block e) bl w = Ok w' /\ (forall i, ~ In i (map mb_index bl) -> shown w' i = shown w i) /\
    forall b ps, In b bl -> decode_block e b = Ok ps -> shown w' (mb_index b) = ps.
Proof.
  induction bl as [|b bl IH]; intros w ND H; cbn [rfold].
  - exists w. split; [reflexivity|]. split; [auto|intros b ps []].
  - cbn [map] in ND. inversion ND as [|? ? N ND']; subst. destruct (H b (or_introl eq_refl)) as (ps & E).
    destruct (show_block_ok e w b ps E) as (w1 & E1 & S1 & O1). rewrite E1. cbn [rbind].
    destruct (IH w1 ND') as (w' & E' & O' & S').
    { intros c Hc. apply H. now right. }
    exists w'. split; [exact E'|]. split.
    + intros i Hi. cbn [map In] in Hi. rewrite O' by tauto. apply O1. intros ->. tauto.
    + intros c qs [<- | Hc] Ec; [|now apply S']. rewrite O' by exact N. congruence.
Qed.

(** one message brings the viewer up to date with the meshes it describes *)
Lemma message_shown mode bs mm w : wide_size bs -> NoDup (akeys mm) ->
  (forall i m, alookup i mm = Some m -> m_updated m = true -> sendable mode bs i m) ->
  exists msg mm' w', generateVoxbloxMeshMsg mode bs mm = Ok (msg, mm') /\ setMessage msg w = Ok w' /\
    (forall i, alookup i mm' = after_sending (alookup i mm)) /\
    forall i, match alookup i mm with
      | Some m => if m_updated m then Forall2 (near_vertex bs i) (shown w' i) (m_vertices m) else shown w' i = shown w i
      | None => shown w' i = shown w i
      end.
Proof.
  intros W ND H. destruct (message_ok mode bs mm W ND H) as (msg & mm' & E & Ee & NDi & Ix & Fb & G).
  rewrite Forall_forall in Fb.
  destruct (show_blocks_ok (mm_edge msg) (mm_blocks msg) w NDi) as (w' & Ew & Ow & Sw).
  { intros b Hb. destruct (Fb b Hb) as (m & _ & D). rewrite Ee. destruct D as (_ & _ & _ & _ & _ & _ & (ps & Ep & _) & _).
    now exists ps. }
  exists msg, mm', w'. split; [exact E|]. split; [exact Ew|]. split; [exact G|]. intros i.
  destruct (alookup i mm) as [m|] eqn:Em; [destruct (m_updated m) eqn:U|].
  - assert (Hi : In i (map mb_index (mm_blocks msg))) by (apply Ix; now exists m).
    apply in_map_iff in Hi. destruct Hi as (b & <- & Hb). destruct (Fb b Hb) as (m' & Em' & D).
    replace m' with m in D by congruence. destruct D as (_ & _ & _ & _ & _ & _ & (ps & Ep & Np) & _).
    rewrite (Sw b ps Hb); [exact Np|]. now rewrite Ee.
  - apply Ow. intros Hi. apply Ix in Hi. destruct Hi as (m' & Em' & U'). congruence.
  - apply Ow. intros Hi. apply Ix in Hi. destruct Hi as (m' & Em' & U'). congruence.
Qed.

(** ** the keys of a mesh layer stay distinct *)
Lemma update_keys k cfg (l : Layer k) i mm mm' : NoDup (akeys mm) -> updateMeshForBlock cfg l i mm = Ok mm' -> NoDup (akeys mm').
Proof.
  intros ND. unfold updateMeshForBlock. destruct (alookup i mm); [|discriminate]. destruct (l_get l i).
  - intros E. apply rbind_ok in E. destruct E as (m1 & _ & E). apply rbind_ok in E. destruct E as (m2 & _ & E).
    injection E as <-. now apply NoDup_aset.
  - intros E. injection E as <-. now apply NoDup_aset.
Qed.
Lemma mesh_blocks_keys k cfg clear : forall is (l : Layer k) mm l' mm', NoDup (akeys mm) ->
  mesh_blocks cfg clear is l mm = Ok (l', mm') -> NoDup (akeys mm').
Proof.
  induction is as [|i is IH]; intros l mm l' mm' ND E; cbn [mesh_blocks] in E.
  - injection E as <- <-. exact ND.
  - apply rbind_ok in E. destruct E as (mm1 & E1 & E). eapply IH; [|exact E]. eapply update_keys; [exact ND|exact E1].
Qed.
Lemma allocate_keys bs : forall is mm, NoDup (akeys mm) -> NoDup (akeys (fold_left (fun m i => allocateMesh bs i m) is mm)).
Proof.
  induction is as [|i is IH]; intros mm ND; cbn [fold_left]; [exact ND|]. apply IH. unfold allocateMesh. now apply NoDup_ainsert.
Qed.
Lemma generate_keys k cfg only clear (l : Layer k) mm l' mm' : NoDup (akeys mm) ->
  generateMesh cfg only clear l mm = Ok (l', mm') -> NoDup (akeys mm').
Proof. intros ND E. unfold generateMesh in E. eapply mesh_blocks_keys; [|exact E]. now apply allocate_keys. Qed.
Lemma clear_lookup c d : forall mm i, alookup i (clearDistantMesh c d mm) =
  match alookup i mm with
  | Some m => Some (if dgt (f64_of_f32 (sqnorm (pt_sub (m_origin m) c))) (dmul d d) then MkMesh [] [] [] [] (m_origin m) true else m)
  | None => None
  end.
Proof.
  induction mm as [|[j m] mm IH]; intros i; cbn [clearDistantMesh map]; [reflexivity|]. cbn [fst snd].
  destruct (dgt _ _) eqn:Ed; cbn [alookup]; destruct (idx_eqb i j); try (rewrite Ed; reflexivity); apply IH.
Qed.
Lemma clear_keys c d : forall mm, akeys (clearDistantMesh c d mm) = akeys mm.
Proof.
  induction mm as [|[j m] mm IH]; [reflexivity|]. unfold clearDistantMesh, akeys in *. cbn [map fst snd]. rewrite IH.
  destruct (dgt _ _); reflexivity.
Qed.

(** ** Sessions *)
Section Session.
  Variables (cfg : MeshConfig) (mode : color_mode) (bs : f32).
  Hypothesis W : wide_size bs.
  Hypothesis UC : mode = kColor -> mc_use_color cfg = true.
  Definition synced (mm : mesh_map) (w : viewer) : Prop :=
    NoDup (akeys mm) /\ (forall i m, alookup i mm = Some m -> sendable mode bs i m) /\
    forall i, match alookup i mm with
      | Some m => m_updated m = true \/ Forall2 (near_vertex bs i) (shown w i) (m_vertices m)
      | None => shown w i = []
      end.
  Lemma sent_sendable i m : sendable mode bs i m -> sendable mode bs i (sent m).
  Proof. intros H. exact H. Qed.
  Lemma empty_sendable i o u : sendable mode bs i (MkMesh [] [] [] [] o u).
  Proof. split; [constructor|]. intros _. split; [reflexivity|constructor]. Qed.

  Lemma mesh_synced k (l l' : Layer k) only clear mm mm' w : sendable_source cfg mode bs l ->
    generateMesh cfg only clear l mm = Ok (l', mm') -> byte_meshes mm' -> synced mm w -> synced mm' w.
  Proof.
    intros (WF & Rg & ND & SD & SL & Eb) E By (K & Sd & V).
    assert (NN : no_nan_sdf l (mc_min_weight cfg)) by (intros g s Es; apply ffin_nnan; eapply SD; exact Es).
    destruct (C62_generate k cfg only clear l mm l' mm' WF ND NN E) as (_ & Up & Same).
    split; [eapply generate_keys; [exact K|exact E]|]. split.
    - intros i m Em. destruct (to_mesh only l i) eqn:T.
      + destruct (Up i T) as (m' & Em' & Ev & _ & _ & _ & Ec). replace m' with m in * by congruence. split.
        * rewrite Ev, <- Eb. now apply block_points_in.
        * intros Hm. rewrite (UC Hm) in Ec. split; [exact Ec|]. eapply By; exact Em.
      + rewrite (Same i T) in Em. now apply Sd.
    - intros i. destruct (to_mesh only l i) eqn:T.
      + destruct (Up i T) as (m' & -> & _ & _ & _ & U & _). now left.
      + rewrite (Same i T). apply V.
  Qed.
  Lemma clear_synced c d mm w : synced mm w -> synced (clearDistantMesh c d mm) w.
  Proof.
    intros (K & Sd & V). split; [now rewrite clear_keys|]. split.
    - intros i m Em. rewrite clear_lookup in Em. destruct (alookup i mm) as [m0|] eqn:E0; [|discriminate]. injection Em as <-.
      destruct (dgt _ _); [apply empty_sendable|now apply Sd].
    - intros i. rewrite clear_lookup. specialize (V i). destruct (alookup i mm) as [m0|]; [|exact V].
      destruct (dgt _ _); [now left|exact V].
  Qed.
  Lemma send_synced mm w : synced mm w ->
    exists msg mm' w', generateVoxbloxMeshMsg mode bs mm = Ok (msg, mm') /\ setMessage msg w = Ok w' /\
      (forall i, alookup i mm' = after_sending (alookup i mm)) /\
      (forall i, mesh_shown bs w' mm i) /\ (forall i, mesh_shown bs w' mm' i).
  Proof.
    intros (K & Sd & V). destruct (message_shown mode bs mm w W K) as (msg & mm' & w' & E & Ew & G & S).
    { intros i m Em _. now apply Sd. }
    exists msg, mm', w'. split; [exact E|]. split; [exact Ew|]. split; [exact G|].
    assert (A : forall i, mesh_shown bs w' mm i).
    { intros i. unfold mesh_shown. specialize (V i). specialize (S i). destruct (alookup i mm) as [m|]; [|congruence].
      destruct (m_updated m) eqn:U; [exact S|]. rewrite S. destruct V as [V|V]; [discriminate|exact V]. }
    split; [exact A|]. intros i. specialize (A i). unfold mesh_shown in *. rewrite G. unfold after_sending.
    destruct (alookup i mm) as [m|]; [|exact A]. destruct (m_updated m); [|exact A].
    destruct (m_vertices m) as [|v vs] eqn:Ev; cbn [nonempty]; [inversion A; reflexivity|].
    unfold sent. cbn [m_vertices]. rewrite Ev. exact A.
  Qed.
  Lemma encode_blocks_keys : forall is mm bl mm', NoDup (akeys mm) -> encode_blocks mode bs is mm = Ok (bl, mm') -> NoDup (akeys mm').
  Proof.
    induction is as [|i is IH]; intros mm bl mm' K E; cbn [encode_blocks] in E; [injection E as <- <-; exact K|].
    destruct (alookup i mm) as [m|]; [|discriminate]. apply rbind_ok in E. destruct E as (b & _ & E).
    apply rbind_ok in E. destruct E as ((bl1 & mm1) & E1 & E). injection E as <- <-. eapply IH; [|exact E1].
    destruct (nonempty _); [now apply NoDup_aset|now apply NoDup_aerase].
  Qed.
  Lemma session_synced mm w : session cfg mode bs mm w -> synced mm w.
  Proof.
    induction 1 as [|k l l' only clear mm mm' w _ IH Src E By|c d mm w _ IH|mm w msg mm' w' _ IH E Ew].
    - split; [constructor|]. split; [discriminate|]. reflexivity.
    - eapply mesh_synced; eassumption.
    - now apply clear_synced.
    - destruct (send_synced mm w IH) as (msg1 & mm1 & w1 & E1 & Ew1 & G & _ & A).
      rewrite E1 in E. injection E as -> ->. rewrite Ew1 in Ew. injection Ew as ->. destruct IH as (K & Sd & _).
      split; [|split].
      + unfold generateVoxbloxMeshMsg in E1. apply rbind_ok in E1. destruct E1 as ((bl & mm2) & E2 & E3). injection E3 as <- <-.
        eapply encode_blocks_keys; [exact K|exact E2].
      + intros i m Em. rewrite G in Em. unfold after_sending in Em. destruct (alookup i mm) as [m0|] eqn:E0; [|discriminate].
        destruct (m_updated m0); [destruct (nonempty _); [|discriminate]|]; injection Em as <-; try apply sent_sendable; now apply Sd.
      + intros i. specialize (A i). unfold mesh_shown in A. destruct (alookup i mm'); [right|]; exact A.
  Qed.
End Session.
