(** Proofs about [Esdf]: memory, frame and propagation steps. *)
From Coq Require Import ZArith List Bool Lia.
From Verif Require Import F32 F32_lemmas Types Index Index_proofs Neighbor Voxel Assoc Assoc_lemmas Layer Threads Threads_proofs
  Queue Queue_proofs Planning Esdf Esdf_spec Connect_proofs.
Import ListNotations.
Open Scope Z_scope.

Lemma idx_eqb_true : forall a b, idx_eqb a b = true -> a = b.
Proof. intros a b; destruct (idx_eqb_spec a b); congruence. Qed.

(** ** Memory *)
Section Mem.
  Context {k : vkind}.
  Implicit Types l : Layer k.
  Lemma addr_dec : forall a b : addr, {a = b} + {a <> b}.
  Proof. repeat decide equality. Qed.
  Lemma set_block_get : forall l i f j, l_get (set_block l i f) j =
    if idx_eqb j i then option_map f (l_get l i) else l_get l j.
  Proof.
    intros l i f j; unfold set_block; destruct (l_get l i) as [b|] eqn:E.
    - unfold l_get, with_blocks; cbn [l_blocks]; rewrite alookup_aset; reflexivity.
    - destruct (idx_eqb j i) eqn:Eij; [|reflexivity]. apply idx_eqb_true in Eij; subst j; exact E.
  Qed.
  Lemma vset_block : forall l a v, vset l a v = set_block l (fst a) (fun b => set_voxels (set_th (snd a) v (b_voxels b)) b).
  Proof. reflexivity. Qed.
  Lemma vset_get : forall l a v j, l_get (vset l a v) j =
    if idx_eqb j (fst a) then option_map (fun b => set_voxels (set_th (snd a) v (b_voxels b)) b) (l_get l (fst a))
    else l_get l j.
  Proof. intros; rewrite vset_block, set_block_get; reflexivity. Qed.
  Lemma vat_vset : forall l a v v0 a', vat l a = Some v0 ->
    vat (vset l a v) a' = if addr_dec a' a then Some v else vat l a'.
  Proof.
    intros l a v v0 a' H; unfold vat in *; rewrite vset_get.
    destruct (l_get l (fst a)) as [b|] eqn:Eb; [|discriminate].
    destruct (idx_eqb (fst a') (fst a)) eqn:E.
    - apply idx_eqb_true in E; cbn [option_map b_voxels set_voxels].
      destruct (addr_dec a' a) as [->|Hne]; [apply (set_th_same _ _ _ _ H)|].
      rewrite set_th_other; [rewrite E, Eb; reflexivity|].
      intros Es; apply Hne; destruct a, a'; cbn [fst snd] in *; congruence.
    - destruct (addr_dec a' a) as [->|Hne]; [|reflexivity].
      rewrite idx_eqb_refl in E; discriminate.
  Qed.
  Lemma vat_vset_same : forall l a v v0, vat l a = Some v0 -> vat (vset l a v) a = Some v.
  Proof. intros l a v v0 H; rewrite (vat_vset _ _ _ _ _ H); destruct (addr_dec a a); congruence. Qed.
  Lemma vat_vset_other : forall l a v v0 a', vat l a = Some v0 -> a' <> a -> vat (vset l a v) a' = vat l a'.
  Proof. intros l a v v0 a' H Hn; rewrite (vat_vset _ _ _ _ _ H); destruct (addr_dec a' a); congruence. Qed.

  (** two layers with the same blocks, of the same sizes *)
  Definition block_shape (b b' : Block k) : Prop :=
    b_vps b' = b_vps b /\ length (b_voxels b') = length (b_voxels b).
  Definition same_shape l l' : Prop :=
    l_size l' = l_size l /\ l_vps l' = l_vps l /\
    forall i, match l_get l i, l_get l' i with
              | Some b, Some b' => block_shape b b'
              | None, None => True
              | _, _ => False
              end.
  Lemma shape_refl : forall l, same_shape l l.
  Proof. intros l; repeat split; intros i; destruct (l_get l i); [split; reflexivity | exact I]. Qed.
  Lemma shape_trans : forall l1 l2 l3, same_shape l1 l2 -> same_shape l2 l3 -> same_shape l1 l3.
  Proof.
    intros l1 l2 l3 (A1 & A2 & A3) (B1 & B2 & B3); split; [congruence|]; split; [congruence|].
    intros i; specialize (A3 i); specialize (B3 i).
    destruct (l_get l1 i), (l_get l2 i), (l_get l3 i); try contradiction; try exact I.
    destruct A3, B3; split; congruence.
  Qed.
  Lemma shape_block : forall l i f, (forall b, block_shape b (f b)) -> same_shape l (set_block l i f).
  Proof.
    intros l i f Hf; split; [|split].
    1, 2: unfold set_block; destruct (l_get l i); reflexivity.
    intros j; rewrite set_block_get; destruct (idx_eqb j i) eqn:E.
    - apply idx_eqb_true in E; subst j; destruct (l_get l i); cbn [option_map]; [apply Hf | exact I].
    - destruct (l_get l j); [split; reflexivity | exact I].
  Qed.
  Lemma shape_vset : forall l a v, same_shape l (vset l a v).
  Proof.
    intros l a v; rewrite vset_block; apply shape_block; intros b; split; [reflexivity|].
    cbn [b_voxels set_voxels]; apply set_th_length.
  Qed.
  Lemma shape_ptr : forall l l' g, same_shape l l' -> voxel_ptr l' g = voxel_ptr l g.
  Proof.
    intros l l' g (_ & E2 & E3); unfold voxel_ptr; rewrite E2.
    destruct (of_opt _) as [bi| |]; cbn [rbind]; [|reflexivity|reflexivity].
    specialize (E3 bi); destruct (l_get l bi) as [b|], (l_get l' bi) as [b'|]; try contradiction; [|reflexivity].
    destruct E3 as (E4 & E5); destruct (getLocalFromGlobalVoxelIndex g (l_vps l)) as [v| |]; cbn [rbind]; [|reflexivity|reflexivity].
    rewrite E4; set (n := Z.to_nat _).
    destruct (nth_error (b_voxels b) n) eqn:E1, (nth_error (b_voxels b') n) eqn:E1'; try reflexivity.
    - apply nth_error_None in E1'; assert (n < length (b_voxels b))%nat by (apply nth_error_Some; congruence); lia.
    - apply nth_error_None in E1; assert (n < length (b_voxels b'))%nat by (apply nth_error_Some; congruence); lia.
  Qed.
  Lemma ptr_vat : forall l g a, voxel_ptr l g = Ok (Some a) -> exists v, vat l a = Some v.
  Proof.
    intros l g a H; unfold voxel_ptr in H; apply rbind_ok in H; destruct H as (bi & _ & H).
    destruct (l_get l bi) as [b|] eqn:Eb; [|discriminate].
    apply rbind_ok in H; destruct H as (v & _ & H); cbv zeta in H.
    destruct (nth_error (b_voxels b) _) eqn:En; [|discriminate]; injection H as <-.
    unfold vat; cbn [fst snd]; rewrite Eb, En; eauto.
  Qed.
  Lemma at_index_ptr : forall l g, at_index l g =
    match voxel_ptr l g with Ok (Some a) => vat l a | _ => None end.
  Proof.
    intros l g; unfold at_index, getVoxelByGlobalIndex, voxel_ptr.
    destruct (of_opt _) as [bi| |]; cbn [rbind]; try reflexivity.
    destruct (l_get l bi) as [b|] eqn:Eb; [|reflexivity].
    destruct (getLocalFromGlobalVoxelIndex g (l_vps l)) as [v| |]; cbn [rbind]; try reflexivity.
    cbv zeta; destruct (nth_error (b_voxels b) _) eqn:En; [|reflexivity].
    unfold vat; cbn [fst snd]; rewrite Eb, En; reflexivity.
  Qed.
  Lemma vget_ok : forall l a v, vget l a = Ok v -> vat l a = Some v.
  Proof. intros l a v H; apply of_opt_ok in H; exact H. Qed.
  Lemma shape_vat : forall l l' a, same_shape l l' -> (vat l a = None <-> vat l' a = None).
  Proof.
    intros l l' a (_ & _ & H); specialize (H (fst a)); unfold vat.
    destruct (l_get l (fst a)), (l_get l' (fst a)); try contradiction; [|tauto].
    destruct H as (_ & H); rewrite !nth_error_None; lia.
  Qed.

  (** a relation between voxels, lifted to layers *)
  Definition lift_rel (P : vox k -> vox k -> Prop) l l' : Prop :=
    same_shape l l' /\ forall a v, vat l a = Some v -> exists v', vat l' a = Some v' /\ P v v'.
  Lemma lift_refl : forall P : vox k -> vox k -> Prop, (forall v, P v v) -> forall l, lift_rel P l l.
  Proof. intros P H l; split; [apply shape_refl|]; eauto. Qed.
  Lemma lift_trans : forall P : vox k -> vox k -> Prop, (forall u v w, P u v -> P v w -> P u w) ->
    forall l1 l2 l3, lift_rel P l1 l2 -> lift_rel P l2 l3 -> lift_rel P l1 l3.
  Proof.
    intros P HT l1 l2 l3 (A1 & A2) (B1 & B2); split; [eapply shape_trans; eassumption|].
    intros a v Hv; destruct (A2 a v Hv) as (v2 & Hv2 & P2); destruct (B2 a v2 Hv2) as (v3 & Hv3 & P3); eauto.
  Qed.
  Lemma lift_vset : forall P : vox k -> vox k -> Prop, (forall v, P v v) -> forall l a v v',
    vat l a = Some v -> P v v' -> lift_rel P l (vset l a v').
  Proof.
    intros P HR l a v v' Hv HP; split; [apply shape_vset|].
    intros a' w Hw; rewrite (vat_vset _ _ _ _ _ Hv); destruct (addr_dec a' a) as [->|]; [|eauto].
    exists v'; split; [reflexivity|]; congruence.
  Qed.
  Lemma lift_at : forall P l l' g, lift_rel P l l' ->
    match at_index l g, at_index l' g with
    | Some v, Some v' => P v v'
    | None, None => True
    | _, _ => False
    end.
  Proof.
    intros P l l' g (HS & HP); rewrite !at_index_ptr, (shape_ptr _ _ _ HS).
    destruct (voxel_ptr l g) as [[a|]| |]; try exact I.
    destruct (vat l a) as [v|] eqn:Ev.
    - destruct (HP _ _ Ev) as (v' & -> & H); exact H.
    - apply (shape_vat _ _ _ HS) in Ev; rewrite Ev; exact I.
  Qed.
End Mem.

Lemma rfold_inv : forall A S (f : S -> A -> res S) (P : S -> S -> Prop),
  (forall s, P s s) -> (forall s1 s2 s3, P s1 s2 -> P s2 s3 -> P s1 s3) ->
  forall xs, (forall s x s', In x xs -> f s x = Ok s' -> P s s') ->
  forall s s', rfold f xs s = Ok s' -> P s s'.
Proof.
  intros A S f P HR HT; induction xs as [|x xs IH]; intros Hf s s' H; cbn [rfold] in H; [injection H as <-; apply HR|].
  apply rbind_ok in H; destruct H as (s1 & H1 & H2).
  apply HT with s1; [apply (Hf _ x); [left; reflexivity | exact H1]|].
  apply IH; [|exact H2]; intros s0 y s2 Hy; apply Hf; right; exact Hy.
Qed.

(** ** The writes of the propagation loop *)
Section Writes.
  Variable c : econfig.
  Notation L := (Layer KEsdf).
  (** the condition under which a neighbour is written *)
  Record relaxes (vs : f32) (v nv nv' : EsdfVoxel) (off : idx3) (kd : f32) : Prop := MkRelax {
    rx_in : In (off, kd) neighbors26;
    rx_obs : e_observed nv = true;
    rx_fixed : e_fixed nv = false;
    rx_val : exists p d d' q, open_parent c vs v off kd = Ok (Some (p, d)) /\
      open_value c (e_distance v) (e_distance nv) d = Some d' /\
      nv' = ev_queue (ev_parent (ev_dist nv d') p) q /\ (q = true \/ q = e_in_queue nv) }.
  Inductive write (vs : f32) : L -> L -> Prop :=
  | W_unqueue : forall (l : L) a (v : EsdfVoxel), vat l a = Some v -> write vs l (vset (k := KEsdf) l a (ev_queue v false))
  | W_relax : forall (l : L) g a (v : EsdfVoxel) off kd na (nv nv' : EsdfVoxel),
      voxel_ptr l g = Ok (Some a) -> vat l a = Some v -> e_observed v = true ->
      voxel_ptr l (idx_add g off) = Ok (Some na) -> vat l na = Some nv ->
      relaxes vs v nv nv' off kd -> write vs l (vset (k := KEsdf) l na nv').
  Inductive writes (vs : f32) : L -> L -> Prop :=
  | Ws_refl : forall l, writes vs l l
  | Ws_step : forall l1 l2 l3, write vs l1 l2 -> writes vs l2 l3 -> writes vs l1 l3.
  Lemma writes_trans : forall vs l1 l2 l3, writes vs l1 l2 -> writes vs l2 l3 -> writes vs l1 l3.
  Proof. induction 1; auto. intros H1; econstructor; eauto. Qed.
  Lemma writes_one : forall vs l1 l2, write vs l1 l2 -> writes vs l1 l2.
  Proof. intros; econstructor; [eassumption | constructor]. Qed.
  Lemma write_shape : forall vs l l', write vs l l' -> same_shape l l'.
  Proof. intros vs l l' []; apply shape_vset. Qed.
  Lemma writes_shape : forall vs l l', writes vs l l' -> same_shape l l'.
  Proof. induction 1; [apply shape_refl|]. eapply shape_trans; [eapply write_shape; eassumption | assumption]. Qed.

  (** a relation kept by every write is kept by the loop *)
  Lemma writes_lift : forall vs (P : vox KEsdf -> vox KEsdf -> Prop), (forall v, P v v) ->
    (forall u v w, P u v -> P v w -> P u w) ->
    (forall v : EsdfVoxel, P v (ev_queue v false)) ->
    (forall v nv nv' off kd, relaxes vs v nv nv' off kd -> P nv nv') ->
    forall l l', writes vs l l' -> lift_rel P l l'.
  Proof.
    intros vs P HR HT HQ HX l l' H; induction H; [apply lift_refl, HR|].
    apply (lift_trans P HT _ l2); [|assumption].
    destruct H; (eapply lift_vset; [exact HR | eassumption | eauto]).
  Qed.

  Lemma open_push_layer : forall st g d st', open_push st g d = Ok st' -> es_layer st' = es_layer st.
  Proof. intros st g d st' H; unfold open_push in H; apply rbind_ok in H; destruct H as (q & _ & H); injection H as <-; reflexivity. Qed.
  Lemma open_store_layer : forall st ng na nv d p st', open_store c st ng na nv d p = Ok st' ->
    exists q, (q = true \/ q = e_in_queue nv) /\
      es_layer st' = vset (k := KEsdf) (es_layer st) na (ev_queue (ev_parent (ev_dist nv d) p) q).
  Proof.
    intros st ng na nv d p st' H; unfold open_store in H; destruct (_ || _).
    - apply rbind_ok in H; destruct H as (st1 & H1 & H2); injection H2 as <-.
      exists true; split; [left; reflexivity|]; cbn [es_layer st_set with_layer]; rewrite (open_push_layer _ _ _ _ H1); reflexivity.
    - injection H as <-; exists (e_in_queue nv); split; [right; reflexivity|]; reflexivity.
  Qed.
  (** what one neighbour does *)
  Lemma open_neighbor_cases : forall vs g a st od st', open_neighbor c vs g a st od = Ok st' ->
    st' = st \/
    exists na (nv v : EsdfVoxel) p d d', voxel_ptr (es_layer st) (idx_add g (fst od)) = Ok (Some na) /\
      vat (es_layer st) na = Some nv /\ vat (es_layer st) a = Some v /\
      e_observed nv = true /\ e_fixed nv = false /\
      open_parent c vs v (fst od) (snd od) = Ok (Some (p, d)) /\
      open_value c (e_distance v) (e_distance nv) d = Some d' /\
      open_store c st (idx_add g (fst od)) na nv d' p = Ok st'.
  Proof.
    intros vs g a st od st' H; unfold open_neighbor in H; cbv zeta in H.
    apply rbind_ok in H; destruct H as ([na|] & H1 & H); [|injection H as <-; left; reflexivity].
    apply rbind_ok in H; destruct H as (nv & H2 & H); apply vget_ok in H2.
    destruct (negb (e_observed nv) || e_fixed nv) eqn:Ef; [injection H as <-; left; reflexivity|].
    apply orb_false_iff in Ef; destruct Ef as (E1 & E2); apply negb_false_iff in E1.
    apply rbind_ok in H; destruct H as (v & H3 & H); apply vget_ok in H3.
    apply rbind_ok in H; destruct H as ([(p, d)|] & H4 & H); [|injection H as <-; left; reflexivity].
    destruct (open_value c (e_distance v) (e_distance nv) d) as [d'|] eqn:Ev; [|injection H as <-; left; reflexivity].
    right; exists na, nv, v, p, d, d'; repeat (split; [assumption|]); exact H.
  Qed.
  Lemma open_neighbor_writes : forall vs g a st od st', In od neighbors26 ->
    voxel_ptr (es_layer st) g = Ok (Some a) -> (forall v, vat (es_layer st) a = Some v -> e_observed v = true) ->
    open_neighbor c vs g a st od = Ok st' -> writes vs (es_layer st) (es_layer st').
  Proof.
    intros vs g a st (off, kd) st' Hin Hp Ho H; apply open_neighbor_cases in H; cbn [fst snd] in H.
    destruct H as [->|(na & nv & v & p & d & d' & H1 & H2 & H3 & H4 & H5 & H6 & H7 & H8)]; [constructor|].
    apply open_store_layer in H8; destruct H8 as (q & Hq & ->); apply writes_one.
    eapply (W_relax vs _ g a v off kd na nv); try eassumption; [apply Ho, H3|].
    constructor; try assumption; exists p, d, d', q; auto.
  Qed.
  Definition obs_same (v v' : EsdfVoxel) : Prop :=
    e_observed v' = e_observed v /\ e_hallucinated v' = e_hallucinated v /\ e_fixed v' = e_fixed v.
  Lemma writes_obs : forall vs l l', writes vs l l' -> lift_rel (k := KEsdf) obs_same l l'.
  Proof.
    intros vs; apply writes_lift; unfold obs_same.
    - intros v; auto.
    - intros u v w (? & ? & ?) (? & ? & ?); repeat split; congruence.
    - intros v; auto.
    - intros v nv nv' off kd []; destruct rx_val0 as (p & d & d' & q & _ & _ & -> & _); auto.
  Qed.
  Lemma open_visit_writes : forall st g st', open_visit c st g = Ok st' ->
    writes (l_size (es_layer st)) (es_layer st) (es_layer st').
  Proof.
    intros st g st' H; unfold open_visit in H; apply rbind_ok in H; destruct H as ([a|] & H1 & H); [|discriminate].
    apply rbind_ok in H; destruct H as (v & H2 & H); apply vget_ok in H2; cbv zeta in H.
    assert (W : write (l_size (es_layer st)) (es_layer st) (es_layer (st_set st a (ev_queue v false)))) by (apply W_unqueue; exact H2).
    destruct (negb (e_observed v) || beyond c (e_distance v)) eqn:Eb; [injection H as <-; apply writes_one, W|].
    apply orb_false_iff in Eb; destruct Eb as (Eo & _); apply negb_false_iff in Eo.
    econstructor; [exact W|]; set (st1 := st_set st a (ev_queue v false)) in *.
    assert (HI : forall xs s s', (forall x, In x xs -> In x neighbors26) ->
       rfold (open_neighbor c (l_size (es_layer st)) g a) xs s = Ok s' ->
       voxel_ptr (es_layer s) g = Ok (Some a) -> (forall v, vat (es_layer s) a = Some v -> e_observed v = true) ->
       writes (l_size (es_layer st)) (es_layer s) (es_layer s')).
    { induction xs as [|x xs IH]; intros s s' Hx HF Hp Ho; cbn [rfold] in HF; [injection HF as <-; constructor|].
      apply rbind_ok in HF; destruct HF as (s1 & F1 & F2).
      pose proof (open_neighbor_writes _ _ _ _ _ _ (Hx x (or_introl eq_refl)) Hp Ho F1) as W1.
      apply writes_trans with (es_layer s1); [exact W1|]; apply IH.
      - intros y Hy; apply Hx; right; exact Hy.
      - exact F2.
      - rewrite (shape_ptr _ _ _ (writes_shape _ _ _ W1)); exact Hp.
      - destruct (ptr_vat _ _ _ Hp) as (w & Hw); destruct (proj2 (writes_obs _ _ _ W1) _ _ Hw) as (w' & Hw' & (O1 & _)).
        intros w2 Hw2; rewrite Hw' in Hw2; injection Hw2 as <-; rewrite O1; apply Ho, Hw. }
    apply (HI neighbors26); [auto | exact H | |].
    - rewrite (shape_ptr _ _ _ (write_shape _ _ _ W)); exact H1.
    - intros w Hw; cbn [es_layer st_set with_layer st1] in Hw; rewrite (vat_vset_same _ _ _ _ H2) in Hw; injection Hw as <-; exact Eo.
  Qed.
  Lemma open_pop_visit : forall st st', open_pop c st = Ok st' -> exists q1 g q,
    bq_front (es_open st) = Ok (q1, g) /\ bq_pop q1 = Ok q /\ open_visit c (with_open st q) g = Ok st'.
  Proof.
    intros st st' H; unfold open_pop in H; apply rbind_ok in H; destruct H as ((q1, g) & H1 & H).
    apply rbind_ok in H; destruct H as (q & H2 & H); eauto 8.
  Qed.
  Lemma open_pop_writes : forall st st', open_pop c st = Ok st' ->
    writes (l_size (es_layer st)) (es_layer st) (es_layer st').
  Proof.
    intros st st' H; apply open_pop_visit in H; destruct H as (q1 & g & q & _ & _ & H).
    apply open_visit_writes in H; exact H.
  Qed.
  Lemma open_steps_writes : forall st st', open_steps c st st' ->
    writes (l_size (es_layer st)) (es_layer st) (es_layer st').
  Proof.
    induction 1; [constructor|]; pose proof (open_pop_writes _ _ H0) as W.
    apply writes_trans with (es_layer st1); [exact W|].
    rewrite (proj1 (writes_shape _ _ _ W)) in IHopen_steps; exact IHopen_steps.
  Qed.
  Lemma processOpenSet_steps : forall fuel st st', processOpenSet c fuel st = Ok (Some st') ->
    open_steps c st st' /\ bq_empty (es_open st') = true.
  Proof.
    induction fuel as [|fuel IH]; intros st st' H; cbn [processOpenSet] in H; destruct (bq_empty (es_open st)) eqn:E.
    - injection H as <-; split; [constructor | exact E].
    - discriminate.
    - injection H as <-; split; [constructor | exact E].
    - apply rbind_ok in H; destruct H as (st1 & H1 & H2); destruct (IH _ _ H2) as (H3 & H4).
      split; [econstructor; eassumption | exact H4].
  Qed.
  Lemma processRaiseSet_steps : forall fuel st st', processRaiseSet c fuel st = Ok (Some st') ->
    raise_steps c st st' /\ es_raise st' = [].
  Proof.
    induction fuel as [|fuel IH]; intros st st' H; cbn [processRaiseSet] in H; destruct (es_raise st) as [|g r] eqn:E.
    - injection H as <-; split; [constructor | exact E].
    - discriminate.
    - injection H as <-; split; [constructor | exact E].
    - apply rbind_ok in H; destruct H as (st1 & H1 & H2); destruct (IH _ _ H2) as (H3 & H4).
      split; [econstructor; eassumption | exact H4].
  Qed.

  (** ** C29: the frame *)
  Definition frame (v v' : EsdfVoxel) : Prop :=
    e_observed v' = e_observed v /\ e_hallucinated v' = e_hallucinated v /\ e_fixed v' = e_fixed v /\
    (e_fixed v = true \/ e_observed v = false -> e_distance v' = e_distance v /\ e_parent v' = e_parent v).
  Lemma frame_refl : forall v, frame v v.
  Proof. intros v; unfold frame; auto. Qed.
  Lemma frame_trans : forall u v w, frame u v -> frame v w -> frame u w.
  Proof.
    intros u v w (A1 & A2 & A3 & A4) (B1 & B2 & B3 & B4); unfold frame; repeat split; try congruence;
      destruct (A4 H) as (A5 & A6); destruct B4 as (B5 & B6); try congruence;
      (destruct H as [H|H]; [left | right]; congruence).
  Qed.
  Lemma open_frame : forall st st', open_steps c st st' -> lift_rel (k := KEsdf) frame (es_layer st) (es_layer st').
  Proof.
    intros st st' H; apply open_steps_writes in H; revert H; apply writes_lift.
    - exact frame_refl.
    - exact frame_trans.
    - intros v; unfold frame; cbn; auto.
    - intros v nv nv' off kd []; destruct rx_val0 as (p & d & d' & q & _ & _ & -> & _); unfold frame; cbn.
      repeat split; destruct H; congruence.
  Qed.
  Lemma raise_neighbor_frame : forall g st od st', raise_neighbor c g st od = Ok st' ->
    lift_rel (k := KEsdf) frame (es_layer st) (es_layer st').
  Proof.
    intros g st od st' H; unfold raise_neighbor in H; cbv zeta in H.
    apply rbind_ok in H; destruct H as ([na|] & H1 & H); [|injection H as <-; apply lift_refl, frame_refl].
    apply rbind_ok in H; destruct H as (nv & H2 & H); apply vget_ok in H2.
    destruct (negb (e_observed nv) || e_fixed nv) eqn:Ef; [injection H as <-; apply lift_refl, frame_refl|].
    apply orb_false_iff in Ef; destruct Ef as (E1 & E2); apply negb_false_iff in E1.
    apply rbind_ok in H; destruct H as ([] & H3 & H).
    - injection H as <-; eapply lift_vset; [exact frame_refl | exact H2|].
      unfold frame; cbn; repeat split; destruct H; congruence.
    - destruct (negb (e_in_queue nv)); [|injection H as <-; apply lift_refl, frame_refl].
      apply rbind_ok in H; destruct H as (st1 & H4 & H); injection H as <-; cbn [es_layer st_set with_layer].
      rewrite (open_push_layer _ _ _ _ H4); eapply lift_vset; [exact frame_refl | exact H2|].
      unfold frame; cbn; auto.
  Qed.
  Lemma raise_frame : forall st st', raise_steps c st st' -> lift_rel (k := KEsdf) frame (es_layer st) (es_layer st').
  Proof.
    induction 1; [apply lift_refl, frame_refl|].
    eapply lift_trans; [exact frame_trans | | exact IHraise_steps].
    unfold raise_visit in H0; apply rbind_ok in H0; destruct H0 as ([a|] & _ & H0); [|discriminate].
    change (es_layer st) with (es_layer (with_raise st r)).
    refine (rfold_inv _ _ _ (fun s s' => lift_rel (k := KEsdf) frame (es_layer s) (es_layer s')) _ _ _ _ _ _ H0).
    - intros s; apply lift_refl, frame_refl.
    - intros s1 s2 s3; apply lift_trans, frame_trans.
    - intros s x s' _; apply raise_neighbor_frame.
  Qed.
End Writes.
