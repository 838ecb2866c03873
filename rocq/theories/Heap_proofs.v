(** The pointer-level layers refine independent maps. *)
From Coq Require Import ZArith List Bool Lia.
From Verif Require Import F32 Types Index Voxel Serialize Assoc Assoc_lemmas Layer Heap Layer_spec.
Import ListNotations.

Lemma set_nth_length : forall A n (x : A) l, length (set_nth n x l) = length l.
Proof. induction n; intros x [|y l]; cbn; auto. Qed.
Lemma nth_set_nth : forall A n (x : A) l m, nth_error (set_nth n x l) m =
  if Nat.eqb m n then (if Nat.ltb n (length l) then Some x else None) else nth_error l m.
Proof.
  induction n; intros x [|y l] [|m]; cbn [set_nth nth_error length]; auto.
  - destruct (Nat.eqb _ _); auto.
  - rewrite IHn. cbn [Nat.eqb]. destruct (Nat.eqb m n); auto.
Qed.
Lemma nth_set_same : forall A n (x y : A) l, nth_error l n = Some y -> nth_error (set_nth n x l) n = Some x.
Proof.
  intros. rewrite nth_set_nth, Nat.eqb_refl.
  assert (n < length l)%nat by (apply nth_error_Some; congruence).
  destruct (Nat.ltb_spec n (length l)); [auto|lia].
Qed.
Lemma nth_set_other : forall A n m (x : A) l, m <> n -> nth_error (set_nth n x l) m = nth_error l m.
Proof. intros. rewrite nth_set_nth. destruct (Nat.eqb_spec m n); congruence. Qed.
Lemma nth_snoc : forall A (l : list A) x n, nth_error (l ++ [x]) n =
  if Nat.eqb n (length l) then Some x else nth_error l n.
Proof.
  intros. destruct (Nat.eqb_spec n (length l)) as [->|].
  - rewrite nth_error_app2, Nat.sub_diag by lia. reflexivity.
  - destruct (Nat.ltb_spec n (length l)).
    + rewrite nth_error_app1 by lia. reflexivity.
    + rewrite nth_error_app2 by lia. destruct (n - length l)%nat eqn:E; [lia|].
      cbn. rewrite (proj2 (nth_error_None l n)) by lia. destruct n1; reflexivity.
Qed.
Lemma nth_snoc_old : forall A (l : list A) x n y, nth_error l n = Some y -> nth_error (l ++ [x]) n = Some y.
Proof. intros. rewrite nth_error_app1; auto. apply nth_error_Some; congruence. Qed.

Section P.
  Context {k : vkind}.
  Implicit Types (w : world k) (sw : sworld k).

  Definition addr (ls : list hlayer) n i p :=
    exists l, nth_error ls n = Some l /\ alookup i (hl_map l) = Some p.
  Definition good (h : heap k) (ls : list hlayer) : Prop :=
    (forall n i p, addr ls n i p -> (p < length h)%nat) /\
    (forall n i p n' i', addr ls n i p -> addr ls n' i' p -> n = n' /\ i = i') /\
    (forall n l, nth_error ls n = Some l -> NoDup (akeys (hl_map l))).
  Definition inv w sw := good (w_heap w) (w_layers w) /\ holds w sw.

  Lemma good_heap : forall h h' ls, good h ls -> (length h <= length h')%nat -> good h' ls.
  Proof. intros h h' ls (A & B & C) L. split; [|split]; auto. intros. apply A in H. lia. Qed.

  (** the map of one layer becomes a submap *)
  Lemma good_sub : forall h ls n l m, good h ls -> nth_error ls n = Some l ->
    NoDup (akeys m) -> (forall i p, alookup i m = Some p -> alookup i (hl_map l) = Some p) ->
    good h (set_nth n (hl_with l m) ls).
  Proof.
    intros h ls n l m (A & B & C) E ND S.
    assert (K : forall n' i p, addr (set_nth n (hl_with l m) ls) n' i p -> addr ls n' i p).
    { intros n' i p (l' & E1 & E2). destruct (Nat.eq_dec n' n) as [->|N].
      - rewrite (nth_set_same _ _ _ _ _ E) in E1. injection E1 as <-. exists l. auto.
      - rewrite nth_set_other in E1 by auto. exists l'; auto. }
    split; [|split].
    - intros. eapply A; eauto.
    - intros. eapply B; eauto.
    - intros n' l' E1. destruct (Nat.eq_dec n' n) as [->|N].
      + rewrite (nth_set_same _ _ _ _ _ E) in E1. injection E1 as <-. auto.
      + rewrite nth_set_other in E1 by auto. eauto.
  Qed.

  (** one layer gets a new block at a free index *)
  Lemma good_add : forall h ls n l i b, good h ls -> nth_error ls n = Some l ->
    alookup i (hl_map l) = None ->
    good (h ++ [b]) (set_nth n (hl_with l (ainsert i (length h) (hl_map l))) ls).
  Proof.
    intros h ls n l i b (A & B & C) E F.
    assert (K : forall n' j p, addr (set_nth n (hl_with l (ainsert i (length h) (hl_map l))) ls) n' j p ->
       addr ls n' j p \/ (n' = n /\ j = i /\ p = length h)).
    { intros n' j p (l' & E1 & E2). destruct (Nat.eq_dec n' n) as [->|N].
      - rewrite (nth_set_same _ _ _ _ _ E) in E1. injection E1 as <-. cbn [hl_map hl_with] in E2.
        rewrite alookup_ainsert in E2. destruct (alookup j (hl_map l)) eqn:E3.
        + left. exists l. split; congruence.
        + destruct (idx_eqb_spec j i); [|discriminate]. right. injection E2 as <-. auto.
      - rewrite nth_set_other in E1 by auto. left. exists l'; auto. }
    split; [|split].
    - intros n' j p H. rewrite app_length. cbn. apply K in H. destruct H as [H|(_ & _ & ->)]; [apply A in H|]; lia.
    - intros n1 i1 p n2 i2 H1 H2. apply K in H1. apply K in H2.
      destruct H1 as [H1|(-> & -> & ->)]; destruct H2 as [H2|(-> & -> & E2)]; auto; try subst p.
      + eapply B; eauto.
      + apply A in H1. lia.
      + apply A in H2. lia.
    - intros n' l' E1. destruct (Nat.eq_dec n' n) as [->|N].
      + rewrite (nth_set_same _ _ _ _ _ E) in E1. injection E1 as <-. apply NoDup_ainsert. eauto.
      + rewrite nth_set_other in E1 by auto. eauto.
  Qed.

  (** a view of one layer *)
  Definition sees (h : heap k) (l : hlayer) (m : idx3 -> option (Block k)) : Prop :=
    forall i, match h_find l i with
              | Some p => exists b, nth_error h p = Some b /\ m i = Some b
              | None => m i = None
              end.
  Lemma sees_ext : forall h l m m', sees h l m -> (forall i, m' i = m i) -> sees h l m'.
  Proof. intros h l m m' H E i. specialize (H i). rewrite E. exact H. Qed.
  Lemma sees_grow : forall h l m b, sees h l m -> sees (h ++ [b]) l m.
  Proof.
    intros h l m b H i. specialize (H i). destruct (h_find l i); auto.
    destruct H as (c & H1 & H2). exists c. split; auto. apply nth_snoc_old; auto.
  Qed.

  Lemma inv_layer : forall w sw n l, inv w sw -> nth_error (w_layers w) n = Some l ->
    exists sl, nth_error sw n = Some sl /\ hl_size l = s_size sl /\ hl_vps l = s_vps sl /\ sees (w_heap w) l (s_map sl).
  Proof.
    intros w sw n l (G & L & H) E. destruct (nth_error sw n) as [sl|] eqn:S.
    - exists sl. destruct (H n l sl E S) as (A & B & C & D). auto.
    - apply nth_error_None in S. assert (n < length (w_layers w))%nat by (apply nth_error_Some; congruence). lia.
  Qed.
  Lemma inv_slayer : forall w sw n sl, inv w sw -> nth_error sw n = Some sl ->
    exists l, nth_error (w_layers w) n = Some l /\ hl_size l = s_size sl /\ hl_vps l = s_vps sl /\ sees (w_heap w) l (s_map sl).
  Proof.
    intros w sw n sl I E. destruct (nth_error (w_layers w) n) as [l|] eqn:S.
    - exists l. destruct (inv_layer w sw n l I S) as (sl' & E' & H). rewrite E in E'. injection E' as <-. auto.
    - apply nth_error_None in S. destruct I as (G & L & H).
      assert (n < length sw)%nat by (apply nth_error_Some; congruence). lia.
  Qed.

  Lemma inv_update : forall w sw n h l l' m sw', inv w sw -> nth_error (w_layers w) n = Some l ->
    good h (set_nth n l' (w_layers w)) -> hl_size l' = hl_size l -> hl_vps l' = hl_vps l ->
    sees h l' m ->
    (forall n' l0 sl, n' <> n -> nth_error (w_layers w) n' = Some l0 -> nth_error sw n' = Some sl -> sees h l0 (s_map sl)) ->
    updates sw n m sw' -> inv (put w h n l') sw'.
  Proof.
    intros w sw n h l l' m sw' I E G S1 S2 V O (U1 & U2 & sl & sl' & U3 & U4 & U5 & U6 & U7).
    split; [exact G|]. split; cbn [put w_layers w_heap].
    { rewrite set_nth_length, U1. apply (proj2 I). }
    intros n' l0 sl0 E1 E2. destruct (Nat.eq_dec n' n) as [->|N].
    - rewrite (nth_set_same _ _ _ _ _ E) in E1. injection E1 as <-. rewrite U4 in E2. injection E2 as <-.
      destruct (inv_layer w sw n l I E) as (sl0 & E0 & A & B & C). rewrite U3 in E0. injection E0 as <-.
      rewrite U5, U6. split; [congruence|]. split; [congruence|]. split.
      + apply (proj2 (proj2 G) n). apply (nth_set_same _ _ _ _ _ E).
      + intros i. specialize (V i). rewrite U7. exact V.
    - rewrite nth_set_other in E1 by auto. rewrite U2 in E2 by auto.
      destruct (inv_layer w sw n' l0 I E1) as (sl1 & E0 & A & B & C). rewrite E2 in E0. injection E0 as <-.
      split; [auto|]. split; [auto|]. split; [apply (proj2 (proj2 (proj1 I)) n'); auto|].
      apply (O n'); auto.
  Qed.

  Lemma erase_all : forall (is : list idx3) (m : amap nat) j,
    alookup j (fold_left (fun m i => aerase i m) is m) = if existsb (idx_eqb j) is then None else alookup j m.
  Proof.
    induction is as [|i is IH]; intros m j; cbn [fold_left existsb]; auto.
    rewrite IH, alookup_aerase. destruct (idx_eqb j i); cbn [orb]; auto. destruct (existsb _ is); auto.
  Qed.
  Lemma erase_all_NoDup : forall (is : list idx3) (m : amap nat),
    NoDup (akeys m) -> NoDup (akeys (fold_left (fun m i => aerase i m) is m)).
  Proof. induction is; intros; cbn [fold_left]; auto. apply IHis, NoDup_aerase; auto. Qed.
  Lemma existsb_filter : forall (P : nat -> bool) (m : amap nat) j, NoDup (akeys m) ->
    existsb (idx_eqb j) (map fst (filter (fun kv => P (snd kv)) m)) =
    match alookup j m with Some p => P p | None => false end.
  Proof.
    intros P m j ND. apply eq_true_iff_eq. rewrite existsb_exists. split.
    - intros (i & H & E). destruct (idx_eqb_spec j i) as [->|]; [|discriminate].
      apply in_map_iff in H. destruct H as ([i' p] & <- & H). apply filter_In in H. cbn [fst snd] in *.
      destruct H as [H1 H2]. rewrite (alookup_NoDup _ _ _ ND H1). exact H2.
    - destruct (alookup j m) as [p|] eqn:E; [|discriminate]. intros H. exists j. split; [|apply idx_eqb_refl].
      apply in_map_iff. exists (j, p). split; auto. apply filter_In. split; auto. apply alookup_In; auto.
  Qed.

  (** the copy loop; [ls] are the layers that exist, [l] the layer being built *)
  Lemma copy_blocks_sound : forall m h l ls (s : f32) (vps : Z),
    good h (ls ++ [l]) -> hl_size l = s -> hl_vps l = vps ->
    NoDup (akeys m) -> (forall i, In i (akeys m) -> alookup i (hl_map l) = None) ->
    (forall i p, alookup i m = Some p -> exists b, nth_error h p = Some b /\ length (b_voxels b) = num_voxels vps) ->
    exists h' l', h_copy_blocks m h l = Ok (h', l') /\ good h' (ls ++ [l']) /\
      hl_size l' = s /\ hl_vps l' = vps /\ (exists t, h' = h ++ t) /\
      (forall i p, alookup i (hl_map l) = Some p -> alookup i (hl_map l') = Some p) /\
      (forall i, match alookup i m, alookup i (hl_map l') with
                 | Some p, Some q => exists b, nth_error h p = Some b /\
                     nth_error h' q = Some (set_voxels (b_voxels b) (new_block vps s (new_block_origin vps s i)))
                 | None, Some q => alookup i (hl_map l) = Some q
                 | Some _, None => False
                 | None, None => True
                 end).
  Proof.
    induction m as [|[i p] m IH]; intros h l ls s vps G Es Ev ND Hfree Hb; cbn [h_copy_blocks].
    { exists h, l. split; [reflexivity|]. split; [auto|]. split; [auto|]. split; [auto|].
      split; [exists []; rewrite app_nil_r; auto|]. split; [auto|].
      intros i. cbn. destruct (alookup i (hl_map l)); auto. }
    cbn [akeys map fst] in ND. inversion ND as [|? ? N1 ND1]; subst.
    destruct (Hb i p) as (b & Eb & Lb). { cbn. rewrite idx_eqb_refl. reflexivity. }
    rewrite Eb. unfold h_allocate, h_find. rewrite (Hfree i (or_introl eq_refl)). unfold h_allocateNew.
    pose proof (Hfree i (or_introl eq_refl)) as Fi.
    assert (Q : alookup i (ainsert i (length h) (hl_map l)) = Some (length h)).
    { rewrite alookup_ainsert, Fi, idx_eqb_refl. reflexivity. }
    rewrite Q.
    assert (Q2 : forall x : Block k, nth_error (h ++ [x]) (length h) = Some x).
    { intros. rewrite nth_snoc, Nat.eqb_refl. reflexivity. }
    rewrite Q2. cbn [new_block b_voxels].
    unfold copy_voxels. rewrite repeat_length, Lb, Nat.leb_refl. cbn [rbind].
    rewrite skipn_all2 by (rewrite repeat_length; lia). rewrite app_nil_r.
    set (nb := set_voxels (b_voxels b) _).
    assert (SN : forall x y : Block k, set_nth (length h) y (h ++ [x]) = h ++ [y]).
    { clear. induction h; intros; cbn; auto. f_equal. apply IHh. }
    rewrite SN. set (l1 := hl_with l (ainsert i (length h) (hl_map l))).
    destruct (IH (h ++ [nb]) l1 ls (hl_size l) (hl_vps l)) as (h' & l' & E & G' & S1 & S2 & (t & Et) & K & V); auto.
    - assert (good (h ++ [nb]) (set_nth (length ls) l1 (ls ++ [l]))) as G1.
      { apply good_add; auto. rewrite nth_snoc, Nat.eqb_refl. reflexivity. }
      assert (SN2 : set_nth (length ls) l1 (ls ++ [l]) = ls ++ [l1]).
      { clear. induction ls; cbn; auto. f_equal. apply IHls. }
      rewrite SN2 in G1. exact G1.
    - intros j Hj. unfold l1. cbn [hl_map hl_with]. rewrite alookup_ainsert.
      rewrite (Hfree j (or_intror Hj)). rewrite idx_eqb_neq by (intros ->; contradiction). reflexivity.
    - intros j q Hq. destruct (Hb j q) as (c & Ec & Lc).
      { cbn. rewrite idx_eqb_neq; auto. intros ->. apply N1. apply akeys_In. eauto. }
      exists c. split; auto. apply nth_snoc_old; auto.
    - exists h', l'. split; [exact E|]. split; [exact G'|]. split; [auto|]. split; [auto|].
      split; [exists (nb :: t); rewrite Et, <- app_assoc; reflexivity|].
      split.
      { intros j q Hq. apply K. unfold l1. cbn [hl_map hl_with]. rewrite alookup_ainsert, Hq. reflexivity. }
      intros j. specialize (V j). cbn [alookup]. destruct (idx_eqb_spec j i) as [->|NE].
      + rewrite (proj2 (alookup_None m i)) in V by auto.
        rewrite (K i (length h) Q). exists b. split; auto.
        rewrite Et. rewrite <- app_assoc. rewrite nth_error_app2, Nat.sub_diag by lia. reflexivity.
      + destruct (alookup j m) as [q|] eqn:Ej.
        * destruct (alookup j (hl_map l')); auto. destruct V as (c & E1 & E2). exists c. split; auto.
          destruct (Hb j q) as (c' & Ec & _). { cbn. rewrite idx_eqb_neq; auto. }
          rewrite (nth_snoc_old _ _ _ _ _ Ec) in E1. congruence.
        * destruct (alookup j (hl_map l')) eqn:E3; auto. unfold l1 in V. cbn [hl_map hl_with] in V.
          rewrite alookup_ainsert in V. rewrite idx_eqb_neq in V by auto. destruct (alookup j (hl_map l)); auto.
  Qed.

  Lemma sees_find : forall h l m i, sees h l m ->
    match h_find l i with Some p => nth_error h p | None => None end = m i.
  Proof.
    intros h l m i H. specialize (H i). destruct (h_find l i); auto. destruct H as (b & -> & <-). reflexivity.
  Qed.

  Lemma good_snoc : forall h ls l, good h ls -> hl_map l = [] -> good h (ls ++ [l]).
  Proof.
    intros h ls l (A & B & C) E.
    assert (K : forall n i p, addr (ls ++ [l]) n i p -> addr ls n i p).
    { intros n i p (l' & E1 & E2). rewrite nth_snoc in E1. destruct (Nat.eqb n (length ls)).
      - injection E1 as <-. rewrite E in E2. discriminate.
      - exists l'; auto. }
    split; [|split]; intros.
    - eapply A; eauto.
    - eapply B; eauto.
    - rewrite nth_snoc in H. destruct (Nat.eqb n (length ls)); eauto. injection H as <-. rewrite E. constructor.
  Qed.

  Theorem step_refines : forall w sw o sw' x, inv w sw -> sstep sw o sw' x ->
    exists w', step w o = Ok (w', x) /\ inv w' sw'.
  Proof.
    intros w sw o sw' x I ST. inversion ST; subst; clear ST; cbn [step]; unfold with_layer.
    - (* new *) rewrite H, H0. apply Z.ltb_lt in H1. rewrite H1. cbn [andb]. eexists; split; [reflexivity|].
      split; cbn [w_heap w_layers].
      + apply good_snoc; [apply I|reflexivity].
      + split; [cbn [w_layers]; rewrite !app_length; cbn; rewrite (proj1 (proj2 I)); reflexivity|].
        cbn [w_heap w_layers]. intros n l sl E1 E2. rewrite nth_snoc in E1, E2. destruct I as (G & L & V). rewrite <- L in E2.
        destruct (Nat.eqb n _).
        * injection E1 as <-. injection E2 as <-. cbn. split; [auto|]. split; [auto|]. split; [constructor|]. intros i; reflexivity.
        * apply V with (n := n); auto.
    - (* copy *) destruct (inv_slayer w sw n l I H) as (hl & E & A & B & V). rewrite E.
      pose proof I as (G & L & HH).
      destruct (copy_blocks_sound (hl_map hl) (w_heap w) (HL (hl_size hl) (hl_vps hl) []) (w_layers w) (hl_size hl) (hl_vps hl))
        as (h' & nl & EC & G' & S1 & S2 & (t & Et) & _ & W); auto.
      { apply good_snoc; auto. }
      { apply G with (n := n); auto. }
      { intros i p Hp. specialize (V i). unfold h_find in V. rewrite Hp in V. destruct V as (b & V1 & V2).
        exists b. split; auto. rewrite B. eapply H0; eauto. }
      rewrite EC. cbn [rbind fst snd]. eexists; split; [reflexivity|]. split; cbn [w_heap w_layers]; [exact G'|].
      split; cbn [w_heap w_layers]; [rewrite !app_length; cbn; lia|].
      intros n' l0 sl0 E1 E2. rewrite nth_snoc in E1, E2. rewrite <- L in E2. destruct (Nat.eqb_spec n' (length (w_layers w))).
      + injection E1 as <-. injection E2 as <-. split; [congruence|]. split; [congruence|].
        split; [apply G' with (n := length (w_layers w)); rewrite nth_snoc, Nat.eqb_refl; reflexivity|].
        intros i. specialize (W i). specialize (V i). specialize (H3 i). unfold h_find in *.
        destruct (alookup i (hl_map hl)) as [p|].
        * destruct V as (b & V1 & V2). rewrite V2 in H3. destruct (alookup i (hl_map nl)) as [q|]; [|contradiction].
          destruct W as (b' & W1 & W2). rewrite V1 in W1. injection W1 as <-. eexists; split; [exact W2|].
          destruct (s_map l' i) as [b'|]; [|contradiction]. destruct H3 as (C1 & C2 & C3 & C4 & C5 & C6).
          destruct b' as [v1 v2 v3 v4 v5 v6]. cbn in *. subst. unfold set_voxels, new_block. cbn. rewrite <- A, <- B. reflexivity.
        * rewrite V in H3. destruct (s_map l' i); [contradiction|]. destruct (alookup i (hl_map nl)); auto. discriminate.
      + destruct (HH n' l0 sl0 E1 E2) as (A1 & A2 & A3 & A4). split; [auto|]. split; [auto|]. split; [auto|].
        intros i. specialize (A4 i). destruct (h_find l0 i); auto. destruct A4 as (b & A5 & A6). exists b. split; auto.
        rewrite Et. rewrite nth_error_app1; auto. apply nth_error_Some; congruence.
    - (* alloc existing *) destruct (inv_slayer w _ n l I H) as (hl & E & A & B & V). rewrite E.
      unfold h_allocate. pose proof (V i) as Vi. destruct (h_find hl i) as [p|]; [|congruence].
      destruct Vi as (b' & V1 & V2). rewrite V1. rewrite H0 in V2. injection V2 as <-.
      eexists; split; [reflexivity|].
      assert (PE : put w (w_heap w) n hl = w).
      { unfold put. destruct w as [h ls]; cbn in *. f_equal. clear - E. revert ls E. induction n; intros [|y ls] E; cbn in *; try discriminate.
        - injection E as ->. reflexivity. - f_equal. auto. }
      rewrite PE. auto.
    - (* alloc new *) destruct (inv_slayer w _ n l I H) as (hl & E & A & B & V). rewrite E.
      unfold h_allocate. pose proof (V i) as Vi. unfold h_find in *. destruct (alookup i (hl_map hl)) as [p|] eqn:Fi.
      { destruct Vi as (b' & V1 & V2). congruence. }
      unfold h_allocateNew. rewrite alookup_ainsert, Fi, idx_eqb_refl, nth_snoc, Nat.eqb_refl.
      eexists; split.
      { unfold fresh. rewrite <- A, <- B. reflexivity. }
      apply (inv_update w sw n _ hl _ (fun j => if idx_eqb j i then Some (fresh l i) else s_map l j) sw'); auto.
      + apply good_add; auto. apply I.
      + intros j. unfold h_find. cbn [hl_map hl_with]. rewrite alookup_ainsert. pose proof (V j) as Vj. unfold h_find in Vj.
        destruct (alookup j (hl_map hl)) as [q|] eqn:Fj.
        * destruct Vj as (b' & V1 & V2). rewrite idx_eqb_neq by congruence. exists b'. split; auto. apply nth_snoc_old; auto.
        * destruct (idx_eqb_spec j i) as [->|]; auto. rewrite nth_snoc, Nat.eqb_refl. eexists; split; [reflexivity|].
          unfold fresh. rewrite <- A, <- B. reflexivity.
      + intros n' l0 sl0 N E1 E2. destruct (inv_layer w sw n' l0 I E1) as (sl1 & E3 & _ & _ & V1).
        rewrite E2 in E3. injection E3 as <-. apply sees_grow; auto.
    - (* insert existing *) destruct (inv_slayer w _ n l I H) as (hl & E & A & B & V). rewrite E.
      eexists; split; [reflexivity|]. pose proof (V i) as Vi. unfold ainsert. unfold h_find in Vi.
      destruct (alookup i (hl_map hl)) as [p|] eqn:Fi; [|congruence].
      assert (PE : set_nth n (hl_with hl (hl_map hl)) (w_layers w) = w_layers w).
      { assert (HE : hl_with hl (hl_map hl) = hl) by (destruct hl; reflexivity). rewrite HE. clear - E. revert E.
        generalize (w_layers w). induction n; intros [|y ls] E; cbn in *; try discriminate.
        - injection E as ->. reflexivity. - f_equal. auto. }
      unfold put. rewrite PE. destruct I as (G & L & HH). split; cbn [w_heap w_layers].
      + eapply good_heap; eauto. rewrite app_length. lia.
      + split; cbn [w_heap w_layers]; auto. intros n' l0 sl0 E1 E2. destruct (HH n' l0 sl0 E1 E2) as (A1 & A2 & A3 & A4).
        split; [auto|]. split; [auto|]. split; [auto|]. apply sees_grow. exact A4.
    - (* insert new *) destruct (inv_slayer w _ n l I H) as (hl & E & A & B & V). rewrite E.
      pose proof (V i) as Vi. unfold h_find in *. destruct (alookup i (hl_map hl)) as [p|] eqn:Fi.
      { destruct Vi as (b' & V1 & V2). congruence. }
      eexists; split; [reflexivity|].
      apply (inv_update w sw n _ hl _ (fun j => if idx_eqb j i then Some b else s_map l j) sw'); auto.
      + apply good_add; auto. apply I.
      + intros j. unfold h_find. cbn [hl_map hl_with]. rewrite alookup_ainsert. pose proof (V j) as Vj. unfold h_find in Vj.
        destruct (alookup j (hl_map hl)) as [q|] eqn:Fj.
        * destruct Vj as (b' & V1 & V2). rewrite idx_eqb_neq by congruence. exists b'. split; auto. apply nth_snoc_old; auto.
        * destruct (idx_eqb_spec j i) as [->|]; auto. rewrite nth_snoc, Nat.eqb_refl. eexists; split; reflexivity.
      + intros n' l0 sl0 N E1 E2. destruct (inv_layer w sw n' l0 I E1) as (sl1 & E3 & _ & _ & V1).
        rewrite E2 in E3. injection E3 as <-. apply sees_grow; auto.
    - (* remove *) destruct (inv_slayer w _ n l I H) as (hl & E & A & B & V). rewrite E.
      eexists; split; [reflexivity|].
      apply (inv_update w sw n _ hl _ (fun j => if idx_eqb j i then None else s_map l j) sw'); auto.
      + apply good_sub; auto; [apply I|apply NoDup_aerase; apply (proj2 (proj2 (proj1 I)) n); auto|].
        intros j p Hp. rewrite alookup_aerase in Hp. destruct (idx_eqb j i); congruence.
      + intros j. unfold h_find. cbn [hl_map hl_with]. rewrite alookup_aerase. destruct (idx_eqb j i); auto. apply V.
      + intros n' l0 sl0 N E1 E2. destruct (inv_layer w sw n' l0 I E1) as (sl1 & E3 & _ & _ & V1). rewrite E2 in E3. injection E3 as <-. exact V1.
    - (* removeAll *) pose proof H as (_ & _ & l & l' & H0 & _).
      destruct (inv_slayer w _ n l I H0) as (hl & E & A & B & V). rewrite E.
      eexists; split; [reflexivity|].
      apply (inv_update w sw n _ hl _ (fun j => None) sw'); auto.
      + apply good_sub; auto; [apply I|constructor|discriminate].
      + intros j. reflexivity.
      + intros n' l0 sl0 N E1 E2. destruct (inv_layer w sw n' l0 I E1) as (sl1 & E3 & _ & _ & V1). rewrite E2 in E3. injection E3 as <-. exact V1.
    - (* removeDistant *) destruct (inv_slayer w _ n l I H) as (hl & E & A & B & V). rewrite E.
      assert (ND : NoDup (akeys (hl_map hl))) by (apply (proj2 (proj2 (proj1 I)) n); auto).
      assert (AL : forall j, alookup j (hl_map (h_removeDistant (w_heap w) hl c d)) =
        match alookup j (hl_map hl) with Some p => if h_distant (w_heap w) c d p then None else Some p | None => None end).
      { intros j. unfold h_removeDistant. cbn [hl_map hl_with]. rewrite erase_all, existsb_filter by auto.
        destruct (alookup j (hl_map hl)); auto. }
      eexists; split; [reflexivity|].
      eapply (inv_update w sw n _ hl _ _ sw'); [exact I|exact E| | | | | |exact H0]; auto.
      + unfold h_removeDistant. apply good_sub; auto; [apply I|apply erase_all_NoDup; auto|].
        intros j p Hp. pose proof (AL j) as AJ. unfold h_removeDistant in AJ. cbn [hl_map hl_with] in AJ. rewrite AJ in Hp.
        destruct (alookup j (hl_map hl)); [|discriminate]. destruct (h_distant _ _ _ _); congruence.
      + intros j. unfold h_find. rewrite AL. pose proof (V j) as Vj. unfold h_find in Vj.
        destruct (alookup j (hl_map hl)) as [p|]; [|rewrite Vj; auto].
        destruct Vj as (b & V1 & V2). unfold h_distant. rewrite V1, V2. destruct (is_distant c d b); eauto.
      + intros n' l0 sl0 N E1 E2. destruct (inv_layer w sw n' l0 I E1) as (sl1 & E3 & _ & _ & V1). rewrite E2 in E3. injection E3 as <-. exact V1.
    - (* find *) destruct (inv_slayer w _ n l I H) as (hl & E & A & B & V). rewrite E.
      rewrite (sees_find _ _ _ i V). eauto.
    - (* get *) destruct (inv_slayer w _ n l I H) as (hl & E & A & B & V). rewrite E.
      pose proof (V i) as Vi. destruct (h_find hl i); [|congruence]. destruct Vi as (b' & V1 & V2). rewrite V1.
      rewrite H0 in V2. injection V2 as <-. eauto.
    - (* has *) destruct (inv_slayer w _ n l I H) as (hl & E & A & B & V). rewrite E.
      pose proof (V i) as Vi. destruct (h_find hl i); [destruct Vi as (b' & V1 & V2)|]; rewrite ?V2, ?Vi; eauto.
    - (* mut none *) destruct (inv_slayer w _ n l I H) as (hl & E & A & B & V). rewrite E.
      pose proof (V i) as Vi. destruct (h_find hl i); [destruct Vi as (b' & V1 & V2); congruence|eauto].
    - (* mut *) destruct (inv_slayer w _ n l I H) as (hl & E & A & B & V). rewrite E.
      pose proof (V i) as Vi. destruct (h_find hl i) as [p|] eqn:Fi; [|congruence]. destruct Vi as (b' & V1 & V2).
      rewrite V1. rewrite H0 in V2. injection V2 as <-.
      eexists; split; [reflexivity|].
      assert (PE : set_nth n hl (w_layers w) = w_layers w).
      { clear - E. revert E. generalize (w_layers w). induction n; intros [|y ls] E; cbn in *; try discriminate.
        - injection E as ->. reflexivity. - f_equal. auto. }
      assert (KEY : forall n' l0 sl0, nth_error (w_layers w) n' = Some l0 -> sees (w_heap w) l0 (s_map sl0) ->
         forall j, match h_find l0 j with
           | Some q => exists c, nth_error (set_nth p (f b) (w_heap w)) q = Some c /\
                         (if Nat.eqb n' n && idx_eqb j i then Some (f b) else s_map sl0 j) = Some c
           | None => (if Nat.eqb n' n && idx_eqb j i then Some (f b) else s_map sl0 j) = None end).
      { intros n' l0 sl0 E1 S j. specialize (S j). destruct (h_find l0 j) as [q|] eqn:Fj.
        - destruct S as (c & S1 & S2). destruct (Nat.eq_dec q p) as [->|NP].
          + destruct (proj1 (proj2 (proj1 I)) n' j p n i) as [-> ->]; [exists l0; auto|exists hl; auto|].
            rewrite Nat.eqb_refl, idx_eqb_refl. cbn. exists (f b). split; auto. eapply nth_set_same; eauto.
          + rewrite nth_set_other by auto. exists c. split; auto.
            destruct (Nat.eqb_spec n' n) as [->|]; auto. destruct (idx_eqb_spec j i) as [->|]; auto. cbn.
            exfalso. apply NP. rewrite E in E1. injection E1 as <-. congruence.
        - rewrite S. destruct (Nat.eqb_spec n' n) as [->|]; auto. destruct (idx_eqb_spec j i) as [->|]; auto. cbn.
          rewrite E in E1. injection E1 as <-. congruence. }
      assert (WE : World (set_nth p (f b) (w_heap w)) (w_layers w) = put w (set_nth p (f b) (w_heap w)) n hl).
      { unfold put. rewrite PE. reflexivity. }
      rewrite WE. eapply (inv_update w sw n _ hl _ _ sw'); [exact I|exact E| | | | | |exact H1]; auto.
      + rewrite PE. eapply good_heap; [apply I|]. rewrite set_nth_length. lia.
      + intros j. specialize (KEY n hl l E V j). rewrite Nat.eqb_refl in KEY. cbn [andb] in KEY. exact KEY.
      + intros n' l0 sl0 N E1 E2. destruct (inv_layer w sw n' l0 I E1) as (sl1 & E3 & _ & _ & V1').
        rewrite E2 in E3. injection E3 as <-. intros j. specialize (KEY n' l0 sl0 E1 V1' j).
        destruct (Nat.eqb_spec n' n); [contradiction|]. exact KEY.
  Qed.

  Theorem run_refines : forall os w sw sw' xs, inv w sw -> srun sw os sw' xs ->
    exists w', run w os = Ok (w', xs) /\ inv w' sw'.
  Proof.
    induction os as [|o os IH]; intros w sw sw' xs I R; inversion R; subst; cbn [run].
    - eauto.
    - match goal with H1 : sstep _ _ _ _ |- _ => destruct (step_refines _ _ _ _ _ I H1) as (w1 & E1 & I1) end. rewrite E1. cbn [rbind fst snd].
      match goal with H4 : srun _ _ _ _ |- _ => destruct (IH _ _ _ _ I1 H4) as (w2 & E2 & I2) end. rewrite E2. cbn [rbind fst snd]. eauto.
  Qed.

  Lemma inv_init : inv (World [] []) [].
  Proof.
    split; [split; [|split]|split; [reflexivity|]].
    - intros n i p (l & E & _). destruct n; discriminate.
    - intros n i p n' i' (l & E & _). destruct n; discriminate.
    - intros n l E. destruct n; discriminate.
    - intros n l sl E. destruct n; discriminate.
  Qed.

  (** the specification defines every call on an existing layer except
      [getBlockByIndex] of a missing block, a constructor call that fails its
      checks, and copying blocks of foreign size *)
  Definition legal sw (o : op k) : Prop :=
    match o with
    | ONew s vps => flt f0 s = true /\ flt f0 (block_size_of vps s) = true /\ (0 < vps)%Z
    | OCopy n => exists l, nth_error sw n = Some l /\
        forall i b, s_map l i = Some b -> length (b_voxels b) = num_voxels (s_vps l)
    | OGet n i => exists l, nth_error sw n = Some l /\ s_map l i <> None
    | OAlloc n _ | OInsert n _ _ | ORemove n _ | ORemoveAll n | ORemoveDistant n _ _
    | OFind n _ | OHas n _ | OMut n _ _ => exists l, nth_error sw n = Some l
    end.
  Lemma updates_ex : forall sw n l m, nth_error sw n = Some l -> exists sw', updates sw n m sw'.
  Proof.
    intros. exists (set_nth n (SL (s_size l) (s_vps l) m) sw). split; [apply set_nth_length|].
    split; [intros; apply nth_set_other; auto|]. exists l. eexists. split; [auto|]. split; [eapply nth_set_same; eauto|].
    auto.
  Qed.
  Lemma spec_total : forall sw o, legal sw o -> exists sw' x, sstep sw o sw' x.
  Proof.
    intros sw [s vps|n|n i|n i b|n i|n|n c d|n i|n i|n i|n i f]; cbn [legal].
    - intros (A & B & C). eexists; eexists. apply SNew; auto.
    - intros (l & E & H). eexists; eexists.
      apply (SCopy _ n l (SL (s_size l) (s_vps l) (fun i => match s_map l i with
         | Some b => Some (set_voxels (b_voxels b) (new_block (s_vps l) (s_size l) (new_block_origin (s_vps l) (s_size l) i)))
         | None => None end))); auto.
      intros i. cbn [s_map]. destruct (s_map l i); auto. repeat split.
    - intros (l & E). destruct (s_map l i) eqn:M.
      + eexists; eexists. eapply SAllocOld; eauto.
      + destruct (updates_ex sw n l (fun j => if idx_eqb j i then Some (fresh l i) else s_map l j) E) as (sw' & U).
        eexists; eexists. eapply SAllocNew; eauto.
    - intros (l & E). destruct (s_map l i) eqn:M.
      + eexists; eexists. eapply SInsertOld; eauto.
      + destruct (updates_ex sw n l (fun j => if idx_eqb j i then Some b else s_map l j) E) as (sw' & U).
        eexists; eexists. eapply SInsertNew; eauto.
    - intros (l & E). destruct (updates_ex sw n l (fun j => if idx_eqb j i then None else s_map l j) E) as (sw' & U).
      eexists; eexists. eapply SRemove; eauto.
    - intros (l & E). destruct (updates_ex sw n l (fun j => None) E) as (sw' & U).
      eexists; eexists. eapply SRemoveAll; eauto.
    - intros (l & E). edestruct (updates_ex sw n l) as (sw' & U); [exact E|].
      eexists; eexists. eapply SRemoveDistant; eauto.
    - intros (l & E). eexists; eexists. eapply SFind; eauto.
    - intros (l & E & M). destruct (s_map l i) eqn:M'; [|congruence]. eexists; eexists. eapply SGet; eauto.
    - intros (l & E). eexists; eexists. eapply SHas; eauto.
    - intros (l & E). destruct (s_map l i) eqn:M.
      + destruct (updates_ex sw n l (fun j => if idx_eqb j i then Some (f b) else s_map l j) E) as (sw' & U).
        eexists; eexists. eapply SMut; eauto.
      + eexists; eexists. eapply SMutNone; eauto.
  Qed.
End P.
