(** Proofs about map messages. *)
From Coq Require Import String ZArith List Bool Reals Lra Lia.
From Flocq Require Import Core.
From Verif Require Import F32 F32_lemmas F32_err Types Index Voxel Serialize Serialize_proofs Assoc Assoc_lemmas Layer Proto LayerIO Threads Threads_proofs Marching MeshInt Planning Flags Flags_proofs Connect_proofs Esdf_proofs Sphere_proofs P_Serialize RosMsg RosMsg_spec.
Import ListNotations.
Open Scope Z_scope.

Lemma feq_refl : forall x, fnan x = false -> feq x x = true.
Proof.
  intros x N. unfold feq, Bits.b32_compare, Binary.Bcompare. destruct x as [s|s|s p H|s m e H]; try reflexivity; try discriminate.
  - destruct s; reflexivity.
  - cbn. destruct s; cbn; rewrite Z.compare_refl, ?Pcompare_refl, ?Pos.compare_cont_refl; reflexivity.
Qed.

Section blocks.
  Context {k : vkind}.
  Implicit Types l : Layer k.
  (** a block after a message block was applied to it *)
  Definition received (action : Z) (l : Layer k) (i : idx3) (vs : list (vox k)) : Block k :=
    match l_get l i with
    | Some b => if action =? aUpdate then set_voxels vs b else b
    | None => set_voxels vs (fresh l i)
    end.
  Lemma set_block_keys : forall l i f, l_get l i <> None -> akeys (l_blocks (set_block l i f)) = akeys (l_blocks l).
  Proof.
    intros l i f H. unfold set_block. destruct (l_get l i) as [b|] eqn:E; [|congruence]. unfold with_blocks. cbn [l_blocks].
    rewrite akeys_aset. unfold l_get in E. rewrite E. reflexivity.
  Qed.
  Lemma set_block_nodup : forall l i f, NoDup (akeys (l_blocks l)) -> NoDup (akeys (l_blocks (set_block l i f))).
  Proof.
    intros l i f H. unfold set_block. destruct (l_get l i) as [b|] eqn:E; [|exact H]. apply NoDup_aset, H.
  Qed.
  Lemma alloc_nodup : forall l i, NoDup (akeys (l_blocks l)) -> NoDup (akeys (l_blocks (allocateBlockPtrByIndex l i))).
  Proof. intros l i H. unfold allocateBlockPtrByIndex. destruct (l_get l i); [exact H|]. apply NoDup_ainsert, H. Qed.
  Lemma set_block_dim : forall l i f, l_vps (set_block l i f) = l_vps l /\ l_size (set_block l i f) = l_size l.
  Proof. intros l i f; unfold set_block; destruct (l_get l i); split; reflexivity. Qed.
  Lemma deser_ok : forall n d, length d = (n * wpv k)%nat -> deserializeFromIntegers k n d = Ok (deser_loop k n d).
  Proof. intros n d H. unfold deserializeFromIntegers. rewrite H, Nat.eqb_refl. reflexivity. Qed.

  Lemma apply_block_ok : forall action l m, fits l -> length (bm_data m) = (num_voxels (l_vps l) * wpv k)%nat ->
    exists l1 vs, content k (l_vps l) (bm_data m) vs /\ apply_block action l m = Ok l1 /\ fits l1 /\
      l_vps l1 = l_vps l /\ l_size l1 = l_size l /\
      forall j, l_get l1 j = if idx_eqb j (bm_index m) then Some (received (if action =? aMerge then aMerge else action) l j vs) else l_get l j.
  Proof.
    intros action l m (ND & NS & F) L. set (i := bm_index m). pose proof (deser_ok _ _ L) as D. set (vs := deser_loop k _ _) in D.
    unfold apply_block. fold i. unfold hasBlock.
    assert (AA : (if action =? aMerge then aMerge else action) = action) by (destruct (Z.eqb_spec action aMerge); congruence). rewrite AA.
    destruct (l_get l i) as [b|] eqn:Eb.
    - destruct (F i b Eb) as (Vb & Nb). destruct (action =? aUpdate) eqn:A; cbn [orb negb].
      + assert (AL : allocateBlockPtrByIndex l i = l) by (unfold allocateBlockPtrByIndex; rewrite Eb; reflexivity). rewrite AL, Eb, Vb, D. cbn [rbind].
        assert (G : forall j, l_get (set_block l i (set_voxels vs)) j = if idx_eqb j i then Some (received action l j vs) else l_get l j).
        { intros j. rewrite set_block_get. destruct (idx_eqb_spec j i) as [->|]; [|reflexivity]. rewrite Eb. unfold received. rewrite Eb, A. reflexivity. }
        exists (set_block l i (set_voxels vs)), vs. split; [exact D|]. split; [reflexivity|]. split; [|split; [apply set_block_dim|split; [apply set_block_dim|exact G]]].
        destruct (set_block_dim l i (set_voxels vs)) as (V1 & S1). split; [apply set_block_nodup, ND|]. rewrite S1, V1. split; [exact NS|].
        intros j c. rewrite G. destruct (idx_eqb_spec j i) as [->|]; [|apply F]. intros Q. injection Q as <-. unfold received. rewrite Eb, A. cbn [set_voxels b_vps b_size]. auto.
      + destruct (action =? aMerge) eqn:A2.
        * change (b_vps (new_block (b_vps b) (b_size b) (b_origin b))) with (b_vps b). rewrite Vb, D. cbn [rbind].
          unfold mergeBlock. cbn [set_voxels new_block b_size b_vps b_has_data]. rewrite (feq_refl _ Nb), Vb, Z.eqb_refl. cbn [andb negb rbind].
          assert (G : forall j, l_get (set_block l i (fun _ => b)) j = l_get l j).
          { intros j. rewrite set_block_get. destruct (idx_eqb_spec j i) as [->|]; [|reflexivity]. rewrite Eb. reflexivity. }
          exists (set_block l i (fun _ => b)), vs. split; [exact D|]. split; [reflexivity|].
          destruct (set_block_dim l i (fun _ => b)) as (V1 & S1). split; [|split; [exact V1|split; [exact S1|]]].
          -- split; [apply set_block_nodup, ND|]. rewrite S1, V1. split; [exact NS|]. intros j c. rewrite G. apply F.
          -- intros j. rewrite G. destruct (idx_eqb_spec j i) as [->|]; [|reflexivity]. unfold received. rewrite Eb, A. reflexivity.
        * exists l, vs. split; [exact D|]. split; [reflexivity|]. split; [split; [exact ND|split; [exact NS|exact F]]|]. split; [reflexivity|]. split; [reflexivity|].
          intros j. destruct (idx_eqb_spec j i) as [->|]; [|reflexivity]. unfold received. rewrite Eb, A. reflexivity.
    - replace ((action =? aUpdate) || negb false) with true by (destruct (action =? aUpdate); reflexivity).
      pose proof (alloc_get k l i) as AG. destruct (alloc_dims k l i) as (S0 & V0). set (l1 := allocateBlockPtrByIndex l i) in *.
      assert (G1 : l_get l1 i = Some (fresh l i)) by (rewrite AG, Eb, idx_eqb_refl; reflexivity). rewrite G1.
      change (b_vps (fresh l i)) with (l_vps l). rewrite D. cbn [rbind].
      assert (G : forall j, l_get (set_block l1 i (set_voxels vs)) j = if idx_eqb j i then Some (received action l j vs) else l_get l j).
      { intros j. rewrite set_block_get. destruct (idx_eqb_spec j i) as [->|].
        - rewrite G1. unfold received. rewrite Eb. reflexivity.
        - rewrite AG. destruct (l_get l j); [reflexivity|]. rewrite idx_eqb_neq by assumption. reflexivity. }
      exists (set_block l1 i (set_voxels vs)), vs. split; [exact D|]. split; [reflexivity|]. destruct (set_block_dim l1 i (set_voxels vs)) as (V1 & S1).
      split; [|split; [rewrite V1; exact V0|split; [rewrite S1; exact S0|exact G]]].
      split; [apply set_block_nodup, alloc_nodup, ND|]. rewrite S1, V1, S0, V0. split; [exact NS|].
      intros j c. rewrite G. destruct (idx_eqb_spec j i) as [->|]; [|apply F]. intros Q. injection Q as <-. unfold received. rewrite Eb. cbn [set_voxels fresh new_block b_vps b_size]. auto.
  Qed.
  Lemma apply_blocks_ok : forall action bs l, fits l -> NoDup (map bm_index bs) ->
    Forall (fun b => length (bm_data b) = (num_voxels (l_vps l) * wpv k)%nat) bs ->
    exists l', rfold (apply_block action) bs l = Ok l' /\ fits l' /\ l_vps l' = l_vps l /\ l_size l' = l_size l /\
      (forall i, ~ In i (map bm_index bs) -> l_get l' i = l_get l i) /\
      (forall b, In b bs -> exists vs, content k (l_vps l) (bm_data b) vs /\ l_get l' (bm_index b) = Some (received action l (bm_index b) vs)).
  Proof.
    intros action bs. induction bs as [|b bs IH]; intros l F ND LN.
    - exists l. split; [reflexivity|]. split; [exact F|]. split; [reflexivity|]. split; [reflexivity|]. split; [reflexivity|]. intros b [].
    - cbn [map] in ND. apply NoDup_cons_iff in ND. destruct ND as (N1 & N2). apply Forall_cons_iff in LN. destruct LN as (L1 & L2).
      destruct (apply_block_ok action l b F L1) as (l1 & vs & C & E & F1 & V1 & S1 & G).
      assert (AA : (if action =? aMerge then aMerge else action) = action) by (destruct (Z.eqb_spec action aMerge); congruence). rewrite AA in G.
      destruct (IH l1 F1 N2) as (l' & E' & F' & V' & S' & U & R). { rewrite V1. exact L2. }
      exists l'. split. { change (rbind (apply_block action l b) (fun s => rfold (apply_block action) bs s) = Ok l'). rewrite E. exact E'. }
      split; [exact F'|]. split; [congruence|]. split; [congruence|]. split.
      + intros i NI. rewrite U by (intros Q; apply NI; right; exact Q). rewrite G, idx_eqb_neq; [reflexivity|]. intros ->. apply NI. left. reflexivity.
      + intros c [<- | I].
        * exists vs. split; [exact C|]. rewrite U by exact N1. rewrite G, idx_eqb_refl. reflexivity.
        * destruct (R c I) as (ws & Cw & Gw). exists ws. rewrite V1 in Cw. split; [exact Cw|]. rewrite Gw. f_equal.
          assert (NE : bm_index c <> bm_index b). { intros Q. apply N1. rewrite <- Q. apply in_map, I. }
          unfold received, fresh. rewrite G, (idx_eqb_neq _ _ NE), V1, S1. reflexivity.
  Qed.
  Lemma fits_empty : forall l, fits l -> fits (removeAllBlocks l).
  Proof. intros l (_ & N & _). split; [constructor|]. split; [exact N|]. intros i b H. discriminate. Qed.
  Lemma count_le : forall (bs : list block_msg) l, NoDup (map bm_index bs) -> (forall b, In b bs -> l_get l (bm_index b) <> None) ->
    (length bs <= getNumberOfAllocatedBlocks l)%nat.
  Proof.
    intros bs l ND H. unfold getNumberOfAllocatedBlocks. rewrite <- (map_length bm_index), <- (map_length fst (l_blocks l)). apply NoDup_incl_length; [exact ND|].
    intros i I. apply in_map_iff in I. destruct I as (b & <- & I). specialize (H b I). apply akeys_In. unfold l_get in H. destruct (alookup _ _) eqn:E; [eauto|congruence].
  Qed.
  Lemma count_eq : forall (bs : list block_msg) l, fits l -> NoDup (map bm_index bs) -> (forall b, In b bs -> l_get l (bm_index b) <> None) ->
    (forall i, ~ In i (map bm_index bs) -> l_get l i = None) -> getNumberOfAllocatedBlocks l = length bs.
  Proof.
    intros bs l (NK & _) ND H U. apply Nat.le_antisymm; [|apply count_le; assumption].
    unfold getNumberOfAllocatedBlocks. rewrite <- (map_length bm_index), <- (map_length fst (l_blocks l)). apply NoDup_incl_length; [exact NK|].
    intros i I. apply akeys_In in I. destruct I as (b & I). destruct (in_dec idx_eq_dec i (map bm_index bs)) as [D|D]; [exact D|]. specialize (U i D). unfold l_get in U. congruence.
  Qed.
End blocks.

(** ** The comparison of the voxel sizes *)
Open Scope R_scope.
Lemma d1em5_R : dfin d1em5 = true /\ / 100001 <= DR d1em5 <= / 99999.
Proof.
  assert (E : DR d1em5 = IZR 5902958103587057 * bpow radix2 (-69)) by reflexivity.
  split; [reflexivity|]. rewrite E. change (bpow radix2 (-69)) with (/ IZR (Z.pow_pos 2 69)).
  change (Z.pow_pos 2 69) with 590295810358705651712%Z. lra.
Qed.
Lemma FR_big : forall x, ffin x = true -> Rabs (FR x) <= bpow radix2 128.
Proof. intros x F. pose proof (FR_lt_max x). unfold max32 in *. lra. Qed.
Lemma size_diff : forall (a : f64) (b : f32), dfin a = true -> ffin b = true -> Rabs (DR a) <= bpow radix2 1000 ->
  dfin (dsub a (f64_of_f32 b)) = true /\
  Rabs (DR (dsub a (f64_of_f32 b)) - (DR a - FR b)) <= u64r * Rabs (DR a - FR b) + t64r.
Proof.
  intros a b Fa Fb B. destruct (f64_of_f32_R b Fb) as (Eb & Fb').
  assert (Bb : Rabs (FR b) <= bpow radix2 1000) by (eapply Rle_trans; [apply FR_big, Fb|apply bpow_le; lia]).
  destruct (dsub_R a (f64_of_f32 b) Fa Fb') as (E & F).
  { apply rnd64_small. rewrite Eb. eapply Rle_trans; [apply Rabs_triang|]. rewrite Rabs_Ropp. apply Rle_trans with (bpow radix2 1001); [|apply bpow_le; lia].
    change 1001%Z with (1 + 1000)%Z. rewrite bpow_plus. change (bpow radix2 1) with 2. lra. }
  split; [exact F|]. rewrite E, Eb. destruct (rnd64_err (DR a - FR b)) as (d & x & Hd & Hx & Q). rewrite Q.
  replace ((DR a - FR b) * (1 + d) + x - (DR a - FR b)) with ((DR a - FR b) * d + x) by ring. eapply Rle_trans; [apply Rabs_triang|]. rewrite Rabs_mult.
  apply Rplus_le_compat; [|exact Hx]. rewrite Rmult_comm. apply Rmult_le_compat_r; [apply Rabs_pos|exact Hd].
Qed.
Lemma t64_small : t64r <= / 1048576.
Proof. unfold t64r. change (/ 1048576) with (bpow radix2 (-20)). apply bpow_le. lia. Qed.
Lemma dabs_fin : forall x, dfin x = true -> dfin (dabs x) = true.
Proof. intros x H. destruct x; try discriminate; reflexivity. Qed.
Lemma dabs_R : forall x, DR (dabs x) = Rabs (DR x).
Proof. intros x. apply Binary.B2R_Babs. Qed.
Lemma geometry_no : forall k (l : Layer k) m, dfin (lm_size m) = true -> ffin (l_size l) = true -> Rabs (DR (lm_size m)) <= bpow radix2 1000 ->
  / 50000 < Rabs (DR (lm_size m) - FR (l_size l)) -> same_geometry l m = false.
Proof.
  intros k l m Fm Fl B D. destruct (size_diff _ _ Fm Fl B) as (F & E). destruct d1em5_R as (Fd & Ld). pose proof t64_small.
  unfold same_geometry. replace (dgt _ d1em5) with true; [destruct (lm_vps m =? l_vps l)%Z; reflexivity|]. symmetry. unfold dgt. apply dlt_R; [exact Fd|apply dabs_fin, F|].
  rewrite dabs_R. set (x := DR (dsub _ _)) in *. set (y := DR (lm_size m) - FR (l_size l)) in *.
  pose proof (Rabs_triang (y - x) x) as T. replace (y - x + x) with y in T by ring. rewrite Rabs_minus_sym in E. unfold u64r, t64r in *. 
  assert (S : bpow radix2 (-1075) <= / 1000000000) by (eapply Rle_trans; [apply (bpow_le radix2 (-1075) (-30)); lia|change (bpow radix2 (-30)) with (/ 1073741824); lra]).
  lra.
Qed.
Lemma geometry_yes : forall k (l : Layer k) m, for_layer m l -> same_geometry l m = true.
Proof.
  intros k l m (_ & V & Fm & Fl & D). destruct d1em5_R as (Fd & Ld).
  assert (B : Rabs (DR (lm_size m)) <= bpow radix2 1000).
  { replace (DR (lm_size m)) with ((DR (lm_size m) - FR (l_size l)) + FR (l_size l)) by ring. eapply Rle_trans; [apply Rabs_triang|]. pose proof (FR_big _ Fl).
    apply Rle_trans with (bpow radix2 129); [|apply bpow_le; lia]. change 129%Z with (1 + 128)%Z. rewrite bpow_plus. change (bpow radix2 1) with 2.
    assert (1 <= bpow radix2 128) by (change 1 with (bpow radix2 0); apply bpow_le; lia). lra. }
  destruct (size_diff _ _ Fm Fl B) as (F & E). unfold same_geometry. rewrite V, Z.eqb_refl. cbn [negb orb].
  destruct (dgt _ d1em5) eqn:Q; [|reflexivity]. exfalso. unfold dgt in Q. apply dlt_R in Q; [|exact Fd|apply dabs_fin, F]. rewrite dabs_R in Q.
  set (x := DR (dsub _ _)) in *. set (y := DR (lm_size m) - FR (l_size l)) in *.
  pose proof (Rabs_triang (x - y) y) as T. replace (x - y + y) with x in T by ring. unfold u64r, t64r in *.
  assert (S : bpow radix2 (-1075) <= / 1000000000) by (eapply Rle_trans; [apply (bpow_le radix2 (-1075) (-30)); lia|change (bpow radix2 (-30)) with (/ 1073741824); lra]).
  lra.
Qed.
Close Scope R_scope.

(** ** One message *)
Lemma deserialize_ok : forall k action (l : Layer k) m, fits l -> for_layer m l -> well_formed k m ->
  let l0 := if action =? aReset then removeAllBlocks l else l in
  exists l', deserializeMsgToLayer m action l = Ok (true, l') /\ fits l' /\ l_vps l' = l_vps l /\ l_size l' = l_size l /\
    (forall i, ~ In i (indices m) -> l_get l' i = l_get l0 i) /\
    (forall b, In b (lm_blocks m) -> exists vs, content k (l_vps l) (bm_data b) vs /\ l_get l' (bm_index b) = Some (received action l0 (bm_index b) vs)).
Proof.
  intros k action l m F G (ND & LN) l0. pose proof (geometry_yes _ _ _ G) as GY. destruct G as (T & V & _).
  assert (F0 : fits l0) by (unfold l0; destruct (action =? aReset); [apply fits_empty, F|exact F]).
  assert (D0 : l_vps l0 = l_vps l /\ l_size l0 = l_size l) by (unfold l0; destruct (action =? aReset); split; reflexivity). destruct D0 as (V0 & S0).
  destruct (apply_blocks_ok action (lm_blocks m) l0 F0 ND) as (l' & E & F' & V' & S' & U & R). { rewrite V0, <- V. exact LN. }
  exists l'. unfold deserializeMsgToLayer. rewrite T, String.eqb_refl, GY. cbn [negb]. fold l0. rewrite E. cbn [rbind].
  assert (HA : forall b, In b (lm_blocks m) -> l_get l' (bm_index b) <> None) by (intros b I; destruct (R b I) as (vs & _ & Q); congruence).
  assert (CK : (if action =? aReset then Nat.eqb (getNumberOfAllocatedBlocks l') (length (lm_blocks m))
     else if (action =? aUpdate) || (action =? aMerge) then Nat.leb (length (lm_blocks m)) (getNumberOfAllocatedBlocks l') else true) = true).
  { destruct (action =? aReset) eqn:A.
    - apply Nat.eqb_eq. apply count_eq; auto.
    - destruct ((action =? aUpdate) || (action =? aMerge)); [|reflexivity]. apply Nat.leb_le, count_le; assumption. }
  rewrite CK. split; [reflexivity|]. split; [exact F'|]. split; [congruence|]. split; [congruence|]. split; [exact U|].
  intros b I. destruct (R b I) as (vs & C & Q). rewrite V0 in C. eauto.
Qed.
Lemma mismatch_type : forall k action (l : Layer k) m, lm_type m <> voxel_type k -> deserializeMsgToLayer m action l = Ok (false, l).
Proof. intros k action l m H. unfold deserializeMsgToLayer. destruct (String.eqb_spec (voxel_type k) (lm_type m)); [congruence|reflexivity]. Qed.
Lemma mismatch_geometry : forall k action (l : Layer k) m, same_geometry l m = false -> deserializeMsgToLayer m action l = Ok (false, l).
Proof. intros k action l m H. unfold deserializeMsgToLayer. rewrite H. destruct (negb (String.eqb (voxel_type k) (lm_type m))); reflexivity. Qed.
(** data of the wrong length aborts *)
Lemma bad_block : forall k (l : Layer k) m, fits l -> length (bm_data m) <> (num_voxels (l_vps l) * wpv k)%nat ->
  forall action, (action = aUpdate \/ action = aMerge \/ l_get l (bm_index m) = None) -> apply_block action l m = Abort.
Proof.
  intros k l m (ND & NS & F) L action HA. unfold apply_block, hasBlock.
  assert (D : deserializeFromIntegers k (num_voxels (l_vps l)) (bm_data m) = Abort) by (apply C09_length_checked; exact L).
  pose proof (alloc_get k l (bm_index m) (bm_index m)) as AG. rewrite idx_eqb_refl in AG. destruct (l_get l (bm_index m)) as [b|] eqn:Eb.
  - destruct (F _ b Eb) as (Vb & Nb). destruct (action =? aUpdate) eqn:A; cbn [orb negb].
    + rewrite AG, Vb, D. reflexivity.
    + destruct HA as [HA | [-> | HA]]; [subst action; discriminate| |discriminate].
      change (aMerge =? aMerge) with true. cbv iota. change (b_vps (new_block (b_vps b) (b_size b) (b_origin b))) with (b_vps b). rewrite Vb, D. reflexivity.
  - replace ((action =? aUpdate) || negb false) with true by (destruct (action =? aUpdate); reflexivity). rewrite AG. cbn [new_block b_vps]. rewrite D. reflexivity.
Qed.
Lemma apply_bad : forall k action bs (l : Layer k), fits l -> (action = aUpdate \/ action = aMerge) ->
  Exists (fun b => length (bm_data b) <> (num_voxels (l_vps l) * wpv k)%nat) bs -> rfold (apply_block action) bs l = Abort.
Proof.
  intros k action bs. induction bs as [|b bs IH]; intros l F HA H; [inversion H|].
  change (rbind (apply_block action l b) (fun s => rfold (apply_block action) bs s) = Abort).
  destruct (Nat.eq_dec (length (bm_data b)) (num_voxels (l_vps l) * wpv k)) as [L|L].
  - destruct (apply_block_ok action l b F L) as (l1 & vs & _ & E & F1 & V1 & _). rewrite E. cbn [rbind]. apply IH; [exact F1|exact HA|]. rewrite V1.
    apply Exists_cons in H. destruct H as [H|H]; [contradiction|exact H].
  - rewrite (bad_block k l b F L action); [reflexivity|]. destruct HA; auto.
Qed.

(** ** The message of a layer *)
Definition msg_blocks {k} (xs : amap (Block k)) : list block_msg := map (fun kv => MkBM (fst kv) (serializeToIntegers k (b_voxels (snd kv)))) xs.
Lemma ser_loop : forall k (l : Layer k) xs acc, (forall kv, In kv xs -> l_get l (fst kv) = Some (snd kv)) ->
  rfold (fun acc i => match l_get l i with
                      | Some b => Ok (acc ++ [MkBM i (serializeToIntegers k (b_voxels b))])
                      | None => Abort end) (map fst xs) acc = Ok (acc ++ msg_blocks xs).
Proof.
  intros k l xs. induction xs as [|kv xs IH]; intros acc H; [cbn; rewrite app_nil_r; reflexivity|]. cbn [map rfold msg_blocks].
  rewrite (H kv (or_introl eq_refl)). cbn [rbind]. rewrite IH by (intros x I; apply H; right; exact I). rewrite <- app_assoc. reflexivity.
Qed.
Lemma filter_all : forall A (f : A -> bool) xs, Forall (fun x => f x = true) xs -> filter f xs = xs.
Proof. intros A f xs H. induction H as [|x xs Hx H IH]; [reflexivity|]. cbn [filter]. rewrite Hx, IH. reflexivity. Qed.
(** the updated blocks are all of them when all carry the flag *)
Lemma serialize_msg : forall k (l : Layer k) only action, NoDup (getAllAllocatedBlocks l) ->
  (only = true -> forall i b, l_get l i = Some b -> upd_get (b_updated b) kMap = true) ->
  serializeLayerAsMsg l only action = Ok (MkLM (f64_of_f32 (l_size l)) (u32 (l_vps l)) (voxel_type k) action (msg_blocks (l_blocks l))).
Proof.
  intros k l only action ND FL. unfold serializeLayerAsMsg.
  assert (LK : forall kv, In kv (l_blocks l) -> l_get l (fst kv) = Some (snd kv)) by (intros (i, b) I; apply alookup_NoDup; assumption).
  assert (E : (if only then getAllUpdatedBlocks l kMap else getAllAllocatedBlocks l) = map fst (l_blocks l)).
  { destruct only; [|reflexivity]. unfold getAllUpdatedBlocks. rewrite filter_all; [reflexivity|]. apply Forall_forall. intros kv I. apply (FL eq_refl (fst kv)), LK, I. }
  rewrite E, ser_loop by exact LK. reflexivity.
Qed.
Lemma msg_indices : forall k (xs : amap (Block k)), map bm_index (msg_blocks xs) = akeys xs.
Proof. intros. unfold msg_blocks, akeys. rewrite map_map. reflexivity. Qed.
Lemma u32_small : forall z, 0 < z < 2 ^ 31 -> u32 z = z.
Proof. intros z H. unfold u32. apply Z.mod_small. lia. Qed.

(** a map whose blocks are complete *)
Definition complete {k} (l : Layer k) : Prop :=
  NoDup (getAllAllocatedBlocks l) /\ ffin (l_size l) = true /\ 0 < l_vps l < 2 ^ 31 /\
  forall i b, l_get l i = Some b -> length (b_voxels b) = num_voxels (l_vps l) /\ Forall (vox_ok k) (b_voxels b).
Lemma fin_not_nan : forall x, ffin x = true -> fnan x = false.
Proof. intros x H. destruct x; try discriminate; reflexivity. Qed.
(** applying the message of a map to another map of the same geometry *)
Lemma transfer : forall k (a b : Layer k) action m, k <> KEsdf -> complete a -> fits b -> l_size b = l_size a -> l_vps b = l_vps a ->
  m = MkLM (f64_of_f32 (l_size a)) (u32 (l_vps a)) (voxel_type k) action (msg_blocks (l_blocks a)) -> action = aUpdate \/ action = aReset ->
  exists b', applyMsg m b = Ok (true, b') /\ fits b' /\ l_vps b' = l_vps b /\ l_size b' = l_size b /\
    (forall i vs, voxels_at a i = Some vs -> voxels_at b' i = Some vs) /\
    (forall i, voxels_at a i = None -> voxels_at b' i = if action =? aReset then None else voxels_at b i).
Proof.
  intros k a b action m K (NDa & Fs & Vs & CA) Fb Sb Vb -> HA. unfold applyMsg. cbn [lm_action].
  set (m := MkLM _ _ _ _ _).
  assert (FL : for_layer m b).
  { unfold for_layer, m. cbn [lm_type lm_vps lm_size]. rewrite (u32_small _ Vs), Sb. destruct (f64_of_f32_R _ Fs) as (E1 & E2). rewrite E1.
    split; [reflexivity|]. split; [congruence|]. split; [exact E2|]. split; [exact Fs|]. rewrite Rminus_diag_eq by reflexivity. rewrite Rabs_R0. lra. }
  assert (LK : forall kv, In kv (l_blocks a) -> l_get a (fst kv) = Some (snd kv)) by (intros (i, x) I; apply alookup_NoDup; assumption).
  assert (WF : well_formed k m).
  { split; [unfold indices, m; cbn [lm_blocks]; rewrite msg_indices; exact NDa|]. apply Forall_forall. intros x I. unfold m in *. cbn [lm_blocks lm_vps] in *.
    apply in_map_iff in I. destruct I as (kv & <- & I). cbn [bm_data]. rewrite serialize_length, (proj1 (CA _ _ (LK _ I))), (u32_small _ Vs). reflexivity. }
  destruct (deserialize_ok k action b m Fb FL WF) as (b' & E & F' & V' & S' & U & R). exists b'. split; [exact E|]. split; [exact F'|]. split; [exact V'|]. split; [exact S'|]. split.
  - intros i vs H. unfold voxels_at in H. destruct (l_get a i) as [ba|] eqn:Ea; [|discriminate]. injection H as <-.
    pose proof (alookup_In _ _ _ Ea) as I. destruct (R (MkBM i (serializeToIntegers k (b_voxels ba)))) as (vs & C & G). { unfold m. cbn [lm_blocks]. unfold msg_blocks. apply in_map_iff. exists (i, ba). split; [reflexivity|exact I]. }
    cbn [bm_data bm_index] in *. destruct (CA i ba Ea) as (L & O). unfold content in C. rewrite Vb, <- L, (roundtrip_lossless k _ K O) in C. injection C as <-.
    unfold voxels_at. rewrite G. cbn [option_map]. f_equal. unfold received. destruct (l_get (if action =? aReset then removeAllBlocks b else b) i) as [b0|] eqn:Eb0; [|reflexivity].
    destruct HA as [-> | ->]; [reflexivity|]. change (l_get (removeAllBlocks b) i) with (@None (Block k)) in Eb0. discriminate.
  - intros i H. unfold voxels_at in *. rewrite U.
    + destruct HA as [-> | ->]; reflexivity.
    + unfold indices, m. cbn [lm_blocks]. rewrite msg_indices. apply alookup_None. destruct (l_get a i) eqn:Ea; [discriminate|exact Ea].
Qed.

(** ** Histories *)
Section history.
  Variables (size : f32) (vps : Z).
  Hypothesis SANE : sane_map size vps.
  Record map_inv (l : Layer KTsdf) : Prop := MkMI {
    mi_c : complete l; mi_size : l_size l = size; mi_vps : l_vps l = vps;
    mi_flag : forall i b, l_get l i = Some b -> upd_get (b_updated b) kMap = true }.
  Definition sub_inv (b : Layer KTsdf) : Prop := fits b /\ l_size b = size /\ l_vps b = vps.
  Definition covers (a b : Layer KTsdf) : Prop := forall i vs, voxels_at a i = Some vs -> voxels_at b i = Some vs.
  Definition no_extra (a b : Layer KTsdf) : Prop := forall i, l_get a i = None -> l_get b i = None.
  Record inv (s : server) : Prop := MkInv { iv_map : map_inv (sv_map s); iv_subs : Forall sub_inv (sv_subs s) }.

  Lemma deliver_ok : forall a action m subs acc, map_inv a -> Forall sub_inv subs ->
    m = MkLM (f64_of_f32 (l_size a)) (u32 (l_vps a)) (voxel_type KTsdf) action (msg_blocks (l_blocks a)) -> action = aUpdate \/ action = aReset ->
    exists subs', rfold (fun acc s => rbind (applyMsg m s) (fun r => Ok (acc ++ [snd r]))) subs acc = Ok (acc ++ subs') /\
      length subs' = length subs /\ Forall sub_inv subs' /\ Forall (covers a) subs' /\
      (action = aReset \/ Forall (no_extra a) subs -> Forall (no_extra a) subs').
  Proof.
    intros a action m subs. induction subs as [|b subs IH]; intros acc MI H Em HA.
    - exists []. cbn [rfold]. rewrite app_nil_r. repeat split; auto.
    - apply Forall_cons_iff in H. destruct H as ((Fb & Sb & Vb) & H).
      destruct (transfer KTsdf a b action m ltac:(discriminate) (mi_c _ MI) Fb ltac:(rewrite (mi_size _ MI); exact Sb) ltac:(rewrite (mi_vps _ MI); exact Vb) Em HA) as (b' & E & F' & V' & S' & C & N).
      destruct (IH (acc ++ [b']) MI H Em HA) as (subs' & E' & L & I & CV & NX). exists (b' :: subs'). cbn [rfold]. rewrite E. cbn [rbind snd]. rewrite E', <- app_assoc.
      split; [reflexivity|]. split; [cbn [length]; congruence|]. split; [constructor; [split; [exact F'|split; congruence]|exact I]|]. split; [constructor; [exact C|exact CV]|].
      intros Q. constructor.
      + intros i Ni. assert (Va : voxels_at a i = None) by (unfold voxels_at; rewrite Ni; reflexivity). specialize (N i Va).
        assert (Vn : voxels_at b' i = None). { rewrite N. destruct (action =? aReset) eqn:A; [reflexivity|]. destruct Q as [-> | Q]; [discriminate|]. apply Forall_inv in Q. unfold voxels_at. rewrite (Q i Ni). reflexivity. }
        unfold voxels_at in Vn. destruct (l_get b' i); [discriminate|reflexivity].
      + apply NX. destruct Q as [Q|Q]; [left; exact Q|right]. apply Forall_cons_iff in Q. apply Q.
  Qed.
  Lemma publish_ok : forall reset s, inv s -> exists s', publishMap reset s = Ok s' /\ inv s' /\ sv_map s' = sv_map s /\
    Forall (covers (sv_map s)) (sv_subs s') /\ (reset = true \/ Forall (no_extra (sv_map s)) (sv_subs s) -> Forall (no_extra (sv_map s)) (sv_subs s')).
  Proof.
    intros reset s [MI SI]. unfold publishMap. destruct (0 <? Z.of_nat (length (sv_subs s))) eqn:L.
    - set (r := reset || _). rewrite (serialize_msg KTsdf (sv_map s) (negb r) aUpdate (proj1 (mi_c _ MI)) (fun _ => mi_flag _ MI)). cbn [rbind lm_size lm_vps lm_type lm_blocks].
      destruct (deliver_ok (sv_map s) (if r then aReset else aUpdate)
        (if r then MkLM (f64_of_f32 (l_size (sv_map s))) (u32 (l_vps (sv_map s))) (voxel_type KTsdf) aReset (msg_blocks (l_blocks (sv_map s)))
         else MkLM (f64_of_f32 (l_size (sv_map s))) (u32 (l_vps (sv_map s))) (voxel_type KTsdf) aUpdate (msg_blocks (l_blocks (sv_map s)))) (sv_subs s) [] MI SI)
        as (subs' & E & LE & I & CV & NX); [destruct r; reflexivity|destruct r; auto|].
      unfold deliver. rewrite E. cbn [rbind app]. eexists. split; [reflexivity|]. split; [constructor; [exact MI|exact I]|]. split; [reflexivity|]. split; [exact CV|].
      intros Q. apply NX. destruct Q as [-> | Q]; [left; reflexivity|right; exact Q].
    - assert (E : sv_subs s = []). { destruct (sv_subs s); [reflexivity|]. apply Z.ltb_ge in L. cbn [length] in L. lia. }
      eexists. split; [reflexivity|]. split; [constructor; assumption|]. split; [reflexivity|]. cbn [sv_subs]. rewrite E. auto.
  Qed.
  (** what the events do to the published map *)
  Lemma set_th_Forall : forall A (P : A -> Prop) n x xs, P x -> Forall P xs -> Forall P (set_th n x xs).
  Proof.
    intros A P n x xs Hx H. revert n. induction H as [|y ys Hy H IH]; intros n; [destruct n; constructor|]. destruct n; cbn [set_th]; constructor; auto.
  Qed.
  Lemma set_block_inv : forall l i f, map_inv l -> (forall b, l_get l i = Some b -> length (b_voxels b) = num_voxels (l_vps l) -> Forall (vox_ok KTsdf) (b_voxels b) ->
     upd_get (b_updated b) kMap = true ->
     length (b_voxels (f b)) = num_voxels (l_vps l) /\ Forall (vox_ok KTsdf) (b_voxels (f b)) /\ upd_get (b_updated (f b)) kMap = true) -> map_inv (set_block l i f).
  Proof.
    intros l i f [(ND & Fs & V & C) S1 V1 FL] H. destruct (set_block_dim l i f) as (D1 & D2).
    assert (G : forall j b, l_get (set_block l i f) j = Some b -> length (b_voxels b) = num_voxels (l_vps l) /\ Forall (vox_ok KTsdf) (b_voxels b) /\ upd_get (b_updated b) kMap = true).
    { intros j b. rewrite set_block_get. destruct (idx_eqb_spec j i) as [->|].
      - destruct (l_get l i) as [b0|] eqn:E; [|discriminate]. cbn [option_map]. intros Q. injection Q as <-. destruct (C i b0 E). apply (H b0); auto. apply (FL i b0 E).
      - intros Q. destruct (C j b Q). split; [assumption|]. split; [assumption|]. apply (FL j b Q). }
    constructor; [|congruence|congruence|].
    - split; [apply set_block_nodup, ND|]. rewrite D1, D2. split; [exact Fs|]. split; [exact V|]. intros j b Q. destruct (G j b Q) as (A & B & _). auto.
    - intros j b Q. apply (G j b Q).
  Qed.
  Lemma vox_default_ok : vox_ok KTsdf (vdefault KTsdf).
  Proof. cbn. unfold color_ok, color0. cbn. repeat split; discriminate. Qed.
  Lemma integrate_inv : forall l g f l', map_inv l -> (forall v, color_ok (t_color v) -> color_ok (t_color (f v))) -> integrate_voxel l g f = Ok l' ->
    map_inv l' /\ forall i, l_get l' i = None -> l_get l i = None.
  Proof.
    intros l g f l' MI HF E. unfold integrate_voxel in E. apply rbind_ok in E. destruct E as (bi & _ & E). cbv zeta in E.
    set (l1 := set_block (allocateBlockPtrByIndex l bi) bi (set_updated upd_all)) in *.
    apply rbind_ok in E. destruct E as ([a|] & _ & E); [|discriminate]. apply rbind_ok in E. destruct E as (v & Hv & E). injection E as <-.
    assert (I1 : map_inv l1).
    { pose proof MI as MI0. destruct MI as [(ND & Fs & V & C) S1 V1 FL]. destruct (set_block_dim (allocateBlockPtrByIndex l bi) bi (set_updated upd_all)) as (D1 & D2). fold l1 in D1, D2.
      destruct (Sphere_proofs.alloc_dims _ l bi) as (A1 & A2).
      assert (G : forall j b, l_get l1 j = Some b -> length (b_voxels b) = num_voxels (l_vps l) /\ Forall (vox_ok KTsdf) (b_voxels b) /\ upd_get (b_updated b) kMap = true).
      { intros j b. unfold l1. rewrite set_block_get, !Sphere_proofs.alloc_get, idx_eqb_refl. destruct (idx_eqb_spec j bi) as [->|N].
        - destruct (l_get l bi) as [b0|] eqn:E0; cbn [option_map]; intros Q; injection Q as <-.
          + destruct (C bi b0 E0). auto.
          + cbn [set_updated b_voxels b_updated new_block]. split; [apply repeat_length|]. split; [|reflexivity]. apply Forall_forall. intros x I. apply repeat_spec in I. rewrite I. exact vox_default_ok.
        - destruct (l_get l j) as [b0|] eqn:E0; [|discriminate]. intros Q. injection Q as <-. destruct (C j b0 E0). split; [assumption|]. split; [assumption|]. apply (FL j b0 E0). }
      constructor; [|congruence|congruence|].
      - split; [apply set_block_nodup, alloc_nodup, ND|]. rewrite D1, D2, A1, A2. split; [exact Fs|]. split; [exact V|]. intros j b Q. destruct (G j b Q) as (X & Y & _). auto.
      - intros j b Q. apply (G j b Q). }
    split.
    - change (vset (k := KTsdf) l1 a (f v)) with (set_block (k := KTsdf) l1 (fst a) (fun b => set_voxels (k := KTsdf) (set_th (snd a) (f v) (b_voxels b)) b)). apply set_block_inv; [exact I1|]. intros b Q L O U. cbn [set_voxels b_voxels b_updated]. rewrite set_th_length. split; [exact L|]. split; [|exact U].
      apply set_th_Forall; [|exact O]. cbn. apply HF. apply of_opt_ok in Hv. unfold vat in Hv. rewrite Q in Hv. rewrite Forall_forall in O. apply (O v). eapply nth_error_In, Hv.
    - intros i H. rewrite vset_get in H. destruct (l_get l i) as [b|] eqn:E0; [|reflexivity]. exfalso.
      assert (X : l_get l1 i <> None). { unfold l1. rewrite set_block_get, !Sphere_proofs.alloc_get, E0. destruct (idx_eqb_spec i bi) as [->|]; [rewrite E0|]; discriminate. }
      destruct (idx_eqb_spec i (fst a)) as [Q|]; [|contradiction]. rewrite <- Q in H. destruct (l_get l1 i); [discriminate|contradiction].
  Qed.
  Lemma load_inv : forall l p ok l', map_inv l -> addBlockFromProto l p kReplace = Ok (ok, l') ->
    map_inv l' /\ forall i, l_get l' i = None -> l_get l i = None.
  Proof.
    intros l p ok l' MI E. unfold addBlockFromProto in E. destruct (isCompatible_block l p) eqn:IC; [|injection E as _ <-; split; [exact MI|auto]].
    apply rbind_ok in E. destruct E as (b & Eb & E). apply rbind_ok in E. destruct E as (i & _ & E). cbn [rbind] in E. injection E as _ <-.
    unfold block_of_proto in Eb. apply rbind_ok in Eb. destruct Eb as (vs & Ev & Eb). injection Eb as <-.
    destruct MI as [(ND & Fs & V & C) S1 V1 FL].
    assert (Vp : u64 (bp_vps p) = l_vps l).
    { unfold isCompatible_block in IC. apply andb_prop in IC. destruct IC as (_ & IC). apply Z.eqb_eq in IC. rewrite IC. unfold wrap32, u64. rewrite (Z.mod_small (l_vps l + 2 ^ 31)) by lia. rewrite Z.mod_small by lia. lia. }
    rewrite Vp in Ev. assert (LD : length (bp_data p) = (num_voxels (l_vps l) * wpv KTsdf)%nat).
    { unfold deserializeFromIntegers in Ev. destruct (Nat.eqb_spec (num_voxels (l_vps l) * wpv KTsdf) (length (bp_data p))); [congruence|discriminate]. }
    destruct (C09_right_length_loads KTsdf _ _ LD) as (vs' & E' & L' & O'). rewrite Ev in E'. injection E' as <-.
    set (b := set_voxels vs _). set (mm := mark_updated i (aset i b (l_blocks l))).
    assert (G : forall j c, alookup j mm = Some c -> length (b_voxels c) = num_voxels (l_vps l) /\ Forall (vox_ok KTsdf) (b_voxels c) /\ upd_get (b_updated c) kMap = true).
    { intros j c. unfold mm, mark_updated. rewrite alookup_aset, idx_eqb_refl. rewrite !alookup_aset. destruct (idx_eqb_spec j i) as [->|N].
      - intros Q. injection Q as <-. cbn [set_updated b_voxels b_updated b set_voxels]. auto.
      - intros Q. destruct (C j c Q). split; [assumption|]. split; [assumption|]. apply (FL j c Q). }
    split.
    - constructor; [|exact S1|exact V1|].
      + split.
        * unfold getAllAllocatedBlocks. cbn [with_blocks l_blocks]. unfold mm, mark_updated. rewrite alookup_aset, idx_eqb_refl. apply NoDup_aset, NoDup_aset, ND.
        * split; [exact Fs|]. split; [exact V|]. intros j c Q. destruct (G j c Q) as (X & Y & _). auto.
      + intros j c Q. apply (G j c Q).
    - intros j H. unfold l_get in H. cbn [with_blocks l_blocks] in H. unfold mm, mark_updated in H. rewrite alookup_aset, idx_eqb_refl, !alookup_aset in H.
      destruct (idx_eqb j i); [discriminate|exact H].
  Qed.
  Lemma sub_map_inv : forall l m, map_inv l -> NoDup (akeys m) -> (forall i b, alookup i m = Some b -> l_get l i = Some b) -> map_inv (with_blocks l m).
  Proof.
    intros l m [(ND & Fs & V & C) S1 V1 FL] N H. constructor; [|exact S1|exact V1|].
    - split; [exact N|]. split; [exact Fs|]. split; [exact V|]. intros i b Q. apply (C i b), H, Q.
    - intros i b Q. apply (FL i b), H, Q.
  Qed.
  Lemma erase_fold : forall is (m : amap (Block KTsdf)), NoDup (akeys m) ->
    NoDup (akeys (fold_left (fun m i => aerase i m) is m)) /\ forall i b, alookup i (fold_left (fun m i => aerase i m) is m) = Some b -> alookup i m = Some b.
  Proof.
    intros is. induction is as [|j is IH]; intros m N; [auto|]. cbn [fold_left]. destruct (IH (aerase j m)) as (A & B).
    - unfold aerase, akeys. apply NoDup_map_filter. exact N.
    - split; [exact A|]. intros i b Q. specialize (B i b Q). rewrite alookup_aerase in B. destruct (idx_eqb i j); [discriminate|exact B].
  Qed.
  Lemma fresh_sub : forall l, map_inv l -> sub_inv (removeAllBlocks l).
  Proof.
    intros l [(ND & Fs & V & C) S1 V1 FL]. split; [|split; [exact S1|exact V1]]. split; [constructor|]. split; [apply fin_not_nan, Fs|]. discriminate.
  Qed.
  Lemma Forall_drop : forall A (P : A -> Prop) j xs, Forall P xs -> Forall P (firstn j xs ++ skipn (S j) xs).
  Proof.
    intros A P j xs H. apply Forall_app. rewrite Forall_forall in H. split; apply Forall_forall; intros x I; apply H.
    - rewrite <- (firstn_skipn j xs). apply in_or_app. left. exact I.
    - rewrite <- (firstn_skipn (S j) xs). apply in_or_app. right. exact I.
  Qed.
  Definition extra_free (s : server) : Prop := Forall (no_extra (sv_map s)) (sv_subs s).
  Lemma step_inv : forall s e s', inv s -> usual e -> receives e = false -> server_step s e = Ok s' ->
    inv s' /\ (removes e = false -> extra_free s -> extra_free s').
  Proof.
    intros s e s' [MI SI] U R E. destruct e as [g f|p|bit i|c d| | |m| |j]; cbn [server_step] in E; try discriminate.
    - apply rbind_ok in E. destruct E as (l & E1 & E). injection E as <-. destruct (integrate_inv _ _ _ _ MI U E1) as (I1 & K). split; [constructor; assumption|].
      intros _ X. unfold extra_free, on_map in *. cbn [sv_map sv_subs]. eapply Forall_impl; [|exact X]. intros b Hb i Q. apply Hb, K, Q.
    - apply rbind_ok in E. destruct E as ((ok, l) & E1 & E). injection E as <-. destruct (load_inv _ _ _ _ MI E1) as (I1 & K). split; [constructor; assumption|].
      intros _ X. unfold extra_free, on_map in *. cbn [sv_map sv_subs snd]. eapply Forall_impl; [|exact X]. intros b Hb i Q. apply Hb, K, Q.
    - injection E as <-. cbn [usual] in U. rewrite clear_set_block. split.
      + constructor; [|exact SI]. cbn [sv_map on_map]. apply set_block_inv; [exact MI|]. intros b Q L O F. cbn [set_updated b_voxels b_updated]. split; [exact L|]. split; [exact O|]. rewrite reset_other; assumption.
      + intros _ X. unfold extra_free, on_map in *. cbn [sv_map sv_subs]. eapply Forall_impl; [|exact X]. intros b Hb jj Q. apply Hb.
        rewrite set_block_get in Q. destruct (idx_eqb_spec jj i) as [Ej|]; [|exact Q]. rewrite Ej. destruct (l_get (sv_map s) i); [discriminate|reflexivity].
    - injection E as <-. split; [|intros Q; discriminate]. constructor; [|exact SI]. cbn [sv_map on_map]. unfold removeDistantBlocks.
      destruct (erase_fold (needs_erasing (sv_map s) c d) (l_blocks (sv_map s)) (proj1 (mi_c _ MI))) as (A & B). apply sub_map_inv; assumption.
    - assert (I0 : inv (on_map s (removeAllBlocks (sv_map s)))).
      { constructor; [|exact SI]. apply sub_map_inv; [exact MI|constructor|discriminate]. }
      destruct (publish_ok true _ I0) as (s1 & E1 & I1 & M1 & C1 & X1). rewrite E1 in E. injection E as <-. split; [exact I1|]. intros _ _. unfold extra_free. rewrite M1. apply X1. left. reflexivity.
    - destruct (publish_ok false s (MkInv _ MI SI)) as (s1 & E1 & I1 & M1 & C1 & X1). rewrite E1 in E. injection E as <-. split; [exact I1|]. intros _ X. unfold extra_free. rewrite M1. apply X1. right. exact X.
    - injection E as <-. split.
      + constructor; [exact MI|]. cbn [sv_subs]. apply Forall_app. split; [exact SI|]. constructor; [apply fresh_sub, MI|constructor].
      + intros _ X. unfold extra_free in *. cbn [sv_map sv_subs]. apply Forall_app. split; [exact X|]. constructor; [|constructor]. intros i _. reflexivity.
    - injection E as <-. split.
      + constructor; [exact MI|]. cbn [sv_subs]. apply Forall_drop, SI.
      + intros _ X. unfold extra_free in *. cbn [sv_map sv_subs]. apply Forall_drop, X.
  Qed.
  Lemma run_inv : forall es s s', inv s -> Forall usual es -> existsb receives es = false -> server_run s es = Ok s' ->
    inv s' /\ (existsb removes es = false -> extra_free s -> extra_free s').
  Proof.
    intros es. induction es as [|e es IH]; intros s s' I U R E; [injection E as <-; auto|].
    change (rbind (server_step s e) (fun s1 => server_run s1 es) = Ok s') in E. apply rbind_ok in E. destruct E as (s1 & E1 & E).
    apply Forall_cons_iff in U. destruct U as (U1 & U2). cbn [existsb] in *. apply orb_false_iff in R. destruct R as (R1 & R2).
    destruct (step_inv _ _ _ I U1 R1 E1) as (I1 & X1). destruct (IH _ _ I1 U2 R2 E) as (I2 & X2). split; [exact I2|].
    intros Q X. apply orb_false_iff in Q. destruct Q as (Q1 & Q2). auto.
  Qed.
  Lemma new_inv : inv (server_new size vps).
  Proof.
    destruct SANE as (F & V). constructor; [|constructor]. constructor; [|reflexivity|reflexivity|discriminate].
    split; [constructor|]. split; [exact F|]. split; [exact V|]. discriminate.
  Qed.
End history.
