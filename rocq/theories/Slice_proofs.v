(** Lemmas about [Slice] and batches. *)
From Coq Require Import ZArith List Bool Lia.
From Verif Require Import F32 Types Assoc Assoc_lemmas Index Index_proofs Voxel Layer Update Ray Interp Interp_spec Grad Slice Slice_spec.
Import ListNotations.
Open Scope Z_scope.
Ltac Zify.zify_post_hook ::= idtac.

(** ** filling arrays *)
Lemma filled_nil : forall A (l : list A), filled [] l l.
Proof. intros A l. split; [reflexivity|]. intros j _. destruct j; reflexivity. Qed.
Lemma put_spec : forall A (l : list A) n x, (n < length l)%nat -> exists l', put n x l = Some l' /\ length l' = length l /\
  forall j, nth_error l' j = if (j =? n)%nat then Some x else nth_error l j.
Proof.
  intros A l. induction l as [|y l IH]; intros n x H; [cbn in H; lia|]. destruct n as [|n]; cbn [put].
  - eexists; split; [reflexivity|]. split; [reflexivity|]. intros [|j]; reflexivity.
  - cbn [length] in H. destruct (IH n x ltac:(lia)) as (l' & E & L & N). rewrite E. cbn [option_map]. eexists; split; [reflexivity|]. split; [cbn; lia|]. intros [|j]; [reflexivity|]. apply N.
Qed.
Lemma put_none : forall A (l : list A) n x, (length l <= n)%nat -> put n x l = None.
Proof. intros A l. induction l as [|y l IH]; intros n x H; [destruct n; reflexivity|]. destruct n as [|n]; cbn [length] in H; [lia|]. cbn [put]. rewrite IH by lia. reflexivity. Qed.
Lemma put_filled : forall A (xs old new : list A) x, filled xs old new -> (length xs < length old)%nat ->
  exists new', put (length xs) x new = Some new' /\ filled (xs ++ [x]) old new'.
Proof.
  intros A xs old new x (L & N) H. destruct (put_spec A new (length xs) x ltac:(lia)) as (l' & E & L' & N'). exists l'. split; [exact E|]. split; [lia|].
  intros j Hj. rewrite N'. destruct (Nat.eqb_spec j (length xs)) as [->|NE].
  - rewrite nth_error_app2, Nat.sub_diag by lia. reflexivity.
  - destruct (Nat.ltb_spec j (length xs)).
    + rewrite nth_error_app1 by lia. rewrite N by lia. reflexivity.
    + rewrite nth_error_app2 by lia. rewrite N by lia. rewrite (proj2 (nth_error_None xs j)) by lia. destruct (j - length xs)%nat as [|m] eqn:EM; [lia|]. destruct m; reflexivity.
Qed.
Lemma filled_over : forall A (xs old new : list A) x, filled xs old new -> (length old <= length xs)%nat -> filled (xs ++ [x]) old new.
Proof. intros A xs old new x (L & N) H. split; [exact L|]. intros j Hj. rewrite N by lia. rewrite nth_error_app1 by lia. reflexivity. Qed.

(** ** the loops visit the hits *)
Definition bump (st : slice) : slice := MkSlice (S (sl_count st)) (sl_fit st) (sl_positions st) (sl_distances st) (sl_weights st).
Section Run.
  Context {k : vkind}.
  Variable skip : Block k -> bool.
  Variable ignored : vox k -> bool.
  Variable store : nat -> vox k -> slice -> res slice.
  Variable axis : nat.
  Variable plane : f64.
  Variable max_points : nat.
  Notation run_voxels := (slice_voxels ignored store axis plane max_points).
  Notation run_blocks := (slice_blocks skip ignored store axis plane max_points).

  Fixpoint run_hits (hits : list (pt3 * vox k)) (st : slice) : res (bool * slice) :=
    match hits with
    | [] => Ok (false, st)
    | (p, v) :: hits' =>
        rbind (store (sl_count (store_position p st)) v (store_position p st)) (fun st =>
        if (max_points <=? sl_count (bump st))%nat then Ok (true, bump st) else run_hits hits' (bump st))
    end.
  Lemma run_hits_app : forall a b st, run_hits (a ++ b) st = rbind (run_hits a st) (fun r => if fst r then Ok r else run_hits b (snd r)).
  Proof.
    induction a as [|(p, v) a IH]; intros b st; [reflexivity|]. cbn [app run_hits].
    destruct (store (sl_count (store_position p st)) v (store_position p st)) as [st'| |]; cbn [rbind]; [|reflexivity|reflexivity].
    destruct (max_points <=? sl_count (bump st'))%nat; [reflexivity|apply IH].
  Qed.
  Definition pick (s : f32) (p : pt3 * vox k) : bool := dle (from_plane axis plane (fst p)) (f64_of_f32 s) && negb (ignored (snd p)).
  Definition centre_list (b : Block k) (ps : list (nat * vox k)) : list (pt3 * vox k) :=
    flat_map (fun p => match computeVoxelIndexFromLinearIndex (b_vps b) (Z.of_nat (fst p)) with
                     | Some v => [(computeCoordinatesFromVoxelIndex (b_origin b) (b_size b) v, snd p)]
                     | None => [] end) ps.
  Lemma run_voxels_hits : forall (b : Block k) vs a st, 0 < b_vps b -> b_vps b * b_vps b * b_vps b <= 2 ^ 31 ->
    (forall j v, nth_error vs j = Some v -> nth_error (b_voxels b) (a + j) = Some v) -> Z.of_nat (a + length vs) <= b_vps b * b_vps b * b_vps b ->
    run_voxels b (seq a (length vs)) st = run_hits (filter (pick (b_size b)) (centre_list b (combine (seq a (length vs)) vs))) st.
  Proof.
    intros b vs. induction vs as [|v vs IH]; intros a st V1 V2 N L; [reflexivity|]. cbn [length seq combine slice_voxels].
    destruct (linear_inverse (b_vps b) (Z.of_nat a) V1 V2 ltac:(cbn [length] in L; lia)) as (i & E & _ & _).
    unfold centre_list. cbn [flat_map fst snd]. unfold coordinates_of. rewrite E. cbn [of_opt rbind app filter].
    rewrite <- (Nat.add_0_r a) at 1. rewrite (N 0%nat v eq_refl). cbn [of_opt rbind].
    assert (IH' : forall st, run_voxels b (seq (S a) (length vs)) st = run_hits (filter (pick (b_size b)) (centre_list b (combine (seq (S a) (length vs)) vs))) st).
    { intros st'. apply IH; auto; [|cbn [length] in L; lia]. intros j w Hw. replace (S a + j)%nat with (a + S j)%nat by lia. apply N. exact Hw. }
    unfold centre_list in IH'. unfold pick at 1. cbn [fst snd]. unfold near_plane. fold (from_plane axis plane (computeCoordinatesFromVoxelIndex (b_origin b) (b_size b) i)).
    destruct (dle (from_plane axis plane (computeCoordinatesFromVoxelIndex (b_origin b) (b_size b) i)) (f64_of_f32 (b_size b)) && negb (ignored v)); [|apply IH'].
    cbn [run_hits]. destruct (store _ v _) as [st'| |]; cbn [rbind]; [|reflexivity|reflexivity]. fold (bump st').
    destruct (max_points <=? sl_count (bump st'))%nat; [reflexivity|apply IH'].
  Qed.
  Lemma run_blocks_hits : forall (l : Layer k) es st, built_layer l ->
    (forall i b, In (i, b) es -> l_get l i = Some b) ->
    run_blocks l (map fst es) st = run_hits (flat_map (fun e => let b := snd e in
       if negb (skip b) && negb (dgt (from_plane axis plane (b_origin b)) (f64_of_f32 (block_size_of (b_vps b) (b_size b))))
       then filter (pick (b_size b)) (centres b) else []) es) st.
  Proof.
    intros l es. induction es as [|(i, b) es IH]; intros st BL G; [reflexivity|]. cbn [map slice_blocks fst flat_map snd].
    rewrite (G i b (or_introl eq_refl)). destruct BL as (S0 & V0 & B0). destruct (B0 _ _ (G i b (or_introl eq_refl))) as (E1 & E2 & _ & E4).
    unfold far_block. fold (from_plane axis plane (b_origin b)).
    assert (IH' : forall st, run_blocks l (map fst es) st = run_hits (flat_map (fun e => let b := snd e in
       if negb (skip b) && negb (dgt (from_plane axis plane (b_origin b)) (f64_of_f32 (block_size_of (b_vps b) (b_size b)))) then filter (pick (b_size b)) (centres b) else []) es) st).
    { intros st'. apply IH; [split; auto|]. intros j c H. apply G. right. exact H. }
    destruct (skip b) eqn:SK; cbn [orb negb andb]; [apply IH'|].
    destruct (dgt (from_plane axis plane (b_origin b)) (f64_of_f32 (block_size_of (b_vps b) (b_size b)))) eqn:FB; cbn [negb]; [apply IH'|].
    rewrite run_hits_app. rewrite <- E4, Nat2Z.id. rewrite (run_voxels_hits b (b_voxels b) 0 st); [|rewrite E1; lia|rewrite E1; nia|auto|rewrite Nat.add_0_l, E4, E1; lia].
    unfold centres, centre_list. destruct (run_hits _ st) as [(st1, st2)| |]; cbn [rbind]; [|reflexivity|reflexivity]. cbn [fst snd]. destruct st1; [reflexivity|apply IH'].
  Qed.
  (** a run keeps an invariant about what was reported *)
  Variable Inv : list (pt3 * vox k) -> slice -> Prop.
  Variable room : nat.
  Hypothesis inv_count : forall done st, Inv done st -> sl_count st = length done.
  Hypothesis inv_step : forall done p v st, Inv done st -> (length done < room)%nat ->
    exists st', store (sl_count (store_position p st)) v (store_position p st) = Ok st' /\ Inv (done ++ [(p, v)]) (bump st').
  Lemma run_hits_spec : forall hits done st, Inv done st -> (length done < Nat.max 1 max_points)%nat ->
    (Nat.min (length done + length hits) (Nat.max 1 max_points) <= room)%nat ->
    exists st', run_hits hits st = Ok ((Nat.max 1 max_points <=? length done + length hits)%nat, st') /\
      Inv (done ++ firstn (Nat.max 1 max_points - length done) hits) st'.
  Proof.
    induction hits as [|(p, v) hits IH]; intros done st I H R; cbn [run_hits length] in *.
    - exists st. rewrite Nat.add_0_r, firstn_nil, app_nil_r. split; [|exact I]. rewrite (proj2 (Nat.leb_gt _ _)) by lia. reflexivity.
    - destruct (inv_step done p v st I ltac:(lia)) as (st' & E & I'). rewrite E. cbn [rbind]. pose proof (inv_count _ _ I') as C. rewrite app_length in C. cbn [length] in C.
      rewrite C. destruct (Nat.max 1 max_points - length done)%nat as [|m] eqn:EM; [lia|]. cbn [firstn].
      destruct (Nat.leb_spec max_points (length done + 1)).
      + assert (m = 0)%nat by lia. subst m. cbn [firstn]. exists (bump st'). split; [|exact I']. rewrite (proj2 (Nat.leb_le _ _)) by lia. reflexivity.
      + destruct (IH (done ++ [(p, v)]) (bump st') I') as (st2 & E2 & I2); [rewrite app_length; cbn [length]; lia|rewrite app_length; cbn [length]; lia|].
        exists st2. rewrite app_length in E2, I2. cbn [length] in E2, I2. split.
        * rewrite E2. f_equal. f_equal. f_equal. lia.
        * replace (Nat.max 1 max_points - (length done + 1))%nat with m in I2 by lia. rewrite <- app_assoc in I2. exact I2.
  Qed.
End Run.

(** ** the two slices *)
Lemma entries_get : forall k (l : Layer k), NoDup (getAllAllocatedBlocks l) -> forall i b, In (i, b) (l_blocks l) -> l_get l i = Some b.
Proof.
  intros k l ND i b H. unfold l_get, getAllAllocatedBlocks, akeys in *. revert ND H. generalize (l_blocks l). intros es. induction es as [|(j, c) es IH]; intros ND H; [destruct H|].
  cbn [map fst] in ND. inversion ND as [|? ? NI ND']; subst. cbn [alookup]. destruct H as [H | H].
  - injection H as -> ->. destruct (idx_eqb_spec i i); [reflexivity|congruence].
  - destruct (idx_eqb_spec i j) as [-> | NE]; [|apply IH; auto]. exfalso. apply NI. apply in_map_iff. exists (j, b). auto.
Qed.
Lemma flat_map_ext_in : forall A B (f g : A -> list B) l, (forall a, f a = g a) -> flat_map f l = flat_map g l.
Proof. intros A B f g l H. induction l as [|a l IH]; [reflexivity|]. cbn [flat_map]. rewrite H, IH. reflexivity. Qed.
Lemma put_or_keep : forall A (xs old new : list A) x n, filled xs old new -> n = length xs ->
  match put n x new with
  | Some new' => (length xs < length old)%nat /\ filled (xs ++ [x]) old new'
  | None => (length old <= length xs)%nat /\ filled (xs ++ [x]) old new
  end.
Proof.
  intros A xs old new x n F ->. destruct (Nat.ltb_spec (length xs) (length old)) as [H | H].
  - destruct (put_filled A xs old new x F H) as (new' & -> & F'). auto.
  - rewrite put_none by (destruct F; lia). split; [exact H|apply filled_over; auto].
Qed.
Lemma filled_firstn : forall A (xs old new : list A) m, filled xs old new -> (length old <= m)%nat -> filled (firstn m xs) old new.
Proof.
  intros A xs old new m (L & N) H. split; [exact L|]. intros j Hj. rewrite N by lia. rewrite <- (firstn_skipn m xs) at 1.
  destruct (Nat.ltb_spec j (length (firstn m xs))) as [HF | HF]; [rewrite nth_error_app1 by lia; reflexivity|].
  rewrite firstn_length in HF. rewrite (proj2 (nth_error_None (firstn m xs) j)) by (rewrite firstn_length; lia).
  rewrite (proj2 (nth_error_None _ j)); [reflexivity|]. rewrite firstn_skipn. lia.
Qed.
Lemma esdf_slice_spec : forall (l : Layer KEsdf) axis plane positions distances max_points, built_layer l -> NoDup (getAllAllocatedBlocks l) ->
  let hits := slice_hits (k := KEsdf) (fun _ => true) e_observed axis plane l in
  let n := Nat.min (length hits) (Nat.max 1 max_points) in
  exists fit ps ds,
    esdf_slice l axis plane positions distances max_points =
      Ok (if (length hits <? Nat.max 1 max_points)%nat && ((length positions <? length hits)%nat || (length distances <? length hits)%nat) then None else Some n,
          MkSlice n fit ps ds []) /\
    filled (xpos (firstn n hits)) positions ps /\
    filled (edist (firstn n hits)) distances ds.
Proof.
  intros l axis plane positions distances max_points BL ND hits n.
  set (Inv := fun (done : list (pt3 * vox KEsdf)) (st : slice) => sl_count st = length done /\
    filled (xpos done) positions (sl_positions st) /\ filled (edist done) distances (sl_distances st) /\
    sl_fit st = ((length done <=? length positions)%nat && (length done <=? length distances)%nat) /\ sl_weights st = []).
  set (store := fun n (v : vox KEsdf) st => store_distance n (e_distance v) st).
  assert (STEP : forall done p v st, Inv done st -> (length done < S (length hits))%nat -> exists st', store (sl_count (store_position p st)) v (store_position p st) = Ok st' /\ Inv (done ++ [(p, v)]) (bump st')).
  { intros done p v st (I1 & I2 & I3 & I4 & I5) _. unfold store_position, store, store_distance.
    assert (LP : length (xpos done) = length done) by (unfold xpos; apply map_length).
    assert (LD : length (edist done) = length done) by (unfold edist; apply map_length).
    pose proof (put_or_keep dpt (xpos done) _ _ (map3 f64_of_f32 p) (sl_count st) I2 (eq_trans I1 (eq_sym LP))) as KP. pose proof (put_or_keep f64 (edist done) _ _ (f64_of_f32 (e_distance v)) (sl_count st) I3 (eq_trans I1 (eq_sym LD))) as KD.
    rewrite LP in KP. rewrite LD in KD.
    assert (FIT : forall b c, (b = true -> (length done < length positions)%nat) -> (b = false -> (length positions <= length done)%nat) -> (c = true -> (length done < length distances)%nat) -> (c = false -> (length distances <= length done)%nat) ->
       sl_fit st && b && c = ((length done + 1 <=? length positions)%nat && (length done + 1 <=? length distances)%nat)).
    { intros b c B1 B2 C1 C2. rewrite I4.
      destruct b; [specialize (B1 eq_refl); rewrite !(proj2 (Nat.leb_le _ (length positions))) by lia|specialize (B2 eq_refl); rewrite (proj2 (Nat.leb_gt (length done + 1) (length positions))) by lia; rewrite andb_false_r; reflexivity].
      destruct c; [specialize (C1 eq_refl); rewrite !(proj2 (Nat.leb_le _ (length distances))) by lia; reflexivity|specialize (C2 eq_refl); rewrite (proj2 (Nat.leb_gt (length done + 1) (length distances))) by lia; rewrite !andb_false_r; reflexivity]. }
    destruct (put (A := dpt) (sl_count st) (map3 f64_of_f32 p) (sl_positions st)) as [ps'|]; destruct KP as (KP1 & KP2); cbn [sl_count sl_distances sl_fit sl_positions sl_weights];
      (destruct (put (sl_count st) (f64_of_f32 (e_distance v)) (sl_distances st)) as [ds'|]; destruct KD as (KD1 & KD2); eexists; (split; [reflexivity|]);
       unfold Inv, bump, xpos, edist; cbn [sl_count sl_distances sl_fit sl_positions sl_weights]; rewrite app_length, !map_app; cbn [length map fst snd];
       (split; [lia|]; split; [exact KP2|]; split; [exact KD2|]; split; [|exact I5])).
    - rewrite <- (FIT true true) by (intros; try discriminate; auto). rewrite !andb_true_r. reflexivity.
    - rewrite <- (FIT true false) by (intros; try discriminate; auto). rewrite !andb_false_r. reflexivity.
    - rewrite <- (FIT false true) by (intros; try discriminate; auto). rewrite !andb_false_r. reflexivity.
    - rewrite <- (FIT false false) by (intros; try discriminate; auto). rewrite !andb_false_r. reflexivity. }
  assert (CNT : forall done st, Inv done st -> sl_count st = length done) by (intros done st (I1 & _); exact I1).
  assert (I0 : Inv [] (MkSlice 0 true positions distances [])).
  { unfold Inv. cbn [sl_count sl_distances sl_fit sl_positions sl_weights length xpos edist map]. split; [reflexivity|]. split; [apply filled_nil|]. split; [apply filled_nil|]. split; reflexivity. }
  destruct (run_hits_spec store max_points Inv (S (length hits)) CNT STEP hits [] _ I0 ltac:(cbn [length]; lia) ltac:(cbn [length]; lia)) as (st' & ER & IR).
  cbn [length Nat.add app] in ER, IR. rewrite Nat.sub_0_r in IR.
  assert (EH : firstn n hits = firstn (Nat.max 1 max_points) hits).
  { unfold n. destruct (Nat.leb_spec (length hits) (Nat.max 1 max_points)); [rewrite Nat.min_l, !firstn_all2 by lia; reflexivity|rewrite Nat.min_r by lia; reflexivity]. }
  rewrite <- EH in IR. destruct IR as (I1 & I2 & I3 & I4 & I5).
  assert (LN : length (firstn n hits) = n) by (rewrite firstn_length; unfold n; lia). rewrite LN in *.
  exists (sl_fit st'), (sl_positions st'), (sl_distances st'). split; [|split; [exact I2|exact I3]].
  unfold esdf_slice, slice_run. fold store. unfold getAllAllocatedBlocks, akeys.
  rewrite (run_blocks_hits (fun _ => false) (fun v : vox KEsdf => negb (e_observed v)) store axis plane max_points l (l_blocks l) _ BL (entries_get KEsdf l ND)).
  replace (flat_map _ (l_blocks l)) with hits.
  2:{ unfold hits, slice_hits. apply flat_map_ext_in. intros e. cbn [negb andb].
      destruct (negb (dgt (from_plane axis plane (b_origin (snd e))) (f64_of_f32 (block_size_of (b_vps (snd e)) (b_size (snd e)))))); [|reflexivity].
      apply filter_ext. intros q. unfold pick. rewrite negb_involutive. reflexivity. }
  rewrite ER. cbn [rbind fst snd]. f_equal. f_equal.
  - rewrite I1. destruct (Nat.leb_spec (Nat.max 1 max_points) (length hits)) as [H | H].
    + rewrite (proj2 (Nat.ltb_ge _ _)) by lia. reflexivity.
    + rewrite (proj2 (Nat.ltb_lt _ _)) by lia. cbn [andb]. assert (n = length hits) by (unfold n; lia). rewrite I4.
      destruct (Nat.leb_spec n (length positions)), (Nat.leb_spec n (length distances)); cbn [andb];
        destruct (Nat.ltb_spec (length positions) (length hits)), (Nat.ltb_spec (length distances) (length hits)); cbn [orb]; try lia; reflexivity.
  - destruct st' as [s1 s2 s3 s4 s5]. cbn [sl_count sl_distances sl_fit sl_positions sl_weights] in *. congruence.
Qed.
Lemma tweight_app : forall a p v, tweight (a ++ [(p, v)]) = tweight a ++ [f64_of_f32 (t_weight v)].
Proof. intros. unfold tweight. rewrite map_app. reflexivity. Qed.
Lemma tsdf_slice_spec : forall (l : Layer KTsdf) axis plane positions distances weights max_points, built_layer l -> NoDup (getAllAllocatedBlocks l) ->
  let hits := slice_hits (k := KTsdf) b_has_data (fun _ => true) axis plane l in
  let n := Nat.min (length hits) (Nat.max 1 max_points) in
  (Nat.min n (length distances) <= length weights)%nat ->
  exists fit ps ds ws,
    tsdf_slice l axis plane positions distances weights max_points =
      Ok (if (length hits <? Nat.max 1 max_points)%nat && ((length positions <? length hits)%nat || (length distances <? length hits)%nat) then None else Some n,
          MkSlice n fit ps ds ws) /\
    filled (xpos (firstn n hits)) positions ps /\
    filled (tdist (firstn n hits)) distances ds /\
    filled (firstn (length distances) (tweight (firstn n hits))) weights ws.
Proof.
  intros l axis plane positions distances weights max_points BL ND hits n LW.
  set (Inv := fun (done : list (pt3 * vox KTsdf)) (st : slice) => sl_count st = length done /\
    filled (xpos done) positions (sl_positions st) /\ filled (tdist done) distances (sl_distances st) /\
    sl_fit st = ((length done <=? length positions)%nat && (length done <=? length distances)%nat) /\
    filled (firstn (length distances) (tweight done)) weights (sl_weights st)).
  set (store := fun n (v : vox KTsdf) st => store_distance_weight n v st).
  assert (STEP : forall done p v st, Inv done st -> (length done < n)%nat -> exists st', store (sl_count (store_position p st)) v (store_position p st) = Ok st' /\ Inv (done ++ [(p, v)]) (bump st')).
  { intros done p v st (I1 & I2 & I3 & I4 & I5) LR. unfold store_position, store, store_distance_weight.
    assert (LWt : length (tweight done) = length done) by (unfold tweight; apply map_length).
    assert (LP : length (xpos done) = length done) by (unfold xpos; apply map_length).
    assert (LD : length (tdist done) = length done) by (unfold tdist; apply map_length).
    pose proof (put_or_keep dpt (xpos done) _ _ (map3 f64_of_f32 p) (sl_count st) I2 (eq_trans I1 (eq_sym LP))) as KP. pose proof (put_or_keep f64 (tdist done) _ _ (f64_of_f32 (t_distance v)) (sl_count st) I3 (eq_trans I1 (eq_sym LD))) as KD.
    rewrite LP in KP. rewrite LD in KD.
    assert (FIT : forall b c, (b = true -> (length done < length positions)%nat) -> (b = false -> (length positions <= length done)%nat) -> (c = true -> (length done < length distances)%nat) -> (c = false -> (length distances <= length done)%nat) ->
       sl_fit st && b && c = ((length done + 1 <=? length positions)%nat && (length done + 1 <=? length distances)%nat)).
    { intros b c B1 B2 C1 C2. rewrite I4.
      destruct b; [specialize (B1 eq_refl); rewrite !(proj2 (Nat.leb_le _ (length positions))) by lia|specialize (B2 eq_refl); rewrite (proj2 (Nat.leb_gt (length done + 1) (length positions))) by lia; rewrite andb_false_r; reflexivity].
      destruct c; [specialize (C1 eq_refl); rewrite !(proj2 (Nat.leb_le _ (length distances))) by lia; reflexivity|specialize (C2 eq_refl); rewrite (proj2 (Nat.leb_gt (length done + 1) (length distances))) by lia; rewrite !andb_false_r; reflexivity]. }
    assert (KW : (length done < length distances)%nat -> exists ws', put (sl_count st) (f64_of_f32 (t_weight v)) (sl_weights st) = Some ws' /\ filled (firstn (length distances) (tweight (done ++ [(p, v)]))) weights ws').
    { intros LT. rewrite (firstn_all2 (tweight done)) in I5 by lia. destruct (put_filled _ _ _ _ (f64_of_f32 (t_weight v)) I5 ltac:(rewrite LWt; lia)) as (ws' & EW & FW).
      rewrite LWt, <- I1 in EW. exists ws'. split; [exact EW|]. rewrite tweight_app. rewrite firstn_all2 by (rewrite app_length, LWt; cbn [length]; lia). exact FW. }
    assert (KN : (length distances <= length done)%nat -> filled (firstn (length distances) (tweight (done ++ [(p, v)]))) weights (sl_weights st)).
    { intros LE. rewrite tweight_app, firstn_app, LWt. replace (length distances - length done)%nat with 0%nat by lia. cbn [firstn]. rewrite app_nil_r. exact I5. }
    destruct (put (A := dpt) (sl_count st) (map3 f64_of_f32 p) (sl_positions st)) as [ps'|]; destruct KP as (KP1 & KP2); cbn [sl_count sl_distances sl_fit sl_positions sl_weights].
    - destruct (put (sl_count st) (f64_of_f32 (t_distance v)) (sl_distances st)) as [ds'|]; destruct KD as (KD1 & KD2); [destruct (KW KD1) as (ws' & EW & FW); rewrite EW; cbn [of_opt rbind]|pose proof (KN KD1) as FW]; eexists; (split; [reflexivity|]);
       unfold Inv, bump; cbn [sl_count sl_distances sl_fit sl_positions sl_weights]; unfold xpos, tdist; rewrite app_length, !map_app; cbn [length map fst snd];
       (split; [lia|]; split; [exact KP2|]; split; [exact KD2|]; split; [|exact FW]).
      + rewrite <- (FIT true true) by (intros; try discriminate; auto). rewrite !andb_true_r. reflexivity.
      + rewrite <- (FIT true false) by (intros; try discriminate; auto). rewrite !andb_false_r. reflexivity.
    - destruct (put (sl_count st) (f64_of_f32 (t_distance v)) (sl_distances st)) as [ds'|]; destruct KD as (KD1 & KD2); [destruct (KW KD1) as (ws' & EW & FW); rewrite EW; cbn [of_opt rbind]|pose proof (KN KD1) as FW]; eexists; (split; [reflexivity|]);
       unfold Inv, bump; cbn [sl_count sl_distances sl_fit sl_positions sl_weights]; unfold xpos, tdist; rewrite app_length, !map_app; cbn [length map fst snd];
       (split; [lia|]; split; [exact KP2|]; split; [exact KD2|]; split; [|exact FW]).
      + rewrite <- (FIT false true) by (intros; try discriminate; auto). rewrite !andb_false_r. reflexivity.
      + rewrite <- (FIT false false) by (intros; try discriminate; auto). rewrite !andb_false_r. reflexivity. }
  assert (CNT : forall done st, Inv done st -> sl_count st = length done) by (intros done st (I1 & _); exact I1).
  assert (I0 : Inv [] (MkSlice 0 true positions distances weights)).
  { unfold Inv. cbn [sl_count sl_distances sl_fit sl_positions sl_weights length xpos tdist tweight map]. rewrite firstn_nil. split; [reflexivity|]. split; [apply filled_nil|]. split; [apply filled_nil|]. split; [reflexivity|apply filled_nil]. }
  destruct (run_hits_spec store max_points Inv n CNT STEP hits [] _ I0 ltac:(cbn [length]; lia) ltac:(cbn [length Nat.add]; apply Nat.le_refl)) as (st' & ER & IR).
  cbn [length Nat.add app] in ER, IR. rewrite Nat.sub_0_r in IR.
  assert (EH : firstn n hits = firstn (Nat.max 1 max_points) hits).
  { unfold n. destruct (Nat.leb_spec (length hits) (Nat.max 1 max_points)); [rewrite Nat.min_l, !firstn_all2 by lia; reflexivity|rewrite Nat.min_r by lia; reflexivity]. }
  rewrite <- EH in IR. destruct IR as (I1 & I2 & I3 & I4 & I5).
  assert (LN : length (firstn n hits) = n) by (rewrite firstn_length; unfold n; lia). rewrite LN in *.
  exists (sl_fit st'), (sl_positions st'), (sl_distances st'), (sl_weights st'). split; [|split; [exact I2|split; [exact I3|exact I5]]].
  unfold tsdf_slice, slice_run. change (fun n v st => store_distance_weight n v st) with store. unfold getAllAllocatedBlocks, akeys.
  rewrite (run_blocks_hits (fun b : Block KTsdf => negb (b_has_data b)) (fun _ : vox KTsdf => false) store axis plane max_points l (l_blocks l) _ BL (entries_get KTsdf l ND)).
  replace (flat_map _ (l_blocks l)) with hits.
  2:{ unfold hits, slice_hits. apply flat_map_ext_in. intros e. cbn zeta. rewrite negb_involutive.
      destruct (b_has_data (snd e)); cbn [andb]; [|reflexivity]. destruct (negb (dgt (from_plane axis plane (b_origin (snd e))) (f64_of_f32 (block_size_of (b_vps (snd e)) (b_size (snd e)))))); [|reflexivity].
      apply filter_ext. intros q. unfold pick. reflexivity. }
  rewrite ER. cbn [rbind fst snd]. f_equal. f_equal.
  - rewrite I1. destruct (Nat.leb_spec (Nat.max 1 max_points) (length hits)) as [H | H].
    + rewrite (proj2 (Nat.ltb_ge _ _)) by lia. reflexivity.
    + rewrite (proj2 (Nat.ltb_lt _ _)) by lia. cbn [andb]. assert (n = length hits) by (unfold n; lia). rewrite I4.
      destruct (Nat.leb_spec n (length positions)), (Nat.leb_spec n (length distances)); cbn [andb];
        destruct (Nat.ltb_spec (length positions) (length hits)), (Nat.ltb_spec (length distances) (length hits)); cbn [orb]; try lia; reflexivity.
  - destruct st' as [s1 s2 s3 s4 s5]. cbn [sl_count sl_distances sl_fit sl_positions sl_weights] in *. congruence.
Qed.

(** ** batches *)
Lemma batch_distances_spec : forall rows top (l : Layer KEsdf) positions distances observed,
  Forall (fun p => exists d, getDistance rows top l (cast3 p) true = Ok d) positions ->
  (length positions <= length distances)%nat -> (length positions <= length observed)%nat ->
  exists ds os, batch_distances rows top l positions distances observed = Ok (ds, os) /\
    length ds = length distances /\ length os = length observed /\
    (forall j p d, nth_error positions j = Some p -> nth_error distances j = Some d ->
       exists ok d', getDistanceAtPosition rows top l p true d = Ok (ok, d') /\ nth_error ds j = Some d' /\ nth_error os j = Some (if ok then 1 else 0)) /\
    (forall j, (length positions <= j)%nat -> nth_error ds j = nth_error distances j /\ nth_error os j = nth_error observed j).
Proof.
  intros rows top l positions. induction positions as [|p ps IH]; intros distances observed T LD LO.
  - exists distances, observed. split; [destruct distances; destruct observed; reflexivity|]. split; [reflexivity|]. split; [reflexivity|]. split; [intros [|j] p d H; discriminate|auto].
  - destruct distances as [|d ds0]; [cbn in LD; lia|]. destruct observed as [|o os0]; [cbn in LO; lia|]. inversion T as [|? ? (r & R) T']; subst. cbn [length] in LD, LO.
    destruct (IH ds0 os0 T' ltac:(lia) ltac:(lia)) as (ds & os & E & L1 & L2 & H1 & H2). cbn [batch_distances].
    assert (EP : exists ok d', getDistanceAtPosition rows top l p true d = Ok (ok, d')) by (unfold getDistanceAtPosition; rewrite R; cbn [rbind]; destruct r; do 2 eexists; reflexivity).
    destruct EP as (ok & d' & EP). rewrite EP. cbn [rbind]. rewrite E. cbn [rbind fst snd]. do 2 eexists. split; [reflexivity|]. split; [cbn; lia|]. split; [cbn; lia|]. split.
    + intros [|j] q e Hq He; cbn [nth_error] in Hq, He |- *; [inversion Hq; inversion He; subst; exists ok, d'; auto|]. apply H1; auto.
    + intros [|j] Hj; cbn [length] in Hj; [lia|]. cbn [nth_error]. apply H2. lia.
Qed.
Lemma batch_gradients_spec : forall rows top (l : Layer KEsdf) positions distances gradients observed,
  Forall (fun p => exists r, getDistanceAndGradientAtPosition rows top l p true = Ok r) positions ->
  (length positions <= length distances)%nat -> (length positions <= length gradients)%nat -> (length positions <= length observed)%nat ->
  exists ds gs os, batch_gradients rows top l positions distances gradients observed = Ok (ds, gs, os) /\
    length ds = length distances /\ length gs = length gradients /\ length os = length observed /\
    (forall j p, nth_error positions j = Some p ->
       exists ok d' g', getDistanceAndGradientAtPosition rows top l p true = Ok (ok, d', g') /\ nth_error ds j = Some d' /\ nth_error gs j = Some g' /\ nth_error os j = Some (if ok then 1 else 0)) /\
    (forall j, (length positions <= j)%nat -> nth_error ds j = nth_error distances j /\ nth_error gs j = nth_error gradients j /\ nth_error os j = nth_error observed j).
Proof.
  intros rows top l positions. induction positions as [|p ps IH]; intros distances gradients observed T LD LG LO.
  - exists distances, gradients, observed. split; [destruct distances; destruct gradients; destruct observed; reflexivity|]. split; [reflexivity|]. split; [reflexivity|]. split; [reflexivity|]. split; [intros [|j] p H; discriminate|auto].
  - destruct distances as [|d ds0]; [cbn in LD; lia|]. destruct gradients as [|g gs0]; [cbn in LG; lia|]. destruct observed as [|o os0]; [cbn in LO; lia|]. inversion T as [|? ? (((ok & d') & g') & R) T']; subst. cbn [length] in LD, LG, LO.
    destruct (IH ds0 gs0 os0 T' ltac:(lia) ltac:(lia) ltac:(lia)) as (ds & gs & os & E & L1 & L2 & L3 & H1 & H2). cbn [batch_gradients]. rewrite R. cbn [rbind]. rewrite E. cbn [rbind].
    do 3 eexists. split; [reflexivity|]. split; [cbn; lia|]. split; [cbn; lia|]. split; [cbn; lia|]. split.
    + intros [|j] q Hq; cbn [nth_error] in Hq |- *; [inversion Hq; subst; exists ok, d', g'; auto|]. apply H1; auto.
    + intros [|j] Hj; cbn [length] in Hj; [lia|]. cbn [nth_error]. apply H2. lia.
Qed.
Lemma batch_observed_spec : forall (l : Layer KEsdf) positions observed,
  Forall (fun p => exists r, isObserved l p = Ok r) positions -> (length positions <= length observed)%nat ->
  exists os, batch_observed l positions observed = Ok os /\ length os = length observed /\
    (forall j p, nth_error positions j = Some p -> exists b, isObserved l p = Ok b /\ nth_error os j = Some (if b then 1 else 0)) /\
    (forall j, (length positions <= j)%nat -> nth_error os j = nth_error observed j).
Proof.
  intros l positions. induction positions as [|p ps IH]; intros observed T LO.
  - exists observed. split; [destruct observed; reflexivity|]. split; [reflexivity|]. split; [intros [|j] p H; discriminate|auto].
  - destruct observed as [|o os0]; [cbn in LO; lia|]. inversion T as [|? ? (b & R) T']; subst. cbn [length] in LO.
    destruct (IH os0 T' ltac:(lia)) as (os & E & L1 & H1 & H2). cbn [batch_observed]. rewrite R. cbn [rbind]. rewrite E. cbn [rbind].
    eexists. split; [reflexivity|]. split; [cbn; lia|]. split.
    + intros [|j] q Hq; cbn [nth_error] in Hq |- *; [inversion Hq; subst; exists b; auto|]. apply H1; auto.
    + intros [|j] Hj; cbn [length] in Hj; [lia|]. cbn [nth_error]. apply H2. lia.
Qed.
