(** Lemmas about [Cloud]. *)
From Coq Require Import ZArith List Bool Lia Permutation.
From Verif Require Import F32 F32_lemmas Types Index Index_proofs Voxel Serialize Assoc Assoc_lemmas Layer Threads Threads_proofs Update Ray
  Planning Mesh_spec Update_spec Connect_proofs Cloud Cloud_spec.
Import ListNotations.
Open Scope Z_scope.
Ltac Zify.zify_post_hook ::= idtac.

(** ** one call *)
Definition view (st : store) (b : idx3) : option (Block KTsdf) :=
  match l_get (st_layer st) b with Some x => Some x | None => alookup b (st_temp st) end.
Definition apart (st : store) : Prop := forall b, alookup b (st_temp st) <> None -> l_get (st_layer st) b = None.
Definition cache_ok (st : store) (c : cache) : Prop :=
  match c with Some (b, h) => block_of_home st h b <> None | None => True end.
(** where the program looks for a voxel in a block's array *)
Definition slot (vps : Z) (g : idx3) : nat := Z.to_nat (vx g mod vps + vps * (vy g mod vps + vps * (vz g mod vps))).
Definition fresh_block (l : Layer KTsdf) (b : idx3) : Block KTsdf :=
  new_block (l_vps l) (l_size l) (new_block_origin (l_vps l) (l_size l) b).

Lemma find_block_ok : forall st c b st' h, apart st -> cache_ok st c -> find_block st c b = (st', h) ->
  apart st' /\ st_layer st' = st_layer st /\
  (exists x, block_of_home st' h b = Some x /\ view st' b = Some x /\
     x = match view st b with Some x0 => x0 | None => fresh_block (st_layer st) b end) /\
  (forall b', b' <> b -> view st' b' = view st b') /\
  (forall c', cache_ok st c' -> cache_ok st' c').
Proof.
  intros st c b st' h A C E. unfold find_block in E. cbv zeta in E.
  assert (Search : (match l_get (st_layer st) b with
    | Some _ => (st, InLayer)
    | None =>
        match alookup b (st_temp st) with
        | Some _ => (st, InTemp)
        | None => (MkStore (st_layer st) (ainsert b (new_block (l_vps (st_layer st)) (l_size (st_layer st))
                     (getOriginPointFromGridIndex b (l_block_size (st_layer st)))) (st_temp st)), InTemp)
        end
    end) = (st', h) -> apart st' /\ st_layer st' = st_layer st /\
  (exists x, block_of_home st' h b = Some x /\ view st' b = Some x /\
     x = match view st b with Some x0 => x0 | None => fresh_block (st_layer st) b end) /\
  (forall b', b' <> b -> view st' b' = view st b') /\
  (forall c', cache_ok st c' -> cache_ok st' c')).
  { clear E. intros E. destruct (l_get (st_layer st) b) as [x|] eqn:L.
    - inversion E; subst. split; [auto|]. split; [auto|]. split; [|split; auto].
      exists x. cbn [block_of_home]. unfold view. rewrite L. auto.
    - destruct (alookup b (st_temp st)) as [x|] eqn:T.
      + inversion E; subst. split; [auto|]. split; [auto|]. split; [|split; auto].
        exists x. cbn [block_of_home]. unfold view. rewrite L, T. auto.
      + inversion E; subst. clear E. cbn [st_layer].
        assert (LI : forall j, alookup j (ainsert b (new_block (l_vps (st_layer st)) (l_size (st_layer st))
                     (getOriginPointFromGridIndex b (l_block_size (st_layer st)))) (st_temp st)) =
                     match alookup j (st_temp st) with Some x => Some x | None => if idx_eqb j b then Some (fresh_block (st_layer st) b) else None end).
        { intros j. rewrite alookup_ainsert. destruct (idx_eqb_spec j b) as [-> | N].
          - rewrite T. try rewrite idx_eqb_refl. reflexivity.
          - try rewrite (idx_eqb_neq _ _ N). destruct (alookup j (st_temp st)); reflexivity. }
        split; [|split; [auto|split; [|split]]].
        * intros b' H. cbn [st_temp st_layer] in *. rewrite LI in H.
          destruct (alookup b' (st_temp st)) eqn:T'; [apply A; rewrite T'; discriminate|].
          destruct (idx_eqb_spec b' b) as [-> | N]; [auto|]. congruence.
        * exists (fresh_block (st_layer st) b). cbn [block_of_home st_temp]. unfold view. cbn [st_layer st_temp].
          rewrite LI, L, T, idx_eqb_refl. auto.
        * intros b' N. unfold view. cbn [st_layer st_temp]. rewrite LI. rewrite (idx_eqb_neq _ _ N).
          destruct (l_get (st_layer st) b'), (alookup b' (st_temp st)); auto.
        * intros [[b' [|]]|] H; cbn [cache_ok block_of_home st_layer st_temp] in *; auto.
          rewrite LI. destruct (alookup b' (st_temp st)); [discriminate|congruence]. }
  destruct c as [[b' h']|]; [|auto]. destruct (idx_eqb_spec b b') as [<- | N]; [|auto].
  inversion E; subst. cbn [cache_ok] in C. destruct (block_of_home st' h b) as [x|] eqn:B; [|congruence].
  assert (V : view st' b = Some x).
  { unfold view. destruct h; cbn [block_of_home] in B; [rewrite B; auto|].
    rewrite (A b) by (rewrite B; discriminate). auto. }
  split; [auto|]. split; [auto|]. split; [|split; auto]. exists x. rewrite V. auto.
Qed.

Lemma put_block_ok : forall st h b x x', apart st -> block_of_home st h b = Some x ->
  let st' := put_block st h b x' in
  apart st' /\ l_size (st_layer st') = l_size (st_layer st) /\ l_vps (st_layer st') = l_vps (st_layer st) /\
  view st' b = Some x' /\ (forall b', b' <> b -> view st' b' = view st b') /\
  (forall c', cache_ok st c' -> cache_ok st' c') /\ block_of_home st' h b = Some x'.
Proof.
  intros st h b x x' A B. unfold view. destruct h; cbn [put_block block_of_home st_layer st_temp l_size l_vps with_blocks] in *; cbv zeta;
    cbn [st_layer st_temp l_size l_vps with_blocks].
  - assert (G : forall j, l_get (with_blocks (st_layer st) (aset b x' (l_blocks (st_layer st)))) j =
                          if idx_eqb j b then Some x' else l_get (st_layer st) j).
    { intros j. unfold l_get. cbn [with_blocks l_blocks]. apply alookup_aset. }
    split; [|split; [auto|split; [auto|split; [|split; [|split]]]]].
    + intros b' H. cbn [st_temp st_layer] in *. rewrite G. specialize (A b' H).
      destruct (idx_eqb_spec b' b) as [-> | N]; [congruence|auto].
    + cbn [st_layer]. rewrite G, idx_eqb_refl. auto.
    + intros b' N. cbn [st_layer]. rewrite G, (idx_eqb_neq _ _ N). auto.
    + intros [[b' [|]]|] H; cbn [cache_ok block_of_home st_layer st_temp] in *; auto.
      rewrite G. destruct (idx_eqb b' b); [discriminate|auto].
    + cbn [st_layer]. rewrite G, idx_eqb_refl. auto.
  - assert (G : forall j, alookup j (aset b x' (st_temp st)) = if idx_eqb j b then Some x' else alookup j (st_temp st)).
    { intros j. apply alookup_aset. }
    assert (NL : l_get (st_layer st) b = None) by (apply A; rewrite B; discriminate).
    split; [|split; [auto|split; [auto|split; [|split; [|split]]]]].
    + intros b' H. cbn [st_temp st_layer] in *. rewrite G in H.
      destruct (idx_eq_dec b' b) as [e | N]; [rewrite e; exact NL|rewrite (idx_eqb_neq _ _ N) in H; apply A; auto].
    + rewrite NL, G, idx_eqb_refl. auto.
    + intros b' N. rewrite G, (idx_eqb_neq _ _ N). auto.
    + intros [[b' [|]]|] H; cbn [cache_ok block_of_home st_layer st_temp] in *; auto.
      rewrite G. destruct (idx_eqb b' b); [discriminate|auto].
    + rewrite G, idx_eqb_refl. auto.
Qed.

Lemma slot_ok : forall vps n g, vps = 2 ^ n -> 0 <= n <= 10 -> near_index g ->
  getBlockIndexFromGlobalVoxelIndex g (vps_inv_common vps) = Some (map3 (fun c => c / vps) g) /\
  getLocalFromGlobalVoxelIndex g vps = Ok (map3 (fun c => c mod vps) g) /\
  Z.to_nat (computeLinearIndexFromVoxelIndex vps (map3 (fun c => c mod vps) g)) = slot vps g.
Proof.
  intros vps n g -> Hn Hg. destruct (vps_inv_common_R n ltac:(lia)) as (E & F).
  split; [apply blockIndex_spec; auto; lia|]. split.
  - apply localIndex_spec; [lia|]. destruct Hg as (A & B & C). repeat split; lia.
  - assert (P : 0 < 2 ^ n) by (apply Z.pow_pos_nonneg; lia).
    assert (P10 : 2 ^ n <= 2 ^ 10) by (apply Z.pow_le_mono_r; lia). change (2 ^ 10) with 1024 in P10.
    destruct (linear_lt (2 ^ n) (map3 (fun c => c mod 2 ^ n) g) P) as (L & _).
    + change (2 ^ 64) with 18446744073709551616. nia.
    + unfold all3, map3. cbn [vx vy vz]. repeat split; apply Z.mod_pos_bound; lia.
    + rewrite L. unfold slot, map3. cbn [vx vy vz]. f_equal. ring.
Qed.

Definition stamp (n : nat) (v : TsdfVoxel) (b : Block KTsdf) : Block KTsdf :=
  set_voxels (k:=KTsdf) (set_th n v (b_voxels b)) (set_updated upd_all b).

Lemma touch_ok : forall cfg st c q r n, apart st -> cache_ok st c -> 0 <= n <= 10 -> l_vps (st_layer st) = 2 ^ n ->
  near_index (q_idx q) -> (forall x, view st (home_block (st_layer st) (q_idx q)) = Some x -> b_vps x = l_vps (st_layer st)) ->
  touch cfg st c q = Ok r ->
  let st' := fst r in let b := home_block (st_layer st) (q_idx q) in
  apart st' /\ l_size (st_layer st') = l_size (st_layer st) /\ l_vps (st_layer st') = l_vps (st_layer st) /\
  (forall b', b' <> b -> view st' b' = view st b') /\ (forall c', cache_ok st c' -> cache_ok st' c') /\ cache_ok st' (snd r) /\
  let x := match view st b with Some x0 => x0 | None => fresh_block (st_layer st) b end in
  exists v v', nth_error (b_voxels x) (slot (l_vps (st_layer st)) (q_idx q)) = Some v /\
    updateTsdfVoxel cfg (l_size (st_layer st)) q v = Ok v' /\
    view st' b = Some (stamp (slot (l_vps (st_layer st)) (q_idx q)) v' x).
Proof.
  intros cfg st c q r n A C Hn V Hq B E st' b.
  set (x := match view st b with Some x0 => x0 | None => fresh_block (st_layer st) b end). unfold touch in E.
  destruct (slot_ok _ n (q_idx q) V Hn Hq) as (E1 & E2 & E3).
  cbv zeta in E. rewrite E1 in E. cbn [of_opt rbind] in E. fold (home_block (st_layer st) (q_idx q)) in E. fold b in E.
  destruct (find_block st c b) as [s1 h] eqn:F.
  destruct (find_block_ok st c b s1 h A C F) as (A1 & L1 & (x1 & B1 & V1 & X1) & O1 & C1).
  rewrite B1 in E. cbn [of_opt rbind] in E. rewrite E2 in E. cbn [rbind] in E.
  subst x1. fold x in E, B1, V1.
  assert (BV : b_vps x = l_vps (st_layer st)).
  { unfold x. destruct (view st b) eqn:VB; [apply B; auto|reflexivity]. }
  cbn [set_updated b_vps b_voxels] in E. fold x in E, B1, V1. rewrite BV, E3 in E.
  destruct (nth_error (b_voxels x) (slot (l_vps (st_layer st)) (q_idx q))) as [v|] eqn:NV; cbn [of_opt rbind] in E; [|discriminate].
  rewrite L1 in E. destruct (updateTsdfVoxel cfg (l_size (st_layer st)) q v) as [v'| |] eqn:U; cbn [rbind] in E; try discriminate.
  inversion E; subst r; clear E. unfold st'. cbn [fst snd].
  match goal with |- context [put_block s1 h b ?y] => set (x' := y) end.
  destruct (put_block_ok s1 h b x x' A1 B1) as (A2 & S2 & P2 & V2 & O2 & C2 & H2). cbv zeta in *.
  rewrite L1 in S2, P2. split; [exact A2|]. split; [exact S2|]. split; [exact P2|].
  split. { intros b' N. rewrite (O2 b' N). apply O1; auto. }
  split. { intros c' H. apply C2, C1, H. }
  split. { cbn [cache_ok]. rewrite H2. discriminate. }
  exists v, v'. split; [exact NV|]. split; [exact U|]. exact V2.
Qed.

(** ** a sequence of calls *)
Definition contentF (F : idx3 -> option (Block KTsdf)) (vps : Z) (g : idx3) : TsdfVoxel :=
  match F (map3 (fun c => c / vps) g) with
  | Some b => match nth_error (b_voxels b) (slot vps g) with Some v => v | None => vdefault KTsdf end
  | None => vdefault KTsdf
  end.
Lemma content_F : forall (l : Layer KTsdf) g, content l g = contentF (l_get l) (l_vps l) g.
Proof.
  intros l g. unfold content, contentF, voxel_at. cbv zeta. fold (slot (l_vps l) g).
  destruct (l_get l (map3 (fun c => c / l_vps l) g)); reflexivity.
Qed.

Lemma pair_inj : forall n a b a' b', 0 <= a < n -> 0 <= a' < n -> a + n * b = a' + n * b' -> a = a' /\ b = b'.
Proof. intros n a b a' b' A A' E. assert (b = b') by nia. subst. split; lia. Qed.
Lemma slot_inj : forall vps g g', 0 < vps -> map3 (fun c => c / vps) g = map3 (fun c => c / vps) g' -> slot vps g = slot vps g' -> g = g'.
Proof.
  intros vps [x y z] [x' y' z'] P E S. unfold map3 in E. cbn [vx vy vz] in E. inversion E as [[E1 E2 E3]]. unfold slot in S. cbn [vx vy vz] in S.
  pose proof (Z.mod_pos_bound x vps P). pose proof (Z.mod_pos_bound y vps P). pose proof (Z.mod_pos_bound z vps P).
  pose proof (Z.mod_pos_bound x' vps P). pose proof (Z.mod_pos_bound y' vps P). pose proof (Z.mod_pos_bound z' vps P).
  apply Z2Nat.inj in S; [|nia|nia].
  apply pair_inj in S; [|lia|lia]. destruct S as (S1 & S2). apply pair_inj in S2; [|lia|lia]. destruct S2 as (S2 & S3).
  rewrite (Z.div_mod x vps), (Z.div_mod y vps), (Z.div_mod z vps), (Z.div_mod x' vps), (Z.div_mod y' vps), (Z.div_mod z' vps) by lia.
  rewrite E1, E2, E3, S1, S2, S3. reflexivity.
Qed.
Lemma slot_lt : forall vps g, 0 < vps -> (Z.of_nat (slot vps g) < vps * vps * vps).
Proof.
  intros vps g P. unfold slot.
  pose proof (Z.mod_pos_bound (vx g) vps P). pose proof (Z.mod_pos_bound (vy g) vps P). pose proof (Z.mod_pos_bound (vz g) vps P).
  rewrite Z2Nat.id by nia. nia.
Qed.

Definition full (vps : Z) (x : Block KTsdf) : Prop :=
  b_vps x = vps /\ Z.of_nat (length (b_voxels x)) = vps * vps * vps.
Definition like (l : Layer KTsdf) (b : idx3) (x : Block KTsdf) : Prop :=
  let x0 := match l_get l b with Some x0 => x0 | None => fresh_block l b end in
  b_vps x = b_vps x0 /\ b_size x = b_size x0 /\ b_origin x = b_origin x0 /\ b_has_data x = b_has_data x0.
Record obs (cfg : TsdfConfig) (l : Layer KTsdf) (qs : list request) (st : store) : Prop := {
  os_apart : apart st;
  os_geo : l_size (st_layer st) = l_size l /\ l_vps (st_layer st) = l_vps l;
  os_full : forall b x, view st b = Some x -> full (l_vps l) x;
  os_others : forall b, ~ reaches l qs b -> view st b = l_get l b;
  os_marked : forall b, reaches l qs b -> exists x, view st b = Some x /\ b_updated x = upd_all /\ like l b x;
  os_voxels : forall g, updates cfg (l_size l) (about g qs) (content l g) = Ok (contentF (view st) (l_vps l) g) }.

Lemma full_fresh : forall (l : Layer KTsdf) n b, 0 <= n <= 10 -> l_vps l = 2 ^ n -> full (l_vps l) (fresh_block l b).
Proof.
  intros l n b Hn V. split; [reflexivity|]. unfold fresh_block, new_block. cbn [b_voxels]. rewrite repeat_length. unfold num_voxels.
  assert (P : 0 < 2 ^ n) by (apply Z.pow_pos_nonneg; lia). assert (P10 : 2 ^ n <= 2 ^ 10) by (apply Z.pow_le_mono_r; lia).
  change (2 ^ 10) with 1024 in P10. rewrite V. unfold u64. rewrite Z.mod_small; [rewrite Z2Nat.id; nia|].
  change (2 ^ 64) with 18446744073709551616. nia.
Qed.
Lemma reaches_dec : forall (l : Layer KTsdf) qs b, reaches l qs b \/ ~ reaches l qs b.
Proof.
  intros l qs b. induction qs as [|q qs IH].
  - right. intros (q & [] & _).
  - destruct (idx_eq_dec (home_block l (q_idx q)) b) as [E|N].
    + left. exists q. split; [left; auto|auto].
    + destruct IH as [(q' & I & E)|H]; [left; exists q'; split; [right; auto|auto]|].
      right. intros (q' & [<- | I] & E); [auto|]. apply H. exists q'; auto.
Qed.
Lemma about_app : forall g a b, about g (a ++ b) = about g a ++ about g b.
Proof. intros. apply filter_app. Qed.
Lemma updates_app : forall cfg vs a b v, updates cfg vs (a ++ b) v = rbind (updates cfg vs a v) (updates cfg vs b).
Proof.
  induction a as [|q a IH]; intros b v; cbn [app updates]; [reflexivity|].
  destruct (updateTsdfVoxel cfg vs q v); cbn [rbind]; auto.
Qed.
Lemma default_voxel : forall (l : Layer KTsdf) b n v, nth_error (b_voxels (fresh_block l b)) n = Some v -> v = vdefault KTsdf.
Proof. intros l b n v H. apply nth_error_In in H. apply repeat_spec in H. auto. Qed.

Lemma obs_start : forall cfg l, sound_layer l -> obs cfg l [] (MkStore l []).
Proof.
  intros cfg l (_ & F). constructor.
  - intros b H. cbn [st_temp alookup] in H. congruence.
  - auto.
  - intros b x H. unfold view in H. cbn [st_layer st_temp alookup] in H. destruct (l_get l b) eqn:E; inversion H; subst. apply (F b); auto.
  - intros b _. unfold view. cbn [st_layer st_temp alookup]. destruct (l_get l b); auto.
  - intros b (q & [] & _).
  - intros g. cbn [about filter updates]. rewrite content_F. f_equal. unfold contentF, view. cbn [st_layer st_temp alookup].
    destruct (l_get l _); auto.
Qed.

Lemma obs_step : forall cfg l qs st c q r, sound_layer l -> obs cfg l qs st -> cache_ok st c -> near_index (q_idx q) ->
  touch cfg st c q = Ok r ->
  obs cfg l (qs ++ [q]) (fst r) /\ cache_ok (fst r) (snd r) /\ (forall c', cache_ok st c' -> cache_ok (fst r) c').
Proof.
  intros cfg l qs st c q r ((n & Hn & V) & F) [A (GS & GV) FU OT MA VO] C Hq E.
  pose proof GV as V'. rewrite V in V'.
  destruct (touch_ok cfg st c q r n A C Hn V' Hq) as (A' & S' & P' & O' & C' & C'' & v & v' & NV & U & VB); auto.
  { intros x H. destruct (FU _ _ H) as (B & _). rewrite GV. exact B. }
  split; [|auto]. unfold home_block in *. rewrite GV, GS in *.
  set (b := map3 (fun c => c / l_vps l) (q_idx q)) in *.
  set (x := match view st b with Some x0 => x0 | None => fresh_block (st_layer st) b end) in *.
  assert (PV : 0 < l_vps l) by (rewrite V; apply Z.pow_pos_nonneg; lia).
  assert (FF : fresh_block (st_layer st) b = fresh_block l b) by (unfold fresh_block; rewrite GV, GS; auto).
  assert (FX : full (l_vps l) x).
  { unfold x. destruct (view st b) eqn:W; [apply (FU b); auto|]. rewrite FF. eapply full_fresh; eauto. }
  assert (R : forall b', reaches l (qs ++ [q]) b' <-> reaches l qs b' \/ b' = b).
  { intros b'. split.
    - intros (q' & I & E'). apply in_app_or in I as [I|[<- | []]]; [left; exists q'; auto|right; auto].
    - intros [(q' & I & E')| ->]; [exists q'; split; [apply in_or_app; auto|auto]|exists q; split; [apply in_or_app; right; left; auto|auto]]. }
  constructor.
  - auto.
  - auto.
  - intros b' y H. destruct (idx_eq_dec b' b) as [-> | N]; [|rewrite (O' b' N) in H; eapply FU; eauto].
    rewrite VB in H. inversion H; subst y. destruct FX as (X1 & X2). split; [exact X1|]. unfold stamp. cbn [set_voxels set_updated b_voxels].
    rewrite set_th_length. exact X2.
  - intros b' H. rewrite R in H. rewrite O'; [apply OT|]; intuition.
  - intros b' H. apply R in H. destruct (idx_eq_dec b' b) as [-> | N].
    + eexists. split; [exact VB|]. split; [reflexivity|]. unfold like, stamp. cbn [set_voxels set_updated b_vps b_size b_origin b_has_data].
      destruct (reaches_dec l qs b) as [H'|H'].
      * destruct (MA b H') as (y & Y1 & _ & Y2). unfold x. rewrite Y1. exact Y2.
      * unfold x. rewrite (OT b H'). destruct (l_get l b); [auto|]. rewrite FF. auto.
    + destruct H as [H|H]; [|congruence]. destruct (MA b' H) as (y & Y1 & Y2 & Y3). exists y. rewrite (O' b' N). auto.
  - intros g. rewrite about_app, updates_app, VO. cbn [rbind about filter].
    destruct (idx_eqb_spec (q_idx q) g) as [<- | N]; cbn [updates].
    + assert (CV : contentF (view st) (l_vps l) (q_idx q) = v).
      { unfold contentF. fold b. unfold x in NV. destruct (view st b); [rewrite NV; auto|].
        symmetry. apply default_voxel in NV. auto. }
      rewrite CV, U. cbn [rbind]. f_equal. unfold contentF. fold b. rewrite VB. unfold stamp. cbn [set_voxels b_voxels].
      rewrite (set_th_same _ _ _ _ NV). reflexivity.
    + f_equal. unfold contentF. destruct (idx_eq_dec (map3 (fun c => c / l_vps l) g) b) as [EB|NB].
      * rewrite EB, VB. unfold stamp. cbn [set_voxels b_voxels].
        rewrite set_th_other. 2: { intros ES. apply N. eapply slot_inj; eauto. }
        unfold x. destruct (view st b) eqn:W; [auto|].
        destruct (nth_error (b_voxels (fresh_block (st_layer st) b)) (slot (l_vps l) g)) eqn:ND; [|auto].
        apply default_voxel in ND. auto.
      * rewrite (O' _ NB). auto.
Qed.

Lemma store_get : forall m (l : Layer KTsdf) b, l_get (fold_left (fun l kv => insertBlock l (fst kv) (snd kv)) m l) b =
  match l_get l b with Some x => Some x | None => alookup b m end.
Proof.
  induction m as [|[i y] m IH]; intros l b; cbn [fold_left fst snd alookup].
  - destruct (l_get l b); auto.
  - rewrite IH. unfold insertBlock, l_get. cbn [with_blocks l_blocks]. rewrite alookup_ainsert.
    fold (l_get l b). destruct (idx_eqb_spec b i) as [-> | N].
    + fold (l_get l i). destruct (l_get l i); auto.
    + destruct (l_get l b); auto.
Qed.
Lemma store_geo : forall m (l : Layer KTsdf), let l' := fold_left (fun l kv => insertBlock l (fst kv) (snd kv)) m l in
  l_size l' = l_size l /\ l_vps l' = l_vps l.
Proof. induction m as [|[i y] m IH]; intros l; cbn [fold_left]; [auto|]. apply (IH (insertBlock l i y)). Qed.

Lemma obs_end : forall cfg l qs st, sound_layer l -> obs cfg l qs st -> observed cfg l qs (storeBlocks st).
Proof.
  intros cfg l qs st W [A (GS & GV) FU OT MA VO].
  assert (G : forall b, l_get (storeBlocks st) b = view st b) by (intros; apply store_get).
  destruct (store_geo (st_temp st) (st_layer st)) as (G1 & G2). fold (storeBlocks st) in G1, G2. cbv zeta in G1, G2. rewrite GS in G1. rewrite GV in G2.
  constructor.
  - intros g. rewrite VO. f_equal. rewrite content_F. rewrite G2. unfold contentF. rewrite G. auto.
  - intros b. unfold hasBlock. rewrite G. destruct (reaches_dec l qs b) as [H|H].
    + destruct (MA b H) as (x & -> & _). tauto.
    + rewrite (OT b H). destruct (l_get l b); intuition.
  - intros b H. rewrite G. apply OT; auto.
  - intros b H. rewrite G. destruct (MA b H) as (x & X & U & K). exists x. auto.
  - split; [|auto]. destruct W as (V & _). split; [rewrite G2; auto|]. intros i x H. rewrite G in H. rewrite G2. apply (FU i); auto.
Qed.

(** ** threads *)
Lemma nth_lt : forall A (l : list A) t x, nth_error l t = Some x -> (t < length l)%nat.
Proof. intros A l t x H. apply nth_error_Some. rewrite H. discriminate. Qed.
Definition calls (p : list call) : list request := map snd p.
Record cinv (cfg : TsdfConfig) (l : Layer KTsdf) (progs : list (list call)) (s : cstate) (o : order) : Prop := {
  ci_obs : obs cfg l (map snd o) (cs_store s);
  ci_len : length (cs_workers s) = length progs;
  ci_ids : forall e, In e o -> (fst e < length progs)%nat;
  ci_work : forall t w, nth_error (cs_workers s) t = Some w -> cache_ok (cs_store s) (w_cache w) /\
     exists prog, nth_error progs t = Some prog /\ calls_of t o ++ calls (w_todo w) = calls prog }.

Lemma calls_of_snoc : forall t o e, calls_of t (o ++ [e]) = calls_of t o ++ (if Nat.eqb (fst e) t then [snd e] else []).
Proof.
  intros t o e. unfold calls_of. rewrite filter_app, map_app. cbn [filter]. destruct (Nat.eqb (fst e) t); reflexivity.
Qed.

Lemma cstep_inv : forall cfg l (progs : list (list call)) s o t s', sound_layer l -> Forall (Forall (fun c : call => near_index (q_idx (snd c)))) progs ->
  cinv cfg l progs s o -> cstep cfg s t = Ok s' -> exists o', cinv cfg l progs s' o'.
Proof.
  intros cfg l progs s o t s' W NR [OB LE ID WO] E. unfold cstep in E.
  destruct (nth_error (cs_workers s) t) as [[todo c]|] eqn:NW; [|inversion E; subst; exists o; constructor; auto].
  destruct todo as [|[fresh q] todo]; [inversion E; subst; exists o; constructor; auto|].
  destruct (WO t _ NW) as (CO & prog & NP & PC). cbn [w_cache w_todo] in CO, PC.
  assert (Hq : near_index (q_idx q)).
  { rewrite Forall_forall in NR. specialize (NR prog (nth_error_In _ _ NP)). rewrite Forall_forall in NR.
    assert (I : In q (calls prog)) by (rewrite <- PC; apply in_or_app; right; left; reflexivity).
    apply in_map_iff in I as (c0 & <- & I). apply NR; auto. }
  destruct (touch cfg (cs_store s) (if fresh then None else c) q) as [r| |] eqn:T; cbn [rbind] in E; try discriminate.
  inversion E; subst s'; clear E.
  destruct (obs_step cfg l (map snd o) (cs_store s) (if fresh then None else c) q r W OB) as (OB' & C1 & C2); auto.
  { destruct fresh; [exact I|auto]. }
  assert (LT : (t < length progs)%nat) by (exact (nth_lt _ progs t prog NP)).
  exists (o ++ [(t, q)]). constructor; cbn [cs_store cs_workers].
  - rewrite map_app. exact OB'.
  - rewrite set_th_length. exact LE.
  - intros e I. apply in_app_or in I as [I|[<- | []]]; [auto|exact LT].
  - intros t' w H. rewrite calls_of_snoc. cbn [fst snd]. destruct (Nat.eq_dec t t') as [<- | N].
    + rewrite (set_th_same _ _ _ _ NW) in H. inversion H; subst w. cbn [w_cache w_todo]. split; [auto|].
      exists prog. split; [auto|]. rewrite Nat.eqb_refl, <- app_assoc. exact PC.
    + rewrite set_th_other in H by auto. destruct (WO t' w H) as (CO' & prog' & NP' & PC'). split; [auto|].
      exists prog'. split; [auto|]. destruct (Nat.eqb_spec t t'); [contradiction|]. rewrite app_nil_r. exact PC'.
Qed.

Lemma crun_inv : forall cfg l (progs : list (list call)) sched s o s', sound_layer l -> Forall (Forall (fun c : call => near_index (q_idx (snd c)))) progs ->
  cinv cfg l progs s o -> crun cfg sched s = Ok s' -> exists o', cinv cfg l progs s' o'.
Proof.
  intros cfg l progs. unfold crun. induction sched as [|t sched IH]; intros s o s' W NR C E; cbn [rfold] in E.
  - inversion E; subst. exists o; auto.
  - destruct (cstep cfg s t) as [s1| |] eqn:S1; cbn [rbind] in E; try discriminate.
    destruct (cstep_inv cfg l progs s o t s1 W NR C S1) as (o1 & C1). eapply IH; eauto.
Qed.

(** whatever the schedule, the calls of all threads take effect one after the other *)
Lemma run_threads_ok : forall cfg l (progs : list (list call)) sched l', sound_layer l -> Forall (Forall (fun c : call => near_index (q_idx (snd c)))) progs ->
  run_threads cfg l progs sched = Ok (Some l') ->
  exists o, interleaves (map calls progs) o /\ observed cfg l (map snd o) l'.
Proof.
  intros cfg l progs sched l' W NR E. unfold run_threads in E.
  destruct (crun cfg sched _) as [s| |] eqn:R; cbn [rbind] in E; try discriminate.
  destruct (finished s) eqn:FI; [|discriminate]. inversion E; subst l'; clear E.
  assert (I0 : cinv cfg l progs (MkCS (MkStore l []) (map (fun p => MkW p None) progs)) []).
  { constructor; cbn [cs_store cs_workers map].
    - apply obs_start; auto.
    - apply map_length.
    - intros e [].
    - intros t w H. rewrite nth_error_map in H. destruct (nth_error progs t) as [p|] eqn:N; inversion H; subst.
      split; [exact I|]. exists p. auto. }
  destruct (crun_inv cfg l progs sched _ [] s W NR I0 R) as (o & [OB LE ID WO]).
  exists o. split; [|apply obs_end; auto]. split.
  - intros e I. rewrite map_length. auto.
  - intros t prog H. rewrite nth_error_map in H. destruct (nth_error progs t) as [p|] eqn:N; inversion H; subst prog; clear H.
    assert (LT : (t < length (cs_workers s))%nat) by (rewrite LE; exact (nth_lt _ progs t p N)).
    destruct (nth_error (cs_workers s) t) as [w|] eqn:NW; [|apply nth_error_None in NW; lia].
    destruct (WO t w NW) as (_ & p' & N' & PC). rewrite N in N'. inversion N'; subst p'.
    unfold finished in FI. rewrite forallb_forall in FI. specialize (FI w (nth_error_In _ _ NW)).
    destruct (w_todo w); [|discriminate]. cbn [calls map] in PC. rewrite app_nil_r in PC. exact PC.
Qed.


Lemma interleaves_perm : forall o progs, interleaves progs o -> Permutation (map snd o) (concat progs).
Proof.
  induction o as [|[t q] o IH]; intros progs (ID & PR).
  - cbn [map]. assert (Z0 : concat progs = []); [|rewrite Z0; constructor].
    apply concat_nil_Forall, Forall_forall. intros p I. apply In_nth_error in I as (t & N). rewrite <- (PR t p N). reflexivity.
  - assert (LT : (t < length progs)%nat) by (apply (ID (t, q)); left; auto).
    destruct (nth_error progs t) as [p|] eqn:N; [|apply nth_error_None in N; lia].
    pose proof (PR t p N) as P. unfold calls_of in P. cbn [filter fst] in P. rewrite Nat.eqb_refl in P. cbn [map snd] in P.
    fold (calls_of t o) in P. subst p.
    destruct (set_th_split progs t (calls_of t o) _ N) as (l1 & l2 & E1 & E2 & L1).
    assert (I' : interleaves (set_th t (calls_of t o) progs) o).
    { split.
      - intros e I. rewrite set_th_length. apply ID. right; auto.
      - intros t' p' N'. destruct (Nat.eq_dec t t') as [<- | NE].
        + rewrite (set_th_same _ _ _ _ N) in N'. inversion N'. auto.
        + rewrite set_th_other in N' by auto. pose proof (PR t' p' N') as P. unfold calls_of in P. cbn [filter fst] in P.
          destruct (Nat.eqb_spec t t'); [contradiction|]. exact P. }
    specialize (IH _ I'). rewrite E2 in IH. cbn [map snd]. rewrite E1.
    rewrite !concat_app in *. cbn [concat] in *. cbn [app]. rewrite IH. apply Permutation_middle.
Qed.

(** ** lists of results *)
Lemma rconcat_ok : forall A (rs : list (res (option (list A)))) xs, rconcat rs = Ok (Some xs) ->
  exists yss, Forall2 (fun r ys => r = Ok (Some ys)) rs yss /\ xs = concat yss.
Proof.
  induction rs as [|r rs IH]; intros xs E; cbn [rconcat] in E.
  - inversion E. exists []. split; [constructor|auto].
  - destruct r as [[a|]| |]; cbn [rbind] in E; try discriminate.
    destruct (rconcat rs) as [[y|]| |]; cbn [rbind option_map] in E; try discriminate.
    inversion E; subst. destruct (IH y eq_refl) as (yss & F & ->). exists (a :: yss). split; [constructor; auto|auto].
Qed.
Lemma rcollect_ok : forall A (rs : list (res (option A))) xs, rcollect rs = Ok (Some xs) ->
  Forall2 (fun r x => r = Ok (Some x)) rs xs.
Proof.
  induction rs as [|r rs IH]; intros xs E; cbn [rcollect] in E.
  - inversion E. constructor.
  - destruct r as [[a|]| |]; cbn [rbind] in E; try discriminate.
    destruct (rcollect rs) as [[y|]| |]; cbn [rbind option_map] in E; try discriminate.
    inversion E; subst. constructor; auto.
Qed.
Lemma Forall2_map_l : forall A B C (f : A -> B) (R : B -> C -> Prop) l m, Forall2 R (map f l) m -> Forall2 (fun a => R (f a)) l m.
Proof.
  induction l as [|a l IH]; intros m F; cbn [map] in F; inversion F; subst; constructor; auto.
Qed.

Lemma calls_app : forall a b, calls (a ++ b) = calls a ++ calls b.
Proof. intros. apply map_app. Qed.

(** the calls of the threads, when every point's are known *)
Lemma progs_calls : forall A (f : A -> res (option (list call))) (obs : A -> list request) taken progs,
  rcollect (map (fun is => rconcat (map f is)) taken) = Ok (Some progs) ->
  (forall i cs, In i (concat taken) -> f i = Ok (Some cs) -> calls cs = obs i) ->
  concat (map calls progs) = flat_map obs (concat taken) /\
  (forall i, In i (concat taken) -> exists cs, f i = Ok (Some cs)) /\
  (forall c, In c (concat progs) -> exists i cs, In i (concat taken) /\ f i = Ok (Some cs) /\ In c cs).
Proof.
  intros A f obs taken progs E. apply rcollect_ok, Forall2_map_l in E.
  induction E as [|is p taken progs E1 E IH]; intros H.
  - cbn [concat map flat_map]. split; [auto|]. split; intros ? [].
  - destruct IH as (I1 & I2 & I3). { intros i cs I. apply H. cbn [concat]. apply in_or_app; auto. }
    apply rconcat_ok in E1 as (yss & F & ->). apply Forall2_map_l in F.
    assert (K : calls (concat yss) = flat_map obs is /\ (forall i, In i is -> exists cs, f i = Ok (Some cs)) /\
                (forall c, In c (concat yss) -> exists i cs, In i is /\ f i = Ok (Some cs) /\ In c cs)).
    { assert (H' : forall i cs, In i is -> f i = Ok (Some cs) -> calls cs = obs i)
        by (intros i cs I; apply H; cbn [concat]; apply in_or_app; auto). clear H.
      induction F as [|i ys is yss Fi F IHF].
      - cbn [concat flat_map]. split; [auto|]. split; intros ? [].
      - destruct IHF as (J1 & J2 & J3). { intros j cs I. apply H'. right; auto. }
        cbn [concat flat_map]. rewrite calls_app, J1. split; [f_equal; apply (H' i ys); [left; auto|auto]|].
        split.
        + intros j [<- | I]; [eauto|auto].
        + intros c I. apply in_app_or in I as [I|I]; [exists i, ys; split; [left; auto|auto]|].
          destruct (J3 c I) as (j & cs & Hj & Hf & Hc). exists j, cs. split; [right; auto|auto]. }
    destruct K as (K1 & K2 & K3). cbn [map concat]. rewrite K1, I1, flat_map_app. split; [auto|]. split.
    + intros i I. apply in_app_or in I as [I|I]; auto.
    + intros c I. apply in_app_or in I as [I|I].
      * destruct (K3 c I) as (i & cs & AA & BB). exists i, cs. split; [apply in_or_app; auto|auto].
      * destruct (I3 c I) as (i & cs & AA & BB). exists i, cs. split; [apply in_or_app; auto|auto].
Qed.

(** ** points *)
Lemma calls_ray : forall qs, calls (ray_calls qs) = qs.
Proof. intros [|q qs]; [reflexivity|]. unfold calls, ray_calls. cbn [map snd]. f_equal. rewrite map_map. cbn. apply map_id. Qed.
Lemma index_range : forall cl i, In i (indices cl) <-> 0 <= i < Z.of_nat (length (cl_points cl)).
Proof.
  intros cl i. unfold indices. rewrite in_map_iff. split.
  - intros (n & <- & I). apply in_seq in I. lia.
  - intros H. exists (Z.to_nat i). split; [lia|]. apply in_seq. lia.
Qed.
Lemma point_at_ok : forall cl i, length (cl_points cl) = length (cl_colors cl) -> In i (indices cl) ->
  point_at cl i = Ok (point_of cl i, color_of cl i).
Proof.
  intros cl i L I. apply index_range in I. unfold point_at, point_of, color_of.
  rewrite (nth_error_nth' (cl_points cl) (V3 f0 f0 f0 : pt3)) by (apply Nat2Z.inj_lt; rewrite Z2Nat.id by lia; apply I). cbn [of_opt rbind].
  rewrite (nth_error_nth' (cl_colors cl) (MkColor 0 0 0 0)) by (rewrite <- L; apply Nat2Z.inj_lt; rewrite Z2Nat.id by lia; apply I). reflexivity.
Qed.
Lemma classify_use : forall cc cl i,
  classify cc (cl_freespace cl) (point_of cl i) =
    match use_of cc cl i with None => Invalid | Some true => Clearing | Some false => Surface end.
Proof.
  intros cc cl i. unfold classify, isPointValid, use_of, fgt. cbv zeta.
  destruct (flt (norm3 (point_of cl i)) (cc_min_ray cc)); [reflexivity|].
  destruct (flt (cc_max_ray cc) (norm3 (point_of cl i))).
  - rewrite orb_comm. destruct (cl_freespace cl || (cc_allow_clear cc && cc_carving cc)); reflexivity.
  - destruct (cl_freespace cl); reflexivity.
Qed.

Lemma Permutation_flat : forall A B (f : A -> list B) l l', Permutation l l' -> Permutation (flat_map f l) (flat_map f l').
Proof. intros. apply Permutation_flat_map; auto. Qed.

(** threads that integrate points one by one *)
Lemma points_ok : forall A (f : A -> res (option (list call))) (obs : A -> list request) cfg l taken progs sched l',
  sound_layer l -> rcollect (map (fun is => rconcat (map f is)) taken) = Ok (Some progs) ->
  (forall i cs, In i (concat taken) -> f i = Ok (Some cs) -> calls cs = obs i /\ Forall (fun q => near_index (q_idx q)) (obs i)) ->
  run_threads cfg l progs sched = Ok (Some l') ->
  exists qs, Permutation qs (flat_map obs (concat taken)) /\ observed cfg l qs l'.
Proof.
  intros A f obs cfg l taken progs sched l' W E H R.
  destruct (progs_calls A f obs taken progs E) as (C1 & C2 & C3). { intros i cs I F. apply (H i cs I F). }
  destruct (run_threads_ok cfg l progs sched l' W) as (o & IL & OB); auto.
  - apply Forall_forall. intros p Ip. apply Forall_forall. intros c Ic.
    destruct (C3 c) as (i & cs & Ii & Fi & Icc). { apply in_concat. exists p; auto. }
    destruct (H i cs Ii Fi) as (CA & NE). rewrite Forall_forall in NE. apply NE. rewrite <- CA. unfold calls. apply in_map. exact Icc.
  - exists (map snd o). split; [|auto]. rewrite (interleaves_perm o _ IL), C1. reflexivity.
Qed.

Section OneCloud.
  Variables (fuel : nat) (garbage : caster) (cc : CloudConfig) (cl : cloud) (l : Layer KTsdf).
  Hypothesis LEN : length (cl_points cl) = length (cl_colors cl).

  Definition simple_cells (i : Z) : list idx3 :=
    match use_of cc cl i with
    | None => []
    | Some c => match ray_cells fuel garbage cc (l_size l) (p_position (cl_pose cl)) (p_apply (cl_pose cl) (point_of cl i)) c true with
                | Ok (Some v) => v | _ => [] end
    end.
  Lemma simple_point_ok : forall i cs, In i (indices cl) -> simple_point fuel garbage cc (l_size l) cl i = Ok (Some cs) ->
    calls cs = map (sees cc cl i) (simple_cells i) /\
    match use_of cc cl i with
    | None => simple_cells i = []
    | Some clearing => ray_voxels fuel garbage cc l cl (point_of cl i) clearing true (simple_cells i)
    end.
  Proof.
    intros i cs I E. unfold simple_point in E. rewrite (point_at_ok cl i LEN I) in E. cbn [rbind] in E.
    rewrite (classify_use cc cl i) in E. unfold simple_cells, ray_voxels. destruct (use_of cc cl i) as [c|].
    - assert (E' : rbind (ray_cells fuel garbage cc (l_size l) (origin cl) (p_apply (cl_pose cl) (point_of cl i)) c true) (fun cells =>
        Ok (option_map (fun gs => ray_calls (map (fun g =>
              MkReq (origin cl) (p_apply (cl_pose cl) (point_of cl i)) g (color_of cl i) (getVoxelWeight (cc_tsdf cc) (point_of cl i))) gs)) cells))
          = Ok (Some cs)) by (destruct c; exact E). clear E. unfold origin in E'.
      destruct (ray_cells _ _ _ _ _ _ _ _) as [[v|]| |]; cbn [rbind option_map] in E'; try discriminate.
      inversion E'; subst cs. rewrite calls_ray. auto.
    - inversion E; subst. auto.
  Qed.

  Definition fast_cells_of (start_new : Z -> bool) (news : Z -> list bool) (i : Z) : list idx3 :=
    match use_of cc cl i with
    | None => []
    | Some c => if start_new i then
                match ray_cells fuel garbage cc (l_size l) (p_position (cl_pose cl)) (p_apply (cl_pose cl) (point_of cl i)) c false with
                | Ok (Some v) => fast_cells cc v (news i) 0 | _ => [] end else []
    end.
  Lemma fast_cells_prefix : forall vs news col, exists n, fast_cells cc vs news col = firstn n vs.
  Proof.
    induction vs as [|v vs IH]; intros news col; cbn [fast_cells].
    - exists O. reflexivity.
    - destruct (cc_collisions cc <? _); [exists O; reflexivity|]. destruct (IH (tl news) (if hd true news then 0 else col + 1)) as (n & E).
      exists (S n). cbn [firstn]. rewrite <- E. reflexivity.
  Qed.
  Lemma nth_tl : forall (news : list bool) j, nth j (tl news) true = nth (S j) news true.
  Proof. intros [|b news] j; cbn [tl nth]; [destruct j; auto|auto]. Qed.
  Lemma hd_nth : forall (news : list bool), hd true news = nth 0 news true.
  Proof. intros [|b news]; reflexivity. Qed.
  (** [col] answers before the list were false *)
  Lemma fast_cells_cut : forall vs news col, 0 <= col <= cc_collisions cc ->
    exists n, fast_cells cc vs news col = firstn n vs /\ (n <= length vs)%nat /\
      (n = length vs \/ (n < length vs)%nat /\
         (forall j, Z.of_nat n - cc_collisions cc <= Z.of_nat j <= Z.of_nat n -> nth j news true = false) /\
         cc_collisions cc - col <= Z.of_nat n).
  Proof.
    induction vs as [|v vs IH]; intros news col Hc; cbn [fast_cells].
    - exists O. cbn [firstn length]. auto.
    - rewrite hd_nth. destruct (nth 0 news true) eqn:N0.
      + destruct (Z.ltb_spec (cc_collisions cc) 0); [lia|].
        destruct (IH (tl news) 0 ltac:(lia)) as (n & E & Ln & HH). exists (S n). cbn [firstn length]. rewrite E.
        split; [auto|]. split; [lia|]. destruct HH as [-> | (H1 & H2 & H3)]; [left; auto|].
        right. split; [lia|]. split; [|lia].
        intros [|j] Hj; [lia|]. rewrite <- nth_tl. apply H2. lia.
      + destruct (Z.ltb_spec (cc_collisions cc) (col + 1)) as [L|L].
        * exists O. cbn [firstn length]. split; [auto|]. split; [lia|]. right. split; [lia|]. split; [|lia].
          intros [|j] Hj; [auto|lia].
        * destruct (IH (tl news) (col + 1) ltac:(lia)) as (n & E & Ln & HH). exists (S n). cbn [firstn length]. rewrite E.
          split; [auto|]. split; [lia|]. destruct HH as [-> | (H1 & H2 & H3)]; [left; auto|].
          right. split; [lia|]. split; [|lia].
          intros [|j] Hj; [auto|]. rewrite <- nth_tl. apply H2. lia.
  Qed.
  Lemma fast_point_ok : forall start_new news i cs, 0 <= cc_collisions cc -> In i (indices cl) ->
    fast_point fuel garbage cc (l_size l) cl start_new news i = Ok (Some cs) ->
    let cells := fast_cells_of start_new news in
    calls cs = map (sees cc cl i) (cells i) /\
    match use_of cc cl i with
    | None => cells i = []
    | Some clearing =>
        if start_new i then
          exists voxels n, ray_voxels fuel garbage cc l cl (point_of cl i) clearing false voxels /\
            cells i = firstn n voxels /\ cut_at (cc_collisions cc) (news i) voxels n /\
            Z.min (Z.of_nat (length voxels)) (cc_collisions cc) <= Z.of_nat n
        else cells i = []
    end.
  Proof.
    intros start_new news i cs Hc I E cells. unfold fast_point in E. rewrite (point_at_ok cl i LEN I) in E. cbn [rbind] in E.
    rewrite (classify_use cc cl i) in E. unfold cells, fast_cells_of, ray_voxels. destruct (use_of cc cl i) as [c|].
    - destruct (getGlobalGridIndexFromPoint (p_apply (cl_pose cl) (point_of cl i)) (fmul (cc_subsampling cc) (inv_of (l_size l)))) as [g0|].
      2: { destruct c; discriminate. }
      cbn [of_opt rbind] in E. destruct (start_new i); cbn [negb] in E.
      2: { assert (cs = []) by (destruct c; inversion E; auto). subst. auto. }
      assert (E' : rbind (ray_cells fuel garbage cc (l_size l) (origin cl) (p_apply (cl_pose cl) (point_of cl i)) c false) (fun cells =>
        Ok (option_map (fun gs => ray_calls (map (fun g =>
              MkReq (origin cl) (p_apply (cl_pose cl) (point_of cl i)) g (color_of cl i) (getVoxelWeight (cc_tsdf cc) (point_of cl i))) (fast_cells cc gs (news i) 0))) cells))
          = Ok (Some cs)) by (destruct c; exact E). clear E. unfold origin in E'.
      destruct (ray_cells _ _ _ _ _ _ _ _) as [[v|]| |]; cbn [rbind option_map] in E'; try discriminate.
      inversion E'; subst cs. rewrite calls_ray. split; [auto|].
      destruct (fast_cells_cut v (news i) 0 ltac:(lia)) as (n & En & Ln & Hn). exists v, n.
      split; [auto|]. split; [auto|]. destruct Hn as [Hn|(H1 & H2 & H3)]; (split; [|lia]); [left; auto|right; auto].
    - inversion E; subst. auto.
  Qed.
End OneCloud.

(** ** the merged integrator *)
Lemma partition_once : forall A (P : nat -> A -> bool) ts a l t0, NoDup ts -> In t0 ts -> (forall t, In t ts -> P t a = Nat.eqb t t0) ->
  Permutation (concat (map (fun t => filter (P t) (a :: l)) ts)) (a :: concat (map (fun t => filter (P t) l) ts)).
Proof.
  intros A P ts a l t0 ND. induction ND as [|t ts NI ND IH]; intros I H; [inversion I|].
  cbn [map concat]. destruct (Nat.eq_dec t t0) as [-> | NE].
  - assert (R : map (fun t => filter (P t) (a :: l)) ts = map (fun t => filter (P t) l) ts).
    { apply map_ext_in. intros t It. cbn [filter]. rewrite (H t) by (right; auto).
      destruct (Nat.eqb_spec t t0) as [-> | _]; [contradiction|reflexivity]. }
    rewrite R. cbn [filter]. rewrite (H t0) by (left; auto). rewrite Nat.eqb_refl. reflexivity.
  - destruct I as [I|I]; [contradiction|].
    specialize (IH I (fun t' I' => H t' (or_intror I'))). rewrite IH.
    cbn [filter]. rewrite (H t) by (left; auto). destruct (Nat.eqb_spec t t0); [contradiction|].
    symmetry. apply Permutation_middle.
Qed.
Lemma partition_all : forall A (P : nat -> A -> bool) ts l, NoDup ts ->
  (forall a, In a l -> exists t0, In t0 ts /\ forall t, In t ts -> P t a = Nat.eqb t t0) ->
  Permutation (concat (map (fun t => filter (P t) l) ts)) l.
Proof.
  intros A P ts l ND. induction l as [|a l IH]; intros H.
  - assert (Z0 : concat (map (fun t : nat => filter (P t) (@nil A)) ts) = []); [|rewrite Z0; constructor].
    apply concat_nil_Forall, Forall_forall. intros x I. apply in_map_iff in I as (t & <- & _). reflexivity.
  - destruct (H a (or_introl eq_refl)) as (t0 & I0 & E0). rewrite (partition_once A P ts a l t0 ND I0 E0).
    constructor. apply IH. intros b I. apply H. right; auto.
Qed.
Lemma shares_perm : forall threads n, (0 < threads)%nat -> Z.of_nat n + Z.of_nat threads < 2 ^ 64 ->
  Permutation (concat (map (fun t => thread_share (Z.of_nat threads) (Z.of_nat t) n) (seq 0 threads))) (seq 0 n).
Proof.
  intros threads n HT HB. unfold thread_share.
  apply (partition_all nat (fun t i => u64 (Z.of_nat i + Z.of_nat t + 1) mod Z.of_nat threads =? 0)); [apply seq_NoDup|].
  intros k Ik. apply in_seq in Ik.
  destruct (share_unique (Z.of_nat threads) n k ltac:(lia) ltac:(lia) HB) as (t0 & (R0 & I0) & U).
  exists (Z.to_nat t0). split; [apply in_seq; lia|]. intros t It. apply in_seq in It.
  destruct (Nat.eqb_spec t (Z.to_nat t0)) as [-> | NE].
  - rewrite Z2Nat.id by lia. unfold thread_share in I0. apply filter_In in I0 as (_ & E). exact E.
  - destruct (u64 (Z.of_nat k + Z.of_nat t + 1) mod Z.of_nat threads =? 0) eqn:E; [|reflexivity].
    exfalso. assert (t0 = Z.of_nat t); [|lia]. apply U. split; [lia|]. unfold thread_share. apply filter_In. split; [apply in_seq; lia|exact E].
Qed.

Lemma bundles_ok : forall cc l cl order vm cm, Permutation order (indices cl) ->
  bundles cc (l_size l) cl order = Ok (vm, cm) -> bundled cc l cl false vm /\ bundled cc l cl true cm.
Proof.
  intros cc l cl order vm cm P E. unfold bundles in E.
  match type of E with of_opt (bundleRays ?v ?x _ _) = _ => set (valid := v) in E; set (vox := x) in E end.
  destruct (bundleRays valid vox order ([], [])) as [[vm' cm']|] eqn:B; cbn [of_opt] in E; [|discriminate]. inversion E; subst vm' cm'.
  destruct (bundleRays_spec _ _ _ _ _ _ _ B) as (P1 & P2 & K1 & K2).
  assert (K0 : keyed vox []) by (split; [constructor|intros; discriminate]).
  specialize (K1 K0). specialize (K2 K0). unfold members in P1, P2. cbn [map concat] in P1, P2. rewrite app_nil_r in P1, P2.
  assert (PT : forall i, In i (indices cl) -> nth_error (cl_points cl) (Z.to_nat i) = Some (point_of cl i)).
  { intros i I. apply index_range in I. unfold point_of. apply nth_error_nth'. apply Nat2Z.inj_lt. rewrite Z2Nat.id by lia. apply I. }
  assert (VU : forall i, In i (indices cl) -> valid i = match use_of cc cl i with None => Invalid | Some true => Clearing | Some false => Surface end).
  { intros i I. unfold valid. rewrite (PT i I). apply classify_use. }
  assert (FP : forall Q R, (forall i, In i (indices cl) -> Q i = R i) -> Permutation (filter Q order) (filter R (indices cl))).
  { intros Q R H. rewrite <- (filter_ext_in _ _ _ H). clear - P. induction P; cbn [filter].
    - constructor.
    - destruct (Q x); [constructor; auto|auto].
    - destruct (Q y), (Q x); auto; constructor.
    - etransitivity; eauto. }
  assert (IN : forall v is i, In (v, is) vm \/ In (v, is) cm -> In i is -> In i (indices cl)).
  { intros v is i H Ii. apply (Permutation_in _ P). destruct H as [H|H].
    - assert (X : In i (concat (map snd vm))) by (apply in_concat; exists is; split; [apply in_map_iff; exists (v, is); auto|auto]).
      apply (Permutation_in _ P1) in X. apply filter_In in X. apply X.
    - assert (X : In i (concat (map snd cm))) by (apply in_concat; exists is; split; [apply in_map_iff; exists (v, is); auto|auto]).
      apply (Permutation_in _ P2) in X. apply filter_In in X. apply X. }
  split.
  - destruct K1 as (ND & KV). split; [exact ND|]. split.
    + rewrite P1. apply FP. intros i I. unfold surface, used_as. rewrite (VU i I). destruct (use_of cc cl i) as [[|]|]; reflexivity.
    + intros v is H. destruct (KV v is) as (NE & HV). { apply alookup_NoDup; auto. } split; [exact NE|].
      intros i Ii. unfold lands_in. specialize (HV i Ii). unfold vox in HV. rewrite (PT i) in HV by (eapply IN; eauto). exact HV.
  - destruct K2 as (ND & KV). split; [exact ND|]. split.
    + rewrite P2. apply FP. intros i I. unfold clearing, used_as. rewrite (VU i I). destruct (use_of cc cl i) as [[|]|]; reflexivity.
    + intros v is H. destruct (KV v is) as (NE & HV). { apply alookup_NoDup; auto. } split; [exact NE|].
      intros i Ii. unfold lands_in. specialize (HV i Ii). unfold vox in HV. rewrite (PT i) in HV by (eapply IN; eauto). exact HV.
Qed.

Section Merged.
  Variables (fuel : nat) (garbage : caster) (cc : CloudConfig) (cl : cloud) (l0 : Layer KTsdf).
  Definition bundle_calls (clearing : bool) (vm : bundle_map) (kv : idx3 * list Z) : list request :=
    match merged_voxel fuel garbage cc (l_size l0) cl clearing vm kv with Ok (Some cs) => calls cs | _ => [] end.

  Lemma merged_voxel_ok : forall clearing vm kv cs, snd kv <> [] ->
    (forall mc mp mw voxels, merged cc cl clearing (snd kv) mc mp mw -> ray_voxels fuel garbage cc l0 cl mp clearing true voxels -> Forall near_index voxels) ->
    merged_voxel fuel garbage cc (l_size l0) cl clearing vm kv = Ok (Some cs) ->
    bundle_seen fuel garbage cc l0 cl vm clearing kv (calls cs) /\ Forall (fun q => near_index (q_idx q)) (calls cs).
  Proof.
    intros clearing vm [own is] cs NE NEAR E. unfold merged_voxel in E. cbn [fst snd] in *.
    assert (E' : rbind (merge_points cc cl clearing is (MkColor 0 0 0 0) (V3 f0 f0 f0) f0) (fun m =>
        let '(mc, mp, mw) := m in
        let point_G := p_apply (cl_pose cl) mp in
        rbind (ray_cells fuel garbage cc (l_size l0) (origin cl) point_G clearing true) (fun cells =>
        Ok (option_map (fun gs => map (fun g => (true, MkReq (origin cl) point_G g mc mw))
                                      (filter (kept cc clearing own vm) gs)) cells))) = Ok (Some cs)).
    { destruct is; [congruence|exact E]. } clear E.
    destruct (merge_points cc cl clearing is (MkColor 0 0 0 0) (V3 f0 f0 f0) f0) as [[[mc mp] mw]| |] eqn:M; cbn [rbind] in E'; try discriminate.
    unfold origin in E'. destruct (ray_cells _ _ _ _ _ _ _ _) as [[v|]| |] eqn:R; cbn [rbind option_map] in E'; try discriminate.
    inversion E'; subst cs. unfold calls. rewrite map_map. cbn [snd]. split.
    - exists mc, mp, mw, v, (kept cc clearing own vm). split; [exact M|]. split; [exact R|]. split; [|reflexivity].
      intros g _. unfold kept, grazed. cbn [fst].
      assert (K : match alookup g vm with Some _ => true | None => false end = true <-> In g (akeys vm)).
      { rewrite akeys_In. destruct (alookup g vm) as [x|]; [split; [eauto|auto]|]. split; [discriminate|]. intros (b & H). discriminate. }
      destruct (match alookup g vm with Some _ => true | None => false end).
      + assert (K1 : In g (akeys vm)) by (apply K; auto).
        destruct (cc_anti_grazing cc), clearing, (idx_eqb_spec g own); cbn; split; try discriminate; try tauto; try (intros H; exfalso; apply H; tauto).
        all: try (intros _ (X & _); discriminate). all: try (intros _ (_ & _ & [X|X]); [discriminate|contradiction]).
      + assert (K1 : ~ In g (akeys vm)) by (intros H; apply K in H; discriminate).
        rewrite andb_false_r, andb_false_r. cbn. tauto.
    - rewrite Forall_map. cbn [q_idx]. pose proof (NEAR mc mp mw v M R) as N.
      rewrite Forall_forall in *. intros g I. apply filter_In in I. apply N, I.
  Qed.

  Lemma merged_run_ok : forall clearing vm m walked threads progs sched l l', sound_layer l -> (0 < threads)%nat ->
    Z.of_nat (length m) + Z.of_nat threads < 2 ^ 64 -> Permutation walked m ->
    (forall kv, In kv m -> snd kv <> [] /\
       forall mc mp mw voxels, merged cc cl clearing (snd kv) mc mp mw -> ray_voxels fuel garbage cc l0 cl mp clearing true voxels -> Forall near_index voxels) ->
    merged_progs fuel garbage cc (l_size l0) cl threads clearing vm walked = Ok (Some progs) ->
    run_threads (cc_tsdf cc) l progs sched = Ok (Some l') ->
    exists obs qs, (forall kv, In kv m -> bundle_seen fuel garbage cc l0 cl vm clearing kv (obs kv)) /\
      Permutation qs (flat_map obs m) /\ observed (cc_tsdf cc) l qs l'.
  Proof.
    intros clearing vm m walked threads progs sched l l' W HT HB PW HM EP ER.
    set (f := fun n : nat => match nth_error walked n with
                       | Some kv => merged_voxel fuel garbage cc (l_size l0) cl clearing vm kv | None => UB end).
    set (taken := map (fun t => thread_share (Z.of_nat threads) (Z.of_nat t) (length walked)) (seq 0 threads)).
    assert (EP' : rcollect (map (fun is => rconcat (map f is)) taken) = Ok (Some progs)).
    { unfold taken. rewrite map_map. exact EP. }
    assert (PT : Permutation (concat taken) (seq 0 (length walked))).
    { apply shares_perm; [exact HT|]. rewrite (Permutation_length PW). exact HB. }
    set (ob := fun n : nat => match nth_error walked n with Some kv => bundle_calls clearing vm kv | None => [] end).
    assert (PO : forall n cs, In n (concat taken) -> f n = Ok (Some cs) -> calls cs = ob n /\ Forall (fun q => near_index (q_idx q)) (ob n) /\
       forall kv, nth_error walked n = Some kv -> bundle_seen fuel garbage cc l0 cl vm clearing kv (bundle_calls clearing vm kv)).
    { intros n cs In_ F. unfold f in F. unfold ob, bundle_calls. destruct (nth_error walked n) as [kv|] eqn:N; [|discriminate]. rewrite F.
      destruct (HM kv) as (NE & II). { apply (Permutation_in _ PW). eapply nth_error_In; eauto. }
      destruct (merged_voxel_ok clearing vm kv cs NE II F) as (BS & NR). split; [auto|]. split; [exact NR|].
      intros kv' E'. inversion E'; subst kv'. rewrite F. exact BS. }
    destruct (points_ok nat f ob (cc_tsdf cc) l taken progs sched l' W EP') as (qs & PQ & OB); [| exact ER |].
    { intros n cs I F. destruct (PO n cs I F) as (A1 & A2 & _). split; [exact A1|exact A2]. }
    exists (bundle_calls clearing vm), qs. split; [|split; [|exact OB]].
    - intros kv I. apply (Permutation_in _ (Permutation_sym PW)) in I. apply In_nth_error in I as (n & N).
      assert (In_ : In n (concat taken)) by (apply (Permutation_in _ (Permutation_sym PT)), in_seq; pose proof (nth_lt _ _ _ _ N); lia).
      destruct (progs_calls nat f ob taken progs EP') as (_ & C2 & _). { intros j cs J F. apply (PO j cs J F). }
      destruct (C2 n In_) as (cs & F). destruct (PO n cs In_ F) as (_ & _ & BS). apply BS; auto.
    - rewrite PQ. rewrite (Permutation_flat _ _ ob _ _ PT).
      assert (FM : forall (w : list (idx3 * list Z)) k, flat_map (fun n => match nth_error w (n - k) with Some kv => bundle_calls clearing vm kv | None => [] end) (seq k (length w))
                   = flat_map (bundle_calls clearing vm) w).
      { induction w as [|kv w IH]; intros k; cbn [length seq flat_map]; [reflexivity|]. rewrite Nat.sub_diag. cbn [nth_error]. f_equal.
        rewrite <- (IH (S k)). rewrite !flat_map_concat_map. f_equal. apply map_ext_in. intros n In_. apply in_seq in In_.
        replace (n - k)%nat with (S (n - S k)) by lia. reflexivity. }
      specialize (FM walked O).
      assert (FE : flat_map ob (seq 0 (length walked)) = flat_map (bundle_calls clearing vm) walked).
      { rewrite <- FM. rewrite !flat_map_concat_map. f_equal. apply map_ext. intros n. unfold ob. rewrite Nat.sub_0_r. reflexivity. }
      rewrite FE. apply Permutation_flat. exact PW.
  Qed.
End Merged.
