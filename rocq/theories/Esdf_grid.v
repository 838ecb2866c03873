(** Regular layers: every exact index names its own voxel. *)
From Coq Require Import ZArith List Bool Lia.
From Verif Require Import F32 Types Index Index_proofs Neighbor Neighbor_proofs Voxel Assoc Assoc_lemmas Layer Threads
  Planning Esdf Esdf_spec Esdf_proofs Connect_proofs.
Import ListNotations.
Open Scope Z_scope.
Ltac Zify.zify_post_hook ::= idtac.

(** the location of an exact index *)
Definition adr (vps : Z) (g : idx3) : addr :=
  (map3 (fun c => c / vps) g, Z.to_nat (computeLinearIndexFromVoxelIndex vps (map3 (fun c => c mod vps) g))).

Lemma pow_small : forall e, 0 <= e <= 10 -> 0 < 2 ^ e <= 1024.
Proof.
  intros e He; split; [apply Z.pow_pos_nonneg; lia|].
  change 1024 with (2 ^ 10); apply Z.pow_le_mono_r; lia.
Qed.
Lemma cube_small : forall v, 0 < v <= 1024 -> 0 < v * v * v <= 2 ^ 30.
Proof. intros v Hv; split; [nia|]. assert (v * v <= 1024 * 1024) by nia. nia. Qed.
Lemma mod3 : forall v (g : idx3), 0 < v -> all3 (fun c => 0 <= c < v) (map3 (fun c => c mod v) g).
Proof. intros v [x y z] Hv; repeat split; cbn; apply Z.mod_pos_bound; exact Hv. Qed.
Lemma div_mod3 : forall v (g h : idx3), 0 < v -> map3 (fun c => c / v) g = map3 (fun c => c / v) h ->
  map3 (fun c => c mod v) g = map3 (fun c => c mod v) h -> g = h.
Proof.
  intros v [x y z] [x' y' z'] Hv H1 H2; cbn in *; injection H1 as ? ? ?; injection H2 as ? ? ?.
  pose proof (Z.div_mod x v ltac:(lia)); pose proof (Z.div_mod x' v ltac:(lia)).
  pose proof (Z.div_mod y v ltac:(lia)); pose proof (Z.div_mod y' v ltac:(lia)).
  pose proof (Z.div_mod z v ltac:(lia)); pose proof (Z.div_mod z' v ltac:(lia)).
  f_equal; congruence.
Qed.
Lemma adr_inj : forall v g h, 0 < v <= 1024 -> adr v g = adr v h -> g = h.
Proof.
  intros v g h Hv H; unfold adr in H; pose proof (f_equal fst H) as H1; pose proof (f_equal snd H) as H2; cbn [fst snd] in H1, H2; clear H.
  pose proof (cube_small v Hv) as HC; pose proof (mod3 v g ltac:(lia)) as Mg; pose proof (mod3 v h ltac:(lia)) as Mh.
  set (mg := map3 (fun c => c mod v) g) in *; set (mh := map3 (fun c => c mod v) h) in *.
  pose proof (linear_lt v mg ltac:(lia) ltac:(lia) Mg) as (_ & Lg).
  pose proof (linear_lt v mh ltac:(lia) ltac:(lia) Mh) as (_ & Lh).
  assert (E : computeLinearIndexFromVoxelIndex v mg = computeLinearIndexFromVoxelIndex v mh) by (apply Z2Nat.inj; [apply Lg | apply Lh | exact H2]).
  pose proof (linear_roundtrip v mg ltac:(lia) ltac:(lia) Mg) as Rg.
  pose proof (linear_roundtrip v mh ltac:(lia) ltac:(lia) Mh) as Rh.
  rewrite E, Rh in Rg.
  assert (Eq : mg = mh) by congruence.
  apply (div_mod3 v); [lia | exact H1|]; fold mg mh; congruence.
Qed.
Lemma off_small : forall off kd, In (off, kd) neighbors26 ->
  all3 (fun c => Z.abs c <= 1) off /\ off <> V3 0 0 0.
Proof.
  intros off kd H; apply in_combine_l in H.
  assert (K : forallb (fun o => (Z.abs (vx o) <=? 1) && (Z.abs (vy o) <=? 1) && (Z.abs (vz o) <=? 1) &&
                 negb (idx_eqb o (V3 0 0 0))) kOffsets = true) by reflexivity.
  rewrite forallb_forall in K; specialize (K _ H).
  rewrite !andb_true_iff, negb_true_iff in K; destruct K as (((K1 & K2) & K3) & K4).
  split; [repeat split; lia|]. intros ->; discriminate.
Qed.
Lemma add_off_neq : forall g off, off <> V3 0 0 0 -> idx_add g off <> g.
Proof.
  intros [x y z] [a b c] H E; cbn in E; injection E as E1 E2 E3; apply H; f_equal; lia.
Qed.
Lemma add_off_inj : forall g o1 o2, idx_add g o1 = idx_add g o2 -> o1 = o2.
Proof. intros [x y z] [a b c] [a' b' c'] H; cbn in H; injection H as ? ? ?; f_equal; lia. Qed.
Lemma off_nodup : NoDup (map fst neighbors26).
Proof.
  assert (E : map fst neighbors26 = kOffsets) by reflexivity; rewrite E.
  assert (D : forall a b : idx3, {a = b} + {a <> b}) by (intros [] []; decide equality; apply Z.eq_dec).
  assert (K : (fix nd (l : list idx3) := match l with [] => true | x :: l' => negb (existsb (idx_eqb x) l') && nd l' end) kOffsets = true) by reflexivity.
  revert K; generalize kOffsets; induction l as [|x l IH]; intros K; [constructor|].
  apply andb_true_iff in K; destruct K as (K1 & K2); constructor; [|apply IH, K2].
  intros Hin; apply negb_true_iff in K1; assert (existsb (idx_eqb x) l = true); [|congruence].
  apply existsb_exists; exists x; split; [exact Hin | apply idx_eqb_refl].
Qed.

Section Regular.
  Context {k : vkind}.
  Implicit Types l : Layer k.
  Lemma reg_vps_small : forall l, regular l -> 0 < l_vps l <= 1024.
  Proof. intros l [(e & He & ->) _]; apply pow_small, He. Qed.
  Lemma num_voxels_reg : forall v, 0 < v <= 1024 -> num_voxels v = Z.to_nat (v * v * v).
  Proof. intros v Hv; unfold num_voxels, u64; rewrite Z.mod_small; [reflexivity|]; pose proof (cube_small v Hv); lia. Qed.
  Lemma reg_shape : forall l l', same_shape l l' -> regular l -> regular l'.
  Proof.
    intros l l' (E1 & E2 & E3) [H1 H2]; constructor; rewrite E2; [exact H1|].
    intros i b' Hb; specialize (E3 i); rewrite Hb in E3; destruct (l_get l i) as [b|] eqn:Eb; [|contradiction].
    destruct (H2 _ _ Eb) as (A & B & C); destruct E3 as (E4 & E5); repeat split; congruence || apply C.
  Qed.
  Lemma reg_ptr : forall l g, regular l -> exact_index g ->
    voxel_ptr l g = Ok (match l_get l (fst (adr (l_vps l) g)) with Some _ => Some (adr (l_vps l) g) | None => None end).
  Proof.
    intros l g HR Hg; pose proof (reg_vps_small _ HR) as HV; destruct HR as [(e & He & Ev) HB].
    destruct (vps_inv_layer_R e ltac:(lia)) as (E1 & F1).
    unfold voxel_ptr; rewrite Ev.
    rewrite (blockIndex_spec g e _ ltac:(lia) Hg E1 F1); cbn [of_opt rbind adr fst].
    destruct (l_get l (map3 (fun c => c / 2 ^ e) g)) as [b|] eqn:Eb; [|reflexivity].
    rewrite localIndex_spec by (try lia; destruct Hg as (? & ? & ?); repeat split; lia); cbn [rbind].
    destruct (HB _ _ Eb) as (B1 & B2 & _); rewrite B1, Ev; cbv zeta.
    destruct (nth_error (b_voxels b) _) eqn:En; [reflexivity|].
    exfalso; apply nth_error_None in En; rewrite B2, num_voxels_reg in En by exact HV; rewrite Ev in En, HV.
    pose proof (cube_small _ HV).
    pose proof (linear_lt (2 ^ e) _ ltac:(lia) ltac:(lia) (mod3 (2 ^ e) g ltac:(lia))) as (_ & L); lia.
  Qed.
  Lemma reg_at : forall l g, regular l -> exact_index g -> at_index l g = vat l (adr (l_vps l) g).
  Proof.
    intros l g HR Hg; rewrite at_index_ptr, (reg_ptr _ _ HR Hg).
    destruct (l_get l (fst (adr (l_vps l) g))) eqn:E; [reflexivity|].
    unfold vat; rewrite E; reflexivity.
  Qed.
  Lemma reg_ptr_at : forall l g, regular l -> exact_index g ->
    voxel_ptr l g = Ok (match at_index l g with Some _ => Some (adr (l_vps l) g) | None => None end).
  Proof.
    intros l g HR Hg; rewrite (reg_at _ _ HR Hg), (reg_ptr _ _ HR Hg); unfold vat.
    destruct (l_get l (fst (adr (l_vps l) g))) as [b|] eqn:E; [|reflexivity].
    destruct (nth_error (b_voxels b) (snd (adr (l_vps l) g))) eqn:En; [reflexivity|].
    exfalso; apply nth_error_None in En; pose proof (reg_vps_small _ HR) as HV; destruct HR as [_ HB].
    destruct (HB _ _ E) as (_ & B2 & _); rewrite B2, num_voxels_reg in En by exact HV; cbn [adr snd] in En.
    pose proof (cube_small _ HV).
    pose proof (linear_lt (l_vps l) _ ltac:(lia) ltac:(lia) (mod3 (l_vps l) g ltac:(lia))) as (_ & L); lia.
  Qed.
  (** an index in an existing block, and its neighbours, are exact *)
  Lemma block_exact : forall l g off, regular l -> l_get l (fst (adr (l_vps l) g)) <> None ->
    all3 (fun c => Z.abs c <= 1) off -> exact_index (idx_add g off).
  Proof.
    intros l g off HR Hb Ho; pose proof (reg_vps_small _ HR) as HV; destruct HR as [_ HB].
    destruct (l_get l (fst (adr (l_vps l) g))) as [b|] eqn:Eb; [|congruence].
    destruct (HB _ _ Eb) as (_ & _ & B); clear Hb Eb HB; set (v := l_vps l) in *.
    assert (A : forall c o, Z.abs o <= 1 -> (Z.abs (c / v) + 1) * v < 2 ^ 24 -> Z.abs (c + o) <= 2 ^ 24).
    { intros c o H1 H2; pose proof (Z.div_mod c v ltac:(lia)); pose proof (Z.mod_pos_bound c v ltac:(lia)).
      set (q := c / v) in *; set (r := c mod v) in *; assert (Z.abs q * v + v < 2 ^ 24) by lia.
      assert (Z.abs (v * q) = Z.abs q * v) by (rewrite Z.abs_mul; lia). lia. }
    destruct g as [x y z], off as [a b' c'], B as (B1 & B2 & B3), Ho as (O1 & O2 & O3); cbn in *.
    repeat split; cbn; apply A; assumption.
  Qed.
  Lemma at_exact : forall l g off v, regular l -> vat l (adr (l_vps l) g) = Some v ->
    all3 (fun c => Z.abs c <= 1) off -> exact_index (idx_add g off).
  Proof.
    intros l g off v HR Hv; apply (block_exact l); [exact HR|]; unfold vat in Hv.
    destruct (l_get l (fst (adr (l_vps l) g))); congruence.
  Qed.
  Lemma add_zero : forall g, idx_add g (V3 0 0 0) = g.
  Proof. intros [x y z]; unfold idx_add, zip3; cbn [vx vy vz]; f_equal; lia. Qed.
  Lemma vat_exact : forall l g v, regular l -> vat l (adr (l_vps l) g) = Some v -> exact_index g.
  Proof.
    intros l g v HR Hv; rewrite <- (add_zero g); eapply at_exact; try eassumption.
    repeat split; cbn; lia.
  Qed.
  Lemma at_set : forall l g h v v0, regular l -> exact_index g -> exact_index h -> at_index l g = Some v0 ->
    (h <> g -> at_index (vset l (adr (l_vps l) g) v) h = at_index l h) /\
    at_index (vset l (adr (l_vps l) g) v) g = Some v.
  Proof.
    intros l g h v v0 HR Hg Hh H0; rewrite (reg_at _ _ HR Hg) in H0.
    pose proof (shape_vset l (adr (l_vps l) g) v) as HS; pose proof (reg_shape _ _ HS HR) as HR'.
    assert (EV : l_vps (vset l (adr (l_vps l) g) v) = l_vps l) by apply HS.
    rewrite !(reg_at _ _ HR') by assumption; rewrite EV; split.
    - intros Hn; rewrite (vat_vset_other _ _ _ _ _ H0); [symmetry; apply reg_at; assumption|].
      intros E; apply Hn, (adr_inj _ _ _ (reg_vps_small _ HR) E).
    - apply (vat_vset_same _ _ _ _ H0).
  Qed.
End Regular.
