(** C104: a layer used by coordinates is a map from voxels to values. *)
From Coq Require Import ZArith List Bool Reals Lra Lia.
From Flocq Require Import Core.
From Verif Require Import F32 F32_lemmas Types Index Index_proofs Index_float Voxel Serialize Assoc Assoc_lemmas Layer Threads Threads_proofs Planning Mesh_spec Interp Interp_spec Interp_axis Interp_proofs
  Esdf_proofs Coords Coords_spec.
Import ListNotations.
Open Scope Z_scope.
Ltac Zify.zify_post_hook ::= idtac.

Lemma inside_unique : forall n s x g h, well_inside n s x g -> in_cell n s x h -> h = g.
Proof.
  intros n s x g h (_ & _ & A & B) (C & D). set (t := (FR x / FR s)%R) in *.
  assert (L : (IZR h < IZR (g + 1))%R) by (rewrite plus_IZR; lra). assert (U : (IZR g < IZR (h + 1))%R) by (rewrite plus_IZR; lra).
  apply lt_IZR in L. apply lt_IZR in U. lia.
Qed.
Definition blk (n : Z) (g : idx3) : idx3 := map3 (fun c => c / n) g.
Definition loc (n : Z) (g : idx3) : idx3 := map3 (fun c => c mod n) g.
Definition spot (n : Z) (g : idx3) : nat := Z.to_nat (vx g mod n + n * (vy g mod n + n * (vz g mod n))).

Section layer.
  Context {k : vkind}.
  Implicit Types l : Layer k.
  Lemma point_addr : forall n s p g, sane_size s -> 1 <= n <= 2 ^ 10 -> point_of n s p g ->
    computeBlockIndexFromCoordinates n s p = Some (blk n g) /\
    computeTruncatedVoxelIndexFromCoordinates n (new_block_origin n s (blk n g)) (inv_of s) p = Some (loc n g).
  Proof.
    intros n s [px py pz] [gx gy gz] Hs Hn (Px & Py & Pz). cbn [vx vy vz] in *.
    destruct (axis_cell n s px Hs Hn (proj1 Px) (proj1 (proj2 Px))) as (bx & nx & Gx & Nx & _ & Sx).
    destruct (axis_cell n s py Hs Hn (proj1 Py) (proj1 (proj2 Py))) as (by_ & ny & Gy & Ny & _ & Sy).
    destruct (axis_cell n s pz Hs Hn (proj1 Pz) (proj1 (proj2 Pz))) as (bz & nz & Gz & Nz & _ & Sz).
    pose proof (clamp_range n nx ltac:(lia)) as Rx. pose proof (clamp_range n ny ltac:(lia)) as Ry. pose proof (clamp_range n nz ltac:(lia)) as Rz.
    pose proof (inside_unique n s px gx _ Px Sx) as <-. pose proof (inside_unique n s py gy _ Py Sy) as <-. pose proof (inside_unique n s pz gz _ Pz Sz) as <-.
    unfold blk, loc, map3. cbn [vx vy vz]. rewrite !div_base, !mod_base by lia. split.
    - unfold computeBlockIndexFromCoordinates, getGridIndexFromPoint, map3, seq3. cbn [vx vy vz]. rewrite Gx, Gy, Gz. reflexivity.
    - unfold computeTruncatedVoxelIndexFromCoordinates, computeVoxelIndexFromCoordinates, getGridIndexFromPoint, pt_sub, new_block_origin,
        getOriginPointFromGridIndex, zip3, map3, seq3. cbn [vx vy vz]. fold (org n s bx) (org n s by_) (org n s bz). rewrite Nx, Ny, Nz. reflexivity.
  Qed.
  Lemma at_eq : forall l g, voxel_at l g = match l_get l (blk (l_vps l) g) with Some b => nth_error (b_voxels b) (spot (l_vps l) g) | None => None end.
  Proof. reflexivity. Qed.
  Lemma loc_range : forall n g, 1 <= n -> 0 <= vx g mod n < n /\ 0 <= vy g mod n < n /\ 0 <= vz g mod n < n.
  Proof. intros n g H. repeat split; apply Z.mod_pos_bound; lia. Qed.
  Lemma spot_lt : forall n g, 1 <= n <= 2 ^ 10 -> Z.of_nat (spot n g) < n * n * n.
  Proof. intros n g H. destruct (loc_range n g ltac:(lia)) as (A & B & C). destruct (lin_small n _ _ _ H A B C) as (_ & D). unfold spot. lia. Qed.
  Lemma spot_lin : forall n g, 1 <= n <= 2 ^ 10 -> Z.to_nat (computeLinearIndexFromVoxelIndex n (loc n g)) = spot n g.
  Proof. intros n g H. destruct (loc_range n g ltac:(lia)) as (A & B & C). destruct (lin_small n _ _ _ H A B C) as (E & _). unfold spot, loc, map3. rewrite E. reflexivity. Qed.
  Lemma spot_inj : forall n g h, 1 <= n <= 2 ^ 10 -> blk n g = blk n h -> spot n g = spot n h -> g = h.
  Proof.
    intros n [gx gy gz] [hx hy hz] H E S0. unfold blk, map3 in E. cbn [vx vy vz] in E. injection E as E1 E2 E3. unfold spot in S0. cbn [vx vy vz] in S0.
    destruct (loc_range n (V3 gx gy gz) ltac:(lia)) as (A1 & A2 & A3). destruct (loc_range n (V3 hx hy hz) ltac:(lia)) as (B1 & B2 & B3). cbn [vx vy vz] in *.
    apply Z2Nat.inj in S0; try nia.
    assert (D : forall a b c d, 0 <= a < n -> 0 <= c < n -> a + n * b = c + n * d -> b = d) by (intros a b c d; nia).
    assert (X2 : gy mod n + n * (gz mod n) = hy mod n + n * (hz mod n)) by exact (D _ _ _ _ A1 B1 S0).
    assert (X1 : gx mod n = hx mod n) by (rewrite X2 in S0; lia).
    assert (Y : gz mod n = hz mod n) by exact (D _ _ _ _ A2 B2 X2).
    assert (Y' : gy mod n = hy mod n) by (rewrite Y in X2; lia).
    pose proof (Z.div_mod gx n ltac:(lia)). pose proof (Z.div_mod hx n ltac:(lia)). pose proof (Z.div_mod gy n ltac:(lia)). pose proof (Z.div_mod hy n ltac:(lia)). pose proof (Z.div_mod gz n ltac:(lia)). pose proof (Z.div_mod hz n ltac:(lia)).
    f_equal; congruence.
  Qed.
  Lemma same_block_iff : forall n g h, same_block n g h = idx_eqb (blk n h) (blk n g).
  Proof.
    intros n g h. unfold same_block. destruct (idx_eqb_spec (blk n h) (blk n g)) as [E|E].
    - unfold blk, map3 in E. injection E as -> -> ->. rewrite !Z.eqb_refl. reflexivity.
    - destruct (Z.eqb_spec (vx g / n) (vx h / n)) as [A|]; [|reflexivity]. destruct (Z.eqb_spec (vy g / n) (vy h / n)) as [B|]; [|reflexivity]. destruct (Z.eqb_spec (vz g / n) (vz h / n)) as [C|]; [|reflexivity].
      exfalso. apply E. unfold blk, map3. congruence.
  Qed.
  Lemma new_built : forall n s i, 1 <= n <= 2 ^ 10 -> let b := new_block (k := k) n s (new_block_origin n s i) in
    b_vps b = n /\ b_size b = s /\ b_origin b = new_block_origin n s i /\ Z.of_nat (length (b_voxels b)) = n * n * n.
  Proof.
    intros n s i H b. repeat split. unfold b, new_block. cbn [b_voxels]. rewrite repeat_length. unfold num_voxels, u64.
    assert (n * n <= 2 ^ 10 * 2 ^ 10) by nia. assert (n * n * n <= 2 ^ 10 * 2 ^ 10 * 2 ^ 10) by nia. rewrite Z.mod_small by lia. lia.
  Qed.
  Lemma alloc_new : forall l i, built_layer l -> let l' := allocateNewBlock l i in
    built_layer l' /\ l_vps l' = l_vps l /\ l_size l' = l_size l /\
    forall h, voxel_at l' h = match voxel_at l h with Some v => Some v | None => if idx_eqb (blk (l_vps l) h) i then Some (vdefault k) else None end.
  Proof.
    intros l i (Hs & Hn & HB) l'. pose proof (new_built (l_vps l) (l_size l) i Hn) as NB. cbv zeta in NB.
    assert (G : forall j, l_get l' j = match l_get l j with Some b => Some b | None => if idx_eqb j i then Some (new_block (l_vps l) (l_size l) (new_block_origin (l_vps l) (l_size l) i)) else None end).
    { intros j. unfold l', allocateNewBlock, l_get, with_blocks. cbn [l_blocks]. apply alookup_ainsert. }
    split; [|split; [reflexivity|split; [reflexivity|]]].
    - split; [exact Hs|]. split; [exact Hn|]. intros j b E. rewrite G in E. change (l_vps l') with (l_vps l). change (l_size l') with (l_size l).
      destruct (l_get l j) as [b'|] eqn:E'; [injection E as <-; exact (HB j b' E')|]. destruct (idx_eqb_spec j i) as [->|]; [|discriminate]. injection E as <-. exact NB.
    - intros h. rewrite !at_eq. change (l_vps l') with (l_vps l). rewrite G. destruct (l_get l (blk (l_vps l) h)) as [b|] eqn:E.
      + destruct (nth_error (b_voxels b) (spot (l_vps l) h)) eqn:N; [reflexivity|]. exfalso. apply nth_error_None in N. destruct (HB _ _ E) as (_ & _ & _ & L). pose proof (spot_lt (l_vps l) h Hn). lia.
      + destruct (idx_eqb (blk (l_vps l) h) i); [|reflexivity]. destruct NB as (_ & _ & _ & L). unfold new_block in *. cbn [b_voxels] in *. rewrite repeat_length in L.
        apply nth_error_repeat. pose proof (spot_lt (l_vps l) h Hn). lia.
  Qed.
  Lemma alloc_any : forall l i, built_layer l -> let l' := allocateBlockPtrByIndex l i in
    built_layer l' /\ l_vps l' = l_vps l /\ l_size l' = l_size l /\
    forall h, voxel_at l' h = match voxel_at l h with Some v => Some v | None => if idx_eqb (blk (l_vps l) h) i then Some (vdefault k) else None end.
  Proof.
    intros l i B l'. unfold l', allocateBlockPtrByIndex. destruct (l_get l i) as [b|] eqn:E; [|apply alloc_new, B]. destruct B as (Hs & Hn & HB).
    split; [split; auto|]. split; [reflexivity|]. split; [reflexivity|]. intros h. destruct (voxel_at l h) eqn:V; [reflexivity|]. rewrite at_eq in V.
    destruct (idx_eqb_spec (blk (l_vps l) h) i) as [Q|]; [|reflexivity]. rewrite Q, E in V. apply nth_error_None in V. destruct (HB _ _ E) as (_ & _ & _ & L). pose proof (spot_lt (l_vps l) h Hn). lia.
  Qed.
  Lemma remove_any : forall l i, built_layer l -> let l' := removeBlock l i in
    built_layer l' /\ l_vps l' = l_vps l /\ l_size l' = l_size l /\ forall h, voxel_at l' h = if idx_eqb (blk (l_vps l) h) i then None else voxel_at l h.
  Proof.
    intros l i (Hs & Hn & HB) l'. assert (G : forall j, l_get l' j = if idx_eqb j i then None else l_get l j) by (intros j; unfold l', removeBlock, l_get, with_blocks; cbn [l_blocks]; apply alookup_aerase).
    split; [|split; [reflexivity|split; [reflexivity|]]].
    - split; [exact Hs|]. split; [exact Hn|]. intros j b E. rewrite G in E. destruct (idx_eqb j i); [discriminate|]. exact (HB j b E).
    - intros h. rewrite !at_eq. change (l_vps l') with (l_vps l). rewrite G. destruct (idx_eqb (blk (l_vps l) h) i); reflexivity.
  Qed.
  Lemma ptr_spec : forall l p g, built_layer l -> point_of (l_vps l) (l_size l) p g ->
    voxelPtrByCoordinates l p = Ok (match voxel_at l g with Some _ => Some (blk (l_vps l) g, spot (l_vps l) g) | None => None end).
  Proof.
    intros l p g (Hs & Hn & HB) P. destruct (point_addr _ _ _ _ Hs Hn P) as (A1 & A2). unfold voxelPtrByCoordinates. rewrite A1. cbn [of_opt rbind]. rewrite at_eq.
    destruct (l_get l (blk (l_vps l) g)) as [b|] eqn:E; [|reflexivity]. destruct (HB _ _ E) as (V & S0 & O & L). rewrite V, S0, O, A2. cbn [of_opt rbind]. rewrite spot_lin by exact Hn.
    destruct (nth_error (b_voxels b) (spot (l_vps l) g)) eqn:N; [reflexivity|]. exfalso. apply nth_error_None in N. pose proof (spot_lt (l_vps l) g Hn). lia.
  Qed.
  Lemma store_spec : forall l g v x, built_layer l -> voxel_at l g = Some x ->
    exists l', store_ptr l (blk (l_vps l) g, spot (l_vps l) g) v = Ok l' /\ built_layer l' /\ l_vps l' = l_vps l /\ l_size l' = l_size l /\
      forall h, voxel_at l' h = if idx_eqb g h then Some v else voxel_at l h.
  Proof.
    intros l g v x (Hs & Hn & HB) V. rewrite at_eq in V. destruct (l_get l (blk (l_vps l) g)) as [b|] eqn:E; [|discriminate].
    unfold store_ptr, load_ptr. cbn [fst snd]. rewrite E, V. cbn [of_opt rbind]. eexists. split; [reflexivity|].
    set (f := fun b0 : Block k => set_voxels (set_th (spot (l_vps l) g) v (b_voxels b0)) b0). set (l' := set_block l (blk (l_vps l) g) f).
    assert (D : l_vps l' = l_vps l /\ l_size l' = l_size l) by (unfold l', set_block; rewrite E; split; reflexivity). destruct D as (D1 & D2).
    pose proof (set_block_get l (blk (l_vps l) g) f) as G. fold l' in G. rewrite E in G. cbn [option_map] in G.
    split; [|split; [exact D1|split; [exact D2|]]].
    - split; [rewrite D2; exact Hs|]. split; [rewrite D1; exact Hn|]. intros j c Q. rewrite G in Q. rewrite D1, D2. destruct (idx_eqb_spec j (blk (l_vps l) g)) as [->|]; [|exact (HB j c Q)].
      injection Q as <-. destruct (HB _ _ E) as (B1 & B2 & B3 & B4). unfold f, set_voxels. cbn [b_vps b_size b_origin b_voxels]. rewrite set_th_length. auto.
    - intros h. rewrite !at_eq, D1, G. destruct (idx_eqb_spec (blk (l_vps l) h) (blk (l_vps l) g)) as [Q|Q].
      + rewrite Q, E. unfold f, set_voxels. cbn [b_voxels]. destruct (idx_eqb_spec g h) as [<-|N]; [apply (set_th_same _ _ _ x V)|].
        apply set_th_other. intros C. apply N. apply (spot_inj (l_vps l)); auto.
      + destruct (idx_eqb_spec g h) as [<-|N]; [congruence|reflexivity].
  Qed.
  Lemma index_spec : forall l g e, built_layer l -> l_vps l = 2 ^ e -> 0 <= e -> all3 (fun c => Z.abs c <= 2 ^ 24) g ->
    getVoxelByGlobalIndex l g = Ok (voxel_at l g).
  Proof.
    intros l g e (Hs & Hn & HB) V He Hg. assert (He' : e <= 10). { apply (Z.pow_le_mono_r_iff 2); lia. }
    pose proof (layer_split_spec g e ltac:(lia) Hg) as L. rewrite <- V in L. unfold layerAddressOfGlobalIndex in L. unfold getVoxelByGlobalIndex.
    destruct (getBlockIndexFromGlobalVoxelIndex g (vps_inv_layer (l_vps l))) as [bi|]; [|discriminate]. cbn [of_opt rbind] in *.
    destruct (getLocalFromGlobalVoxelIndex g (l_vps l)) as [v| |]; try discriminate. cbn [rbind] in *. injection L as -> ->.
    rewrite at_eq. change (map3 (fun c => c / l_vps l) g) with (blk (l_vps l) g). destruct (l_get l (blk (l_vps l) g)) as [b|] eqn:E; [|reflexivity].
    destruct (HB _ _ E) as (B1 & _ & _ & B4). rewrite B1. change (map3 (fun c => c mod l_vps l) g) with (loc (l_vps l) g). rewrite spot_lin by exact Hn.
    destruct (nth_error (b_voxels b) (spot (l_vps l) g)) eqn:N; [reflexivity|]. exfalso. apply nth_error_None in N. pose proof (spot_lt (l_vps l) g Hn). lia.
  Qed.
  Lemma step_spec : forall l o vo m, built_layer l -> means (l_vps l) (l_size l) o vo -> (forall h, voxel_at l h = m h) ->
    exists l', cop_step l o = Ok (l', vop_sees m vo) /\ built_layer l' /\ l_vps l' = l_vps l /\ l_size l' = l_size l /\ forall h, voxel_at l' h = vop_step (l_vps l) m vo h.
  Proof.
    intros l o vo m B M Q. pose proof B as (Hs & Hn & HB).
    destruct M as [p g P|p g P|p g P|p g v P|p g P|g e V He Hg]; cbn [cop_step vop_sees vop_step].
    - destruct (point_addr _ _ _ _ Hs Hn P) as (A & _). unfold allocateByCoordinates. rewrite A. cbn [of_opt rbind]. destruct (alloc_any l (blk (l_vps l) g) B) as (X1 & X2 & X3 & X4).
      eexists. split; [reflexivity|]. split; [exact X1|]. split; [exact X2|]. split; [exact X3|]. intros h. rewrite X4, Q, same_block_iff. reflexivity.
    - destruct (point_addr _ _ _ _ Hs Hn P) as (A & _). unfold allocateNewByCoordinates. rewrite A. cbn [of_opt rbind]. destruct (alloc_new l (blk (l_vps l) g) B) as (X1 & X2 & X3 & X4).
      eexists. split; [reflexivity|]. split; [exact X1|]. split; [exact X2|]. split; [exact X3|]. intros h. rewrite X4, Q, same_block_iff. reflexivity.
    - destruct (point_addr _ _ _ _ Hs Hn P) as (A & _). unfold removeByCoordinates. rewrite A. cbn [of_opt rbind]. destruct (remove_any l (blk (l_vps l) g) B) as (X1 & X2 & X3 & X4).
      eexists. split; [reflexivity|]. split; [exact X1|]. split; [exact X2|]. split; [exact X3|]. intros h. rewrite X4, Q, same_block_iff. reflexivity.
    - rewrite (ptr_spec l p g B P). cbn [rbind]. destruct (voxel_at l g) as [x|] eqn:E.
      + assert (LD : load_ptr l (blk (l_vps l) g, spot (l_vps l) g) = Ok x).
        { unfold load_ptr. cbn [fst snd]. rewrite at_eq in E. destruct (l_get l (blk (l_vps l) g)); [|discriminate]. rewrite E. reflexivity. }
        destruct (store_spec l g v x B E) as (l' & S1 & S2 & S3 & S4 & S5). rewrite LD. cbn [rbind]. rewrite S1. cbn [rbind]. exists l'. rewrite <- Q, E. split; [reflexivity|]. split; [exact S2|]. split; [exact S3|]. split; [exact S4|].
        intros h. rewrite S5. destruct (idx_eqb_spec g h) as [<-|]; [rewrite <- Q, E; reflexivity|apply Q].
      + exists l. rewrite <- Q, E. split; [reflexivity|]. split; [exact B|]. split; [reflexivity|]. split; [reflexivity|]. intros h. destruct (idx_eqb_spec g h) as [<-|]; [rewrite <- Q, E; reflexivity|apply Q].
    - rewrite (ptr_spec l p g B P). cbn [rbind]. exists l. rewrite <- Q. split; [|split; [exact B|split; [reflexivity|split; [reflexivity|exact Q]]]]. destruct (voxel_at l g) as [x|] eqn:E; [|reflexivity].
      unfold load_ptr. cbn [fst snd]. rewrite at_eq in E. destruct (l_get l (blk (l_vps l) g)); [|discriminate]. rewrite E. reflexivity.
    - rewrite (index_spec l g e B V He Hg). cbn [rbind]. exists l. rewrite <- Q. split; [reflexivity|split; [exact B|split; [reflexivity|split; [reflexivity|exact Q]]]].
  Qed.
End layer.

(** For every program: every read and write sees what the map holds, and the layer ends up
    holding what the map holds; nothing undefined happens. *)
Theorem C104_map : forall k (l : Layer k) ops vops, built_layer l -> Forall2 (means (l_vps l) (l_size l)) ops vops ->
  exists l', cop_run l ops = Ok (l', snd (vop_run (l_vps l) (voxel_at l) vops)) /\ built_layer l' /\
    l_vps l' = l_vps l /\ l_size l' = l_size l /\ forall h, voxel_at l' h = fst (vop_run (l_vps l) (voxel_at l) vops) h.
Proof.
  intros k l ops vops B F. assert (G : forall h, voxel_at l h = voxel_at l h) by reflexivity. revert G. generalize (voxel_at l) at 2 3 4 as m. remember (l_vps l) as n eqn:En. remember (l_size l) as s eqn:Es.
  revert l B En Es. induction F as [|o vo os vos M F IH]; intros l B En Es m Q.
  - exists l. cbn [cop_run vop_run fst snd]. split; [reflexivity|split; [exact B|split; [congruence|split; [congruence|exact Q]]]].
  - subst n s. destruct (step_spec l o vo m B M Q) as (l1 & E & B1 & V1 & S1 & Q1). destruct (IH l1 B1 (eq_sym V1) (eq_sym S1) _ Q1) as (l2 & E2 & B2 & V2 & S2 & Q2).
    exists l2. cbn [cop_run vop_run fst snd]. rewrite E. cbn [rbind fst snd]. rewrite E2. cbn [rbind fst snd]. split; [reflexivity|]. split; [exact B2|]. split; [exact V2|]. split; [exact S2|]. exact Q2.
Qed.
Print Assumptions C104_map.
(** two voxels of different blocks, one on the negative side *)
Definition pos_half : f32 := fbits 0x3f000000.
Definition neg_half : f32 := fbits 0xbf000000.
Lemma half_inside : well_inside 2 f1 pos_half 0 /\ well_inside 2 f1 neg_half (-1).
Proof.
  assert (O : FR f1 = 1%R). { assert (E : FR f1 = (IZR 8388608 * bpow radix2 (-23))%R) by reflexivity. rewrite E. change (bpow radix2 (-23)) with (/ 8388608)%R. lra. }
  assert (P : FR pos_half = (/ 2)%R). { assert (E : FR pos_half = (IZR 8388608 * bpow radix2 (-24))%R) by reflexivity. rewrite E. change (bpow radix2 (-24)) with (/ 16777216)%R. lra. }
  assert (N : FR neg_half = (- / 2)%R). { assert (E : FR neg_half = (IZR (-8388608) * bpow radix2 (-24))%R) by reflexivity. rewrite E. change (bpow radix2 (-24)) with (/ 16777216)%R. lra. }
  split; (split; [reflexivity|]); cbv zeta; rewrite ?P, ?N, O; unfold border_tol.
  - replace (/ 2 / 1)%R with (/ 2)%R by field. rewrite Rabs_pos_eq by lra. lra.
  - replace (- / 2 / 1)%R with (- / 2)%R by field. rewrite Rabs_Ropp, Rabs_pos_eq by lra. lra.
Qed.
Example C104_example :
  let p := V3 pos_half pos_half pos_half in let q := V3 neg_half pos_half pos_half in
  let v : vox KTsdf := MkTsdf pos_half f1 color0 in
  let ops : list (cop KTsdf) := [CRead p; CAllocate p; CWrite p v; CRead q; CAllocate q; CWrite q v; CRemove p; CRead p; CRead q; CReadIndex (V3 (-1) 0 0)] in
  let g := V3 0 0 0 in let h := V3 (-1) 0 0 in
  let vops : list (vop KTsdf) := [VRead g; VAllocate g; VWrite g v; VRead h; VAllocate h; VWrite h v; VRemove g; VRead g; VRead h; VRead h] in
  built_layer (MkLayer (k := KTsdf) f1 2 []) /\ Forall2 (means (k := KTsdf) 2 f1) ops vops /\
  snd (vop_run 2 (fun _ => None) vops) = [None; None; Some (vdefault KTsdf); None; None; Some (vdefault KTsdf); None; None; Some v; Some v].
Proof.
  intros p q v ops g h vops. destruct half_inside as (P & N).
  assert (Pp : point_of 2 f1 p g) by (split; [exact P|split; exact P]). assert (Pq : point_of 2 f1 q h) by (split; [exact N|split; exact P]).
  split; [|split; [|reflexivity]].
  - split; [|split; [cbn; lia|intros i b H; discriminate]]. split; [reflexivity|].
    assert (O : FR f1 = 1%R). { assert (E : FR f1 = (IZR 8388608 * bpow radix2 (-23))%R) by reflexivity. rewrite E. change (bpow radix2 (-23)) with (/ 8388608)%R. lra. }
    change (l_size (MkLayer (k := KTsdf) f1 2 [])) with f1. rewrite O. change 1%R with (bpow radix2 0). split; apply bpow_le; lia.
  - unfold ops, vops. repeat (constructor; [constructor; assumption|]). constructor; [|constructor]. apply (m_index 2 f1 h 1); [reflexivity|lia|]. split; [|split]; cbn; lia.
Qed.
