(** The eight voxels of an interpolation, at the level of layers. *)
From Coq Require Import ZArith List Bool Reals Lra Lia.
From Flocq Require Import Core.
From Verif Require Import F32 F32_lemmas Types Index Index_float Voxel Layer Mesh_spec Interp Interp_spec Interp_axis.
Import ListNotations.
Open Scope Z_scope.
Ltac Zify.zify_post_hook ::= idtac.

Definition base_of {k} (l : Layer k) (bi v : idx3) : idx3 := global_of (l_vps l) bi v.
Lemma div_base : forall n b v, 0 < n -> 0 <= v < n -> (b * n + v) / n = b.
Proof. intros. symmetry. apply Z.div_unique with v; lia. Qed.
Lemma mod_base : forall n b v, 0 < n -> 0 <= v < n -> (b * n + v) mod n = v.
Proof. intros. symmetry. apply Z.mod_unique with b; lia. Qed.
Lemma wrap_axis_spec : forall n b v c, 0 < n -> 0 <= v < n -> 0 <= c <= 1 ->
  fst (wrap_axis n b (v + c)) = (b * n + v + c) / n /\ snd (wrap_axis n b (v + c)) = (b * n + v + c) mod n.
Proof.
  intros n b v c H0 Hv Hc. unfold wrap_axis. destruct (n <=? v + c) eqn:E; [apply Z.leb_le in E|apply Z.leb_gt in E]; cbn [fst snd].
  - replace (b * n + v + c) with ((b + 1) * n + (v + c - n)) by ring. rewrite div_base, mod_base by lia. auto.
  - replace (b * n + v + c) with (b * n + (v + c)) by ring. rewrite div_base, mod_base by lia. auto.
Qed.
Lemma lin_small : forall n x y z, 1 <= n <= 2 ^ 10 -> 0 <= x < n -> 0 <= y < n -> 0 <= z < n ->
  computeLinearIndexFromVoxelIndex n (V3 x y z) = x + n * (y + n * z) /\ 0 <= x + n * (y + n * z) < n * n * n.
Proof.
  intros n x y z Hn Hx Hy Hz. unfold computeLinearIndexFromVoxelIndex. cbn [vx vy vz].
  assert (0 <= y + n * z < n * n) by nia. assert (0 <= x + n * (y + n * z) < n * n * n) by nia.
  split; auto. replace (x + n * (y + z * n)) with (x + n * (y + n * z)) by ring. unfold u64. apply Z.mod_small.
  assert (n * n * n <= 2 ^ 10 * 2 ^ 10 * 2 ^ 10). { apply Z.mul_le_mono_nonneg; try lia; try nia. }
  change (2 ^ 10 * 2 ^ 10 * 2 ^ 10) with (2 ^ 30) in *. lia.
Qed.

Section layer.
  Context {k : vkind} (l : Layer k).
  Hypothesis BL : built_layer l.
  Let n := l_vps l.
  Let s := l_size l.

  (** what the loop reads at one corner *)
  Lemma corner_read : forall bi v c b0, all3 (fun x => 0 <= x < n) v -> all3 (fun x => 0 <= x <= 1) c -> l_get l bi = Some b0 ->
    let w := idx_add v c in
    let ax := wrap_axis (b_vps b0) (vx bi) (vx w) in
    let ay := wrap_axis (b_vps b0) (vy bi) (vy w) in
    let az := wrap_axis (b_vps b0) (vz bi) (vz w) in
    match l_get l (V3 (fst ax) (fst ay) (fst az)) with
    | None => voxel_at l (idx_add (global_of n bi v) c) = None
    | Some b => exists x, nth_error (b_voxels b) (Z.to_nat (computeLinearIndexFromVoxelIndex (b_vps b) (V3 (snd ax) (snd ay) (snd az)))) = Some x /\
                  voxel_at l (idx_add (global_of n bi v) c) = Some x
    end.
  Proof.
    intros [bx by_ bz] [x y z] [cx cy cz] b0 (Hx & Hy & Hz) (Cx & Cy & Cz) G0. cbn [vx vy vz] in *.
    destruct BL as (Hs & Hn & HB). destruct (HB _ _ G0) as (V0 & _). rewrite V0. fold n in Hn, HB. fold n.
    unfold idx_add, global_of, zip3, map3. cbn [vx vy vz]. cbv zeta.
    destruct (wrap_axis_spec n bx x cx) as (-> & ->); [lia..|]. destruct (wrap_axis_spec n by_ y cy) as (-> & ->); [lia..|].
    destruct (wrap_axis_spec n bz z cz) as (-> & ->); [lia..|].
    unfold voxel_at. fold n. unfold map3. cbn [vx vy vz].
    clear G0. destruct (l_get l _) as [b|] eqn:G; [|reflexivity].
    destruct (HB _ _ G) as (V1 & _ & _ & L1). rewrite V1.
    assert (M : forall a, 0 <= a mod n < n) by (intros; apply Z.mod_pos_bound; lia).
    destruct (lin_small n _ _ _ Hn (M (bx * n + x + cx)) (M (by_ * n + y + cy)) (M (bz * n + z + cz))) as (E & R).
    rewrite E. destruct (nth_error (b_voxels b) _) eqn:N; [eauto|]. exfalso. apply nth_error_None in N. lia.
  Qed.

  Lemma fetch_spec : forall bi v pos cols (first : bool) q b0,
    all3 (fun x => 0 <= x < n) v -> Forall (all3 (fun x => 0 <= x <= 1)) cols -> l_get l bi = Some b0 ->
    let o := voxel_offset (computeCoordinatesFromVoxelIndex (new_block_origin n s bi) s v) pos (inv_of s) in
    (first = true -> (exists cols', cols = V3 0 0 0 :: cols') /\ getQVector (computeCoordinatesFromVoxelIndex (new_block_origin n s bi) s v) pos (inv_of s) = Ok o) ->
    fetch_voxels l bi v pos cols first q =
      Ok (match collect (map (fun c => observed_at l (idx_add (global_of n bi v) c)) cols) with
          | Some xs => Some (if first then o else q, xs) | None => None end).
  Proof.
    intros bi v pos cols. induction cols as [|c cols IH]; intros first q b0 Hv HC G0 o HF.
    - cbn [fetch_voxels map collect]. destruct first; [|reflexivity]. destruct (HF eq_refl) as ((? & ?) & _). discriminate.
    - apply Forall_cons_iff in HC. destruct HC as (Hc & HC).
      cbn [fetch_voxels map collect]. rewrite G0. pose proof (corner_read bi v c b0 Hv Hc G0) as CR. cbv zeta in CR.
      set (blk := l_get l (V3 _ _ _)) in *. destruct blk as [b|] eqn:GB; unfold blk in GB.
      2:{ unfold observed_at at 1. rewrite CR. reflexivity. }
      destruct CR as (x & Nx & Ax). rewrite Nx. unfold observed_at at 1. rewrite Ax. cbv zeta.
      assert (QV : (if first then getQVector (computeCoordinatesFromVoxelIndex (b_origin b) (b_size b)
                  (V3 (snd (wrap_axis (b_vps b0) (vx bi) (vx (idx_add v c)))) (snd (wrap_axis (b_vps b0) (vy bi) (vy (idx_add v c))))
                     (snd (wrap_axis (b_vps b0) (vz bi) (vz (idx_add v c)))))) pos (inv_of (b_size b)) else Ok q) = Ok (if first then o else q)).
      { destruct first; [|reflexivity]. destruct (HF eq_refl) as ((cols' & EC) & Q). injection EC as -> ->.
        destruct BL as (Hs & Hn & HB). fold n in Hn. destruct (HB _ _ G0) as (V0 & S0 & O0 & _). fold n s in V0, S0, O0.
        assert (EV : V3 (snd (wrap_axis (b_vps b0) (vx bi) (vx (idx_add v (V3 0 0 0))))) (snd (wrap_axis (b_vps b0) (vy bi) (vy (idx_add v (V3 0 0 0)))))
                     (snd (wrap_axis (b_vps b0) (vz bi) (vz (idx_add v (V3 0 0 0))))) = v /\
                     V3 (fst (wrap_axis (b_vps b0) (vx bi) (vx (idx_add v (V3 0 0 0))))) (fst (wrap_axis (b_vps b0) (vy bi) (vy (idx_add v (V3 0 0 0)))))
                     (fst (wrap_axis (b_vps b0) (vz bi) (vz (idx_add v (V3 0 0 0))))) = bi).
        { destruct v as [x0 y0 z0], bi as [b1 b2 b3]. destruct Hv as (A & B & C). cbn [vx vy vz] in *. rewrite V0.
          unfold idx_add, zip3. cbn [vx vy vz]. rewrite !Z.add_0_r. unfold wrap_axis.
          rewrite !(proj2 (Z.leb_gt _ _)) by lia. auto. }
        destruct EV as (E1 & E2). rewrite E1. rewrite E2, G0 in GB. injection GB as <-. rewrite S0, O0. exact Q. }
      rewrite QV. cbn [rbind of_opt]. destruct (isObservedVoxel k x); [|reflexivity].
      rewrite (IH false (if first then o else q) b0 Hv HC G0) by discriminate. cbn [rbind].
      destruct (collect _); reflexivity.
  Qed.
End layer.

Lemma offsets_corners : Forall (all3 (fun x => 0 <= x <= 1)) interp_offsets.
Proof. unfold interp_offsets, all3. repeat constructor; cbn [vx vy vz]; lia. Qed.

Lemma collect_none : forall A (os : list (option A)), In None os -> collect os = None.
Proof.
  induction os as [|[a|] os IH]; cbn; intros H; [contradiction| |reflexivity].
  destruct H as [?|H]; [discriminate|]. rewrite (IH H). reflexivity.
Qed.

Lemma set_axis_corner : forall vps off b v, exists c, 0 <= c <= 1 /\
  fst (set_axis vps off b v) * vps + snd (set_axis vps off b v) + c = b * vps + v.
Proof.
  intros. unfold set_axis. destruct (flt off f0); [|exists 0; cbn [fst snd]; lia].
  exists 1. destruct (v - 1 <? 0); cbn [fst snd]; split; lia.
Qed.

Lemma voxels_spec : forall k (l : Layer k) pos, built_layer l -> point_in_range (l_size l) pos ->
  exists g o,
    (surrounded (l_vps l) (l_size l) (vx pos) (vx g) /\ surrounded (l_vps l) (l_size l) (vy pos) (vy g) /\ surrounded (l_vps l) (l_size l) (vz pos) (vz g)) /\
    (offset_ok (l_vps l) (l_size l) (vx pos) (vx g) (vx o) /\ offset_ok (l_vps l) (l_size l) (vy pos) (vy g) (vy o) /\
     offset_ok (l_vps l) (l_size l) (vz pos) (vz g) (vz o)) /\
    getVoxelsAndQVector l pos = Ok (match collect (map (fun c => observed_at l (idx_add g c)) interp_offsets) with
                                    | Some xs => Some (o, xs) | None => None end).
Proof.
  intros k l [px py pz] BL (Px & Py & Pz). cbn [vx vy vz] in *.
  assert (BL' := BL). destruct BL' as (Hs & Hn & HB). set (n := l_vps l) in *. set (s := l_size l) in *.
  destruct (axis_cell n s px Hs Hn (proj1 Px) (proj2 Px)) as (bx & nx & Gx & Nx & _).
  destruct (axis_cell n s py Hs Hn (proj1 Py) (proj2 Py)) as (by_ & ny & Gy & Ny & _).
  destruct (axis_cell n s pz Hs Hn (proj1 Pz) (proj2 Pz)) as (bz & nz & Gz & Nz & _).
  destruct (axis_base n s px bx nx Hs Hn (proj1 Px) (proj2 Px) Gx Nx) as (Rx & Sx & Fx & Bx & Ex).
  destruct (axis_base n s py by_ ny Hs Hn (proj1 Py) (proj2 Py) Gy Ny) as (Ry & Sy & Fy & By & Ey).
  destruct (axis_base n s pz bz nz Hs Hn (proj1 Pz) (proj2 Pz) Gz Nz) as (Rz & Sz & Fz & Bz & Ez).
  destruct (set_axis_corner n (fsub px (ctr n s bx (clamp_axis n nx))) bx (clamp_axis n nx)) as (cx & Cx & Kx).
  destruct (set_axis_corner n (fsub py (ctr n s by_ (clamp_axis n ny))) by_ (clamp_axis n ny)) as (cy & Cy & Ky).
  destruct (set_axis_corner n (fsub pz (ctr n s bz (clamp_axis n nz))) bz (clamp_axis n nz)) as (cz & Cz & Kz).
  set (ax := set_axis n (fsub px (ctr n s bx (clamp_axis n nx))) bx (clamp_axis n nx)) in *.
  set (ay := set_axis n (fsub py (ctr n s by_ (clamp_axis n ny))) by_ (clamp_axis n ny)) in *.
  set (az := set_axis n (fsub pz (ctr n s bz (clamp_axis n nz))) bz (clamp_axis n nz)) in *.
  set (bi := V3 (fst ax) (fst ay) (fst az)). set (v := V3 (snd ax) (snd ay) (snd az)).
  set (o := voxel_offset (computeCoordinatesFromVoxelIndex (new_block_origin n s bi) s v) (V3 px py pz) (inv_of s)).
  exists (global_of n bi v), o. split; [exact (conj Sx (conj Sy Sz))|]. split.
  { split; [|split]; split; [exact Fx|split; [exact Bx|exact Ex]|exact Fy|split; [exact By|exact Ey]|exact Fz|split; [exact Bz|exact Ez]]. }
  unfold getVoxelsAndQVector, setIndexes.
  assert (EB : computeBlockIndexFromCoordinates (l_vps l) (l_size l) (V3 px py pz) = Some (V3 bx by_ bz)).
  { unfold computeBlockIndexFromCoordinates, getGridIndexFromPoint, map3, seq3. cbn [vx vy vz]. fold n s. rewrite Gx, Gy, Gz. reflexivity. }
  rewrite EB. cbn [of_opt rbind].
  destruct (l_get l (V3 bx by_ bz)) as [b|] eqn:G.
  - destruct (HB _ _ G) as (V0 & S0 & O0 & _). rewrite V0, S0, O0.
    assert (ET : computeTruncatedVoxelIndexFromCoordinates n (new_block_origin n s (V3 bx by_ bz)) (inv_of s) (V3 px py pz)
                 = Some (V3 (clamp_axis n nx) (clamp_axis n ny) (clamp_axis n nz))).
    { unfold computeTruncatedVoxelIndexFromCoordinates, computeVoxelIndexFromCoordinates, getGridIndexFromPoint, pt_sub, new_block_origin,
        getOriginPointFromGridIndex, zip3, map3, seq3. cbn [vx vy vz]. fold (org n s bx) (org n s by_) (org n s bz). rewrite Nx, Ny, Nz. reflexivity. }
    rewrite ET. cbn [of_opt rbind].
    change (computeCoordinatesFromVoxelIndex (new_block_origin n s (V3 bx by_ bz)) s (V3 (clamp_axis n nx) (clamp_axis n ny) (clamp_axis n nz)))
      with (V3 (ctr n s bx (clamp_axis n nx)) (ctr n s by_ (clamp_axis n ny)) (ctr n s bz (clamp_axis n nz))).
    unfold pt_sub, zip3. cbn [vx vy vz]. fold ax ay az. fold bi v.
    destruct (l_get l bi) as [b0|] eqn:G0.
    + apply (fetch_spec l BL bi v (V3 px py pz) interp_offsets true (V3 f0 f0 f0) b0); auto.
      * split; [exact Rx|split; [exact Ry|exact Rz]].
      * apply offsets_corners.
      * intros _. split; [eexists; reflexivity|]. fold n s. unfold getQVector. fold o.
        assert (GE : forall x, ffin x = true -> (0 <= FR x)%R -> fge x f0 = true). { intros x F L. unfold fge. apply fle_R; auto. }
        assert (A1 : fge (vx o) f0 = true) by (apply GE; [exact Fx|exact (proj1 Bx)]).
        assert (A2 : fge (vy o) f0 = true) by (apply GE; [exact Fy|exact (proj1 By)]).
        assert (A3 : fge (vz o) f0 = true) by (apply GE; [exact Fz|exact (proj1 Bz)]).
        rewrite A1, A2, A3. reflexivity.
    + rewrite collect_none.
      * cbn [fetch_voxels interp_offsets]. rewrite G0. reflexivity.
      * left. unfold observed_at, voxel_at. fold n.
        assert (E : map3 (fun c => c / n) (idx_add (global_of n bi v) (V3 0 0 0)) = bi).
        { unfold idx_add, global_of, zip3, map3, bi, v. cbn [vx vy vz]. rewrite !Z.add_0_r, !div_base by lia. reflexivity. }
        rewrite E, G0. reflexivity.
  - rewrite collect_none; [reflexivity|]. apply in_map_iff. exists (V3 cx cy cz). split.
    + unfold observed_at, voxel_at. fold n.
      assert (E : map3 (fun c => c / n) (idx_add (global_of n bi v) (V3 cx cy cz)) = V3 bx by_ bz).
      { unfold idx_add, global_of, zip3, map3, bi, v. cbn [vx vy vz]. rewrite Kx, Ky, Kz.
        pose proof (clamp_range n nx ltac:(lia)). pose proof (clamp_range n ny ltac:(lia)). pose proof (clamp_range n nz ltac:(lia)).
        rewrite !div_base by lia. reflexivity. }
      rewrite E, G. reflexivity.
    + assert (cx = 0 \/ cx = 1) as [-> | ->] by lia; assert (cy = 0 \/ cy = 1) as [-> | ->] by lia; assert (cz = 0 \/ cz = 1) as [-> | ->] by lia;
        cbn [In interp_offsets]; tauto.
Qed.

Lemma nearest_spec : forall k (l : Layer k) pos, built_layer l -> point_in_range (l_size l) pos ->
  exists g,
    (in_cell (l_vps l) (l_size l) (vx pos) (vx g) /\ in_cell (l_vps l) (l_size l) (vy pos) (vy g) /\ in_cell (l_vps l) (l_size l) (vz pos) (vz g)) /\
    getNearestVoxel l pos = Ok (voxel_at l g).
Proof.
  intros k l [px py pz] BL (Px & Py & Pz). cbn [vx vy vz] in *.
  destruct BL as (Hs & Hn & HB). set (n := l_vps l) in *. set (s := l_size l) in *.
  destruct (axis_cell n s px Hs Hn (proj1 Px) (proj2 Px)) as (bx & nx & Gx & Nx & _ & Sx).
  destruct (axis_cell n s py Hs Hn (proj1 Py) (proj2 Py)) as (by_ & ny & Gy & Ny & _ & Sy).
  destruct (axis_cell n s pz Hs Hn (proj1 Pz) (proj2 Pz)) as (bz & nz & Gz & Nz & _ & Sz).
  pose proof (clamp_range n nx ltac:(lia)) as Rx. pose proof (clamp_range n ny ltac:(lia)) as Ry. pose proof (clamp_range n nz ltac:(lia)) as Rz.
  exists (V3 (bx * n + clamp_axis n nx) (by_ * n + clamp_axis n ny) (bz * n + clamp_axis n nz)). cbn [vx vy vz].
  split; [exact (conj Sx (conj Sy Sz))|]. unfold getNearestVoxel.
  assert (EB : computeBlockIndexFromCoordinates (l_vps l) (l_size l) (V3 px py pz) = Some (V3 bx by_ bz)).
  { unfold computeBlockIndexFromCoordinates, getGridIndexFromPoint, map3, seq3. cbn [vx vy vz]. fold n s. rewrite Gx, Gy, Gz. reflexivity. }
  rewrite EB. cbn [of_opt rbind]. unfold voxel_at. fold n. unfold map3. cbn [vx vy vz]. rewrite !div_base, !mod_base by lia.
  destruct (l_get l (V3 bx by_ bz)) as [b|] eqn:G; [|reflexivity].
  destruct (HB _ _ G) as (V0 & S0 & O0 & L0). rewrite V0, S0, O0.
  assert (ET : computeTruncatedVoxelIndexFromCoordinates n (new_block_origin n s (V3 bx by_ bz)) (inv_of s) (V3 px py pz)
               = Some (V3 (clamp_axis n nx) (clamp_axis n ny) (clamp_axis n nz))).
  { unfold computeTruncatedVoxelIndexFromCoordinates, computeVoxelIndexFromCoordinates, getGridIndexFromPoint, pt_sub, new_block_origin,
      getOriginPointFromGridIndex, zip3, map3, seq3. cbn [vx vy vz]. fold (org n s bx) (org n s by_) (org n s bz). rewrite Nx, Ny, Nz. reflexivity. }
  rewrite ET. cbn [of_opt rbind]. destruct (lin_small n _ _ _ Hn Rx Ry Rz) as (E & R). rewrite E.
  destruct (nth_error (b_voxels b) _) eqn:N; [reflexivity|]. exfalso. apply nth_error_None in N. lia.
Qed.
