(** Which voxels a sphere lists, and what filling and clearing do to them. *)
From Coq Require Import ZArith List Bool Reals Lra Lia Psatz Permutation.
From Flocq Require Import Core.
From Verif Require Import F32 F32_lemmas F32_err Types Assoc Assoc_lemmas Index Index_float Index_proofs Voxel Layer Planning Threads Threads_proofs
  Esdf_spec Esdf_proofs Esdf_grid Esdf_batch MeshInt_proofs Interp_spec Interp_axis Sphere_spec Sphere_float.
Import ListNotations.
Open Scope Z_scope.
Ltac Zify.zify_post_hook ::= idtac.

(** ** The offsets *)
Definition flr (p : pt3) : idx3 := map3 (fun c => Zfloor (FR c)) p.
Lemma floors_all : forall L : list pt3,
  (forall p, In p L -> seq3 (map3 (fun c => to_int64 (ffloorZ c)) p) = Some (flr p)) ->
  fold_right (fun p acc => match seq3 (map3 (fun c => to_int64 (ffloorZ c)) p), acc with Some i, Some is => Some (i :: is) | _, _ => None end) (Some []) L
  = Some (map flr L).
Proof.
  induction L as [|p L IH]; intros H; [reflexivity|]. cbn [fold_right map]. rewrite IH, H; [reflexivity|now left|]. intros q Hq. apply H. now right.
Qed.
Definition grid {A} (xs : list A) : list (v3 A) := flat_map (fun x => flat_map (fun y => map (fun z => V3 x y z) xs) xs) xs.
Lemma in_grid : forall A (xs : list A) p, In p (grid xs) <-> In (vx p) xs /\ In (vy p) xs /\ In (vz p) xs.
Proof.
  intros A xs [x y z]. unfold grid. cbn [vx vy vz]. rewrite in_flat_map. split.
  - intros (a & Ha & H). apply in_flat_map in H. destruct H as (b & Hb & H). apply in_map_iff in H. destruct H as (c & E & Hc).
    injection E as -> -> ->. auto.
  - intros (Hx & Hy & Hz). exists x. split; auto. apply in_flat_map. exists y. split; auto. apply in_map_iff. eauto.
Qed.
Lemma grid_nodup : forall A (xs : list A), NoDup xs -> NoDup (grid xs).
Proof.
  intros A xs H. unfold grid. apply NoDup_flat_map; auto.
  - intros a _. apply NoDup_flat_map; auto.
    + intros b _. apply FinFun.Injective_map_NoDup; auto. intros c d E. congruence.
    + intros b c p _ _ Hb Hc. apply in_map_iff in Hb, Hc. destruct Hb as (? & <- & _), Hc as (? & E & _). congruence.
  - intros a b p _ _ Ha Hb. apply in_flat_map in Ha, Hb. destruct Ha as (? & _ & Ha), Hb as (? & _ & Hb).
    apply in_map_iff in Ha, Hb. destruct Ha as (? & <- & _), Hb as (? & E & _). congruence.
Qed.
Lemma map_grid : forall A B (f : A -> B) xs, map (map3 f) (grid xs) = grid (map f xs).
Proof.
  intros. unfold grid. rewrite !flat_map_concat_map, !concat_map, !map_map. f_equal. apply map_ext. intros a.
  rewrite !flat_map_concat_map, !concat_map, !map_map. f_equal. apply map_ext. intros b. rewrite !map_map. reflexivity.
Qed.
Lemma Forall2_in_r : forall A B (P : A -> B -> Prop) l l' y, Forall2 P l l' -> In y l' -> exists x, In x l /\ P x y.
Proof. induction 1; cbn; intros I; [contradiction|]. destruct I as [->|I]; [eauto|]. destruct (IHForall2 I) as (? & ? & ?); eauto. Qed.
Lemma Forall2_in_l : forall A B (P : A -> B -> Prop) l l' x, Forall2 P l l' -> In x l -> exists y, In y l' /\ P x y.
Proof. induction 1; cbn; intros I; [contradiction|]. destruct I as [->|I]; [eauto|]. destruct (IHForall2 I) as (? & ? & ?); eauto. Qed.

(** the lattice point whose floor is [d] *)
Definition lat (R0 : R) (d : Z) : R := (- R0 + IZR (d - Zfloor (- R0)))%R.
Definition lat_nrm (R0 : R) (d : idx3) : R := nrm (lat R0 (vx d)) (lat R0 (vy d)) (lat R0 (vz d)).

Lemma nrm_ge : forall x y z, (Rabs x <= nrm x y z /\ Rabs y <= nrm x y z /\ Rabs z <= nrm x y z)%R.
Proof.
  intros x y z. unfold nrm.
  assert (Q : forall a S, (a * a <= S -> Rabs a <= sqrt S)%R).
  { intros a S0 H. rewrite <- sqrt_Rsqr_abs. apply sqrt_le_1_alt. exact H. }
  repeat split; apply Q; nra.
Qed.

Lemma Zfloor_add : forall x n, Zfloor (x + IZR n) = Zfloor x + n.
Proof.
  intros x n. apply Zfloor_imp. pose proof (Zfloor_lb x). pose proof (Zfloor_ub x). rewrite !plus_IZR. lra.
Qed.
Lemma nat_floor : forall x, (0 <= x)%R -> exists n, (INR n <= x < INR n + 1)%R.
Proof.
  intros x H. exists (Z.to_nat (Zfloor x)). assert (0 <= Zfloor x) by (apply Zfloor_lub; exact H).
  rewrite INR_IZR_INZ, Z2Nat.id by lia. split; [apply Zfloor_lb|apply Zfloor_ub].
Qed.
Lemma offsets_spec : forall r fuel, ffin r = true -> (0 <= FR r <= bpow radix2 16)%R -> (2 * FR r + 2 < INR fuel)%R ->
  exists offs, sphere_offsets fuel r = Ok (Some offs) /\ NoDup offs /\
    (forall d, In d offs -> all3 (fun c => - 65536 <= c <= 65536) d /\ (lat_nrm (FR r) d <= FR r + / 16)%R) /\
    (forall d, (lat_nrm (FR r) d <= FR r - / 16)%R -> In d offs).
Proof.
  intros r fuel Fr Br Hf. set (R0 := FR r) in *.
  destruct (nat_floor (2 * R0)) as (n & Hn). { lra. }
  destruct (frange_all r Fr Br n Hn fuel) as (xs & E & A). { apply INR_lt. rewrite S_INR. lra. }
  fold R0 in A. set (F0 := Zfloor (- R0)).
  change (bpow radix2 16) with 65536%R in *.
  assert (FL : forall i, Zfloor (- R0 + INR i) = F0 + Z.of_nat i).
  { intros i. rewrite INR_IZR_INZ. unfold F0. rewrite Zfloor_add. reflexivity. }
  assert (F0b : - 65536 <= F0 <= 0).
  { unfold F0. split; [apply Zfloor_lub; lra|]. apply le_IZR. eapply Rle_trans; [apply Zfloor_lb|]. lra. }
  assert (XS : forall x, In x xs -> exists i, (i <= n)%nat /\ ffin x = true /\ FR x = (- R0 + INR i)%R).
  { intros x I. destruct (Forall2_in_r _ _ _ _ _ _ A I) as (i & Ii & P). apply in_seq in Ii. exists i. split; [lia|exact P]. }
  assert (SX : forall i, (i <= n)%nat -> exists x, In x xs /\ ffin x = true /\ FR x = (- R0 + INR i)%R).
  { intros i Hi. destruct (Forall2_in_l _ _ _ _ _ i A) as (x & I & P); [apply in_seq; lia|]. eauto. }
  assert (NB : (INR n <= 131072)%R) by lra.
  assert (FX : map (fun c => Zfloor (FR c)) xs = map (fun i => F0 + Z.of_nat i) (seq 0 (S n))).
  { clear - A FL. induction A as [|i x is xs (F & V) A IH]; [reflexivity|]. cbn [map]. rewrite IH, V, FL. reflexivity. }
  unfold sphere_offsets. rewrite E.
  change (flat_map (fun x => flat_map (fun y => map (fun z => V3 x y z) xs) xs) xs) with (grid xs).
  set (L := filter (fun p => fle (fnorm p) r) (grid xs)).
  assert (PR : forall p, In p (grid xs) -> all3 (fun c => ffin c = true /\ (Rabs (FR c) <= R0)%R) p).
  { intros p I. apply in_grid in I. destruct I as (I1 & I2 & I3).
    assert (Q : forall x, In x xs -> ffin x = true /\ (Rabs (FR x) <= R0)%R).
    { intros x I. destruct (XS x I) as (i & Hi & Fx & Vx). split; auto. rewrite Vx. apply le_INR in Hi. pose proof (pos_INR i). apply Rabs_le. lra. }
    split; [|split]; auto. }
  assert (FB : forall x, (Rabs x <= R0)%R -> - 65536 <= Zfloor x <= 65536).
  { intros x H. apply Rabs_le_inv in H. split; [apply Zfloor_lub; lra|]. apply le_IZR. eapply Rle_trans; [apply Zfloor_lb|]. lra. }
  rewrite floors_all.
  2:{ intros p I. apply filter_In in I. destruct I as (I & _). apply PR in I. destruct I as ((F1 & B1) & (F2 & B2) & (F3 & B3)).
      unfold flr, seq3, map3. cbn [vx vy vz]. rewrite !ffloorZ_R by auto. apply FB in B1, B2, B3.
      unfold to_int64, in_range. rewrite !(proj2 (Z.leb_le _ _)) by lia. reflexivity. }
  cbn [of_opt rbind]. exists (map flr L). split; [reflexivity|]. split; [|split].
  - unfold L. apply NoDup_map_filter. change (map flr (grid xs)) with (map (map3 (fun c => Zfloor (FR c))) (grid xs)). rewrite map_grid, FX. apply grid_nodup.
    apply FinFun.Injective_map_NoDup; [|apply seq_NoDup]. intros a b. lia.
  - intros d I. apply in_map_iff in I. destruct I as (p & <- & I). apply filter_In in I. destruct I as (I & T).
    pose proof (PR p I) as ((F1 & B1) & (F2 & B2) & (F3 & B3)). split.
    { unfold flr, map3. split; [|split]; cbn [vx vy vz]; apply FB; auto. }
    assert (LV : forall x, In x xs -> lat R0 (Zfloor (FR x)) = FR x).
    { intros x J. destruct (XS x J) as (i & _ & _ & V). unfold lat. rewrite V, FL. fold F0.
      replace (F0 + Z.of_nat i - F0) with (Z.of_nat i) by lia. rewrite <- INR_IZR_INZ. reflexivity. }
    apply in_grid in I. destruct I as (I1 & I2 & I3).
    unfold lat_nrm, flr, map3. cbn [vx vy vz]. rewrite !LV by auto.
    destruct (fnorm_err p) as (Fn & Ln & _).
    { change (bpow radix2 17) with 131072%R. split; [|split]; split; auto; lra. }
    apply fle_R in T; auto. fold R0 in T. set (q := nrm _ _ _) in *. assert (0 <= q)%R by apply sqrt_pos. unfold u in Ln.
    assert (q <= 131072)%R; [|lra].
    assert (q * (9 / 10) <= R0 + 1)%R by lra. lra.
  - intros d Hd. destruct (nrm_ge (lat R0 (vx d)) (lat R0 (vy d)) (lat R0 (vz d))) as (N1 & N2 & N3). fold (lat_nrm R0 d) in N1, N2, N3.
    assert (G : forall c, (Rabs (lat R0 c) <= R0 - / 16)%R -> exists x, In x xs /\ ffin x = true /\ FR x = lat R0 c /\ Zfloor (FR x) = c).
    { intros c H. apply Rabs_le_inv in H. unfold lat in H. fold F0 in H.
      assert (I0 : (-1 < IZR (c - F0))%R) by lra. assert (I1 : (IZR (c - F0) <= INR n)%R \/ (INR n < IZR (c - F0))%R) by lra.
      assert (Z0 : 0 <= c - F0). { apply lt_IZR in I0. lia. }
      destruct I1 as [I1|I1].
      2:{ exfalso. assert (Z1 : Z.of_nat n + 1 <= c - F0). { apply Zlt_le_succ. apply lt_IZR. rewrite <- INR_IZR_INZ. exact I1. }
          apply IZR_le in Z1. rewrite plus_IZR, <- INR_IZR_INZ in Z1. lra. }
      destruct (SX (Z.to_nat (c - F0))) as (x & Ix & Fx & Vx). { apply INR_le. rewrite INR_IZR_INZ, Z2Nat.id by lia. exact I1. }
      exists x. rewrite INR_IZR_INZ, Z2Nat.id in Vx by lia. repeat split; auto.
      rewrite Vx, Zfloor_add. fold F0. lia. }
    destruct (G (vx d)) as (x & Ix & Fx & Vx & Zx); [lra|]. destruct (G (vy d)) as (y & Iy & Fy & Vy & Zy); [lra|].
    destruct (G (vz d)) as (z & Iz & Fz & Vz & Zz); [lra|].
    apply in_map_iff. exists (V3 x y z). split. { destruct d as [d1 d2 d3]. unfold flr, map3. cbn [vx vy vz] in *. congruence. }
    apply filter_In. split; [apply in_grid; auto|].
    assert (PB : all3 (fun c => ffin c = true /\ (Rabs (FR c) <= bpow radix2 17)%R) (V3 x y z)).
    { change (bpow radix2 17) with 131072%R. split; [|split]; cbn [vx vy vz]; split; auto; rewrite ?Vx, ?Vy, ?Vz; lra. }
    destruct (fnorm_err (V3 x y z) PB) as (Fn & _ & Un). cbn [vx vy vz] in Un. rewrite Vx, Vy, Vz in Un. fold (lat_nrm R0 d) in Un.
    apply fle_R; auto. fold R0. set (q := lat_nrm R0 d) in *. assert (0 <= q)%R by apply sqrt_pos. unfold u in Un. lra.
Qed.

(** ** The list of voxels *)
Lemma hier_aset : forall m b vs w, alookup b m = Some vs -> Permutation (hier_list (aset b (vs ++ [w]) m)) ((b, w) :: hier_list m).
Proof.
  induction m as [|(j, us) m IH]; intros b vs w H; cbn [alookup aset] in *; [discriminate|].
  destruct (idx_eqb_spec b j) as [->|N].
  - injection H as ->. unfold hier_list. cbn [flat_map fst snd]. rewrite map_app. cbn [map]. rewrite <- app_assoc. cbn [app].
    symmetry. apply Permutation_middle.
  - unfold hier_list in *. cbn [flat_map fst snd]. specialize (IH b vs w H).
    eapply Permutation_trans; [apply Permutation_app_head; exact IH|]. symmetry. apply Permutation_middle.
Qed.
Lemma hier_add_perm : forall m b w, Permutation (hier_list (hier_add m b w)) ((b, w) :: hier_list m).
Proof.
  intros m b w. unfold hier_add. destruct (alookup b m) as [vs|] eqn:E; [apply hier_aset; auto|].
  unfold hier_list. rewrite flat_map_app. cbn [flat_map fst snd map app]. symmetry. apply Permutation_cons_append.
Qed.
Lemma hier_add_full : forall (m : amap (list idx3)) b w, Forall (fun kv => snd kv <> []) m -> Forall (fun kv => snd kv <> []) (hier_add m b w).
Proof.
  intros m b w H. unfold hier_add. destruct (alookup b m) as [vs|] eqn:E.
  - clear E. induction H as [|(j, us) m Hx H IH]; cbn [aset].
    + constructor; [|constructor]. cbn. destruct vs; discriminate.
    + destruct (idx_eqb b j); constructor; auto. cbn. destruct vs; discriminate.
  - apply Forall_app. split; auto. constructor; [discriminate|constructor].
Qed.
Lemma rfold_hier : forall (sp : idx3 -> res (idx3 * idx3)) (F : idx3 -> idx3 * idx3) offs m0,
  (forall o, In o offs -> sp o = Ok (F o)) -> Forall (fun kv => snd kv <> []) m0 ->
  exists m, rfold (fun m off => rbind (sp off) (fun bv => Ok (hier_add m (fst bv) (snd bv)))) offs m0 = Ok m /\
    Permutation (hier_list m) (map F offs ++ hier_list m0) /\ Forall (fun kv => snd kv <> []) m.
Proof.
  intros sp F offs. induction offs as [|o offs IH]; intros m0 H H0; cbn [rfold map app].
  - exists m0. auto.
  - rewrite (H o) by now left. cbn [rbind]. destruct (IH (hier_add m0 (fst (F o)) (snd (F o)))) as (m & E & P & A).
    + intros q Hq. apply H. now right.
    + apply hier_add_full; auto.
    + exists m. split; [exact E|]. split; [|exact A]. eapply Permutation_trans; [exact P|].
      eapply Permutation_trans; [apply Permutation_app_head, hier_add_perm|].
      rewrite <- surjective_pairing. symmetry. apply Permutation_middle.
Qed.

Lemma grid64 : forall p inv b, grid_axis p inv = Some b -> grid_axis64 p inv = Some b.
Proof.
  intros p inv b. unfold grid_axis, grid_axis64, to_int32, to_int64, in_range. destruct (ffloorZ _) as [z|]; [|discriminate].
  destruct ((- 2 ^ 31 <=? z) && (z <=? 2 ^ 31 - 1)) eqn:E; [|discriminate]. apply andb_prop in E. destruct E as (E1 & E2).
  apply Z.leb_le in E1, E2. intros H. rewrite !(proj2 (Z.leb_le _ _)) by lia. exact H.
Qed.
Lemma nrm_tri : forall a b c d e f, (nrm (a + d) (b + e) (c + f) <= nrm a b c + nrm d e f)%R.
Proof.
  intros a b c d e f. unfold nrm. set (A := (a * a + b * b + c * c)%R). set (B := (d * d + e * e + f * f)%R).
  assert (PA : (0 <= A)%R) by (unfold A; nra). assert (PB : (0 <= B)%R) by (unfold B; nra).
  apply Rsqr_incr_0_var; [|pose proof (sqrt_pos A); pose proof (sqrt_pos B); lra].
  unfold Rsqr. rewrite sqrt_sqrt by (repeat apply Rplus_le_le_0_compat; apply Rle_0_sqr).
  assert (C : (a * d + b * e + c * f <= sqrt A * sqrt B)%R).
  { rewrite <- sqrt_mult_alt by auto. apply Rle_trans with (Rabs (a * d + b * e + c * f)); [apply Rle_abs|].
    rewrite <- sqrt_Rsqr_abs. apply sqrt_le_1_alt. unfold Rsqr, A, B.
    set (P := (a * e - b * d)%R). set (Q := (a * f - c * d)%R). set (T := (b * f - c * e)%R).
    assert (H : (0 <= P * P + Q * Q + T * T)%R) by (repeat apply Rplus_le_le_0_compat; apply Rle_0_sqr).
    replace ((a * a + b * b + c * c) * (d * d + e * e + f * f))%R with
      ((a * d + b * e + c * f) * (a * d + b * e + c * f) + (P * P + Q * Q + T * T))%R by (unfold P, Q, T; ring). lra. }
  pose proof (sqrt_sqrt A PA) as SA. pose proof (sqrt_sqrt B PB) as SB. unfold A, B in SA, SB. fold A B in SA, SB.
  replace ((sqrt A + sqrt B) * (sqrt A + sqrt B))%R with (sqrt A * sqrt A + sqrt B * sqrt B + 2 * (sqrt A * sqrt B))%R by ring.
  rewrite SA, SB. replace ((a + d) * (a + d) + (b + e) * (b + e) + (c + f) * (c + f))%R with (A + B + 2 * (a * d + b * e + c * f))%R by (unfold A, B; ring). lra.
Qed.
Lemma nrm_small : forall x y z k, (0 <= k -> Rabs x <= k -> Rabs y <= k -> Rabs z <= k -> nrm x y z <= 1.7321 * k)%R.
Proof.
  intros x y z k K X Y Z0. unfold nrm. apply Rsqr_incr_0_var; [|lra].
  assert (Q : forall w, (Rabs w <= k -> w * w <= k * k)%R).
  { intros w W. rewrite <- (Rabs_pos_eq (w * w)) by nra. rewrite Rabs_mult. apply Rmult_le_compat; auto using Rabs_pos. }
  pose proof (Q x X). pose proof (Q y Y). pose proof (Q z Z0). unfold Rsqr. rewrite sqrt_sqrt by nra. nra.
Qed.

(** block and place of a voxel *)
Definition spl (vps : Z) (g : idx3) : idx3 * idx3 := (map3 (fun c => c / vps) g, map3 (fun c => c mod vps) g).
Lemma join_spl : forall vps g, 0 < vps -> getGlobalVoxelIndexFromBlockAndVoxelIndex (fst (spl vps g)) (snd (spl vps g)) vps = g.
Proof.
  intros vps [x y z] H. unfold getGlobalVoxelIndexFromBlockAndVoxelIndex, spl, zip3, map3. cbn [fst snd vx vy vz].
  f_equal; [pose proof (Z.div_mod x vps)|pose proof (Z.div_mod y vps)|pose proof (Z.div_mod z vps)]; lia.
Qed.
Lemma idx_add_sub : forall a b : idx3, idx_add (idx_sub a b) b = a.
Proof. intros [x y z] [x' y' z']. unfold idx_add, idx_sub, zip3. cbn [vx vy vz]. f_equal; lia. Qed.
Lemma idx_sub_add : forall a b : idx3, idx_sub (idx_add a b) b = a.
Proof. intros [x y z] [x' y' z']. unfold idx_add, idx_sub, zip3. cbn [vx vy vz]. f_equal; lia. Qed.

Lemma sphere_spec : forall k (l : Layer k) e c r fuel, sane_size (l_size l) -> 0 <= e <= 10 -> l_vps l = 2 ^ e ->
  point_in_range (l_size l) c -> radius_in_range (l_size l) r -> (2 * (FR r / FR (l_size l)) + 3 < INR fuel)%R ->
  exists m, getSphereAroundPoint fuel l c r = Ok (Some m) /\ NoDup (voxels_of (l_vps l) m) /\
    (forall g, In g (voxels_of (l_vps l) m) -> (centre_dist (l_size l) c g <= FR r / FR (l_size l) + 2.75)%R) /\
    (forall g, (centre_dist (l_size l) c g <= FR r / FR (l_size l) - 2.75)%R -> In g (voxels_of (l_vps l) m)) /\
    Forall (fun kv => snd kv <> []) m /\
    exists vs, Permutation (hier_list m) (map (spl (l_vps l)) vs) /\ NoDup vs /\ Forall (all3 (fun c => Z.abs c <= 2 ^ 18)) vs.
Proof.
  intros k l e c r fuel Hs He Ev Pc (Fr & Pr & Br) Hf. set (s := l_size l) in *. set (n := l_vps l) in *.
  pose proof (sane_pos s Hs) as Sp. pose proof (pow_small e He) as Vn. rewrite <- Ev in Vn.
  destruct c as [cx cy cz]. destruct Pc as ((Fx & Bx) & (Fy & By) & (Fz & Bz)). cbn [vx vy vz] in *.
  assert (CI : forall p, ffin p = true -> (Rabs (FR p / FR s) <= 65536)%R -> exists b, grid_axis64 p (inv_of s) = Some b /\
     (IZR b - / 50 <= FR p / FR s <= IZR b + 1 + / 50)%R).
  { intros p Fp Bp. destruct (grid_axis_of_value p s Fp (sane_wide s Hs)) as (b & G & L & U).
    { change (bpow radix2 24) with 16777216%R. lra. }
    exists b. split; [apply grid64; auto|]. unfold gtol, u in L, U. lra. }
  destruct (CI cx Fx Bx) as (ix & Gx & Ix). destruct (CI cy Fy By) as (iy & Gy & Iy). destruct (CI cz Fz Bz) as (iz & Gz & Iz).
  set (ci := V3 ix iy iz).
  unfold getSphereAroundPoint. fold s n.
  assert (EC : getGlobalGridIndexFromPoint (V3 cx cy cz) (inv_of s) = Some ci).
  { unfold getGlobalGridIndexFromPoint, map3, seq3. cbn [vx vy vz]. rewrite Gx, Gy, Gz. reflexivity. }
  rewrite EC. cbn [of_opt rbind].
  assert (Rq : (0 <= FR r / FR s)%R) by (apply Rmult_le_pos; [auto|]; apply Rlt_le, Rinv_0_lt_compat; auto).
  destruct (fdiv_rel r s Fr) as (Fq & d & t & Hd & Ht & Eq); [lra| |].
  { rewrite Rabs_pos_eq by auto. apply Rle_trans with (bpow radix2 16); [change (bpow radix2 16) with 65536%R; lra|apply bpow_le; lia]. }
  set (q := fdiv r s) in *. set (rho := (FR r / FR s)%R) in *.
  assert (T : (t32r <= / 10000000000000000)%R). { unfold t32r. apply Rle_trans with (bpow radix2 (-60)); [apply bpow_le; lia|cbn; lra]. }
  assert (Qn : (0 <= FR q)%R).
  { unfold q. destruct (fdiv_R r s Fr) as (E & _); [lra| |].
    - apply rnd32_small. fold rho. rewrite Rabs_pos_eq by auto. apply Rle_trans with (bpow radix2 16); [change (bpow radix2 16) with 65536%R; lra|apply bpow_le; lia].
    - rewrite E. apply rnd32_pos. exact Rq. }
  assert (Qv : (Rabs (FR q - rho) <= / 100)%R).
  { rewrite Eq. replace (rho * (1 + d) + t - rho)%R with (rho * d + t)%R by ring. apply Rle_trans with (65535 * u32r + t32r)%R.
    - apply Rabs_tri; auto. apply Rabs_prod; auto. rewrite Rabs_pos_eq; auto.
    - unfold u32r. lra. }
  apply Rabs_le_inv in Qv.
  destruct (offsets_spec q fuel Fq) as (offs & EO & ND & Up & Dn).
  { split; auto. change (bpow radix2 16) with 65536%R. lra. } { lra. }
  rewrite EO. cbn [rbind].
  assert (CB : forall p b, (Rabs (FR p / FR s) <= 65536 -> IZR b - / 50 <= FR p / FR s <= IZR b + 1 + / 50 -> (Z.abs b <= 65538)%Z)%R).
  { intros p b H1 H2. apply Rabs_le_inv in H1. assert (-65538 <= b <= 65538); [|lia]. split; apply le_IZR; lra. }
  pose proof (CB _ _ Bx Ix) as Cx. pose proof (CB _ _ By Iy) as Cy. pose proof (CB _ _ Bz Iz) as Cz.
  assert (OB : forall o, In o offs -> all3 (fun c => Z.abs c <= 2 ^ 18) (idx_add o ci)).
  { intros o I. destruct (Up o I) as ((A & B & C) & _). destruct o as [o1 o2 o3]. unfold idx_add, zip3, ci. cbn [vx vy vz] in *. repeat split; cbn [vx vy vz]; lia. }
  destruct (rfold_hier (fun off => getBlockAndVoxelIndexFromGlobalVoxelIndex (idx_add off ci) n) (fun o => spl n (idx_add o ci)) offs []) as (m & EM & PM & FM).
  { intros o I. rewrite Ev. apply split_spec; [lia|]. destruct (OB o I) as (A & B & C). repeat split; lia. }
  { constructor. }
  rewrite EM. cbn [rbind]. rewrite app_nil_r in PM. exists m. split; [reflexivity|].
  set (vs := map (fun o => idx_add o ci) offs).
  assert (PV : Permutation (voxels_of n m) vs).
  { unfold voxels_of. eapply Permutation_trans; [apply Permutation_map; exact PM|]. rewrite map_map. unfold vs.
    erewrite map_ext; [apply Permutation_refl|]. intros o. cbn beta. apply join_spl. lia. }
  assert (NV : NoDup vs).
  { unfold vs. apply FinFun.Injective_map_NoDup; auto. intros a b E. rewrite <- (idx_sub_add a ci), E, idx_sub_add. reflexivity. }
  assert (LD : forall g, exists dx dy dz, (Rabs dx <= 1.52 /\ Rabs dy <= 1.52 /\ Rabs dz <= 1.52)%R /\
     centre_dist s (V3 cx cy cz) g = nrm (lat (FR q) (vx (idx_sub g ci)) + dx) (lat (FR q) (vy (idx_sub g ci)) + dy) (lat (FR q) (vz (idx_sub g ci)) + dz)).
  { intros [g1 g2 g3]. unfold centre_dist, idx_sub, zip3, ci. cbn [vx vy vz].
    pose proof (Zfloor_lb (- FR q)) as Z1. pose proof (Zfloor_ub (- FR q)) as Z2. set (F := Zfloor (- FR q)) in *.
    exists (IZR g1 + / 2 - FR cx / FR s - lat (FR q) (g1 - ix))%R, (IZR g2 + / 2 - FR cy / FR s - lat (FR q) (g2 - iy))%R,
      (IZR g3 + / 2 - FR cz / FR s - lat (FR q) (g3 - iz))%R.
    unfold lat. fold F. rewrite !minus_IZR. split; [repeat split; apply Rabs_le; lra|]. f_equal; ring. }
  split; [eapply Permutation_NoDup; [apply Permutation_sym; exact PV|exact NV]|]. split; [|split; [|split]].
  - intros g I. apply (Permutation_in _ PV) in I. unfold vs in I. apply in_map_iff in I. destruct I as (o & <- & I).
    destruct (LD (idx_add o ci)) as (dx & dy & dz & (D1 & D2 & D3) & ->). rewrite idx_sub_add.
    destruct (Up o I) as (_ & U). unfold lat_nrm in U.
    eapply Rle_trans; [apply nrm_tri|]. pose proof (nrm_small dx dy dz 1.52 ltac:(lra) D1 D2 D3). lra.
  - intros g H. apply (Permutation_in _ (Permutation_sym PV)). unfold vs. apply in_map_iff. exists (idx_sub g ci). split; [apply idx_add_sub|].
    apply Dn. destruct (LD g) as (dx & dy & dz & (D1 & D2 & D3) & E). rewrite E in H. unfold lat_nrm.
    set (a := lat (FR q) (vx (idx_sub g ci))) in *. set (b := lat (FR q) (vy (idx_sub g ci))) in *. set (c := lat (FR q) (vz (idx_sub g ci))) in *.
    pose proof (nrm_tri (a + dx) (b + dy) (c + dz) (- dx) (- dy) (- dz)) as TR.
    replace (a + dx + - dx)%R with a in TR by ring. replace (b + dy + - dy)%R with b in TR by ring. replace (c + dz + - dz)%R with c in TR by ring.
    pose proof (nrm_small (- dx) (- dy) (- dz) 1.52 ltac:(lra)) as NS. rewrite !Rabs_Ropp in NS. specialize (NS D1 D2 D3). lra.
  - exact FM.
  - exists vs. split; [|split; [exact NV|]].
    + eapply Permutation_trans; [exact PM|]. unfold vs. rewrite map_map. apply Permutation_refl.
    + apply Forall_forall. intros g I. unfold vs in I. apply in_map_iff in I. destruct I as (o & <- & I). auto.
Qed.

(** ** Writing to the listed voxels *)
Definition block_geom {k} (b b' : Block k) : Prop :=
  b_vps b' = b_vps b /\ b_size b' = b_size b /\ b_origin b' = b_origin b /\ length (b_voxels b') = length (b_voxels b).
Definition one_change (L L2 : Layer KEsdf) (a : addr) (f : EsdfVoxel -> EsdfVoxel) : Prop :=
  l_size L2 = l_size L /\ l_vps L2 = l_vps L /\
  (forall j, j <> fst a -> l_get L2 j = l_get L j) /\
  (forall b, l_get L (fst a) = Some b -> exists b2, l_get L2 (fst a) = Some b2 /\ block_geom b b2) /\
  (forall a', vat (k := KEsdf) L2 a' = if addr_dec a' a then option_map f (vat (k := KEsdf) L a) else vat (k := KEsdf) L a').
Lemma geom_refl : forall k (b : Block k), block_geom b b.
Proof. repeat split. Qed.
Lemma change_none : forall L a f v, vat (k := KEsdf) L a = Some v -> f v = v -> one_change L L a f.
Proof.
  intros L a f v V E. split; [auto|]. split; [auto|]. split; [auto|]. split; [eauto using geom_refl|].
  intros a'. destruct (addr_dec a' a) as [->|]; [|reflexivity]. rewrite V. cbn [option_map]. rewrite E. reflexivity.
Qed.
Lemma change_some : forall L a f v (g : Block KEsdf -> Block KEsdf), vat (k := KEsdf) L a = Some v ->
  (forall b, b_voxels (g b) = b_voxels b /\ b_vps (g b) = b_vps b /\ b_size (g b) = b_size b /\ b_origin (g b) = b_origin b) ->
  one_change L (set_block (vset L a (f v)) (fst a) g) a f.
Proof.
  intros L a f v g V G. assert (V' := V). unfold vat in V'. destruct (l_get L (fst a)) as [b|] eqn:B; [|discriminate]. clear V'.
  assert (GV : l_get (vset L a (f v)) (fst a) = Some (set_voxels (k := KEsdf) (set_th (snd a) (f v) (b_voxels b)) b)).
  { rewrite vset_get, idx_eqb_refl, B. reflexivity. }
  split; [|split; [|split; [|split]]].
  - unfold set_block. rewrite GV. unfold vset. rewrite B. reflexivity.
  - unfold set_block. rewrite GV. unfold vset. rewrite B. reflexivity.
  - intros j N. rewrite set_block_get, (idx_eqb_neq _ _ N), vset_get, (idx_eqb_neq _ _ N). reflexivity.
  - intros b' E. rewrite B in E. injection E as <-. rewrite set_block_get, idx_eqb_refl, GV. cbn [option_map]. eexists. split; [reflexivity|].
    destruct (G (set_voxels (k := KEsdf) (set_th (snd a) (f v) (b_voxels b)) b)) as (G1 & G2 & G3 & G4).
    unfold block_geom. rewrite G1, G2, G3, G4. cbn [b_vps b_size b_origin b_voxels set_voxels]. repeat split. apply set_th_length.
  - intros a'. assert (E : vat (k := KEsdf) (set_block (vset L a (f v)) (fst a) g) a' = vat (k := KEsdf) (vset L a (f v)) a').
    { unfold vat. rewrite set_block_get. destruct (idx_eqb_spec (fst a') (fst a)) as [->|]; [|reflexivity].
      destruct (l_get (vset L a (f v)) (fst a)) as [b'|]; [|reflexivity]. cbn [option_map]. destruct (G b') as (-> & _). reflexivity. }
    rewrite E, (vat_vset _ _ _ _ _ V). destruct (addr_dec a' a); [|reflexivity]. rewrite V. reflexivity.
Qed.

Section write.
  Variable st : Layer KEsdf -> idx3 * idx3 -> res (Layer KEsdf).
  Variable f : idx3 -> EsdfVoxel -> EsdfVoxel.
  Variable n : Z.
  (** the geometry every block in question has *)
  Variable s : f32.
  Definition placed (L : Layer KEsdf) (i : idx3) : Prop :=
    exists b, l_get L i = Some b /\ b_vps b = n /\ b_size b = s /\ b_origin b = new_block_origin n s i /\ length (b_voxels b) = num_voxels n.
  Hypothesis ST : forall L g, placed L (fst (adr n g)) -> exists L2, st L (spl n g) = Ok L2 /\ one_change L L2 (adr n g) (f g).
  Lemma write_all : forall vs L, NoDup (map (adr n) vs) -> (forall g, In g vs -> placed L (fst (adr n g))) ->
    exists L2, rfold st (map (spl n) vs) L = Ok L2 /\ l_size L2 = l_size L /\ l_vps L2 = l_vps L /\
      (forall i, (exists g, In g vs /\ fst (adr n g) = i) \/ l_get L2 i = l_get L i) /\
      (forall i b, l_get L i = Some b -> exists b2, l_get L2 i = Some b2 /\ block_geom b b2) /\
      (forall g, In g vs -> vat (k := KEsdf) L2 (adr n g) = option_map (f g) (vat (k := KEsdf) L (adr n g))) /\
      (forall a, ~ In a (map (adr n) vs) -> vat (k := KEsdf) L2 a = vat (k := KEsdf) L a).
  Proof.
    induction vs as [|g vs IH]; intros L ND PL; cbn [map rfold].
    - exists L. repeat split; auto; try contradiction; eauto using geom_refl.
    - cbn [map] in ND. apply NoDup_cons_iff in ND. destruct ND as (NI & ND).
      destruct (ST L g) as (L1 & E1 & S1 & V1 & B1 & G1 & A1); [apply PL; now left|].
      rewrite E1. cbn [rbind].
      assert (G1' : forall i b, l_get L i = Some b -> exists b2, l_get L1 i = Some b2 /\ block_geom b b2).
      { intros i b E. destruct (idx_eq_dec i (fst (adr n g))) as [->|N]; [auto|]. rewrite B1 by auto. eauto using geom_refl. }
      destruct (IH L1) as (L2 & E2 & S2 & V2 & B2 & G2 & A2 & A2'); auto.
      { intros h I. destruct (PL h (or_intror I)) as (b & Eb & P1 & P2 & P3 & P4). destruct (G1' _ _ Eb) as (b2 & Eb2 & Q1 & Q2 & Q3 & Q4).
        exists b2. repeat split; congruence. }
      exists L2. split; [exact E2|]. split; [congruence|]. split; [congruence|]. split; [|split; [|split]].
      + intros i. destruct (idx_eq_dec (fst (adr n g)) i) as [E|N]; [left; exists g; split; [now left|auto]|].
        destruct (B2 i) as [(h & I & E)|E]; [left; exists h; split; [now right|auto]|]. right. rewrite E. apply B1. congruence.
      + intros i b E. destruct (G1' i b E) as (b1 & Eb1 & Q1 & Q2 & Q3 & Q4). destruct (G2 i b1 Eb1) as (b2 & Eb2 & R1 & R2 & R3 & R4).
        exists b2. split; [exact Eb2|]. repeat split; congruence.
      + intros h [->|I].
        * rewrite (A2' _ NI), A1. destruct (addr_dec (adr n h) (adr n h)); [reflexivity|congruence].
        * rewrite (A2 h I), A1. destruct (addr_dec (adr n h) (adr n g)) as [E|]; [|reflexivity].
          exfalso. apply NI. rewrite <- E. apply in_map. exact I.
      + intros a N. rewrite A2', A1 by (intros I; apply N; now right).
        destruct (addr_dec a (adr n g)) as [->|]; [exfalso; apply N; now left|reflexivity].
  Qed.
End write.

(** the order of a list of independent writes does not matter to the theorems: the
    list is a permutation of the voxels' addresses *)
Lemma perm_map_inv : forall A B (f : A -> B) l l', Permutation l (map f l') -> exists l2, l = map f l2 /\ Permutation l2 l'.
Proof.
  intros A B f l l' H. remember (map f l') as m eqn:E. revert l' E. induction H; intros z E.
  - symmetry in E. apply map_eq_nil in E. subst. exists []. auto.
  - destruct z as [|a z]; [discriminate|]. cbn in E. injection E as -> E. destruct (IHPermutation _ E) as (l2 & -> & P). exists (a :: l2). auto.
  - destruct z as [|a [|b z]]; try discriminate. cbn in E. injection E as -> -> ->. exists (b :: a :: z). split; [reflexivity|]. constructor.
  - destruct (IHPermutation2 _ E) as (l2 & -> & P2). destruct (IHPermutation1 _ eq_refl) as (l3 & -> & P3). exists l3. split; auto. etransitivity; eauto.
Qed.

(** ** Allocation *)
Lemma alloc_get : forall k (L : Layer k) i j, l_get (allocateBlockPtrByIndex L i) j =
  match l_get L j with Some b => Some b | None => if idx_eqb j i then Some (new_block (l_vps L) (l_size L) (new_block_origin (l_vps L) (l_size L) i)) else None end.
Proof.
  intros k L i j. unfold allocateBlockPtrByIndex, allocateNewBlock. destruct (l_get L i) as [b|] eqn:E.
  - destruct (l_get L j) eqn:F; [reflexivity|]. destruct (idx_eqb_spec j i) as [->|]; [congruence|reflexivity].
  - unfold l_get, with_blocks in *. cbn [l_blocks]. rewrite alookup_ainsert. destruct (alookup j (l_blocks L)) eqn:F; [reflexivity|reflexivity].
Qed.
Lemma alloc_dims : forall k (L : Layer k) i, l_size (allocateBlockPtrByIndex L i) = l_size L /\ l_vps (allocateBlockPtrByIndex L i) = l_vps L.
Proof. intros. unfold allocateBlockPtrByIndex, allocateNewBlock. destruct (l_get L i); split; reflexivity. Qed.
Lemma alloc_fold : forall k (m : amap (list idx3)) (L : Layer k),
  let L' := fold_left (fun l kv => allocateBlockPtrByIndex l (fst kv)) m L in
  l_size L' = l_size L /\ l_vps L' = l_vps L /\
  forall j, l_get L' j = match l_get L j with Some b => Some b | None =>
    if existsb (fun kv => idx_eqb j (fst kv)) m then Some (new_block (l_vps L) (l_size L) (new_block_origin (l_vps L) (l_size L) j)) else None end.
Proof.
  intros k m. induction m as [|(i, vs) m IH]; intros L; cbn [fold_left existsb fst].
  - repeat split. intros j. destruct (l_get L j); reflexivity.
  - destruct (alloc_dims k L i) as (D1 & D2). destruct (IH (allocateBlockPtrByIndex L i)) as (E1 & E2 & E3).
    split; [congruence|]. split; [congruence|]. intros j. rewrite E3, alloc_get, D1, D2.
    destruct (l_get L j); [reflexivity|]. destruct (idx_eqb_spec j i) as [->|]; reflexivity.
Qed.

Lemma adr_range : forall n g, 0 < n <= 1024 -> (snd (adr n g) < num_voxels n)%nat.
Proof.
  intros n g H. rewrite num_voxels_reg by auto. unfold adr. cbn [snd].
  pose proof (mod3 n g ltac:(lia)) as (Mx & My & Mz). set (v := map3 _ g) in *.
  pose proof (cube_small n H) as C. destruct v as [x y z]. cbn [vx vy vz] in *. unfold computeLinearIndexFromVoxelIndex, u64. cbn [vx vy vz].
  assert (0 <= y + z * n < n * n) by nia. assert (0 <= x + n * (y + z * n) < n * n * n) by nia.
  rewrite Z.mod_small by lia. lia.
Qed.
Lemma block_bound : forall n g, 0 < n <= 1024 -> all3 (fun c => Z.abs c <= 2 ^ 18) g -> all3 (fun c => (Z.abs c + 1) * n < 2 ^ 24) (block_of n g).
Proof.
  intros n [x y z] Hn (Hx & Hy & Hz). unfold block_of, map3. cbn [vx vy vz] in *.
  assert (Q : forall c, Z.abs c <= 2 ^ 18 -> (Z.abs (c / n) + 1) * n < 2 ^ 24).
  { intros c H. pose proof (Z.div_mod c n ltac:(lia)). pose proof (Z.mod_pos_bound c n ltac:(lia)). nia. }
  split; [|split]; cbn [vx vy vz]; auto.
Qed.

Section sphere.
  Variable l : Layer KEsdf.
  Hypothesis SL : sphere_layer l.
  Variables (c : pt3) (r : f32) (fuel : nat).
  Hypothesis PC : point_in_range (l_size l) c.
  Hypothesis PR : radius_in_range (l_size l) r.
  Hypothesis HF : (2 * (FR r / FR (l_size l)) + 3 < INR fuel)%R.
  Variable st : Layer KEsdf -> idx3 * idx3 -> res (Layer KEsdf).
  Variable f : idx3 -> EsdfVoxel -> EsdfVoxel.
  Hypothesis ST : forall L g, placed (l_vps l) (l_size l) L (fst (adr (l_vps l) g)) ->
    exists L2, st L (spl (l_vps l) g) = Ok L2 /\ one_change L L2 (adr (l_vps l) g) (f g).
  (** with what a second pass over the same or another sphere needs *)
  Lemma sphere_write_full : exists m L1 L2, getSphereAroundPoint fuel l c r = Ok (Some m) /\
    getAndAllocateSphereAroundPoint fuel l c r = Ok (Some (L1, m)) /\ rfold st (hier_list m) L1 = Ok L2 /\
    sphere_effect l L2 (voxels_of (l_vps l) m) f /\
    sphere_layer L2 /\ l_vps L1 = l_vps l /\ hier_list m = map (spl (l_vps l)) (voxels_of (l_vps l) m) /\ NoDup (map (adr (l_vps l)) (voxels_of (l_vps l) m)) /\
    (forall g, In g (voxels_of (l_vps l) m) -> placed (l_vps l) (l_size l) L1 (fst (adr (l_vps l) g)) /\ all3 (fun c => Z.abs c <= 2 ^ 18) g /\ exact_index g /\
       vat (k := KEsdf) L1 (adr (l_vps l) g) = Some (match at_index (k := KEsdf) l g with Some v => v | None => vdefault KEsdf end)).
  Proof.
    destruct SL as (RL & BL). pose proof (reg_vps_small _ RL) as Vn. assert (RL' := RL). destruct RL' as [(e & He & Ev) RB]. destruct BL as (Hs & Hn & HB).
    set (n := l_vps l) in *. set (s := l_size l) in *.
    destruct (sphere_spec KEsdf l e c r fuel Hs He Ev PC PR HF) as (m & EM & NM & _ & _ & FM & vs0 & P0 & N0 & B0). fold n in NM, P0.
    destruct (perm_map_inv _ _ _ _ _ P0) as (vs & EH & PV).
    assert (EVS : voxels_of n m = vs).
    { unfold voxels_of. rewrite EH, map_map. erewrite map_ext; [apply map_id|]. intros g. cbn beta. apply join_spl. lia. }
    assert (BV : Forall (all3 (fun c => Z.abs c <= 2 ^ 18)) vs).
    { apply Forall_forall. intros g I. rewrite Forall_forall in B0. apply B0. apply (Permutation_in _ PV). exact I. }
    assert (NV : NoDup vs) by (rewrite <- EVS; exact NM).
    set (L1 := fold_left (fun l kv => allocateBlockPtrByIndex l (fst kv)) m l).
    destruct (alloc_fold KEsdf m l) as (A1 & A2 & A3). fold L1 in A1, A2, A3. fold s in A1. fold n in A2. fold n s in A3.
    exists m, L1.
    assert (KEY : forall j, existsb (fun kv => idx_eqb j (fst kv)) m = true <-> exists g, In g vs /\ block_of n g = j).
    { intros j. rewrite existsb_exists. split.
      - intros ((i & ws) & I & E). cbn [fst] in E. apply idx_eqb_true in E. subst i.
        rewrite Forall_forall in FM. specialize (FM _ I). cbn [snd] in FM. destruct ws as [|w ws]; [congruence|].
        assert (J : In (j, w) (hier_list m)). { unfold hier_list. apply in_flat_map. eexists. split; [exact I|]. cbn. now left. }
        rewrite EH in J. apply in_map_iff in J. destruct J as (g & E & J). exists g. split; auto. exact (f_equal fst E).
      - intros (g & I & E). assert (J : In (spl n g) (hier_list m)) by (rewrite EH; apply in_map; auto).
        unfold hier_list in J. apply in_flat_map in J. destruct J as ((i & ws) & I2 & J). apply in_map_iff in J. destruct J as (w & E2 & _).
        exists (i, ws). split; auto. cbn [fst] in *. unfold spl in E2. assert (i = j) by (rewrite <- E; exact (f_equal fst E2)). subst i. apply idx_eqb_refl. }
    assert (PL : forall g, In g vs -> placed n s L1 (fst (adr n g))).
    { intros g I. unfold placed. rewrite A3. change (fst (adr n g)) with (block_of n g). destruct (l_get l (block_of n g)) as [b|] eqn:E.
      - exists b. destruct (HB _ _ E) as (? & ? & ? & _). destruct (RB _ _ E) as (_ & ? & _). auto.
      - rewrite (proj2 (KEY (block_of n g))) by eauto. eexists. split; [reflexivity|]. unfold new_block. cbn [b_vps b_size b_origin b_voxels].
        rewrite repeat_length. auto. }
    assert (ND : NoDup (map (adr n) vs)).
    { clear - NV Vn. induction NV as [|g vs I NV IH]; cbn [map]; constructor; auto. intros J. apply in_map_iff in J. destruct J as (h & E & J).
      apply adr_inj in E; [congruence|lia]. }
    destruct (write_all st f n s ST vs L1 ND PL) as (L2 & E2 & S2 & V2 & B2 & G2 & W2 & W2'). rewrite <- EH in E2.
    exists L2. split; [exact EM|]. split. { unfold getAndAllocateSphereAroundPoint. rewrite EM. reflexivity. }
    split; [exact E2|]. fold n s. rewrite EVS.
    assert (R1 : regular L1).
    { constructor; rewrite A2; [eauto|]. intros i b E. rewrite A3 in E. destruct (l_get l i) as [b'|] eqn:E'.
      - injection E as <-. apply (RB _ _ E').
      - destruct (existsb _ m) eqn:X; [|discriminate]. injection E as <-. apply KEY in X. destruct X as (g & I & <-).
        unfold new_block. cbn [b_vps b_voxels]. rewrite repeat_length. repeat split; auto; apply block_bound; auto; rewrite Forall_forall in BV; apply BV; auto. }
    assert (R2 : regular L2).
    { constructor; rewrite V2, A2; [eauto|]. intros i b E. destruct (l_get L1 i) as [b1|] eqn:E1.
      - destruct (G2 i b1 E1) as (b2 & Eb2 & Q1 & Q2 & Q3 & Q4). rewrite E in Eb2. injection Eb2 as <-.
        destruct R1 as [_ RB1]. destruct (RB1 _ _ E1) as (K1 & K2 & K3). rewrite A2 in *. repeat split; try congruence; apply K3.
      - destruct (B2 i) as [(g & I & <-)|X]; [|congruence]. destruct (PL g I) as (b' & X & _). congruence. }
    assert (IX : forall g, In g vs -> exact_index g).
    { intros g I. rewrite Forall_forall in BV. destruct (BV g I) as (X & Y & Z0). repeat split; lia. }
    (* contents right after the allocation *)
    assert (C1 : forall g, (exists h, In h vs /\ block_of n h = block_of n g) ->
      vat (k := KEsdf) L1 (adr n g) = Some (match vat (k := KEsdf) l (adr n g) with Some v => v | None => vdefault KEsdf end)).
    { intros g X. unfold vat. rewrite A3. change (fst (adr n g)) with (block_of n g). pose proof (adr_range n g Vn) as AR.
      destruct (l_get l (block_of n g)) as [b|] eqn:E.
      - destruct (RB _ _ E) as (_ & LB & _). destruct (nth_error (b_voxels b) (snd (adr n g))) eqn:Q; [reflexivity|]. apply nth_error_None in Q. fold n in LB. lia.
      - rewrite (proj2 (KEY (block_of n g)) X). unfold new_block. cbn [b_voxels]. rewrite nth_error_repeat by exact AR. reflexivity. }
    assert (BL2 : built_layer L2).
    { split; [rewrite S2, A1; exact Hs|]. rewrite V2, S2, A2, A1. split; [exact Hn|]. intros i b E.
      destruct R2 as [_ RB2]. destruct (RB2 _ _ E) as (K1 & K2 & _). rewrite V2, A2 in K1, K2.
      assert (GEO : exists b1, l_get L1 i = Some b1 /\ block_geom b1 b).
      { destruct (l_get L1 i) as [b1|] eqn:E1; [exists b1; split; [reflexivity|]; destruct (G2 i b1 E1) as (b2 & Eb2 & Q); congruence|].
        destruct (B2 i) as [(g & I & <-)|X]; [|congruence]. destruct (PL g I) as (b' & X & _). congruence. }
      destruct GEO as (b1 & E1 & Q1 & Q2 & Q3 & Q4). rewrite Q1, Q2, Q3. rewrite A3 in E1. destruct (l_get l i) as [b0|] eqn:E0.
      - injection E1 as <-. destruct (HB _ _ E0) as (H1 & H2 & H3 & H4). rewrite Q4. auto.
      - destruct (existsb _ m); [|discriminate E1]. injection E1 as <-. unfold new_block in *. cbn [b_vps b_size b_origin b_voxels] in *. split; [reflexivity|]. split; [reflexivity|]. split; [reflexivity|].
        rewrite Q4, repeat_length. unfold num_voxels, u64. pose proof (cube_small n ltac:(lia)) as CS. rewrite Z.mod_small by lia. rewrite Z2Nat.id by lia. reflexivity. }
    split; [|split; [split; [exact R2 | exact BL2]|]; split; [exact A2|]; split; [exact EH|]; split; [exact ND|];
      intros g I; split; [apply PL, I|]; split; [rewrite Forall_forall in BV; apply BV, I|]; split; [apply IX, I|]; rewrite (C1 g) by eauto; rewrite (reg_at _ _ RL (IX g I)); reflexivity].
    split; [rewrite S2; exact A1|]. split; [rewrite V2; exact A2|]. fold n. split; [|split].
    - intros i. destruct (B2 i) as [(g & I & E)|E]; [left; exists g; auto|].
      destruct (existsb (fun kv => idx_eqb i (fst kv)) m) eqn:X; [left; apply KEY; exact X|]. right. rewrite E, A3, X. destruct (l_get l i); reflexivity.
    - intros g I. rewrite (reg_at _ _ R2 (IX g I)), (reg_at _ _ RL (IX g I)), V2, A2. fold n. rewrite (W2 g I), C1 by eauto. reflexivity.
    - intros g X N HH. rewrite (reg_at _ _ R2 X), (reg_at _ _ RL X), V2, A2. fold n.
      assert (NI : ~ In (adr n g) (map (adr n) vs)).
      { intros J. apply in_map_iff in J. destruct J as (h & E & J). apply adr_inj in E; [|lia]. subst h. contradiction. }
      rewrite (W2' _ NI), (C1 g HH). reflexivity.
  Qed.
  Lemma sphere_write : exists m L1 L2, getSphereAroundPoint fuel l c r = Ok (Some m) /\
    getAndAllocateSphereAroundPoint fuel l c r = Ok (Some (L1, m)) /\ rfold st (hier_list m) L1 = Ok L2 /\
    sphere_effect l L2 (voxels_of (l_vps l) m) f.
  Proof. destruct sphere_write_full as (m & L1 & L2 & A & B & C & D & _). exists m, L1, L2. auto. Qed.
End sphere.

Lemma placed_voxel : forall n s L g, 0 < n <= 1024 -> placed n s L (fst (adr n g)) ->
  exists bl v, voxel_of L (fst (spl n g)) (snd (spl n g)) = Ok (adr n g, bl) /\ b_size bl = s /\
    b_origin bl = new_block_origin n s (block_of n g) /\ vat (k := KEsdf) L (adr n g) = Some v.
Proof.
  intros n s L g Hn (b & E & V & Sz & O & Len). exists b.
  pose proof (adr_range n g Hn) as AR. rewrite <- Len in AR.
  destruct (nth_error (b_voxels b) (snd (adr n g))) as [v|] eqn:Q; [|apply nth_error_None in Q; lia].
  exists v. split; [|split; [auto|split; [auto|]]].
  - unfold voxel_of. change (fst (spl n g)) with (fst (adr n g)). rewrite E. unfold adr, spl. cbn [fst snd]. rewrite V. reflexivity.
  - unfold vat. rewrite E. exact Q.
Qed.
Lemma fill_step : forall n s c r mx L g, 0 < n <= 1024 -> placed n s L (fst (adr n g)) ->
  exists L2, fill_voxel c r mx L (spl n g) = Ok L2 /\ one_change L L2 (adr n g) (filled (voxel_centre n s g) c r mx).
Proof.
  intros n s c r mx L g Hn P. destruct (placed_voxel n s L g Hn P) as (bl & v & EV & Sz & O & V).
  unfold fill_voxel. rewrite EV. cbn [rbind]. unfold vget. rewrite V. cbn [of_opt rbind]. rewrite Sz, O.
  change (snd (spl n g)) with (map3 (fun c => c mod n) g). fold (voxel_centre n s g).
  set (nd := fmax _ _). destruct (negb (e_observed v) || flt nd (e_distance v))%bool eqn:E.
  - eexists. split; [reflexivity|].
    replace (MkEsdf nd true true (e_in_queue v) true (e_parent v)) with (filled (voxel_centre n s g) c r mx v) by (unfold filled; fold nd; rewrite E; reflexivity).
    change (fst (spl n g)) with (fst (adr n g)). apply change_some; [exact V|]. intros b. auto.
  - exists L. split; [reflexivity|]. apply (change_none _ _ _ v V). unfold filled. fold nd. rewrite E. reflexivity.
Qed.
Lemma clear_step : forall n s c r mx L g, 0 < n <= 1024 -> placed n s L (fst (adr n g)) ->
  exists L2, clear_voxel c r mx L (spl n g) = Ok L2 /\ one_change L L2 (adr n g) (cleared (voxel_centre n s g) c r mx).
Proof.
  intros n s c r mx L g Hn P. destruct (placed_voxel n s L g Hn P) as (bl & v & EV & Sz & O & V).
  unfold clear_voxel, fgt. rewrite EV. cbn [rbind]. unfold vget. rewrite V. cbn [of_opt rbind]. rewrite Sz, O.
  change (snd (spl n g)) with (map3 (fun c => c mod n) g). fold (voxel_centre n s g).
  set (nd := fmin _ _). destruct (negb (e_observed v) || flt (e_distance v) nd)%bool eqn:E.
  - eexists. split; [reflexivity|].
    replace (MkEsdf nd true true (e_in_queue v) true (e_parent v)) with (cleared (voxel_centre n s g) c r mx v) by (unfold cleared; fold nd; rewrite E; reflexivity).
    change (fst (spl n g)) with (fst (adr n g)). apply change_some; [exact V|]. intros b. auto.
  - exists L. split; [reflexivity|]. apply (change_none _ _ _ v V). unfold cleared. fold nd. rewrite E. reflexivity.
Qed.
Theorem fill_spec : forall (l : Layer KEsdf) c r mx fuel, sphere_layer l -> point_in_range (l_size l) c -> radius_in_range (l_size l) r ->
  (2 * (FR r / FR (l_size l)) + 3 < INR fuel)%R ->
  exists m l', getSphereAroundPoint fuel l c r = Ok (Some m) /\ fillSphereAroundPoint fuel c r mx l = Ok (Some l') /\
    sphere_effect l l' (voxels_of (l_vps l) m) (fun g => filled (voxel_centre (l_vps l) (l_size l) g) c r mx).
Proof.
  intros l c r mx fuel SL PC PR HF.
  destruct (sphere_write l SL c r fuel PC PR HF (fill_voxel c r mx) (fun g => filled (voxel_centre (l_vps l) (l_size l) g) c r mx)) as (m & L1 & L2 & E1 & E2 & E3 & E4).
  { intros L g P. apply fill_step; auto. apply reg_vps_small, SL. }
  exists m, L2. split; auto. split; auto. unfold fillSphereAroundPoint. rewrite E2. cbn [rbind]. rewrite E3. reflexivity.
Qed.
Theorem clear_spec : forall (l : Layer KEsdf) c r mx fuel, sphere_layer l -> point_in_range (l_size l) c -> radius_in_range (l_size l) r ->
  (2 * (FR r / FR (l_size l)) + 3 < INR fuel)%R ->
  exists m l', getSphereAroundPoint fuel l c r = Ok (Some m) /\ clearSphereAroundPoint fuel c r mx l = Ok (Some l') /\
    sphere_effect l l' (voxels_of (l_vps l) m) (fun g => cleared (voxel_centre (l_vps l) (l_size l) g) c r mx).
Proof.
  intros l c r mx fuel SL PC PR HF.
  destruct (sphere_write l SL c r fuel PC PR HF (clear_voxel c r mx) (fun g => cleared (voxel_centre (l_vps l) (l_size l) g) c r mx)) as (m & L1 & L2 & E1 & E2 & E3 & E4).
  { intros L g P. apply clear_step; auto. apply reg_vps_small, SL. }
  exists m, L2. split; auto. split; auto. unfold clearSphereAroundPoint. rewrite E2. cbn [rbind]. rewrite E3. reflexivity.
Qed.
