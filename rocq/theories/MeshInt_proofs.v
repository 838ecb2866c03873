(** Proofs about the extraction of block meshes. *)
From Coq Require Import ZArith List Bool Lia FinFun.
From Verif Require Import F32 F32_lemmas Types Index Index_proofs Voxel Serialize Assoc Assoc_lemmas
  Layer Proto_proofs Ray Marching MeshInt Mesh_spec Mesh_proofs.
Import ListNotations.
Open Scope Z_scope.

(** * the order of visits *)
Lemma zrange_In : forall n x, In x (zrange n) <-> 0 <= x < n.
Proof.
  intros n x. unfold zrange. rewrite in_map_iff. split.
  - intros [y [<- H]]. apply in_seq in H. lia.
  - intros H. exists (Z.to_nat x). rewrite in_seq. lia.
Qed.
Lemma zrange_NoDup : forall n, NoDup (zrange n).
Proof.
  intros n. unfold zrange. apply Injective_map_NoDup; [|apply seq_NoDup].
  intros a b. lia.
Qed.
Lemma NoDup_app_disj : forall A (l l' : list A), NoDup l -> NoDup l' ->
  (forall x, In x l -> ~ In x l') -> NoDup (l ++ l').
Proof.
  intros A l l' H1 H2 H. induction l as [|a l IH]; [exact H2|].
  inversion H1; subst. cbn. constructor.
  - rewrite in_app_iff. intros [X|X]; [contradiction|]. eapply H; [left; reflexivity|exact X].
  - apply IH; auto. intros x Hx. apply H. now right.
Qed.
Lemma NoDup_flat_map : forall A B (f : A -> list B) l, NoDup l -> (forall a, In a l -> NoDup (f a)) ->
  (forall a b x, In a l -> In b l -> In x (f a) -> In x (f b) -> a = b) -> NoDup (flat_map f l).
Proof.
  intros A B f l. induction l as [|a l IH]; intros H1 H2 H3; [constructor|].
  inversion H1; subst. cbn. apply NoDup_app_disj.
  - apply H2. now left.
  - apply IH; auto. { intros b Hb. apply H2. now right. }
    intros b c x Hb Hc. apply H3; now right.
  - intros x Hx Hx'. apply in_flat_map in Hx'. destruct Hx' as [b [Hb Hx']].
    assert (a = b) by (eapply H3; [left; reflexivity|right; exact Hb|exact Hx|exact Hx']).
    subst b. contradiction.
Qed.
Lemma grid_NoDup : forall (f : Z -> Z -> idx3) n m, (forall a b a' b', f a b = f a' b' -> a = a' /\ b = b') ->
  NoDup (flat_map (fun a => map (f a) (zrange m)) (zrange n)).
Proof.
  intros f n m Hf. apply NoDup_flat_map; [apply zrange_NoDup| |].
  - intros a _. apply Injective_map_NoDup; [|apply zrange_NoDup].
    intros b b' E. now apply Hf in E.
  - intros a a' x _ _ H H'. apply in_map_iff in H, H'. destruct H as [b [<- _]], H' as [b' [E _]].
    apply Hf in E. now destruct E.
Qed.
Lemma flat_map_map : forall A B C (g : B -> C) (f : A -> list B) l,
  map g (flat_map f l) = flat_map (fun a => map g (f a)) l.
Proof.
  intros A B C g f l. induction l as [|a l IH]; [reflexivity|]. cbn. now rewrite map_app, IH.
Qed.
Lemma flat_map_ext' : forall A B (f g : A -> list B) l, (forall a, f a = g a) -> flat_map f l = flat_map g l.
Proof. intros A B f g l H. induction l as [|a l IH]; [reflexivity|]. cbn. now rewrite H, IH. Qed.

Definition inner (n : Z) : list idx3 :=
  flat_map (fun x => flat_map (fun y => map (fun z => V3 x y z) (zrange (n - 1))) (zrange (n - 1))) (zrange (n - 1)).
Definition planeX (n : Z) : list idx3 :=
  flat_map (fun z => map (fun y => V3 (n - 1) y z) (zrange n)) (zrange n).
Definition planeY (n : Z) : list idx3 :=
  flat_map (fun z => map (fun x => V3 x (n - 1) z) (zrange (n - 1))) (zrange n).
Definition planeZ (n : Z) : list idx3 :=
  flat_map (fun y => map (fun x => V3 x y (n - 1)) (zrange (n - 1))) (zrange (n - 1)).
Lemma visit_split : forall n, visit_order n =
  map (pair false) (inner n) ++ map (pair true) (planeX n ++ planeY n ++ planeZ n).
Proof.
  intros n. unfold visit_order, inner, planeX, planeY, planeZ. rewrite !map_app, !flat_map_map. f_equal.
  - apply flat_map_ext'. intros x. rewrite flat_map_map. apply flat_map_ext'. intros y.
    now rewrite map_map.
  - f_equal; [|f_equal]; apply flat_map_ext'; intros z; now rewrite map_map.
Qed.
Lemma inner_In : forall n i, In i (inner n) <-> 0 <= vx i < n - 1 /\ 0 <= vy i < n - 1 /\ 0 <= vz i < n - 1.
Proof.
  intros n [x y z]. cbn [vx vy vz]. unfold inner. rewrite in_flat_map. split.
  - intros [a [Ha H]]. rewrite in_flat_map in H. destruct H as [b [Hb H]]. rewrite in_map_iff in H.
    destruct H as [c [E Hc]]. injection E as -> -> ->. rewrite zrange_In in *. auto.
  - intros [Hx [Hy Hz]]. exists x. rewrite zrange_In. split; [exact Hx|]. rewrite in_flat_map.
    exists y. rewrite zrange_In. split; [exact Hy|]. rewrite in_map_iff. exists z. rewrite zrange_In. auto.
Qed.
Lemma planeX_In : forall n i, In i (planeX n) <-> vx i = n - 1 /\ 0 <= vy i < n /\ 0 <= vz i < n.
Proof.
  intros n [x y z]. cbn [vx vy vz]. unfold planeX. rewrite in_flat_map. split.
  - intros [a [Ha H]]. rewrite in_map_iff in H.
    destruct H as [c [E Hc]]. injection E as <- -> ->. rewrite zrange_In in *. auto.
  - intros [-> [Hy Hz]]. exists z. rewrite zrange_In. split; [exact Hz|]. rewrite in_map_iff. exists y.
    rewrite zrange_In. auto.
Qed.
Lemma planeY_In : forall n i, In i (planeY n) <-> 0 <= vx i < n - 1 /\ vy i = n - 1 /\ 0 <= vz i < n.
Proof.
  intros n [x y z]. cbn [vx vy vz]. unfold planeY. rewrite in_flat_map. split.
  - intros [a [Ha H]]. rewrite in_map_iff in H.
    destruct H as [c [E Hc]]. injection E as -> <- ->. rewrite zrange_In in *. auto.
  - intros [Hx [-> Hz]]. exists z. rewrite zrange_In. split; [exact Hz|]. rewrite in_map_iff. exists x.
    rewrite zrange_In. auto.
Qed.
Lemma planeZ_In : forall n i, In i (planeZ n) <-> 0 <= vx i < n - 1 /\ 0 <= vy i < n - 1 /\ vz i = n - 1.
Proof.
  intros n [x y z]. cbn [vx vy vz]. unfold planeZ. rewrite in_flat_map. split.
  - intros [a [Ha H]]. rewrite in_map_iff in H.
    destruct H as [c [E Hc]]. injection E as -> -> <-. rewrite zrange_In in *. auto.
  - intros [Hx [Hy ->]]. exists y. rewrite zrange_In. split; [exact Hy|]. rewrite in_map_iff. exists x.
    rewrite zrange_In. auto.
Qed.
Lemma visit_cells : forall n, map snd (visit_order n) = inner n ++ planeX n ++ planeY n ++ planeZ n.
Proof.
  intros n. rewrite visit_split, map_app, !map_map. cbn [snd]. now rewrite !map_id.
Qed.
Lemma visit_NoDup : forall n, NoDup (map snd (visit_order n)).
Proof.
  intros n. rewrite visit_cells.
  repeat apply NoDup_app_disj.
  - unfold inner. apply NoDup_flat_map; [apply zrange_NoDup| |].
    + intros x _. apply grid_NoDup. intros a b a' b' E. injection E; auto.
    + intros a b x _ _ H H'. rewrite in_flat_map in H, H'. destruct H as [y [_ H]], H' as [y' [_ H']].
      rewrite in_map_iff in H, H'. destruct H as [z [<- _]], H' as [z' [E _]]. injection E; auto.
  - apply grid_NoDup. intros a b a' b' E. injection E; auto.
  - apply grid_NoDup. intros a b a' b' E. injection E; auto.
  - apply grid_NoDup. intros a b a' b' E. injection E; auto.
  - intros x. rewrite planeY_In, planeZ_In. lia.
  - intros x. rewrite in_app_iff, planeX_In, planeY_In, planeZ_In. lia.
  - intros x. rewrite !in_app_iff, inner_In, planeX_In, planeY_In, planeZ_In. lia.
Qed.
Lemma visit_In : forall n i, In i (map snd (visit_order n)) <->
  0 <= vx i < n /\ 0 <= vy i < n /\ 0 <= vz i < n.
Proof.
  intros n i. rewrite visit_cells, !in_app_iff, inner_In, planeX_In, planeY_In, planeZ_In. lia.
Qed.
Lemma visit_border : forall n bo i, In (bo, i) (visit_order n) ->
  (0 <= vx i < n /\ 0 <= vy i < n /\ 0 <= vz i < n) /\
  (bo = false -> vx i + 1 < n /\ vy i + 1 < n /\ vz i + 1 < n).
Proof.
  intros n bo i H. split.
  - apply visit_In. rewrite in_map_iff. exists (bo, i). auto.
  - intros ->. rewrite visit_split, in_app_iff in H. destruct H as [H|H]; rewrite in_map_iff in H;
      destruct H as [j [E H]]; [|discriminate E]. injection E as ->. apply inner_In in H. lia.
Qed.

(** * corners *)
Section Corners.
  Context {k : vkind}.
  Variables (l : Layer k) (mw : f32) (b : Block k) (bi : idx3).
  Hypothesis WF : layer_wf l.
  Hypothesis Hb : l_get l bi = Some b.
  Let n := l_vps l.

  Lemma n_range : 0 < n <= 1024. Proof. apply WF. Qed.
  Lemma offset_01 : forall i, 0 <= vx (corner_offset i) <= 1 /\ 0 <= vy (corner_offset i) <= 1 /\
    0 <= vz (corner_offset i) <= 1.
  Proof.
    intros i. unfold corner_offset.
    do 8 (destruct i as [|i]; [cbn; lia|]). destruct i; cbn; lia.
  Qed.
  Lemma lin_ok : forall c : idx3, 0 <= vx c < n -> 0 <= vy c < n -> 0 <= vz c < n ->
    computeLinearIndexFromVoxelIndex n c = vx c + n * (vy c + n * vz c) /\
    0 <= vx c + n * (vy c + n * vz c) < n * n * n.
  Proof.
    intros [x y z]. cbn [vx vy vz]. intros Hx Hy Hz. pose proof n_range as N.
    assert (A : 0 <= y + n * z < n * n) by nia.
    assert (B : 0 <= x + n * (y + n * z) < n * n * n) by nia.
    split; [|exact B]. unfold computeLinearIndexFromVoxelIndex. cbn [vx vy vz].
    replace (z * n) with (n * z) by ring. unfold u64. apply Z.mod_small.
    assert (n * n * n <= 1024 * 1024 * 1024) by nia. lia.
  Qed.
  Lemma read_voxel : forall j bj c, l_get l j = Some bj -> 0 <= vx c < n -> 0 <= vy c < n -> 0 <= vz c < n ->
    exists v, getVoxelByVoxelIndex bj c = Ok v /\
      nth_error (b_voxels bj) (Z.to_nat (vx c + n * (vy c + n * vz c))) = Some v.
  Proof.
    intros j bj c Hj Hx Hy Hz. destruct WF as [_ W]. destruct (W j bj Hj) as [Ev [El _]].
    destruct (lin_ok c Hx Hy Hz) as [E R]. unfold getVoxelByVoxelIndex. rewrite Ev. fold n.
    rewrite E. destruct (nth_error (b_voxels bj) (Z.to_nat (vx c + n * (vy c + n * vz c)))) eqn:N.
    - exists v. auto.
    - apply nth_error_None in N. fold n in El. lia.
  Qed.
  Lemma valid_iff : forall c : idx3, isValidVoxelIndex n c = true <->
    (0 <= vx c < n /\ 0 <= vy c < n /\ 0 <= vz c < n).
  Proof.
    intros [x y z]. pose proof n_range as N. unfold isValidVoxelIndex. cbn [vx vy vz].
    rewrite wrap32_id by lia.
    rewrite !andb_true_iff, !negb_true_iff, !orb_false_iff, !Z.ltb_ge, !Z.leb_gt. lia.
  Qed.
  Lemma voxel_at_global : forall q c v bq, l_get l q = Some bq ->
    0 <= vx c < n -> 0 <= vy c < n -> 0 <= vz c < n ->
    nth_error (b_voxels bq) (Z.to_nat (vx c + n * (vy c + n * vz c))) = Some v ->
    voxel_at l (global_of n q c) = Some v.
  Proof.
    intros [q1 q2 q3] [x y z] v bq Hq. cbn [vx vy vz]. intros Hx Hy Hz E. pose proof n_range as N.
    unfold voxel_at, global_of, zip3, map3. cbn [vx vy vz]. fold n.
    rewrite !Z.div_add_l, !Z.div_small, !Z.add_0_r by lia. rewrite Hq.
    rewrite !(Z.add_comm (_ * n)), !Z.mod_add, !Z.mod_small by lia. exact E.
  Qed.
  Lemma voxel_at_none : forall q c, l_get l q = None ->
    0 <= vx c < n -> 0 <= vy c < n -> 0 <= vz c < n -> voxel_at l (global_of n q c) = None.
  Proof.
    intros [q1 q2 q3] [x y z] Hq. cbn [vx vy vz]. intros Hx Hy Hz. pose proof n_range as N.
    unfold voxel_at, global_of, zip3, map3. cbn [vx vy vz]. fold n.
    rewrite !Z.div_add_l, !Z.div_small, !Z.add_0_r by lia. now rewrite Hq.
  Qed.
  Lemma corner_global : forall v i, corner (global_of n bi v) i = global_of n bi (idx_add v (corner_offset i)).
  Proof.
    intros [x y z] i. unfold corner, global_of, idx_add, zip3. cbn [vx vy vz]. f_equal; lia.
  Qed.
  Lemma inside_corner_ok : forall v i,
    0 <= vx v -> 0 <= vy v -> 0 <= vz v -> vx v + 1 < n -> vy v + 1 < n -> vz v + 1 < n ->
    inside_corner mw b v i = Ok (sdf_at l mw (corner (global_of n bi v) i)).
  Proof.
    intros v i H1 H2 H3 H4 H5 H6. rewrite corner_global. unfold inside_corner.
    set (c := idx_add v (corner_offset i)). pose proof (offset_01 i) as O.
    assert (C : 0 <= vx c < n /\ 0 <= vy c < n /\ 0 <= vz c < n).
    { unfold c, idx_add, zip3. cbn [vx vy vz]. lia. }
    destruct (read_voxel bi b c Hb) as [x [E1 E2]]; try tauto.
    rewrite E1. cbn [rbind]. unfold sdf_at. rewrite (voxel_at_global bi c x b Hb) by tauto. reflexivity.
  Qed.
  Lemma wrap_axis_ok : forall c, 0 <= c <= n -> wrap_axis n c = (c mod n, c / n).
  Proof.
    intros c Hc. pose proof n_range as N. unfold wrap_axis.
    rewrite (proj2 (Z.ltb_ge c 0)) by lia. rewrite (wrap32_id n) by lia.
    destruct (Z.leb_spec n c) as [H|H].
    - assert (c = n) as -> by lia. rewrite Z.sub_diag, Z.mod_same, Z.div_same by lia. reflexivity.
    - rewrite Z.mod_small, Z.div_small by lia. reflexivity.
  Qed.
  Lemma border_corner_ok : forall v i, 0 <= vx v < n -> 0 <= vy v < n -> 0 <= vz v < n ->
    border_corner l mw b v i = Ok (sdf_at l mw (corner (global_of n bi v) i)).
  Proof.
    intros v i H1 H2 H3. rewrite corner_global. unfold border_corner.
    set (c := idx_add v (corner_offset i)). pose proof (offset_01 i) as O. pose proof n_range as N.
    assert (C : 0 <= vx c <= n /\ 0 <= vy c <= n /\ 0 <= vz c <= n).
    { unfold c, idx_add, zip3. cbn [vx vy vz]. lia. }
    destruct WF as [_ W]. destruct (W bi b Hb) as [Ev [El Ei]]. rewrite Ev. fold n.
    destruct (isValidVoxelIndex n c) eqn:V.
    - apply valid_iff in V. destruct (read_voxel bi b c Hb) as [x [E1 E2]]; try tauto.
      rewrite E1. cbn [rbind]. unfold sdf_at. rewrite (voxel_at_global bi c x b Hb) by tauto. reflexivity.
    - rewrite Ev in Ei. fold n in Ei. rewrite Ei. cbn [of_opt rbind].
      assert (W1 : map3 fst (map3 (wrap_axis n) c) = map3 (fun x => x mod n) c).
      { unfold map3. cbn [vx vy vz]. rewrite !wrap_axis_ok by tauto. reflexivity. }
      assert (W2 : map3 snd (map3 (wrap_axis n) c) = map3 (fun x => x / n) c).
      { unfold map3. cbn [vx vy vz]. rewrite !wrap_axis_ok by tauto. reflexivity. }
      rewrite W1, W2.
      assert (M : 0 <= vx (map3 (fun x => x mod n) c) < n /\ 0 <= vy (map3 (fun x => x mod n) c) < n /\
                  0 <= vz (map3 (fun x => x mod n) c) < n).
      { unfold map3. cbn [vx vy vz]. repeat split; apply Z.mod_pos_bound; lia. }
      assert (G : global_of n bi c = global_of n (idx_add bi (map3 (fun x => x / n) c)) (map3 (fun x => x mod n) c)).
      { unfold global_of, idx_add, map3, zip3. cbn [vx vy vz].
        f_equal; rewrite Z.mul_add_distr_r, <- Z.add_assoc; f_equal; rewrite Z.mul_comm; apply Z.div_mod; lia. }
      rewrite G. destruct (l_get l (idx_add bi (map3 (fun x => x / n) c))) as [nb|] eqn:Enb.
      + destruct (W _ nb Enb) as [Ev' _]. rewrite Ev'. fold n.
        rewrite (proj2 (valid_iff _)) by tauto.
        destruct (read_voxel _ nb (map3 (fun x => x mod n) c) Enb) as [x [E1 E2]]; try tauto.
        rewrite E1. cbn [rbind]. unfold sdf_at.
        rewrite (voxel_at_global _ _ x nb Enb) by tauto. reflexivity.
      + unfold sdf_at. rewrite voxel_at_none by tauto. reflexivity.
  Qed.

  Lemma read_corners_ok : forall read (vals : nat -> option f32) is,
    (forall i, In i is -> read i = Ok (vals i)) -> read_corners read is = Ok (collect (map vals is)).
  Proof.
    intros read vals is. induction is as [|i is IH]; intros H; [reflexivity|].
    cbn [read_corners map collect]. rewrite (H i) by (now left). cbn [rbind].
    destruct (vals i) as [s|]; [|reflexivity]. rewrite IH by (intros j Hj; apply H; now right).
    cbn [rbind]. destruct (collect (map vals is)); reflexivity.
  Qed.
  Lemma cube_read : forall bo v, In (bo, v) (visit_order n) ->
    read_corners (if bo then border_corner l mw b v else inside_corner mw b v) eight
    = Ok (cube_values l mw bi v).
  Proof.
    intros bo v H. apply visit_border in H. destruct H as [R I].
    unfold cube_values. apply read_corners_ok. intros i _. destruct bo.
    - now apply border_corner_ok.
    - specialize (I eq_refl). apply inside_corner_ok; lia.
  Qed.
  Lemma collect_len : forall A (os : list (option A)) r, collect os = Some r -> length r = length os.
  Proof.
    intros A os. induction os as [|[a|] os IH]; intros r E; cbn in E; try discriminate.
    - now injection E as <-.
    - destruct (collect os) eqn:F; [|discriminate]. injection E as <-. cbn. f_equal. now apply IH.
  Qed.
  Lemma collect_nth : forall A (os : list (option A)) r i d, collect os = Some r -> (i < length r)%nat ->
    nth_error os i = Some (Some (nth i r d)).
  Proof.
    intros A os. induction os as [|[a|] os IH]; intros r i d E Hi; cbn in E; try discriminate.
    - injection E as <-. cbn in Hi. lia.
    - destruct (collect os) as [r'|] eqn:F; [|discriminate]. injection E as <-. cbn in Hi.
      destruct i as [|i]; [reflexivity|]. cbn. apply IH; [reflexivity|lia].
  Qed.
  Hypothesis NN : no_nan_sdf l mw.
  Lemma values_nan : forall v ss, cube_values l mw bi v = Some ss ->
    forall i, (i < 8)%nat -> fnan (nth_sdf ss i) = false.
  Proof.
    intros v ss E i Hi. unfold cube_values in E. pose proof (collect_len _ _ _ E) as L.
    rewrite map_length in L. pose proof (collect_nth _ _ _ i f0 E) as X.
    rewrite L in X. specialize (X Hi). fold (nth_sdf ss i) in X.
    apply nth_error_In in X. apply in_map_iff in X. destruct X as [j [X _]]. eapply NN; exact X.
  Qed.
  Definition good m := consistent m /\ sequential m.
  Lemma meshCube_good : forall x s m m' n', (forall i, (i < 8)%nat -> fnan (s i) = false) ->
    good m -> meshCube x s (Z.of_nat (length (m_vertices m))) m = Ok (m', n') -> good m'.
  Proof.
    intros x s m m' n' Hs [Hc Hq] E. split; [eapply meshCube_consistent; eauto|].
    destruct (meshCube_ok x s m Hs) as [m1 [A [B [_ [_ [_ [_ G]]]]]]].
    rewrite E in A. injection A as -> ->. unfold sequential in *.
    now rewrite G, B, Hq, app_length, seq_app, map_app.
  Qed.
  Lemma extract_cube_ok : forall bo v m, In (bo, v) (visit_order n) -> good m ->
    exists m', extract_cube l mw b bo v (m, Z.of_nat (length (m_vertices m)))
                 = Ok (m', Z.of_nat (length (m_vertices m'))) /\
      m_vertices m' = m_vertices m ++ cube_points l mw b bi v /\ good m' /\
      m_colors m' = m_colors m /\ m_origin m' = m_origin m /\ m_updated m' = m_updated m.
  Proof.
    intros bo v m H Hc. unfold extract_cube. rewrite cube_read by exact H. cbn [rbind].
    unfold cube_points. destruct (cube_values l mw bi v) as [ss|] eqn:E.
    - cbn [fst snd]. pose proof (values_nan v ss E) as Hn.
      destruct (meshCube_ok (corner_coords (l_size l) (computeCoordinatesFromVoxelIndex (b_origin b) (b_size b) v))
                  (nth_sdf ss) m Hn) as [m' [A [B [C1 [C2 [C3 _]]]]]].
      exists m'. split; [exact A|]. split; [exact B|].
      split; [eapply meshCube_good; eauto|]. auto.
    - exists m. rewrite app_nil_r. repeat split; apply Hc || reflexivity.
  Qed.
  Lemma extract_cubes_ok : forall vis m, (forall x, In x vis -> In x (visit_order n)) -> good m ->
    exists m', extract_cubes l mw b vis (m, Z.of_nat (length (m_vertices m)))
                 = Ok (m', Z.of_nat (length (m_vertices m'))) /\
      m_vertices m' = m_vertices m ++ flat_map (cube_points l mw b bi) (map snd vis) /\ good m' /\
      m_colors m' = m_colors m /\ m_origin m' = m_origin m /\ m_updated m' = m_updated m.
  Proof.
    intros vis. induction vis as [|[bo v] vis IH]; intros m H Hc.
    - exists m. cbn. rewrite app_nil_r. repeat split; apply Hc || reflexivity.
    - destruct (extract_cube_ok bo v m (H _ (or_introl eq_refl)) Hc) as [m1 [A [B [C [D1 [D2 D3]]]]]].
      destruct (IH m1 (fun x Hx => H x (or_intror Hx)) C) as [m2 [A' [B' [C' [E1 [E2 E3]]]]]].
      exists m2. cbn [extract_cubes]. rewrite A. cbn [rbind]. split; [exact A'|]. split.
      + rewrite B', B. cbn [map snd flat_map]. now rewrite <- app_assoc.
      + split; [exact C'|]. rewrite E1, E2, E3. auto.
  Qed.
  Lemma empty_consistent : forall o u, good (MkMesh [] [] [] [] o u).
  Proof. intros o u. unfold good, sequential, consistent. cbn. repeat split; auto. now exists 0%nat. Qed.
  Lemma extractBlockMesh_ok : forall o u, exists m,
    extractBlockMesh l mw b (MkMesh [] [] [] [] o u) = Ok m /\
    m_vertices m = flat_map (cube_points l mw b bi) (map snd (visit_order n)) /\ good m /\
    m_colors m = [] /\ m_origin m = o /\ m_updated m = u.
  Proof.
    intros o u. unfold extractBlockMesh. destruct WF as [_ W]. destruct (W bi b Hb) as [Ev _].
    rewrite Ev. pose proof n_range as N. unfold n in N. rewrite wrap32_id by lia. fold n.
    destruct (extract_cubes_ok (visit_order n) (MkMesh [] [] [] [] o u) (fun x H => H) (empty_consistent o u))
      as [m [A [B [C [D1 [D2 D3]]]]]].
    cbn [m_vertices length Z.of_nat] in A. rewrite A. exists m. cbn [rbind fst]. cbn in B.
    split; [reflexivity|]. split; [exact B|]. split; [exact C|]. auto.
  Qed.
End Corners.

Lemma concat_consistent : forall a b m, consistent a -> consistent b -> concatenateMesh a b = Ok m -> consistent m.
Proof.
  intros a b m Ha Hb E. unfold concatenateMesh in E.
  destruct (_ && _) in E; [|discriminate]. injection E as <-.
  destruct Ha as [A1 [A2 [[x A3] A4]]], Hb as [B1 [B2 [[y B3] B4]]].
  unfold consistent. cbn [m_vertices m_normals m_indices]. rewrite !app_length, map_length.
  split; [lia|]. split; [lia|]. split; [exists (x + y)%nat; lia|].
  apply Forall_app. split.
  - eapply Forall_impl; [|exact A4]. cbn. lia.
  - apply Forall_forall. intros i Hi. apply in_map_iff in Hi. destruct Hi as [j [<- Hj]].
    rewrite Forall_forall in B4. specialize (B4 j Hj). cbn in B4. lia.
Qed.
Lemma concat_result : forall a b m, concatenateMesh a b = Ok m ->
  m_vertices m = m_vertices a ++ m_vertices b /\ m_normals m = m_normals a ++ m_normals b /\
  m_colors m = m_colors a ++ m_colors b.
Proof.
  intros a b m E. unfold concatenateMesh in E.
  destruct (_ && _) in E; [|discriminate]. injection E as <-. auto.
Qed.
