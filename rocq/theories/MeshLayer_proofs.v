(** Proofs about whole mesh layers: incremental meshing and [getMesh]. *)
From Coq Require Import ZArith List Bool Lia.
From Verif Require Import F32 F32_lemmas Types Index Voxel Assoc Assoc_lemmas Layer Ray Marching MeshInt
  Mesh_spec Mesh_proofs MeshInt_proofs Connect_proofs.
Import ListNotations.
Open Scope Z_scope.

(** [getMesh] *)
Section Get.
  Variable hc : bool.
  Definition piece (m : mesh) : Prop :=
    consistent m /\ (if hc then length (m_colors m) = length (m_vertices m) else m_colors m = []).

  Lemma copy_ok : forall q vs ns cs size next out,
    length vs = (3 * q)%nat -> length ns = length vs ->
    (if hc then length cs = length vs else cs = []) ->
    next + Z.of_nat (length vs) <= size ->
    copy_triples hc true true vs ns cs size next out =
    Ok (MkMesh (m_vertices out ++ vs) (m_indices out ++ map (fun i => next + Z.of_nat i) (seq 0 (length vs)))
          (m_normals out ++ ns) (m_colors out ++ cs) (m_origin out) (m_updated out),
        next + Z.of_nat (length vs)).
  Proof.
    induction q as [|q IH]; intros vs ns cs size next out L Ln Lc Ls.
    - destruct vs; [|cbn in L; lia]. destruct ns; [|cbn in Ln; lia].
      assert (cs = []) as -> by (destruct hc; [destruct cs; [reflexivity|discriminate]|exact Lc]).
      cbn. rewrite !app_nil_r, Z.add_0_r. now destruct out.
    - destruct vs as [|v0 [|v1 [|v2 vs]]]; cbn [length] in L; try lia.
      destruct ns as [|n0 [|n1 [|n2 ns]]]; cbn [length] in Ln; try lia.
      cbn [copy_triples]. cbn [length] in Ls. rewrite (proj2 (Z.ltb_lt _ _)) by lia.
      assert (C : exists c3 cs', (if hc then firstn_skipn3 cs else Some ([], cs)) = Some (c3, cs') /\
                  cs = c3 ++ cs' /\ (if hc then length cs' = length vs else cs' = [])).
      { destruct hc.
        - cbn [length] in Lc. destruct cs as [|c0 [|c1 [|c2 cs]]]; cbn [length] in Lc; try lia.
          exists [c0; c1; c2], cs. repeat split. lia.
        - exists [], cs. repeat split. exact Lc. }
      destruct C as [c3 [cs' [-> [-> Lc']]]]. cbn [firstn_skipn3].
      rewrite IH; [|lia|lia|exact Lc'|lia].
      cbn [m_vertices m_indices m_normals m_colors m_origin m_updated]. f_equal. f_equal; [|cbn [length]; lia].
      f_equal; rewrite <- !app_assoc; try reflexivity.
      f_equal. cbn [length seq map app]. rewrite <- !seq_shift, !map_map.
      apply f_equal2; [lia|]. apply f_equal2; [lia|]. apply f_equal2; [lia|]. apply map_ext. intros i. lia.
  Qed.
  Lemma piece_flags : forall m, piece m -> nonempty (m_vertices m) = true ->
    nonempty (m_colors m) = hc /\ nonempty (m_normals m) = true /\ nonempty (m_indices m) = true.
  Proof.
    intros m [[A [B _]] C] N.
    destruct (m_vertices m); [discriminate|]. cbn [length] in *.
    destruct (m_normals m); [discriminate|]. destruct (m_indices m); [discriminate|]. repeat split.
    destruct hc; [destruct (m_colors m); [discriminate|reflexivity]|now rewrite C].
  Qed.
  Definition total (ms : list mesh) : Z := fold_left (fun a m => a + Z.of_nat (length (m_vertices m))) ms 0.
  Lemma total_from : forall ms a,
    fold_left (fun a m => a + Z.of_nat (length (m_vertices m))) ms a = a + Z.of_nat (length (flat_map m_vertices ms)).
  Proof.
    induction ms as [|m ms IH]; intros a; cbn [fold_left flat_map length]; [lia|].
    rewrite IH, app_length. lia.
  Qed.
  Lemma copy_meshes_ok : forall ms size next out, Forall piece ms ->
    next + Z.of_nat (length (flat_map m_vertices ms)) <= size ->
    copy_meshes hc true true ms size next out =
    Ok (MkMesh (m_vertices out ++ flat_map m_vertices ms)
          (m_indices out ++ map (fun i => next + Z.of_nat i) (seq 0 (length (flat_map m_vertices ms))))
          (m_normals out ++ flat_map m_normals ms) (m_colors out ++ flat_map m_colors ms)
          (m_origin out) (m_updated out)).
  Proof.
    induction ms as [|m ms IH]; intros size next out F Ls.
    - cbn. rewrite !app_nil_r. now destruct out.
    - inversion F; subst. cbn [copy_meshes]. cbn [flat_map] in Ls. rewrite app_length in Ls.
      assert (X : negb (nonempty (m_vertices m)) ||
         (eqb hc (nonempty (m_colors m)) && eqb true (nonempty (m_normals m)) &&
          eqb true (nonempty (m_indices m))) = true).
      { destruct (nonempty (m_vertices m)) eqn:N; [|reflexivity]. destruct (piece_flags m H1 N) as [-> [-> ->]].
        now destruct hc. }
      rewrite X. pose proof H1 as [[A [B [[q C] _]]] D].
      rewrite (copy_ok q) by (auto; lia). cbn [rbind fst snd].
      rewrite IH by (auto; lia). cbn [m_vertices m_indices m_normals m_colors m_origin m_updated flat_map].
      f_equal. f_equal; rewrite <- ?app_assoc; try reflexivity.
      f_equal. rewrite app_length, seq_app, map_app. f_equal. cbn [Nat.add].
      generalize (length (flat_map m_vertices ms)) (length (m_vertices m)). intros q' a.
      replace (seq a q') with (seq (a + 0) q') by (now rewrite Nat.add_0_r). generalize 0%nat.
      induction q' as [|q' IHk]; intros s0; [reflexivity|]. cbn [seq map]. apply f_equal2; [lia|].
      rewrite <- Nat.add_succ_r. apply IHk.
  Qed.
  Lemma getMesh_ok : forall mm o u, Forall piece (map snd mm) ->
    getMesh mm (MkMesh [] [] [] [] o u) =
    let ms := map snd mm in
    Ok (MkMesh (flat_map m_vertices ms) (map Z.of_nat (seq 0 (length (flat_map m_vertices ms))))
          (flat_map m_normals ms) (flat_map m_colors ms) o u).
  Proof.
    intros mm o u F. unfold getMesh. set (ms := map snd mm) in *.
    assert (Ln : length (flat_map m_normals ms) = length (flat_map m_vertices ms)).
    { clear -F. induction F as [|m ms [[H _] _] _ IH]; [reflexivity|]. cbn. rewrite !app_length. lia. }
    assert (Lc : if hc then length (flat_map m_colors ms) = length (flat_map m_vertices ms) else flat_map m_colors ms = []).
    { clear -F. induction F as [|m ms [_ H] _ IH]; [now destruct hc|]. cbn. rewrite !app_length.
      destruct hc; [lia|]. now rewrite H, IH. }
    destruct (first_nonempty ms) as [m|] eqn:E.
    - unfold first_nonempty in E. apply find_some in E. destruct E as [Hm N].
      rewrite Forall_forall in F. destruct (piece_flags m (F m Hm) N) as [-> [-> ->]].
      rewrite copy_meshes_ok; [|now apply Forall_forall|rewrite total_from; lia].
      cbn [rbind m_vertices m_normals m_indices m_colors m_origin m_updated app].
      rewrite Ln, Nat.eqb_refl, orb_true_r, map_length, seq_length, Nat.eqb_refl, !andb_true_r.
      assert (negb (nonempty (flat_map m_colors ms)) ||
              Nat.eqb (length (flat_map m_vertices ms)) (length (flat_map m_colors ms)) = true) as ->.
      { destruct hc; [rewrite Lc, Nat.eqb_refl; apply orb_true_r|now rewrite Lc]. }
      f_equal.
    - assert (Z : forall m, In m ms -> m_vertices m = []).
      { intros m Hm. pose proof (find_none _ _ E m Hm) as X. cbn in X. now destruct (m_vertices m). }
      assert (V : flat_map m_vertices ms = []).
      { clear -Z. induction ms as [|m ms IH]; [reflexivity|]. cbn. rewrite (Z m) by now left.
        apply IH. intros x Hx. apply Z. now right. }
      rewrite V in *. cbn [length seq map].
      assert (flat_map m_normals ms = []) as N0 by (destruct (flat_map m_normals ms); [reflexivity|discriminate]).
      assert (flat_map m_colors ms = []) as C0 by (destruct hc; [destruct (flat_map m_colors ms); [reflexivity|discriminate]|exact Lc]).
      rewrite N0, C0. generalize (fold_left (fun a m => a + Z.of_nat (length (m_vertices m))) ms 0). intros size.
      assert (X : copy_meshes false false false ms size 0 (MkMesh [] [] [] [] o u) = Ok (MkMesh [] [] [] [] o u)).
      { clear -Z. induction ms as [|m ms IH]; [reflexivity|]. cbn [copy_meshes]. rewrite (Z m) by now left.
        cbn [nonempty negb orb copy_triples rbind fst snd]. apply IH. intros x Hx. apply Z. now right. }
      rewrite X. reflexivity.
  Qed.
End Get.

(** the mesh a block gets *)
Section Incremental.
  Context {k : vkind}.

  (** two layers that differ at most in their update flags *)
  Definition same_map (l l' : Layer k) : Prop :=
    l_size l' = l_size l /\ l_vps l' = l_vps l /\
    forall i, option_map (set_updated upd_none) (l_get l' i) = option_map (set_updated upd_none) (l_get l i).
  Lemma same_get : forall l l' i, same_map l l' ->
    match l_get l' i, l_get l i with
    | Some b', Some b => b_vps b' = b_vps b /\ b_size b' = b_size b /\ b_origin b' = b_origin b /\ b_voxels b' = b_voxels b
    | None, None => True
    | _, _ => False
    end.
  Proof.
    intros l l' i [_ [_ H]]. specialize (H i). destruct (l_get l' i) as [[]|], (l_get l i) as [[]|]; cbn in *; try discriminate; auto.
    injection H. auto.
  Qed.
  Lemma same_voxel : forall l l' g, same_map l l' -> voxel_at l' g = voxel_at l g.
  Proof.
    intros l l' g H. pose proof H as [_ [V _]]. unfold voxel_at. rewrite V.
    pose proof (same_get l l' (map3 (fun c => c / l_vps l) g) H) as X.
    destruct (l_get l' _), (l_get l _); try tauto. destruct X as [_ [_ [_ ->]]]. reflexivity.
  Qed.
  Lemma same_sdf : forall l l' mw g, same_map l l' -> sdf_at l' mw g = sdf_at l mw g.
  Proof. intros. unfold sdf_at. now rewrite (same_voxel l l') by assumption. Qed.
  Lemma same_points : forall l l' mw i, same_map l l' -> block_points l' mw i = block_points l mw i.
  Proof.
    intros l l' mw i H. pose proof H as [S [V _]]. unfold block_points. pose proof (same_get l l' i H) as X.
    destruct (l_get l' i) as [b'|], (l_get l i) as [b|]; try tauto. destruct X as [X1 [X2 [X3 _]]]. rewrite V.
    apply flat_map_ext. intros v. unfold cube_points, cube_values. rewrite V.
    erewrite map_ext by (intros j; apply (same_sdf l l'); exact H).
    rewrite S, X2, X3. reflexivity.
  Qed.
  Lemma same_wf : forall l l', same_map l l' -> layer_wf l -> layer_wf l'.
  Proof.
    intros l l' H [W1 W2]. pose proof H as [S [V _]]. split; [now rewrite V|]. intros i b' E.
    pose proof (same_get l l' i H) as X. rewrite E in X. destruct (l_get l i) as [b|] eqn:E'; [|tauto].
    destruct X as [-> [-> [-> ->]]]. rewrite V. now apply W2.
  Qed.
  Lemma same_nan : forall l l' mw, same_map l l' -> no_nan_sdf l mw -> no_nan_sdf l' mw.
  Proof. intros l l' mw H N g s E. rewrite (same_sdf l l') in E by exact H. eapply N; exact E. Qed.
  Lemma same_refl : forall l, same_map l l.
  Proof. now repeat split. Qed.
  Lemma same_trans : forall a b c, same_map a b -> same_map b c -> same_map a c.
  Proof.
    intros a b c [A1 [A2 A3]] [B1 [B2 B3]]. split; [congruence|]. split; [congruence|]. intros i. now rewrite B3, A3.
  Qed.

  Definition reset_mesh (b : Block k) : Block k := set_updated (upd_reset (b_updated b) kMesh) b.
  Lemma clear_get : forall (l : Layer k) i j,
    l_get (clear_flag kMesh i l) j = if idx_eqb j i then option_map reset_mesh (l_get l j) else l_get l j.
  Proof.
    intros l i j. unfold clear_flag. destruct (l_get l i) as [b|] eqn:E.
    - unfold l_get, with_blocks. cbn [l_blocks]. rewrite alookup_aset.
      destruct (idx_eqb_spec j i) as [->|]; [|reflexivity]. unfold l_get in E. rewrite E. reflexivity.
    - destruct (idx_eqb_spec j i) as [->|]; [|reflexivity]. now rewrite E.
  Qed.
  Lemma clear_same : forall (l : Layer k) i, same_map l (clear_flag kMesh i l).
  Proof.
    intros l i. split; [|split].
    - unfold clear_flag. now destruct (l_get l i).
    - unfold clear_flag. now destruct (l_get l i).
    - intros j. rewrite clear_get. destruct (idx_eqb j i); [|reflexivity]. now destruct (l_get l j) as [[]|].
  Qed.

  Variable cfg : MeshConfig.

  (** the mesh of block [i] is up to date *)
  Definition fresh (l : Layer k) (i : idx3) (m : mesh) : Prop :=
    m_vertices m = block_points l (mc_min_weight cfg) i /\ consistent m /\ sequential m /\ m_updated m = true /\
    length (m_colors m) = if mc_use_color cfg then length (m_vertices m) else 0%nat.

  Lemma rmap_len : forall A B (f : A -> res B) l r, rmap f l = Ok r -> length r = length l.
  Proof.
    intros A B f l. induction l as [|a l IH]; intros r E; cbn in E.
    - now injection E as <-.
    - apply rbind_ok in E. destruct E as [b [_ E]]. apply rbind_ok in E. destruct E as [bs [E1 E]].
      injection E as <-. cbn. f_equal. now apply IH.
  Qed.
  Lemma update_ok : forall (l : Layer k) i mm mm' b, layer_wf l -> no_nan_sdf l (mc_min_weight cfg) ->
    l_get l i = Some b -> updateMeshForBlock cfg l i mm = Ok mm' ->
    exists m, mm' = aset i m mm /\ fresh l i m.
  Proof.
    intros l i mm mm' b W N Eb E. unfold updateMeshForBlock in E.
    destruct (alookup i mm) as [m0|]; [|discriminate]. rewrite Eb in E.
    destruct (extractBlockMesh_ok l (mc_min_weight cfg) b i W Eb N (m_origin m0) true) as [m [A [B [[C1 C2] [D1 [D2 D3]]]]]].
    change (clear_mesh m0) with (MkMesh [] [] [] [] (m_origin m0) true) in E || idtac.
    unfold clear_mesh in E. apply rbind_ok in E. destruct E as [m1 [E1 E]].
    destruct (extractBlockMesh_ok l (mc_min_weight cfg) b i W Eb N (m_origin m0) (m_updated (clear_mesh m0))) as [m' [A' [B' [[C1' C2'] [D1' [D2' D3']]]]]].
    unfold clear_mesh in A'. cbn [m_updated] in A'. rewrite E1 in A'. injection A' as <-.
    apply rbind_ok in E. destruct E as [m2 [E2 E]]. injection E as <-.
    eexists. split; [reflexivity|].
    assert (G : m_vertices m2 = m_vertices m1 /\ m_indices m2 = m_indices m1 /\ m_normals m2 = m_normals m1 /\
                length (m_colors m2) = if mc_use_color cfg then length (m_vertices m1) else 0%nat).
    { destruct (mc_use_color cfg).
      - unfold updateMeshColor in E2. apply rbind_ok in E2. destruct E2 as [cs [F1 E2]].
        destruct (_ <? _)%nat in E2; [discriminate|]. injection E2 as <-.
        cbn [m_vertices m_indices m_normals m_colors]. repeat split. apply rmap_len in F1.
        rewrite app_length, repeat_length, F1. destruct C1' as [_ [X _]]. rewrite X. lia.
      - injection E2 as <-. rewrite D1'. auto. }
    destruct G as [G1 [G2 [G3 G4]]]. unfold fresh, consistent, sequential in *. cbn [m_vertices m_indices m_normals m_colors m_updated].
    rewrite G1, G2, G3, G4. unfold block_points. rewrite Eb. split; [exact B'|]. auto.
  Qed.
  Lemma update_succeeds : forall (l : Layer k) i mm m0 b, layer_wf l -> no_nan_sdf l (mc_min_weight cfg) ->
    mc_use_color cfg = false -> l_get l i = Some b -> alookup i mm = Some m0 ->
    exists mm', updateMeshForBlock cfg l i mm = Ok mm'.
  Proof.
    intros l i mm m0 b W N U Eb Em. unfold updateMeshForBlock. rewrite Em, Eb, U.
    destruct (extractBlockMesh_ok l (mc_min_weight cfg) b i W Eb N (m_origin m0) (m_updated (clear_mesh m0))) as [m [A _]].
    unfold clear_mesh in *. cbn [m_updated] in A. rewrite A. cbn [rbind]. eauto.
  Qed.

  Lemma mem_spec : forall i is, existsb (idx_eqb i) is = true <-> In i is.
  Proof.
    intros i is. rewrite existsb_exists. split.
    - intros [x [H E]]. destruct (idx_eqb_spec i x) as [->|]; [exact H|discriminate].
    - intros H. exists i. split; [exact H|apply idx_eqb_refl].
  Qed.
  Lemma mesh_blocks_ok : forall clear is (l : Layer k) mm l' mm', layer_wf l -> no_nan_sdf l (mc_min_weight cfg) ->
    Forall (fun i => l_get l i <> None) is ->
    mesh_blocks cfg clear is l mm = Ok (l', mm') ->
    same_map l l' /\
    (forall i, l_get l' i = if clear && existsb (idx_eqb i) is then option_map reset_mesh (l_get l i) else l_get l i) /\
    (forall i, In i is -> exists m, alookup i mm' = Some m /\ fresh l i m) /\
    (forall i, ~ In i is -> alookup i mm' = alookup i mm).
  Proof.
    intros clear is. induction is as [|j is IH]; intros l mm l' mm' W N F E; cbn [mesh_blocks] in E.
    - injection E as <- <-. split; [apply same_refl|]. split; [intros i; now rewrite andb_false_r|]. split; [intros i []|auto].
    - apply rbind_ok in E. destruct E as [mm1 [E1 E]]. inversion F as [|? ? Fj F']; subst.
      destruct (l_get l j) as [b|] eqn:Eb; [|congruence].
      destruct (update_ok l j mm mm1 b W N Eb E1) as [m [-> Fm]].
      set (l1 := if clear then clear_flag kMesh j l else l) in *.
      assert (S : same_map l l1) by (unfold l1; destruct clear; [apply clear_same|apply same_refl]).
      destruct (IH l1 (aset j m mm) l' mm' (same_wf _ _ S W) (same_nan _ _ _ S N)) as [A [B [C D]]]; [|exact E|].
      { eapply Forall_impl; [|exact F']. cbn. intros i Hi X. apply Hi. pose proof (same_get l l1 i S) as Y.
        rewrite X in Y. destruct (l_get l i); [tauto|reflexivity]. }
      split; [eapply same_trans; eauto|]. split; [|split].
      + intros i. rewrite B. unfold l1. destruct clear; [|reflexivity]. cbn [andb]. rewrite clear_get. cbn [existsb].
        destruct (idx_eqb_spec i j) as [->|]; cbn [orb]; [|reflexivity].
        destruct (existsb (idx_eqb j) is); [|reflexivity].
        destruct (l_get l j) as [[? ? ? ? [] ?]|]; reflexivity.
      + assert (T : forall i m', fresh l1 i m' -> fresh l i m').
        { intros i m' [X Y]. split; [|exact Y]. rewrite X. now apply same_points. }
        intros i Hi. destruct (existsb (idx_eqb i) is) eqn:M.
        * apply mem_spec in M. destruct (C i M) as [m' [X Y]]. eauto.
        * assert (NI : ~ In i is) by (rewrite <- mem_spec; congruence).
          destruct Hi as [->|Hi]; [|tauto]. exists m. split; [|exact Fm].
          rewrite (D i NI), alookup_aset, idx_eqb_refl. reflexivity.
      + intros i Hi. rewrite D by (intros X; apply Hi; now right). rewrite alookup_aset.
        destruct (idx_eqb_spec i j) as [->|]; [|reflexivity]. exfalso. apply Hi. now left.
  Qed.
  Lemma mesh_blocks_succeeds : forall clear is (l : Layer k) mm, mc_use_color cfg = false ->
    layer_wf l -> no_nan_sdf l (mc_min_weight cfg) ->
    Forall (fun i => l_get l i <> None) is -> Forall (fun i => alookup i mm <> None) is ->
    exists r, mesh_blocks cfg clear is l mm = Ok r.
  Proof.
    intros clear is. induction is as [|j is IH]; intros l mm U W N F G; cbn [mesh_blocks]; [eauto|].
    inversion F as [|? ? Fj F']; subst. inversion G as [|? ? Gj G']; subst.
    destruct (l_get l j) as [b|] eqn:Eb; [|congruence]. destruct (alookup j mm) as [m0|] eqn:Em; [|congruence].
    destruct (update_succeeds l j mm m0 b W N U Eb Em) as [mm1 E1]. rewrite E1. cbn [rbind].
    destruct (update_ok l j mm mm1 b W N Eb E1) as [m [-> _]].
    set (l1 := if clear then clear_flag kMesh j l else l) in *.
    assert (S : same_map l l1) by (unfold l1; destruct clear; [apply clear_same|apply same_refl]).
    apply IH; auto.
    - eapply same_wf; eauto.
    - eapply same_nan; eauto.
    - eapply Forall_impl; [|exact F']. cbn. intros i Hi X. apply Hi. pose proof (same_get l l1 i S) as Y.
      rewrite X in Y. destruct (l_get l i); [tauto|reflexivity].
    - eapply Forall_impl; [|exact G']. cbn. intros i Hi. rewrite alookup_aset. destruct (idx_eqb i j); [discriminate|exact Hi].
  Qed.

  Lemma alloc_all : forall bs is mm i,
    alookup i (fold_left (fun m i => allocateMesh bs i m) is mm) =
    match alookup i mm with
    | Some m => Some m
    | None => if existsb (idx_eqb i) is then Some (new_mesh (map3 (fun c => fmul (f32_of_Z c) bs) i)) else None
    end.
  Proof.
    intros bs is. induction is as [|j is IH]; intros mm i; cbn [fold_left existsb].
    - now destruct (alookup i mm).
    - rewrite IH. unfold allocateMesh. rewrite alookup_ainsert. destruct (alookup i mm); [reflexivity|].
      destruct (idx_eqb_spec i j) as [->|]; reflexivity.
  Qed.
  Definition selected (only_updated : bool) (l : Layer k) (i : idx3) : bool :=
    match l_get l i with Some b => negb only_updated || upd_get (b_updated b) kMesh | None => false end.
  Lemma chosen : forall (only : bool) (l : Layer k) i, NoDup (akeys (l_blocks l)) ->
    (In i (if only then getAllUpdatedBlocks l kMesh else getAllAllocatedBlocks l) <-> selected only l i = true).
  Proof.
    intros only l i ND. unfold selected, l_get. destruct only; cbn [negb orb].
    - unfold getAllUpdatedBlocks. rewrite in_map_iff. split.
      + intros [[i' b] [X Y]]. cbn in X. subst i'. apply filter_In in Y. destruct Y as [Y Z].
        rewrite (alookup_NoDup _ _ _ ND Y). exact Z.
      + destruct (alookup i (l_blocks l)) as [b|] eqn:E; [|discriminate]. intros H. exists (i, b). split; [reflexivity|].
        apply filter_In. split; [now apply alookup_In|exact H].
    - unfold getAllAllocatedBlocks. fold (akeys (l_blocks l)). rewrite akeys_In.
      destruct (alookup i (l_blocks l)) as [b|]; split; intros H; try discriminate; eauto.
      destruct H; discriminate.
  Qed.

  Lemma generateMesh_ok : forall (only clear : bool) (l : Layer k) mm l' mm', layer_wf l -> NoDup (akeys (l_blocks l)) ->
    no_nan_sdf l (mc_min_weight cfg) -> generateMesh cfg only clear l mm = Ok (l', mm') ->
    (forall i, l_get l' i = if clear && selected only l i then option_map reset_mesh (l_get l i) else l_get l i) /\
    (forall i, selected only l i = true -> exists m, alookup i mm' = Some m /\ fresh l i m) /\
    (forall i, selected only l i = false -> alookup i mm' = alookup i mm) /\
    l_size l' = l_size l /\ l_vps l' = l_vps l.
  Proof.
    intros only clear l mm l' mm' W ND N E. unfold generateMesh in E.
    set (is := if only then getAllUpdatedBlocks l kMesh else getAllAllocatedBlocks l) in *.
    assert (CH : forall i, In i is <-> selected only l i = true) by (intros i; now apply chosen).
    apply mesh_blocks_ok in E; auto.
    2:{ apply Forall_forall. intros i Hi X. apply CH in Hi. unfold selected in Hi. rewrite X in Hi. discriminate. }
    destruct E as [S [A [B C]]].
    assert (M : forall i, existsb (idx_eqb i) is = selected only l i).
    { intros i. destruct (selected only l i) eqn:X; [apply mem_spec; now apply CH|].
      destruct (existsb (idx_eqb i) is) eqn:Y; [|reflexivity]. apply mem_spec in Y. apply CH in Y. congruence. }
    split; [intros i; rewrite A, M; reflexivity|]. split; [intros i Hi; apply B; now apply CH|].
    split; [|split; apply S].
    intros i Hi. rewrite C by (rewrite CH; congruence). rewrite alloc_all, M, Hi. now destruct (alookup i mm).
  Qed.
  Lemma generateMesh_succeeds : forall (only clear : bool) (l : Layer k) mm, mc_use_color cfg = false ->
    layer_wf l -> NoDup (akeys (l_blocks l)) ->
    no_nan_sdf l (mc_min_weight cfg) -> exists r, generateMesh cfg only clear l mm = Ok r.
  Proof.
    intros only clear l mm U W ND N. unfold generateMesh.
    set (is := if only then getAllUpdatedBlocks l kMesh else getAllAllocatedBlocks l) in *.
    assert (CH : forall i, In i is <-> selected only l i = true) by (intros i; now apply chosen).
    apply mesh_blocks_succeeds; auto; apply Forall_forall; intros i Hi.
    - intros X. apply CH in Hi. unfold selected in Hi. rewrite X in Hi. discriminate.
    - rewrite alloc_all, (proj2 (mem_spec i is) Hi). now destruct (alookup i mm).
  Qed.
End Incremental.
