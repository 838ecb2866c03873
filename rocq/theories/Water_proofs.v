(** The triangles placed in neighbouring cubes fit together. *)
From Coq Require Import ZArith List Bool Lia FinFun.
From Verif Require Import F32 F32_lemmas Types Index Voxel Layer Ray Marching MeshInt Mesh_spec Mesh_proofs.
Import ListNotations.
Open Scope Z_scope.

Definition ge_eqb (a b : grid_edge) : bool := idx_eqb (fst a) (fst b) && idx_eqb (snd a) (snd b).
Definition side := (grid_edge * grid_edge)%type.
Definition side_eqb (a b : side) : bool := ge_eqb (fst a) (fst b) && ge_eqb (snd a) (snd b).
Lemma idx_eqb_eq : forall a b : idx3, idx_eqb a b = true <-> a = b.
Proof.
  intros [a1 a2 a3] [b1 b2 b3]. unfold idx_eqb. cbn [vx vy vz].
  rewrite !andb_true_iff, !Z.eqb_eq. split; [intros [[-> ->] ->]; reflexivity|].
  intros E; injection E; auto.
Qed.
Lemma ge_eqb_eq : forall a b, ge_eqb a b = true <-> a = b.
Proof.
  intros [a1 a2] [b1 b2]. unfold ge_eqb. cbn [fst snd]. rewrite andb_true_iff, !idx_eqb_eq.
  split; [intros [-> ->]; reflexivity|intros E; injection E; auto].
Qed.
Lemma side_eqb_eq : forall a b, side_eqb a b = true <-> a = b.
Proof.
  intros [a1 a2] [b1 b2]. unfold side_eqb. cbn [fst snd]. rewrite andb_true_iff, !ge_eqb_eq.
  split; [intros [-> ->]; reflexivity|intros E; injection E; auto].
Qed.
Definition mem (x : side) (l : list side) : bool := existsb (side_eqb x) l.
Lemma mem_In : forall x l, mem x l = true <-> In x l.
Proof.
  intros x l. unfold mem. rewrite existsb_exists. split.
  - intros [y [H E]]. apply side_eqb_eq in E. now subst.
  - intros H. exists x. split; [exact H|]. now apply side_eqb_eq.
Qed.
Fixpoint nodup_b (l : list side) : bool :=
  match l with [] => true | x :: l' => negb (mem x l') && nodup_b l' end.
Lemma nodup_b_ok : forall l, nodup_b l = true -> NoDup l.
Proof.
  induction l as [|x l IH]; cbn [nodup_b]; intros H; constructor;
    apply andb_true_iff in H; destruct H as [H1 H2]; [|auto].
  intros Hin. apply mem_In in Hin. rewrite Hin in H1. discriminate.
Qed.

(** sides of a pattern placed at [c] *)
Definition psides (c : idx3) (p : Z) : list side := flat_map (triangle_sides c) (tris p).
Lemma sides_pat : forall f c,
  sides f c = psides c (calculateVertexConfiguration (cube_sdf f c)).
Proof. reflexivity. Qed.

(** moving a cube moves its edges *)
Definition shift (c : idx3) (e : grid_edge) : grid_edge := (idx_add c (fst e), idx_add c (snd e)).
Definition shift_side (c : idx3) (x : side) : side := (shift c (fst x), shift c (snd x)).
Lemma edge_shift : forall c d e, edge_at (idx_add c d) e = shift c (edge_at d e).
Proof.
  intros [c1 c2 c3] [d1 d2 d3] e. unfold edge_at, shift, corner, idx_add, zip3. cbn [fst snd vx vy vz].
  f_equal; f_equal; lia.
Qed.
Lemma psides_shift : forall c d p, psides (idx_add c d) p = map (shift_side c) (psides d p).
Proof.
  intros c d p. unfold psides. induction (tris p) as [|[[a b] e] ts IH]; [reflexivity|].
  cbn [flat_map triangle_sides app map]. rewrite IH, !edge_shift. reflexivity.
Qed.
Lemma shift_inj : forall c a b, shift c a = shift c b -> a = b.
Proof.
  intros [c1 c2 c3] [[a1 a2 a3] [a4 a5 a6]] [[b1 b2 b3] [b4 b5 b6]] E.
  unfold shift, idx_add, zip3 in E. cbn [fst snd vx vy vz] in E. injection E as H1 H2 H3 H4 H5 H6.
  f_equal; f_equal; lia.
Qed.
Lemma shift_side_inj : forall c a b, shift_side c a = shift_side c b -> a = b.
Proof.
  intros c [a1 a2] [b1 b2] E. pose proof (f_equal fst E) as H1. pose proof (f_equal snd E) as H2.
  cbn [shift_side fst snd] in H1, H2. apply shift_inj in H1, H2. now subst.
Qed.
Lemma idx_add_0 : forall c, idx_add c (V3 0 0 0) = c.
Proof. intros [a b c]. unfold idx_add, zip3. cbn [vx vy vz]. f_equal; lia. Qed.
Lemma idx_add_sub : forall c c', idx_add c (idx_sub c' c) = c'.
Proof. intros [a b c] [a' b' c']. unfold idx_add, idx_sub, zip3. cbn [vx vy vz]. f_equal; lia. Qed.
Lemma in_psides_shift : forall c d p x,
  In (shift_side c x) (psides (idx_add c d) p) <-> In x (psides d p).
Proof.
  intros c d p x. rewrite psides_shift, in_map_iff. split.
  - intros [y [E H]]. apply shift_side_inj in E. now subst.
  - intros H. exists x. auto.
Qed.

(** the 27 cubes around a cube *)
Definition m101 : list Z := [-1; 0; 1].
Definition around : list idx3 :=
  flat_map (fun x => flat_map (fun y => map (fun z => V3 x y z) m101) m101) m101.
Definition origin0 : idx3 := V3 0 0 0.
Lemma around_In : forall d : idx3, -1 <= vx d <= 1 -> -1 <= vy d <= 1 -> -1 <= vz d <= 1 -> In d around.
Proof.
  intros [x y z]. cbn [vx vy vz]. intros H1 H2 H3. unfold around.
  assert (M : forall w, -1 <= w <= 1 -> In w m101) by (intros w Hw; cbn; lia).
  apply in_flat_map. exists x. split; [now apply M|]. apply in_flat_map. exists y.
  split; [now apply M|]. apply in_map_iff. exists z. split; [reflexivity|now apply M].
Qed.
Definition has_edge (d : idx3) (u : grid_edge) : bool :=
  existsb (fun e => ge_eqb u (edge_at d e)) (seq 0 12).
(** corners shared with the cube at [d] *)
Definition shared (d : idx3) : list (nat * nat) :=
  filter (fun ij => idx_eqb (corner origin0 (fst ij)) (corner d (snd ij)))
    (list_prod (seq 0 8) (seq 0 8)).
Definition compat_in (sh : list (nat * nat)) (p q : Z) : bool :=
  forallb (fun ij => eqb (inside_b p (fst ij)) (inside_b q (snd ij))) sh.
(** cubes around the origin cube that contain both edges of a side *)
Definition holders (x : side) : list idx3 :=
  filter (fun d => has_edge d (fst x) && has_edge d (snd x)) around.
Definition flip (x : side) : side := (snd x, fst x).
(** sides between each pair of cube edges: at most one other cube contains both *)
Definition side_ok (p : Z) (x : side) : bool :=
  negb (ge_eqb (fst x) (snd x)) &&
  match filter (fun d => negb (idx_eqb d origin0)) (holders x) with
  | [] => mem (flip x) (psides origin0 p)
  | [d] => negb (mem (flip x) (psides origin0 p))
  | _ => false
  end.
Definition pattern_ok (p : Z) : bool :=
  nodup_b (psides origin0 p) && forallb (side_ok p) (psides origin0 p).
Lemma patterns_ok : forallb pattern_ok pats = true.
Proof. vm_cast_no_check (eq_refl true). Qed.

(** faces: sides lying on the face shared with [d] appear there reversed *)
Definition dirs : list idx3 :=
  [V3 1 0 0; V3 (-1) 0 0; V3 0 1 0; V3 0 (-1) 0; V3 0 0 1; V3 0 0 (-1)].
Definition on_face (d : idx3) (x : side) : bool := has_edge d (fst x) && has_edge d (snd x).
Definition face_ok (d : idx3) (p : Z) : bool :=
  let xs := filter (on_face d) (psides origin0 p) in
  let sh := shared d in
  forallb (fun q => if compat_in sh p q then
    (let ys := psides d q in
     forallb (fun x => mem (flip x) ys && negb (mem x ys)) xs) else true) pats.
Lemma faces_ok : forallb (fun d => forallb (face_ok d) pats) dirs = true.
Proof. vm_cast_no_check (eq_refl true). Qed.
(** two different cubes that share two different edges share a face *)
Definition other_ok (d : idx3) : bool :=
  idx_eqb d origin0 || existsb (idx_eqb d) dirs ||
  forallb (fun e => forallb (fun e' => negb (has_edge d (edge_at origin0 e)
                                             && has_edge d (edge_at origin0 e')
                                             && negb (Nat.eqb e e'))) (seq 0 12)) (seq 0 12).
Lemma others_ok : forallb other_ok around = true.
Proof. vm_cast_no_check (eq_refl true). Qed.

Lemma has_edge_iff : forall d u, has_edge d u = true <-> exists e, (e < 12)%nat /\ u = edge_at d e.
Proof.
  intros d u. unfold has_edge. rewrite existsb_exists. split.
  - intros [e [H E]]. apply ge_eqb_eq in E. apply in_seq in H. exists e. split; [lia|exact E].
  - intros [e [H E]]. exists e. split; [apply in_seq; lia|now apply ge_eqb_eq].
Qed.

Lemma tris_small : forall p t e, 0 <= p < 256 -> In t (tris p) -> In e (triangle_edges t) -> (e < 12)%nat.
Proof.
  intros p t e Hp Ht He. pose proof table_checked as H. rewrite forallb_forall in H.
  specialize (H p (pats_In p Hp)). unfold table_check in H. rewrite !andb_true_iff in H.
  destruct H as [[_ H] _]. rewrite forallb_forall in H. specialize (H t Ht).
  rewrite forallb_forall in H. specialize (H e He). apply andb_true_iff in H.
  now apply Nat.ltb_lt.
Qed.
Lemma psides_edges : forall d p x, 0 <= p < 256 -> In x (psides d p) ->
  has_edge d (fst x) = true /\ has_edge d (snd x) = true.
Proof.
  intros d p x Hp H. unfold psides in H. apply in_flat_map in H. destruct H as [[[a b] c] [Ht Hx]].
  assert (S : forall e, In e [a; b; c] -> has_edge d (edge_at d e) = true).
  { intros e He. apply has_edge_iff. exists e. split; [|reflexivity].
    eapply tris_small; [exact Hp|exact Ht|exact He]. }
  cbn [triangle_sides In] in Hx.
  destruct Hx as [<-|[<-|[<-|[]]]]; cbn [fst snd]; split; apply S; cbn; tauto.
Qed.
Lemma ends_range : forall e a, (a = fst (edge_ends e) \/ a = snd (edge_ends e)) ->
  0 <= vx (corner_offset a) <= 1 /\ 0 <= vy (corner_offset a) <= 1 /\ 0 <= vz (corner_offset a) <= 1.
Proof.
  intros e a _. unfold corner_offset.
  do 8 (destruct a as [|a]; [cbn; lia|]). destruct a; cbn; lia.
Qed.
Lemma share_edge_around : forall d e e', edge_at origin0 e = edge_at d e' -> In d around.
Proof.
  intros d e e' E.
  pose proof (ends_range e _ (or_introl eq_refl)) as A1.
  pose proof (ends_range e _ (or_intror eq_refl)) as A2.
  pose proof (ends_range e' _ (or_introl eq_refl)) as B1.
  pose proof (ends_range e' _ (or_intror eq_refl)) as B2.
  unfold edge_at, corner, idx_add, zip3 in E. cbn [vx vy vz] in E.
  destruct d as [x y z]. unfold origin0 in E. cbn [vx vy vz] in E. injection E as H1 H2 H3 _ _ _.
  apply around_In; cbn [vx vy vz]; lia.
Qed.

Section Field.
  Variable f : idx3 -> f32.
  Definition pat (c : idx3) : Z := calculateVertexConfiguration (cube_sdf f c).
  Lemma pat_range : forall c, 0 <= pat c < 256. Proof. intros c. apply config_bits. Qed.
  Lemma corner_add : forall c d i, corner (idx_add c d) i = idx_add c (corner d i).
  Proof.
    intros [a b c] [a' b' c'] i. unfold corner, idx_add, zip3. cbn [vx vy vz]. f_equal; lia.
  Qed.
  Lemma pat_compat : forall c d, compat_in (shared d) (pat c) (pat (idx_add c d)) = true.
  Proof.
    intros c d. unfold compat_in. apply forallb_forall. intros [i j] H. unfold shared in H.
    apply filter_In in H. destruct H as [H E]. apply in_prod_iff in H. rewrite !in_seq in H.
    cbn [fst snd] in *. apply idx_eqb_eq in E. apply eqb_true_iff.
    unfold pat. rewrite !inside_bit by lia.
    unfold cube_sdf. rewrite corner_add, <- E, <- corner_add. unfold origin0. now rewrite idx_add_0.
  Qed.

  Lemma to_local : forall c x, In x (sides f c) -> exists y, x = shift_side c y /\ In y (psides origin0 (pat c)).
  Proof.
    intros c x H. rewrite sides_pat in H. fold (pat c) in H.
    rewrite <- (idx_add_0 c) in H at 1. rewrite psides_shift, in_map_iff in H.
    destruct H as [y [E H]]. exists y. auto.
  Qed.
  Lemma of_local : forall c d y, In (shift_side c y) (sides f (idx_add c d)) <->
    In y (psides d (pat (idx_add c d))).
  Proof. intros c d y. rewrite sides_pat. fold (pat (idx_add c d)). apply in_psides_shift. Qed.

  (** where a side of cube 0 (or its reverse) can occur *)
  Lemma holder : forall c d y z, In y (psides origin0 (pat c)) -> (z = y \/ z = flip y) ->
    In z (psides d (pat (idx_add c d))) -> In d (holders y).
  Proof.
    intros c d y z Hy Hz H.
    destruct (psides_edges d _ z (pat_range _) H) as [E1 E2].
    destruct (psides_edges origin0 _ y (pat_range _) Hy) as [E3 E4].
    unfold holders. apply filter_In. split.
    - apply has_edge_iff in E1, E3, E4. destruct E1 as [e1 [_ E1]], E3 as [e3 [_ E3]], E4 as [e4 [_ E4]].
      destruct Hz as [-> | ->]; cbn [flip fst snd] in E1.
      + apply (share_edge_around d e3 e1). now rewrite <- E3.
      + apply (share_edge_around d e4 e1). now rewrite <- E4.
    - destruct Hz as [-> | ->]; cbn [flip fst snd] in E1, E2; rewrite E1, E2; reflexivity.
  Qed.

  Lemma side_cases : forall c y, In y (psides origin0 (pat c)) ->
    fst y <> snd y /\ NoDup (psides origin0 (pat c)) /\
    ((forall d, In d (holders y) -> d = origin0) /\ In (flip y) (psides origin0 (pat c)) \/
     (exists d, d <> origin0 /\ In d (holders y) /\ (forall d', In d' (holders y) -> d' = origin0 \/ d' = d) /\
        ~ In (flip y) (psides origin0 (pat c)) /\
        In (flip y) (psides d (pat (idx_add c d))) /\ ~ In y (psides d (pat (idx_add c d))))).
  Proof.
    intros c y Hy. pose proof patterns_ok as P. rewrite forallb_forall in P.
    specialize (P _ (pats_In _ (pat_range c))). unfold pattern_ok in P. apply andb_true_iff in P.
    destruct P as [P1 P2]. rewrite forallb_forall in P2. specialize (P2 y Hy).
    unfold side_ok in P2. apply andb_true_iff in P2. destruct P2 as [P2 P3].
    split. { intros E. apply ge_eqb_eq in E. rewrite E in P2. discriminate. }
    split. { now apply nodup_b_ok. }
    destruct (filter (fun d => negb (idx_eqb d origin0)) (holders y)) as [|d [|d2 ds]] eqn:F;
      [| |discriminate P3].
    - left. split; [|now apply mem_In].
      intros d Hd. destruct (idx_eqb d origin0) eqn:E; [now apply idx_eqb_eq|exfalso].
      assert (In d []) as []. { rewrite <- F. apply filter_In. now rewrite E. }
    - right. exists d.
      assert (Hd : In d (filter (fun d => negb (idx_eqb d origin0)) (holders y))) by (rewrite F; now left).
      apply filter_In in Hd. destruct Hd as [Hd1 Hd2].
      assert (Nd : d <> origin0). { intros E. apply idx_eqb_eq in E. rewrite E in Hd2. discriminate. }
      split; [exact Nd|]. split; [exact Hd1|]. split.
      { intros d' Hd'. destruct (idx_eqb d' origin0) eqn:E; [left; now apply idx_eqb_eq|right].
        assert (H : In d' [d]). { rewrite <- F. apply filter_In. now rewrite E. }
        destruct H as [H|[]]. now symmetry. }
      split. { intros H. apply mem_In in H. rewrite H in P3. discriminate. }
      (* d is a face neighbour *)
      unfold holders in Hd1. apply filter_In in Hd1. destruct Hd1 as [Ha Hb].
      pose proof others_ok as O. rewrite forallb_forall in O. specialize (O d Ha). unfold other_ok in O.
      apply orb_true_iff in O. destruct O as [O|O].
      + assert (Dd : In d dirs).
        { apply orb_true_iff in O. destruct O as [O|O]; [apply idx_eqb_eq in O; contradiction|].
          apply existsb_exists in O. destruct O as [d' [Hd' E]]. apply idx_eqb_eq in E. now subst. }
        pose proof faces_ok as FO. rewrite forallb_forall in FO. specialize (FO d Dd).
        rewrite forallb_forall in FO. specialize (FO _ (pats_In _ (pat_range c))).
        unfold face_ok in FO. rewrite forallb_forall in FO.
        specialize (FO _ (pats_In _ (pat_range (idx_add c d)))).
        rewrite pat_compat in FO. cbn zeta in FO. rewrite forallb_forall in FO.
        specialize (FO y). rewrite filter_In in FO. specialize (FO (conj Hy Hb)).
        apply andb_true_iff in FO. destruct FO as [FO1 FO2]. split; [now apply mem_In|].
        intros H. apply mem_In in H. rewrite H in FO2. discriminate.
      + exfalso. destruct (psides_edges origin0 _ y (pat_range _) Hy) as [E3 E4].
        apply has_edge_iff in E3, E4. destruct E3 as [e3 [L3 E3]], E4 as [e4 [L4 E4]].
        rewrite forallb_forall in O. specialize (O e3 ltac:(apply in_seq; lia)).
        rewrite forallb_forall in O. specialize (O e4 ltac:(apply in_seq; lia)).
        rewrite <- E3, <- E4, Hb in O. cbn [andb] in O.
        destruct (Nat.eqb_spec e3 e4) as [E|E]; [|discriminate O].
        subst e4. rewrite <- E4 in E3. apply ge_eqb_eq in E3. rewrite E3 in P2. discriminate.
  Qed.

  Lemma unshift : forall c c' x, In x (sides f c) -> forall z, In z (sides f c') ->
    (z = x \/ z = flip x) ->
    exists y d, x = shift_side c y /\ In y (psides origin0 (pat c)) /\ c' = idx_add c d /\
      In d (holders y) /\ (z = x -> In y (psides d (pat (idx_add c d)))) /\
      (z = flip x -> In (flip y) (psides d (pat (idx_add c d)))).
  Proof.
    intros c c' x Hx z Hz E. destruct (to_local c x Hx) as [y [-> Hy]].
    exists y, (idx_sub c' c). rewrite idx_add_sub. split; [reflexivity|]. split; [exact Hy|].
    split; [reflexivity|].
    assert (A : z = shift_side c y -> In y (psides (idx_sub c' c) (pat c'))).
    { intros ->. rewrite <- (idx_add_sub c c') in Hz. apply of_local in Hz.
      now rewrite idx_add_sub in Hz. }
    assert (B : z = flip (shift_side c y) -> In (flip y) (psides (idx_sub c' c) (pat c'))).
    { intros ->. rewrite <- (idx_add_sub c c') in Hz.
      change (flip (shift_side c y)) with (shift_side c (flip y)) in Hz.
      apply of_local in Hz. now rewrite idx_add_sub in Hz. }
    split; [|split; assumption].
    destruct E as [E|E].
    - apply (holder c _ y y Hy (or_introl eq_refl)). rewrite idx_add_sub. auto.
    - apply (holder c _ y (flip y) Hy (or_intror eq_refl)). rewrite idx_add_sub. auto.
  Qed.

  Lemma watertight : forall c u v, In (u, v) (sides f c) ->
    u <> v /\ NoDup (sides f c) /\
    (forall c', In (u, v) (sides f c') -> c' = c) /\
    (exists c', In (v, u) (sides f c') /\ forall c'', In (v, u) (sides f c'') -> c'' = c').
  Proof.
    intros c u v Hx. destruct (to_local c _ Hx) as [y [Ey Hy]].
    destruct (side_cases c y Hy) as [N [ND Cs]].
    split. { destruct y as [y1 y2]. pose proof (f_equal fst Ey) as H1. pose proof (f_equal snd Ey) as H2.
             cbn [shift_side fst snd] in H1, H2. rewrite H1, H2. cbn [fst snd] in N. intros E. apply shift_inj in E. contradiction. }
    split. { rewrite sides_pat. fold (pat c). rewrite <- (idx_add_0 c) at 1. rewrite psides_shift.
             apply Injective_map_NoDup; [|exact ND].
             intros a b. apply shift_side_inj. }
    assert (Fl : (v, u) = shift_side c (flip y)).
    { destruct y as [y1 y2]. pose proof (f_equal fst Ey) as H1. pose proof (f_equal snd Ey) as H2.
      cbn [fst snd] in H1, H2. rewrite H1, H2. reflexivity. }
    split.
    - intros c' H. destruct (unshift c c' _ Hx _ H (or_introl eq_refl)) as [y' [d [E1 [_ [-> [Hd [A _]]]]]]].
      rewrite Ey in E1. apply shift_side_inj in E1. subst y'.
      destruct Cs as [[Cs _]|[d0 [_ [_ [Cs [_ [_ C3]]]]]]].
      + rewrite (Cs d Hd). apply idx_add_0.
      + destruct (Cs d Hd) as [-> | ->]; [apply idx_add_0|]. exfalso. auto.
    - assert (U : forall c'' , In (v, u) (sides f c'') -> exists d, c'' = idx_add c d /\ In d (holders y) /\
          In (flip y) (psides d (pat (idx_add c d)))).
      { intros c'' H. destruct (unshift c c'' _ Hx _ H (or_intror eq_refl)) as [y' [d [E1 [_ [-> [Hd [_ B]]]]]]].
        rewrite Ey in E1. apply shift_side_inj in E1. subst y'. exists d. auto. }
      destruct Cs as [[Cs C2]|[d0 [Nd [_ [Cs [C1 [C2 C3]]]]]]].
      + exists c. split.
        * rewrite Fl. rewrite <- (idx_add_0 c) at 2. apply of_local. now rewrite idx_add_0.
        * intros c'' H. destruct (U _ H) as [d [-> [Hd _]]]. rewrite (Cs d Hd). apply idx_add_0.
      + exists (idx_add c d0). split; [rewrite Fl; now apply of_local|].
        intros c'' H. destruct (U _ H) as [d [-> [Hd B]]]. destruct (Cs d Hd) as [-> | ->]; [|reflexivity].
        exfalso. unfold origin0 in B at 2. rewrite idx_add_0 in B. auto.
  Qed.
End Field.
