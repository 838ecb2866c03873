(** Proofs about merging meshes into a connected one. *)
From Coq Require Import ZArith List Bool Lia.
From Verif Require Import F32 F32_lemmas Types Index Voxel Assoc Assoc_lemmas Layer Ray Marching MeshInt Mesh_spec.
Import ListNotations.
Open Scope Z_scope.

Lemma rbind_ok : forall A B (r : res A) (f : A -> res B) b, rbind r f = Ok b -> exists a, r = Ok a /\ f a = Ok b.
Proof. intros A B [a| |] f b H; try discriminate. exists a. auto. Qed.
Lemma of_opt_ok : forall A (o : option A) a, of_opt o = Ok a -> o = Some a.
Proof. intros A [x|] a H; cbn in H; congruence. Qed.

Section Connect.
  Variable inv : f64.

  (** vertex [j] of [vs] lies in [cell] *)
  Definition at_cell (vs : list pt3) (j : Z) (cell : idx3) : Prop :=
    0 <= j /\ exists v, nth_error vs (Z.to_nat j) = Some v /\ vertex_cell inv v = Some cell.
  Definition cinv (st : cstate) (P : list pt3) : Prop :=
    let vs := m_vertices (c_mesh st) in
    c_next st = Z.of_nat (length vs) /\
    (forall cell j, alookup cell (c_uniques st) = Some j <-> at_cell vs j cell) /\
    (forall v, In v vs -> In v P) /\
    (forall v, In v P -> exists j cell, at_cell vs j cell /\ vertex_cell inv v = Some cell).

  Lemma at_cell_lt : forall vs j c, at_cell vs j c -> 0 <= j < Z.of_nat (length vs).
  Proof.
    intros vs j c [H [v [E _]]]. apply nth_error_Some_lt in E || (assert (nth_error vs (Z.to_nat j) <> None) as X by congruence; apply nth_error_Some in X); lia.
  Qed.
  Lemma at_cell_app : forall vs w j c, at_cell vs j c -> at_cell (vs ++ w) j c.
  Proof.
    intros vs w j c H. pose proof (at_cell_lt _ _ _ H) as L. destruct H as [H [v [E F]]].
    split; [exact H|]. exists v. rewrite nth_error_app1 by lia. auto.
  Qed.
  Lemma at_cell_fun : forall vs j c c', at_cell vs j c -> at_cell vs j c' -> c = c'.
  Proof. intros vs j c c' [_ [v [E F]]] [_ [v' [E' F']]]. congruence. Qed.

  Lemma add_vertex_ok : forall m old st P j st', cinv st P ->
    add_vertex inv m old st = Ok (j, st') ->
    exists v cell, nth_error (m_vertices m) old = Some v /\ vertex_cell inv v = Some cell /\
      cinv st' (P ++ [v]) /\ at_cell (m_vertices (c_mesh st')) j cell /\
      (exists w, m_vertices (c_mesh st') = m_vertices (c_mesh st) ++ w) /\
      m_indices (c_mesh st') = m_indices (c_mesh st).
  Proof.
    intros m old st P j st' [I1 [I2 [I3 I4]]] E. unfold add_vertex in E.
    apply rbind_ok in E. destruct E as [v [Ev E]]. apply of_opt_ok in Ev.
    apply rbind_ok in E. destruct E as [cell [Ec E]]. apply of_opt_ok in Ec.
    apply rbind_ok in E. destruct E as [r [Er E]].
    exists v, cell. split; [exact Ev|]. split; [exact Ec|].
    destruct (alookup cell (c_uniques st)) as [j0|] eqn:L.
    - destruct (nth_error (m_normals m) old) as [nn|]; [|discriminate].
      destruct (upd_nth _ _ _) as [ns|]; [|discriminate]. injection Er as <-.
      cbn [snd c_mesh m_vertices c_next] in E.
      destruct (_ =? _) in E; [|discriminate]. injection E as <- <-. cbn [c_mesh m_vertices m_indices c_next c_uniques].
      assert (A : at_cell (m_vertices (c_mesh st)) j0 cell) by (now apply I2).
      split; [|split; [exact A|split; [exists []; now rewrite app_nil_r|reflexivity]]].
      unfold cinv. cbn [c_mesh m_vertices c_next c_uniques]. split; [exact I1|]. split; [exact I2|]. split.
      + intros x Hx. apply in_app_iff. left. now apply I3.
      + intros x Hx. apply in_app_iff in Hx. destruct Hx as [Hx|[<-|[]]]; [now apply I4|]. exists j0, cell. auto.
    - apply rbind_ok in Er. destruct Er as [c1 [_ Er]]. apply rbind_ok in Er. destruct Er as [n1 [_ Er]].
      injection Er as <-. cbn [snd c_mesh m_vertices c_next] in E.
      destruct (_ =? _) eqn:Q in E; [|discriminate]. injection E as <- <-.
      cbn [c_mesh m_vertices m_indices c_next c_uniques].
      assert (A : at_cell (m_vertices (c_mesh st) ++ [v]) (c_next st) cell).
      { split; [lia|]. exists v. rewrite nth_error_app2 by lia. rewrite I1, Nat2Z.id, Nat.sub_diag. auto. }
      split; [|split; [exact A|split; [exists [v]; reflexivity|reflexivity]]].
      unfold cinv. cbn [c_mesh m_vertices c_next c_uniques]. split; [rewrite app_length; cbn [length]; lia|]. split; [|split].
      + intros c j. rewrite alookup_ainsert. split.
        * destruct (alookup c (c_uniques st)) as [j'|] eqn:L'.
          { intros X. injection X as ->. apply at_cell_app. now apply I2. }
          destruct (idx_eqb_spec c cell) as [->|N]; [|discriminate]. intros X. injection X as <-. exact A.
        * intros H. pose proof (at_cell_lt _ _ _ H) as Hl. rewrite app_length in Hl. cbn [length] in Hl.
          destruct (Z.eq_dec j (c_next st)) as [->|Nj].
          { assert (c = cell) as -> by (eapply at_cell_fun; [exact H|exact A]). rewrite L.
            now rewrite idx_eqb_refl. }
          assert (H' : at_cell (m_vertices (c_mesh st)) j c).
          { destruct H as [H0 [x [X1 X2]]]. rewrite nth_error_app1 in X1 by lia. split; [exact H0|]. exists x. auto. }
          apply I2 in H'. now rewrite H'.
      + intros x Hx. apply in_app_iff in Hx. apply in_app_iff.
        destruct Hx as [Hx|Hx]; [left; now apply I3|right; exact Hx].
      + intros x Hx. apply in_app_iff in Hx. destruct Hx as [Hx|[<-|[]]].
        * destruct (I4 x Hx) as [j [c [X1 X2]]]. exists j, c. split; [now apply at_cell_app|exact X2].
        * exists (c_next st), cell. auto.
  Qed.

  Lemma add_vertices_ok : forall m olds st P js st', cinv st P ->
    add_vertices inv m olds st = Ok (js, st') ->
    exists vs, Forall2 (fun o v => nth_error (m_vertices m) o = Some v) olds vs /\
      cinv st' (P ++ vs) /\
      Forall2 (fun v j => exists cell, vertex_cell inv v = Some cell /\
                 at_cell (m_vertices (c_mesh st')) j cell) vs js /\
      (exists w, m_vertices (c_mesh st') = m_vertices (c_mesh st) ++ w) /\
      m_indices (c_mesh st') = m_indices (c_mesh st).
  Proof.
    intros m olds. induction olds as [|o olds IH]; intros st P js st' Hc E; cbn [add_vertices] in E.
    - injection E as <- <-. exists []. rewrite app_nil_r. split; [constructor|]. split; [exact Hc|]. split; [constructor|].
      split; [exists []; now rewrite app_nil_r|reflexivity].
    - apply rbind_ok in E. destruct E as [[j st1] [E1 E]]. apply rbind_ok in E.
      destruct E as [[js1 st2] [E2 E]]. cbn [fst snd] in *. injection E as <- <-.
      destruct (add_vertex_ok m o st P j st1 Hc E1) as [v [cell [V1 [V2 [V3 [V4 [[w V5] V6]]]]]]].
      destruct (IH st1 (P ++ [v]) js1 st2 V3 E2) as [vs [A [B [C [[w' D] F]]]]].
      exists (v :: vs). split; [constructor; assumption|]. split; [now rewrite <- app_assoc in B|].
      split; [|split].
      + constructor; [|exact C]. exists cell. split; [exact V2|]. rewrite D. now apply at_cell_app.
      + exists (w ++ w'). now rewrite D, V5, <- app_assoc.
      + now rewrite F.
  Qed.
  Lemma seq_vertices : forall (l : list pt3) vs k,
    Forall2 (fun o v => nth_error (k ++ l) o = Some v) (seq (length k) (length l)) vs -> vs = l.
  Proof.
    induction l as [|a l IH]; intros vs k H; cbn [length seq] in H; inversion H; subst; [reflexivity|].
    rewrite nth_error_app2, Nat.sub_diag in H2 by lia. cbn in H2. injection H2 as ->. f_equal.
    apply (IH l' (k ++ [y])). rewrite app_length, <- app_assoc. cbn [length app].
    now rewrite Nat.add_1_r.
  Qed.

  Lemma remap_ok : forall js next i j, remap js next i = Ok j ->
    0 <= i \/ True -> nth_error js (Z.to_nat i) = Some j /\ j < next.
  Proof.
    intros js next i j E _. unfold remap in E. destruct (_ <? _) in E; [|discriminate].
    apply rbind_ok in E. destruct E as [a [A E]]. apply of_opt_ok in A.
    destruct (a <? next) eqn:L in E; [|discriminate]. injection E as <-. apply Z.ltb_lt in L. auto.
  Qed.
  Lemma Forall2_nth : forall A B (R : A -> B -> Prop) l l' n b d, Forall2 R l l' -> nth_error l' n = Some b ->
    R (nth n l d) b.
  Proof.
    intros A B R l l' n b d H. revert n. induction H as [|x y l l' Hxy H IH]; intros n E.
    - destruct n; discriminate.
    - destruct n as [|n]; cbn in *; [congruence|now apply IH].
  Qed.

  (** index [j] of the output stands for a vertex in the cell of [v] *)
  Definition stands (vs : list pt3) (j : Z) (v : pt3) : Prop :=
    exists cell, vertex_cell inv v = Some cell /\ at_cell vs j cell.
  Definition inj_cells (vs : list pt3) : Prop := forall i j c, at_cell vs i c -> at_cell vs j c -> i = j.
  Lemma stands_eqb : forall vs i j v w c d, inj_cells vs ->
    vertex_cell inv v = Some c -> vertex_cell inv w = Some d -> at_cell vs i c -> at_cell vs j d ->
    (i =? j) = idx_eqb c d.
  Proof.
    intros vs i j v w c d I V W A B. destruct (idx_eqb_spec c d) as [->|N].
    - apply Z.eqb_eq. eapply I; eassumption.
    - apply Z.eqb_neq. intros ->. apply N. eapply at_cell_fun; eassumption.
  Qed.

  Definition triple_stands (vs : list pt3) (t : Z * Z * Z) (p : pt3 * pt3 * pt3) : Prop :=
    let '(i, j, k) := t in let '(a, b, c) := p in stands vs i a /\ stands vs j b /\ stands vs k c.

  Lemma add_triangles_ok : forall (mv vs : list pt3) js next, inj_cells vs ->
    Forall2 (fun v j => stands vs j v) mv js ->
    forall n is out, (length is <= n)%nat -> add_triangles js next is = Ok out ->
    (exists q, length out = (3 * q)%nat) /\ Forall (fun j => 0 <= j < next) out /\
    Forall2 (triple_stands vs) (triples out)
      (filter (distinct_cells inv)
         (map (fun t => let '(i, j, k) := t in
                        (nth (Z.to_nat i) mv point0, nth (Z.to_nat j) mv point0, nth (Z.to_nat k) mv point0))
              (triples is))).
  Proof.
    intros mv vs js next Inj HF. induction n as [|n IH]; intros is out Hl E.
    { destruct is; [|cbn in Hl; lia]. cbn in E. injection E as <-. cbn. split; [now exists 0%nat|split; constructor]. }
    destruct is as [|i0 [|i1 [|i2 is]]]; cbn [add_triangles] in E; try discriminate.
    { injection E as <-. cbn. split; [now exists 0%nat|split; constructor]. }
    apply rbind_ok in E. destruct E as [j0 [E0 E]]. apply rbind_ok in E. destruct E as [j1 [E1 E]].
    apply rbind_ok in E. destruct E as [j2 [E2 E]]. apply rbind_ok in E. destruct E as [rest [Er E]].
    destruct (IH is rest ltac:(cbn in Hl; lia) Er) as [[q Q] [FR FT]].
    apply remap_ok in E0, E1, E2; auto. destruct E0 as [E0 L0], E1 as [E1 L1], E2 as [E2 L2].
    pose proof (Forall2_nth _ _ _ _ _ _ _ point0 HF E0) as S0.
    pose proof (Forall2_nth _ _ _ _ _ _ _ point0 HF E1) as S1.
    pose proof (Forall2_nth _ _ _ _ _ _ _ point0 HF E2) as S2.
    cbn [triples map filter].
    set (a := nth (Z.to_nat i0) mv point0) in *. set (b := nth (Z.to_nat i1) mv point0) in *.
    set (c := nth (Z.to_nat i2) mv point0) in *.
    assert (D : distinct_cells inv (a, b, c) = negb ((j0 =? j1) || (j1 =? j2) || (j0 =? j2))).
    { destruct S0 as [c0 [X0 Y0]], S1 as [c1 [X1 Y1]], S2 as [c2 [X2 Y2]].
      unfold distinct_cells. rewrite X0, X1, X2.
      rewrite (stands_eqb vs j0 j1 a b c0 c1), (stands_eqb vs j1 j2 b c c1 c2), (stands_eqb vs j0 j2 a c c0 c2) by assumption.
      reflexivity. }
    rewrite D. destruct ((j0 =? j1) || (j1 =? j2) || (j0 =? j2)); cbn [negb]; injection E as <-.
    - split; [now exists q|]. auto.
    - split; [exists (S q); cbn [length]; lia|]. split.
      + assert (P : forall j v, stands vs j v -> 0 <= j) by (intros j v [x [_ [X _]]]; exact X).
        cbn beta in S0, S1, S2.
        repeat (apply Forall_cons; [split; [eapply P; eassumption|assumption]|]). exact FR.
      + cbn [triples]. constructor; [|exact FT]. cbn. auto.
  Qed.

  Lemma cinv_inj : forall st P, cinv st P -> inj_cells (m_vertices (c_mesh st)).
  Proof.
    intros st P [_ [I _]] i j c A B. apply I in A, B. congruence.
  Qed.

  Definition tinv (st : cstate) (ms : list mesh) : Prop :=
    cinv st (flat_map m_vertices ms) /\
    (exists q, length (m_indices (c_mesh st)) = (3 * q)%nat) /\
    Forall (fun j => 0 <= j < c_next st) (m_indices (c_mesh st)) /\
    Forall2 (triple_stands (m_vertices (c_mesh st))) (triples (m_indices (c_mesh st)))
      (filter (distinct_cells inv) (flat_map triangles_of ms)).
  Lemma triple_stands_app : forall vs w t p, triple_stands vs t p -> triple_stands (vs ++ w) t p.
  Proof.
    intros vs w [[i j] k] [[a b] c]. unfold triple_stands, stands.
    intros [[x [X1 X2]] [[y [Y1 Y2]] [z [Z1 Z2]]]].
    repeat split; [exists x|exists y|exists z]; auto using at_cell_app.
  Qed.
  Lemma Forall2_impl' : forall A B (R R' : A -> B -> Prop) l l', (forall a b, R a b -> R' a b) ->
    Forall2 R l l' -> Forall2 R' l l'.
  Proof. intros A B R R' l l' H F. induction F; constructor; auto. Qed.
  Lemma triples_app : forall A n (l l' : list A), length l = (3 * n)%nat -> triples (l ++ l') = triples l ++ triples l'.
  Proof.
    intros A n. induction n as [|n IH]; intros l l' H.
    - destruct l; [reflexivity|cbn in H; lia].
    - destruct l as [|a [|b [|c l]]]; cbn [length] in H; try lia. cbn [app triples]. f_equal. apply IH. lia.
  Qed.
  Lemma connect_mesh_ok : forall m ms st st', tinv st ms -> connect_mesh inv m st = Ok st' -> tinv st' (ms ++ [m]).
  Proof.
    intros m ms st st' [Hc [[q Hq] [Hf Ht]]] E. unfold connect_mesh in E.
    unfold tinv. rewrite !flat_map_app. cbn [flat_map]. rewrite !app_nil_r.
    destruct (m_vertices m) as [|v0 mv] eqn:Em.
    { cbn [nonempty negb] in E. injection E as <-. unfold triangles_of. rewrite Em, !app_nil_r.
      split; [exact Hc|]. split; [now exists q|]. auto. }
    rewrite <- Em in *. cbn [nonempty negb] in E.
    replace (negb (nonempty (m_vertices m))) with false in E by (rewrite Em; reflexivity).
    destruct (_ && _) in E; [|discriminate].
    apply rbind_ok in E. destruct E as [[js st1] [E1 E]]. cbn [fst snd] in E.
    apply rbind_ok in E. destruct E as [tris [E2 E]]. injection E as <-.
    destruct (add_vertices_ok m _ st _ js st1 Hc E1) as [vs [A [B [C [[w D] F]]]]].
    assert (vs = m_vertices m) as -> by (apply (seq_vertices _ vs []); exact A).
    pose proof (cinv_inj _ _ B) as Inj.
    destruct (add_triangles_ok (m_vertices m) (m_vertices (c_mesh st1)) js (c_next st1) Inj C
                (length (m_indices m)) (m_indices m) tris (le_n _) E2) as [[q' Q'] [G1 G2]].
    cbn [c_mesh c_next m_vertices m_indices c_uniques].
    split. { exact B. }
    split. { exists (q + q')%nat. rewrite app_length, F. lia. }
    destruct B as [B1 _]. destruct Hc as [Hc1 _].
    split.
    { apply Forall_app. split; [|exact G1]. rewrite F. eapply Forall_impl; [|exact Hf]. cbn. intros j Hj.
      rewrite B1, D, app_length. lia. }
    rewrite F, (triples_app _ q) by exact Hq. rewrite filter_app. apply Forall2_app.
    - rewrite D. eapply Forall2_impl'; [|exact Ht]. intros t p. apply triple_stands_app.
    - unfold triangles_of. destruct (m_vertices m) as [|v1 mv1] eqn:Em1; [discriminate|].
      unfold vertex_of. rewrite Em1. exact G2.
  Qed.
  Lemma connect_meshes_ok : forall ms ms0 st st', tinv st ms0 -> connect_meshes inv ms st = Ok st' -> tinv st' (ms0 ++ ms).
  Proof.
    induction ms as [|m ms IH]; intros ms0 st st' H E; cbn [connect_meshes] in E.
    - injection E as <-. now rewrite app_nil_r.
    - apply rbind_ok in E. destruct E as [st1 [E1 E]]. apply connect_mesh_ok with (ms := ms0) in E1; [|exact H].
      specialize (IH _ _ _ E1 E). now rewrite <- app_assoc in IH.
  Qed.
End Connect.

Lemma connected_ok : forall ms thr o u out,
  createConnectedMesh ms thr (MkMesh [] [] [] [] o u) = Ok out ->
  let inv := ddiv d1 (f64_of_f32 thr) in
  Forall (fun i => 0 <= i < Z.of_nat (length (m_vertices out))) (m_indices out) /\
  (exists q, length (m_indices out) = (3 * q)%nat) /\
  NoDup (map (vertex_cell inv) (m_vertices out)) /\
  (forall v, In v (m_vertices out) -> exists m, In m ms /\ In v (m_vertices m)) /\
  (forall m v, In m ms -> In v (m_vertices m) ->
     exists w, In w (m_vertices out) /\ vertex_cell inv v = vertex_cell inv w /\ vertex_cell inv v <> None) /\
  Forall2 (same_cells inv) (triangles_of out) (filter (distinct_cells inv) (flat_map triangles_of ms)).
Proof.
  intros ms thr o u out E inv. unfold createConnectedMesh in E. apply rbind_ok in E.
  destruct E as [st [E1 E]]. destruct (_ && _) in E; [|discriminate]. injection E as <-.
  fold inv in E1.
  assert (I0 : tinv inv (MkC (MkMesh [] [] [] [] o u) [] 0) []).
  { split; [|split; [now exists 0%nat|split; constructor]].
    split; [reflexivity|]. cbn. split; [|split; tauto].
    intros cell j. split; [discriminate|]. intros [_ [v [X _]]]. destruct (Z.to_nat j); discriminate. }
  apply (connect_meshes_ok inv ms [] _ _ I0) in E1. cbn [app] in E1.
  destruct E1 as [[C1 [C2 [C3 C4]]] [Q [T1 T2]]].
  set (vs := m_vertices (c_mesh st)) in *.
  assert (Inj : inj_cells inv vs). { intros i j c A B. apply C2 in A, B. congruence. }
  assert (Cell : forall v, In v vs -> exists c, vertex_cell inv v = Some c).
  { intros v Hv. destruct (C4 v (C3 v Hv)) as [_ [c [_ X]]]. now exists c. }
  split. { rewrite <- C1. exact T1. }
  split; [exact Q|]. split.
  { apply NoDup_nth_error. intros i j Hi Hij. rewrite map_length in Hi.
    assert (Ni : exists v, nth_error vs i = Some v).
    { destruct (nth_error vs i) eqn:X; [eauto|]. apply nth_error_None in X. lia. }
    destruct Ni as [v Ev]. rewrite (map_nth_error _ _ _ Ev) in Hij.
    destruct (nth_error vs j) as [w|] eqn:Ew.
    2:{ assert (nth_error (map (vertex_cell inv) vs) j = None) as X.
        { apply nth_error_None. rewrite map_length. now apply nth_error_None. }
        rewrite X in Hij. discriminate. }
    rewrite (map_nth_error _ _ _ Ew) in Hij. injection Hij as Hc.
    destruct (Cell v (nth_error_In _ _ Ev)) as [c Hv].
    assert (A : at_cell inv vs (Z.of_nat i) c). { split; [lia|]. exists v. now rewrite Nat2Z.id. }
    assert (B : at_cell inv vs (Z.of_nat j) c). { split; [lia|]. exists w. rewrite Nat2Z.id. split; congruence. }
    pose proof (Inj _ _ _ A B). lia. }
  split. { intros v Hv. apply C3 in Hv. apply in_flat_map in Hv. exact Hv. }
  split.
  { intros m v Hm Hv. destruct (C4 v) as [j [c [[_ [w [X Y]]] Z]]]. { apply in_flat_map. now exists m. }
    exists w. split; [eapply nth_error_In; exact X|]. rewrite Z, Y. split; [reflexivity|discriminate]. }
  assert (St : forall j v, stands inv vs j v -> vertex_cell inv (nth (Z.to_nat j) vs point0) = vertex_cell inv v).
  { intros j v [c [X [_ [w [Y Z]]]]]. apply (nth_error_nth _ _ point0) in Y. rewrite Y. congruence. }
  set (F := filter (distinct_cells inv) (flat_map triangles_of ms)) in *. clearbody F.
  unfold triangles_of. fold vs. destruct vs as [|v0 vs'] eqn:Ev.
  - assert (m_indices (c_mesh st) = []) as X.
    { destruct (m_indices (c_mesh st)) as [|j js]; [reflexivity|exfalso].
      inversion T1; subst. rewrite C1 in H1. cbn in H1. lia. }
    rewrite X in T2. cbn in T2. inversion T2. constructor.
  - rewrite <- Ev in *. clear -T2 St Ev.
    induction T2 as [|[[i j] k] [[a b] c] l l' H HF IH]; [constructor|]. cbn [map]. constructor; [|exact IH].
    cbn in H. destruct H as [H1 [H2 H3]]. unfold same_cells, vertex_of. subst vs. auto.
Qed.

(** When the merge succeeds. *)
Section Success.
  Variable inv : f64.
  Variable hc : bool.
  Definition mesh_in (m : mesh) : Prop :=
    consistent m /\ (if hc then length (m_colors m) = length (m_vertices m) else m_colors m = []) /\
    (forall v, In v (m_vertices m) -> vertex_cell inv v <> None).
  Definition sinv (st : cstate) : Prop :=
    (exists P, cinv inv st P) /\
    length (m_normals (c_mesh st)) = length (m_vertices (c_mesh st)) /\
    length (m_colors (c_mesh st)) = (if hc then length (m_vertices (c_mesh st)) else 0)%nat.

  Lemma upd_nth_some : forall A (f : A -> A) n l, (n < length l)%nat ->
    exists l', upd_nth n f l = Some l' /\ length l' = length l.
  Proof.
    intros A f n l H. unfold upd_nth. destruct (nth_error l n) as [a|] eqn:E.
    2:{ apply nth_error_None in E. lia. }
    eexists. split; [reflexivity|]. rewrite app_length, firstn_length. cbn [length]. rewrite skipn_length. lia.
  Qed.
  Lemma nth_some : forall A (l : list A) n, (n < length l)%nat -> exists a, nth_error l n = Some a.
  Proof. intros A l n H. destruct (nth_error l n) eqn:E; [eauto|]. apply nth_error_None in E. lia. Qed.

  Lemma Forall2_len : forall A B (R : A -> B -> Prop) l l', Forall2 R l l' -> length l = length l'.
  Proof. intros A B R l l' H. induction H; cbn; auto. Qed.
  Lemma add_vertex_succeeds : forall m st o, mesh_in m -> sinv st -> (o < length (m_vertices m))%nat ->
    exists j st', add_vertex inv m o st = Ok (j, st') /\ sinv st'.
  Proof.
    intros m st o [Hm [Hcol Hcell]] [[P Hi] [Hn Hc]] Ho. pose proof Hi as [I1 [I2 [I3 I4]]].
    destruct Hm as [M1 _].
    destruct (nth_some _ _ _ Ho) as [v Ev].
    destruct (vertex_cell inv v) as [cell|] eqn:Ec; [|exfalso; eapply Hcell; [eapply nth_error_In; exact Ev|exact Ec]].
    rewrite <- M1 in Ho. destruct (nth_some _ _ _ Ho) as [nn En].
    assert (G : exists j st', add_vertex inv m o st = Ok (j, st') /\
       length (m_normals (c_mesh st')) = length (m_vertices (c_mesh st')) /\
       length (m_colors (c_mesh st')) = (if hc then length (m_vertices (c_mesh st')) else 0)%nat).
    { unfold add_vertex. rewrite Ev. cbn [of_opt rbind]. rewrite Ec. cbn [of_opt rbind].
      destruct (alookup cell (c_uniques st)) as [j|] eqn:L.
      - rewrite En. apply I2 in L. apply at_cell_lt in L.
        destruct (upd_nth_some _ (fun n0 => pt_add n0 nn) (Z.to_nat j) (m_normals (c_mesh st))) as [ns [E1 E2]]; [lia|].
        rewrite E1. cbn [rbind snd c_mesh m_vertices c_next]. rewrite I1, Z.eqb_refl.
        eexists _, _. split; [reflexivity|]. cbn [c_mesh m_vertices m_normals m_colors]. split; [lia|exact Hc].
      - assert (Z : exists c1, (if nonempty (m_colors m) then
                  match nth_error (m_colors m) o with Some c => Ok [c] | None => Abort end
                else Ok []) = Ok c1 /\ length c1 = (if hc then 1 else 0)%nat).
        { destruct hc.
          - rewrite M1, <- Hcol in Ho. destruct (nth_some _ _ _ Ho) as [cc E]. rewrite E.
            destruct (m_colors m); [destruct o; discriminate|]. now exists [cc].
          - rewrite Hcol. now exists []. }
        destruct Z as [c1 [-> Lc]]. cbn [rbind]. rewrite En.
        destruct (m_normals m) as [|x y] eqn:Nn; [destruct o; discriminate|]. cbn [nonempty rbind snd c_mesh m_vertices c_next].
        rewrite app_length, Nat2Z.inj_add, <- I1. cbn [length]. change (Z.of_nat 1) with 1. rewrite Z.eqb_refl.
        eexists _, _. split; [reflexivity|]. cbn [c_mesh m_vertices m_normals m_colors].
        rewrite !app_length, Lc, Hc. cbn [length]. split; [lia|]. destruct hc; lia. }
    destruct G as [j [st' [E [A B]]]]. exists j, st'. split; [exact E|]. split; [|auto].
    destruct (add_vertex_ok inv m o st P j st' Hi E) as [v' [c' [_ [_ [X _]]]]]. eauto.
  Qed.
  Lemma add_vertices_succeeds : forall m olds st, mesh_in m -> sinv st ->
    Forall (fun o => (o < length (m_vertices m))%nat) olds ->
    exists js st', add_vertices inv m olds st = Ok (js, st') /\ sinv st'.
  Proof.
    intros m olds. induction olds as [|o olds IH]; intros st Hm Hs F.
    - exists [], st. auto.
    - inversion F; subst. destruct (add_vertex_succeeds m st o Hm Hs H1) as [j [st1 [E1 S1]]].
      destruct (IH st1 Hm S1 H2) as [js [st2 [E2 S2]]]. exists (j :: js), st2. cbn [add_vertices].
      rewrite E1. cbn [rbind snd fst]. rewrite E2. auto.
  Qed.
  Lemma add_triangles_succeeds : forall js next n is, length is = (3 * n)%nat ->
    Forall (fun i => 0 <= i < Z.of_nat (length js)) is -> Forall (fun j => j < next) js ->
    exists out, add_triangles js next is = Ok out.
  Proof.
    intros js next n. induction n as [|n IH]; intros is L F G.
    { destruct is; [|cbn in L; lia]. now exists []. }
    destruct is as [|a [|b [|c is]]]; cbn [length] in L; try lia.
    inversion F as [|? ? Fa F1]; subst. inversion F1 as [|? ? Fb F2]; subst. inversion F2 as [|? ? Fc F3]; subst.
    assert (R : forall i, 0 <= i < Z.of_nat (length js) -> exists j, remap js next i = Ok j).
    { intros i Hi. unfold remap. rewrite (proj2 (Z.ltb_lt _ _)) by lia.
      destruct (nth_some _ js (Z.to_nat i)) as [j Ej]; [lia|]. rewrite Ej. cbn [of_opt rbind].
      rewrite Forall_forall in G. specialize (G j (nth_error_In _ _ Ej)).
      rewrite (proj2 (Z.ltb_lt _ _)) by exact G. now exists j. }
    destruct (R a Fa) as [ja Ea], (R b Fb) as [jb Eb], (R c Fc) as [jc Ec].
    destruct (IH is ltac:(lia) F3 G) as [out E]. cbn [add_triangles]. rewrite Ea, Eb, Ec, E. cbn [rbind]. eauto.
  Qed.
  Lemma connect_mesh_succeeds : forall m st, mesh_in m -> sinv st -> exists st', connect_mesh inv m st = Ok st' /\ sinv st'.
  Proof.
    intros m st Hm Hs. unfold connect_mesh. destruct (nonempty (m_vertices m)) eqn:N; cbn [negb]; [|eauto].
    pose proof Hm as [[M1 [M2 [[q M3] M4]]] _].
    rewrite (proj2 (Nat.eqb_eq _ _)) by (symmetry; exact M2).
    rewrite M3, Nat.mul_comm, Nat.mod_mul by lia. cbn [Nat.eqb andb].
    destruct (add_vertices_succeeds m (seq 0 (length (m_vertices m))) st Hm Hs) as [js [st1 [E S1]]].
    { apply Forall_forall. intros o Ho. apply in_seq in Ho. lia. }
    rewrite Nat.mul_comm, <- M3, E. cbn [rbind fst snd].
    destruct Hs as [[P Hi] _].
    destruct (add_vertices_ok inv m _ st P js st1 Hi E) as [vs [A [B [C _]]]].
    assert (vs = m_vertices m) as -> by (apply (seq_vertices vs vs []) || apply (seq_vertices _ vs []); exact A).
    destruct (add_triangles_succeeds js (c_next st1) q (m_indices m)) as [tris T].
    { now rewrite M2. }
    { apply Forall2_len in C. rewrite <- C. exact M4. }
    { destruct B as [B1 _]. clear -C B1. induction C as [|v j l l' H C IH]; constructor; [|exact IH].
      destruct H as [c [_ H]]. apply at_cell_lt in H. lia. }
    rewrite T. cbn [rbind]. eexists. split; [reflexivity|].
    destruct S1 as [[P1 S1] [S2 S3]]. split; [exists P1; exact S1|]. cbn [c_mesh m_vertices m_normals m_colors].
    rewrite map_length. auto.
  Qed.
  Lemma connect_meshes_succeeds : forall ms st, Forall mesh_in ms -> sinv st ->
    exists st', connect_meshes inv ms st = Ok st' /\ sinv st'.
  Proof.
    induction ms as [|m ms IH]; intros st F Hs; [exists st; auto|]. inversion F; subst.
    destruct (connect_mesh_succeeds m st H1 Hs) as [st1 [E S1]]. cbn [connect_meshes]. rewrite E. cbn [rbind].
    now apply IH.
  Qed.
End Success.

Lemma connected_succeeds : forall hc ms thr o u,
  Forall (mesh_in (ddiv d1 (f64_of_f32 thr)) hc) ms ->
  exists out, createConnectedMesh ms thr (MkMesh [] [] [] [] o u) = Ok out /\
    length (m_normals out) = length (m_vertices out) /\
    length (m_colors out) = (if hc then length (m_vertices out) else 0)%nat.
Proof.
  intros hc ms thr o u F. unfold createConnectedMesh.
  destruct (connect_meshes_succeeds (ddiv d1 (f64_of_f32 thr)) hc ms (MkC (MkMesh [] [] [] [] o u) [] 0) F) as [st [E [_ [A B]]]].
  { split; [|cbn; split; [reflexivity|now destruct hc]]. exists []. split; [reflexivity|]. cbn. split; [|split; tauto].
    intros cell j. split; [discriminate|]. intros [_ [v [X _]]]. destruct (Z.to_nat j); discriminate. }
  rewrite E. cbn [rbind]. rewrite A, Nat.eqb_refl, orb_true_r, andb_true_r.
  exists (c_mesh st). split; [|auto].
  destruct hc.
  - rewrite B, Nat.eqb_refl, orb_true_r. reflexivity.
  - destruct (m_colors (c_mesh st)); [reflexivity|discriminate].
Qed.
