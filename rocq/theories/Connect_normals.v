(** Normals and colours of connected meshes. *)
From Coq Require Import ZArith List Bool Reals Lra Lia.
From Flocq Require Import Core IEEE754.Binary.
From Verif Require Import F32 F32_lemmas F32_err Types Index_float Voxel Assoc Assoc_lemmas Layer Ray Update Update_spec Merge_proofs Dist_proofs Vec_proofs Marching MeshInt Mesh_spec Connect_spec Connect_proofs.
Import ListNotations.
Open Scope R_scope.
Ltac Zify.zify_post_hook ::= idtac.

Definition held (n : pt3) : Prop := all3 (fin_upto 26) n.
Lemma top_add : rnd32 (bpow radix2 26 + 2) = bpow radix2 26.
Proof.
  assert (B1 : FR (f32_lit 1 26) = bpow radix2 26) by (unfold FR; cbn; unfold F2R; cbn [Fnum Fexp bpow]; change (Z.pow_pos radix2 3) with 8%Z; change (Z.pow_pos radix2 26) with 67108864%Z; lra).
  assert (B2 : FR (f32_of_Z 2) = 2) by (apply (f32_of_Z_R 2); lia).
  rewrite <- B1, <- B2.
  destruct (fadd_R (f32_lit 1 26) (f32_of_Z 2) eq_refl eq_refl) as (E & _).
  { apply rnd32_small. rewrite B1, B2. rewrite Rabs_pos_eq by (pose proof (bpow_ge_0 radix2 26); lra).
    apply Rle_trans with (bpow radix2 27); [|apply bpow_le; lia]. change (bpow radix2 27) with (IZR 134217728). change (bpow radix2 26) with (IZR 67108864). lra. }
  rewrite <- E. unfold FR. rewrite <- !FF2R_B2FF. f_equal.
Qed.
Lemma sat_add : forall a b, fin_upto 26 a -> ffin b = true -> Rabs (FR b) <= 2 -> fin_upto 26 (fadd a b).
Proof.
  intros a b (Fa & Ba) Fb Bb.
  assert (S : Rabs (FR a + FR b) <= bpow radix2 26 + 2) by (eapply Rle_trans; [apply Rabs_triang|lra]).
  assert (R : Rabs (rnd32 (FR a + FR b)) <= bpow radix2 26). { rewrite <- rnd32_abs, <- top_add. apply rnd32_le. exact S. }
  destruct (fadd_R a b Fa Fb) as (E & F); [eapply Rle_lt_trans; [exact R|]; apply bpow_lt; lia|]. split; [exact F|]. rewrite E. exact R.
Qed.
Lemma held_add : forall n m, held n -> modest m -> held (pt_add n m).
Proof.
  intros [a b c] [x y z] (A & B & C) ((X1 & X2) & (Y1 & Y2) & (Z1 & Z2)). unfold held, all3, pt_add, zip3 in *. cbn [vx vy vz] in *.
  split; [|split]; apply sat_add; assumption.
Qed.
Lemma modest_held : forall n, modest n -> held n.
Proof.
  assert (T : 2 <= bpow radix2 26) by (change (bpow radix2 26) with (IZR 67108864); lra).
  intros [x y z] ((X1 & X2) & (Y1 & Y2) & (Z1 & Z2)). unfold held, all3, fin_upto in *. cbn [vx vy vz] in *. repeat split; try assumption; lra.
Qed.
Lemma sq_tiny : forall c e, ffin c = true -> (-70 <= e)%Z -> (e <= 30)%Z -> Rabs (FR c) <= bpow radix2 e ->
  ffin (fmul c c) = true /\ 0 <= FR (fmul c c) <= bpow radix2 (2 * e).
Proof.
  intros c e F L U B.
  assert (S : 0 <= FR c * FR c <= bpow radix2 (2 * e)).
  { split; [nra|]. replace (2 * e)%Z with (e + e)%Z by lia. rewrite bpow_plus. rewrite <- (Rabs_pos_eq (FR c * FR c)) by nra. rewrite Rabs_mult. apply Rmult_le_compat; try apply Rabs_pos; exact B. }
  destruct (fmul_R c c F F) as (E & G). { apply rnd32_small. rewrite Rabs_pos_eq by lra. apply Rle_trans with (1 := proj2 S). apply bpow_le. lia. }
  split; [exact G|]. rewrite E. split; [rewrite <- rnd32_0; apply rnd32_le; lra|].
  replace (bpow radix2 (2 * e)) with (rnd32 (1 * bpow radix2 (2 * e))) by (rewrite (rnd32_exact 1) by lia; ring). apply rnd32_le. lra.
Qed.
Lemma add_up : forall a b e, ffin a = true -> ffin b = true -> (-148 <= e)%Z -> (e <= 100)%Z -> 0 <= FR a <= bpow radix2 e -> 0 <= FR b <= bpow radix2 e ->
  ffin (fadd a b) = true /\ 0 <= FR (fadd a b) <= bpow radix2 (e + 1).
Proof.
  intros a b e F G L U A B. assert (S : 0 <= FR a + FR b <= bpow radix2 (e + 1)) by (rewrite bpow_plus; change (bpow radix2 1) with 2; lra).
  destruct (fadd_R a b F G) as (E & H). { apply rnd32_small. rewrite Rabs_pos_eq by lra. apply Rle_trans with (1 := proj2 S). apply bpow_le. lia. }
  split; [exact H|]. rewrite E. split; [rewrite <- rnd32_0; apply rnd32_le; lra|].
  replace (bpow radix2 (e + 1)) with (rnd32 (1 * bpow radix2 (e + 1))) by (rewrite (rnd32_exact 1) by lia; ring). apply rnd32_le. lra.
Qed.
Lemma sqnorm_tiny : forall n, all3 (fun c => ffin c = true /\ Rabs (FR c) <= bpow radix2 (-50)) n ->
  fgt (fsqrt (sqnorm n)) kEpsilon = false.
Proof.
  intros [x y z] ((X1 & X2) & (Y1 & Y2) & (Z1 & Z2)). unfold sqnorm. cbn [vx vy vz] in *.
  destruct (sq_tiny x (-50) X1 ltac:(lia) ltac:(lia) X2) as (Fx & Bx), (sq_tiny y (-50) Y1 ltac:(lia) ltac:(lia) Y2) as (Fy & By), (sq_tiny z (-50) Z1 ltac:(lia) ltac:(lia) Z2) as (Fz & Bz).
  destruct (add_up _ _ (2 * -50) Fy Fz ltac:(lia) ltac:(lia) By Bz) as (F1 & B1).
  assert (Bx' : 0 <= FR (fmul x x) <= bpow radix2 (2 * -50 + 1)) by (split; [lra|]; apply Rle_trans with (1 := proj2 Bx); apply bpow_le; lia).
  destruct (add_up _ _ (2 * -50 + 1) Fx F1 ltac:(lia) ltac:(lia) Bx' B1) as (F2 & B2).
  set (q := fadd (fmul x x) (fadd (fmul y y) (fmul z z))) in *. clearbody q.
  destruct (fsqrt_R q F2 (proj1 B2)) as (E & F). destruct (fgt (fsqrt q) kEpsilon) eqn:K; [|reflexivity]. exfalso.
  apply (flt_R kEpsilon (fsqrt q) eq_refl F) in K. rewrite E in K.
  assert (SQ : sqrt (FR q) <= bpow radix2 (-49)).
  { rewrite <- (sqrt_square (bpow radix2 (-49))) by apply bpow_ge_0. apply sqrt_le_1_alt. rewrite <- bpow_plus. exact (proj2 B2). }
  apply rnd32_le in SQ. replace (rnd32 (bpow radix2 (-49))) with (bpow radix2 (-49)) in SQ by (pose proof (rnd32_exact 1 (-49) ltac:(lia) ltac:(lia)) as X; rewrite !Rmult_1_l in X; symmetry; exact X).
  assert (KE : bpow radix2 (-49) < FR kEpsilon).
  { change (FR kEpsilon) with (IZR 8796093 * bpow radix2 (-43)). apply Rlt_trans with (1 * bpow radix2 (-43)); [rewrite Rmult_1_l; apply bpow_lt; lia|]. apply Rmult_lt_compat_r; [apply bpow_gt_0|lra]. }
  lra.
Qed.
Lemma unit_of_near : forall n a, near3 (9 * u32r) n a -> dotR a a = 1 -> unit_length n.
Proof.
  intros [x y z] [a b c] (F & X & Y & Z) D. split; [exact F|]. unfold dotR in D. cbn [vx vy vz] in *. unfold u32r in *.
  assert (A : Rabs a <= 1) by (apply Rabs_le; nra). assert (B : Rabs b <= 1) by (apply Rabs_le; nra). assert (C : Rabs c <= 1) by (apply Rabs_le; nra).
  assert (S : forall p q, Rabs (p - q) <= 9 * / 16777216 -> Rabs q <= 1 -> Rabs (p * p - q * q) <= / 500000).
  { intros p q H Q. replace (p * p - q * q) with ((p - q) * (p - q + 2 * q)) by ring. apply Rabs_le_inv in H. apply Rabs_le_inv in Q.
    eapply Rle_trans; [apply Rabs_prod with (B := 3); apply Rabs_le; [exact H|lra]|lra]. }
  pose proof (S _ _ X A) as SX. pose proof (S _ _ Y B) as SY. pose proof (S _ _ Z C) as SZ. apply Rabs_le_inv in SX, SY, SZ. apply Rabs_le. lra.
Qed.
Lemma renormalize_unit : forall n, held n -> unit_length (renormalize n) /\ modest (renormalize n).
Proof.
  assert (M : forall n, unit_length n -> modest n).
  { intros [x y z] ((F1 & F2 & F3) & D). cbn [vx vy vz] in *. apply Rabs_le_inv in D. unfold modest, all3. cbn [vx vy vz]. repeat split; try assumption; apply Rabs_le; nra. }
  intros n H. assert (U : unit_length (renormalize n)); [|split; [exact U|now apply M]]. unfold renormalize.
  destruct (fgt (fsqrt (sqnorm n)) kEpsilon) eqn:K.
  - assert (L : bpow radix2 (-50) <= normR (vecR n)).
    { destruct (Rle_or_lt (bpow radix2 (-50)) (normR (vecR n))) as [L | L]; [exact L|]. rewrite sqnorm_tiny in K; [discriminate|].
      destruct (comp_le_norm (vecR n)) as (B1 & B2 & B3). destruct n as [x y z]. destruct H as ((F1 & _) & (F2 & _) & (F3 & _)).
      unfold vecR, map3 in *. unfold all3. cbn [vx vy vz] in *. repeat split; try assumption; lra. }
    assert (H45 : all3 (fin_upto 45) n).
    { destruct n as [x y z]. destruct H as ((F1 & B1) & (F2 & B2) & (F3 & B3)). unfold all3, fin_upto. cbn [vx vy vz] in *.
      assert (T : bpow radix2 26 <= bpow radix2 45) by (apply bpow_le; lia). repeat split; try assumption; lra. }
    pose proof (normalized_err n H45 L) as N. destruct (norm_gen n H45 L) as (_ & G & _). unfold normalized3 in N. rewrite G in N.
    eapply unit_of_near; [exact N|]. unfold unitR, dotR, map3. cbn [vx vy vz].
    assert (NP : 0 < normR (vecR n)) by (pose proof (bpow_gt_0 radix2 (-50)); lra).
    assert (NN : normR (vecR n) * normR (vecR n) = dotR (vecR n) (vecR n)) by (unfold normR; apply sqrt_sqrt; apply dot_nn).
    unfold dotR in NN. set (r := normR (vecR n)) in *. set (p := vx (vecR n)) in *. set (q := vy (vecR n)) in *. set (w := vz (vecR n)) in *.
    replace (p / r * (p / r) + q / r * (q / r) + w / r * (w / r)) with ((p * p + q * q + w * w) / (r * r)) by (field; lra). rewrite <- NN. field. lra.
  - split; [repeat split|]. cbn [vx vy vz]. change (FR f0) with 0. replace (FR f1) with 1 by (symmetry; apply (f32_of_Z_R 1); lia). apply Rabs_le. lra.
Qed.

Definition ninv (colors : bool) (ms : list mesh) (st : cstate) : Prop :=
  Forall held (m_normals (c_mesh st)) /\
  (if colors then length (m_colors (c_mesh st)) = length (m_vertices (c_mesh st)) else m_colors (c_mesh st) = []) /\
  colored_from ms (c_mesh st).
Lemma Forall_upd : forall A (P : A -> Prop) n f l l', Forall P l -> (forall a, P a -> P (f a)) -> upd_nth n f l = Some l' -> Forall P l'.
Proof.
  intros A P n f l l' F H E. unfold upd_nth in E. destruct (nth_error l n) as [a|] eqn:N; [|discriminate]. injection E as <-.
  rewrite Forall_forall in F. apply Forall_app. split; [|constructor].
  - apply Forall_forall. intros x X. apply F. rewrite <- (firstn_skipn n l). apply in_app_iff. now left.
  - apply H, F. now apply nth_error_In in N.
  - apply Forall_forall. intros x X. apply F. rewrite <- (firstn_skipn (S n) l). apply in_app_iff. now right.
Qed.
Lemma add_vertex_n : forall inv colors ms m old st j st', In m ms -> combinable colors m -> Forall modest (m_normals m) ->
  ninv colors ms st -> add_vertex inv m old st = Ok (j, st') -> ninv colors ms st'.
Proof.
  intros inv colors ms m old st j st' IM C FN (I1 & I2 & I3) E. unfold add_vertex in E.
  apply rbind_ok in E. destruct E as [v [Ev E]]. apply of_opt_ok in Ev.
  apply rbind_ok in E. destruct E as [cell [Ec E]]. apply of_opt_ok in Ec.
  apply rbind_ok in E. destruct E as [r [Er E]].
  assert (R : snd r = st') by (destruct (_ =? _)%Z in E; [injection E as ->; reflexivity|discriminate]). subst st'. clear E.
  destruct (alookup cell (c_uniques st)) as [j0|] eqn:L.
  - destruct (nth_error (m_normals m) old) as [nn|] eqn:NN; [|discriminate].
    destruct (upd_nth _ _ _) as [ns|] eqn:U; [|discriminate]. injection Er as <-. cbn [snd c_mesh]. split; [|split; [exact I2|exact I3]].
    cbn [c_mesh m_normals]. eapply Forall_upd; [exact I1| |exact U]. intros a A. apply held_add; [exact A|]. rewrite Forall_forall in FN. apply FN. now apply nth_error_In in NN.
  - apply rbind_ok in Er. destruct Er as [c1 [Ec1 Er]]. apply rbind_ok in Er. destruct Er as [n1 [En1 Er]]. injection Er as <-. cbn [snd c_mesh].
    split; [|split].
    + cbn [c_mesh m_normals]. apply Forall_app. split; [exact I1|]. destruct (nonempty (m_normals m)); [|injection En1 as <-; constructor].
      destruct (nth_error (m_normals m) old) as [nn|] eqn:NN; [|discriminate]. injection En1 as <-. constructor; [|constructor]. apply modest_held. rewrite Forall_forall in FN. apply FN. now apply nth_error_In in NN.
    + cbn [c_mesh m_colors m_vertices]. destruct C as (C1 & C2). destruct colors.
      * rewrite !app_length, I2. f_equal. destruct (m_vertices m) as [|v0 vs]; [destruct old; discriminate|]. destruct (m_colors m) as [|c0 cs]; [discriminate|]. cbn [nonempty] in Ec1.
        destruct (nth_error (c0 :: cs) old); [|discriminate]. injection Ec1 as <-. reflexivity.
      * rewrite C2 in Ec1. cbn [nonempty] in Ec1. injection Ec1 as <-. rewrite I2. reflexivity.
    + intros i w c. cbn [c_mesh m_colors m_vertices]. intros Ew Ecc.
      destruct (Nat.lt_ge_cases i (length (m_vertices (c_mesh st)))) as [LT | GE].
      * rewrite nth_error_app1 in Ew by exact LT. destruct colors; [|rewrite I2 in Ecc].
        -- rewrite nth_error_app1 in Ecc by lia. eapply I3; eassumption.
        -- destruct C as (_ & C2). rewrite C2 in Ec1. cbn [nonempty] in Ec1. injection Ec1 as <-. destruct i; discriminate Ecc.
      * assert (i = length (m_vertices (c_mesh st))). { apply nth_error_Some_lt in Ew || (assert (X : nth_error (m_vertices (c_mesh st) ++ [v]) i <> None) by congruence; apply nth_error_Some in X; rewrite app_length in X; cbn [length] in X; lia). }
        subst i. rewrite nth_error_app2, Nat.sub_diag in Ew by lia. cbn in Ew. injection Ew as <-.
        exists m, old. split; [exact IM|]. split; [exact Ev|]. destruct C as (C1 & C2). destruct colors.
        -- rewrite nth_error_app2 in Ecc by lia. rewrite I2, Nat.sub_diag in Ecc. destruct (nonempty (m_colors m)); [|injection Ec1 as <-; discriminate].
           destruct (nth_error (m_colors m) old); [|discriminate]. injection Ec1 as <-. cbn in Ecc. exact Ecc.
        -- rewrite C2 in Ec1. cbn [nonempty] in Ec1. injection Ec1 as <-. rewrite I2 in Ecc. cbn in Ecc. destruct (length (m_vertices (c_mesh st))); discriminate.
Qed.
Lemma add_vertices_n : forall inv colors ms m olds st js st', In m ms -> combinable colors m -> Forall modest (m_normals m) ->
  ninv colors ms st -> add_vertices inv m olds st = Ok (js, st') -> ninv colors ms st'.
Proof.
  intros inv colors ms m olds. induction olds as [|o olds IH]; intros st js st' IM C F I E; cbn [add_vertices] in E.
  - injection E as _ <-. exact I.
  - apply rbind_ok in E. destruct E as ((j & st1) & E1 & E). apply rbind_ok in E. destruct E as ((js2 & st2) & E2 & E). cbn [fst snd] in *. injection E as _ <-.
    eapply IH; [exact IM|exact C|exact F| |exact E2]. eapply add_vertex_n; eassumption.
Qed.
Lemma connect_n : forall inv colors all ms st st', incl ms all -> Forall (combinable colors) ms -> Forall (fun m => Forall modest (m_normals m)) ms ->
  ninv colors all st -> Forall unit_length (m_normals (c_mesh st)) -> connect_meshes inv ms st = Ok st' ->
  ninv colors all st' /\ Forall unit_length (m_normals (c_mesh st')).
Proof.
  intros inv colors all ms. induction ms as [|m ms IH]; intros st st' IA C F I U E; cbn [connect_meshes] in E.
  - injection E as <-. auto.
  - apply rbind_ok in E. destruct E as (st1 & E1 & E). inversion C as [|? ? Cm Cs]; subst. inversion F as [|? ? Fm Fs]; subst.
    assert (S : ninv colors all st1 /\ Forall unit_length (m_normals (c_mesh st1))).
    { unfold connect_mesh in E1. destruct (negb (nonempty (m_vertices m))); [injection E1 as <-; auto|]. destruct (_ && _); [|discriminate].
      apply rbind_ok in E1. destruct E1 as ((js & st2) & E2 & E1). cbn [fst snd] in E1. apply rbind_ok in E1. destruct E1 as (tris & _ & E1). injection E1 as <-.
      destruct (add_vertices_n _ _ _ _ _ _ _ _ (IA m (or_introl eq_refl)) Cm Fm I E2) as (J1 & J2 & J3). cbn [c_mesh m_normals].
      assert (K : Forall (fun n => unit_length n /\ modest n) (map renormalize (m_normals (c_mesh st2)))).
      { apply Forall_forall. intros n N. apply in_map_iff in N. destruct N as (n0 & <- & N0). apply renormalize_unit. rewrite Forall_forall in J1. now apply J1. }
      split; [|eapply Forall_impl; [|exact K]; intros n N; apply N]. split; [|split; [exact J2|exact J3]].
      cbn [c_mesh m_normals]. eapply Forall_impl; [|exact K]. intros n N. apply modest_held, N. }
    destruct S as (S1 & S2). apply (IH st1 st'); auto. intros x X. apply IA. now right.
Qed.
Theorem connected_n : forall colors ms threshold origin updated out, Forall (combinable colors) ms -> Forall (fun m => Forall modest (m_normals m)) ms ->
  createConnectedMesh ms threshold (MkMesh [] [] [] [] origin updated) = Ok out ->
  Forall unit_length (m_normals out) /\ colored_from ms out.
Proof.
  intros colors ms thr o u out C F E. unfold createConnectedMesh in E. apply rbind_ok in E. destruct E as (st & E1 & E).
  destruct (_ && _) in E; [|discriminate]. injection E as <-.
  edestruct (connect_n (ddiv d1 (f64_of_f32 thr)) colors ms ms) as ((J1 & J2 & J3) & J4); [apply incl_refl|exact C|exact F| | |exact E1|].
  - split; [constructor|]. split; [destruct colors; reflexivity|]. intros j v c H. cbn in H. destruct j; discriminate.
  - constructor.
  - auto.
Qed.
