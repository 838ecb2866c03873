(** Lemmas for C107: normals of any triangle are at most about 1 long, vertices fit the merge cells. *)
From Coq Require Import ZArith Reals List Bool Lia Lra.
From Flocq Require Import Core Binary.
From Verif Require Import F32 F32_lemmas F32_err Types Index Voxel Assoc Assoc_lemmas Layer Ray Update_spec Merge_proofs Vec_proofs Update_proofs Dist_proofs
  Marching MeshInt Mesh_spec Connect_spec Connect_normals Facing_spec Facing_proofs Index_float ColorMap_proofs Ply Ply_spec
  MeshMsg_spec MeshInt_proofs Interp_spec MeshColor_spec MeshReach_proofs MeshColor_proofs P_Mesh.
Import ListNotations.
Open Scope R_scope.
Ltac Zify.zify_post_hook ::= idtac.

(** ** normals *)
Lemma sum_up : forall a b e, (-148 <= e <= 100)%Z -> ffin a = true -> ffin b = true -> 0 <= FR a <= bpow radix2 e -> 0 <= FR b <= bpow radix2 e ->
  ffin (fadd a b) = true /\ FR a <= FR (fadd a b) /\ FR b <= FR (fadd a b) <= bpow radix2 (e + 1) .
Proof.
  intros a b e He Fa Fb A B. destruct (add_up a b e Fa Fb ltac:(lia) ltac:(lia) A B) as (F & G). split; [exact F|].
  assert (S : 0 <= FR a + FR b <= bpow radix2 (e + 1)) by (rewrite bpow_plus; change (bpow radix2 1) with 2; lra).
  destruct (fadd_R a b Fa Fb) as (E & _). { apply rnd32_small. rewrite Rabs_pos_eq by lra. apply Rle_trans with (1 := proj2 S). apply bpow_le. lia. }
  split; [|split; [|apply G]]; rewrite E; [rewrite <- (rnd32_FR a) at 1|rewrite <- (rnd32_FR b) at 1]; apply rnd32_le; lra.
Qed.
Lemma share_modest : forall c z, fin_upto 45 c -> ffin z = true -> 0 < FR z -> FR (fmul c c) <= FR z ->
  ffin (fdiv c (fsqrt z)) = true /\ Rabs (FR (fdiv c (fsqrt z))) <= 2.
Proof.
  intros c z Hc Fz Pz L. destruct (square_err c Hc) as (_ & _ & E). apply Rabs_le_inv in E.
  pose proof (pos_float_min z Pz) as M. assert (T : t32r <= FR z / 2).
  { unfold t32r. change (-149)%Z with (-150 + 1)%Z in M. rewrite (bpow_plus radix2 (-150) 1) in M. change (bpow radix2 1) with 2 in M. lra. }
  assert (Q : 0 <= FR c * FR c) by nra. assert (C2 : FR c * FR c <= 1.6 * FR z) by (unfold u32r in E; lra).
  destruct (fsqrt_rel z Fz ltac:(lra)) as (Fq & e & He & Eq). set (q := FR (fsqrt z)) in *.
  pose proof (sqrt_lt_R0 _ Pz) as SP. pose proof (sqrt_sqrt (FR z) ltac:(lra)) as SS. set (r := sqrt (FR z)) in *.
  apply Rabs_le_inv in He. assert (Q1 : 0.99 * r <= q) by (rewrite Eq; unfold u32r in He; nra).
  assert (Q0 : 0 < q) by lra. assert (CA : Rabs (FR c) <= 2 * q). { apply Rabs_le. nra. }
  assert (D : Rabs (FR c / q) <= bpow radix2 1).
  { unfold Rdiv. rewrite Rabs_mult, Rabs_inv, (Rabs_pos_eq q) by lra. apply (Rmult_le_reg_r q); [exact Q0|]. rewrite Rmult_assoc, Rinv_l by lra.
    change (bpow radix2 1) with 2. lra. }
  destruct (fdiv_R c (fsqrt z) (proj1 Hc)) as (ED & FD); [fold q; lra| |].
  { fold q. apply rnd32_small. apply Rle_trans with (1 := D). apply bpow_le. lia. }
  split; [exact FD|]. rewrite ED. fold q. apply Rabs_rnd_bpow in D; [exact D|lia].
Qed.
Lemma normalized_modest : forall v, all3 (fin_upto 45) v -> modest (normalized3 v).
Proof.
  intros [x y z] (X & Y & Z). cbn [vx vy vz] in *. unfold normalized3, sqnorm. cbn [vx vy vz].
  assert (SQ : forall a, fin_upto 45 a -> ffin (fmul a a) = true /\ 0 <= FR (fmul a a) <= bpow radix2 91).
  { intros a Ha. destruct (square_err a Ha) as (F & B & _). split; [exact F|]. split; [|apply Rabs_le_inv in B; apply B].
    destruct (fmul_R a a (proj1 Ha) (proj1 Ha)) as (E & _).
    { apply rnd32_small. destruct Ha as (_ & Ha). apply Rle_trans with (bpow radix2 90); [|apply bpow_le; lia]. apply Rabs_mul_bpow with 45%Z 45%Z; auto. lia. }
    rewrite E, <- rnd32_0. apply rnd32_le. nra. }
  destruct (SQ x X) as (Fx & Bx), (SQ y Y) as (Fy & By), (SQ z Z) as (Fz & Bz).
  destruct (sum_up _ _ 91 ltac:(lia) Fy Fz By Bz) as (F1 & L1 & L2 & U1).
  assert (Bx' : 0 <= FR (fmul x x) <= bpow radix2 92) by (split; [apply Bx|]; apply Rle_trans with (1 := proj2 Bx); apply bpow_le; lia).
  destruct (sum_up _ _ 92 ltac:(lia) Fx F1 Bx' ltac:(split; [lra|exact U1])) as (F2 & L3 & L4 & _).
  set (q := fadd (fmul x x) (fadd (fmul y y) (fmul z z))) in *.
  destruct (fgt q f0) eqn:G.
  - apply (flt_R f0 q eq_refl F2) in G. change (FR f0) with 0 in G.
    unfold modest, all3, map3. cbn [vx vy vz]. split; [|split]; apply share_modest; auto; lra.
  - assert (N : FR q <= 0). { destruct (Rle_or_lt (FR q) 0) as [N | N]; [exact N|]. apply (flt_R f0 q eq_refl F2) in N. unfold fgt in G. congruence. }
    assert (S : forall c, fin_upto 45 c -> FR (fmul c c) <= 0 -> ffin c = true /\ Rabs (FR c) <= 2).
    { intros c Hc Hz. split; [apply Hc|]. destruct (square_err c Hc) as (_ & _ & E). apply Rabs_le_inv in E. pose proof t32r_small.
      assert (FR c * FR c <= 1) by (unfold u32r in E; nra). apply Rabs_le. nra. }
    unfold modest, all3. cbn [vx vy vz]. split; [|split]; apply S; auto; lra.
Qed.
Lemma det_upto : forall a b c d, fin_upto 21 a -> fin_upto 21 b -> fin_upto 21 c -> fin_upto 21 d -> fin_upto 45 (fsub (fmul a b) (fmul c d)).
Proof.
  assert (P : forall a b, fin_upto 21 a -> fin_upto 21 b -> fin_upto 42 (fmul a b)).
  { intros a b (Fa & A) (Fb & B). assert (X : Rabs (FR a * FR b) <= bpow radix2 42) by (apply Rabs_mul_bpow with 21%Z 21%Z; auto; lia).
    destruct (fmul_R a b Fa Fb) as (E & F). { apply rnd32_small. apply Rle_trans with (1 := X). apply bpow_le. lia. }
    split; [exact F|]. rewrite E. apply Rabs_rnd_bpow; [lia|exact X]. }
  intros a b c d A B C D. destruct (P a b A B) as (F1 & X1), (P c d C D) as (F2 & X2).
  assert (X : Rabs (FR (fmul a b) - FR (fmul c d)) <= bpow radix2 45) by (apply Rabs_sub_bpow with 42%Z 42%Z; auto; lia).
  destruct (fsub_R _ _ F1 F2) as (E & F). { apply rnd32_small. apply Rle_trans with (1 := X). apply bpow_le. lia. }
  split; [exact F|]. rewrite E. apply Rabs_rnd_bpow; [lia|exact X].
Qed.
Lemma diff_upto : forall a b, fin_upto 20 a -> fin_upto 20 b -> fin_upto 21 (fsub a b).
Proof.
  intros a b (Fa & A) (Fb & B). assert (X : Rabs (FR a - FR b) <= bpow radix2 21) by (apply Rabs_sub_bpow with 20%Z 20%Z; auto; lia).
  destruct (fsub_R a b Fa Fb) as (E & F). { apply rnd32_small. apply Rle_trans with (1 := X). apply bpow_le. lia. }
  split; [exact F|]. rewrite E. apply Rabs_rnd_bpow; [lia|exact X].
Qed.
(** the normal of any triangle is finite and at most 2 in every component, also of a degenerate one *)
Lemma face_modest : forall p q r, all3 (fin_upto 20) p -> all3 (fin_upto 20) q -> all3 (fin_upto 20) r -> modest (face_normal p q r).
Proof.
  intros [p1 p2 p3] [q1 q2 q3] [r1 r2 r3] (P1 & P2 & P3) (Q1 & Q2 & Q3) (R1 & R2 & R3). cbn [vx vy vz] in *.
  apply normalized_modest. unfold cross3, pt_sub, zip3, all3. cbn [vx vy vz]. split; [|split]; apply det_upto; apply diff_upto; assumption.
Qed.
Lemma normals_modest : forall vs ns, normals_of fn_rel vs ns -> Forall (all3 (fin_upto 20)) vs -> Forall modest ns.
Proof.
  intros vs ns H. induction H as [|p q r n vs ns E _ IH]; intros F; [constructor|].
  inversion F as [|? ? Hp F1]; subst. inversion F1 as [|? ? Hq F2]; subst. inversion F2 as [|? ? Hr F3]; subst.
  assert (M : modest n) by (red in E; subst n; now apply face_modest). constructor; [exact M|]. constructor; [exact M|]. constructor; [exact M|auto].
Qed.

(** ** merge cells *)
Lemma inv_default : DR (ddiv d1 (f64_of_f32 default_threshold)) <= bpow radix2 34 /\ 0 <= DR (ddiv d1 (f64_of_f32 default_threshold)) /\ dfin (ddiv d1 (f64_of_f32 default_threshold)) = true.
Proof.
  assert (F : dfin (ddiv d1 (f64_of_f32 default_threshold)) = true) by (vm_compute; reflexivity).
  destruct (f64_of_Z_R (2 ^ 34) ltac:(lia)) as (E1 & F1). assert (F0 : dfin d0 = true) by reflexivity.
  split; [|split; [|exact F]].
  - replace (bpow radix2 34) with (IZR (2 ^ 34)) by reflexivity. rewrite <- E1. apply dle_R; [exact F|exact F1|vm_compute; reflexivity].
  - change 0 with (DR d0). apply dle_R; [exact F0|exact F|vm_compute; reflexivity].
Qed.
Lemma cell_fits : forall x, fin_upto 20 x -> cell_axis (ddiv d1 (f64_of_f32 default_threshold)) x <> None.
Proof.
  intros x (Fx & Bx). destruct inv_default as (I1 & I2 & I3). set (inv := ddiv d1 (f64_of_f32 default_threshold)) in *. clearbody inv.
  destruct (f64_of_f32_R x Fx) as (E1 & F1). unfold cell_axis.
  assert (X : Rabs (DR (f64_of_f32 x) * DR inv) <= bpow radix2 54).
  { rewrite E1. apply Rabs_mul_bpow with 20%Z 34%Z; auto; [|lia]. rewrite Rabs_pos_eq; auto. }
  destruct (dmul_R _ inv F1 I3) as (E & F). { apply rnd64_small. apply Rle_trans with (1 := X). apply bpow_le. lia. }
  assert (Y : Rabs (DR (dmul (f64_of_f32 x) inv)) <= bpow radix2 54).
  { rewrite E. unfold rnd64. apply abs_round_le_generic; auto with typeclass_instances. apply generic_format_bpow. unfold FLT_exp. lia. }
  set (y := dmul (f64_of_f32 x) inv) in *. clearbody y. clear - F Y.
  destruct y as [s|s|s p Hp|s m e He]; try discriminate F; cbn [droundZ].
  - discriminate.
  - assert (EV : DR (B754_finite 53 1024 s m e He) = IZR (sgnm s m) * bpow radix2 e) by (symmetry; apply sgnm_F2R). rewrite EV in Y.
    pose proof (Zround_me_half (sgnm s m) e) as H. unfold to_int64, in_range.
    assert (B : (Z.abs (Zround_me (sgnm s m) e) <= 2 ^ 55)%Z).
    { apply le_IZR. rewrite abs_IZR. replace (IZR (2 ^ 55)) with (bpow radix2 54 * 2) by (change (bpow radix2 54) with (IZR 18014398509481984); rewrite <- mult_IZR; reflexivity).
      assert (1 <= bpow radix2 54) by (change 1 with (bpow radix2 0); apply bpow_le; lia).
      apply Rabs_le_inv in Y. apply Rabs_le_inv in H. apply Rabs_le. lra. }
    change (2 ^ 55)%Z with 36028797018963968%Z in B.
    destruct (Z.leb_spec (- 2 ^ 63) (Zround_me (sgnm s m) e)); [|change (- 2 ^ 63)%Z with (-9223372036854775808)%Z in *; lia].
    destruct (Z.leb_spec (Zround_me (sgnm s m) e) (2 ^ 63 - 1)); [discriminate|change (2 ^ 63 - 1)%Z with 9223372036854775807%Z in *; lia].
Qed.

(** ** vertices *)
Section Vertices.
  Context {k : vkind}.
  Variables (l : Layer k) (mw : f32).
  Hypothesis BL : built_layer l.
  Hypothesis BR : blocks_in_range l.
  Hypothesis SD : sane_sdf l mw.
  Hypothesis SZ : FR (l_size l) <= 16.
  Let n := l_vps l.
  Let s := l_size l.
  Lemma vertex_upto : forall p bb v oa ob, (1 <= n <= 2 ^ 10)%Z -> sane_size s -> ((Z.abs bb + 2) * n <= 32768)%Z -> (0 <= v < n)%Z -> (0 <= oa <= 1)%Z -> (0 <= ob <= 1)%Z ->
    ffin p = true /\ IZR (bb * n + v + Z.min oa ob) + 45 / 100 <= FR p / FR s <= IZR (bb * n + v + Z.max oa ob) + 55 / 100 -> fin_upto 20 p.
  Proof.
    intros p bb v oa ob Hn Hs Hb Hv Ha Hc (F & B). split; [exact F|]. pose proof (sane_pos s Hs) as Sp.
    pose proof (near_bound n bb v (Z.min oa ob) ltac:(lia) Hb Hv ltac:(lia)) as N1. pose proof (near_bound n bb v (Z.max oa ob) ltac:(lia) Hb Hv ltac:(lia)) as N2.
    apply IZR_le in N1, N2. rewrite abs_IZR in N1, N2. apply Rabs_le_inv in N1, N2.
    assert (T : Rabs (FR p / FR s) <= 65536) by (apply Rabs_le; lra).
    replace (FR p) with (FR p / FR s * FR s) by (field; lra). rewrite Rabs_mult, (Rabs_pos_eq (FR s)) by lra.
    replace (bpow radix2 20) with (65536 * 16) by (change (bpow radix2 20) with 1048576; lra). apply Rmult_le_compat; auto using Rabs_pos; lra.
  Qed.
  Lemma cube_upto : forall bi b v, l_get l bi = Some b -> (0 <= vx v < n)%Z -> (0 <= vy v < n)%Z -> (0 <= vz v < n)%Z ->
    Forall (all3 (fin_upto 20)) (cube_points l mw b bi v).
  Proof.
    intros bi b v Eb Hx Hy Hz. unfold cube_points. destruct (cube_values l mw bi v) as [ss|] eqn:Ev; [|constructor].
    assert (VAL : forall i, (i < 8)%nat -> sdf_at l mw (corner (global_of n bi v) i) = Some (nth_sdf ss i)).
    { intros i Hi. unfold cube_values in Ev. pose proof (collect_len _ _ _ Ev) as L. rewrite map_length in L.
      pose proof (collect_nth l _ _ _ i f0 Ev) as X. rewrite L in X. specialize (X Hi). fold (nth_sdf ss i) in X. fold n in X.
      rewrite nth_error_map in X. assert (EE : nth_error eight i = Some i) by (do 8 (destruct i as [|i]; [reflexivity|]); lia).
      rewrite EE in X. cbn in X. congruence. }
    assert (OK : forall i, (i < 8)%nat -> coord_ok (nth_sdf ss i)) by (intros i Hi; eapply SD; exact (VAL i Hi)).
    apply Forall_forall. intros p Hp. apply in_flat_map in Hp. destruct Hp as (t & Ht & Hp).
    assert (Ee : exists e, In e (triangle_edges t) /\
               p = edge_point (corner_coords (l_size l) (computeCoordinatesFromVoxelIndex (b_origin b) (b_size b) v)) (nth_sdf ss) e).
    { destruct t as [[e1 e2] e3]. cbn in Hp. destruct Hp as [<- | [<- | [<- | []]]]; eexists; (split; [|reflexivity]); cbn; auto. }
    destruct Ee as (e & He & ->). destruct (C33_edges (nth_sdf ss)) as (Sc & _). destruct (Sc t e Ht He) as (L12 & Ch).
    destruct (edge_ends_lt e L12) as (La & Lb). unfold sign_change in Ch. unfold edge_point.
    assert (EP : edge_ends e = (fst (edge_ends e), snd (edge_ends e))) by (destruct (edge_ends e); reflexivity).
    rewrite EP in Ch |- *. set (ea := fst (edge_ends e)) in *. set (ec := snd (edge_ends e)) in *.
    destruct (C37_vertex_on_edge _ _ _ _ (cc_ok l BL BR bi b Eb v ea Hx Hy Hz) (cc_ok l BL BR bi b Eb v ec Hx Hy Hz) (OK ea La) (OK ec Lb) Ch)
      as (tau & Ht1 & _ & S1 & S2 & S3).
    cbn zeta in S1, S2, S3. fold s. rewrite !(cc_axes l BL bi b Eb) in S1, S2, S3 |- *. cbn [vx vy vz] in S1, S2, S3. fold n s in S1, S2, S3.
    pose proof BL as (Hs & Hn & _). fold n in Hn. fold s in Hs. destruct (BR bi b Eb) as (B1 & B2 & B3). fold n in B1, B2, B3.
    destruct (offset_01 l ea) as (O1 & O2 & O3). destruct (offset_01 l ec) as (P1 & P2 & P3). unfold all3.
    split; [|split].
    - eapply vertex_upto; [exact Hn|exact Hs|exact B1|exact Hx|exact O1|exact P1|]. eapply vertex_val; eauto.
    - eapply vertex_upto; [exact Hn|exact Hs|exact B2|exact Hy|exact O2|exact P2|]. eapply vertex_val; eauto.
    - eapply vertex_upto; [exact Hn|exact Hs|exact B3|exact Hz|exact O3|exact P3|]. eapply vertex_val; eauto.
  Qed.
  Lemma block_upto : forall bi, Forall (all3 (fin_upto 20)) (block_points l mw bi).
  Proof.
    intros bi. unfold block_points. destruct (l_get l bi) as [b|] eqn:Eb; [|constructor]. apply Forall_forall. intros p Hp. apply in_flat_map in Hp.
    destruct Hp as (v & Hv & Hp). apply C35_each_cube_once in Hv. destruct Hv as (Hx & Hy & Hz).
    pose proof (cube_upto bi b v Eb Hx Hy Hz) as F. rewrite Forall_forall in F. now apply F.
  Qed.
End Vertices.
