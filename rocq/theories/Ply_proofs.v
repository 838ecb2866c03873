(** Lemmas about PLY files. *)
From Coq Require Import String ZArith List Bool Reals Lra Lia.
From Flocq Require Import Core IEEE754.Binary IEEE754.Bits.
From Verif Require Import F32 Types Voxel Layer Marching MeshInt Mesh_spec Ply Ply_spec.
Import ListNotations.
Open Scope Z_scope.

(** *** printed numbers *)
Lemma quot_even_near : forall n d, 0 < d -> (Rabs (IZR (quot_even n d) - IZR n / IZR d) <= / 2)%R.
Proof.
  intros n d P. pose proof (Z.div_mod n d ltac:(lia)) as E. pose proof (Z.mod_pos_bound n d P) as B.
  unfold quot_even. remember (n / d) as q. remember (n mod d) as r. clear Heqq Heqr.
  assert (PD : (0 < IZR d)%R) by (apply IZR_lt; lia).
  assert (V : (IZR n / IZR d = IZR q + IZR r / IZR d)%R).
  { rewrite E, plus_IZR, mult_IZR. field. lra. }
  assert (R0 : (0 <= IZR r / IZR d)%R).
  { apply Rmult_le_pos; [apply IZR_le; lia|]. left. now apply Rinv_0_lt_compat. }
  assert (HR : forall a, (IZR r <= a * IZR d -> IZR r / IZR d <= a)%R).
  { intros a A. apply (Rmult_le_reg_r (IZR d)); [exact PD|]. unfold Rdiv. rewrite Rmult_assoc, Rinv_l by lra. lra. }
  assert (HL : forall a, (a * IZR d <= IZR r -> a <= IZR r / IZR d)%R).
  { intros a A. apply (Rmult_le_reg_r (IZR d)); [exact PD|]. unfold Rdiv. rewrite Rmult_assoc, Rinv_l by lra. lra. }
  assert (R1 : (IZR r / IZR d <= 1)%R) by (apply HR; rewrite Rmult_1_l; apply IZR_le; lia).
  rewrite V. destruct (Z.compare_spec (2 * r) d) as [C | C | C].
  - assert (H : (IZR r / IZR d = / 2)%R).
    { apply Rle_antisym; [apply HR|apply HL]; rewrite <- C, mult_IZR; lra. }
    rewrite H. destruct (Z.even q); rewrite ?plus_IZR; apply Rabs_le; lra.
  - assert (H : (IZR r / IZR d <= / 2)%R).
    { apply HR. apply IZR_lt in C. rewrite mult_IZR in C. lra. }
    apply Rabs_le. lra.
  - assert (H : (/ 2 <= IZR r / IZR d)%R).
    { apply HL. apply IZR_lt in C. rewrite mult_IZR in C. lra. }
    rewrite plus_IZR. apply Rabs_le. lra.
Qed.
Lemma pow_split : forall b z, 0 < b ->
  (IZR (b ^ Z.max z 0) / IZR (b ^ Z.max (- z) 0) = powerRZ (IZR b) z)%R.
Proof.
  intros b z P. assert (NZ : (IZR b <> 0)%R) by (apply not_0_IZR; lia).
  destruct (Z_le_gt_dec 0 z) as [L | L].
  - rewrite Z.max_l by lia. rewrite (Z.max_r (- z)) by lia. change (b ^ 0) with 1.
    rewrite <- (Z2Nat.id z) by lia. rewrite <- pow_powerRZ. rewrite <- pow_IZR. field.
  - rewrite Z.max_r by lia. rewrite (Z.max_l (- z)) by lia. change (b ^ 0) with 1.
    replace z with (- Z.of_nat (Z.to_nat (- z))) by lia. rewrite Z.opp_involutive.
    rewrite powerRZ_neg'. rewrite <- pow_powerRZ. rewrite <- pow_IZR. unfold Rdiv. rewrite Rmult_1_l.
    reflexivity.
Qed.
Lemma in_units_near : forall m e d,
  (Rabs (IZR (in_units m e d) - IZR m * powerRZ 2 e * powerRZ 10 (- d)) <= / 2)%R.
Proof.
  intros m e d. unfold in_units.
  assert (P1 : 0 < 2 ^ Z.max (- e) 0) by (apply Z.pow_pos_nonneg; lia).
  assert (P2 : 0 < 10 ^ Z.max d 0) by (apply Z.pow_pos_nonneg; lia).
  assert (R1 : (IZR (2 ^ Z.max (- e) 0) <> 0)%R) by (apply not_0_IZR; lia).
  assert (R2 : (IZR (10 ^ Z.max d 0) <> 0)%R) by (apply not_0_IZR; lia).
  replace (IZR m * powerRZ 2 e * powerRZ 10 (- d))%R with
    (IZR (m * 2 ^ Z.max e 0 * 10 ^ Z.max (- d) 0) / IZR (2 ^ Z.max (- e) 0 * 10 ^ Z.max d 0))%R.
  - apply quot_even_near. apply Z.mul_pos_pos; assumption.
  - change 2%R with (IZR 2). change 10%R with (IZR 10). rewrite <- (pow_split 2 e), <- (pow_split 10 (- d)) by lia.
    rewrite Z.opp_involutive, !mult_IZR. field. split; assumption.
Qed.
Lemma find_seq : forall (g : Z -> bool) (h : nat -> Z) n k, (exists j, (k <= j < k + n)%nat /\ g (h j) = true) ->
  exists j, (k <= j < k + n)%nat /\ find g (map h (seq k n)) = Some (h j) /\ g (h j) = true /\
    forall i, (k <= i < j)%nat -> g (h i) = false.
Proof.
  intros g h n. induction n as [|n IH]; intros k (j & B & E); [lia|].
  cbn [seq map find]. destruct (g (h k)) eqn:G.
  - exists k. split; [lia|]. split; [reflexivity|]. split; [exact G|]. lia.
  - destruct (IH (S k)) as (j' & B' & F & E' & N).
    { exists j. split; [|exact E]. destruct (Nat.eq_dec j k) as [-> | K]; [congruence|lia]. }
    exists j'. split; [lia|]. split; [exact F|]. split; [exact E'|]. intros i Bi.
    destruct (Nat.eq_dec i k) as [-> | K]; [exact G|]. apply N. lia.
Qed.
Lemma p10_pos : forall z, (0 < powerRZ 10 z)%R.
Proof. intros. apply powerRZ_lt. lra. Qed.
Lemma print_close : forall m e d, 0 < m -> -149 <= e -> -50 <= d ->
  (d = -50 \/ 1000000 <= in_units m e (d - 1)) ->
  (Rabs (IZR (in_units m e d) * powerRZ 10 d - IZR m * powerRZ 2 e) <= IZR m * powerRZ 2 e / 199999)%R.
Proof.
  intros m e d M E D H. pose proof (in_units_near m e d) as N. pose proof (p10_pos d) as P. pose proof (p10_pos (- d)) as P'.
  set (X := (IZR m * powerRZ 2 e)%R) in *.
  assert (I : (powerRZ 10 (- d) * powerRZ 10 d = 1)%R).
  { rewrite <- powerRZ_add by lra. replace (- d + d) with 0 by lia. reflexivity. }
  assert (K : (Rabs (IZR (in_units m e d) * powerRZ 10 d - X) <= / 2 * powerRZ 10 d)%R).
  { replace (IZR (in_units m e d) * powerRZ 10 d - X)%R with
      ((IZR (in_units m e d) - X * powerRZ 10 (- d)) * powerRZ 10 d)%R.
    - rewrite Rabs_mult, (Rabs_pos_eq (powerRZ 10 d)) by lra. apply Rmult_le_compat_r; lra.
    - transitivity (IZR (in_units m e d) * powerRZ 10 d - X * (powerRZ 10 (- d) * powerRZ 10 d))%R; [ring|]. rewrite I. ring. }
  assert (L : (99999.5 * powerRZ 10 d <= X)%R).
  { destruct H as [-> | H].
    - apply Rle_trans with (1 * powerRZ 2 (-149))%R.
      + change (-50) with (- Z.of_nat 50). change (-149) with (- Z.of_nat 149). rewrite !powerRZ_neg'.
        rewrite <- !pow_powerRZ. rewrite Rmult_1_l.
        apply (Rmult_le_reg_r (10 ^ 50 * 2 ^ 149)); [apply Rmult_lt_0_compat; apply pow_lt; lra|].
        replace (99999.5 * / 10 ^ 50 * (10 ^ 50 * 2 ^ 149))%R with (99999.5 * 2 ^ 149)%R by (field; apply pow_nonzero; lra).
        replace (/ 2 ^ 149 * (10 ^ 50 * 2 ^ 149))%R with (10 ^ 50)%R by (field; apply pow_nonzero; lra).
        replace 99999.5%R with (IZR 199999 / 2)%R by lra. rewrite !pow_IZR.
        unfold Rdiv. rewrite Rmult_assoc, (Rmult_comm (/ 2)), <- Rmult_assoc, <- mult_IZR.
        apply (Rmult_le_reg_r 2); [lra|]. rewrite Rmult_assoc, Rinv_l, Rmult_1_r by lra. rewrite <- mult_IZR. apply IZR_le.
        vm_compute. discriminate.
      + unfold X. apply Rmult_le_compat; [lra|left; apply powerRZ_lt; lra|apply (IZR_le 1); lia|].
        rewrite <- !(bpow_powerRZ radix2). apply bpow_le. lia.
    - apply IZR_le in H. pose proof (in_units_near m e (d - 1)) as N'. fold X in N'.
      replace (- (d - 1)) with (1 + - d) in N' by lia. rewrite powerRZ_add in N' by lra. rewrite powerRZ_1 in N'.
      apply Rabs_le_inv in N'.
      assert (Q : (999999.5 <= X * (10 * powerRZ 10 (- d)))%R) by lra.
      apply (Rmult_le_compat_r (powerRZ 10 d)) in Q; [|lra].
      replace (X * (10 * powerRZ 10 (- d)) * powerRZ 10 d)%R with (X * 10 * (powerRZ 10 (- d) * powerRZ 10 d))%R in Q by ring.
      rewrite I in Q. lra. }
  lra.
Qed.
Lemma print_shows : forall x, ffin x = true ->
  exists m e, print_float x = Dec m e /\ (Rabs (IZR m * powerRZ 10 e - FR x) <= Rabs (FR x) / 199999)%R.
Proof.
  intros [s|s|s pl N|s m e B] F; try discriminate F.
  - exists 0, 0. split; [reflexivity|]. unfold FR. cbn [B2R]. rewrite Rmult_0_l, Rminus_0_r, Rabs_R0. lra.
  - pose proof (bounded_lt_emax 24 128 _ _ B) as U.
    assert (E : -149 <= e).
    { destruct (andb_prop _ _ B) as (B1 & _). apply Zeq_bool_eq in B1. unfold FLT_exp, SpecFloat.fexp, SpecFloat.emin in B1. lia. }
    rewrite bpow_powerRZ in U. unfold F2R in U. cbn [Fnum Fexp] in U. rewrite bpow_powerRZ in U. change (IZR radix2) with 2%R in U.
    destruct (find_seq (fun d => in_units (Zpos m) e d <? 1000000) (fun n => Z.of_nat n - 50) 84 0) as (j & J & FD & G & NB).
    { exists 83%nat. split; [lia|]. apply Z.ltb_lt. apply lt_IZR.
      pose proof (in_units_near (Zpos m) e (Z.of_nat 83 - 50)) as Q. apply Rabs_le_inv in Q.
      assert (K : (powerRZ 2 128 * powerRZ 10 (- (Z.of_nat 83 - 50)) <= 400000)%R).
      { change (- (Z.of_nat 83 - 50)) with (- Z.of_nat 33). rewrite powerRZ_neg'. change 128 with (Z.of_nat 128). rewrite <- !pow_powerRZ.
        apply (Rmult_le_reg_r (10 ^ 33)); [apply pow_lt; lra|]. rewrite Rmult_assoc, Rinv_l, Rmult_1_r by (apply pow_nonzero; lra).
        rewrite !pow_IZR, <- mult_IZR. apply IZR_le. vm_compute. discriminate. }
      pose proof (p10_pos (- (Z.of_nat 83 - 50))) as P.
      pose proof (Rmult_lt_compat_r _ _ _ P U) as U'. lra. }
    cbn [print_float]. unfold decimal_exponents. rewrite FD.
    eexists _, _. split; [reflexivity|].
    assert (C : (Rabs (IZR (in_units (Zpos m) e (Z.of_nat j - 50)) * powerRZ 10 (Z.of_nat j - 50) - IZR (Zpos m) * powerRZ 2 e) <=
                 IZR (Zpos m) * powerRZ 2 e / 199999)%R).
    { apply print_close; [lia|exact E|lia|]. destruct j as [|j]; [now left|right].
      specialize (NB j ltac:(lia)). apply Z.ltb_ge in NB. replace (Z.of_nat (S j) - 50 - 1) with (Z.of_nat j - 50) by lia. exact NB. }
    assert (X : (0 <= IZR (Zpos m) * powerRZ 2 e)%R).
    { apply Rmult_le_pos; [now apply (IZR_le 0)|]. left. apply powerRZ_lt. lra. }
    unfold FR. cbn [B2R]. unfold F2R. cbn [Fnum Fexp]. rewrite bpow_powerRZ. change (IZR radix2) with 2%R.
    destruct s; cbn [cond_Zopp]; rewrite mult_IZR.
    + change (Zneg m) with (- Zpos m) in *. rewrite opp_IZR. change (- Zpos m) with (- (Zpos m)).
      rewrite Ropp_mult_distr_l_reverse, Rabs_Ropp, (Rabs_pos_eq _ X).
      replace (IZR (-1) * IZR (in_units (Zpos m) e (Z.of_nat j - 50)) * powerRZ 10 (Z.of_nat j - 50) - - (IZR (Zpos m) * powerRZ 2 e))%R
        with (- (IZR (in_units (Zpos m) e (Z.of_nat j - 50)) * powerRZ 10 (Z.of_nat j - 50) - IZR (Zpos m) * powerRZ 2 e))%R by ring.
      rewrite Rabs_Ropp. exact C.
    + rewrite (Rabs_pos_eq _ X), Rmult_1_l. exact C.
Qed.

(** *** reading back *)
Definition vprops (hn hc : bool) : list prop :=
  [Scalar "float" "x"; Scalar "float" "y"; Scalar "float" "z"]%string ++
  (if hn then [Scalar "float" "normal_x"; Scalar "float" "normal_y"; Scalar "float" "normal_z"]%string else []) ++
  (if hc then [Scalar "uchar" "red"; Scalar "uchar" "green"; Scalar "uchar" "blue"; Scalar "uchar" "alpha"]%string else []).
Lemma of_type_byte : forall z, 0 <= z <= 255 -> of_type "uchar" (Num z) = true.
Proof. intros z B. cbn. apply andb_true_intro. split; apply Z.leb_le; lia. Qed.
Lemma of_type_int : forall z, 0 <= z < 2147483648 -> of_type "int" (Num z) = true.
Proof. intros z B. cbn. apply andb_true_intro. split; apply Z.leb_le; lia. Qed.
Lemma read_scalar : forall ty n ps w l, of_type ty w = true ->
  read_row (Scalar ty n :: ps) (w :: l) = match read_row ps l with Some r => Some ((n, [w]) :: r) | None => None end.
Proof. intros ty n ps w l H. cbn [read_row]. rewrite H. reflexivity. Qed.

Lemma row_ok : forall m v i ns cs,
  finite_point v -> Forall finite_point (m_normals m) -> Forall color_ok (m_colors m) ->
  (if nonempty (m_normals m)
   then match nth_error (m_normals m) i with Some n => Ok (print_point n) | None => UB end else Ok []) = Ok ns ->
  (if nonempty (m_colors m)
   then match nth_error (m_colors m) i with Some c => Ok (print_color c) | None => UB end else Ok []) = Ok cs ->
  exists r, read_row (vprops (nonempty (m_normals m)) (nonempty (m_colors m))) (print_point v ++ ns ++ cs) = Some r /\
    shows_point v "x" "y" "z" r /\
    (forall n, nth_error (m_normals m) i = Some n -> shows_point n "normal_x" "normal_y" "normal_z" r) /\
    (forall c, nth_error (m_colors m) i = Some c -> shows_color c r /\ field "alpha" r = Some [Num (ca c)]).
Proof.
  intros m v i ns cs (FX & FY & FZ) FN FC EN EC.
  destruct (print_shows _ FX) as (mx & ex & PX & SX). destruct (print_shows _ FY) as (my & ey & PY & SY).
  destruct (print_shows _ FZ) as (mz & ez & PZ & SZ). unfold vprops, print_point at 1. rewrite PX, PY, PZ.
  set (hn := nonempty (m_normals m)) in *. set (hc := nonempty (m_colors m)) in *.
  (* colours *)
  assert (C : exists rc, read_row (if hc then [Scalar "uchar" "red"; Scalar "uchar" "green"; Scalar "uchar" "blue"; Scalar "uchar" "alpha"]%string else []) cs = Some rc /\
    (forall c, nth_error (m_colors m) i = Some c -> rc = [("red", [Num (cr c)]); ("green", [Num (cg c)]); ("blue", [Num (cb c)]); ("alpha", [Num (ca c)])]%string)).
  { unfold hc in *. destruct (m_colors m) as [|c0 cl]; cbn [nonempty] in *.
    - injection EC as <-. exists []. split; [reflexivity|]. intros c H. destruct i; discriminate H.
    - destruct (nth_error (c0 :: cl) i) as [c|] eqn:E; [|discriminate EC]. injection EC as <-.
      rewrite Forall_forall in FC. destruct (FC c (nth_error_In _ _ E)) as (B1 & B2 & B3 & B4).
      unfold is_byte in *. unfold print_color. rewrite !read_scalar by (apply of_type_byte; lia). cbn [read_row]. eexists. split; [reflexivity|].
      intros c' H. injection H as <-. reflexivity. }
  destruct C as (rc & RC & SC).
  assert (N : exists rn, read_row ((if hn then [Scalar "float" "normal_x"; Scalar "float" "normal_y"; Scalar "float" "normal_z"]%string else []) ++
      (if hc then [Scalar "uchar" "red"; Scalar "uchar" "green"; Scalar "uchar" "blue"; Scalar "uchar" "alpha"]%string else [])) (ns ++ cs) = Some (rn ++ rc) /\
    (rn = [] \/ exists a b c, rn = [("normal_x", a); ("normal_y", b); ("normal_z", c)]%string) /\
    (forall n, nth_error (m_normals m) i = Some n -> shows_point n "normal_x" "normal_y" "normal_z" (rn ++ rc))).
  { unfold hn in *. destruct (m_normals m) as [|n0 nl]; cbn [nonempty] in *.
    - injection EN as <-. exists []. split; [exact RC|]. split; [now left|]. intros c H. destruct i; discriminate H.
    - destruct (nth_error (n0 :: nl) i) as [n|] eqn:E; [|discriminate EN]. injection EN as <-.
      rewrite Forall_forall in FN. destruct (FN n (nth_error_In _ _ E)) as (GX & GY & GZ).
      destruct (print_shows _ GX) as (nx & fx & QX & TX). destruct (print_shows _ GY) as (ny & fy & QY & TY).
      destruct (print_shows _ GZ) as (nz & fz & QZ & TZ). unfold print_point. rewrite QX, QY, QZ.
      exists [("normal_x", [Dec nx fx]); ("normal_y", [Dec ny fy]); ("normal_z", [Dec nz fz])]%string.
      cbn [app]. rewrite !read_scalar by reflexivity. rewrite RC. split; [reflexivity|].
      split; [right; do 3 eexists; reflexivity|].
      intros n' H. injection H as <-. split; [|split]; (eexists _, _; split; [reflexivity|assumption]). }
  destruct N as (rn & RN & SH & SN).
  exists (("x"%string, [Dec mx ex]) :: ("y"%string, [Dec my ey]) :: ("z"%string, [Dec mz ez]) :: (rn ++ rc)).
  cbn [app]. rewrite !read_scalar by reflexivity. cbn [app] in RN. rewrite RN. split; [reflexivity|].
  split. { split; [|split]; (eexists _, _; split; [reflexivity|assumption]). }
  split.
  - intros n H. exact (SN n H).
  - intros c H. rewrite (SC c H). destruct SH as [-> | (a & b & d & ->)]; (split; [split; [|split]|]); reflexivity.
Qed.

Lemma vertex_lines_ok : forall m, Forall finite_point (m_normals m) -> Forall color_ok (m_colors m) ->
  forall vs i, Forall finite_point vs ->
  (m_normals m = [] \/ i + length vs <= length (m_normals m))%nat ->
  (m_colors m = [] \/ i + length vs <= length (m_colors m))%nat ->
  exists ls, vertex_lines m i vs = Ok ls /\
    forall f, exists rs, read_rows (vprops (nonempty (m_normals m)) (nonempty (m_colors m))) (length vs) (ls ++ f) = Some (rs, f) /\
      length rs = length vs /\
      (forall j p r, nth_error vs j = Some p -> nth_error rs j = Some r ->
       shows_point p "x" "y" "z" r /\
       (forall n, nth_error (m_normals m) (i + j) = Some n -> shows_point n "normal_x" "normal_y" "normal_z" r) /\
       (forall c, nth_error (m_colors m) (i + j) = Some c -> shows_color c r /\ field "alpha" r = Some [Num (ca c)])).
Proof.
  intros m FN FC. induction vs as [|v vs IH]; intros i FV LN LC.
  - exists []. split; [reflexivity|]. intros f. exists []. split; [reflexivity|]. split; [reflexivity|]. intros [|j] p r H; discriminate H.
  - inversion FV as [|? ? Fv FV']; subst. cbn [length] in LN, LC.
    destruct (IH (S i) FV') as (ls & E & R); [destruct LN; [now left|right; lia]|destruct LC; [now left|right; lia]|].
    cbn [vertex_lines]. rewrite E.
    assert (EN : exists ns, (if nonempty (m_normals m)
      then match nth_error (m_normals m) i with Some n => Ok (print_point n) | None => UB end else Ok []) = Ok ns).
    { destruct (m_normals m) as [|n0 nl] eqn:Q; [exists []; reflexivity|]. cbn [nonempty]. destruct LN as [LN | LN]; [discriminate LN|].
      destruct (nth_error (n0 :: nl) i) eqn:Z0; [eexists; reflexivity|]. apply nth_error_None in Z0. lia. }
    assert (EC : exists cs, (if nonempty (m_colors m)
      then match nth_error (m_colors m) i with Some c => Ok (print_color c) | None => UB end else Ok []) = Ok cs).
    { destruct (m_colors m) as [|n0 nl] eqn:Q; [exists []; reflexivity|]. cbn [nonempty]. destruct LC as [LC | LC]; [discriminate LC|].
      destruct (nth_error (n0 :: nl) i) eqn:Z0; [eexists; reflexivity|]. apply nth_error_None in Z0. lia. }
    destruct EN as (ns & EN). destruct EC as (cs & EC). rewrite EN, EC. cbn [rbind].
    destruct (row_ok m v i ns cs Fv FN FC EN EC) as (r & RR & S).
    eexists. split; [reflexivity|]. intros f. destruct (R f) as (rs & RS & L & P).
    exists (r :: rs). cbn [length]. cbn [read_rows app]. cbn [app] in RR. rewrite RR, RS. split; [reflexivity|].
    split; [now f_equal|]. intros [|j] p q H1 H2.
    + injection H1 as <-. injection H2 as <-. rewrite Nat.add_0_r. exact S.
    + rewrite <- Nat.add_succ_comm. apply P; assumption.
Qed.
Definition fprops : list prop := [Listed "uchar" "int" "vertex_indices"]%string.
Definition face_row (t : Z * Z * Z) : row := let '(i, j, k) := t in [("vertex_indices"%string, [Num i; Num j; Num k])].
Lemma triple_ind : forall (P : list Z -> Prop), P [] -> (forall a b c l, P l -> P (a :: b :: c :: l)) ->
  forall q l, length l = (3 * q)%nat -> P l.
Proof.
  intros P P0 P3 q. induction q as [|q IH]; intros l L.
  - destruct l; [exact P0|discriminate L].
  - destruct l as [|a [|b [|c l]]]; try (cbn in L; lia). apply P3. apply IH. cbn [length] in L. lia.
Qed.
Lemma face_lines_ok : forall q is, length is = (3 * q)%nat -> Forall (fun i => 0 <= i < 2147483648) is ->
  exists ls, face_lines is = Ok ls /\ forall f, read_rows fprops q (ls ++ f) = Some (map face_row (triples is), f).
Proof.
  induction q as [|q IH]; intros is L B.
  - destruct is; [|discriminate L]. exists []. split; reflexivity.
  - destruct is as [|a [|b [|c is]]]; try (cbn in L; lia). inversion B as [|? ? B1 B']; subst. inversion B' as [|? ? B2 B'']; subst.
    inversion B'' as [|? ? B3 B4]; subst. destruct (IH is) as (ls & E & R); [cbn [length] in L; lia|exact B4|].
    cbn [face_lines]. rewrite E. cbn [rbind]. eexists. split; [reflexivity|]. intros f. cbn [app read_rows triples map face_row].
    rewrite R. unfold fprops. cbn [read_row]. rewrite (of_type_byte 3) by lia. change (Z.to_nat 3) with 3%nat.
    cbn [length Nat.leb firstn skipn forallb andb]. rewrite !of_type_int by assumption. reflexivity.
Qed.
Lemma read_header_ok : forall m body, exists es,
  read_elements None (skipn 2 (ply_header m) ++ body) = Some (es, body) /\
  es = MkElement "vertex" (Z.of_nat (length (m_vertices m))) (vprops (nonempty (m_normals m)) (nonempty (m_colors m))) ::
       (if nonempty (m_indices m) then [MkElement "face" (Z.of_nat (length (m_indices m)) / 3) fprops] else []).
Proof.
  intros m body. unfold ply_header, vprops, words.
  assert (N1 : (0 <=? Z.of_nat (length (m_vertices m))) = true) by (apply Z.leb_le; lia).
  assert (N2 : (0 <=? Z.of_nat (length (m_indices m)) / 3) = true) by (apply Z.leb_le; apply Z.div_pos; lia).
  generalize dependent (Z.of_nat (length (m_vertices m))). generalize dependent (Z.of_nat (length (m_indices m)) / 3).
  intros nf N2 nv N1. eexists. split; [|reflexivity].
  destruct (nonempty (m_normals m)), (nonempty (m_colors m)), (nonempty (m_indices m));
    cbn [skipn app map read_elements]; cbn [String.eqb Ascii.eqb Bool.eqb andb e_name e_count e_props app]; rewrite ?N1, ?N2; reflexivity.
Qed.
Lemma read_ply_header : forall m body, read_ply (ply_header m ++ body) =
  match read_elements None (skipn 2 (ply_header m) ++ body) with Some (es, b) => read_body es b | None => None end.
Proof. intros. reflexivity. Qed.
Lemma output_ok : forall m, printable m -> exists f, outputMeshAsPly true m = Ok (Some f) /\ depicts f m.
Proof.
  intros m (LN & LC & (q & LQ) & B & LV & FV & FN & FC).
  destruct (vertex_lines_ok m FN FC (m_vertices m) 0 FV) as (ls & EL & R);
    [destruct LN; [now left|right; lia]|destruct LC; [now left|right; lia]|].
  destruct (face_lines_ok q (m_indices m) LQ) as (fl & EF & RF).
  { eapply Forall_impl; [|exact B]. intros i Bi. cbv beta in Bi. lia. }
  unfold outputMeshAsPly. cbn [negb]. rewrite EL, EF. cbn [rbind]. eexists. split; [reflexivity|].
  unfold depicts. rewrite read_ply_header. destruct (read_header_ok m (ls ++ fl)) as (es & E & ->). rewrite E.
  destruct (R fl) as (rs & RS & L & P). cbn [read_body e_name e_count e_props]. rewrite Nat2Z.id, RS.
  destruct (m_indices m) as [|i0 il] eqn:Q.
  - cbn [nonempty read_body]. injection EF as <-. eexists rs, _. split; [reflexivity|]. split; [exact L|].
    split; [exact P|reflexivity].
  - cbn [nonempty]. rewrite <- Q in *. cbn [read_body e_name e_count e_props].
    rewrite LQ. replace (Z.of_nat (3 * q) / 3) with (Z.of_nat q) by (rewrite Nat2Z.inj_mul, Z.mul_comm, Z.div_mul; lia).
    rewrite Nat2Z.id. specialize (RF []). rewrite app_nil_r in RF. rewrite RF. eexists rs, _. split; [reflexivity|]. split; [exact L|].
    split; [exact P|reflexivity].
Qed.

(** *** [PlyWriter] *)
Definition wheader (n : Z) (color : bool) : file :=
  [words ["ply"]; words ["format"; "ascii"; "1.0"]; [Name "element"; Name "vertex"; Num n];
      words ["property"; "float"; "x"]; words ["property"; "float"; "y"]; words ["property"; "float"; "z"]]%string ++
     (if color
      then [words ["property"; "uchar"; "red"]; words ["property"; "uchar"; "green"];
            words ["property"; "uchar"; "blue"]]%string
      else []) ++ [words ["end_header"]]%string.
Definition wline (v : pt3 * option Color) : line :=
  print_point (fst v) ++ match snd v with Some c => [Num (cr c); Num (cg c); Num (cb c)] | None => [] end.
Definition wprops (color : bool) : list prop :=
  [Scalar "float" "x"; Scalar "float" "y"; Scalar "float" "z"]%string ++
  (if color then [Scalar "uchar" "red"; Scalar "uchar" "green"; Scalar "uchar" "blue"]%string else []).
Definition started (n : Z) (color : bool) (f : file) : writer := MkWriter true true true n 0 color f.
Definition has_rgb (v : pt3 * option Color) : bool := match snd v with Some _ => true | None => false end.
Lemma started_step : forall n color f c, 0 <= n ->
  exists b, wcall_do c (started n color f) = (b, started n color (f ++ map wline (accepted [c] [b]))) /\
    (b = true -> c <> CHeader) /\ Forall (fun v => has_rgb v = color) (accepted [c] [b]).
Proof.
  intros n color f c N. destruct c as [|p rgb].
  - exists false. cbn. rewrite app_nil_r. split; [reflexivity|]. split; [discriminate|constructor].
  - cbn [wcall_do]. unfold writeVertex, started. cbn [w_header negb w_total w_written w_color].
    destruct (n <=? 0) eqn:K.
    + exists false. cbn [accepted map]. rewrite app_nil_r. split; [reflexivity|]. split; [discriminate|constructor].
    + destruct rgb as [c|], color.
      * exists true. split; [reflexivity|]. split; [discriminate|]. constructor; [reflexivity|constructor].
      * exists false. cbn [accepted map]. rewrite app_nil_r. split; [reflexivity|]. split; [discriminate|constructor].
      * exists false. cbn [accepted map]. rewrite app_nil_r. split; [reflexivity|]. split; [discriminate|constructor].
      * exists true. split; [reflexivity|]. split; [discriminate|]. constructor; [reflexivity|constructor].
Qed.
Lemma accepted_cons : forall c b cs bs, accepted (c :: cs) (b :: bs) = accepted [c] [b] ++ accepted cs bs.
Proof. intros [|p rgb] [] cs bs; reflexivity. Qed.
Lemma started_run : forall n color cs f bs w, 0 <= n -> wrun cs (started n color f) = (bs, w) ->
  w = started n color (f ++ map wline (accepted cs bs)) /\ Forall (fun v => has_rgb v = color) (accepted cs bs).
Proof.
  intros n color. induction cs as [|c cs IH]; intros f bs w N E.
  - injection E as <- <-. cbn. rewrite app_nil_r. split; [reflexivity|constructor].
  - cbn [wrun] in E. destruct (started_step n color f c N) as (b & S & _ & C). rewrite S in E.
    destruct (wrun cs (started n color (f ++ map wline (accepted [c] [b])))) as [bs' w'] eqn:R. injection E as <- <-.
    destruct (IH _ _ _ N R) as (-> & C'). rewrite (accepted_cons c b cs), map_app, app_assoc. split; [reflexivity|]. apply Forall_app. split; assumption.
Qed.
Lemma first_call : forall n color c, 0 <= n ->
  exists b, wcall_do c (addVertices n color (new_writer true)) = (b, started n color (wheader n color ++ map wline (accepted [c] [b]))) /\
    Forall (fun v => has_rgb v = color) (accepted [c] [b]).
Proof.
  intros n color c N. destruct c as [|p rgb].
  - exists true. cbn. split; [|constructor]. unfold started, wheader. rewrite app_nil_r. reflexivity.
  - destruct (started_step n color (wheader n color) (CVertex p rgb) N) as (b & S & _ & C). exists b. split; [|exact C]. rewrite <- S. reflexivity.
Qed.
Lemma run_ok : forall n color cs bs w, 0 <= n -> cs <> [] -> wrun cs (addVertices n color (new_writer true)) = (bs, w) ->
  w_file w = wheader n color ++ map wline (accepted cs bs) /\ Forall (fun v => has_rgb v = color) (accepted cs bs).
Proof.
  intros n color cs bs w N NE E. destruct cs as [|c cs]; [congruence|]. cbn [wrun] in E.
  destruct (first_call n color c N) as (b & S & C). rewrite S in E.
  destruct (wrun cs (started n color (wheader n color ++ map wline (accepted [c] [b])))) as [bs' w'] eqn:R. injection E as <- <-.
  destruct (started_run _ _ _ _ _ _ N R) as (-> & C'). cbn [w_file started]. rewrite (accepted_cons c b cs), map_app, app_assoc.
  split; [reflexivity|]. apply Forall_app. split; assumption.
Qed.
Lemma wrow_ok : forall color v, good_vertex v -> has_rgb v = color ->
  exists r, read_row (wprops color) (wline v) = Some r /\ shows_point (fst v) "x" "y" "z" r /\
    forall c, snd v = Some c -> shows_color c r.
Proof.
  intros color (v & o) ((FX & FY & FZ) & GC) HC. cbn [fst snd] in *.
  destruct (print_shows _ FX) as (mx & ex & PX & SX). destruct (print_shows _ FY) as (my & ey & PY & SY).
  destruct (print_shows _ FZ) as (mz & ez & PZ & SZ). unfold wline, print_point. cbn [fst snd]. rewrite PX, PY, PZ.
  destruct o as [c|]; cbn [has_rgb snd] in HC; subst color; unfold wprops; cbn [app]; rewrite !read_scalar by reflexivity.
  - destruct (GC c eq_refl) as (B1 & B2 & B3 & _). unfold is_byte in *. rewrite !read_scalar by (apply of_type_byte; lia).
    cbn [read_row]. eexists. split; [reflexivity|]. split.
    + split; [|split]; (eexists _, _; split; [reflexivity|assumption]).
    + intros c' H. injection H as <-. split; [|split]; reflexivity.
  - cbn [read_row]. eexists. split; [reflexivity|]. split; [|discriminate].
    split; [|split]; (eexists _, _; split; [reflexivity|assumption]).
Qed.
Lemma read_lines : forall color vs, Forall good_vertex vs -> Forall (fun v => has_rgb v = color) vs ->
  forall n, (exists rs, read_rows (wprops color) n (map wline vs) = Some (rs, map wline (skipn n vs)) /\ (n <= length vs)%nat /\ length rs = n /\
     forall i v r, nth_error vs i = Some v -> nth_error rs i = Some r -> shows_point (fst v) "x" "y" "z" r /\
       forall c, snd v = Some c -> shows_color c r) \/
    (length vs < n)%nat /\ read_rows (wprops color) n (map wline vs) = None.
Proof.
  intros color vs G. induction G as [|v vs Gv G IH]; intros C n.
  - destruct n; [left; exists []; split; [reflexivity|]; split; [cbn; lia|]; split; [reflexivity|intros [|i] v r H; discriminate H]|].
    right. split; [cbn; lia|reflexivity].
  - inversion C as [|? ? Cv C']; subst. destruct n as [|n].
    { left. exists []. split; [reflexivity|]. split; [lia|]. split; [reflexivity|intros i u r _ H; destruct i; discriminate H]. }
    destruct (wrow_ok _ v Gv eq_refl) as (r & R & S). cbn [map read_rows]. rewrite R.
    destruct (IH C' n) as [(rs & E & L & K & P) | (L & E)]; rewrite E.
    + left. exists (r :: rs). split; [reflexivity|]. cbn [length]. split; [lia|]. split; [lia|]. intros [|i] u q H1 H2.
      * injection H1 as <-. injection H2 as <-. exact S.
      * exact (P i u q H1 H2).
    + right. cbn [length]. split; [lia|reflexivity].
Qed.
Lemma read_wheader : forall n color body, 0 <= n -> read_ply (wheader n color ++ body) =
  match read_rows (wprops color) (Z.to_nat n) body with
  | Some (rs, []) => Some [("vertex"%string, rs)]
  | _ => None
  end.
Proof.
  intros n color body N. assert (K : (0 <=? n) = true) by (apply Z.leb_le; exact N).
  transitivity (match read_elements None (skipn 2 (wheader n color) ++ body) with Some (es, b) => read_body es b | None => None end); [reflexivity|].
  replace (read_elements None (skipn 2 (wheader n color) ++ body)) with (Some ([MkElement "vertex" n (wprops color)], body)).
  - cbn [read_body e_name e_count e_props]. destruct (read_rows (wprops color) (Z.to_nat n) body) as [[rs [|l f]]|]; reflexivity.
  - unfold wheader, words. destruct color; cbn [skipn app map read_elements]; cbn [String.eqb Ascii.eqb Bool.eqb andb e_name e_count e_props app];
      rewrite K; reflexivity.
Qed.
