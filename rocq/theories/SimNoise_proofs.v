(** Proofs for C97 and C98. *)
From Coq Require Import ZArith Reals List Bool Lia Lra.
From Flocq Require Import Core.
From Flocq Require Import IEEE754.Binary Plus_error.
From Verif Require Import F32 F32_lemmas F32_err Types Index Index_float Voxel Update Update_spec Ray Sim Sim_proofs Merge_proofs Vec_proofs SimNoise SimNoise_spec.
Import ListNotations.
Open Scope R_scope.
Ltac Zify.zify_post_hook ::= idtac.

(** ** Noise *)
Lemma hit_of_world : forall w org dir m b t c, fold_left (nearer org dir m) w b = Some (t, c) ->
  b = Some (t, c) \/ exists o, In o w /\ obj_hit (o_shape o) org dir m = Some t.
Proof.
  induction w as [|o w IH]; intros org dir m b t c H; cbn [fold_left] in H; [left; exact H|].
  apply IH in H. destruct H as [H|(o' & I & H)]; [|right; exists o'; split; [right; exact I|exact H]].
  unfold nearer in H. destruct (obj_hit (o_shape o) org dir m) as [t1|] eqn:E; [|left; exact H].
  assert (X : b = Some (t, c) \/ t1 = t).
  { destruct b as [(t0, c0)|]; [destruct (flt t1 t0)|]; [right; congruence|left; exact H|right; congruence]. }
  destruct X as [X|X]; [left; exact X|]. right. exists o. split; [left; reflexivity|]. rewrite E, X. reflexivity.
Qed.
Lemma nan_ray : forall org dir t, fnan t = true -> pt_nan (ray_at org dir t) = true.
Proof.
  intros org dir t N. destruct t as [| |s pl Hp|]; try discriminate N. unfold pt_nan, ray_at, zip3. cbn [vx]. 
  assert (X : fnan (fadd (vx org) (fmul (B754_nan 24 128 s pl Hp) (vx dir))) = true); [|rewrite X; reflexivity].
  unfold fadd, fmul. destruct (vx dir) as [| | |]; destruct (vx org) as [| | |]; reflexivity.
Qed.
Lemma hit_finite : forall w org dir m t c, ffin m = true -> fold_left (nearer org dir m) w None = Some (t, c) -> pt_nan (ray_at org dir t) = false ->
  ffin t = true /\ 0 <= FR t <= FR m.
Proof.
  intros w org dir m t c Fm H P. apply hit_of_world in H. destruct H as [H|(o & _ & H)]; [discriminate H|].
  destruct (hit_range _ _ _ _ _ H) as (H0 & H1).
  assert (N : fnan t = false) by (destruct (fnan t) eqn:N; [rewrite (nan_ray org dir t N) in P; discriminate P|reflexivity]).
  assert (F : ffin t = true).
  { destruct t as [s|s|s pl Hp|s mm e Hm]; try reflexivity; try discriminate N. destruct s.
    - exfalso. revert H0. vm_compute. intros Q. discriminate Q.
    - exfalso. destruct m as [s'|s'|s' pl Hp|s' mm e Hm]; try discriminate Fm; [|destruct s']; cbn in H1; discriminate H1. }
  split; [exact F|]. split.
  - apply Rnot_lt_le. intros L. change 0 with (FR f0) in L. apply flt_R in L; [|exact F|reflexivity]. rewrite L in H0. discriminate H0.
  - apply Rnot_lt_le. intros L. apply flt_R in L; [|exact Fm|exact F]. rewrite L in H1. discriminate H1.
Qed.
Lemma noisy_dist_ok : forall t n, ffin t = true -> 0 <= FR t -> ffin n = true -> Rabs (FR t + FR n) <= bpow radix2 120 ->
  ffin (noisy_dist t n) = true /\ FR (noisy_dist t n) = Rmax 0 (rnd32 (FR t + FR n)).
Proof.
  intros t n Ft T0 Fn B. destruct (fadd_R t n Ft Fn) as (E & F).
  { apply rnd32_small. eapply Rle_trans; [exact B|]. apply bpow_le. lia. }
  unfold noisy_dist. destruct (f64_of_f32_R _ F) as (Ed & Fd). destruct (dlt (f64_of_f32 (fadd t n)) d0) eqn:L.
  - apply dlt_R in L; [|exact Fd|reflexivity]. change (DR d0) with 0 in L. rewrite Ed, E in L. split; [reflexivity|]. rewrite Rmax_left by lra. reflexivity.
  - split; [exact F|]. rewrite E. rewrite Rmax_right; [reflexivity|]. apply Rnot_lt_le. intros L'. rewrite <- E, <- Ed in L'. change 0 with (DR d0) in L'.
    apply dlt_R in L'; [|exact Fd|reflexivity]. rewrite L' in L. discriminate L.
Qed.
Lemma noisy_more : forall rays d org z c c', noisy_reading rays org z c c' -> noisy_reading (d :: rays) org z c c'.
Proof. intros rays d org z c c' (S & e & t & t' & I & R). split; [exact S|]. exists e, t, t'. split; [right; exact I|exact R]. Qed.
Lemma noisy_pixels_ok : forall w org m noise dirs k, ffin m = true -> FR m <= bpow radix2 100 -> (forall n, fin_upto 100 (noise n)) ->
  length (noisy_pixels w org m noise k dirs) = length (getPointcloudFromViewpoint w org m dirs) /\
  forall n c, nth_error (getPointcloudFromViewpoint w org m dirs) n = Some c ->
    exists c', nth_error (noisy_pixels w org m noise k dirs) n = Some c' /\ noisy_reading dirs org (noise (k + n)%nat) c c'.
Proof.
  intros w org m noise dirs k Fm Bm HN. revert k. induction dirs as [|d dirs IH]; intros k.
  - split; [reflexivity|]. intros [|n] c H; discriminate H.
  - unfold getPointcloudFromViewpoint in *. cbn [flat_map noisy_pixels].
    assert (EP : sim_pixel w org m d = match fold_left (nearer org d m) w None with
      | None => [] | Some (t, c) => if pt_nan (ray_at org d t) then [] else [(ray_at org d t, c)] end) by reflexivity.
    rewrite EP. clear EP.
    destruct (fold_left (nearer org d m) w None) as [(t, cl)|] eqn:E; [|destruct (IH k) as (L & H); split; [exact L|]; intros n c C; destruct (H n c C) as (c' & C' & R); exists c'; split; [exact C'|apply noisy_more, R]].
    destruct (pt_nan (ray_at org d t)) eqn:P; [destruct (IH k) as (L & H); split; [exact L|]; intros n c C; destruct (H n c C) as (c' & C' & R); exists c'; split; [exact C'|apply noisy_more, R]|]. cbn [app length].
    destruct (IH (S k)) as (L & H). split; [rewrite L; reflexivity|].
    intros [|n] c C.
    + cbn [nth_error] in *. injection C as <-. eexists. split; [reflexivity|]. split; [reflexivity|]. cbn [fst].
      destruct (hit_finite w org d m t cl Fm E P) as (F & T0 & T1). destruct (HN (k + 0)%nat) as (Fn & Bn). rewrite Nat.add_0_r in *.
      destruct (noisy_dist_ok t (noise k) F T0 Fn) as (F' & E').
      { apply Rle_trans with (bpow radix2 100 + bpow radix2 100).
        - eapply Rle_trans; [apply Rabs_triang|]. rewrite (Rabs_pos_eq (FR t)) by exact T0. lra.
        - apply Rle_trans with (bpow radix2 101); [rewrite (bpow_plus radix2 1 100 : bpow radix2 101 = _); change (bpow radix2 1) with 2; lra|apply bpow_le; lia]. }
      exists d, t, (noisy_dist t (noise k)). split; [left; reflexivity|]. auto 10.
    + cbn [nth_error] in *. destruct (H n c C) as (c' & C' & R). exists c'. split; [exact C'|]. replace (k + S n)%nat with (S k + n)%nat by lia. apply noisy_more, R.
Qed.
(** noise zero: same distance up to the sign of zero *)
Lemma zero_noise_ray : forall t t' o d, ffin t = true -> ffin t' = true -> FR t = FR t' -> FR (fadd o (fmul t d)) = FR (fadd o (fmul t' d)).
Proof.
  intros t t' o d F F' E. destruct (Req_dec (FR t) 0) as [Z|NZ].
  - assert (A : forall x, ffin x = true -> FR x = 0 -> exists s, x = B754_zero 24 128 s).
    { intros x Fx Zx. destruct x as [s|s|s pl Hp|s mm e Hm]; try discriminate Fx; [exists s; reflexivity|]. exfalso. revert Zx. unfold FR, B2R.
      intros Zx. apply eq_0_F2R in Zx. destruct s; discriminate Zx. }
    destruct (A t F Z) as (s & ->), (A t' F' ltac:(rewrite <- E; exact Z)) as (s' & ->).
    destruct d as [sd|sd|sd pl Hp|sd mm e Hm]; destruct o as [so|so|so plo Ho|so mo eo Ho]; destruct s, s'; try destruct sd; try destruct so; reflexivity.
  - assert (t = t'); [|subst; reflexivity]. apply B2R_inj; [| |exact E].
    + destruct t as [s|s|s pl Hp|s mm e Hm]; try discriminate F; [elim NZ; reflexivity|reflexivity].
    + rewrite E in NZ. destruct t' as [s|s|s pl Hp|s mm e Hm]; try discriminate F'; [elim NZ; reflexivity|reflexivity].
Qed.

(** ** Rays *)
Lemma pixel_range_even : forall n, (0 <= n)%Z -> (n mod 2 = 0)%Z -> pixel_range n = centred n.
Proof.
  intros n H0 H. unfold pixel_range, centred. pose proof (Z.div_mod n 2 ltac:(lia)) as D. set (k := (n / 2)%Z) in *.
  replace n with (2 * k)%Z by lia. replace (- (2 * k))%Z with ((- k) * 2)%Z by lia. rewrite Z.quot_mul by lia. rewrite (Z.mul_comm 2 k), Z.quot_mul by lia.
  replace (k - - k)%Z with (k * 2)%Z by lia. apply map_ext. intros a. lia.
Qed.
Lemma pixel_range_length : forall n, (0 <= n)%Z -> Z.of_nat (length (pixel_range n)) = (2 * (n / 2))%Z.
Proof.
  intros n H. unfold pixel_range. rewrite map_length, seq_length. rewrite Z.quot_opp_l by lia. rewrite Z.quot_div_nonneg by lia.
  pose proof (Z.div_pos n 2 ltac:(lia) ltac:(lia)). lia.
Qed.
Lemma div_float : forall u f, (Z.abs u <= 2 ^ 22)%Z -> ffin f = true -> / 1024 <= FR f <= bpow radix2 22 ->
  float_div u f (fdiv (f32_of_Z u) f) /\ Rabs (FR (fdiv (f32_of_Z u) f)) <= bpow radix2 32.
Proof.
  intros u f Hu Ff Hf. destruct (f32_of_Z_R u ltac:(lia)) as (E & F).
  assert (B : Rabs (IZR u / FR f) <= bpow radix2 32).
  { unfold Rdiv. rewrite Rabs_mult. apply Rle_trans with (4194304 * 1024).
    - apply Rmult_le_compat; try apply Rabs_pos.
      + rewrite <- abs_IZR. change 4194304 with (IZR (2 ^ 22)). apply IZR_le. exact Hu.
      + rewrite Rabs_pos_eq by (left; apply Rinv_0_lt_compat; lra). replace 1024 with (/ / 1024) by field. apply Rinv_le; lra.
    - change (bpow radix2 32) with 4294967296. lra. }
  destruct (fdiv_R (f32_of_Z u) f F) as (E1 & F1). { lra. }
  { rewrite E. apply rnd32_small. eapply Rle_trans; [exact B|apply bpow_le; lia]. }
  rewrite E in E1. split; [split; assumption|]. rewrite E1.
  apply Rabs_le_inv in B. apply Rabs_le. assert (X : rnd32 (bpow radix2 32) = bpow radix2 32) by (rewrite <- (Rmult_1_l (bpow radix2 32)); apply (rnd32_exact 1); lia).
  assert (X' : rnd32 (- bpow radix2 32) = - bpow radix2 32) by (replace (- bpow radix2 32) with (IZR (-1) * bpow radix2 32) by lra; apply rnd32_exact; lia).
  split; [rewrite <- X'|rewrite <- X]; apply rnd32_le; lra.
Qed.
Lemma ray_ok : forall f u v, (Z.abs u <= 2 ^ 22)%Z -> (Z.abs v <= 2 ^ 22)%Z -> ffin f = true -> / 1024 <= FR f <= bpow radix2 22 ->
  exists a b, float_div u f a /\ float_div v f b /\
    near3 (9 * u32r) (normalized3 (V3 f1 (fdiv (f32_of_Z u) f) (fdiv (f32_of_Z v) f))) (unitR (V3 1 (FR a) (FR b))).
Proof.
  intros f u v Hu Hv Ff Hf. destruct (div_float u f Hu Ff Hf) as (Du & Bu). destruct (div_float v f Hv Ff Hf) as (Dv & Bv).
  exists (fdiv (f32_of_Z u) f), (fdiv (f32_of_Z v) f). split; [exact Du|]. split; [exact Dv|].
  assert (E1 : FR f1 = 1) by (apply (f32_of_Z_R 1); lia).
  set (p := V3 f1 _ _). replace (V3 1 (FR (fdiv (f32_of_Z u) f)) (FR (fdiv (f32_of_Z v) f))) with (vecR p) by (unfold p, vecR, map3; cbn [vx vy vz]; rewrite E1; reflexivity).
  assert (B45 : bpow radix2 32 <= bpow radix2 45) by (apply bpow_le; lia).
  apply normalized_err.
  - unfold all3, p, fin_upto. cbn [vx vy vz]. rewrite E1, Rabs_R1. repeat split; try apply Du; try apply Dv; try lra. change 1 with (bpow radix2 0). apply bpow_le. lia.
  - destruct (comp_le_norm (vecR p)) as (B & _). change (vx (vecR p)) with (FR f1) in B. rewrite E1, Rabs_R1 in B.
    apply Rle_trans with 1; [|exact B]. change 1 with (bpow radix2 0). apply bpow_le. lia.
Qed.

(** ** Planes along the axes *)
Lemma f1_R : FR f1 = 1. Proof. apply (f32_of_Z_R 1). lia. Qed.
Lemma rnd_self : forall x, rnd32 (FR x) = FR x. Proof. apply rnd32_FR. Qed.
Lemma mul0 : forall x, ffin x = true -> ffin (fmul f0 x) = true /\ FR (fmul f0 x) = 0.
Proof. intros x F. destruct x as [s|s|s pl Hp|s mm e Hm]; try discriminate F; split; reflexivity. Qed.
Lemma add_zero : forall z x, ffin z = true -> FR z = 0 -> ffin x = true -> ffin (fadd z x) = true /\ FR (fadd z x) = FR x.
Proof.
  intros z x Fz Z Fx. destruct (fadd_R z x Fz Fx) as (E & F).
  { rewrite Z, Rplus_0_l, rnd_self. apply (abs_B2R_lt_emax 24 128). }
  rewrite Z, Rplus_0_l, rnd_self in E. auto.
Qed.
Lemma add_zero_r : forall z x, ffin z = true -> FR z = 0 -> ffin x = true -> ffin (fadd x z) = true /\ FR (fadd x z) = FR x.
Proof.
  intros z x Fz Z Fx. destruct (fadd_R x z Fx Fz) as (E & F).
  { rewrite Z, Rplus_0_r, rnd_self. apply (abs_B2R_lt_emax 24 128). }
  rewrite Z, Rplus_0_r, rnd_self in E. auto.
Qed.
Lemma mul_unit : forall s x, (s = f1 \/ s = fneg f1) -> ffin x = true -> ffin (fmul s x) = true /\ FR (fmul s x) = FR s * FR x.
Proof.
  intros s x Hs Fx. assert (X : rnd32 (FR s * FR x) = FR s * FR x).
  { destruct Hs as [-> | ->]; [rewrite f1_R, Rmult_1_l; apply rnd_self|]. rewrite fneg_R, f1_R.
    replace (- (1) * FR x) with (FR (fneg x)) by (rewrite fneg_R; ring). apply rnd_self. }
  assert (A : Rabs (FR s * FR x) = Rabs (FR x)) by (destruct Hs as [-> | ->]; rewrite ?fneg_R, f1_R; rewrite Rabs_mult, ?Rabs_Ropp, Rabs_R1; ring).
  destruct (fmul_R s x) as (E & F); [destruct Hs as [-> | ->]; reflexivity|exact Fx| |rewrite X in E; auto].
  rewrite X, A. apply (abs_B2R_lt_emax 24 128).
Qed.
Lemma fdiv_1 : forall x, ffin x = true -> ffin (fdiv x f1) = true /\ FR (fdiv x f1) = FR x.
Proof.
  intros x F. destruct (fdiv_R x f1 F) as (E & F1).
  { rewrite f1_R. lra. } { rewrite f1_R. unfold Rdiv. rewrite Rinv_1, Rmult_1_r, rnd_self. apply (abs_B2R_lt_emax 24 128). }
  rewrite f1_R in E. unfold Rdiv in E. rewrite Rinv_1, Rmult_1_r, rnd_self in E. auto.
Qed.
(** the distance to a plane whose normal is an axis of the frame, either way *)
Lemma sum3 : forall a b c x, ffin a = true -> ffin b = true -> ffin c = true ->
  (FR a = x /\ FR b = 0 /\ FR c = 0) \/ (FR a = 0 /\ FR b = x /\ FR c = 0) \/ (FR a = 0 /\ FR b = 0 /\ FR c = x) ->
  ffin (fadd a (fadd b c)) = true /\ FR (fadd a (fadd b c)) = x.
Proof.
  intros a b c x Fa Fb Fc [(A & B & C)|[(A & B & C)|(A & B & C)]].
  - destruct (add_zero b c Fb B Fc) as (F & E). rewrite C in E. destruct (add_zero_r _ a F E Fa) as (F' & E'). rewrite A in E'. auto.
  - destruct (add_zero_r c b Fc C Fb) as (F & E). destruct (add_zero a _ Fa A F) as (F' & E'). rewrite E', E. auto.
  - destruct (add_zero b c Fb B Fc) as (F & E). destruct (add_zero a _ Fa A F) as (F' & E'). rewrite E', E. auto.
Qed.
Definition fin3 (p : pt3) : Prop := ffin (vx p) = true /\ ffin (vy p) = true /\ ffin (vz p) = true.
Inductive axis_of (s : f32) : pt3 -> (pt3 -> f32) -> Prop :=
| ax_x : axis_of s (V3 s f0 f0) vx
| ax_y : axis_of s (V3 f0 s f0) vy
| ax_z : axis_of s (V3 f0 f0 s) vz.
Lemma axis_dot : forall s n ax p, axis_of s n ax -> (s = f1 \/ s = fneg f1) -> fin3 p -> ffin (dot3 n p) = true /\ FR (dot3 n p) = FR s * FR (ax p).
Proof.
  intros s n ax p A Hs (F1 & F2 & F3). destruct (mul0 _ F1) as (G1 & Z1), (mul0 _ F2) as (G2 & Z2), (mul0 _ F3) as (G3 & Z3).
  destruct A; unfold dot3; cbn [vx vy vz].
  - destruct (mul_unit s _ Hs F1) as (H & E). apply sum3; auto.
  - destruct (mul_unit s _ Hs F2) as (H & E). apply sum3; auto.
  - destruct (mul_unit s _ Hs F3) as (H & E). apply sum3; auto 10.
Qed.
Lemma axis_plane : forall s n ax c p, axis_of s n ax -> (s = f1 \/ s = fneg f1) -> fin3 c -> fin3 p ->
  Rabs (FR (ax p) - FR (ax c)) <= bpow radix2 120 ->
  ffin (obj_dist (PlaneObject c n) p) = true /\ FR (obj_dist (PlaneObject c n) p) = rnd32 (FR s * (FR (ax p) - FR (ax c))).
Proof.
  intros s n ax c p A Hs Fc Fp B. cbn [obj_dist].
  destruct (axis_dot s n ax p A Hs Fp) as (G1 & E1). destruct (axis_dot s n ax c A Hs Fc) as (G2 & E2).
  assert (N : norm3 n = f1).
  { apply B2R_inj; [|reflexivity|]; destruct Hs as [-> | ->]; destruct A; vm_compute; reflexivity. }
  rewrite N. assert (G3 : ffin (fneg (dot3 n c)) = true) by (rewrite fneg_fin; exact G2). destruct (fdiv_1 _ G3) as (G4 & E4).
  assert (X : FR (dot3 n p) + FR (fdiv (fneg (dot3 n c)) f1) = FR s * (FR (ax p) - FR (ax c))) by (rewrite E4, fneg_R, E1, E2; ring).
  destruct (fadd_R (dot3 n p) (fdiv (fneg (dot3 n c)) f1) G1 G4) as (E & F).
  { rewrite X. apply rnd32_small. apply Rle_trans with (Rabs (FR (ax p) - FR (ax c))).
    - rewrite Rabs_mult. destruct Hs as [-> | ->]; rewrite ?fneg_R, f1_R, ?Rabs_Ropp, Rabs_R1; lra.
    - eapply Rle_trans; [exact B|]. apply bpow_le. lia. }
  rewrite X in E. auto.
Qed.
(** a rounded difference of two floats has the sign of the difference *)
Lemma rnd_sub_pos : forall a b, ffin a = true -> ffin b = true -> (0 < rnd32 (FR a - FR b) <-> FR b < FR a).
Proof.
  intros a b Fa Fb. assert (Z : rnd32 0 = 0) by apply round_0, valid_rnd_N. split; intros H.
  - apply Rnot_le_lt. intros L. assert (rnd32 (FR a - FR b) <= rnd32 0) by (apply rnd32_le; lra). lra.
  - assert (L : rnd32 0 <= rnd32 (FR a - FR b)) by (apply rnd32_le; lra). rewrite Z in L.
    assert (NZ : rnd32 (FR a + - FR b) <> 0).
    { apply (round_plus_neq_0 radix2 (FLT_exp (-149) 24) (Znearest (fun x => negb (Z.even x)))); [apply generic_format_B2R|apply generic_format_opp, generic_format_B2R|lra]. }
    unfold Rminus in *. lra.
Qed.
Lemma closer_min : forall p D o, ffin D = true -> ffin (obj_dist (o_shape o) p) = true ->
  ffin (closer p D o) = true /\ FR (closer p D o) = Rmin (FR D) (FR (obj_dist (o_shape o) p)).
Proof.
  intros p D o FD Fo. unfold closer. destruct (flt (obj_dist (o_shape o) p) D) eqn:L.
  - split; [exact Fo|]. apply flt_R in L; [|exact Fo|exact FD]. rewrite Rmin_right by lra. reflexivity.
  - split; [exact FD|]. rewrite Rmin_left; [reflexivity|]. apply Rnot_lt_le. intros H. apply flt_R in H; [|exact Fo|exact FD]. rewrite H in L. discriminate L.
Qed.
