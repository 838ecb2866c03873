(** C81: the camera frustum. *)
From Coq Require Import ZArith List Bool Reals Lra Lia.
From Flocq Require Import Core.
From Verif Require Import F32 F32_lemmas Types Update_spec Merge_proofs Dist_proofs Vec_proofs Facing_spec Camera Camera_spec Camera_float.
From Verif Require P_Sphere.
Import ListNotations.
Open Scope R_scope.

Definition triple (a b c : v3 R) : R :=
  (vy a * vz b - vz a * vy b) * vx c + (vz a * vx b - vx a * vz b) * vy c + (vx a * vy b - vy a * vx b) * vz c.
Lemma inside_iff : forall p1 p2 p3 p, isPointInside reals (setFromPoints reals p1 p2 p3) p = true <->
  0 <= triple (psub reals p2 p1) (psub reals p3 p1) (psub reals p p1).
Proof.
  intros p1 p2 p3 p. unfold isPointInside, setFromPoints. cbn [pl_normal pl_distance]. set (c := pcross reals _ _).
  assert (E : triple (psub reals p2 p1) (psub reals p3 p1) (psub reals p p1) = pdot reals p c - pdot reals c p1).
  { unfold c, triple, pcross, pdot, psub, zip3. cbn [vx vy vz reals a_add a_sub a_mul]. ring. }
  rewrite E. cbn [reals a_le]. destruct (Rle_bool_spec (pdot reals (pnormalized reals c) p1) (pdot reals p (pnormalized reals c))) as [H | H].
  all: split; intros X; try reflexivity; try discriminate; unfold pnormalized in H; cbn [reals a_lt a_zero] in H;
    destruct (Rlt_bool_spec 0 (pdot reals c c)) as [P | P]; try (exfalso; lra); try lra.
  - apply sqrt_lt_R0 in P. set (r := sqrt (pdot reals c c)) in *. assert (I : 0 < / r) by (apply Rinv_0_lt_compat; exact P).
    assert (G : pdot reals p (map3 (fun x => a_div reals x r) c) - pdot reals (map3 (fun x => a_div reals x r) c) p1 = (pdot reals p c - pdot reals c p1) * / r).
    { unfold pdot, map3. cbn [vx vy vz reals a_add a_mul a_div]. unfold Rdiv. ring. }
    change (a_sqrt reals (pdot reals c c)) with r in H. set (s := pdot reals p c - pdot reals c p1) in *. nra.
  - apply sqrt_lt_R0 in P. set (r := sqrt (pdot reals c c)) in *. assert (I : 0 < / r) by (apply Rinv_0_lt_compat; exact P).
    assert (G : pdot reals p (map3 (fun x => a_div reals x r) c) - pdot reals (map3 (fun x => a_div reals x r) c) p1 = (pdot reals p c - pdot reals c p1) * / r).
    { unfold pdot, map3. cbn [vx vy vz reals a_add a_mul a_div]. unfold Rdiv. ring. }
    change (a_sqrt reals (pdot reals c c)) with r in H. set (s := pdot reals p c - pdot reals c p1) in *. nra.
Qed.
Lemma triple_placed : forall T a b c d q, triple (psub reals (placed T b) (placed T a)) (psub reals (placed T c) (placed T a)) (psub reals (placed T q) (placed T d)) =
  det T * triple (psub reals b a) (psub reals c a) (psub reals q d).
Proof. intros [at_ [x1 x2 x3] [y1 y2 y3] [z1 z2 z3]] [a1 a2 a3] [b1 b2 b3] [c1 c2 c3] [d1 d2 d3] [q1 q2 q3]. destruct at_ as [t1 t2 t3]. unfold triple, psub, placed, det, zip3. cbn [vx vy vz p_at p_x p_y p_z reals a_sub]. ring. Qed.
Lemma placed_inside : forall T a b c q, 0 < det T -> (isPointInside reals (setFromPoints reals (placed T a) (placed T b) (placed T c)) (placed T q) = true <-> 0 <= triple (psub reals b a) (psub reals c a) (psub reals q a)).
Proof.
  intros T a b c q D. rewrite inside_iff, triple_placed. set (x := triple _ _ _). split; intros H; [|apply Rmult_le_pos; lra].
  apply (Rmult_le_reg_l (det T)); [exact D|]. lra.
Qed.
Lemma view_iff : forall T near far th tv q, 0 < det T ->
  exists ps, bounding_planes reals (map (placed T) (corners reals near far th tv)) = Some ps /\
  (isPointInView reals ps (placed T q) = true <->
    (0 <= 4 * near * near * th * tv * (vx q - near) /\
     0 <= 4 * far * far * th * tv * (far - vx q) /\
     0 <= 2 * near * tv * (far - near) * (th * vx q + vy q) /\
     0 <= 2 * far * tv * (far - near) * (th * vx q - vy q) /\
     0 <= 2 * far * th * (far - near) * (tv * vx q - vz q) /\
     0 <= 2 * far * th * (far - near) * (tv * vx q + vz q))).
Proof.
  intros T near far th tv q D. unfold corners. cbn [app map bounding_planes]. eexists. split; [reflexivity|]. unfold isPointInView. cbn [forallb].
  rewrite !andb_true_iff, !(placed_inside T _ _ _ q D). destruct q as [x y z]. unfold triple, psub, zip3. cbn [vx vy vz reals a_sub a_mul a_opp].
  match goal with |- (0 <= ?a /\ 0 <= ?b /\ 0 <= ?c /\ 0 <= ?d /\ 0 <= ?e /\ 0 <= ?f /\ _) <-> (0 <= ?a' /\ 0 <= ?b' /\ 0 <= ?c' /\ 0 <= ?d' /\ 0 <= ?e' /\ 0 <= ?f') =>
    replace a with a' by ring; replace b with b' by ring; replace c with c' by ring; replace d with d' by ring; replace e with e' by ring; replace f with f' by ring end. tauto.
Qed.
(** C81, exact reading. With a positive near distance the points in view are exactly
    those between the distances and within the opening angles, wherever the camera is. *)
Theorem C81_view : forall T near far tan_h tan_v q, rigid T -> 0 < near < far -> 0 < tan_h -> 0 < tan_v ->
  exists ps, bounding_planes reals (map (placed T) (corners reals near far tan_h tan_v)) = Some ps /\
    (isPointInView reals ps (placed T q) = true <-> seen near far tan_h tan_v q).
Proof.
  intros T near far th tv q (_ & _ & _ & _ & _ & _ & D) N H V. destruct (view_iff T near far th tv q D) as (ps & E & I). exists ps. split; [exact E|]. rewrite I. clear E I ps D T.
  assert (S : forall k x, 0 < k -> (0 <= k * x <-> 0 <= x)) by (intros k x K; split; intros X; [apply (Rmult_le_reg_l k); lra|apply Rmult_le_pos; lra]).
  assert (P : forall a b, 0 < a -> 0 < b -> 0 < a * b) by (intros; apply Rmult_lt_0_compat; assumption).
  rewrite !S by (repeat apply P; lra). unfold seen. split.
  - intros (A1 & A2 & A3 & A4 & A5 & A6). split; [lra|]. split; apply Rabs_le; lra.
  - intros (A1 & A2 & A3). apply Rabs_le_inv in A2. apply Rabs_le_inv in A3. repeat split; lra.
Qed.
Print Assumptions C81_view.
(** Not so for a near distance of 0: the near and left planes vanish, and everything to
    the left is in view. *)
Theorem C81_zero_near_refuted : forall T far tan_h tan_v q, rigid T -> 0 < far -> 0 < tan_h -> 0 < tan_v ->
  exists ps, bounding_planes reals (map (placed T) (corners reals 0 far tan_h tan_v)) = Some ps /\
    (isPointInView reals ps (placed T q) = true <-> vx q <= far /\ vy q <= tan_h * vx q /\ Rabs (vz q) <= tan_v * vx q).
Proof.
  intros T far th tv q (_ & _ & _ & _ & _ & _ & D) N H V. destruct (view_iff T 0 far th tv q D) as (ps & E & I). exists ps. split; [exact E|]. rewrite I. clear E I ps D T.
  assert (S : forall k x, 0 < k -> (0 <= k * x <-> 0 <= x)) by (intros k x K; split; intros X; [apply (Rmult_le_reg_l k); lra|apply Rmult_le_pos; lra]).
  assert (P : forall a b, 0 < a -> 0 < b -> 0 < a * b) by (intros; apply Rmult_lt_0_compat; assumption).
  rewrite !Rmult_0_r, !Rmult_0_l, !Rminus_0_r. rewrite !S by (repeat apply P; lra). split.
  - intros (A1 & A2 & A3 & A4 & A5 & A6). split; [lra|]. split; [lra|]. apply Rabs_le; lra.
  - intros (A1 & A2 & A3). apply Rabs_le_inv in A3. repeat split; lra.
Qed.
Print Assumptions C81_zero_near_refuted.
(** C81, exact reading. What is in view lies in every box that holds the corners, so in
    the axis aligned bounding box. *)
Theorem C81_box : forall T near far tan_h tan_v q lo hi, 0 < near < far -> 0 < tan_h -> 0 < tan_v -> seen near far tan_h tan_v q ->
  (forall c, In c (map (placed T) (corners reals near far tan_h tan_v)) -> vx lo <= vx c <= vx hi /\ vy lo <= vy c <= vy hi /\ vz lo <= vz c <= vz hi) ->
  vx lo <= vx (placed T q) <= vx hi /\ vy lo <= vy (placed T q) <= vy hi /\ vz lo <= vz (placed T q) <= vz hi.
Proof.
  intros T near far th tv q lo hi N H V (S1 & S2 & S3) B. apply Rabs_le_inv in S2. apply Rabs_le_inv in S3.
  assert (L : forall t a b c m M, (forall d s r, (d = near \/ d = far) -> (s = 1 \/ s = -1) -> (r = 1 \/ r = -1) -> m <= t + (a * d + b * (s * d * th) + c * (r * d * tv)) <= M) ->
    m <= t + (a * vx q + b * vy q + c * vz q) <= M).
  { intros t a b c m M X. destruct q as [x y z]. cbn [vx vy vz] in *.
    assert (G : forall a b c, exists s r, (s = 1 \/ s = -1) /\ (r = 1 \/ r = -1) /\ a * x + b * y + c * z <= x * (a + b * s * th + c * r * tv)).
    { clear - S1 S2 S3 N H V. intros a b c. exists (if Rle_dec 0 b then 1 else -1), (if Rle_dec 0 c then 1 else -1). split; [destruct (Rle_dec 0 b); auto|]. split; [destruct (Rle_dec 0 c); auto|].
      assert (B1 : b * y <= x * (b * (if Rle_dec 0 b then 1 else -1) * th)) by (destruct (Rle_dec 0 b); nra).
      assert (C1 : c * z <= x * (c * (if Rle_dec 0 c then 1 else -1) * tv)) by (destruct (Rle_dec 0 c); nra). lra. }
    assert (U : forall a b c t M, (forall d s r, (d = near \/ d = far) -> (s = 1 \/ s = -1) -> (r = 1 \/ r = -1) -> t + (a * d + b * (s * d * th) + c * (r * d * tv)) <= M) -> t + (a * x + b * y + c * z) <= M).
    { intros a' b' c' t' M' X'. destruct (G a' b' c') as (s & r & HS & HR & LE). set (k := a' + b' * s * th + c' * r * tv) in *.
      pose proof (X' near s r (or_introl eq_refl) HS HR) as X1. pose proof (X' far s r (or_intror eq_refl) HS HR) as X2.
      replace (a' * near + b' * (s * near * th) + c' * (r * near * tv)) with (near * k) in X1 by (unfold k; ring). replace (a' * far + b' * (s * far * th) + c' * (r * far * tv)) with (far * k) in X2 by (unfold k; ring).
      destruct (Rle_dec 0 k); nra. }
    split; [|apply U; intros d s r HD HS HR; apply X; assumption].
    assert (W : - t + (- a * x + - b * y + - c * z) <= - m). { apply U. intros d s r HD HS HR. pose proof (X d s r HD HS HR). lra. } lra. }
  assert (C : forall d s r, (d = near \/ d = far) -> (s = 1 \/ s = -1) -> (r = 1 \/ r = -1) -> In (placed T (V3 d (s * d * th) (r * d * tv))) (map (placed T) (corners reals near far th tv))).
  { intros d s r HD HS HR. apply in_map. unfold corners. apply in_or_app. destruct HD as [-> | ->]; [left | right]; cbn [In reals a_mul a_opp];
      destruct HS as [-> | ->]; destruct HR as [-> | ->]; rewrite ?Rmult_1_l; replace (-1 * near) with (- near) by ring || idtac; replace (-1 * far) with (- far) by ring || idtac; tauto. }
  unfold placed at 1 2 3 4 5 6. cbn [vx vy vz]. split; [|split]; apply L; intros d s r HD HS HR; apply (B _ (C d s r HD HS HR)).
Qed.
Print Assumptions C81_box.

(** C81. The reported box of corners with finite coordinates holds every corner and is
    touched by a corner on every side. *)
Lemma minimum_spec : forall l a, (ffin a = true \/ a = finf) -> (forall x, In x l -> ffin x = true) ->
  let m := fold_left (minimum floats) l a in
  (m = a \/ In m l) /\ (forall x, In x l -> ffin m = true /\ FR m <= FR x) /\ (ffin a = true -> ffin m = true /\ FR m <= FR a).
Proof.
  induction l as [|x l IH]; intros a HA HL; cbn [fold_left].
  - cbn zeta. split; [auto|]. split; [intros x []|]. intros F. split; [exact F|lra].
  - assert (FX : ffin x = true) by (apply HL; left; reflexivity).
    assert (M : ffin (minimum floats a x) = true /\ (minimum floats a x = a \/ minimum floats a x = x) /\ FR (minimum floats a x) <= FR x /\ (ffin a = true -> FR (minimum floats a x) <= FR a)).
    { unfold minimum. cbn [floats a_lt]. destruct HA as [FA | ->].
      - destruct (flt x a) eqn:E; [apply flt_R in E; auto; split; [exact FX|]; split; [auto|]; split; [lra|]; intros; lra|].
        assert (FR a <= FR x) by (apply Rnot_lt_le; intros Q; apply (flt_R x a FX FA) in Q; congruence). split; [exact FA|]. split; [auto|]. split; [lra|]. intros; lra.
      - assert (E : flt x finf = true) by (destruct x as [[]|[]|?|[]]; try discriminate FX; reflexivity). rewrite E. split; [exact FX|]. split; [auto|]. split; [lra|]. intros; discriminate. }
    destruct M as (M1 & M2 & M3 & M4). destruct (IH (minimum floats a x) (or_introl M1)) as (I1 & I2 & I3); [intros y Hy; apply HL; right; exact Hy|]. destruct (I3 M1) as (J1 & J2).
    cbn zeta. split; [|split].
    + destruct I1 as [-> | I1]; [|right; right; exact I1]. destruct M2 as [-> | ->]; [left; reflexivity|right; left; reflexivity].
    + intros y [<- | Hy]; [|apply I2; exact Hy]. split; [exact J1|lra].
    + intros FA. split; [exact J1|]. specialize (M4 FA). lra.
Qed.
Lemma maximum_spec : forall l a, (ffin a = true \/ a = fminf) -> (forall x, In x l -> ffin x = true) ->
  let m := fold_left (maximum floats) l a in
  (m = a \/ In m l) /\ (forall x, In x l -> ffin m = true /\ FR x <= FR m) /\ (ffin a = true -> ffin m = true /\ FR a <= FR m).
Proof.
  induction l as [|x l IH]; intros a HA HL; cbn [fold_left].
  - cbn zeta. split; [auto|]. split; [intros x []|]. intros F. split; [exact F|lra].
  - assert (FX : ffin x = true) by (apply HL; left; reflexivity).
    assert (M : ffin (maximum floats a x) = true /\ (maximum floats a x = a \/ maximum floats a x = x) /\ FR x <= FR (maximum floats a x) /\ (ffin a = true -> FR a <= FR (maximum floats a x))).
    { unfold maximum. cbn [floats a_lt]. destruct HA as [FA | ->].
      - destruct (flt a x) eqn:E; [apply flt_R in E; auto; split; [exact FX|]; split; [auto|]; split; [lra|]; intros; lra|].
        assert (FR x <= FR a) by (apply Rnot_lt_le; intros Q; apply (flt_R a x FA FX) in Q; congruence). split; [exact FA|]. split; [auto|]. split; [lra|]. intros; lra.
      - assert (E : flt fminf x = true) by (destruct x as [[]|[]|?|[]]; try discriminate FX; reflexivity). rewrite E. split; [exact FX|]. split; [auto|]. split; [lra|]. intros; discriminate. }
    destruct M as (M1 & M2 & M3 & M4). destruct (IH (maximum floats a x) (or_introl M1)) as (I1 & I2 & I3); [intros y Hy; apply HL; right; exact Hy|]. destruct (I3 M1) as (J1 & J2).
    cbn zeta. split; [|split].
    + destruct I1 as [-> | I1]; [|right; right; exact I1]. destruct M2 as [-> | ->]; [left; reflexivity|right; left; reflexivity].
    + intros y [<- | Hy]; [|apply I2; exact Hy]. split; [exact J1|lra].
    + intros FA. split; [exact J1|]. specialize (M4 FA). lra.
Qed.
Theorem C81_aabb : forall cs, cs <> [] -> (forall c, In c cs -> all3 (fun x => ffin x = true) c) ->
  let (lo, hi) := float_aabb cs in
  (forall c, In c cs -> FR (vx lo) <= FR (vx c) <= FR (vx hi) /\ FR (vy lo) <= FR (vy c) <= FR (vy hi) /\ FR (vz lo) <= FR (vz c) <= FR (vz hi)) /\
  (In (vx lo) (map vx cs) /\ In (vy lo) (map vy cs) /\ In (vz lo) (map vz cs) /\ In (vx hi) (map vx cs) /\ In (vy hi) (map vy cs) /\ In (vz hi) (map vz cs)).
Proof.
  intros cs NE F. unfold float_aabb, aabb. cbn [vx vy vz fst snd].
  assert (G : forall f : v3 f32 -> f32, (forall c, In c cs -> ffin (f c) = true) ->
    (forall c, In c cs -> FR (fold_left (minimum floats) (map f cs) finf) <= FR (f c) <= FR (fold_left (maximum floats) (map f cs) fminf)) /\
    In (fold_left (minimum floats) (map f cs) finf) (map f cs) /\ In (fold_left (maximum floats) (map f cs) fminf) (map f cs)).
  { intros f Hf. assert (HM : forall x, In x (map f cs) -> ffin x = true) by (intros x Hx; apply in_map_iff in Hx; destruct Hx as (c & <- & Hc); auto).
    destruct (minimum_spec (map f cs) finf (or_intror eq_refl) HM) as (A1 & A2 & _). destruct (maximum_spec (map f cs) fminf (or_intror eq_refl) HM) as (B1 & B2 & _). cbn zeta in *.
    split; [intros c Hc; split; [apply A2, in_map, Hc|apply B2, in_map, Hc]|].
    destruct cs as [|c0 cs']; [congruence|]. assert (I0 : In (f c0) (map f (c0 :: cs'))) by (left; reflexivity).
    split; [destruct A1 as [E | A1]|destruct B1 as [E | B1]]; auto; exfalso; [destruct (A2 _ I0) as (Q & _)|destruct (B2 _ I0) as (Q & _)]; rewrite E in Q; discriminate Q. }
  assert (FC : forall c, In c cs -> ffin (vx c) = true /\ ffin (vy c) = true /\ ffin (vz c) = true).
  { intros c Hc. exact (F c Hc). }
  destruct (G vx (fun c Hc => proj1 (FC c Hc))) as (X1 & X2 & X3). destruct (G vy (fun c Hc => proj1 (proj2 (FC c Hc)))) as (Y1 & Y2 & Y3). destruct (G vz (fun c Hc => proj2 (proj2 (FC c Hc)))) as (Z1 & Z2 & Z3).
  split; [intros c Hc; auto|]. tauto.
Qed.
Print Assumptions C81_aabb.

(** A camera at the origin between 1 and 10 with right angles: in floats, a point in
    view, one to the left, one behind the far plane; with near distance 0 the point to
    the left is in view. *)
Definition fcorners (n : Z) : list (v3 f32) := corners floats (f32_of_Z n) (f32_of_Z 10) f1 f1.
Definition fpt (x y z : Z) : v3 f32 := V3 (f32_of_Z x) (f32_of_Z y) (f32_of_Z z).
Definition fview (n x y z : Z) : option bool := match bounding_planes floats (fcorners n) with Some ps => Some (isPointInView floats ps (fpt x y z)) | None => None end.
Example camera_view : map (fun q => fview 1 (vx q) (vy q) (vz q)) [V3 5 2 (-3); V3 5 (-7) 0; V3 11 0 0; V3 1 0 0]%Z = map Some [true; false; false; true].
Proof. vm_compute. reflexivity. Qed.
Example camera_zero_near : fview 0 5 (-100) 0 = Some true.
Proof. vm_compute. reflexivity. Qed.
Example camera_rigid : rigid (MkPose (V3 1 2 3) (V3 0 1 0) (V3 (-1) 0 0) (V3 0 0 1)) /\ seen 1 10 1 1 (V3 5 2 (-3)).
Proof.
  unfold rigid, inner, det, seen. cbn [p_x p_y p_z vx vy vz]. split; [repeat split; lra|]. split; [lra|]. split; apply Rabs_le; lra.
Qed.
Example camera_aabb : fcorners 1 <> [] /\ (forall c, In c (fcorners 1) -> all3 (fun x => ffin x = true) c) /\
  (let (lo, hi) := float_aabb (fcorners 1) in map fword [vx lo; vy lo; vz lo; vx hi; vy hi; vz hi] = map fword [f1; f32_of_Z (-10); f32_of_Z (-10); f32_of_Z 10; f32_of_Z 10; f32_of_Z 10]).
Proof. split; [discriminate|]. split; [|vm_compute; reflexivity]. apply Forall_forall. repeat constructor; vm_compute; reflexivity. Qed.

(** C81, float reading. Whatever the eight stored corners are, a point that lies inside
    all six planes through them by more than the rounding band is reported in view, and
    one that lies outside some plane by more than the band is reported out of view. *)
Theorem C81_float : forall cs q M, length cs = 8%nat -> 1 <= M <= bpow radix2 20 -> Forall (within M) cs -> within M q ->
  let c i := nth i cs q in
  (forall f, In f (sides c) -> let '(a, b, d) := f in wide_triangle a b d) ->
  exists ps, bounding_planes floats cs = Some ps /\
    ((forall f, In f (sides c) -> band M f <= depth f q) -> isPointInView floats ps q = true) /\
    ((exists f, In f (sides c) /\ depth f q < - band M f) -> isPointInView floats ps q = false).
Proof.
  intros cs q M L HM B Q c W.
  destruct cs as [|c0 [|c1 [|c2 [|c3 [|c4 [|c5 [|c6 [|c7 [|c8 cs]]]]]]]]]; try discriminate L. clear L.
  assert (IB : forall x, In x [c0; c1; c2; c3; c4; c5; c6; c7] -> within M x) by (apply Forall_forall; exact B).
  assert (P : forall a b d, In (a, b, d) (sides c) -> In a [c0; c1; c2; c3; c4; c5; c6; c7] ->
    (band M (a, b, d) <= depth (a, b, d) q -> isPointInside floats (setFromPoints floats a b d) q = true) /\
    (depth (a, b, d) q < - band M (a, b, d) -> isPointInside floats (setFromPoints floats a b d) q = false)).
  { intros a b d I J. exact (plane_float a b d q M HM (W _ I) (IB a J) Q). }
  eexists. split; [reflexivity|]. unfold isPointInView. cbn [forallb].
  change (sides c) with [(c0, c2, c1); (c4, c5, c6); (c3, c6, c2); (c0, c5, c4); (c3, c4, c7); (c2, c6, c5)] in *.
  split.
  - intros H. rewrite !andb_true_iff. repeat split; apply P; try apply H; cbn [In]; tauto.
  - intros (f & I & D). cbn [In] in I.
    repeat match type of I with _ \/ _ => destruct I as [I | I] end; try contradiction; subst f;
      match type of D with depth (?a, ?b, ?d) q < _ => rewrite (proj2 (P a b d ltac:(cbn [In]; tauto) ltac:(cbn [In]; tauto)) D) end;
      rewrite ?andb_false_r, ?andb_false_l; reflexivity.
Qed.
Print Assumptions C81_float.
(** The camera above meets the conditions with M = 16: the point in view is deep enough
    inside, the one to the left far enough outside. *)
Lemma wide_squares : forall a b d, all3 (fin_upto 20) a -> all3 (fin_upto 20) b -> all3 (fin_upto 20) d ->
  1 <= dotR (normal_dir a b d) (normal_dir a b d) ->
  dotR (sub3R b a) (sub3R b a) * dotR (sub3R d a) (sub3R d a) <= 4294967296 * dotR (normal_dir a b d) (normal_dir a b d) -> wide_triangle a b d.
Proof.
  intros a b d A B D N W. split; [exact A|]. split; [exact B|]. split; [exact D|]. set (n := normal_dir a b d) in *.
  assert (N1 : 1 <= normR n) by (unfold normR; rewrite <- sqrt_1; apply sqrt_le_1_alt; exact N).
  split; [replace (bpow radix2 (-40)) with (/ 1099511627776) by (cbn; lra); lra|].
  replace (bpow radix2 (-16)) with (/ 65536) by (cbn; lra).
  assert (X : normR (sub3R b a) * normR (sub3R d a) <= 65536 * normR n); [|lra].
  pose proof (norm_nn (sub3R b a)). pose proof (norm_nn (sub3R d a)). apply Rsqr_incr_0_var; [|lra]. unfold Rsqr.
  pose proof (norm_sq (sub3R b a)). pose proof (norm_sq (sub3R d a)). pose proof (norm_sq n).
  replace (normR (sub3R b a) * normR (sub3R d a) * (normR (sub3R b a) * normR (sub3R d a))) with ((normR (sub3R b a) * normR (sub3R b a)) * (normR (sub3R d a) * normR (sub3R d a))) by ring.
  rewrite H1, H2. lra.
Qed.
Lemma band_squares : forall a b d q k, 0 < dotR (normal_dir a b d) (normal_dir a b d) ->
  dotR (sub3R b a) (sub3R b a) * dotR (sub3R d a) (sub3R d a) <= k * k -> 0 <= k -> 
  (k / 4096 <= dotR (sub3R q a) (normal_dir a b d) -> band 16 (a, b, d) <= depth (a, b, d) q) /\
  (dotR (sub3R q a) (normal_dir a b d) < - (k / 4096) -> depth (a, b, d) q < - band 16 (a, b, d)).
Proof.
  intros a b d q k N W K. unfold band, depth. set (n := normal_dir a b d) in *.
  assert (N1 : 0 < / normR n) by (apply Rinv_0_lt_compat; unfold normR; apply sqrt_lt_R0; exact N).
  pose proof (norm_nn (sub3R b a)). pose proof (norm_nn (sub3R d a)).
  assert (X : normR (sub3R b a) * normR (sub3R d a) <= k).
  { apply Rsqr_incr_0_var; [|exact K]. unfold Rsqr. pose proof (norm_sq (sub3R b a)). pose proof (norm_sq (sub3R d a)).
    replace (normR (sub3R b a) * normR (sub3R d a) * (normR (sub3R b a) * normR (sub3R d a))) with ((normR (sub3R b a) * normR (sub3R b a)) * (normR (sub3R d a) * normR (sub3R d a))) by ring.
    rewrite H1, H2. lra. }
  replace (bpow radix2 (-16) * 16) with (/ 4096) by (cbn; lra).
  unfold Rdiv. split; intros Y.
  - apply Rmult_le_compat_r; lra.
  - rewrite <- Ropp_mult_distr_l_reverse. apply Rmult_lt_compat_r; lra.
Qed.
Definition zcorners : list (v3 f32) := [fpt 1 1 1; fpt 1 1 (-1); fpt 1 (-1) (-1); fpt 1 (-1) 1; fpt 10 10 10; fpt 10 10 (-10); fpt 10 (-10) (-10); fpt 10 (-10) 10].
Example camera_float : length zcorners = 8%nat /\ Forall (within 16) zcorners /\ within 16 (fpt 5 2 (-3)) /\ within 16 (fpt 5 (-7) 0) /\
  (forall q f, In f (sides (fun i => nth i zcorners q)) -> let '(a, b, d) := f in wide_triangle a b d) /\
  (forall f, In f (sides (fun i => nth i zcorners (fpt 5 2 (-3)))) -> band 16 f <= depth f (fpt 5 2 (-3))) /\
  (exists f, In f (sides (fun i => nth i zcorners (fpt 5 (-7) 0))) /\ depth f (fpt 5 (-7) 0) < - band 16 f).
Proof.
  assert (R16 : forall z, (Z.abs z <= 16)%Z -> ffin (f32_of_Z z) = true /\ Rabs (FR (f32_of_Z z)) <= 16).
  { intros z Hz. destruct (f32_of_Z_R z) as (E & F); [lia|]. split; [exact F|]. rewrite E, <- abs_IZR. apply IZR_le. exact Hz. }
  assert (Wi : forall x y z, (Z.abs x <= 16)%Z -> (Z.abs y <= 16)%Z -> (Z.abs z <= 16)%Z -> within 16 (fpt x y z)) by (intros; repeat split; apply R16; assumption).
  assert (Fi : forall x y z, (Z.abs x <= 16)%Z -> (Z.abs y <= 16)%Z -> (Z.abs z <= 16)%Z -> all3 (fin_upto 20) (fpt x y z)).
  { intros x y z X Y Z. assert (B : 16 <= bpow radix2 20) by (cbn; lra). repeat split; try (apply R16; assumption); (eapply Rle_trans; [apply R16; assumption|exact B]). }
  assert (Z1 : FR (f32_of_Z 1) = 1 /\ FR (f32_of_Z (-1)) = -1 /\ FR (f32_of_Z 10) = 10 /\ FR (f32_of_Z (-10)) = -10 /\ FR (f32_of_Z 5) = 5 /\ FR (f32_of_Z 2) = 2 /\ FR (f32_of_Z (-3)) = -3 /\ FR (f32_of_Z (-7)) = -7 /\ FR (f32_of_Z 0) = 0) by (repeat split; apply f32_of_Z_R; lia).
  destruct Z1 as (Y1 & Y2 & Y3 & Y4 & Y5 & Y6 & Y7 & Y8 & Y9).
  split; [reflexivity|]. split; [unfold zcorners; repeat (apply Forall_cons; [apply Wi; lia|]); apply Forall_nil|]. split; [apply Wi; lia|]. split; [apply Wi; lia|].
  split; [|split].
  - intros q f I. cbn [sides nth zcorners In] in I. repeat match type of I with _ \/ _ => destruct I as [<- | I] end; try contradiction;
      (apply wide_squares; try (apply Fi; lia); unfold dotR, normal_dir, crossR, sub3R, fpt; cbn [vx vy vz]; rewrite ?Y1, ?Y2, ?Y3, ?Y4; lra).
  - intros f I. cbn [sides nth zcorners In] in I. repeat match type of I with _ \/ _ => destruct I as [<- | I] end; try contradiction;
      match goal with |- band 16 (?a, ?b, ?d) <= depth _ ?q => destruct (band_squares a b d q 4096) as (H & _);
        [unfold dotR, normal_dir, crossR, sub3R, fpt; cbn [vx vy vz]; rewrite ?Y1, ?Y2, ?Y3, ?Y4; lra|
         unfold dotR, sub3R, fpt; cbn [vx vy vz]; rewrite ?Y1, ?Y2, ?Y3, ?Y4; lra|lra|apply H] end;
      unfold dotR, normal_dir, crossR, sub3R, fpt; cbn [vx vy vz]; rewrite ?Y1, ?Y2, ?Y3, ?Y4, ?Y5, ?Y6, ?Y7; lra.
  - exists (fpt 1 (-1) 1, fpt 10 (-10) (-10), fpt 1 (-1) (-1)). split; [cbn [sides nth zcorners In]; tauto|].
    match goal with |- depth (?a, ?b, ?d) ?q < _ => destruct (band_squares a b d q 4096) as (_ & H);
        [unfold dotR, normal_dir, crossR, sub3R, fpt; cbn [vx vy vz]; rewrite ?Y1, ?Y2, ?Y3, ?Y4; lra|
         unfold dotR, sub3R, fpt; cbn [vx vy vz]; rewrite ?Y1, ?Y2, ?Y3, ?Y4; lra|lra|apply H] end.
    unfold dotR, normal_dir, crossR, sub3R, fpt; cbn [vx vy vz]; rewrite ?Y1, ?Y2, ?Y3, ?Y4, ?Y5, ?Y8, ?Y9; lra.
Qed.
