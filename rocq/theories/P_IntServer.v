(** C95, C96: the intensity server. *)
From Coq Require Import ZArith Reals List Bool Lia Lra.
From Flocq Require Import Core.
From Verif Require Import F32 F32_lemmas Types Index Index_float Voxel Assoc Assoc_lemmas Layer Planning Ray Update_spec Interp Interp_spec Intensity Intensity_spec Marching MeshInt MeshMsg MeshMsg_spec
  ColorMap ColorMap_spec P_ColorMap F32_err Vec_proofs P_Sphere IntServer IntServer_spec IntServer_proofs.
Import ListNotations.
Open Scope Z_scope.

(** C95. The intensity mesh is computed without fault, has the vertices of the mesh and a colour for
    each; a vertex whose lookup finds a measured voxel gets the heat colour of its intensity, any other
    keeps its colour. Missing: the lookup is not made where the vertex is, but at the 16-bit numbers
    that encode it in the message, taken as metres. *)
Theorem C95_recolor_partial : forall lo hi l msg, span lo hi -> intensity_map l -> Forall aligned (mm_blocks msg) ->
  exists msg', intensity_mesh lo hi l msg = Ok msg' /\ mm_edge msg' = mm_edge msg /\
    Forall2 (recolored lo hi l vertex_numbers) (mm_blocks msg) (mm_blocks msg').
Proof.
  intros lo hi l msg S M A. unfold intensity_mesh, recolorVoxbloxMeshMsgByIntensity.
  assert (H : exists bs, rmap (recolor_block (ironbow lo hi) l) (mm_blocks msg) = Ok bs /\ Forall2 (recolored lo hi l vertex_numbers) (mm_blocks msg) bs).
  { induction A as [|b bs Hb A IH]; [exists []; split; [reflexivity|constructor]|]. destruct IH as (bs' & E & F).
    destruct (block_ok lo hi l b S M Hb) as (b' & Eb & Cb). exists (b' :: bs'). cbn [rmap]. rewrite Eb. cbn [rbind]. rewrite E. cbn [rbind].
    split; [reflexivity|]. constructor; [apply colored_all; exact Cb|exact F]. }
  destruct H as (bs & E & F). rewrite E. cbn [rbind]. exists (MkMM (mm_edge msg) bs). auto.
Qed.
Print Assumptions C95_recolor_partial.

(** With the lookup where the vertex is, the same claim fails: a vertex in a voxel whose measured
    intensity is shown white is made black by a voxel kilometres away. *)
Definition f2 : f32 := f32_of_Z 2.
Definition warm (x : f32) (i : idx3) : idx3 * Block KInt :=
  (i, set_voxels (k := KInt) (repeat (MkInt x f1) 64) (new_block (k := KInt) 4 f1 (new_block_origin 4 f1 i))).
Definition ex_map : Layer KInt := MkLayer (k := KInt) f1 4 [warm f2 (V3 0 0 0); warm f0 (V3 4095 4095 4095)].
Definition ex_mesh : mesh := MkMesh [V3 f2 f2 f2] [0] [] [] (V3 f0 f0 f0) true.
Lemma ex_map_ok : intensity_map ex_map.
Proof.
  assert (G : forall i b, l_get ex_map i = Some b -> exists x, (x = f2 \/ x = f0) /\ (i, b) = warm x i).
  { intros i b H. unfold l_get, ex_map in H. cbn [l_blocks alookup warm fst snd] in H.
    destruct (idx_eqb_spec i (V3 0 0 0)) as [E|]; [rewrite E; injection H as <-; exists f2; auto|].
    destruct (idx_eqb_spec i (V3 4095 4095 4095)) as [E|]; [rewrite E; injection H as <-; exists f0; auto|discriminate H]. }
  assert (E1 : FR f1 = 1%R) by (apply (f32_of_Z_R 1); lia).
  split; [|split; [|split]].
  - split; [|split; [cbn; lia|]].
    + split; [reflexivity|]. change (l_size ex_map) with f1. rewrite E1. split; [apply (bpow_le radix2 (-40) 0)|apply (bpow_le radix2 0 40)]; lia.
    + intros i b H. destruct (G i b H) as (x & _ & E). unfold warm in E. injection E as E. rewrite E. repeat split.
  - intros (bi, n). unfold content, vat. cbn [fst snd]. destruct (l_get ex_map bi) as [b|] eqn:B.
    + destruct (G bi b B) as (x & _ & E). unfold warm in E. injection E as E.
      destruct (nth_error (b_voxels b) n) as [v|] eqn:N.
      * rewrite E in N. apply nth_error_In in N. apply (repeat_spec 64 (MkInt x f1) v) in N. rewrite N. exists 1. split; [lia|]. split; [reflexivity|]. exact E1.
      * exists 0. split; [lia|]. split; reflexivity.
    + exists 0. split; [lia|]. split; reflexivity.
  - change (l_size ex_map) with f1. rewrite E1. lra.
  - cbn. lia.
Qed.
Theorem C95_place_refuted : exists lo hi l mm mm' msg msg', span lo hi /\ intensity_map l /\
  generateVoxbloxMeshMsg kGray (l_block_size l) mm = Ok (msg, mm') /\ Forall aligned (mm_blocks msg) /\
  intensity_mesh lo hi l msg = Ok msg' /\
  ~ Forall2 (recolored lo hi l (vertex_position (mm_edge msg))) (mm_blocks msg) (mm_blocks msg').
Proof.
  pose (mm := [(V3 0 0 0, ex_mesh)] : mesh_map). pose (q := 16383).
  pose (b := MkMB (V3 0 0 0) [q] [q] [q] [127] [127] [127]). pose (b' := MkMB (V3 0 0 0) [q] [q] [q] [0] [0] [0]).
  assert (G : match generateVoxbloxMeshMsg kGray (l_block_size ex_map) mm with
              | Ok (msg, _) => mm_blocks msg = [b] /\ fword (mm_edge msg) = fword (l_block_size ex_map) /\
                  match intensity_mesh f0 f2 ex_map msg with Ok msg' => mm_blocks msg' = [b'] | _ => False end
              | _ => False end) by (vm_compute; repeat split).
  destruct (generateVoxbloxMeshMsg kGray (l_block_size ex_map) mm) as [(msg, mm')| |] eqn:Eg; [|destruct G|destruct G].
  destruct G as (Eb & Ee & G). apply fword_inj in Ee.
  destruct (intensity_mesh f0 f2 ex_map msg) as [msg'| |] eqn:Em; [|destruct G|destruct G].
  exists f0, f2, ex_map, mm, mm', msg, msg'.
  split; [exact span_02|]. split; [exact ex_map_ok|]. split; [exact Eg|].
  split. { rewrite Eb. constructor; [|constructor]. unfold aligned, b, q, word16. cbn. repeat split; repeat constructor; lia. }
  split; [exact Em|]. rewrite Eb, G, Ee. intros H0. inversion H0 as [|? ? ? ? H H1]; subst. destruct H as (_ & _ & _ & _ & _ & _ & H).
  destruct (H 0%nat ltac:(cbn; lia)) as (o & L & Hm & _).
  assert (X : match getNearestVoxel ex_map (vertex_position (l_block_size ex_map) b 0) with
              | Ok (Some v) => fword (i_intensity v) = fword f2 /\ fword (i_weight v) = fword f1 | _ => False end) by (vm_compute; split; reflexivity).
  rewrite L in X. destruct o as [v|]; [|destruct X]. destruct X as (Xi & Xw). apply fword_inj in Xi, Xw.
  assert (E1 : FR f1 = 1%R) by (apply (f32_of_Z_R 1); lia).
  destruct (Hm v eq_refl) as (_ & R & _).
  { split; rewrite Xw; [reflexivity|]. rewrite E1. lra. }
  rewrite Xi in R. unfold about in R. cbn [cr color_of b' mb_r nth vx] in R.
  assert (Sh : share f0 f2 f2 = 1%R) by (unfold share; replace (fnan f2 || fle f2 f0) with false by (vm_compute; reflexivity); replace (fle f2 f2) with true by (vm_compute; reflexivity); reflexivity).
  rewrite Sh in R. unfold through, ramp in R. rewrite !Rmin_left, !Rmax_right in R by (try apply Rmin_glb; lra).
  apply Rabs_le_inv in R. lra.
Qed.
Print Assumptions C95_place_refuted.

(** In particular nothing measured at negative coordinates is ever shown: if every measured voxel lies in
    a block with a negative index along some axis, the intensity mesh is the mesh. *)
Theorem C95_negative_refuted : forall lo hi l msg, span lo hi -> intensity_map l -> Forall aligned (mm_blocks msg) ->
  (forall bi n v, vat l (bi, n) = Some v -> measured v -> vx bi < 0 \/ vy bi < 0 \/ vz bi < 0) ->
  (forall b, In b (mm_blocks msg) -> length (mb_r b) = length (mb_x b) /\ length (mb_g b) = length (mb_x b) /\ length (mb_b b) = length (mb_x b)) ->
  intensity_mesh lo hi l msg = Ok msg.
Proof.
  intros lo hi l msg S M A N L. unfold intensity_mesh, recolorVoxbloxMeshMsgByIntensity.
  assert (H : rmap (recolor_block (ironbow lo hi) l) (mm_blocks msg) = Ok (mm_blocks msg)).
  { induction A as [|b bs Hb A IH]; [reflexivity|]. cbn [rmap].
    destruct (block_ok lo hi l b S M Hb) as (b' & Eb & C1 & C2 & C3 & C4 & C5 & C6 & C7 & C8). rewrite Eb. cbn [rbind].
    rewrite IH by (intros c Hc; apply L; right; exact Hc). cbn [rbind].
    assert (E : b' = b); [|rewrite E; reflexivity].
    destruct (mb_x b) as [|x xs] eqn:X; [apply C5; reflexivity|]. rewrite <- X in *.
    destruct (C6 ltac:(rewrite X; discriminate)) as (L1 & L2 & L3). destruct (L b ltac:(left; reflexivity)) as (K1 & K2 & K3).
    assert (Col : forall n, (n < length (mb_x b))%nat -> color_of b' n = color_of b n).
    { intros n Hn. destruct (C8 n Hn) as (o & _ & _ & O3 & O4). apply O3. intros v Ev Mv. destruct (O4 v Ev) as (bi & p & (P1 & P2 & P3) & V).
      specialize (N bi p v V Mv). lia. }
    assert (R : mb_r b' = mb_r b). { apply list_same; [congruence|]. intros n Hn. rewrite L1 in Hn. specialize (Col n Hn). unfold color_of in Col. congruence. }
    assert (G : mb_g b' = mb_g b). { apply list_same; [congruence|]. intros n Hn. rewrite L2 in Hn. specialize (Col n Hn). unfold color_of in Col. congruence. }
    assert (B : mb_b b' = mb_b b). { apply list_same; [congruence|]. intros n Hn. rewrite L3 in Hn. specialize (Col n Hn). unfold color_of in Col. congruence. }
    destruct b as [bi bx by_ bz br bg bb], b' as [ci cx cy cz cr_ cg_ cb_]. cbn [mb_index mb_x mb_y mb_z mb_r mb_g mb_b] in *. congruence. }
  rewrite H. cbn [rbind]. destruct msg as [e bs]. reflexivity.
Qed.
Print Assumptions C95_negative_refuted.
(** measured voxels all around the vertex, none of them used *)
Definition ex_neg : Layer KInt := MkLayer (k := KInt) f1 4 [warm f2 (V3 (-1) (-1) (-1))].
Example C95_negative_case :
  let b := MkMB (V3 (-1) (-1) (-1)) [16383] [16383] [16383] [127] [127] [127] in
  match intensity_mesh f0 f2 ex_neg (MkMM (l_block_size ex_neg) [b]) with Ok m => mm_blocks m = [b] | _ => False end /\
  match getNearestVoxel ex_neg (vertex_position (l_block_size ex_neg) b 0) with Ok (Some v) => fword (i_intensity v) = fword f2 /\ fword (i_weight v) = fword f1 | _ => False end.
Proof. vm_compute. repeat split. Qed.

(** C96. An image: of the pixels counted along the rows every [sub]-th is used, in order, and each
    reading is integrated along the viewing direction of its own pixel, rotated by the pose. *)
Theorem C96_image : forall fuel tl max_d f sub cols l rot pos img, 1 <= sub ->
  ffin f = true -> (1 <= FR f <= bpow radix2 22)%R -> 0 < cols <= 2 ^ 22 -> Z.of_nat (length img) <= 2 ^ 22 ->
  Forall (fun row => Z.of_nat (length row) = cols) img ->
  exists bearings readings,
    intensityImageCallback fuel tl max_d f sub cols l (Some (rot, pos)) img = addIntensityBearingVectors fuel tl max_d l pos bearings readings /\
    length bearings = length readings /\
    Forall2 (fun m bx =>
      let i := Z.of_nat m / cols in let j := Z.of_nat m mod cols in
      (exists d, near3 (9 * u32r) d (unitR (pixel_ray f (Z.of_nat (length img)) cols i j)) /\ fst bx = rot d) /\
      nth_error (nth (Z.to_nat i) img []) (Z.to_nat j) = Some (snd bx))
    (kept sub (Z.to_nat cols * length img)) (combine bearings readings).
Proof.
  intros fuel tl max_d f sub cols l rot pos img Hs Ff Hf Hc Hr H. unfold intensityImageCallback.
  destruct (Z.eqb_spec sub 0) as [E|_]; [lia|]. destruct (Z.ltb_spec sub 0) as [E|_]; [lia|].
  set (c := Z.to_nat cols). assert (Ec : cols = Z.of_nat c) by (unfold c; lia).
  assert (H' : Forall (fun row => length row = c) img) by (eapply Forall_impl; [|exact H]; intros row Hrow; cbn in Hrow; lia).
  rewrite Ec. pose proof (image_map rot f (Z.of_nat (length img)) sub c img 0 ltac:(lia) H') as IM. rewrite Z.mul_0_l in IM. rewrite IM. clear IM.
  eexists. eexists. split; [reflexivity|]. rewrite !map_length. split; [reflexivity|].
  assert (CS : forall (xs : list (pt3 * f32)), combine (map fst xs) (map snd xs) = xs).
  { induction xs as [|(a, b) xs IH]; [reflexivity|]. cbn [map combine fst snd]. rewrite IH. reflexivity. }
  rewrite CS.
  replace (filter (fun t => (0 + Z.of_nat t) mod sub =? 0) (seq 0 (c * length img))) with (kept sub (c * length img)) by (unfold kept; apply filter_ext; intros t; reflexivity).
  assert (In_ok : forall t, In t (kept sub (c * length img)) -> (t < c * length img)%nat) by (intros t Ht; apply filter_In in Ht; destruct Ht as (Ht & _); apply in_seq in Ht; lia).
  revert In_ok. generalize (kept sub (c * length img)). intros ts. induction ts as [|t ts IH]; intros In_ok; [constructor|]. cbn [map]. constructor; [|apply IH; intros u Hu; apply In_ok; right; exact Hu].
  assert (Ht := In_ok t ltac:(left; reflexivity)). cbv zeta. cbn [fst snd].
  assert (C0 : (0 < c)%nat) by lia.
  assert (D : (t / c < length img)%nat) by (apply Nat.div_lt_upper_bound; lia). assert (Dm : (t mod c < c)%nat) by (apply Nat.mod_upper_bound; lia).
  rewrite <- Nat2Z.inj_div, <- Nat2Z.inj_mod, Z.add_0_l, !Nat2Z.id. split.
  - exists (normalized3 (V3 (fsub (f32_of_Z (Z.of_nat (t mod c))) (half_of (Z.of_nat c))) (fsub (f32_of_Z (Z.of_nat (t / c))) (half_of (Z.of_nat (length img)))) f)).
    split; [|reflexivity]. apply bearing_ok; try assumption; lia.
  - apply nth_error_nth'. rewrite Forall_forall in H'. rewrite H'; [exact Dm|]. apply nth_In. exact D.
Qed.
Print Assumptions C96_image.
(** how many *)
Theorem C96_count : forall sub total, 1 <= sub ->
  Z.of_nat (length (kept sub total)) = (Z.of_nat total + sub - 1) / sub.
Proof.
  intros sub total Hs. unfold kept. induction total as [|n IH]; [cbn; symmetry; apply Z.div_small; lia|].
  rewrite seq_S, filter_app, app_length, Nat2Z.inj_add, IH. cbn [filter plus].
  destruct (Z.eqb_spec (Z.of_nat n mod sub) 0) as [E|E]; cbn [length].
  - assert (Q : Z.of_nat n = sub * (Z.of_nat n / sub)) by (pose proof (Z.div_mod (Z.of_nat n) sub); lia). set (k := Z.of_nat n / sub) in *.
    replace (Z.of_nat n + sub - 1) with (k * sub + (sub - 1)) by lia. replace (Z.of_nat (S n) + sub - 1) with (k * sub + (1 * sub + 0)) by lia.
    rewrite !Z.div_add_l by lia. rewrite Z.div_small by lia. rewrite Z.div_0_l by lia. lia.
  - pose proof (Z.div_mod (Z.of_nat n) sub ltac:(lia)) as Q. pose proof (Z.mod_pos_bound (Z.of_nat n) sub ltac:(lia)) as B.
    set (k := Z.of_nat n / sub) in *. set (r := Z.of_nat n mod sub) in *.
    replace (Z.of_nat n + sub - 1) with (k * sub + (1 * sub + (r - 1))) by lia. replace (Z.of_nat (S n) + sub - 1) with (k * sub + (1 * sub + r)) by lia.
    rewrite !Z.div_add_l by lia. rewrite !Z.div_small by lia. lia.
Qed.
Print Assumptions C96_count.
(** without a pose the image is dropped *)
Theorem C96_no_pose : forall fuel tl max_d f sub cols l img, intensityImageCallback fuel tl max_d f sub cols l None img = Ok (Some l).
Proof. reflexivity. Qed.
Print Assumptions C96_no_pose.
(** A subsampling factor of zero (a ROS parameter, not checked) divides by zero at the first image. *)
Theorem C96_zero_refuted : forall fuel tl max_d f cols l rot pos img, intensityImageCallback fuel tl max_d f 0 cols l (Some (rot, pos)) img = UB.
Proof. reflexivity. Qed.
Print Assumptions C96_zero_refuted.
(** a 2 x 3 image, every second pixel *)
Example C96_case : map (fun bx => fword (snd bx)) (image_pixels (fun p => p) f1 2 3 2 0 0 [[f0; f1; f2]; [f0; f1; f2]]) = map fword [f0; f2; f1] /\ kept 2 6 = [0; 2; 4]%nat.
Proof. vm_compute. split; reflexivity. Qed.
