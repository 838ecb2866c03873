(** Proofs about transforming layers: what is written. *)
From Coq Require Import ZArith List Bool Reals Lra Lia.
From Flocq Require Import Core.
From Verif Require Import F32 F32_lemmas Index_float Types Index Index_proofs Voxel Serialize Assoc Assoc_lemmas Layer Threads MeshInt Planning Merge Mesh_spec Interp Interp_spec Interp_float Interp_axis Interp_proofs
  Transform Transform_spec.
Import ListNotations.
Open Scope Z_scope.
Ltac Zify.zify_post_hook ::= idtac.

Lemma lerp_wide : forall d t a b lo hi, (0 <= d)%R -> (0 <= t <= 1 + d)%R -> (lo <= a <= hi)%R -> (lo <= b <= hi)%R ->
  (lo - d * (hi - lo) <= lerp t a b <= hi + d * (hi - lo))%R.
Proof.
  intros d t a b lo hi Hd Ht Ha Hb. unfold lerp.
  destruct (Rle_dec t 1) as [L|L].
  - assert (0 <= (1 - t) * (a - lo))%R by (apply Rmult_le_pos; lra).
    assert (0 <= (1 - t) * (hi - a))%R by (apply Rmult_le_pos; lra).
    assert (0 <= t * (b - lo))%R by (apply Rmult_le_pos; lra).
    assert (0 <= t * (hi - b))%R by (apply Rmult_le_pos; lra).
    assert (0 <= d * (hi - lo))%R by (apply Rmult_le_pos; lra). lra.
  - (* t = 1 + e *)
    set (e := (t - 1)%R) in *. replace t with (1 + e)%R by (unfold e; lra).
    assert (He : (0 <= e <= d)%R) by (unfold e; lra).
    replace ((1 - (1 + e)) * a + (1 + e) * b)%R with (b + e * (b - a))%R by ring.
    assert (- (d * (hi - lo)) <= e * (b - a) <= d * (hi - lo))%R; [|lra].
    apply Rabs_le_inv. rewrite Rabs_mult. apply Rmult_le_compat; try apply Rabs_pos; [rewrite Rabs_pos_eq; lra | apply Rabs_le; lra].
Qed.
Lemma trilinear_wide : forall f x y z, (forall i, (i < 8)%nat -> (0 <= f i <= 255)%R) ->
  (0 <= x <= 1 + / 1024)%R -> (0 <= y <= 1 + / 1024)%R -> (0 <= z <= 1 + / 1024)%R ->
  (- 0.76 <= trilinear f x y z <= 255.76)%R.
Proof.
  intros f x y z Hf Hx Hy Hz. unfold trilinear.
  assert (D : (0 <= / 1024)%R) by lra.
  assert (A : forall i j, (i < 8)%nat -> (j < 8)%nat -> (- 0.25 <= lerp z (f i) (f j) <= 255.25)%R).
  { intros i j Hi Hj. pose proof (lerp_wide _ z _ _ _ _ D Hz (Hf i Hi) (Hf j Hj)). lra. }
  assert (B : forall i j k l, (i < 8)%nat -> (j < 8)%nat -> (k < 8)%nat -> (l < 8)%nat -> (- 0.502 <= lerp y (lerp z (f i) (f j)) (lerp z (f k) (f l)) <= 255.502)%R).
  { intros i j k l Hi Hj Hk Hl. pose proof (lerp_wide _ y _ _ _ _ D Hy (A i j Hi Hj) (A k l Hk Hl)). lra. }
  match goal with |- (_ <= lerp x ?a ?b <= _)%R => assert (Pa : (- 0.502 <= a <= 255.502)%R) by (apply B; unfold corner_no; lia); assert (Pb : (- 0.502 <= b <= 255.502)%R) by (apply B; unfold corner_no; lia); pose proof (lerp_wide _ x a b _ _ D Hx Pa Pb) end.
  lra.
Qed.
Lemma byte_of_near : forall x t, ffin x = true -> (Rabs (FR x - t) <= / 64)%R -> (- 0.76 <= t <= 255.76)%R ->
  exists z, to_uint8 (ftruncZ x) = Some z /\ 0 <= z <= 255 /\ (Rabs (IZR z - t) <= 1 + / 32)%R.
Proof.
  intros x t Fx Hx Ht. apply Rabs_le_inv in Hx. rewrite (ftruncZ_R x Fx). exists (Ztrunc (FR x)).
  assert (B : 0 <= Ztrunc (FR x) <= 255 /\ (Rabs (IZR (Ztrunc (FR x)) - FR x) <= 1)%R).
  { destruct (Rle_dec 0 (FR x)) as [P|P].
    - rewrite Ztrunc_floor by exact P. pose proof (Zfloor_lb (FR x)) as L. pose proof (Zfloor_ub (FR x)) as U.
      split; [split|apply Rabs_le; lra]; [apply Zlt_succ_le, lt_IZR; rewrite succ_IZR; lra | apply Zlt_succ_le, lt_IZR; rewrite succ_IZR; lra].
    - rewrite Ztrunc_ceil by lra. pose proof (Zceil_ub (FR x)) as U.
      assert (C : Zceil (FR x) = 0) by (apply Zceil_imp; cbn [Z.sub Z.add Z.opp Z.pos_sub]; lra).
      rewrite C. split; [lia | apply Rabs_le; lra]. }
  destruct B as (B1 & B2). split; [|split; [exact B1|]].
  - unfold to_uint8, in_range. rewrite (proj2 (Z.leb_le 0 _)), (proj2 (Z.leb_le _ 255)) by lia. reflexivity.
  - apply Rabs_le_inv in B2. apply Rabs_le. lra.
Qed.

Section Carry.
  Variables (rows : nat -> sum_order) (top : sum_order).
  Hypothesis HR : forall j, (j < 8)%nat -> complete_order (rows j).
  Hypothesis HT : complete_order top.
  Variables (D W : R) (lin : Layer KTsdf).
  Hypothesis TF : transformable D W lin.

  Lemma close_range : forall p, close_by (l_size lin) p -> point_in_range (l_size lin) p.
  Proof. intros p (A & B & C). repeat split; try apply A; try apply B; try apply C; [destruct A as (_ & A') | destruct B as (_ & A') | destruct C as (_ & A')]; lra. Qed.
  Lemma offset_small : forall x g o, ffin x = true -> (Rabs (FR x / FR (l_size lin)) <= 512)%R -> surrounded (l_vps lin) (l_size lin) x g -> offset_ok (l_vps lin) (l_size lin) x g o ->
    (0 <= FR o <= 1 + / 1024)%R.
  Proof.
    intros x g o Fx Bx (S1 & S2) (Fo & (O1 & _) & O2).
    assert (V : (1 <= IZR (l_vps lin) <= 32)%R).
    { destruct (tf_built _ _ _ TF) as (_ & N & _). pose proof (tf_small _ _ _ TF). split; apply IZR_le; lia. }
    apply Rabs_le_inv in O2. unfold off_tol, border_tol in *. split; [exact O1|]. lra.
  Qed.
  Lemma eight_in : forall g xs, eight_voxels lin g = Some xs -> length xs = 8%nat /\ forall x, In x xs -> exists h, voxel_at lin h = Some x.
  Proof.
    intros g xs. unfold eight_voxels, eight_corners. cbn [map].
    assert (K : forall (os : list (option (vox KTsdf))) ys, collect os = Some ys -> length ys = length os /\ forall y, In y ys -> In (Some y) os).
    { induction os as [|[a|] os IH]; cbn [collect]; intros ys H; [injection H as <-; cbn; auto| |discriminate].
      destruct (collect os) as [zs|]; [|discriminate]. injection H as <-. destruct (IH zs eq_refl) as (L & I). cbn [length]. split; [lia|].
      intros y [->|Hy]; cbn [In]; auto. }
    intros H. destruct (K _ _ H) as (L & I). split; [exact L|]. intros x Hx. specialize (I x Hx).
    assert (O : forall h, observed_at lin h = Some x -> exists h', voxel_at lin h' = Some x).
    { intros h Hh. exists h. unfold observed_at in Hh. destruct (voxel_at lin h) as [v|]; [|discriminate]. destruct (isObservedVoxel KTsdf v); [exact Hh | discriminate]. }
    cbn [In] in I. repeat (destruct I as [I|I]; [eapply O, I|]). contradiction.
  Qed.
  Lemma member_near : forall (f : TsdfVoxel -> f32) B xs o, length xs = 8%nat ->
    all3 (fun x => ffin x = true /\ (0 <= FR x <= 1.125)%R) o -> (forall x, In x xs -> ffin (f x) = true /\ (Rabs (FR (f x)) <= B)%R) -> (B <= bpow radix2 100)%R ->
    near_blend B f xs o (interpMember rows top (q_vector o) (map f xs)).
  Proof.
    intros f B xs o L Ho HB BB. unfold near_blend, blend.
    assert (E : forall i, (i < 8)%nat -> nth i (map f xs) f0 = f (nth i xs (vdefault KTsdf))).
    { intros i Hi. rewrite (nth_indep _ f0 (f (vdefault KTsdf))) by (rewrite map_length; lia). apply map_nth. }
    destruct (interp_float_err rows top o (map f xs) B HR HT Ho) as (A1 & A2).
    - intros i Hi. rewrite (E i Hi). apply HB, nth_In. lia.
    - exact BB.
    - split; [exact A1|]. replace (trilinear (fun i => FR (f (nth i xs (vdefault KTsdf)))) (FR (vx o)) (FR (vy o)) (FR (vz o)))
        with (trilinear (fun i => FR (nth i (map f xs) f0)) (FR (vx o)) (FR (vy o)) (FR (vz o))); [exact A2|].
      unfold trilinear. rewrite !E by (unfold corner_no; lia). reflexivity.
  Qed.
  Lemma byte_near : forall (f : Color -> Z) xs o, length xs = 8%nat -> all3 (fun x => ffin x = true /\ (0 <= FR x <= 1 + / 1024)%R) o ->
    (forall x : TsdfVoxel, In x xs -> 0 <= f (t_color x) <= 255) ->
    exists z, interp_byte rows top (q_vector o) (map (fun x => f (t_color x)) xs) = Some z /\ 0 <= z <= 255 /\
      (Rabs (IZR z - blend (fun v => IZR (f (t_color v))) xs o) <= 1 + / 32)%R.
  Proof.
    intros f xs o L Ho Hf. unfold interp_byte. rewrite map_map.
    assert (FZ : forall z, 0 <= z <= 255 -> ffin (f32_of_Z z) = true /\ FR (f32_of_Z z) = IZR z) by (intros z Hz; destruct (f32_of_Z_R z ltac:(lia)); auto).
    destruct (member_near (fun x => f32_of_Z (f (t_color x))) 255%R xs o L) as (A1 & A2).
    - destruct Ho as (A & B & C). repeat split; try apply A; try apply B; try apply C; [destruct A as (_ & A') | destruct B as (_ & A') | destruct C as (_ & A')]; lra.
    - intros x Hx. destruct (FZ _ (Hf x Hx)) as (F1 & F2). rewrite F2. split; [exact F1|]. specialize (Hf x Hx).
      rewrite Rabs_pos_eq by (apply IZR_le; lia). apply IZR_le; lia.
    - apply Rle_trans with (bpow radix2 8); [cbn; lra | apply bpow_le; lia].
    - assert (EB : blend (fun v => FR (f32_of_Z (f (t_color v)))) xs o = blend (fun v => IZR (f (t_color v))) xs o).
      { unfold blend, trilinear. rewrite !(fun i Hi => proj2 (FZ _ (Hf (nth i xs (vdefault KTsdf)) Hi))); try reflexivity; apply nth_In; unfold corner_no; lia. }
      rewrite EB in A2. apply (byte_of_near _ _ A1).
      + eapply Rle_trans; [exact A2|]. assert (bpow radix2 (-140) <= bpow radix2 (-20))%R by (apply bpow_le; lia). cbn [bpow] in *. change (Z.pow_pos radix2 20) with 1048576 in *. lra.
      + unfold blend. destruct Ho as (Hx & Hy & Hz). apply trilinear_wide; [|apply Hx | apply Hy | apply Hz].
        intros i Hi. specialize (Hf (nth i xs (vdefault KTsdf)) ltac:(apply nth_In; lia)). split; apply IZR_le; lia.
  Qed.

  (** one query *)
  Lemma carry_spec : forall p old, close_by (l_size lin) p ->
    exists new got, rbind (getInterpVoxel rows top lin p) (fun o => match o with Some w => Ok (w, true) | None => nearest_into lin p old end) = Ok (new, got) /\
      carried D W lin p old new got.
  Proof.
    intros p old CP. pose proof (close_range p CP) as PR. pose proof (tf_built _ _ _ TF) as BL.
    destruct (voxels_spec KTsdf lin p BL PR) as (g & o & S & O & E). change interp_offsets with eight_corners in E. fold (eight_voxels lin g) in E.
    unfold getInterpVoxel. rewrite E. destruct (eight_voxels lin g) as [xs|] eqn:E8; cbn [rbind].
    - destruct (eight_in g xs E8) as (L & I).
      destruct S as (S1 & S2 & S3), O as (O1 & O2 & O3), CP as (P1 & P2 & P3).
      pose proof (offset_small _ _ _ (proj1 P1) (proj2 P1) S1 O1) as Q1. pose proof (offset_small _ _ _ (proj1 P2) (proj2 P2) S2 O2) as Q2. pose proof (offset_small _ _ _ (proj1 P3) (proj2 P3) S3 O3) as Q3.
      assert (HB : all3 (fun x => ffin x = true /\ (0 <= FR x <= 1 + / 1024)%R) o) by (repeat split; first [apply O1 | apply O2 | apply O3 | apply Q1 | apply Q2 | apply Q3]).
      assert (HO : all3 (fun x => ffin x = true /\ (0 <= FR x <= 1.125)%R) o) by (repeat split; first [apply O1 | apply O2 | apply O3]).
      assert (V : forall x, In x xs -> ffin (t_distance x) = true /\ (Rabs (FR (t_distance x)) <= D)%R /\ ffin (t_weight x) = true /\ (Rabs (FR (t_weight x)) <= W)%R /\
                 0 <= cr (t_color x) <= 255 /\ 0 <= cg (t_color x) <= 255 /\ 0 <= cb (t_color x) <= 255 /\ 0 <= ca (t_color x) <= 255).
      { intros x Hx. destruct (I x Hx) as (h & Hh). apply (tf_values _ _ _ TF h x Hh). }
      destruct (byte_near cr xs o L HB) as (r & Er & Rr & Br); [intros x Hx; apply (V x Hx)|].
      destruct (byte_near cg xs o L HB) as (gg & Eg & Rg & Bg); [intros x Hx; apply (V x Hx)|].
      destruct (byte_near cb xs o L HB) as (b & Eb & Rb & Bb); [intros x Hx; apply (V x Hx)|].
      destruct (byte_near ca xs o L HB) as (a & Ea & Ra & Ba); [intros x Hx; apply (V x Hx)|].
      unfold interpVoxel. cbv zeta. rewrite Er, Eg, Eb, Ea. cbn [of_opt rbind].
      eexists _, true. split; [reflexivity|]. exists g, o. split; [auto|]. split; [auto|]. rewrite E8. split; [reflexivity|].
      unfold blended, near_byte. cbn [t_distance t_weight t_color cr cg cb ca].
      split; [apply member_near; auto; [intros x Hx; destruct (V x Hx) as (? & ? & _); auto | apply (tf_D _ _ _ TF)]|].
      split; [apply member_near; auto; [intros x Hx; destruct (V x Hx) as (_ & _ & ? & ? & _); auto | apply (tf_W _ _ _ TF)]|]. auto 12.
    - destruct (nearest_spec KTsdf lin p BL PR) as (h & C & N). unfold nearest_into. rewrite N. cbn [rbind].
      destruct (voxel_at lin h) as [v|] eqn:Ev.
      + exists v, (isObservedVoxel KTsdf v). split; [reflexivity|]. exists g, o. split; [auto|]. split; [auto|]. rewrite E8. exists h. split; [exact C|]. rewrite Ev. auto.
      + exists old, false. split; [reflexivity|]. exists g, o. split; [auto|]. split; [auto|]. rewrite E8. exists h. split; [exact C|]. rewrite Ev. auto.
  Qed.
End Carry.
