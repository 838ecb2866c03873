(** Proofs about transforming layers: the whole transformation, and the transformation
    that leaves every point where it is. *)
From Coq Require Import ZArith List Bool Reals Lra Lia Psatz.
From Flocq Require Import Core.
From Verif Require Import F32 F32_lemmas F32_err Index_float Types Index Index_proofs Voxel Assoc Assoc_lemmas Layer Threads MeshInt Mesh_spec Interp Interp_spec Interp_axis Interp_proofs
  Merge Transform Transform_spec Transform_proofs Transform_blocks Transform_marks.
Import ListNotations.
Open Scope R_scope.
Ltac Zify.zify_post_hook ::= idtac.

Lemma built_wide : forall (l : Layer KTsdf), built_layer l -> wide_size (l_block_size l).
Proof. intros l (S & V & _). unfold l_block_size. destruct (block_size_R (l_vps l) (l_size l) S ltac:(lia)) as (_ & _ & _ & H). exact H. Qed.

Section Whole.
  Variables (rows : nat -> sum_order) (top : sum_order).
  Hypothesis HR : forall j, (j < 8)%nat -> complete_order (rows j).
  Hypothesis HT : complete_order top.
  Variable order : list idx3 -> list idx3.
  Hypothesis HO : set_order order.

  Lemma transform_spec : forall D W (lin out : Layer KTsdf) T Tinv fuel,
    transformable D W lin -> built_layer out -> in_reach lin T (l_block_size out) ->
    (forall g, considered lin T (l_block_size out) (block_of (l_vps out) g) -> close_by (l_size lin) (Tinv (place (l_vps out) (l_size out) g))) ->
    (4000 <= Z.of_nat fuel)%Z ->
    exists out', transformLayer rows top order fuel lin T Tinv out = Ok (Some out') /\
      built_layer out' /\ l_vps out' = l_vps out /\ l_size out' = l_size out /\
      forall bi, (considered lin T (l_block_size out) bi -> reworked D W lin Tinv (l_vps out) (l_size out) out out' bi) /\
                 (~ considered lin T (l_block_size out) bi -> l_get out' bi = l_get out bi).
  Proof.
    intros D W lin out T Tinv fuel TF BO RE CB HF.
    destruct (marks_ok (l_block_size out) (built_wide out BO) lin T (built_wide lin (tf_built _ _ _ TF)) RE fuel (getAllAllocatedBlocks lin) HF) as (m & Em).
    { intros i I. apply akeys_In in I. exact I. }
    assert (IM : forall bi, In bi m <-> considered lin T (l_block_size out) bi).
    { intros bi. rewrite (all_marks_in _ _ _ _ _ _ Em bi). split.
      - intros (i & p & I & A & E). apply akeys_In in I. destruct I as (b & I). exists i, b, p. auto.
      - intros (i & b & p & I & A & E). exists i, p. split; [apply akeys_In; exists b; exact I|]. auto. }
    unfold transformLayer. rewrite Em. cbn [rbind]. destruct (HO m) as (ND & HI).
    destruct BO as (B1 & B2 & B3).
    destruct (blocks_fold rows top HR HT D W lin TF Tinv (l_vps out) (l_size out) B2 (order m) out ND) as (l' & E & (SB & SV & SS) & EF & UN).
    { split; [split; auto|]. auto. }
    { intros g Hg. apply CB, IM, HI, Hg. }
    rewrite E. cbn [rbind]. exists l'. split; [reflexivity|]. split; [exact SB|]. split; [exact SV|]. split; [exact SS|].
    intros bi. split; intros C.
    - apply EF, HI, IM, C.
    - apply UN. intros I. apply C, IM, HI, I.
  Qed.
End Whole.

(** blending at a corner *)
Definition bit (k : bool) : R := if k then 1 else 0.
Lemma bit_lerp : forall M t a b (k : bool), 0 <= M -> Rabs a <= M -> Rabs b <= M -> Rabs (t - bit k) <= / 2000 ->
  Rabs (lerp t a b - (if k then b else a)) <= / 1000 * M.
Proof.
  intros M t a b k HM Ha Hb Ht. unfold lerp, bit in *.
  assert (AB : Rabs (b - a) <= M + M) by (apply Rabs_tri; [exact Hb | rewrite Rabs_Ropp; exact Ha]).
  replace ((1 - t) * a + t * b - (if k then b else a)) with ((t - (if k then 1 else 0)) * (b - a)) by (destruct k; ring).
  eapply Rle_trans; [apply Rabs_prod; [exact Ht | exact AB]|]. lra.
Qed.
Lemma bit_trilinear : forall M (d : nat -> R) x y z (kx ky kz : bool), 0 <= M -> (forall i, (i < 8)%nat -> Rabs (d i) <= M) ->
  Rabs (x - bit kx) <= / 2000 -> Rabs (y - bit ky) <= / 2000 -> Rabs (z - bit kz) <= / 2000 ->
  Rabs (trilinear d x y z - d (corner_no (if kx then 1 else 0) (if ky then 1 else 0) (if kz then 1 else 0))) <= / 300 * M.
Proof.
  intros M d x y z kx ky kz HM HD HX HY HZ. unfold trilinear.
  assert (TR : forall a b c p q, Rabs (a - b) <= p -> Rabs (b - c) <= q -> Rabs (a - c) <= p + q).
  { intros a b c p q A B. replace (a - c) with ((a - b) + (b - c)) by ring. apply Rabs_tri; assumption. }
  assert (BD : forall a b p q, Rabs (a - b) <= p -> Rabs b <= q -> Rabs a <= p + q).
  { intros a b p q A B. replace a with ((a - b) + b) by ring. apply Rabs_tri; assumption. }
  assert (Z1 : forall i j, (i < 8)%nat -> (j < 8)%nat -> Rabs (lerp z (d i) (d j) - (if kz then d j else d i)) <= / 1000 * M /\ Rabs (lerp z (d i) (d j)) <= 1.001 * M).
  { intros i j Hi Hj. pose proof (bit_lerp M z (d i) (d j) kz HM (HD i Hi) (HD j Hj) HZ) as A. split; [exact A|].
    eapply Rle_trans; [apply BD with (1 := A) (q := M); destruct kz; auto|]. lra. }
  assert (Y1 : forall i j i' j', (i < 8)%nat -> (j < 8)%nat -> (i' < 8)%nat -> (j' < 8)%nat ->
     Rabs (lerp y (lerp z (d i) (d j)) (lerp z (d i') (d j')) - (if ky then (if kz then d j' else d i') else (if kz then d j else d i))) <= / 1000 * M + / 1000 * (1.001 * M) /\
     Rabs (lerp y (lerp z (d i) (d j)) (lerp z (d i') (d j'))) <= 1.003 * M).
  { intros i j i' j' H1 H2 H3 H4. destruct (Z1 i j H1 H2) as (A1 & A2), (Z1 i' j' H3 H4) as (B1 & B2).
    pose proof (bit_lerp (1.001 * M) y _ _ ky ltac:(lra) A2 B2 HY) as C.
    assert (E : Rabs (lerp y (lerp z (d i) (d j)) (lerp z (d i') (d j')) - (if ky then (if kz then d j' else d i') else (if kz then d j else d i))) <= / 1000 * (1.001 * M) + / 1000 * M).
    { apply TR with (1 := C). destruct ky; assumption. }
    split; [lra|]. eapply Rle_trans; [apply BD with (1 := E) (q := M); destruct ky, kz; auto|]. lra. }
  destruct (Y1 (corner_no 0 0 0) (corner_no 0 0 1) (corner_no 0 1 0) (corner_no 0 1 1)) as (A1 & A2); try (unfold corner_no; lia).
  destruct (Y1 (corner_no 1 0 0) (corner_no 1 0 1) (corner_no 1 1 0) (corner_no 1 1 1)) as (B1 & B2); try (unfold corner_no; lia).
  pose proof (bit_lerp (1.003 * M) x _ _ kx ltac:(lra) A2 B2 HX) as C.
  match type of C with Rabs (?L - _) <= _ => set (l := L) in * end.
  apply Rle_trans with (/ 1000 * (1.003 * M) + (/ 1000 * M + / 1000 * (1.001 * M))); [|lra].
  apply TR with (1 := C). destruct kx, ky, kz; assumption.
Qed.

Lemma eight_nth : forall (l : Layer KTsdf) g xs (kx ky kz : bool), eight_voxels l g = Some xs ->
  observed_at l (idx_add g (V3 (Z.b2z kx) (Z.b2z ky) (Z.b2z kz))) = Some (nth (corner_no (if kx then 1 else 0) (if ky then 1 else 0) (if kz then 1 else 0)) xs (vdefault KTsdf)).
Proof.
  intros l g xs kx ky kz. unfold eight_voxels, eight_corners. cbn [map].
  repeat match goal with |- context [observed_at l (idx_add g ?c)] =>
    lazymatch c with V3 (Z.b2z _) _ _ => fail | _ => idtac end; destruct (observed_at l (idx_add g c)) eqn:? end; cbn [collect]; intros H; try discriminate H.
  injection H as <-. destruct kx, ky, kz; cbn [Z.b2z corner_no Nat.mul Nat.add nth]; assumption.
Qed.

(** the centre of a voxel and the voxels around it *)
Lemma place_axis : forall n s g, sane_size s -> (1 <= n <= 32)%Z -> (Z.abs g <= 450)%Z ->
  ffin (ctr n s (g / n) (g mod n)) = true /\ Rabs (FR (ctr n s (g / n) (g mod n)) / FR s - (IZR g + / 2)) <= / 5000.
Proof.
  intros n s g Hs Hn Hg. pose proof (Z.div_mod g n ltac:(lia)) as DM. pose proof (Z.mod_pos_bound g n ltac:(lia)) as MB.
  assert (BB : (Z.abs (g / n) * n <= 500)%Z) by nia.
  destruct (ctr_val n s (g / n) (g mod n) Hs ltac:(lia) ltac:(lia) MB) as (F & E). split; [exact F|].
  replace (g / n * n + g mod n)%Z with g in E by lia. eapply Rle_trans; [exact E|].
  assert (A : Rabs (IZR (g / n) * IZR n) <= 500). { rewrite <- mult_IZR, <- abs_IZR. apply IZR_le. rewrite Z.abs_mul, (Z.abs_eq n) by lia. exact BB. }
  assert (V : IZR n <= 32) by (apply IZR_le; lia). unfold u. lra.
Qed.
Lemma axis_at : forall n s x g g' o, (1 <= n <= 32)%Z -> (Z.abs g <= 450)%Z -> Rabs (FR x / FR s - (IZR g + / 2)) <= / 5000 ->
  surrounded n s x g' -> offset_ok n s x g' o -> exists k, (g = g' + Z.b2z k)%Z /\ Rabs (FR o - bit k) <= / 2000.
Proof.
  intros n s x g g' o Hn Hg Hx (S1 & S2) (Fo & _ & O). set (t := FR x / FR s) in *.
  assert (V : IZR n <= 32) by (apply IZR_le; lia). assert (G : - 450 <= IZR g <= 450) by (split; apply IZR_le; lia).
  apply Rabs_le_inv in Hx. assert (T : Rabs t <= 451) by (apply Rabs_le; lra).
  unfold border_tol, off_tol in *. apply Rabs_le_inv in O.
  assert (g' < g + 1)%Z by (apply lt_IZR; rewrite plus_IZR; lra). assert (g - 2 < g')%Z by (apply lt_IZR; rewrite minus_IZR; lra).
  assert (g' = g \/ g' = g - 1)%Z as [-> | ->] by lia.
  - exists false. split; [cbn [Z.b2z]; lia|]. unfold bit. apply Rabs_le. lra.
  - exists true. split; [cbn [Z.b2z]; lia|]. unfold bit. rewrite minus_IZR in O. apply Rabs_le. lra.
Qed.
Lemma cell_at : forall n s x g h, (1 <= n <= 32)%Z -> (Z.abs g <= 450)%Z -> Rabs (FR x / FR s - (IZR g + / 2)) <= / 5000 -> in_cell n s x h -> h = g.
Proof.
  intros n s x g h Hn Hg Hx (S1 & S2). set (t := FR x / FR s) in *.
  assert (V : IZR n <= 32) by (apply IZR_le; lia). assert (G : - 450 <= IZR g <= 450) by (split; apply IZR_le; lia).
  apply Rabs_le_inv in Hx. assert (T : Rabs t <= 451) by (apply Rabs_le; lra). unfold border_tol in *.
  assert (h < g + 1)%Z by (apply lt_IZR; rewrite plus_IZR; lra). assert (g < h + 1)%Z by (apply lt_IZR; rewrite plus_IZR; lra). lia.
Qed.

(** the considered blocks are next to input blocks *)
Lemma visited_range : forall bo hi lo x, wide_size bo -> ffin hi = true -> visited hi bo lo x -> ffin lo = true -> - (131072 * FR bo) <= FR lo -> FR hi <= 131072 * FR bo ->
  ffin x = true /\ FR lo <= FR x < FR hi.
Proof.
  intros bo hi lo x Hw Fh V. pose proof (wide_pos bo Hw) as BP. induction V as [lo L|lo x L V IH]; intros Fl LB UB; apply flt_R in L; auto.
  - split; [exact Fl | lra].
  - destruct (near_sum bo Hw lo bo Fl (proj1 Hw)) as (F1 & E1). { apply Rabs_le. lra. }
    apply Rabs_le_inv in E1. destruct IH as (Fx & X); [exact F1 | lra | exact UB |]. split; [exact Fx | lra].
Qed.
Lemma near_axis : forall bo i c x n, sane_size bo -> wide_size bo -> (Z.abs i <= 1000)%Z -> ffin c = true -> FR c = FR (center_axis i bo) ->
  visited (fadd c (mark_offset bo)) bo (fsub c (mark_offset bo)) x -> grid_axis x (fdiv f1 bo) = Some n -> (i - 1 <= n <= i + 1)%Z.
Proof.
  intros bo i c x n Hs Hw Hi Fc Ec V N. set (r := mark_offset bo) in *. pose proof (wide_pos bo Hw) as BP. destruct (center_axis_R i bo Hs ltac:(lia)) as (d & Hd & Ed & _). rewrite Ed in Ec.
  destruct (mark_offset_R bo Hw) as (Fr & Rr). fold r in Fr, Rr. set (B := FR bo) in *.
  assert (Ib : -1000 <= IZR i <= 1000) by (split; apply IZR_le; lia).
  assert (Cb : Rabs (FR c - (IZR i + / 2) * B) <= B / 1000).
  { rewrite Ec. replace ((IZR i + / 2) * B * (1 + d) - (IZR i + / 2) * B) with ((IZR i + / 2) * d * B) by ring.
    rewrite Rabs_mult, (Rabs_pos_eq B) by lra. assert (Rabs ((IZR i + / 2) * d) <= 1001 * (2 * u)) by (apply Rabs_prod; [apply Rabs_le; lra | exact Hd]). unfold u in *. nra. }
  apply Rabs_le_inv in Cb.
  assert (IB : -1000 * B <= IZR i * B <= 1000 * B) by (split; apply Rmult_le_compat_r; lra).
  destruct (near_sum bo Hw c r Fc Fr) as (F1 & E1); [fold B; apply Rabs_le; lra|]. destruct (near_diff bo Hw c r Fc Fr) as (F2 & E2); [fold B; apply Rabs_le; lra|].
  fold B in E1, E2. apply Rabs_le_inv in E1. apply Rabs_le_inv in E2.
  destruct (visited_range bo _ _ x Hw F1 V F2) as (Fx & X); [fold B; lra | fold B; lra |].
  assert (Xb : (IZR i - 0.5) * B <= FR x <= (IZR i + 1.5) * B) by lra.
  assert (Q : IZR i - 0.5 <= FR x / FR bo <= IZR i + 1.5).
  { fold B. split; apply Rmult_le_reg_r with B; try exact BP; unfold Rdiv; rewrite Rmult_assoc, Rinv_l, Rmult_1_r by lra; lra. }
  destruct (grid1 x bo Fx Hw) as (n' & N' & NB); [apply Rabs_le; lra|]. rewrite N in N'. injection N' as <-. set (t := FR x / FR bo) in *.
  assert (G : gtol t <= 0.01). { unfold gtol, u. assert (Rabs t <= 1002) by (apply Rabs_le; lra). lra. }
  assert (n < i + 2)%Z by (apply lt_IZR; rewrite plus_IZR; lra). assert (i - 2 < n)%Z by (apply lt_IZR; rewrite minus_IZR; lra). lia.
Qed.

Section Same.
  Variables (rows : nat -> sum_order) (top : sum_order).
  Hypothesis HR : forall j, (j < 8)%nat -> complete_order (rows j).
  Hypothesis HT : complete_order top.
  Variable order : list idx3 -> list idx3.
  Hypothesis HO : set_order order.

  Lemma same_spec : forall D W (lin out : Layer KTsdf) T Tinv fuel,
    transformable D W lin -> built_layer out -> l_vps out = l_vps lin -> l_size out = l_size lin -> sane_size (l_block_size lin) ->
    still T -> still Tinv ->
    (forall i b, l_get lin i = Some b -> all3 (fun c => (Z.abs c * l_vps lin <= 384)%Z) i) ->
    (4000 <= Z.of_nat fuel)%Z ->
    exists out', transformLayer rows top order fuel lin T Tinv out = Ok (Some out') /\
      forall g v, voxel_at lin g = Some v -> isObservedVoxel KTsdf v = true ->
        exists w, voxel_at out' g = Some w /\
          Rabs (FR (t_distance w) - FR (t_distance v)) <= / 200 * D + bpow radix2 (-140) /\
          Rabs (FR (t_weight w) - FR (t_weight v)) <= / 200 * W + bpow radix2 (-140).
  Proof.
    intros D W lin out T Tinv fuel TF BO EV ES SB ST STI NEAR HF.
    pose proof (tf_built _ _ _ TF) as BL. pose proof (built_wide lin BL) as WL. destruct BL as (SS & VP & BLK). pose proof (tf_small _ _ _ TF) as SM.
    set (n := l_vps lin) in *. set (s := l_size lin) in *.
    assert (EB : l_block_size out = l_block_size lin) by (unfold l_block_size; rewrite EV, ES; reflexivity).
    assert (NEAR' : forall i b, l_get lin i = Some b -> all3 (fun c => (Z.abs c <= 1000)%Z) i).
    { intros i b Hb. destruct (NEAR i b Hb) as (A & B & C). repeat split; nia. }
    assert (CEN : forall i b, l_get lin i = Some b -> let c := T (getCenterPointFromGridIndex i (l_block_size lin)) in
       (ffin (vx c) = true /\ FR (vx c) = FR (center_axis (vx i) (l_block_size lin))) /\
       (ffin (vy c) = true /\ FR (vy c) = FR (center_axis (vy i) (l_block_size lin))) /\
       (ffin (vz c) = true /\ FR (vz c) = FR (center_axis (vz i) (l_block_size lin)))).
    { intros i b Hb c. destruct (NEAR' i b Hb) as (A & B & C).
      destruct (center_axis_R (vx i) _ SB ltac:(lia)) as (_ & _ & _ & F1). destruct (center_axis_R (vy i) _ SB ltac:(lia)) as (_ & _ & _ & F2). destruct (center_axis_R (vz i) _ SB ltac:(lia)) as (_ & _ & _ & F3).
      destruct (ST (getCenterPointFromGridIndex i (l_block_size lin))) as ((G1 & G2 & G3) & E1 & E2 & E3); [split; [exact F1 | split; [exact F2 | exact F3]]|]. auto. }
    assert (PL : forall g, all3 (fun c => (Z.abs c <= 450)%Z) g -> let p := Tinv (place n s g) in
       (ffin (vx p) = true /\ Rabs (FR (vx p) / FR s - (IZR (vx g) + / 2)) <= / 5000) /\
       (ffin (vy p) = true /\ Rabs (FR (vy p) / FR s - (IZR (vy g) + / 2)) <= / 5000) /\
       (ffin (vz p) = true /\ Rabs (FR (vz p) / FR s - (IZR (vz g) + / 2)) <= / 5000)).
    { intros g (A & B & C) p. destruct (place_axis n s (vx g) SS ltac:(lia) A) as (F1 & P1). destruct (place_axis n s (vy g) SS ltac:(lia) B) as (F2 & P2). destruct (place_axis n s (vz g) SS ltac:(lia) C) as (F3 & P3).
      destruct (STI (place n s g)) as ((G1 & G2 & G3) & E1 & E2 & E3); [split; [exact F1 | split; [exact F2 | exact F3]]|]. fold p in G1, G2, G3, E1, E2, E3. rewrite E1, E2, E3. auto. }
    assert (BG : forall i g, all3 (fun c => (Z.abs c * n <= 416)%Z) i -> block_of n g = i -> all3 (fun c => (Z.abs c <= 450)%Z) g).
    { intros i g (A & B & C) <-. unfold block_of, map3 in A, B, C. cbn [vx vy vz] in A, B, C.
      pose proof (Z.div_mod (vx g) n ltac:(lia)). pose proof (Z.mod_pos_bound (vx g) n ltac:(lia)).
      pose proof (Z.div_mod (vy g) n ltac:(lia)). pose proof (Z.mod_pos_bound (vy g) n ltac:(lia)).
      pose proof (Z.div_mod (vz g) n ltac:(lia)). pose proof (Z.mod_pos_bound (vz g) n ltac:(lia)). repeat split; nia. }
    destruct (transform_spec rows top HR HT order HO D W lin out T Tinv fuel TF BO) as (out' & E & _ & _ & _ & EFF); [| |exact HF|].
    { rewrite EB. pose proof (wide_pos _ WL) as BP. split; [lra|]. intros i b Hb. destruct (CEN i b Hb) as ((G1 & E1) & (G2 & E2) & (G3 & E3)). destruct (NEAR' i b Hb) as (A & B & C).
      assert (K : forall c j, (Z.abs j <= 1000)%Z -> FR c = FR (center_axis j (l_block_size lin)) -> Rabs (FR c / FR (l_block_size lin)) <= 65536).
      { intros c j Hj Ec. destruct (center_axis_R j _ SB ltac:(lia)) as (d & Hd & Ed & _). rewrite Ec, Ed. set (Bs := FR (l_block_size lin)) in *.
        replace ((IZR j + / 2) * Bs * (1 + d) / Bs) with ((IZR j + / 2) * (1 + d)) by (field; lra).
        assert (- 1000 <= IZR j <= 1000) by (split; apply IZR_le; lia).
        eapply Rle_trans; [apply Rabs_prod with (A := 1001) (B := 2); [apply Rabs_le; lra|]|lra]. apply Rabs_le_inv in Hd. unfold u in Hd. apply Rabs_le. lra. }
      split; [split; [exact G1 | exact (K _ _ A E1)]|]. split; [split; [exact G2 | exact (K _ _ B E2)] | split; [exact G3 | exact (K _ _ C E3)]]. }
    { rewrite EB, EV, ES. intros g (i & b & p & Hb & (V1 & V2 & V3') & Gp). destruct (CEN i b Hb) as ((G1 & E1) & (G2 & E2) & (G3 & E3)). destruct (NEAR' i b Hb) as (A & B & C).
      unfold getGridIndexFromPoint, map3, seq3 in Gp. cbn [vx vy vz] in Gp.
      destruct (grid_axis (vx p) _) as [a1|] eqn:A1; [|discriminate Gp]. destruct (grid_axis (vy p) _) as [a2|] eqn:A2; [|discriminate Gp]. destruct (grid_axis (vz p) _) as [a3|] eqn:A3; [|discriminate Gp].
      injection Gp as -> -> ->.
      pose proof (near_axis _ _ _ _ _ SB WL A G1 E1 V1 A1) as Q1. pose proof (near_axis _ _ _ _ _ SB WL B G2 E2 V2 A2) as Q2. pose proof (near_axis _ _ _ _ _ SB WL C G3 E3 V3' A3) as Q3.
      destruct (NEAR i b Hb) as (N1 & N2 & N3).
      assert (Hg : all3 (fun c => (Z.abs c <= 450)%Z) g).
      { assert (ST1 : forall a a', (Z.abs a * n <= 384)%Z -> (a - 1 <= a' <= a + 1)%Z -> (Z.abs a' * n <= 416)%Z).
        { clear - VP SM. intros a a' Ha Hs. apply Z.le_trans with ((Z.abs a + 1) * n)%Z; [apply Z.mul_le_mono_nonneg_r; lia | lia]. }
        apply (BG (block_of n g)); [|reflexivity]. unfold block_of, map3. cbn [vx vy vz].
        split; [apply (ST1 (vx i)); assumption|]. split; [apply (ST1 (vy i)); assumption | apply (ST1 (vz i)); assumption]. }
      destruct (PL g Hg) as ((P1 & P2) & (P3 & P4) & (P5 & P6)). destruct Hg as (H1 & H2 & H3).
      assert (K : forall x c, (Z.abs c <= 450)%Z -> Rabs (x - (IZR c + / 2)) <= / 5000 -> Rabs x <= 512).
      { intros x c Hc Hx. assert (- 450 <= IZR c <= 450) by (split; apply IZR_le; lia). apply Rabs_le_inv in Hx. apply Rabs_le. lra. }
      split; [split; [exact P1 | exact (K _ _ H1 P2)]|]. split; [split; [exact P3 | exact (K _ _ H2 P4)] | split; [exact P5 | exact (K _ _ H3 P6)]]. }
    exists out'. split; [exact E|]. intros g v Hv OBS.
    assert (HB : exists b, l_get lin (block_of n g) = Some b).
    { unfold voxel_at in Hv. fold n in Hv. destruct (l_get lin (block_of n g)) as [b|] eqn:G; [exists b; reflexivity|].
      change (match l_get lin (block_of n g) with Some b => nth_error (b_voxels b) (lidx n g) | None => None end = Some v) in Hv. rewrite G in Hv. discriminate Hv. }
    destruct HB as (b & Hb).
    pose proof (still_considered lin T _ b SB WL ST Hb (NEAR' _ _ Hb)) as CO.
    destruct (EFF (block_of n g)) as (EF & _). rewrite EB in EF. destruct (EF CO) as (new & got & CAR & OUT). rewrite EV, ES in CAR.
    assert (Hg : all3 (fun c => (Z.abs c <= 450)%Z) g).
    { apply (BG (block_of n g)); [|reflexivity]. destruct (NEAR _ _ Hb) as (A & B & C). repeat split; lia. }
    destruct (PL g Hg) as ((P1 & P2) & (P3 & P4) & (P5 & P6)). destruct Hg as (H1 & H2 & H3).
    assert (KEY : got g = true /\ Rabs (FR (t_distance (new g)) - FR (t_distance v)) <= / 200 * D + bpow radix2 (-140) /\ Rabs (FR (t_weight (new g)) - FR (t_weight v)) <= / 200 * W + bpow radix2 (-140)).
    { specialize (CAR g eq_refl). destruct CAR as (g' & o & (S1 & S2 & S3) & (O1 & O2 & O3) & C). fold n s in S1, S2, S3, O1, O2, O3.
      pose proof (tf_D _ _ _ TF) as DP. pose proof (tf_W _ _ _ TF) as WP.
      destruct (eight_voxels lin g') as [xs|] eqn:E8.
      - destruct C as (Gt & (N1 & D1) & (N2 & D2) & _). split; [exact Gt|].
        destruct (axis_at n s _ _ _ _ ltac:(lia) H1 P2 S1 O1) as (kx & X1 & X2). destruct (axis_at n s _ _ _ _ ltac:(lia) H2 P4 S2 O2) as (ky & Y1 & Y2). destruct (axis_at n s _ _ _ _ ltac:(lia) H3 P6 S3 O3) as (kz & Z1 & Z2).
        pose proof (eight_nth lin g' xs kx ky kz E8) as NV.
        replace (idx_add g' (V3 (Z.b2z kx) (Z.b2z ky) (Z.b2z kz))) with g in NV by (apply v3_eq; unfold idx_add, zip3; cbn [vx vy vz]; assumption).
        unfold observed_at in NV. rewrite Hv, OBS in NV. apply (f_equal (fun o => match o with Some x => x | None => v end)) in NV. cbv beta iota in NV.
        destruct (eight_in lin g' xs E8) as (L8 & I8).
        assert (BD : forall i, (i < 8)%nat -> Rabs (FR (t_distance (nth i xs (vdefault KTsdf)))) <= D /\ Rabs (FR (t_weight (nth i xs (vdefault KTsdf)))) <= W).
        { intros i Hi. destruct (I8 (nth i xs (vdefault KTsdf))) as (h & Hh); [apply nth_In; rewrite L8; exact Hi|]. destruct (tf_values _ _ _ TF h _ Hh) as (_ & A & _ & B & _). auto. }
        pose proof (bit_trilinear D (fun i => FR (t_distance (nth i xs (vdefault KTsdf)))) _ _ _ kx ky kz (proj1 DP) (fun i Hi => proj1 (BD i Hi)) X2 Y2 Z2) as T1.
        pose proof (bit_trilinear W (fun i => FR (t_weight (nth i xs (vdefault KTsdf)))) _ _ _ kx ky kz (proj1 WP) (fun i Hi => proj2 (BD i Hi)) X2 Y2 Z2) as T2.
        cbv beta in T1, T2. rewrite <- NV in T1, T2. unfold blend in D1, D2.
        set (q1 := trilinear _ _ _ _) in T1. change (trilinear _ _ _ _) with q1 in D1.
        set (q2 := trilinear _ _ _ _) in T2. change (trilinear _ _ _ _) with q2 in D2.
        split.
        + apply Rabs_le_inv in D1. apply Rabs_le_inv in T1. apply Rabs_le. split; lra.
        + apply Rabs_le_inv in D2. apply Rabs_le_inv in T2. apply Rabs_le. split; lra.
      - destruct C as (h & (C1 & C2 & C3) & C). fold n s in C1, C2, C3.
        assert (h = g).
        { apply v3_eq; [apply (cell_at n s _ _ _ ltac:(lia) H1 P2 C1) | apply (cell_at n s _ _ _ ltac:(lia) H2 P4 C2) | apply (cell_at n s _ _ _ ltac:(lia) H3 P6 C3)]. }
        subst h. rewrite Hv in C. destruct C as (-> & ->). split; [exact OBS|]. rewrite !Rminus_diag_eq by reflexivity. rewrite Rabs_R0. pose proof (bpow_gt_0 radix2 (-140)). lra. }
    destruct KEY as (Gt & KEY). exists (new g). split; [|exact KEY].
    destruct OUT as [(_ & _ & OUT)|((_ & OUT) & _)].
    - rewrite EV in OUT. apply OUT. reflexivity.
    - rewrite EV in OUT. rewrite (OUT g eq_refl) in Gt. discriminate Gt.
  Qed.
End Same.
