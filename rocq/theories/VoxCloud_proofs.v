(** Lemmas about clouds that show voxels. *)
From Coq Require Import ZArith List Bool Reals Lra Lia.
From Flocq Require Import Core IEEE754.Binary IEEE754.Bits.
From Verif Require MeshInt_proofs.
From Verif Require Import F32 F32_lemmas F32_err Types Assoc Assoc_lemmas Index Index_proofs Voxel Layer Ray MeshInt Mesh_spec Interp_spec Slice Slice_proofs VoxCloud VoxCloud_spec.
Import ListNotations.
Open Scope Z_scope.
Ltac Zify.zify_post_hook ::= idtac.

Definition in_cube (n : Z) (v : idx3) : Prop := all3 (fun c => 0 <= c < n) v.
Lemma glob_div : forall n b v, 0 <= v < n -> (b * n + v) / n = b.
Proof. intros n b v H. rewrite Z.div_add_l by lia. rewrite Z.div_small by lia. lia. Qed.
Lemma glob_mod : forall n b v, 0 <= v < n -> (b * n + v) mod n = v.
Proof. intros n b v H. rewrite Z.add_comm, Z.mod_add by lia. apply Z.mod_small. lia. Qed.
Lemma glob_block : forall n i v, in_cube n v -> map3 (fun c => c / n) (global_of n i v) = i.
Proof.
  intros n [a b c] [x y z] (H1 & H2 & H3). unfold global_of, zip3, map3 in *. cbn [vx vy vz] in *. rewrite !glob_div by assumption. reflexivity.
Qed.
Lemma glob_local : forall n i v, in_cube n v -> map3 (fun c => c mod n) (global_of n i v) = v.
Proof.
  intros n [a b c] [x y z] (H1 & H2 & H3). unfold global_of, zip3, map3 in *. cbn [vx vy vz] in *. rewrite !glob_mod by assumption. reflexivity.
Qed.
Lemma glob_inv : forall n g, 0 < n -> global_of n (map3 (fun c => c / n) g) (map3 (fun c => c mod n) g) = g.
Proof.
  intros n [x y z] N. unfold global_of, zip3, map3. cbn [vx vy vz].
  f_equal; rewrite Z.mul_comm; symmetry; apply Z.div_mod; lia.
Qed.
Lemma mod_in_cube : forall n g, 0 < n -> in_cube n (map3 (fun c => c mod n) g).
Proof. intros n [x y z] N. unfold in_cube, all3, map3. cbn [vx vy vz]. repeat split; apply Z.mod_pos_bound; lia. Qed.

Section Cloud.
  Context {k : vkind} {A : Type}.
  Variable l : Layer k.
  Hypothesis P : proper l.
  Variable vis : vox k -> pt3 -> res (option A).
  Variable accept : idx3 -> vox k -> A -> Prop.
  (** what the function answers *)
  Hypothesis V : forall g v, voxel_at l g = Some v ->
    exists o, vis v (centre_of l g) = Ok o /\ forall a, o = Some a <-> accept g v a.

  Notation n := (l_vps l).
  Lemma vps_pos : 0 < n.
  Proof. destruct P as ((_ & H & _) & _). lia. Qed.
  Lemma vps_cube : n * n * n <= 1073741824.
  Proof.
    destruct P as ((_ & H & _) & _). change (2 ^ 10) with 1024 in H.
    assert (H2 : n * n <= 1024 * 1024) by (apply Z.mul_le_mono_nonneg; lia).
    assert (H3 : n * n * n <= 1024 * 1024 * 1024) by (apply Z.mul_le_mono_nonneg; lia). exact H3.
  Qed.
  Lemma linear_val : forall v, in_cube n v -> computeLinearIndexFromVoxelIndex n v = vx v + n * (vy v + n * vz v) /\
    0 <= vx v + n * (vy v + n * vz v) < n * n * n.
  Proof.
    intros v C. pose proof vps_cube as Q. destruct (linear_lt n v vps_pos ltac:(apply Z.le_trans with (1 := Q); vm_compute; discriminate) C) as (E & R).
    rewrite E in R. rewrite E. rewrite (Z.mul_comm n (vz v)). split; [reflexivity|exact R].
  Qed.
  Lemma linear_range : forall v, in_cube n v -> 0 <= vx v + n * (vy v + n * vz v) < n * n * n.
  Proof. intros v C. apply linear_val. exact C. Qed.
  Lemma block_voxel : forall i b v, l_get l i = Some b -> in_cube n v ->
    exists x, nth_error (b_voxels b) (Z.to_nat (vx v + n * (vy v + n * vz v))) = Some x /\
      voxel_at l (global_of n i v) = Some x /\
      computeCoordinatesFromVoxelIndex (b_origin b) (b_size b) v = centre_of l (global_of n i v).
  Proof.
    intros i b v G C. destruct P as ((_ & _ & B) & _). destruct (B i b G) as (E1 & E2 & _ & E4).
    pose proof (linear_range v C) as R.
    destruct (nth_error (b_voxels b) (Z.to_nat (vx v + n * (vy v + n * vz v)))) as [x|] eqn:N.
    2:{ apply nth_error_None in N. lia. }
    exists x. split; [reflexivity|]. pose proof (glob_block n i v C) as GB. pose proof (glob_local n i v C) as GL.
    unfold voxel_at, centre_of. rewrite GB, GL, G. split; [|reflexivity].
    assert (L : vx (global_of n i v) mod n = vx v /\ vy (global_of n i v) mod n = vy v /\ vz (global_of n i v) mod n = vz v).
    { destruct v as [x' y z], i as [a' b' c']. unfold global_of, zip3, map3 in *. cbn [vx vy vz] in *. injection GL as -> -> ->. auto. }
    destruct L as (-> & -> & ->). exact N.
  Qed.
  Definition row_of (i : idx3) (v : idx3) (p : pt3 * A) : Prop :=
    fst p = centre_of l (global_of n i v) /\ exists x, voxel_at l (global_of n i v) = Some x /\ accept (global_of n i v) x (snd p).
  (** a list of local indices, the points it gives *)
  Lemma walk : forall i b vs, l_get l i = Some b -> Forall (in_cube n) vs ->
    exists c ws, grid_voxels vis b vs = Ok c /\ Forall2 (row_of i) ws c /\
      (forall w, In w ws <-> In w vs /\ exists x a, voxel_at l (global_of n i w) = Some x /\ accept (global_of n i w) x a) /\
      (NoDup vs -> NoDup ws).
  Proof.
    intros i b vs G F. induction F as [|v vs C F IH].
    - exists [], []. split; [reflexivity|]. split; [constructor|]. split; [|constructor]. intros w. split; [intros []|intros ([] & _)].
    - destruct IH as (c & ws & E & R & W & D). destruct (block_voxel i b v G C) as (x & N & X & Q).
      destruct (V _ _ X) as (o & VO & AC). cbn [grid_voxels]. unfold getVoxelByVoxelIndex.
      destruct P as ((_ & BV & B) & _). destruct (B i b G) as (E1 & E2 & _ & E4).
      assert (LI : computeLinearIndexFromVoxelIndex (b_vps b) v = vx v + n * (vy v + n * vz v)).
      { rewrite E1. now apply linear_val. }
      rewrite LI, N. cbn [of_opt rbind]. rewrite Q, VO. cbn [rbind]. rewrite E. cbn [rbind].
      destruct o as [a|].
      + exists ((centre_of l (global_of n i v), a) :: c), (v :: ws). split; [reflexivity|]. split.
        { constructor; [|exact R]. split; [reflexivity|]. exists x. split; [exact X|]. now apply AC. }
        split.
        * intros w. split.
          -- intros [<- | H]; [split; [now left|]; exists x, a; split; [exact X|now apply AC]|]. apply W in H. split; [right; apply H|apply H].
          -- intros ([<- | H] & K); [now left|right]. apply W. split; assumption.
        * intros ND. inversion ND as [|? ? NI ND']; subst. constructor; [|now apply D]. intros H. apply W in H. tauto.
      + exists c, ws. split; [reflexivity|]. split; [exact R|]. split.
        * intros w. rewrite W. split; [intros (H & K); split; [now right|exact K]|]. intros ([<- | H] & K); [|split; assumption].
          exfalso. destruct K as (x' & a & X' & AA). rewrite X in X'. injection X' as <-. apply AC in AA. discriminate.
        * intros ND. inversion ND; subst. now apply D.
  Qed.
  Fixpoint walk_blocks (F : Block k -> res (list (pt3 * A))) (blocks : list idx3) : res (list (pt3 * A)) :=
    match blocks with
    | [] => Ok []
    | i :: blocks' =>
        match l_get l i with
        | None => Abort
        | Some b => rbind (F b) (fun c => rbind (walk_blocks F blocks') (fun rest => Ok (c ++ rest)))
        end
    end.
  Lemma Forall2_map_l : forall X Y Z0 (R : Y -> Z0 -> Prop) (f : X -> Y) xs zs, Forall2 (fun x z => R (f x) z) xs zs -> Forall2 R (map f xs) zs.
  Proof. intros X Y Z0 R f xs zs H. induction H; constructor; auto. Qed.
  Lemma glob_inj : forall i v j w, in_cube n v -> in_cube n w -> global_of n i v = global_of n j w -> i = j /\ v = w.
  Proof.
    intros i v j w C D E. split.
    - rewrite <- (glob_block n i v C), <- (glob_block n j w D). now rewrite E.
    - rewrite <- (glob_local n i v C), <- (glob_local n j w D). now rewrite E.
  Qed.
  Lemma walk_all : forall F blocks,
    (forall i b, l_get l i = Some b -> exists vs, F b = grid_voxels vis b vs /\ Forall (in_cube n) vs /\ NoDup vs /\ forall v, in_cube n v -> In v vs) ->
    NoDup blocks -> (forall i, In i blocks -> l_get l i <> None) ->
    exists c gs, walk_blocks F blocks = Ok c /\ NoDup gs /\
      (forall g, In g gs <-> In (map3 (fun c => c / n) g) blocks /\ exists x a, voxel_at l g = Some x /\ accept g x a) /\
      Forall2 (fun g p => fst p = centre_of l g /\ exists v, voxel_at l g = Some v /\ accept g v (snd p)) gs c.
  Proof.
    intros F blocks HF ND HB. induction ND as [|i blocks NI ND IH].
    - exists [], []. split; [reflexivity|]. split; [constructor|]. split; [|constructor]. intros g. split; [intros []|intros ([] & _)].
    - destruct IH as (c & gs & E & N & W & R); [intros j H; apply HB; now right|].
      destruct (l_get l i) as [b|] eqn:G; [|exfalso; apply (HB i); [now left|exact G]].
      destruct (HF i b G) as (vs & EF & C & NV & CV). destruct (walk i b vs G C) as (c0 & ws & E0 & R0 & W0 & D0).
      cbn [walk_blocks]. rewrite G, EF, E0, E. cbn [rbind]. exists (c0 ++ c), (map (global_of n i) ws ++ gs).
      assert (WC : forall w, In w ws -> in_cube n w).
      { intros w Hw. apply W0 in Hw. rewrite Forall_forall in C. apply C. apply Hw. }
      split; [reflexivity|]. split; [|split].
      + assert (NM : NoDup (map (global_of n i) ws)).
        { specialize (D0 NV). clear - D0 WC. induction D0 as [|w ws NI D IH]; [constructor|]. cbn [map]. constructor.
          - intros H. apply in_map_iff in H. destruct H as (w' & E & I). apply NI.
            destruct (glob_inj i w' i w) as (_ & <-); [apply WC; now right|apply WC; now left|exact E|exact I].
          - apply IH. intros w' H. apply WC. now right. }
        assert (DJ : forall g, In g (map (global_of n i) ws) -> In g gs -> False).
        { intros g H1 H2. apply in_map_iff in H1. destruct H1 as (w & <- & Hw). apply W in H2. destruct H2 as (H2 & _).
          rewrite glob_block in H2 by (apply WC; exact Hw). contradiction. }
        clear - NM DJ N. induction NM as [|g gl NI NM IH]; [exact N|]. cbn [app]. constructor.
        * intros H. apply in_app_or in H. destruct H as [H | H]; [contradiction|]. apply (DJ g); [now left|exact H].
        * apply IH. intros g' H1 H2. apply (DJ g'); [now right|exact H2].
      + intros g. rewrite in_app_iff, in_map_iff. split.
        * intros [(w & <- & Hw) | H].
          -- rewrite glob_block by (apply WC; exact Hw). split; [now left|]. now apply W0 in Hw.
          -- apply W in H. split; [right; apply H|apply H].
        * intros ([H | H] & K); [left|right; apply W; split; assumption]. subst i.
          exists (map3 (fun c => c mod n) g). pose proof vps_pos as NP. split; [now apply glob_inv|]. apply W0.
          split; [apply CV; now apply mod_in_cube|]. rewrite glob_inv by exact NP. exact K.
      + apply Forall2_app; [|exact R]. apply Forall2_map_l. exact R0.
  Qed.
  Lemma voxel_allocated : forall g x, voxel_at l g = Some x -> In (map3 (fun c => c / n) g) (getAllAllocatedBlocks l).
  Proof.
    intros g x H. unfold voxel_at in H. destruct (l_get l (map3 (fun c => c / n) g)) as [b|] eqn:G; [|discriminate].
    unfold l_get in G. unfold getAllAllocatedBlocks, akeys. revert G. generalize (map3 (fun c => c / n) g). intros i.
    induction (l_blocks l) as [|(j, b') es IH]; [discriminate|]. cbn [alookup map fst]. destruct (idx_eqb_spec i j) as [-> | NE]; [now left|].
    intros G. right. now apply IH.
  Qed.
  Lemma walk_pictures : forall F,
    (forall i b, l_get l i = Some b -> exists vs, F b = grid_voxels vis b vs /\ Forall (in_cube n) vs /\ NoDup vs /\ forall v, in_cube n v -> In v vs) ->
    exists c, walk_blocks F (getAllAllocatedBlocks l) = Ok c /\ pictures l accept c.
  Proof.
    intros F HF. destruct (walk_all F (getAllAllocatedBlocks l) HF (proj2 P)) as (c & gs & E & N & W & R).
    { intros i H. unfold getAllAllocatedBlocks, akeys in H. apply in_map_iff in H. destruct H as ((j & b) & <- & H).
      cbn [fst]. rewrite (entries_get k l (proj2 P) j b H). discriminate. }
    exists c. split; [exact E|]. exists gs. split; [exact N|]. split; [|exact R]. intros g. rewrite W. split; [now intros (_ & H)|].
    intros (x & a & X & H). split; [now apply voxel_allocated with x|]. now exists x, a.
  Qed.
  (** the order by linear index *)
  Definition local_of (lin : nat) : idx3 :=
    match computeVoxelIndexFromLinearIndex n (Z.of_nat lin) with Some v => v | None => V3 0 0 0 end.
  Lemma local_ok : forall lin, (lin < Z.to_nat (n * n * n))%nat ->
    computeVoxelIndexFromLinearIndex n (Z.of_nat lin) = Some (local_of lin) /\ in_cube n (local_of lin) /\
    computeLinearIndexFromVoxelIndex n (local_of lin) = Z.of_nat lin.
  Proof.
    intros lin H. pose proof vps_cube as Q.
    destruct (linear_inverse n (Z.of_nat lin) vps_pos ltac:(apply Z.le_trans with (1 := Q); vm_compute; discriminate) ltac:(lia)) as (v & E & C & L).
    unfold local_of. rewrite E. auto.
  Qed.
  Lemma cloud_grid : forall b lins, b_vps b = n -> (forall x, In x lins -> (x < Z.to_nat (n * n * n))%nat) ->
    cloud_voxels vis b lins = grid_voxels vis b (map local_of lins).
  Proof.
    intros b lins E. induction lins as [|lin lins IH]; intros H; [reflexivity|]. cbn [cloud_voxels map grid_voxels].
    destruct (local_ok lin) as (L1 & _ & L3); [apply H; now left|]. unfold coordinates_of. rewrite E, L1. cbn [of_opt rbind].
    unfold getVoxelByVoxelIndex. rewrite E, L3, Nat2Z.id. rewrite IH by (intros x I; apply H; now right). reflexivity.
  Qed.
  Lemma cloud_order : Forall (in_cube n) (map local_of (seq 0 (Z.to_nat (n * n * n)))) /\
    NoDup (map local_of (seq 0 (Z.to_nat (n * n * n)))) /\ forall v, in_cube n v -> In v (map local_of (seq 0 (Z.to_nat (n * n * n)))).
  Proof.
    split; [|split].
    - apply Forall_forall. intros v H. apply in_map_iff in H. destruct H as (x & <- & H). apply in_seq in H. apply local_ok. lia.
    - apply (NoDup_map_inv (computeLinearIndexFromVoxelIndex n)). rewrite map_map.
      rewrite (map_ext_in _ Z.of_nat). { apply FinFun.Injective_map_NoDup; [intros a b; lia|apply seq_NoDup]. }
      intros x H. apply in_seq in H. apply local_ok. lia.
    - intros v C. destruct (linear_val v C) as (E & R). pose proof vps_cube as Q. apply in_map_iff.
      exists (Z.to_nat (computeLinearIndexFromVoxelIndex n v)). rewrite E. split; [|apply in_seq; lia].
      unfold local_of. rewrite Z2Nat.id by lia. rewrite <- E. rewrite linear_roundtrip; [reflexivity|exact vps_pos| |exact C].
      apply Z.le_trans with (1 := Q). vm_compute. discriminate.
  Qed.
  Theorem cloud_pictures : exists c, createColorPointcloudFromLayer vis l = Ok c /\ pictures l accept c.
  Proof.
    destruct (walk_pictures (fun b => cloud_voxels vis b (seq 0 (Z.to_nat (n * n * n))))) as (c & E & H).
    { intros i b G. exists (map local_of (seq 0 (Z.to_nat (n * n * n)))). split; [|exact cloud_order].
      apply cloud_grid; [|intros x I; apply in_seq in I; lia]. destruct P as ((_ & _ & B) & _). now destruct (B i b G) as (-> & _). }
    exists c. split; [|exact H]. rewrite <- E. unfold createColorPointcloudFromLayer. generalize (getAllAllocatedBlocks l). intros bs.
    induction bs as [|i bs IH]; [reflexivity|]. cbn [cloud_blocks walk_blocks]. rewrite IH. reflexivity.
  Qed.
  Lemma grid_order_ok : Forall (in_cube n) (grid_order n) /\ NoDup (grid_order n) /\ forall v, in_cube n v -> In v (grid_order n).
  Proof.
    unfold grid_order. set (r := map Z.of_nat (seq 0 (Z.to_nat n))).
    assert (RI : forall x, In x r <-> 0 <= x < n).
    { intros x. unfold r. rewrite in_map_iff. split.
      - intros (j & <- & H). apply in_seq in H. lia.
      - intros H. exists (Z.to_nat x). split; [lia|]. apply in_seq. lia. }
    assert (RD : NoDup r) by (unfold r; apply FinFun.Injective_map_NoDup; [intros a b; lia|apply seq_NoDup]).
    assert (I3 : forall x y z, In (V3 x y z) (flat_map (fun x => flat_map (fun y => map (fun z => V3 x y z) r) r) r) <-> In x r /\ In y r /\ In z r).
    { intros x y z. rewrite in_flat_map. split.
      - intros (x' & Hx & H). apply in_flat_map in H. destruct H as (y' & Hy & H). apply in_map_iff in H. destruct H as (z' & E & Hz). injection E as <- <- <-. auto.
      - intros (Hx & Hy & Hz). exists x. split; [exact Hx|]. apply in_flat_map. exists y. split; [exact Hy|]. apply in_map_iff. now exists z. }
    split; [|split].
    - apply Forall_forall. intros [x y z] H. apply I3 in H. rewrite !RI in H. exact H.
    - apply MeshInt_proofs.NoDup_flat_map; [exact RD| |].
      + intros x _. apply MeshInt_proofs.NoDup_flat_map; [exact RD| |].
        * intros y _. apply FinFun.Injective_map_NoDup; [intros a b E; now injection E|exact RD].
        * intros y y' v _ _ H1 H2. apply in_map_iff in H1, H2. destruct H1 as (z & <- & _). destruct H2 as (z' & E & _). congruence.
      + intros x x' v _ _ H1 H2. apply in_flat_map in H1, H2. destruct H1 as (y & _ & H1). destruct H2 as (y' & _ & H2).
        apply in_map_iff in H1, H2. destruct H1 as (z & <- & _). destruct H2 as (z' & E & _). congruence.
    - intros [x y z] (H1 & H2 & H3). cbn [vx vy vz] in *. apply I3. rewrite !RI. auto.
  Qed.
  Theorem grid_pictures : exists c, grid_blocks vis l (getAllAllocatedBlocks l) = Ok c /\ pictures l accept c.
  Proof.
    destruct (walk_pictures (fun b => grid_voxels vis b (grid_order (b_vps b)))) as (c & E & H).
    { intros i b G. exists (grid_order n). split; [|exact grid_order_ok]. destruct P as ((_ & _ & B) & _). now destruct (B i b G) as (-> & _). }
    exists c. split; [|exact H]. rewrite <- E. generalize (getAllAllocatedBlocks l). intros bs.
    induction bs as [|i bs IH]; [reflexivity|]. cbn [grid_blocks walk_blocks]. rewrite IH. reflexivity.
  Qed.
End Cloud.
