(** C102: evaluating a layer at candidate poses. C103: layers that do not match are refused. *)
From Coq Require Import ZArith List Bool Reals Lra Lia.
From Flocq Require Import Core.
From Verif Require Import F32 F32_lemmas F32_err Index_float Types Index Voxel Assoc Assoc_lemmas Layer Threads Threads_proofs Interp Interp_spec Transform Transform_spec
  MeshInt Planning Interp_axis Neighbor_proofs Transform_proofs Transform_blocks Transform_marks LayerUtils_spec Eval Eval_spec Eval_proofs Esdf EvalPoses Transform_same P_Eval P_Transform ColorMap_proofs.
Import ListNotations.
Open Scope Z_scope.

(** ** C103 *)
Lemma near_iff : forall a b eps e, ffin a = true -> ffin b = true -> (0 < FR a <= 1000)%R -> (0 < FR b <= 1000)%R ->
  dfin eps = true -> (Rabs (DR eps - e) <= / 10 ^ 20)%R -> (0 < e <= 1)%R ->
  let ok := dle (f64_of_f32 a) (dadd (f64_of_f32 b) eps) && dge (f64_of_f32 a) (dsub (f64_of_f32 b) eps) in
  (ok = true -> Rabs (FR a - FR b) <= e + / 10 ^ 12)%R /\ (Rabs (FR a - FR b) <= e - / 10 ^ 12 -> ok = true)%R.
Proof.
  intros a b eps e Fa Fb Ha Hb Fe He Hp ok. destruct (f64_of_f32_R a Fa) as (Ra & Fa'). destruct (f64_of_f32_R b Fb) as (Rb & Fb').
  assert (T : (0 < t64r < / 1000000000000000)%R) by apply t64r_small.
  assert (P20 : (/ 10 ^ 20 <= / 10 ^ 19)%R) by (apply Rinv_le_contravar; lra).
  assert (N : (- (/ 10 ^ 20) <= DR eps - e <= / 10 ^ 20)%R) by (split; apply Rabs_le_inv in He; lra).
  assert (M : forall x, (Rabs x <= 1100 -> Rabs (rnd64 x - x) <= / 10 ^ 12 / 2 /\ Rabs (rnd64 x) < max64)%R).
  { intros x Hx. destruct (rnd64_err x) as (d & r & Hd & Hr & E). split.
    - rewrite E. replace (x * (1 + d) + r - x)%R with (x * d + r)%R by ring. eapply Rle_trans; [apply Rabs_triang|]. rewrite Rabs_mult.
      assert (Rabs x * Rabs d <= 1100 * u64r)%R by (apply Rmult_le_compat; auto using Rabs_pos). unfold u64r in *. lra.
    - apply rnd64_small. eapply Rle_trans; [exact Hx|]. apply Rle_trans with (bpow radix2 11); [|apply bpow_le; lia]. change (bpow radix2 11) with (2048)%R. lra. }
  assert (B1 : (Rabs (FR b + DR eps) <= 1100)%R) by (apply Rabs_le; lra). assert (B2 : (Rabs (FR b - DR eps) <= 1100)%R) by (apply Rabs_le; lra).
  destruct (M _ B1) as (M1 & L1). destruct (M _ B2) as (M2 & L2). apply Rabs_le_inv in M1. apply Rabs_le_inv in M2.
  destruct (dadd_R (f64_of_f32 b) eps Fb' Fe) as (A1 & A2); [rewrite Rb; exact L1|]. destruct (dsub_R (f64_of_f32 b) eps Fb' Fe) as (S1 & S2); [rewrite Rb; exact L2|].
  rewrite Rb in A1, S1. unfold ok, dge. rewrite andb_true_iff, (dle_R _ _ Fa' A2), (dle_R _ _ S2 Fa'), A1, S1, Ra. split.
  - intros (X & Y). apply Rabs_le. lra.
  - intros X. apply Rabs_le_inv in X. lra.
Qed.
(** 1e-6 and 1e-8 as doubles *)
Lemma d1em6_near : dfin d1em6 = true /\ (Rabs (DR d1em6 - / 10 ^ 6) <= / 10 ^ 20)%R.
Proof.
  split; [reflexivity|]. assert (E : DR d1em6 = (IZR 4722366482869645 * bpow radix2 (-72))%R) by reflexivity. rewrite E.
  change (bpow radix2 (-72)) with (/ 4722366482869645213696)%R. apply Rabs_le. split; lra.
Qed.
Lemma d1em8_near : dfin d1em8 = true /\ (Rabs (DR d1em8 - / 10 ^ 8) <= / 10 ^ 20)%R.
Proof.
  split; [reflexivity|]. assert (E : DR d1em8 = (IZR 6044629098073146 * bpow radix2 (-79))%R) by reflexivity. rewrite E.
  change (bpow radix2 (-79)) with (/ 604462909807314587353088)%R. apply Rabs_le. split; lra.
Qed.
(** voxel sizes of at most a kilometre *)
Definition usual_size (s : f32) : Prop := ffin s = true /\ (0 < FR s <= 1000)%R.
(** An ESDF integrator is only made for layers with the same number of voxels per side
    and voxel sizes within a micrometre; otherwise the program stops. *)
Theorem C103_esdf : forall c (t : Layer KTsdf) (e : Layer KEsdf), usual_size (l_size t) -> usual_size (l_size e) ->
  match esdf_new c t e with
  | Ok st => es_layer st = e /\ l_vps e = l_vps t /\ (Rabs (FR (l_size e) - FR (l_size t)) <= / 10 ^ 6 + / 10 ^ 12)%R
  | Abort => l_vps e <> l_vps t \/ (/ 10 ^ 6 - / 10 ^ 12 < Rabs (FR (l_size e) - FR (l_size t)))%R
  | UB => False
  end.
Proof.
  intros c t e (Ft & Ht) (Fe & He). destruct d1em6_near as (F & N).
  destruct (near_iff (l_size e) (l_size t) d1em6 (/ 10 ^ 6) Fe Ft He Ht F N ltac:(lra)) as (P & Q).
  unfold esdf_new. change (near_sizes (l_size e) (l_size t) = true -> (Rabs (FR (l_size e) - FR (l_size t)) <= / 10 ^ 6 + / 10 ^ 12)%R) in P.
  change ((Rabs (FR (l_size e) - FR (l_size t)) <= / 10 ^ 6 - / 10 ^ 12)%R -> near_sizes (l_size e) (l_size t) = true) in Q. destruct (Z.eqb_spec (l_vps e) (l_vps t)) as [V|V]; cbn [andb]; [|left; exact V].
  destruct (near_sizes (l_size e) (l_size t)).
  - cbn [es_layer]. split; [reflexivity|]. split; [exact V|]. apply P. reflexivity.
  - right. destruct (Rle_or_lt (Rabs (FR (l_size e) - FR (l_size t))) (/ 10 ^ 6 - / 10 ^ 12)) as [X|X]; [|exact X]. discriminate (Q X).
Qed.
Print Assumptions C103_esdf.
(** Poses are only evaluated for layers with the same number of voxels per side and voxel
    sizes within ten nanometres; otherwise the program stops before anything is written. *)
Theorem C103_poses : forall rows top order fuel m (A B : Layer KTsdf) poses details aligned, usual_size (l_size A) -> usual_size (l_size B) ->
  (l_vps A <> l_vps B \/ / 10 ^ 8 + / 10 ^ 12 < Rabs (FR (l_size A) - FR (l_size B)))%R ->
  evaluateLayerRmseAtPoses rows top order fuel m A B poses details aligned = Abort.
Proof.
  intros rows top order fuel m A B poses details aligned (Fa & Ha) (Fb & Hb) H. destruct d1em8_near as (F & N).
  destruct (near_iff (l_size A) (l_size B) d1em8 (/ 10 ^ 8) Fa Fb Ha Hb F N ltac:(lra)) as (P & _). change (near_layers (l_size A) (l_size B) = true -> (Rabs (FR (l_size A) - FR (l_size B)) <= / 10 ^ 8 + / 10 ^ 12)%R) in P.
  unfold evaluateLayerRmseAtPoses. destruct (near_layers (l_size A) (l_size B)) eqn:E; cbn [andb]; [|reflexivity]. specialize (P eq_refl).
  destruct (Z.eqb_spec (l_vps A) (l_vps B)) as [V|V]; [|reflexivity]. exfalso. destruct H as [H|H]; [exact (H V)|lra].
Qed.
Print Assumptions C103_poses.

(** ** C102 *)
Definition empty_like (l : Layer KTsdf) : Layer KTsdf := MkLayer (k := KTsdf) (l_size l) (l_vps l) [].
(** What one pose gives: [moved] is layer B moved by the pose onto an empty grid, [d] and
    [err] the comparison of layer A with it. *)
Definition pose_result (rows : nat -> sum_order) (top : sum_order) (order : list idx3 -> list idx3) (fuel : nat) (m : emode) (A B : Layer KTsdf)
    (want : bool) (pose : (pt3 -> pt3) * (pt3 -> pt3)) (d : edetails) (moved : Layer KTsdf) (err : option (Layer KTsdf)) : Prop :=
  transformLayer rows top order fuel B (fst pose) (snd pose) (empty_like B) = Ok (Some moved) /\
  evaluateLayersRmse A moved m (if want then Some (empty_like A) else None) = Ok (d, err).

Section poses.
  Variables (rows : nat -> sum_order) (top : sum_order) (order : list idx3 -> list idx3) (fuel : nat) (m : emode) (A B : Layer KTsdf).
  Notation good := (pose_result rows top order fuel m A B).
  Lemma new_layer_eq : forall s n (l : Layer KTsdf), new_layer KTsdf s n = Ok l -> l = MkLayer (k := KTsdf) s n [].
  Proof. intros s n l H. unfold new_layer in H. destruct (_ && _); [congruence|discriminate]. Qed.
  Lemma pose_none : forall n i p ds r, eval_pose rows top order fuel m A B n i p (ds, None) = Ok (Some r) ->
    exists d moved err, r = (ds ++ [d], None) /\ good false p d moved err.
  Proof.
    intros n i p ds r H. unfold eval_pose in H. cbn [fst snd] in H. destruct (new_layer KTsdf (l_size B) (l_vps B)) as [e| |] eqn:E; try discriminate. apply new_layer_eq in E. subst e. cbn [rbind] in H.
    change (MkLayer (l_size B) (l_vps B) []) with (empty_like B) in H.
    destruct (transformLayer rows top order fuel B (fst p) (snd p) (empty_like B)) as [[moved|]| |] eqn:T; try discriminate. cbn [rbind] in H.
    destruct (evaluateLayersRmse A moved m None) as [(d, err)| |] eqn:V; try discriminate. cbn [rbind fst snd option_map] in H. injection H as <-. exists d, moved, err. split; [reflexivity|]. split; [exact T|exact V].
  Qed.
  Lemma pose_some : forall n i p ds al r, eval_pose rows top order fuel m A B n i p (ds, Some al) = Ok (Some r) ->
    exists d moved err, r = (ds ++ [d], Some (set_th i (Some moved, err) (fit_entries n al))) /\ good true p d moved err.
  Proof.
    intros n i p ds al r H. unfold eval_pose in H. cbn [fst snd] in H. destruct (new_layer KTsdf (l_size B) (l_vps B)) as [e| |] eqn:E; try discriminate. apply new_layer_eq in E. subst e. cbn [rbind] in H.
    destruct (new_layer KTsdf (l_size A) (l_vps A)) as [e| |] eqn:E; try discriminate. apply new_layer_eq in E. subst e. cbn [rbind] in H.
    change (MkLayer (l_size B) (l_vps B) []) with (empty_like B) in H. change (MkLayer (l_size A) (l_vps A) []) with (empty_like A) in H.
    destruct (transformLayer rows top order fuel B (fst p) (snd p) (empty_like B)) as [[moved|]| |] eqn:T; try discriminate. cbn [rbind] in H.
    destruct (evaluateLayersRmse A moved m (Some (empty_like A))) as [(d, err)| |] eqn:V; try discriminate. cbn [rbind fst snd option_map] in H. injection H as <-. exists d, moved, err. split; [reflexivity|]. split; [exact T|exact V].
  Qed.
  Lemma poses_none : forall ps n i ds r, eval_poses rows top order fuel m A B n i ps (ds, None) = Ok (Some r) ->
    exists new, r = (ds ++ new, None) /\ Forall2 (fun p d => exists moved err, good false p d moved err) ps new.
  Proof.
    induction ps as [|p ps IH]; intros n i ds r H; cbn [eval_poses] in H; [injection H as <-; exists []; rewrite app_nil_r; split; [reflexivity|constructor]|].
    destruct (eval_pose rows top order fuel m A B n i p (ds, None)) as [[s'|]| |] eqn:E; try discriminate. cbn [rbind] in H.
    apply pose_none in E. destruct E as (d & moved & err & -> & G). apply IH in H. destruct H as (new & -> & F). exists (d :: new). rewrite <- app_assoc. split; [reflexivity|]. constructor; [eauto|exact F].
  Qed.
  Lemma fit_length : forall n al, length (fit_entries n al) = n.
  Proof. intros n al. unfold fit_entries. destruct (Nat.eqb_spec (length al) n) as [E|E]; [exact E|apply repeat_length]. Qed.
  Lemma fit_same : forall n al, length al = n -> fit_entries n al = al.
  Proof. intros n al H. unfold fit_entries. rewrite H, Nat.eqb_refl. reflexivity. Qed.
  Lemma poses_some : forall ps pre rest ds r n, n = (length pre + length ps)%nat -> length rest = length ps ->
    eval_poses rows top order fuel m A B n (length pre) ps (ds, Some (pre ++ rest)) = Ok (Some r) ->
    exists new entries, r = (ds ++ new, Some (pre ++ entries)) /\ length entries = length ps /\
      Forall2 (fun p de => exists moved err, good true p (fst de) moved err /\ snd de = (Some moved, err)) ps (combine new entries) /\ length new = length ps.
  Proof.
    induction ps as [|p ps IH]; intros pre rest ds r n N L H; cbn [eval_poses] in H.
    - injection H as <-. destruct rest; [|discriminate]. exists [], []. rewrite !app_nil_r. repeat split. constructor.
    - destruct (eval_pose rows top order fuel m A B n (length pre) p (ds, Some (pre ++ rest))) as [[s'|]| |] eqn:E; try discriminate. cbn [rbind] in H.
      apply pose_some in E. destruct E as (d & moved & err & -> & G). destruct rest as [|x rest]; [discriminate|]. cbn [length] in *.
      rewrite fit_same in H by (rewrite app_length; cbn [length]; lia). rewrite set_th_app in H.
      destruct (IH (pre ++ [(Some moved, err)]) rest (ds ++ [d]) r n) as (new & entries & -> & L1 & F & L2); [rewrite app_length; cbn [length]; lia|lia| |].
      { replace (length (pre ++ [(Some moved, err)])) with (S (length pre)) by (rewrite app_length; cbn; lia). rewrite <- app_assoc. exact H. }
      exists (d :: new), ((Some moved, err) :: entries). rewrite <- !app_assoc. split; [reflexivity|]. split; [cbn; lia|]. split; [|cbn; lia].
      cbn [combine]. constructor; [|exact F]. exists moved, err. split; [exact G|reflexivity].
  Qed.
End poses.

(** One result per pose is appended, in the order of the poses, and it is that of layer A
    compared with layer B moved by that pose alone: no pose sees another's layers. If the
    caller asks for the layers, entry [i] is the layer moved by pose [i] and its error layer. *)
Theorem C102_poses : forall rows top order fuel m (A B : Layer KTsdf) poses details aligned details' aligned',
  evaluateLayerRmseAtPoses rows top order fuel m A B poses details aligned = Ok (Some (details', aligned')) ->
  exists new, details' = details ++ new /\ length new = length poses /\
    match aligned with
    | None => aligned' = None /\ Forall2 (fun p d => exists moved err, pose_result rows top order fuel m A B false p d moved err) poses new
    | Some old => (poses = [] -> aligned' = Some old) /\
        (poses <> [] -> exists entries, aligned' = Some entries /\ length entries = length poses /\
           Forall2 (fun p de => exists moved err, pose_result rows top order fuel m A B true p (fst de) moved err /\ snd de = (Some moved, err)) poses (combine new entries))
    end.
Proof.
  intros rows top order fuel m A B poses details aligned details' aligned' H. unfold evaluateLayerRmseAtPoses in H. destruct (_ && _); [|discriminate]. destruct aligned as [old|].
  - destruct poses as [|p ps]; [cbn [eval_poses length] in H; injection H as <- <-; exists []; rewrite app_nil_r; repeat split; congruence|].
    assert (Q : eval_poses rows top order fuel m A B (length (p :: ps)) 0 (p :: ps) (details, Some (fit_entries (length (p :: ps)) old)) = Ok (Some (details', aligned'))).
    { rewrite <- H. cbn [eval_poses]. f_equal. unfold eval_pose. cbn [fst snd option_map]. rewrite (fit_same _ (fit_entries _ old)) by apply fit_length. reflexivity. }
    destruct (poses_some rows top order fuel m A B (p :: ps) [] (fit_entries (length (p :: ps)) old) details _ _ eq_refl (fit_length _ _) Q) as (new & entries & E & L1 & F & L2).
    injection E as -> ->. exists new. split; [reflexivity|]. split; [exact L2|]. split; [discriminate|]. intros _. exists entries. auto.
  - destruct (poses_none _ _ _ _ _ _ _ _ _ _ _ _ H) as (new & E & F). injection E as -> ->. exists new. split; [reflexivity|]. split; [clear -F; induction F; cbn [length]; congruence|]. auto.
Qed.
Print Assumptions C102_poses.

(** the moved layer has each block once *)
Lemma tl_block_keys : forall rows top lin Tinv l bi l', NoDup (getAllAllocatedBlocks l) -> tl_block rows top lin Tinv l bi = Ok l' -> NoDup (getAllAllocatedBlocks l').
Proof.
  intros rows top lin Tinv l bi l' N H. unfold tl_block in H.
  assert (K : NoDup (getAllAllocatedBlocks (allocateBlockPtrByIndex l bi))).
  { unfold allocateBlockPtrByIndex. destruct (l_get l bi); [exact N|]. apply NoDup_ainsert. exact N. }
  destruct (l_get (allocateBlockPtrByIndex l bi) bi) as [b|]; [|discriminate]. destruct (tl_voxels _ _ _ _ _ _ _) as [r| |]; try discriminate. cbn [rbind] in H.
  destruct (b_has_data b || snd r); injection H as <-; [apply NoDup_aset|apply NoDup_aerase]; exact K.
Qed.
Lemma transform_keys : forall rows top order fuel lin T Tinv out out', NoDup (getAllAllocatedBlocks out) ->
  transformLayer rows top order fuel lin T Tinv out = Ok (Some out') -> NoDup (getAllAllocatedBlocks out').
Proof.
  intros rows top order fuel lin T Tinv out out' N H. unfold transformLayer in H. destruct (all_marks _ _ _ _ _) as [[mk|]| |]; try discriminate. cbn [rbind] in H.
  destruct (rfold (tl_block rows top lin Tinv) (order mk) out) as [l| |] eqn:E; try discriminate. cbn [rbind] in H. injection H as <-.
  revert out N E. induction (order mk) as [|bi bis IH]; intros out N E; cbn [rfold] in E; [injection E as <-; exact N|].
  destruct (tl_block rows top lin Tinv out bi) as [l1| |] eqn:E1; try discriminate. cbn [rbind] in E. exact (IH l1 (tl_block_keys _ _ _ _ _ _ _ N E1) E).
Qed.
(** the comparison's numbers do not depend on the error layer *)
Lemma same_details : forall k (gt test : Layer k) m el1 el2 d1 d2 r1 r2, comparable gt test el1 -> comparable gt test el2 ->
  evaluateLayersRmse gt test m el1 = Ok (d1, r1) -> evaluateLayersRmse gt test m el2 = Ok (d2, r2) -> d1 = d2.
Proof.
  intros k gt test m el1 el2 d1 d2 r1 r2 C1 C2 E1 E2.
  destruct (spec_of k gt test m el1 C1) as (d & t & d' & el' & [A1 A2 A3 A4 A5 A6 A7 A8] & E & _ & B1 & B2 & B3 & B4 & B5 & B6 & B7). rewrite E in E1. injection E1 as <- <-.
  destruct (spec_of k gt test m el2 C2) as (d0' & t' & d'' & el'' & [G1 G2 G3 G4 G5 G6 G7 G8] & E' & _ & F1 & F2 & F3 & F4 & F5 & F6 & F7). rewrite E' in E2. injection E2 as <- <-.
  assert (R : ed_rmse d' = ed_rmse d'') by (rewrite B7, F7, A5, G5, A2, G2; reflexivity).
  assert (Q1 : ed_max d' = ed_max d'') by congruence. assert (Q2 : ed_min d' = ed_min d'') by congruence. assert (Q3 : ed_evaluated d' = ed_evaluated d'') by congruence.
  assert (Q4 : ed_ignored d' = ed_ignored d'') by congruence. assert (Q5 : ed_overlapping d' = ed_overlapping d'') by congruence. assert (Q6 : ed_non_overlapping d' = ed_non_overlapping d'') by congruence.
  destruct d' as [x1 x2 x3 x4 x5 x6 x7], d'' as [y1 y2 y3 y4 y5 y6 y7]. cbn [ed_rmse ed_max ed_min ed_evaluated ed_ignored ed_overlapping ed_non_overlapping] in *. congruence.
Qed.

(** A pose can be evaluated: what C86 asks of the layer and the pose. *)
Definition evaluable (B : Layer KTsdf) (p : (pt3 -> pt3) * (pt3 -> pt3)) : Prop :=
  in_reach B (fst p) (l_block_size B) /\ forall g, considered B (fst p) (l_block_size B) (block_of (l_vps B) g) -> close_by (l_size B) (snd p (place (l_vps B) (l_size B) g)).
Lemma built_empty : forall (l : Layer KTsdf), built_layer l -> built_layer (empty_like l).
Proof. intros l (S1 & S2 & _). split; [exact S1|]. split; [exact S2|]. intros i b H. discriminate. Qed.
Lemma built_regular : forall (l : Layer KTsdf), built_layer l -> NoDup (getAllAllocatedBlocks l) -> regular l.
Proof.
  intros l (_ & (V1 & V2) & H) N. split; [exact N|]. intros i b G. destruct (H i b G) as (_ & _ & _ & L). unfold num_voxels, u64. rewrite Z.mod_small; [lia|].
  assert (l_vps l * l_vps l <= 2 ^ 10 * 2 ^ 10) by nia. assert (l_vps l * l_vps l * l_vps l <= 2 ^ 10 * 2 ^ 10 * 2 ^ 10) by nia. nia.
Qed.
Lemma empty_regular : forall l : Layer KTsdf, regular (empty_like l).
Proof. intros l. split; [constructor|]. intros i b H. discriminate. Qed.
Section run.
  Variables (rows : nat -> sum_order) (top : sum_order) (order : list idx3 -> list idx3) (fuel : nat) (m : emode) (A B : Layer KTsdf) (D W : R).
  Hypothesis HR : forall j, (j < 8)%nat -> complete_order (rows j).
  Hypothesis HT : complete_order top.
  Hypothesis HO : set_order order.
  Hypothesis TB : transformable D W B.
  Hypothesis RA : regular A.
  Hypothesis VP : l_vps A = l_vps B.
  Hypothesis HF : 4000 <= Z.of_nat fuel.
  Lemma pose_moves : forall p, evaluable B p -> exists moved, transformLayer rows top order fuel B (fst p) (snd p) (empty_like B) = Ok (Some moved) /\
    forall el, (el = None \/ el = Some (empty_like A)) -> comparable A moved el.
  Proof.
    intros p (R1 & R2). destruct (C86_transform_partial rows top order D W B (empty_like B) (fst p) (snd p) fuel HR HT HO TB (built_empty B (tf_built D W B TB)) R1 R2 HF) as (moved & E & BL & V & _).
    exists moved. split; [exact E|]. assert (K : NoDup (getAllAllocatedBlocks moved)) by (eapply transform_keys; [|exact E]; constructor).
    intros el H. split; [exact RA|]. split; [apply built_regular; assumption|]. rewrite V. split; [exact VP|]. intros l L. destruct H as [->| ->]; [discriminate|]. injection L as <-. split; [apply empty_regular|exact VP].
  Qed.
End run.
(** Every such list of poses is evaluated, and asking for the layers does not change the
    numbers. *)
Theorem C102_runs : forall rows top order fuel m D W (A B : Layer KTsdf) poses details old,
  (forall j, (j < 8)%nat -> complete_order (rows j)) -> complete_order top -> set_order order -> 4000 <= Z.of_nat fuel ->
  transformable D W B -> regular A -> l_vps A = l_vps B -> l_size A = l_size B -> usual_size (l_size B) -> Forall (evaluable B) poses ->
  exists details' entries,
    evaluateLayerRmseAtPoses rows top order fuel m A B poses details None = Ok (Some (details', None)) /\
    evaluateLayerRmseAtPoses rows top order fuel m A B poses details (Some old) = Ok (Some (details', Some entries)).
Proof.
  intros rows top order fuel m D W A B poses details old HR HT HO HF TB RA VP SZ (US & U) HP.
  pose proof (tf_built D W B TB) as TBB. destruct TBB as ((FS & S1 & S2) & (V1 & V2) & _).
  destruct (built_wide B (tf_built D W B TB)) as (FW & W1 & W2).
  assert (NB : new_layer KTsdf (l_size B) (l_vps B) = Ok (empty_like B)).
  { unfold new_layer. rewrite (proj2 (flt_R f0 (l_size B) eq_refl FS)) by (change (FR f0) with 0%R; lra).
    change (block_size_of (l_vps B) (l_size B)) with (l_block_size B). rewrite (proj2 (flt_R f0 (l_block_size B) eq_refl FW)) by (change (FR f0) with 0%R; eapply Rlt_le_trans; [apply bpow_gt_0|exact W1]).
    replace (0 <? l_vps B) with true by (symmetry; apply Z.ltb_lt; lia). reflexivity. }
  assert (NA : new_layer KTsdf (l_size A) (l_vps A) = Ok (empty_like A)) by (rewrite SZ, VP; unfold empty_like; rewrite SZ, VP; exact NB).
  assert (NE : near_layers (l_size A) (l_size B) && (l_vps A =? l_vps B) = true).
  { rewrite VP, Z.eqb_refl, andb_true_r, SZ. destruct d1em8_near as (F & N). apply (proj2 (near_iff (l_size B) (l_size B) d1em8 (/ 10 ^ 8) US US U U F N ltac:(lra))).
    replace (FR (l_size B) - FR (l_size B))%R with 0%R by ring. rewrite Rabs_R0. lra. }
  unfold evaluateLayerRmseAtPoses. rewrite NE. generalize (length poses) as n. intros n. generalize 0%nat as i. revert details old.
  induction HP as [|p ps Hp HP IH]; intros details old i; [exists details, old; split; reflexivity|].
  destruct (pose_moves rows top order fuel A B D W HR HT HO TB RA VP HF p Hp) as (moved & E & C).
  destruct (C45_counts KTsdf A moved m None (C None (or_introl eq_refl))) as (d1 & e1 & E1 & _).
  destruct (C45_counts KTsdf A moved m (Some (empty_like A)) (C _ (or_intror eq_refl))) as (d2 & e2 & E2 & _).
  assert (d2 = d1) by (eapply same_details; [apply (C (Some (empty_like A))); right; reflexivity|apply (C None); left; reflexivity|exact E2|exact E1]). subst d2.
  destruct (IH (details ++ [d1]) (set_th i (Some moved, e2) (fit_entries n old)) (S i)) as (details' & entries & I1 & I2).
  exists details', entries. split.
  - cbn [eval_poses]. unfold eval_pose. cbn [fst snd]. rewrite NB. cbn [rbind]. rewrite E. cbn [rbind]. rewrite E1. cbn [rbind fst snd option_map]. exact I1.
  - cbn [eval_poses]. unfold eval_pose. cbn [fst snd]. rewrite NB. cbn [rbind]. rewrite NA. cbn [rbind]. rewrite E. cbn [rbind]. rewrite E2. cbn [rbind fst snd option_map]. exact I2.
Qed.
Print Assumptions C102_runs.

(** the layer of C86 evaluated against itself where it is, and half a metre away *)
Example C102_example : regular src /\ usual_size (l_size src) /\
  match evaluateLayerRmseAtPoses (fun _ => ord) ord dedup 10 EAll src src [(sh f0, sh f0); (sh half, sh mhalf)] [] (Some []) with
  | Ok (Some ([a; b], Some [(Some _, Some _); (Some _, Some _)])) =>
      (ed_evaluated a =? 8) && feq (ed_rmse a) f0 && (0 <? ed_evaluated b)
  | _ => false
  end = true.
Proof.
  split; [|split; [|vm_compute; reflexivity]].
  - split; [repeat constructor; intros []|]. intros i b H. apply alookup_In in H. destruct H as [H|[]]; injection H as _ <-; reflexivity.
  - split; [reflexivity|]. change (l_size src) with f1. rewrite f1_R. lra.
Qed.
(** an evaluable pose *)
Example C102_meets : transformable 1 1 src /\ evaluable src (sh half, sh mhalf).
Proof.
  split; [apply src_ok|].
  assert (B2 : FR (l_block_size src) = 2%R).
  { assert (E : FR (l_block_size src) = (IZR 8388608 * bpow radix2 (-22))%R) by reflexivity. rewrite E. change (bpow radix2 (-22)) with (/ 4194304)%R. lra. }
  split.
  - cbn [fst snd]. split; [rewrite B2; lra|]. intros i b E. apply src_get in E. destruct E as (-> & _). rewrite B2.
    assert (X : FR (fadd (center_axis 0 (l_block_size src)) half) = (IZR 12582912 * bpow radix2 (-23))%R) by reflexivity.
    assert (Y : FR (center_axis 0 (l_block_size src)) = (IZR 8388608 * bpow radix2 (-23))%R) by reflexivity.
    change (bpow radix2 (-23)) with (/ 8388608)%R in X, Y.
    assert (PX : (ffin (fadd (center_axis 0 (l_block_size src)) half) = true /\ Rabs (FR (fadd (center_axis 0 (l_block_size src)) half) / 2) <= 65536)%R) by (split; [reflexivity|]; rewrite X, Rabs_pos_eq; lra).
    assert (PY : (ffin (center_axis 0 (l_block_size src)) = true /\ Rabs (FR (center_axis 0 (l_block_size src)) / 2) <= 65536)%R) by (split; [reflexivity|]; rewrite Y, Rabs_pos_eq; lra).
    split; [exact PX | split; [exact PY | exact PY]].
  - cbn [fst snd]. intros g C. change (l_block_size src) with (l_block_size (dst 2)) in C. apply moved_considered in C. change (l_vps src) with 2 in *. change (l_size src) with f1.
    assert (R : -1 <= vx (block_of 2 g) <= 0 /\ -1 <= vy (block_of 2 g) <= 0 /\ -1 <= vz (block_of 2 g) <= 0).
    { unfold moved_marks in C. cbn [In] in C. repeat (destruct C as [<-|C]; [cbn [vx vy vz]; lia|]). contradiction. }
    unfold block_of, map3 in R. cbn [vx vy vz] in R.
    assert (K : forall c, -1 <= c / 2 <= 0 -> (ffin (ctr 2 f1 (c / 2) (c mod 2)) = true /\ Rabs (FR (ctr 2 f1 (c / 2) (c mod 2)) / FR f1) <= 3)%R).
    { intros c Hc. pose proof (Z.div_mod c 2 ltac:(lia)) as DM. pose proof (Z.mod_pos_bound c 2 ltac:(lia)) as MB. assert (HB : -2 <= c <= 1) by lia.
      destruct (place_axis 2 f1 c sane1 ltac:(lia) ltac:(lia)) as (F & E). split; [exact F|].
      assert (-2 <= IZR c <= 1)%R by (split; apply IZR_le; lia). apply Rabs_le_inv in E. apply Rabs_le. lra. }
    destruct (K (vx g)) as (F1 & P1); [tauto|]. destruct (K (vy g)) as (F2 & P2); [tauto|]. destruct (K (vz g)) as (F3 & P3); [tauto|].
    change (close_by f1 (V3 (fadd (ctr 2 f1 (vx g / 2) (vx g mod 2)) mhalf) (ctr 2 f1 (vy g / 2) (vy g mod 2)) (ctr 2 f1 (vz g / 2) (vz g mod 2)))).
    split; [|split; cbn [vx vy vz]; (split; [assumption | lra])]. cbn [vx]. set (x := ctr 2 f1 (vx g / 2) (vx g mod 2)) in *.
    assert (D1 : forall r, (r / FR f1 = r)%R) by (intros r; rewrite f1_R; field). rewrite D1 in *.
    assert (MH : FR mhalf = (- / 2)%R). { assert (E : FR mhalf = (IZR (-8388608) * bpow radix2 (-24))%R) by reflexivity. rewrite E. change (bpow radix2 (-24)) with (/ 16777216)%R. lra. }
    apply Rabs_le_inv in P1.
    destruct (fadd_rel x mhalf F1 eq_refl) as (F & e & He & E).
    { rewrite MH. apply Rle_trans with (bpow radix2 3); [change (bpow radix2 3) with 8%R; apply Rabs_le; lra | apply bpow_le; lia]. }
    split; [exact F|]. rewrite E, MH. apply Rle_trans with (8 * 2)%R; [|lra]. apply Rabs_prod; [apply Rabs_le; lra|]. apply Rabs_le_inv in He. unfold u32r in He. apply Rabs_le. lra.
Qed.
(** both outcomes occur: half a metre against half a metre, and against one metre *)
Example C103_example : usual_size f1 /\ usual_size half /\
  let c := MkEC false f1 half f1 half half 20 false false f0 f0 in
  (match esdf_new c (MkLayer half 2 []) (MkLayer half 2 []) with Ok _ => true | _ => false end = true) /\
  esdf_new c (MkLayer half 2 []) (MkLayer f1 2 []) = Abort /\
  evaluateLayerRmseAtPoses (fun _ => ord) ord dedup 10 EAll (MkLayer half 2 []) (MkLayer f1 2 []) [] [] None = Abort.
Proof.
  assert (H2 : FR half = (/ 2)%R). { assert (E : FR half = (IZR 8388608 * bpow radix2 (-24))%R) by reflexivity. rewrite E. change (bpow radix2 (-24)) with (/ 16777216)%R. lra. }
  split; [split; [reflexivity|rewrite f1_R; lra]|]. split; [split; [reflexivity|rewrite H2; lra]|]. split; [vm_compute; reflexivity|]. split; vm_compute; reflexivity.
Qed.
