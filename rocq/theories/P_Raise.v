(** Property C85: withdrawing distances from an ESDF. *)
From Coq Require Import ZArith List Bool Lia Reals Lra.
From Flocq Require Import Core.
From Verif Require Import F32 F32_lemmas Types Index Neighbor Neighbor_proofs Voxel Assoc Assoc_lemmas Layer Threads Queue Queue_spec Queue_proofs
  Planning Esdf Esdf_spec Esdf_proofs Esdf_float Esdf_range Esdf_grid Esdf_open Esdf_term Esdf_total Raise_spec Raise_proofs Connect_proofs P_Esdf.
Import ListNotations.
Open Scope Z_scope.
Ltac Zify.zify_post_hook ::= idtac.

Lemma reset_forgotten : forall c w w', ffin (ec_default c) = true -> reset c w w' -> forgotten c w w'.
Proof.
  intros c w w' F (E & P). destruct (sgnmul_R (e_distance w) _ F) as (V & G). rewrite <- E in V, G.
  split; [|split; [|split; [|split; [exact G|exact P]]]]; rewrite V.
  - intros H. apply outside_iff in H. destruct H as (N & H). destruct (signum_cases _ N) as [(-> & _) | [(-> & K) | (-> & K)]]; lra.
  - intros H. destruct (fnan (e_distance w)) eqn:N.
    + exfalso. destruct (e_distance w); try discriminate. cbn in H. lra.
    + destruct (signum_cases _ N) as [(-> & K) | [(-> & K) | (-> & K)]]; lra.
  - intros N H. destruct (signum_cases _ N) as [(-> & K) | [(-> & K) | (-> & K)]]; lra.
Qed.

(** Withdrawing a set of roots forgets exactly the distances derived from them, and puts every other movable neighbour of a
    root or of a forgotten voxel into the open queue, from where the gap is filled again. *)
Theorem C85_raise : forall c fuel st st', ec_full c = false -> ffin (ec_default c) = true -> regular (es_layer st) -> roots_ok st ->
  processRaiseSet c fuel st = Ok (Some st') -> es_raise st' = [] /\
  forall h w, exact_index h -> at_index (es_layer st) h = Some w ->
    exists w' : EsdfVoxel, at_index (es_layer st') h = Some w' /\
      (derived (es_layer st) (es_raise st) h -> forgotten c w w') /\
      (~ derived (es_layer st) (es_raise st) h -> untouched w w') /\
      (forall g off, In g (es_raise st) \/ derived (es_layer st) (es_raise st) g -> beside g off h -> movable (es_layer st) h w ->
         ~ derived (es_layer st) (es_raise st) h -> e_in_queue w' = true) /\
      (e_in_queue w' = true -> e_in_queue w = true \/ In h (waiting st')).
Proof.
  intros c fuel st st' Q F R RO H.
  destruct (raise_inv c Q (es_layer st) (es_raise st) R RO fuel st st' (start_inv c _ _ st eq_refl eq_refl) H) as (IV & E & _). split; [exact E|].
  intros h w X M. destruct (ri_vox _ _ _ _ _ IV h w X M) as (w' & Y1 & Y2 & Y3 & Y4 & Y5 & Y6 & Y7). exists w'. split; [exact Y1|]. split; [|split; [|split]].
  - intros D. destruct (end_der c (es_layer st) (es_raise st) R RO st' h IV E D) as (_ & u & u' & U1 & U2 & _ & U3).
    rewrite M in U1. injection U1 as <-. rewrite Y1 in U2. injection U2 as <-. apply reset_forgotten; assumption.
  - intros N. destruct Y5 as [Y5 | (Y5 & _)]; [exact Y5|contradiction].
  - intros g off D B (_ & O & Fx) N. apply (end_beside c (es_layer st) (es_raise st) R RO st' g off h w w' IV E D B X M Y1 O Fx N).
  - exact Y7.
Qed.
Print Assumptions C85_raise.

(** It always ends, and without failing, within as many iterations as there are roots and voxels. *)
Theorem C85_ends : forall c st0 st n, valid_config c (l_size (es_layer st)) -> ec_full c = false -> (FR (ec_default c) <= 2 * FR (ec_max c))%R ->
  regular (es_layer st) -> roots_ok st -> (forall h w, at_index (es_layer st) h = Some w -> queueable c (e_distance (w : EsdfVoxel))) ->
  idle c st0 -> pushes (es_open st0) n (es_open st) ->
  Z.of_nat n + 26 * (Z.of_nat (length (es_raise st)) + voxel_count (es_layer st)) < 2 ^ 64 ->
  forall fuel, Z.of_nat (length (es_raise st)) + voxel_count (es_layer st) <= Z.of_nat fuel ->
  exists st', processRaiseSet c fuel st = Ok (Some st').
Proof.
  intros c st0 st n V Q D R RO QU ID PU L fuel FU.
  assert (QI : exists p, qinv (es_open st) p /\ qconf c (es_open st) /\ length p = n).
  { assert (L1 : Z.of_nat n < 2 ^ 64). { assert (0 <= voxel_count (es_layer st)) by (pose proof (hangs_range (es_layer st)); lia). lia. }
    destruct (idle_qinv c _ V _ ID) as (Q1 & Q2). clear - PU Q1 Q2 L1. induction PU as [q | q n q1 g d q2 PU IH H]; [exists []; auto|].
    destruct (IH ltac:(lia) Q1 Q2) as (p & P1 & P2 & P3). destruct (push_inv q1 p g d q2 P1 ltac:(lia) H) as (i & P4).
    exists (p ++ [(i, g)]). split; [exact P4|]. split; [|rewrite app_length, P3; cbn [length]; lia].
    unfold bq_push in H. destruct (bq_num q1 =? 0); [discriminate|]. destruct (bucket_of _ _ _); [|discriminate]. apply rbind_ok in H. destruct H as (bs & _ & H). injection H as <-. exact P2. }
  destruct QI as (p & P1 & P2 & P3). pose proof (hangs_range (es_layer st)) as HR.
  destruct (raise_total c _ V Q D fuel st p) as (st' & p' & E & _).
  - split; [exact R|]. split; [exact P1|]. split; [exact P2|]. split; [|exact RO]. intros h w _ E. exact (QU h w E).
  - unfold left_over. lia.
  - unfold left_over. lia.
  - exists st'. exact E.
Qed.
Print Assumptions C85_ends.

(** *** a case: (1,0,0) hangs on the root (0,0,0) and (1,1,0) on (1,0,0); (0,1,0) has no parent *)
Definition ev_ex (d : f32) (fixed : bool) (p : idx3) : EsdfVoxel := MkEsdf d true false false fixed p.
Definition un_esdf : EsdfVoxel := MkEsdf f0 false false false false zero3.
Definition l_chain : Layer KEsdf := MkLayer (k := KEsdf) vs_ex 2 [(V3 0 0 0, set_voxels (k := KEsdf)
  [ev_ex (fbits 0x3dcccccd) true zero3; ev_ex (fbits 0x3ecccccd) false (V3 (-1) 0 0); ev_ex (fbits 0x3f000000) false zero3; ev_ex (fbits 0x3f333333) false (V3 0 (-1) 0);
   un_esdf; un_esdf; un_esdf; un_esdf] (new_block (k := KEsdf) 2 vs_ex (V3 f0 f0 f0)))].
Definition c_chain : econfig := cfg_ex false (fbits 0x3e4ccccd) f0 f0.
Definition st_chain : estate := MkES l_chain (bq_setNum (bq_new 0 d0) 20 (f64_of_f32 (ec_max c_chain))) [V3 0 0 0] [].
Definition chain_check : bool :=
  match processRaiseSet c_chain 9 st_chain with
  | Ok (Some st) =>
      match at_index (es_layer st) (V3 0 0 0), at_index (es_layer st) (V3 1 0 0), at_index (es_layer st) (V3 0 1 0), at_index (es_layer st) (V3 1 1 0) with
      | Some a, Some b, Some d, Some e =>
          Z.eqb (fword (e_distance (a : EsdfVoxel))) 0x3dcccccd && Z.eqb (fword (e_distance (b : EsdfVoxel))) 0x40000000 &&
          Z.eqb (fword (e_distance (d : EsdfVoxel))) 0x3f000000 && e_in_queue (d : EsdfVoxel) && Z.eqb (fword (e_distance (e : EsdfVoxel))) 0x40000000
      | _, _, _, _ => false
      end
  | _ => false
  end.
Lemma l_chain_regular : regular l_chain.
Proof.
  constructor.
  - exists 1. split; [lia|reflexivity].
  - intros i b H. unfold l_get, l_chain in H. cbn [l_blocks alookup] in H. destruct (idx_eqb_spec i (V3 0 0 0)) as [-> | N]; [|discriminate]. injection H as <-.
    split; [reflexivity|]. split; [reflexivity|]. repeat split; vm_compute; reflexivity.
Qed.
Lemma l_chain_voxels : forall h w, at_index l_chain h = Some w -> queueable c_chain (e_distance (w : EsdfVoxel)).
Proof.
  intros h w H. rewrite at_index_ptr in H. destruct (voxel_ptr l_chain h) as [[a|]| |]; try discriminate. unfold vat in H.
  destruct (l_get l_chain (fst a)) as [b|] eqn:G; [|discriminate]. unfold l_get, l_chain in G. cbn [l_blocks alookup] in G. destruct (idx_eqb (fst a) (V3 0 0 0)); [|discriminate]. injection G as <-.
  apply nth_error_In in H. unfold queueable.
  assert (P : (0 <= FR (ec_max c_chain))%R) by (apply (fle_R f0 (ec_max c_chain) eq_refl eq_refl); reflexivity).
  assert (K : forall d, ffin d = true -> fle f0 d = true -> fnan d = false /\ (- (2 * FR (ec_max c_chain)) <= ER d)%R).
  { intros d F L. split; [apply ffin_nnan, F|]. rewrite (ER_fin _ F). apply (fle_R f0 d eq_refl F) in L. change (FR f0) with 0%R in L. lra. }
  cbn [b_voxels set_voxels In] in H. destruct H as [<- | [<- | [<- | [<- | [<- | [<- | [<- | [<- | []]]]]]]]]; apply K; reflexivity.
Qed.
Lemma chain_idle : idle c_chain (with_raise st_chain []).
Proof. constructor; reflexivity || (vm_compute; discriminate). Qed.
Lemma chain_config : valid_config c_chain (l_size (es_layer st_chain)).
Proof.
  assert (LT : forall a b, ffin a = true -> ffin b = true -> flt a b = true -> (FR a < FR b)%R) by (intros a b Fa Fb H; apply (flt_R a b Fa Fb), H).
  assert (LE : forall a b, ffin a = true -> ffin b = true -> fle a b = true -> (FR a <= FR b)%R) by (intros a b Fa Fb H; apply (fle_R a b Fa Fb), H).
  assert (M : FR (ec_max c_chain) = 2%R) by (unfold FR; cbn; unfold F2R; cbn [Fnum Fexp bpow]; change (Z.pow_pos radix2 22) with 4194304%Z; lra).
  assert (P : forall a, ffin a = true -> flt f0 a = true -> (0 < FR a)%R) by (intros a F H; apply (LT f0 a eq_refl F H)).
  constructor.
  - split; [reflexivity|]. apply Rlt_le, P; reflexivity.
  - split; [reflexivity|]. apply P; reflexivity.
  - split; [reflexivity|]. rewrite M. split; [lra|]. apply Rlt_le_trans with (bpow radix2 2); [cbn; lra|]. apply bpow_le. lia.
  - split; [reflexivity|]. split; [apply P; reflexivity|apply LE; reflexivity].
  - cbn. lia.
  - split; [reflexivity|]. split; [apply P; reflexivity|]. rewrite M. assert (V : (FR vs_ex <= FR f1)%R) by (apply LE; reflexivity). change (l_size (es_layer st_chain)) with vs_ex. rewrite f1_R in V. lra.
Qed.
Lemma chain_default : (FR (ec_default c_chain) <= 2 * FR (ec_max c_chain))%R.
Proof. assert (P : (0 <= FR (ec_max c_chain))%R) by (apply (fle_R f0 (ec_max c_chain) eq_refl eq_refl); reflexivity). change (ec_default c_chain) with (ec_max c_chain). lra. Qed.
Example C85_case : ec_full c_chain = false /\ valid_config c_chain (l_size (es_layer st_chain)) /\ regular (es_layer st_chain) /\ roots_ok st_chain /\
  (forall h w, at_index (es_layer st_chain) h = Some w -> queueable c_chain (e_distance (w : EsdfVoxel))) /\
  idle c_chain (with_raise st_chain []) /\ pushes (es_open (with_raise st_chain [])) 0 (es_open st_chain) /\
  Z.of_nat 0 + 26 * (Z.of_nat (length (es_raise st_chain)) + voxel_count (es_layer st_chain)) < 2 ^ 64 /\
  derived (es_layer st_chain) (es_raise st_chain) (V3 1 1 0) /\ ~ derived (es_layer st_chain) (es_raise st_chain) (V3 0 1 0) /\ chain_check = true.
Proof.
  split; [reflexivity|]. split; [exact chain_config|]. split; [exact l_chain_regular|]. split.
  { intros g [<- | []]. split; [repeat split; vm_compute; discriminate|]. intros K. assert (X : match at_index l_chain (V3 0 0 0) with Some _ => true | None => false end = true) by (vm_compute; reflexivity).
    change (at_index l_chain (V3 0 0 0) = None) in K. rewrite K in X. discriminate. }
  split; [exact l_chain_voxels|]. split; [exact chain_idle|]. split; [constructor|]. split; [vm_compute; reflexivity|].
  assert (B : forall o, existsb (idx_eqb o) (map fst neighbors26) = true -> In o (map fst neighbors26)).
  { intros o H. apply existsb_exists in H. destruct H as (x & I & E). apply idx_eqb_true in E. subst x. exact I. }
  split; [|split].
  - apply (DE_step _ _ (V3 1 0 0)).
    + apply (DE_root _ _ (V3 0 0 0)); [left; reflexivity|]. exists (V3 1 0 0), (ev_ex (fbits 0x3ecccccd) false (V3 (-1) 0 0)).
      split; [split; [apply B; reflexivity|reflexivity]|]. split; [split; [vm_compute; reflexivity|split; reflexivity]|reflexivity].
    + exists (V3 0 1 0), (ev_ex (fbits 0x3f333333) false (V3 0 (-1) 0)).
      split; [split; [apply B; reflexivity|reflexivity]|]. split; [split; [vm_compute; reflexivity|split; reflexivity]|reflexivity].
  - intros D. assert (X : exists g, hangs_on l_chain g (V3 0 1 0)) by (inversion D as [g h I H | g h D2 H]; subst; exists g; exact H).
    destruct X as (g & off & w & (I & _) & (M & _) & P).
    assert (E : at_index l_chain (V3 0 1 0) = Some (ev_ex (fbits 0x3f000000) false zero3)) by (vm_compute; reflexivity).
    rewrite E in M. injection M as <-. apply in_map_iff in I. destruct I as ((o & kd) & <- & I). exact (opp_nz _ _ I (eq_sym P)).
  - vm_compute. reflexivity.
Qed.
