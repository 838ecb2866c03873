(** The propagation loop on regular layers never aborts, and ends when the sides of
    the surface are apart. *)
From Coq Require Import ZArith List Bool Lia Reals Lra.
From Verif Require Import F32 F32_lemmas Types Index Neighbor Voxel Assoc Assoc_lemmas Layer Threads Threads_proofs
  Update_proofs Queue Queue_spec Queue_proofs Planning Esdf Esdf_spec Esdf_proofs Esdf_float Esdf_range Esdf_grid Esdf_open Esdf_batch Connect_proofs.
Import ListNotations.
Open Scope Z_scope.
Ltac Zify.zify_post_hook ::= idtac.

(** ** Counting voxels *)
Section Count.
  Context {k : vkind}.
  Definition all_addrs (l : Layer k) : list addr :=
    flat_map (fun kb => map (fun n => (fst kb, n)) (seq 0 (length (b_voxels (snd kb))))) (l_blocks l).
  Lemma all_addrs_length : forall l, Z.of_nat (length (all_addrs l)) = voxel_count l.
  Proof.
    intros l; unfold all_addrs, voxel_count; induction (l_blocks l) as [|(i, b) m IH]; [reflexivity|].
    cbn [flat_map fold_right fst snd]; rewrite app_length, map_length, seq_length, Nat2Z.inj_add; apply (f_equal (Z.add _)); exact IH.
  Qed.
  Lemma all_addrs_in : forall l a v, vat l a = Some v -> In a (all_addrs l).
  Proof.
    intros l (i, n) v H; unfold vat in H; cbn [fst snd] in H; destruct (l_get l i) as [b|] eqn:E; [|discriminate].
    apply alookup_In in E; unfold all_addrs; apply in_flat_map; exists (i, b); split; [exact E|].
    apply in_map_iff; exists n; split; [reflexivity|]; apply in_seq; cbn [snd].
    assert (n < length (b_voxels b))%nat by (apply nth_error_Some; congruence); lia.
  Qed.
  Lemma queue_bound : forall (l : Layer k) (p : pending), regular l -> NoDup (map snd p) ->
    (forall g, inq p g -> exists v, vat l (adr (l_vps l) g) = Some v) -> Z.of_nat (length p) <= voxel_count l.
  Proof.
    intros l p HR ND H; rewrite <- all_addrs_length; apply inj_le.
    replace (length p) with (length (map (fun e => adr (l_vps l) (snd e)) p)) by apply map_length.
    apply NoDup_incl_length.
    - rewrite <- map_map with (f := snd) (g := adr (l_vps l)); apply FinFun.Injective_map_NoDup; [|exact ND].
      intros g h E; apply adr_inj in E; [exact E | apply reg_vps_small, HR].
    - intros a Ha; apply in_map_iff in Ha; destruct Ha as ((b, g) & <- & Hin); cbn [snd].
      destruct (H g (ex_intro _ b Hin)) as (v & Hv); eapply all_addrs_in, Hv.
  Qed.
End Count.

(** ** The sum of the ranks of the distances *)
Definition vsum (vs : list EsdfVoxel) : Z := fold_right (fun v n => rank (e_distance v) + n) 0 vs.
Definition mass (l : Layer KEsdf) : Z := fold_right (fun (kb : idx3 * Block KEsdf) n => vsum (b_voxels (snd kb)) + n) 0 (l_blocks l).
Lemma vsum_nonneg : forall vs, 0 <= vsum vs.
Proof. induction vs as [|v vs IH]; cbn [vsum fold_right]; [lia|]; fold (vsum vs); pose proof (rank_nonneg (e_distance v)); lia. Qed.
Lemma mass_nonneg : forall l, 0 <= mass l.
Proof.
  intros l; unfold mass; induction (l_blocks l) as [|(i, b) m IH]; cbn [fold_right snd]; [lia|].
  pose proof (vsum_nonneg (b_voxels b)); lia.
Qed.
Lemma vsum_set : forall n (vs : list EsdfVoxel) v v', nth_error vs n = Some v ->
  vsum (set_th n v' vs) = vsum vs - rank (e_distance v) + rank (e_distance v').
Proof.
  induction n as [|n IH]; intros [|w vs] v v' H; cbn [nth_error] in H; try discriminate; cbn [set_th vsum fold_right].
  - injection H as ->; lia.
  - fold (vsum (set_th n v' vs)); fold (vsum vs); rewrite (IH _ _ v' H); lia.
Qed.
Lemma mass_vset : forall (l : Layer KEsdf) a (v v' : EsdfVoxel), vat l a = Some v ->
  mass (vset (k := KEsdf) l a v') = mass l - rank (e_distance v) + rank (e_distance v').
Proof.
  intros l (i, n) v v' H; unfold vat, vset in *; cbn [fst snd] in *; destruct (l_get l i) as [b|] eqn:E; [|discriminate].
  unfold mass, with_blocks, l_get in *; cbn [l_blocks]; revert E; induction (l_blocks l) as [|(j, b') m IH]; intros E; [discriminate|].
  cbn [alookup aset] in *; destruct (idx_eqb i j).
  - injection E as ->; cbn [fold_right snd set_voxels b_voxels]; pose proof (vsum_set n (b_voxels b) v v' H) as VS; cbn [vox] in VS |- *; rewrite VS; lia.
  - cbn [fold_right snd]; rewrite (IH E); lia.
Qed.

Lemma idx_opp_inj : forall a b, idx_opp a = idx_opp b -> a = b.
Proof. intros [a1 a2 a3] [b1 b2 b3] H; unfold idx_opp, map3 in H; cbn [vx vy vz] in H; injection H as ? ? ?; f_equal; lia. Qed.
Lemma add_off_inj_l : forall g h off, idx_add g off = idx_add h off -> g = h.
Proof. intros [x y z] [a b d] [o p q] H; unfold idx_add, zip3 in H; cbn [vx vy vz] in H; injection H as ? ? ?; f_equal; lia. Qed.
Lemma nodup_fun : forall (A B : Type) (l : list (A * B)) a b b', NoDup (map fst l) -> In (a, b) l -> In (a, b') l -> b = b'.
Proof.
  intros A B l a b b'; induction l as [|(x, y) l IH]; intros ND H1 H2; [destruct H1|]; cbn [map fst] in ND; inversion ND as [|? ? N ND']; subst.
  destruct H1 as [H1|H1], H2 as [H2|H2]; [congruence | | | apply IH; assumption]; exfalso; apply N;
    [injection H1 as -> _ | injection H2 as -> _]; apply in_map_iff; eexists; (split; [|eassumption]); reflexivity.
Qed.
Lemma neighbors_fun : forall off kd kd', In (off, kd) neighbors26 -> In (off, kd') neighbors26 -> kd = kd'.
Proof. intros off kd kd'; apply nodup_fun, off_nodup. Qed.
Lemma fle_refl : forall x, fnan x = false -> fle x x = true.
Proof. intros x N; apply fle_iff; split; [exact N|]; split; [exact N | lra]. Qed.

Lemma opp_nz : forall off kd, In (off, kd) neighbors26 -> idx_opp off <> zero3.
Proof. intros off kd H E; apply (proj2 (off_small _ _ H)), idx_opp_inj; rewrite E; reflexivity. Qed.

Section Term.
  Variable c : econfig.
  Variable vs : f32.
  Hypothesis Hc : valid_config c vs.
  Hypothesis Hquasi : ec_full c = false.

  Lemma Hmd : small_pos (ec_min_diff c).
  Proof. apply (vc_min_diff _ _ Hc). Qed.
  Lemma Hgs : good_size vs.
  Proof. destruct (vc_size _ _ Hc) as (F & P & L), (vc_max _ _ Hc) as (_ & _ & M); split; [exact F|]; lra. Qed.
  Lemma step_ok : forall off kd, In (off, kd) neighbors26 -> step_pos (fmul kd vs) /\ (FR (fmul kd vs) <= FR (ec_max c))%R.
  Proof.
    intros off kd H; destruct (step_R vs off (fmul kd vs) Hgs) as (S & R); [exists kd; auto|]; split; [exact S|].
    destruct (vc_size _ _ Hc) as (F & P & L); lra.
  Qed.

  Definition qconf (q : bq idx3) : Prop := bq_num q = ec_buckets c /\ bq_max q = f64_of_f32 (ec_max c).
  Lemma push_total : forall q (p : pending) g d, qinv q p -> qconf q -> pushable c d -> Z.of_nat (length p) + 1 < 2 ^ 64 ->
    exists q' i, bq_push q g (f64_of_f32 d) = Ok q' /\ qinv q' (p ++ [(i, g)]) /\ qconf q'.
  Proof.
    intros q p g d HQ (Q1 & Q2) Hd HL.
    destruct (pushable_bucket c (vc_max _ _ Hc) d (ec_buckets c) Hd (vc_buckets _ _ Hc)) as (i & B1 & B2).
    rewrite <- Q1, <- Q2 in B1; rewrite <- Q1 in B2.
    destruct (push_ok q p g (f64_of_f32 d) i HQ B1 B2 HL) as (q' & E & I & N & M); exists q', i; split; [exact E|]; split; [exact I|]; split; congruence.
  Qed.
  Definition once (L : Layer KEsdf) (p : pending) : Prop :=
    NoDup (map snd p) /\ forall g, inq p g -> exists v, at_index L g = Some v /\ e_in_queue v = true.
  Lemma once_snoc : forall (p : pending) i g, NoDup (map snd p) -> ~ inq p g -> NoDup (map snd (p ++ [(i, g)])).
  Proof.
    intros p i g H N; rewrite map_app; cbn [map snd]; apply NoDup_snoc; [exact H|].
    intros K; apply in_map_iff in K; destruct K as ((b, h) & E & K); cbn [snd] in E; subst h; apply N; exists b; exact K.
  Qed.
  Lemma inq_snoc : forall (p : pending) i g h, inq (p ++ [(i, g)]) h <-> inq p h \/ h = g.
  Proof.
    intros p i g h; split.
    - intros (b & K); apply in_app_iff in K; destruct K as [K|[K|[]]]; [left; exists b; exact K|]; injection K as _ ->; right; reflexivity.
    - intros [(b & K)| ->]; [exists b; apply in_app_iff; left; exact K | exists i; apply in_app_iff; right; left; reflexivity].
  Qed.

  Lemma store_total : forall st ng nv d par p, oinv st p -> qconf (es_open st) -> exact_index ng -> at_index (es_layer st) ng = Some nv ->
    pushable c d -> Z.of_nat (length p) + 1 < 2 ^ 64 ->
    exists st' p' q, open_store c st ng (adr (l_vps (es_layer st)) ng) nv d par = Ok st' /\
      oinv st' p' /\ qconf (es_open st') /\ (length p' <= S (length p))%nat /\
      es_layer st' = vset (k := KEsdf) (es_layer st) (adr (l_vps (es_layer st)) ng) (ev_queue (ev_parent (ev_dist nv d) par) q) /\
      es_raise st' = es_raise st /\ es_updated st' = es_updated st /\
      (ec_multi c = false -> once (es_layer st) p -> once (es_layer st') p') /\
      (forall h, inq p' h -> inq p h \/ h = ng).
  Proof.
    intros st ng nv d par p HI HQ Hn En Hd HL; pose proof (oi_reg _ _ HI) as HR.
    set (A := adr (l_vps (es_layer st)) ng).
    assert (AT : forall (w : EsdfVoxel) h, exact_index h -> at_index (vset (k := KEsdf) (es_layer st) A w) h = if idx_eqb h ng then Some w else at_index (es_layer st) h).
    { intros w h He; destruct (at_set (k := KEsdf) (es_layer st) ng h w nv HR Hn He En) as (A1 & A2); destruct (idx_eqb_spec h ng) as [->|N]; [exact A2 | apply A1, N]. }
    assert (MAIN : forall w q p', qinv q p' -> (forall h, inq p h -> inq p' h) -> (forall h, inq p' h -> inq p h \/ h = ng) -> inq p' ng ->
      oinv (MkES (vset (k := KEsdf) (es_layer st) A w) q (es_raise st) (es_updated st)) p').
    { intros w q p' Iq P1 P2 P3; constructor; cbn [es_layer es_open].
      - eapply reg_shape; [apply shape_vset | exact HR].
      - exact Iq.
      - intros h Hh; assert (He : exact_index h) by (destruct (P2 h Hh) as [K| ->]; [apply (oi_in _ _ HI h K) | exact Hn]).
        split; [exact He|]; rewrite (AT w h He); destruct (idx_eqb_spec h ng) as [->|N]; [eauto|].
        destruct (P2 h Hh) as [K|K]; [apply (oi_in _ _ HI h K) | contradiction].
      - intros h x He Hx Hf; rewrite (AT w h He) in Hx; destruct (idx_eqb_spec h ng) as [->|N]; [exact P3|].
        apply P1, (oi_flag _ _ HI h x He Hx Hf). }
    unfold open_store; destruct (ec_multi c || negb (e_in_queue nv)) eqn:E.
    - destruct (push_total (es_open st) p ng d (oi_q _ _ HI) HQ Hd HL) as (q' & i & Q1 & Q2 & Q3).
      exists (st_set (with_open st q') A (ev_queue (ev_parent (ev_dist nv d) par) true)), (p ++ [(i, ng)]), true.
      split; [unfold open_push; rewrite Q1; reflexivity|].
      split; [apply MAIN; [exact Q2 | | |]; intros; apply inq_snoc || apply inq_snoc in H; auto|].
      split; [exact Q3|]; split; [rewrite app_length; cbn [length]; lia|]; split; [reflexivity|]; split; [reflexivity|]; split; [reflexivity|].
      split; [|intros h Hh; apply inq_snoc in Hh; exact Hh].
      intros Em (O1 & O2); rewrite Em in E; cbn [orb] in E; apply negb_true_iff in E.
      assert (Nin : ~ inq p ng) by (intros K; destruct (O2 ng K) as (w & W1 & W2); rewrite En in W1; injection W1 as <-; congruence).
      split; [apply once_snoc; assumption|].
      intros h Hh; cbn [es_layer st_set with_layer with_open]; fold A; rewrite AT by (apply inq_snoc in Hh; destruct Hh as [Hh| ->]; [apply (oi_in _ _ HI h Hh) | exact Hn]).
      destruct (idx_eqb_spec h ng) as [->|N]; [eexists; split; [reflexivity|]; reflexivity|].
      apply inq_snoc in Hh; destruct Hh as [Hh|Hh]; [apply O2, Hh | contradiction].
    - apply orb_false_iff in E; destruct E as (E1 & E2); apply negb_false_iff in E2.
      exists (st_set st A (ev_parent (ev_dist nv d) par)), p, (e_in_queue nv); split; [reflexivity|].
      split; [apply MAIN; auto; [apply HI | apply (oi_flag _ _ HI ng nv Hn En E2)]|].
      split; [exact HQ|]; split; [lia|]; split; [reflexivity|]; split; [reflexivity|]; split; [reflexivity|].
      split; [|auto].
      intros _ (O1 & O2); split; [exact O1|].
      intros h Hh; cbn [es_layer st_set with_layer with_open]; fold A; rewrite AT by apply (oi_in _ _ HI h Hh).
      destruct (idx_eqb_spec h ng) as [->|N]; [eexists; split; [reflexivity|]; exact E2 | apply O2, Hh].
  Qed.

  (** ** Parents *)
  Definition rooted (v : EsdfVoxel) : Prop := e_fixed v = true \/ e_parent v <> zero3.
  Definition child (v w : EsdfVoxel) (step : f32) : Prop :=
    e_observed v = true /\ beyond c (e_distance v) = false /\ rooted v /\
    ((outside (e_distance v) /\ outside (e_distance w) /\ fle (fadd (e_distance v) step) (e_distance w) = true) \/
     (inside (e_distance v) /\ inside (e_distance w) /\ fle (e_distance w) (fsub (e_distance v) step) = true)).
  Definition parents_ok (L : Layer KEsdf) : Prop := forall g off kd (w : EsdfVoxel), In (off, kd) neighbors26 ->
    exact_index g -> exact_index (idx_add g off) -> at_index L (idx_add g off) = Some w -> e_parent w = idx_opp off ->
    exists v, at_index L g = Some v /\ child v w (fmul kd vs).
  Definition moves (v w : EsdfVoxel) : Prop :=
    e_observed w = e_observed v /\ (rooted v -> rooted w) /\
    (outside (e_distance v) -> outside (e_distance w) /\ fle (e_distance w) (e_distance v) = true) /\
    (inside (e_distance v) -> inside (e_distance w) /\ fle (e_distance v) (e_distance w) = true).
  Lemma child_moves : forall v v' w s, step_pos s -> moves v v' -> child v w s -> child v' w s.
  Proof.
    intros v v' w s Hs (M0 & MR & M1 & M2) (C0 & CB & CR & C3).
    assert (NB : beyond c (e_distance v') = false).
    { unfold beyond in CB |- *; apply orb_false_iff in CB; destruct CB as (CB1 & CB2); destruct (vc_max _ _ Hc) as (FM & PM & _).
      pose proof (ffin_nnan _ FM) as NM; unfold fge in *.
      assert (NM' : fnan (fneg (ec_max c)) = false) by (rewrite fneg_nan; exact NM).
      assert (EM : ER (ec_max c) = FR (ec_max c)) by (apply ER_fin, FM).
      assert (EM' : ER (fneg (ec_max c)) = (- FR (ec_max c))%R).
      { rewrite ER_fin by (rewrite fneg_fin; exact FM); apply fneg_R. }
      apply orb_false_iff; destruct C3 as [(A & _)|(A & _)].
      - destruct (M1 A) as (A' & K); apply fle_iff in K; destruct K as (N1 & N2 & K); apply outside_iff in A'; destruct A' as (_ & A').
        split; [destruct (fle (ec_max c) (e_distance v')) eqn:X; [|reflexivity] | destruct (fle (e_distance v') (fneg (ec_max c))) eqn:X; [|reflexivity]];
          apply fle_iff in X; destruct X as (_ & _ & X).
        + rewrite <- CB1; symmetry; apply fle_iff; split; [exact NM|]; split; [exact N2 | lra].
        + lra.
      - destruct (M2 A) as (A' & K); apply fle_iff in K; destruct K as (N1 & N2 & K); apply inside_iff in A'; destruct A' as (_ & A').
        split; [destruct (fle (ec_max c) (e_distance v')) eqn:X; [|reflexivity] | destruct (fle (e_distance v') (fneg (ec_max c))) eqn:X; [|reflexivity]];
          apply fle_iff in X; destruct X as (_ & _ & X).
        + lra.
        + rewrite <- CB2; symmetry; apply fle_iff; split; [exact N1|]; split; [exact NM' | lra]. }
    split; [congruence|]; split; [exact NB|]; split; [apply MR, CR|]; destruct C3 as [(A & B & K)|(A & B & K)].
    - left; destruct (M1 A) as (A' & K'); split; [exact A'|]; split; [exact B|].
      apply fle_iff in K; apply fle_iff in K'; destruct K as (_ & N2 & K), K' as (N3 & N4 & K'); apply fle_iff.
      destruct (fadd_ge _ _ N3 (step_small _ Hs)) as (N5 & _); split; [exact N5|]; split; [exact N2|].
      pose proof (fadd_mono _ _ s N3 N4 (proj1 Hs) K'); lra.
    - right; destruct (M2 A) as (A' & K'); split; [exact A'|]; split; [exact B|].
      apply fle_iff in K; apply fle_iff in K'; destruct K as (N1 & _ & K), K' as (N3 & N4 & K'); apply fle_iff.
      destruct (fsub_le _ _ N4 (step_small _ Hs)) as (N5 & _); split; [exact N1|]; split; [exact N5|].
      pose proof (fsub_mono _ _ s N3 N4 (proj1 Hs) K'); lra.
  Qed.
  Lemma moves_self : forall v w, e_observed w = e_observed v -> e_distance w = e_distance v -> e_fixed w = e_fixed v -> e_parent w = e_parent v -> moves v w.
  Proof.
    intros v w E1 E2 E3 E4; unfold moves; rewrite E2; split; [exact E1|]; split; [unfold rooted; rewrite E3, E4; auto|].
    split; intros H; (split; [exact H|]); apply fle_iff; [apply outside_iff in H | apply inside_iff in H]; destruct H as (N & _);
      split; [exact N | split; [exact N | lra] | exact N | split; [exact N | lra]].
  Qed.
  Lemma parents_write : forall (L : Layer KEsdf) ng (nv w : EsdfVoxel), regular L -> exact_index ng -> at_index L ng = Some nv -> moves nv w ->
    (forall g off kd, In (off, kd) neighbors26 -> exact_index g -> idx_add g off = ng -> e_parent w = idx_opp off ->
       exists v, at_index L g = Some v /\ child v w (fmul kd vs)) ->
    parents_ok L -> parents_ok (vset (k := KEsdf) L (adr (l_vps L) ng) w).
  Proof.
    intros L ng nv w HR Hn En HM HP HO g off kd x Hin Hg Hgo Hx Hpx.
    assert (AT : forall h, exact_index h -> at_index (vset (k := KEsdf) L (adr (l_vps L) ng) w) h = if idx_eqb h ng then Some w else at_index L h).
    { intros h He; destruct (at_set (k := KEsdf) L ng h w nv HR Hn He En) as (A1 & A2); destruct (idx_eqb_spec h ng) as [->|N]; [exact A2 | apply A1, N]. }
    rewrite (AT _ Hgo) in Hx; rewrite (AT _ Hg); destruct (idx_eqb_spec (idx_add g off) ng) as [E|N].
    - injection Hx as <-; destruct (HP g off kd Hin Hg E Hpx) as (v & V1 & V2).
      destruct (idx_eqb_spec g ng) as [->|N2]; [exfalso; apply (add_off_neq ng off (proj2 (off_small _ _ Hin))), E|].
      exists v; split; assumption.
    - destruct (HO g off kd x Hin Hg Hgo Hx Hpx) as (v & V1 & V2).
      destruct (idx_eqb_spec g ng) as [->|N2]; [|exists v; split; assumption].
      exists w; split; [reflexivity|]; rewrite En in V1; injection V1 as ->.
      apply (child_moves v); [apply (step_ok off kd Hin) | exact HM | exact V2].
  Qed.

  Definition measure (L : Layer KEsdf) (p : pending) : Z := 2 * mass L + Z.of_nat (length p).
  (** what a part of the loop guarantees *)
  Record ran (st : estate) (p : pending) (st' : estate) (p' : pending) : Prop := MkRan {
    rn_inv : oinv st' p';
    rn_conf : qconf (es_open st');
    rn_writes : writes c vs (es_layer st) (es_layer st');
    rn_raise : es_raise st' = es_raise st;
    rn_updated : es_updated st' = es_updated st;
    rn_once : ec_multi c = false -> once (es_layer st) p -> once (es_layer st') p' }.
  (** parents are right, and what waits is fixed or has a parent *)
  Definition good (L : Layer KEsdf) (p : pending) : Prop :=
    parents_ok L /\ forall g v, inq p g -> at_index L g = Some v -> rooted v.
  Definition keeps (st : estate) (p : pending) (st' : estate) (p' : pending) : Prop :=
    separated (es_layer st) -> good (es_layer st) p -> good (es_layer st') p'.
  Lemma ran_refl : forall st p, oinv st p -> qconf (es_open st) -> ran st p st p.
  Proof. intros st p H1 H2; constructor; auto; constructor. Qed.
  Lemma ran_separated : forall st p st' p', ran st p st' p' -> separated (es_layer st) -> separated (es_layer st').
  Proof. intros st p st' p' H HS; eapply separated_lift; [|exact HS]; eapply writes_sided; [exact Hquasi | exact Hgs | apply H]. Qed.
  Lemma ran_trans : forall st p st1 p1 st' p', ran st p st1 p1 -> ran st1 p1 st' p' -> ran st p st' p'.
  Proof.
    intros st p st1 p1 st' p' H1 H2; pose proof (ran_separated _ _ _ _ H1) as HS.
    destruct H1, H2; constructor; auto; try congruence; eapply writes_trans; eassumption.
  Qed.

  Lemma keeps_trans : forall st p st1 p1 st' p', ran st p st1 p1 -> keeps st p st1 p1 -> keeps st1 p1 st' p' -> keeps st p st' p'.
  Proof. intros st p st1 p1 st' p' H K1 K2 HS HG; apply K2; [eapply ran_separated; eassumption | apply K1; assumption]. Qed.

  Lemma nbs_total : forall xs g v st p, (forall x, In x xs -> In x neighbors26) -> l_size (es_layer st) = vs ->
    oinv st p -> qconf (es_open st) -> exact_index g -> at_index (es_layer st) g = Some v -> e_observed v = true ->
    beyond c (e_distance v) = false -> Z.of_nat (length p) + Z.of_nat (length xs) < 2 ^ 64 ->
    exists st' p', rfold (open_neighbor c vs g (adr (l_vps (es_layer st)) g)) xs st = Ok st' /\ ran st p st' p' /\
      Z.of_nat (length p') <= Z.of_nat (length p) + Z.of_nat (length xs) /\
      (separated (es_layer st) -> measure (es_layer st') p' <= measure (es_layer st) p) /\
      (rooted v -> keeps st p st' p').
  Proof.
    induction xs as [|(off, kd) xs IH]; intros g v st p Hin Hsz HI HQ Hg Hv Ho Hb HL; cbn [rfold].
    - exists st, p; split; [reflexivity|]; split; [apply ran_refl; assumption|]; split; [cbn [length]; lia|]; split; [intros _; lia|].
      intros _ _ HG; exact HG.
    - pose proof (oi_reg _ _ HI) as HR; pose proof (Hin _ (or_introl eq_refl)) as Hin1.
      assert (Eg : vat (es_layer st) (adr (l_vps (es_layer st)) g) = Some v) by (rewrite <- (reg_at _ _ HR Hg); exact Hv).
      pose proof (at_exact _ _ _ _ HR Eg (proj1 (off_small _ _ Hin1))) as Hn.
      destruct (step_ok off kd Hin1) as (Hsp & Hsm).
      cbn [length] in HL |- *.
      assert (ONE : exists st1 p1, open_neighbor c vs g (adr (l_vps (es_layer st)) g) st (off, kd) = Ok st1 /\ ran st p st1 p1 /\
        Z.of_nat (length p1) <= Z.of_nat (length p) + 1 /\ at_index (es_layer st1) g = Some v /\
        (separated (es_layer st) -> measure (es_layer st1) p1 <= measure (es_layer st) p) /\ (rooted v -> keeps st p st1 p1)).
      { assert (SAME : open_neighbor c vs g (adr (l_vps (es_layer st)) g) st (off, kd) = Ok st ->
          exists st1 p1, open_neighbor c vs g (adr (l_vps (es_layer st)) g) st (off, kd) = Ok st1 /\ ran st p st1 p1 /\
          Z.of_nat (length p1) <= Z.of_nat (length p) + 1 /\ at_index (es_layer st1) g = Some v /\
          (separated (es_layer st) -> measure (es_layer st1) p1 <= measure (es_layer st) p) /\ (rooted v -> keeps st p st1 p1)).
        { intros ->; exists st, p; split; [reflexivity|]; split; [apply ran_refl; assumption|]; split; [lia|]; split; [exact Hv|]; split; [intros _; lia | intros _ _ HG; exact HG]. }
        destruct (at_index (es_layer st) (idx_add g off)) as [nv|] eqn:En.
        2: { apply SAME; unfold open_neighbor; cbv zeta; cbn [fst snd]; rewrite (reg_ptr_at _ _ HR Hn), En; reflexivity. }
        pose proof En as En'; rewrite (reg_at _ _ HR Hn) in En'.
        destruct (negb (e_observed nv) || e_fixed nv) eqn:Eo.
        { apply SAME; unfold open_neighbor; cbv zeta; cbn [fst snd]; rewrite (reg_ptr_at _ _ HR Hn), En; cbn [rbind].
          unfold vget; rewrite En'; cbn [of_opt rbind]; rewrite Eo; reflexivity. }
        assert (OPEN : open_neighbor c vs g (adr (l_vps (es_layer st)) g) st (off, kd) =
          match open_value c (e_distance v) (e_distance nv) (fmul kd vs) with
          | None => Ok st
          | Some d' => open_store c st (idx_add g off) (adr (l_vps (es_layer st)) (idx_add g off)) nv d' (idx_opp off) end).
        { unfold open_neighbor; cbv zeta; cbn [fst snd]; rewrite (reg_ptr_at _ _ HR Hn), En; cbn [rbind].
          unfold vget; rewrite En'; cbn [of_opt rbind]; rewrite Eo, Eg; cbn [of_opt rbind].
          unfold open_parent; rewrite Hquasi; reflexivity. }
        destruct (open_value c (e_distance v) (e_distance nv) (fmul kd vs)) as [d'|] eqn:Ev; [|apply SAME, OPEN].
        assert (Hpd : pushable c d').
        { apply (step_pushable c (vc_max _ _ Hc) (e_distance v) (e_distance nv) (fmul kd vs)); assumption. }
        destruct (store_total st (idx_add g off) nv d' (idx_opp off) p HI HQ Hn En Hpd ltac:(lia)) as (st1 & p1 & q & S1 & S2 & S3 & S4 & S5 & S6 & S7 & S8 & S9).
        exists st1, p1; split; [rewrite OPEN; exact S1|].
        assert (Hgn : g <> idx_add g off) by (intros E; apply (add_off_neq g off (proj2 (off_small _ _ Hin1))); congruence).
        split; [constructor; auto|].
        - eapply open_neighbor_writes; [exact Hin1 | | | rewrite OPEN; exact S1].
          + rewrite (reg_ptr_at _ _ HR Hg), Hv; reflexivity.
          + intros w Hw; congruence.
        - split; [lia|]; split; [rewrite S5, (proj1 (at_set _ _ g _ _ HR Hn Hg En)); assumption|].
          split.
          { intros HS; apply orb_false_iff in Eo; destruct Eo as (Eo & Ef); apply negb_false_iff in Eo.
          pose proof (HS g off kd v nv Hin1 Hg Hv En Ho Eo Ef) as Hside; rewrite open_value_same in Ev by exact Hside.
          destruct (improves c (e_distance v) (e_distance nv) (fmul kd vs)) eqn:Ei; [|discriminate]; injection Ev as Ev.
          unfold measure; rewrite S5, (mass_vset _ _ _ _ En'); cbn [e_distance ev_queue ev_parent ev_dist].
          assert (rank d' < rank (e_distance nv)).
          { destruct (improves_closer c _ _ _ Hmd Hsp Ei) as [(_ & A & B & _ & D)|(_ & A & B & _ & D)]; cbv zeta in *; rewrite Ev in *;
              [apply rank_out | apply rank_in]; assumption. }
          lia. }
          intros Hroot HS (HP & HW); apply orb_false_iff in Eo; destruct Eo as (Eo & Ef); apply negb_false_iff in Eo.
          pose proof (HS g off kd v nv Hin1 Hg Hv En Ho Eo Ef) as Hside; rewrite open_value_same in Ev by exact Hside.
          destruct (improves c (e_distance v) (e_distance nv) (fmul kd vs)) eqn:Ei; [|discriminate]; injection Ev as Ev.
          split; [|intros h w Hh Hw; destruct (S9 h Hh) as [K|K]; [|subst h]].
          2: { assert (Hex : exact_index h) by apply (oi_in _ _ HI h K).
               rewrite S5 in Hw; destruct (at_set (k := KEsdf) _ _ h (ev_queue (ev_parent (ev_dist nv d') (idx_opp off)) q) _ HR Hn Hex En) as (A1 & A2).
               destruct (idx_eqb_spec h (idx_add g off)) as [->|Nh]; [rewrite A2 in Hw; injection Hw as <-; right; apply (opp_nz _ _ Hin1)|].
               rewrite (A1 Nh) in Hw; apply (HW h w K Hw). }
          2: { rewrite S5, (proj2 (at_set (k := KEsdf) _ _ _ _ _ HR Hn Hn En)) in Hw; injection Hw as <-; right; apply (opp_nz _ _ Hin1). }
          destruct (improves_closer c _ _ _ Hmd Hsp Ei) as [(A & B & D & E & F)|(A & B & D & E & F)]; cbv zeta in *; rewrite Ev in *; rewrite S5;
            (apply (parents_write _ _ nv); [exact HR | exact Hn | exact En | | | exact HP]).
          + split; [reflexivity|]; split; [intros _; right; apply (opp_nz _ _ Hin1)|]; split; intros K; [|exfalso; eapply side_excl; [exact B | exact K]].
            split; [exact D|]; apply flt_iff in F; destruct F as (F1 & F2 & F3); apply fle_iff; split; [exact F1|]; split; [exact F2 | cbn [e_distance ev_queue ev_parent ev_dist] in *; lra].
          + intros h off' kd' Hin' Hh Eh Ep; cbn [e_parent ev_queue ev_parent] in Ep; apply idx_opp_inj in Ep; subst off'.
            apply add_off_inj_l in Eh; subst h; exists v; split; [exact Hv|]; split; [exact Ho|]; split; [exact Hb|]; split; [exact Hroot|].
            rewrite (neighbors_fun off kd' kd Hin' Hin1).
            left; split; [exact A|]; split; [exact D|]; cbn [e_distance ev_queue ev_parent ev_dist]; rewrite <- E; apply fle_refl, outside_iff, D.
          + split; [reflexivity|]; split; [intros _; right; apply (opp_nz _ _ Hin1)|]; split; intros K; [exfalso; eapply side_excl; [exact K | exact B]|].
            split; [exact D|]; apply flt_iff in F; destruct F as (F1 & F2 & F3); apply fle_iff; split; [exact F1|]; split; [exact F2 | cbn [e_distance ev_queue ev_parent ev_dist] in *; lra].
          + intros h off' kd' Hin' Hh Eh Ep; cbn [e_parent ev_queue ev_parent] in Ep; apply idx_opp_inj in Ep; subst off'.
            apply add_off_inj_l in Eh; subst h; exists v; split; [exact Hv|]; split; [exact Ho|]; split; [exact Hb|]; split; [exact Hroot|].
            rewrite (neighbors_fun off kd' kd Hin' Hin1).
            right; split; [exact A|]; split; [exact D|]; cbn [e_distance ev_queue ev_parent ev_dist]; rewrite <- E; apply fle_refl, inside_iff, D. }
      destruct ONE as (st1 & p1 & O1 & O2 & O3 & O4 & O5 & O6).
      pose proof (writes_shape _ _ _ _ (rn_writes _ _ _ _ O2)) as SH.
      destruct (IH g v st1 p1) as (st' & p' & I1 & I2 & I3 & I4 & I5).
      + intros x Hx; apply Hin; right; exact Hx.
      + rewrite (proj1 SH); exact Hsz.
      + apply O2.
      + apply O2.
      + exact Hg.
      + exact O4.
      + exact Ho.
      + exact Hb.
      + lia.
      + exists st', p'; rewrite O1; cbn [rbind]; rewrite (proj1 (proj2 SH)) in I1; split; [exact I1|].
        split; [eapply ran_trans; eassumption|]; split; [lia|].
        split; [|intros Hroot; apply (keeps_trans _ _ _ _ _ _ O2 (O6 Hroot) (I5 Hroot))].
        intros HS; specialize (O5 HS); apply Z.le_trans with (2 := O5), I4.
        apply (ran_separated _ _ _ _ O2 HS).
  Qed.

  Lemma pop_total : forall st p, l_size (es_layer st) = vs -> oinv st p -> qconf (es_open st) -> p <> [] ->
    Z.of_nat (length p) <= 2 ^ 63 ->
    exists st' p', open_pop c st = Ok st' /\ ran st p st' p' /\
      Z.of_nat (length p') <= Z.of_nat (length p) + 25 /\
      (separated (es_layer st) -> measure (es_layer st') p' < measure (es_layer st) p) /\ keeps st p st' p'.
  Proof.
    intros st p Hsz HI HQ Hne HL; pose proof (oi_reg _ _ HI) as HR.
    pose proof (front_ok (es_open st) p (oi_q _ _ HI)) as F.
    destruct (next_some p) as (m & g & r & _ & En & _); [exact Hne|]; rewrite En in F.
    destruct F as (q1 & F1 & N1 & M1 & F2).
    destruct (pop_ok _ _ F2 ltac:(lia)) as (q' & F3 & N2 & M2 & F4); rewrite En in F4.
    destruct (next_inq _ _ _ En) as (K1 & K2 & K3 & K4).
    destruct (oi_in _ _ HI _ K1) as (Hg & v & Hv); pose proof Hv as Hv'; rewrite (reg_at _ _ HR Hg) in Hv'.
    unfold open_pop; rewrite F1; cbn [rbind fst snd]; rewrite F3; cbn [rbind].
    unfold open_visit; cbn [es_layer with_open]; rewrite (reg_ptr_at _ _ HR Hg), Hv; cbn [rbind].
    unfold vget; rewrite Hv'; cbn [of_opt rbind]; cbv zeta.
    set (st1 := st_set (with_open st q') (adr (l_vps (es_layer st)) g) (ev_queue v false)).
    assert (EL : es_layer st1 = vset (k := KEsdf) (es_layer st) (adr (l_vps (es_layer st)) g) (ev_queue v false)) by reflexivity.
    assert (AT : forall h, exact_index h -> h <> g -> at_index (es_layer st1) h = at_index (es_layer st) h)
      by (intros h He Hne'; rewrite EL; apply (at_set _ _ h _ _ HR Hg He Hv); exact Hne').
    assert (ATG : at_index (es_layer st1) g = Some (ev_queue v false)) by (rewrite EL; apply (at_set _ _ g _ _ HR Hg Hg Hv)).
    assert (SH : same_shape (es_layer st) (es_layer st1)) by (rewrite EL; apply shape_vset).
    assert (HR1 : regular (es_layer st1)) by (eapply reg_shape; eassumption).
    assert (NDr : NoDup (map snd p) -> NoDup (map snd r) /\ ~ inq r g).
    { clear - En; unfold next in En; destruct (lowest p) as [m|]; [|discriminate]; revert r En; induction p as [|(b, x) p IH]; intros r En ND; cbn [take] in En; [discriminate|].
      cbn [map snd] in ND; inversion ND as [|? ? Nx ND']; subst; destruct (b =? m).
      - injection En as -> ->; split; [exact ND'|]; intros (b' & K); apply Nx; change g with (snd (b', g)); apply in_map, K.
      - destruct (take m p) as [(y, r')|] eqn:E; [|discriminate]; injection En as -> <-.
        destruct (IH r' eq_refl ND') as (A & B).
        assert (INC : forall z, In z r' -> In z p) by (clear - E; revert r' E; induction p as [|(b, x) p IH]; intros r' E z Hz; cbn [take] in E; [discriminate|];
            destruct (b =? m); [injection E as _ ->; right; exact Hz|]; destruct (take m p) as [(y, r2)|]; [|discriminate]; injection E as -> <-;
            destruct Hz as [Hz|Hz]; [left; exact Hz | right; apply (IH r2 eq_refl z Hz)]).
        assert (GIN : In g (map snd p)) by (clear - E; revert r' E; induction p as [|(b, x) p IH]; intros r' E; cbn [take] in E; [discriminate|];
            destruct (b =? m); [injection E as -> _; left; reflexivity|]; destruct (take m p) as [(y, r2)|]; [|discriminate]; injection E as -> <-;
            right; apply (IH r2 eq_refl)).
        split.
        + cbn [map snd]; constructor; [|exact A]; intros K; apply Nx; apply in_map_iff in K; destruct K as ((b', x') & E' & K); cbn [snd] in E'; subst x'.
          change x with (snd (b', x)); apply in_map, INC, K.
        + intros (b' & [K|K]); [injection K as -> ->; contradiction | apply B; exists b'; exact K]. }
    assert (HI1 : oinv st1 r).
    { constructor; [exact HR1 | exact F4 | |].
      - intros h Hh; destruct (oi_in _ _ HI h (K3 h Hh)) as (He & w & Hw); split; [exact He|].
        destruct (idx_eqb_spec h g) as [->|Hn]; [eauto | rewrite (AT h He Hn); eauto].
      - intros h w He Hw Hf; destruct (idx_eqb_spec h g) as [->|Hn].
        + rewrite ATG in Hw; injection Hw as <-; discriminate.
        + rewrite (AT h He Hn) in Hw; destruct (K2 h (oi_flag _ _ HI h w He Hw Hf)); [assumption | contradiction]. }
    assert (R1 : ran st p st1 r).
    { constructor; auto.
      - destruct HQ as (Q1 & Q2); split; cbn [es_open st1 st_set with_layer with_open]; congruence.
      - rewrite EL; apply writes_one; constructor; exact Hv'.
      - intros _ (O1 & O2); destruct (NDr O1) as (D1 & D2); split; [exact D1|].
        intros h Hh; destruct (idx_eqb_spec h g) as [->|Hn]; [contradiction|].
        rewrite AT; [apply O2, K3, Hh | apply (oi_in _ _ HI h (K3 h Hh)) | exact Hn]. }
    assert (KP : keeps st p st1 r).
    { intros _ (HP & HW); split.
      - rewrite EL; apply (parents_write _ _ v); [exact HR | exact Hg | exact Hv | apply moves_self; reflexivity | | exact HP].
        intros h off' kd' Hin' Hh <- Ep.
        destruct (HP h off' kd' v Hin' Hh Hg Hv Ep) as (u & U1 & U2); exists u; split; [exact U1 | exact U2].
      - intros h w Hh Hw; destruct (idx_eqb_spec h g) as [->|Hn].
        + rewrite ATG in Hw; injection Hw as <-; apply (HW g v K1 Hv).
        + rewrite AT in Hw; [apply (HW h w (K3 h Hh) Hw) | apply (oi_in _ _ HI h (K3 h Hh)) | exact Hn]. }
    assert (M : mass (es_layer st1) = mass (es_layer st)) by (rewrite EL, (mass_vset _ _ _ _ Hv'); cbn [e_distance ev_queue]; lia).
    destruct (negb (e_observed v) || beyond c (e_distance v)) eqn:Eb.
    { exists st1, r; split; [reflexivity|]; split; [exact R1|]; split; [lia|]; split; [|exact KP].
      intros _; unfold measure; rewrite M; lia. }
    apply orb_false_iff in Eb; destruct Eb as (Eo & Eb); apply negb_false_iff in Eo.
    destruct (nbs_total neighbors26 g (ev_queue v false) st1 r) as (st' & p' & T1 & T2 & T3 & T4 & T5); auto.
    - rewrite (proj1 SH); exact Hsz.
    - apply R1.
    - change (length neighbors26) with 26%nat; lia.
    - change (Z.of_nat (length neighbors26)) with 26 in T3.
      exists st', p'; rewrite Hsz; rewrite (proj1 (proj2 SH)) in T1; split; [exact T1|].
      split; [eapply ran_trans; eassumption|]; split; [lia|].
      split; [|intros HS HG; apply (keeps_trans _ _ _ _ _ _ R1 KP (T5 (proj2 HG g v K1 Hv)) HS HG)].
      intros HS; assert (HS1 : separated (es_layer st1)).
      { eapply separated_lift; [|exact HS]; eapply writes_sided; [exact Hquasi | exact Hgs | apply R1]. }
      specialize (T4 HS1); unfold measure in *; rewrite M in T4; lia.
  Qed.

  (** no abort, whatever the layer *)
  Lemma open_no_abort : forall fuel st p, l_size (es_layer st) = vs -> oinv st p -> qconf (es_open st) ->
    Z.of_nat (length p) + 25 * Z.of_nat fuel <= 2 ^ 63 ->
    exists o, processOpenSet c fuel st = Ok o.
  Proof.
    induction fuel as [|fuel IH]; intros st p Hsz HI HQ HL; cbn [processOpenSet]; rewrite (empty_ok _ _ (oi_q _ _ HI)).
    - destruct p; eauto.
    - destruct p as [|e p]; [eauto|]; set (p0 := e :: p) in *.
      destruct (pop_total st p0 Hsz HI HQ) as (st' & p' & P1 & P2 & P3 & _ & _); [discriminate | lia |].
      rewrite P1; cbn [rbind]; apply (IH st' p').
      + rewrite (proj1 (writes_shape _ _ _ _ (rn_writes _ _ _ _ P2))); exact Hsz.
      + apply P2.
      + apply P2.
      + lia.
  Qed.
  (** it ends *)
  Lemma open_ends : forall n st p, l_size (es_layer st) = vs -> oinv st p -> qconf (es_open st) ->
    separated (es_layer st) -> ec_multi c = false -> once (es_layer st) p ->
    (exists (k : vkind) (t : Layer k), regular t /\ l_vps t = l_vps (es_layer st) /\ voxel_count t <= 2 ^ 63 /\
       forall a v, vat (es_layer st) a = Some v -> exists tv, vat t a = Some tv) ->
    measure (es_layer st) p <= Z.of_nat n ->
    exists st' p', processOpenSet c n st = Ok (Some st') /\ ran st p st' p' /\ p' = [] /\ keeps st p st' p' /\
      forall st1, open_steps c st st1 -> Z.of_nat (length (waiting st1)) <= 2 ^ 63.
  Proof.
    assert (NONE : forall st, oinv st [] -> forall st1, open_steps c st st1 -> Z.of_nat (length (waiting st1)) <= 2 ^ 63).
    { intros st HI st1 H; destruct H as [st|st st1 st2 E _ _].
      - rewrite (waiting_length _ _ (oi_q _ _ HI)); cbn [length]; lia.
      - rewrite (empty_ok _ _ (oi_q _ _ HI)) in E; discriminate. }
    induction n as [|n IH]; intros st p Hsz HI HQ HS Hm HO (k & t & T1 & T2 & T3 & T4) HM; cbn [processOpenSet]; rewrite (empty_ok _ _ (oi_q _ _ HI)).
    - pose proof (mass_nonneg (es_layer st)); unfold measure in HM; destruct p; cbn [length] in HM; [|lia].
      exists st, []; split; [reflexivity|]; split; [apply ran_refl; assumption|]; split; [reflexivity|]; split; [intros _ HG; exact HG|]; apply NONE; assumption.
    - destruct p as [|e p]; [exists st, []; split; [reflexivity|]; split; [apply ran_refl; assumption|]; split; [reflexivity|]; split; [intros _ HG; exact HG|]; apply NONE; assumption|].
      set (p0 := e :: p) in *.
      assert (HL : Z.of_nat (length p0) <= 2 ^ 63).
      { apply Z.le_trans with (2 := T3); apply (queue_bound t p0 T1 (proj1 HO)).
        intros g Hg; destruct (oi_in _ _ HI g Hg) as (He & w & Hw); rewrite (reg_at _ _ (oi_reg _ _ HI) He) in Hw.
        rewrite T2; eapply T4, Hw. }
      destruct (pop_total st p0 Hsz HI HQ) as (st1 & p1 & P1 & P2 & _ & P4 & P5); [discriminate | exact HL |].
      specialize (P4 HS); rewrite P1; cbn [rbind].
      pose proof (writes_shape _ _ _ _ (rn_writes _ _ _ _ P2)) as SH.
      destruct (IH st1 p1) as (st' & p' & I1 & I2 & I3 & I5 & I4).
      + rewrite (proj1 SH); exact Hsz.
      + apply P2.
      + apply P2.
      + eapply separated_lift; [|exact HS]; eapply writes_sided; [exact Hquasi | exact Hgs | apply P2].
      + exact Hm.
      + apply P2; assumption.
      + exists k, t; split; [exact T1|]; split; [rewrite (proj1 (proj2 SH)); exact T2|]; split; [exact T3|].
        intros a w Hw; destruct (vat (es_layer st) a) as [w0|] eqn:E; [apply (T4 a w0 E)|].
        apply (shape_vat _ _ a SH) in E; congruence.
      + lia.
      + exists st', p'; split; [exact I1|]; split; [eapply ran_trans; eassumption|]; split; [exact I3|]; split; [apply (keeps_trans _ _ _ _ _ _ P2 P5 I5)|].
        intros st2 H; destruct H as [st|st st3 st2 _ E H].
        { rewrite (waiting_length _ _ (oi_q _ _ HI)); exact HL. }
        rewrite P1 in E; injection E as <-; apply I4, H.
  Qed.
End Term.
