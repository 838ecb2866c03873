(** processRaiseSet in quasi-Euclidean mode: it forgets exactly the distances derived from the roots. *)
From Coq Require Import ZArith List Bool Lia Reals Lra.
From Verif Require Import F32 F32_lemmas Types Index Neighbor Neighbor_proofs Voxel Assoc Assoc_lemmas Layer Threads Threads_proofs
  Update_proofs Queue Queue_spec Queue_proofs Planning Esdf Esdf_spec Esdf_proofs Esdf_float Esdf_range Esdf_grid Esdf_open Esdf_term Raise_spec Connect_proofs.
Import ListNotations.
Open Scope Z_scope.
Ltac Zify.zify_post_hook ::= idtac.

Lemma beside_in : forall g off h, beside g off h -> exists kd, In (off, kd) neighbors26 /\ h = idx_add g off.
Proof.
  intros g off h (H & E). apply in_map_iff in H. destruct H as ((o & kd) & E1 & H). cbn [fst] in E1. subst o. exists kd. auto.
Qed.
Lemma in_fst : forall (od : idx3 * f32), In od neighbors26 -> In (fst od) (map fst neighbors26).
Proof. intros od H. apply in_map. exact H. Qed.
(** pushing keeps what waits and adds the new element *)
Lemma push_waiting : forall (q q' : bq idx3) g v, bq_push q g v = Ok q' -> forall h, In h (concat (bq_buckets q')) <-> In h (concat (bq_buckets q)) \/ h = g.
Proof.
  intros q q' g v H h. unfold bq_push in H. destruct (bq_num q =? 0); [discriminate|]. destruct (bucket_of _ _ _) as [i|]; [|discriminate].
  apply rbind_ok in H. destruct H as (bs & H & E). injection E as <-. cbn [bq_buckets]. unfold bq_upd in H.
  destruct (i <? 0); [discriminate|]. destruct (nth_error (bq_buckets q) (Z.to_nat i)) as [b|] eqn:N; [|discriminate]. injection H as <-.
  revert N. generalize (Z.to_nat i). generalize (bq_buckets q). clear. induction l as [|x l IH]; intros [|n] N; cbn [nth_error] in N; try discriminate.
  - injection N as ->. cbn [set_th concat]. rewrite !in_app_iff. cbn [In]. intuition congruence.
  - cbn [set_th concat]. rewrite !in_app_iff, (IH n N). tauto.
Qed.

Section Raise.
  Variable c : econfig.
  Hypothesis Hq : ec_full c = false.
  Variable l0 : Layer KEsdf.
  Variable roots : list idx3.
  Hypothesis R0 : regular l0.
  Hypothesis RO : forall g, In g roots -> exact_index g /\ at_index l0 g <> None.
  Notation der := (derived l0 roots).
  Definition reset (w w' : EsdfVoxel) : Prop := e_distance w' = sgnmul (e_distance w) (ec_default c) /\ e_parent w' = zero3.
  Definition cleared (l : Layer KEsdf) (h : idx3) : Prop :=
    exact_index h /\ exists w w' : EsdfVoxel, at_index l0 h = Some w /\ at_index l h = Some w' /\ e_parent w <> zero3 /\ reset w w'.

  Lemma beside_exact : forall g off h (l : Layer KEsdf), regular l -> exact_index g -> at_index l g <> None -> beside g off h -> exact_index h.
  Proof.
    intros g off h l HR Hg A B. destruct (beside_in _ _ _ B) as (kd & I & ->). destruct (at_index l g) as [v|] eqn:E; [|congruence].
    rewrite (reg_at _ _ HR Hg) in E. apply (at_exact _ _ _ _ HR E (proj1 (off_small _ _ I))).
  Qed.
  Lemma hangs_exact : forall g h, exact_index g -> at_index l0 g <> None -> hangs_on l0 g h -> exact_index h /\ at_index l0 h <> None.
  Proof.
    intros g h Hg A (off & w & B & (M & _) & _). split; [eapply beside_exact; eauto|congruence].
  Qed.
  Lemma der_exact : forall h, der h -> exact_index h /\ at_index l0 h <> None.
  Proof.
    induction 1 as [g h I H | g h D IH H]; [destruct (RO g I)|destruct IH]; eapply hangs_exact; eauto.
  Qed.
  Lemma der_parent : forall h (w : EsdfVoxel), der h -> at_index l0 h = Some w -> e_parent w <> zero3.
  Proof.
    intros h w D E. assert (X : exists g, hangs_on l0 g h) by (destruct D as [g h I H | g h D H]; exists g; exact H).
    destruct X as (g & off & w2 & B & (M & _) & P). rewrite E in M. injection M as <-. destruct (beside_in _ _ _ B) as (kd & I & _). rewrite P. exact (opp_nz _ _ I).
  Qed.

  (** the neighbour [off] of [g] has been dealt with *)
  Definition handled (l : Layer KEsdf) (g off : idx3) : Prop :=
    forall w', at_index l (idx_add g off) = Some w' -> e_observed w' = true -> e_fixed w' = false ->
      e_parent w' <> idx_opp off /\ (cleared l (idx_add g off) \/ e_in_queue w' = true).
  Record rinv (st : estate) (pend : list (idx3 * idx3)) : Prop := {
    ri_shape : same_shape l0 (es_layer st);
    ri_vox : forall h w, exact_index h -> at_index l0 h = Some w -> exists w' : EsdfVoxel, at_index (es_layer st) h = Some w' /\
      e_observed w' = e_observed w /\ e_fixed w' = e_fixed w /\ e_hallucinated w' = e_hallucinated w /\
      (untouched w w' \/ der h /\ reset w w') /\
      (e_in_queue w = true -> e_in_queue w' = true) /\
      (e_in_queue w' = true -> e_in_queue w = true \/ In h (waiting st));
    ri_raise : forall g, In g (es_raise st) -> In g roots \/ der g;
    ri_done : forall g off, In off (map fst neighbors26) -> In g roots \/ cleared (es_layer st) g ->
      In g (es_raise st) \/ In (g, off) pend \/ handled (es_layer st) g off }.
  Lemma ri_none : forall st pend h, rinv st pend -> exact_index h -> at_index l0 h = None -> at_index (es_layer st) h = None.
  Proof.
    intros st pend h I X E. pose proof (ri_shape _ _ I) as S. pose proof (reg_shape _ _ S R0) as R. destruct (at_index (es_layer st) h) as [w|] eqn:Y; [|reflexivity].
    rewrite (reg_at _ _ R X) in Y. rewrite (reg_at _ _ R0 X) in E. apply (proj1 (shape_vat l0 (es_layer st) _ S)) in E.
    assert (V : l_vps (es_layer st) = l_vps l0) by apply S. rewrite V in Y. congruence.
  Qed.

  (** writing a voxel *)
  Lemma write_at : forall (l : Layer KEsdf) h (w0 w1 : EsdfVoxel), regular l -> exact_index h -> at_index l h = Some w0 ->
    forall k, exact_index k -> at_index (vset (k := KEsdf) l (adr (l_vps l) h) w1) k = if idx_eqb k h then Some w1 else at_index l k.
  Proof.
    intros l h w0 w1 R H E k K. destruct (at_set (k := KEsdf) l h k w1 w0 R H K E) as (A1 & A2).
    destruct (idx_eqb_spec k h) as [-> | N]; [exact A2 | apply A1, N].
  Qed.
  (** an update that keeps what has been dealt with *)
  Definition grows (l l' : Layer KEsdf) : Prop := same_shape l l' /\ forall h w, exact_index h -> at_index l h = Some w ->
    exists w', at_index l' h = Some w' /\ e_observed w' = e_observed w /\ e_fixed w' = e_fixed w /\
      (e_in_queue w = true -> e_in_queue w' = true) /\ (e_parent w' = e_parent w \/ e_parent w' = zero3) /\ (cleared l h -> cleared l' h).
  Lemma handled_grows : forall l l' g off, regular l -> grows l l' -> In off (map fst neighbors26) -> exact_index (idx_add g off) -> handled l g off -> handled l' g off.
  Proof.
    intros l l' g off R (S & G) I X H w' E O F.
    destruct (at_index l (idx_add g off)) as [w|] eqn:W.
    - destruct (G _ _ X W) as (w2 & E2 & O2 & F2 & Q2 & P2 & C2). rewrite E in E2. injection E2 as <-.
      destruct (H w W) as (H1 & H2); [congruence|congruence|]. split.
      + destruct P2 as [-> | ->]; [exact H1|]. apply in_map_iff in I. destruct I as ((o & kd) & <- & I). intros K. apply (opp_nz _ _ I). symmetry. exact K.
      + destruct H2 as [H2 | H2]; [left; auto|right; auto].
    - exfalso. pose proof (reg_shape _ _ S R) as R'. rewrite (reg_at _ _ R X) in W. rewrite (reg_at _ _ R' X) in E.
      assert (V : l_vps l' = l_vps l) by apply S. rewrite V in E. apply (proj1 (shape_vat l l' _ S)) in W. congruence.
  Qed.

  Lemma raise_one : forall st od pend g st', In od neighbors26 -> exact_index g -> at_index l0 g <> None -> In g roots \/ der g ->
    rinv st ((g, fst od) :: pend) -> raise_neighbor c g st od = Ok st' -> rinv st' pend /\ (forall h, In h (es_raise st) -> In h (es_raise st')) /\ (forall h, In h (waiting st) -> In h (waiting st')).
  Proof.
    intros st (off & kd) pend g st' I X A D IV H. cbn [fst] in *. pose proof (in_fst _ I) as I1. cbn [fst] in I1.
    pose proof (ri_shape _ _ IV) as S. pose proof (reg_shape _ _ S R0) as R. set (l := es_layer st) in *.
    assert (Xn : exact_index (idx_add g off)) by (eapply (beside_exact g off _ l0); eauto; split; auto).
    (* the case in which nothing is written *)
    assert (SAME : handled l g off -> rinv st pend).
    { intros HH. constructor; [exact S|exact (ri_vox _ _ IV)|exact (ri_raise _ _ IV)|]. intros g2 o2 I2 Q2.
      destruct (ri_done _ _ IV g2 o2 I2 Q2) as [K | [[K | K] | K]]; [auto| |auto|auto]. injection K as <- <-. auto. }
    unfold raise_neighbor in H. cbv zeta in H. cbn [fst snd] in H. fold l in H. rewrite (reg_ptr_at _ _ R Xn) in H. cbn [rbind] in H.
    destruct (at_index l (idx_add g off)) as [nv|] eqn:En.
    2: { injection H as <-. split; [|auto]. apply SAME. intros w' K. congruence. }
    pose proof En as En'. rewrite (reg_at _ _ R Xn) in En'. unfold vget in H. rewrite En' in H. cbn [of_opt rbind] in H.
    destruct (negb (e_observed nv) || e_fixed nv) eqn:Eo.
    { injection H as <-. split; [|auto]. apply SAME. intros w' K O F. rewrite En in K. injection K as <-. rewrite O, F in Eo. discriminate. }
    apply orb_false_iff in Eo. destruct Eo as (Eo & Ef). apply negb_false_iff in Eo.
    unfold is_parent in H. rewrite Hq in H. cbn [rbind] in H.
    destruct (at_index l0 (idx_add g off)) as [w0|] eqn:E0; [|pose proof (ri_none _ _ _ IV Xn E0) as K0; fold l in K0; congruence].
    destruct (ri_vox _ _ IV _ _ Xn E0) as (nv' & En2 & V1 & V2 & V3 & V4 & V5 & V6). fold l in En2. rewrite En in En2. injection En2 as <-.
    assert (WA : forall w1 k, exact_index k -> at_index (vset (k := KEsdf) l (adr (l_vps l) (idx_add g off)) w1) k =
      if idx_eqb k (idx_add g off) then Some w1 else at_index l k) by (intros; eapply write_at; eauto).
    (* what both writes share *)
    assert (COMMON : forall (w1 : EsdfVoxel) st1, es_layer st1 = vset (k := KEsdf) l (adr (l_vps l) (idx_add g off)) w1 ->
      (forall h, In h (waiting st) -> In h (waiting st1)) -> (forall h, In h (es_raise st) -> In h (es_raise st1)) ->
      (forall h, In h (es_raise st1) -> In h (es_raise st) \/ h = idx_add g off /\ der h) ->
      e_observed w1 = e_observed nv -> e_fixed w1 = e_fixed nv -> e_hallucinated w1 = e_hallucinated nv ->
      (untouched nv w1 \/ der (idx_add g off) /\ reset w0 w1) ->
      (e_in_queue nv = true -> e_in_queue w1 = true) -> (e_in_queue w1 = true -> e_in_queue nv = true \/ In (idx_add g off) (waiting st1)) ->
      e_parent w1 <> idx_opp off -> (cleared (es_layer st1) (idx_add g off) \/ e_in_queue w1 = true) ->
      (cleared (es_layer st1) (idx_add g off) -> cleared l (idx_add g off) \/ In (idx_add g off) (es_raise st1)) ->
      rinv st1 pend).
    { intros w1 st1 L1 W1 Rm1 Rm2 O1 F1 H1 U1 Q1 Q2 P1 C1 C2.
      assert (S1 : same_shape l (es_layer st1)) by (rewrite L1; apply shape_vset).
      assert (CK : forall k, exact_index k -> k <> idx_add g off -> cleared (es_layer st1) k <-> cleared l k).
      { intros k K N. unfold cleared. rewrite L1, WA by exact K. destruct (idx_eqb_spec k (idx_add g off)) as [E|_]; [contradiction|]. reflexivity. }
      assert (UN : untouched nv w1 \/ reset w0 w1) by (destruct U1 as [U1 | (_ & U1)]; auto).
      assert (CN : cleared l (idx_add g off) -> cleared (es_layer st1) (idx_add g off)).
      { intros (_ & w & w' & Y1 & Y2 & Y3 & Y4). split; [exact Xn|]. rewrite En in Y2. injection Y2 as <-. rewrite E0 in Y1. injection Y1 as <-.
        exists w0, w1. split; [exact E0|]. split; [rewrite L1, WA, idx_eqb_refl by exact Xn; reflexivity|]. split; [exact Y3|].
        destruct UN as [(U2 & U3) | U2]; [|exact U2]. destruct Y4 as (Y4 & Y5). split; congruence. }
      assert (G : grows l (es_layer st1)).
      { split; [exact S1|]. intros k w K E. rewrite L1, WA by exact K. destruct (idx_eqb_spec k (idx_add g off)) as [-> | N].
        - rewrite En in E. injection E as <-. exists w1. split; [reflexivity|]. split; [exact O1|]. split; [exact F1|]. split; [exact Q1|].
          split; [destruct UN as [(_ & U2) | (_ & U2)]; auto|]. rewrite <- L1. exact CN.
        - exists w. split; [exact E|]. repeat (split; [reflexivity || auto|]). rewrite <- L1. apply CK; assumption. }
      constructor.
      - eapply shape_trans; [exact S|exact S1].
      - intros h w K E. rewrite L1, WA by exact K. destruct (idx_eqb_spec h (idx_add g off)) as [-> | N].
        + rewrite E0 in E. injection E as <-. exists w1. split; [reflexivity|]. split; [congruence|]. split; [congruence|]. split; [congruence|]. split; [|split].
          * destruct U1 as [(U2 & U3) | U2]; [|right; exact U2]. destruct V4 as [(Y1 & Y2) | (Y1 & Y2 & Y3)]; [left; split; congruence|right; split; [exact Y1|split; congruence]].
          * auto.
          * intros Z1. destruct (Q2 Z1) as [Z2 | Z2]; [|auto]. destruct (V6 Z2) as [Z3 | Z3]; auto.
        + destruct (ri_vox _ _ IV h w K E) as (w' & Y1 & Y2 & Y3 & Y4 & Y5 & Y6 & Y7). exists w'. repeat (split; [assumption|]). intros Z1. destruct (Y7 Z1); auto.
      - intros h K. destruct (Rm2 h K) as [K2 | (_ & K2)]; [exact (ri_raise _ _ IV h K2)|auto].
      - intros g2 o2 I2 Q3. destruct (idx_eqb_spec g2 (idx_add g off)) as [E2 | N2].
        + subst g2. assert (Z : In (idx_add g off) (es_raise st1) \/ (In (idx_add g off) roots \/ cleared l (idx_add g off))) by (destruct Q3 as [Q3 | Q3]; [auto|destruct (C2 Q3); auto]).
          destruct Z as [Z | Z]; [auto|]. destruct (ri_done _ _ IV _ o2 I2 Z) as [K | [[K | K] | K]]; [auto| |auto|].
          * injection K as K _. exfalso. apply (add_off_neq g off (proj2 (off_small _ _ I))). symmetry. exact K.
          * right. right. assert (X2 : exact_index (idx_add (idx_add g off) o2)) by (eapply (beside_exact _ o2 _ l0 R0 Xn); [congruence|split; auto]).
            eapply handled_grows; eauto.
        + assert (Q4 : In g2 roots \/ cleared l g2).
          { destruct Q3 as [Q3 | Q3]; [auto|]. right. apply CK; [apply Q3|exact N2|exact Q3]. }
          assert (Xg : exact_index g2 /\ at_index l0 g2 <> None).
          { destruct Q4 as [Q4 | (Y0 & w & w' & Y1 & _)]; [exact (RO _ Q4)|]. split; [exact Y0|congruence]. }
          destruct (ri_done _ _ IV g2 o2 I2 Q4) as [K | [[K | K] | K]]; [auto| |auto|].
          * injection K as <- <-. right. right. intros w' E O F. rewrite L1, WA, idx_eqb_refl in E by exact Xn. injection E as <-. split; [exact P1|exact C1].
          * right. right. assert (X2 : exact_index (idx_add g2 o2)) by (eapply (beside_exact _ o2 _ l0 R0 (proj1 Xg)); [apply Xg|split; auto]).
            eapply handled_grows; eauto. }
    destruct (idx_eqb (e_parent nv) (idx_opp off)) eqn:Ep.
    - (* the voxel hangs on [g] *)
      apply idx_eqb_true in Ep. injection H as <-.
      assert (NZ : e_parent nv <> zero3) by (rewrite Ep; exact (opp_nz _ _ I)).
      assert (UT : untouched w0 nv) by (destruct V4 as [V4 | (_ & _ & V4)]; [exact V4|contradiction]).
      assert (HG : hangs_on l0 g (idx_add g off)).
      { exists off, w0. split; [split; auto|]. split; [split; [exact E0|split; congruence]|]. destruct UT as (_ & UT). congruence. }
      assert (DN : der (idx_add g off)) by (destruct D as [D | D]; [exact (DE_root _ _ _ _ D HG)|exact (DE_step _ _ _ _ D HG)]).
      set (w1 := ev_parent (ev_dist nv (sgnmul (e_distance nv) (ec_default c))) zero3).
      assert (RS : reset w0 w1) by (destruct UT as (UT & _); split; cbn; [rewrite UT|]; reflexivity).
      assert (RM : forall h, In h (es_raise st) -> In h (es_raise st ++ [idx_add g off])) by (intros; apply in_app_iff; auto).
      split; [|split; [exact RM|auto]].
      apply (COMMON w1); try reflexivity; auto.
      + intros h K. cbn in K. apply in_app_iff in K. destruct K as [K | [<- | []]]; auto.
      + intros K. exact (opp_nz _ _ I (eq_sym K)).
      + left. split; [exact Xn|]. exists w0, w1. cbn [es_layer raise_push with_raise st_set with_layer]. fold l. rewrite WA, idx_eqb_refl by exact Xn.
        split; [exact E0|]. split; [reflexivity|]. split; [destruct UT; congruence|exact RS].
      + intros _. right. cbn. apply in_app_iff. right. left. reflexivity.
    - assert (Ep' : e_parent nv <> idx_opp off) by (intros K; rewrite K, idx_eqb_refl in Ep; discriminate).
      destruct (negb (e_in_queue nv)) eqn:Eq.
      + apply negb_true_iff in Eq. apply rbind_ok in H. destruct H as (st1 & H1 & H). injection H as <-.
        unfold open_push in H1. apply rbind_ok in H1. destruct H1 as (q1 & H1 & H2). injection H2 as <-.
        pose proof (push_waiting _ _ _ _ H1) as PW.
        split; [|split; [auto|intros h K; apply PW; left; exact K]].
        apply (COMMON (ev_queue nv true)); try reflexivity; auto.
        * intros h K. apply PW. left. exact K.
        * left. split; reflexivity.
        * intros _. right. apply PW. right. reflexivity.
        * intros (_ & w & w' & Y1 & Y2 & Y3 & Y4). left. split; [exact Xn|]. cbn [es_layer st_set with_layer with_open] in Y2. fold l in Y2.
          rewrite WA, idx_eqb_refl in Y2 by exact Xn. injection Y2 as <-. exists w, nv. split; [exact Y1|]. split; [exact En|]. split; [exact Y3|exact Y4].
      + injection H as <-. apply negb_false_iff in Eq. split; [|auto]. apply SAME. intros w' K _ _. rewrite En in K. injection K as <-. split; [exact Ep'|auto].
  Qed.

  Lemma raise_all : forall xs st g st', (forall x, In x xs -> In x neighbors26) -> exact_index g -> at_index l0 g <> None -> In g roots \/ der g ->
    rinv st (map (fun od => (g, fst od)) xs) -> rfold (raise_neighbor c g) xs st = Ok st' -> rinv st' [] /\ (forall h, In h (waiting st) -> In h (waiting st')).
  Proof.
    induction xs as [|od xs IH]; intros st g st' I X A D IV H; cbn [rfold] in H.
    - injection H as <-. auto.
    - apply rbind_ok in H. destruct H as (st1 & H1 & H). destruct (raise_one st od _ g st1 (I _ (or_introl eq_refl)) X A D IV H1) as (IV1 & _ & W1).
      destruct (IH st1 g st' (fun x Hx => I x (or_intror Hx)) X A D IV1 H) as (IV2 & W2). auto.
  Qed.
  Lemma raise_visit_inv : forall st g r st', rinv st [] -> es_raise st = g :: r -> raise_visit c (with_raise st r) g = Ok st' ->
    rinv st' [] /\ (forall h, In h (waiting st) -> In h (waiting st')).
  Proof.
    intros st g r st' IV E H. unfold raise_visit in H. apply rbind_ok in H. destruct H as ([a|] & _ & H); [|discriminate].
    assert (D : In g roots \/ der g) by (apply (ri_raise _ _ IV); rewrite E; left; reflexivity).
    assert (XA : exact_index g /\ at_index l0 g <> None) by (destruct D as [D | D]; [exact (RO g D)|exact (der_exact g D)]). destruct XA as (X & A).
    apply (raise_all neighbors26 (with_raise st r) g st'); auto.
    constructor; cbn [es_layer with_raise es_raise].
    - apply IV.
    - apply IV.
    - intros h K. apply (ri_raise _ _ IV). rewrite E. right. exact K.
    - intros g2 o2 I2 Q2. destruct (ri_done _ _ IV g2 o2 I2 Q2) as [K | [[] | K]]; [|auto]. rewrite E in K. destruct K as [<- | K]; [|auto].
      right. left. apply in_map_iff in I2. destruct I2 as (od & <- & I2). apply in_map_iff. exists od. auto.
  Qed.
  Lemma raise_inv : forall fuel st st', rinv st [] -> processRaiseSet c fuel st = Ok (Some st') ->
    rinv st' [] /\ es_raise st' = [] /\ (forall h, In h (waiting st) -> In h (waiting st')).
  Proof.
    induction fuel as [|f IH]; intros st st' IV H; cbn [processRaiseSet] in H; destruct (es_raise st) as [|g r] eqn:E.
    - injection H as <-. auto.
    - discriminate.
    - injection H as <-. auto.
    - apply rbind_ok in H. destruct H as (st1 & H1 & H). destruct (raise_visit_inv st g r st1 IV E H1) as (IV1 & W1).
      destruct (IH st1 st' IV1 H) as (A & B & C). split; [exact A|]. split; [exact B|]. auto.
  Qed.
  (** at the end: exactly the derived voxels are cleared *)
  Lemma end_child : forall st g h, rinv st [] -> es_raise st = [] -> In g roots \/ cleared (es_layer st) g -> hangs_on l0 g h -> exact_index h -> cleared (es_layer st) h.
  Proof.
    intros st g h IV E Q (off & w & B & (M & O & F) & P) X. destruct B as (I & B). destruct (ri_done _ _ IV g off I Q) as [K | [[] | K]]; [rewrite E in K; destruct K|].
    rewrite B in X, M |- *. destruct (ri_vox _ _ IV _ w X M) as (w' & Y1 & Y2 & Y3 & _ & Y4 & _).
    destruct (K w' Y1) as (K1 & _); [congruence|congruence|]. destruct Y4 as [(_ & Y4) | (Y4 & Y5)]; [congruence|].
    split; [exact X|]. exists w, w'. split; [exact M|]. split; [exact Y1|]. split; [|exact Y5]. apply (der_parent _ _ Y4 M).
  Qed.
  Lemma end_der : forall st h, rinv st [] -> es_raise st = [] -> der h -> cleared (es_layer st) h.
  Proof.
    intros st h IV E D. pose proof (proj1 (der_exact _ D)) as X. induction D as [g h I H | g h D IH H].
    - apply (end_child st g h IV E); auto.
    - apply (end_child st g h IV E); auto. right. apply IH. exact (proj1 (der_exact _ D)).
  Qed.
  Lemma end_beside : forall st g off h w w', rinv st [] -> es_raise st = [] -> In g roots \/ der g -> beside g off h -> exact_index h ->
    at_index l0 h = Some w -> at_index (es_layer st) h = Some w' -> e_observed w = true -> e_fixed w = false -> ~ der h -> e_in_queue w' = true.
  Proof.
    intros st g off h w w' IV E Q (I & B) X M M' O F N.
    assert (Q' : In g roots \/ cleared (es_layer st) g) by (destruct Q as [Q | Q]; [auto|right; apply end_der; auto]).
    destruct (ri_done _ _ IV g off I Q') as [K | [[] | K]]; [rewrite E in K; destruct K|].
    destruct (ri_vox _ _ IV _ w X M) as (w2 & Y1 & Y2 & Y3 & _ & Y4 & _). rewrite M' in Y1. injection Y1 as <-.
    destruct Y4 as [(_ & Y4) | (Y4 & _)]; [|contradiction]. rewrite B in M'. destruct (K w' M') as (_ & [K2 | K2]); [congruence|congruence| |exact K2].
    destruct K2 as (_ & u & u' & U1 & U2 & U3 & _ & U4). rewrite M' in U2. injection U2 as <-. rewrite <- B, M in U1. injection U1 as <-. congruence.
  Qed.
  Lemma start_inv : forall st, es_layer st = l0 -> es_raise st = roots -> rinv st [].
  Proof.
    intros st E1 E2. constructor; rewrite ?E1.
    - apply shape_refl.
    - intros h w X M. exists w. split; [exact M|]. repeat (split; [reflexivity|]). split; [left; split; reflexivity|]. auto.
    - rewrite E2. auto.
    - intros g off I [Q | Q]; [rewrite E2; auto|]. destruct Q as (_ & w & w' & Q1 & Q2 & Q3 & _ & Q4). congruence.
  Qed.
End Raise.

(** *** the loop ends and does not fail *)
Definition hang (v : EsdfVoxel) : Z := if idx_eqb (e_parent v) zero3 then 0 else 1.
Definition hsum (vs : list EsdfVoxel) : Z := fold_right (fun v n => hang v + n) 0 vs.
Definition hangs (l : Layer KEsdf) : Z := fold_right (fun (kb : idx3 * Block KEsdf) n => hsum (b_voxels (snd kb)) + n) 0 (l_blocks l).
Lemma hang_range : forall v, 0 <= hang v <= 1. Proof. intros v. unfold hang. destruct (idx_eqb _ _); lia. Qed.
Lemma hsum_range : forall vs, 0 <= hsum vs <= Z.of_nat (length vs).
Proof. induction vs as [|v vs IH]; cbn [hsum fold_right length]; [lia|]; fold (hsum vs); pose proof (hang_range v); lia. Qed.
Lemma hangs_range : forall l, 0 <= hangs l <= voxel_count l.
Proof.
  intros l; unfold hangs, voxel_count; induction (l_blocks l) as [|(i, b) m IH]; cbn [fold_right snd]; [lia|].
  pose proof (hsum_range (b_voxels b)) as H. cbn [vox] in *. lia.
Qed.
Lemma hsum_set : forall n (vs : list EsdfVoxel) v v', nth_error vs n = Some v -> hsum (set_th n v' vs) = hsum vs - hang v + hang v'.
Proof.
  induction n as [|n IH]; intros [|w vs] v v' H; cbn [nth_error] in H; try discriminate; cbn [set_th hsum fold_right].
  - injection H as ->; lia.
  - fold (hsum (set_th n v' vs)); fold (hsum vs); rewrite (IH _ _ v' H); lia.
Qed.
Lemma hangs_vset : forall (l : Layer KEsdf) a (v v' : EsdfVoxel), vat l a = Some v -> hangs (vset (k := KEsdf) l a v') = hangs l - hang v + hang v'.
Proof.
  intros l (i, n) v v' H; unfold vat, vset in *; cbn [fst snd] in *; destruct (l_get l i) as [b|] eqn:E; [|discriminate].
  unfold hangs, with_blocks, l_get in *; cbn [l_blocks]; revert E; induction (l_blocks l) as [|(j, b') m IH]; intros E; [discriminate|].
  cbn [alookup aset] in *; destruct (idx_eqb i j).
  - injection E as ->; cbn [fold_right snd set_voxels b_voxels]; pose proof (hsum_set n (b_voxels b) v v' H) as VS; cbn [vox] in VS |- *; rewrite VS; lia.
  - cbn [fold_right snd]; rewrite (IH E); lia.
Qed.

Section Ends.
  Variable c : econfig.
  Variable vs : f32.
  Hypothesis Hc : valid_config c vs.
  Hypothesis Hq : ec_full c = false.
  Hypothesis Hd : (FR (ec_default c) <= 2 * FR (ec_max c))%R.

  Lemma reset_pushable : forall d, pushable c (sgnmul d (ec_default c)).
  Proof.
    intros d. destruct (vc_default _ _ Hc) as (FD & PD). destruct (vc_max _ _ Hc) as (_ & PM & _). destruct (sgnmul_R d _ FD) as (E & F). split; [apply ffin_nnan, F|]. rewrite (ER_fin _ F), E.
    pose proof (signum_abs d) as S. assert (C : (signum d = 0 \/ signum d = 1 \/ signum d = -1)%Z) by lia. destruct C as [-> | [-> | ->]]; lra.
  Qed.
  (** everything that can be pushed is accepted by the queue *)
  Definition safe (st : estate) (p : pending) : Prop := regular (es_layer st) /\ qinv (es_open st) p /\ qconf c (es_open st) /\
    (forall h w, exact_index h -> at_index (es_layer st) h = Some w -> pushable c (e_distance w)) /\
    (forall g, In g (es_raise st) -> exact_index g /\ at_index (es_layer st) g <> None).
  Definition left_over (st : estate) : Z := Z.of_nat (length (es_raise st)) + hangs (es_layer st).

  Lemma safe_write : forall st p ng nv w1 q p1 r, safe st p -> exact_index ng -> at_index (es_layer st) ng = Some nv -> pushable c (e_distance w1) ->
    qinv q p1 -> qconf c q -> (forall g, In g r -> In g (es_raise st) \/ g = ng) ->
    safe (MkES (vset (k := KEsdf) (es_layer st) (adr (l_vps (es_layer st)) ng) w1) q r (es_updated st)) p1.
  Proof.
    intros st p ng nv w1 q p1 r (S1 & S2 & S3 & S4 & S5) X E P Q1 Q2 RR. unfold safe. cbn [es_layer es_open es_raise].
    split; [eapply reg_shape; [apply shape_vset|exact S1]|]. split; [exact Q1|]. split; [exact Q2|]. split.
    - intros h w Xh. rewrite (write_at _ _ _ _ S1 X E h Xh). destruct (idx_eqb h ng); [intros K; injection K as <-; exact P|apply S4, Xh].
    - intros g G. assert (K : exact_index g /\ at_index (es_layer st) g <> None) by (destruct (RR g G) as [K | ->]; [exact (S5 g K)|split; [exact X|congruence]]).
      destruct K as (K1 & K2). split; [exact K1|]. rewrite (write_at _ _ _ _ S1 X E g K1). destruct (idx_eqb g ng); [discriminate|exact K2].
  Qed.
  Lemma raise_one_total : forall st p g od, safe st p -> exact_index g -> at_index (es_layer st) g <> None -> In od neighbors26 -> Z.of_nat (length p) + 1 < 2 ^ 64 ->
    exists st' p', raise_neighbor c g st od = Ok st' /\ safe st' p' /\ at_index (es_layer st') g <> None /\ (length p' <= S (length p))%nat /\ left_over st' <= left_over st.
  Proof.
    intros st p g (off & kd) SF X A I L. pose proof SF as (S1 & S2 & S3 & S4 & S5).
    destruct (at_index (es_layer st) g) as [v|] eqn:Ev; [|congruence]. pose proof Ev as Ev'. rewrite (reg_at _ _ S1 X) in Ev'.
    pose proof (at_exact _ _ _ _ S1 Ev' (proj1 (off_small _ _ I))) as Xn.
    assert (SAME : raise_neighbor c g st (off, kd) = Ok st -> exists st' p', raise_neighbor c g st (off, kd) = Ok st' /\ safe st' p' /\ at_index (es_layer st') g <> None /\ (length p' <= S (length p))%nat /\ left_over st' <= left_over st).
    { intros ->. exists st, p. split; [reflexivity|]. split; [exact SF|]. split; [congruence|]. split; lia. }
    destruct (at_index (es_layer st) (idx_add g off)) as [nv|] eqn:En.
    2: { apply SAME. unfold raise_neighbor. cbv zeta. cbn [fst snd]. rewrite (reg_ptr_at _ _ S1 Xn), En. reflexivity. }
    pose proof En as En'. rewrite (reg_at _ _ S1 Xn) in En'.
    assert (UF : raise_neighbor c g st (off, kd) =
      if negb (e_observed nv) || e_fixed nv then Ok st else
      if idx_eqb (e_parent nv) (idx_opp off) then
        Ok (raise_push (st_set st (adr (l_vps (es_layer st)) (idx_add g off)) (ev_parent (ev_dist nv (sgnmul (e_distance nv) (ec_default c))) zero3)) (idx_add g off))
      else if negb (e_in_queue nv) then
        rbind (open_push st (idx_add g off) (e_distance nv)) (fun st1 => Ok (st_set st1 (adr (l_vps (es_layer st)) (idx_add g off)) (ev_queue nv true)))
      else Ok st).
    { unfold raise_neighbor. cbv zeta. cbn [fst snd]. rewrite (reg_ptr_at _ _ S1 Xn), En. cbn [rbind]. unfold vget. rewrite En'. cbn [of_opt rbind].
      unfold is_parent. rewrite Hq. reflexivity. }
    destruct (negb (e_observed nv) || e_fixed nv); [apply SAME, UF|].
    assert (KEEP : forall w1, at_index (vset (k := KEsdf) (es_layer st) (adr (l_vps (es_layer st)) (idx_add g off)) w1) g <> None).
    { intros w1. rewrite (write_at _ _ _ _ S1 Xn En g X). destruct (idx_eqb g (idx_add g off)); [discriminate|rewrite Ev; discriminate]. }
    destruct (idx_eqb (e_parent nv) (idx_opp off)) eqn:Ep.
    - apply idx_eqb_true in Ep. eexists _, p. split; [exact UF|].
      split; [apply (safe_write st p (idx_add g off) nv); auto; [apply reset_pushable|]; intros h K; apply in_app_iff in K; destruct K as [K | [<- | []]]; auto|].
      split; [apply KEEP|]. split; [lia|]. unfold left_over. cbn [es_raise es_layer raise_push with_raise st_set with_layer]. rewrite app_length, (hangs_vset _ _ _ _ En'). cbn [length].
      assert (H1 : hang nv = 1). { unfold hang. rewrite Ep. destruct (idx_eqb_spec (idx_opp off) zero3) as [K | _]; [destruct (opp_nz _ _ I K)|reflexivity]. }
      assert (H2 : forall d, hang (ev_parent (ev_dist nv d) zero3) = 0) by reflexivity. rewrite H1, H2. lia.
    - destruct (negb (e_in_queue nv)) eqn:Eq; [|apply SAME, UF].
      destruct (push_total c vs Hc (es_open st) p (idx_add g off) (e_distance nv) S2 S3 (S4 _ _ Xn En) L) as (q' & i & Q1 & Q2 & Q3).
      unfold open_push in UF. rewrite Q1 in UF. cbn [rbind] in UF. eexists _, (p ++ [(i, idx_add g off)]). split; [exact UF|].
      split; [apply (safe_write st p (idx_add g off) nv); auto; exact (S4 _ _ Xn En)|].
      split; [apply KEEP|]. split; [rewrite app_length; cbn [length]; lia|]. unfold left_over. cbn [es_raise es_layer st_set with_layer with_open]. rewrite (hangs_vset _ _ _ _ En').
      change (hang (ev_queue nv true)) with (hang nv). lia.
  Qed.
  Lemma raise_all_total : forall xs st p g, (forall x, In x xs -> In x neighbors26) -> safe st p -> exact_index g -> at_index (es_layer st) g <> None ->
    Z.of_nat (length p) + Z.of_nat (length xs) < 2 ^ 64 ->
    exists st' p', rfold (raise_neighbor c g) xs st = Ok st' /\ safe st' p' /\ (length p' <= length xs + length p)%nat /\ left_over st' <= left_over st.
  Proof.
    induction xs as [|od xs IH]; intros st p g I SF X A L; cbn [rfold].
    - exists st, p. split; [reflexivity|]. split; [exact SF|]. split; [cbn; lia|lia].
    - cbn [length] in L. destruct (raise_one_total st p g od SF X A (I _ (or_introl eq_refl)) ltac:(lia)) as (st1 & p1 & E1 & SF1 & A1 & L1 & M1).
      rewrite E1. cbn [rbind]. destruct (IH st1 p1 g (fun x Hx => I x (or_intror Hx)) SF1 X A1 ltac:(lia)) as (st2 & p2 & E2 & SF2 & L2 & M2).
      exists st2, p2. split; [exact E2|]. split; [exact SF2|]. cbn [length]. split; lia.
  Qed.
  Lemma raise_total : forall fuel st p, safe st p -> left_over st <= Z.of_nat fuel -> Z.of_nat (length p) + 26 * left_over st < 2 ^ 64 ->
    exists st' p', processRaiseSet c fuel st = Ok (Some st') /\ safe st' p'.
  Proof.
    induction fuel as [|f IH]; intros st p SF M L; cbn [processRaiseSet]; destruct (es_raise st) as [|g r] eqn:E; [eauto| |eauto|].
    - exfalso. unfold left_over in M. rewrite E in M. cbn [length] in M. pose proof (hangs_range (es_layer st)). lia.
    - pose proof SF as (S1 & S2 & S3 & S4 & S5). destruct (S5 g) as (X & A); [rewrite E; left; reflexivity|].
      assert (SF0 : safe (with_raise st r) p).
      { repeat (split; [assumption|]). intros h K. apply S5. rewrite E. right. exact K. }
      assert (M0 : left_over (with_raise st r) = left_over st - 1) by (unfold left_over; rewrite E; cbn [es_raise es_layer with_raise length]; lia).
      assert (M1 : 0 <= left_over (with_raise st r)) by (unfold left_over; pose proof (hangs_range (es_layer (with_raise st r))); lia).
      destruct (raise_all_total neighbors26 (with_raise st r) p g (fun x H => H) SF0 X A) as (st1 & p1 & E1 & SF1 & L1 & M2).
      { change (length neighbors26) with 26%nat. lia. }
      unfold raise_visit. cbn [es_layer with_raise]. rewrite (reg_ptr_at _ _ S1 X). destruct (at_index (es_layer st) g); [|congruence]. cbn [rbind].
      rewrite E1. cbn [rbind]. change (length neighbors26) with 26%nat in L1. apply (IH st1 p1 SF1); lia.
  Qed.
End Ends.
