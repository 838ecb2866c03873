(** The propagation loop on regular layers, quasi-Euclidean mode: effect of one
    iteration, and the invariant behind "no neighbour can be improved". *)
From Coq Require Import ZArith List Bool Lia.
From Verif Require Import F32 F32_lemmas Types Index Neighbor Voxel Assoc Assoc_lemmas Layer Threads
  Queue Queue_spec Queue_proofs Planning Esdf Esdf_spec Esdf_proofs Esdf_float Esdf_grid Connect_proofs.
Import ListNotations.
Open Scope Z_scope.
Ltac Zify.zify_post_hook ::= idtac.

(** ** The queue *)
Notation pending := (list (Z * idx3)).
Definition inq (p : pending) (g : idx3) : Prop := exists b, In (b, g) p.
Lemma push_inv : forall (q : bq idx3) p g v q', qinv q p -> Z.of_nat (length p) + 1 < 2 ^ 64 ->
  bq_push q g v = Ok q' -> exists i, qinv q' (p ++ [(i, g)]).
Proof.
  intros q p g v q' HQ HL H.
  assert (K : exists i, bucket_of (bq_num q) (bq_max q) v = Some i /\ 0 <= i < bq_num q).
  { unfold bq_push in H; destruct (bq_num q =? 0); [discriminate|].
    destruct (bucket_of (bq_num q) (bq_max q) v) as [i|]; [|discriminate]; exists i; split; [reflexivity|].
    apply rbind_ok in H; destruct H as (bs & H & _); unfold bq_upd in H.
    destruct (Z.ltb_spec i 0); [discriminate|].
    destruct (nth_error (bq_buckets q) (Z.to_nat i)) eqn:E; [|discriminate].
    assert (Z.to_nat i < length (bq_buckets q))%nat by (apply nth_error_Some; congruence).
    rewrite (q_len _ _ HQ) in H1; lia. }
  destruct K as (i & K1 & K2); destruct (push_ok q p g v i HQ K1 K2 HL) as (q2 & E & HQ2 & _).
  rewrite H in E; injection E as <-; eauto.
Qed.
Lemma next_inq : forall (p r : pending) g, next p = Some (g, r) ->
  inq p g /\ (forall h, inq p h -> inq r h \/ h = g) /\ (forall h, inq r h -> inq p h) /\ length p = S (length r).
Proof.
  intros p r g H; unfold next in H; destruct (lowest p) as [m|]; [|discriminate].
  revert r H; induction p as [|(b, x) p IH]; intros r H; cbn [take] in H; [discriminate|].
  destruct (b =? m).
  - injection H as -> ->; repeat split.
    + exists b; left; reflexivity.
    + intros h (c & [E|E]); [injection E as -> ->; right; reflexivity | left; exists c; exact E].
    + intros h (c & E); exists c; right; exact E.
  - destruct (take m p) as [(y, r')|] eqn:E; [|discriminate]; injection H as -> <-.
    destruct (IH _ eq_refl) as ((c & A1) & A2 & A3 & A4); repeat split.
    + exists c; right; exact A1.
    + intros h (d & [D|D]); [injection D as -> ->; left; exists d; left; reflexivity|].
      destruct (A2 h (ex_intro _ d D)) as [(e & K)|K]; [left; exists e; right; exact K | right; exact K].
    + intros h (d & [D|D]); [injection D as -> ->; exists d; left; reflexivity|].
      destruct (A3 h (ex_intro _ d D)) as (e & K); exists e; right; exact K.
    + cbn [length]; lia.
Qed.
(** the elements of the buckets are the pending ones *)
Lemma keys_total : forall n (p : pending), (forall b x, In (b, x) p -> 0 <= b < Z.of_nat n) ->
  length (concat (map (fun i => keys_in (Z.of_nat i) p) (seq 0 n))) = length p.
Proof.
  intros n p; induction p as [|(b, x) p IH]; intros H.
  - induction (seq 0 n); [reflexivity | exact IHl].
  - assert (Hb : 0 <= b < Z.of_nat n) by (apply (H b x); left; reflexivity).
    specialize (IH (fun c y Hy => H c y (or_intror Hy))); cbn [length]; rewrite <- IH; clear IH H.
    assert (E : forall s m, Z.of_nat s <= b < Z.of_nat (s + m) ->
      length (concat (map (fun i => keys_in (Z.of_nat i) ((b, x) :: p)) (seq s m))) =
      S (length (concat (map (fun i => keys_in (Z.of_nat i) p) (seq s m))))).
    { intros s m; revert s; induction m as [|m IH]; intros s Hs; [lia|].
      cbn [seq map concat]; rewrite !app_length; unfold keys_in at 1; cbn [filter fst].
      destruct (Z.eqb_spec b (Z.of_nat s)) as [->|Hne].
      - cbn [map snd length]; fold (keys_in (Z.of_nat s) p).
        assert (E : map (fun i => keys_in (Z.of_nat i) ((Z.of_nat s, x) :: p)) (seq (S s) m) =
                    map (fun i => keys_in (Z.of_nat i) p) (seq (S s) m)).
        { apply map_ext_in; intros i Hi; apply in_seq in Hi; unfold keys_in; cbn [filter fst].
          destruct (Z.eqb_spec (Z.of_nat s) (Z.of_nat i)); [lia | reflexivity]. }
        rewrite E; lia.
      - fold (keys_in (Z.of_nat s) p); rewrite IH by lia; lia. }
    apply E; lia.
Qed.
Lemma nth_ext_map : forall A (l : list A) n (f : nat -> A), length l = n ->
  (forall i, (i < n)%nat -> nth_error l i = Some (f i)) -> l = map f (seq 0 n).
Proof.
  intros A l n f HL H; revert n f HL H; induction l as [|a l IH]; intros n f HL H; cbn [length] in HL; subst n; [reflexivity|].
  cbn [seq map]; f_equal.
  - specialize (H 0%nat ltac:(lia)); cbn in H; congruence.
  - rewrite <- seq_shift, map_map; apply IH; [reflexivity|].
    intros i Hi; apply (H (S i)); lia.
Qed.
Lemma waiting_length : forall st p, qinv (es_open st) p -> length (waiting st) = length p.
Proof.
  intros st p HQ; unfold waiting; pose proof (q_num _ _ HQ).
  rewrite (nth_ext_map _ (bq_buckets (es_open st)) (Z.to_nat (bq_num (es_open st))) (fun i => keys_in (Z.of_nat i) p) (q_len _ _ HQ)).
  - apply keys_total; intros b x Hb; pose proof (q_range _ _ HQ _ _ Hb); lia.
  - intros i Hi; rewrite <- (q_bucket _ _ HQ) by lia; rewrite Nat2Z.id; reflexivity.
Qed.

Section Open.
  Variable c : econfig.
  Hypothesis Hquasi : ec_full c = false.
  Hypothesis Hmd : small_pos (ec_min_diff c).

  (** ** One neighbour *)
  Lemma nb_reg : forall vs st g v off kd st', regular (es_layer st) -> exact_index g ->
    at_index (es_layer st) g = Some v -> In (off, kd) neighbors26 ->
    open_neighbor c vs g (adr (l_vps (es_layer st)) g) st (off, kd) = Ok st' ->
    exact_index (idx_add g off) /\
    match at_index (es_layer st) (idx_add g off) with
    | None => st' = st
    | Some nv =>
        if negb (e_observed nv) || e_fixed nv then st' = st
        else match open_value c (e_distance v) (e_distance nv) (fmul kd vs) with
             | None => st' = st
             | Some d' => open_store c st (idx_add g off) (adr (l_vps (es_layer st)) (idx_add g off)) nv d' (idx_opp off) = Ok st'
             end
    end.
  Proof.
    intros vs st g v off kd st' HR Hg Hv Hin H.
    pose proof (reg_at _ _ HR Hg) as Eg; rewrite Hv in Eg; symmetry in Eg.
    pose proof (at_exact _ _ _ _ HR Eg (proj1 (off_small _ _ Hin))) as Hn.
    split; [exact Hn|]; unfold open_neighbor in H; cbv zeta in H; cbn [fst snd] in H.
    rewrite (reg_ptr_at _ _ HR Hn) in H; cbn [rbind] in H.
    destruct (at_index (es_layer st) (idx_add g off)) as [nv|] eqn:En; [|congruence].
    rewrite (reg_at _ _ HR Hn) in En; unfold vget in H; rewrite En, Eg in H; cbn [of_opt rbind] in H.
    destruct (negb (e_observed nv) || e_fixed nv); [congruence|].
    unfold open_parent in H; rewrite Hquasi in H; cbn [rbind] in H.
    destruct (open_value c (e_distance v) (e_distance nv) (fmul kd vs)); [exact H | congruence].
  Qed.

  (** ** The store *)
  Lemma store_effect : forall st ng na nv d par st' p, open_store c st ng na nv d par = Ok st' ->
    qinv (es_open st) p -> Z.of_nat (length p) + 1 < 2 ^ 64 ->
    exists q p', es_layer st' = vset (k := KEsdf) (es_layer st) na (ev_queue (ev_parent (ev_dist nv d) par) q) /\
      qinv (es_open st') p' /\ (forall h, inq p h -> inq p' h) /\ (forall h, inq p' h -> inq p h \/ h = ng) /\
      (q = true -> e_in_queue nv = true \/ inq p' ng) /\ (e_in_queue nv = true \/ inq p' ng) /\
      (length p' <= S (length p))%nat /\ es_raise st' = es_raise st.
  Proof.
    intros st ng na nv d par st' p H HQ HL; unfold open_store in H; destruct (ec_multi c || negb (e_in_queue nv)) eqn:E.
    - apply rbind_ok in H; destruct H as (st1 & H1 & H2); injection H2 as <-.
      unfold open_push in H1; apply rbind_ok in H1; destruct H1 as (q1 & H1 & H2); injection H2 as <-.
      destruct (push_inv _ _ _ _ _ HQ HL H1) as (i & HQ1).
      assert (K : inq (p ++ [(i, ng)]) ng) by (exists i; apply in_app_iff; right; left; reflexivity).
      exists true, (p ++ [(i, ng)]); cbn [es_layer es_open st_set with_layer with_open es_raise]; split; [reflexivity|]; split; [exact HQ1|].
      repeat split; auto.
      + intros h (b & Hb); exists b; apply in_app_iff; left; exact Hb.
      + intros h (b & Hb); apply in_app_iff in Hb; destruct Hb as [Hb|[Hb|[]]]; [left; exists b; exact Hb|].
        injection Hb as <- <-; right; reflexivity.
      + rewrite app_length; cbn [length]; lia.
    - injection H as <-; apply orb_false_iff in E; destruct E as (_ & E); apply negb_false_iff in E.
      exists (e_in_queue nv), p; cbn [es_layer es_open st_set with_layer es_raise]; split; [reflexivity|]; split; [exact HQ|]; repeat split; auto.
  Qed.

  (** ** The invariant *)
  Record oinv (st : estate) (p : pending) : Prop := {
    oi_reg : regular (es_layer st);
    oi_q : qinv (es_open st) p;
    oi_in : forall g, inq p g -> exact_index g /\ exists v, at_index (es_layer st) g = Some v;
    oi_flag : forall g v, exact_index g -> at_index (es_layer st) g = Some v -> e_in_queue v = true -> inq p g }.

  Lemma store_oinv : forall st ng nv d par st' p, oinv st p -> exact_index ng -> at_index (es_layer st) ng = Some nv ->
    open_store c st ng (adr (l_vps (es_layer st)) ng) nv d par = Ok st' -> Z.of_nat (length p) + 1 < 2 ^ 64 ->
    exists p' q, oinv st' p' /\ (forall h, inq p h -> inq p' h) /\ inq p' ng /\ (length p' <= S (length p))%nat /\
      es_layer st' = vset (k := KEsdf) (es_layer st) (adr (l_vps (es_layer st)) ng) (ev_queue (ev_parent (ev_dist nv d) par) q).
  Proof.
    intros st ng nv d par st' p HI Hn En H HL.
    destruct (store_effect _ _ _ _ _ _ _ p H (oi_q _ _ HI) HL) as (q & p' & EL & HQ & A1 & A2 & A3 & A4 & A5 & _).
    assert (Hq : inq p' ng) by (destruct A4 as [A4|A4]; [apply A1, (oi_flag _ _ HI ng nv Hn En A4) | exact A4]).
    exists p', q; split; [|auto].
    pose proof (oi_reg _ _ HI) as HR.
    assert (HR' : regular (es_layer st')) by (rewrite EL; eapply reg_shape; [apply shape_vset | exact HR]).
    constructor; [exact HR' | exact HQ | |].
    - intros h Hh; destruct (A2 h Hh) as [Hp| ->].
      + destruct (oi_in _ _ HI h Hp) as (He & v & Hv); split; [exact He|].
        destruct (addr_dec (adr (l_vps (es_layer st)) h) (adr (l_vps (es_layer st)) ng)) as [E|E].
        * apply adr_inj in E; [|apply reg_vps_small, HR]; subst h; rewrite EL; eexists.
          apply (at_set _ _ ng _ _ HR Hn Hn En).
        * exists v; rewrite EL, (proj1 (at_set _ _ h _ _ HR Hn He En)); [exact Hv | congruence].
      + split; [exact Hn|]; rewrite EL; eexists; apply (at_set _ _ ng _ _ HR Hn Hn En).
    - intros h v He Hv Hf; destruct (addr_dec (adr (l_vps (es_layer st)) h) (adr (l_vps (es_layer st)) ng)) as [E|E].
      + apply adr_inj in E; [|apply reg_vps_small, HR]; subst h; exact Hq.
      + rewrite EL, (proj1 (at_set _ _ h _ _ HR Hn He En)) in Hv by congruence.
        apply A1, (oi_flag _ _ HI h v He Hv Hf).
  Qed.

  (** a neighbour that could be improved *)
  Definition imp (l : Layer KEsdf) (g off : idx3) : Prop := exists kd v nv,
    In (off, kd) neighbors26 /\ exact_index g /\ at_index l g = Some v /\ at_index l (idx_add g off) = Some nv /\
    e_observed v = true /\ beyond c (e_distance v) = false /\ e_observed nv = true /\ e_fixed nv = false /\
    improves c (e_distance v) (e_distance nv) (fmul kd (l_size l)) = true.
  (** a voxel that may change is on the side of its neighbours *)
  Definition separated (l : Layer KEsdf) : Prop := forall g off kd v nv,
    In (off, kd) neighbors26 -> exact_index g -> at_index l g = Some v -> at_index l (idx_add g off) = Some nv ->
    e_observed v = true -> e_observed nv = true -> e_fixed nv = false ->
    same_side (e_distance v) (e_distance nv).
  Definition sided (v v' : EsdfVoxel) : Prop :=
    frame v v' /\ (outside (e_distance v) -> outside (e_distance v')) /\ (inside (e_distance v) -> inside (e_distance v')).
  Lemma sided_refl : forall v, sided v v.
  Proof. intros v; split; [apply frame_refl | auto]. Qed.
  Lemma sided_trans : forall u v w, sided u v -> sided v w -> sided u w.
  Proof. intros u v w (A1 & A2 & A3) (B1 & B2 & B3); split; [eapply frame_trans; eassumption | auto]. Qed.
  Lemma writes_sided : forall vs l l', good_size vs -> writes c vs l l' -> lift_rel (k := KEsdf) sided l l'.
  Proof.
    intros vs l l' Hs; apply writes_lift.
    - exact sided_refl.
    - exact sided_trans.
    - intros v; split; [unfold frame; cbn; auto | auto].
    - intros v nv nv' off kd [H1 H2 H3 (pa & d & d' & q & K1 & K2 & -> & _)]; split.
      + unfold frame; cbn; repeat split; destruct H; congruence.
      + unfold open_parent in K1; rewrite Hquasi in K1; injection K1 as <- <-.
        apply (open_value_side c (e_distance v) _ (fmul kd vs)); [|exact K2].
        eapply (step_R vs off); [exact Hs | exists kd; auto].
  Qed.
  Lemma separated_lift : forall l l', lift_rel (k := KEsdf) sided l l' -> separated l -> separated l'.
  Proof.
    intros l l' HL HS g off kd v' nv' Hin Hg Ev En Ov On Fn.
    pose proof (lift_at _ _ _ g HL) as K1; pose proof (lift_at _ _ _ (idx_add g off) HL) as K2; rewrite Ev in K1; rewrite En in K2.
    destruct (at_index l g) as [v|] eqn:E1; [|contradiction]; destruct (at_index l (idx_add g off)) as [nv|] eqn:E2; [|contradiction].
    destruct K1 as ((O1 & _) & S1 & S2); destruct K2 as ((O2 & _ & F2 & _) & S3 & S4).
    destruct (HS g off kd v nv Hin Hg E1 E2 ltac:(congruence) ltac:(congruence) ltac:(congruence)) as [(A & B)|(A & B)]; [left | right]; auto.
  Qed.

  Lemma nbs_inv : forall xs g v st st' p,
    (forall x, In x xs -> In x neighbors26) -> NoDup (map fst xs) ->
    good_size (l_size (es_layer st)) ->
    oinv st p -> separated (es_layer st) -> exact_index g -> at_index (es_layer st) g = Some v -> e_observed v = true ->
    (forall g' off', imp (es_layer st) g' off' -> inq p g' \/ (g' = g /\ In off' (map fst xs))) ->
    Z.of_nat (length p) + Z.of_nat (length xs) < 2 ^ 64 ->
    rfold (open_neighbor c (l_size (es_layer st)) g (adr (l_vps (es_layer st)) g)) xs st = Ok st' ->
    exists p', oinv st' p' /\ (forall g' off', imp (es_layer st') g' off' -> inq p' g').
  Proof.
    induction xs as [|(off, kd) xs IH]; intros g v st st' p Hin Hnd Hgs HI HS Hg Hv Ho Himp HL H; cbn [rfold] in H.
    - injection H as <-; exists p; split; [exact HI|].
      intros g' off' K; destruct (Himp _ _ K) as [K'|(_ & [])]; exact K'.
    - apply rbind_ok in H; destruct H as (st1 & H1 & H2).
      pose proof (Hin _ (or_introl eq_refl)) as Hin1; pose proof (oi_reg _ _ HI) as HR.
      cbn [map fst] in Hnd; inversion Hnd as [|? ? Nin Hnd']; subst.
      assert (Hstep : step_pos (fmul kd (l_size (es_layer st)))) by (eapply (step_R _ off); [exact Hgs | exists kd; auto]).
      destruct (nb_reg _ _ _ _ _ _ _ HR Hg Hv Hin1 H1) as (Hn & K).
      cbn [length] in HL.
      assert (UN : st1 = st -> ~ imp (es_layer st) g off ->
         exists p', oinv st' p' /\ (forall g' off', imp (es_layer st') g' off' -> inq p' g')).
      { intros -> Hni; apply (IH g v st st' p); auto; try lia.
        - intros x Hx; apply Hin; right; exact Hx.
        - intros g' off' Ki; destruct (Himp _ _ Ki) as [K'|(-> & [E|K'])]; auto.
          cbn [fst] in E; subst off'; contradiction. }
      destruct (at_index (es_layer st) (idx_add g off)) as [nv|] eqn:En.
      2: { apply UN; [exact K|]; intros (kd' & v' & nv' & _ & _ & _ & E & _); rewrite En in E; discriminate E. }
      destruct (negb (e_observed nv) || e_fixed nv) eqn:Ef.
      { apply UN; [exact K|]; intros (kd' & v' & nv' & _ & _ & _ & E & _ & _ & E1 & E2 & _).
        rewrite En in E; injection E as <-; rewrite E1, E2 in Ef; discriminate. }
      apply orb_false_iff in Ef; destruct Ef as (Eo & Ef); apply negb_false_iff in Eo.
      pose proof (HS g off kd v nv Hin1 Hg Hv En Ho Eo Ef) as Hside.
      rewrite open_value_same in K by exact Hside.
      assert (KD : forall kd', In (off, kd') neighbors26 -> kd' = kd).
      { intros kd' Hk'; pose proof off_nodup as ND; clear - ND Hk' Hin1.
        induction neighbors26 as [|(o, k) l IH]; [contradiction|]; cbn [map fst] in ND; inversion ND; subst.
        destruct Hk' as [E|Hk'], Hin1 as [E'|Hin1]; try congruence; auto.
        - injection E as -> ->; exfalso; apply H1; change off with (fst (off, kd)); apply in_map; exact Hin1.
        - injection E' as -> ->; exfalso; apply H1; change off with (fst (off, kd')); apply in_map; exact Hk'. }
      destruct (improves c (e_distance v) (e_distance nv) (fmul kd (l_size (es_layer st)))) eqn:Ei.
      2: { apply UN; [exact K|]; intros (kd' & v' & nv' & Kin & _ & E0 & E & _ & _ & _ & _ & E1).
           rewrite En in E; injection E as <-; rewrite Hv in E0; injection E0 as <-.
           rewrite (KD _ Kin) in E1; congruence. }
      set (d' := if fgt (e_distance v) f0 then fadd (e_distance v) (fmul kd (l_size (es_layer st)))
                 else fsub (e_distance v) (fmul kd (l_size (es_layer st)))) in *.
      destruct (store_oinv _ _ _ _ _ _ _ HI Hn En K ltac:(lia)) as (p1 & q & HI1 & B1 & B2 & B3 & EL).
      assert (W : writes c (l_size (es_layer st)) (es_layer st) (es_layer st1)).
      { eapply open_neighbor_writes; [exact Hin1 | | | exact H1].
        - rewrite (reg_ptr_at _ _ HR Hg), Hv; reflexivity.
        - intros w Hw; rewrite <- (reg_at _ _ HR Hg), Hv in Hw; congruence. }
      assert (SH : same_shape (es_layer st) (es_layer st1)) by apply (writes_shape _ _ _ _ W).
      assert (ESZ : l_size (es_layer st1) = l_size (es_layer st)) by apply SH.
      assert (EVP : l_vps (es_layer st1) = l_vps (es_layer st)) by apply SH.
      assert (AT : forall h, exact_index h -> h <> idx_add g off -> at_index (es_layer st1) h = at_index (es_layer st) h)
        by (intros h He Hne; rewrite EL; apply (at_set _ _ h _ _ HR Hn He En); exact Hne).
      assert (ATN : at_index (es_layer st1) (idx_add g off) = Some (ev_queue (ev_parent (ev_dist nv d') (idx_opp off)) q))
        by (rewrite EL; apply (at_set _ _ (idx_add g off) _ _ HR Hn Hn En)).
      assert (Hgn : g <> idx_add g off) by (intros E; apply (add_off_neq g off (proj2 (off_small _ _ Hin1))); congruence).
      assert (CL : (outside (e_distance nv) /\ outside d' /\ flt d' (e_distance nv) = true) \/
                   (inside (e_distance nv) /\ inside d' /\ flt (e_distance nv) d' = true)).
      { destruct (improves_closer c _ _ _ Hmd Hstep Ei) as [(_ & A & B & _ & D)|(_ & A & B & _ & D)]; cbv zeta in *; [left | right]; auto. }
      rewrite <- ESZ, <- EVP in H2.
      apply (IH g v st1 st' p1); auto.
      + intros x Hx; apply Hin; right; exact Hx.
      + rewrite ESZ; exact Hgs.
      + eapply separated_lift; [eapply writes_sided; [exact Hgs | exact W] | exact HS].
      + rewrite (AT g Hg Hgn); exact Hv.
      + intros g' off' Ki; destruct (idx_eqb_spec g' (idx_add g off)) as [->|Hne]; [left; exact B2|].
        destruct Ki as (kd' & v' & nv' & Kin & Kg & Ka & Kb & Kc & Kd & Ke & Kf & Kh).
        rewrite (AT g' Kg Hne) in Ka; rewrite ESZ in Kh.
        destruct (idx_eqb_spec (idx_add g' off') (idx_add g off)) as [E|Hne2].
        * rewrite E, ATN in Kb; assert (EN : nv' = ev_queue (ev_parent (ev_dist nv d') (idx_opp off)) q) by congruence; clear Kb.
          subst nv'; cbn [e_distance ev_queue ev_parent ev_dist] in Kh.
          destruct (idx_eqb_spec g' g) as [->|Hg'].
          { apply add_off_inj in E; subst off'; rewrite (KD _ Kin) in Kh.
            rewrite Hv in Ka; injection Ka as <-; unfold d' in Kh; rewrite (improves_done c _ _ _ Hmd Hstep Ei) in Kh; discriminate. }
          destruct (Himp g' off') as [K'|(K' & _)]; [|left; apply B1, K' | contradiction].
          exists kd', v', nv; rewrite E; repeat (split; [assumption|]).
          apply (improves_mono c _ _ d'); assumption.
        * assert (Kx : exact_index (idx_add g' off')).
          { pose proof Ka as Ka'; rewrite (reg_at _ _ HR Kg) in Ka'; eapply at_exact; [exact HR | exact Ka' | apply (off_small _ _ Kin)]. }
          rewrite (AT _ Kx Hne2) in Kb.
          destruct (Himp g' off') as [K'|(-> & [K'|K'])].
          { exists kd', v', nv'; repeat (split; [assumption|]); assumption. }
          { left; apply B1, K'. }
          { cbn [fst] in K'; subst off'; congruence. }
          { right; auto. }
      + lia.
  Qed.

  (** one iteration *)
  Lemma pop_oinv : forall st st' p, good_size (l_size (es_layer st)) -> oinv st p -> separated (es_layer st) ->
    (forall g off, imp (es_layer st) g off -> inq p g) -> Z.of_nat (length p) <= 2 ^ 63 ->
    bq_empty (es_open st) = false -> open_pop c st = Ok st' ->
    exists p', oinv st' p' /\ separated (es_layer st') /\ (forall g off, imp (es_layer st') g off -> inq p' g).
  Proof.
    intros st st' p Hgs HI HS Himp HL Hne H; pose proof (oi_reg _ _ HI) as HR.
    assert (SEP : separated (es_layer st')) by (eapply separated_lift; [eapply writes_sided; [exact Hgs | apply open_pop_writes, H] | exact HS]).
    apply open_pop_visit in H; destruct H as (q1 & g & q & H1 & H2 & H).
    pose proof (front_ok (es_open st) p (oi_q _ _ HI)) as F; rewrite (empty_ok _ _ (oi_q _ _ HI)) in Hne.
    destruct (next_some p) as (m & g' & r & _ & En & _); [intros ->; discriminate|]; rewrite En in F.
    destruct F as (q1' & F1 & _ & _ & F2); rewrite F1 in H1; injection H1 as <- <-.
    destruct (pop_ok _ _ F2 ltac:(lia)) as (q' & F3 & _ & _ & F4); rewrite F3 in H2; injection H2 as <-; rewrite En in F4.
    destruct (next_inq _ _ _ En) as (N1 & N2 & N3 & N4).
    destruct (oi_in _ _ HI _ N1) as (Hg & v & Hv).
    unfold open_visit in H; cbn [es_layer with_open] in H.
    rewrite (reg_ptr_at _ _ HR Hg), Hv in H; cbn [rbind] in H.
    pose proof Hv as Hv'; rewrite (reg_at _ _ HR Hg) in Hv'; unfold vget in H; rewrite Hv' in H; cbn [of_opt rbind] in H; cbv zeta in H.
    set (st1 := st_set (with_open st q') (adr (l_vps (es_layer st)) g') (ev_queue v false)) in *.
    assert (EL : es_layer st1 = vset (k := KEsdf) (es_layer st) (adr (l_vps (es_layer st)) g') (ev_queue v false)) by reflexivity.
    assert (AT : forall h, exact_index h -> h <> g' -> at_index (es_layer st1) h = at_index (es_layer st) h)
      by (intros h He Hne'; rewrite EL; apply (at_set _ _ h _ _ HR Hg He Hv); exact Hne').
    assert (ATG : at_index (es_layer st1) g' = Some (ev_queue v false)) by (rewrite EL; apply (at_set _ _ g' _ _ HR Hg Hg Hv)).
    assert (SH : same_shape (es_layer st) (es_layer st1)) by (rewrite EL; apply shape_vset).
    assert (HR1 : regular (es_layer st1)) by (eapply reg_shape; eassumption).
    assert (HI1 : oinv st1 r).
    { constructor; [exact HR1 | exact F4 | |].
      - intros h Hh; destruct (oi_in _ _ HI h (N3 h Hh)) as (He & w & Hw); split; [exact He|].
        destruct (idx_eqb_spec h g') as [->|Hn]; [eauto | rewrite (AT h He Hn); eauto].
      - intros h w He Hw Hf; destruct (idx_eqb_spec h g') as [->|Hn].
        + rewrite ATG in Hw; injection Hw as <-; discriminate.
        + rewrite (AT h He Hn) in Hw; destruct (N2 h (oi_flag _ _ HI h w He Hw Hf)); [assumption | contradiction]. }
    assert (IMP1 : forall h off, imp (es_layer st1) h off -> imp (es_layer st) h off).
    { intros h off (kd & w & nw & Ki & Kg & Ka & Kb & Kc & Kd & Ke & Kf & Kh).
      assert (Kx : exact_index (idx_add h off)).
      { rewrite (reg_at _ _ HR1 Kg) in Ka; eapply at_exact; [exact HR1 | exact Ka | apply (off_small _ _ Ki)]. }
      assert (X : forall i u, exact_index i -> at_index (es_layer st1) i = Some u -> exists u', at_index (es_layer st) i = Some u' /\
        e_distance u' = e_distance u /\ e_observed u' = e_observed u /\ e_fixed u' = e_fixed u).
      { intros i u He Hu; destruct (idx_eqb_spec i g') as [->|Hn].
        - rewrite ATG in Hu; assert (u = ev_queue v false) by congruence; subst u; exists v; cbn; auto.
        - rewrite (AT i He Hn) in Hu; eauto. }
      destruct (X h w Kg Ka) as (w' & W1 & W2 & W3 & W4); destruct (X _ nw Kx Kb) as (nw' & V1 & V2 & V3 & V4).
      exists kd, w', nw'; rewrite W2, W3, V2, V3, V4; rewrite (proj1 SH) in Kh; auto 10. }
    destruct (negb (e_observed v) || beyond c (e_distance v)) eqn:Eb.
    { injection H as <-; exists r; split; [exact HI1|]; split; [exact SEP|].
      intros h off K; destruct (N2 h (Himp _ _ (IMP1 _ _ K))) as [K'| ->]; [exact K'|].
      destruct K as (kd & w & nw & _ & _ & Ka & _ & Kc & Kd & _); rewrite ATG in Ka; injection Ka as <-.
      cbn [e_observed e_distance ev_queue] in Kc, Kd; rewrite Kc, Kd in Eb; discriminate. }
    apply orb_false_iff in Eb; destruct Eb as (Eo & Eb); apply negb_false_iff in Eo.
    assert (SEP1 : separated (es_layer st1)).
    { eapply separated_lift; [|exact HS]; rewrite EL; eapply lift_vset; [exact sided_refl | exact Hv' |].
      split; [unfold frame; cbn; auto | auto]. }
    rewrite <- (proj1 SH) in H, Hgs; rewrite <- (proj1 (proj2 SH)) in H.
    destruct (nbs_inv neighbors26 g' (ev_queue v false) st1 st' r) as (p' & P1 & P2); auto.
    - apply off_nodup.
    - intros h off K; destruct (N2 h (Himp _ _ (IMP1 _ _ K))) as [K'| ->]; [left; exact K'|].
      right; split; [reflexivity|]; destruct K as (kd & w & nw & Ki & _); change off with (fst (off, kd)); apply in_map, Ki.
    - change (length neighbors26) with 26%nat; lia.
    - exists p'; auto.
  Qed.
  Lemma steps_oinv : forall st st', open_steps c st st' -> forall p, good_size (l_size (es_layer st)) -> oinv st p ->
    separated (es_layer st) -> (forall g off, imp (es_layer st) g off -> inq p g) ->
    (forall st1, open_steps c st st1 -> Z.of_nat (length (waiting st1)) <= 2 ^ 63) ->
    exists p', oinv st' p' /\ separated (es_layer st') /\ (forall g off, imp (es_layer st') g off -> inq p' g).
  Proof.
    induction 1; intros p Hgs HI HS Himp HB; [exists p; auto|].
    destruct (pop_oinv st st1 p Hgs HI HS Himp) as (p1 & I1 & S1 & M1); auto.
    { rewrite <- (waiting_length _ _ (oi_q _ _ HI)); apply HB; constructor. }
    apply (IHopen_steps p1); auto.
    - rewrite (proj1 (writes_shape _ _ _ _ (open_pop_writes _ _ _ H0))); exact Hgs.
    - intros st3 H3; apply HB; econstructor; eassumption.
  Qed.
End Open.
