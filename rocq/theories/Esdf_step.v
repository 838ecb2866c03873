(** Effect of one iteration of the propagation, and the paths behind the distances
    of a finished batch update. *)
From Coq Require Import ZArith List Bool Lia Reals Lra.
From Flocq Require Import Core.
From Verif Require Import F32 F32_lemmas F32_err Types Index Neighbor Voxel Serialize Assoc Assoc_lemmas Layer Threads Threads_proofs
  Index_proofs Queue Queue_spec Queue_proofs Planning Esdf Esdf_spec Esdf_proofs Esdf_float Esdf_range Esdf_grid Esdf_open Esdf_batch Esdf_term Esdf_total Connect_proofs.
Import ListNotations.
Open Scope Z_scope.
Ltac Zify.zify_post_hook ::= idtac.

Section Step.
  Variable c : econfig.
  Hypothesis Hquasi : ec_full c = false.
  Hypothesis Hmd : small_pos (ec_min_diff c).

  Lemma open_value_cases : forall vd nd d d', step_pos d -> open_value c vd nd d = Some d' ->
    (outside vd /\ outside nd /\ d' = fadd vd d /\ flt d' nd = true /\ outside d') \/
    (inside vd /\ inside nd /\ d' = fsub vd d /\ flt nd d' = true /\ inside d') \/
    (outside vd /\ inside nd /\ inside d') \/ (inside vd /\ outside nd /\ outside d').
  Proof.
    intros vd nd d d' Hd H; destruct (open_value_side c vd nd d d' Hd H) as (S1 & S2).
    destruct (fnan vd) eqn:Nv.
    { exfalso; unfold open_value in H.
      assert (G : fgt vd f0 = false) by (destruct (fgt vd f0) eqn:E; [|reflexivity]; apply flt_iff in E; destruct E as (_ & E & _); congruence).
      assert (G' : fle vd f0 = false) by (destruct (fle vd f0) eqn:E; [|reflexivity]; apply fle_iff in E; destruct E as (E & _); congruence).
      rewrite G, G' in H; cbn [andb] in H.
      match type of H with (if ?b then _ else _) = _ => destruct b eqn:E; [|discriminate] end.
      apply flt_iff in E; destruct E as (_ & E & _); rewrite fabs_nan, fsub_nan_l in E; [discriminate | apply fsub_nan_l, Nv]. }
    destruct (fnan nd) eqn:Nn.
    { exfalso; unfold open_value in H.
      assert (G : fgt nd f0 = false) by (destruct (fgt nd f0) eqn:E; [|reflexivity]; apply flt_iff in E; destruct E as (_ & E & _); congruence).
      assert (G' : fle nd f0 = false) by (destruct (fle nd f0) eqn:E; [|reflexivity]; apply fle_iff in E; destruct E as (E & _); congruence).
      rewrite G, G', !andb_false_r in H.
      match type of H with (if ?b then _ else _) = _ => destruct b eqn:E; [|discriminate] end.
      apply flt_iff in E; destruct E as (_ & E & _); rewrite fabs_nan, fsub_nan_r in E; [discriminate | exact Nn]. }
    assert (SAME : same_side vd nd -> (outside vd /\ outside nd /\ d' = fadd vd d /\ flt d' nd = true /\ outside d') \/
      (inside vd /\ inside nd /\ d' = fsub vd d /\ flt nd d' = true /\ inside d')).
    { intros HS; rewrite open_value_same in H by exact HS; destruct (improves c vd nd d) eqn:E; [|discriminate]; injection H as <-.
      destruct (improves_closer c vd nd d Hmd Hd E) as [(A & B & D & K & F)|(A & B & D & K & F)]; cbv zeta in *; rewrite K in *;
        [left | right]; split; try assumption; split; try assumption; split; try reflexivity; split; assumption. }
    destruct (side_dec vd Nv) as [Sv|Sv], (side_dec nd Nn) as [Sn|Sn].
    - destruct SAME as [K|K]; [left; auto | left; exact K | right; left; exact K].
    - right; right; left; auto.
    - right; right; right; auto.
    - destruct SAME as [K|K]; [right; auto | left; exact K | right; left; exact K].
  Qed.

  Lemma nbs_effect : forall vs xs g v st st', good_size vs -> (forall x, In x xs -> In x neighbors26) -> NoDup (map fst xs) ->
    regular (es_layer st) -> exact_index g -> at_index (es_layer st) g = Some v -> e_observed v = true ->
    rfold (open_neighbor c vs g (adr (l_vps (es_layer st)) g)) xs st = Ok st' ->
    forall h w, exact_index h -> at_index (es_layer st) h = Some w -> exists w', at_index (es_layer st') h = Some w' /\
      (w' = w \/ exists off kd, In (off, kd) xs /\ h = idx_add g off /\ relaxed (fmul kd vs) off v w w').
  Proof.
    intros vs xs; induction xs as [|(off, kd) xs IH]; intros g v st st' Hs Hin ND HR Hg Hv Ho H h w Hh Hw; cbn [rfold] in H.
    - injection H as <-; exists w; auto.
    - cbn [map fst] in ND; inversion ND as [|? ? Nin ND']; subst.
      apply rbind_ok in H; destruct H as (st1 & H1 & H).
      pose proof (Hin _ (or_introl eq_refl)) as Hin1.
      destruct (nb_reg c Hquasi vs st g v off kd st1 HR Hg Hv Hin1 H1) as (Hn & E).
      assert (ONE : same_shape (es_layer st) (es_layer st1) /\ at_index (es_layer st1) g = Some v /\
        (forall h, exact_index h -> h <> idx_add g off -> at_index (es_layer st1) h = at_index (es_layer st) h) /\
        (forall w, at_index (es_layer st) (idx_add g off) = Some w -> exists w', at_index (es_layer st1) (idx_add g off) = Some w' /\ (w' = w \/ relaxed (fmul kd vs) off v w w'))).
      { assert (Hgn : g <> idx_add g off) by (intros X; apply (add_off_neq g off (proj2 (off_small _ _ Hin1))); congruence).
        destruct (at_index (es_layer st) (idx_add g off)) as [nv|] eqn:En.
        2: { subst st1; split; [apply shape_refl|]; split; [exact Hv|]; split; [auto|]; intros w' K; discriminate. }
        assert (SAME : st1 = st -> same_shape (es_layer st) (es_layer st1) /\ at_index (es_layer st1) g = Some v /\
          (forall h, exact_index h -> h <> idx_add g off -> at_index (es_layer st1) h = at_index (es_layer st) h) /\
          (forall w, Some nv = Some w -> exists w', at_index (es_layer st1) (idx_add g off) = Some w' /\ (w' = w \/ relaxed (fmul kd vs) off v w w'))).
        { intros ->; split; [apply shape_refl|]; split; [exact Hv|]; split; [auto|]; intros w' K; exists w'; split; [congruence | auto]. }
        destruct (negb (e_observed nv) || e_fixed nv) eqn:Eo; [apply SAME, E|].
        destruct (open_value c (e_distance v) (e_distance nv) (fmul kd vs)) as [d'|] eqn:Ev; [|apply SAME, E].
        assert (EL : exists q, es_layer st1 = vset (k := KEsdf) (es_layer st) (adr (l_vps (es_layer st)) (idx_add g off)) (ev_queue (ev_parent (ev_dist nv d') (idx_opp off)) q)).
        { unfold open_store in E; destruct (ec_multi c || negb (e_in_queue nv)).
          - apply rbind_ok in E; destruct E as (st2 & E1 & E2); injection E2 as <-; rewrite <- (open_push_layer _ _ _ _ E1); eexists; reflexivity.
          - injection E as <-; exists (e_in_queue nv); reflexivity. }
        destruct EL as (q & EL); rewrite EL.
        set (w1 := ev_queue (ev_parent (ev_dist nv d') (idx_opp off)) q) in *.
        split; [apply shape_vset|]; split; [|split].
        - rewrite (proj1 (at_set (k := KEsdf) _ _ g w1 _ HR Hn Hg En)); assumption.
        - intros k Hk Nk; apply (at_set (k := KEsdf) _ _ k w1 _ HR Hn Hk En), Nk.
        - intros w0 K; injection K as <-; exists w1; split; [apply (at_set (k := KEsdf) _ _ _ w1 _ HR Hn Hn En)|]; right.
          apply orb_false_iff in Eo; destruct Eo as (Eo & Ef); apply negb_false_iff in Eo.
          destruct (step_R vs off (fmul kd vs) Hs) as (Hsp & _); [exists kd; auto|].
          unfold relaxed; cbn [w1 e_distance e_parent ev_queue ev_parent ev_dist]; split; [exact Ho|]; split; [exact Eo|]; split; [exact Ef|]; split; [reflexivity|].
          apply open_value_cases; assumption. }
      destruct ONE as (SH & V1 & OTHER & HERE).
      assert (REST := IH g v st1 st' Hs (fun x Hx => Hin x (or_intror Hx)) ND' (reg_shape _ _ SH HR) Hg V1 Ho).
      rewrite (proj1 (proj2 SH)) in REST; specialize (REST H).
      destruct (idx_eqb_spec h (idx_add g off)) as [->|Nh].
      + destruct (HERE w Hw) as (w1 & W1 & W2); destruct (REST _ w1 Hn W1) as (w' & W3 & W4); exists w'; split; [exact W3|].
        destruct W4 as [->|(off' & kd' & K1 & K2 & _)].
        * destruct W2 as [->|W2]; [auto|]; right; exists off, kd; split; [left; reflexivity | auto].
        * exfalso; apply add_off_inj in K2; subst off'; apply Nin; change off with (fst (off, kd')); apply in_map, K1.
      + rewrite <- (OTHER h Hh Nh) in Hw; destruct (REST h w Hh Hw) as (w' & W3 & [E4|(off' & kd' & K1 & K2 & K3)]); exists w'; (split; [exact W3|]).
        * left; exact E4.
        * right; exists off', kd'; split; [right; exact K1 | auto].
  Qed.

  Lemma pop_effect : forall st st' q g, good_size (l_size (es_layer st)) -> regular (es_layer st) ->
    bq_front (es_open st) = Ok (q, g) -> exact_index g -> open_pop c st = Ok st' ->
    exists v : EsdfVoxel, at_index (es_layer st) g = Some v /\
      forall h (w : EsdfVoxel), exact_index h -> at_index (es_layer st) h = Some w -> exists w', at_index (es_layer st') h = Some w' /\
        (untouched w w' \/ exists off step, is_step (l_size (es_layer st)) off step /\ h = idx_add g off /\ relaxed step off v w w').
  Proof.
    intros st st' q g Hs HR Hf Hg H; destruct (open_pop_visit c _ _ H) as (q1 & g1 & q2 & F1 & _ & F3).
    rewrite Hf in F1; injection F1 as <- <-.
    unfold open_visit in F3; cbn [es_layer with_open] in F3; rewrite (reg_ptr_at _ _ HR Hg) in F3; cbn [rbind] in F3.
    destruct (at_index (es_layer st) g) as [v|] eqn:Hv; [|discriminate]; exists v; split; [reflexivity|].
    pose proof Hv as Hv'; rewrite (reg_at _ _ HR Hg) in Hv'; unfold vget in F3; rewrite Hv' in F3; cbn [of_opt rbind] in F3; cbv zeta in F3.
    set (st1 := st_set (with_open st q2) (adr (l_vps (es_layer st)) g) (ev_queue v false)) in *.
    assert (AT : forall h w, exact_index h -> at_index (es_layer st) h = Some w -> exists b, at_index (es_layer st1) h = Some (ev_queue w b)).
    { intros h w Hh Hw; cbn [es_layer st1 st_set with_layer with_open].
      destruct (at_set (k := KEsdf) (es_layer st) g h (ev_queue v false) v HR Hg Hh Hv) as (A1 & A2); destruct (idx_eqb_spec h g) as [->|N].
      - rewrite A2; rewrite Hv in Hw; injection Hw as <-; eauto.
      - rewrite (A1 N), Hw; exists (e_in_queue w); destruct w; reflexivity. }
    destruct (negb (e_observed v) || beyond c (e_distance v)) eqn:Eb.
    - injection F3 as <-; intros h w Hh Hw; destruct (AT h w Hh Hw) as (b & A); eexists; split; [exact A|]; left; split; reflexivity.
    - apply orb_false_iff in Eb; destruct Eb as (Eo & _); apply negb_false_iff in Eo.
      intros h w Hh Hw; destruct (AT h w Hh Hw) as (b & A).
      assert (SH : same_shape (es_layer st) (es_layer st1)) by apply shape_vset.
      pose proof (nbs_effect (l_size (es_layer st)) neighbors26 g (ev_queue v false) st1 st' Hs (fun x Hx => Hx) off_nodup
        (reg_shape _ _ SH HR) Hg (proj2 (at_set (k := KEsdf) (es_layer st) g g (ev_queue v false) v HR Hg Hg Hv)) Eo) as NE.
      rewrite (proj1 (proj2 SH)) in NE; specialize (NE F3 h (ev_queue w b) Hh A); destruct NE as (w' & W1 & W2).
      exists w'; split; [exact W1|]; destruct W2 as [->|(off & kd & K1 & K2 & K3)]; [left; split; reflexivity|].
      right; exists off, (fmul kd (l_size (es_layer st))); split; [exists kd; auto|]; split; [exact K2|]; exact K3.
  Qed.
End Step.

(** ** A step is visible in the distance *)
Section Strict.
  Open Scope R_scope.
  Local Instance prec24 : Prec_gt_0 24 := eq_refl.
  Local Instance fv32 : Valid_exp (FLT_exp (-149) 24) := FLT_exp_valid (-149) 24.
  Local Instance fm32 : Monotone_exp (FLT_exp (-149) 24) := FLT_exp_monotone (-149) 24.
  Lemma ulp_small : forall x m s, (Rabs x <= Rabs m)%R -> generic_format radix2 (FLT_exp (-149) 24) m -> generic_format radix2 (FLT_exp (-149) 24) s ->
    (0 < s)%R -> (Rabs m <= bpow radix2 23 * s)%R -> (ulp radix2 (FLT_exp (-149) 24) x <= s)%R.
  Proof.
    intros x m s Hx Fm Fs Ps Hm.
    apply Rle_trans with (ulp radix2 (FLT_exp (-149) 24) m).
    { apply (@ulp_le radix2 (FLT_exp (-149) 24) fv32 fm32 x m Hx). }
    destruct (Rle_or_lt (bpow radix2 (-149 + 24 - 1)) (Rabs m)) as [H|H].
    - apply Rle_trans with (Rabs m * bpow radix2 (1 - 24)); [apply ulp_FLT_le; exact H|].
      apply Rle_trans with (bpow radix2 23 * s * bpow radix2 (1 - 24)).
      + apply Rmult_le_compat_r; [apply bpow_ge_0 | exact Hm].
      + rewrite Rmult_comm, <- Rmult_assoc, <- bpow_plus; cbn; lra.
    - apply Rle_trans with (ulp radix2 (FLT_exp (-149) 24) s); [|apply (ulp_le_id radix2 (FLT_exp (-149) 24) s Ps Fs)].
      apply Rle_trans with (ulp radix2 (FLT_exp (-149) 24) 0); [|apply (@ulp_ge_ulp_0 radix2 (FLT_exp (-149) 24) fv32 (@monotone_exp_not_FTZ (FLT_exp (-149) 24) fv32 fm32) s)].
      rewrite (@ulp_FLT_small radix2 (-149) 24 prec24 m), (@ulp_FLT_small radix2 (-149) 24 prec24 0); [apply Rle_refl | | ].
      + rewrite Rabs_R0; apply bpow_gt_0.
      + apply Rlt_le_trans with (1 := H), bpow_le; lia.
  Qed.
  (** a float between 0 and [m] plus a step that is not tiny against [m] *)
  Lemma step_up : forall x m s, ffin x = true -> ffin m = true -> ffin s = true -> 0 <= FR x <= FR m -> 0 < FR s ->
    FR m <= bpow radix2 23 * FR s -> FR x < rnd32 (FR x + FR s).
  Proof.
    intros x m s Fx Fm Fs Hx Hs Hm.
    assert (U : ulp radix2 (FLT_exp (-149) 24) (FR x) <= FR s).
    { apply (ulp_small (FR x) (FR m) (FR s)); [rewrite !Rabs_pos_eq by lra; lra | apply FR_format | apply FR_format | exact Hs | rewrite Rabs_pos_eq by lra; exact Hm]. }
    assert (G : generic_format radix2 (FLT_exp (-149) 24) (FR x + ulp radix2 (FLT_exp (-149) 24) (FR x)))
      by (apply (@generic_format_plus_ulp radix2 (FLT_exp (-149) 24) fv32 fm32), FR_format).
    assert (P : 0 < ulp radix2 (FLT_exp (-149) 24) (FR x)).
    { destruct (Req_dec (FR x) 0) as [Z|Z].
      - rewrite Z, (@ulp_FLT_small radix2 (-149) 24 prec24 0); [apply bpow_gt_0 | rewrite Rabs_R0; apply bpow_gt_0].
      - rewrite ulp_neq_0 by exact Z; apply bpow_gt_0. }
    apply Rlt_le_trans with (FR x + ulp radix2 (FLT_exp (-149) 24) (FR x)); [lra|].
    unfold rnd32; rewrite <- (round_generic radix2 (FLT_exp (-149) 24) ZnearestE _ G) at 1; apply rnd32_le; lra.
  Qed.
End Strict.

(** ** Paths *)
Section Paths.
  Variable c : econfig.
  Variable vs : f32.
  Hypothesis Hc : valid_config c vs.
  Hypothesis Hfine : (FR (ec_max c) <= bpow radix2 22 * FR vs)%R.

  Lemma child_rank : forall v w off kd, In (off, kd) neighbors26 -> child c v w (fmul kd vs) -> rank (e_distance v) < rank (e_distance w).
  Proof.
    intros v w off kd Hin (_ & HB & _ & H); destruct (step_ok c vs Hc off kd Hin) as ((Fs & Ps) & _).
    destruct (step_R vs off (fmul kd vs) (Hgs c vs Hc)) as (_ & S1 & _); [exists kd; auto|].
    destruct (vc_max _ _ Hc) as (FM & PM & _); unfold beyond in HB; apply orb_false_iff in HB; destruct HB as (B1 & B2).
    assert (FINE : (FR (ec_max c) <= bpow radix2 23 * FR (fmul kd vs))%R).
    { apply Rle_trans with (1 := Hfine); apply Rmult_le_compat; [apply bpow_ge_0 | | apply bpow_le; lia | exact S1].
      destruct (vc_size _ _ Hc) as (_ & P & _); lra. }
    destruct H as [(A & B & K)|(A & B & K)]; pose proof A as A0; pose proof B as B0;
      [apply outside_iff in A; apply outside_iff in B | apply inside_iff in A; apply inside_iff in B]; destruct A as (Nv & A), B as (Nw & B); apply fle_iff in K; destruct K as (_ & _ & K).
    - apply rank_out; [exact B0 | exact A0 |]; apply flt_iff; split; [exact Nv|]; split; [exact Nw|].
      apply Rlt_le_trans with (2 := K).
      assert (LM : (ER (e_distance v) < FR (ec_max c))%R).
      { unfold fge in B1; destruct (Rlt_or_le (ER (e_distance v)) (FR (ec_max c))) as [L|L]; [exact L|].
        rewrite (proj2 (fle_iff (ec_max c) (e_distance v))) in B1; [discriminate|]; split; [apply ffin_nnan, FM|]; split; [exact Nv|].
        rewrite (ER_fin (ec_max c)) by exact FM; exact L. }
      assert (Fv : ffin (e_distance v) = true).
      { pose proof (FR_lt_max (ec_max c)) as MM; apply Rabs_def2 in MM; destruct (e_distance v) as [s|[|]|s q Hq|s m e Hme]; try reflexivity; try discriminate; cbn [ER] in *; lra. }
      rewrite (ER_fin (e_distance v)) in * by exact Fv; rewrite fadd_ER by assumption.
      pose proof (step_up (e_distance v) (ec_max c) (fmul kd vs) Fv FM Fs) as U.
      pose proof (FR_lt_max (e_distance v)) as MV; apply Rabs_def2 in MV; unfold clip32.
      apply Rlt_le_trans with (Rmin max32 (rnd32 (FR (e_distance v) + FR (fmul kd vs)))); [|apply Rmax_r].
      apply Rmin_glb_lt; [lra | apply U; lra].
    - apply rank_in; [exact B0 | exact A0 |]; apply flt_iff; split; [exact Nw|]; split; [exact Nv|].
      apply Rle_lt_trans with (1 := K).
      assert (LM : (- FR (ec_max c) < ER (e_distance v))%R).
      { destruct (Rlt_or_le (- FR (ec_max c)) (ER (e_distance v))) as [L|L]; [exact L|].
        rewrite (proj2 (fle_iff (e_distance v) (fneg (ec_max c)))) in B2; [discriminate|]; split; [exact Nv|].
        assert (F' : ffin (fneg (ec_max c)) = true) by (rewrite fneg_fin; exact FM); split; [apply ffin_nnan, F'|].
        rewrite (ER_fin (fneg (ec_max c))) by exact F'; rewrite fneg_R; exact L. }
      assert (Fv : ffin (e_distance v) = true).
      { pose proof (FR_lt_max (ec_max c)) as MM; apply Rabs_def2 in MM; destruct (e_distance v) as [s|[|]|s q Hq|s m e Hme]; try reflexivity; try discriminate; cbn [ER] in *; lra. }
      rewrite (ER_fin (e_distance v)) in * by exact Fv; rewrite fsub_ER by assumption.
      assert (Fn : ffin (fneg (e_distance v)) = true) by (rewrite fneg_fin; exact Fv).
      pose proof (step_up (fneg (e_distance v)) (ec_max c) (fmul kd vs) Fn FM Fs) as U; rewrite fneg_R in U.
      replace (- FR (e_distance v) + FR (fmul kd vs))%R with (- (FR (e_distance v) - FR (fmul kd vs)))%R in U by ring; rewrite rnd32_opp in U.
      pose proof (FR_lt_max (e_distance v)) as MV; apply Rabs_def2 in MV; unfold clip32.
      apply Rle_lt_trans with (Rmax (- max32) (rnd32 (FR (e_distance v) - FR (fmul kd vs)))); [apply Rle_max_compat_l, Rmin_r|].
      apply Rmax_lub_lt; [lra|]; enough (- FR (e_distance v) < - rnd32 (FR (e_distance v) - FR (fmul kd vs)))%R by lra; apply U; lra.
  Qed.

  Lemma no_imp_follows : forall (L : Layer KEsdf) g off kd (v w : EsdfVoxel), l_size L = vs -> (forall g off, imp c L g off -> False) ->
    In (off, kd) neighbors26 -> exact_index g -> at_index L g = Some v -> at_index L (idx_add g off) = Some w ->
    e_observed v = true -> e_observed w = true -> e_fixed w = false -> beyond c (e_distance v) = false ->
    (outside (e_distance v) -> outside (e_distance w) -> fle (e_distance w) (fadd (fadd (e_distance v) (fmul kd vs)) (ec_min_diff c)) = true) /\
    (inside (e_distance v) -> inside (e_distance w) -> fle (fsub (fsub (e_distance v) (fmul kd vs)) (ec_min_diff c)) (e_distance w) = true).
  Proof.
    intros L g off kd v w Hsz HN Hin Hg Hv Hw Ov Ow Fw Bv.
    destruct (step_ok c vs Hc off kd Hin) as (Hsp & _); pose proof (step_small _ Hsp) as Hss; pose proof (Hmd c vs Hc) as Hm.
    destruct (improves c (e_distance v) (e_distance w) (fmul kd vs)) eqn:E.
    { exfalso; apply (HN g off); exists kd, v, w; rewrite Hsz; split; [exact Hin|]; split; [exact Hg|]; split; [exact Hv|]; split; [exact Hw|].
      split; [exact Ov|]; split; [exact Bv|]; split; [exact Ow|]; split; [exact Fw | exact E]. }
    unfold improves in E; apply orb_false_iff in E; destruct E as (E1 & E2).
    split; intros A B; pose proof A as A0; pose proof B as B0.
    - change (fgt (e_distance v) f0 = true) in A; change (fgt (e_distance w) f0 = true) in B; rewrite A, B in E1; cbn [andb] in E1.
      apply outside_iff in A0; apply outside_iff in B0; destruct A0 as (Nv & _), B0 as (Nw & _).
      destruct (fadd_ge _ _ Nv Hss) as (N1 & _); destruct (fadd_ge _ _ N1 Hm) as (N2 & _).
      apply flt_false_iff in E1; destruct E1 as [E1|[E1|E1]]; try congruence; apply fle_iff; auto.
    - change (fle (e_distance v) f0 = true) in A; change (fle (e_distance w) f0 = true) in B; rewrite A, B in E2; cbn [andb] in E2.
      apply inside_iff in A0; apply inside_iff in B0; destruct A0 as (Nv & _), B0 as (Nw & _).
      destruct (fsub_le _ _ Nv Hss) as (N1 & _); destruct (fsub_le _ _ N1 Hm) as (N2 & _).
      unfold fgt in E2; apply flt_false_iff in E2; destruct E2 as [E2|[E2|E2]]; try congruence; apply fle_iff; auto.
  Qed.
  Lemma back : forall h off, idx_add (idx_add h (idx_opp off)) off = h.
  Proof. intros [x y z] [a b d]; unfold idx_add, idx_opp, zip3, map3; cbn [vx vy vz]; f_equal; lia. Qed.
  Lemma opp_small : forall off, all3 (fun c => Z.abs c <= 1) off -> all3 (fun c => Z.abs c <= 1) (idx_opp off).
  Proof. intros [a b d] (H1 & H2 & H3); unfold idx_opp, map3; cbn [vx vy vz] in *; split; [|split]; cbn [vx vy vz]; lia. Qed.

  Lemma traced_all : forall L : Layer KEsdf, regular L -> l_size L = vs -> parents_ok c vs L -> (forall g off, imp c L g off -> False) ->
    (forall h (w : EsdfVoxel), exact_index h -> at_index L h = Some w -> e_parent w <> zero3 -> e_fixed w = false /\ exists off kd, In (off, kd) neighbors26 /\ e_parent w = idx_opp off) ->
    forall n h (w : EsdfVoxel), rank (e_distance w) < Z.of_nat n -> exact_index h -> at_index L h = Some w -> e_observed w = true -> rooted w -> traced c L h.
  Proof.
    intros L HR Hsz HP HN HT; induction n as [|n IH]; intros h w Hn Hh Hw Ow Rw.
    { pose proof (rank_nonneg (e_distance w)); lia. }
    destruct Rw as [Fw|Nz]; [eapply TR_fixed; eassumption|].
    destruct (HT h w Hh Hw Nz) as (Fw & off & kd & Hin & Ep).
    set (g := idx_add h (idx_opp off)).
    assert (Hg : exact_index g).
    { rewrite (reg_at _ _ HR Hh) in Hw; apply (at_exact _ _ _ _ HR Hw), opp_small, (off_small _ _ Hin). }
    assert (Eg : idx_add g off = h) by apply back.
    rewrite <- Eg in Hw, Hh; destruct (HP g off kd w Hin Hg Hh Hw Ep) as (v & Hv & CH).
    pose proof (child_rank v w off kd Hin CH) as RK; destruct CH as (Ov & Bv & Rv & CH).
    rewrite <- Eg; apply TR_step with (fmul kd vs) v w; auto.
    - exists kd; rewrite Hsz; auto.
    - apply (IH g v); auto; lia.
    - destruct (no_imp_follows L g off kd v w Hsz HN Hin Hg Hv Hw Ov Ow Fw Bv) as (U1 & U2).
      destruct CH as [(A & B & K)|(A & B & K)]; [left | right]; auto.
  Qed.
End Paths.
