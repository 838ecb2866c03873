(** C108: the error of a map against ground-truth points. *)
From Coq Require Import ZArith List Bool Reals Lra Lia.
From Flocq Require Import Core.
From Verif Require Import F32 F32_lemmas F32_err Types Index Index_proofs Index_float Voxel Assoc Assoc_lemmas Layer Threads Threads_proofs Planning Mesh_spec Interp Interp_spec Interp_axis Interp_proofs
  Esdf_proofs Esdf_range Coords Coords_spec P_Coords P_Interp Eval_proofs ColorMap ColorMap_proofs GtEval GtEval_spec GtEval_rms GtEval_proofs Neighbor_proofs.
Import ListNotations.
Open Scope Z_scope.
Ltac Zify.zify_post_hook ::= idtac.

Lemma f2_impl : forall A B (P Q : A -> B -> Prop) xs ys, (forall a b, P a b -> Q a b) -> Forall2 P xs ys -> Forall2 Q xs ys.
Proof. intros A B P Q xs ys H F. induction F; constructor; auto. Qed.
Lemma f2_length : forall A B (P : A -> B -> Prop) xs ys, Forall2 P xs ys -> length xs = length ys.
Proof. intros A B P xs ys F. induction F; cbn [length]; auto. Qed.
Section all.
  Variables (rows : nat -> sum_order) (top : sum_order).
  Hypothesis HR : forall j, (j < 8)%nat -> complete_order (rows j).
  Hypothesis HT : complete_order top.
  Variables (l : Layer KTsdf) (D : R).
  Hypothesis OK : map_ok l D.
  Definition count1 (s : tally) (v : verdict) : tally :=
    let s' := count_in l s v in MkTally (g_total s' + 1) (g_unknown s') (g_outside s') (g_mse s').
  Definition small (v : verdict) : Prop := forall d, shown v = Some d -> (Rabs (FR d) <= 2 * FR (l_size l))%R.
  Lemma gray_ok : forall d, good_error d -> (Rabs (FR d) <= 2 * FR (l_size l))%R ->
    exists z, gray_at l d = Some (MkColor z z z 255) /\ 0 <= z <= 255 /\ (Rabs (IZR z - 255 * (Rabs (FR d) / (2 * FR (l_size l)))) <= / 2 + / 1000)%R.
  Proof.
    intros d (F & _) B. destruct (td_val l D OK) as (ET & FT & PS & _). unfold gray_at.
    assert (Fa : ffin (fabs d) = true) by (destruct d; try discriminate; reflexivity).
    destruct (f64_of_f32_R _ Fa) as (EA & FA). rewrite fabs_R in EA. set (x := (Rabs (FR d) / (2 * FR (l_size l)))%R).
    assert (X : (0 <= x <= 1)%R).
    { unfold x. split; [apply Rmult_le_pos; [apply Rabs_pos|left; apply Rinv_0_lt_compat; lra]|]. apply (Rmult_le_reg_r (2 * FR (l_size l))%R); [lra|]. unfold Rdiv. rewrite Rmult_assoc, Rinv_l by lra. lra. }
    destruct (ddiv_R (f64_of_f32 (fabs d)) (truncation_of l) FA ltac:(rewrite ET; lra)) as (E & FD).
    { rewrite EA, ET. fold x. apply rnd64_small. rewrite Rabs_pos_eq by lra. apply Rle_trans with 1%R; [lra|]. change 1%R with (bpow radix2 0). apply bpow_le. lia. }
    rewrite EA, ET in E. fold x in E.
    assert (R1 : rnd64 1 = 1%R). { assert (Q : DR d1 = 1%R) by (unfold DR; vm_compute; lra). rewrite <- Q. apply rnd64_DR. }
    assert (I : (0 <= DR (ddiv (f64_of_f32 (fabs d)) (truncation_of l)) <= 1)%R) by (rewrite E; split; [rewrite <- rnd64_0|rewrite <- R1]; apply rnd64_le; lra).
    destruct (gray_spec _ FD I) as (z & EZ & RZ & _ & NZ). exists z. split; [exact EZ|]. split; [exact RZ|]. rewrite E in NZ.
    destruct (rnd64_err x) as (a & e & Ha & He & Q). rewrite Q in NZ.
    replace (IZR z - 255 * x)%R with ((IZR z - 255 * (x * (1 + a) + e)) + 255 * (x * a + e))%R by ring. eapply Rle_trans; [apply Rabs_triang|].
    pose proof (Rabs_triang (x * a) e) as T. rewrite Rabs_mult, (Rabs_pos_eq x) in T by lra. assert (x * Rabs a <= 1 * u64r)%R by (apply Rmult_le_compat; auto using Rabs_pos; lra).
    rewrite (Rabs_mult 255), (Rabs_pos_eq 255) by lra. pose proof t64_K as TK. destruct K_small as (KP & KS). unfold u64r in *. lra.
  Qed.
  Definition jd (p : pt3) (m : idx3 * verdict) : Prop :=
    judged l D p m /\ lies (l_vps l) (l_size l) p (fst m) /\
    (forall d, shown (snd m) = Some d -> good_error d /\ exists x, voxel_at l (fst m) = Some x) /\
    forall s, judge_point rows top l s p = Ok (count_in l s (snd m), shown (snd m)).
  Lemma all_judged : forall cloud, Forall (point_in_range (l_size l)) cloud -> exists ms, Forall2 jd cloud ms.
  Proof.
    induction cloud as [|p cloud IH]; intros H; [exists []; constructor|]. apply Forall_cons_iff in H. destruct H as (Hp & H). destruct (IH H) as (ms & M).
    destruct (judge_spec rows top HR HT l D OK p Hp) as (g & v & J). exists ((g, v) :: ms). constructor; [exact J|exact M].
  Qed.
  Lemma loop_plain : forall viz rec, viz && rec = false -> forall cloud ms, Forall2 jd cloud ms -> forall s,
    rfold (gt_point rows top viz rec) cloud (l, s) = Ok (l, fold_left count1 (map snd ms) s).
  Proof.
    intros viz rec VR cloud ms H. induction H as [|p [g v] cloud ms (_ & _ & _ & E) H IH]; intros s; [reflexivity|]. cbn [rfold map fold_left snd] in *.
    unfold gt_point at 1. rewrite E. cbn [rbind fst snd]. rewrite VR. destruct (shown v); cbn [rbind]; apply IH.
  Qed.
  Lemma loop_shaded : forall viz rec, viz && rec = true -> forall cloud ms, Forall2 jd cloud ms -> Forall (fun m => small (snd m)) ms ->
    forall l' s, like l l' -> built_layer l' ->
    exists l2, rfold (gt_point rows top viz rec) cloud (l', s) = Ok (l2, fold_left count1 (map snd ms) s) /\ like l l2 /\ built_layer l2 /\
      forall h, match shade ms h with
        | None => voxel_at l2 h = voxel_at l' h
        | Some d => exists x c, voxel_at l h = Some x /\ gray_at l d = Some c /\ good_error d /\ (Rabs (FR d) <= 2 * FR (l_size l))%R /\
                      voxel_at l2 h = Some (MkTsdf (t_distance x) (t_weight x) c)
        end.
  Proof.
    intros viz rec VR cloud ms H. induction H as [|p [g v] cloud ms (J & A & G & E) H IH]; intros SM l' s L BL.
    { exists l'. cbn. auto. }
    cbn [fst snd] in *. apply Forall_cons_iff in SM. destruct SM as (Sv & SM). cbn [snd] in Sv. cbn [rfold map fold_left snd].
    assert (EJ : judge_point rows top l' s p = Ok (count_in l s v, shown v)) by (rewrite (judge_like rows top l D OK l' s p L (ex_intro _ g A) BL); apply E).
    unfold gt_point at 1. rewrite EJ. cbn [rbind fst snd]. rewrite VR.
    change (MkTally (g_total (count_in l s v) + 1) (g_unknown (count_in l s v)) (g_outside (count_in l s v)) (g_mse (count_in l s v))) with (count1 s v).
    destruct (shown v) as [d|] eqn:SV.
    - destruct (G d eq_refl) as (GE & x & V). pose proof (like_at l l' g L) as Q. rewrite V in Q. cbn [option_map] in Q.
      destruct (voxel_at l' g) as [x'|] eqn:V'; [|discriminate]. assert (N : nc x' = nc x) by (cbn [option_map] in Q; congruence).
      specialize (Sv d SV). destruct (gray_ok d GE Sv) as (z & EZ & _). set (c := MkColor z z z 255) in *.
      destruct (store_like l l' g x' (MkTsdf (t_distance x') (t_weight x') c) L BL V' eq_refl) as (l1 & E1 & L1 & B1 & A1).
      assert (ER : recolor_point l' p d = Ok l1).
      { unfold recolor_point. pose proof L as (S0 & V0 & _). rewrite <- S0, <- V0 in A. destruct (at_ptr _ l' p g BL A) as (_ & ->). rewrite V'. cbn [rbind].
        assert (LD : load_ptr l' (blk (l_vps l') g, spot (l_vps l') g) = Ok x').
        { unfold load_ptr. cbn [fst snd]. rewrite at_eq in V'. destruct (l_get l' (blk (l_vps l') g)); [|discriminate]. rewrite V'. reflexivity. }
        rewrite LD. cbn [rbind]. assert (TD : truncation_of l' = truncation_of l) by (unfold truncation_of; rewrite S0; reflexivity). rewrite TD. fold (gray_at l d). rewrite EZ. cbn [of_opt rbind]. exact E1. }
      rewrite ER. cbn [rbind]. destruct (IH SM l1 (count1 s v) L1 B1) as (l2 & E2 & L2 & B2 & A2). exists l2. split; [exact E2|]. split; [exact L2|]. split; [exact B2|].
      intros h. specialize (A2 h). cbn [shade]. destruct (shade ms h) as [d'|]; [exact A2|]. rewrite A2, A1.
      destruct (idx_eqb_spec g h) as [<-|NE]; [|reflexivity]. rewrite SV. exists x, c. split; [exact V|]. split; [exact EZ|]. split; [exact GE|]. split; [exact Sv|]. pose proof (f_equal fst N) as N1. pose proof (f_equal snd N) as N2. unfold nc in N1, N2. cbn [fst snd] in N1, N2. rewrite N1, N2. reflexivity.
    - cbn [rbind]. destruct (IH SM l' (count1 s v) L BL) as (l2 & E2 & L2 & B2 & A2). exists l2. split; [exact E2|]. split; [exact L2|]. split; [exact B2|].
      intros h. specialize (A2 h). cbn [shade]. destruct (shade ms h) as [d'|]; [exact A2|]. destruct (idx_eqb g h); [rewrite SV|]; exact A2.
  Qed.
  (** the counters at the end *)
  Definition parts (v : verdict) : list (f64 * R) :=
    match v with Unknown => [] | Outside _ => [(term_of l v, (2 * FR (l_size l))%R)] | Within e => [(term_of l v, FR e)] end.
  Lemma counted : forall vs, let s := fold_left count1 vs (MkTally 0 0 0 d0) in
    g_total s = Z.of_nat (length vs) /\ g_unknown s = tell is_unknown vs /\ g_outside s = tell is_outside vs /\ g_mse s = add_up (flat_map parts vs).
  Proof.
    induction vs as [|v vs IH] using rev_ind; [repeat split|]. cbv zeta in *. rewrite fold_left_app, flat_map_app. cbn [fold_left flat_map]. rewrite app_nil_r.
    unfold tell in *. rewrite !filter_app, !app_length. destruct IH as (I1 & I2 & I3 & I4). unfold add_up in *. rewrite fold_left_app, <- I4. set (s := fold_left count1 vs _) in *.
    unfold count1. destruct v; cbn [count_in g_total g_unknown g_outside g_mse filter is_unknown is_outside length parts fold_left fst]; rewrite I1, I2, I3; repeat split; lia.
  Qed.
  Lemma parts_errors : forall vs, map snd (flat_map parts vs) = gt_errors l vs.
  Proof. induction vs as [|v vs IH]; [reflexivity|]. cbn [flat_map gt_errors]. rewrite map_app, IH. unfold gt_errors. cbn [flat_map]. destruct v; reflexivity. Qed.
  Lemma parts_length : forall vs, Z.of_nat (length (flat_map parts vs)) = Z.of_nat (length vs) - tell is_unknown vs.
  Proof.
    induction vs as [|v vs IH]; [reflexivity|]. cbn [flat_map]. rewrite app_length, Nat2Z.inj_add, IH. unfold tell. cbn [filter length].
    destruct v; cbn [is_unknown parts length]; lia.
  Qed.
  Lemma parts_ok : forall vs, Forall (fun v => forall d, shown v = Some d -> good_error d) vs -> Forall term_ok (flat_map parts vs).
  Proof.
    destruct (td_val l D OK) as (ET & FT & PS & PB). pose proof t64_K as TK. destruct K_small as (KP & KS).
    induction vs as [|v vs IH]; intros H; [constructor|]. apply Forall_cons_iff in H. destruct H as (Hv & H). cbn [flat_map]. apply Forall_app. split; [|exact (IH H)].
    destruct v as [|d|e]; cbn [parts]; [constructor| |]; (constructor; [|constructor]); unfold term_ok; cbn [fst snd term_of].
    - set (t := (2 * FR (l_size l))%R) in *. assert (TB : (0 <= t <= 2 ^ 41)%R) by (unfold t; replace (2 ^ 41)%R with (2 * 2 ^ 40)%R by ring; lra).
      assert (Q : (Rabs (t * t) <= bpow radix2 100)%R).
      { rewrite Rabs_pos_eq by apply Rle_0_sqr. apply Rle_trans with (2 ^ 41 * 2 ^ 41)%R; [apply Rmult_le_compat; lra|]. replace (2 ^ 41 * 2 ^ 41)%R with (bpow radix2 82) by (cbn; lra). apply bpow_le. lia. }
      destruct (dmul_R (truncation_of l) (truncation_of l) FT FT) as (E & F).
      { rewrite ET. fold t. apply rnd64_small. eapply Rle_trans; [exact Q|]. apply bpow_le. lia. }
      rewrite ET in E. fold t in E. pose proof (Rle_0_sqr t) as TP. unfold Rsqr in TP. split; [exact F|]. split; [rewrite E, <- rnd64_0; apply rnd64_le; exact TP|]. split.
      { rewrite Rabs_pos_eq by lra. apply Rle_trans with (2 ^ 41)%R; [lra|]. apply Rle_pow; [lra|lia]. }
      rewrite E. destruct (rnd64_err (t * t)) as (a & x & Ha & Hx & ->). replace (t * t * (1 + a) + x - t * t)%R with (t * t * a + x)%R by ring.
      eapply Rle_trans; [apply Rabs_triang|]. rewrite Rabs_mult, (Rabs_pos_eq (t * t)) by exact TP. assert (t * t * Rabs a <= t * t * u64r)%R by (apply Rmult_le_compat_l; auto). unfold u64r in *. lra.
    - destruct (Hv e eq_refl) as (Fe & Be). destruct (sq_term e Fe Be) as (Fq & Eq). split; [exact Fq|]. split; [|split; [exact Be|exact Eq]].
      destruct (fmul_rel e e Fe Fe) as (Fm & _).
      { apply Rabs_mul_bpow with (a := 60%Z) (b := 60%Z); [| |lia]; change (bpow radix2 60) with (IZR (2 ^ 60)); replace (IZR (2 ^ 60)) with (2 ^ 60)%R by (cbn; lra); exact Be. }
      rewrite (proj1 (f64_of_f32_R _ Fm)). destruct (fmul_R e e Fe Fe) as (EE & _).
      { apply rnd32_small. apply Rabs_mul_bpow with (a := 60%Z) (b := 60%Z); [| |lia]; change (bpow radix2 60) with (IZR (2 ^ 60)); replace (IZR (2 ^ 60)) with (2 ^ 60)%R by (cbn; lra); exact Be. }
      rewrite EE, <- rnd32_0. apply rnd32_le. apply Rle_0_sqr.
  Qed.
  Lemma tell_range : forall (f : verdict -> bool) vs, 0 <= tell f vs <= Z.of_nat (length vs).
  Proof. intros f vs. unfold tell. induction vs as [|v vs IH]; cbn [filter length]; [lia|]. destruct (f v); cbn [length]; lia. Qed.
  Lemma report_good : forall vs, Z.of_nat (length vs) <= 2 ^ 29 -> Forall (fun v => forall d, shown v = Some d -> good_error d) vs ->
    report_ok l vs (report_of (fold_left count1 vs (MkTally 0 0 0 d0))).
  Proof.
    intros vs LN G. destruct (counted vs) as (C1 & C2 & C3 & C4). set (s := fold_left count1 vs _) in *. unfold report_ok, report_of. cbn [gr_total gr_unknown gr_outside gr_rms gr_unknown_part gr_outside_part].
    rewrite C1, C2, C3, C4, <- parts_length. split; [reflexivity|]. split; [reflexivity|]. split; [reflexivity|]. rewrite <- parts_errors. split; [|split].
    - intros NE. apply mean_root; [apply parts_ok; exact G|intros Q; rewrite Q in NE; apply NE; reflexivity|]. rewrite parts_length. pose proof (tell_range is_unknown vs). lia.
    - intros NE. apply map_eq_nil in NE. rewrite NE. reflexivity.
    - intros NE. assert (1 <= Z.of_nat (length vs)) by (destruct vs; [congruence|cbn [length]; lia]).
      split; apply fraction; auto using tell_range.
  Qed.
End all.

(** Every point is judged by the voxel it lies in, each counts once, and the report is that
    of the verdicts; the layer is left alone unless recolouring is asked for. *)
Theorem C108_report : forall rows top viz rec l D cloud,
  (forall j, (j < 8)%nat -> complete_order (rows j)) -> complete_order top -> map_ok l D -> cloud_ok l cloud -> viz && rec = false ->
  exists ms r, Forall2 (judged l D) cloud ms /\ evaluateGt rows top viz rec l cloud = Ok (l, r) /\ report_ok l (map snd ms) r.
Proof.
  intros rows top viz rec l D cloud HR HT OK (HC & LN) VR. destruct (all_judged rows top HR HT l D OK cloud HC) as (ms & M).
  exists ms. eexists. split; [|split].
  - eapply f2_impl; [|exact M]. intros p m (J & _). exact J.
  - unfold evaluateGt. rewrite (loop_plain rows top l D viz rec VR cloud ms M). reflexivity.
  - cbn [rbind fst snd]. apply (report_good l D OK); [rewrite map_length, <- (f2_length _ _ _ _ _ M); exact LN|].
    apply Forall_map. clear - M. induction M as [|p m cloud ms (_ & _ & G & _) M IH]; constructor; auto. intros d Q. destruct (G d Q); assumption.
Qed.
Print Assumptions C108_report.

(** With recolouring, as long as no valid point is further from the surface than the truncation
    distance: the same report, the same distances and weights, and the shade of each voxel with
    valid points is the error of the last of them. *)
Theorem C108_recolor_partial : forall rows top l D cloud,
  (forall j, (j < 8)%nat -> complete_order (rows j)) -> complete_order top -> map_ok l D -> cloud_ok l cloud ->
  exists ms, Forall2 (judged l D) cloud ms /\
    (Forall (fun m => forall d, shown (snd m) = Some d -> (Rabs (FR d) <= 2 * FR (l_size l))%R) ms ->
     exists l' r, evaluateGt rows top true true l cloud = Ok (l', r) /\ report_ok l (map snd ms) r /\
       (forall viz rec, viz && rec = false -> evaluateGt rows top viz rec l cloud = Ok (l, r)) /\
       same_but_colours l l' /\
       forall h, match shade ms h with
         | None => voxel_at l' h = voxel_at l h
         | Some d => exists x z, voxel_at l h = Some x /\ voxel_at l' h = Some (MkTsdf (t_distance x) (t_weight x) (MkColor z z z 255)) /\
                       0 <= z <= 255 /\ (Rabs (IZR z - 255 * (Rabs (FR d) / (2 * FR (l_size l)))) <= / 2 + / 1000)%R
         end).
Proof.
  intros rows top l D cloud HR HT OK (HC & LN). destruct (all_judged rows top HR HT l D OK cloud HC) as (ms & M).
  exists ms. split; [eapply f2_impl; [|exact M]; intros p m (J & _); exact J|]. intros SM.
  destruct (loop_shaded rows top l D OK true true eq_refl cloud ms M SM l (MkTally 0 0 0 d0) (like_refl l) (proj1 OK)) as (l' & E & L & B & A).
  exists l'. eexists. split; [unfold evaluateGt; rewrite E; reflexivity|]. split; [|split; [|split]].
  - cbn [rbind fst snd]. apply (report_good l D OK); [rewrite map_length, <- (f2_length _ _ _ _ _ M); exact LN|].
    apply Forall_map. clear - M. induction M as [|p m cloud ms (_ & _ & G & _) M IH]; constructor; auto. intros d Q. destruct (G d Q); assumption.
  - intros viz rec VR. unfold evaluateGt. rewrite (loop_plain rows top l D viz rec VR cloud ms M). reflexivity.
  - destruct L as (S0 & V0 & H). split; [exact S0|]. split; [exact V0|]. intros g. exact (like_at l l' g (conj S0 (conj V0 H))).
  - intros h. specialize (A h). destruct (shade ms h) as [d|]; [|exact A]. destruct A as (x & c & V & G & GE & SD & V').
    destruct (gray_ok l D OK d GE SD) as (z & EZ & RZ & NZ). exists x, z. split; [exact V|]. split; [rewrite V'; congruence|]. split; [exact RZ|exact NZ].
Qed.
Print Assumptions C108_recolor_partial.

(** Two blocks of 2x2x2 voxels of 1 m, each with the given distances. *)
Definition lay_bk (ds : list Z) (i : idx3) : Block KTsdf := set_voxels (k := KTsdf) (map tv ds) (new_block (k := KTsdf) 2 f1 (new_block_origin 2 f1 i)).
Definition lay (ds : list Z) : Layer KTsdf := MkLayer (k := KTsdf) f1 2 [(V3 0 0 0, lay_bk ds (V3 0 0 0)); (V3 1 0 0, lay_bk ds (V3 1 0 0))].
Lemma lay_ok : forall ds, length ds = 8%nat -> Forall (fun d => Z.abs d <= 100) ds -> map_ok (lay ds) 100.
Proof.
  intros ds L B. assert (G : forall i b, l_get (lay ds) i = Some b -> b = lay_bk ds i).
  { intros i b H. unfold l_get, lay in H. cbn [l_blocks alookup] in H.
    destruct (idx_eqb_spec i (V3 0 0 0)) as [->|N0]; [congruence|]. destruct (idx_eqb_spec i (V3 1 0 0)) as [->|N1]; [congruence|]. discriminate. }
  split; [|split].
  - split; [|split; [cbn; lia|]].
    + split; [reflexivity|]. change (FR (l_size (lay ds))) with (FR f1). rewrite f1_R. split; change 1%R with (bpow radix2 0); apply bpow_le; lia.
    + intros i b H. rewrite (G i b H). repeat split. unfold lay_bk, set_voxels. cbn [b_voxels]. rewrite map_length, L. reflexivity.
  - split; [lra|]. apply Rle_trans with (2 ^ 10)%R; [lra|apply Rle_pow; [lra|lia]].
  - intros g v H. unfold voxel_at in H. destruct (l_get (lay ds) _) as [b|] eqn:E; [|discriminate]. rewrite (G _ _ E) in H. apply nth_error_In in H.
    unfold lay_bk, set_voxels in H. cbn [b_voxels] in H. apply in_map_iff in H. destruct H as (d & <- & I). rewrite Forall_forall in B. specialize (B d I).
    unfold tv. cbn [t_distance t_weight]. destruct (f32_of_Z_R d ltac:(lia)) as (Q & F). rewrite Q. split; [exact F|]. split; [|reflexivity]. rewrite <- abs_IZR. apply IZR_le. exact B.
Qed.
Lemma one_ok : forall ds, cloud_ok (lay ds) [at211].
Proof. intros ds. split; [constructor; [exact at211_range|constructor]|cbn; lia]. Qed.
(** A point whose voxel is 1 m in front of the surface, half the truncation distance: the error is
    1 m and the voxel becomes half bright. *)
Example C108_example :
  match evaluateGt (fun _ => lin_order) lin_order true true (lay [1; 1; 1; 1; 1; 1; 1; 1]) [at211] with
  | Ok (l', r) => deq (gr_rms r) d1 && (gr_total r =? 1) && (gr_unknown r =? 0) && (gr_outside r =? 0) &&
                  match voxel_at l' (V3 2 1 1) with Some v => cr (t_color v) =? 128 | None => false end
  | _ => false
  end = true.
Proof. vm_compute. reflexivity. Qed.
(** Recolouring does not work in general: a point further from the surface than the truncation
    distance, in front or behind, needs a shade above 255, which is undefined. *)
Theorem C108_recolor_refuted : exists l cloud, map_ok l 100 /\ cloud_ok l cloud /\
  evaluateGt (fun _ => lin_order) lin_order true true l cloud = UB.
Proof.
  exists (lay [3; 3; 3; 3; 3; 3; 3; 3]), [at211]. split; [apply lay_ok; [reflexivity|repeat (constructor; [lia|]); constructor]|]. split; [apply one_ok|]. vm_compute. reflexivity.
Qed.
Print Assumptions C108_recolor_refuted.
(** Errors are cut at the truncation distance in front of the surface only: behind it a single
    point can make the RMS error larger than that. *)
Theorem C108_truncated_refuted : exists l cloud r, map_ok l 100 /\ cloud_ok l cloud /\
  evaluateGt (fun _ => lin_order) lin_order false false l cloud = Ok (l, r) /\ (2 * FR (l_size l) < DR (gr_rms r))%R.
Proof.
  set (l := lay [-5; -5; -5; -5; -5; -5; -5; -5]).
  assert (OK : map_ok l 100) by (apply lay_ok; [reflexivity|repeat (constructor; [lia|]); constructor]).
  destruct (C108_report (fun _ => lin_order) lin_order false false l 100 [at211]) as (ms & r & _ & E & _); [intros; exact lin_complete|exact lin_complete|exact OK|apply one_ok|reflexivity|].
  exists l, [at211], r. split; [exact OK|]. split; [apply one_ok|]. split; [exact E|].
  assert (B : match evaluateGt (fun _ => lin_order) lin_order false false l [at211] with Ok (_, q) => dlt (f64_of_Z 2) (gr_rms q) && dfin (gr_rms q) | _ => false end = true) by (vm_compute; reflexivity).
  rewrite E in B. apply andb_true_iff in B. destruct B as (B & F). destruct (f64_of_Z_R 2 ltac:(lia)) as (E2 & F2). apply dlt_R in B; [|exact F2|exact F]. rewrite E2 in B.
  change (FR (l_size l)) with (FR f1). rewrite f1_R. lra.
Qed.
Print Assumptions C108_truncated_refuted.
