(** The propagation from occupied voxels on layers: no abort, an invariant, an end. *)
From Coq Require Import ZArith List Bool Lia Reals Lra.
From Flocq Require Import Core Binary.
From Verif Require Import F32 F32_lemmas Types Index Neighbor Voxel Assoc Assoc_lemmas Layer Threads Threads_proofs
  Index_proofs Queue Queue_spec Queue_proofs Planning Esdf Esdf_spec Esdf_proofs Esdf_float Esdf_range Esdf_grid Esdf_open Esdf_batch Esdf_term
  EsdfOcc EsdfOcc_spec EsdfOcc_view.
Import ListNotations.
Open Scope Z_scope.
Ltac Zify.zify_post_hook ::= idtac.

(** ** keys *)
Definition kof (V : Z) (g : idx3) : vkey := (map3 (fun c => c / V) g, map3 (fun c => c mod V) g).
Definition kp (V : Z) (e : Z * idx3) : Z * vkey := (fst e, kof V (snd e)).
Lemma axis_ok V a o : 0 < V -> Z.abs o <= 1 -> neighbor_axis V (a / V) (a mod V + o) = ((a + o) / V, (a + o) mod V).
Proof.
  intros HV Ho. unfold neighbor_axis. pose proof (Z.mod_pos_bound a V HV) as B. pose proof (Z.div_mod a V ltac:(lia)) as D.
  assert (K : forall q r, 0 <= r < V -> a + o = V * q + r -> (q, r) = ((a + o) / V, (a + o) mod V)).
  { intros q r Hr E. f_equal; [apply Z.div_unique with r|apply Z.mod_unique with q]; auto. }
  destruct (Z.ltb_spec (a mod V + o) 0) as [L|L]; [|destruct (Z.leb_spec V (a mod V + o)) as [M|M]]; apply K; lia.
Qed.
Lemma neighbor_ok V g off : 0 < V -> all3 (fun c => Z.abs c <= 1) off -> all3 (fun c => Z.abs c < 2 ^ 31 - 1) (map3 (fun c => c / V) g) ->
  occ_getNeighbor V (kof V g) off = Ok (kof V (idx_add g off)).
Proof.
  destruct g as [x y z], off as [a b d]. intros HV (A1 & A2 & A3) (B1 & B2 & B3). unfold occ_getNeighbor, kof, idx_add, zip3, map3 in *. cbn [fst snd vx vy vz] in *.
  rewrite !axis_ok by assumption. cbn [fst snd].
  assert (K : forall q o, Z.abs (q / V) < 2 ^ 31 - 1 -> Z.abs o <= 1 -> to_int32 (Some ((q + o) / V)) = Some ((q + o) / V)).
  { intros q o Hq Ho. assert (L : q / V - 1 <= (q + o) / V <= q / V + 1).
    { split.
      - replace (q / V - 1) with ((q + (-1) * V) / V) by (rewrite Z.div_add; lia). apply Z.div_le_mono; lia.
      - replace (q / V + 1) with ((q + 1 * V) / V) by (rewrite Z.div_add; lia). apply Z.div_le_mono; lia. }
    unfold to_int32, in_range. rewrite !(proj2 (Z.leb_le _ _)) by lia. reflexivity. }
  rewrite !K by assumption. reflexivity.
Qed.
Lemma lowest_map V (p : pending) : lowest (map (kp V) p) = lowest p.
Proof. induction p as [|(b, x) p IH]; [reflexivity|]. cbn [map lowest kp fst snd]. rewrite IH. reflexivity. Qed.
Lemma take_map V m (p : pending) : take m (map (kp V) p) = match take m p with Some (x, r) => Some (kof V x, map (kp V) r) | None => None end.
Proof.
  induction p as [|(b, x) p IH]; [reflexivity|]. cbn [map take kp fst snd]. destruct (b =? m); [reflexivity|].
  rewrite IH. destruct (take m p) as [(y, r)|]; reflexivity.
Qed.
Lemma next_map V (p : pending) : next (map (kp V) p) = match next p with Some (x, r) => Some (kof V x, map (kp V) r) | None => None end.
Proof. unfold next. rewrite lowest_map. destruct (lowest p); [apply take_map|reflexivity]. Qed.

Lemma cell_vat {k} (l : Layer k) g : cell l g = vat l (adr (l_vps l) g).
Proof. reflexivity. Qed.
Lemma f0_R : FR f0 = 0%R. Proof. reflexivity. Qed.
Lemma fsub_nonpos a b : ffin a = true -> ffin b = true -> (0 <= FR a <= FR b)%R -> fgt (fsub a b) f0 = false.
Proof.
  intros Fa Fb H. assert (L : (Rabs (rnd32 (FR a - FR b)) < max32)%R).
  { apply Rle_lt_trans with (FR b); [|apply Rle_lt_trans with (2 := FR_lt_max b); apply RRle_abs].
    rewrite <- (rnd32_FR b) at 2. apply Rabs_le. split.
    - rewrite <- rnd32_opp. apply rnd32_le. lra.
    - apply rnd32_le. lra. }
  destruct (fsub_R a b Fa Fb L) as (E & F). unfold fgt. apply not_true_is_false. intros X. apply flt_R in X; [|reflexivity|exact F].
  rewrite E, f0_R in X. assert (rnd32 (FR a - FR b) <= rnd32 0)%R by (apply rnd32_le; lra). rewrite rnd32_0 in H0. lra.
Qed.

Section Run.
  Variables (c : ocfg) (vs : f32) (V : Z) (O : idx3 -> option OccupancyVoxel).
  Hypothesis HS : occ_settings c vs.
  Hypothesis HV : 0 < V <= 1024.
  (** all the queue can hold *)
  Variable cells : list addr.
  Hypothesis Hcells : forall g o, O g = Some o -> In (adr V g) cells.
  Hypothesis Hroom : Z.of_nat (length cells) <= 2 ^ 63.
  Notation mx := (oc_max c).

  Definition related (F : idx3 -> option EsdfVoxel) : Prop := forall g,
    match O g with
    | None => F g = None
    | Some o => exists v, F g = Some v /\ e_observed v = o_observed o /\ (o_observed o = true -> e_fixed v = fgt (o_log o) f0)
    end.
  Record shaped (l : Layer KEsdf) : Prop := MkShaped {
    sh_vps : l_vps l = V;
    sh_size : l_size l = vs;
    sh_block : forall i b, l_get l i = Some b -> b_vps b = V /\ length (b_voxels b) = num_voxels V /\ all3 (fun c => Z.abs c < 2 ^ 31 - 1) i }.
  Record oqueue (q : bq vkey) (p : pending) : Prop := MkOQ {
    oq_inv : qinv q (map (kp V) p);
    oq_num : bq_num q = oc_buckets c;
    oq_max : bq_max q = f64_of_f32 mx }.
  Record inv (st : ostate) (p : pending) (cur : option idx3) : Prop := MkInv {
    i_shape : shaped (os_layer st);
    i_rel : related (cell (os_layer st));
    i_q : oqueue (os_open st) p;
    i_g : ginv c vs (cell (os_layer st)) p cur }.

  Lemma cell_at l g : shaped l -> cell l g = vat l (adr V g).
  Proof. intros H. rewrite cell_vat, (sh_vps _ H). reflexivity. Qed.
  Lemma shaped_vset l a v : shaped l -> shaped (vset (k := KEsdf) l a v).
  Proof.
    intros [A B C]. pose proof (shape_vset (k := KEsdf) l a v) as (S1 & S2 & S3). constructor; [congruence|congruence|].
    intros i b Hb. specialize (S3 i). rewrite Hb in S3. destruct (l_get l i) as [b0|] eqn:E; [|contradiction].
    destruct (C i b0 E) as (C1 & C2 & C3). destruct S3 as (D1 & D2). repeat split; try congruence; apply C3.
  Qed.
  Lemma cell_vset l g v v0 : shaped l -> cell l g = Some v0 -> forall h, cell (vset (k := KEsdf) l (adr V g) v) h = vupd (cell l) g v h.
  Proof.
    intros HL E h. rewrite (cell_at _ h (shaped_vset _ _ _ HL)). rewrite (cell_at _ _ HL) in E. rewrite (vat_vset l _ v v0 _ E). unfold vupd.
    destruct (addr_dec (adr V h) (adr V g)) as [Y|N], (idx_eqb_spec h g) as [->|M]; try reflexivity; try contradiction.
    - exfalso. apply M. eapply adr_inj; eassumption.
    - symmetry. apply cell_at, HL.
  Qed.
  Lemma ginv_ext F F' p cur : (forall h, F' h = F h) -> ginv c vs F p cur -> ginv c vs F' p cur.
  Proof.
    intros E. assert (X : F' = F) by (apply FunctionalExtensionality.functional_extensionality; exact E). rewrite X. auto.
  Qed.
  Lemma related_upd F g v v0 : related F -> F g = Some v0 -> e_observed v = e_observed v0 -> e_fixed v = e_fixed v0 -> related (vupd F g v).
  Proof.
    intros H E A B h. specialize (H h). destruct (idx_eq_dec h g) as [->|N]; [|rewrite vupd_other by exact N; exact H].
    rewrite vupd_same. rewrite E in H. destruct (O g) as [o|]; [|discriminate]. destruct H as (w & X & Y & Z). injection X as <-. exists v. split; [reflexivity|]. split; [congruence|]. intros T. rewrite B. auto.
  Qed.
  Lemma related_ext F F' : (forall h, F' h = F h) -> related F -> related F'.
  Proof. intros E H h. rewrite E. apply H. Qed.
  Lemma room st p cur : inv st p cur -> Z.of_nat (length p) <= 2 ^ 63.
  Proof.
    intros [A B C G]. etransitivity; [|exact Hroom]. apply inj_le.
    replace (length p) with (length (map (fun e => adr V (snd e)) p)) by apply map_length. apply NoDup_incl_length.
    - rewrite <- map_map with (f := snd) (g := adr V). apply FinFun.Injective_map_NoDup; [|apply G].
      intros g h E. eapply adr_inj; eassumption.
    - intros a Ha. apply in_map_iff in Ha. destruct Ha as ((b, g) & <- & Hin). cbn [snd].
      destruct (g_wait _ _ _ _ _ G g (ex_intro _ b Hin)) as (v & Ev & _). pose proof (B g) as R. destruct (O g) as [o|] eqn:Eo; [|congruence].
      eapply Hcells, Eo.
  Qed.
  Lemma push_total st p g d : oqueue (os_open st) p -> Z.of_nat (length p) <= 2 ^ 63 -> ffin d = true -> (0 <= FR d)%R ->
    exists st' i, os_push st (kof V g) d = Ok st' /\ os_layer st' = os_layer st /\ oqueue (os_open st') (p ++ [(i, g)]) /\ 0 <= i.
  Proof.
    intros [Q1 Q2 Q3] HL Fd Pd. set (e := MkEC false mx f0 f0 f0 f0 1 false false f0 f0).
    destruct (pushable_bucket e (os_max_ok _ _ HS) d (oc_buckets c)) as (i & B1 & B2).
    - split; [apply ffin_nnan, Fd|]. rewrite ER_fin by exact Fd. cbn [ec_max e]. destruct (os_max_ok _ _ HS). lra.
    - apply (os_buckets_ok _ _ HS).
    - cbn [ec_max e] in B1. rewrite <- Q2, <- Q3 in B1. rewrite <- Q2 in B2.
      destruct (push_ok (os_open st) _ (kof V g) (f64_of_f32 d) i Q1 B1 B2 ltac:(rewrite map_length; lia)) as (q' & E & I & N & M).
      exists (MkOS (os_layer st) q'), i. unfold os_push. rewrite E. cbn [rbind]. split; [reflexivity|]. split; [reflexivity|]. split; [|lia].
      cbn [os_open]. constructor; [|congruence|congruence]. rewrite map_app. exact I.
  Qed.

  Definition meas (st : ostate) (p : pending) : Z := 2 * mass (os_layer st) + Z.of_nat (length p).
  Definition first_ok (F : view) (p : pending) (v : EsdfVoxel) : Prop := e_fixed v = true \/ forall g, inq p g -> ~ fixed_at F g.

  Lemma get_cell l g v : shaped l -> cell l g = Some v -> vget l (adr V g) = Ok v.
  Proof. intros H E. unfold vget. rewrite <- (cell_at _ _ H), E. reflexivity. Qed.
  Lemma in_block l g v : shaped l -> cell l g = Some v -> exists b, l_get l (fst (kof V g)) = Some b /\ b_vps b = V /\ all3 (fun c => Z.abs c < 2 ^ 31 - 1) (fst (kof V g)).
  Proof.
    intros H E. rewrite (cell_at _ _ H) in E. unfold vat in E. cbn [fst adr] in E. unfold kof. cbn [fst]. destruct (l_get l (map3 (fun c => c / V) g)) as [b|] eqn:X; [|discriminate].
    exists b. destruct (sh_block _ H _ _ X) as (A & _ & B). auto.
  Qed.

  Lemma neighbor_step st p u v off kd :
    inv st p (Some u) -> cell (os_layer st) u = Some v -> active c v -> first_ok (cell (os_layer st)) p v -> In (off, kd) neighbors26 ->
    exists st' p', occ_neighbor c vs (kof V u) (adr V u) st (off, kd) = Ok st' /\ inv st' p' (Some u) /\
      cell (os_layer st') u = Some v /\ first_ok (cell (os_layer st')) p' v /\ meas st' p' <= meas st p /\
      (forall h, h <> idx_add u off -> cell (os_layer st') h = cell (os_layer st) h) /\
      (forall w, cell (os_layer st') (idx_add u off) = Some w -> e_observed w = true -> e_fixed w = false ->
         flt (fadd (e_distance v) (fmul kd vs)) (e_distance w) = false).
  Proof.
    intros HI Eu Av Hf Hn. pose proof HI as [SH RL QU GI]. set (l := os_layer st) in *. set (n := idx_add u off).
    destruct (in_block l u v SH Eu) as (bu & Eb & _ & Bu). destruct (off_small _ _ Hn) as (Os & Oz).
    assert (Nu : n <> u) by (apply add_off_neq, Oz).
    pose proof (g_val _ _ _ _ _ GI _ _ Eu (proj1 Av)) as Gv. destruct (good_val c v Gv) as (Fv & Pv).
    destruct (add_step c vs HS (e_distance v) off kd Fv Pv (proj1 (proj2 Av)) Hn) as (Fa & La & Pa).
    destruct (stp_ok c vs HS off kd Hn) as ((Fs & Ps) & _).
    set (nd := fadd (e_distance v) (fmul kd vs)) in *.
    unfold occ_neighbor. cbn [fst snd]. fold l. rewrite (sh_vps _ SH). rewrite (neighbor_ok V u off); [|lia|exact Os|exact Bu]. cbn [rbind]. fold n.
    assert (Stop : forall st1 p1, inv st1 p1 (Some u) -> cell (os_layer st1) u = Some v -> st1 = st /\ p1 = p ->
      (forall w, cell l n = Some w -> e_observed w = true -> e_fixed w = false -> flt nd (e_distance w) = false) ->
      exists st' p', Ok st1 = Ok st' /\ inv st' p' (Some u) /\
        cell (os_layer st') u = Some v /\ first_ok (cell (os_layer st')) p' v /\ meas st' p' <= meas st p /\
        (forall h, h <> n -> cell (os_layer st') h = cell l h) /\
        (forall w, cell (os_layer st') n = Some w -> e_observed w = true -> e_fixed w = false -> flt nd (e_distance w) = false)).
    { intros st1 p1 H1 H2 (-> & ->) H3. exists st, p. split; [reflexivity|]. split; [exact HI|]. split; [exact Eu|]. split; [exact Hf|]. split; [lia|]. split; [reflexivity|exact H3]. }
    destruct (l_get l (fst (kof V n))) as [nb|] eqn:En.
    2:{ apply (Stop st p); auto. intros w Ew. rewrite (cell_at _ _ SH) in Ew. unfold vat in Ew. cbn [fst adr] in Ew. unfold kof in En. cbn [fst] in En. rewrite En in Ew. discriminate. }
    destruct (sh_block _ SH _ _ En) as (Bv & Bl & _). rewrite Bv.
    assert (Mn : all3 (fun c => 0 <= c < V) (snd (kof V n))) by (apply mod3; lia).
    assert (Iv : isValidVoxelIndex V (snd (kof V n)) = true).
    { assert (W : wrap32 V = V) by (unfold wrap32; rewrite Z.mod_small; lia).
      unfold isValidVoxelIndex. rewrite W. destruct Mn as (M1 & M2 & M3). cbv zeta beta. rewrite !(proj2 (Z.ltb_ge _ _)) by lia. rewrite !(proj2 (Z.leb_gt _ _)) by lia. reflexivity. }
    rewrite Iv. cbn [negb]. cbv zeta.
    change (fst (kof V n), Z.to_nat (computeLinearIndexFromVoxelIndex V (snd (kof V n)))) with (adr V n).
    assert (Cn : exists w, cell l n = Some w).
    { destruct (cell l n) as [w|] eqn:X; [eauto|]. exfalso. rewrite (cell_at _ _ SH) in X. unfold vat in X. change (fst (adr V n)) with (fst (kof V n)) in X. rewrite En in X.
      apply nth_error_None in X. rewrite Bl, (num_voxels_reg V HV) in X. change (snd (adr V n)) with (Z.to_nat (computeLinearIndexFromVoxelIndex V (snd (kof V n)))) in X.
      pose proof (linear_lt V (snd (kof V n))) as K. pose proof (cube_small V HV). destruct K as (K1 & K2); try lia; try exact Mn. }
    destruct Cn as (w & Ew). rewrite (get_cell l n w SH Ew). cbn [rbind].
    destruct (e_observed w) eqn:Ow; cbn [negb].
    2:{ apply (Stop st p); auto. intros w' E' O'. congruence. }
    rewrite (get_cell l u v SH Eu). cbn [rbind]. unfold occ_lower. fold l. rewrite (get_cell l n w SH Ew). cbn [rbind]. fold nd.
    pose proof (g_val _ _ _ _ _ GI _ _ Ew Ow) as Gw. destruct (good_val c w Gw) as (Fw & Pw).
    destruct (e_fixed w) eqn:Xw; cbn [negb andb].
    { (* an occupied voxel keeps its distance *)
      cbn [rbind]. fold l. rewrite (get_cell l u v SH Eu). cbn [rbind]. unfold occ_raise. fold l. rewrite (get_cell l n w SH Ew). cbn [rbind]. rewrite Xw.
      assert (Dw : e_distance w = f0) by (unfold good in Gw; rewrite Xw in Gw; apply Gw). rewrite Dw.
      assert (Le : (FR (e_distance v) <= FR (fmul kd vs))%R).
      { destruct Hf as [Hf|Hf].
        - unfold good in Gv. rewrite Hf in Gv. destruct Gv as (-> & _). rewrite f0_R. lra.
        - destruct (e_fixed v) eqn:Xv; [unfold good in Gv; rewrite Xv in Gv; destruct Gv as (-> & _); rewrite f0_R; lra|].
          assert (Aw : active c w).
          { split; [exact Ow|]. split; [|left; exact Xw]. rewrite Dw. destruct (os_max_ok _ _ HS) as (Fm & Pm & _). apply flt_R; [reflexivity|exact Fm|]. rewrite f0_R. lra. }
          assert (K : flt (fadd f0 (fmul kd vs)) (e_distance v) = false).
          { rewrite <- Dw. apply (g_settled _ _ _ _ _ GI n w (idx_opp off) kd v Ew Aw).
            - intros Q. apply (Hf _ Q). exists w. auto.
            - congruence.
            - apply nb_sym, Hn.
            - unfold n. rewrite add_opp. exact Eu.
            - apply Av.
            - exact Xv. }
          assert (B : (Rabs (rnd32 (FR f0 + FR (fmul kd vs))) < max32)%R) by (rewrite f0_R, Rplus_0_l, rnd32_FR; apply FR_lt_max).
          destruct (fadd_R f0 (fmul kd vs) eq_refl Fs B) as (E & F). rewrite f0_R, Rplus_0_l, rnd32_FR in E.
          apply nlt_ER in K; [|apply ffin_nnan, F|apply ffin_nnan, Fv]. rewrite !ER_fin in K by assumption. lra. }
      rewrite (fsub_nonpos _ _ Fv Fs) by lra. cbn [andb]. apply (Stop st p); auto. intros w' E' _ X'. congruence. }
    destruct (flt nd (e_distance w)) eqn:Lt.
    2:{ cbn [rbind]. fold l. rewrite (get_cell l u v SH Eu). cbn [rbind]. unfold occ_raise. fold l. rewrite (get_cell l n w SH Ew). cbn [rbind]. rewrite Xw. cbn [andb].
        apply (Stop st p); auto. intros w' E' _ _. congruence. }
    assert (Rk : rank nd < rank (e_distance w)).
    { pose proof Lt as L2. apply flt_R in L2; [|exact Fa|exact Fw]. apply rank_out; [| |exact Lt]; unfold outside; apply flt_R; try assumption; try reflexivity; rewrite f0_R; lra. }
    (* the common end: the neighbour takes the value *)
    assert (End : forall st1 p1 q, os_layer st1 = vset (k := KEsdf) l (adr V n) (relax w nd off q) -> oqueue (os_open st1) p1 ->
      (p1 = p /\ q = e_in_queue w /\ (flt nd mx = false \/ e_in_queue w = true)) \/
      (exists i, p1 = p ++ [(i, n)] /\ q = true /\ e_in_queue w = false /\ flt nd mx = true /\ 0 <= i) ->
      exists st' p', rbind (vget (os_layer st1) (adr V u)) (fun v1 => occ_raise c (e_distance v1) off (fmul kd vs) (kof V n) (adr V n) st1) = Ok st' /\ inv st' p' (Some u) /\
        cell (os_layer st') u = Some v /\ first_ok (cell (os_layer st')) p' v /\ meas st' p' <= meas st p /\
        (forall h, h <> n -> cell (os_layer st') h = cell l h) /\
        (forall w0, cell (os_layer st') n = Some w0 -> e_observed w0 = true -> e_fixed w0 = false -> flt nd (e_distance w0) = false)).
    { intros st1 p1 q EL Q1 Hp.
      assert (SH1 : shaped (os_layer st1)) by (rewrite EL; apply shaped_vset, SH).
      assert (C1 : forall h, cell (os_layer st1) h = vupd (cell l) n (relax w nd off q) h) by (rewrite EL; intros h; eapply cell_vset; eassumption).
      assert (Cu : cell (os_layer st1) u = Some v) by (rewrite C1, vupd_other by congruence; exact Eu).
      assert (Cn : cell (os_layer st1) n = Some (relax w nd off q)) by (rewrite C1; apply vupd_same).
      assert (I1 : inv st1 p1 (Some u)).
      { constructor; [exact SH1| |exact Q1|].
        - apply (related_ext (vupd (cell l) n (relax w nd off q))); [exact C1|]. eapply related_upd; [exact RL|exact Ew|reflexivity|reflexivity].
        - apply (ginv_ext (vupd (cell l) n (relax w nd off q))); [exact C1|]. eapply relax_inv; try eassumption. }
      exists st1, p1. rewrite (get_cell _ u v SH1 Cu). cbn [rbind]. unfold occ_raise. rewrite (get_cell _ n _ SH1 Cn). cbn [rbind relax ev_queue ev_parent ev_dist e_fixed]. rewrite Xw. cbn [andb].
      split; [reflexivity|]. split; [exact I1|]. split; [exact Cu|]. split; [|split; [|split]].
      - destruct Hf as [Hf|Hf]; [left; exact Hf|]. right. intros g Hg (y & Ey & Xy). rewrite C1 in Ey. destruct (idx_eq_dec g n) as [->|N].
        + rewrite vupd_same in Ey. injection Ey as <-. cbn [relax ev_queue ev_parent ev_dist e_fixed] in Xy. congruence.
        + rewrite vupd_other in Ey by exact N. assert (Hg' : inq p g).
          { destruct Hp as [(-> & _)|(i & -> & _)]; [exact Hg|]. apply inq_snoc in Hg. destruct Hg; [assumption|contradiction]. }
          apply (Hf g Hg'). exists y. auto.
      - unfold meas. rewrite EL, (mass_vset l _ w) by (rewrite <- (cell_at _ _ SH); exact Ew). cbn [relax ev_queue ev_parent ev_dist e_distance]. fold l.
        destruct Hp as [(-> & _)|(i & -> & _)]; [lia|]. rewrite app_length. cbn [length]. lia.
      - intros h N. rewrite C1. apply vupd_other, N.
      - intros w0 E0 _ _. rewrite Cn in E0. injection E0 as <-. cbn [relax ev_queue ev_parent ev_dist e_distance].
        apply nlt_ER; [apply ffin_nnan, Fa|apply ffin_nnan, Fa|lra]. }
    destruct (flt nd mx && negb (e_in_queue w)) eqn:Pu.
    - apply andb_true_iff in Pu. destruct Pu as (Pu & Qw). apply negb_true_iff in Qw.
      destruct (push_total st p n nd QU (room _ _ _ HI) Fa ltac:(lra)) as (st1 & i & Ep & El & Q1 & Hi). rewrite Ep. cbn [rbind].
      apply (End (os_set st1 (adr V n) (ev_queue (ev_parent (ev_dist w nd) (idx_opp off)) true)) (p ++ [(i, n)]) true).
      + unfold os_set. cbn [os_layer]. rewrite El. reflexivity.
      + exact Q1.
      + right. exists i. auto.
    - cbn [rbind]. apply (End (os_set st (adr V n) (ev_parent (ev_dist w nd) (idx_opp off))) p (e_in_queue w)).
      + unfold os_set. cbn [os_layer]. fold l. destruct w; reflexivity.
      + exact QU.
      + left. split; [reflexivity|]. split; [reflexivity|]. apply andb_false_iff in Pu. destruct Pu as [Pu|Pu]; [now left|right]. now apply negb_false_iff in Pu.
  Qed.

  Lemma neighbors_step : forall todo done st p u v, done ++ todo = neighbors26 ->
    inv st p (Some u) -> cell (os_layer st) u = Some v -> active c v -> first_ok (cell (os_layer st)) p v ->
    (forall off kd w, In (off, kd) done -> cell (os_layer st) (idx_add u off) = Some w -> e_observed w = true -> e_fixed w = false ->
         flt (fadd (e_distance v) (fmul kd vs)) (e_distance w) = false) ->
    exists st' p', rfold (occ_neighbor c vs (kof V u) (adr V u)) todo st = Ok st' /\ inv st' p' (Some u) /\
      cell (os_layer st') u = Some v /\ meas st' p' <= meas st p /\
      (forall off kd w, In (off, kd) neighbors26 -> cell (os_layer st') (idx_add u off) = Some w -> e_observed w = true -> e_fixed w = false ->
         flt (fadd (e_distance v) (fmul kd vs)) (e_distance w) = false).
  Proof.
    induction todo as [|(off, kd) todo IH]; intros done st p u v Ed HI Eu Av Hf Hd.
    - rewrite app_nil_r in Ed. subst done. exists st, p. cbn [rfold]. split; [reflexivity|]. split; [exact HI|]. split; [exact Eu|]. split; [lia|exact Hd].
    - assert (Hn : In (off, kd) neighbors26) by (rewrite <- Ed; apply in_elt).
      destruct (neighbor_step st p u v off kd HI Eu Av Hf Hn) as (st1 & p1 & E1 & I1 & C1 & F1 & M1 & K1 & S1).
      cbn [rfold]. rewrite E1. cbn [rbind].
      destruct (IH (done ++ [(off, kd)]) st1 p1 u v) as (st' & p' & E2 & I2 & C2 & M2 & S2); auto.
      + rewrite <- app_assoc. exact Ed.
      + intros o k w Hin Ew Ow Xw. apply in_app_iff in Hin. destruct Hin as [Hin|[Hin|[]]].
        * assert (N : idx_add u o <> idx_add u off).
          { intros X. apply add_off_inj in X. subst o. pose proof off_nodup as ND. rewrite <- Ed, map_app in ND. cbn [map fst] in ND.
            apply NoDup_remove_2 in ND. apply ND. apply in_app_iff. left. apply in_map_iff. exists (off, k). auto. }
          rewrite K1 in Ew by exact N. eapply Hd; eassumption.
        * injection Hin as <- <-. apply S1; assumption.
      + exists st', p'. split; [exact E2|]. split; [exact I2|]. split; [exact C2|]. split; [lia|exact S2].
  Qed.
  Lemma neighbors_eq : occ_neighbors = neighbors26. Proof. reflexivity. Qed.

  Lemma pop_step st p : inv st p None -> p <> [] ->
    exists st' p', occ_pop c st = Ok st' /\ inv st' p' None /\ meas st' p' < meas st p.
  Proof.
    intros HI Hne. pose proof HI as [SH RL [Q1 Q2 Q3] GI].
    destruct (next_some p Hne) as (m & u & r & _ & En & _).
    pose proof (front_ok _ _ Q1) as F. rewrite next_map, En in F. destruct F as (q1 & F1 & N1 & M1 & F2).
    destruct (pop_ok _ _ F2) as (q2 & F3 & N2 & M2 & F4); [rewrite map_length; pose proof (room _ _ _ HI); lia|]. rewrite next_map, En in F4.
    destruct (pop_view c vs _ _ _ _ GI En) as (G1 & Len & v & Ev & Av & Qv & Fv).
    unfold occ_pop. rewrite F1. cbn [rbind fst snd]. rewrite F3. cbn [rbind]. set (st0 := MkOS (os_layer st) q2).
    assert (I0 : inv st0 r (Some u)) by (constructor; [exact SH|exact RL|constructor; [exact F4|cbn [os_open st0]; congruence|cbn [os_open st0]; congruence]|exact G1]).
    unfold occ_visit. change (os_layer st0) with (os_layer st). unfold voxel_of.
    destruct (in_block _ u v SH Ev) as (b & Eb & Bv & _). rewrite Eb, Bv. cbn [rbind fst].
    change (fst (kof V u), Z.to_nat (computeLinearIndexFromVoxelIndex V (snd (kof V u)))) with (adr V u).
    rewrite (get_cell _ u v SH Ev). cbn [rbind]. destruct Av as (Ov & Lv & Ar). rewrite Ov. cbn [negb orb].
    assert (Gv : good c v) by (eapply g_val; eassumption). destruct (good_val c v Gv) as (Fd & _).
    assert (Ge : fge (e_distance v) mx = false).
    { unfold fge. apply not_true_is_false. intros X. pose proof (os_max_ok _ _ HS) as (Fm & _). apply fle_R in X; [|exact Fm|exact Fd]. apply flt_R in Lv; [lra|exact Fd|exact Fm]. }
    rewrite Ge, (sh_size _ SH), neighbors_eq.
    destruct (neighbors_step neighbors26 [] st0 r u v eq_refl I0 Ev ltac:(repeat split; assumption)) as (st' & p' & E2 & I2 & C2 & M3 & S2).
    - destruct Fv as [Fv|Fv]; [left; exact Fv|right; exact Fv].
    - intros ? ? ? [].
    - rewrite E2. cbn [rbind]. pose proof I2 as [SH2 RL2 Q5 G2]. rewrite (get_cell _ u v SH2 C2). cbn [rbind].
      exists (os_set st' (adr V u) (ev_queue v false)), p'. split; [reflexivity|].
      assert (CC : forall h, cell (vset (k := KEsdf) (os_layer st') (adr V u) (ev_queue v false)) h = vupd (cell (os_layer st')) u (ev_queue v false) h) by (intros h; eapply cell_vset; eassumption).
      split.
      + constructor; cbn [os_set os_layer os_open].
        * apply shaped_vset, SH2.
        * apply (related_ext (vupd (cell (os_layer st')) u (ev_queue v false))); [exact CC|]. eapply related_upd; [exact RL2|exact C2|reflexivity|reflexivity].
        * exact Q5.
        * apply (ginv_ext (vupd (cell (os_layer st')) u (ev_queue v false))); [exact CC|]. apply finish_view; auto. repeat split; assumption.
      + unfold meas in *. cbn [os_set os_layer]. rewrite (mass_vset (os_layer st') _ v) by (rewrite <- (cell_at _ _ SH2); exact C2). cbn [ev_queue e_distance].
        change (os_layer st0) with (os_layer st) in M3. lia.
  Qed.

  Lemma process_safe : forall fuel st p, inv st p None ->
    exists r, occ_process c fuel st = Ok r /\ forall st', r = Some st' -> inv st' [] None.
  Proof.
    induction fuel as [|fuel IH]; intros st p HI; cbn [occ_process]; rewrite (empty_ok _ _ (oq_inv _ _ (i_q _ _ _ HI))).
    - destruct p as [|e p]; cbn [map]; [|exists None; split; [reflexivity|discriminate]]. exists (Some st). split; [reflexivity|]. intros st' E. injection E as <-. exact HI.
    - destruct p as [|e p]; cbn [map]; [exists (Some st); split; [reflexivity|]; intros st' E; injection E as <-; exact HI|].
      destruct (pop_step st (e :: p) HI ltac:(discriminate)) as (st1 & p1 & E1 & I1 & _). rewrite E1. cbn [rbind]. apply (IH _ _ I1).
  Qed.
  Lemma process_ends : forall fuel st p, inv st p None -> meas st p <= Z.of_nat fuel ->
    exists st', occ_process c fuel st = Ok (Some st').
  Proof.
    induction fuel as [|fuel IH]; intros st p HI HM; cbn [occ_process]; rewrite (empty_ok _ _ (oq_inv _ _ (i_q _ _ _ HI))).
    - pose proof (mass_nonneg (os_layer st)). unfold meas in HM. destruct p as [|e p]; cbn [map length] in *; [eauto|lia].
    - destruct p as [|e p]; cbn [map]; [eauto|].
      destruct (pop_step st (e :: p) HI ltac:(discriminate)) as (st1 & p1 & E1 & I1 & M1). rewrite E1. cbn [rbind]. apply (IH _ _ I1). lia.
  Qed.
End Run.

(** ** the start *)
Lemma bucket_zero n mx : 1 <= n <= 2 ^ 30 -> ffin mx = true -> (0 < FR mx)%R -> bucket_of n (f64_of_f32 mx) (f64_of_f32 f0) = Some 0.
Proof.
  intros Hn Fm Pm. destruct (f64_of_f32_R _ Fm) as (Em & Gm). destruct (f64_of_f32_R f0 eq_refl) as (E0 & G0). rewrite f0_R in E0.
  assert (OK : value_ok (f64_of_f32 mx) (f64_of_f32 f0)).
  { split; [reflexivity|]. rewrite EDR_fin by exact G0. rewrite E0, Em. lra. }
  destruct (bucket_of_spec n (f64_of_f32 mx) (f64_of_f32 f0) ltac:(lia) Gm ltac:(rewrite Em; exact Pm) OK) as (-> & _). f_equal.
  assert (C : clamped (f64_of_f32 mx) (f64_of_f32 f0) = f64_of_f32 f0).
  { unfold clamped. replace (dgt (f64_of_f32 f0) (f64_of_f32 mx)) with false; [reflexivity|]. symmetry. apply not_true_is_false. intros X.
    unfold dgt in X. apply dlt_R in X; [|exact Gm|exact G0]. rewrite E0, Em in X. lra. }
  unfold bucket_prod. rewrite C.
  assert (M0 : (Rabs (rnd64 0) < max64)%R) by (rewrite rnd64_0, Rabs_R0; unfold max64; apply bpow_gt_0).
  assert (DA : DR (dabs (f64_of_f32 f0)) = 0%R) by (rewrite dabs_R, E0; apply Rabs_R0).
  assert (FA : dfin (dabs (f64_of_f32 f0)) = true) by reflexivity.
  destruct (ddiv_R (dabs (f64_of_f32 f0)) (f64_of_f32 mx) FA ltac:(rewrite Em; lra)) as (D1 & D2).
  { rewrite DA. unfold Rdiv. rewrite Rmult_0_l. exact M0. }
  rewrite DA in D1. unfold Rdiv in D1. rewrite Rmult_0_l, rnd64_0 in D1.
  destruct (f64_of_Z_R (n - 1)) as (Z1 & Z2); [lia|].
  destruct (dmul_R _ (f64_of_Z (n - 1)) D2 Z2) as (D3 & _).
  { rewrite D1, Rmult_0_l. exact M0. }
  rewrite D3, D1, Rmult_0_l, rnd64_0. apply Zfloor_IZR.
Qed.
