(** Proofs about layer evaluation. *)
From Coq Require Import ZArith List Bool Reals Lra Lia Psatz.
From Flocq Require Import Core.
From Verif Require Import F32 F32_lemmas F32_err Types Index Voxel Assoc Assoc_lemmas Layer Planning Interp Threads Threads_proofs Eval LayerUtils_spec Eval_spec Esdf_proofs Sphere_proofs.
Import ListNotations.
Open Scope Z_scope.

Definition sq_add (t : f64) (e : f32) : f64 := dadd t (f64_of_f32 (fmul e e)).
Definition max_step (a e : f32) : f32 := if flt a (fabs e) then fabs e else a.
Lemma count_snoc : forall A (f : A -> bool) xs x, count f (xs ++ [x]) = count f xs + (if f x then 1 else 0).
Proof. intros A f xs x. unfold count. rewrite filter_app, app_length, Nat2Z.inj_add. cbn [filter]. destruct (f x); reflexivity. Qed.
Lemma fabs_not_neg : forall e, flt (fabs e) f0 = false.
Proof.
  intros e. destruct (flt (fabs e) f0) eqn:E; [|reflexivity]. unfold flt, fabs, f0 in E.
  destruct e as [s|s|s p H|s m x H]; cbn in E; discriminate.
Qed.

Section tally.
  Context {k : vkind}.
  Variable m : emode.
  Notation prs := (list (vox k * vox k)).
  Definition errs (ps : prs) : list f32 := map error_of (filter (evaluated m) ps).
  Record tally (ps : prs) (vs : list (vox k)) (t : f64) (d : edetails) : Prop := MkTally {
    ta_rmse : ed_rmse d = f0; ta_total : t = fold_left sq_add (errs ps) d0;
    ta_max : ed_max d = fold_left max_step (errs ps) f0; ta_min : ed_min d = f0;
    ta_eval : ed_evaluated d = count (evaluated m) ps;
    ta_ign : ed_ignored d = count (fun p => both_observed p && excluded m p) ps;
    ta_over : ed_overlapping d = count both_observed ps;
    ta_non : ed_non_overlapping d = count (fun p => negb (both_observed p)) ps + count (isObservedVoxel k) vs }.
  Lemma tally0 : tally [] [] d0 det0.
  Proof. constructor; reflexivity. Qed.
  Lemma tally_solo : forall ps vs t d v, tally ps vs t d ->
    tally ps (vs ++ [v]) t (if isObservedVoxel k v then add_non d else d).
  Proof.
    intros ps vs t d v [A1 A2 A3 A4 A5 A6 A7 A8].
    constructor; destruct (isObservedVoxel k v) eqn:E; cbn [add_non ed_rmse ed_max ed_min ed_evaluated ed_ignored ed_overlapping ed_non_overlapping]; auto;
      rewrite count_snoc, E, A8; lia.
  Qed.
  Lemma errs_snoc : forall ps p, errs (ps ++ [p]) = errs ps ++ (if evaluated m p then [error_of p] else []).
  Proof. intros ps p. unfold errs. rewrite filter_app, map_app. cbn [filter]. destruct (evaluated m p); reflexivity. Qed.
  (** the verdict on a pair in terms of the specification *)
  Lemma verdict : forall p, computeVoxelError k (fst p) (snd p) m =
    if both_observed p then (if excluded m p then RIgnored else REvaluated (error_of p)) else RNoOverlap.
  Proof.
    intros (g, t). unfold computeVoxelError, both_observed, excluded, error_of. cbn [fst snd].
    destruct (isObservedVoxel k g), (isObservedVoxel k t); cbn [negb orb andb]; try reflexivity.
    destruct m; cbn [andb orb]; rewrite ?orb_false_r; reflexivity.
  Qed.
  Definition err_vox (p : vox k * vox k) (v : vox k) : vox k := if evaluated m p then set_error k (fabs (error_of p)) v else v.
  Lemma set_th_app : forall A (xs : list A) y ys x, set_th (length xs) x (xs ++ y :: ys) = xs ++ x :: ys.
  Proof. induction xs as [|a xs IH]; intros y ys x; cbn; [reflexivity|]. rewrite IH. reflexivity. Qed.
  Lemma nth_app : forall A (xs : list A) y ys, nth_error (xs ++ y :: ys) (length xs) = Some y.
  Proof. induction xs; cbn; auto. Qed.
  Lemma eval_voxel_tally : forall ps vs s gb tb i g t, tally ps vs (el_total s) (el_det s) ->
    nth_error (b_voxels gb) i = Some g -> nth_error (b_voxels tb) i = Some t ->
    (forall es, el_err s = Some es -> (i < length es)%nat) ->
    exists s', eval_voxel m gb tb s i = Ok s' /\ tally (ps ++ [(g, t)]) vs (el_total s') (el_det s') /\
      el_err s' = option_map (fun es => match nth_error es i with Some v => set_th i (err_vox (g, t) v) es | None => es end) (el_err s).
  Proof.
    intros ps vs s gb tb i g t T Hg Ht Hl. unfold eval_voxel, read_voxel. rewrite Hg, Ht. cbn [of_opt rbind].
    pose proof (verdict (g, t)) as V. cbn [fst snd] in V. rewrite V. clear V.
    destruct T as [A1 A2 A3 A4 A5 A6 A7 A8].
    assert (EV : evaluated m (g, t) = both_observed (g, t) && negb (excluded m (g, t))) by reflexivity.
    assert (SAME : forall es : list (vox k), evaluated m (g, t) = false ->
       match nth_error es i with Some v => set_th i (err_vox (g, t) v) es | None => es end = es).
    { intros es E. destruct (nth_error es i) as [v|] eqn:N; [|reflexivity]. unfold err_vox. rewrite E.
      destruct (set_th_split es i v v N) as (l1 & l2 & Q1 & Q2 & _). congruence. }
    destruct (both_observed (g, t)) eqn:B; [destruct (excluded m (g, t)) eqn:X|]; cbn [andb negb] in EV.
    - eexists. split; [reflexivity|]. cbn [el_total el_det el_err]. split.
      + constructor; cbn [ed_rmse ed_max ed_min ed_evaluated ed_ignored ed_overlapping ed_non_overlapping]; rewrite ?errs_snoc, ?count_snoc, ?EV, ?B, ?X, ?app_nil_r; cbn [negb andb]; auto; try lia.
      + destruct (el_err s) as [es|]; cbn [option_map]; [|reflexivity]. rewrite SAME by exact EV. reflexivity.
    - assert (T' : tally (ps ++ [(g, t)]) vs (dadd (el_total s) (f64_of_f32 (fmul (error_of (g, t)) (error_of (g, t)))))
         (MkDet (ed_rmse (el_det s)) (if flt (ed_max (el_det s)) (fabs (error_of (g, t))) then fabs (error_of (g, t)) else ed_max (el_det s))
            (if flt (fabs (error_of (g, t))) (ed_min (el_det s)) then fabs (error_of (g, t)) else ed_min (el_det s))
            (ed_evaluated (el_det s) + 1) (ed_ignored (el_det s)) (ed_overlapping (el_det s) + 1) (ed_non_overlapping (el_det s)))).
      { constructor; cbn [ed_rmse ed_max ed_min ed_evaluated ed_ignored ed_overlapping ed_non_overlapping]; rewrite ?errs_snoc, ?count_snoc, ?EV, ?B, ?X; cbn [negb andb]; auto; try lia.
        - rewrite fold_left_app. cbn [fold_left]. rewrite <- A2. reflexivity.
        - rewrite fold_left_app. cbn [fold_left]. rewrite <- A3. reflexivity.
        - rewrite A4, fabs_not_neg. reflexivity. }
      destruct (el_err s) as [es|] eqn:ES; cbn [option_map].
      + destruct (nth_error es i) as [v|] eqn:N; [|apply nth_error_None in N; specialize (Hl es eq_refl); lia]. cbn [of_opt rbind].
        eexists. split; [reflexivity|]. cbn [el_total el_det el_err]. split; [exact T'|]. unfold err_vox. rewrite EV. reflexivity.
      + eexists. split; [reflexivity|]. split; [exact T'|]. reflexivity.
    - eexists. split; [reflexivity|]. cbn [el_total el_det el_err]. split.
      + constructor; cbn [add_non ed_rmse ed_max ed_min ed_evaluated ed_ignored ed_overlapping ed_non_overlapping]; rewrite ?errs_snoc, ?count_snoc, ?EV, ?B, ?app_nil_r; cbn [negb andb]; auto; try lia.
      + destruct (el_err s) as [es|]; cbn [option_map]; [|reflexivity]. rewrite SAME by exact EV. reflexivity.
  Qed.
  (** the error block after a block *)
  Definition err_after (gv tv es : list (vox k)) : list (vox k) := map (fun pv => err_vox (fst pv) (snd pv)) (combine (combine gv tv) es).
  Lemma eval_loop : forall gr tr er gp tp ep gb tb ps vs s, b_voxels gb = gp ++ gr -> b_voxels tb = tp ++ tr ->
    length gp = length tp -> length gr = length tr -> tally ps vs (el_total s) (el_det s) ->
    (el_err s = None \/ (el_err s = Some (ep ++ er) /\ length ep = length gp /\ length er = length gr)) ->
    exists s', rfold (eval_voxel m gb tb) (seq (length gp) (length gr)) s = Ok s' /\
      tally (ps ++ combine gr tr) vs (el_total s') (el_det s') /\
      ((el_err s = None /\ el_err s' = None) \/ (el_err s = Some (ep ++ er) /\ el_err s' = Some (ep ++ err_after gr tr er))).
  Proof.
    induction gr as [|g gr IH]; intros [|t tr] er gp tp ep gb tb ps vs s Hg Ht L1 L2 T He; try discriminate; cbn [length seq rfold combine].
    - exists s. rewrite app_nil_r. split; [reflexivity|]. split; [exact T|]. destruct He as [He|(He & _ & He2)]; [left; auto|right].
      destruct er; [|discriminate]. auto.
    - cbn [length] in L2.
      destruct (eval_voxel_tally ps vs s gb tb (length gp) g t T) as (s1 & E1 & T1 & R1).
      + rewrite Hg. apply nth_app.
      + rewrite Ht, L1. apply nth_app.
      + intros es Q. destruct He as [He|(He & H1 & H2)]; [congruence|]. assert (es = ep ++ er) by congruence. subst es. rewrite app_length, H2. cbn [length]. lia.
      + rewrite E1. cbn [rbind]. replace (S (length gp)) with (length (gp ++ [g])) by (rewrite app_length; cbn [length]; lia).
        destruct He as [He|(He & H1 & H2)].
        * destruct (IH tr [] (gp ++ [g]) (tp ++ [t]) [] gb tb (ps ++ [(g, t)]) vs s1) as (s2 & E2 & T2 & R2).
          -- rewrite <- app_assoc. exact Hg.
          -- rewrite <- app_assoc. exact Ht.
          -- rewrite !app_length. cbn [length]. lia.
          -- lia.
          -- exact T1.
          -- left. rewrite R1, He. reflexivity.
          -- exists s2. rewrite <- app_assoc in T2. split; [exact E2|]. split; [exact T2|]. left. split; [exact He|].
             rewrite He in R1. cbn [option_map] in R1. destruct R2 as [(_ & R2)|(R2 & _)]; [exact R2|congruence].
        * destruct er as [|e er]; [discriminate|]. cbn [length] in H2.
          assert (R1' : el_err s1 = Some ((ep ++ [err_vox (g, t) e]) ++ er)).
          { rewrite R1, He. cbn [option_map]. rewrite <- H1, nth_app, set_th_app, <- app_assoc. reflexivity. }
          destruct (IH tr er (gp ++ [g]) (tp ++ [t]) (ep ++ [err_vox (g, t) e]) gb tb (ps ++ [(g, t)]) vs s1) as (s2 & E2 & T2 & R2).
          -- rewrite <- app_assoc. exact Hg.
          -- rewrite <- app_assoc. exact Ht.
          -- rewrite !app_length. cbn [length]. lia.
          -- lia.
          -- exact T1.
          -- right. rewrite !app_length. cbn [length]. repeat split; [exact R1'|lia|lia].
          -- exists s2. rewrite <- app_assoc in T2. split; [exact E2|]. split; [exact T2|]. right. split; [exact He|].
             destruct R2 as [(R2 & _)|(_ & R2)]; [congruence|]. rewrite R2, <- app_assoc. reflexivity.
  Qed.
  Lemma solo_loop : forall (b : Block k) r p ps vs t d, b_voxels b = p ++ r -> tally ps vs t d ->
    exists d', rfold (fun d i => rbind (read_voxel b i) (fun v => Ok (if isObservedVoxel k v then add_non d else d))) (seq (length p) (length r)) d = Ok d' /\
      tally ps (vs ++ r) t d'.
  Proof.
    intros b. induction r as [|v r IH]; intros p ps vs t d Hb T; cbn [length seq rfold].
    - exists d. rewrite app_nil_r. auto.
    - unfold read_voxel at 1. rewrite Hb, nth_app. cbn [of_opt rbind].
      replace (S (length p)) with (length (p ++ [v])) by (rewrite app_length; cbn [length]; lia).
      destruct (IH (p ++ [v]) ps (vs ++ [v]) t (if isObservedVoxel k v then add_non d else d)) as (d' & E & T').
      + rewrite <- app_assoc. exact Hb.
      + apply tally_solo, T.
      + exists d'. rewrite <- app_assoc in T'. auto.
  Qed.
End tally.

Section layers.
  Context {k : vkind}.
  Variables (m : emode) (gt test : Layer k).
  Hypothesis RG : regular gt.
  Hypothesis RT : regular test.
  Hypothesis VPS : l_vps gt = l_vps test.
  Notation n := (num_voxels (l_vps test)).
  Definition pairs_of (bs : list (idx3 * Block k)) : list (vox k * vox k) :=
    flat_map (fun ib => match l_get gt (fst ib) with Some gb => combine (b_voxels gb) (b_voxels (snd ib)) | None => [] end) bs.
  Definition only_of (o : Layer k) (bs : list (idx3 * Block k)) : list (vox k) :=
    flat_map (fun ib => match l_get o (fst ib) with Some _ => [] | None => b_voxels (snd ib) end) bs.
  (** the error layer after some blocks *)
  Definition err_state (done : list (idx3 * Block k)) (el el' : option (Layer k)) : Prop :=
    match el, el' with
    | None, None => True
    | Some l, Some l' => l_size l' = l_size l /\ l_vps l' = l_vps l /\
        forall i, match alookup i done, l_get gt i with
                  | Some tb, Some gb => exists b', l_get l' i = Some b' /\
                      b_voxels b' = err_after m (b_voxels gb) (b_voxels tb)
                        (match l_get l i with Some b => b_voxels b | None => repeat (vdefault k) n end)
                  | _, _ => l_get l' i = l_get l i
                  end
    | _, _ => False
    end.
  Lemma err_after_len : forall gv tv es, length gv = n -> length tv = n -> length es = n -> length (err_after (k := k) m gv tv es) = n.
  Proof. intros gv tv es A B C. unfold err_after. rewrite map_length, !combine_length. lia. Qed.
  Lemma alookup_snoc : forall A (xs : amap A) i j v, alookup i (xs ++ [(j, v)]) = match alookup i xs with Some x => Some x | None => if idx_eqb i j then Some v else None end.
  Proof.
    induction xs as [|[a x] xs IH]; intros i j v; cbn [app alookup].
    - reflexivity.
    - destruct (idx_eqb i a); [reflexivity|apply IH].
  Qed.
  Lemma eval_blocks : forall rest done el vs t d el1,
    l_blocks test = done ++ rest ->
    tally m (pairs_of done) vs t d ->
    (forall l, el = Some l -> regular l /\ l_vps l = l_vps test) -> err_state done el el1 ->
    exists t' d' el', rfold (eval_block n m gt test) (map fst rest) (t, d, el1) = Ok (t', d', el') /\
      tally m (pairs_of (done ++ rest)) (vs ++ only_of gt rest) t' d' /\ err_state (done ++ rest) el el'.
  Proof.
    induction rest as [|[i tb] rest IH]; intros done el vs t d el1 Hb T HR HE; cbn [map rfold only_of flat_map fst snd].
    - exists t, d, el1. rewrite !app_nil_r. auto.
    - assert (ND : alookup i done = None).
      { apply alookup_None. destruct RT as (N & _). unfold getAllAllocatedBlocks in N. rewrite Hb in N. unfold akeys in *. rewrite map_app in N. cbn [map fst] in N.
        apply NoDup_remove_2 in N. intros J. apply N. apply in_app_iff. left. exact J. }
      assert (GT : l_get test i = Some tb).
      { unfold l_get. rewrite Hb. replace (done ++ (i, tb) :: rest) with ((done ++ [(i, tb)]) ++ rest) by (rewrite <- app_assoc; reflexivity).
        clear - ND. induction done as [|[a x] done IH]; cbn [app alookup] in *; [rewrite idx_eqb_refl; reflexivity|]. destruct (idx_eqb i a); [discriminate|apply IH, ND]. }
      pose proof (proj2 RT _ _ GT) as LT.
      unfold eval_block at 1. rewrite GT. cbn [of_opt rbind].
      replace (done ++ (i, tb) :: rest) with ((done ++ [(i, tb)]) ++ rest) in * by (rewrite <- app_assoc; reflexivity).
      assert (PO : pairs_of (done ++ [(i, tb)]) = pairs_of done ++ match l_get gt i with Some gb => combine (b_voxels gb) (b_voxels tb) | None => [] end).
      { unfold pairs_of. rewrite flat_map_app. cbn [flat_map fst snd]. rewrite app_nil_r. reflexivity. }
      destruct (l_get gt i) as [gb|] eqn:GG.
      + pose proof (proj2 RG _ _ GG) as LG. rewrite VPS in LG. cbn [app].
        assert (EB : match el, el1 with
          | None, None => True
          | Some l, Some l1 => exists b1, l_get (allocateBlockPtrByIndex l1 i) i = Some b1 /\ length (b_voxels b1) = n /\
              b_voxels b1 = (match l_get l i with Some b => b_voxels b | None => repeat (vdefault k) n end) /\
              l_size (allocateBlockPtrByIndex l1 i) = l_size l /\ l_vps (allocateBlockPtrByIndex l1 i) = l_vps l /\
              forall j, j <> i -> l_get (allocateBlockPtrByIndex l1 i) j = l_get l1 j
          | _, _ => False end).
        { unfold err_state in HE. destruct el as [l|], el1 as [l1|]; try contradiction; [|exact I]. destruct HE as (S1 & V1 & Q).
          pose proof (Q i) as Qi. rewrite ND in Qi. destruct (HR l eq_refl) as ((_ & RL) & VL).
          destruct (alloc_dims k l1 i) as (D1 & D2). rewrite D1, D2, S1, V1.
          assert (OTH : forall j, j <> i -> l_get (allocateBlockPtrByIndex l1 i) j = l_get l1 j).
          { intros j N. rewrite alloc_get, (idx_eqb_neq _ _ N). destruct (l_get l1 j); reflexivity. }
          rewrite alloc_get, idx_eqb_refl, Qi. destruct (l_get l i) as [b1|] eqn:L1.
          - exists b1. pose proof (RL i b1 L1) as RLi. rewrite VL in RLi. auto 8.
          - eexists. split; [reflexivity|]. unfold new_block. cbn [b_voxels]. rewrite V1, VL. rewrite repeat_length. auto 8. }
        destruct el as [l|], el1 as [l1|]; try contradiction.
        * destruct EB as (b1 & G1 & N1 & E1 & S1 & V1 & O1). cbn [option_map]. rewrite G1. cbn [option_map].
          destruct (eval_loop m (b_voxels gb) (b_voxels tb) (b_voxels b1) [] [] [] gb tb (pairs_of done) vs (MkLoop t d (Some (b_voxels b1)))) as (s' & E' & T' & R').
          -- reflexivity.
          -- reflexivity.
          -- reflexivity.
          -- congruence.
          -- exact T.
          -- right. cbn [el_err app length]. repeat split; congruence.
          -- cbn [length] in E'. rewrite LG in E'. rewrite E'. cbn [rbind]. destruct R' as [(R' & _)|(_ & R')]; [discriminate|]. rewrite R'. cbn [app].
             apply IH; auto; [rewrite PO; exact T'|]. unfold err_state in HE |- *. destruct HE as (_ & _ & Q).
             split. { unfold set_block. rewrite G1. exact S1. } split. { unfold set_block. rewrite G1. exact V1. }
             intros j. rewrite alookup_snoc, set_block_get. destruct (idx_eqb_spec j i) as [->|NJ].
             ++ rewrite ND, GG, G1. cbn [option_map]. eexists. split; [reflexivity|]. unfold set_voxels. cbn [b_voxels]. rewrite E1. reflexivity.
             ++ rewrite (O1 j NJ). specialize (Q j). destruct (alookup j done); exact Q.
        * cbn [option_map].
          destruct (eval_loop m (b_voxels gb) (b_voxels tb) [] [] [] [] gb tb (pairs_of done) vs (MkLoop t d None)) as (s' & E' & T' & R').
          -- reflexivity.
          -- reflexivity.
          -- reflexivity.
          -- congruence.
          -- exact T.
          -- left. reflexivity.
          -- cbn [length] in E'. rewrite LG in E'. rewrite E'. cbn [rbind]. apply IH; auto. rewrite PO. exact T'.
      + destruct (solo_loop m tb (b_voxels tb) [] (pairs_of done) vs t d eq_refl T) as (d1 & E1 & T1). cbn [length] in E1. rewrite LT in E1.
        unfold solo_block. rewrite E1. cbn [rbind].
        rewrite app_assoc. apply IH; auto.
        * rewrite PO, app_nil_r. exact T1.
        * unfold err_state in *. destruct el as [l|], el1 as [l1|]; auto. destruct HE as (A & B & Q). split; [auto|split; [auto|]]. intros j.
          rewrite alookup_snoc. specialize (Q j). destruct (alookup j done); [exact Q|]. destruct (idx_eqb_spec j i) as [->|N]; [rewrite GG in *; exact Q|exact Q].
  Qed.
  Lemma gt_blocks : forall rest done ps vs t d, l_blocks gt = done ++ rest -> tally m ps vs t d ->
    exists d', rfold (fun d i => rbind (of_opt (l_get gt i)) (fun gb => if hasBlock test i then Ok d else solo_block n gb d)) (map fst rest) d = Ok d' /\
      tally m ps (vs ++ only_of test rest) t d'.
  Proof.
    induction rest as [|[i gb] rest IH]; intros done ps vs t d Hb T; cbn [map rfold only_of flat_map fst snd].
    - exists d. rewrite app_nil_r. auto.
    - assert (ND : alookup i done = None).
      { apply alookup_None. destruct RG as (N & _). unfold getAllAllocatedBlocks in N. rewrite Hb in N. unfold akeys in *. rewrite map_app in N. cbn [map fst] in N.
        apply NoDup_remove_2 in N. intros J. apply N. apply in_app_iff. left. exact J. }
      replace (done ++ (i, gb) :: rest) with ((done ++ [(i, gb)]) ++ rest) in Hb by (rewrite <- app_assoc; reflexivity).
      assert (GG : l_get gt i = Some gb).
      { unfold l_get. rewrite Hb.
        clear - ND. induction done as [|[a x] done IH]; cbn [app alookup] in *; [rewrite idx_eqb_refl; reflexivity|]. destruct (idx_eqb i a); [discriminate|apply IH, ND]. }
      pose proof (proj2 RG _ _ GG) as LG. rewrite VPS in LG. rewrite GG. cbn [of_opt rbind]. unfold hasBlock. destruct (l_get test i) as [tb|].
      + cbn [rbind]. cbn [app]. eapply IH; eassumption.
      + unfold solo_block. destruct (solo_loop m gb (b_voxels gb) [] ps vs t d eq_refl T) as (d1 & E1 & T1). cbn [length] in E1. rewrite LG in E1. rewrite E1. cbn [rbind].
        rewrite app_assoc. eapply IH; eassumption.
  Qed.
  Lemma evaluate_spec : forall el, (forall l, el = Some l -> regular l /\ l_vps l = l_vps test) ->
    exists d t el', tally m (pairs gt test) (only_in test gt ++ only_in gt test) t d /\
      evaluateLayersRmse gt test m el = Ok (MkDet (if ed_evaluated d =? 0 then f0 else f32_of_f64 (dsqrt (ddiv t (f64_of_Z (ed_evaluated d)))))
        (ed_max d) (ed_min d) (ed_evaluated d) (ed_ignored d) (ed_overlapping d) (ed_non_overlapping d), el') /\
      err_state (l_blocks test) el el'.
  Proof.
    intros el HR. unfold evaluateLayersRmse.
    destruct (eval_blocks (l_blocks test) [] el [] d0 det0 el eq_refl (tally0 m) HR) as (t1 & d1 & el1 & E1 & T1 & S1).
    { unfold err_state. destruct el as [l|]; [|exact I]. split; [reflexivity|]. split; [reflexivity|]. intros i. reflexivity. }
    unfold getAllAllocatedBlocks, akeys. rewrite E1. cbn [rbind].
    destruct (gt_blocks (l_blocks gt) [] _ _ _ _ eq_refl T1) as (d2 & E2 & T2). rewrite E2. cbn [rbind].
    exists d2, t1, el1. split; [exact T2|]. split; [reflexivity|exact S1].
  Qed.
End layers.

(** ** The largest error *)
Lemma fold_maxerr : forall es m0, ffin m0 = true -> Forall (fun e => ffin e = true) es ->
  let mx := fold_left max_step es m0 in
  ffin mx = true /\ (mx = m0 \/ exists e, In e es /\ mx = fabs e) /\ (FR m0 <= FR mx)%R /\ Forall (fun e => Rabs (FR e) <= FR mx)%R es.
Proof.
  induction es as [|e es IH]; intros m0 F0 H; cbn [fold_left].
  - repeat split; auto. apply Rle_refl.
  - apply Forall_cons_iff in H. destruct H as (Fe & H). set (m1 := max_step m0 e).
    assert (Fa : ffin (fabs e) = true) by (destruct e; try discriminate; reflexivity).
    assert (A : ffin m1 = true /\ (m1 = m0 \/ m1 = fabs e) /\ (FR m0 <= FR m1)%R /\ (Rabs (FR e) <= FR m1)%R).
    { unfold m1, max_step. destruct (flt m0 (fabs e)) eqn:E.
      - apply flt_R in E; auto. rewrite fabs_R in *. repeat split; auto; lra.
      - repeat split; auto; try lra. destruct (Rle_or_lt (Rabs (FR e)) (FR m0)) as [C|C]; [exact C|]. rewrite <- fabs_R in C. apply flt_R in C; auto. congruence. }
    destruct A as (F1 & O1 & L1 & L1'). destruct (IH m1 F1 H) as (F & O & L & A). split; [exact F|]. split.
    + destruct O as [-> | (x & I & ->)]; [|right; exists x; split; [now right|reflexivity]].
      destruct O1 as [-> | ->]; [left; reflexivity|right; exists e; split; [now left|reflexivity]].
    + split; [lra|]. constructor; [lra|exact A].
Qed.

(** ** The root mean square *)
Open Scope R_scope.
Definition sqsum (es : list f32) : R := fold_right (fun e s => FR e * FR e + s) 0 es.
Lemma sqsum_app : forall a b, sqsum (a ++ b) = sqsum a + sqsum b.
Proof. induction a as [|x a IH]; intros b; [change (sqsum b = 0 + sqsum b); ring|]. change (FR x * FR x + sqsum (a ++ b) = FR x * FR x + sqsum a + sqsum b). rewrite IH. ring. Qed.
Lemma sqsum_pos : forall es, 0 <= sqsum es.
Proof. induction es as [|x es IH]; [apply Rle_refl|]. change (0 <= FR x * FR x + sqsum es). pose proof (Rle_0_sqr (FR x)). unfold Rsqr in *. lra. Qed.
Lemma sqsum_bound : forall es B, Forall (fun e => FR e * FR e <= B) es -> sqsum es <= INR (length es) * B.
Proof.
  intros es B H. induction H as [|x es H0 H IH]; [cbn; lra|]. change (sqsum (x :: es)) with (FR x * FR x + sqsum es). cbn [length]. rewrite S_INR. lra.
Qed.
Lemma sqsum_lower : forall es B, Forall (fun e => B <= FR e * FR e) es -> INR (length es) * B <= sqsum es.
Proof.
  intros es B H. induction H as [|x es H0 H IH]; [cbn; lra|]. change (sqsum (x :: es)) with (FR x * FR x + sqsum es). cbn [length]. rewrite S_INR. lra.
Qed.
Lemma sq_term : forall e, ffin e = true -> Rabs (FR e) <= 2 ^ 60 ->
  dfin (f64_of_f32 (fmul e e)) = true /\ Rabs (DR (f64_of_f32 (fmul e e)) - FR e * FR e) <= / 16777216 * (FR e * FR e) + bpow radix2 (-150).
Proof.
  intros e F B. assert (B' : Rabs (FR e) <= bpow radix2 60) by (replace (bpow radix2 60) with (2 ^ 60) by (rewrite <- (pow_powerRZ radix2 60%nat) || (cbn; lra)); exact B).
  destruct (fmul_rel e e F F) as (Fm & d & x & Hd & Hx & E); [eapply Rabs_mul_bpow; try exact B'; lia|].
  destruct (f64_of_f32_R _ Fm) as (ED & FD). split; [exact FD|]. rewrite ED, E.
  replace (FR e * FR e * (1 + d) + x - FR e * FR e) with (FR e * FR e * d + x) by ring.
  eapply Rle_trans; [apply Rabs_triang|]. rewrite Rabs_mult, (Rabs_pos_eq (FR e * FR e)) by (apply Rle_0_sqr).
  pose proof (Rle_0_sqr (FR e)) as P. unfold Rsqr in P. pose proof (Rmult_le_compat_l _ _ _ P Hd). unfold u32r, t32r in *. lra.
Qed.
Notation K150 := (bpow radix2 (-150)).
Lemma t64_K : t64r <= u64r * K150.
Proof. unfold t64r. replace u64r with (bpow radix2 (-53)) by reflexivity. rewrite <- bpow_plus. apply bpow_le. lia. Qed.
Lemma K_small : 0 < K150 <= / 1024.
Proof. split; [apply bpow_gt_0|]. change (/ 1024) with (bpow radix2 (-10)). apply bpow_le. lia. Qed.
Lemma total_err : forall es, errors_ok es -> INR (length es) <= 536870912 ->
  dfin (fold_left sq_add es d0) = true /\ 0 <= DR (fold_left sq_add es d0) /\
  Rabs (DR (fold_left sq_add es d0) - sqsum es) <= (/ 16777216 + INR (length es) * / 4503599627370496) * sqsum es + 2 * INR (length es) * K150.
Proof.
  pose proof t64_K as TK. destruct K_small as (KP & KS).
  intros es. induction es as [|e es IH] using rev_ind; intros H L.
  - change (sqsum []) with 0. cbn. split; [reflexivity|]. rewrite Rminus_0_r, Rabs_R0. lra.
  - rewrite app_length in *. cbn [length] in *. rewrite Nat.add_1_r, S_INR in *. unfold errors_ok in H. rewrite Forall_app in H. destruct H as (H & He).
    apply Forall_inv in He. destruct He as (Fe & Be). destruct (IH H ltac:(lra)) as (F & P & E). rewrite fold_left_app, sqsum_app. cbn [fold_left].
    change (sqsum [e]) with (FR e * FR e + 0). unfold sq_add at 1 3 5. set (t := fold_left sq_add es d0) in *. set (q := f64_of_f32 (fmul e e)).
    destruct (sq_term e Fe Be) as (Fq & Eq). fold q in Fq, Eq. pose proof (sqsum_pos es) as SP. pose proof (Rle_0_sqr (FR e)) as EP. unfold Rsqr in EP.
    pose proof (pos_INR (length es)) as NP. set (n := INR (length es)) in *. set (S0 := sqsum es) in *. set (e2 := FR e * FR e) in *.
    assert (Pq : 0 <= DR q).
    { unfold q. destruct (fmul_rel e e Fe Fe) as (Fm & _).
      { apply Rabs_mul_bpow with (a := 60%Z) (b := 60%Z); [| |lia]; change (bpow radix2 60) with (IZR (2 ^ 60)); replace (IZR (2 ^ 60)) with (2 ^ 60) by (cbn; lra); exact Be. }
      rewrite (proj1 (f64_of_f32_R _ Fm)). destruct (fmul_R e e Fe Fe) as (EE & _).
      { apply rnd32_small. apply Rabs_mul_bpow with (a := 60%Z) (b := 60%Z); [| |lia]; change (bpow radix2 60) with (IZR (2 ^ 60)); replace (IZR (2 ^ 60)) with (2 ^ 60) by (cbn; lra); exact Be. }
      rewrite EE, <- rnd32_0. apply rnd32_le. exact EP. }
    assert (E2B : e2 <= 2 ^ 120).
    { unfold e2. replace (2 ^ 120) with (2 ^ 60 * 2 ^ 60) by ring. rewrite <- (Rabs_pos_eq (FR e * FR e)) by exact EP. rewrite Rabs_mult. apply Rmult_le_compat; auto using Rabs_pos. }
    assert (SB : S0 <= n * 2 ^ 120).
    { apply sqsum_bound. apply Forall_forall. intros x I. rewrite Forall_forall in H. destruct (H x I) as (_ & Bx).
      replace (2 ^ 120) with (2 ^ 60 * 2 ^ 60) by ring. rewrite <- (Rabs_pos_eq (FR x * FR x)) by apply Rle_0_sqr. rewrite Rabs_mult. apply Rmult_le_compat; auto using Rabs_pos. }
    assert (NS : n * / 4503599627370496 * S0 <= / 8388608 * S0) by (apply Rmult_le_compat_r; lra).
    assert (NK : n * K150 <= 536870912 * K150) by (apply Rmult_le_compat_r; lra).
    assert (SUM : Rabs (DR t + DR q) <= 2 * (S0 + e2) + 2 * n * K150 + K150).
    { replace (DR t + DR q) with ((DR t - S0) + ((DR q - e2) + (S0 + e2))) by ring. eapply Rle_trans; [apply Rabs_triang|].
      pose proof (Rabs_triang (DR q - e2) (S0 + e2)) as Q1. rewrite (Rabs_pos_eq (S0 + e2)) in Q1 by lra. lra. }
    assert (FIN : Rabs (DR t + DR q) <= bpow radix2 1023).
    { eapply Rle_trans; [exact SUM|]. apply Rle_trans with (2 ^ 200).
      - assert (n * 2 ^ 120 <= 536870912 * 2 ^ 120) by (apply Rmult_le_compat_r; [apply pow_le; lra|lra]).
        replace (2 ^ 200) with (2 ^ 80 * 2 ^ 120) by ring. assert (1 <= 2 ^ 120) by (apply pow_R1_Rle; lra). lra.
      - replace (2 ^ 200) with (bpow radix2 200) by (cbn; lra). apply bpow_le. lia. }
    destruct (dadd_R t q F Fq (rnd64_small _ FIN)) as (ER & F'). fold (sq_add t e) in *. split; [exact F'|]. split.
    { rewrite ER, <- rnd64_0. apply rnd64_le. lra. }
    destruct (rnd64_err (DR t + DR q)) as (d & x & Hd & Hx & Q). rewrite ER, Q.
    replace ((DR t + DR q) * (1 + d) + x - (S0 + (e2 + 0))) with ((DR t - S0) + ((DR q - e2) + ((DR t + DR q) * d + x))) by ring.
    eapply Rle_trans; [apply Rabs_triang|]. eapply Rle_trans; [apply Rplus_le_compat_l, Rabs_triang|].
    assert (U : Rabs ((DR t + DR q) * d + x) <= u64r * (2 * (S0 + e2) + 2 * n * K150 + K150) + u64r * K150).
    { eapply Rle_trans; [apply Rabs_triang|]. rewrite Rabs_mult.
      assert (Rabs (DR t + DR q) * Rabs d <= (2 * (S0 + e2) + 2 * n * K150 + K150) * u64r) by (apply Rmult_le_compat; auto using Rabs_pos). lra. }
    unfold u64r in *.
    replace ((/ 16777216 + (n + 1) * / 4503599627370496) * (S0 + (e2 + 0)) + 2 * (n + 1) * K150) with
      ((/ 16777216 + n * / 4503599627370496) * S0 + / 4503599627370496 * S0 + / 16777216 * e2 + (n * e2) * / 4503599627370496 + / 4503599627370496 * e2 + 2 * n * K150 + 2 * K150) by ring.
    assert (0 <= n * e2) by (apply Rmult_le_pos; lra). lra.
Qed.
Lemma dsqrt_R : forall a, dfin a = true -> 0 <= DR a -> DR (dsqrt a) = rnd64 (sqrt (DR a)) /\ dfin (dsqrt a) = true.
Proof.
  intros a F P. pose proof (Binary.Bsqrt_correct 53 1024 Hprec64 Hmax64 Bits.unop_nan_pl64 BinarySingleNaN.mode_NE a) as (H1 & H2 & _).
  change (Binary.Bsqrt 53 1024 Hprec64 Hmax64 Bits.unop_nan_pl64 BinarySingleNaN.mode_NE a) with (dsqrt a) in *.
  split; [exact H1|]. unfold dfin. etransitivity; [exact H2|].
  destruct a as [s|s|s p Hp|s m e Hm]; try discriminate; auto. destruct s; auto. exfalso.
  assert (N : DR (Binary.B754_finite 53 1024 true m e Hm) < 0); [|lra].
  unfold DR, Binary.B2R. apply F2R_lt_0. reflexivity.
Qed.
Lemma sqrt_near : forall q M eps tau, 0 <= q -> 0 <= M -> 0 <= eps <= 1 -> 0 <= tau -> Rabs (q - M) <= eps * M + tau * tau ->
  Rabs (sqrt q - sqrt M) <= eps * sqrt M + tau.
Proof.
  intros q M eps tau Hq HM (He0 & He1) Ht H. apply Rabs_le_inv in H. pose proof (sqrt_pos q). pose proof (sqrt_pos M).
  pose proof (sqrt_sqrt q Hq) as Q1. pose proof (sqrt_sqrt M HM) as Q2.
  assert (A : sqrt q <= (1 + eps) * sqrt M + tau).
  { apply Rsqr_incr_0_var; [|apply Rplus_le_le_0_compat; [apply Rmult_le_pos; lra|lra]]. unfold Rsqr. rewrite Q1.
    replace (((1 + eps) * sqrt M + tau) * ((1 + eps) * sqrt M + tau)) with ((1 + 2 * eps + eps * eps) * (sqrt M * sqrt M) + 2 * (1 + eps) * sqrt M * tau + tau * tau) by ring.
    rewrite Q2. assert (0 <= 2 * (1 + eps) * sqrt M * tau) by (repeat apply Rmult_le_pos; lra). assert (0 <= eps * eps * M) by (repeat apply Rmult_le_pos; lra).
    assert (0 <= eps * M) by (apply Rmult_le_pos; lra). lra. }
  assert (B : (1 - eps) * sqrt M <= sqrt q + tau).
  { apply Rsqr_incr_0_var; [|lra]. unfold Rsqr.
    replace ((1 - eps) * sqrt M * ((1 - eps) * sqrt M)) with ((1 - eps) * (1 - eps) * (sqrt M * sqrt M)) by ring.
    replace ((sqrt q + tau) * (sqrt q + tau)) with (sqrt q * sqrt q + 2 * sqrt q * tau + tau * tau) by ring. rewrite Q1, Q2.
    assert (0 <= 2 * sqrt q * tau) by (repeat apply Rmult_le_pos; lra).
    assert ((1 - eps) * (1 - eps) * M <= (1 - eps) * M). { rewrite <- (Rmult_1_l M) at 2. rewrite <- Rmult_assoc. apply Rmult_le_compat_r; [lra|]. rewrite Rmult_1_r. rewrite <- (Rmult_1_l (1 - eps)) at 3. apply Rmult_le_compat_r; lra. }
    lra. }
  apply Rabs_le. lra.
Qed.
Lemma exact_rms_eq : forall es, exact_rms es = sqrt (sqsum es / INR (length es)).
Proof. reflexivity. Qed.
Lemma rms_err : forall es, errors_ok es -> es <> [] -> (Z.of_nat (length es) <= 2 ^ 29)%Z ->
  let r := f32_of_f64 (dsqrt (ddiv (fold_left sq_add es d0) (f64_of_Z (Z.of_nat (length es))))) in
  ffin r = true /\ Rabs (FR r - exact_rms es) <= / 1048576 * exact_rms es + bpow radix2 (-70).
Proof.
  intros es H NE L r. pose proof t64_K as TK. destruct K_small as (KP & KS).
  assert (N1 : (1 <= length es)%nat) by (destruct es; [congruence|cbn; lia]). assert (N1' := le_INR _ _ N1). change (INR 1) with 1 in N1'.
  assert (L' : INR (length es) <= 536870912) by (rewrite INR_IZR_INZ; apply IZR_le; lia).
  destruct (total_err es H L') as (F & P & E). set (t := fold_left sq_add es d0) in *. pose proof (sqsum_pos es) as SP.
  destruct (f64_of_Z_R (Z.of_nat (length es)) ltac:(lia)) as (Ek & _). rewrite <- INR_IZR_INZ in Ek.
  rewrite exact_rms_eq. set (n := INR (length es)) in *. set (MS := sqsum es / n).
  assert (NI : 0 < / n <= 1). { split; [apply Rinv_0_lt_compat; lra|]. rewrite <- Rinv_1. apply Rinv_le_contravar; lra. }
  assert (MSP : 0 <= MS) by (unfold MS, Rdiv; apply Rmult_le_pos; lra).
  assert (MSB : MS <= 2 ^ 120).
  { unfold MS, Rdiv. replace (2 ^ 120) with (n * 2 ^ 120 * / n) by (field; lra). apply Rmult_le_compat_r; [lra|]. apply sqsum_bound.
    apply Forall_forall. intros x I. unfold errors_ok in H. rewrite Forall_forall in H. destruct (H x I) as (_ & Bx).
    replace (2 ^ 120) with (2 ^ 60 * 2 ^ 60) by ring. rewrite <- (Rabs_pos_eq (FR x * FR x)) by apply Rle_0_sqr. rewrite Rabs_mult. apply Rmult_le_compat; auto using Rabs_pos. }
  assert (Q1 : Rabs (DR t / n - MS) <= / 4194304 * MS + 2 * K150).
  { replace (DR t / n - MS) with ((DR t - sqsum es) * / n) by (unfold MS; field; lra). rewrite Rabs_mult, (Rabs_pos_eq (/ n)) by lra.
    replace (/ 4194304 * MS + 2 * K150) with ((/ 4194304 * sqsum es + 2 * n * K150) * / n) by (unfold MS; field; lra).
    apply Rmult_le_compat_r; [lra|]. eapply Rle_trans; [exact E|]. apply Rplus_le_compat_r, Rmult_le_compat_r; [exact SP|]. lra. }
  assert (QP : 0 <= DR t / n) by (unfold Rdiv; apply Rmult_le_pos; lra).
  assert (QB : DR t / n <= 2 * 2 ^ 120 + 1).
  { replace (DR t / n) with ((DR t / n - MS) + MS) by ring. pose proof (Rle_abs (DR t / n - MS)). lra. }
  assert (BIG : Rabs (DR t / DR (f64_of_Z (Z.of_nat (length es)))) <= bpow radix2 1023).
  { rewrite Ek, Rabs_pos_eq by exact QP. eapply Rle_trans; [exact QB|]. apply Rle_trans with (2 ^ 122).
    - replace (2 ^ 122) with (4 * 2 ^ 120) by ring. assert (1 <= 2 ^ 120) by (apply pow_R1_Rle; lra). lra.
    - replace (2 ^ 122) with (bpow radix2 122) by (cbn; lra). apply bpow_le. lia. }
  destruct (ddiv_R t (f64_of_Z (Z.of_nat (length es))) F ltac:(rewrite Ek; lra) (rnd64_small _ BIG)) as (EQ & FQ).
  set (q := ddiv t _) in *. rewrite Ek in EQ.
  assert (PQ : 0 <= DR q) by (rewrite EQ, <- rnd64_0; apply rnd64_le; exact QP).
  assert (Q2 : Rabs (DR q - MS) <= / 2097152 * MS + bpow radix2 (-74) * bpow radix2 (-74)).
  { destruct (rnd64_err (DR t / n)) as (d & x & Hd & Hx & Q). rewrite EQ, Q. replace (DR t / n * (1 + d) + x - MS) with ((DR t / n - MS) + (DR t / n * d + x)) by ring.
    eapply Rle_trans; [apply Rabs_triang|]. pose proof (Rabs_triang (DR t / n * d) x) as T. rewrite Rabs_mult, (Rabs_pos_eq _ QP) in T.
    assert (D1 : DR t / n * Rabs d <= (2 * MS + 2 * K150) * u64r).
    { apply Rmult_le_compat; auto using Rabs_pos. pose proof (Rle_abs (DR t / n - MS)). lra. }
    rewrite <- bpow_plus. change (-74 + -74)%Z with (2 + -150)%Z. rewrite bpow_plus. change (bpow radix2 2) with 4. unfold u64r in *. lra. }
  pose proof (sqrt_near (DR q) MS (/ 2097152) (bpow radix2 (-74)) PQ MSP ltac:(lra) (bpow_ge_0 _ _) Q2) as Q3.
  destruct (dsqrt_R q FQ PQ) as (ES & FS). pose proof (sqrt_pos MS) as RP. set (rm := sqrt MS) in *.
  assert (RB : rm <= 2 ^ 60). { unfold rm. replace (2 ^ 60) with (sqrt (2 ^ 60 * 2 ^ 60)) by (apply sqrt_square, pow_le; lra). apply sqrt_le_1_alt. replace (2 ^ 60 * 2 ^ 60) with (2 ^ 120) by ring. exact MSB. }
  assert (T74 : bpow radix2 (-74) <= / 1024) by (change (/ 1024) with (bpow radix2 (-10)); apply bpow_le; lia).
  assert (KT : K150 <= u64r * bpow radix2 (-74)) by (replace u64r with (bpow radix2 (-53)) by reflexivity; rewrite <- bpow_plus; apply bpow_le; lia).
  pose proof (bpow_gt_0 radix2 (-74)) as TP. set (tau := bpow radix2 (-74)) in *.
  assert (Q4 : Rabs (DR (dsqrt q) - rm) <= / 2000000 * rm + 2 * tau).
  { destruct (rnd64_err (sqrt (DR q))) as (d & x & Hd & Hx & Q). rewrite ES, Q.
    replace (sqrt (DR q) * (1 + d) + x - rm) with ((sqrt (DR q) - rm) + (sqrt (DR q) * d + x)) by ring.
    eapply Rle_trans; [apply Rabs_triang|]. pose proof (Rabs_triang (sqrt (DR q) * d) x) as T. rewrite Rabs_mult, (Rabs_pos_eq _ (sqrt_pos (DR q))) in T.
    assert (D1 : sqrt (DR q) * Rabs d <= (2 * rm + tau) * u64r).
    { apply Rmult_le_compat; auto using Rabs_pos, sqrt_pos. pose proof (Rle_abs (sqrt (DR q) - rm)). lra. }
    unfold u64r in *. lra. }
  assert (SB : Rabs (DR (dsqrt q)) <= bpow radix2 100).
  { replace (DR (dsqrt q)) with ((DR (dsqrt q) - rm) + rm) by ring. eapply Rle_trans; [apply Rabs_triang|]. rewrite (Rabs_pos_eq rm) by exact RP.
    apply Rle_trans with (2 ^ 61); [|replace (2 ^ 61) with (bpow radix2 61) by (cbn; lra); apply bpow_le; lia].
    replace (2 ^ 61) with (2 * 2 ^ 60) by ring. assert (1 <= 2 ^ 60) by (apply pow_R1_Rle; lra). lra. }
  destruct (f32_of_f64_R (dsqrt q) FS) as (E32 & F32'). { apply rnd32_small. eapply Rle_trans; [exact SB|]. apply bpow_le. lia. }
  unfold r. fold q. split; [exact F32'|]. rewrite E32. destruct (rnd32_err (DR (dsqrt q))) as (d & x & Hd & Hx & Q). rewrite Q.
  replace (DR (dsqrt q) * (1 + d) + x - rm) with ((DR (dsqrt q) - rm) + (DR (dsqrt q) * d + x)) by ring.
  eapply Rle_trans; [apply Rabs_triang|]. pose proof (Rabs_triang (DR (dsqrt q) * d) x) as T. rewrite Rabs_mult in T.
  assert (D1 : Rabs (DR (dsqrt q)) * Rabs d <= (2 * rm + 2 * tau) * u32r).
  { apply Rmult_le_compat; auto using Rabs_pos. replace (DR (dsqrt q)) with ((DR (dsqrt q) - rm) + rm) by ring. eapply Rle_trans; [apply Rabs_triang|].
    rewrite (Rabs_pos_eq rm) by exact RP. lra. }
  change (-70)%Z with (4 + -74)%Z. rewrite bpow_plus. fold tau. change (bpow radix2 4) with 16. unfold u32r, u64r, t32r in *. lra.
Qed.
Lemma rms_between : forall es lo hi, es <> [] -> 0 <= lo -> Forall (fun e => lo <= Rabs (FR e) <= hi) es -> lo <= exact_rms es <= hi.
Proof.
  intros es lo hi NE L0 H. rewrite exact_rms_eq. assert (N1 : (1 <= length es)%nat) by (destruct es; [congruence|cbn; lia]). assert (N1' := le_INR _ _ N1). change (INR 1) with 1 in N1'.
  set (n := INR (length es)) in *. assert (NI : 0 < / n) by (apply Rinv_0_lt_compat; lra).
  assert (SQ : forall x, x * x = Rabs x * Rabs x). { intros x. rewrite <- Rabs_mult, Rabs_pos_eq; [reflexivity|apply Rle_0_sqr]. }
  assert (A : n * (lo * lo) <= sqsum es). { apply sqsum_lower. eapply Forall_impl; [|exact H]. intros e (A & B). cbv beta in *. rewrite (SQ (FR e)). apply Rmult_le_compat; lra. }
  assert (HP : 0 <= hi). { destruct es as [|e es]; [congruence|]. apply Forall_inv in H. lra. }
  assert (B : sqsum es <= n * (hi * hi)). { apply sqsum_bound. eapply Forall_impl; [|exact H]. intros e (A' & B). cbv beta in *. rewrite (SQ (FR e)). apply Rmult_le_compat; auto using Rabs_pos. }
  split.
  - rewrite <- (sqrt_square lo) by exact L0. apply sqrt_le_1_alt. replace (lo * lo) with (n * (lo * lo) * / n) by (field; lra). apply Rmult_le_compat_r; lra.
  - rewrite <- (sqrt_square hi) by exact HP. apply sqrt_le_1_alt. replace (hi * hi) with (n * (hi * hi) * / n) by (field; lra). apply Rmult_le_compat_r; lra.
Qed.
