(** Properties C14 to C16: layers as maps, pruning by distance, copying. *)
From Coq Require Import ZArith List Bool Lia Reals Lra.
From Flocq Require Import Core.
From Verif Require Import F32 F32_lemmas F32_err Types Index Voxel Serialize Assoc Assoc_lemmas Layer Heap Layer_spec
  Heap_proofs Merge_proofs.
Import ListNotations.
Open Scope Z_scope.

(** C14. [srun] (Layer_spec.v) is the run of the same calls on plain partial
    functions, one per layer. Whatever it produces, the pointer-based layers
    produce the same answers and end up holding exactly those functions, with
    each index listed once. *)
Theorem C14_layers_are_maps : forall k (os : list (op k)) sw outs,
  srun [] os sw outs ->
  exists w, run (World [] []) os = Ok (w, outs) /\ holds w sw.
Proof.
  intros k os sw outs R. destruct (run_refines os _ _ _ _ inv_init R) as (w & E & _ & H). exists w. auto.
Qed.
Print Assumptions C14_layers_are_maps.

(** every call on an existing layer has such a specified effect, except
    [getBlockByIndex] on a missing block, which aborts, a constructor call
    failing its CHECKs and copying a layer holding blocks of a foreign size *)
Theorem C14_calls_defined : forall k sw (o : op k), legal sw o -> exists sw' x, sstep sw o sw' x.
Proof. intros. apply spec_total. auto. Qed.
Print Assumptions C14_calls_defined.

Theorem C14_get_missing_aborts : forall k (os : list (op k)) sw outs n l i,
  srun [] os sw outs -> nth_error sw n = Some l -> s_map l i = None ->
  run (World [] []) (os ++ [OGet n i]) = Abort.
Proof.
  intros k os sw outs n l i R E M. destruct (run_refines os _ _ _ _ inv_init R) as (w & Er & I).
  assert (A : step w (OGet n i) = Abort).
  { cbn [step]. unfold with_layer. pose proof I as (_ & HL & HH).
    destruct (nth_error (w_layers w) n) as [hl|] eqn:E2.
    - destruct (HH n hl l E2 E) as (_ & _ & _ & V). specialize (V i). destruct (h_find hl i); auto.
      destruct V as (b & _ & V). congruence.
    - apply nth_error_None in E2. assert (nth_error sw n <> None) by congruence. apply nth_error_Some in H. lia. }
  clear - Er A. revert Er. generalize (World (k:=k) [] []). revert outs.
  induction os as [|o os IH]; intros outs w0 Er; cbn [run app] in *.
  - injection Er as <- <-. rewrite A. reflexivity.
  - destruct (step w0 o) as [r| |]; cbn [rbind] in *; try discriminate.
    destruct (run (fst r) os) as [[w' xs]| |] eqn:E; cbn [rbind fst snd] in *; try discriminate.
    injection Er as <- <-. rewrite (IH _ _ E). reflexivity.
Qed.
Print Assumptions C14_get_missing_aborts.

(** the listing of a layer has every allocated index exactly once *)
Theorem C14_listing : forall k (os : list (op k)) w sw outs n l sl,
  run (World [] []) os = Ok (w, outs) -> holds w sw -> nth_error (w_layers w) n = Some l -> nth_error sw n = Some sl ->
  NoDup (akeys (hl_map l)) /\ forall i, In i (akeys (hl_map l)) <-> s_map sl i <> None.
Proof.
  intros k os w sw outs n l sl _ (_ & H) E1 E2. destruct (H n l sl E1 E2) as (_ & _ & ND & V).
  split; auto. intros i. specialize (V i). unfold h_find in V.
  destruct (alookup i (hl_map l)) eqn:A.
  - destruct V as (b & _ & V). split; [congruence|]. intros _. apply alookup_In in A. apply (in_map fst) in A. exact A.
  - apply alookup_None in A. split; [tauto|congruence].
Qed.
Print Assumptions C14_listing.

(** non-vacuity: two layers, allocation twice, a write, a removal, a copy *)
Definition ex_size : f32 := f32_of_Z 1.
Definition ex_i : idx3 := V3 1 (-2) 3.
Definition ex_j : idx3 := V3 0 0 7.
Definition ops_for (s : f32) : list (op KTsdf) :=
  [ONew s 2; OAlloc 0 ex_i; OAlloc 0 ex_j; OMut 0 ex_i (set_has_data true); OAlloc 0 ex_i;
   OCopy 0; OMut 1 ex_j (set_has_data true); ORemove 0 ex_i; OHas 0 ex_i; OHas 1 ex_i].
Lemma ops_for_spec : forall s, flt f0 s = true -> flt f0 (block_size_of 2 s) = true ->
  exists sw outs, srun [] (ops_for s) sw outs.
Proof.
  intros s Hs Hb.
  set (L0 := fun m => SL (k:=KTsdf) s 2 m).
  set (m1 := fun j => if idx_eqb j ex_i then Some (fresh (L0 (fun _ => None)) ex_i) else None).
  set (m2 := fun j => if idx_eqb j ex_j then Some (fresh (L0 m1) ex_j) else m1 j).
  set (m3 := fun j => if idx_eqb j ex_i then Some (set_has_data true (fresh (L0 (fun _ => None)) ex_i)) else m2 j).
  set (c := fun j => if idx_eqb j ex_i then Some (fresh (L0 m1) ex_i) else if idx_eqb j ex_j then Some (fresh (L0 m1) ex_j) else None).
  set (c' := fun j => if idx_eqb j ex_j then Some (set_has_data true (fresh (L0 m1) ex_j)) else c j).
  set (m4 := fun j => if idx_eqb j ex_i then None else m3 j).
  assert (U : forall n m m' (sw : sworld KTsdf), nth_error sw n = Some (L0 m) -> updates sw n m' (set_nth n (L0 m') sw)).
  { intros n m m' sw E. split; [apply set_nth_length|]. split; [intros; apply nth_set_other; auto|].
    exists (L0 m), (L0 m'). split; auto. split; [eapply nth_set_same; eauto|]. auto. }
  do 2 eexists. unfold ops_for.
  eapply SCons. { apply SNew; auto; lia. } cbn [app].
  eapply SCons. { apply (SAllocNew _ 0%nat ex_i (L0 (fun _ => None)) [L0 m1]); [reflexivity|reflexivity|].
    apply (U 0%nat (fun _ => None) m1 [L0 (fun _ => None)]). reflexivity. }
  eapply SCons. { apply (SAllocNew _ 0%nat ex_j (L0 m1) [L0 m2]); [reflexivity|reflexivity|].
    apply (U 0%nat m1 m2 [L0 m1]). reflexivity. }
  eapply SCons. { apply (SMut _ 0%nat ex_i _ (L0 m2) (fresh (L0 (fun _ => None)) ex_i) [L0 m3]); [reflexivity|reflexivity|].
    apply (U 0%nat m2 m3 [L0 m2]). reflexivity. }
  eapply SCons. { apply (SAllocOld _ 0%nat ex_i (L0 m3) (set_has_data true (fresh (L0 (fun _ => None)) ex_i))); reflexivity. }
  eapply SCons. { apply (SCopy _ 0%nat (L0 m3) (L0 c)); [reflexivity| |reflexivity|reflexivity|].
    - intros i b. cbn [s_map L0]. unfold m3, m2, m1. destruct (idx_eqb i ex_i); [intros E; injection E as <-; apply repeat_length|].
      destruct (idx_eqb i ex_j); [intros E; injection E as <-; apply repeat_length|]. discriminate.
    - intros i. cbn [s_map L0]. unfold c, m3, m2, m1. destruct (idx_eqb_spec i ex_i) as [->|].
      + repeat split.
      + destruct (idx_eqb_spec i ex_j) as [->|]; [repeat split|auto]. }
  cbn [app].
  eapply SCons. { apply (SMut _ 1%nat ex_j _ (L0 c) (fresh (L0 m1) ex_j) [L0 m3; L0 c']); [reflexivity|reflexivity|].
    apply (U 1%nat c c' [L0 m3; L0 c]). reflexivity. }
  eapply SCons. { apply (SRemove _ 0%nat ex_i (L0 m3) [L0 m4; L0 c']); [reflexivity|].
    apply (U 0%nat m3 m4 [L0 m3; L0 c']). reflexivity. }
  eapply SCons. { apply (SHas _ 0%nat ex_i (L0 m4)). reflexivity. }
  eapply SCons. { apply (SHas _ 1%nat ex_i (L0 c')). reflexivity. }
  apply SNil.
Qed.
Definition two_layers (r : res (world KTsdf * list (out KTsdf))) : bool :=
  match r with
  | Ok (w, outs) => Nat.eqb (length (w_layers w)) 2 && Nat.eqb (length (w_heap w)) 4 &&
      match skipn 8 outs with [OutBool false; OutBool true] => true | _ => false end
  | _ => false
  end.
Example C14_example :
  (exists sw outs, srun [] (ops_for ex_size) sw outs) /\ two_layers (run (World [] []) (ops_for ex_size)) = true.
Proof. split; [apply ops_for_spec; vm_compute; reflexivity|vm_compute; reflexivity]. Qed.

(** C15. *)
Definition further {k} (b : Block k) (c : pt3) (d : f64) : Prop :=
  (DR d * DR d * (1 + bpow radix2 (-20)) + bpow radix2 (-140) < dist2 (b_origin b) c)%R.
Definition nearer {k} (b : Block k) (c : pt3) (d : f64) : Prop :=
  (dist2 (b_origin b) c < DR d * DR d * (1 - bpow radix2 (-20)) - bpow radix2 (-140))%R.

Lemma removeDistant_get : forall k (l : Layer k) c d i, NoDup (akeys (l_blocks l)) ->
  l_get (removeDistantBlocks l c d) i =
  match l_get l i with Some b => if is_distant c d b then None else Some b | None => None end.
Proof.
  intros k l c d i ND. unfold removeDistantBlocks, l_get. cbn [with_blocks l_blocks].
  assert (K : forall is (m : amap (Block k)), alookup i (fold_left (fun m i => aerase i m) is m) =
     if in_dec idx_eq_dec i is then None else alookup i m).
  { induction is as [|j is IH]; intros m; cbn [fold_left]; [reflexivity|]. rewrite IH, alookup_aerase.
    destruct (in_dec idx_eq_dec i (j :: is)) as [H|H]; destruct (in_dec idx_eq_dec i is) as [H'|H']; auto.
    - destruct H as [->|]; [|contradiction]. rewrite idx_eqb_refl. reflexivity.
    - exfalso. apply H. right; auto.
    - rewrite idx_eqb_neq; auto. intros ->. apply H. left; auto. }
  rewrite K. unfold needs_erasing. clear K. destruct (alookup i (l_blocks l)) as [b|] eqn:A; [|destruct (in_dec _ _ _); auto].
  destruct (in_dec _ _ _) as [H|H].
  - apply in_map_iff in H. destruct H as ((j & b') & E & H). cbn in E. subst j. apply filter_In in H. destruct H as (H1 & H2).
    cbn [snd] in H2. assert (b' = b) as ->.
    { apply alookup_NoDup in H1; auto. congruence. }
    rewrite H2. reflexivity.
  - destruct (is_distant c d b) eqn:D; auto. exfalso. apply H. apply in_map_iff. exists (i, b). split; auto.
    apply filter_In. split; auto. apply alookup_In. auto.
Qed.

Theorem C15_removes_exactly : forall k (l : Layer k) c d, NoDup (akeys (l_blocks l)) ->
  (forall i, match l_get (removeDistantBlocks l c d) i with
             | Some b => l_get l i = Some b
             | None => True
             end) /\
  (forall i b, l_get l i = Some b ->
     all3 (fin_upto 40) (b_origin b) -> all3 (fin_upto 40) c -> dfin d = true -> (Rabs (DR d) <= bpow radix2 40)%R ->
     (further b c d -> l_get (removeDistantBlocks l c d) i = None) /\
     (nearer b c d -> l_get (removeDistantBlocks l c d) i = Some b)).
Proof.
  intros k l c d ND. split.
  - intros i. rewrite removeDistant_get by auto. destruct (l_get l i); auto. destruct (is_distant c d b); auto.
  - intros i b E H1 H2 H3 H4. destruct (distant_iff k b c d H1 H2 H3 H4) as (A & B).
    rewrite !removeDistant_get, E by auto. split; intros H; [rewrite A|rewrite B]; auto.
Qed.
Print Assumptions C15_removes_exactly.

Lemma removeDistant_NoDup : forall k (l : Layer k) c d, NoDup (akeys (l_blocks l)) ->
  NoDup (akeys (l_blocks (removeDistantBlocks l c d))).
Proof.
  intros k l c d. unfold removeDistantBlocks. cbn [with_blocks l_blocks]. generalize (needs_erasing l c d).
  intros is. generalize (l_blocks l). induction is as [|i is IH]; intros m H; cbn [fold_left]; auto.
  apply IH. apply NoDup_aerase. auto.
Qed.

Theorem C15_idempotent : forall k (l : Layer k) c d i, NoDup (akeys (l_blocks l)) ->
  l_get (removeDistantBlocks (removeDistantBlocks l c d) c d) i = l_get (removeDistantBlocks l c d) i.
Proof.
  intros k l c d i ND. rewrite (removeDistant_get _ (removeDistantBlocks l c d)) by (apply removeDistant_NoDup; auto).
  rewrite removeDistant_get by auto. destruct (l_get l i); auto. destruct (is_distant c d b) eqn:D; auto. rewrite D. reflexivity.
Qed.
Print Assumptions C15_idempotent.

Example C15_example :
  let b n := new_block (k:=KTsdf) 1 ex_size (V3 (f32_of_Z n) f0 f0) in
  let l := MkLayer (k:=KTsdf) ex_size 1 [(V3 1 0 0, b 1); (V3 5 0 0, b 5); (V3 9 0 0, b 9)] in
  further (b 9) (V3 f0 f0 f0) (f64_of_Z 5) /\ nearer (b 1) (V3 f0 f0 f0) (f64_of_Z 5) /\
  map fst (l_blocks (removeDistantBlocks l (V3 f0 f0 f0) (f64_of_Z 5))) = [V3 1 0 0; V3 5 0 0].
Proof.
  cbn zeta. unfold further, nearer, dist2, sqR. cbn [new_block b_origin vx vy vz].
  destruct (f32_of_Z_R 9) as (-> & _); [lia|]. destruct (f32_of_Z_R 1) as (-> & _); [lia|].
  destruct (f64_of_Z_R 5) as (-> & _); [lia|]. change (FR f0) with 0%R.
  assert (bpow radix2 (-20) <= / 1000000)%R by (cbn; lra).
  assert (bpow radix2 (-140) <= bpow radix2 (-20))%R by (apply bpow_le; lia).
  pose proof (bpow_ge_0 radix2 (-20)). pose proof (bpow_ge_0 radix2 (-140)).
  split; [lra|]. split; [lra|]. vm_compute. reflexivity.
Qed.

(** C16. [targets o n]: call [o] works on layer [n]. *)
Definition targets {k} (o : op k) (n : nat) : Prop :=
  match o with
  | ONew _ _ => False
  | OCopy m | OAlloc m _ | OInsert m _ _ | ORemove m _ | ORemoveAll m | ORemoveDistant m _ _
  | OFind m _ | OGet m _ | OHas m _ | OMut m _ _ => m = n
  end.

Lemma srun_app : forall k (os1 os2 : list (op k)) sw sw1 sw2 xs1 xs2,
  srun sw os1 sw1 xs1 -> srun sw1 os2 sw2 xs2 -> srun sw (os1 ++ os2) sw2 (xs1 ++ xs2).
Proof. intros k os1 os2 sw sw1 sw2 xs1 xs2 R. induction R; cbn [app]; auto. intros. eapply SCons; eauto. Qed.

Lemma sstep_other : forall k sw (o : op k) sw' x n l, sstep sw o sw' x -> ~ targets o n ->
  nth_error sw n = Some l -> nth_error sw' n = Some l.
Proof.
  intros k sw o sw' x n l S T E.
  assert (U : forall m f, m <> n -> updates sw m f sw' -> nth_error sw' n = Some l).
  { intros m f N (_ & H & _). rewrite H; auto. }
  inversion S; subst; cbn [targets] in T; auto; try (eapply U; eauto; fail).
  - apply nth_snoc_old; auto.
  - apply nth_snoc_old; auto.
Qed.

(** The copy has the same geometry, the same block indices, and per block the
    same voxels, geometry and origin; afterwards nothing done to the copy (or to
    any other layer) changes the original, and nothing done to the original
    changes the copy. [pre] is any history, [post] any later calls. Missing for
    the full statement: the has_data and updated flags (see [C16_refuted]). *)
Theorem C16_copy_partial : forall k (pre : list (op k)) sw xs n l,
  srun [] pre sw xs -> nth_error sw n = Some l ->
  (forall i b, s_map l i = Some b -> length (b_voxels b) = num_voxels (s_vps l)) ->
  exists l', s_size l' = s_size l /\ s_vps l' = s_vps l /\
    (forall i, match s_map l i, s_map l' i with
               | Some b, Some b' => b_voxels b' = b_voxels b /\ b_size b' = s_size l /\ b_vps b' = s_vps l /\
                                    b_origin b' = new_block_origin (s_vps l) (s_size l) i
               | None, None => True
               | _, _ => False
               end) /\
    (exists w, run (World [] []) (pre ++ [OCopy n]) = Ok (w, xs ++ [OutUnit]) /\ holds w (sw ++ [l'])) /\
    forall post sw2 ys, srun (sw ++ [l']) post sw2 ys ->
      (exists w2, run (World [] []) (pre ++ OCopy n :: post) = Ok (w2, xs ++ OutUnit :: ys) /\ holds w2 sw2) /\
      ((forall o, In o post -> ~ targets o n) -> nth_error sw2 n = Some l) /\
      ((forall o, In o post -> ~ targets o (length sw)) -> nth_error sw2 (length sw) = Some l').
Proof.
  intros k pre sw xs n l R E HS.
  destruct (spec_total sw (OCopy n)) as (sw1 & x & S); [exists l; auto|].
  inversion S as [|? l0 l' E0 HS0 A B C| | | | | | | | | | | |]; subst. rewrite E in E0. injection E0 as <-.
  exists l'. split; auto. split; auto. split.
  { intros i. specialize (C i). destruct (s_map l i), (s_map l' i); auto. destruct C as (C1 & C2 & C3 & C4 & _). auto. }
  assert (KEEP : forall m lm (post : list (op k)) s1 sw2 ys, srun s1 post sw2 ys -> nth_error s1 m = Some lm ->
     (forall o, In o post -> ~ targets o m) -> nth_error sw2 m = Some lm).
  { intros m lm post s1 sw2 ys R2. induction R2; intros E1 T; auto. apply IHR2.
    - eapply sstep_other; eauto. apply T. left; auto.
    - intros o' Ho'. apply T. right; auto. }
  split.
  - destruct (C14_layers_are_maps k (pre ++ [OCopy n]) (sw ++ [l']) (xs ++ [OutUnit])) as (w & E1 & E2).
    { eapply srun_app; eauto. eapply SCons; eauto. apply SNil. }
    exists w; auto.
  - intros post sw2 ys R2. split; [|split].
    + apply C14_layers_are_maps. eapply srun_app; eauto. eapply SCons; eauto.
    + intros T. eapply KEEP; eauto. apply nth_snoc_old; auto.
    + intros T. eapply KEEP; eauto. rewrite nth_error_app2 by lia. rewrite Nat.sub_diag. reflexivity.
Qed.
Print Assumptions C16_copy_partial.

(** the full statement is false: the copy loses has_data and the update flags.
    [answer] is the block the last call of a run returned. *)
Definition answer {k} (r : res (world k * list (out k))) : option (Block k) :=
  match r with
  | Ok (_, outs) => match last outs OutUnit with OutBlock b => b | _ => None end
  | _ => None
  end.
Definition flags {k} (b : option (Block k)) : option (bool * bool) :=
  match b with Some b => Some (b_has_data b, u_mesh (b_updated b)) | None => None end.
Theorem C16_refuted :
  exists (pre : list (op KTsdf)) n i,
    flags (answer (run (World [] []) (pre ++ [OFind n i]))) = Some (true, true) /\
    flags (answer (run (World [] []) (pre ++ [OCopy n; OFind 1 i]))) = Some (false, false).
Proof.
  exists [ONew (k:=KTsdf) ex_size 1; OAlloc 0 ex_i;
          OMut 0 ex_i (fun b => set_updated upd_all (set_has_data true b))], 0%nat, ex_i.
  split; vm_compute; reflexivity.
Qed.
Print Assumptions C16_refuted.
