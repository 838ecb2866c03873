(** Property C74: integrating a whole point cloud. *)
From Coq Require Import ZArith List Bool Lia Permutation.
From Verif Require Import F32 F32_lemmas Types Index Voxel Assoc Layer Threads Update Ray Mesh_spec Update_spec Cloud Cloud_spec Cloud_proofs.
Import ListNotations.
Open Scope Z_scope.

(** The simple integrator, with any number of threads, any distribution of the points over them
    ([taken], C19) and any schedule: the map becomes the old map with, for every used point, one
    observation of every voxel on its ray, in some order, and nothing else. *)
Theorem C74_simple : forall fuel garbage cc cl taken sched l l',
  sound_layer l -> Permutation (concat taken) (indices cl) -> rays_near fuel garbage cc l cl true ->
  simple_integrate fuel garbage cc cl taken sched l = Ok (Some l') ->
  exists cells qs, full_rays fuel garbage cc l cl cells /\
    Permutation qs (flat_map (fun i => map (sees cc cl i) (cells i)) (indices cl)) /\
    observed (cc_tsdf cc) l qs l'.
Proof.
  intros fuel garbage cc cl taken sched l l' W P NR E. unfold simple_integrate in E.
  destruct (Nat.eqb_spec (length (cl_points cl)) (length (cl_colors cl))) as [LEN|]; cbn [negb] in E; [|discriminate].
  destruct (simple_progs fuel garbage cc (l_size l) cl taken) as [[progs|]| |] eqn:EP; cbn [obind rbind] in E; try discriminate.
  set (cells := simple_cells fuel garbage cc cl l).
  assert (II : forall i, In i (concat taken) -> In i (indices cl)) by (intros i I; apply (Permutation_in _ P); auto).
  assert (PT : forall i cs, In i (concat taken) -> simple_point fuel garbage cc (l_size l) cl i = Ok (Some cs) ->
     calls cs = map (sees cc cl i) (cells i) /\ Forall (fun q => near_index (q_idx q)) (map (sees cc cl i) (cells i))).
  { intros i cs I F. destruct (simple_point_ok fuel garbage cc cl l LEN i cs (II i I) F) as (C & U). split; [exact C|].
    fold cells in U. rewrite Forall_map. cbn [sees q_idx]. destruct (use_of cc cl i) as [b|] eqn:UO; [|rewrite U; constructor].
    exact (NR i b _ (II i I) UO U). }
  destruct (points_ok _ _ (fun i => map (sees cc cl i) (cells i)) (cc_tsdf cc) l taken progs sched l' W EP PT E) as (qs & Q & OB).
  exists cells, qs. split; [|split; [|exact OB]].
  - intros i I. apply (Permutation_in _ (Permutation_sym P)) in I.
    destruct (progs_calls _ _ (fun i => map (sees cc cl i) (cells i)) taken progs EP) as (_ & C2 & _). { intros j cs J F. apply (PT j cs J F). }
    destruct (C2 i I) as (cs & F). apply (simple_point_ok fuel garbage cc cl l LEN i cs (II i I) F).
  - rewrite Q. apply Permutation_flat. exact P.
Qed.
Print Assumptions C74_simple.

(** The fast integrator, whatever the answers of its sets of seen voxels and however many points it
    begins before its time is up: at most one observation per begun point and voxel of its ray, always
    a piece of the ray that starts at the far end; a ray is cut short only after more than the
    configured number of voxels in a row were found in the set. *)
Theorem C74_fast : forall fuel garbage cc cl start_new news taken sched l l',
  sound_layer l -> 0 <= cc_collisions cc -> (forall i, In i (concat taken) -> In i (indices cl)) ->
  rays_near fuel garbage cc l cl false ->
  fast_integrate fuel garbage cc cl start_new news taken sched l = Ok (Some l') ->
  exists cells qs, cut_rays fuel garbage cc l cl start_new news (concat taken) cells /\
    Permutation qs (flat_map (fun i => map (sees cc cl i) (cells i)) (concat taken)) /\
    observed (cc_tsdf cc) l qs l'.
Proof.
  intros fuel garbage cc cl start_new news taken sched l l' W HC II NR E. unfold fast_integrate in E.
  destruct (Nat.eqb_spec (length (cl_points cl)) (length (cl_colors cl))) as [LEN|]; cbn [negb] in E; [|discriminate].
  destruct (fast_progs fuel garbage cc (l_size l) cl start_new news taken) as [[progs|]| |] eqn:EP; cbn [obind rbind] in E; try discriminate.
  set (cells := fast_cells_of fuel garbage cc cl l start_new news).
  assert (PT : forall i cs, In i (concat taken) -> fast_point fuel garbage cc (l_size l) cl start_new news i = Ok (Some cs) ->
     calls cs = map (sees cc cl i) (cells i) /\ Forall (fun q => near_index (q_idx q)) (map (sees cc cl i) (cells i))).
  { intros i cs I F. destruct (fast_point_ok fuel garbage cc cl l LEN start_new news i cs HC (II i I) F) as (C & U). split; [exact C|].
    fold cells in U. rewrite Forall_map. cbn [sees q_idx]. destruct (use_of cc cl i) as [b|] eqn:UO; [|rewrite U; constructor].
    destruct (start_new i); [|rewrite U; constructor]. destruct U as (v & n & V & -> & _).
    pose proof (NR i b v (II i I) UO V) as N. rewrite <- (firstn_skipn n v) in N. apply Forall_app in N. apply N. }
  destruct (points_ok _ _ (fun i => map (sees cc cl i) (cells i)) (cc_tsdf cc) l taken progs sched l' W EP PT E) as (qs & Q & OB).
  exists cells, qs. split; [|split; [|exact OB]]; [|exact Q].
  intros i I.
  destruct (progs_calls _ _ (fun i => map (sees cc cl i) (cells i)) taken progs EP) as (_ & C2 & _). { intros j cs J F. apply (PT j cs J F). }
  destruct (C2 i I) as (cs & F). apply (fast_point_ok fuel garbage cc cl l LEN start_new news i cs HC (II i I) F).
Qed.
Print Assumptions C74_fast.

(** *** a cloud of four points: two surface points, one too far away and one too near; a map with one
    block already *)
Definition cx_lit (a : Z) : f32 := f32_lit a (-2).
Definition cx_cfg : TsdfConfig := MkTC f1 (f32_of_Z 100) false false false f1.
Definition cx_cc (anti : bool) : CloudConfig := MkCC cx_cfg f1 (f32_of_Z 5) true true anti f1 1.
Definition cx_pose : pose := MkPose (V3 (cx_lit 2) (cx_lit 2) (cx_lit 2)) (fun p => pt_add p (V3 (cx_lit 2) (cx_lit 2) (cx_lit 2))).
Definition cx_cloud : cloud := MkCloud cx_pose
  [V3 (cx_lit 7) (cx_lit 5) (cx_lit 9); V3 (cx_lit 30) (cx_lit (-11)) (cx_lit 40); V3 (cx_lit 1) (cx_lit 1) (cx_lit 1); V3 (cx_lit 7) (cx_lit 4) (cx_lit 9)]
  [MkColor 10 20 30 255; MkColor 0 0 0 255; MkColor 7 7 7 7; MkColor 90 20 30 255] false.
Definition cx_layer : Layer KTsdf :=
  allocateNewBlock (MkLayer (k:=KTsdf) f1 2 []) (V3 0 0 0).
Definition cx_garbage : caster := MkRC (V3 f0 f0 f0) (V3 0 0 0) (V3 0 0 0) (V3 f0 f0 f0) 7 3.
Definition near_b (g : idx3) : bool := (Z.abs (vx g) <=? 2 ^ 24) && (Z.abs (vy g) <=? 2 ^ 24) && (Z.abs (vz g) <=? 2 ^ 24).
Lemma near_b_ok : forall gs, forallb near_b gs = true -> Forall near_index gs.
Proof.
  intros gs H. apply Forall_forall. intros g I. rewrite forallb_forall in H. specialize (H g I). unfold near_b in H.
  apply andb_prop in H as (H & H3). apply andb_prop in H as (H1 & H2). repeat split; lia.
Qed.
Definition near_rays_b (fs : bool) : bool :=
  forallb (fun i => forallb (fun c => match ray_cells 100 cx_garbage (cx_cc true) (l_size cx_layer) (p_position cx_pose) (p_apply cx_pose (point_of cx_cloud i)) c fs with
                                      | Ok (Some v) => forallb near_b v | _ => false end) [true; false]) (indices cx_cloud).
Lemma near_rays_ok : forall fs, near_rays_b fs = true -> rays_near 100 cx_garbage (cx_cc true) cx_layer cx_cloud fs.
Proof.
  intros fs H i c v I _ R. unfold near_rays_b in H. rewrite forallb_forall in H. specialize (H i I). rewrite forallb_forall in H.
  specialize (H c ltac:(destruct c; cbn; auto)). unfold ray_voxels in R. cbn [cl_pose cx_cloud] in R. rewrite R in H. apply near_b_ok, H.
Qed.
Lemma cx_sound : sound_layer cx_layer.
Proof.
  split; [exists 1; split; [lia|reflexivity]|]. intros i b H. unfold cx_layer, allocateNewBlock, l_get in H. cbn [with_blocks l_blocks ainsert alookup app] in H.
  destruct (idx_eqb i (V3 0 0 0)); inversion H; subst. split; reflexivity.
Qed.
(** how many voxels have a weight after integrating, and in how many blocks *)
Definition seen_count (l : Layer KTsdf) : nat :=
  length (filter (fun v : TsdfVoxel => flt f0 (t_weight v)) (concat (map (fun kv => b_voxels (snd kv)) (l_blocks l)))).
Definition cx_sched : list nat := concat (repeat [0%nat; 1%nat; 1%nat] 60).
Definition cx_simple : res (option (Layer KTsdf)) :=
  simple_integrate 100 cx_garbage (cx_cc true) cx_cloud [[0; 3]; [1; 2]] cx_sched cx_layer.
Example C74_simple_example : sound_layer cx_layer /\ Permutation (concat [[0; 3]; [1; 2]]) (indices cx_cloud) /\
  rays_near 100 cx_garbage (cx_cc true) cx_layer cx_cloud true /\
  map (use_of (cx_cc true) cx_cloud) (indices cx_cloud) = [Some false; Some true; None; Some false] /\
  (match cx_simple with Ok (Some l') => (seen_count l', length (l_blocks l')) | _ => (0%nat, 0%nat) end) = (14%nat, 7%nat).
Proof.
  split; [exact cx_sound|]. split. { apply (perm_skip 0). apply (Permutation_cons_app [1; 2] []). reflexivity. }
  split; [apply near_rays_ok; vm_compute; reflexivity|]. split; vm_compute; reflexivity.
Qed.
Definition cx_fast : res (option (Layer KTsdf)) :=
  fast_integrate 100 cx_garbage (cx_cc true) cx_cloud (fun i => negb (i =? 3)) (fun i => if i =? 1 then [true; false; false; true] else [])
    [[0; 3]; [1; 2]] cx_sched cx_layer.
Example C74_fast_example : 0 <= cc_collisions (cx_cc true) /\ rays_near 100 cx_garbage (cx_cc true) cx_layer cx_cloud false /\
  (match cx_fast with Ok (Some l') => (seen_count l', length (l_blocks l')) | _ => (0%nat, 0%nat) end) = (10%nat, 6%nat).
Proof. split; [cbn; lia|]. split; [apply near_rays_ok; vm_compute; reflexivity|]. vm_compute; reflexivity. Qed.

(** ** C75 *)
Lemma filter_len : forall A (f : A -> bool) l, (length (filter f l) <= length l)%nat.
Proof. induction l as [|a l IH]; cbn [filter length]; [lia|]. destruct (f a); cbn [length]; lia. Qed.
Lemma bundles_len : forall (m : bundle_map), (forall v is, In (v, is) m -> is <> []) -> (length m <= length (concat (map snd m)))%nat.
Proof.
  induction m as [|[v is] m IH]; intros H; cbn [length map concat snd]; [lia|]. rewrite app_length.
  specialize (IH (fun v' is' I => H v' is' (or_intror I))). pose proof (H v is (or_introl eq_refl)) as NE. destruct is; [congruence|]. cbn [length]. lia.
Qed.
Lemma bundled_facts : forall cc l cl b m, bundled cc l cl b m ->
  (length m <= length (cl_points cl))%nat /\ forall kv, In kv m -> snd kv <> [] /\ forall i, In i (snd kv) -> In i (indices cl).
Proof.
  intros cc l cl b m (ND & P & H). split.
  - etransitivity; [apply bundles_len; intros v is I; apply (H v is I)|]. rewrite (Permutation_length P).
    etransitivity; [apply filter_len|]. unfold indices. rewrite map_length, seq_length. lia.
  - intros [v is] I. destruct (H v is I) as (NE & _). split; [exact NE|]. cbn [snd]. intros i Ii.
    assert (X : In i (concat (map snd m))) by (apply in_concat; exists is; split; [apply in_map_iff; exists (v, is); auto|auto]).
    apply (Permutation_in _ P) in X. apply filter_In in X. apply X.
Qed.

(** The merged integrator, with any number of threads, any order of the points, any iteration order
    of its hash maps and any schedules: the used points are grouped by the voxel they fall into, each
    group observes the voxels along the ray to its merged point (with anti-grazing all but the voxels
    of other groups of surface points); first all surface groups, then all clearing groups. *)
Theorem C75_merged : forall fuel garbage cc cl order walk threads sched1 sched2 l l',
  sound_layer l -> Permutation order (indices cl) -> (forall m, Permutation (walk m) m) -> (0 < threads)%nat ->
  Z.of_nat (length (cl_points cl)) + Z.of_nat threads < 2 ^ 64 -> bundles_near fuel garbage cc l cl order ->
  merged_integrate fuel garbage cc cl order walk threads sched1 sched2 l = Ok (Some l') ->
  exists surfaces clearings obs1 obs2 qs1 qs2 l1,
    bundled cc l cl false surfaces /\ bundled cc l cl true clearings /\
    (forall b, In b surfaces -> bundle_seen fuel garbage cc l cl surfaces false b (obs1 b)) /\
    Permutation qs1 (flat_map obs1 surfaces) /\ observed (cc_tsdf cc) l qs1 l1 /\
    (forall b, In b clearings -> bundle_seen fuel garbage cc l cl surfaces true b (obs2 b)) /\
    Permutation qs2 (flat_map obs2 clearings) /\ observed (cc_tsdf cc) l1 qs2 l'.
Proof.
  intros fuel garbage cc cl order walk threads sched1 sched2 l l' W PO PW HT HB NR E. unfold merged_integrate in E.
  destruct (Nat.eqb_spec (length (cl_points cl)) (length (cl_colors cl))) as [LEN|]; cbn [negb] in E; [|discriminate].
  destruct (bundles cc (l_size l) cl order) as [[vm cm]| |] eqn:EB; cbn [rbind] in E; try discriminate.
  destruct (bundles_ok cc l cl order vm cm PO EB) as (B1 & B2).
  destruct (bundled_facts _ _ _ _ _ B1) as (L1 & F1). destruct (bundled_facts _ _ _ _ _ B2) as (L2 & F2).
  destruct (merged_progs fuel garbage cc (l_size l) cl threads false vm (walk vm)) as [[p1|]| |] eqn:E1; cbn [obind rbind] in E; try discriminate.
  destruct (run_threads (cc_tsdf cc) l p1 sched1) as [[l1|]| |] eqn:R1; cbn [obind rbind] in E; try discriminate.
  destruct (merged_progs fuel garbage cc (l_size l) cl threads true vm (walk cm)) as [[p2|]| |] eqn:E2; cbn [obind rbind] in E; try discriminate.
  destruct (merged_run_ok fuel garbage cc cl l false vm vm (walk vm) threads p1 sched1 l l1 W HT) as (obs1 & qs1 & S1 & Q1 & O1); auto; try lia.
  { intros kv I. split; [apply F1; auto|]. intros mc mp mw v M. exact (NR vm cm EB false kv mc mp mw v I M). }
  destruct (merged_run_ok fuel garbage cc cl l true vm cm (walk cm) threads p2 sched2 l1 l' (proj1 (ob_sound _ _ _ _ O1)) HT) as (obs2 & qs2 & S2 & Q2 & O2); auto; try lia.
  { intros kv I. split; [apply F2; auto|]. intros mc mp mw v M. exact (NR vm cm EB true kv mc mp mw v I M). }
  exists vm, cm, obs1, obs2, qs1, qs2, l1. split; [exact B1|]. split; [exact B2|]. split; [exact S1|]. split; [exact Q1|]. split; [exact O1|].
  split; [exact S2|]. split; [exact Q2|]. exact O2.
Qed.
Print Assumptions C75_merged.

Definition cx_merged (anti : bool) : res (option (Layer KTsdf)) :=
  merged_integrate 100 cx_garbage (cx_cc anti) cx_cloud [1; 0; 3; 2] (fun m => rev m) 2 cx_sched cx_sched cx_layer.
Definition near_bundles_b (anti : bool) : bool :=
  match bundles (cx_cc anti) (l_size cx_layer) cx_cloud [1; 0; 3; 2] with
  | Ok (vm, cm) => forallb (fun c : bool => forallb (fun b : idx3 * list Z =>
      match merge_points (cx_cc anti) cx_cloud c (snd b) (MkColor 0 0 0 0) (V3 f0 f0 f0) f0 with
      | Ok (mc, mp, mw) => match ray_cells 100 cx_garbage (cx_cc anti) (l_size cx_layer) (p_position cx_pose) (p_apply cx_pose mp) c true with
                           | Ok (Some v) => forallb near_b v | _ => false end
      | _ => false end) (if c then cm else vm)) [true; false]
  | _ => false
  end.
Lemma near_bundles_ok : forall anti, near_bundles_b anti = true -> bundles_near 100 cx_garbage (cx_cc anti) cx_layer cx_cloud [1; 0; 3; 2].
Proof.
  intros anti H vm cm E c b mc mp mw v I M R. unfold near_bundles_b in H. rewrite E in H. rewrite forallb_forall in H.
  specialize (H c ltac:(destruct c; cbn; auto)). rewrite forallb_forall in H. specialize (H b I). unfold merged in M. rewrite M in H.
  unfold ray_voxels in R. cbn [cl_pose cx_cloud] in R. rewrite R in H. apply near_b_ok, H.
Qed.
Example C75_merged_example : (forall anti, bundles_near 100 cx_garbage (cx_cc anti) cx_layer cx_cloud [1; 0; 3; 2]) /\
  match bundles (cx_cc true) (l_size cx_layer) cx_cloud [1; 0; 3; 2] with Ok (vm, cm) => (map snd vm, map snd cm) | _ => ([], []) end = ([[0; 3]], [[1]]) /\
  (match cx_merged true with Ok (Some l') => (seen_count l', length (l_blocks l')) | _ => (0%nat, 0%nat) end) = (13%nat, 6%nat).
Proof. split; [intros [|]; apply near_bundles_ok; vm_compute; reflexivity|]. split; vm_compute; reflexivity. Qed.
