(** PLY files (C82). *)
From Coq Require Import String ZArith List Bool Reals Lra Lia.
From Flocq Require Import Core.
From Verif Require Import F32 F32_lemmas Types Voxel Layer Marching MeshInt Mesh_spec Connect_spec Ply Ply_spec Ply_proofs P_Mesh.
Import ListNotations.
Open Scope Z_scope.

(** C82. The file written for a mesh is a valid PLY file; it holds every vertex with
    its normal and colour and every triangle, in order, and nothing else. *)
Theorem C82_mesh : forall m, printable m ->
  (exists f, outputMeshAsPly true m = Ok (Some f) /\ depicts f m) /\ outputMeshAsPly false m = Ok None.
Proof. intros m P. split; [now apply output_ok|reflexivity]. Qed.
Print Assumptions C82_mesh.
(** For a mesh layer: no file if there is no vertex at all, otherwise the file of
    the mesh of the whole layer (C38), or of the connected mesh (C39). *)
Lemma flat_nil : forall A B (f : A -> list B) l, flat_map f l = [] <-> Forall (fun a => f a = []) l.
Proof.
  intros A B f l. induction l as [|a l IH]; [split; [constructor|reflexivity]|]. cbn [flat_map]. split.
  - intros H. apply app_eq_nil in H. constructor; [apply H|]. apply IH, H.
  - intros H. inversion H as [|? ? Ha Hl]; subst. rewrite Ha. now apply IH.
Qed.
Theorem C82_layer_plain : forall colors mm, Forall (combinable colors) (map snd mm) -> Forall finite_mesh (map snd mm) ->
  Z.of_nat (length (flat_map m_vertices (map snd mm))) <= 2147483648 ->
  (Forall (fun m => m_vertices m = []) (map snd mm) -> outputMeshLayerAsPly true false mm = Ok None) /\
  (~ Forall (fun m => m_vertices m = []) (map snd mm) ->
   exists f m, outputMeshLayerAsPly true false mm = Ok (Some f) /\ depicts f m /\
     m_vertices m = flat_map m_vertices (map snd mm) /\ m_normals m = flat_map m_normals (map snd mm) /\
     m_colors m = flat_map m_colors (map snd mm) /\ sequential m).
Proof.
  intros colors mm C F B. destruct (C38_whole_mesh colors mm (V3 f0 f0 f0) false C) as (m & E & V & N & K & S & Q).
  unfold outputMeshLayerAsPly, convertMeshLayerToMesh, new_mesh. rewrite E. cbn [rbind fst snd]. split; intros H.
  - apply flat_nil in H. rewrite V, H. reflexivity.
  - assert (NV : nonempty (m_vertices m) = true).
    { destruct (m_vertices m) eqn:Z0; [|reflexivity]. exfalso. apply H. apply flat_nil. congruence. }
    rewrite NV. destruct (output_ok m) as (f & O & D).
    { destruct Q as (Q1 & Q2 & (q & Q3) & Q4). split; [right; exact Q1|]. split.
      { rewrite K, V. destruct colors.
        - right. clear - C. induction C as [|m ms (_ & C) _ IH]; [reflexivity|]. cbn [flat_map]. rewrite !app_length, IH, C. reflexivity.
        - left. apply flat_nil. eapply Forall_impl; [|exact C]. intros x (_ & X). exact X. }
      split; [exists q; congruence|]. split; [exact Q4|]. split; [rewrite V; lia|].
      rewrite V, N, K. clear - F. induction F as [|x ms (F1 & F2 & F3) _ (I1 & I2 & I3)]; [repeat constructor|].
      cbn [flat_map]. rewrite !Forall_app. auto. }
    exists f, m. repeat (split; [first [exact O|exact D|exact V|exact N|exact K]|]). exact S.
Qed.
Print Assumptions C82_layer_plain.

Theorem C82_layer_connected : forall colors mm, Forall (combinable colors) (map snd mm) -> Forall finite_mesh (map snd mm) ->
  Forall (fun m => Forall modest (m_normals m)) (map snd mm) ->
  Z.of_nat (length (flat_map m_vertices (map snd mm))) <= 2147483648 ->
  forall m, createConnectedMesh (map snd mm) default_threshold (new_mesh (V3 f0 f0 f0)) = Ok m ->
  (Forall (fun m => m_vertices m = []) (map snd mm) -> outputMeshLayerAsPly true true mm = Ok None) /\
  (~ Forall (fun m => m_vertices m = []) (map snd mm) ->
   exists f, outputMeshLayerAsPly true true mm = Ok (Some f) /\ depicts f m).
Proof.
  intros colors mm C F MO B m E. unfold new_mesh in E.
  destruct (C39_attributes colors _ _ _ _ _ C MO E) as (UN & CF).
  assert (FN : Forall finite_point (m_normals m)) by (eapply Forall_impl; [|exact UN]; intros n N; apply N).
  destruct (C39_connected _ _ _ _ _ E) as (I & Q & ND & VI & VO & _).
  unfold outputMeshLayerAsPly, convertMeshLayerToMesh, new_mesh. rewrite E. cbn [rbind fst snd].
  destruct (C39_succeeds colors (map snd mm) default_threshold (V3 f0 f0 f0) false C) as (m' & E' & LN & LC).
  { intros x v Hx Hv. destruct (VO x v Hx Hv) as (w & _ & _ & N). exact N. }
  rewrite E in E'. injection E' as <-.
  assert (FC : Forall color_ok (m_colors m)).
  { apply Forall_forall. intros c Ic. apply In_nth_error in Ic. destruct Ic as (j & Ej).
    destruct (nth_error (m_vertices m) j) as [v|] eqn:Ev.
    - destruct (CF j v c Ev Ej) as (x & i & Ix & _ & Ec). rewrite Forall_forall in F. destruct (F x Ix) as (_ & _ & F3). rewrite Forall_forall in F3. apply F3. now apply nth_error_In in Ec.
    - apply nth_error_None in Ev. assert (X : nth_error (m_colors m) j <> None) by congruence. apply nth_error_Some in X. destruct colors; lia. }
  split; intros H.
  - replace (m_vertices m) with (@nil pt3); [reflexivity|]. destruct (m_vertices m) as [|v vs]; [reflexivity|]. exfalso.
    destruct (VI v (or_introl eq_refl)) as (x & Hx & Hv). rewrite Forall_forall in H. rewrite (H x Hx) in Hv. exact Hv.
  - assert (NV : nonempty (m_vertices m) = true).
    { destruct (m_vertices m) eqn:Z0; [|reflexivity]. exfalso. apply H. apply Forall_forall. intros x Hx.
      destruct (m_vertices x) as [|v vs] eqn:Vx; [reflexivity|]. exfalso.
      destruct (VO x v Hx) as (w & [] & _). rewrite Vx. now left. }
    rewrite NV. apply output_ok. split; [right; exact LN|]. split.
    { destruct colors; [right; exact LC|left]. destruct (m_colors m); [reflexivity|discriminate LC]. }
    split; [exact Q|]. split; [exact I|]. split.
    { apply Z.le_trans with (2 := B). apply inj_le. rewrite <- (map_length (vertex_cell (ddiv d1 (f64_of_f32 default_threshold))) (m_vertices m)).
      rewrite <- (map_length (vertex_cell (ddiv d1 (f64_of_f32 default_threshold))) (flat_map m_vertices (map snd mm))).
      apply NoDup_incl_length; [exact ND|]. intros o Ho. apply in_map_iff in Ho. destruct Ho as (v & <- & Hv). apply in_map.
      destruct (VI v Hv) as (x & Hx & Hvx). apply in_flat_map. now exists x. }
    split; [|split; [exact FN|exact FC]]. apply Forall_forall. intros v Hv. destruct (VI v Hv) as (x & Hx & Hvx).
    rewrite Forall_forall in F. destruct (F x Hx) as (F1 & _). rewrite Forall_forall in F1. now apply F1.
Qed.
Print Assumptions C82_layer_connected.
(** [PlyWriter]: after announcing [n] vertices, whatever calls follow, the file is a
    valid PLY file exactly if [n] vertices have been accepted; it then holds those,
    in order. *)
Theorem C82_writer : forall n color cs bs w, 0 <= n -> cs <> [] ->
  wrun cs (addVertices n color (new_writer true)) = (bs, w) ->
  Forall good_vertex (accepted cs bs) ->
  (read_ply (w_file w) <> None <-> Z.of_nat (length (accepted cs bs)) = n) /\
  (forall p c, In (p, c) (accepted cs bs) -> (c = None <-> color = false)) /\
  forall t, read_ply (w_file w) = Some t -> exists rows, t = [("vertex"%string, rows)] /\ length rows = length (accepted cs bs) /\
    forall i v r, nth_error (accepted cs bs) i = Some v -> nth_error rows i = Some r ->
      shows_point (fst v) "x" "y" "z" r /\ forall c, snd v = Some c -> shows_color c r.
Proof.
  intros n color cs bs w N NE E G. destruct (run_ok n color cs bs w N NE E) as (F & C). rewrite F, (read_wheader n color _ N).
  assert (CC : forall p c, In (p, c) (accepted cs bs) -> (c = None <-> color = false)).
  { rewrite Forall_forall in C. intros p c I. specialize (C _ I). unfold has_rgb in C. cbn [snd] in C. destruct c; subst color; split; congruence. }
  destruct (read_lines color _ G C (Z.to_nat n)) as [(rs & R & L & K & P) | (L & R)]; rewrite R.
  - destruct (map wline (skipn (Z.to_nat n) (accepted cs bs))) as [|l f] eqn:SK.
    + assert (Q : length (skipn (Z.to_nat n) (accepted cs bs)) = 0%nat) by (rewrite <- (map_length wline), SK; reflexivity).
      rewrite skipn_length in Q. split; [split; [lia|discriminate]|]. split; [exact CC|]. intros t T. injection T as <-. exists rs.
      split; [reflexivity|]. split; [lia|exact P].
    + assert (Q : length (skipn (Z.to_nat n) (accepted cs bs)) = S (length f)).
      { rewrite <- (map_length wline), SK. reflexivity. }
      rewrite skipn_length in Q. split; [split; [congruence|lia]|]. split; [exact CC|]. discriminate.
  - split; [split; [congruence|lia]|]. split; [exact CC|]. discriminate.
Qed.
Print Assumptions C82_writer.
(** The writer does not stop at the announced number: every call succeeds, and the
    file is not valid. *)
Theorem C82_writer_overrun_refuted : exists cs w,
  wrun cs (addVertices 1 false (new_writer true)) = ([true; true], w) /\ read_ply (w_file w) = None.
Proof.
  exists [CVertex (ex_p 1 2) None; CVertex (ex_p 3 4) None].
  eexists. split; [reflexivity|]. vm_compute. reflexivity.
Qed.
Print Assumptions C82_writer_overrun_refuted.
(** Coordinates are written with six digits: vertices a centimetre apart can become
    the same point in the file. *)
Definition far1 : pt3 := V3 (f32_lit 80001 (-3)) f0 f0.
Definition far2 : pt3 := V3 (f32_lit 10240138 (-10)) f0 f0.
Theorem C82_precision_refuted : exists p q, finite_point p /\ finite_point q /\
  flt (vx p) (vx q) = true /\ print_point p = print_point q.
Proof. exists far1, far2. split; [repeat split|]. split; [repeat split|]. split; vm_compute; reflexivity. Qed.
Print Assumptions C82_precision_refuted.
(** A number of indices that is not a multiple of three stops the program. *)
Theorem C82_indices_refuted : exists m, length (m_vertices m) = 3%nat /\ outputMeshAsPly true m = Abort.
Proof. exists (MkMesh [ex_p 0 0; ex_p 1 0; ex_p 0 1] [0; 1] [] [] point0 true). split; reflexivity. Qed.
Print Assumptions C82_indices_refuted.
Example C82_example : printable ex_m1 /\ Forall (combinable false) (map snd [(V3 0 0 0, ex_m1); (V3 1 0 0, ex_m2)]) /\
  Forall finite_mesh (map snd [(V3 0 0 0, ex_m1); (V3 1 0 0, ex_m2)]) /\
  match outputMeshLayerAsPly true true [(V3 0 0 0, ex_m1); (V3 1 0 0, ex_m2)] with
  | Ok (Some f) => match read_ply f with
                   | Some t => length (rows_of "vertex" t) = 4%nat /\
                       rows_of "face" t = [[("vertex_indices"%string, [Num 0; Num 1; Num 2])];
                                           [("vertex_indices"%string, [Num 1; Num 3; Num 2])]]
                   | None => False
                   end
  | _ => False
  end.
Proof.
  split. { split; [right; reflexivity|]. split; [left; reflexivity|]. split; [now exists 1%nat|]. split; [repeat constructor; cbn; lia|].
           split; [cbn; lia|]. repeat split; repeat constructor. }
  split; [apply C38_example|]. split; [repeat constructor|]. vm_compute. split; reflexivity.
Qed.
Example C82_writer_example : exists bs w, wrun [CVertex (ex_p 1 2) None; CHeader; CVertex (ex_p 1 1) (Some color0); CVertex (ex_p 3 4) None]
    (addVertices 2 false (new_writer true)) = (bs, w) /\ bs = [true; false; false; true] /\
  Forall good_vertex (accepted [CVertex (ex_p 1 2) None; CHeader; CVertex (ex_p 1 1) (Some color0); CVertex (ex_p 3 4) None] bs) /\
  option_map (map (fun e => (fst e, length (snd e)))) (read_ply (w_file w)) = Some [("vertex"%string, 2%nat)].
Proof.
  eexists _, _. split; [reflexivity|]. split; [reflexivity|]. split; [|vm_compute; reflexivity].
  repeat constructor; discriminate.
Qed.
