(** Property C91: point cloud messages. *)
From Coq Require Import ZArith String List Bool Lia Reals Lra.
From Flocq Require Import Core.
From Verif Require Import F32 F32_lemmas Types Index Voxel Layer ColorMap ColorMap_spec ColorMap_proofs P_ColorMap Intake.
Import ListNotations.
Open Scope Z_scope.

(** a number on every axis *)
Definition valid (p : pcl_point) : bool := forallb ffin [vx (p_pos p); vy (p_pos p); vz (p_pos p)].
Lemma valid_ok : forall p, isPointFinite p = valid p.
Proof. intros p. unfold isPointFinite, valid. cbn [forallb]. now rewrite andb_true_r, andb_assoc. Qed.
Lemma filter_valid : forall ps, filter isPointFinite ps = filter valid ps.
Proof. intros ps. apply filter_ext. exact valid_ok. Qed.
(** the colour a point is given: its own if the message has an rgb field, otherwise the
    map's colour of its intensity if there is one, otherwise the map's colour of 0 *)
Definition its_color (lookup : f32 -> option Color) (fields : list string) (p : pcl_point) (c : Color) : Prop :=
  (In "rgb"%string fields -> c = p_color p) /\
  (~ In "rgb"%string fields -> In "intensity"%string fields -> lookup (p_intensity p) = Some c) /\
  (~ In "rgb"%string fields -> ~ In "intensity"%string fields -> lookup f0 = Some c).

Lemma scan_ok : forall fs a b, scan_fields fs a b =
  (a || existsb (String.eqb "rgb") fs, b || existsb (String.eqb "intensity") fs)%bool.
Proof.
  induction fs as [|f fs IH]; intros a b; cbn [scan_fields existsb]; [now rewrite !orb_false_r|].
  destruct (String.eqb_spec f "rgb") as [-> |N].
  - rewrite IH. cbn [orb]. replace (("rgb" =? "rgb")%string) with true by reflexivity.
    replace (("intensity" =? "rgb")%string) with false by reflexivity. cbn [orb]. now rewrite orb_true_r.
  - rewrite (String.eqb_sym "rgb" f). destruct (String.eqb_spec f "rgb") as [|_]; [contradiction|]. cbn [orb].
    rewrite (String.eqb_sym "intensity" f). destruct (String.eqb_spec f "intensity"); rewrite IH; cbn [orb]; rewrite ?orb_true_r; reflexivity.
Qed.
Lemma has_ok : forall s fs, reflect (In s fs) (existsb (String.eqb s) fs).
Proof.
  intros s fs. destruct (existsb (String.eqb s) fs) eqn:E; constructor.
  - apply existsb_exists in E. destruct E as (x & H & K). apply String.eqb_eq in K. now subst.
  - intros H. assert (existsb (String.eqb s) fs = true) as K; [|congruence].
    apply existsb_exists. exists s. split; [exact H|apply String.eqb_refl].
Qed.
Lemma convert_ok : forall t lookup, (forall v, lookup v <> None) -> forall ps ls cs,
  exists kept, convertPointcloud t lookup ps ls cs = Ok (ls ++ map p_pos (filter isPointFinite ps), cs ++ kept) /\
    Forall2 (fun p c => convertColor t lookup p = Some c) (filter isPointFinite ps) kept.
Proof.
  intros t lookup T. induction ps as [|p ps IH]; intros ls cs; cbn [convertPointcloud filter].
  - exists []. cbn. rewrite !app_nil_r. auto.
  - destruct (isPointFinite p); [|apply IH].
    assert (exists c, convertColor t lookup p = Some c) as (c & E).
    { destruct t; cbn [convertColor]; [eauto|destruct (lookup (p_intensity p)) eqn:L|destruct (lookup f0) eqn:L]; eauto; exfalso; eapply T; eauto. }
    rewrite E. cbn [of_opt rbind].
    destruct (IH (ls ++ [p_pos p]) (cs ++ [c])) as (kept & K & F). exists (c :: kept). rewrite K, <- !app_assoc. cbn [map app].
    split; [reflexivity|]. constructor; [exact E|exact F].
Qed.

(** C91. With a colour map that has a colour for every number, the integrator is given
    exactly the points of the message that have a number on every axis, in the order of
    the message, each with its colour; no point is undefined or aborts. *)
Theorem C91_intake : forall lookup m, (forall v, lookup v <> None) ->
  exists kept, integrated_cloud lookup m = Ok kept /\
    Forall2 (fun p k => fst k = p_pos p /\ its_color lookup (c_fields m) p (snd k))
      (filter valid (c_points m)) kept.
Proof.
  intros lookup m T. unfold integrated_cloud, read_cloud. rewrite scan_ok. cbn [orb].
  set (t := if existsb _ (c_fields m) then XYZRGB else _).
  destruct (convert_ok t lookup T (c_points m) [] []) as (kept & -> & F). cbn [app rbind fst snd].
  rewrite filter_valid in *. set (ps := filter valid (c_points m)) in *.
  assert (L : length kept = length ps) by (clear - F; induction F; cbn; congruence).
  rewrite map_length, L, Nat.eqb_refl. exists (combine (map p_pos ps) kept). split; [reflexivity|].
  clear L. induction F as [|p c ps' kept' H F IH]; [constructor|]. cbn [map combine]. constructor; [|auto].
  cbn [fst snd]. split; [reflexivity|]. unfold t in H.
  destruct (has_ok "rgb" (c_fields m)) as [Hc|Hc]; [|destruct (has_ok "intensity" (c_fields m)) as [Hi|Hi]];
    cbn [convertColor] in H; (split; [|split]); intros; try contradiction; congruence.
Qed.
Print Assumptions C91_intake.

(** Points that are no numbers do not matter: deleting them changes nothing. *)
Theorem C91_invalid_ignored : forall lookup fs ps qs,
  filter valid ps = filter valid qs ->
  integrated_cloud lookup (MkCloud fs ps) = integrated_cloud lookup (MkCloud fs qs).
Proof.
  assert (G : forall t lookup ps ls cs, convertPointcloud t lookup ps ls cs = convertPointcloud t lookup (filter isPointFinite ps) ls cs).
  { intros t lookup. induction ps as [|p ps IH]; intros ls cs; [reflexivity|]. cbn [convertPointcloud filter].
    destruct (isPointFinite p) eqn:E; [|apply IH]. cbn [convertPointcloud]. rewrite E.
    destruct (of_opt _); cbn [rbind]; auto. }
  intros lookup fs ps qs E. rewrite <- !filter_valid in E. unfold integrated_cloud, read_cloud. cbn [c_fields c_points].
  destruct (scan_fields fs false false) as [a b]. rewrite (G _ _ ps), (G _ _ qs), E. reflexivity.
Qed.
Print Assumptions C91_invalid_ignored.

(** Every colour map the server can be configured with has a colour for every float,
    when [intensity_max_value] is a positive number up to 2^127 ... *)
Theorem C91_maps_total : forall name max_value, ffin max_value = true -> (0 < FR max_value <= bpow radix2 127)%R ->
  forall v, exists c, color_lookup name max_value v = Some c /\ color_ok c.
Proof.
  intros name hi F R v. assert (S : span f0 hi).
  { split; [reflexivity|]. split; [exact F|]. change (FR f0) with 0%R. split; lra. }
  destruct (C80_hue f0 hi v S) as ((c1 & A1 & _ & B1 & _) & (c2 & A2 & _ & B2 & _)).
  destruct (C80_gray f0 hi v S) as ((z3 & A3 & B3 & _) & (z4 & A4 & B4 & _)).
  destruct (C80_ironbow f0 hi v S) as (c5 & A5 & B5 & _).
  assert (G : forall z, 0 <= z <= 255 -> color_ok (MkColor z z z 255)).
  { intros z Hz. unfold color_ok, is_byte. cbn. lia. }
  unfold color_lookup.
  destruct (String.eqb name "rainbow"); [eauto|]. destruct (String.eqb name "inverse_rainbow"); [eauto|].
  destruct (String.eqb name "grayscale"); [eauto|]. destruct (String.eqb name "inverse_grayscale"); [eauto|].
  destruct (String.eqb name "ironbow"); eauto.
Qed.
Print Assumptions C91_maps_total.

(** ... and it is the colour of the map named: grey levels, the five colours of the iron
    bow, or the hues of the rainbow, by the share of [intensity_max_value]; the inverse
    maps go by what remains. Any other name is the rainbow. *)
Definition named_colors (name : string) (t : R) (c : Color) : Prop :=
  (name = "grayscale"%string -> shows 1 c t t t) /\
  (name = "inverse_grayscale"%string -> shows 1 c (1 - t) (1 - t) (1 - t)) /\
  (name = "ironbow"%string ->
     shows 1 c (through 0 145 255 255 255 t / 255) (through 0 20 138 230 255 t / 255) (through 0 145 0 40 255 t / 255)) /\
  (name = "inverse_rainbow"%string -> shows 2 c (red (6 * (1 - t))) (green (6 * (1 - t))) (blue (6 * (1 - t)))) /\
  (~ In name ["grayscale"; "inverse_grayscale"; "ironbow"; "inverse_rainbow"]%string ->
     shows 2 c (red (6 * t)) (green (6 * t)) (blue (6 * t))).
Theorem C91_maps : forall name max_value, ffin max_value = true -> (0 < FR max_value <= bpow radix2 127)%R ->
  forall v, exists c, color_lookup name max_value v = Some c /\ named_colors name (share f0 max_value v) c.
Proof.
  intros name hi F R v. assert (S : span f0 hi).
  { split; [reflexivity|]. split; [exact F|]. change (FR f0) with 0%R. split; lra. }
  assert (W : forall e e' c r g b, (e <= e')%R -> shows e c r g b -> shows e' c r g b).
  { intros e e' c r g b L (A & B & C & D). unfold shows, about in *. repeat split; [exact A|lra|lra|lra]. }
  destruct (C80_hue f0 hi v S) as ((c1 & A1 & _ & _ & B1) & (c2 & A2 & _ & _ & B2)).
  destruct (C80_gray f0 hi v S) as ((z3 & A3 & _ & B3 & _) & (z4 & A4 & _ & B4 & _)).
  destruct (C80_ironbow f0 hi v S) as (c5 & A5 & _ & B5).
  assert (G : forall z x, about (/ 2 + / 1000) z x -> shows 1 (MkColor z z z 255) x x x).
  { intros z x H. unfold about in H. unfold shows, about. cbn [cr cg cb ca]. repeat split; lra. }
  unfold color_lookup, named_colors.
  destruct (String.eqb_spec name "rainbow") as [-> |N1].
  { exists c1. split; [exact A1|]. repeat (split; [intros H; discriminate H|]). intros _. eapply W; [|exact B1]. lra. }
  destruct (String.eqb_spec name "inverse_rainbow") as [-> |N2].
  { exists c2. split; [exact A2|]. repeat (split; [intros H; discriminate H|]).
    split; [intros _; eapply W; [|exact B2]; lra|]. intros H. exfalso. apply H. cbn. auto. }
  destruct (String.eqb_spec name "grayscale") as [-> |N3].
  { exists (MkColor z3 z3 z3 255). split; [exact A3|]. split; [intros _; apply G, B3|].
    repeat (split; [intros H; discriminate H|]). intros H. exfalso. apply H. cbn. auto. }
  destruct (String.eqb_spec name "inverse_grayscale") as [-> |N4].
  { exists (MkColor z4 z4 z4 255). split; [exact A4|]. split; [intros H; discriminate H|]. split; [intros _; apply G, B4|].
    repeat (split; [intros H; discriminate H|]). intros H. exfalso. apply H. cbn. auto. }
  destruct (String.eqb_spec name "ironbow") as [-> |N5].
  { exists c5. split; [exact A5|]. repeat (split; [intros H; discriminate H|]). split; [intros _; eapply W; [|exact B5]; lra|].
    repeat (split; [intros H; discriminate H|]). intros H. exfalso. apply H. cbn. auto. }
  exists c1. split; [exact A1|]. repeat (split; [intros H; contradiction|]). intros _. eapply W; [|exact B1]. lra.
Qed.
Print Assumptions C91_maps.

(** ... but with [intensity_max_value] 0, a cloud without colours is undefined. *)
Theorem C91_zero_range_refuted : exists m, forallb valid (c_points m) = true /\
  integrated_cloud (color_lookup "grayscale" f0) m = UB.
Proof.
  exists (MkCloud ["x"%string] [MkPcl (V3 f1 f1 f1) (MkColor 0 0 0 0) f0]). split.
  - reflexivity.
  - unfold integrated_cloud, read_cloud. cbn [scan_fields c_fields c_points String.eqb Ascii.eqb Bool.eqb].
    cbn [convertPointcloud]. replace (isPointFinite _) with true by reflexivity.
    unfold convertColor, color_lookup. cbn [String.eqb Ascii.eqb Bool.eqb].
    rewrite (C80_empty_range_refuted f0 eq_refl). reflexivity.
Qed.
Print Assumptions C91_zero_range_refuted.

(** a cloud with intensities, with a point that is none *)
Example C91_case : exists kept,
  integrated_cloud (color_lookup "grayscale" (f32_of_Z 2))
    (MkCloud ["x"; "intensity"]%string
       [MkPcl (V3 f1 f1 f1) (MkColor 9 9 9 9) f0; MkPcl (V3 f1 (fdiv f0 f0) f1) (MkColor 9 9 9 9) f1;
        MkPcl (V3 f0 f1 f1) (MkColor 9 9 9 9) (f32_of_Z 2)]) = Ok kept /\
  map snd kept = [MkColor 0 0 0 255; MkColor 255 255 255 255].
Proof.
  assert (match integrated_cloud (color_lookup "grayscale" (f32_of_Z 2))
    (MkCloud ["x"; "intensity"]%string
       [MkPcl (V3 f1 f1 f1) (MkColor 9 9 9 9) f0; MkPcl (V3 f1 (fdiv f0 f0) f1) (MkColor 9 9 9 9) f1;
        MkPcl (V3 f0 f1 f1) (MkColor 9 9 9 9) (f32_of_Z 2)]) with
    | Ok kept => map snd kept = [MkColor 0 0 0 255; MkColor 255 255 255 255] | _ => False end) as A by (vm_compute; reflexivity).
  destruct (integrated_cloud _ _) as [kept| |]; try contradiction. exists kept. auto.
Qed.
