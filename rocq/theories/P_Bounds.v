(** C88: the bounds of a map. *)
From Coq Require Import ZArith List Bool Reals Lra Lia.
From Flocq Require Import Core IEEE754.Bits.
From Verif Require Import F32 F32_lemmas Types Assoc Assoc_lemmas Index Index_float Neighbor_proofs Voxel Serialize Layer Bounds Bounds_spec Bounds_proofs.
Import ListNotations.
Open Scope Z_scope.

(** C88. For every layer with at least one block, of any kind, with at most 2^10
    voxels per side and blocks within 2^17 voxels of the origin: the call answers with
    a box that holds the centre of every voxel of every block (without any tolerance),
    each of its six faces is less than 0.65 voxels away from such a centre, and at a
    position more than 0.2 voxels outside of it the layer has no block. *)
Theorem C88_bounds : forall k (l : Layer k), sane_size (l_size l) -> 1 <= l_vps l <= 2 ^ 10 -> laid_out l -> blocks_in_range l ->
  l_blocks l <> [] ->
  exists lo hi, computeMapBoundsFromLayer l = Ok (lo, hi) /\
    (forall c, centre_in l c -> in_box lo hi c) /\ snug (0.65 * FR (l_size l)) l lo hi /\
    (forall p, near_origin (l_size l) p -> beyond (0.2 * FR (l_size l)) lo hi p -> getBlockPtrByCoordinates l p = Ok None).
Proof. intros k l Hs Hv LO BR NE. exact (bounds_whole l Hs Hv LO BR NE). Qed.
Print Assumptions C88_bounds.

(** Without blocks the call reads uninitialised indices. *)
Theorem C88_empty_refuted : forall k (l : Layer k), l_blocks l = [] -> computeMapBoundsFromLayer l = UB.
Proof. intros k l E. unfold computeMapBoundsFromLayer, getAllAllocatedBlocks. rewrite E. reflexivity. Qed.
Print Assumptions C88_empty_refuted.

(** Two blocks of 1 m voxels, two per side, that are not in line with an axis: the
    bounds are (-4, 0, 2) and (4, 4, 8). *)
Definition two_apart : Layer KTsdf :=
  MkLayer (k := KTsdf) f1 2
    [(V3 (-2) 1 1, new_block (k := KTsdf) 2 f1 (new_block_origin 2 f1 (V3 (-2) 1 1)));
     (V3 1 0 3, new_block (k := KTsdf) 2 f1 (new_block_origin 2 f1 (V3 1 0 3)))].
Example C88_case : sane_size (l_size two_apart) /\ 1 <= l_vps two_apart <= 2 ^ 10 /\ laid_out two_apart /\ blocks_in_range two_apart /\
  l_blocks two_apart <> [] /\
  match computeMapBoundsFromLayer two_apart with
  | Ok (lo, hi) => (map3 bits_of_b64 lo, map3 bits_of_b64 hi) =
      (map3 (fun z => bits_of_b64 (f64_of_f32 (f32_of_Z z))) (V3 (-4) 0 2), map3 (fun z => bits_of_b64 (f64_of_f32 (f32_of_Z z))) (V3 4 4 8))
  | _ => False
  end.
Proof.
  split; [|split; [|split; [|split; [|split]]]].
  - split; [reflexivity|]. change (l_size two_apart) with f1. rewrite f1_R. split; change 1%R with (bpow radix2 0); apply bpow_le; lia.
  - change (l_vps two_apart) with 2. lia.
  - intros i b H. unfold l_get, two_apart in H. cbn [l_blocks alookup] in H.
    destruct (idx_eqb_spec i (V3 (-2) 1 1)) as [->|]; [injection H as <-; repeat split|].
    destruct (idx_eqb_spec i (V3 1 0 3)) as [->|]; [injection H as <-; repeat split|discriminate H].
  - intros i b H. unfold l_get, two_apart in H. cbn [l_blocks alookup] in H. change (l_vps two_apart) with 2.
    destruct (idx_eqb_spec i (V3 (-2) 1 1)) as [->|]; [unfold all3; cbn [vx vy vz]; lia|].
    destruct (idx_eqb_spec i (V3 1 0 3)) as [->|]; [unfold all3; cbn [vx vy vz]; lia|discriminate H].
  - intros E. exact (nil_cons (eq_sym E)).
  - vm_compute. reflexivity.
Qed.
