(** C110: the approximate hash array. *)
From Coq Require Import ZArith List Bool Lia.
From Verif Require Import F32 Types Index Layer Threads Threads_proofs Queue HashArray HashArray_spec.
Import ListNotations.
Open Scope Z_scope.

Section H.
  Context {A : Type}.
  Lemma mod_low : forall x a b, 0 <= a <= b -> (x mod 2 ^ b) mod 2 ^ a = x mod 2 ^ a.
  Proof.
    intros x a b H. symmetry. apply Znumtheory.Zmod_div_mod; try (apply Z.pow_pos_nonneg; lia).
    exists (2 ^ (b - a)). rewrite <- Z.pow_add_r by lia. f_equal. lia.
  Qed.
  Lemma slot_bin : forall (a : hasharray A) k, 0 <= ha_bits a <= 30 -> ha_slot a k = Z.to_nat (bin (ha_bits a) k).
  Proof.
    intros a k B. unfold ha_slot. replace (2 ^ ha_bits a - 1) with (Z.ones (ha_bits a)) by (rewrite Z.ones_equiv; lia).
    rewrite Z.land_ones by lia. f_equal. destruct k as [h|i]; [reflexivity|]. unfold bin, ha_hash, index_hash, u64.
    rewrite mod_low by lia. rewrite mod_low by lia. f_equal. ring.
  Qed.
  Lemma bin_range : forall bits k, 0 <= bits -> 0 <= bin bits k < 2 ^ bits.
  Proof. intros bits k H. destruct k; apply Z.mod_pos_bound; apply Z.pow_pos_nonneg; lia. Qed.

  (** Whatever was assigned, a read gives the most recent value assigned to a key of the same
      bin, or what the bin held at first; no access leaves the array. *)
  Theorem C110_latest : forall bits (init : list A) past k, 0 <= bits <= 30 -> length init = Z.to_nat (2 ^ bits) ->
    exists a, ha_after (MkHA bits init) past = Ok a /\
      exists v, ha_read a k = Ok v /\
        match latest bits (bin bits k) past with Some w => v = w | None => nth_error init (Z.to_nat (bin bits k)) = Some v end.
  Proof.
    intros bits init past k B L.
    assert (Q : exists a, ha_after (MkHA bits init) past = Ok a /\ ha_bits a = bits /\ length (ha_map a) = length init /\
      forall b, 0 <= b < 2 ^ bits -> nth_error (ha_map a) (Z.to_nat b) =
        match latest bits b past with Some w => Some w | None => nth_error init (Z.to_nat b) end).
    { induction past as [|[k0 v] past IH]. exists (MkHA bits init). repeat split; auto.
      destruct IH as (a & E & Hb & Hl & H). cbn [ha_after]. rewrite E. cbn [rbind]. unfold ha_write. rewrite slot_bin, Hb by lia.
      pose proof (bin_range bits k0 ltac:(lia)) as R.
      destruct (nth_error (ha_map a) (Z.to_nat (bin bits k0))) as [w|] eqn:N.
      2:{ apply nth_error_None in N. rewrite Hl, L in N. lia. }
      eexists. split; [reflexivity|]. cbn [ha_bits ha_map]. split; [reflexivity|]. split. rewrite set_th_length; auto.
      intros b Rb. cbn [latest]. destruct (Z.eqb_spec (bin bits k0) b) as [<- | Hne].
      - eapply set_th_same. exact N.
      - rewrite set_th_other by (intros F; apply Z2Nat.inj in F; lia). apply H; auto. }
    destruct Q as (a & E & Hb & Hl & H). exists a. split; auto. unfold ha_read. rewrite slot_bin, Hb by lia.
    pose proof (bin_range bits k ltac:(lia)) as R. rewrite (H _ R).
    destruct (latest bits (bin bits k) past) as [w|]. exists w. split; reflexivity.
    destruct (nth_error init (Z.to_nat (bin bits k))) as [w|] eqn:N. exists w. split; reflexivity.
    apply nth_error_None in N. rewrite L in N. lia.
  Qed.
End H.
Print Assumptions C110_latest.

(** Two indices of one line along x that are less than [2^bits] apart have different bins. *)
Theorem C110_lines : forall bits x x' y z, 0 <= bits -> 0 < Z.abs (x - x') < 2 ^ bits ->
  bin bits (ByIndex (V3 x y z)) <> bin bits (ByIndex (V3 x' y z)).
Proof.
  intros bits x x' y z B D E. unfold bin in E. cbn [vx vy vz] in E. set (m := 2 ^ bits) in *.
  assert (P : 0 < m) by lia.
  pose proof (Z.div_mod (x + 17191 * y + 17191 * 17191 * z) m ltac:(lia)). pose proof (Z.div_mod (x' + 17191 * y + 17191 * 17191 * z) m ltac:(lia)).
  set (q := (x + 17191 * y + 17191 * 17191 * z) / m) in *. set (q' := (x' + 17191 * y + 17191 * 17191 * z) / m) in *.
  assert (K : x - x' = m * (q - q')) by lia. assert (q <> q') by (intros F; rewrite F in K; lia).
  assert (m <= Z.abs (m * (q - q'))) by (rewrite Z.abs_mul; nia). lia.
Qed.
Print Assumptions C110_lines.
(** Sharing does not need far away indices: with the 4096 bins of the integrators'
    locks, every voxel shares its bin with the one 15 further in x and one further in z. *)
Theorem C110_shared : forall x y z, bin 12 (ByIndex (V3 x y z)) = bin 12 (ByIndex (V3 (x + 15) y (z + 1))).
Proof.
  intros x y z. unfold bin. cbn [vx vy vz]. replace (x + 15 + 17191 * y + 17191 * 17191 * (z + 1)) with (x + 17191 * y + 17191 * 17191 * z + 72151 * 2 ^ 12) by lia.
  symmetry. apply Z_mod_plus_full.
Qed.
Print Assumptions C110_shared.

(** two indices of the same bin, one of another: the array of the test, with 256 elements *)
Example C110_example :
  match ha_after (MkHA 8 (repeat 0 256)) [(ByIndex (V3 257 0 0), 9); (ByHash 7, 5); (ByIndex (V3 1 0 0), 4)] with
  | Ok a => (ha_read a (ByIndex (V3 1 0 0)), ha_read a (ByHash 263), ha_read a (ByIndex (V3 0 1 0)))
  | _ => (UB, UB, UB)
  end = (Ok 9, Ok 5, Ok 0).
Proof. vm_compute. reflexivity. Qed.
