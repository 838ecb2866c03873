(** Proofs about timers. *)
From Coq Require Import String ZArith List Bool Reals Lra Lia Psatz Permutation.
From Flocq Require Import Core.
From Verif Require Import F32 F32_lemmas F32_err Types Threads Threads_proofs Timing Timing_spec.
Import ListNotations.
Open Scope Z_scope.

Lemma adds_app : forall xs ys a, acc_adds a (xs ++ ys) = rbind (acc_adds a xs) (fun a' => acc_adds a' ys).
Proof. induction xs as [|x xs IH]; intros ys a; [reflexivity|]. cbn [app acc_adds]. destruct (acc_add a x); cbn [rbind]; auto. Qed.

(** ** Counting and the window *)
Definition ring (xs : list f64) (buf : list (option f64)) : Prop :=
  length buf = 50%nat /\
  (forall j x, nth_error xs j = Some x -> (length xs <= j + 50)%nat -> nth_error buf (j mod 50) = Some (Some x)).
Lemma ring_new : ring [] (ac_samples acc_new).
Proof. split; [reflexivity|]. intros [|j] x H; discriminate. Qed.
Lemma ring_add : forall xs buf x, ring xs buf -> ring (xs ++ [x]) (set_th (length xs mod 50) (Some x) buf).
Proof.
  intros xs buf x (L & R). split; [rewrite set_th_length; exact L|]. intros j y N B. rewrite app_length in B. cbn [length] in B.
  destruct (Nat.lt_ge_cases j (length xs)) as [J|J].
  - rewrite nth_error_app1 in N by exact J. rewrite set_th_other; [apply R; auto; lia|].
    intros E. pose proof (Nat.div_mod (length xs) 50 ltac:(lia)). pose proof (Nat.div_mod j 50 ltac:(lia)).
    assert (length xs / 50 <> j / 50)%nat by (intros Q; rewrite Q in *; lia). nia.
  - assert (J' : (j < length (xs ++ [x]))%nat) by (apply nth_error_Some; congruence). rewrite app_length in J'. cbn [length] in J'.
    assert (j = length xs) by lia. subst j. rewrite nth_error_app2, Nat.sub_diag in N by lia. injection N as <-.
    destruct (nth_error buf (length xs mod 50)) as [o|] eqn:E; [eapply set_th_same, E|].
    apply nth_error_None in E. pose proof (Nat.mod_upper_bound (length xs) 50 ltac:(lia)). lia.
Qed.
Lemma mod_nat : forall n, Z.to_nat (Z.of_nat n mod 50) = (n mod 50)%nat.
Proof. intros n. change 50 with (Z.of_nat 50). rewrite <- Nat2Z.inj_mod, Nat2Z.id. reflexivity. Qed.

(** the slots hold the last samples *)
Lemma lastn_all : forall A n (xs : list A), (length xs <= n)%nat -> lastn n xs = xs.
Proof. intros A n xs H. unfold lastn. replace (length xs - n)%nat with 0%nat by lia. reflexivity. Qed.
Lemma lastn_cons : forall A n (xs : list A) old, (0 < n)%nat -> (n <= length xs)%nat -> nth_error xs (length xs - n) = Some old ->
  exists rest, lastn n xs = old :: rest /\ forall x, lastn n (xs ++ [x]) = rest ++ [x].
Proof.
  intros A n xs old P L N. exists (skipn (S (length xs - n)) xs). unfold lastn. split.
  - revert N. generalize (length xs - n)%nat. clear. induction xs as [|y xs IH]; intros [|k] N; try discriminate; cbn in *; [congruence|]. apply IH, N.
  - intros x. rewrite app_length. cbn [length]. replace (length xs + 1 - n)%nat with (S (length xs - n)) by lia.
    rewrite skipn_app. replace (S (length xs - n) - length xs)%nat with 0%nat by lia. reflexivity.
Qed.
Definition slots (xs : list f64) (buf : list (option f64)) : Prop :=
  exists ys, firstn (Nat.min (length xs) 50) buf = map Some ys /\ Permutation ys (lastn 50 xs).
Lemma first_set : forall A n (v : A) buf, (n < length buf)%nat -> firstn (S n) (set_th n v buf) = firstn n buf ++ [v].
Proof. intros A n v buf. revert n. induction buf as [|b buf IH]; intros [|n] H; cbn in *; try lia; [reflexivity|]. f_equal. apply IH. lia. Qed.
Lemma map_set : forall n (x : f64) ys, set_th n (Some x) (map Some ys) = map Some (set_th n x ys).
Proof. intros n x ys. revert n. induction ys as [|y ys IH]; intros [|n]; cbn; try reflexivity. rewrite IH. reflexivity. Qed.
Lemma slots_add : forall xs buf x, ring xs buf -> slots xs buf -> slots (xs ++ [x]) (set_th (length xs mod 50) (Some x) buf).
Proof.
  intros xs buf x (L & R) (ys & F & P). unfold slots. rewrite app_length. cbn [length].
  destruct (Nat.lt_ge_cases (length xs) 50) as [C|C].
  - rewrite (Nat.mod_small _ _ C). rewrite Nat.min_l in * by lia. rewrite Nat.add_1_r, first_set, F by lia.
    exists (ys ++ [x]). rewrite map_app. split; [reflexivity|]. rewrite lastn_all in * by (rewrite ?app_length; cbn [length]; lia).
    apply Permutation_app_tail, P.
  - rewrite Nat.min_r in * by lia. rewrite firstn_all2 in F by lia. rewrite firstn_all2 by (rewrite set_th_length; lia).
    destruct (nth_error xs (length xs - 50)) as [old|] eqn:O; [|apply nth_error_None in O; lia].
    destruct (lastn_cons _ 50 xs old ltac:(lia) C O) as (rest & E1 & E2). rewrite (E2 x).
    pose proof (R _ _ O ltac:(lia)) as Q.
    replace ((length xs - 50) mod 50)%nat with (length xs mod 50)%nat in Q.
    2:{ replace (length xs) with (length xs - 50 + 1 * 50)%nat at 1 by lia. apply Nat.mod_add. lia. }
    subst buf. rewrite map_set. exists (set_th (length xs mod 50) x ys). split; [reflexivity|].
    rewrite nth_error_map in Q. destruct (nth_error ys (length xs mod 50)) as [o|] eqn:Y; [|discriminate]. injection Q as ->.
    destruct (set_th_split ys (length xs mod 50) x old Y) as (l1 & l2 & EY & ES & _). rewrite ES. rewrite EY, E1 in P.
    apply Permutation_sym, Permutation_cons_app_inv, Permutation_sym in P.
    apply Permutation_trans with (x :: l1 ++ l2); [apply Permutation_sym, Permutation_middle|].
    apply Permutation_trans with (x :: rest); [apply perm_skip, P|]. apply Permutation_cons_append.
Qed.
Lemma var_loop_ok : forall ys mean buf v, firstn (length ys) buf = map Some ys ->
  acc_var_loop mean buf (length ys) v = Ok (fold_left (fun v x => dadd v (dmul (dsub x mean) (dsub x mean))) ys v).
Proof.
  induction ys as [|y ys IH]; intros mean buf v H; [destruct buf; reflexivity|]. destruct buf as [|b buf]; [discriminate|]. cbn [length firstn map] in H.
  injection H as -> H. cbn [length acc_var_loop fold_left]. apply IH, H.
Qed.
Record counted (xs : list f64) (a : accum) : Prop := MkCounted {
  ct_window : ac_window a = Z.of_nat (length xs); ct_total : ac_total a = Z.of_nat (length xs);
  ct_ring : ring xs (ac_samples a); ct_sum : ac_sum a = fold_left dadd xs d0;
  ct_min : ac_min a = fold_left (fun m x => if dlt x m then x else m) xs dbl_max;
  ct_max : ac_max a = fold_left (fun m x => if dlt m x then x else m) xs dbl_min;
  ct_slots : slots xs (ac_samples a) }.
(** the window sum after one more sample *)
Definition next_wsum (xs : list f64) (w x : f64) : f64 :=
  match nth_error xs (length xs - 50) with
  | Some old => if (length xs <? 50)%nat then dadd w x else dadd w (dsub x old)
  | None => dadd w x
  end.
Lemma add_ok : forall xs a x, counted xs a -> (Z.of_nat (length xs) < 2 ^ 31 - 1) ->
  exists a', acc_add a x = Ok a' /\ counted (xs ++ [x]) a' /\ ac_wsum a' = next_wsum xs (ac_wsum a) x.
Proof.
  intros xs a x [W T R Su Mi Ma Sl] B. unfold acc_add. rewrite W, T. unfold int_incr. rewrite (proj2 (Z.ltb_lt _ _) B). cbn [rbind].
  assert (LE : Z.of_nat (length xs) + 1 = Z.of_nat (length (xs ++ [x]))) by (rewrite app_length; cbn [length]; lia).
  pose proof (ring_add xs _ x R) as R'. pose proof (slots_add xs _ x R Sl) as S'.
  assert (C : forall ws, ring (xs ++ [x]) (snd ws) -> slots (xs ++ [x]) (snd ws) -> counted (xs ++ [x]) (MkAcc (Z.of_nat (length xs) + 1) (Z.of_nat (length xs) + 1) (fst ws)
     (dadd (ac_sum a) x) (if dlt x (ac_min a) then x else ac_min a) (if dgt x (ac_max a) then x else ac_max a) (snd ws))).
  { intros ws RW SW. unfold dgt. constructor; cbn [ac_window ac_total ac_sum ac_min ac_max ac_samples]; auto;
      rewrite fold_left_app; cbn [fold_left]; rewrite <- ?Su, <- ?Mi, <- ?Ma; reflexivity. }
  unfold kWindow. destruct (Z.of_nat (length xs) <? 50) eqn:E.
  - apply Z.ltb_lt in E. cbn [rbind]. eexists. split; [reflexivity|]. split.
    + rewrite (Nat.mod_small (length xs) 50) in R', S' by lia. apply C; cbn [snd]; rewrite Nat2Z.id; auto.
    + cbn [ac_wsum fst]. unfold next_wsum. destruct (nth_error xs _); [|reflexivity]. rewrite (proj2 (Nat.ltb_lt _ _)) by lia. reflexivity.
  - apply Z.ltb_ge in E. rewrite mod_nat. unfold slot. rewrite mod_nat.
    destruct (nth_error xs (length xs - 50)) as [old|] eqn:O.
    2:{ apply nth_error_None in O. lia. }
    pose proof (proj2 R _ _ O ltac:(lia)) as Q.
    replace ((length xs - 50) mod 50)%nat with (length xs mod 50)%nat in Q.
    2:{ replace (length xs) with (length xs - 50 + 1 * 50)%nat at 1 by lia. apply Nat.mod_add. lia. }
    rewrite Q. cbn [rbind]. eexists. split; [reflexivity|]. split; [apply C; [exact R'|exact S']|].
    cbn [ac_wsum fst]. unfold next_wsum. rewrite O, (proj2 (Nat.ltb_ge _ _)) by lia. reflexivity.
Qed.
Lemma counted_new : counted [] acc_new.
Proof. constructor; try reflexivity; [apply ring_new|]. exists []. split; [reflexivity|apply Permutation_refl]. Qed.
Fixpoint wsum_of (xs : list f64) (ys : list f64) (w : f64) : f64 :=
  match ys with [] => w | y :: ys' => wsum_of (xs ++ [y]) ys' (next_wsum xs w y) end.
Lemma adds_ok : forall ys xs a, counted xs a -> Z.of_nat (length xs + length ys) < 2 ^ 31 ->
  exists a', acc_adds a ys = Ok a' /\ counted (xs ++ ys) a' /\ ac_wsum a' = wsum_of xs ys (ac_wsum a).
Proof.
  induction ys as [|y ys IH]; intros xs a C B; cbn [acc_adds wsum_of].
  - exists a. rewrite app_nil_r. auto.
  - cbn [length] in B. destruct (add_ok xs a y C ltac:(lia)) as (a1 & E & C1 & W1). rewrite E. cbn [rbind].
    destruct (IH _ _ C1) as (a2 & E2 & C2 & W2); [rewrite app_length; cbn [length]; lia|].
    exists a2. rewrite <- app_assoc in C2. rewrite W2, W1. auto.
Qed.


(** ** Rounding *)
Lemma dadd_rel : forall a b, dfin a = true -> dfin b = true -> (Rabs (DR a + DR b) <= bpow radix2 1023)%R ->
  dfin (dadd a b) = true /\ (Rabs (DR (dadd a b) - (DR a + DR b)) <= u64r * Rabs (DR a + DR b) + t64r)%R.
Proof.
  intros a b Ha Hb H. destruct (dadd_R a b Ha Hb (rnd64_small _ H)) as (E & F). split; auto.
  destruct (rnd64_err (DR a + DR b)) as (d & e & Hd & He & Q). rewrite E, Q.
  replace ((DR a + DR b) * (1 + d) + e - (DR a + DR b))%R with ((DR a + DR b) * d + e)%R by ring.
  eapply Rle_trans; [apply Rabs_triang|]. rewrite Rabs_mult. pose proof (Rabs_pos (DR a + DR b)). nra.
Qed.
Lemma dsub_rel : forall a b, dfin a = true -> dfin b = true -> (Rabs (DR a - DR b) <= bpow radix2 1023)%R ->
  dfin (dsub a b) = true /\ (Rabs (DR (dsub a b) - (DR a - DR b)) <= u64r * Rabs (DR a - DR b) + t64r)%R.
Proof.
  intros a b Ha Hb H. destruct (dsub_R a b Ha Hb (rnd64_small _ H)) as (E & F). split; auto.
  destruct (rnd64_err (DR a - DR b)) as (d & e & Hd & He & Q). rewrite E, Q.
  replace ((DR a - DR b) * (1 + d) + e - (DR a - DR b))%R with ((DR a - DR b) * d + e)%R by ring.
  eapply Rle_trans; [apply Rabs_triang|]. rewrite Rabs_mult. pose proof (Rabs_pos (DR a - DR b)). nra.
Qed.
Open Scope R_scope.
Lemma rsum_app : forall xs ys, rsum (xs ++ ys) = rsum xs + rsum ys.
Proof. induction xs as [|x xs IH]; intros ys; [change (rsum ys = 0 + rsum ys)%R; ring|]. change (DR x + rsum (xs ++ ys) = DR x + rsum xs + rsum ys)%R. rewrite IH. ring. Qed.
Lemma rsum_bound : forall M xs, samples_ok M xs -> Rabs (rsum xs) <= INR (length xs) * M.
Proof.
  intros M xs H. induction H as [|x xs (_ & B) H IH].
  - cbn. rewrite Rabs_R0. lra.
  - change (rsum (x :: xs)) with (DR x + rsum xs). cbn [length]. rewrite S_INR. eapply Rle_trans; [apply Rabs_triang|]. lra.
Qed.
Section bounds.
  Variable M : R.
  Hypothesis ML : bpow radix2 (-1000) <= M.
  Hypothesis MU : M <= bpow radix2 900.
  Lemma M_pos : 0 < M.
  Proof. pose proof (bpow_gt_0 radix2 (-1000)). lra. Qed.
  Lemma tiny_M : t64r <= u64r * M.
  Proof.
    apply Rle_trans with (u64r * bpow radix2 (-1000)).
    - unfold t64r. replace u64r with (bpow radix2 (-53)) by reflexivity. rewrite <- bpow_plus. apply bpow_le. lia.
    - apply Rmult_le_compat_l; [|exact ML]. unfold u64r. lra.
  Qed.
  Lemma big_M : forall x, Rabs x <= 4294967296 * M -> Rabs x <= bpow radix2 1023.
  Proof.
    intros x H. pose proof M_pos. eapply Rle_trans; [exact H|]. apply Rle_trans with (bpow radix2 32 * bpow radix2 900).
    - apply Rmult_le_compat; try lra. change (bpow radix2 32) with 4294967296. lra.
    - rewrite <- bpow_plus. apply bpow_le. lia.
  Qed.
  (** the plain sum *)
  Lemma sum_err : forall xs, samples_ok M xs -> INR (length xs) <= 2147483648 ->
    dfin (fold_left dadd xs d0) = true /\
    Rabs (DR (fold_left dadd xs d0) - rsum xs) <= INR (length xs) * INR (length xs) * (/ 4503599627370496 * M).
  Proof.
    pose proof M_pos as MP. pose proof tiny_M as TM.
    intros xs. induction xs as [|x xs IH] using rev_ind; intros H L.
    - cbn. split; [reflexivity|]. rewrite Rminus_0_r, Rabs_R0. lra.
    - rewrite app_length in *. cbn [length] in *. rewrite Nat.add_1_r, S_INR in *. unfold samples_ok in H. rewrite Forall_app in H. destruct H as (H & Hx).
      apply Forall_inv in Hx. destruct Hx as (Fx & Bx). destruct (IH H ltac:(lra)) as (F & E). rewrite fold_left_app, rsum_app. cbn [fold_left].
      change (rsum [x]) with (DR x + 0). set (s := fold_left dadd xs d0) in *. pose proof (rsum_bound M xs H) as RB. pose proof (pos_INR (length xs)) as NP.
      set (n := INR (length xs)) in *.
      assert (NN : n * n * (/ 4503599627370496 * M) <= n * (/ 2097152 * M)).
      { rewrite (Rmult_assoc n n). apply Rmult_le_compat_l; [exact NP|]. replace (n * (/ 4503599627370496 * M)) with (n * / 4503599627370496 * M) by ring.
        apply Rmult_le_compat_r; lra. }
      assert (SB : Rabs (DR s + DR x) <= (n + n * / 2097152 + 1) * M).
      { replace (DR s + DR x) with ((DR s - rsum xs) + (rsum xs + DR x)) by ring. eapply Rle_trans; [apply Rabs_triang|].
        pose proof (Rabs_triang (rsum xs) (DR x)). lra. }
      assert (SN : 0 <= n * M) by (apply Rmult_le_pos; lra).
      destruct (dadd_rel s x F Fx) as (F' & E').
      { apply big_M. eapply Rle_trans; [exact SB|]. apply Rmult_le_compat_r; lra. }
      split; [exact F'|]. replace (DR (dadd s x) - (rsum xs + (DR x + 0))) with ((DR (dadd s x) - (DR s + DR x)) + (DR s - rsum xs)) by ring.
      eapply Rle_trans; [apply Rabs_triang|].
      assert (U : u64r * Rabs (DR s + DR x) <= u64r * ((n + n * / 2097152 + 1) * M)) by (apply Rmult_le_compat_l; [unfold u64r; lra|exact SB]).
      replace ((n + 1) * (n + 1) * (/ 4503599627370496 * M)) with (n * n * (/ 4503599627370496 * M) + (2 * (n * M) + M) * / 4503599627370496) by ring.
      replace (u64r * ((n + n * / 2097152 + 1) * M)) with (u64r * ((1 + / 2097152) * (n * M) + M)) in U by ring.
      unfold u64r in *. lra.
  Qed.
  (** the window sum *)
  Lemma lastn_ok : forall n xs, samples_ok M xs -> samples_ok M (lastn n xs).
  Proof. intros n xs H. unfold lastn, samples_ok in *. rewrite <- (firstn_skipn (length xs - n) xs), Forall_app in H. apply H. Qed.
  Lemma lastn_len : forall A n (xs : list A), (length (lastn n xs) <= n)%nat.
  Proof. intros A n xs. unfold lastn. rewrite skipn_length. lia. Qed.
  Lemma window_step : forall xs w x, samples_ok M xs -> dfin x = true -> Rabs (DR x) <= M -> INR (length xs) <= 2147483648 ->
    dfin w = true -> Rabs (DR w - rsum (lastn 50 xs)) <= INR (length xs) * (/ 140737488355328 * M) ->
    dfin (next_wsum xs w x) = true /\
    Rabs (DR (next_wsum xs w x) - rsum (lastn 50 (xs ++ [x]))) <= (INR (length xs) + 1) * (/ 140737488355328 * M).
  Proof.
    pose proof M_pos as MP. pose proof tiny_M as TM.
    intros xs w x H Fx Bx L Fw E. pose proof (pos_INR (length xs)) as NP. set (n := INR (length xs)) in *.
    assert (NM : n * (/ 140737488355328 * M) <= / 65536 * M).
    { replace (n * (/ 140737488355328 * M)) with (n * / 140737488355328 * M) by ring. apply Rmult_le_compat_r; lra. }
    pose proof (rsum_bound M _ (lastn_ok 50 xs H)) as RB. pose proof (le_INR _ _ (lastn_len _ 50 xs)) as LB.
    assert (I50 : INR 50 = 50) by (rewrite INR_IZR_INZ; reflexivity). rewrite I50 in LB.
    assert (RB' : Rabs (rsum (lastn 50 xs)) <= 50 * M) by (eapply Rle_trans; [exact RB|]; apply Rmult_le_compat_r; lra).
    assert (WB : Rabs (DR w) <= 51 * M).
    { replace (DR w) with ((DR w - rsum (lastn 50 xs)) + rsum (lastn 50 xs)) by ring. eapply Rle_trans; [apply Rabs_triang|]. lra. }
    assert (CASE1 : (length xs < 50)%nat -> dfin (dadd w x) = true /\
      Rabs (DR (dadd w x) - rsum (lastn 50 (xs ++ [x]))) <= (n + 1) * (/ 140737488355328 * M)).
    { intros C. rewrite lastn_all in E by lia. rewrite lastn_all by (rewrite app_length; cbn [length]; lia). rewrite rsum_app. change (rsum [x]) with (DR x + 0).
      pose proof (Rabs_triang (DR w) (DR x)) as T. destruct (dadd_rel w x Fw Fx) as (F' & E'); [apply big_M; lra|].
      split; [exact F'|]. replace (DR (dadd w x) - (rsum xs + (DR x + 0))) with ((DR (dadd w x) - (DR w + DR x)) + (DR w - rsum xs)) by ring.
      eapply Rle_trans; [apply Rabs_triang|].
      assert (U : u64r * Rabs (DR w + DR x) <= u64r * (52 * M)) by (apply Rmult_le_compat_l; [unfold u64r; lra|lra]).
      unfold u64r in *. lra. }
    unfold next_wsum. destruct (nth_error xs (length xs - 50)) as [old|] eqn:O.
    2:{ apply CASE1. apply nth_error_None in O. destruct xs; [cbn; lia|]. cbn [length] in O. lia. }
    destruct (Nat.ltb_spec (length xs) 50) as [C|C]; [apply CASE1, C|]. clear CASE1.
    destruct (lastn_cons _ 50 xs old ltac:(lia) C O) as (rest & E1 & E2). rewrite (E2 x). rewrite E1 in E.
    assert (HO := H). unfold samples_ok in HO. rewrite Forall_forall in HO. destruct (HO old (nth_error_In _ _ O)) as (Fo & Bo).
    change (rsum (old :: rest)) with (DR old + rsum rest) in E. rewrite rsum_app. change (rsum [x]) with (DR x + 0).
    assert (D1 : Rabs (DR x - DR old) <= 2 * M). { unfold Rminus. eapply Rle_trans; [apply Rabs_triang|]. rewrite Rabs_Ropp. lra. }
    destruct (dsub_rel x old Fx Fo) as (Fd & Ed); [apply big_M; lra|].
    assert (U1 : u64r * Rabs (DR x - DR old) <= u64r * (2 * M)) by (apply Rmult_le_compat_l; [unfold u64r; lra|lra]).
    assert (D2 : Rabs (DR (dsub x old)) <= 3 * M).
    { replace (DR (dsub x old)) with ((DR (dsub x old) - (DR x - DR old)) + (DR x - DR old)) by ring. eapply Rle_trans; [apply Rabs_triang|]. unfold u64r in *. lra. }
    pose proof (Rabs_triang (DR w) (DR (dsub x old))) as T2.
    destruct (dadd_rel w _ Fw Fd) as (F' & E'); [apply big_M; lra|]. split; [exact F'|].
    assert (U2 : u64r * Rabs (DR w + DR (dsub x old)) <= u64r * (54 * M)) by (apply Rmult_le_compat_l; [unfold u64r; lra|lra]).
    replace (DR (dadd w (dsub x old)) - (rsum rest + (DR x + 0))) with
      ((DR (dadd w (dsub x old)) - (DR w + DR (dsub x old))) + ((DR (dsub x old) - (DR x - DR old)) + (DR w - (DR old + rsum rest)))) by ring.
    eapply Rle_trans; [apply Rabs_triang|]. pose proof (Rabs_triang (DR (dsub x old) - (DR x - DR old)) (DR w - (DR old + rsum rest))).
    unfold u64r in *. lra.
  Qed.
  Lemma window_err : forall ys xs w, samples_ok M (xs ++ ys) -> INR (length (xs ++ ys)) <= 2147483648 ->
    dfin w = true -> Rabs (DR w - rsum (lastn 50 xs)) <= INR (length xs) * (/ 140737488355328 * M) ->
    dfin (wsum_of xs ys w) = true /\
    Rabs (DR (wsum_of xs ys w) - rsum (lastn 50 (xs ++ ys))) <= INR (length (xs ++ ys)) * (/ 140737488355328 * M).
  Proof.
    induction ys as [|y ys IH]; intros xs w H L Fw E; cbn [wsum_of].
    - rewrite app_nil_r. auto.
    - assert (H' := H). unfold samples_ok in H'. rewrite Forall_app in H'. destruct H' as (Hx & Hy). apply Forall_inv in Hy. destruct Hy as (Fy & By).
      assert (L' : INR (length xs) <= 2147483648) by (eapply Rle_trans; [|exact L]; apply le_INR; rewrite app_length; lia).
      destruct (window_step xs w y Hx Fy By L' Fw E) as (F' & E').
      replace (xs ++ y :: ys) with ((xs ++ [y]) ++ ys) in * by (rewrite <- app_assoc; reflexivity). apply IH; auto.
      rewrite app_length. cbn [length]. rewrite Nat.add_1_r, S_INR. exact E'.
  Qed.
End bounds.

(** ** Smallest and largest sample *)
Lemma dmax_R : dfin dbl_max = true /\ DR dbl_max = bpow radix2 1024 - bpow radix2 971.
Proof.
  split; [vm_compute; reflexivity|].
  assert (H : match dbl_max with Binary.B754_finite _ _ s m e _ => (s, Zpos m, e) = (false, 2 ^ 53 - 1, 971)%Z | _ => False end) by (vm_compute; reflexivity).
  destruct dbl_max as [| | |s m e p]; try contradiction. injection H as -> Hm ->.
  unfold DR, Binary.B2R, F2R. cbn [SpecFloat.cond_Zopp Fnum Fexp].
  replace (Z.pos m) with (2 ^ 53 - 1)%Z by (subst m; reflexivity). rewrite minus_IZR.
  change (IZR (2 ^ 53)) with (bpow radix2 53). rewrite Rmult_minus_distr_r, <- bpow_plus, Rmult_1_l. reflexivity.
Qed.
Lemma dmin_R : dfin dbl_min = true /\ DR dbl_min = bpow radix2 (-1022).
Proof.
  split; [vm_compute; reflexivity|].
  assert (H : match dbl_min with Binary.B754_finite _ _ s m e _ => (s, Zpos m, e) = (false, 2 ^ 52, -1074)%Z | _ => False end) by (vm_compute; reflexivity).
  destruct dbl_min as [| | |s m e p]; try contradiction. injection H as -> Hm ->.
  unfold DR, Binary.B2R, F2R. cbn [SpecFloat.cond_Zopp Fnum Fexp]. replace (Z.pos m) with (2 ^ 52)%Z by (subst m; reflexivity).
  change (IZR (2 ^ 52)) with (bpow radix2 52). rewrite <- bpow_plus. reflexivity.
Qed.
Lemma dfin_le_max : forall x, dfin x = true -> DR x <= DR dbl_max.
Proof.
  intros x F. rewrite (proj2 dmax_R). pose proof (Binary.abs_B2R_le_emax_minus_prec 53 1024 ltac:(reflexivity) x) as H.
  apply Rabs_le_inv in H. apply H.
Qed.
Lemma fold_min : forall xs m0, dfin m0 = true -> Forall (fun x => dfin x = true) xs ->
  let m := fold_left (fun m x => if dlt x m then x else m) xs m0 in
  dfin m = true /\ (m = m0 \/ In m xs) /\ DR m <= DR m0 /\ Forall (fun x => DR m <= DR x) xs.
Proof.
  induction xs as [|x xs IH]; intros m0 F0 H; cbn [fold_left].
  - repeat split; auto. apply Rle_refl.
  - apply Forall_cons_iff in H. destruct H as (Fx & H). set (m1 := if dlt x m0 then x else m0).
    assert (A : dfin m1 = true /\ (m1 = m0 \/ m1 = x) /\ DR m1 <= DR m0 /\ DR m1 <= DR x).
    { unfold m1. destruct (dlt x m0) eqn:E.
      - apply dlt_R in E; auto. repeat split; auto; lra.
      - repeat split; auto; try lra. destruct (Rle_or_lt (DR m0) (DR x)) as [C|C]; [exact C|]. apply dlt_R in C; auto. congruence. }
    destruct A as (F1 & O1 & L1 & L1'). destruct (IH m1 F1 H) as (F & O & L & A). fold m1. split; [exact F|]. split.
    + destruct O as [-> | O]; [|right; right; exact O]. destruct O1 as [-> | ->]; [left; reflexivity|right; left; reflexivity].
    + split; [lra|]. constructor; [lra|exact A].
Qed.
Lemma fold_max : forall xs m0, dfin m0 = true -> Forall (fun x => dfin x = true) xs ->
  let m := fold_left (fun m x => if dlt m x then x else m) xs m0 in
  dfin m = true /\ (m = m0 \/ In m xs) /\ DR m0 <= DR m /\ Forall (fun x => DR x <= DR m) xs.
Proof.
  induction xs as [|x xs IH]; intros m0 F0 H; cbn [fold_left].
  - repeat split; auto. apply Rle_refl.
  - apply Forall_cons_iff in H. destruct H as (Fx & H). set (m1 := if dlt m0 x then x else m0).
    assert (A : dfin m1 = true /\ (m1 = m0 \/ m1 = x) /\ DR m0 <= DR m1 /\ DR x <= DR m1).
    { unfold m1. destruct (dlt m0 x) eqn:E.
      - apply dlt_R in E; auto. repeat split; auto; lra.
      - repeat split; auto; try lra. destruct (Rle_or_lt (DR x) (DR m0)) as [C|C]; [exact C|]. apply dlt_R in C; auto. congruence. }
    destruct A as (F1 & O1 & L1 & L1'). destruct (IH m1 F1 H) as (F & O & L & A). fold m1. split; [exact F|]. split.
    + destruct O as [-> | O]; [|right; right; exact O]. destruct O1 as [-> | ->]; [left; reflexivity|right; left; reflexivity].
    + split; [lra|]. constructor; [lra|exact A].
Qed.

(** ** The registry *)
Close Scope R_scope.
Record tinv (st : timing) : Prop := MkTinv {
  ti_range : forall t h, tag_find t (tm_tags st) = Some h -> (h < length (tm_timers st))%nat;
  ti_inj : forall t t' h, tag_find t (tm_tags st) = Some h -> tag_find t' (tm_tags st) = Some h -> t = t' }.
(** what a returned handle means in a later state *)
Definition handle_of (st : timing) (t : string) (old : list nat) : nat -> Prop :=
  fun h => match tag_find t (tm_tags st) with Some h' => h = h' | None => ~ In h old end.
(** handles given out are below the number of timers *)
Lemma get_handle_len : forall st t st' h, get_handle st t = (st', h) -> tinv st ->
  tinv st' /\ (h < length (tm_timers st'))%nat /\ (length (tm_timers st) <= length (tm_timers st'))%nat /\
  tag_find t (tm_tags st') = Some h /\
  (forall t', t' <> t -> tag_find t' (tm_tags st') = tag_find t' (tm_tags st)) /\
  (tag_find t (tm_tags st) = None -> h = length (tm_timers st)) /\
  (forall h0, tag_find t (tm_tags st) = Some h0 -> h = h0).
Proof.
  intros st t st' h E [R I]. unfold get_handle in E. destruct (tag_find t (tm_tags st)) as [h0|] eqn:F; injection E as <- <-.
  - repeat split; auto; try discriminate; try congruence. eapply R, F.
  - cbn [tm_tags tm_timers tag_find]. rewrite app_length. cbn [length]. rewrite String.eqb_refl. repeat split; try lia; try congruence.
    + intros t' h'. cbn [tm_tags tm_timers tag_find]. rewrite app_length. cbn [length]. destruct (String.eqb_spec t' t) as [->|N].
      * intros [= <-]. lia.
      * intros H. specialize (R _ _ H). lia.
    + intros t1 t2 h'. cbn [tm_tags tag_find]. destruct (String.eqb_spec t1 t) as [->|N1]; destruct (String.eqb_spec t2 t) as [->|N2]; auto.
      * intros [= <-] H. specialize (R _ _ H). lia.
      * intros H [= <-]. specialize (R _ _ H). lia.
      * intros H1 H2. eapply I; eassumption.
    + intros t' N. destruct (String.eqb_spec t' t); congruence.
Qed.
(** the calls of a history from a state: every handle it returns is either the one
    the tag has now (while no reset happened) or new *)
Lemma run_handles : forall cs st st' outs, tinv st -> timing_run st cs = Ok (st', outs) ->
  (forall i t h, nth_error cs i = Some (CHandle t) -> nth_error outs i = Some (Some h) ->
     (resets_before i cs = 0%nat -> forall h0, tag_find t (tm_tags st) = Some h0 -> h = h0) /\
     ((resets_before i cs <> 0%nat \/ tag_find t (tm_tags st) = None) -> (length (tm_timers st) <= h)%nat)) /\
  (forall i j t t' h h', nth_error cs i = Some (CHandle t) -> nth_error outs i = Some (Some h) ->
     nth_error cs j = Some (CHandle t') -> nth_error outs j = Some (Some h') ->
     h = h' <-> (t = t' /\ resets_before i cs = resets_before j cs)).
Proof.
  induction cs as [|c cs IH]; intros st st' outs TI E.
  - split; intros [|i]; discriminate.
  - cbn [timing_run] in E. destruct (timing_step st c) as [[s1 o]| |] eqn:E1; try discriminate. cbn [rbind fst snd] in E.
    destruct (timing_run s1 cs) as [[s2 os]| |] eqn:E2; try discriminate. cbn [rbind fst snd] in E. injection E as <- <-.
    destruct c as [t0|h0 x|]; cbn [timing_step] in E1.
    + destruct (get_handle st t0) as (s1', h0) eqn:G. injection E1 as <- <-.
      destruct (get_handle_len _ _ _ _ G TI) as (TI1 & R1 & L1 & F1 & O1 & N1 & S1).
      destruct (IH _ _ _ TI1 E2) as (A & B).
      assert (RB : forall i, resets_before (S i) (CHandle t0 :: cs) = resets_before i cs) by reflexivity.
      assert (FIRST : forall i t h, nth_error cs i = Some (CHandle t) -> nth_error os i = Some (Some h) ->
        h0 = h <-> (t0 = t /\ 0%nat = resets_before i cs)).
      { intros i t h Hc Ho. destruct (A i t h Hc Ho) as (A1 & A2). split.
        - intros <-. destruct (resets_before i cs) eqn:RR; [|exfalso; pose proof (A2 (or_introl (Nat.neq_succ_0 _))); lia].
          split; [|reflexivity]. destruct (tag_find t (tm_tags s1')) as [h1|] eqn:FT.
          + rewrite (A1 eq_refl h1 eq_refl) in F1. apply (ti_inj _ TI1 t0 t h1); auto.
          + specialize (A2 (or_intror eq_refl)). lia.
        - intros (-> & RR). symmetry. apply A1; auto. }
      split.
      * intros [|i] t h Hc Ho; cbn [nth_error] in Hc, Ho.
        -- injection Hc as <-. injection Ho as <-. split.
           ++ intros _ h1 Q. apply S1, Q.
           ++ intros [Q|Q]; [elim Q; reflexivity|]. rewrite (N1 Q). lia.
        -- rewrite RB. destruct (A i t h Hc Ho) as (A1 & A2). split.
           ++ intros Q h1 Q1. apply A1; [exact Q|]. destruct (String.eqb_spec t t0) as [->|NE]; [rewrite F1; f_equal; apply S1, Q1|rewrite O1 by exact NE; exact Q1].
           ++ intros [Q|Q]; [specialize (A2 (or_introl Q)); lia|].
              destruct (String.eqb_spec t t0) as [->|NE].
              ** destruct (resets_before i cs) eqn:RR; [|pose proof (A2 (or_introl (Nat.neq_succ_0 _))); lia].
                 rewrite (A1 eq_refl _ F1), (N1 Q). lia.
              ** rewrite <- (O1 t NE) in Q. specialize (A2 (or_intror Q)). lia.
      * intros [|i] [|j] t t' h h' Hc Ho Hc' Ho'; cbn [nth_error] in Hc, Ho, Hc', Ho'.
        -- injection Hc as <-. injection Ho as <-. injection Hc' as <-. injection Ho' as <-. tauto.
        -- injection Hc as <-. injection Ho as <-. rewrite RB. apply (FIRST j t' h' Hc' Ho').
        -- injection Hc' as <-. injection Ho' as <-. rewrite RB. pose proof (FIRST i t h Hc Ho) as Q. split.
           ++ intros Q1. symmetry in Q1. apply Q in Q1. destruct Q1. split; [congruence|]. symmetry. assumption.
           ++ intros (Q1 & Q2). symmetry. apply Q. split; [congruence|]. symmetry. exact Q2.
        -- rewrite !RB. eapply B; eassumption.
    + destruct (add_time st h0 x) as [s1'| |] eqn:G; try discriminate. cbn [rbind] in E1. injection E1 as <- <-.
      unfold add_time in G. destruct (nth_error (tm_timers st) h0) as [a|]; [|discriminate]. cbn [of_opt rbind] in G.
      destruct (acc_add a x) as [a'| |]; try discriminate. cbn [rbind] in G. injection G as <-.
      assert (TI1 : tinv (MkTiming (tm_tags st) (set_th h0 a' (tm_timers st)))).
      { destruct TI as [R I]. constructor; cbn [tm_tags tm_timers]; [intros; rewrite set_th_length; eapply R; eassumption|exact I]. }
      destruct (IH _ _ _ TI1 E2) as (A & B). cbn [tm_tags tm_timers] in A. rewrite set_th_length in A. split.
      * intros [|i] t h Hc Ho; [discriminate|]. apply (A i t h Hc Ho).
      * intros [|i] [|j] t t' h h' Hc Ho Hc' Ho'; try discriminate. apply (B i j t t' h h' Hc Ho Hc' Ho').
    + injection E1 as <- <-.
      assert (TI1 : tinv (timing_reset st)) by (constructor; discriminate).
      destruct (IH _ _ _ TI1 E2) as (A & B). cbn [timing_reset tm_tags tm_timers tag_find] in A.
      assert (RB : forall i, resets_before (S i) (CReset :: cs) = S (resets_before i cs)) by reflexivity. split.
      * intros [|i] t h Hc Ho; [discriminate|]. rewrite RB. split; [discriminate|]. intros _. apply (A i t h Hc Ho). auto.
      * intros [|i] [|j] t t' h h' Hc Ho Hc' Ho'; try discriminate. rewrite !RB. rewrite (B i j t t' h h' Hc Ho Hc' Ho'). intuition congruence.
Qed.
(** a history as an iteration over states *)
Lemma run_samples : forall cs st st' outs h a0, timing_run st cs = Ok (st', outs) ->
  nth_error (tm_timers st) h = Some a0 ->
  exists a, nth_error (tm_timers st') h = Some a /\ acc_adds a0 (samples_for h cs) = Ok a.
Proof.
  induction cs as [|c cs IH]; intros st st' outs h a0 E H0.
  - injection E as <- <-. exists a0. auto.
  - cbn [timing_run] in E. destruct (timing_step st c) as [[s1 o]| |] eqn:E1; try discriminate. cbn [rbind fst snd] in E.
    destruct (timing_run s1 cs) as [[s2 os]| |] eqn:E2; try discriminate. cbn [rbind fst snd] in E. injection E as <- <-.
    destruct c as [t0|h0 x|]; cbn [timing_step] in E1.
    + destruct (get_handle st t0) as (s1', h0) eqn:G. injection E1 as <- <-. apply (IH _ _ _ h a0 E2).
      unfold get_handle in G. destruct (tag_find _ _); injection G as <- <-; [exact H0|]. cbn [tm_timers].
      rewrite nth_error_app1; [exact H0|]. apply nth_error_Some. congruence.
    + destruct (add_time st h0 x) as [s1'| |] eqn:G; try discriminate. cbn [rbind] in E1. injection E1 as <- <-.
      unfold add_time in G. destruct (nth_error (tm_timers st) h0) as [a|] eqn:Ha; [|discriminate]. cbn [of_opt rbind] in G.
      destruct (acc_add a x) as [a'| |] eqn:Ea; try discriminate. cbn [rbind] in G. injection G as <-.
      cbn [samples_for flat_map]. destruct (Nat.eqb_spec h0 h) as [->|N].
      * assert (a = a0) by congruence. subst a. destruct (IH _ _ _ h a' E2) as (b & B1 & B2).
        { cbn [tm_timers]. eapply set_th_same, Ha. }
        exists b. split; [exact B1|]. cbn [app acc_adds]. rewrite Ea. exact B2.
      * apply (IH _ _ _ h a0 E2). cbn [tm_timers]. rewrite set_th_other by congruence. exact H0.
    + injection E1 as <- <-. apply (IH _ _ _ h a0 E2). exact H0.
Qed.
(** from the start: a handle's timer holds what was sent to it *)
Lemma run_all : forall cs st st' outs h a, timing_run st cs = Ok (st', outs) -> nth_error (tm_timers st) h = None ->
  nth_error (tm_timers st') h = Some a -> acc_adds acc_new (samples_for h cs) = Ok a.
Proof.
  induction cs as [|c cs IH]; intros st st' outs h a E H0 H1.
  - injection E as <- <-. congruence.
  - cbn [timing_run] in E. destruct (timing_step st c) as [[s1 o]| |] eqn:E1; try discriminate. cbn [rbind fst snd] in E.
    destruct (timing_run s1 cs) as [[s2 os]| |] eqn:E2; try discriminate. cbn [rbind fst snd] in E. injection E as <- <-.
    destruct c as [t0|h0 x|]; cbn [timing_step] in E1.
    + destruct (get_handle st t0) as (s1', h0) eqn:G. injection E1 as <- <-. change (samples_for h (CHandle t0 :: cs)) with (samples_for h cs).
      destruct (nth_error (tm_timers s1') h) as [b|] eqn:B; [|eapply IH; eassumption].
      destruct (run_samples _ _ _ _ _ _ E2 B) as (a' & Q1 & Q2). assert (a' = a) by congruence. subst a'.
      unfold get_handle in G. destruct (tag_find _ _); injection G as <- <-; [congruence|]. cbn [tm_timers] in B.
      apply nth_error_None in H0. rewrite nth_error_app2 in B by exact H0. destruct (h - length (tm_timers st))%nat as [|[|]]; cbn in B; congruence.
    + destruct (add_time st h0 x) as [s1'| |] eqn:G; try discriminate. cbn [rbind] in E1. injection E1 as <- <-.
      unfold add_time in G. destruct (nth_error (tm_timers st) h0) as [b|] eqn:Ha; [|discriminate]. cbn [of_opt rbind] in G.
      destruct (acc_add b x) as [b'| |] eqn:Ea; try discriminate. cbn [rbind] in G. injection G as <-.
      cbn [samples_for flat_map]. destruct (Nat.eqb_spec h0 h) as [->|N]; [congruence|]. cbn [app]. apply (IH _ _ _ h a E2); [|exact H1].
      cbn [tm_timers]. rewrite set_th_other by congruence. exact H0.
    + injection E1 as <- <-. apply (IH _ _ _ h a E2); [exact H0|exact H1].
Qed.

(** ** Tags of handles *)
Definition tags_ok (st : timing) : Prop :=
  NoDup (map snd (tm_tags st)) /\ forall t h, In (t, h) (tm_tags st) -> (h < length (tm_timers st))%nat.
Lemma tag_of_in : forall m t h, NoDup (map snd m) -> In (t, h) m -> tag_of h m = t.
Proof.
  induction m as [|(t0, h0) m IH]; intros t h N H; [destruct H|]. cbn [map snd] in N. apply NoDup_cons_iff in N. destruct N as (N1 & N2).
  cbn [tag_of]. destruct H as [H|H].
  - injection H as -> ->. rewrite Nat.eqb_refl. reflexivity.
  - destruct (Nat.eqb_spec h0 h) as [->|NE]; [|apply IH; auto]. elim N1. apply (in_map snd) in H. exact H.
Qed.
Lemma tag_find_in : forall m t h, tag_find t m = Some h -> In (t, h) m.
Proof.
  induction m as [|(t0, h0) m IH]; intros t h H; [discriminate|]. cbn [tag_find] in H. destruct (String.eqb_spec t t0) as [->|NE].
  - injection H as ->. now left.
  - right. auto.
Qed.
Lemma step_tags : forall st c st' o, tags_ok st -> timing_step st c = Ok (st', o) -> tags_ok st' /\
  (c <> CReset -> forall x, In x (tm_tags st) -> In x (tm_tags st')) /\
  (forall t, c = CHandle t -> exists h, o = Some h /\ In (t, h) (tm_tags st')).
Proof.
  intros st c st' o (N & R) E. destruct c as [t0|h0 x|]; cbn [timing_step] in E.
  - destruct (get_handle st t0) as (s1, h0) eqn:G. injection E as <- <-. unfold get_handle in G. destruct (tag_find t0 (tm_tags st)) as [h1|] eqn:F; injection G as <- <-.
    + split; [split; assumption|]. split; [auto|]. intros t [= <-]. exists h1. split; [reflexivity|]. apply tag_find_in, F.
    + split; [split|split].
      * cbn [tm_tags map snd]. constructor; [|exact N]. intros I. apply in_map_iff in I. destruct I as ((t, h) & Q & I). cbn [snd] in Q. subst h. specialize (R _ _ I). lia.
      * intros t h I. cbn [tm_tags tm_timers] in *. rewrite app_length. cbn [length]. destruct I as [I|I]; [injection I as _ <-; lia|specialize (R _ _ I); lia].
      * intros _ x I. right. exact I.
      * intros t [= <-]. eexists. split; [reflexivity|]. left. reflexivity.
  - destruct (add_time st h0 x) as [s1'| |] eqn:G; try discriminate. cbn [rbind] in E. injection E as <- <-.
    unfold add_time in G. destruct (nth_error (tm_timers st) h0) as [a|]; [|discriminate]. cbn [of_opt rbind] in G.
    destruct (acc_add a x) as [a'| |]; try discriminate. cbn [rbind] in G. injection G as <-. split; [split|split].
    + exact N.
    + intros t h I. cbn [tm_tags tm_timers] in *. rewrite set_th_length. eapply R, I.
    + intros _ y I. exact I.
    + discriminate.
  - injection E as <- <-. split; [split; [constructor|intros t h []]|]. split; [congruence|discriminate].
Qed.
Lemma run_tags : forall cs st st' outs, tags_ok st -> timing_run st cs = Ok (st', outs) -> tags_ok st' /\
  (resets_before (length cs) cs = 0%nat -> forall x, In x (tm_tags st) -> In x (tm_tags st')) /\
  forall i t h, nth_error cs i = Some (CHandle t) -> nth_error outs i = Some (Some h) ->
    resets_before i cs = resets_before (length cs) cs -> In (t, h) (tm_tags st').
Proof.
  induction cs as [|c cs IH]; intros st st' outs T E.
  - injection E as <- <-. split; [exact T|]. split; [auto|]. intros [|i]; discriminate.
  - cbn [timing_run] in E. destruct (timing_step st c) as [[s1 o]| |] eqn:E1; try discriminate. cbn [rbind fst snd] in E.
    destruct (timing_run s1 cs) as [[s2 os]| |] eqn:E2; try discriminate. cbn [rbind fst snd] in E. injection E as <- <-.
    destruct (step_tags _ _ _ _ T E1) as (T1 & K & H). destruct (IH _ _ _ T1 E2) as (T2 & K2 & H2). split; [exact T2|].
    assert (RB : forall i, resets_before (S i) (c :: cs) = ((if match c with CReset => true | _ => false end then 1 else 0) + resets_before i cs)%nat).
    { intros i. unfold resets_before. cbn [firstn filter]. destruct c; reflexivity. }
    cbn [length]. rewrite RB. split.
    + intros Z x I. apply K2; [lia|]. apply K; [|exact I]. intros ->. lia.
    + intros [|i] t h Hc Ho Hr; cbn [nth_error] in Hc, Ho.
      * injection Hc as ->. injection Ho as ->. destruct (H t eq_refl) as (h' & Q & I). injection Q as <-. apply K2; [|exact I].
        change (resets_before 0 (CHandle t :: cs)) with 0%nat in Hr. lia.
      * rewrite RB in Hr. apply (H2 i t h Hc Ho). lia.
Qed.
