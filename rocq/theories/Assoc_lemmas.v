(** Lemmas about [Assoc]. *)
From Coq Require Import ZArith List Bool Lia.
From Verif Require Import F32 Types Assoc.
Import ListNotations.

Lemma idx_eqb_spec : forall a b, reflect (a = b) (idx_eqb a b).
Proof.
  intros [a1 a2 a3] [b1 b2 b3]. unfold idx_eqb; cbn [vx vy vz].
  destruct (Z.eqb_spec a1 b1); destruct (Z.eqb_spec a2 b2); destruct (Z.eqb_spec a3 b3); constructor; congruence.
Qed.
Lemma idx_eqb_refl : forall a, idx_eqb a a = true.
Proof. intros a. destruct (idx_eqb_spec a a); congruence. Qed.
Lemma idx_eqb_neq : forall a b, a <> b -> idx_eqb a b = false.
Proof. intros a b H. destruct (idx_eqb_spec a b); congruence. Qed.
Lemma idx_eq_dec : forall a b : idx3, {a = b} + {a <> b}.
Proof. intros. destruct (idx_eqb_spec a b); auto. Qed.

Section L.
  Context {B : Type}.
  Implicit Types (m : amap B) (i j : idx3).

  Lemma alookup_aset : forall m i j b,
    alookup j (aset i b m) = if idx_eqb j i then Some b else alookup j m.
  Proof.
    induction m as [|[k c] m IH]; intros i j b; simpl.
    - reflexivity.
    - destruct (idx_eqb_spec i k) as [->|N]; simpl.
      + destruct (idx_eqb_spec j k); reflexivity.
      + rewrite IH. destruct (idx_eqb_spec j k) as [->|]; [|reflexivity].
        destruct (idx_eqb_spec k i); congruence.
  Qed.

  Lemma alookup_app : forall m m' j,
    alookup j (m ++ m') = match alookup j m with Some b => Some b | None => alookup j m' end.
  Proof.
    induction m as [|[k c] m IH]; intros; simpl; auto. destruct (idx_eqb j k); auto.
  Qed.

  Lemma alookup_ainsert : forall m i j b,
    alookup j (ainsert i b m) =
    match alookup j m with Some c => Some c | None => if idx_eqb j i then Some b else None end.
  Proof.
    intros. unfold ainsert. destruct (alookup i m) eqn:E.
    - destruct (alookup j m) eqn:E2; auto. destruct (idx_eqb_spec j i) as [->|]; auto. congruence.
    - rewrite alookup_app. destruct (alookup j m); auto.
  Qed.

  Lemma alookup_filter : forall (P : idx3 -> bool) m j,
    alookup j (filter (fun kv => P (fst kv)) m) = if P j then alookup j m else None.
  Proof.
    induction m as [|[k c] m IH]; intros j; simpl.
    - destruct (P j); reflexivity.
    - destruct (P k) eqn:E; simpl; rewrite IH; destruct (idx_eqb_spec j k) as [->|]; auto; rewrite E; auto.
  Qed.

  Lemma alookup_aerase : forall m i j,
    alookup j (aerase i m) = if idx_eqb j i then None else alookup j m.
  Proof.
    intros. unfold aerase. rewrite (alookup_filter (fun k => negb (idx_eqb i k))).
    destruct (idx_eqb_spec i j) as [->|N]; simpl.
    - rewrite idx_eqb_refl. reflexivity.
    - rewrite idx_eqb_neq by congruence. reflexivity.
  Qed.

  Lemma alookup_In : forall m i b, alookup i m = Some b -> In (i, b) m.
  Proof.
    induction m as [|[k c] m IH]; intros i b H; simpl in *; [discriminate|].
    destruct (idx_eqb_spec i k) as [->|]; [injection H as <-|]; auto.
  Qed.
  Lemma alookup_None : forall m i, alookup i m = None <-> ~ In i (akeys m).
  Proof.
    induction m as [|[k c] m IH]; intros i; simpl; [tauto|].
    destruct (idx_eqb_spec i k) as [->|]; [split; [discriminate|tauto]|].
    rewrite IH. split; intuition congruence.
  Qed.
  Lemma alookup_NoDup : forall m i b, NoDup (akeys m) -> In (i, b) m -> alookup i m = Some b.
  Proof.
    induction m as [|[k c] m IH]; intros i b ND HI; simpl in *; [tauto|].
    inversion ND as [|? ? N ND']; subst. destruct HI as [E|HI].
    - injection E as -> ->. rewrite idx_eqb_refl. reflexivity.
    - destruct (idx_eqb_spec i k) as [->|]; [|auto].
      exfalso. apply N. apply (in_map fst) in HI. exact HI.
  Qed.
  Lemma akeys_In : forall m i, In i (akeys m) <-> exists b, alookup i m = Some b.
  Proof.
    intros. destruct (alookup i m) eqn:E; split; intros H; eauto.
    - apply alookup_In in E. apply (in_map fst) in E. exact E.
    - apply alookup_None in E. contradiction.
    - destruct H; discriminate.
  Qed.

  Lemma akeys_aset : forall m i b, akeys (aset i b m) = if match alookup i m with Some _ => true | None => false end
     then akeys m else akeys m ++ [i].
  Proof.
    induction m as [|[k c] m IH]; intros; simpl; auto.
    destruct (idx_eqb_spec i k) as [->|]; simpl; auto.
    unfold akeys in *. rewrite IH. destruct (alookup i m); auto.
  Qed.
  Lemma NoDup_snoc : forall A (l : list A) x, NoDup l -> ~ In x l -> NoDup (l ++ [x]).
  Proof.
    intros. apply NoDup_Add with (a := x) (l := l).
    - replace l with (l ++ []) at 1 by apply app_nil_r. apply Add_app.
    - auto.
  Qed.
  Lemma NoDup_aset : forall m i b, NoDup (akeys m) -> NoDup (akeys (aset i b m)).
  Proof.
    intros. rewrite akeys_aset. destruct (alookup i m) eqn:E; auto.
    apply NoDup_snoc; auto. apply alookup_None; auto.
  Qed.
  Lemma NoDup_ainsert : forall m i b, NoDup (akeys m) -> NoDup (akeys (ainsert i b m)).
  Proof.
    intros. unfold ainsert. destruct (alookup i m) eqn:E; auto.
    unfold akeys. rewrite map_app. apply NoDup_snoc; auto. apply alookup_None; auto.
  Qed.
  Lemma NoDup_map_filter : forall A C (f : A -> C) P l, NoDup (map f l) -> NoDup (map f (filter P l)).
  Proof.
    induction l as [|a l IH]; intros H; simpl in *; auto. inversion H; subst.
    destruct (P a); simpl; auto. constructor; auto.
    intros HI. apply in_map_iff in HI. destruct HI as (x & E & HI). apply filter_In in HI.
    match goal with H : ~ In _ _ |- _ => apply H end. rewrite <- E. apply in_map; tauto.
  Qed.
  Lemma NoDup_aerase : forall m i, NoDup (akeys m) -> NoDup (akeys (aerase i m)).
  Proof. intros. apply NoDup_map_filter; auto. Qed.
End L.
