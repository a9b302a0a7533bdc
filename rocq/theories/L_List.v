(** Facts about Z-indexed lists. *)
Require Import Verif.Base.
From Coq Require Import ZifyBool ZifyNat.

Lemma zlen_pos {A} (l : list A) : 0 <= zlen l.
Proof. unfold zlen. lia. Qed.
Lemma zlen_nil {A} : zlen (@nil A) = 0.
Proof. reflexivity. Qed.
Lemma zlen_cons {A} (a : A) l : zlen (a :: l) = 1 + zlen l.
Proof. unfold zlen. cbn [length]. lia. Qed.
Lemma zlen_app {A} (l m : list A) : zlen (l ++ m) = zlen l + zlen m.
Proof. unfold zlen. rewrite app_length. lia. Qed.
Lemma zlen_repeat {A} (a : A) n : zlen (repeat a n) = Z.of_nat n.
Proof. unfold zlen. now rewrite repeat_length. Qed.
Lemma zlen_ztake {A} k (l : list A) : 0 <= k <= zlen l -> zlen (ztake k l) = k.
Proof. unfold zlen, ztake. intros. rewrite firstn_length. lia. Qed.
Lemma zlen_zdrop {A} k (l : list A) : 0 <= k <= zlen l -> zlen (zdrop k l) = zlen l - k.
Proof. unfold zlen, zdrop. intros. rewrite skipn_length. lia. Qed.
Lemma zlen_zero {A} (l : list A) : zlen l = 0 -> l = [].
Proof. destruct l; [reflexivity|]. rewrite zlen_cons. pose proof (zlen_pos l). lia. Qed.
Lemma ztake_zdrop {A} k (l : list A) : ztake k l ++ zdrop k l = l.
Proof. apply firstn_skipn. Qed.
Lemma ztake_app {A} k (l m : list A) : zlen l = k -> ztake k (l ++ m) = l.
Proof.
  unfold zlen, ztake. intros <-. rewrite Nat2Z.id, firstn_app, Nat.sub_diag, firstn_all. cbn. apply app_nil_r.
Qed.
Lemma zdrop_app {A} k (l m : list A) : zlen l = k -> zdrop k (l ++ m) = m.
Proof.
  unfold zlen, zdrop. intros <-. rewrite Nat2Z.id, skipn_app, Nat.sub_diag, skipn_all. reflexivity.
Qed.
Lemma ztake_app2 {A} k (l m : list A) : zlen l <= k -> ztake k (l ++ m) = l ++ ztake (k - zlen l) m.
Proof.
  unfold zlen, ztake. intros. rewrite firstn_app.
  rewrite firstn_all2 by lia. repeat f_equal. lia.
Qed.
Lemma zdrop_app2 {A} k (l m : list A) : zlen l <= k -> zdrop k (l ++ m) = zdrop (k - zlen l) m.
Proof.
  unfold zlen, zdrop. intros. rewrite skipn_app, skipn_all2 by lia. cbn. f_equal. lia.
Qed.
Lemma ztake_app1 {A} k (l m : list A) : k <= zlen l -> ztake k (l ++ m) = ztake k l.
Proof.
  unfold zlen, ztake. intros. rewrite firstn_app.
  replace (Z.to_nat k - length l)%nat with O by lia. cbn. apply app_nil_r.
Qed.
Lemma zdrop_app1 {A} k (l m : list A) : k <= zlen l -> zdrop k (l ++ m) = zdrop k l ++ m.
Proof.
  unfold zlen, zdrop. intros. rewrite skipn_app.
  replace (Z.to_nat k - length l)%nat with O by lia. reflexivity.
Qed.
Lemma ztake_all {A} k (l : list A) : zlen l <= k -> ztake k l = l.
Proof. unfold zlen, ztake. intros. apply firstn_all2. lia. Qed.
Lemma zdrop_all {A} k (l : list A) : zlen l <= k -> zdrop k l = [].
Proof. unfold zlen, zdrop. intros. apply skipn_all2. lia. Qed.
Lemma ztake_0 {A} k (l : list A) : k <= 0 -> ztake k l = [].
Proof. unfold ztake. intros. replace (Z.to_nat k) with O by lia. reflexivity. Qed.
Lemma zdrop_0 {A} k (l : list A) : k <= 0 -> zdrop k l = l.
Proof. unfold zdrop. intros. replace (Z.to_nat k) with O by lia. reflexivity. Qed.
Lemma zdrop_zdrop {A} j k (l : list A) : 0 <= j -> 0 <= k -> zdrop j (zdrop k l) = zdrop (k + j) l.
Proof.
  intros. unfold zdrop. replace (Z.to_nat (k + j)) with (Z.to_nat k + Z.to_nat j)%nat by lia.
  generalize (Z.to_nat k). intros n. revert l. induction n as [|n IH]; intros l; [reflexivity|].
  destruct l; cbn; [apply skipn_nil|apply IH].
Qed.
Lemma ztake_ztake {A} j k (l : list A) : j <= k -> ztake j (ztake k l) = ztake j l.
Proof. intros. unfold ztake. rewrite firstn_firstn. f_equal. lia. Qed.
Lemma split_at {A} k (l : list A) : 0 <= k <= zlen l ->
  exists a b, l = a ++ b /\ zlen a = k.
Proof.
  intros. exists (ztake k l), (zdrop k l). split; [now rewrite ztake_zdrop|now apply zlen_ztake].
Qed.
Lemma app_eq_split {A} (a b c d : list A) : a ++ b = c ++ d -> zlen a <= zlen c ->
  exists m, c = a ++ m /\ b = m ++ d.
Proof.
  revert c. induction a as [|x a IH]; intros c H L.
  - exists c. now cbn in H.
  - destruct c as [|y c]; [rewrite zlen_cons, zlen_nil in L; pose proof (zlen_pos a); lia|].
    cbn in H. injection H as -> H. rewrite !zlen_cons in L.
    destruct (IH c H) as (m & -> & ->); [lia|]. now exists m.
Qed.
Lemma app_eq_len {A} (a b c d : list A) : a ++ b = c ++ d -> zlen a = zlen c -> a = c /\ b = d.
Proof.
  intros H L. destruct (app_eq_split a b c d H) as (m & -> & ->); [lia|].
  rewrite zlen_app in L. assert (m = []) as -> by (apply zlen_zero; lia).
  now rewrite app_nil_r.
Qed.
Lemma znth_app1 {A} (l m : list A) i : i < zlen l -> znth (l ++ m) i = znth l i.
Proof.
  unfold znth, zlen. intros. destruct (i <? 0) eqn:E; [reflexivity|]. apply nth_error_app1. lia.
Qed.
Lemma znth_app2 {A} (l m : list A) i : zlen l <= i -> znth (l ++ m) i = znth m (i - zlen l).
Proof.
  unfold znth, zlen. intros.
  destruct (i <? 0) eqn:E; destruct (i - Z.of_nat (length l) <? 0) eqn:E2; try lia.
  rewrite nth_error_app2 by lia. f_equal. lia.
Qed.
Lemma repeat_split {A} (a : A) n m : repeat a (n + m) = repeat a n ++ repeat a m.
Proof. apply repeat_app. Qed.
Lemma Forall_app' {A} (P : A -> Prop) l m : Forall P (l ++ m) <-> Forall P l /\ Forall P m.
Proof. apply Forall_app. Qed.
Lemma Forall_ztake {A} (P : A -> Prop) k l : Forall P l -> Forall P (ztake k l).
Proof. intros H. rewrite <- (ztake_zdrop k l) in H. now apply Forall_app in H. Qed.
Lemma Forall_zdrop {A} (P : A -> Prop) k l : Forall P l -> Forall P (zdrop k l).
Proof. intros H. rewrite <- (ztake_zdrop k l) in H. now apply Forall_app in H. Qed.
