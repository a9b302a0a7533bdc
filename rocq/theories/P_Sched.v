(** C49, C50: the concurrent code. *)
From Coq Require Import ZifyBool ZifyNat Wellfounded.
Require Import Verif.Base Verif.L_List Verif.M_Reader Verif.M_Rect Verif.M_Image Verif.M_Groups Verif.M_Monad Verif.M_Decode Verif.M_Sched.

Lemma upd_length {A} (l : list A) : forall i v, length (upd l i v) = length l.
Proof. induction l as [|a l IH]; intros [|i] v; cbn; auto. Qed.
Lemma upd_nth {A} (l : list A) : forall i v j, nth_error (upd l i v) j = if Nat.eqb i j then match nth_error l j with Some _ => Some v | None => None end else nth_error l j.
Proof. induction l as [|a l IH]; intros [|i] v [|j]; cbn; try reflexivity; try (now destruct (Nat.eqb i j)). apply IH. Qed.
Lemma upd_same {A} (l : list A) i v a : nth_error l i = Some a -> nth_error (upd l i v) i = Some v.
Proof. intros H. rewrite upd_nth, Nat.eqb_refl, H. reflexivity. Qed.
Lemma upd_cases {A} (l : list A) i v a j b : nth_error l i = Some a -> nth_error (upd l i v) j = Some b -> (j = i /\ b = v) \/ (j <> i /\ nth_error l j = Some b).
Proof.
  intros H. rewrite upd_nth. destruct (Nat.eqb i j) eqn:E.
  - apply Nat.eqb_eq in E as <-. rewrite H. intros [= <-]. now left.
  - apply Nat.eqb_neq in E. intros N. right. auto.
Qed.

(** ** C49 *)
Section Layers.
Variables (A : Type) (zero : A) (jobs : list (outcome (A * option err))).
Notation step := (lstep A jobs).
Notation reach := (lreach A zero jobs).
Definition critical (p : tpc) : Prop := match p with TLocked _ | TSet _ | TUnlock => True | _ => False end.
Definition waiting (p : tpc) : Z := match p with TDone => 0 | _ => 1 end.
Definition count (l : list tpc) : Z := fold_right (fun p n => waiting p + n) 0 l.
Lemma count_upd l : forall i v p, nth_error l i = Some p -> count (upd l i v) = count l - waiting p + waiting v.
Proof. induction l as [|a l IH]; intros [|i] v p; cbn; try discriminate; [intros [= ->]; lia|]. intros H. fold (count (upd l i v)). rewrite (IH _ _ _ H). fold (count l). lia. Qed.
Lemma count_pos l : 0 <= count l. Proof. induction l as [|p l IH]; [cbn; lia|]. cbn [count fold_right]. fold (count l). destruct p; cbn [waiting]; lia. Qed.
Lemma count_zero l : count l = 0 -> forall i p, nth_error l i = Some p -> p = TDone.
Proof.
  induction l as [|a l IH]; intros H [|i] p; cbn in *; try discriminate; fold (count l) in *; pose proof (count_pos l).
  - intros [= ->]. destruct p; cbn in H; try lia. reflexivity.
  - apply IH. destruct a; cbn in H; lia.
Qed.
(** the job of goroutine i has returned a layer and the error x *)
Definition gave (st : lstate A) (i : nat) (x : option err) : Prop := exists a, nth_error jobs i = Some (Ret (a, x)) /\ nth_error (lsLayers A st) i = Some a.
Definition pc_ok (st : lstate A) (i : nat) (p : tpc) : Prop :=
  match p with
  | TNew | TRead => True
  | TStored x => gave st i x
  | TLocked x | TSet x => gave st i (Some x)
  | TUnlock | TLast | TDone => exists x, gave st i x /\ (x <> None -> lsErr A st <> None)
  end.
Record inv (st : lstate A) : Prop := {
  i_pcs : length (lsPcs A st) = length jobs;
  i_layers : length (lsLayers A st) = length jobs;
  i_pc : forall i p, nth_error (lsPcs A st) i = Some p -> pc_ok st i p;
  i_new : forall i p, nth_error (lsPcs A st) i = Some p -> (p = TNew <-> match lsMain A st with MSpawn k => (k <= i)%nat | _ => False end);
  i_lock : lsLock A st = false -> forall i p, nth_error (lsPcs A st) i = Some p -> ~ critical p;
  i_held : lsLock A st = true -> exists i p, nth_error (lsPcs A st) i = Some p /\ critical p;
  i_excl : forall i j p q, nth_error (lsPcs A st) i = Some p -> nth_error (lsPcs A st) j = Some q -> critical p -> critical q -> i = j;
  i_wg : lsWg A st = count (lsPcs A st);
  i_err : forall e, lsErr A st = Some e -> exists i a, nth_error jobs i = Some (Ret (a, Some e));
  i_set : forall i e, nth_error (lsPcs A st) i = Some (TSet e) -> lsErr A st = None;
  i_main : match lsMain A st with MSpawn k => (k <= length jobs)%nat | MWait => True | MReturned => lsWg A st = 0 end
}.
Lemma inv_init : inv (ls_init A zero jobs).
Proof.
  unfold ls_init.
  assert (P : forall i p, nth_error (map (fun _ : outcome (A * option err) => TNew) jobs) i = Some p -> p = TNew).
  { intros i p H. apply nth_error_In, in_map_iff in H as (x & <- & _). reflexivity. }
  split; cbn [lsPcs lsLayers lsLock lsErr lsWg lsMain]; try (now rewrite map_length); try discriminate.
  - intros i p H. now rewrite (P i p H).
  - intros i p H. rewrite (P i p H). split; [lia|reflexivity].
  - intros _ i p H. rewrite (P i p H). intros [].
  - intros i j p q H _ C. rewrite (P i p H) in C. destruct C.
  - unfold zlen. clear P. induction jobs as [|j l IH]; [reflexivity|]. cbn [map length count fold_right waiting]. fold (count (map (fun _ : outcome (A * option err) => TNew) l)). rewrite <- IH. lia.
  - intros i e H. discriminate (P _ _ H).
  - lia.
Qed.

(** goroutine n moves from p to v *)
Lemma move pcs ls lk e wg m n p v ls' lk' e' wg' :
  let st := mkLS A pcs ls lk e wg m false in let st' := mkLS A (upd pcs n v) ls' lk' e' wg' m false in
  inv st -> nth_error pcs n = Some p -> p <> TNew -> v <> TNew ->
  length ls' = length ls -> (forall j, j <> n -> nth_error ls' j = nth_error ls j) ->
  pc_ok st' n v ->
  ((critical p <-> critical v) /\ lk' = lk) \/ (~ critical p /\ critical v /\ lk = false /\ lk' = true) \/ (critical p /\ ~ critical v /\ lk' = false) ->
  wg' = wg - waiting p + waiting v ->
  e' = e \/ (exists x, p = TSet x /\ e' = Some x) ->
  (forall x, v = TSet x -> e' = None) ->
  match m with MReturned => wg' = 0 | _ => True end ->
  inv st'.
Proof.
  intros st st' [IP IL IPC IN ILK IH IX IW IE IS IM] H PN VN LL LO PV LK WG ER VS MR.
  unfold st, st' in *. cbn [lsPcs lsLayers lsLock lsErr lsWg lsMain] in *.
  assert (EN : e <> None -> e' <> None) by (destruct ER as [-> | (x & _ & ->)]; [auto|discriminate]).
  assert (G : forall j x, j <> n -> gave (mkLS A pcs ls lk e wg m false) j x -> gave (mkLS A (upd pcs n v) ls' lk' e' wg' m false) j x).
  { intros j x J (a & G1 & G2). exists a. split; [exact G1|]. cbn [lsLayers] in *. now rewrite LO. }
  split; cbn [lsPcs lsLayers lsLock lsErr lsWg lsMain].
  - now rewrite upd_length.
  - now rewrite LL.
  - intros i q Q. destruct (upd_cases _ _ _ _ _ _ H Q) as [[-> ->] | [J Q']]; [exact PV|]. specialize (IPC _ _ Q').
    destruct q; cbn [pc_ok lsErr] in *; auto; destruct IPC as (x & G1 & G2); exists x; auto.
  - intros i q Q. destruct (upd_cases _ _ _ _ _ _ H Q) as [[-> ->] | [J Q']]; [|exact (IN _ _ Q')]. specialize (IN _ _ H). split; [contradiction|]. intros M. apply IN in M. contradiction.
  - intros L i q Q. destruct (upd_cases _ _ _ _ _ _ H Q) as [[-> ->] | [J Q']].
    + destruct LK as [[B E] | [(_ & _ & _ & E) | (_ & N & _)]]; [rewrite <- B; rewrite E in L; exact (ILK L _ _ H)|congruence|exact N].
    + destruct LK as [[B E] | [(_ & _ & _ & E) | (N & _ & _)]]; [rewrite E in L; exact (ILK L _ _ Q')|congruence|]. intros C. apply J. exact (IX _ _ _ _ Q' H C N).
  - intros L. destruct LK as [[B E] | [(_ & C & _) | (_ & _ & E)]]; [|exists n, v; split; [now apply (upd_same _ _ _ p)|exact C]|congruence].
    rewrite E in L. destruct (IH L) as (i & q & Q & C). destruct (Nat.eq_dec n i) as [<- | J].
    + rewrite H in Q. injection Q as <-. exists n, v. split; [now apply (upd_same _ _ _ p)|]. now apply B.
    + exists i, q. split; [|exact C]. rewrite upd_nth. apply Nat.eqb_neq in J. now rewrite J.
  - intros i j q r Q R CQ CR. destruct (upd_cases _ _ _ _ _ _ H Q) as [[-> ->] | [J Q']], (upd_cases _ _ _ _ _ _ H R) as [[-> ->] | [K R']]; [reflexivity| | |exact (IX _ _ _ _ Q' R' CQ CR)].
    + destruct LK as [[B _] | [(_ & _ & E & _) | (_ & N & _)]]; [apply B in CQ; exact (IX _ _ _ _ H R' CQ CR)| |contradiction]. destruct (ILK E _ _ R' CR).
    + destruct LK as [[B _] | [(_ & _ & E & _) | (_ & N & _)]]; [apply B in CR; exact (IX _ _ _ _ Q' H CQ CR)| |contradiction]. destruct (ILK E _ _ Q' CQ).
  - rewrite (count_upd _ _ _ _ H). lia.
  - intros x E. destruct ER as [-> | (y & -> & ->)]; [exact (IE _ E)|]. injection E as ->. destruct (IPC _ _ H) as (a & G1 & _). eauto.
  - intros i x Q. destruct (upd_cases _ _ _ _ _ _ H Q) as [[-> V] | [J Q']]; [exact (VS x (eq_sym V))|].
    destruct ER as [-> | (y & -> & ->)]; [exact (IS _ _ Q')|]. destruct J. exact (IX _ _ _ _ Q' H I I).
  - destruct m; auto. 
Qed.
Lemma step_inv a b : inv a -> step a b -> inv b.
Proof.
  intros IV S. inversion S; subst.
  - (* spawn *) destruct IV as [IP IL IPC IN ILK IH IX IW IE IS IM]. cbn [lsPcs lsLayers lsLock lsErr lsWg lsMain] in *.
    destruct (nth_error pcs k) as [p|] eqn:H0; [|apply nth_error_None in H0; lia].
    assert (p = TNew) as -> by (apply (IN _ _ H0); lia).
    assert (OTH : forall i q, nth_error (upd pcs k TRead) i = Some q -> (i = k /\ q = TRead) \/ (i <> k /\ nth_error pcs i = Some q)) by (intros i q Q; exact (upd_cases _ _ _ _ _ _ H0 Q)).
    split; cbn [lsPcs lsLayers lsLock lsErr lsWg lsMain]; auto.
    + now rewrite upd_length.
    + intros i q Q. destruct (OTH _ _ Q) as [[-> ->] | [J Q']]; [exact I|exact (IPC _ _ Q')].
    + intros i q Q. destruct (OTH _ _ Q) as [[-> ->] | [J Q']]; [split; [discriminate|lia]|]. rewrite (IN _ _ Q'). lia.
    + intros L i q Q. destruct (OTH _ _ Q) as [[-> ->] | [J Q']]; [intros []|exact (ILK L _ _ Q')].
    + intros L. destruct (IH L) as (i & q & Q & C). exists i, q. split; [|exact C]. rewrite upd_nth. destruct (Nat.eqb k i) eqn:E; [|exact Q].
      apply Nat.eqb_eq in E as <-. rewrite H0 in Q. injection Q as <-. destruct C.
    + intros i j q r Q R CQ CR. destruct (OTH _ _ Q) as [[-> ->] | [J Q']]; [destruct CQ|]. destruct (OTH _ _ R) as [[-> ->] | [K R']]; [destruct CR|]. exact (IX _ _ _ _ Q' R' CQ CR).
    + rewrite (count_upd _ _ _ _ H0). cbn [waiting]. lia.
    + intros i x Q. destruct (OTH _ _ Q) as [[-> V] | [J Q']]; [discriminate|exact (IS _ _ Q')].
  - (* spawned *) destruct IV as [IP IL IPC IN ILK IH IX IW IE IS IM]. cbn [lsPcs lsLayers lsLock lsErr lsWg lsMain] in *.
    split; cbn [lsPcs lsLayers lsLock lsErr lsWg lsMain]; auto. intros i p Q. rewrite (IN _ _ Q). pose proof (proj1 (nth_error_Some pcs i) ltac:(congruence)). lia.
  - destruct IV as [IP IL IPC IN ILK IH IX IW IE IS IM]. cbn [lsPcs lsLayers lsLock lsErr lsWg lsMain] in *. split; cbn [lsPcs lsLayers lsLock lsErr lsWg lsMain]; auto.
  - (* read *) eapply move; try exact IV; try exact H; try discriminate; auto.
    + apply upd_length.
    + intros j J. rewrite upd_nth. destruct (Nat.eqb n j) eqn:E; [apply Nat.eqb_eq in E; congruence|reflexivity].
    + exists a0. split; [exact H0|]. cbn [lsLayers]. rewrite upd_nth, Nat.eqb_refl.
      destruct IV as [_ IL _ _ _ _ _ _ _ _ _]. cbn [lsLayers] in IL. pose proof (proj1 (nth_error_Some jobs n) ltac:(congruence)). destruct (nth_error ls n) eqn:Q; [reflexivity|]. apply nth_error_None in Q. lia.
    + left. cbn. tauto.
    + cbn. lia.
    + destruct IV as [_ _ _ _ _ _ _ IW _ _ IM]. cbn [lsPcs lsWg lsMain] in *. destruct m; auto; discriminate (count_zero pcs ltac:(lia) _ _ H).
  - (* panic *) destruct IV as [IP IL IPC IN ILK IH IX IW IE IS IM]. split; assumption.
  - (* no error *) eapply move; try exact IV; try exact H; try discriminate; auto.
    + exists None. split; [|congruence]. exact (i_pc _ IV _ _ H).
    + left. cbn. tauto.
    + cbn. lia.
    + pose proof (i_main _ IV) as IM. cbn [lsMain lsWg] in IM. destruct m; auto.
  - (* lock *) eapply move; try exact IV; try exact H; try discriminate; auto.
    + exact (i_pc _ IV _ _ H).
    + right. left. cbn. tauto.
    + cbn. lia.
    + pose proof (i_main _ IV) as IM. cbn [lsMain lsWg] in IM. destruct m; auto.
  - (* test, nil *) eapply move; try exact IV; try exact H; try discriminate; auto.
    + exact (i_pc _ IV _ _ H).
    + left. cbn. tauto.
    + cbn. lia.
    + pose proof (i_main _ IV) as IM. cbn [lsMain lsWg] in IM. destruct m; auto.
  - (* test, not nil *) eapply move; try exact IV; try exact H; try discriminate; auto.
    + exists (Some x). split; [|discriminate]. exact (i_pc _ IV _ _ H).
    + left. cbn. tauto.
    + cbn. lia.
    + pose proof (i_main _ IV) as IM. cbn [lsMain lsWg] in IM. destruct m; auto.
  - (* set *) eapply move; try exact IV; try exact H; try discriminate; auto.
    + exists (Some x). split; [|discriminate]. exact (i_pc _ IV _ _ H).
    + left. cbn. tauto.
    + cbn. lia.
    + right. eauto.
    + pose proof (i_main _ IV) as IM. cbn [lsMain lsWg] in IM. destruct m; auto.
  - (* unlock *) eapply move; try exact IV; try exact H; try discriminate; auto.
    + exact (i_pc _ IV _ _ H).
    + right. right. cbn. tauto.
    + cbn. lia.
    + pose proof (i_main _ IV) as IM. cbn [lsMain lsWg] in IM. destruct m; auto.
  - (* done *) eapply move; try exact IV; try exact H; try discriminate; auto.
    + exact (i_pc _ IV _ _ H).
    + left. cbn. tauto.
    + cbn. lia.
    + pose proof (i_main _ IV) as IM. pose proof (i_wg _ IV) as IW. cbn [lsMain lsWg lsPcs] in *. destruct m; auto. discriminate (count_zero pcs ltac:(lia) _ _ H).
Qed.
Lemma reach_inv st : reach st -> inv st.
Proof. induction 1; [apply inv_init|eapply step_inv; eauto]. Qed.

(** At most one goroutine is between Lock and Unlock, where dr.Err is used. *)
Theorem C49_exclusive st i j p q : reach st -> nth_error (lsPcs A st) i = Some p -> nth_error (lsPcs A st) j = Some q ->
  critical p -> critical q -> i = j.
Proof. intros R. exact (i_excl _ (reach_inv _ R) i j p q). Qed.
(** The first error stays. *)
Theorem C49_sticky a b e : reach a -> step a b -> lsErr A a = Some e -> lsErr A b = Some e.
Proof.
  intros R S E. pose proof (i_set _ (reach_inv _ R)) as IS. inversion S; subst; cbn [lsErr lsPcs] in *; try assumption; try congruence.
  rewrite (IS _ _ H) in E. discriminate.
Qed.

Lemma all_done st : inv st -> lsMain A st = MReturned -> exists les, Forall2 (fun j x => j = Ret x) jobs les /\ lsLayers A st = map fst les /\
  (forall i x, nth_error les i = Some x -> snd x <> None -> lsErr A st <> None).
Proof.
  intros IV M. assert (D : forall i j, nth_error jobs i = Some j -> exists a x, j = Ret (a, x) /\ nth_error (lsLayers A st) i = Some a /\ (x <> None -> lsErr A st <> None)).
  { intros i j J. pose proof (i_main _ IV) as IM. rewrite M in IM. pose proof (i_wg _ IV) as IW. pose proof (i_pcs _ IV) as IP.
    pose proof (proj1 (nth_error_Some jobs i) ltac:(congruence)) as L. destruct (nth_error (lsPcs A st) i) as [p|] eqn:Q; [|apply nth_error_None in Q; lia].
    pose proof (count_zero (lsPcs A st) ltac:(lia) _ _ Q) as ->. destruct (i_pc _ IV _ _ Q) as (x & (a & G1 & G2) & G3). rewrite J in G1. injection G1 as ->. eauto. }
  pose proof (i_layers _ IV) as IL. revert D IL. generalize (lsLayers A st) (lsErr A st). clear IV M. intros ls oe. revert ls. induction jobs as [|j l IH]; intros ls D IL.
  - exists []. destruct ls; [|discriminate]. repeat split; [constructor|]. intros [|i] x; discriminate.
  - destruct ls as [|a ls]; [discriminate|]. destruct (D 0%nat j eq_refl) as (a' & x & -> & [= ->] & E).
    destruct (IH ls) as (les & F & L & K); [intros i j J; exact (D (S i) j J)|cbn in IL; lia|].
    exists ((a', x) :: les). split; [now constructor|]. split; [cbn; now rewrite L|]. intros [|i] y Y; [injection Y as <-; exact E|exact (K i y Y)].
Qed.
(** Whatever the interleaving, readLayers returns the layers of a sequential
    reading; dr.Err is nil iff no layer failed, and otherwise the error of one of them. *)
Theorem C49_layers ls oe : readLayers_returns A zero jobs ls oe -> exists les,
  Forall2 (fun j x => j = Ret x) jobs les /\ ls = map fst les /\
  match oe with
  | None => Forall (fun x => snd x = None) les
  | Some e => exists x, In x les /\ snd x = Some e
  end.
Proof.
  intros (st & R & M & C & <- & <-). pose proof (reach_inv _ R) as IV. destruct (all_done st IV M) as (les & F & L & K). exists les. split; [exact F|]. split; [exact L|].
  destruct (lsErr A st) as [e|] eqn:E.
  - destruct (i_err _ IV e E) as (i & a & J). clear - F J. revert i J. induction F as [|j x l les E F IH]; intros [|i] J; try discriminate.
    + injection J as ->. injection E as <-. exists (a, Some e). split; [now left|reflexivity].
    + destruct (IH i J) as (y & Y1 & Y2). exists y. split; [now right|exact Y2].
  - apply Forall_forall. intros x X. apply In_nth_error in X as (i & X). destruct (snd x) eqn:S; [|reflexivity]. destruct (K i x X); congruence.
Qed.

(** ** every run ends *)
Definition weight (p : tpc) : nat :=
  match p with TNew => 8 | TRead => 7 | TStored _ => 6 | TLocked _ => 5 | TSet _ => 4 | TUnlock => 3 | TLast => 2 | TDone => 1 end.
Definition sum (l : list tpc) : nat := fold_right (fun p n => weight p + n)%nat 0%nat l.
Lemma sum_upd l : forall i v p, nth_error l i = Some p -> (sum (upd l i v) + weight p = sum l + weight v)%nat.
Proof. induction l as [|a l IH]; intros [|i] v p; cbn; try discriminate; [intros [= ->]; lia|]. intros H. fold (sum (upd l i v)). fold (sum l). specialize (IH _ v _ H). lia. Qed.
Definition mu (st : lstate A) : nat :=
  (sum (lsPcs A st) + (match lsMain A st with MSpawn k => length jobs - k + 2 | MWait => 1 | MReturned => 0 end) + (if lsCrashed A st then 0 else 1))%nat.
Lemma mu_dec a b : inv a -> step a b -> (mu b < mu a)%nat.
Proof.
  intros IV S. inversion S; subst; unfold mu; cbn [lsPcs lsMain lsCrashed]; try lia;
  try match goal with H : nth_error ?l ?n = Some ?p |- context [upd ?l ?n ?v] => pose proof (sum_upd l n v _ H) as U; cbn [weight] in U; lia end.
  pose proof (i_pcs _ IV) as IP. pose proof (i_new _ IV) as IN. cbn [lsPcs lsMain] in *. destruct (nth_error pcs k) as [p|] eqn:Q; [|apply nth_error_None in Q; lia].
  assert (p = TNew) as -> by (apply (IN _ _ Q); lia). pose proof (sum_upd pcs k TRead _ Q). cbn [weight] in *. lia.
Qed.
(** No run is infinite, *)
Theorem C49_terminates st : reach st -> Acc (fun b a => step a b) st.
Proof.
  intros R. remember (mu st) as n eqn:E. revert st R E. induction n as [n IH] using (well_founded_induction lt_wf). intros st R ->. constructor. intros b S.
  apply (IH (mu b)); [apply mu_dec; [now apply reach_inv|exact S]|now apply (r_step _ _ _ st)|reflexivity].
Qed.
(** and if every layer's reading returns, a run can only stop by readLayers returning. *)
Theorem C49_no_deadlock st : (forall j, In j jobs -> exists x, j = Ret x) -> reach st ->
  (exists st', step st st') \/ (lsMain A st = MReturned /\ lsCrashed A st = false).
Proof.
  intros ALL R. assert (NC : lsCrashed A st = false).
  { induction R as [|a b R IH S]; [reflexivity|]. inversion S; subst; try reflexivity. apply nth_error_In in H0. destruct (ALL _ H0) as (x & X). discriminate X. }
  pose proof (reach_inv _ R) as IV. destruct st as [pcs ls lk e wg m c]. cbn [lsCrashed] in NC. subst c. destruct m as [k| |]; [| |right; auto].
  - left. pose proof (i_main _ IV) as IM. cbn [lsMain] in IM. destruct (Nat.eq_dec k (length jobs)) as [-> | N]; [eexists; apply s_spawned|]. eexists. apply s_spawn. lia.
  - left. pose proof (i_wg _ IV) as IW. cbn [lsWg lsPcs] in IW. destruct (Z.eq_dec wg 0) as [-> | N]; [eexists; apply s_wait|].
    assert (X : exists i p, nth_error pcs i = Some p /\ p <> TDone).
    { clear - IW N. subst wg. induction pcs as [|p l IH]; [cbn in N; lia|]. destruct p; try (exists 0%nat; eexists; split; [reflexivity|discriminate]).
      destruct IH as (i & q & Q1 & Q2); [cbn [count fold_right waiting] in N; fold (count l) in N; lia|]. exists (S i), q. auto. }
    destruct X as (i & p & Q & ND).
    assert (CR : forall i p, nth_error pcs i = Some p -> critical p -> exists st', step (mkLS A pcs ls lk e wg MWait false) st').
    { intros j q J C. destruct q; try contradiction; [destruct e|..]; eexists; [eapply s_test1|eapply s_test0|eapply s_set|eapply s_unlock]; exact J. }
    pose proof (i_new _ IV _ _ Q) as NW. cbn [lsMain] in NW.
    destruct p; try (exact (CR _ _ Q I)); try (now destruct ND); try (destruct (proj1 NW eq_refl)).
    + pose proof (i_pcs _ IV) as IP. cbn [lsPcs] in IP. pose proof (proj1 (nth_error_Some pcs i) ltac:(congruence)) as L.
      destruct (nth_error jobs i) as [j|] eqn:J; [|apply nth_error_None in J; lia]. destruct (ALL j (nth_error_In _ _ J)) as ([a x] & ->). eexists. eapply s_read; eassumption.
    + destruct e0 as [x|]; [|eexists; eapply s_noerr; exact Q]. destruct lk; [|eexists; eapply s_lock; exact Q].
      destruct (i_held _ IV eq_refl) as (j & q & J & C). exact (CR _ _ J C).
    + eexists. eapply s_done. exact Q.
Qed.
Lemma some_return : (forall j, In j jobs -> exists x, j = Ret x) -> exists ls oe, readLayers_returns A zero jobs ls oe.
Proof.
  intros ALL. assert (K : forall st, reach st -> exists st', reach st' /\ lsMain A st' = MReturned /\ lsCrashed A st' = false).
  { intros st R. pose proof (C49_terminates st R) as AC. induction AC as [st _ IH]. destruct (C49_no_deadlock st ALL R) as [(st' & S) | E]; [|eauto]. exact (IH st' S (r_step _ _ _ _ _ R S)). }
  destruct (K _ (r_init _ _ _)) as (st & R & M & C). exists (lsLayers A st), (lsErr A st), st. auto.
Qed.
End Layers.
Print Assumptions C49_exclusive.
Print Assumptions C49_sticky.
Print Assumptions C49_layers.
Print Assumptions C49_terminates.
Print Assumptions C49_no_deadlock.

Lemma mapO_forall2 {A B} (f : A -> outcome B) l : forall r, mapO f l = Ret r <-> Forall2 (fun j x => j = Ret x) (map f l) r.
Proof.
  induction l as [|a l IH]; intros r; cbn [mapO map].
  - split; [intros [= <-]; constructor|intros H; inversion H; reflexivity].
  - split.
    + destruct (f a) as [b| |] eqn:E; try discriminate. cbn [bindO]. destruct (mapO f l) as [r'| |]; try discriminate. cbn [bindO]. intros [= <-]. constructor; [reflexivity|]. now apply IH.
    + intros H. inversion H as [|? ? ? ? E F]; subst. rewrite E. cbn [bindO]. apply IH in F. rewrite F. reflexivity.
Qed.
Lemma first_err_none {A} (l : list (A * option err)) : first_err l = None <-> Forall (fun x => snd x = None) l.
Proof. induction l as [|[a [e|]] l IH]; cbn; [split; auto|split; [discriminate|intros H; inversion H; discriminate]|]. rewrite IH. split; [now constructor|now inversion 1]. Qed.

(** Decode as it runs, with goroutines, against the sequential model: the same
    image, or an error where the sequential model has an error. *)
Theorem C49_decode fuel s f32op ptext dc r : decodeImage_returns fuel s f32op ptext dc r ->
  match r with
  | inr ls => decodeImageFrom fuel s f32op ptext dc = Ret (inr ls)
  | inl _ => exists e, decodeImageFrom fuel s f32op ptext dc = Ret (inl e)
  end.
Proof.
  unfold decodeImage_returns, decodeImageFrom. cbv zeta.
  destruct (readHeader s (mkR 0 None)) as [[[e|mode] st]| |]; try contradiction; [intros ->; eauto|].
  destruct (readUint32 s st) as [w st1]. destruct (readUint32 s st1) as [h st2]. destruct (readUint32 s st2) as [bt st3].
  destruct (if 0 <? mode then readUint32 s st3 else (0, st3)) as [pr st4].
  destruct (readImageProperties fuel s bt st4) as [[[e|[pal comp]] st5]| |]; try contradiction; [intros ->; eauto|].
  destruct (readLayerPointers fuel s mode st5) as [[lp st6]| |]; try contradiction.
  destruct (rErr st6) as [e|]; [intros ->; eauto|]. intros (ls & oe & R & K).
  destruct (C49_layers _ _ _ _ _ R) as (les & F & -> & E). apply mapO_forall2 in F. rewrite F. cbn [bindO].
  destruct oe as [e|].
  - subst r. destruct (first_err les) as [e'|] eqn:FE; [eauto|]. apply first_err_none in FE. destruct E as (x & X & Y). rewrite Forall_forall in FE. rewrite (FE _ X) in Y. discriminate.
  - apply first_err_none in E. rewrite E. destruct (makeGroups _ _) as [e|[os m]]; subst r; eauto.
Qed.
Print Assumptions C49_decode.
(** Conversely, where the sequential model returns, so does some run (and, by
    C49_terminates and C49_no_deadlock, every run). *)
Theorem C49_decode_returns fuel s f32op ptext dc r : decodeImageFrom fuel s f32op ptext dc = Ret r ->
  exists r', decodeImage_returns fuel s f32op ptext dc r' /\ forall ls, r = inr ls <-> r' = inr ls.
Proof.
  intros D. assert (X : exists r', decodeImage_returns fuel s f32op ptext dc r').
  { revert D. unfold decodeImage_returns, decodeImageFrom. cbv zeta.
    destruct (readHeader s (mkR 0 None)) as [[[e|mode] st]| |]; try discriminate; [eauto|].
    destruct (readUint32 s st) as [w st1]. destruct (readUint32 s st1) as [h st2]. destruct (readUint32 s st2) as [bt st3].
    destruct (if 0 <? mode then readUint32 s st3 else (0, st3)) as [pr st4].
    destruct (readImageProperties fuel s bt st4) as [[[e|[pal comp]] st5]| |]; try discriminate; [eauto|].
    destruct (readLayerPointers fuel s mode st5) as [[lp st6]| |]; try discriminate.
    destruct (rErr st6) as [e|]; [eauto|]. destruct (mapO _ lp) as [les| |] eqn:M; try discriminate. intros _.
    apply mapO_forall2 in M. destruct (some_return dlayer zero_layer (map (readLayerAt fuel s f32op ptext (mkDP comp dc bt pal mode)) lp)) as (ls & oe & R).
    { intros j J. clear - M J. induction M as [|x y l l' E M IH]; [destruct J|]. destruct J as [<- | J]; eauto. }
    destruct oe as [e|]; [exists (inl e), ls, (Some e); auto|]. destruct (makeGroups ls (image_Rect 0 0 w h)) as [e|[os m]] eqn:G.
    - exists (inl e), ls, None. rewrite G. auto.
    - exists (inr (makeImage os (map_order m))), ls, None. rewrite G. auto. }
  destruct X as (r' & R'). exists r'. split; [exact R'|]. pose proof (C49_decode _ _ _ _ _ _ R') as C. intros ls. destruct r' as [e'|ls'].
  - destruct C as (e & C). rewrite C in D. injection D as <-. split; discriminate.
  - rewrite C in D. injection D as <-. reflexivity.
Qed.
Print Assumptions C49_decode_returns.
(** three layers, two of which fail: either error can be reported *)
Definition ex_jobs : list (outcome (Z * option err)) := [Ret (1, None); Ret (2, Some EEOF); Ret (3, Some EInvalidString)].
Ltac fw H c := let R' := fresh in eassert (R' : lreach Z 0 ex_jobs _) by (eapply r_step; [exact H|eapply c; repeat constructor]); clear H; rename R' into H; cbn [upd] in H.
Ltac fwn H c i := let R' := fresh in eassert (R' : lreach Z 0 ex_jobs _) by (eapply r_step; [exact H|eapply c with (n := i); reflexivity]); clear H; rename R' into H; cbn [upd] in H.
Example C49_ex : forall e, e = EEOF \/ e = EInvalidString ->
  readLayers_returns Z 0 ex_jobs [1; 2; 3] (Some e).
Proof.
  intros e E. pose proof (r_init Z 0 ex_jobs) as R. change (ls_init Z 0 ex_jobs) with (mkLS Z [TNew; TNew; TNew] [0; 0; 0] false None 3 (MSpawn 0) false) in R.
  fw R (s_spawn Z ex_jobs). fw R (s_spawn Z ex_jobs).
  fwn R (s_read Z ex_jobs) 1%nat.
  fw R (s_spawn Z ex_jobs). fw R (s_spawned Z ex_jobs).
  fwn R (s_read Z ex_jobs) 2%nat. fwn R (s_read Z ex_jobs) 0%nat.
  fwn R (s_noerr Z ex_jobs) 0%nat. fwn R (s_done Z ex_jobs) 0%nat.
  destruct E as [-> | ->].
  - fwn R (s_lock Z ex_jobs) 1%nat. fwn R (s_test0 Z ex_jobs) 1%nat. fwn R (s_set Z ex_jobs) 1%nat.
    fwn R (s_unlock Z ex_jobs) 1%nat. fwn R (s_lock Z ex_jobs) 2%nat. fwn R (s_test1 Z ex_jobs) 2%nat.
    fwn R (s_unlock Z ex_jobs) 2%nat. fwn R (s_done Z ex_jobs) 1%nat. fwn R (s_done Z ex_jobs) 2%nat.
    pose proof (r_step _ _ _ _ _ R (s_wait Z ex_jobs _ _ _ _)) as R'. eexists. split; [exact R'|]. repeat split.
  - fwn R (s_lock Z ex_jobs) 2%nat. fwn R (s_test0 Z ex_jobs) 2%nat. fwn R (s_set Z ex_jobs) 2%nat.
    fwn R (s_unlock Z ex_jobs) 2%nat. fwn R (s_done Z ex_jobs) 2%nat. fwn R (s_lock Z ex_jobs) 1%nat. fwn R (s_test1 Z ex_jobs) 1%nat.
    fwn R (s_unlock Z ex_jobs) 1%nat. fwn R (s_done Z ex_jobs) 1%nat.
    pose proof (r_step _ _ _ _ _ R (s_wait Z ex_jobs _ _ _ _)) as R'. eexists. split; [exact R'|]. repeat split.
Qed.

(** ** C50 *)

(** a correct answer to ReadAt(p, off) with len(p) = len on the file f: the bytes
    from off on, possibly not all; none without an error only if none were asked
    for; io.EOF only at the end *)
Definition answer (f : list Z) (off len : Z) (b : list Z) (e : option err) : Prop :=
  0 <= off /\ zlen b <= len /\ (exists pre post, f = pre ++ b ++ post /\ (b = [] \/ zlen pre = off)) /\
  (b = [] -> e = None -> len = 0) /\ (e = Some EEOF -> zlen f <= off + zlen b).
Section Adapter.
Variables (calls : list (Z * Z)) (file : list Z).
Notation step := (astep calls).
Definition holder (c : cpc) : Prop := match c with CLocked | CSeeked | CRead _ _ | CFailed _ => True | _ => False end.
Definition cpc_ok (st : astate) (i : nat) (c : cpc) : Prop :=
  match c with
  | CStart | CFailed _ => True
  | CLocked => rsPos (asFile st) = asPos st
  | CSeeked => rsPos (asFile st) = asPos st /\ exists len, nth_error calls i = Some (asPos st, len)
  | CRead b e => rsPos (asFile st) = asPos st + zlen b /\ exists len, nth_error calls i = Some (asPos st, len) /\ answer file (asPos st) len b e
  | CDone b e => exists off len, nth_error calls i = Some (off, len) /\ answer file off len b e
  end.
Record ainv (st : astate) : Prop := {
  a_file : rsFile (asFile st) = file;
  a_excl : forall i j p q, nth_error (asPcs st) i = Some p -> nth_error (asPcs st) j = Some q -> holder p -> holder q -> i = j;
  a_free : asLock st = false -> forall i p, nth_error (asPcs st) i = Some p -> ~ holder p;
  a_held : asLock st = true -> exists i p, nth_error (asPcs st) i = Some p /\ holder p;
  a_pc : forall i p, nth_error (asPcs st) i = Some p -> cpc_ok st i p;
  a_sync : asLock st = false -> rsPos (asFile st) = asPos st;
  a_nneg : (forall i e, nth_error (asPcs st) i <> Some (CFailed e)) -> 0 <= asPos st
}.
Lemma amove pcs n p v lk lk' ps ps' f f' :
  let st := mkAS pcs lk ps f in let st' := mkAS (upd pcs n v) lk' ps' f' in
  ainv st -> nth_error pcs n = Some p -> (holder p \/ (lk = false /\ ps' = ps /\ f' = f)) -> (holder v <-> lk' = true) ->
  rsFile f' = file -> cpc_ok st' n v -> (lk' = false -> rsPos f' = ps') -> (0 <= ps -> 0 <= ps' \/ exists e, v = CFailed e) -> (forall e, p <> CFailed e) ->
  ainv st'.
Proof.
  intros st st' [IF IX IFR IH IP IS IN] H HP HV FF OK SY NN NF. unfold st, st' in *. cbn [asPcs asLock asPos asFile] in *.
  assert (OTH : forall j q, j <> n -> nth_error pcs j = Some q -> ~ holder q).
  { intros j q J Q C. destruct HP as [HP|[L _]]; [apply J; exact (IX _ _ _ _ Q H C HP)|exact (IFR L _ _ Q C)]. }
  split; cbn [asPcs asLock asPos asFile].
  - exact FF.
  - intros i j q r Q R CQ CR. destruct (upd_cases _ _ _ _ _ _ H Q) as [[-> ->] | [J Q']]; [|destruct (OTH _ _ J Q' CQ)].
    destruct (upd_cases _ _ _ _ _ _ H R) as [[-> ->] | [J R']]; [reflexivity|destruct (OTH _ _ J R' CR)].
  - intros L i q Q C. destruct (upd_cases _ _ _ _ _ _ H Q) as [[-> ->] | [J Q']]; [apply HV in C; congruence|exact (OTH _ _ J Q' C)].
  - intros L. exists n, v. split; [now apply (upd_same _ _ _ p)|now apply HV].
  - intros i q Q. destruct (upd_cases _ _ _ _ _ _ H Q) as [[-> ->] | [J Q']]; [exact OK|]. specialize (IP _ _ Q'). pose proof (OTH _ _ J Q') as NH. destruct q; cbn in NH; try (now destruct NH); exact IP.
  - exact SY.
  - intros NF'. destruct (NN) as [L|(e & ->)]; [|exact L|].
    + apply IN. intros j e Q. destruct (Nat.eq_dec j n) as [-> | J]; [rewrite H in Q; injection Q as ->; exact (NF e eq_refl)|].
      exact (OTH _ _ J Q I).
    + destruct (NF' n e). now apply (upd_same _ _ _ p).
Qed.
Lemma astep_inv a b : ainv a -> step a b -> ainv b.
Proof.
  intros IV S. inversion S; subst.
  - eapply amove; try exact IV; try exact H; auto; try discriminate.
    + cbn. tauto.
    + exact (a_file _ IV).
    + exact (a_sync _ IV eq_refl).
  - assert (LK : lk = true) by (destruct lk; [reflexivity|]; destruct (a_free _ IV eq_refl _ _ H I)). subst lk.
    eapply amove; try exact IV; try exact H; auto; try discriminate.
    + left. exact I.
    + cbn. tauto.
    + exact (a_file _ IV).
    + split; [exact (a_pc _ IV _ _ H)|eauto].
  - assert (LK : lk = true) by (destruct lk; [reflexivity|]; destruct (a_free _ IV eq_refl _ _ H I)). subst lk.
    eapply amove; try exact IV; try exact H; auto; try discriminate.
    + left. exact I.
    + cbn. tauto.
    + exact (a_file _ IV).
    + split; [reflexivity|eauto].
  - assert (LK : lk = true) by (destruct lk; [reflexivity|]; destruct (a_free _ IV eq_refl _ _ H I)). subst lk.
    eapply amove; try exact IV; try exact H; auto; try discriminate.
    + left. exact I.
    + cbn. tauto.
    + exact (a_file _ IV).
    + exact I.
    + intros _. right. eauto.
  - assert (LK : lk = true) by (destruct lk; [reflexivity|]; destruct (a_free _ IV eq_refl _ _ H I)). subst lk.
    destruct (a_pc _ IV _ _ H) as (SY & len' & C). cbn [asPos asFile] in *. rewrite C in H0. injection H0 as -> ->.
    assert (NN : 0 <= off).
    { apply (a_nneg _ IV). cbn [asPcs]. intros j x Q. pose proof (a_excl _ IV _ _ _ _ Q H I I) as J. subst j. cbn [asPcs] in *. rewrite H in Q. discriminate. }
    assert (ZL : zlen (ztake k (rs_rest f)) = k) by (apply zlen_ztake; lia).
    eapply amove; try exact IV; try exact H; auto; try discriminate.
    + left. exact I.
    + cbn. tauto.
    + exact (a_file _ IV).
    + cbn [cpc_ok asPos asFile rsPos]. rewrite ZL, SY. split; [reflexivity|]. exists len. split; [exact C|]. pose proof (a_file _ IV) as FF. cbn [asFile] in FF.
      split; [exact NN|]. split; [lia|]. split; [|split].
      * exists (ztake off file), (zdrop k (rs_rest f)). rewrite ztake_zdrop. unfold rs_rest. rewrite FF, SY. split; [now rewrite ztake_zdrop|].
        destruct (Z.eq_dec k 0) as [-> | K]; [left; reflexivity|right]. apply zlen_ztake. unfold rs_rest in *. rewrite FF, SY in *.
        destruct (Z_le_gt_dec off (zlen file)) as [Y|Y]; [lia|]. rewrite zdrop_all in H2 by lia. change (zlen []) with 0 in H2. lia.
      * intros B. apply H3. rewrite <- ZL, B. reflexivity.
      * intros EO. specialize (H4 EO). rewrite ZL. unfold rs_rest in H4. rewrite FF, SY in H4. destruct (Z_le_gt_dec off (zlen file)) as [Y|Y]; [rewrite zlen_zdrop in H4 by lia; lia|lia].
  - assert (LK : lk = true) by (destruct lk; [reflexivity|]; destruct (a_free _ IV eq_refl _ _ H I)). subst lk.
    destruct (a_pc _ IV _ _ H) as (SY & len' & C & AN). cbn [asPos asFile] in *.
    eapply amove; try exact IV; try exact H; auto; try discriminate.
    + left. exact I.
    + cbn. split; [intros []|discriminate].
    + exact (a_file _ IV).
    + cbn. eauto.
    + intros NN. left. pose proof (zlen_pos b0). lia.
Qed.
Lemma areach_inv i st : ainv i -> areach calls i st -> ainv st.
Proof. intros I R. induction R; [exact I|eapply astep_inv; eauto]. Qed.
Lemma ainv_start f : rsFile f = file -> rsPos f = 0 -> ainv (as_plain calls f).
Proof.
  intros FF F0. assert (P : forall i p, nth_error (map (fun _ : Z * Z => CStart) calls) i = Some p -> p = CStart).
  { intros i p H. apply nth_error_In, in_map_iff in H as (x & <- & _). reflexivity. }
  unfold as_plain. split; cbn [asPcs asLock asPos asFile]; try discriminate; auto; try lia.
  - intros i j p q H _ C. rewrite (P _ _ H) in C. destruct C.
  - intros _ i p H. rewrite (P _ _ H). intros [].
  - intros i p H. now rewrite (P _ _ H).
Qed.

Lemma areach_length f st : areach calls (as_plain calls f) st -> length (asPcs st) = length calls.
Proof.
  intros R. induction R as [|a b R IH S]; [apply map_length|]. rewrite <- IH. inversion S; subst; apply upd_length.
Qed.
(** If the ReadSeeker starts at offset 0 (bufioToReader makes sure of it), every
    ReadAt that returns, in whatever interleaving and even if some Seek fails,
    returns the bytes at its own offset, *)
Theorem C50_bytes_partial f st n b e : rsFile f = file -> rsPos f = 0 -> areach calls (as_plain calls f) st ->
  nth_error (asPcs st) n = Some (CDone b e) ->
  exists off len, nth_error calls n = Some (off, len) /\ answer file off len b e.
Proof. intros FF F0 R H. exact (a_pc _ (areach_inv _ _ (ainv_start f FF F0) R) _ _ H). Qed.
Theorem C50_bufio f st n b e : rsFile f = file -> areach calls (as_bufio calls true f) st ->
  nth_error (asPcs st) n = Some (CDone b e) ->
  exists off len, nth_error calls n = Some (off, len) /\ answer file off len b e.
Proof. intros FF. apply C50_bytes_partial; [exact FF|reflexivity]. Qed.
(** no two callers use the ReadSeeker at the same time, *)
Theorem C50_exclusive f st i j p q : rsFile f = file -> rsPos f = 0 -> areach calls (as_plain calls f) st ->
  nth_error (asPcs st) i = Some p -> nth_error (asPcs st) j = Some q -> holder p -> holder q -> i = j.
Proof. intros FF F0 R. exact (a_excl _ (areach_inv _ _ (ainv_start f FF F0) R) i j p q). Qed.
(** and as long as no Seek has failed some caller can go on until all have returned. *)
Theorem C50_progress_partial f st : rsFile f = file -> rsPos f = 0 -> areach calls (as_plain calls f) st ->
  (forall off len, In (off, len) calls -> 0 <= off /\ 0 <= len) ->
  (forall i e, nth_error (asPcs st) i <> Some (CFailed e)) ->
  (exists st', step st st') \/ forall i p, nth_error (asPcs st) i = Some p -> exists b e, p = CDone b e.
Proof.
  intros FF F0 R CL NF. pose proof (areach_length _ _ R) as LN. pose proof (areach_inv _ _ (ainv_start f FF F0) R) as IV. destruct st as [pcs lk ps g]. cbn [asPcs] in *.
  assert (HS : forall i p, nth_error pcs i = Some p -> holder p -> exists st', step (mkAS pcs lk ps g) st').
  { intros i p Q C. pose proof (proj1 (nth_error_Some pcs i) ltac:(congruence)) as L. destruct (nth_error calls i) as [[off len]|] eqn:J; [|apply nth_error_None in J; lia].
    destruct (CL _ _ (nth_error_In _ _ J)) as [O1 O2]. destruct p; try contradiction.
    - destruct (Z.eq_dec off ps) as [-> | N]; eexists; [eapply a_same; eassumption|eapply a_seek; eassumption].
    - eexists. eapply (a_read _ _ _ _ _ _ _ _ 0 (Some (EOtherErr 0))); try eassumption; try lia; try discriminate. apply zlen_pos.
    - eexists. eapply a_ret. exact Q.
    - destruct (NF _ _ Q). }
  destruct lk; [left; destruct (a_held _ IV eq_refl) as (i & p & Q & C); exact (HS _ _ Q C)|].
  assert (D : (exists i, nth_error pcs i = Some CStart) \/ forall i p, nth_error pcs i = Some p -> p <> CStart).
  { clear. induction pcs as [|p l IH]; [right; intros [|i] p; discriminate|]. destruct IH as [(i & Q) | IH]; [left; exists (S i); exact Q|].
    destruct p; try (right; intros [|i] q; [intros [= <-]; discriminate|apply IH]). left. now exists 0%nat. }
  destruct D as [(i & Q) | D]; [left; eexists; eapply a_lock; exact Q|right]. intros i p Q. pose proof (a_free _ IV eq_refl _ _ Q) as NH. specialize (D _ _ Q).
  destruct p; cbn in NH; try (now destruct NH); try congruence; eauto.
Qed.
(** A failing Seek blocks all later calls: no caller makes another step. *)
Theorem C50_block_refuted f st i e : rsFile f = file -> rsPos f = 0 -> areach calls (as_plain calls f) st ->
  nth_error (asPcs st) i = Some (CFailed e) -> forall st', ~ step st st'.
Proof.
  intros FF F0 R Q st' S. pose proof (areach_inv _ _ (ainv_start f FF F0) R) as IV.
  assert (K : forall j p, nth_error (asPcs st) j = Some p -> holder p -> p = CFailed e).
  { intros j p J C. pose proof (a_excl _ IV _ _ _ _ Q J I C) as E. subst j. rewrite Q in J. now injection J as <-. }
  inversion S; subst; cbn [asPcs] in *; try (discriminate (K _ _ H I)). exact (a_free _ IV eq_refl _ _ Q I).
Qed.
End Adapter.
Print Assumptions C50_bytes_partial.
Print Assumptions C50_bufio.
Print Assumptions C50_exclusive.
Print Assumptions C50_progress_partial.
Print Assumptions C50_block_refuted.

(** such a state is reached: the first of two calls fails to seek *)
Example C50_block_ex : exists st, areach [(5, 1); (0, 1)] (as_plain [(5, 1); (0, 1)] (mkRS [7; 8; 9] 0)) st /\
  nth_error (asPcs st) 0 = Some (CFailed (EOtherErr 1)) /\ nth_error (asPcs st) 1 = Some CStart.
Proof.
  eexists. split; [eapply ar_step; [eapply ar_step; [apply ar_init|]|]|].
  - eapply a_lock with (n := 0%nat). reflexivity.
  - eapply a_fail with (n := 0%nat) (e := EOtherErr 1) (p' := 0) (q := 0); [reflexivity|reflexivity|discriminate].
  - split; reflexivity.
Qed.
(** two calls, interleaved *)
Example C50_bytes_ex : exists st, areach [(1, 1); (0, 2)] (as_plain [(1, 1); (0, 2)] (mkRS [7; 8; 9] 0)) st /\
  asPcs st = [CDone [8] None; CDone [7; 8] None].
Proof.
  eexists. split.
  - eapply ar_step; [eapply ar_step; [eapply ar_step; [eapply ar_step; [eapply ar_step; [eapply ar_step; [eapply ar_step; [eapply ar_step; [apply ar_init|]|]|]|]|]|]|]|].
    + eapply a_lock with (n := 1%nat). reflexivity.
    + eapply a_same with (n := 1%nat); reflexivity.
    + eapply a_read with (n := 1%nat) (k := 2) (e := None); try reflexivity; try discriminate; lia.
    + eapply a_ret with (n := 1%nat). reflexivity.
    + eapply a_lock with (n := 0%nat). reflexivity.
    + eapply a_seek with (n := 0%nat); [reflexivity|reflexivity|discriminate|lia].
    + eapply a_read with (n := 0%nat) (k := 1) (e := None); try reflexivity; try discriminate; lia.
    + eapply a_ret with (n := 0%nat). reflexivity.
  - reflexivity.
Qed.

(** A ReadSeeker that is not at its start (GetReaderAt does not seek): a call for
    offset 0 returns other bytes. *)
Theorem C50_unseeked_refuted : exists st, areach [(0, 1)] (as_plain [(0, 1)] (mkRS [7; 8; 9] 2)) st /\
  nth_error (asPcs st) 0 = Some (CDone [9] None) /\ ~ answer [7; 8; 9] 0 1 [9] None.
Proof.
  eexists. split; [|split].
  - eapply ar_step; [eapply ar_step; [eapply ar_step; [eapply ar_step; [apply ar_init|]|]|]|].
    + eapply a_lock with (n := 0%nat). reflexivity.
    + eapply a_same with (n := 0%nat); reflexivity.
    + eapply a_read with (n := 0%nat) (k := 1) (e := None); try reflexivity; try discriminate; lia.
    + eapply a_ret with (n := 0%nat). reflexivity.
  - reflexivity.
  - intros (_ & _ & (pre & post & E & [X | Z0]) & _); [discriminate|]. destruct pre; [discriminate|]. pose proof (zlen_pos pre). unfold zlen in *. cbn [length] in Z0. lia.
Qed.
Print Assumptions C50_unseeked_refuted.
(** The adapter passes short reads on: fewer bytes than asked for, more in the
    file, and no error (io.ReaderAt demands one). *)
Theorem C50_short_refuted : exists st, areach [(0, 3)] (as_plain [(0, 3)] (mkRS [7; 8; 9] 0)) st /\
  nth_error (asPcs st) 0 = Some (CDone [7] None).
Proof.
  eexists. split.
  - eapply ar_step; [eapply ar_step; [eapply ar_step; [eapply ar_step; [apply ar_init|]|]|]|].
    + eapply a_lock with (n := 0%nat). reflexivity.
    + eapply a_same with (n := 0%nat); reflexivity.
    + eapply a_read with (n := 0%nat) (k := 1) (e := None); try reflexivity; try discriminate; cbn; lia.
    + eapply a_ret with (n := 0%nat). reflexivity.
  - reflexivity.
Qed.
Print Assumptions C50_short_refuted.
