(** Reasoning about decoder programs: weakest preconditions.  [E] tells which
    panics are allowed, [F] whether running out of fuel is. *)
Require Import Verif.Base Verif.L_List Verif.M_Reader Verif.M_Monad Verif.L_Reader.
From Coq Require Import ZifyBool ZifyNat.

Definition wp {A} (F : Prop) (E : why -> Prop) (m : M A) (Q : A -> rst -> Prop) (st : rst) : Prop :=
  match m st with
  | Ret (a, st') => Q a st'
  | Panic w => E w
  | NoFuel => F
  end.

Section Wp.
Variables (F : Prop) (E : why -> Prop).
Notation wpe := (wp F E).

Lemma wp_mono {A} (m : M A) (Q Q' : A -> rst -> Prop) st :
  wpe m Q st -> (forall a st', Q a st' -> Q' a st') -> wpe m Q' st.
Proof. unfold wp. destruct (m st) as [[a st']|w|]; auto. Qed.
Lemma wp_ret {A} (a : A) (Q : A -> rst -> Prop) st : Q a st -> wpe (retM a) Q st.
Proof. auto. Qed.
Lemma wp_bind {A B} (m : M A) (f : A -> M B) (Q : B -> rst -> Prop) st :
  wpe m (fun a st' => wpe (f a) Q st') st -> wpe (bindM m f) Q st.
Proof. unfold wp, bindM. destruct (m st) as [[a st']|w|]; auto. Qed.
Lemma wp_lift {A} (f : rst -> A * rst) (Q : A -> rst -> Prop) st : Q (fst (f st)) (snd (f st)) -> wpe (liftM f) Q st.
Proof. unfold wp, liftM. destruct (f st); auto. Qed.
Lemma wp_act f (Q : unit -> rst -> Prop) st : Q tt (f st) -> wpe (actM f) Q st.
Proof. auto. Qed.
Lemma wp_panic {A} w (Q : A -> rst -> Prop) st : E w -> wpe (panicM w) Q st.
Proof. auto. Qed.
Lemma wp_err (Q : option err -> rst -> Prop) st : Q (rErr st) st -> wpe errM Q st.
Proof. auto. Qed.
Lemma wp_and {A} (m : M A) (Q Q' : A -> rst -> Prop) st :
  wpe m Q st -> wpe m Q' st -> wpe m (fun a st' => Q a st' /\ Q' a st') st.
Proof. unfold wp. destruct (m st) as [[a st']|w|]; auto. Qed.

(** a loop with a decreasing measure [mu] and an invariant [I] *)
Lemma wp_while {S R} (body : S -> M (S + R)) (I : S -> rst -> Prop) (mu : S -> rst -> nat) (Q : R -> rst -> Prop) :
  (forall s st, I s st -> wpe (body s) (fun r st' => match r with
     | inl s' => I s' st' /\ (mu s' st' < mu s st)%nat
     | inr r => Q r st' end) st) ->
  forall fuel s st, I s st -> F \/ (mu s st < fuel)%nat -> wpe (whileM fuel body s) Q st.
Proof.
  intros HB. induction fuel as [|fuel IH]; intros s st HI HF.
  - destruct HF as [HF|HF]; [exact HF|lia].
  - cbn [whileM]. apply wp_bind. eapply wp_mono; [exact (HB s st HI)|].
    intros [s'|r] st' H; [|exact H]. destruct H as [H1 H2].
    apply IH; [exact H1|]. destruct HF as [HF|HF]; [now left|right; lia].
Qed.
Lemma wp_count {S R} (body : S -> M (S + R)) (I : S -> rst -> Prop) (Q : R -> rst -> Prop) :
  (forall s st, I s st -> wpe (body s) (fun r st' => match r with inl s' => I s' st' | inr r => Q r st' end) st) ->
  forall n s st, I s st -> wpe (countM n body s) (fun r st' => match r with inl s' => I s' st' | inr r => Q r st' end) st.
Proof.
  intros HB. induction n as [|n IH]; intros s st HI; cbn [countM].
  - now apply wp_ret.
  - apply wp_bind. eapply wp_mono; [exact (HB s st HI)|]. intros [s'|r] st' H; [now apply IH|now apply wp_ret].
Qed.
Lemma wp_list {A} (m : M A) (I : rst -> Prop) (Q : A -> Prop) :
  (forall st, I st -> wpe m (fun a st' => I st' /\ Q a) st) ->
  forall n st, I st -> wpe (listM n m) (fun l st' => I st' /\ Forall Q l /\ length l = n) st.
Proof.
  intros HB. induction n as [|n IH]; intros st HI; cbn [listM].
  - apply wp_ret. auto.
  - apply wp_bind. eapply wp_mono; [exact (HB st HI)|]. intros a st' [H1 H2].
    apply wp_bind. eapply wp_mono; [exact (IH st' H1)|]. intros l st'' (H3 & H4 & H5).
    apply wp_ret. cbn [length]. auto.
Qed.
End Wp.

(** ** Moving forward: an error stays, the position does not go back *)
Definition fwd (st st' : rst) : Prop :=
  (rErr st <> None -> rErr st' <> None) /\ (rErr st' = None -> rPos st <= rPos st').
Lemma fwd_refl st : fwd st st.
Proof. split; auto. lia. Qed.
Lemma fwd_trans a b c : fwd a b -> fwd b c -> fwd a c.
Proof.
  intros [A1 A2] [B1 B2]. split; [auto|]. intros N.
  assert (rErr b = None) by (destruct (rErr b) eqn:Q; auto; exfalso; apply B1; congruence).
  specialize (A2 H). specialize (B2 N). lia.
Qed.


(** positions are int64 values that are not negative *)
Definition okpos (st : rst) : Prop := 0 <= rPos st < 9223372036854775808.
Definition adv (st st' : rst) : Prop := okpos st -> okpos st' /\ fwd st st'.
Lemma adv_refl st : adv st st.
Proof. intros H. split; [exact H|apply fwd_refl]. Qed.
Lemma adv_trans a b c : adv a b -> adv b c -> adv a c.
Proof. intros A B H. destruct (A H) as [A1 A2]. destruct (B A1) as [B1 B2]. split; [exact B1|]. eapply fwd_trans; eauto. Qed.

Section Adv.
Variable s : src.
Hypothesis Hlen : zlen (sFile s) < 9223372036854775808.

Lemma rest_len st : zlen (rest s st) = 0 \/ (0 <= rPos st /\ zlen (rest s st) = zlen (sFile s) - rPos st).
Proof.
  unfold rest. destruct (_ || _) eqn:B; [now left|]. right. split; [lia|]. rewrite zlen_zdrop; lia.
Qed.
Lemma adv_readFull k st : 0 <= k -> adv st (snd (readFull s k st)).
Proof.
  intros K O. destruct (readFull s k st) as [o st'] eqn:R. pose proof (rest_len st) as RL. unfold okpos in *.
  pose proof (zlen_pos (rest s st)).
  destruct (readFull_cases s k st o st' K R) as [(e & A & B & -> & D) | [(A & e & t & B & C & D & ->) | (A & B & C & ->)]];
    cbn [snd]; split; unfold fwd; cbn [rErr rPos advance]; try split; try congruence; try lia.
  - rewrite B, zlen_app in RL. pose proof (zlen_pos t). rewrite B, zlen_app in H. lia.
Qed.
Lemma adv_readBE k st : 0 <= k -> adv st (snd (readBE s k st)).
Proof. intros K. pose proof (adv_readFull k st K) as H. unfold readBE. destruct (readFull s k st); exact H. Qed.
Lemma adv_setError st e : adv st (setError st e).
Proof.
  unfold setError. destruct (rErr st) eqn:Q; [apply adv_refl|]. intros H. split; [exact H|].
  split; cbn; congruence.
Qed.
Lemma adv_setErrorO st e : adv st (setErrorO st e).
Proof. destruct e; [apply adv_setError|apply adv_refl]. Qed.
Lemma adv_skip n st : 0 <= n < 4294967296 -> adv st (skip n st).
Proof.
  intros N [P1 P2]. unfold skip, s64.
  destruct (Z_lt_le_dec (rPos st + n) 9223372036854775808).
  - rewrite (Z.mod_small (rPos st + n)) by lia. replace (_ <? 9223372036854775808) with true by lia.
    replace (_ <? 0) with false by lia. split; [split; cbn; lia|]. split; cbn [rErr rPos]; auto. lia.
  - rewrite (Z.mod_small (rPos st + n)) by lia. replace (_ <? 9223372036854775808) with false by lia.
    replace (_ <? 0) with true by lia. split; [split; lia|apply fwd_refl].
Qed.
Lemma okpos_goto n st : okpos st -> okpos (goto n st).
Proof.
  intros O. unfold goto, s64. pose proof (Z.mod_pos_bound n 18446744073709551616 ltac:(lia)).
  destruct (_ <? 9223372036854775808) eqn:B; destruct (_ <? 0) eqn:C; auto; split; cbn; lia.
Qed.
Lemma adv_readSome k st : 0 <= k -> adv st (snd (readSome s k st)).
Proof.
  intros K O. unfold readSome. destruct (rErr st) eqn:Q; [split; [exact O|apply fwd_refl]|].
  pose proof (rest_len st) as RL. pose proof (zlen_pos (rest s st)). unfold okpos in *.
  destruct (rest s st) as [|x r] eqn:R; cbn [snd]; [split; [exact O|split; cbn; congruence]|].
  rewrite zlen_cons in *. pose proof (zlen_pos r).
  destruct (k <=? 1 + zlen r) eqn:B; cbn [snd]; unfold fwd; cbn [rPos rErr advance]; rewrite Q.
  - repeat split; try congruence; lia.
  - repeat split; try congruence; lia.
Qed.
Lemma adv_copyN k st : adv st (snd (copyN s k st)).
Proof.
  intros O. unfold copyN. destruct (k <=? 0) eqn:K; [split; [exact O|apply fwd_refl]|].
  destruct (rErr st) eqn:Q; [split; [exact O|apply fwd_refl]|].
  pose proof (rest_len st) as RL. pose proof (zlen_pos (rest s st)). unfold okpos in *.
  destruct (k <=? zlen (rest s st)) eqn:B; cbn [snd]; unfold fwd; cbn [rPos rErr advance]; rewrite ?Q.
  - repeat split; try congruence; lia.
  - repeat split; try congruence; lia.
Qed.
End Adv.
