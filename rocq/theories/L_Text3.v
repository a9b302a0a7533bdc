(** The parser of text parasites: enough fuel, and when it never stops. *)
From Coq Require Import String.
Require Import Verif.Base Verif.M_Ora Verif.L_List Verif.M_Color Verif.M_Rect Verif.M_Image Verif.M_Decode Verif.M_Text Verif.S_Text Verif.L_Text.
From Coq Require Import ZifyBool ZifyNat.
Open Scope Z_scope.
Open Scope list_scope.

Lemma span_split f s a b : span f s = (a, b) -> s = a ++ b /\ match b with c :: _ => f c = false | [] => True end.
Proof.
  revert a b. induction s as [|c s IH]; intros a b H; cbn [span] in H; [now injection H as <- <-|].
  destruct (f c) eqn:F; [|injection H as <- <-; auto]. destruct (span f s) as [a' b'] eqn:E. injection H as <- <-.
  destruct (IH a' b' eq_refl) as [-> X]. auto.
Qed.
Lemma span_all_in f s a b : span f s = (a, b) -> Forall (fun c => f c = true) a.
Proof.
  revert a b. induction s as [|c s IH]; intros a b H; cbn [span] in H; [injection H as <- <-; constructor|].
  destruct (f c) eqn:F; [|injection H as <- <-; constructor]. destruct (span f s) as [a' b'] eqn:E. injection H as <- <-. constructor; eauto.
Qed.
Lemma decodeRune_split s r w t : decodeRune s = Some (r, w, t) -> s = w ++ t /\ exists a x, w = a :: x /\ Forall (fun c => 128 <= c) x.
Proof.
  unfold decodeRune, cont. intros H.
  repeat match type of H with
  | match ?l with [] => _ | _ :: _ => _ end = _ => destruct l; [discriminate H|]
  | (if ?b then _ else _) = _ => destruct b eqn:?; try discriminate H
  | (let r := _ in _) = _ => cbv zeta in H
  end; injection H as <- <- <-; (split; [reflexivity|]); eexists; eexists; (split; [reflexivity|]); repeat constructor; lia.
Qed.
Lemma peekStr_split s w r : peekStr s = (w, r) -> r = [] \/ exists a x, s = a :: x ++ r /\ Forall (fun c => 128 <= c) x.
Proof.
  unfold peekStr. destruct s as [|a s]; [intros H; injection H as <- <-; now left|].
  destruct (decodeRune (a :: s)) as [[[c w'] t]|] eqn:D; intros H; injection H as <- <-; right.
  - destruct (decodeRune_split _ _ _ _ D) as (E & b & x & -> & F). exists b, x. split; [exact E|exact F].
  - exists a, []. auto.
Qed.
Lemma peekStr_len s w r : peekStr s = (w, r) -> (length r <= length s)%nat.
Proof. intros H. destruct (peekStr_split _ _ _ H) as [-> | (a & x & -> & _)]; cbn; [lia|rewrite app_length; lia]. Qed.
Lemma unquote_len n : forall s acc v r, unquote n s acc = (v, r) -> (length r <= length s)%nat.
Proof.
  induction n as [|n IH]; intros s acc v r; cbn [unquote]; [intros H; injection H as <- <-; lia|].
  destruct (span _ s) as [p q] eqn:E. destruct (span_split _ _ _ _ E) as [-> _]. rewrite app_length.
  destruct q as [|c q]; [intros H; injection H as <- <-; cbn; lia|]. destruct (c =? 92).
  - destruct (peekStr q) as [w q'] eqn:P. intros H. apply IH in H. apply peekStr_len in P. cbn [length]. lia.
  - intros H. injection H as <- <-. cbn [length]. lia.
Qed.
Lemma openTK_len s r : openTK s = (KOpen, r) -> (length r < length s)%nat.
Proof.
  unfold openTK. destruct (span isSpace s) as [p q] eqn:E. destruct (span_split _ _ _ _ E) as [-> _]. cbn [snd]. rewrite app_length.
  destruct q as [|c q]; [discriminate|]. destruct (c =? 0); [discriminate|]. destruct (c =? 40); [|discriminate]. intros H. injection H as <-. cbn. lia.
Qed.
Lemma nameTK_len s n r : nameTK s = (KName n, r) -> (length r < length s)%nat.
Proof.
  unfold nameTK. destruct (span isValName s) as [p q] eqn:E. destruct (span_split _ _ _ _ E) as [-> _]. rewrite app_length.
  destruct p; [discriminate|]. intros H. injection H as _ <-. cbn. lia.
Qed.
Lemma valueTK_len s k r : valueTK s = (k, r) ->
  match k with
  | KStr [] => (length r < length s)%nat \/ r = s
  | KDone | KErr | KName _ => True
  | _ => (length r < length s)%nat
  end.
Proof.
  unfold valueTK. destruct (span isSpace s) as [p q] eqn:E. destruct (span_split _ _ _ _ E) as [-> N]. cbn [snd].
  destruct q as [|c q]; [intros H; injection H as <- <-; exact I|].
  destruct (c =? 0); [intros H; injection H as <- <-; exact I|].
  destruct (c =? 40) eqn:C40.
  { intros H. unfold openTK in H. cbn [span] in H. rewrite N in H. cbn [snd] in H. replace (c =? 0) with false in H by lia. rewrite C40 in H.
    injection H as <- <-. rewrite app_length. cbn. lia. }
  destruct (c =? 41); [intros H; injection H as <- <-; rewrite app_length; cbn; lia|].
  destruct (c =? 34) eqn:C34.
  { unfold quotedString. rewrite C34. destruct (unquote _ q []) as [v r'] eqn:U. intros H. injection H as <- <-. apply unquote_len in U.
    rewrite app_length. cbn [length]. destruct v; lia. }
  destruct (isDigit c) eqn:D.
  { cbn [span]. rewrite D. destruct (span isDigit q) as [a r1] eqn:S1. destruct (span_split _ _ _ _ S1) as [-> _].
    assert (X : forall p0 r2, (match r1 with c :: r2 => if c =? 46 then ([46], r2) else ([], r1) | [] => ([], r1) end) = (p0, r2) -> (length r2 <= length r1)%nat).
    { intros p0 r2. destruct r1 as [|d r1]; [intros H; injection H as _ <-; lia|]. destruct (d =? 46); intros H; injection H as _ <-; cbn; lia. }
    destruct (match r1 with c :: r2 => if c =? 46 then ([46], r2) else ([], r1) | [] => ([], r1) end) as [p0 r2]. specialize (X p0 r2 eq_refl).
    destruct (span isDigit r2) as [b r3] eqn:S2. destruct (span_split _ _ _ _ S2) as [-> _]. intros H. injection H as <- <-.
    cbn [length]. rewrite !app_length in *. cbn [length]. rewrite !app_length. lia. }
  destruct (span isValName (c :: q)) as [a r1] eqn:S1. intros H. injection H as <- <-. destruct (span_split _ _ _ _ S1) as [-> _].
  rewrite !app_length. destruct a as [|x a]; [destruct p; [right; reflexivity|left; cbn; lia]|cbn; lia].
Qed.

Lemma acceptRun_stuck n s : valueTK s = (KStr [], s) -> acceptRun n s = None.
Proof. intros H. induction n as [|n IH]; [reflexivity|]. cbn [acceptRun]. now rewrite H, IH. Qed.
Lemma acceptRun_fuel n : forall m s, (length s < n)%nat -> (length s < m)%nat -> acceptRun n s = acceptRun m s.
Proof.
  induction n as [|n IH]; intros m s Hn Hm; [lia|]. destruct m as [|m]; [lia|]. cbn [acceptRun].
  pose proof (valueTK_len s) as V. destruct (valueTK s) as [k r] eqn:E. specialize (V k r eq_refl).
  destruct k as [| | |v|v| |]; try reflexivity.
  - destruct v as [|x v]; [destruct V as [V | ->]|].
    + rewrite (IH m r); [reflexivity| |]; lia.
    + now rewrite !acceptRun_stuck.
    + rewrite (IH m r); [reflexivity| |]; lia.
  - rewrite (IH m r); [reflexivity| |]; lia.
Qed.
Lemma acceptRun_len n : forall s vs k r, acceptRun n s = Some (vs, k, r) -> match k with KOpen | KClose => (length r < length s)%nat | KDone | KErr => True | _ => False end.
Proof.
  induction n as [|n IH]; intros s vs k r H; [discriminate H|]. cbn [acceptRun] in H.
  pose proof (valueTK_len s) as V. destruct (valueTK s) as [k' r'] eqn:E. specialize (V k' r' eq_refl).
  assert (NN : forall n, k' <> KName n).
  { intros nm ->. clear - E. unfold valueTK in E. destruct (snd (span isSpace s)) as [|c q]; [discriminate E|].
    repeat match type of E with (if ?b then _ else _) = _ => destruct b end; try discriminate E.
    - unfold openTK in E. destruct (snd _) as [|d z]; [discriminate E|]. destruct (d =? 0); [discriminate E|]. destruct (d =? 40); discriminate E.
    - destruct (quotedString _); discriminate E.
    - destruct (span isDigit (c :: q)) as [a r1]. destruct (match r1 with [] => _ | _ => _ end) as [p0 r2]. destruct (span isDigit r2). discriminate E.
    - destruct (span _ _). discriminate E. }
  destruct k' as [| | nm |v|v| |].
  1, 2: injection H as <- <- <-; exact V.
  1: now destruct (NN nm).
  3, 4: injection H as <- <- <-; exact I.
  all: destruct (acceptRun n r') as [[[vs' k'] r'']|] eqn:A; [|discriminate H]; injection H as <- <- <-; specialize (IH _ _ _ _ A);
    destruct k'; try exact IH.
  all: try (destruct v as [|? v]; [destruct V as [V | ->]|]); lia.
Qed.
Section L.
Variable L : tlibs.
Lemma readValues_len n : forall name acc s t r, readValues L n name acc s = ROk t r -> (length r < length s)%nat.
Proof.
  induction n as [|n IH]; intros name acc s t r H; [discriminate H|]. cbn [readValues] in H.
  destruct (acceptRun n s) as [[[vs k] q]|] eqn:A; [|discriminate H]. apply acceptRun_len in A.
  destruct (negb _); [destruct k; discriminate H|]. destruct k; try discriminate H.
  - destruct (nameTK q) as [k q'] eqn:N. destruct k; try discriminate H. apply nameTK_len in N.
    destruct (readValues L n s0 [] q') as [t' q''| | |] eqn:R; try discriminate H. apply IH in R. apply IH in H. lia.
  - injection H as _ <-. exact A.
Qed.
Lemma readValues_fuel n : forall m name acc s, (length s + 1 < n)%nat -> (length s + 1 < m)%nat -> readValues L n name acc s = readValues L m name acc s.
Proof.
  induction n as [|n IH]; intros m name acc s Hn Hm; [lia|]. destruct m as [|m]; [lia|]. cbn [readValues].
  rewrite (acceptRun_fuel n m s) by lia. destruct (acceptRun m s) as [[[vs k] q]|] eqn:A; [|reflexivity]. apply acceptRun_len in A.
  destruct (negb _); [reflexivity|]. destruct k; try reflexivity.
  destruct (nameTK q) as [k q'] eqn:N. destruct k as [| |nm| | | |]; try reflexivity. apply nameTK_len in N.
  rewrite (IH m nm [] q') by lia. destruct (readValues L m nm [] q') as [t' q''| | |] eqn:R; try reflexivity.
  apply readValues_len in R. apply IH; lia.
Qed.
Lemma readTag_fuel n m s : (length s <= n)%nat -> (length s <= m)%nat -> readTag L n s = readTag L m s.
Proof.
  intros Hn Hm. unfold readTag. destruct (openTK s) as [k r] eqn:O. destruct k; try reflexivity. apply openTK_len in O.
  destruct (nameTK r) as [k q] eqn:N. destruct k as [| |nm| | | |]; try reflexivity. apply nameTK_len in N. apply readValues_fuel; lia.
Qed.
Lemma readTag_len n s t r : readTag L n s = ROk t r -> (length r < length s)%nat.
Proof.
  unfold readTag. destruct (openTK s) as [k q] eqn:O. destruct k; try discriminate. apply openTK_len in O.
  destruct (nameTK q) as [k q'] eqn:N. destruct k as [| |nm| | | |]; try discriminate. apply nameTK_len in N. intros H. apply readValues_len in H. lia.
Qed.
Lemma parse_fuel n : forall m s, (length s < n)%nat -> (length s < m)%nat -> parse L n s = parse L m s.
Proof.
  induction n as [|n IH]; intros m s Hn Hm; [lia|]. destruct m as [|m]; [lia|]. cbn [parse]. rewrite (readTag_fuel n m s) by lia.
  destruct (readTag L m s) as [t r| | |] eqn:R; try reflexivity. apply readTag_len in R. rewrite (IH m r) by lia. reflexivity.
Qed.
Lemma ptext_fuel n data : (length data < n)%nat -> parseTextData L n data = ptext L data.
Proof. intros H. unfold ptext, parseTextData. now rewrite (parse_fuel n (S (S (S (length data)))) data) by lia. Qed.
(** less fuel never gives another answer *)
Lemma acceptRun_mono n : forall m s x, (n <= m)%nat -> acceptRun n s = Some x -> acceptRun m s = Some x.
Proof.
  induction n as [|n IH]; intros m s x Hm H; [discriminate H|]. destruct m as [|m]; [lia|]. cbn [acceptRun] in *.
  destruct (valueTK s) as [k r]. destruct k; auto;
    (destruct (acceptRun n r) as [[[vs k] q]|] eqn:A; [|discriminate H]; rewrite (IH m r _ ltac:(lia) A); exact H).
Qed.
Lemma readValues_mono n : forall m name acc s, (n <= m)%nat -> readValues L n name acc s <> RNoFuel -> readValues L m name acc s = readValues L n name acc s.
Proof.
  induction n as [|n IH]; intros m name acc s Hm H; [now destruct H|]. destruct m as [|m]; [lia|]. cbn [readValues] in *.
  destruct (acceptRun n s) as [[[vs k] r]|] eqn:A; [|now destruct H]. rewrite (acceptRun_mono n m s _ ltac:(lia) A).
  destruct (negb _); [reflexivity|]. destruct k; try reflexivity. destruct (nameTK r) as [k q]. destruct k as [| |nm| | | |]; try reflexivity.
  destruct (readValues L n nm [] q) as [t q'| | |] eqn:R; [| | |now destruct H]; rewrite (IH m nm [] q) by (lia || rewrite R; discriminate); rewrite R; [|reflexivity|reflexivity].
  apply IH; [lia|exact H].
Qed.
Lemma parse_mono n : forall m s, (n <= m)%nat -> parse L n s <> PNoFuel -> parse L m s = parse L n s.
Proof.
  induction n as [|n IH]; intros m s Hm H; [now destruct H|]. destruct m as [|m]; [lia|]. cbn [parse] in *.
  assert (X : readTag L n s <> RNoFuel) by (intros X; rewrite X in H; now apply H).
  assert (Y : readTag L m s = readTag L n s).
  { unfold readTag in *. destruct (openTK s) as [k q]. destruct k; try reflexivity. destruct (nameTK q) as [k q']. destruct k as [| |nm| | | |]; try reflexivity.
    apply readValues_mono; [lia|exact X]. }
  rewrite Y. destruct (readTag L n s) as [t r| | |]; try reflexivity. destruct (parse L n r) eqn:P; [| |now destruct H]; rewrite (IH m r) by (lia || rewrite P; discriminate); now rewrite P.
Qed.
End L.
