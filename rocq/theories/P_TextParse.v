(** C62: parsing the data of a text layer. *)
From Coq Require Import String.
Require Import Verif.Base Verif.M_Ora Verif.L_List Verif.M_Color Verif.M_Rect Verif.M_Image Verif.M_Reader Verif.M_Monad Verif.M_Decode Verif.S_Rle Verif.S_Decode Verif.L_Fuel Verif.L_Words Verif.P_Decode Verif.M_Text
  Verif.S_Text Verif.L_Text Verif.L_Text2 Verif.L_Text3.
From Coq Require Import ZifyBool ZifyNat.
Open Scope Z_scope.
Open Scope list_scope.

Lemma clean_out c s : clean Outside (c :: s) -> c <> 0 -> c <> 34 -> (48 <=? c) && (c <=? 57) = false -> letter c || bracket_or_space c = true /\ clean Outside s.
Proof.
  cbn [clean]. intros H A B D. rewrite D in H. replace (c =? 0) with false in H by lia. replace (c =? 34) with false in H by lia.
  destruct (letter c || bracket_or_space c); [auto|]. destruct (c =? 46); contradiction.
Qed.
Lemma clean_app p w s : Forall (fun c => letter c || bracket_or_space c = true) w -> clean p (w ++ s) -> p <> InString -> p <> AfterBackslash -> w = [] \/ clean Outside s.
Proof.
  intros F. revert p. induction F as [|c w Hc F IH]; intros p H N1 N2; [now left|right].
  assert (X : clean Outside (w ++ s)).
  { destruct p; try contradiction; cbn [app clean] in H; unfold letter, bracket_or_space in *;
    (replace (c =? 0) with false in H by lia); (replace (c =? 34) with false in H by lia); rewrite Hc in H; exact H. }
  destruct (IH Outside X) as [-> | Y]; try discriminate; auto.
Qed.
Lemma clean_int w s : Forall (fun c => isDigit c = true) w -> clean InInt (w ++ s) -> clean InInt s.
Proof.
  intros F. induction F as [|c w Hc F IH]; intros H; [exact H|]. apply IH. cbn [app clean] in H. unfold isDigit, letter, bracket_or_space in *.
  replace (c =? 0) with false in H by lia. replace (c =? 34) with false in H by lia.
  replace (_ || _) with false in H by lia. rewrite Hc in H. exact H.
Qed.
Lemma clean_frac w s : Forall (fun c => isDigit c = true) w -> clean InFrac (w ++ s) -> clean InFrac s.
Proof.
  intros F. induction F as [|c w Hc F IH]; intros H; [exact H|]. apply IH. cbn [app clean] in H. unfold isDigit, letter, bracket_or_space in *.
  replace (c =? 0) with false in H by lia. replace (c =? 34) with false in H by lia.
  replace (_ || _) with false in H by lia. rewrite Hc in H. exact H.
Qed.
Lemma clean_space w s : Forall (fun c => isSpace c = true) w -> clean Outside (w ++ s) -> clean Outside s.
Proof.
  intros F H. destruct (clean_app Outside w s) as [-> | X]; [|exact H|discriminate|discriminate|exact H|exact X].
  eapply Forall_impl; [|exact F]. intros c Hc. unfold isSpace, letter, bracket_or_space in *. lia.
Qed.
Lemma clean_high w s : Forall (fun c => 128 <= c) w -> clean InString (w ++ s) -> clean InString s.
Proof.
  intros F. induction F as [|c w Hc F IH]; intros H; [exact H|]. apply IH. cbn [app clean] in H.
  replace (c =? 34) with false in H by lia. replace (c =? 92) with false in H by lia. exact H.
Qed.
Lemma clean_unquote n : forall s acc v r, clean InString s -> (List.length s < n)%nat -> unquote n s acc = (v, r) -> clean Outside r.
Proof.
  induction n as [|n IH]; intros s acc v r C LN H; [lia|]. cbn [unquote] in H. destruct (span _ s) as [p q] eqn:E.
  pose proof (span_all_in _ _ _ _ E) as F. destruct (span_split _ _ _ _ E) as [-> N].
  assert (Cq : clean InString q).
  { clear - F C. induction F as [|c p Hc F IH]; [exact C|]. apply IH. cbn [app clean] in C.
    replace (c =? 34) with false in C by lia. replace (c =? 92) with false in C by lia. exact C. }
  destruct q as [|c q]; [injection H as <- <-; exact I|]. rewrite app_length in LN. cbn [List.length] in LN. cbn [clean] in Cq.
  destruct (c =? 92) eqn:C92.
  - destruct (peekStr q) as [w q'] eqn:P. replace (c =? 34) with false in Cq by lia.
    apply peekStr_len in P as PL. eapply IH; [|idtac|exact H]; [|lia].
    destruct (peekStr_split _ _ _ P) as [-> | (a & x & -> & FX)]; [exact I|]. cbn [clean] in Cq. now apply clean_high in Cq.
  - replace (c =? 34) with true in Cq by lia. injection H as <- <-. exact Cq.
Qed.
Lemma clean_openTK s r : clean Outside s -> openTK s = (KOpen, r) -> clean Outside r.
Proof.
  intros C. unfold openTK. destruct (span isSpace s) as [p q] eqn:E. pose proof (span_all_in _ _ _ _ E) as F. destruct (span_split _ _ _ _ E) as [-> _].
  apply clean_space in C; [|exact F]. cbn [snd]. destruct q as [|c q]; [discriminate|]. destruct (c =? 0); [discriminate|]. destruct (c =? 40) eqn:C40; [|discriminate].
  intros H. injection H as <-. apply clean_out in C; [apply C| | |]; lia.
Qed.
Lemma clean_nameTK s n r : clean Outside s -> nameTK s = (KName n, r) -> clean Outside r.
Proof.
  intros C. unfold nameTK. destruct (span isValName s) as [p q] eqn:E. pose proof (span_all_in _ _ _ _ E) as F. destruct (span_split _ _ _ _ E) as [-> _].
  destruct p as [|x p]; [discriminate|]. intros H. injection H as _ <-.
  destruct (clean_app Outside (x :: p) q) as [X|X]; [|exact C|discriminate|discriminate|discriminate X|exact X].
  eapply Forall_impl; [|exact F]. intros c Hc. unfold letter. unfold isValName in Hc. now rewrite Hc.
Qed.
(** from a clean place every value takes a character, and leaves a clean place *)
Lemma clean_valueTK s k r : clean Outside s -> valueTK s = (k, r) ->
  match k with KStr _ | KNum _ => (List.length r < List.length s)%nat /\ clean Outside r | KOpen | KClose => clean Outside r | _ => True end.
Proof.
  intros C H. pose proof (valueTK_len s k r H) as LV. unfold valueTK in H. destruct (span isSpace s) as [p q] eqn:E. pose proof (span_all_in _ _ _ _ E) as F.
  destruct (span_split _ _ _ _ E) as [-> N]. apply clean_space in C; [|exact F]. cbn [snd] in H.
  destruct q as [|c q]; [injection H as <- <-; exact I|].
  destruct (c =? 0) eqn:C0; [injection H as <- <-; exact I|].
  destruct (c =? 40) eqn:C40.
  { pose proof (clean_openTK _ r C) as CO. unfold openTK in *. cbn [span] in *. rewrite N in *. cbn [snd] in *. rewrite C0, C40 in *.
    injection H as <- <-. now apply CO. }
  destruct (c =? 41) eqn:C41; [injection H as <- <-; apply clean_out in C; [apply C| | |]; lia|].
  destruct (c =? 34) eqn:C34.
  { unfold quotedString in H. rewrite C34 in H. destruct (unquote _ q []) as [v r'] eqn:U. injection H as <- <-. pose proof (unquote_len _ _ _ _ _ U).
    split; [rewrite app_length; cbn [List.length]; lia|]. eapply clean_unquote; [|idtac|exact U]; [|cbn; lia]. cbn [clean] in C. now rewrite C0, C34 in C. }
  destruct (isDigit c) eqn:D.
  { cbn [span] in H. rewrite D in H. destruct (span isDigit q) as [a r1] eqn:S1. pose proof (span_all_in _ _ _ _ S1) as F1. destruct (span_split _ _ _ _ S1) as [-> N1].
    assert (C1 : clean InInt r1).
    { apply (clean_int a); [exact F1|]. cbn [clean] in C. rewrite C0, C34 in C. unfold isDigit in D. unfold letter, bracket_or_space in C. replace (_ || _) with false in C by lia.
      rewrite D in C. exact C. }
    destruct r1 as [|d r1].
    { cbn [span] in H. injection H as <- <-. split; [exact LV|exact I]. }
    destruct (d =? 46) eqn:D46.
    - destruct (span isDigit r1) as [b r3] eqn:S2. pose proof (span_all_in _ _ _ _ S2) as F2. destruct (span_split _ _ _ _ S2) as [-> N2]. injection H as <- <-.
      split; [exact LV|]. cbn [clean] in C1. unfold letter, bracket_or_space in C1. replace (d =? 0) with false in C1 by lia. replace (d =? 34) with false in C1 by lia.
      replace (_ || _) with false in C1 by lia. replace (_ && _) with false in C1 by lia. rewrite D46 in C1. apply clean_frac in C1; [|exact F2].
      destruct r3 as [|x r3]; [exact I|]. cbn [clean] in *. unfold isDigit in N2. rewrite N2 in *. exact C1.
    - cbn [span] in H. rewrite N1 in H. injection H as <- <-. split; [exact LV|]. cbn [clean] in *. rewrite D46 in *. unfold isDigit in N1. rewrite N1 in *. exact C1. }
  destruct (span isValName (c :: q)) as [a r1] eqn:S1. injection H as <- <-. pose proof (span_all_in _ _ _ _ S1) as F1. destruct (span_split _ _ _ _ S1) as [E1 N1].
  pose proof (clean_out c q C ltac:(lia) ltac:(lia) D) as [LT _].
  assert (NE : a <> []).
  { intros ->. cbn [app] in E1. rewrite <- E1 in N1. unfold isValName in N1. unfold letter, bracket_or_space in LT. unfold isSpace in N. lia. }
  split; [destruct a; [contradiction|exact LV]|]. rewrite E1 in C.
  destruct (clean_app Outside a r1) as [X|X]; [|exact C|discriminate|discriminate|contradiction|exact X].
  eapply Forall_impl; [|exact F1]. intros y Hy. unfold letter. unfold isValName in Hy. now rewrite Hy.
Qed.
Lemma clean_acceptRun n : forall s, clean Outside s -> (List.length s < n)%nat ->
  exists vs k r, acceptRun n s = Some (vs, k, r) /\ match k with KOpen | KClose => clean Outside r | _ => True end.
Proof.
  induction n as [|n IH]; intros s C LN; [lia|]. cbn [acceptRun]. pose proof (clean_valueTK s) as V. destruct (valueTK s) as [k r]. specialize (V k r C eq_refl).
  destruct k; try (do 3 eexists; split; [reflexivity|exact V || exact I]);
  destruct V as [LV CV]; destruct (IH r CV ltac:(lia)) as (vs & k & q & -> & X); eauto.
Qed.
Lemma clean_readValues L n : forall name acc s, clean Outside s -> (List.length s + 1 < n)%nat ->
  match readValues L n name acc s with ROk _ r => clean Outside r | RNoFuel => False | _ => True end.
Proof.
  induction n as [|n IH]; intros name acc s C LN; [lia|]. cbn [readValues]. destruct (clean_acceptRun n s C ltac:(lia)) as (vs & k & r & A & X). rewrite A. apply acceptRun_len in A.
  destruct (negb _); [destruct k; exact I|]. destruct k; try exact I; [|exact X].
  destruct (nameTK r) as [k q] eqn:N. destruct k as [| |nm| | | |]; try exact I. pose proof (nameTK_len _ _ _ N). apply clean_nameTK in N; [|exact X].
  pose proof (IH nm [] q N ltac:(lia)) as R. destruct (readValues L n nm [] q) as [t q'| | |] eqn:RV; try exact I; [|contradiction]. apply readValues_len in RV. apply IH; [exact R|lia].
Qed.
Lemma clean_parse L n : forall s, clean Outside s -> (List.length s < n)%nat -> parse L n s <> PNoFuel.
Proof.
  induction n as [|n IH]; intros s C LN; [lia|]. cbn [parse]. pose proof (readTag_len L n s) as LT.
  assert (X : match readTag L n s with ROk _ r => clean Outside r | RNoFuel => False | _ => True end).
  { unfold readTag. destruct (openTK s) as [k r] eqn:O. destruct k; try exact I. pose proof (openTK_len _ _ O). apply clean_openTK in O; [|exact C].
    destruct (nameTK r) as [k q] eqn:N. destruct k as [| |nm| | | |]; try exact I. pose proof (nameTK_len _ _ _ N). apply clean_nameTK in N; [|exact O].
    apply clean_readValues; [exact N|lia]. }
  destruct (readTag L n s) as [t r| | |]; try discriminate; [|contradiction]. specialize (LT t r eq_refl). specialize (IH r X ltac:(lia)).
  destruct (parse L n r); congruence.
Qed.

(** ** C62
    Full statement: parseTextData returns, with a text or an error, on all data.
    It is false (C62_refuted): the parser may run for ever, or panic.  It holds of
    data that is [clean] and has no tag that is [short]. *)
Lemma loop_hang toks ok : forall st, markupLoop toks ok st <> THang.
Proof.
  induction toks as [|[n a| |x|] toks IH]; intros st; cbn [markupLoop]; [destruct ok; discriminate| | | |apply IH].
  - destruct st as [|top st]; [discriminate|]. destruct (processText n a top); [apply IH|discriminate].
  - destruct st; [discriminate|apply IH].
  - destruct st as [|top st]; [discriminate|]. specialize (IH (top :: st)). destruct (markupLoop toks ok (top :: st)); congruence.
Qed.
Lemma hang_parse L n data : parseTextData L n data = THang <-> parse L n data = PNoFuel.
Proof.
  unfold parseTextData. destruct (parse L n data) as [tags| |]; [|split; discriminate|split; reflexivity].
  split; [|discriminate]. destruct (parseText L tags) as [[m t]|]; [|discriminate]. destruct (tdData t); [|discriminate].
  destruct (tl_xml L m) as [toks ok]. intros H. now apply loop_hang in H.
Qed.
(** The answer [THang] of [ptext] means that no number of steps is enough; any other
    answer is that of every number of steps above the length of the data. *)
Theorem C62_steps L data : (forall n, (List.length data < n)%nat -> parseTextData L n data = ptext L data) /\
  (ptext L data = THang <-> forall n, parseTextData L n data = THang).
Proof.
  split; [intros n; apply ptext_fuel|]. split; [|intros H; apply H]. intros H n. apply hang_parse.
  destruct (parse L n data) eqn:P; [| |reflexivity]; exfalso; unfold ptext in H; rewrite hang_parse in H;
  (destruct (Nat.le_gt_cases n (S (S (S (List.length data))))) as [Q|Q];
    [rewrite (parse_mono L n) in H by (exact Q || rewrite P; discriminate)|rewrite (parse_fuel L _ n) in H by lia]; congruence).
Qed.
Print Assumptions C62_steps.
Theorem C62_ends_partial L data : clean Outside data -> ptext L data <> THang.
Proof. intros C H. unfold ptext in H. rewrite hang_parse in H. revert H. apply clean_parse; [exact C|lia]. Qed.
Print Assumptions C62_ends_partial.

(** a tag too short for the elements the code takes from it *)
Definition short (t : tag) : Prop :=
  match t with
  | mkTag name vs => (name = str "text" /\ vs = []) \/
      (name = str "color" /\ exists us, vs = [VTag (mkTag (str "color-rgb") us)] /\ (List.length us < 3)%nat)
  end.
(** the elements of a document, as encoding/xml hands them out: an end only after its start *)
Fixpoint matched (depth : nat) (toks : list xtok) : Prop :=
  match toks with
  | [] => True
  | XStart _ _ :: toks => matched (S depth) toks
  | XEnd :: toks => match depth with O => False | S d => matched d toks end
  | _ :: toks => matched depth toks
  end.
Lemma matched_loop toks ok : forall st, matched (List.length st) toks -> forall t, markupLoop toks ok (st ++ [t]) <> TPanic.
Proof.
  induction toks as [|[n a| |x|] toks IH]; intros st M t; cbn [markupLoop matched] in *; [destruct ok; discriminate| | | |now apply IH].
  - destruct (st ++ [t]) as [|top r] eqn:E; [destruct st; discriminate E|]. destruct (processText n a top) as [u|]; [|discriminate].
    rewrite <- E. now apply (IH (u :: st)).
  - destruct st as [|u st]; [contradiction|]. cbn [app]. now apply IH.
  - destruct (st ++ [t]) as [|top r] eqn:E; [destruct st; discriminate E|]. rewrite <- E. specialize (IH st M t). destruct (markupLoop toks ok (st ++ [t])); congruence.
Qed.
Lemma streq_eq a b : streq a b = true <-> a = b.
Proof. unfold streq. destruct (list_eq_dec Z.eq_dec a b); split; congruence. Qed.
Lemma textTag_short L st t : textTag L st t = None <-> short t.
Proof.
  destruct st as [m td]. destruct t as [name vs]. cbn [textTag tgName tgValues short].
  destruct (streq name (str "text")) eqn:E1.
  { apply streq_eq in E1 as ->. destruct vs; split; auto; try discriminate. intros [[_ X]|[X _]]; [discriminate X|discriminate X]. }
  assert (N1 : name <> str "text") by (intros ->; rewrite (proj2 (streq_eq _ _) eq_refl) in E1; discriminate).
  destruct (streq name (str "markup")) eqn:E2.
  { apply streq_eq in E2 as ->. destruct vs as [|v [|]]; (split; [discriminate|]); (intros [[X _]|[X _]]; discriminate X). }
  destruct (streq name (str "font")) eqn:E3.
  { apply streq_eq in E3 as ->. destruct vs as [|v [|]]; (split; [discriminate|]); (intros [[X _]|[X _]]; discriminate X). }
  destruct (streq name (str "font-size")) eqn:E4.
  { apply streq_eq in E4 as ->. destruct vs as [|v [|]]; (split; [discriminate|]); (intros [[X _]|[X _]]; discriminate X). }
  destruct (streq name (str "color")) eqn:E5.
  2:{ split; [discriminate|]. intros [[X _]|[X _]]; [contradiction|]. rewrite (proj2 (streq_eq _ _) X) in E5. discriminate. }
  apply streq_eq in E5 as ->. split.
  - destruct vs as [|v [|]]; try discriminate. destruct v as [x|x|[nm us]]; cbn [tagOf tgName tgValues]; try (cbn; discriminate).
    destruct (streq nm (str "color-rgb")) eqn:E6; [|discriminate]. apply streq_eq in E6 as ->. destruct us as [|a [|b [|c us]]]; cbn [andb].
    1-3: intros _; right; split; [reflexivity|]; eexists; split; [reflexivity|]; cbn; lia.
    destruct (negb _); discriminate.
  - intros [[X _]|(_ & us & -> & LU)]; [discriminate X|]. cbn [tagOf tgName tgValues]. rewrite (proj2 (streq_eq _ _) eq_refl). cbn [andb].
    destruct us as [|a [|b [|c us]]]; try reflexivity. cbn in LU. lia.
Qed.
Lemma textTags_short L tags : forall st, textTags L tags st = None <-> Exists short tags.
Proof.
  induction tags as [|t tags IH]; intros st; cbn [textTags]; [split; [discriminate|intros H; inversion H]|].
  unfold obind. pose proof (textTag_short L st t) as T. destruct (textTag L st t) as [st'|].
  - rewrite IH. split; [now constructor 2|]. intros H. inversion H; [|assumption]. apply T in H1. discriminate.
  - split; [|reflexivity]. intros _. constructor. now apply T.
Qed.
(** parseTextData panics exactly when the data has a short tag *)
Theorem C62_panics L data : (forall m, matched 0 (fst (tl_xml L m))) ->
  ptext L data = TPanic <-> exists tags, parse L (S (List.length data)) data = POk tags /\ Exists short tags.
Proof.
  intros M. unfold ptext, parseTextData. rewrite (parse_fuel L _ (S (List.length data)) data) by lia.
  destruct (parse L (S (List.length data)) data) as [tags| |]; [|split; [discriminate|intros (? & X & _); discriminate X]|split; [discriminate|intros (? & X & _); discriminate X]].
  unfold parseText. pose proof (textTags_short L tags ([], td0)) as T. destruct (textTags L tags ([], td0)) as [[m t]|].
  - split; [|intros (? & X & Y); injection X as <-; now apply T in Y]. destruct (tdData t); [|discriminate].
    specialize (M m). destruct (tl_xml L m) as [toks ok]. intros H. now apply (matched_loop toks ok [] M t) in H.
  - split; [|reflexivity]. intros _. exists tags. split; [reflexivity|now apply T].
Qed.
Print Assumptions C62_panics.
(** so, on clean data without short tags, it answers *)
Theorem C62_answers_partial L data : (forall m, matched 0 (fst (tl_xml L m))) -> clean Outside data ->
  (forall tags, parse L (S (List.length data)) data = POk tags -> ~ Exists short tags) ->
  ptext L data = TErr \/ exists t, ptext L data = TOk t.
Proof.
  intros M C S. pose proof (C62_ends_partial L data C) as H. pose proof (proj1 (C62_panics L data M)) as P.
  destruct (ptext L data) as [t| | |]; eauto; [|now destruct H]. destruct (P eq_refl) as (tags & Q & X). now destruct (S tags Q).
Qed.
Print Assumptions C62_answers_partial.

(** Decode with the parser of the code *)
Theorem C40_text_partial L f f32op dec : bytes f -> ~ endless f -> (forall t, text_data f t -> clean Outside t) ->
  exists r, r <> NoFuel /\ forall n, 70368744177664 <= Z.of_nat n -> decodeImage n f f32op (ptext L) dec = r.
Proof. intros HB HE HT. apply C40_partial; auto. intros t T. apply C62_ends_partial. auto. Qed.
Print Assumptions C40_text_partial.
Theorem C41_text_returns L f f32op : (forall m, matched 0 (fst (tl_xml L m))) -> bytes f -> ~ endless f -> ~ huge f -> ~ wrapping f -> ~ base_unknown f ->
  (forall t, text_data f t -> clean Outside t /\ forall tags, parse L (S (List.length t)) t = POk tags -> ~ Exists short tags) ->
  exists r, forall n, 70368744177664 <= Z.of_nat n -> decode n f f32op (ptext L) = Ret r.
Proof.
  intros M HB HE HH HW HU HT. apply C41_returns; auto. intros t T. destruct (HT t T) as [C S].
  destruct (C62_answers_partial L t M C S) as [-> | [x ->]]; split; discriminate.
Qed.
Print Assumptions C41_text_returns.

(** a file with one group layer that has the given text parasite (a group has no pixels
    to be read) *)
Definition text_file (data : list Z) : list Z :=
  [103; 105; 109; 112; 32; 120; 99; 102; 32; 118; 48; 48; 51; 0] ++ w32 1 ++ w32 1 ++ w32 0
  ++ w32 0 ++ w32 0 ++ w32 42 ++ w32 0
  ++ w32 1 ++ w32 1 ++ w32 1 ++ w32 0 ++ w32 29 ++ w32 0
  ++ w32 21 ++ w32 (28 + zlen data) ++ w32 16 ++ textParasiteName ++ [0] ++ w32 0 ++ w32 (zlen data) ++ data
  ++ w32 0 ++ w32 0 ++ w32 0 ++ w32 0.
Definition hang_text : list Z := str "(a ?)".
Definition panic_text : list Z := str "(text)".
Definition panic_text2 : list Z := str "(color (color-rgb 1 2))".
(** The parser runs for ever on (a ?) and panics on (text) and on a colour of two
    numbers; files holding them make Decode do the same. *)
Theorem C62_refuted L : ptext L hang_text = THang /\ ptext L panic_text = TPanic /\
  (forall n f32op, decode n (text_file hang_text) f32op (ptext L) = NoFuel) /\
  (forall f32op, decode 20 (text_file panic_text) f32op (ptext L) = Panic PText).
Proof.
  split; [vm_compute; reflexivity|]. split; [vm_compute; reflexivity|]. split.
  2:{ intros f32op. vm_compute. reflexivity. }
  intros n f32op. set (pt := ptext L) in *. assert (PT : pt hang_text = THang) by (vm_compute; reflexivity). clearbody pt.
  assert (G : forall k, (10 <= k)%nat -> decodeImage k (text_file hang_text) f32op pt true = NoFuel).
  2:{ destruct (le_decodeImage n (10 + n) (text_file hang_text) f32op pt true ltac:(lia)) as [H|H]; [exact H|].
      unfold decode. rewrite H. apply G. lia. }
  intros k K. unfold decodeImage, decodeImageFrom. cbv zeta.
  replace (newReader (text_file hang_text)) with (mkSrc (text_file hang_text) false) by (vm_compute; reflexivity).
  set (s := mkSrc (text_file hang_text) false).
  replace (readHeader s (mkR 0 None)) with (@Ret ((err + Z) * rst) (inr 0, mkR 14 None)) by (vm_compute; reflexivity).
  replace (readUint32 s (mkR 14 None)) with (1, mkR 18 None) by (vm_compute; reflexivity).
  replace (readUint32 s (mkR 18 None)) with (1, mkR 22 None) by (vm_compute; reflexivity).
  replace (readUint32 s (mkR 22 None)) with (0, mkR 26 None) by (vm_compute; reflexivity).
  change (0 <? 0) with false. cbv iota.
  rewrite (le_ret _ _ (inr (None, 0), mkR 34 None) (le_readImageProperties 10 k s K 0 (mkR 26 None))) by (vm_compute; reflexivity).
  rewrite (le_ret _ _ ([42], mkR 42 None) (le_readLayerPointers 10 k s K 0 (mkR 34 None))) by (vm_compute; reflexivity).
  cbn [rErr mapO].
  assert (RL : readLayerAt k s f32op pt (mkDP 0 true 0 None 0) 42 = NoFuel); [|rewrite RL; reflexivity].
  unfold readLayerAt.
  assert (X : (gotoM 42;;; readLayer k s f32op pt (mkDP 0 true 0 None 0)) (mkR 0 None) = NoFuel); [|rewrite X; reflexivity].
  step. unfold readLayer. step. step. step. cbv zeta. cbn [dpBase]. change (negb (1 / 2 =? 0)) with false. cbv iota.
  step.
  erewrite bind_ret.
  2:{ eapply le_ret; [apply (le_readProperties 10 k s K)|]. vm_compute. reflexivity. }
  cbv beta iota. step. step. step. cbn [M_Groups.dlGroup]. unfold finishLayer. cbv zeta.
  match goal with |- context [par_get ?ps textParasiteName] => replace (par_get ps textParasiteName) with (Some (mkPar textParasiteName 0 hang_text)) by (vm_compute; reflexivity) end.
  cbv iota. cbn [parData]. rewrite PT. reflexivity.
Qed.
Print Assumptions C62_refuted.

Definition good_text : list Z := str "(text ""a ? \"" (b"")" ++ [10] ++ str "(font-size 12.5) (color (color-rgb 1 2 3.0 4))" ++ [0; 63].
Example C62_ex : clean Outside good_text /\ (forall m, matched 0 (fst (tl_xml plain_libs m))) /\
  (forall tags, parse plain_libs (S (List.length good_text)) good_text = POk tags -> ~ Exists short tags) /\
  (exists t, ptext plain_libs good_text = TOk [t] /\ tdData t = str "a ? "" (b" /\ tdSize t = 12 /\ tdFore t = Some (CRGB 1 2 3)) /\
  ~ clean Outside hang_text /\ ptext plain_libs (str "(a 1.2.3)") = THang /\ ptext plain_libs (str "x") = TErr /\
  match decode 20 (text_file good_text) (fun z => z) (ptext plain_libs) with
  | Ret (inr [l]) => lImage l = IGroup []
  | _ => False
  end.
Proof.
  split; [vm_compute; repeat split; auto|]. split; [intros m; exact I|].
  split.
  { intros tags H. rewrite <- textTags_short with (L := plain_libs) (st := ([], td0)).
    assert (X : match parse plain_libs (S (List.length good_text)) good_text with POk t => textTags plain_libs t ([], td0) <> None | _ => True end) by (vm_compute; discriminate).
    rewrite H in X. exact X. }
  split; [eexists; split; [vm_compute; reflexivity|vm_compute; auto]|].
  split; [vm_compute; tauto|]. split; [vm_compute; reflexivity|]. split; [vm_compute; reflexivity|].
  vm_compute. reflexivity.
Qed.
(** the file with that text meets the hypotheses of C40_text_partial and
    C41_text_returns *)
Example C41_text_ex : let f := text_file good_text in
  bytes f /\ ~ endless f /\ ~ huge f /\ ~ wrapping f /\ ~ base_unknown f /\ text_data f good_text /\
  (forall t, text_data f t -> clean Outside t /\ forall tags, parse plain_libs (S (List.length t)) t = POk tags -> ~ Exists short tags).
Proof.
  cbv zeta. set (f := text_file good_text). split; [apply bytes_test; vm_compute; reflexivity|].
  destruct (sound_sizes f ltac:(vm_compute; reflexivity)) as (A & B & C). split; [exact A|]. split; [exact B|]. split; [exact C|].
  split; [intros (b & W & L); apply word_rd4 in W; vm_compute in W; injection W as <-; lia|].
  split.
  { exists 74. split; [apply rd4_word; vm_compute; reflexivity|].
    split; [exists (ztake 78 f), (zdrop 94 f); split; vm_compute; reflexivity|]. right.
    split; [apply rd4_word; vm_compute; reflexivity|]. exists good_text, 0%nat.
    split; [exists (ztake 102 f), (zdrop (102 + zlen good_text) f); split; vm_compute; reflexivity|].
    split; [vm_compute; reflexivity|now left]. }
  intros t T. apply text_cands_ok in T; [|vm_compute; discriminate].
  assert (TC : text_cands f = [[]; good_text]) by (vm_compute; reflexivity). rewrite TC in T.
  destruct T as [<-|[<-|[]]].
  - split; [exact I|]. intros tags H. vm_compute in H. injection H as <-. intros X. inversion X.
  - split; [exact (proj1 C62_ex)|exact (proj1 (proj2 (proj2 C62_ex)))].
Qed.
