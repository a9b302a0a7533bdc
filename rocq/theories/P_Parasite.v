(** C71: the language that the parser of text parasites reads. *)
From Coq Require Import String.
Require Import Verif.Base Verif.L_List Verif.M_Color Verif.M_Image Verif.M_Decode Verif.M_Ora Verif.M_Text
  Verif.S_String Verif.L_String Verif.S_Text Verif.L_Text Verif.L_Text2 Verif.L_Text3 Verif.S_Parasite.
From Coq Require Import ZifyBool ZifyNat.
Open Scope Z_scope.
Open Scope list_scope.

(** ** starts *)
Lemma starts_app P b c t : ~ starts P b -> ~ P c -> ~ starts P (b ++ c :: t).
Proof. destruct b; cbn; auto. Qed.
Lemma starts_less P b t : ~ starts P (b ++ t) -> ~ starts P b.
Proof. destruct b; cbn; auto. Qed.
Definition stops (f : Z -> bool) (r : list Z) : Prop := match r with [] => True | c :: _ => f c = false end.
Lemma stops_letter r : ~ starts (fun c => letter c = true) r -> stops isValName r.
Proof. destruct r as [|c r]; cbn; [auto|]. change (isValName c) with (letter c). destruct (letter c); congruence. Qed.
Lemma stops_letter_inv r : stops isValName r -> ~ starts (fun c => letter c = true) r.
Proof. destruct r as [|c r]; cbn; [auto|]. change (isValName c) with (letter c). destruct (letter c); congruence. Qed.
Lemma stops_digit r : ~ starts (fun c => 48 <= c <= 57) r -> stops isDigit r.
Proof. destruct r as [|c r]; cbn; [auto|]. unfold isDigit. lia. Qed.
Lemma stops_digit_inv r : stops isDigit r -> ~ starts (fun c => 48 <= c <= 57) r.
Proof. destruct r as [|c r]; cbn; [auto|]. unfold isDigit. lia. Qed.
Lemma span_ok f w r : Forall (fun c => f c = true) w -> stops f r -> span f (w ++ r) = (w, r).
Proof. intros H S. apply span_all; [|exact S]. apply forallb_forall. now apply Forall_forall. Qed.
Lemma digits_span w r : digits w -> stops isDigit r -> span isDigit (w ++ r) = (w, r).
Proof. intros H S. apply span_ok; [|exact S]. eapply Forall_impl; [|exact H]. cbv beta. unfold isDigit. lia. Qed.
Lemma word_span w r : word w -> stops isValName r -> span isValName (w ++ r) = (w, r).
Proof. intros [_ H] S. apply span_ok; [exact H|exact S]. Qed.
Lemma blank_space c : blank c <-> isSpace c = true.
Proof. unfold blank, isSpace. lia. Qed.
Lemma valueTK_skip w s : blanks w -> valueTK (w ++ s) = valueTK s.
Proof.
  intros B. assert (H : snd (span isSpace (w ++ s)) = snd (span isSpace s)).
  { induction B as [|c w Hc _ IH]; [reflexivity|]. cbn [app span]. rewrite (proj1 (blank_space c) Hc). destruct (span isSpace (w ++ s)). exact IH. }
  unfold valueTK. now rewrite H.
Qed.
Lemma openTK_skip w s : blanks w -> openTK (w ++ s) = openTK s.
Proof.
  intros B. assert (H : snd (span isSpace (w ++ s)) = snd (span isSpace s)).
  { induction B as [|c w Hc _ IH]; [reflexivity|]. cbn [app span]. rewrite (proj1 (blank_space c) Hc). destruct (span isSpace (w ++ s)). exact IH. }
  unfold openTK. now rewrite H.
Qed.

(** ** strings *)
Lemma well_encoded_dec s : isb s -> (well_encoded s <-> decodeRune s <> None).
Proof.
  intros B. split.
  - intros (c & t & S & ->). rewrite decodeRune_enc by exact S. discriminate.
  - destruct (decodeRune s) as [[[c w] t]|] eqn:D; [intros _|congruence]. destruct (decodeRune_some s c w t B D) as (-> & S & ->). exists c, t. auto.
Qed.
Lemma well_encoded_quote x b t t' : well_encoded (x :: b ++ 34 :: t) -> well_encoded (x :: b ++ 34 :: t').
Proof.
  intros (c & r & S & E). destruct (Z.ltb_spec c 128) as [L|G].
  - unfold utf8_enc in E. replace (c <? 128) with true in E by lia. cbn in E. injection E. intros _ ->. exists c, (b ++ 34 :: t'). split; [exact S|].
    unfold utf8_enc. replace (c <? 128) with true by lia. reflexivity.
  - pose proof (enc_high c S G) as H. change (x :: b ++ 34 :: t) with ((x :: b) ++ 34 :: t) in E.
    destruct (app_eq_app _ _ _ _ E) as (l & [[E1 E2]|[E1 E2]]).
    + exists c, (l ++ 34 :: t'). split; [exact S|]. change (x :: b ++ 34 :: t') with ((x :: b) ++ 34 :: t'). now rewrite E1, <- app_assoc.
    + destruct l as [|y l].
      * exists c, (34 :: t'). split; [exact S|]. rewrite E1, app_nil_r. reflexivity.
      * cbn in E2. injection E2. intros _ <-. rewrite E1 in H. apply Forall_app in H. destruct H as [_ H]. inversion H. lia.
Qed.
Lemma unquote_S f s acc : unquote (S f) s acc =
      let '(p, r) := span (fun c => negb ((c =? 34) || (c =? 92))) s in
      match r with
      | c :: r' =>
          if c =? 92 then
            let '(w, r'') := peekStr r' in
            let w' := match w with
                      | [d] => if (d =? 34) || (d =? 92) then w else 92 :: w
                      | _ => 92 :: w
                      end in
            unquote f r'' (acc ++ p ++ w')
          else (acc ++ p, r')
      | [] => (acc ++ p, [])
      end.
Proof. reflexivity. Qed.
Lemma unquote_back f s acc : unquote (S f) (92 :: s) acc =
  let '(w, r) := peekStr s in unquote f r (acc ++ match w with [d] => if (d =? 34) || (d =? 92) then w else 92 :: w | _ => 92 :: w end).
Proof. rewrite unquote_S. reflexivity. Qed.
Lemma enc_keep c : scalar_value c -> c <> 34 -> c <> 92 ->
  match utf8_enc c with [d] => if (d =? 34) || (d =? 92) then utf8_enc c else 92 :: utf8_enc c | _ => 92 :: utf8_enc c end = 92 :: utf8_enc c.
Proof.
  intros S A B. destruct (c <? 128) eqn:E.
  - assert (H : utf8_enc c = [c]) by (unfold utf8_enc; now rewrite E). rewrite H. replace ((c =? 34) || (c =? 92)) with false by lia. reflexivity.
  - unfold utf8_enc. rewrite E. destruct (c <? 2048); [reflexivity|]. destruct (c <? 65536); reflexivity.
Qed.
Lemma peekStr_enc c t : scalar_value c -> peekStr (utf8_enc c ++ t) = (utf8_enc c, t).
Proof.
  intros S. pose proof (decodeRune_enc c t S) as D. unfold peekStr. destruct (utf8_enc c ++ t) as [|x l] eqn:E; [discriminate D|]. now rewrite D.
Qed.
Lemma unquote_literal b s : literal b s -> forall f rest acc, isb (b ++ 34 :: rest) -> (List.length b < f)%nat -> unquote f (b ++ 34 :: rest) acc = (acc ++ s, rest).
Proof.
  induction 1 as [|c b s N1 N2 H IH|c b s N H IH|c b s SC N1 N2 H IH|x b s N H IH]; intros f rest acc B F; (destruct f as [|f]; [lia|]).
  - cbn [app]. rewrite unquote_end, app_nil_r. reflexivity.
  - cbn [app]. rewrite unquote_ord by (split; assumption). rewrite IH; [now rewrite <- app_assoc|now inversion B|cbn in F; lia].
  - cbn [app]. rewrite unquote_esc by lia. replace ((c =? 34) || (c =? 92)) with true by lia.
    rewrite IH; [now rewrite <- app_assoc|inversion B; now inversion H3|cbn in F; lia].
  - cbn [app]. rewrite <- app_assoc, unquote_back, peekStr_enc by exact SC. rewrite enc_keep by assumption.
    rewrite IH; [now rewrite <- app_assoc| |].
    + cbn [app] in B. inversion B. rewrite <- app_assoc in H3. now apply Forall_app in H3.
    + cbn [List.length] in F. rewrite app_length in F. lia.
  - cbn [app]. rewrite unquote_back. cbn [app] in B. inversion B as [|? ? _ B']. subst.
    assert (D : decodeRune (x :: b ++ 34 :: rest) = None).
    { destruct (decodeRune (x :: b ++ 34 :: rest)) eqn:E; [|reflexivity]. exfalso. apply (N rest). apply well_encoded_dec; [exact B'|congruence]. }
    unfold peekStr. rewrite D. rewrite IH; [now rewrite <- app_assoc|now inversion B'|cbn in F; lia].
Qed.
(** what comes out: a literal, or the end of the data *)
Lemma unquote_inv n : forall s acc v r, isb s -> (List.length s < n)%nat -> unquote n s acc = (v, r) ->
  r = [] \/ exists b x, literal b x /\ s = b ++ 34 :: r /\ v = acc ++ x.
Proof.
  induction n as [|n IH]; intros s acc v r B F; [lia|]. rewrite unquote_S.
  destruct (span _ s) as [p q] eqn:E. destruct (span_split _ _ _ _ E) as [-> N]. pose proof (span_all_in _ _ _ _ E) as P.
  assert (LIT : forall b x, literal b x -> literal (p ++ b) (p ++ x)).
  { clear - P. intros b x H. induction P as [|c p Hc _ IH]; [exact H|]. cbn. constructor; [lia|lia|exact IH]. }
  destruct q as [|c q]; [intros H; injection H as _ <-; auto|].
  destruct (c =? 92) eqn:C.
  - assert (c = 92) by lia. subst c. destruct (peekStr q) as [w q'] eqn:K. intros U. apply Forall_app in B. destruct B as [_ B]. inversion B as [|? ? _ BQ]. subst.
    unfold peekStr in K. destruct q as [|y q].
    { injection K as <- <-. destruct n; [injection U as _ <-; auto|]. cbn in U. injection U as _ <-. auto. }
    rewrite app_length in F. cbn [List.length] in F.
    destruct (decodeRune (y :: q)) as [[[cp w'] t]|] eqn:D.
    + injection K as -> ->. destruct (decodeRune_some _ _ _ _ BQ D) as (EQ & SC & ->).
      assert (LQ : (List.length q' < n)%nat) by (apply (f_equal (@List.length Z)) in EQ; rewrite app_length in EQ; cbn [List.length] in EQ; lia).
      assert (BQ' : isb q') by (rewrite EQ in BQ; now apply Forall_app in BQ).
      destruct (IH _ _ _ _ BQ' LQ U) as [->|(b & x & H & -> & ->)]; [auto|]. right.
      destruct (Z.eq_dec cp 34) as [->|N1]; [|destruct (Z.eq_dec cp 92) as [->|N2]].
      * exists (p ++ 92 :: 34 :: b), (p ++ 34 :: x). split; [apply LIT, lit_hide; auto|]. rewrite EQ, <- !app_assoc. split; reflexivity.
      * exists (p ++ 92 :: 92 :: b), (p ++ 92 :: x). split; [apply LIT, lit_hide; auto|]. rewrite EQ, <- !app_assoc. split; reflexivity.
      * exists (p ++ 92 :: utf8_enc cp ++ b), (p ++ 92 :: utf8_enc cp ++ x). split; [apply LIT, lit_keep; auto|].
        rewrite (enc_keep cp SC N1 N2), EQ. rewrite <- !app_assoc. cbn [app]. rewrite <- !app_assoc. split; reflexivity.
    + injection K as <- <-. destruct (IH q _ _ _ ltac:(now inversion BQ) ltac:(lia) U) as [->|(b & x & H & -> & ->)]; [auto|]. right.
      exists (p ++ 92 :: y :: b), (p ++ 92 :: 239 :: 191 :: 189 :: x). split; [apply LIT, lit_bad; [|exact H]|rewrite <- !app_assoc; split; reflexivity].
      intros t W. apply (well_encoded_quote y b t r) in W. apply well_encoded_dec in W; [congruence|exact BQ].
  - assert (c = 34) by (cbv beta in N; lia). subst c. intros H. injection H as <- <-. right. exists p, p. split; [|auto]. specialize (LIT [] [] lit_nil). now rewrite !app_nil_r in LIT.
Qed.

(** ** tokens *)
Lemma v_close r : valueTK (41 :: r) = (KClose, r).
Proof. reflexivity. Qed.
Lemma v_open r : valueTK (40 :: r) = (KOpen, r).
Proof. reflexivity. Qed.
Lemma v_zero r : valueTK (0 :: r) = (KDone, 0 :: r).
Proof. reflexivity. Qed.
Lemma v_string b s r : literal b s -> isb (b ++ 34 :: r) -> valueTK (34 :: b ++ 34 :: r) = (KStr s, r).
Proof.
  intros H B. unfold valueTK. cbn [span]. change (isSpace 34) with false. cbn [snd]. change (34 =? 0) with false. change (34 =? 40) with false.
  change (34 =? 41) with false. change (34 =? 34) with true. cbv iota. unfold quotedString. change (34 =? 34) with true. cbv iota.
  rewrite (unquote_literal b s H) by (exact B || (cbn [List.length]; rewrite app_length; lia)). reflexivity.
Qed.
Lemma v_word n r : word n -> stops isValName r -> valueTK (n ++ r) = (KStr n, r).
Proof.
  intros W S. pose proof (word_span n r W S) as E. destruct W as [N W]. destruct n as [|c n]; [contradiction|]. inversion W as [|? ? Hc _]. subst.
  change (isValName c = true) in Hc. cbn [app] in *. unfold valueTK.
  replace (snd (span isSpace (c :: n ++ r))) with (c :: n ++ r) by (cbn [span]; replace (isSpace c) with false by (unfold isSpace, isValName in *; lia); reflexivity).
  replace (c =? 0) with false by (unfold isValName in *; lia). replace (c =? 40) with false by (unfold isValName in *; lia).
  replace (c =? 41) with false by (unfold isValName in *; lia). replace (c =? 34) with false by (unfold isValName in *; lia).
  replace (isDigit c) with false by (unfold isDigit, isValName in *; lia). now rewrite E.
Qed.
Lemma v_digit c q : 48 <= c <= 57 -> valueTK (c :: q) =
        let '(a, r1) := span isDigit (c :: q) in
        let '(p, r2) := match r1 with c :: r2 => if c =? 46 then ([46], r2) else ([], r1) | [] => ([], r1) end in
        let '(b, r3) := span isDigit r2 in
        (KNum (a ++ p ++ b), r3).
Proof.
  intros H. unfold valueTK. replace (snd (span isSpace (c :: q))) with (c :: q) by (cbn [span]; replace (isSpace c) with false by (unfold isSpace; lia); reflexivity).
  replace (c =? 0) with false by lia. replace (c =? 40) with false by lia. replace (c =? 41) with false by lia. replace (c =? 34) with false by lia.
  replace (isDigit c) with true by (unfold isDigit; lia). reflexivity.
Qed.
Lemma v_number n r : number n -> stops isDigit r -> stops (fun c => c =? 46) r -> valueTK (n ++ r) = (KNum n, r).
Proof.
  intros H S P. destruct H as [d N D|d e N D E].
  - destruct d as [|c d]; [contradiction|]. inversion D as [|? ? Hc _]. subst. cbn [app]. rewrite v_digit by exact Hc.
    change (c :: d ++ r) with ((c :: d) ++ r). rewrite (digits_span _ _ D S). destruct r as [|x r].
    + cbn. now rewrite app_nil_r.
    + cbn in P. rewrite P. cbn [span]. cbn in S. rewrite S. cbn. now rewrite app_nil_r.
  - destruct d as [|c d]; [contradiction|]. inversion D as [|? ? Hc _]. subst. rewrite <- app_assoc. cbn [app]. rewrite v_digit by exact Hc.
    change (c :: d ++ 46 :: e ++ r) with ((c :: d) ++ 46 :: e ++ r). rewrite (digits_span (c :: d) (46 :: e ++ r) D eq_refl).
    change (46 =? 46) with true. cbv iota. rewrite (digits_span e r E S). reflexivity.
Qed.

(** what a token is *)
Definition token_is (s : list Z) (k : token) (r : list Z) : Prop :=
  exists w, blanks w /\
  match k with
  | KClose => s = w ++ 41 :: r
  | KOpen => s = w ++ 40 :: r
  | KDone => exists j, s = w ++ 0 :: j
  | KStr v => r = [] \/ valueTK r = (KStr [], r) \/
              (exists b, literal b v /\ s = w ++ 34 :: b ++ 34 :: r) \/
              (word v /\ ~ starts (fun c => letter c = true) r /\ s = w ++ v ++ r)
  | KNum v => number v /\ ~ starts (fun c => 48 <= c <= 57) r /\ s = w ++ v ++ r
  | KErr => True
  | KName _ => False
  end.
Lemma valueTK_inv s k r : isb s -> valueTK s = (k, r) -> token_is s k r.
Proof.
  intros B. unfold valueTK. destruct (span isSpace s) as [w q] eqn:E. destruct (span_split _ _ _ _ E) as [-> N]. pose proof (span_all_in _ _ _ _ E) as P. cbn [snd].
  assert (W : blanks w) by (eapply Forall_impl; [|exact P]; intros c; apply blank_space). apply Forall_app in B. destruct B as [_ B].
  intros H. exists w. split; [exact W|]. destruct q as [|c q]; [injection H as <- <-; exact I|].
  destruct (c =? 0) eqn:C0; [injection H as <- <-; exists q; f_equal; f_equal; lia|].
  destruct (c =? 40) eqn:C40.
  { unfold openTK in H. cbn [span] in H. rewrite N in H. cbn [snd] in H. rewrite C0, C40 in H. injection H as <- <-. f_equal. f_equal. lia. }
  destruct (c =? 41) eqn:C41; [injection H as <- <-; f_equal; f_equal; lia|].
  destruct (c =? 34) eqn:C34.
  { unfold quotedString in H. rewrite C34 in H. destruct (unquote _ q []) as [v r'] eqn:U. injection H as <- <-. inversion B. subst.
    apply unquote_inv in U; [|assumption|cbn; lia]. destruct U as [->|(b & x & H & -> & ->)]; [auto|]. right. right. left. exists b. split; [exact H|]. f_equal. f_equal. lia. }
  destruct (isDigit c) eqn:D.
  { cbn [span] in H. rewrite D in H. destruct (span isDigit q) as [a r1] eqn:S1. destruct (span_split _ _ _ _ S1) as [-> N1]. pose proof (span_all_in _ _ _ _ S1) as P1.
    assert (DA : digits (c :: a)) by (constructor; [unfold isDigit in D; lia|eapply Forall_impl; [|exact P1]; cbv beta; unfold isDigit; lia]).
    destruct r1 as [|y r1].
    - cbn in H. injection H as <- <-. rewrite !app_nil_r. split; [apply num_int; [discriminate|exact DA]|]. split; [now intros []|reflexivity].
    - destruct (y =? 46) eqn:Y.
      + destruct (span isDigit r1) as [b r3] eqn:S2. destruct (span_split _ _ _ _ S2) as [-> N2]. pose proof (span_all_in _ _ _ _ S2) as P2. injection H as <- <-.
        assert (y = 46) by lia. subst y. split; [apply (num_frac (c :: a) b); [discriminate|exact DA|eapply Forall_impl; [|exact P2]; cbv beta; unfold isDigit; lia]|].
        split; [now apply stops_digit_inv|]. f_equal. cbn. f_equal. now rewrite <- !app_assoc.
      + cbn [span] in H. rewrite N1 in H. injection H as <- <-. rewrite !app_nil_r. split; [apply num_int; [discriminate|exact DA]|]. split; [now apply stops_digit_inv|reflexivity]. }
  destruct (span isValName (c :: q)) as [a r1] eqn:S1. injection H as <- <-. destruct (span_split _ _ _ _ S1) as [E1 N1]. pose proof (span_all_in _ _ _ _ S1) as P1.
  right. destruct a as [|y a].
  - left. cbn in E1. rewrite <- E1. unfold valueTK. replace (snd (span isSpace (c :: q))) with (c :: q) by (cbn [span]; rewrite N; reflexivity).
    rewrite C0, C40, C41, C34, D, S1, <- E1. reflexivity.
  - right. right. split; [split; [discriminate|exact P1]|]. split; [now apply stops_letter_inv|now rewrite E1].
Qed.

(** ** the loop *)
Section Loop.
Variable L : tlibs.
Definition RV (name : list Z) (acc : list value) (s : list Z) : rtag := readValues L (List.length s + 2) name acc s.
Lemma rv_eq n name acc s : (List.length s + 1 < n)%nat -> readValues L n name acc s = RV name acc s.
Proof. intros H. unfold RV. apply readValues_fuel; lia. Qed.
Definition num_ok (s : list Z) : Prop := tl_float L s <> None.
Lemma rv_value name acc s v r : (valueTK s = (match v with VNum x => KNum x | VStr x => KStr x | VTag _ => KErr end, r)) -> (List.length r < List.length s)%nat ->
  match v with VNum x => num_ok x | VStr _ => True | VTag _ => False end -> RV name acc s = RV name (acc ++ [v]) r.
Proof.
  intros E LR OK. rewrite <- (rv_eq (S (S (S (List.length s)))) name acc s) by lia. rewrite <- (rv_eq (S (S (S (List.length s)))) name (acc ++ [v]) r) by lia.
  remember (S (S (List.length s))) as f eqn:Ef. cbn [readValues].
  assert (A : acceptRun f s = match acceptRun f r with Some (vs, k, q) => Some (v :: vs, k, q) | None => None end).
  { assert (A : forall g, acceptRun (S g) s = match acceptRun g r with Some (vs, k, q) => Some (v :: vs, k, q) | None => None end).
    { intros g. cbn [acceptRun]. rewrite E. destruct v as [x|x|t]; [reflexivity|reflexivity|contradiction]. }
    subst f. rewrite A. now rewrite (acceptRun_fuel (S (List.length s)) (S (S (List.length s))) r) by lia. }
  rewrite A. destruct (acceptRun f r) as [[[vs k] q]|]; [|reflexivity].
  assert (FO : floatsOk L (v :: vs) = floatsOk L vs).
  { unfold floatsOk. cbn [forallb]. destruct v as [x|x|t]; [reflexivity| |contradiction]. unfold num_ok in OK. destruct (tl_float L x); [reflexivity|congruence]. }
  rewrite FO. destruct (negb _); [reflexivity|].
  destruct k; try reflexivity; [|rewrite <- app_assoc; reflexivity]. destruct (nameTK q) as [k q']. destruct k; try reflexivity.
  destruct (readValues L f s0 [] q'); try reflexivity. rewrite <- app_assoc. reflexivity.
Qed.
Lemma rv_close name acc s r : valueTK s = (KClose, r) -> RV name acc s = ROk (mkTag name acc) r.
Proof. intros E. unfold RV. replace (List.length s + 2)%nat with (S (S (List.length s))) by lia. cbn [readValues acceptRun]. rewrite E. cbn. now rewrite app_nil_r. Qed.
Lemma rv_done name acc s r : valueTK s = (KDone, r) -> RV name acc s = REnd.
Proof. intros E. unfold RV. replace (List.length s + 2)%nat with (S (S (List.length s))) by lia. cbn [readValues acceptRun]. rewrite E. reflexivity. Qed.
Lemma rv_err name acc s r : valueTK s = (KErr, r) -> RV name acc s = RErr.
Proof. intros E. unfold RV. replace (List.length s + 2)%nat with (S (S (List.length s))) by lia. cbn [readValues acceptRun]. rewrite E. reflexivity. Qed.
Lemma rv_open name acc s q : valueTK s = (KOpen, q) -> RV name acc s =
  match nameTK q with
  | (KName n, q') => match RV n [] q' with ROk t r => RV name (acc ++ [VTag t]) r | e => e end
  | _ => RErr
  end.
Proof.
  intros E. pose proof (valueTK_len s _ _ E) as LQ. cbv iota in LQ. unfold RV at 1. replace (List.length s + 2)%nat with (S (S (List.length s))) by lia.
  remember (S (List.length s)) as f eqn:Ef. cbn [readValues]. assert (A : acceptRun f s = Some ([], KOpen, q)) by (subst f; cbn [acceptRun]; now rewrite E).
  rewrite A. cbn [floatsOk forallb negb app]. destruct (nameTK q) as [k q'] eqn:N. destruct k; try reflexivity. apply nameTK_len in N.
  rewrite (rv_eq f) by lia. destruct (RV s0 [] q') as [t r| | |] eqn:R; try reflexivity. apply readValues_len in R. rewrite (rv_eq f) by lia. reflexivity.
Qed.
Lemma nameTK_word n r : word n -> stops isValName r -> nameTK (n ++ r) = (KName n, r).
Proof. intros W S. unfold nameTK. rewrite (word_span n r W S). destruct W as [N _]. destruct n; [contradiction|reflexivity]. Qed.
Lemma nameTK_inv s n r : nameTK s = (KName n, r) -> word n /\ ~ starts (fun c => letter c = true) r /\ s = n ++ r.
Proof.
  unfold nameTK. destruct (span isValName s) as [a q] eqn:E. destruct (span_split _ _ _ _ E) as [-> N]. pose proof (span_all_in _ _ _ _ E) as P.
  destruct a as [|x a]; [discriminate|]. intros H. injection H as <- <-. split; [split; [discriminate|exact P]|]. split; [now apply stops_letter_inv|reflexivity].
Qed.

(** ** reading items *)
Lemma items_start ok body vs : items ok body vs -> match body with [] => True | c :: _ => c <> 46 end.
Proof.
  intros H. destruct H as [w W|w b s rest vs W|w n rest vs W [N D]|w n rest vs W H|w n body vs' rest vs W].
  all: destruct W as [|c w Hc W]; [|cbn; unfold blank in Hc; lia].
  - exact I.
  - cbn. lia.
  - destruct n as [|c n]; [contradiction|]. inversion D. subst. cbn. unfold letter in *. lia.
  - destruct H as [d N D|d e N D E]; (destruct d as [|c d]; [contradiction|]); inversion D; subst; cbn; lia.
  - cbn. lia.
Qed.
Definition closes (c : Z) : Prop := c = 41 \/ c = 0 \/ c = 40.
Lemma stops_after f b c t : ~ starts (fun c => f c = true) b -> f c = false -> stops f (b ++ c :: t).
Proof. destruct b as [|x b]; cbn; [auto|]. intros H _. destruct (f x); congruence. Qed.
Lemma isb_mid a b : isb (a ++ b) -> isb b.
Proof. intros H. now apply Forall_app in H. Qed.
Lemma items_read body vs : items num_ok body vs -> forall name acc c t, closes c -> isb (body ++ c :: t) ->
  exists w, blanks w /\ RV name acc (body ++ c :: t) = RV name (acc ++ vs) (w ++ c :: t).
Proof.
  induction 1 as [w W|w b s rest vs W LT H IH|w n rest vs W WN NS H IH|w n rest vs W NN OK NS H IH|w n body vs' rest vs W WN NS HB IHB H IH]; intros name acc c t C B.
  - exists w. split; [exact W|]. now rewrite app_nil_r.
  - repeat (rewrite <- app_assoc in *; cbn [app] in * ). pose proof (isb_mid _ _ B) as B1. inversion B1 as [|? ? _ B2]. subst.
    destruct (IH name (acc ++ [VStr s]) c t C) as (w' & W' & E); [apply isb_mid in B2; now inversion B2|]. exists w'. split; [exact W'|].
    rewrite (rv_value name acc _ (VStr s) (rest ++ c :: t)); [rewrite E; now rewrite <- app_assoc| | |exact I].
    + rewrite valueTK_skip by exact W. now apply v_string.
    + repeat (rewrite !app_length; cbn [List.length]). lia.
  - rewrite <- !app_assoc in *. assert (B1 : isb (rest ++ c :: t)) by (apply isb_mid in B; now apply isb_mid in B).
    destruct (IH name (acc ++ [VStr n]) c t C B1) as (w' & W' & E). exists w'. split; [exact W'|].
    rewrite (rv_value name acc _ (VStr n) (rest ++ c :: t)); [rewrite E; now rewrite <- app_assoc| | |exact I].
    + rewrite valueTK_skip by exact W. apply v_word; [exact WN|]. apply stops_letter, starts_app; [exact NS|]. destruct C as [->|[->| ->]]; discriminate.
    + rewrite (app_length w), (app_length n). destruct WN as [N _]. destruct n; [contradiction|cbn; lia].
  - rewrite <- !app_assoc in *. assert (B1 : isb (rest ++ c :: t)) by (apply isb_mid in B; now apply isb_mid in B).
    destruct (IH name (acc ++ [VNum n]) c t C B1) as (w' & W' & E). exists w'. split; [exact W'|].
    rewrite (rv_value name acc _ (VNum n) (rest ++ c :: t)); [rewrite E; now rewrite <- app_assoc| | |exact OK].
    + rewrite valueTK_skip by exact W. apply v_number; [exact NN| |].
      * apply stops_digit, starts_app; [exact NS|]. destruct C as [->|[->| ->]]; lia.
      * apply items_start in H. destruct rest as [|x rest]; cbn; [destruct C as [->|[->| ->]]; reflexivity|lia].
    + rewrite (app_length w), (app_length n). destruct NN as [d N _|d e N _ _]; (destruct d; [contradiction|cbn; lia]).
  - repeat (rewrite <- app_assoc in *; cbn [app] in * ). assert (B1 : isb (body ++ 41 :: rest ++ c :: t)) by (apply isb_mid in B; inversion B; subst; eapply isb_mid; eassumption).
    assert (B2 : isb (rest ++ c :: t)) by (apply isb_mid in B1; now inversion B1).
    destruct (IH name (acc ++ [VTag (mkTag n vs')]) c t C B2) as (w' & W' & E). exists w'. split; [exact W'|].
    rewrite (rv_open name acc _ (n ++ body ++ 41 :: rest ++ c :: t)) by (rewrite valueTK_skip by exact W; reflexivity).
    rewrite nameTK_word; [|exact WN|apply stops_letter, starts_app; [exact NS|discriminate]].
    destruct (IHB n [] 41 (rest ++ c :: t) ltac:(left; reflexivity) B1) as (w1 & W1 & E1). rewrite E1, (rv_close n _ _ (rest ++ c :: t)) by (rewrite valueTK_skip by exact W1; reflexivity).
    cbn [app]. rewrite E. now rewrite <- app_assoc.
Qed.
Lemma tag_read n body vs rest : items num_ok body vs -> isb (body ++ 41 :: rest) -> RV n [] (body ++ 41 :: rest) = ROk (mkTag n vs) rest.
Proof.
  intros H B. destruct (items_read body vs H n [] 41 rest ltac:(left; reflexivity) B) as (w & W & ->). cbn [app].
  apply rv_close. now rewrite valueTK_skip.
Qed.
Lemma unfinished_read s : unfinished num_ok s -> forall n acc, isb s -> RV n acc s = REnd.
Proof.
  induction 1 as [body vs junk H|body vs n rest H WN NS HU IH]; intros name acc B.
  - destruct (items_read body vs H name acc 0 junk ltac:(right; left; reflexivity) B) as (w & W & ->). apply (rv_done _ _ _ (0 :: junk)). now rewrite valueTK_skip.
  - destruct (items_read body vs H name acc 40 (n ++ rest) ltac:(right; right; reflexivity) B) as (w & W & ->).
    rewrite (rv_open name _ _ (n ++ rest)) by (rewrite valueTK_skip by exact W; reflexivity).
    rewrite nameTK_word by (exact WN || now apply stops_letter). rewrite IH; [reflexivity|]. apply isb_mid in B. inversion B. eapply isb_mid; eassumption.
Qed.

(** ** what is read is items *)
Lemma items_weaken (P Q : list Z -> Prop) : (forall s, P s -> Q s) -> forall b vs, items P b vs -> items Q b vs.
Proof. intros I b vs H. induction H; [now constructor|now constructor|now constructor|constructor; auto|now constructor]. Qed.
Lemma unfinished_weaken (P Q : list Z -> Prop) : (forall s, P s -> Q s) -> forall s, unfinished P s -> unfinished Q s.
Proof. intros I s H. induction H; [eapply uf_zero|eapply uf_inside]; eauto using items_weaken. Qed.
Definition any (_ : list Z) : Prop := True.
Lemma stuck_run f s v r : valueTK s = (KStr v, r) -> valueTK r = (KStr [], r) -> acceptRun f s = None.
Proof. intros E R. destruct f; [reflexivity|]. cbn [acceptRun]. rewrite E. now rewrite acceptRun_stuck. Qed.
(** one more item in front *)
Lemma item_string ok w b s r body vs t c : blanks w -> literal b s -> items ok body vs -> r = body ++ c :: t ->
  exists body', items ok body' (VStr s :: vs) /\ w ++ 34 :: b ++ 34 :: r = body' ++ c :: t.
Proof. intros W B I ->. exists (w ++ 34 :: b ++ 34 :: body). split; [now constructor|]. repeat (rewrite <- app_assoc; cbn [app]). reflexivity. Qed.
Lemma item_word ok w n r body vs t c : blanks w -> word n -> ~ starts (fun c => letter c = true) r -> items ok body vs -> r = body ++ c :: t ->
  exists body', items ok body' (VStr n :: vs) /\ w ++ n ++ r = body' ++ c :: t.
Proof. intros W B N I ->. exists (w ++ n ++ body). split; [constructor; eauto using starts_less|]. now rewrite <- !app_assoc. Qed.
Lemma item_number (ok : list Z -> Prop) w n r body vs t c : blanks w -> number n -> ok n -> ~ starts (fun c => 48 <= c <= 57) r -> items ok body vs -> r = body ++ c :: t ->
  exists body', items ok body' (VNum n :: vs) /\ w ++ n ++ r = body' ++ c :: t.
Proof. intros W B O N I ->. exists (w ++ n ++ body). split; [constructor; eauto using starts_less|]. now rewrite <- !app_assoc. Qed.
Lemma items_blank ok w : blanks w -> items ok w [].
Proof. apply it_end. Qed.

Lemma acceptRun_inv f : forall s vs k r, isb s -> acceptRun f s = Some (vs, k, r) -> k = KDone \/ k = KOpen ->
  exists body j, items any body vs /\ s = body ++ (match k with KDone => 0 | _ => 40 end) :: j /\ (k = KOpen -> j = r).
Proof.
  induction f as [|f IH]; intros s vs k r B A K; [discriminate A|]. cbn [acceptRun] in A. destruct (valueTK s) as [k0 r0] eqn:E.
  destruct (valueTK_inv _ _ _ B E) as (w & W & T). destruct k0 as [| | |v|v| |]; cbv iota in T.
  - injection A as <- <- <-. exists w, r0. split; [now constructor|]. auto.
  - injection A as <- <- <-. destruct K; discriminate.
  - contradiction.
  - destruct T as [->|[ST|[(b & LT & ES)|(WD & NS & ES)]]].
    + destruct f; discriminate A || (cbn in A; injection A as <- <- <-; destruct K; discriminate).
    + rewrite acceptRun_stuck in A by exact ST. discriminate A.
    + destruct (acceptRun f r0) as [[[vs' k'] r']|] eqn:A'; [|discriminate A]. injection A as <- <- <-.
      destruct (IH r0 vs' k' r') as (body & j & I & ER & KJ); [|exact A'|exact K|].
      { subst s. apply isb_mid in B. inversion B. subst. apply isb_mid in H2. now inversion H2. }
      destruct (item_string any w b v r0 body vs' j _ W LT I ER) as (body' & I' & E'). exists body', j. split; [exact I'|]. split; [now rewrite ES|exact KJ].
    + destruct (acceptRun f r0) as [[[vs' k'] r']|] eqn:A'; [|discriminate A]. injection A as <- <- <-.
      destruct (IH r0 vs' k' r') as (body & j & I & ER & KJ); [|exact A'|exact K|].
      { subst s. apply isb_mid in B. now apply isb_mid in B. }
      destruct (item_word any w v r0 body vs' j _ W WD NS I ER) as (body' & I' & E'). exists body', j. split; [exact I'|]. split; [now rewrite ES|exact KJ].
  - destruct T as (NU & NS & ES). destruct (acceptRun f r0) as [[[vs' k'] r']|] eqn:A'; [|discriminate A]. injection A as <- <- <-.
    destruct (IH r0 vs' k' r') as (body & j & I & ER & KJ); [|exact A'|exact K|].
    { subst s. apply isb_mid in B. now apply isb_mid in B. }
    destruct (item_number any w v r0 body vs' j _ W NU Logic.I NS I ER) as (body' & I' & E'). exists body', j. split; [exact I'|]. split; [now rewrite ES|exact KJ].
  - injection A as <- <- <-. destruct T as (j & ->). exists w, j. split; [now constructor|]. split; [reflexivity|discriminate].
  - injection A as <- <- <-. destruct K; discriminate.
Qed.

(** a number that cannot be represented *)
Lemma rv_bad name acc s v r : valueTK s = (KNum v, r) -> ~ num_ok v ->
  match RV name acc s with ROk _ _ => False | REnd => exists vs q, acceptRun (S (List.length s)) s = Some (vs, KDone, q) | _ => True end.
Proof.
  intros E NO. unfold RV. replace (List.length s + 2)%nat with (S (S (List.length s))) by lia. remember (S (List.length s)) as f eqn:Ef. cbn [readValues].
  destruct (acceptRun f s) as [[[vs k] q]|] eqn:A; [|exact I]. assert (F : floatsOk L vs = false).
  { subst f. cbn [acceptRun] in A. rewrite E in A. destruct (acceptRun _ r) as [[[vs' k'] q']|]; [|discriminate A]. injection A as <- <- <-.
    unfold floatsOk. cbn [forallb]. unfold num_ok in NO. destruct (tl_float L v); [exfalso; apply NO; discriminate|reflexivity]. }
  rewrite F. cbn [negb]. destruct k; try exact I. eauto.
Qed.
Lemma rv_stuck name acc s v r : valueTK s = (KStr v, r) -> valueTK r = (KStr [], r) -> RV name acc s = RNoFuel.
Proof. intros E R. unfold RV. replace (List.length s + 2)%nat with (S (S (List.length s))) by lia. cbn [readValues]. now rewrite (stuck_run _ s v r E R). Qed.
Lemma rv_inv m : forall s name acc, (List.length s < m)%nat -> isb s ->
  match RV name acc s with
  | ROk t r => exists body vs, items num_ok body vs /\ s = body ++ 41 :: r /\ t = mkTag name (acc ++ vs)
  | REnd => unfinished any s
  | _ => True
  end.
Proof.
  induction m as [|m IH]; intros s name acc LS B; [lia|]. destruct (valueTK s) as [k r] eqn:E. pose proof (valueTK_len _ _ _ E) as LR.
  destruct (valueTK_inv _ _ _ B E) as (w & W & T). destruct k as [| | |v|v| |]; cbv iota in T, LR.
  - rewrite (rv_open name acc s r E). destruct (nameTK r) as [k q] eqn:N. destruct k as [| |n| | | |]; try exact I. pose proof (nameTK_len _ _ _ N) as LN.
    destruct (nameTK_inv _ _ _ N) as (WN & NS & ->). assert (BQ : isb q) by (subst s; apply isb_mid in B; inversion B; eapply isb_mid; eassumption).
    pose proof (IH q n [] ltac:(lia) BQ) as H1. destruct (RV n [] q) as [t1 r1| | |] eqn:R1; try exact I.
    + destruct H1 as (b1 & v1 & I1 & -> & ->). cbn [app]. rewrite app_length in LN. cbn [List.length] in LN. rewrite !app_length in LR. cbn [List.length] in LR.
      assert (B1 : isb r1) by (apply isb_mid in BQ; now inversion BQ). assert (LR1 : (List.length r1 < m)%nat) by lia.
      pose proof (IH r1 name (acc ++ [VTag (mkTag n v1)]) LR1 B1) as H2. destruct (RV name _ r1) as [t2 r2| | |]; try exact I.
      * destruct H2 as (b2 & v2 & I2 & -> & ->). exists (w ++ 40 :: n ++ b1 ++ 41 :: b2), (VTag (mkTag n v1) :: v2).
        split; [constructor; eauto using starts_less|]. rewrite T. split; [repeat (rewrite <- app_assoc; cbn [app]); reflexivity|now rewrite <- app_assoc].
      * apply starts_less in NS. apply (items_weaken num_ok any (fun _ _ => Logic.I)) in I1.
        assert (J : forall b vs, items any b vs -> items any (w ++ 40 :: n ++ b1 ++ 41 :: b) (VTag (mkTag n v1) :: vs)) by (intros; now constructor).
        subst s. destruct H2 as [b vs junk Hb|b vs n2 rest Hb WN2 NS2 HU].
        -- replace (w ++ 40 :: n ++ b1 ++ 41 :: b ++ 0 :: junk) with ((w ++ 40 :: n ++ b1 ++ 41 :: b) ++ 0 :: junk) by (repeat (rewrite <- app_assoc; cbn [app]); reflexivity).
           eapply uf_zero, J, Hb.
        -- replace (w ++ 40 :: n ++ b1 ++ 41 :: b ++ 40 :: n2 ++ rest) with ((w ++ 40 :: n ++ b1 ++ 41 :: b) ++ 40 :: n2 ++ rest) by (repeat (rewrite <- app_assoc; cbn [app]); reflexivity).
           eapply uf_inside; [apply J, Hb|exact WN2|exact NS2|exact HU].
    + subst s. eapply uf_inside; [now apply it_end|exact WN|exact NS|exact H1].
  - rewrite (rv_close name acc s r E). exists w, []. split; [now constructor|]. split; [exact T|]. now rewrite app_nil_r.
  - contradiction.
  - destruct T as [->|[ST|T]].
    { destruct s as [|x s]; [discriminate E|]. rewrite (rv_value name acc _ (VStr v) [] E) by (cbn; lia || exact I). rewrite (rv_err name _ [] []) by reflexivity. exact I. }
    { rewrite (rv_stuck name acc s v r E ST). exact I. }
    assert (LR' : (List.length r < List.length s)%nat).
    { destruct T as [(b & _ & ->)|([N _] & _ & ->)]; [repeat (rewrite !app_length; cbn [List.length]); lia|]. rewrite !app_length. destruct v; [contradiction|cbn; lia]. }
    assert (BR : isb r).
    { destruct T as [(b & _ & ->)|(_ & _ & ->)]; apply isb_mid in B; [inversion B as [|? ? _ B']; subst; apply isb_mid in B'; now inversion B'|now apply isb_mid in B]. }
    rewrite (rv_value name acc s (VStr v) r E LR' I). specialize (IH r name (acc ++ [VStr v]) ltac:(lia) BR). destruct (RV name (acc ++ [VStr v]) r) as [t2 r2| | |]; try exact I.
    + destruct IH as (b2 & v2 & I2 & ER & ->).
      assert (exists body', items num_ok body' (VStr v :: v2) /\ s = body' ++ 41 :: r2) as (body' & I3 & E3).
      { destruct T as [(b & LT & ->)|(WD & NS & ->)]; [eapply item_string; eassumption|eapply item_word; eassumption]. }
      exists body', (VStr v :: v2). split; [exact I3|]. split; [exact E3|]. now rewrite <- app_assoc.
    + assert (J : forall b vs c t, items any b vs -> r = b ++ c :: t -> exists b', items any b' (VStr v :: vs) /\ s = b' ++ c :: t).
      { intros b0 vs0 c0 t0 H0 E0. destruct T as [(b & LT & ->)|(WD & NS & ->)]; [eapply item_string; eassumption|eapply item_word; eassumption]. }
      remember r as r' eqn:Er. destruct IH as [b vs junk Hb|b vs n2 rest Hb WN2 NS2 HU].
      * destruct (J b vs 0 junk Hb eq_refl) as (b' & I' & ->). eapply uf_zero, I'.
      * destruct (J b vs 40 (n2 ++ rest) Hb eq_refl) as (b' & I' & ->). eapply uf_inside; eassumption.
  - destruct T as (NU & NS & ES).
    assert (BR : isb r) by (subst s; apply isb_mid in B; now apply isb_mid in B).
    destruct (tl_float L v) as [x|] eqn:FV.
    + assert (OK : num_ok v) by (unfold num_ok; congruence). rewrite (rv_value name acc s (VNum v) r E LR OK).
      specialize (IH r name (acc ++ [VNum v]) ltac:(lia) BR). destruct (RV name (acc ++ [VNum v]) r) as [t2 r2| | |]; try exact I.
      * destruct IH as (b2 & v2 & I2 & ER & ->). destruct (item_number num_ok w v r b2 v2 r2 41 W NU OK NS I2 ER) as (b' & I' & E'). exists b', (VNum v :: v2).
        split; [exact I'|]. split; [now rewrite ES|]. now rewrite <- app_assoc.
      * remember r as r' eqn:Er. destruct IH as [b vs junk Hb|b vs n2 rest Hb WN2 NS2 HU]; rewrite ES.
        -- destruct (item_number any w v _ b vs junk 0 W NU Logic.I NS Hb eq_refl) as (b' & I' & ->). eapply uf_zero, I'.
        -- destruct (item_number any w v _ b vs (n2 ++ rest) 40 W NU Logic.I NS Hb eq_refl) as (b' & I' & ->). eapply uf_inside; eassumption.
    + assert (NO : ~ num_ok v) by (unfold num_ok; congruence). pose proof (rv_bad name acc s v r E NO) as H. destruct (RV name acc s); try exact I; [contradiction|].
      destruct H as (vs & q & A). destruct (acceptRun_inv _ s vs KDone q B A (or_introl eq_refl)) as (body & j & Hb & -> & _). eapply uf_zero, Hb.
  - rewrite (rv_done name acc s r E). destruct T as (j & ->). eapply uf_zero, it_end, W.
  - rewrite (rv_err name acc s r E). exact I.
Qed.

(** ** documents *)
Definition PA (s : list Z) : pres := parse L (S (List.length s)) s.
Lemma pa_eq n s : (List.length s < n)%nat -> parse L n s = PA s.
Proof. intros H. apply parse_fuel; lia. Qed.
Lemma readTag_open f w n r : blanks w -> word n -> stops isValName r -> (List.length r + 1 < f)%nat -> readTag L f (w ++ 40 :: n ++ r) = RV n [] r.
Proof. intros W WN S F. unfold readTag. rewrite openTK_skip by exact W. change (openTK (40 :: n ++ r)) with (KOpen, n ++ r). cbv iota. rewrite nameTK_word by assumption. now apply rv_eq. Qed.
Lemma document_read s tags : document num_ok (unfinished num_ok) s tags -> isb s -> PA s = POk tags.
Proof.
  induction 1 as [w W|w junk W|w n body vs rest tags W WN NS I H IH|w n rest W WN NS U]; intros B; unfold PA.
  - cbn [parse]. unfold readTag. rewrite <- (app_nil_r w), openTK_skip by exact W. reflexivity.
  - cbn [parse]. unfold readTag. rewrite openTK_skip by exact W. reflexivity.
  - cbn [parse]. rewrite readTag_open; [|exact W|exact WN|apply stops_letter, starts_app; [exact NS|discriminate]|].
    2:{ destruct WN as [N _]. destruct n; [contradiction|]. repeat (rewrite !app_length; cbn [List.length]). lia. }
    assert (B1 : isb (body ++ 41 :: rest)) by (apply isb_mid in B; inversion B; eapply isb_mid; eassumption).
    rewrite (tag_read n body vs rest I B1). rewrite pa_eq; [rewrite IH; [reflexivity|apply isb_mid in B1; now inversion B1]|].
    repeat (rewrite !app_length; cbn [List.length]). lia.
  - cbn [parse]. rewrite readTag_open; [|exact W|exact WN|now apply stops_letter|].
    2:{ destruct WN as [N _]. destruct n; [contradiction|]. repeat (rewrite !app_length; cbn [List.length]). lia. }
    rewrite (unfinished_read rest U n []); [reflexivity|]. apply isb_mid in B. inversion B. eapply isb_mid; eassumption.
Qed.
Lemma openTK_inv s k r : openTK s = (k, r) -> exists w, blanks w /\ match k with KDone => s = w \/ exists j, s = w ++ 0 :: j | KOpen => s = w ++ 40 :: r | KErr => True | _ => False end.
Proof.
  unfold openTK. destruct (span isSpace s) as [w q] eqn:E. destruct (span_split _ _ _ _ E) as [-> N]. pose proof (span_all_in _ _ _ _ E) as P. cbn [snd].
  assert (W : blanks w) by (eapply Forall_impl; [|exact P]; intros c; apply blank_space). intros H. exists w. split; [exact W|].
  destruct q as [|c q]; [injection H as <- <-; left; apply app_nil_r|].
  destruct (c =? 0) eqn:C0; [injection H as <- <-; right; exists q; f_equal; f_equal; lia|].
  destruct (c =? 40) eqn:C1; injection H as <- <-; [f_equal; f_equal; lia|exact I].
Qed.
Lemma document_only m : forall s tags, (List.length s < m)%nat -> isb s -> PA s = POk tags -> document num_ok (unfinished any) s tags.
Proof.
  induction m as [|m IH]; intros s tags LS B H; [lia|]. unfold PA in H. cbn [parse] in H. unfold readTag in H. destruct (openTK s) as [k q] eqn:O.
  destruct (openTK_inv _ _ _ O) as (w & W & T). destruct k as [| | | | | |]; try discriminate H; try contradiction.
  - destruct (nameTK q) as [k q'] eqn:N. destruct k as [| |n| | | |]; try discriminate H. destruct (nameTK_inv _ _ _ N) as (WN & NS & ->). subst s.
    assert (LQ : (List.length q' + 1 < List.length (w ++ 40%Z :: n ++ q'))%nat).
    { destruct WN as [NN _]. destruct n; [contradiction|]. repeat (rewrite !app_length; cbn [List.length]). lia. }
    rewrite rv_eq in H by exact LQ. assert (BQ : isb q') by (apply isb_mid in B; inversion B; eapply isb_mid; eassumption).
    pose proof (rv_inv (S (List.length q')) q' n [] ltac:(lia) BQ) as R. destruct (RV n [] q') as [t r| | |]; try discriminate H.
    + destruct R as (body & vs & I & -> & ->). cbn [app] in H. assert (LR : (List.length r < List.length (w ++ 40%Z :: n ++ body ++ 41%Z :: r))%nat) by (repeat (rewrite !app_length; cbn [List.length]); lia).
      rewrite pa_eq in H by exact LR. destruct (PA r) as [ts| |] eqn:P; try discriminate H. injection H as <-.
      constructor; [exact W|exact WN|eauto using starts_less|exact I|]. apply IH; [lia|apply isb_mid in BQ; now inversion BQ|exact P].
    + injection H as <-. constructor; assumption.
  - injection H as <-. destruct T as [->|(j & ->)]; now constructor.
Qed.
End Loop.

(** ** C71 *)
Definition complete (_ : list Z) : Prop := False.
Lemma document_weaken (P P' : list Z -> Prop) (Q Q' : list Z -> Prop) : (forall s, P s -> P' s) -> (forall s, Q s -> Q' s) ->
  forall s tags, document P Q s tags -> document P' Q' s tags.
Proof. intros I J s tags H. induction H; [apply doc_end|apply doc_zero|apply doc_tag|apply doc_cut]; eauto using items_weaken. Qed.

(** Every document whose numbers can be represented is read as its tags, whatever
    follows its zero byte; of a tag broken off by a zero byte nothing is read. *)
Theorem C71_reads L data tags n : isb data -> (List.length data < n)%nat ->
  document (num_ok L) (unfinished (num_ok L)) data tags -> parse L n data = POk tags.
Proof. intros B F D. rewrite pa_eq by exact F. now apply document_read. Qed.
Print Assumptions C71_reads.

(** Nothing else is read: what the parser accepts is such a document, with those tags. *)
Theorem C71_only L data tags n : isb data -> (List.length data < n)%nat ->
  parse L n data = POk tags -> document (num_ok L) (unfinished any) data tags.
Proof. intros B F D. rewrite pa_eq in D by exact F. eapply document_only; eauto. Qed.
Print Assumptions C71_only.

(** Data that is no document, broken off or not, is refused or never finished. *)
Theorem C71_refuses L data n : isb data -> (List.length data < n)%nat ->
  (forall tags, ~ document any (unfinished any) data tags) -> parse L n data = PErr \/ forall m, parse L m data = PNoFuel.
Proof.
  intros B F ND. destruct (parse L n data) as [tags| |] eqn:E; [|now left|right].
  - exfalso. apply (ND tags). eapply document_weaken; [| |eapply C71_only; eauto]; [intros; exact I|auto].
  - intros m. destruct (parse L m data) eqn:E'; [| |reflexivity]; exfalso;
    (destruct (Nat.le_gt_cases m n) as [Q|Q];
      [rewrite (parse_mono L m n) in E by (exact Q || rewrite E'; discriminate)|rewrite (parse_fuel L n m) in E by lia]; congruence).
Qed.
Print Assumptions C71_refuses.

(** That a complete document is needed is false: a tag that breaks off is dropped
    without an error. *)
Theorem C71_refuted L : exists data, isb data /\ (forall ok tags, ~ document ok complete data tags) /\
  forall n, (List.length data < n)%nat -> parse L n data = POk [].
Proof.
  exists (40 :: [97] ++ [32; 34; 98; 34] ++ [0]). split; [repeat constructor; lia|].
  split.
  - assert (NC : forall ok s tags, document ok complete s tags -> tags = [] \/ In 41 s).
    { intros ok s tags H. destruct H as [| | |? ? ? ? ? ? []]; auto. right. rewrite !in_app_iff. right. right. rewrite !in_app_iff. right. right. left. reflexivity. }
    intros ok tags H. destruct (NC _ _ _ H) as [->|[X|[X|[X|[X|[X|[X|[X|[]]]]]]]]]; try discriminate X.
    inversion H as [w W|w junk W E|w n rest W E|? ? ? ? ? ? []].
    + subst w. inversion W as [|? ? X]. unfold blank in X. lia.
    + destruct w as [|c w]; [discriminate E|]. injection E as -> _. inversion W as [|? ? X]. unfold blank in X. lia.
  - intros n F. apply C71_reads; [repeat constructor; lia|exact F|].
    apply (doc_cut _ _ [] [97] [32; 34; 98; 34; 0]); [constructor|split; [discriminate|repeat constructor]|cbn; discriminate|].
    apply (uf_zero _ [32; 34; 98; 34] [VStr [98]] []). apply (it_string _ [32] [98] [98] [] []); [repeat constructor|repeat constructor; lia|repeat constructor].
Qed.
Print Assumptions C71_refuted.

(** an example with every kind of value *)
Definition doc_bytes : list Z := str "(a 1 2.50 (b ""x\\\""\n"" yes)c-d) " ++ [10] ++ str "(e)" ++ [0; 255].
Definition doc_tags : list tag :=
  [mkTag (str "a") [VNum (str "1"); VNum (str "2.50"); VTag (mkTag (str "b") [VStr (str "x\""\n"); VStr (str "yes")]); VStr (str "c-d")];
   mkTag (str "e") []].
Example C71_ex : isb doc_bytes /\ document (num_ok plain_libs) complete doc_bytes doc_tags /\ parse plain_libs (S (List.length doc_bytes)) doc_bytes = POk doc_tags /\
  parse plain_libs 9 (str "x") = PErr /\ parse plain_libs 9 (str "(a") = PErr.
Proof.
  assert (B : isb doc_bytes) by (repeat constructor; lia).
  assert (P : parse plain_libs (S (List.length doc_bytes)) doc_bytes = POk doc_tags) by reflexivity.
  split; [exact B|]. split; [|split; [exact P|split; reflexivity]].
  unfold doc_bytes, doc_tags.
  apply (doc_tag _ _ [] (str "a") (str " 1 2.50 (b ""x\\\""\n"" yes)c-d") _ (str " " ++ [10] ++ str "(e)" ++ [0; 255])); [constructor|split; [discriminate|repeat constructor]|cbn; discriminate| |].
  - apply (it_number _ (str " ") (str "1") (str " 2.50 (b ""x\\\""\n"" yes)c-d")); [repeat constructor|apply num_int; [discriminate|vm_compute; repeat constructor; discriminate]|discriminate|vm_compute; intros [X _]; now apply X|].
    apply (it_number _ (str " ") (str "2.50") (str " (b ""x\\\""\n"" yes)c-d")); [repeat constructor|apply (num_frac (str "2") (str "50")); [discriminate| |]; vm_compute; repeat constructor; discriminate|discriminate|vm_compute; intros [X _]; now apply X|].
    apply (it_tag _ (str " ") (str "b") (str " ""x\\\""\n"" yes") _ (str "c-d")); [repeat constructor|split; [discriminate|repeat constructor]|cbn; discriminate| |].
    + apply (it_string _ (str " ") (str "x\\\""\n") _ (str " yes")); [repeat constructor| |].
      * apply lit_char; [discriminate|discriminate|]. apply lit_hide; [auto|]. apply lit_hide; [auto|]. apply (lit_keep 110); [left; lia|lia|lia|constructor].
      * apply (it_word _ (str " ") (str "yes") []); [repeat constructor|split; [discriminate|repeat constructor]|auto|constructor; constructor].
    + apply (it_word _ [] (str "c-d") []); [repeat constructor|split; [discriminate|repeat constructor]|auto|constructor; constructor].
  - apply (doc_tag _ _ (str " " ++ [10]) (str "e") [] _ [0; 255]); [apply Forall_cons; [left; reflexivity|apply Forall_cons; [right; left; reflexivity|constructor]]|split; [discriminate|repeat constructor]|auto|constructor; constructor|].
    apply (doc_zero _ _ [] [255]). constructor.
Qed.
