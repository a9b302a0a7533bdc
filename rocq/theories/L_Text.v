(** Quoting and unquoting of strings. *)
From Coq Require Import String.
Require Import Verif.Base Verif.L_List Verif.M_Color Verif.M_Image Verif.M_Decode Verif.M_Ora Verif.M_Text
  Verif.S_String Verif.L_String Verif.S_Text.
From Coq Require Import ZifyBool ZifyNat.
Open Scope Z_scope.
Open Scope list_scope.

Lemma decodeRune_enc c t : scalar_value c -> decodeRune (utf8_enc c ++ t) = Some (c, utf8_enc c, t).
Proof.
  intros S. unfold scalar_value in S. unfold utf8_enc.
  zdm c 64. zdm c 4096. zdm c 262144. zdm (c / 64) 64. zdm (c / 4096) 64.
  assert (c / 64 / 64 = c / 4096) by (rewrite Z.div_div by lia; reflexivity).
  assert (c / 4096 / 64 = c / 262144) by (rewrite Z.div_div by lia; reflexivity).
  destruct (c <? 128) eqn:B1; [| destruct (c <? 2048) eqn:B2; [| destruct (c <? 65536) eqn:B3]];
    cbn [app]; unfold decodeRune, cont; cbv zeta;
    repeat match goal with
    | |- context [if ?b then _ else _] => let E := fresh in destruct b eqn:E; try (exfalso; lia)
    end; repeat f_equal; lia.
Qed.
Lemma decodeRune_some s r w t : Forall (fun c => 0 <= c < 256) s -> decodeRune s = Some (r, w, t) -> s = w ++ t /\ scalar_value r /\ w = utf8_enc r.
Proof.
  intros HB. unfold decodeRune, cont. cbv zeta.
  destruct s as [|a s1]; [discriminate|]. pose proof (Forall_inv HB) as Ha. cbv beta in Ha.
  destruct (a <? 128) eqn:A1.
  { intros E. injection E as <- <- <-. split; [reflexivity|]. split; [unfold scalar_value; lia|]. unfold utf8_enc. now rewrite A1. }
  destruct (a <? 194) eqn:A2; [discriminate|]. destruct s1 as [|b s2]; [discriminate|].
  destruct (negb _) eqn:B; [discriminate|]. destruct (a <? 224) eqn:A3.
  { intros E. injection E as <- <- <-. split; [reflexivity|]. destruct (enc2 a b ltac:(lia) ltac:(lia)) as [S ->]. auto. }
  destruct s2 as [|c s3]; [discriminate|]. destruct (negb ((128 <=? c) && _)) eqn:C; [discriminate|].
  destruct (a <? 240) eqn:A4.
  { destruct (_ || _) eqn:R; [discriminate|]. intros E. injection E as <- <- <-. split; [reflexivity|].
    destruct (enc3 a b c ltac:(lia) ltac:(lia) ltac:(lia) ltac:(lia) ltac:(lia)) as [S ->]. auto. }
  destruct (245 <=? a) eqn:A5; [discriminate|]. destruct s3 as [|d s4]; [discriminate|].
  destruct (negb ((128 <=? d) && _)) eqn:D; [discriminate|]. destruct (_ || _) eqn:R; [discriminate|].
  intros E. injection E as <- <- <-. split; [reflexivity|].
  destruct (enc4 a b c d ltac:(lia) ltac:(lia) ltac:(lia) ltac:(lia) ltac:(lia) ltac:(lia)) as [S ->]. auto.
Qed.
Lemma enc_bytes c : scalar_value c -> Forall (fun b => 0 <= b < 256) (utf8_enc c).
Proof.
  intros S. unfold scalar_value in S. unfold utf8_enc.
  zdm c 64. zdm c 4096. zdm c 262144. zdm (c / 64) 64. zdm (c / 4096) 64.
  destruct (c <? 128) eqn:B1; [| destruct (c <? 2048) eqn:B2; [| destruct (c <? 65536) eqn:B3]]; repeat constructor; lia.
Qed.
Lemma enc_high c : scalar_value c -> 128 <= c -> Forall (fun b => 128 <= b) (utf8_enc c).
Proof.
  intros S G. unfold scalar_value in S. unfold utf8_enc.
  zdm c 64. zdm c 4096. zdm c 262144. zdm (c / 64) 64. zdm (c / 4096) 64.
  destruct (c <? 128) eqn:B1; [| destruct (c <? 2048) eqn:B2; [| destruct (c <? 65536) eqn:B3]]; repeat constructor; lia.
Qed.
Lemma enc_len c : (1 <= List.length (utf8_enc c) <= 4)%nat.
Proof. unfold utf8_enc. destruct (c <? 128), (c <? 2048), (c <? 65536); cbn; lia. Qed.

(** ** the loop of quotedString *)
Definition ordinary (c : Z) : Prop := c <> 34 /\ c <> 92.
Lemma unquote_ord f c s acc : ordinary c -> unquote (S f) (c :: s) acc = unquote (S f) s (acc ++ [c]).
Proof.
  intros [A B]. cbn [unquote span]. replace (negb _) with true by lia.
  destruct (span _ s) as [p r]. destruct r as [|d r]; [now rewrite <- app_assoc|].
  destruct (d =? 92); [|now rewrite <- app_assoc]. destruct (peekStr r). now rewrite <- app_assoc.
Qed.
Lemma unquote_ords f w s acc : Forall ordinary w -> unquote (S f) (w ++ s) acc = unquote (S f) s (acc ++ w).
Proof.
  intros H. revert acc. induction H as [|c w Hc _ IH]; intros acc; [now rewrite app_nil_r|].
  cbn [app]. rewrite unquote_ord, IH by assumption. now rewrite <- app_assoc.
Qed.
Lemma unquote_end f s acc : unquote (S f) (34 :: s) acc = (acc, s).
Proof. cbn. now rewrite app_nil_r. Qed.
Lemma unquote_esc f c s acc : 0 <= c < 128 -> unquote (S f) (92 :: c :: s) acc =
  unquote f s (acc ++ if (c =? 34) || (c =? 92) then [c] else [92; c]).
Proof.
  intros H. cbn [unquote span]. change (negb ((92 =? 34) || (92 =? 92))) with false. cbv iota. change (92 =? 92) with true. cbv iota.
  cbn [peekStr decodeRune]. replace (c <? 128) with true by lia. reflexivity.
Qed.

Section Quote.
Variable L : tlibs.
(** what is left of a string after quoting and unquoting *)
Fixpoint shownN (fuel : nat) (s : list Z) : list Z :=
  match fuel, s with
  | S f, c :: s' =>
      match decodeRune s with
      | None => 92 :: 120 :: hex 2 c ++ shownN f s'
      | Some (r, w, s'') =>
          (if (r =? 34) || (r =? 92) then [r] else if isPrint L r then w else escape r) ++ shownN f s''
      end
  | _, _ => []
  end.
Definition shown (s : list Z) : list Z := shownN (List.length s) s.

Lemma hex_ord k : forall n, Forall ordinary (hex k n).
Proof.
  induction k as [|k IH]; intros n; [constructor|]. cbn [hex]. apply Forall_app. split; [apply IH|]. repeat constructor;
    unfold hexdigit; pose proof (Z.mod_pos_bound n 16 ltac:(lia)); destruct (_ <? 10) eqn:E; lia.
Qed.
Lemma hex_len k : forall n, List.length (hex k n) = k.
Proof. induction k as [|k IH]; intros n; [reflexivity|]. cbn [hex]. rewrite app_length, IH. cbn. lia. Qed.

(** an escape: a backslash, a letter, and hexadecimal digits *)
Lemma escape_form r : exists c h, escape r = 92 :: c :: h /\ (97 <= c <= 122 \/ c = 85) /\ Forall ordinary h.
Proof.
  unfold escape.
  repeat match goal with
  | |- context [if ?b then _ else _] => destruct b
  end; eexists; eexists; (split; [reflexivity|]); (split; [lia|]); first [apply hex_ord|constructor].
Qed.
Lemma escape_len r : scalar_value r -> (List.length (utf8_enc r) < List.length (escape r))%nat.
Proof.
  intros S. unfold escape, utf8_enc.
  destruct (r =? 7) eqn:?, (r =? 8) eqn:?, (r =? 12) eqn:?, (r =? 10) eqn:?, (r =? 13) eqn:?, (r =? 9) eqn:?, (r =? 11) eqn:?; try (exfalso; lia);
    destruct (r <? 128) eqn:?; try (exfalso; lia); cbn [List.length]; try lia;
    destruct (r <? 32) eqn:?, (r =? 127) eqn:?; try (exfalso; lia); cbn [orb];
    destruct (r <? 2048) eqn:?, (r <? 65536) eqn:?; try (exfalso; lia); cbn [List.length]; rewrite ?hex_len; lia.
Qed.
Lemma quoteBody_cons f c s : quoteBody L (S f) (c :: s) =
  match decodeRune (c :: s) with
  | None => 92 :: 120 :: hex 2 c ++ quoteBody L f s
  | Some (r, w, s'') => (if (r =? 34) || (r =? 92) then [92; r] else if isPrint L r then w else escape r) ++ quoteBody L f s''
  end.
Proof. reflexivity. Qed.
Lemma shownN_cons f c s : shownN (S f) (c :: s) =
  match decodeRune (c :: s) with
  | None => 92 :: 120 :: hex 2 c ++ shownN f s
  | Some (r, w, s'') => (if (r =? 34) || (r =? 92) then [r] else if isPrint L r then w else escape r) ++ shownN f s''
  end.
Proof. reflexivity. Qed.
Definition isb (s : list Z) : Prop := Forall (fun c => 0 <= c < 256) s.
Lemma decodeRune_isb s r w t : isb s -> decodeRune s = Some (r, w, t) -> isb t.
Proof. intros B E. destruct (decodeRune_some s r w t B E) as [-> _]. now apply Forall_app in B. Qed.

Lemma unquote_quote n : forall s g rest acc, isb s -> (List.length s <= n)%nat -> (List.length (quoteBody L n s) < g)%nat ->
  unquote g (quoteBody L n s ++ 34 :: rest) acc = (acc ++ shownN n s, rest).
Proof.
  induction n as [|n IH]; intros s g rest acc B LN LG; (destruct g as [|g]; [lia|]).
  { destruct s; [|cbn in LN; lia]. cbn [quoteBody shownN app]. rewrite unquote_end. now rewrite app_nil_r. }
  destruct s as [|c s].
  { cbn [quoteBody shownN app]. rewrite unquote_end. now rewrite app_nil_r. }
  rewrite quoteBody_cons in *. rewrite shownN_cons. cbn [List.length] in LN.
  destruct (decodeRune (c :: s)) as [[[r w] t]|] eqn:D.
  - destruct (decodeRune_some _ _ _ _ B D) as (Es & Sr & Ew). pose proof (enc_len r) as LW. rewrite <- Ew in LW.
    assert (LT : (List.length t <= n)%nat).
    { apply (f_equal (@List.length Z)) in Es. rewrite app_length in Es. cbn [List.length] in Es. lia. }
    pose proof (decodeRune_isb _ _ _ _ B D) as BT.
    rewrite <- app_assoc. rewrite app_length in LG.
    destruct ((r =? 34) || (r =? 92)) eqn:Q.
    + cbn [app List.length] in *. rewrite unquote_esc by lia. rewrite Q. rewrite IH by (assumption || lia). now rewrite <- app_assoc.
    + destruct (isPrint L r) eqn:P.
      * rewrite unquote_ords.
        { rewrite IH by (assumption || lia). now rewrite <- app_assoc. }
        rewrite Ew. destruct (Z_lt_dec r 128) as [Z|Z].
        { unfold utf8_enc. replace (r <? 128) with true by lia. repeat constructor; lia. }
        eapply Forall_impl; [|apply enc_high; [exact Sr|lia]]. cbv beta. unfold ordinary. lia.
      * destruct (escape_form r) as (x & h & Eh & X & O). rewrite Eh in *. cbn [app List.length] in *.
        rewrite unquote_esc by lia. replace ((x =? 34) || (x =? 92)) with false by lia.
        destruct g as [|g]; [lia|]. rewrite unquote_ords by exact O. rewrite IH by (assumption || lia). now rewrite <- !app_assoc.
  - cbn [app List.length] in LG |- *. rewrite unquote_esc by lia. change ((120 =? 34) || (120 =? 92)) with false. cbv iota.
    rewrite <- app_assoc. rewrite app_length in LG. destruct g as [|g]; [lia|]. rewrite unquote_ords by apply hex_ord.
    rewrite IH by (try (now apply Forall_inv_tail in B); lia). now rewrite <- !app_assoc.
Qed.
Lemma quotedString_quote s rest : isb s -> quotedString (quote L s ++ rest) = (shown s, rest).
Proof.
  intros B. unfold quote, shown. cbn [app quotedString]. change (34 =? 34) with true. cbv iota. rewrite <- app_assoc. cbn [app].
  rewrite unquote_quote; [reflexivity|exact B|lia|]. cbn [List.length]. rewrite !app_length. cbn [List.length]. lia.
Qed.

(** ** which strings are unchanged *)
Lemma shownN_len n : forall s, isb s -> (List.length s <= n)%nat -> (List.length s <= List.length (shownN n s))%nat /\
  (shownN n s = s <-> plain_text (tl_print L) s) /\ (List.length (shownN n s) = List.length s -> shownN n s = s).
Proof.
  assert (P0 : plain_text (tl_print L) []) by (exists []; split; [constructor|reflexivity]).
  induction n as [|n IH]; intros s B LN.
  { destruct s; [|cbn in LN; lia]. cbn. split; [lia|]. split; [|reflexivity]. split; [intros _; exact P0|reflexivity]. }
  destruct s as [|c s]; [cbn; split; [lia|]; split; [|reflexivity]; split; [intros _; exact P0|reflexivity]|].
  rewrite shownN_cons. cbn [List.length] in LN.
  destruct (decodeRune (c :: s)) as [[[r w] t]|] eqn:D.
  - destruct (decodeRune_some _ _ _ _ B D) as (Es & Sr & Ew). pose proof (enc_len r) as LW. rewrite <- Ew in LW.
    pose proof (f_equal (@List.length Z) Es) as El. rewrite app_length in El. cbn [List.length] in El.
    pose proof (decodeRune_isb _ _ _ _ B D) as BT. destruct (IH t BT ltac:(lia)) as (I1 & I2 & I3). rewrite Es. rewrite !app_length.
    assert (PT : printable (tl_print L) r -> plain_text (tl_print L) (w ++ t) <-> plain_text (tl_print L) t).
    { intros Pr. split.
      - intros (cs & F & E). destruct cs as [|x cs]; cbn [flat_map] in E.
        { destruct w; [cbn in LW; lia|discriminate E]. }
        inversion F as [|? ? Px Fx]; subst x cs0 || subst. rewrite E in Es. rewrite Es in D. rewrite decodeRune_enc in D by apply Px.
        injection D as _ _ Et. exists cs. auto.
      - intros (cs & F & ->). exists (r :: cs). split; [now constructor|]. now rewrite Ew. }
    assert (NP : plain_text (tl_print L) (w ++ t) -> printable (tl_print L) r).
    { intros (cs & F & E). destruct cs as [|x cs]; cbn [flat_map] in E.
        { destruct w; [cbn in LW; lia|discriminate E]. }
        inversion F as [|? ? Px Fx]; subst. rewrite E in Es. rewrite Es in D. rewrite decodeRune_enc in D by apply Px.
        injection D as <- _ _. exact Px. }
    assert (U : forall u, List.length u = List.length w -> u = w -> printable (tl_print L) r ->
       (List.length w + List.length t <= List.length u + List.length (shownN n t))%nat /\
       (u ++ shownN n t = w ++ t <-> plain_text (tl_print L) (w ++ t)) /\
       ((List.length u + List.length (shownN n t))%nat = (List.length w + List.length t)%nat -> u ++ shownN n t = w ++ t)).
    { intros u Lu -> Pr. split; [lia|]. split.
      - rewrite (PT Pr), <- I2. split; [intros E; now apply app_inv_head in E|now intros ->].
      - intros E. rewrite I3 by lia. reflexivity. }
    destruct ((r =? 34) || (r =? 92)) eqn:Q.
    + assert (W : w = [r]) by (rewrite Ew; unfold utf8_enc; now replace (r <? 128) with true by lia).
      apply U; [now rewrite W|now symmetry|]. split; [exact Sr|left; lia].
    + unfold isPrint. destruct (if r <? 128 then _ else _) eqn:P.
      * apply U; auto. split; [exact Sr|]. destruct (r <? 128) eqn:R; [left; lia|right; split; [lia|exact P]].
      * pose proof (escape_len r Sr) as EL. rewrite <- Ew in EL. split; [lia|]. split; [|lia]. split.
        { intros E. apply (f_equal (@List.length Z)) in E. rewrite !app_length in E. lia. }
        intros Pl. apply NP in Pl. destruct Pl as [_ [Pl|[G Pl]]]; exfalso; destruct (r <? 128) eqn:R; lia.
  - assert (B' : isb s) by (now apply Forall_inv_tail in B). destruct (IH s B' ltac:(lia)) as (I1 & _ & _).
    assert (LL : List.length (92 :: 120 :: hex 2 c ++ shownN n s) = (4 + List.length (shownN n s))%nat).
    { cbn [List.length]. rewrite app_length, hex_len. reflexivity. }
    rewrite LL. cbn [List.length]. split; [lia|]. split; [|lia]. split.
    + intros E. apply (f_equal (@List.length Z)) in E. rewrite LL in E. cbn [List.length] in E. lia.
    + intros (cs & F & E). destruct cs as [|x cs]; [discriminate E|]. cbn [flat_map] in E. inversion F as [|? ? Px Fx]; subst.
      rewrite E in D. rewrite decodeRune_enc in D by apply Px. discriminate D.
Qed.
Lemma shown_same s : isb s -> shown s = s <-> plain_text (tl_print L) s.
Proof. intros B. now apply shownN_len. Qed.
Lemma shown_nil s : isb s -> shown s = [] -> s = [].
Proof. intros B E. destruct (shownN_len (List.length s) s B (Nat.le_refl _)) as (H & _). unfold shown in E. rewrite E in H. destruct s; [reflexivity|cbn in H; lia]. Qed.
End Quote.
