(** C78: texts with characters that are not printable. *)
From Coq Require Import String.
Require Import Verif.Base Verif.L_List Verif.M_Color Verif.M_Image Verif.M_Decode Verif.M_Ora Verif.M_Text
  Verif.S_String Verif.S_Text Verif.S_Parasite Verif.S_Spell Verif.L_Text Verif.L_Text2 Verif.P_Parasite Verif.P_Text Verif.P_Strings.
From Coq Require Import ZifyBool ZifyNat.
Open Scope Z_scope.
Open Scope list_scope.

Lemma hexs_step w v n : hexs w v -> 0 <= n < 16 -> hexs (w ++ [hexdigit n]) (16 * v + n).
Proof.
  intros H N. unfold hexdigit. destruct (n <? 10) eqn:E.
  - replace n with (48 + n - 48) at 2 by lia. constructor; [exact H|lia].
  - replace n with (87 + n - 87) at 2 by lia. constructor; [exact H|lia].
Qed.
Lemma hexs_hex k : forall n, 0 <= n < 16 ^ Z.of_nat k -> hexs (hex k n) n.
Proof.
  induction k as [|k IH]; intros n N.
  - change (16 ^ Z.of_nat 0) with 1 in N. assert (n = 0) as -> by lia. constructor.
  - rewrite Nat2Z.inj_succ, Z.pow_succ_r in N by lia. cbn [hex]. pose proof (Z.div_mod n 16 ltac:(lia)) as D. pose proof (Z.mod_pos_bound n 16 ltac:(lia)) as M.
    rewrite D at 3. apply hexs_step; [|exact M]. apply IH. split; [apply Z.div_pos; lia|apply Z.div_lt_upper_bound; lia].
Qed.
Lemma zlen_hex k n : zlen (hex k n) = Z.of_nat k.
Proof. unfold zlen. now rewrite hex_len. Qed.
Lemma escape_spells c : scalar_value c -> ~ (32 <= c <= 126) -> exists e, escape c = 92 :: e /\ spells e c.
Proof.
  intros S N. assert (R : 0 <= c < 1114112) by (unfold scalar_value in S; lia).
  unfold escape. destruct (c =? 7) eqn:E1; [|destruct (c =? 8) eqn:E2; [|destruct (c =? 12) eqn:E3; [|destruct (c =? 10) eqn:E4; [|destruct (c =? 13) eqn:E5; [|destruct (c =? 9) eqn:E6; [|destruct (c =? 11) eqn:E7]]]]]].
  1-7: eexists; (split; [reflexivity|]); constructor; unfold lettered; cbn; repeat (first [left; f_equal; lia|right]).
  destruct ((c <? 32) || (c =? 127)) eqn:E8; [|destruct (c <? 65536) eqn:E9]; eexists; (split; [reflexivity|]).
  - apply sp_x; [cbn; lia|lia|apply zlen_hex|apply hexs_hex; change (16 ^ Z.of_nat 2) with 256; lia].
  - apply sp_u; [lia|apply zlen_hex|apply hexs_hex; change (16 ^ Z.of_nat 4) with 65536; lia].
  - apply sp_U; [lia|apply zlen_hex|apply hexs_hex; change (16 ^ Z.of_nat 8) with 4294967296; lia].
Qed.
Lemma shownN_spelled L n : forall s, isb s -> (List.length s <= n)%nat -> spelled (tl_print L) s (shownN L n s).
Proof.
  induction n as [|n IH]; intros s B LN; [destruct s; [constructor|cbn in LN; lia]|].
  destruct s as [|x s]; [constructor|]. rewrite shownN_cons. destruct (decodeRune (x :: s)) as [[[c w] t]|] eqn:D.
  - destruct (decodeRune_some _ _ _ _ B D) as (ES & SC & ->). pose proof (enc_len c) as EL. rewrite ES.
    assert (LT : (List.length t <= n)%nat) by (apply (f_equal (@List.length Z)) in ES; rewrite app_length in ES; cbn [List.length] in *; lia).
    assert (BT : isb t) by (rewrite ES in B; now apply Forall_app in B).
    assert (PR : isPrint L c = true <-> printable (tl_print L) c).
    { unfold isPrint, printable. destruct (c <? 128) eqn:E; [split; [intros; split; [exact SC|lia]|intros [_ P]; lia]|].
      split; [intros; split; [exact SC|right; split; [lia|assumption]]|intros [_ [P|[_ P]]]; [lia|exact P]]. }
    destruct ((c =? 34) || (c =? 92)) eqn:Q.
    + replace [c] with (utf8_enc c) by (apply enc_small; [exact SC|lia]). apply sd_char; [split; [exact SC|lia]|auto].
    + destruct (isPrint L c) eqn:P; [apply sd_char; [now apply PR|auto]|].
      assert (NP : ~ printable (tl_print L) c) by (intros X; apply PR in X; congruence).
      destruct (escape_spells c SC) as (e & -> & E). { intros X. apply NP. split; [exact SC|now left]. }
      cbn [app]. apply sd_escape; auto.
  - apply sd_byte; [|apply (zlen_hex 2)|apply hexs_hex; change (16 ^ Z.of_nat 2) with 256; now inversion B|apply IH; [now inversion B|cbn in LN; lia]].
    intros W. apply well_encoded_dec in W; [congruence|exact B].
Qed.

(** A text of one segment, written and read, comes back with every character that is not
    printable spelled as an escape sequence; so does the name of the font. *)
Theorem C78_spelled L t w h : float_ok (tl_float L) -> wf_text t -> tdFore t <> None -> tdData t <> [] ->
  0 <= w < 4294967296 -> 0 <= h < 4294967296 ->
  exists data t', wtext L [t] w h = Some data /\ ptext L data = TOk [t'] /\
    spelled (tl_print L) (tdData t) (tdData t') /\ spelled (tl_print L) (tdFont t) (tdFont t').
Proof.
  intros FO WF NC ND Hw Hh. destruct (tdFore t) as [c|] eqn:F; [|contradiction].
  destruct (text_parsed L t c w h FO WF F ND Hw Hh) as (data & E & P). exists data, (read_back L t).
  split; [exact E|]. split; [exact P|]. destruct WF as (BF & BD & _). cbn [read_back tdData tdFont].
  split; apply shownN_spelled; auto.
Qed.
Print Assumptions C78_spelled.

(** So different texts may come back as one: every text that is not printable has a twin, the
    text that spells out its escape sequences, with which it is confused. *)
Lemma shown_plain L s : isb s -> plain_text (tl_print L) s -> shown L s = s.
Proof. intros B P. now apply shown_same. Qed.
Lemma spelled_plain wide s t : spelled wide s t -> plain_text wide t.
Proof.
  assert (AP : forall a b, plain_text wide a -> plain_text wide b -> plain_text wide (a ++ b)).
  { intros a b (x & FX & ->) (y & FY & ->). exists (x ++ y). split; [now apply Forall_app|now rewrite flat_map_app]. }
  assert (CH : forall c, 32 <= c <= 126 -> plain_text wide [c]).
  { intros c C. exists [c]. split; [apply Forall_cons; [split; [unfold scalar_value; lia|now left]|constructor]|]. cbn [flat_map]. rewrite app_nil_r. symmetry. apply enc_small; [unfold scalar_value; lia|lia]. }
  assert (CC : forall c l, 32 <= c <= 126 -> plain_text wide l -> plain_text wide (c :: l)) by (intros c l C H; apply (AP [c] l); auto).
  assert (HX : forall w v, hexs w v -> plain_text wide w).
  { induction 1; [exists []; split; [constructor|reflexivity]| |]; apply AP; auto; apply CH; lia. }
  assert (NL : plain_text wide []) by (exists []; split; [constructor|reflexivity]).
  induction 1 as [|c s t P S IH|c e s t SC NP SP S IH|x w s t N LW HW S IH].
  - exact NL.
  - apply AP; [|exact IH]. exists [c]. split; [now apply Forall_cons|]. cbn [flat_map]. now rewrite app_nil_r.
  - apply CC; [lia|]. apply AP; [|exact IH]. inversion SP as [? l I|? ? ? ? ? H|? ? ? ? H|? ? ? ? H]; subst.
    + unfold lettered in I. cbn in I. apply CH. repeat (destruct I as [I|I]; [injection I; intros; lia|]). destruct I.
    + apply CC; [lia|eauto].
    + apply CC; [lia|eauto].
    + apply CC; [lia|eauto].
  - apply CC; [lia|]. apply CC; [lia|]. apply AP; eauto.
Qed.
Lemma enc_isb c : scalar_value c -> isb (utf8_enc c).
Proof. apply enc_bytes. Qed.
Lemma plain_isb wide s : plain_text wide s -> isb s.
Proof.
  intros (cs & F & ->). unfold isb. induction F as [|c cs [S _] _ IH]; [constructor|]. cbn [flat_map]. apply Forall_app. split; [now apply enc_isb|exact IH].
Qed.
Theorem C78_refuted L t w h : float_ok (tl_float L) -> wf_text t -> tdFore t <> None -> tdData t <> [] ->
  0 <= w < 4294967296 -> 0 <= h < 4294967296 -> ~ plain_text (tl_print L) (tdData t) ->
  exists s data data' tds, s <> tdData t /\ wtext L [t] w h = Some data /\
    wtext L [mkTD (tdFore t) (tdBack t) (tdSize t) (tdLetterSpacing t) (tdRise t) (tdBold t) (tdItalic t) (tdUnderline t) (tdStrike t) (tdFont t) s] w h = Some data' /\
    ptext L data = TOk tds /\ ptext L data' = TOk tds.
Proof.
  intros FO WF NC ND Hw Hh NP. destruct (tdFore t) as [c|] eqn:F; [|contradiction]. pose proof WF as (BF & BD & WS).
  pose proof (shownN_spelled L (List.length (tdData t)) (tdData t) BD ltac:(lia)) as SP. fold (shown L (tdData t)) in SP.
  pose proof (spelled_plain _ _ _ SP) as PL. set (s := shown L (tdData t)) in *. pose proof (plain_isb _ _ PL) as BS.
  set (t2 := mkTD (Some c) (tdBack t) (tdSize t) (tdLetterSpacing t) (tdRise t) (tdBold t) (tdItalic t) (tdUnderline t) (tdStrike t) (tdFont t) s).
  assert (NS : s <> []).
  { intros E. apply ND. rewrite E in SP. inversion SP as [E1|c0 s0 t0 P0 S0 E1 E2| |]; [reflexivity|].
    pose proof (enc_len c0). destruct (utf8_enc c0); [cbn in *; lia|discriminate E2]. }
  assert (WF2 : wf_text t2) by (unfold wf_text, t2; cbn [tdFont tdData tdSize tdFore]; rewrite F in WS; tauto).
  destruct (text_parsed L t c w h FO WF F ND Hw Hh) as (data & E & P).
  destruct (text_parsed L t2 c w h FO WF2 eq_refl NS Hw Hh) as (data2 & E2 & P2).
  exists s, data, data2, [read_back L t]. split; [intros X; apply NP; now rewrite <- X|]. split; [exact E|]. split; [exact E2|]. split; [exact P|].
  rewrite P2. unfold read_back. cbn [tdData tdFont tdSize t2]. now rewrite (shown_plain L s BS PL).
Qed.
Print Assumptions C78_refuted.
Definition two_lines : textDatum := mkTD (Some (CGray 0)) None 18 0 0 false false false false (str "Sans") (97 :: 10 :: [98; 200]).
Example C78_ex : wf_text two_lines /\ tdData two_lines <> [] /\ ~ plain_text (tl_print plain_libs) (tdData two_lines) /\
  spelled (tl_print plain_libs) (tdData two_lines) (str "a\nb\xc8") /\ spells (str "u2028") 8232 /\ spells (str "n") 10 /\ ~ spells (str "n") 13.
Proof.
  split; [repeat split; try (repeat constructor; cbn; lia); cbn; lia|]. split; [discriminate|].
  assert (S : spelled (tl_print plain_libs) (tdData two_lines) (str "a\nb\xc8")) by (apply (shownN_spelled plain_libs 4 (tdData two_lines)); [repeat constructor; lia|cbn; lia]).
  split. { intros P. apply (shown_plain plain_libs) in P; [vm_compute in P; discriminate P|repeat constructor; lia]. }
  split; [exact S|]. split; [|split].
  - apply sp_u; [lia|reflexivity|apply (hexs_hex 4 8232); cbn; lia].
  - apply sp_letter. cbn. tauto.
  - intros H. inversion H; subst. cbn in *. intuition congruence.
Qed.
