(** C76: the markup of a text segment. *)
From Coq Require Import String.
Require Import Verif.Base Verif.L_List Verif.L_Word Verif.M_Color Verif.S_Color Verif.L_Color Verif.M_Image Verif.M_Decode Verif.M_Ora Verif.M_Text
  Verif.S_String Verif.S_Text Verif.S_Markup Verif.S_Render Verif.L_Text Verif.L_Text2 Verif.P_Parasite Verif.P_Markup.
From Coq Require Import ZifyBool ZifyNat.
Open Scope Z_scope.
Open Scope list_scope.

(** the elements that writeTextMarkup opens for a segment in the font Sans *)
Definition colour_value (r g b : Z) : list Z := 35 :: hex02X r ++ hex02X g ++ hex02X b.
Definition span1 (name : string) (v : list Z) : element := (str "span", [(str name, v)]).
Definition when {A} (c : bool) (x : A) : list A := if c then [x] else [].
Definition path_of (td : textDatum) (f b : rgba32) : list element :=
  when (coloured f) (span1 "foreground" (colour_value (pR f / 256) (pG f / 256) (pB f / 256))) ++
  when (coloured b) (span1 "background" (colour_value (pR b) (pG b) (pB b))) ++
  when (tdBold td) (str "b", []) ++ when (tdItalic td) (str "i", []) ++ when (tdUnderline td) (str "u", []) ++ when (tdStrike td) (str "s", []) ++
  when (negb (tdLetterSpacing td =? 0)) (span1 "letter_spacing" (itoa (u32 (tdLetterSpacing td * 1024)))) ++
  when (negb (tdSize td =? 18)) (span1 "size" (itoa (u32 (tdSize td * 1024)))) ++
  when (negb (tdRise td =? 0)) (span1 "rise" (itoa (u32 (tdRise td * 1024)))).

Lemma backslashed_app a b : backslashed (a ++ b) = backslashed a ++ backslashed b.
Proof. apply flat_map_app. Qed.
Lemma backslashed_same s : Forall (fun c => c <> 34) s -> backslashed s = s.
Proof. induction 1 as [|c s H _ IH]; [reflexivity|]. cbn [backslashed flat_map]. fold (backslashed s). rewrite IH. now replace (c =? 34) with false by lia. Qed.
Lemma hex_upper k n : Forall (fun c => c <> 34 /\ c <> 92 /\ 0 <= c < 256) (map upper (hex k n)).
Proof.
  revert n. induction k as [|k IH]; intros n; [constructor|]. cbn [hex]. rewrite map_app. apply Forall_app. split; [apply IH|]. cbn [map]. constructor; [|constructor].
  unfold upper, hexdigit. pose proof (Z.mod_pos_bound n 16 ltac:(lia)). destruct (_ <? 10) eqn:E; destruct (_ && _) eqn:E2; lia.
Qed.
Lemma colour_value_ok r g b : Forall (fun c => c <> 34 /\ c <> 92 /\ 0 <= c < 256) (colour_value r g b).
Proof. unfold colour_value, hex02X. constructor; [lia|]. repeat (apply Forall_app; split); apply hex_upper. Qed.
Lemma itoa_ok n : 0 <= n -> Forall (fun c => c <> 34 /\ c <> 92 /\ 0 <= c < 256) (itoa n).
Proof. intros N. destruct (itoa_digits n N) as (_ & D & _). apply Forall_forall. intros c I. rewrite forallb_forall in D. specialize (D c I). unfold isDigit in D. lia. Qed.
Lemma span_written name v : Forall (fun c => c <> 34 /\ c <> 92 /\ 0 <= c < 256) v -> Forall (fun c => c <> 34) (str name) ->
  backslashed (open_tag (span1 name v)) = str "<span " ++ str name ++ str "=\""" ++ v ++ str "\"">" /\ close_tag (span1 name v) = str "</span>".
Proof.
  intros V N. split; [|reflexivity].
  assert (E : open_tag (span1 name v) = str "<span " ++ str name ++ [61; 34] ++ v ++ [34; 62]).
  { unfold open_tag, span1, attribute. cbn [fst snd flat_map]. rewrite app_nil_r. cbn [str]. cbn. rewrite <- !app_assoc. cbn. rewrite <- !app_assoc. reflexivity. }
  rewrite E, !backslashed_app, (backslashed_same v), (backslashed_same (str name)), (backslashed_same (str "<span ")); auto.
  - vm_compute. repeat (apply Forall_cons; [discriminate|]). constructor.
  - eapply Forall_impl; [|exact V]. cbv beta. intuition.
Qed.
Section Lib.
Variable L : tlibs.
Notation written e := (backslashed (open_tag e), close_tag e).
Ltac noq := vm_compute; repeat (apply Forall_cons; [discriminate|]); constructor.
Lemma u32_pos n : 0 <= u32 n. Proof. unfold u32. apply Z.mod_pos_bound. lia. Qed.
Lemma when_map {A B} (f : A -> B) c x : map f (when c x) = when c (f x). Proof. now destruct c. Qed.
Lemma tags_path td f b : tdFont td = str "Sans" -> markupTags L td f b = map (fun e => written e) (path_of td f b).
Proof.
  intros F. unfold markupTags, path_of. cbv zeta. rewrite F. change (streq (str "Sans") (str "Sans")) with true. cbv iota. rewrite app_nil_l.
  rewrite !map_app, !when_map.
  destruct (span_written "foreground" (colour_value (pR f / 256) (pG f / 256) (pB f / 256)) (colour_value_ok _ _ _) ltac:(noq)) as [-> ->].
  destruct (span_written "background" (colour_value (pR b) (pG b) (pB b)) (colour_value_ok _ _ _) ltac:(noq)) as [-> ->].
  destruct (span_written "letter_spacing" (itoa (u32 (tdLetterSpacing td * 1024))) (itoa_ok _ (u32_pos _)) ltac:(noq)) as [-> ->].
  destruct (span_written "size" (itoa (u32 (tdSize td * 1024))) (itoa_ok _ (u32_pos _)) ltac:(noq)) as [-> ->].
  destruct (span_written "rise" (itoa (u32 (tdRise td * 1024))) (itoa_ok _ (u32_pos _)) ltac:(noq)) as [-> ->].
  assert (Q : forall (c : bool) (x : list Z * list Z), (if c then [] else [x]) = when (negb c) x) by (intros [|]; reflexivity).
  rewrite <- !Q. unfold when, colour_value.
  repeat (apply f_equal2; [|]); repeat match goal with |- context [if ?c then _ else _] => destruct c end; cbn; rewrite <- ?app_assoc; reflexivity.
Qed.

(** ** the style the elements give *)
Lemma spans_app p q : spans (p ++ q) = spans p ++ spans q. Proof. apply flat_map_app. Qed.
Lemma values_app n a b : values n (a ++ b) = values n a ++ values n b.
Proof. unfold values. now rewrite filter_app, map_app. Qed.
Lemma declared_app n p q : declared n (p ++ q) = declared n p ++ declared n q.
Proof. unfold declared. now rewrite spans_app, values_app. Qed.
Lemma declared_span n m c v : declared n (when c (span1 m v)) = when (c && streq (str m) (str n)) v.
Proof. destruct c; [|reflexivity]. unfold declared, spans, span1, when. cbn [flat_map fst snd]. destruct (list_eq_dec Z.eq_dec (str "span") (str "span")) as [_|N]; [|now destruct N].
  rewrite app_nil_r, values_cons. cbn [andb]. now destruct (streq _ _). Qed.
Lemma declared_flag n m c : str m <> str "span" -> declared n (when c (str m, [])) = [].
Proof. intros M. destruct c; [|reflexivity]. unfold declared, spans, when. cbn [flat_map fst snd]. destruct (list_eq_dec Z.eq_dec _ _); [contradiction|reflexivity]. Qed.
Lemma in_when s c (e : element) : In s (map fst (when c e)) <-> c = true /\ fst e = s.
Proof. destruct c; cbn; intuition congruence. Qed.
Lemma inside_app n p q : inside n (p ++ q) <-> inside n p \/ inside n q.
Proof. unfold inside. now rewrite map_app, in_app_iff. Qed.

(** hexadecimal digits *)
Lemma hexdig_fun c v : hexdig c v -> forall w, hexdig c w -> v = w.
Proof. intros H w K. destruct H; inversion K; lia. Qed.
Lemma hexdig_digit n : 0 <= n < 16 -> hexdig (upper (hexdigit n)) n.
Proof.
  intros N. unfold upper, hexdigit. destruct (n <? 10) eqn:E.
  - replace ((97 <=? 48 + n) && (48 + n <=? 122)) with false by lia. replace n with (48 + n - 48) at 2 by lia. constructor. lia.
  - replace ((97 <=? 87 + n) && (87 + n <=? 122)) with true by lia. replace n with (87 + n - 32 - 65 + 10) at 2 by lia. constructor. lia.
Qed.
Lemma hex02X_digits n : 0 <= n < 256 -> hex02X n = [upper (hexdigit (n / 16)); upper (hexdigit (n mod 16))].
Proof.
  intros N. unfold hex02X. replace (n <? 256) with true by lia. cbn [hex app map]. rewrite (Z.mod_small (n / 16)); [reflexivity|].
  split; [apply Z.div_pos; lia|apply Z.div_lt_upper_bound; lia].
Qed.
Lemma colour_named r g b : 0 <= r < 256 -> 0 <= g < 256 -> 0 <= b < 256 ->
  colour_form (colour_value r g b) /\ names_colour (colour_value r g b) (opaque r g b) /\
  forall c, names_colour (colour_value r g b) c -> c = opaque r g b.
Proof.
  intros R G B. unfold colour_value. rewrite !hex02X_digits by assumption. cbn [app].
  assert (D : forall n, 0 <= n < 256 -> 0 <= n / 16 < 16 /\ 0 <= n mod 16 < 16 /\ n = 16 * (n / 16) + n mod 16).
  { intros n N. pose proof (Z.mod_pos_bound n 16 ltac:(lia)). pose proof (Z.div_mod n 16 ltac:(lia)). lia. }
  destruct (D r R) as (R1 & R2 & R3). destruct (D g G) as (G1 & G2 & G3). destruct (D b B) as (B1 & B2 & B3).
  split; [|split].
  - split; [left; reflexivity|eauto].
  - rewrite R3 at 3. rewrite G3 at 3. rewrite B3 at 3. constructor; now apply hexdig_digit.
  - intros c K. inversion K as [a1 a2 a3 a4 a5 a6 v1 v2 v3 v4 v5 v6 H1 H2 H3 H4 H5 H6|]; subst.
    rewrite (hexdig_fun _ _ H1 _ (hexdig_digit _ R1)), (hexdig_fun _ _ H2 _ (hexdig_digit _ R2)), (hexdig_fun _ _ H3 _ (hexdig_digit _ G1)),
      (hexdig_fun _ _ H4 _ (hexdig_digit _ G2)), (hexdig_fun _ _ H5 _ (hexdig_digit _ B1)), (hexdig_fun _ _ H6 _ (hexdig_digit _ B2)).
    now rewrite <- R3, <- G3, <- B3.
Qed.
Lemma rgb8_opaque r g b : 0 <= r < 256 -> 0 <= g < 256 -> 0 <= b < 256 -> rgb8 (opaque r g b) = (r, g, b).
Proof.
  intros R G B. unfold rgb8, opaque. cbn [color_RGBA pR pG pB].
  assert (E : forall z, 0 <= z < 256 -> 257 * z / 256 = z).
  { intros z Z. replace (257 * z) with (z + z * 256) by lia. rewrite Z.div_add, Z.div_small; lia. }
  now rewrite !E.
Qed.
Lemma escape_reads s : reads_as (escapeHTML s) s.
Proof.
  induction s as [|c s IH]; [constructor|]. unfold escapeHTML. cbn [flat_map]. fold (escapeHTML s).
  destruct (c =? 38) eqn:E1; [|destruct (c =? 39) eqn:E2; [|destruct (c =? 60) eqn:E3; [|destruct (c =? 62) eqn:E4; [|destruct (c =? 34) eqn:E5]]]].
  1: replace c with 38 by lia. 2: replace c with 39 by lia. 3: replace c with 60 by lia. 4: replace c with 62 by lia. 5: replace c with 34 by lia.
  1-5: apply ra_entity; [cbn; auto 10|exact IH].
  cbn [app]. constructor; [cbn; lia|exact IH].
Qed.
Definition small (n : Z) : Prop := 0 <= n < 4194304.
Lemma scaled_number n : small n -> is_number (itoa (u32 (n * 1024))) /\ value_of (itoa (u32 (n * 1024))) / 1024 = n.
Proof.
  unfold small. intros N. assert (E : u32 (n * 1024) = n * 1024) by (unfold u32; apply Z.mod_small; lia). rewrite E.
  destruct (itoa_digits (n * 1024) ltac:(lia)) as (NE & D & V). split.
  - split; [exact NE|]. split; [|lia]. apply Forall_forall. intros c I. rewrite forallb_forall in D. specialize (D c I). unfold isDigit in D. lia.
  - rewrite V. now rewrite Z.div_mul by lia.
Qed.
Lemma values1 n m v : values n [(str m, v)] = when (streq (str m) (str n)) v.
Proof. rewrite values_cons. now destruct (streq _ _). Qed.
Lemma readable_span m v : (In m ["size"; "letter_spacing"; "rise"]%string -> is_number v) -> (m = "foreground"%string -> exists c, names_colour v c) ->
  In m ["size"; "letter_spacing"; "rise"; "foreground"; "background"]%string -> readable (span1 m v).
Proof.
  intros N C K _. unfold span1. cbn [snd]. split.
  - intros name w In1 In2. rewrite values1 in In2. destruct (streq (str m) (str name)) eqn:E; [|destruct In2]. destruct In2 as [<-|[]]. apply N.
    apply streq_eq in E. cbn in K, In1. destruct In1 as [<-|[<-|[<-|[]]]]; destruct K as [<-|[<-|[<-|[<-|[<-|[]]]]]]; cbn; auto; discriminate E.
  - intros w In2 _. rewrite values1 in In2. destruct (streq (str m) (str "foreground")) eqn:E; [|destruct In2]. destruct In2 as [<-|[]]. apply C.
    apply streq_eq in E. destruct K as [<-|[<-|[<-|[<-|[<-|[]]]]]]; auto; discriminate E.
Qed.
Lemma readable_flag m : str m <> str "span" -> readable (str m, []).
Proof. intros M E. now destruct M. Qed.
Lemma Forall_when {A} (P : A -> Prop) c x : (c = true -> P x) -> Forall P (when c x).
Proof. destruct c; cbn; auto. Qed.

Lemma path_readable td f b : premultiplied f -> small (tdSize td) -> small (tdLetterSpacing td) -> small (tdRise td) -> Forall readable (path_of td f b).
Proof.
  intros (P1 & P2 & P3 & P4) S1 S2 S3. unfold path_of. repeat (apply Forall_app; split); apply Forall_when; intros W;
    try (apply readable_flag; discriminate); apply readable_span; try (cbn; auto 10; fail); try discriminate.
  all: try (intros _; now apply scaled_number).
  all: try (intros [K|[K|[K|[]]]]; discriminate K).
  intros _. eexists. apply colour_named; split; try (apply Z.div_pos; lia); apply Z.div_lt_upper_bound; lia.
Qed.
Ltac settle T :=
  repeat match type of T with context [streq ?a ?b] => let r := eval vm_compute in (streq a b) in change (streq a b) with r in T end;
  rewrite ?Bool.andb_false_r in T; rewrite ?Bool.andb_true_r in T; cbn [when app] in T; rewrite ?app_nil_r in T.
Lemma path_style td c b base t s : tdFont td = str "Sans" -> tdFore td = Some c -> wf_color c ->
  small (tdSize td) -> small (tdLetterSpacing td) -> small (tdRise td) -> unstyled base -> styled base (path_of td (color_RGBA c) b) s t ->
  same_style t td /\ tdData t = s.
Proof.
  intros F FC WC S1 S2 S3 (U1 & U2 & U3 & U4 & U5 & U6 & U7 & U8 & U9) (T1 & T2 & T3 & T4 & T5 & (cs & T6 & T6') & _ & T7 & T8 & T9 & T10).
  pose proof (color_RGBA_premul c WC) as (P1 & P2 & P3 & P4). set (f := color_RGBA c) in *.
  split; [|exact T1]. unfold path_of in *.
  rewrite !declared_app, !declared_span, !declared_flag in T2, T3, T4, T5, T6 by discriminate.
  settle T2. settle T3. settle T4. settle T5. settle T6.
  assert (FL : forall (x y : bool) P, (x = true <-> false = true \/ P) -> (P <-> y = true) -> x = y).
  { intros x y P A B. destruct x, y; intuition congruence. }
  assert (IB : forall m, inside m (path_of td f b) <->
     (coloured f = true /\ str "span" = str m) \/ (coloured b = true /\ str "span" = str m) \/
     (tdBold td = true /\ str "b" = str m) \/ (tdItalic td = true /\ str "i" = str m) \/
     (tdUnderline td = true /\ str "u" = str m) \/ (tdStrike td = true /\ str "s" = str m) \/
     (negb (tdLetterSpacing td =? 0) = true /\ str "span" = str m) \/ (negb (tdSize td =? 18) = true /\ str "span" = str m) \/
     (negb (tdRise td =? 0) = true /\ str "span" = str m)).
  { intros m. unfold path_of. rewrite !inside_app. unfold inside. rewrite !in_when. reflexivity. }
  unfold same_style. repeat split.
  - rewrite T2, U1, F. reflexivity.
  - rewrite T3, U2. destruct (tdSize td =? 18) eqn:E; cbn [negb when]; unfold scaled; cbn [map last]; [clear - E; lia|exact (proj2 (scaled_number _ S1))].
  - rewrite T4, U3. destruct (tdLetterSpacing td =? 0) eqn:E; cbn [negb when]; unfold scaled; cbn [map last]; [clear - E; lia|exact (proj2 (scaled_number _ S2))].
  - rewrite T5, U4. destruct (tdRise td =? 0) eqn:E; cbn [negb when]; unfold scaled; cbn [map last]; [clear - E; lia|exact (proj2 (scaled_number _ S3))].
  - rewrite U5 in T7. apply (FL _ _ _ T7). unfold path_of in IB. rewrite IB. intuition discriminate.
  - rewrite U6 in T8. apply (FL _ _ _ T8). unfold path_of in IB. rewrite IB. intuition discriminate.
  - rewrite U7 in T9. apply (FL _ _ _ T9). unfold path_of in IB. rewrite IB. intuition discriminate.
  - rewrite U8 in T10. apply (FL _ _ _ T10). unfold path_of in IB. rewrite IB. intuition discriminate.
  - rewrite T6', U9, FC. destruct (coloured f) eqn:E; cbn [when] in T6.
    + assert (RB : 0 <= pR f / 256 < 256 /\ 0 <= pG f / 256 < 256 /\ 0 <= pB f / 256 < 256).
      { clear - P1 P2 P3 P4. clearbody f. unfold is_u16 in *. repeat split; try (apply Z.div_pos; lia); apply Z.div_lt_upper_bound; lia. }
      destruct RB as (R1 & R2 & R3). destruct (colour_named _ _ _ R1 R2 R3) as (CF & _ & CU).
      inversion T6 as [|v x vs xs N1 N2|v vs xs N1 N2]; subst; [|contradiction]. inversion N2; subst. cbn [map last option_map].
      rewrite (CU _ N1), rgb8_opaque by assumption. reflexivity.
    + inversion T6; subst. cbn [map last option_map]. f_equal. unfold coloured in E. unfold rgb8. fold f.
      assert (Z0 : pR f = 0 /\ pG f = 0 /\ pB f = 0) by (clear - E; clearbody f; lia). destruct Z0 as (-> & -> & ->). reflexivity.
Qed.

(** ** C76 *)
(** A segment in the default font is written as opening tags, the text in quotes with
    entities for the characters that XML knows, and the closing tags in reverse.  Every
    tag can be read back, and text inside these elements has the style of the segment,
    up to its background and colours of more than 8 bits.  For other fonts the name is
    written in bare quotes, see C76_font_refuted. *)
Theorem C76_markup_partial td c bg : tdFont td = str "Sans" -> tdFore td = Some c -> tdBack td = Some bg -> wf_color c ->
  small (tdSize td) -> small (tdLetterSpacing td) -> small (tdRise td) ->
  exists path w,
    writeTextMarkup L td = Some (flat_map (fun e => backslashed (open_tag e)) path ++ quote L w ++ flat_map close_tag (rev path)) /\
    reads_as w (tdData td) /\ Forall readable path /\
    (forall base t, unstyled base -> styled base path (tdData td) t -> same_style t td /\ tdData t = tdData td).
Proof.
  intros F FC FB WC S1 S2 S3. exists (path_of td (color_RGBA c) (color_RGBA bg)), (escapeHTML (tdData td)). split; [|split; [|split]].
  - unfold writeTextMarkup. rewrite FC, FB. cbn [obind]. cbv zeta. rewrite tags_path by assumption.
    f_equal. f_equal; [|f_equal].
    + rewrite !flat_map_concat_map, map_map. reflexivity.
    + rewrite <- map_rev, !flat_map_concat_map, map_map. reflexivity.
  - apply escape_reads.
  - apply path_readable; auto. apply color_RGBA_premul, WC.
  - intros base t U ST. eapply path_style; eauto.
Qed.

(** ** the quotes of the text end the string *)
Lemma unquote_backslashed s : Forall (fun x => x <> 92 /\ 0 <= x < 128) s -> forall f r acc, (List.length s <= f)%nat ->
  unquote (S f) (backslashed s ++ 34 :: r) acc = (acc ++ s, r).
Proof.
  induction 1 as [|x s [H1 H2] _ IH]; intros f r acc Hf; [cbn [backslashed flat_map app]; now rewrite unquote_end, app_nil_r|].
  cbn [backslashed flat_map]. fold (backslashed s). cbn [List.length] in Hf. destruct f as [|f]; [lia|]. destruct (x =? 34) eqn:E.
  - replace x with 34 by lia. cbn [app]. rewrite unquote_esc by lia. cbn [Z.eqb Pos.eqb orb]. rewrite IH by lia. now rewrite <- app_assoc.
  - cbn [app]. rewrite unquote_ord by (unfold ordinary; lia). rewrite IH by lia. now rewrite <- app_assoc.
Qed.
Definition plain7 (s : list Z) : Prop := Forall (fun x => x <> 92 /\ 0 <= x < 128) s.
Ltac p7 := unfold plain7; vm_compute; repeat (apply Forall_cons; [split; [discriminate|split; [discriminate|reflexivity]]|]); constructor.
Lemma plain7_span m v : Forall (fun x => x <> 34 /\ x <> 92 /\ 0 <= x < 128) v -> plain7 (str m) -> plain7 (open_tag (span1 m v)).
Proof.
  intros V M. unfold plain7, open_tag, span1, attribute. cbn [fst snd flat_map]. rewrite app_nil_r.
  assert (V' : Forall (fun x => x <> 92 /\ 0 <= x < 128) v) by (eapply Forall_impl; [|exact V]; cbv beta; intuition).
  apply Forall_cons; [lia|]. apply Forall_app. split; [p7|]. apply Forall_app. split; [|p7]. cbn [app]. apply Forall_cons; [lia|].
  apply Forall_app. split; [exact M|]. do 2 (apply Forall_cons; [lia|]). apply Forall_app. split; [exact V'|p7].
Qed.
Lemma hex7 k n : Forall (fun x => x <> 34 /\ x <> 92 /\ 0 <= x < 128) (map upper (hex k n)).
Proof.
  revert n. induction k as [|k IH]; intros n; [constructor|]. cbn [hex]. rewrite map_app. apply Forall_app. split; [apply IH|]. cbn [map]. constructor; [|constructor].
  unfold upper, hexdigit. pose proof (Z.mod_pos_bound n 16 ltac:(lia)). destruct (_ <? 10) eqn:E; destruct (_ && _) eqn:E2; lia.
Qed.
Lemma colour7 r g b : Forall (fun x => x <> 34 /\ x <> 92 /\ 0 <= x < 128) (colour_value r g b).
Proof. unfold colour_value, hex02X. constructor; [lia|]. repeat (apply Forall_app; split); apply hex7. Qed.
Lemma itoa7 n : 0 <= n -> Forall (fun x => x <> 34 /\ x <> 92 /\ 0 <= x < 128) (itoa n).
Proof. intros N. destruct (itoa_digits n N) as (_ & D & _). apply Forall_forall. intros x I. rewrite forallb_forall in D. specialize (D x I). unfold isDigit in D. lia. Qed.
Lemma path7 td f b : plain7 (flat_map open_tag (path_of td f b)).
Proof.
  unfold plain7, path_of. rewrite !flat_map_app. repeat (apply Forall_app; split);
    match goal with |- Forall _ (flat_map _ (when ?c _)) => destruct c; [|constructor] end; cbn [when flat_map]; rewrite app_nil_r.
  1,2: apply plain7_span; [apply colour7|p7].
  1-4: p7.
  all: apply plain7_span; [apply itoa7, u32_pos|p7].
Qed.
Lemma flat_backslashed p : flat_map (fun e => backslashed (open_tag e)) p = backslashed (flat_map open_tag p).
Proof. induction p as [|e p IH]; [reflexivity|]. cbn [flat_map]. now rewrite IH, backslashed_app. Qed.

(** Put into a parasite the text is lost: the string that WriteText opens before the
    markup ends at the quote before the text, whatever the text is. *)
Theorem C76_refuted td c bg : tdFont td = str "Sans" -> tdFore td = Some c -> tdBack td = Some bg ->
  exists path, forall s m rest,
    writeTextMarkup L (mkTD (tdFore td) (tdBack td) (tdSize td) (tdLetterSpacing td) (tdRise td) (tdBold td) (tdItalic td) (tdUnderline td) (tdStrike td) (tdFont td) s) = Some m ->
    exists r, quotedString (34 :: str "<markup>" ++ m ++ rest) = (str "<markup>" ++ flat_map open_tag path, r).
Proof.
  intros F FC FB. exists (path_of td (color_RGBA c) (color_RGBA bg)). intros s m rest H.
  unfold writeTextMarkup in H. cbn [tdFore tdBack] in H. rewrite FC, FB in H. cbn [obind] in H. cbv zeta in H. rewrite tags_path in H by exact F.
  change (path_of (mkTD _ _ _ _ _ _ _ _ _ _ _) (color_RGBA c) (color_RGBA bg)) with (path_of td (color_RGBA c) (color_RGBA bg)) in H.
  set (p := path_of td _ _) in *.
  assert (E : exists x, m = backslashed (flat_map open_tag p) ++ 34 :: x).
  { injection H as <-. rewrite <- flat_backslashed, !flat_map_concat_map, map_map. unfold quote. eexists. f_equal. }
  destruct E as [x ->]. exists (x ++ rest). unfold quotedString. change (34 =? 34) with true. cbv iota.
  replace (str "<markup>" ++ (backslashed (flat_map open_tag p) ++ 34 :: x) ++ rest) with (backslashed (str "<markup>" ++ flat_map open_tag p) ++ 34 :: x ++ rest)
    by (rewrite backslashed_app, <- !app_assoc; reflexivity).
  rewrite unquote_backslashed; [reflexivity| |].
  - apply Forall_app. split; [p7|apply path7].
  - cbn [List.length]. rewrite (app_length (backslashed _)). generalize (str "<markup>" ++ flat_map open_tag p). intros l.
    assert (B : (List.length l <= List.length (backslashed l))%nat).
    { induction l as [|y l IH]; [constructor|]. cbn [backslashed flat_map]. fold (backslashed l). rewrite app_length. destruct (y =? 34); cbn [List.length]; lia. }
    lia.
Qed.
(** In any other font it ends earlier, at the quote before the name of the font, in the middle of a
    tag: what is read depends on the colours alone. *)
Theorem C76_font_refuted c bg :
  exists path, Forall (fun e => fst e = str "span" /\ exists v, snd e = [(str "foreground", v)] \/ snd e = [(str "background", v)]) path /\
    forall td m rest, tdFont td <> str "Sans" -> tdFore td = Some c -> tdBack td = Some bg -> writeTextMarkup L td = Some m ->
    exists r, quotedString (34 :: str "<markup>" ++ m ++ rest) = (str "<markup>" ++ flat_map open_tag path ++ str "<span font=", r).
Proof.
  set (f := color_RGBA c). set (b := color_RGBA bg).
  set (p := when (coloured f) (span1 "foreground" (colour_value (pR f / 256) (pG f / 256) (pB f / 256))) ++ when (coloured b) (span1 "background" (colour_value (pR b) (pG b) (pB b)))).
  exists p. split.
  { unfold p. apply Forall_app. split.
    - destruct (coloured f); [|constructor]. constructor; [|constructor]. split; [reflexivity|]. eexists. left. reflexivity.
    - destruct (coloured b); [|constructor]. constructor; [|constructor]. split; [reflexivity|]. eexists. right. reflexivity. }
  intros td' m rest F' FC' FB' H. unfold writeTextMarkup in H. rewrite FC', FB' in H. cbn [obind] in H. cbv zeta in H.
  assert (E : exists x, m = backslashed (flat_map open_tag p ++ str "<span font=") ++ 34 :: x).
  { injection H as <-. fold f b. unfold markupTags. cbv zeta.
    assert (streq (tdFont td') (str "Sans") = false) as ->. { destruct (streq (tdFont td') (str "Sans")) eqn:Q; [|reflexivity]. apply streq_eq in Q. contradiction. }
    rewrite !flat_map_app. cbn [flat_map fst]. rewrite app_nil_r. unfold quote. rewrite !backslashed_app, (backslashed_same (str "<span font=")) by noq.
    assert (A1 : flat_map fst (if coloured f then [(str "<span foreground=\""#" ++ hex02X (pR f / 256) ++ hex02X (pG f / 256) ++ hex02X (pB f / 256) ++ str "\"">", str "</span>")] else []) ++
                 flat_map fst (if coloured b then [(str "<span background=\""#" ++ hex02X (pR b) ++ hex02X (pG b) ++ hex02X (pB b) ++ str "\"">", str "</span>")] else []) = backslashed (flat_map open_tag p)).
    { unfold p. rewrite flat_map_app, backslashed_app. f_equal.
      - destruct (coloured f); [|reflexivity]. cbn [when flat_map fst]. rewrite !app_nil_r.
        destruct (span_written "foreground" (colour_value (pR f / 256) (pG f / 256) (pB f / 256)) (colour_value_ok _ _ _) ltac:(noq)) as [-> _]. unfold colour_value. cbn. rewrite <- ?app_assoc. reflexivity.
      - destruct (coloured b); [|reflexivity]. cbn [when flat_map fst]. rewrite !app_nil_r.
        destruct (span_written "background" (colour_value (pR b) (pG b) (pB b)) (colour_value_ok _ _ _) ltac:(noq)) as [-> _]. unfold colour_value. cbn. rewrite <- ?app_assoc. reflexivity. }
    rewrite <- A1. eexists. rewrite <- !app_assoc. do 2 f_equal. rewrite !app_assoc. rewrite <- (app_assoc (str "<span font=")). rewrite <- !app_assoc. f_equal. cbn [app]. reflexivity. }
  destruct E as [x ->]. exists (x ++ rest). unfold quotedString. change (34 =? 34) with true. cbv iota.
  replace (str "<markup>" ++ (backslashed (flat_map open_tag p ++ str "<span font=") ++ 34 :: x) ++ rest) with (backslashed (str "<markup>" ++ flat_map open_tag p ++ str "<span font=") ++ 34 :: x ++ rest)
    by (rewrite (backslashed_app (str "<markup>")), <- !app_assoc; reflexivity).
  rewrite unquote_backslashed; [reflexivity| |].
  - apply Forall_app. split; [p7|]. apply Forall_app. split; [|p7]. unfold p. rewrite flat_map_app. apply Forall_app.
    split; match goal with |- Forall _ (flat_map _ (when ?c _)) => destruct c; [|constructor] end; cbn [when flat_map]; rewrite app_nil_r; (apply plain7_span; [apply colour7|p7]).
  - cbn [List.length]. rewrite (app_length (backslashed _)). generalize (str "<markup>" ++ flat_map open_tag p ++ str "<span font="). intros l.
    assert (B : (List.length l <= List.length (backslashed l))%nat).
    { induction l as [|y l IH]; [constructor|]. cbn [backslashed flat_map]. fold (backslashed l). rewrite app_length. destruct (y =? 34); cbn [List.length]; lia. }
    lia.
Qed.
End Lib.
Print Assumptions C76_font_refuted.
Print Assumptions C76_markup_partial.
Print Assumptions C76_refuted.

(** a bold, underlined red segment of size 20 *)
Definition rendered : textDatum := mkTD (Some (CRGB 255 16 0)) (Some (CGray 0)) 20 0 0 true false true false (str "Sans") (str "a<b").
Definition rendered_base : textDatum := mkTD (Some (CGray 0)) None 18 0 0 false false false false (str "Sans") [].
Example C76_ex :
  writeTextMarkup plain_libs rendered = Some (str "<span foreground=\""#FF1000\""><b><u><span size=\""20480\"">""a&lt;b""</span></u></b></span>") /\
  wf_color (CRGB 255 16 0) /\ small 20 /\ small 0 /\ unstyled rendered_base /\
  (let p := path_of rendered (color_RGBA (CRGB 255 16 0)) (color_RGBA (CGray 0)) in
   map fst p = [str "span"; str "b"; str "u"; str "span"] /\ exists t, styled rendered_base p (str "a<b") t /\ tdSize t = 20 /\ tdBold t = true) /\
  quotedString (34 :: str "<markup><b>""a""</b></markup>""") = (str "<markup><b>", str "a""</b></markup>""").
Proof.
  split; [vm_compute; reflexivity|]. split; [repeat split; lia|]. split; [unfold small; lia|]. split; [unfold small; lia|].
  split; [repeat split|]. split; [|vm_compute; reflexivity]. cbv zeta. split; [reflexivity|].
  exists (mkTD (Some (opaque 255 16 0)) None 20 0 0 true false true false (str "Sans") (str "a<b")). split; [|split; reflexivity].
  repeat split; try reflexivity; try discriminate.
  - exists [opaque 255 16 0]. split; [|reflexivity].
    change (declared _ _) with [colour_value 255 16 0]. constructor; [|constructor]. now apply (colour_named 255 16 0).
  - intros _. right. vm_compute. auto.
  - intros [H|H]; [discriminate H|]. vm_compute in H. intuition discriminate.
  - intros _. right. vm_compute. auto 10.
  - intros [H|H]; [discriminate H|]. vm_compute in H. intuition discriminate.
Qed.
Example C76_font_ex :
  writeTextMarkup plain_libs (mkTD (Some (CRGB 255 16 0)) (Some (CGray 0)) 20 0 0 true false false false (str "Arial") (str "a")) =
    Some (str "<span foreground=\""#FF1000\""><span font=""Arial""><b><span size=\""20480\"">""a""</span></b></span></span>") /\
  fst (quotedString (34 :: str "<markup><span font=""Arial"">""a""</span></markup>""")) = str "<markup><span font=".
Proof. split; vm_compute; reflexivity. Qed.
