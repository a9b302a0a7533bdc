(** C70: rich text of a text layer: every piece of text, in order, in the style of the
    elements around it. *)
From Coq Require Import String.
Require Import Verif.Base Verif.L_Word Verif.M_Color Verif.M_Image Verif.M_Decode Verif.M_Ora Verif.M_Text
  Verif.S_Text Verif.S_Markup Verif.S_Parasite Verif.L_Text Verif.L_Text2 Verif.L_Text3 Verif.P_TextParse Verif.P_Parasite.
Open Scope Z_scope.
Open Scope list_scope.

(** ** the loop, tree-wise *)
Fixpoint sem (n : node) (t : textDatum) : option (list textDatum) :=
  match n with
  | NText s => Some [td_data t s]
  | NOther => Some []
  | NElem e kids =>
      match processText (fst e) (snd e) t with
      | None => None
      | Some t => (fix all (ns : list node) := match ns with
                     | [] => Some []
                     | n :: ns => match sem n t, all ns with Some a, Some b => Some (a ++ b) | _, _ => None end
                     end) kids
      end
  end.
Fixpoint sems (ns : list node) (t : textDatum) : option (list textDatum) :=
  match ns with
  | [] => Some []
  | n :: ns => match sem n t, sems ns t with Some a, Some b => Some (a ++ b) | _, _ => None end
  end.
Lemma sem_elem e kids t : sem (NElem e kids) t = match processText (fst e) (snd e) t with None => None | Some t => sems kids t end.
Proof. cbn [sem]. destruct (processText _ _ _) as [t'|]; [|reflexivity]. induction kids; cbn; [reflexivity|]. rewrite IHkids. reflexivity. Qed.

Fixpoint node_rect (P : node -> Prop) (ht : forall s, P (NText s)) (he : forall e ks, Forall P ks -> P (NElem e ks)) (ho : P NOther) (n : node) : P n :=
  match n with
  | NText s => ht s
  | NOther => ho
  | NElem e ks => he e ks ((fix all (l : list node) : Forall P l := match l with [] => Forall_nil P | n :: l => Forall_cons n (node_rect P ht he ho n) (all l) end) ks)
  end.

(** how the result goes on *)
Definition andthen (a : option (list textDatum)) (r : tres) : tres :=
  match a with None => TErr | Some l => match r with TOk td => TOk (l ++ td) | e => e end end.

(** a run over the tokens of [n]: what comes of it, unless it hits a panic later on *)
Lemma loop_node n : forall rest ok top st, markupLoop rest ok (top :: st) <> TPanic ->
  markupLoop (toks n ++ rest) ok (top :: st) = andthen (sem n top) (markupLoop rest ok (top :: st)).
Proof.
  induction n as [s|e ks IH|] using node_rect; intros rest ok top st NP; cbn [toks].
  - cbn. destruct (markupLoop rest ok (top :: st)); reflexivity.
  - rewrite sem_elem. cbn [app markupLoop]. destruct (processText (fst e) (snd e) top) as [t|]; [|reflexivity]. rewrite <- app_assoc.
    assert (G : forall ks, Forall (fun n => forall rest ok top st, markupLoop rest ok (top :: st) <> TPanic ->
               markupLoop (toks n ++ rest) ok (top :: st) = andthen (sem n top) (markupLoop rest ok (top :: st))) ks ->
              markupLoop (flat_map toks ks ++ [XEnd] ++ rest) ok (t :: top :: st) = andthen (sems ks t) (markupLoop rest ok (top :: st))).
    { clear ks IH. induction 1 as [|n ks Hn _ IH]; cbn [flat_map sems].
      - cbn. destruct (markupLoop rest ok (top :: st)); reflexivity.
      - rewrite <- app_assoc. rewrite Hn; rewrite IH.
        + destruct (sem n t), (sems ks t); cbn; try reflexivity; destruct (markupLoop rest ok (top :: st)); rewrite ?app_assoc; reflexivity.
        + destruct (sems ks t); cbn; [|discriminate]. destruct (markupLoop rest ok (top :: st)); congruence. }
    apply G, IH.
  - cbn. destruct (markupLoop rest ok (top :: st)); reflexivity.
Qed.

Lemma loop_nodes ns rest ok top st : markupLoop rest ok (top :: st) <> TPanic ->
  markupLoop (flat_map toks ns ++ rest) ok (top :: st) = andthen (sems ns top) (markupLoop rest ok (top :: st)).
Proof.
  intros NP. induction ns as [|n ns IH]; cbn [flat_map sems].
  - cbn. destruct (markupLoop rest ok (top :: st)); reflexivity.
  - rewrite <- app_assoc, loop_node; rewrite IH.
    + destruct (sem n top), (sems ns top); cbn; try reflexivity; destruct (markupLoop rest ok (top :: st)); rewrite ?app_assoc; reflexivity.
    + destruct (sems ns top); cbn; [|discriminate]. destruct (markupLoop rest ok (top :: st)); congruence.
Qed.

(** ** attribute values *)
Lemma undec_value s : forall v, undec s v = if forallb (fun c => (48 <=? c) && (c <=? 57)) s then Some (fold_left (fun v c => 10 * v + (c - 48)) s v) else None.
Proof.
  induction s as [|c s IH]; intros v; cbn [undec forallb fold_left]; [reflexivity|].
  destruct ((48 <=? c) && (c <=? 57)); cbn [andb]; [|reflexivity]. rewrite IH. rewrite (Z.mul_comm v 10). reflexivity.
Qed.
Lemma digits_b s : forallb (fun c => (48 <=? c) && (c <=? 57)) s = true <-> Forall (fun c => 48 <= c <= 57) s.
Proof.
  rewrite forallb_forall, Forall_forall. split; intros H c Hc; specialize (H c Hc); [apply andb_prop in H as [A B]; lia|]. apply andb_true_intro. lia.
Qed.
Lemma parseUint_spec v : (is_number v -> parseUint v = Some (value_of v)) /\ (parseUint v <> None -> is_number v).
Proof.
  unfold parseUint, is_number. destruct v as [|c v].
  - split; [intros [A _]; congruence|intros H; exfalso; apply H; reflexivity].
  - rewrite undec_value. fold (value_of (c :: v)). remember (c :: v) as w. assert (W : w <> []) by (subst; discriminate). clear Heqw c v.
    pose proof (digits_b w) as D. destruct (forallb _ w).
    + cbn. destruct (Z.ltb_spec (value_of w) 4294967296).
      * split; [reflexivity|]. intros _. split; [exact W|split; [apply D; reflexivity|assumption]].
      * split; [intros (_ & _ & A); lia|congruence].
    + cbn. split; [intros (_ & A & _); apply D in A; discriminate|congruence].
Qed.
Lemma hexval_spec c : (forall v, hexdig c v -> hexval c = Some v) /\ (forall v, hexval c = Some v -> hexdig c v /\ 0 <= v < 16).
Proof.
  unfold hexval, isDigit. split.
  - intros v []; repeat match goal with |- context [?a <=? ?b] => destruct (Z.leb_spec a b); cbn [andb]; try lia end; f_equal; lia.
  - intros v. repeat match goal with |- context [?a <=? ?b] => destruct (Z.leb_spec a b); cbn [andb]; try lia end; intros [= <-]; (split; [|lia]).
    all: first [constructor; lia | replace (c - 87) with (c - 97 + 10) by lia; constructor; lia | replace (c - 55) with (c - 65 + 10) by lia; constructor; lia | idtac].
Qed.

Lemma hex_u8 a b v w : hexdig a v -> hexdig b w -> 0 <= v < 16 /\ 0 <= w < 16.
Proof. intros [] []; lia. Qed.
(** the parts of a hexadecimal number *)
Lemma colour6 r1 r0 g1 g0 b1 b0 : 0 <= r1 < 16 -> 0 <= r0 < 16 -> 0 <= g1 < 16 -> 0 <= g0 < 16 -> 0 <= b1 < 16 -> 0 <= b0 < 16 ->
  let n := ((((((0 * 16 + r1) * 16 + r0) * 16 + g1) * 16 + g0) * 16 + b1) * 16 + b0) in
  u8 (n / 65536) = 16 * r1 + r0 /\ Z.land (n / 256) 255 = 16 * g1 + g0 /\ Z.land n 255 = 16 * b1 + b0.
Proof.
  intros R1 R0 G1 G0 B1 B0 n. change 255 with (Z.ones 8). rewrite !Z.land_ones by lia. change (2 ^ 8) with 256. unfold u8.
  set (r := 16 * r1 + r0). set (g := 16 * g1 + g0). set (b := 16 * b1 + b0).
  assert (N : n = r * 65536 + g * 256 + b) by (unfold n, r, g, b; ring).
  assert (0 <= r < 256) by (unfold r; lia). assert (0 <= g < 256) by (unfold g; lia). assert (0 <= b < 256) by (unfold b; lia).
  clearbody r g b. clearbody n. subst n. repeat split; Z.div_mod_to_equations; lia.
Qed.
Lemma rep4 x : 0 <= x < 16 -> Z.lor (x * 16) x = 17 * x.
Proof.
  intros H. replace x with (x mod 2 ^ 4) at 2 by (change (2 ^ 4) with 16; apply Z.mod_small; exact H). rewrite <- (Z.mul_1_r (x mod 2 ^ 4)).
  assert (E : x = 0 \/ x = 1 \/ x = 2 \/ x = 3 \/ x = 4 \/ x = 5 \/ x = 6 \/ x = 7 \/ x = 8 \/ x = 9 \/ x = 10 \/ x = 11 \/ x = 12 \/ x = 13 \/ x = 14 \/ x = 15) by lia.
  decompose [or] E; subst; reflexivity.
Qed.
Lemma colour3 r g b : 0 <= r < 16 -> 0 <= g < 16 -> 0 <= b < 16 ->
  let n := (((0 * 16 + r) * 16 + g) * 16 + b) in
  Z.land (n / 16) 240 = r * 16 /\ Z.land n 240 = g * 16 /\ Z.land n 15 = b.
Proof.
  intros R G B n.
  assert (M : forall m, Z.land m 240 = (m / 16 mod 16) * 16).
  { intros m. change 240 with (Z.shiftl (Z.ones 4) 4). rewrite <- (Z.shiftl_mul_pow2 _ 4) by lia. change 16 with (2 ^ 4) at 1 2.
    rewrite <- Z.land_ones by lia. rewrite <- Z.shiftr_div_pow2 by lia. apply Z.bits_inj'. intros i Hi.
    rewrite Z.land_spec, !Z.shiftl_spec by lia. destruct (Z.ltb_spec i 4).
    - rewrite !(Z.testbit_neg_r _ (i - 4)) by lia. apply andb_false_r.
    - rewrite Z.land_spec, Z.shiftr_spec by lia. f_equal. f_equal. lia. }
  rewrite !M. change 15 with (Z.ones 4). rewrite Z.land_ones by lia. change (2 ^ 4) with 16.
  unfold n. repeat split; [f_equal|f_equal|]; Z.div_mod_to_equations; lia.
Qed.

(** the colour of a foreground value, as the code computes it *)
Lemma colour_form_cases v : colour_form v <-> (exists a b c d e f, v = [35; a; b; c; d; e; f]) \/ (exists a b c, v = [35; a; b; c]).
Proof.
  unfold colour_form, zlen. split.
  - intros [Hl (w & ->)]. cbn [length] in Hl. destruct Hl as [Hl|Hl].
    + left. destruct w as [|a [|b [|c [|d [|e [|f [|]]]]]]]; cbn [length] in Hl; try lia. repeat eexists.
    + right. destruct w as [|a [|b [|c [|]]]]; cbn [length] in Hl; try lia. repeat eexists.
  - intros [(a & b & c & d & e & f & ->)|(a & b & c & ->)]; (split; [cbn; lia|eexists; reflexivity]).
Qed.
Lemma parseHex_step c s acc : parseHex (c :: s) acc = match hexval c with Some v => parseHex s (acc * 16 + v) | None => None end.
Proof. reflexivity. Qed.
Lemma names_unique v c c' : names_colour v c -> names_colour v c' -> c = c'.
Proof.
  assert (U : forall x v w, hexdig x v -> hexdig x w -> v = w) by (intros x a b P Q; inversion P; inversion Q; lia).
  intros A B. inversion A; subst; inversion B; subst; repeat match goal with H1 : hexdig ?x ?v, H2 : hexdig ?x ?w |- _ => rewrite (U _ _ _ H1 H2) in *; clear H1 end; reflexivity.
Qed.
Definition fg (t : textDatum) (v : list Z) : option textDatum := spanAttr t (str "foreground", v).
Lemma fg6 t a b c d e f : fg t [35; a; b; c; d; e; f] =
  match parseHex [a; b; c; d; e; f] 0 with
  | Some n => Some (td_fore t (opaqueRGB (u8 (n / 65536)) (Z.land (n / 256) 255) (Z.land n 255)))
  | None => None
  end.
Proof. reflexivity. Qed.
Lemma fg3 t a b c : fg t [35; a; b; c] =
  match parseHex [a; b; c] 0 with
  | Some n => let r := Z.land (n / 16) 240 in let g := Z.land n 240 in let b := Z.land n 15 in
              Some (td_fore t (opaqueRGB (Z.lor r (r / 16)) (Z.lor g (g / 16)) (Z.lor b (b * 16))))
  | None => None
  end.
Proof. reflexivity. Qed.
Lemma fg_other t v : ~ colour_form v -> fg t v = Some t.
Proof.
  intros N. unfold fg, spanAttr. cbn. destruct v as [|c v']; [reflexivity|].
  destruct (Z.eqb_spec (zlen (c :: v')) 7), (Z.eqb_spec (zlen (c :: v')) 4), (Z.eqb_spec c 35); cbn [andb]; try reflexivity; exfalso; apply N; subst c; (split; [auto|eauto]).
Qed.
Lemma fg_colour t v c : names_colour v c -> fg t v = Some (td_fore t c).
Proof.
  intros N. inversion N as [a b c' d e f r1 r0 g1 g0 b1 b0 A B C D E F|a b c' r g l A B C]; subst; [rewrite fg6|rewrite fg3].
  - pose proof (hex_u8 _ _ _ _ A B). pose proof (hex_u8 _ _ _ _ C D). pose proof (hex_u8 _ _ _ _ E F).
    rewrite parseHex_step, (proj1 (hexval_spec _) _ A), parseHex_step, (proj1 (hexval_spec _) _ B), parseHex_step, (proj1 (hexval_spec _) _ C),
      parseHex_step, (proj1 (hexval_spec _) _ D), parseHex_step, (proj1 (hexval_spec _) _ E), parseHex_step, (proj1 (hexval_spec _) _ F).
    cbn [parseHex]. destruct (colour6 r1 r0 g1 g0 b1 b0) as (X & Y & Z); try tauto. rewrite X, Y, Z. unfold opaqueRGB, opaque. rewrite !rep8_eq by lia. reflexivity.
  - pose proof (hex_u8 _ _ _ _ A B). pose proof (hex_u8 _ _ _ _ C C).
    rewrite parseHex_step, (proj1 (hexval_spec _) _ A), parseHex_step, (proj1 (hexval_spec _) _ B), parseHex_step, (proj1 (hexval_spec _) _ C).
    cbn [parseHex]. cbv zeta. destruct (colour3 r g l) as (X & Y & Z); try tauto. rewrite X, Y, Z. rewrite !Z.div_mul by lia. rewrite (Z.lor_comm l), !rep4 by tauto.
    unfold opaqueRGB, opaque. rewrite !rep8_eq by lia. reflexivity.
Qed.
Lemma fg_bad t v : colour_form v -> (forall c, ~ names_colour v c) -> fg t v = None.
Proof.
  intros F N. apply colour_form_cases in F as [(a & b & c & d & e & f & ->)|(a & b & c & ->)]; [rewrite fg6|rewrite fg3]; rewrite parseHex_step.
  - destruct (hexval a) eqn:A; [|reflexivity]. rewrite parseHex_step. destruct (hexval b) eqn:B; [|reflexivity]. rewrite parseHex_step. destruct (hexval c) eqn:C; [|reflexivity].
    rewrite parseHex_step. destruct (hexval d) eqn:D; [|reflexivity]. rewrite parseHex_step. destruct (hexval e) eqn:E; [|reflexivity]. rewrite parseHex_step. destruct (hexval f) eqn:F; [|reflexivity].
    apply (proj2 (hexval_spec _)) in A, B, C, D, E, F. exfalso. eapply N. apply nc_6; [apply A|apply B|apply C|apply D|apply E|apply F].
  - destruct (hexval a) eqn:A; [|reflexivity]. rewrite parseHex_step. destruct (hexval b) eqn:B; [|reflexivity]. rewrite parseHex_step. destruct (hexval c) eqn:C; [|reflexivity].
    apply (proj2 (hexval_spec _)) in A, B, C. exfalso. eapply N. apply nc_3; [apply A|apply B|apply C].
Qed.

(** ** the attributes of one element *)
Lemma last_cons {A} (x : A) l d : last (x :: l) d = last l x.
Proof. revert x d. induction l as [|y l IH]; intros x d; [reflexivity|]. change (last (x :: y :: l) d) with (last (y :: l) d). rewrite !IH. reflexivity. Qed.
Lemma last_app {A} (a b : list A) d : last (a ++ b) d = last b (last a d).
Proof. revert d. induction a as [|x a IH]; intros d; [reflexivity|]. cbn [app]. rewrite !last_cons. apply IH. Qed.
Lemma values_app name a b : values name (a ++ b) = values name a ++ values name b.
Proof. unfold values. rewrite filter_app, map_app. reflexivity. Qed.
Lemma values_cons name n v l : values name ((n, v) :: l) = if streq n (str name) then v :: values name l else values name l.
Proof. unfold values, streq. cbn [filter map fst snd]. destruct (list_eq_dec Z.eq_dec n (str name)); reflexivity. Qed.
Lemma colours_app a x b y : colours a x -> colours b y -> colours (a ++ b) (x ++ y).
Proof. induction 1; intros HY; cbn; [exact HY|constructor; auto|apply cs_other; auto]. Qed.
Lemma spans_app a b : spans (a ++ b) = spans a ++ spans b.
Proof. unfold spans. apply flat_map_app. Qed.

(** what a list of attributes does to a style *)
Definition restyled (l : list (list Z * list Z)) (b t : textDatum) : Prop :=
  tdData t = tdData b /\
  tdFont t = last (values "font" l) (tdFont b) /\
  tdSize t = scaled (values "size" l) (tdSize b) /\
  tdLetterSpacing t = scaled (values "letter_spacing" l) (tdLetterSpacing b) /\
  tdRise t = scaled (values "rise" l) (tdRise b) /\
  (exists cs, colours (values "foreground" l) cs /\ tdFore t = last (map Some cs) (tdFore b)) /\
  tdBack t = tdBack b /\ tdBold t = tdBold b /\ tdItalic t = tdItalic b /\ tdUnderline t = tdUnderline b /\ tdStrike t = tdStrike b.
Lemma streq_eq a b : streq a b = true <-> a = b.
Proof. unfold streq. destruct (list_eq_dec Z.eq_dec a b); split; congruence. Qed.
Lemma colour_form_dec v : colour_form v \/ ~ colour_form v.
Proof.
  unfold colour_form. destruct v as [|c v]; [right; intros [_ (w & H)]; discriminate|].
  destruct (Z.eq_dec c 35) as [->|N]; [|right; intros [_ (w & H)]; congruence].
  destruct (Z.eq_dec (zlen (35 :: v)) 7) as [E|E]; [left; eauto|]. destruct (Z.eq_dec (zlen (35 :: v)) 4) as [F|F]; [left; eauto|]. right. tauto.
Qed.
Definition attrs_ok (l : list (list Z * list Z)) : Prop :=
  (forall name v, In name ["size"; "letter_spacing"; "rise"]%string -> In v (values name l) -> is_number v) /\
  (forall v, In v (values "foreground" l) -> colour_form v -> exists c, names_colour v c).
Lemma attrs_ok_tail a l : attrs_ok (a :: l) -> attrs_ok l.
Proof.
  destruct a as [n v]. unfold attrs_ok. intros [A B]. split.
  - intros name w Hn Hw. apply (A name w Hn). rewrite values_cons. destruct (streq n (str name)); [right|]; exact Hw.
  - intros w Hw. apply B. rewrite values_cons. destruct (streq n (str "foreground")); [right|]; exact Hw.
Qed.
Lemma spanAttrs_ok l : forall t, attrs_ok l -> exists t', spanAttrs t l = Some t' /\ restyled l t t'.
Proof.
  induction l as [|[n v] l IH]; intros t OK.
  - exists t. split; [reflexivity|]. unfold restyled, scaled. cbn. repeat split; try reflexivity. exists []. split; [constructor|reflexivity].
  - pose proof (attrs_ok_tail _ _ OK) as OK'. destruct OK as [ON OC]. cbn [spanAttrs].
    assert (NUM : forall name, In name ["size"; "letter_spacing"; "rise"]%string -> n = str name -> parseUint v = Some (value_of v)).
    { intros name Hn ->. apply (proj1 (parseUint_spec v)), (ON name); [exact Hn|]. rewrite values_cons. rewrite (proj2 (streq_eq _ _) eq_refl). left. reflexivity. }
    unfold spanAttr at 1.
    destruct (streq n (str "font")) eqn:E1.
    { apply streq_eq in E1. subst n. destruct (IH (td_font t v) OK') as (t' & H & R). exists t'. split; [exact H|]. revert R. unfold restyled. rewrite !values_cons.
      change (streq (str "font") (str "font")) with true. change (streq (str "font") (str "size")) with false. change (streq (str "font") (str "letter_spacing")) with false.
      change (streq (str "font") (str "rise")) with false. change (streq (str "font") (str "foreground")) with false. cbv iota. rewrite last_cons. cbn. tauto. }
    destruct (streq n (str "foreground")) eqn:E2.
    { apply streq_eq in E2. subst n. change (match v with [] => Some t | _ => _ end) with (fg t v).
      assert (RC : forall t1, (t1 = t /\ ~ colour_form v \/ exists c, t1 = td_fore t c /\ names_colour v c) -> forall t', restyled l t1 t' -> restyled ((str "foreground", v) :: l) t t').
      { intros t1 H t' R. revert R. unfold restyled. rewrite !values_cons.
        change (streq (str "foreground") (str "font")) with false. change (streq (str "foreground") (str "size")) with false. change (streq (str "foreground") (str "letter_spacing")) with false.
        change (streq (str "foreground") (str "rise")) with false. change (streq (str "foreground") (str "foreground")) with true. cbv iota.
        destruct H as [[-> NF]|(c & -> & NC)].
        - intros (R0 & R1 & R2 & R3 & R4 & (cs & C1 & C2) & R). repeat (split; [assumption|]). split; [|exact R]. exists cs. split; [apply cs_other; assumption|exact C2].
        - cbn. intros (R0 & R1 & R2 & R3 & R4 & (cs & C1 & C2) & R). repeat (split; [assumption|]). split; [|exact R]. exists (c :: cs). split; [constructor; assumption|].
          cbn [map]. rewrite last_cons. exact C2. }
      destruct (colour_form_dec v) as [CF|NF].
      - destruct (OC v) as (c & NC); [rewrite values_cons; left; reflexivity|exact CF|]. rewrite (fg_colour t v c NC).
        destruct (IH (td_fore t c) OK') as (t' & H & R). exists t'. split; [exact H|]. apply (RC _ (or_intror (ex_intro _ c (conj eq_refl NC)))). exact R.
      - rewrite (fg_other t v NF). destruct (IH t OK') as (t' & H & R). exists t'. split; [exact H|]. apply (RC t); auto. }
    destruct (streq n (str "size")) eqn:E3.
    { apply streq_eq in E3. rewrite (NUM "size"%string) by (cbn; auto). subst n. destruct (IH (td_size t (value_of v / 1024)) OK') as (t' & H & R). exists t'. split; [exact H|]. revert R. unfold restyled, scaled. rewrite !values_cons.
      change (streq (str "size") (str "font")) with false. change (streq (str "size") (str "size")) with true. change (streq (str "size") (str "letter_spacing")) with false.
      change (streq (str "size") (str "rise")) with false. change (streq (str "size") (str "foreground")) with false. cbv iota. cbn [map]. rewrite last_cons. cbn. tauto. }
    destruct (streq n (str "letter_spacing")) eqn:E4.
    { apply streq_eq in E4. rewrite (NUM "letter_spacing"%string) by (cbn; auto). subst n. destruct (IH (td_spacing t (value_of v / 1024)) OK') as (t' & H & R). exists t'. split; [exact H|]. revert R. unfold restyled, scaled. rewrite !values_cons.
      change (streq (str "letter_spacing") (str "font")) with false. change (streq (str "letter_spacing") (str "size")) with false. change (streq (str "letter_spacing") (str "letter_spacing")) with true.
      change (streq (str "letter_spacing") (str "rise")) with false. change (streq (str "letter_spacing") (str "foreground")) with false. cbv iota. cbn [map]. rewrite last_cons. cbn. tauto. }
    destruct (streq n (str "rise")) eqn:E5.
    { apply streq_eq in E5. rewrite (NUM "rise"%string) by (cbn; auto). subst n. destruct (IH (td_rise t (value_of v / 1024)) OK') as (t' & H & R). exists t'. split; [exact H|]. revert R. unfold restyled, scaled. rewrite !values_cons.
      change (streq (str "rise") (str "font")) with false. change (streq (str "rise") (str "size")) with false. change (streq (str "rise") (str "letter_spacing")) with false.
      change (streq (str "rise") (str "rise")) with true. change (streq (str "rise") (str "foreground")) with false. cbv iota. cbn [map]. rewrite last_cons. cbn. tauto. }
    destruct (IH t OK') as (t' & H & R). exists t'. split; [exact H|]. revert R. unfold restyled. rewrite !values_cons, E1, E2, E3, E4, E5. tauto.
Qed.

Lemma spanAttrs_bad l : forall t,
  (exists name v, In name ["size"; "letter_spacing"; "rise"]%string /\ In v (values name l) /\ ~ is_number v) \/
  (exists v, In v (values "foreground" l) /\ colour_form v /\ forall c, ~ names_colour v c) -> spanAttrs t l = None.
Proof.
  induction l as [|[n v] l IH]; intros t H.
  - destruct H as [(name & v & _ & [] & _)|(v & [] & _)].
  - cbn [spanAttrs]. destruct (spanAttr t (n, v)) as [t1|] eqn:E; [|reflexivity]. cbn. apply IH.
    destruct H as [(name & w & Hn & Hw & NN)|(w & Hw & CF & NC)].
    + left. exists name, w. split; [exact Hn|]. split; [|exact NN]. rewrite values_cons in Hw. destruct (streq n (str name)) eqn:EN; [|exact Hw].
      destruct Hw as [->|Hw]; [|exact Hw]. exfalso. apply streq_eq in EN. subst n.
      assert (PN : parseUint w = None).
      { destruct (parseUint w) eqn:P; [|reflexivity]. exfalso. apply NN, (proj2 (parseUint_spec w)). congruence. }
      destruct Hn as [<-|[<-|[<-|[]]]]; unfold spanAttr in E;
        repeat match type of E with context [streq ?a ?b] => let v := eval vm_compute in (streq a b) in change (streq a b) with v in E end; cbv iota in E; rewrite PN in E; discriminate.
    + right. exists w. split; [|auto]. rewrite values_cons in Hw. destruct (streq n (str "foreground")) eqn:EN; [|exact Hw].
      destruct Hw as [->|Hw]; [|exact Hw]. exfalso. apply streq_eq in EN. subst n. change (fg t w = Some t1) in E. rewrite (fg_bad t w CF NC) in E. discriminate.
Qed.

(** ** one element *)
Definition dressed (base : textDatum) (path : list element) (t : textDatum) : Prop := styled base path (tdData t) t.
Lemma flag_iff b q1 q2 f : (f = true <-> b = true \/ q1) -> (f = true \/ q2 <-> b = true \/ q1 \/ q2).
Proof. tauto. Qed.
Lemma inside_app name path e : inside name (path ++ [e]) <-> inside name path \/ fst e = str name.
Proof. unfold inside. rewrite map_app, in_app_iff. cbn. intuition congruence. Qed.
Lemma dressed_step base path e t : dressed base path t -> readable e ->
  exists t', processText (fst e) (snd e) t = Some t' /\ dressed base (path ++ [e]) t'.
Proof.
  intros (_ & D1 & D2 & D3 & D4 & (cs & C1 & C2) & D5 & F1 & F2 & F3 & F4) RE. destruct e as [n as_]. cbn [fst snd]. unfold processText.
  assert (PLAIN : n <> str "span" -> forall t', tdData t' = tdData t -> tdFont t' = tdFont t -> tdSize t' = tdSize t -> tdLetterSpacing t' = tdLetterSpacing t -> tdRise t' = tdRise t ->
    tdFore t' = tdFore t -> tdBack t' = tdBack t ->
    (tdBold t' = true <-> tdBold t = true \/ n = str "b") -> (tdItalic t' = true <-> tdItalic t = true \/ n = str "i") ->
    (tdUnderline t' = true <-> tdUnderline t = true \/ n = str "u") -> (tdStrike t' = true <-> tdStrike t = true \/ n = str "s") -> dressed base (path ++ [(n, as_)]) t').
  { intros NS t' H0 H1 H2 H3 H4 H5 H6 B1 B2 B3 B4. unfold dressed, styled, declared.
    assert (SP : spans (path ++ [(n, as_)]) = spans path).
    { rewrite spans_app. unfold spans at 2. cbn [flat_map fst snd]. destruct (list_eq_dec Z.eq_dec n (str "span")); [contradiction|]. cbn. apply app_nil_r. }
    rewrite SP, H1, H2, H3, H4, H5, H6, !inside_app. cbn [fst]. rewrite B1, B2, B3, B4.
    split; [reflexivity|]. do 4 (split; [assumption|]). split; [exists cs; auto|]. split; [assumption|]. tauto. }
  destruct (streq n (str "span")) eqn:E0.
  - apply streq_eq in E0. subst n. destruct (spanAttrs_ok as_ t (RE eq_refl)) as (t' & H & R). exists t'. split; [exact H|].
    destruct R as (R0 & R1 & R2 & R3 & R4 & (cs' & C3 & C4) & R5 & B1 & B2 & B3 & B4). unfold dressed, styled, declared, scaled in *.
    assert (SP : spans (@app element path (@cons element (str "span", as_) nil)) = spans path ++ as_).
    { rewrite spans_app. f_equal. unfold spans. cbn [flat_map fst snd]. destruct (list_eq_dec Z.eq_dec (str "span") (str "span")); [|contradiction]. apply app_nil_r. }
    rewrite SP, !values_app, !map_app, !last_app, <- D1, <- D2, <- D3, <- D4. split; [reflexivity|]. do 4 (split; [assumption|]).
    split. { exists (cs ++ cs'). split; [apply colours_app; assumption|]. rewrite map_app, last_app, <- C2. exact C4. }
    split; [congruence|]. rewrite !inside_app, B1, B2, B3, B4. cbn [fst].
    assert (X : forall s, s <> "span"%string -> In s ["b"; "i"; "u"; "s"]%string -> str "span" <> str s) by (intros s _ [<-|[<-|[<-|[<-|[]]]]]; discriminate).
    pose proof (X "b"%string) as X1. pose proof (X "i"%string) as X2. pose proof (X "u"%string) as X3. pose proof (X "s"%string) as X4. cbn in X1, X2, X3, X4.
    specialize (X1 ltac:(discriminate) ltac:(auto)). specialize (X2 ltac:(discriminate) ltac:(auto)). specialize (X3 ltac:(discriminate) ltac:(auto)). specialize (X4 ltac:(discriminate) ltac:(auto)). tauto.
  - assert (NS : n <> str "span") by (intros ->; discriminate). specialize (PLAIN NS).
    destruct (streq n (str "b")) eqn:E1; [apply streq_eq in E1; subst n; eexists; split; [reflexivity|]; apply PLAIN; try reflexivity; cbn; rewrite ?orb_true_r, ?orb_false_r; intuition discriminate|].
    destruct (streq n (str "i")) eqn:E2; [apply streq_eq in E2; subst n; eexists; split; [reflexivity|]; apply PLAIN; try reflexivity; cbn; rewrite ?orb_true_r, ?orb_false_r; intuition discriminate|].
    destruct (streq n (str "s")) eqn:E3; [apply streq_eq in E3; subst n; eexists; split; [reflexivity|]; apply PLAIN; try reflexivity; cbn; rewrite ?orb_true_r, ?orb_false_r; intuition discriminate|].
    destruct (streq n (str "u")) eqn:E4; [apply streq_eq in E4; subst n; eexists; split; [reflexivity|]; apply PLAIN; try reflexivity; cbn; rewrite ?orb_true_r, ?orb_false_r; intuition discriminate|].
    assert (NE : forall s, streq n (str s) = false -> n <> str s) by (intros s HS ->; rewrite (proj2 (streq_eq _ _) eq_refl) in HS; discriminate).
    exists t. split; [reflexivity|]. apply PLAIN; try reflexivity; pose proof (NE _ E1); pose proof (NE _ E2); pose proof (NE _ E3); pose proof (NE _ E4); tauto.
Qed.

(** ** a forest *)
Lemma path_snoc (A : Type) (p : list A) e q : p ++ e :: q = (p ++ [e]) ++ q.
Proof. rewrite <- app_assoc. reflexivity. Qed.
Definition out (base : textDatum) (path : list element) (ps : list (list element * list Z)) (tds : list textDatum) : Prop :=
  Forall2 (fun p t => styled base (path ++ fst p) (snd p) t) ps tds.
Lemma styled_data base path t s : dressed base path t -> styled base path s (td_data t s).
Proof. intros (_ & H). split; [reflexivity|exact H]. Qed.
Lemma sem_ok n : forall base path t, dressed base path t -> Forall readable (elements n) ->
  exists tds, sem n t = Some tds /\ out base path (pieces n) tds.
Proof.
  induction n as [s|e ks IH|] using node_rect; intros base path t D R.
  - eexists. split; [reflexivity|]. constructor; [|constructor]. cbn [fst snd]. rewrite app_nil_r. now apply styled_data.
  - rewrite sem_elem. cbn [elements] in R. inversion R as [|? ? RE RK]. subst. destruct (dressed_step _ _ _ _ D RE) as (t' & H & D'). rewrite H.
    enough (exists tds, sems ks t' = Some tds /\ out base (path ++ [e]) (flat_map pieces ks) tds) as (tds & H1 & H2).
    { exists tds. split; [exact H1|]. unfold out. cbn [pieces]. clear - H2. induction H2 as [|p t ps ts H _ IH]; cbn; constructor; [|exact IH]. cbn [fst snd]. now rewrite path_snoc. }
    clear R RE. clear H. induction IH as [|n ks Hn _ IHk]; [exists []; split; [reflexivity|constructor]|].
    cbn [flat_map] in RK. apply Forall_app in RK. destruct RK as [R1 R2]. destruct (Hn base (path ++ [e]) t' D' R1) as (a & A1 & A2). destruct (IHk R2) as (b & B1 & B2).
    exists (a ++ b). cbn [sems flat_map]. rewrite A1, B1. split; [reflexivity|]. now apply Forall2_app.
  - exists []. split; [reflexivity|constructor].
Qed.
Lemma sems_ok ns base path t : dressed base path t -> Forall readable (flat_map elements ns) ->
  exists tds, sems ns t = Some tds /\ out base path (flat_map pieces ns) tds.
Proof.
  intros D R. induction ns as [|n ns IH]; [exists []; split; [reflexivity|constructor]|].
  cbn [flat_map] in R. apply Forall_app in R. destruct R as [R1 R2]. destruct (sem_ok n _ _ _ D R1) as (a & A1 & A2). destruct (IH R2) as (b & B1 & B2).
  exists (a ++ b). cbn [sems flat_map]. rewrite A1, B1. split; [reflexivity|]. now apply Forall2_app.
Qed.
Lemma dressed_base base : dressed base [] base.
Proof. unfold dressed, styled, declared, scaled, inside. cbn. repeat (split; [reflexivity|]). split; [exists []; split; constructor|]. split; [reflexivity|]. tauto. Qed.

Lemma sem_bad n : forall t, Exists unreadable (elements n) -> sem n t = None.
Proof.
  induction n as [s|e ks IH|] using node_rect; intros t R; cbn [elements] in R; [inversion R| |inversion R].
  rewrite sem_elem. inversion R as [? ? [E B]|? ? RK]; subst.
  - unfold processText. rewrite E. change (streq (str "span") (str "span")) with true. cbv iota. rewrite (spanAttrs_bad _ t B). reflexivity.
  - destruct (processText _ _ _) as [t'|]; [|reflexivity]. clear R. induction IH as [|n ks Hn _ IHk]; [inversion RK|].
    cbn [flat_map sems] in *. apply Exists_app in RK. destruct RK as [K|K]; [rewrite (Hn t' K); reflexivity|]. rewrite (IHk K). destruct (sem n t'); reflexivity.
Qed.
Lemma sems_bad ns t : Exists unreadable (flat_map elements ns) -> sems ns t = None.
Proof.
  induction ns as [|n ns IH]; intros R; cbn [flat_map sems] in *; [inversion R|]. apply Exists_app in R.
  destruct R as [K|K]; [rewrite (sem_bad n t K); reflexivity|]. rewrite (IH K). destruct (sem n t); reflexivity.
Qed.

(** a stream that breaks off inside a document *)
Lemma cut_node n : forall pre rest st t, pre ++ rest = toks n -> rest <> [] -> markupLoop pre false (t :: st) = TErr.
Proof.
  induction n as [s|e ks IH|] using node_rect; intros pre rest st t E NE; cbn [toks] in E.
  - destruct pre as [|x [|y pre]]; [reflexivity| |].
    + cbn in E. injection E. intros H _. now subst rest.
    + cbn in E. discriminate E.
  - destruct pre as [|x pre]; [reflexivity|]. cbn in E. injection E. intros E' ->. cbn [markupLoop]. destruct (processText _ _ _) as [t'|]; [|reflexivity].
    clear E. revert pre E'. induction IH as [|n ks Hn _ IHk]; intros pre E'.
    + cbn in E'. destruct pre as [|y [|z pre]]; [reflexivity| |]; cbn in E'; [injection E'; intros H _; now subst rest|discriminate E'].
    + cbn [flat_map] in E'. rewrite <- app_assoc in E'. destruct (app_eq_app _ _ _ _ E') as (l & [[H2 H1]|[H1 H2]]); cycle 1.
      * destruct l as [|y l].
        -- rewrite app_nil_r in H1. subst pre. cbn in H2. subst rest. specialize (IHk (@nil xtok) eq_refl). cbn in IHk.
           rewrite <- (app_nil_r (toks n)), loop_node by discriminate. destruct (sem n t'); reflexivity.
        -- specialize (Hn _ _ (t :: st) t' (eq_sym H1) ltac:(discriminate)). exact Hn.
      * subst pre. specialize (IHk l (eq_sym H1)). rewrite loop_node by (rewrite IHk; discriminate). rewrite IHk. destruct (sem n t'); reflexivity.
  - destruct pre as [|x [|y pre]]; [reflexivity| |]; cbn in E; [injection E; intros H _; now subst rest|discriminate E].
Qed.
Lemma cut_nodes ns : forall pre rest t, pre ++ rest = flat_map toks ns -> markupLoop pre false [t] = TErr.
Proof.
  induction ns as [|n ns IH]; intros pre rest t E; cbn [flat_map] in E.
  - destruct pre; [reflexivity|discriminate E].
  - destruct (app_eq_app _ _ _ _ E) as (l & [[H2 H1]|[H1 H2]]); cycle 1.
    + destruct l as [|y l].
      * rewrite app_nil_r in H1. subst pre. rewrite <- (app_nil_r (toks n)), loop_node by discriminate. destruct (sem n t); reflexivity.
      * apply (cut_node n pre (y :: l)); [congruence|discriminate].
    + subst pre. specialize (IH l rest t (eq_sym H1)). rewrite loop_node by (rewrite IH; discriminate). rewrite IH. destruct (sem n t); reflexivity.
Qed.

(** ** the tags *)
Lemma single_cons name t tags : single name (t :: tags) =
  (if streq (tgName t) (str name) then match tgValues t with [v] => [v] | _ => [] end else []) ++ single name tags.
Proof. unfold single, streq. cbn [flat_map]. destruct (list_eq_dec Z.eq_dec (tgName t) (str name)); reflexivity. Qed.
Lemma firsts_cons name t tags : firsts name (t :: tags) =
  (if streq (tgName t) (str name) then match tgValues t with v :: _ => [v] | _ => [] end else []) ++ firsts name tags.
Proof. unfold firsts, streq. cbn [flat_map]. destruct (list_eq_dec Z.eq_dec (tgName t) (str name)); reflexivity. Qed.
Definition follows (L : tlibs) (tags : list tag) (m : list Z) (t : textDatum) (m' : list Z) (t' : textDatum) : Prop :=
  m' = last (map text_of (single "markup" tags)) m /\
  tdData t' = last (map text_of (firsts "text" tags)) (tdData t) /\
  tdFont t' = last (map text_of (single "font" tags)) (tdFont t) /\
  tdSize t' = last (map (number_of (tl_float L)) (single "font-size" tags)) (tdSize t) /\
  tdBack t' = tdBack t /\ tdLetterSpacing t' = tdLetterSpacing t /\ tdRise t' = tdRise t /\
  tdBold t' = tdBold t /\ tdItalic t' = tdItalic t /\ tdUnderline t' = tdUnderline t /\ tdStrike t' = tdStrike t.
Lemma number_u32 L v : u32 (numOf L v) = number_of (tl_float L) v.
Proof. unfold numOf, number_of. destruct v; try reflexivity. destruct (tl_float L s); reflexivity. Qed.
Lemma follows_step L tg tags m t m1 t1 m' t' : textTag L (m, t) tg = Some (m1, t1) -> follows L tags m1 t1 m' t' -> follows L (tg :: tags) m t m' t'.
Proof.
  intros E (F1 & F0 & F2 & F3 & F4 & F5 & F6 & F7 & F8 & F9 & F10). unfold follows. rewrite !single_cons, !firsts_cons. unfold textTag in E.
  assert (X : forall (A : Type) (d : A) v l, last (v :: l) d = last l v) by (intros; apply last_cons).
  Ltac names := repeat match goal with
    | |- context [streq (str ?a) (str ?b)] => let v := eval vm_compute in (streq (str a) (str b)) in change (streq (str a) (str b)) with v end; cbv iota.
  Ltac fin := cbn; try assumption; congruence.
  destruct (streq (tgName tg) (str "text")) eqn:E1.
  { apply streq_eq in E1. rewrite E1. names. cbn [app]. destruct (tgValues tg); [discriminate|]. injection E. intros <- <-. cbn [app map]. rewrite ?X. repeat split; assumption. }
  destruct (streq (tgName tg) (str "markup")) eqn:E2.
  { apply streq_eq in E2. rewrite E2. names. cbn [app]. destruct (tgValues tg) as [|v [|]]; injection E; intros <- <-; cbn [app map]; rewrite ?X; repeat split; assumption. }
  destruct (streq (tgName tg) (str "font")) eqn:E3.
  { apply streq_eq in E3. rewrite E3. names. cbn [app]. destruct (tgValues tg) as [|v [|]]; injection E; intros <- <-; cbn [app map]; rewrite ?X; repeat split; assumption. }
  destruct (streq (tgName tg) (str "font-size")) eqn:E4.
  { apply streq_eq in E4.  cbn [app]. destruct (tgValues tg) as [|v [|]]; injection E; intros <- <-; cbn [app map]; rewrite ?X, <- ?number_u32; repeat split; assumption. }
  cbn [app]. destruct (streq (tgName tg) (str "color")).
  - destruct (tgValues tg) as [|v [|]]; [injection E; intros <- <-; repeat split; assumption| |injection E; intros <- <-; repeat split; assumption].
    destruct (_ && _); [|injection E; intros <- <-; repeat split; assumption].
    destruct (tgValues (tagOf v)) as [|a [|b [|c l]]]; try discriminate E. injection E; intros <- <-; repeat split; assumption.
  - injection E; intros <- <-; repeat split; assumption.
Qed.
Lemma textTags_follows L tags : forall m t m' t', textTags L tags (m, t) = Some (m', t') -> follows L tags m t m' t'.
Proof.
  induction tags as [|tg tags IH]; intros m t m' t' E.
  - cbn in E. injection E. intros <- <-. repeat split; reflexivity.
  - cbn [textTags] in E. destruct (textTag L (m, t) tg) as [[m1 t1]|] eqn:E1; [|discriminate]. cbn in E. eapply follows_step; eauto.
Qed.
Lemma plain_black L tags : forall st st', Forall (fun t => tgName t = str "color" -> plain_colour t) tags ->
  textTags L tags st = Some st' -> tdFore (snd st') = tdFore (snd st).
Proof.
  induction tags as [|tg tags IH]; intros st st' F E.
  - cbn in E. injection E. now intros <-.
  - inversion F as [|? ? PC F']. subst. cbn [textTags] in E. destruct (textTag L st tg) as [st1|] eqn:E1; [|discriminate]. cbn in E.
    rewrite (IH st1 st' F' E). destruct st as [m t]. clear E. unfold textTag in E1.
    destruct (streq _ (str "text")); [destruct (tgValues tg); [discriminate|]; injection E1; now intros <-|].
    destruct (streq _ (str "markup")); [destruct (tgValues tg) as [|? [|]]; injection E1; now intros <-|].
    destruct (streq _ (str "font")); [destruct (tgValues tg) as [|? [|]]; injection E1; now intros <-|].
    destruct (streq _ (str "font-size")); [destruct (tgValues tg) as [|? [|]]; injection E1; now intros <-|].
    destruct (streq (tgName tg) (str "color")) eqn:EC; [|injection E1; now intros <-]. apply streq_eq in EC.
    destruct (PC EC) as (r & g & b & HV). rewrite HV in E1. cbn in E1. injection E1. now intros <-.
Qed.

(** ** C70 *)
Lemma short_same t : short t <-> short_tag t.
Proof. destruct t as [n vs]. reflexivity. Qed.
Lemma tags_read L data tags : isb data -> document (num_ok L) (unfinished (num_ok L)) data tags -> ~ Exists short_tag tags ->
  exists base, layer_style (tl_float L) tags base /\ tdData base = plain_of tags /\
    (Forall (fun t => tgName t = str "color" -> plain_colour t) tags -> tdFore base = Some (CGray 0)) /\
    ptext L data = match tdData base with _ :: _ => TOk [base] | [] => let '(toks, ok) := tl_xml L (markup_of tags) in markupLoop toks ok [base] end.
Proof.
  intros B D NS. unfold ptext, parseTextData. rewrite (C71_reads L data tags) by (exact B || exact D || lia).
  destruct (parseText L tags) as [[m base]|] eqn:E.
  - destruct (textTags_follows L tags _ _ _ _ E) as (F1 & F0 & F). exists base. split; [exact F|]. split; [exact F0|].
    split; [intros P; exact (plain_black L tags _ _ P E)|]. now rewrite F1.
  - exfalso. apply NS. apply textTags_short in E. eapply Exists_impl; [|exact E]. intros t. apply short_same.
Qed.

(** A text parasite with plain text is read as that text in the style of its tags. *)
Theorem C70_plain L data tags : isb data -> document (num_ok L) (unfinished (num_ok L)) data tags -> ~ Exists short_tag tags ->
  plain_of tags <> [] ->
  exists t, ptext L data = TOk [t] /\ tdData t = plain_of tags /\ layer_style (tl_float L) tags t.
Proof.
  intros B D NS NP. destruct (tags_read L data tags B D NS) as (base & LS & TD & _ & E). exists base. split; [|auto].
  rewrite E, TD. destruct (plain_of tags); [contradiction|reflexivity].
Qed.
Print Assumptions C70_plain.

(** One with markup and no plain text, the markup being a tree of readable elements, is
    read as the pieces of text of that tree in order, each in the style of the elements
    around it; outside all elements the style is that of the tags. *)
Theorem C70_styles L data tags ns : isb data -> document (num_ok L) (unfinished (num_ok L)) data tags -> ~ Exists short_tag tags ->
  plain_of tags = [] -> tl_xml L (markup_of tags) = (flat_map toks ns, true) -> Forall readable (flat_map elements ns) ->
  exists base tds, layer_style (tl_float L) tags base /\ ptext L data = TOk tds /\
    Forall2 (fun p t => styled base (fst p) (snd p) t) (flat_map pieces ns) tds.
Proof.
  intros B D NS NP HX HR. destruct (tags_read L data tags B D NS) as (base & LS & TD & _ & E). exists base.
  destruct (sems_ok ns base [] base (dressed_base base) HR) as (tds & H1 & H2). exists tds. split; [exact LS|]. split; [|exact H2].
  rewrite E, TD, NP, HX. rewrite <- (app_nil_r (flat_map toks ns)), loop_nodes by discriminate. rewrite H1. cbn. now rewrite app_nil_r.
Qed.
Print Assumptions C70_styles.

(** An attribute that should be a number or a colour and is not, anywhere in the tree,
    is refused, and so is markup that breaks off. *)
Theorem C70_refused L data tags ns : isb data -> document (num_ok L) (unfinished (num_ok L)) data tags -> ~ Exists short_tag tags ->
  plain_of tags = [] ->
  (tl_xml L (markup_of tags) = (flat_map toks ns, true) /\ Exists unreadable (flat_map elements ns)) \/
  (exists pre rest, tl_xml L (markup_of tags) = (pre, false) /\ pre ++ rest = flat_map toks ns) ->
  ptext L data = TErr.
Proof.
  intros B D NS NP H. destruct (tags_read L data tags B D NS) as (base & LS & TD & _ & E). rewrite E, TD, NP. destruct H as [[HX HB]|(pre & rest & HX & HE)]; rewrite HX.
  - rewrite <- (app_nil_r (flat_map toks ns)), loop_nodes by discriminate. now rewrite (sems_bad ns base HB).
  - exact (cut_nodes ns pre rest base HE).
Qed.
Print Assumptions C70_refused.

(** The colour of the tags is never used: with colours of three components, as GIMP and
    this package write them, plain text is black. *)
Theorem C70_colour_refuted L data tags : isb data -> document (num_ok L) (unfinished (num_ok L)) data tags -> ~ Exists short_tag tags ->
  plain_of tags <> [] -> Forall (fun t => tgName t = str "color" -> plain_colour t) tags ->
  exists t, ptext L data = TOk [t] /\ tdFore t = Some (CGray 0).
Proof.
  intros B D NS NP PC. destruct (tags_read L data tags B D NS) as (base & LS & TD & BL & E). exists base. split; [|auto].
  rewrite E, TD. destruct (plain_of tags); [contradiction|reflexivity].
Qed.
Print Assumptions C70_colour_refuted.

(** rich text: <markup>a<b>b<span size="2048" foreground="#0a1B2c">c</span></b></markup> *)
Definition rich_markup : list Z := str "<markup>a<b>b<span size=""2048"" foreground=""#0a1B2c"">c</span></b></markup>".
Definition rich_tree : list node :=
  [NElem (str "markup", []) [NText (str "a"); NElem (str "b", [])
    [NText (str "b"); NElem (str "span", [(str "size", str "2048"); (str "foreground", str "#0a1B2c")]) [NText (str "c")]]]].
Definition rich_libs (ns : list node) : tlibs := mkTLibs (fun _ => false) (fun s => Some (digits_up_to_point s 0)) (fun _ => (flat_map toks ns, true)).
Definition rich_data : list Z :=
  str "(markup ""<markup>a<b>b<span size=\""2048\"" foreground=\""#0a1B2c\"">c</span></b></markup>"")" ++ [10] ++
  str "(font ""Serif"")" ++ [10] ++ str "(font-size 18.000000)" ++ [10] ++ str "(color (color-rgb 1.0 0.0 0.0))" ++ [0].
Definition rich_tags : list tag :=
  [mkTag (str "markup") [VStr rich_markup]; mkTag (str "font") [VStr (str "Serif")]; mkTag (str "font-size") [VNum (str "18.000000")];
   mkTag (str "color") [VTag (mkTag (str "color-rgb") [VNum (str "1.0"); VNum (str "0.0"); VNum (str "0.0")])]].
(** a size that is no number *)
Definition bad_tree : list node := [NElem (str "span", [(str "size", str "2e3")]) [NText (str "c")]].
Example C70_ex : isb rich_data /\ parse (rich_libs rich_tree) (S (List.length rich_data)) rich_data = POk rich_tags /\
  document (num_ok (rich_libs rich_tree)) (unfinished (num_ok (rich_libs rich_tree))) rich_data rich_tags /\
  ~ Exists short_tag rich_tags /\ plain_of rich_tags = [] /\ markup_of rich_tags = rich_markup /\
  Forall readable (flat_map elements rich_tree) /\
  (exists t1 t2 t3, ptext (rich_libs rich_tree) rich_data = TOk [t1; t2; t3] /\
     tdData t1 = str "a" /\ tdBold t1 = false /\ tdSize t1 = 18 /\ tdFont t1 = str "Serif" /\
     tdData t2 = str "b" /\ tdBold t2 = true /\ tdFore t2 = Some (CGray 0) /\
     tdData t3 = str "c" /\ tdBold t3 = true /\ tdSize t3 = 2 /\ tdFore t3 = Some (COther 2570 6939 11308 65535)) /\
  Exists unreadable (flat_map elements bad_tree) /\ ptext (rich_libs bad_tree) rich_data = TErr.
Proof.
  assert (B : isb rich_data) by (repeat constructor; lia). split; [exact B|].
  assert (P : parse (rich_libs rich_tree) (S (List.length rich_data)) rich_data = POk rich_tags) by (vm_compute; reflexivity). split; [exact P|].
  assert (NO : forall s, any s -> num_ok (rich_libs rich_tree) s) by (intros s _; unfold num_ok; cbn; discriminate).
  split; [eapply document_weaken; [| |eapply C71_only; [exact B| |exact P]]; [auto|apply unfinished_weaken; exact NO|lia]|].
  split.
  { intros H. repeat (inversion H as [? ? X|? ? H']; subst; [destruct X as [[X _]|(X & us & Y & Z)]; try discriminate X; try (injection Y as <-; cbn in Z; lia)|clear H; rename H' into H]). inversion H. }
  split; [reflexivity|]. split; [reflexivity|].
  assert (HX : hexdig 48 0 /\ hexdig 97 10 /\ hexdig 49 1 /\ hexdig 66 11 /\ hexdig 50 2 /\ hexdig 99 12).
  { split; [apply (hd_09 48); lia|]. split; [apply (hd_af 97); lia|]. split; [apply (hd_09 49); lia|]. split; [apply (hd_AF 66); lia|]. split; [apply (hd_09 50); lia|apply (hd_af 99); lia]. }
  split.
  { cbn [flat_map elements app rich_tree]. apply Forall_cons; [intros E; discriminate E|]. apply Forall_cons; [intros E; discriminate E|]. apply Forall_cons; [|constructor].
    intros _. split.
    - intros name v [<-|[<-|[<-|[]]]] Hv; vm_compute in Hv; try contradiction. destruct Hv as [<-|[]]. split; [discriminate|]. split; [repeat constructor; lia|reflexivity].
    - intros v Hv _. vm_compute in Hv. destruct Hv as [<-|[]]. destruct HX as (H1 & H2 & H3 & H4 & H5 & H6). eexists. eapply nc_6; eassumption. }
  split; [do 3 eexists; split; [vm_compute; reflexivity|vm_compute; repeat split; reflexivity]|].
  split; [|vm_compute; reflexivity].
  constructor. split; [reflexivity|]. left. exists "size"%string, (str "2e3"). split; [left; reflexivity|]. split; [left; reflexivity|].
  intros (_ & F & _). inversion F as [|? ? _ F']. inversion F' as [|? ? X _]. lia.
Qed.
