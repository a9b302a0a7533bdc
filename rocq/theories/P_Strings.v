(** C72, C73: the string of a text layer and the writer of quoted strings. *)
From Coq Require Import String.
Require Import Verif.Base Verif.L_List Verif.M_Color Verif.M_Image Verif.M_Decode Verif.M_Ora Verif.M_Text Verif.M_Strings
  Verif.S_String Verif.L_String Verif.S_Text Verif.S_Markup Verif.S_Parasite Verif.L_Text Verif.L_Text2 Verif.P_Parasite Verif.P_Markup Verif.P_Text.
From Coq Require Import ZifyBool ZifyNat.
Open Scope Z_scope.
Open Scope list_scope.

(** ** C72 *)
Lemma textString_app a b : textString (a ++ b) = textString a ++ textString b.
Proof. induction a as [|d a IH]; [reflexivity|]. cbn. now rewrite IH, app_assoc. Qed.
Lemma textString_pieces base (ps : list (list element * list Z)) tds : Forall2 (fun p t => styled base (fst p) (snd p) t) ps tds -> textString tds = flat_map snd ps.
Proof. induction 1 as [|p t ps tds (H & _) _ IH]; [reflexivity|]. cbn. now rewrite IH, H. Qed.
Lemma flat_map_map (A B C : Type) (f : A -> B) (g : B -> list C) l : flat_map g (map f l) = flat_map (fun x => g (f x)) l.
Proof. induction l as [|x l IH]; [reflexivity|]. cbn. now rewrite IH. Qed.
Lemma flat_map_flat_map (A B C : Type) (f : A -> list B) (g : B -> list C) l : flat_map g (flat_map f l) = flat_map (fun x => flat_map g (f x)) l.
Proof. induction l as [|x l IH]; [reflexivity|]. cbn. now rewrite flat_map_app, IH. Qed.
Lemma pieces_content n : flat_map snd (pieces n) = content n.
Proof.
  induction n as [s|e ks IH|] using node_rect; [cbn; apply app_nil_r| |reflexivity].
  cbn [pieces content]. rewrite flat_map_map. cbn [snd]. rewrite flat_map_flat_map. induction IH as [|n ks Hn _ IHk]; [reflexivity|]. cbn [flat_map]. now rewrite IHk, <- Hn.
Qed.

(** The string of a text layer is the text of its parasite: the plain text, or all the
    text of the markup in order, without its elements. *)
Theorem C72_string L data tags : isb data -> document (num_ok L) (unfinished (num_ok L)) data tags -> ~ Exists short_tag tags ->
  (plain_of tags <> [] -> exists tds, ptext L data = TOk tds /\ textString tds = plain_of tags) /\
  (forall ns, plain_of tags = [] -> tl_xml L (markup_of tags) = (flat_map toks ns, true) -> Forall readable (flat_map elements ns) ->
     exists tds, ptext L data = TOk tds /\ textString tds = flat_map content ns).
Proof.
  intros B D NS. split.
  - intros NP. destruct (C70_plain L data tags B D NS NP) as (t & E & H & _). exists [t]. split; [exact E|]. cbn. now rewrite app_nil_r.
  - intros ns NP HX HR. destruct (C70_styles L data tags ns B D NS NP HX HR) as (base & tds & _ & E & F). exists tds. split; [exact E|].
    rewrite (textString_pieces base _ _ F), flat_map_flat_map. clear. induction ns as [|n ns IH]; [reflexivity|]. cbn [flat_map]. now rewrite IH, pieces_content.
Qed.
Print Assumptions C72_string.

(** Encode and Decode keep the string of a layer of one segment exactly when it is
    printable text. *)
Theorem C72_kept L t w h : float_ok (tl_float L) -> wf_text t -> tdFore t <> None -> tdData t <> [] ->
  0 <= w < 4294967296 -> 0 <= h < 4294967296 ->
  exists data tds, wtext L [t] w h = Some data /\ ptext L data = TOk tds /\
    (textString tds = textString [t] <-> plain_text (tl_print L) (textString [t])).
Proof.
  intros FO WF NC ND Hw Hh. destruct (C52_text_partial L t w h FO WF NC ND Hw Hh) as (data & t' & E & P & I & _). exists data, [t']. split; [exact E|]. split; [exact P|].
  cbn. rewrite !app_nil_r. exact I.
Qed.
Print Assumptions C72_kept.
Example C72_ex : textString (match ptext (rich_libs rich_tree) rich_data with TOk t => t | _ => [] end) = str "abc" /\ flat_map content rich_tree = str "abc" /\
  float_ok (tl_float plain_libs) /\ wf_text sample_text /\ tdFore sample_text <> None /\ tdData sample_text <> [].
Proof. split; [vm_compute; reflexivity|]. split; [reflexivity|]. destruct C52_ex as (E1 & E2 & E3 & E4 & _). exact (conj E1 (conj E2 (conj E3 E4))). Qed.

(** ** C73 *)
(** the string with every byte that belongs to no character replaced by U+FFFD *)
Inductive repaired : list Z -> list Z -> Prop :=
| rep_nil : repaired [] []
| rep_char c s s' : scalar_value c -> repaired s s' -> repaired (utf8_enc c ++ s) (utf8_enc c ++ s')
| rep_byte x s s' : ~ well_encoded (x :: s) -> repaired s s' -> repaired (x :: s) (239 :: 191 :: 189 :: s').

Lemma enc_small c : scalar_value c -> c < 128 -> utf8_enc c = [c].
Proof. intros _ H. unfold utf8_enc. now replace (c <? 128) with true by lia. Qed.
Lemma ffff : [239; 191; 189] = utf8_enc 65533.
Proof. reflexivity. Qed.
Lemma enc_ordinary c : scalar_value c -> c <> 34 -> c <> 92 -> Forall ordinary (utf8_enc c).
Proof.
  intros S A B. destruct (Z.ltb_spec c 128) as [L|G].
  - rewrite enc_small by assumption. repeat constructor; assumption.
  - eapply Forall_impl; [|exact (enc_high c S G)]. cbv beta. intros x Hx. split; lia.
Qed.
Lemma quoteRunes_read n : forall s g rest acc, isb s -> (List.length s <= n)%nat -> (List.length (quoteRunes n s) < g)%nat ->
  exists v, repaired s v /\ unquote g (quoteRunes n s ++ 34 :: rest) acc = (acc ++ v, rest).
Proof.
  induction n as [|n IH]; intros s g rest acc B LN LG; (destruct g as [|g]; [lia|]).
  { destruct s; [|cbn in LN; lia]. exists []. split; [constructor|]. cbn [quoteRunes app]. rewrite unquote_end. now rewrite app_nil_r. }
  destruct s as [|x s]; [exists []; split; [constructor|]; cbn [quoteRunes app]; rewrite unquote_end; now rewrite app_nil_r|].
  cbn [quoteRunes] in LG |- *. destruct (decodeRune (x :: s)) as [[[c w] t]|] eqn:D.
  - destruct (decodeRune_some _ _ _ _ B D) as (ES & SC & ->). pose proof (enc_len c) as EL.
    assert (LT : (List.length t <= n)%nat) by (apply (f_equal (@List.length Z)) in ES; rewrite app_length in ES; cbn [List.length] in *; lia).
    assert (BT : isb t) by (rewrite ES in B; now apply Forall_app in B). rewrite app_length in LG. rewrite ES, <- app_assoc.
    destruct (c =? 92) eqn:C1; [|destruct (c =? 34) eqn:C2].
    + assert (c = 92) by lia. subst c. cbn [app List.length] in *. rewrite unquote_esc by lia. change ((92 =? 34) || (92 =? 92)) with true. cbv iota.
      destruct (IH t g rest (acc ++ [92]) BT LT ltac:(lia)) as (v & R & ->). exists (92 :: v). split; [apply (rep_char 92 t v SC R)|now rewrite <- app_assoc].
    + assert (c = 34) by lia. subst c. cbn [app List.length] in *. rewrite unquote_esc by lia. change ((34 =? 34) || (34 =? 92)) with true. cbv iota.
      destruct (IH t g rest (acc ++ [34]) BT LT ltac:(lia)) as (v & R & ->). exists (34 :: v). split; [apply (rep_char 34 t v SC R)|now rewrite <- app_assoc].
    + rewrite unquote_ords by (apply enc_ordinary; lia || assumption).
      destruct (IH t (S g) rest (acc ++ utf8_enc c) BT LT ltac:(lia)) as (v & R & ->). exists (utf8_enc c ++ v). split; [now constructor|now rewrite <- app_assoc].
  - rewrite app_length in LG. rewrite <- app_assoc. rewrite unquote_ords by (repeat constructor; lia).
    destruct (IH s (S g) rest (acc ++ [239; 191; 189]) ltac:(now inversion B) ltac:(cbn in LN; lia) ltac:(cbn [List.length] in LG; lia)) as (v & R & ->).
    exists (239 :: 191 :: 189 :: v). split; [apply rep_byte; [|exact R]|now rewrite <- app_assoc]. intros W. apply well_encoded_dec in W; [congruence|exact B].
Qed.
Lemma repaired_utf8 s v : repaired s v -> (v = s <-> utf8 s).
Proof.
  induction 1 as [|c s s' SC R IH|x s s' N R IH].
  - split; [|reflexivity]. exists []. split; [constructor|reflexivity].
  - split.
    + intros E. apply app_inv_head in E. apply IH in E. destruct E as (cs & F & ->). exists (c :: cs). split; [now constructor|reflexivity].
    + intros (cs & F & E). destruct cs as [|d cs]; [pose proof (enc_len c); destruct (utf8_enc c); [cbn in *; lia|discriminate E]|].
      inversion F as [|? ? SD F']. subst. cbn [flat_map] in E. pose proof (decodeRune_enc c s SC) as D1. rewrite E, decodeRune_enc in D1 by exact SD.
      injection D1 as <- _ E'. f_equal. apply IH. exists cs. auto.
  - split.
    + intros E. exfalso. injection E as <- E2. apply N. exists 65533, s'. split; [right; lia|]. rewrite <- ffff. cbn. now rewrite <- E2.
    + intros (cs & F & E). exfalso. apply N. destruct cs as [|d cs]; [discriminate E|]. exists d, (flat_map utf8_enc cs). inversion F. split; [assumption|exact E].
Qed.

(** What the writer puts between quotes is read back as the string, every byte that
    belongs to no character turned into U+FFFD: the same string exactly if it is UTF-8. *)
Theorem C73_quoted s rest : isb s ->
  exists v, quotedString (34 :: quoteWriter_WriteString s ++ 34 :: rest) = (v, rest) /\ repaired s v /\ (v = s <-> utf8 s).
Proof.
  intros B. unfold quotedString. change (34 =? 34) with true. cbv iota.
  destruct (quoteRunes_read (List.length s) s (S (List.length (34 :: quoteWriter_WriteString s ++ 34 :: rest))) rest [] B ltac:(lia)) as (v & R & E).
  { unfold quoteWriter_WriteString. cbn [List.length]. rewrite app_length. lia. }
  exists v. split; [exact E|]. split; [exact R|now apply repaired_utf8].
Qed.
Print Assumptions C73_quoted.
Example C73_ex : quoteWriter_WriteString (str "a""\" ++ [195; 169; 200]) = str "a\""\\" ++ [195; 169; 239; 191; 189] /\
  utf8 (str "a""\" ++ [195; 169]) /\ ~ utf8 [200] /\ quotedString (34 :: quoteWriter_WriteString (str "a""\") ++ [34; 41]) = (str "a""\", [41]).
Proof.
  split; [reflexivity|]. split; [exists (str "a""\" ++ [233]); split; [|reflexivity]|].
  { change (str "a""\" ++ [233]) with [97; 34; 92; 233]. repeat (apply Forall_cons; [left; lia|]). constructor. }
  split; [|reflexivity].
  assert (B : isb [200]) by (repeat constructor; lia).
  intros U. destruct (C73_quoted [200] [] B) as (v & E & _ & I). apply I in U. subst v. vm_compute in E. discriminate E.
Qed.
