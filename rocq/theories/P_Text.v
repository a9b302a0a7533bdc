(** C52: text layers through Encode and Decode. *)
From Coq Require Import String.
Require Import Verif.Base Verif.M_Ora Verif.L_List Verif.M_Color Verif.S_Color Verif.P_Color Verif.M_Rect Verif.M_Image Verif.L_Image Verif.M_Reader Verif.M_Decode Verif.M_Encode Verif.S_Encode Verif.L_Calls Verif.S_Layout Verif.S_Linked Verif.L_Emit Verif.L_Layout
  Verif.S_Trip Verif.L_Trip5 Verif.P_Trip Verif.M_Text
  Verif.S_String Verif.L_String Verif.S_Text Verif.L_Text Verif.L_Text2.
From Coq Require Import ZifyBool ZifyNat.
Open Scope Z_scope.
Open Scope list_scope.

(** a TextDatum as Go can hold it *)
Definition wf_text (t : textDatum) : Prop :=
  isb (tdFont t) /\ isb (tdData t) /\ 0 <= tdSize t < 4294967296 /\
  match tdFore t with Some c => wf_color c | None => True end.

(** the lines of the text of one segment, and the tags they are read as *)
Definition num (n : Z) (k : nat) : list Z := itoa n ++ 46 :: repeat 48 k.
Definition text_lines L (t : textDatum) (q : rgba32) (w h : Z) : list (list Z) :=
  [40 :: str "text" ++ spaced [quote L (tdData t)] ++ [41];
   40 :: str "font" ++ spaced [quote L (tdFont t)] ++ [41];
   40 :: str "font-size" ++ spaced [num (tdSize t) 9] ++ [41];
   40 :: str "font-size-units" ++ spaced [str "pixels"] ++ [41];
   40 :: str "antialias" ++ spaced [str "yes"] ++ [41];
   40 :: str "base-direction" ++ spaced [str "ltr"] ++ [41];
   40 :: str "color" ++ 32 :: 40 :: str "color-rgb" ++ spaced [num (pR q / 256) 6; num (pG q / 256) 6; num (pB q / 256) 6] ++ [41; 41];
   40 :: str "justify" ++ spaced [str "left"] ++ [41];
   40 :: str "box-mode" ++ spaced [str "dynamic"] ++ [41];
   40 :: str "box-width" ++ spaced [num w 6] ++ [41];
   40 :: str "box-height" ++ spaced [num h 6] ++ [41];
   40 :: str "box-unit" ++ spaced [str "pixels"] ++ [41];
   40 :: str "hinting" ++ spaced [str "yes"] ++ [41]].
Definition text_tags L (t : textDatum) (q : rgba32) (w h : Z) : list tag :=
  [mkTag (str "text") [VStr (shown L (tdData t))];
   mkTag (str "font") [VStr (shown L (tdFont t))];
   mkTag (str "font-size") [VNum (num (tdSize t) 9)];
   mkTag (str "font-size-units") [VStr (str "pixels")];
   mkTag (str "antialias") [VStr (str "yes")];
   mkTag (str "base-direction") [VStr (str "ltr")];
   mkTag (str "color") [VTag (mkTag (str "color-rgb") [VNum (num (pR q / 256) 6); VNum (num (pG q / 256) 6); VNum (num (pB q / 256) 6)])];
   mkTag (str "justify") [VStr (str "left")];
   mkTag (str "box-mode") [VStr (str "dynamic")];
   mkTag (str "box-width") [VNum (num w 6)];
   mkTag (str "box-height") [VNum (num h 6)];
   mkTag (str "box-unit") [VStr (str "pixels")];
   mkTag (str "hinting") [VStr (str "yes")]].
Ltac strs := repeat match goal with |- context [str ?s] => let v := eval vm_compute in (str s) in change (str s) with v end.
Lemma wtext_lines L t c w h : tdFore t = Some c -> wtext L [t] w h = Some (lines (text_lines L t (color_RGBA c) w h) ++ [0]).
Proof.
  intros F. unfold wtext, obind. rewrite F. apply f_equal. unfold text_lines, num, NL. cbn [lines flat_map spaced]. rewrite ?app_nil_r.
  generalize (itoa (tdSize t)) (itoa (pR (color_RGBA c) / 256)) (itoa (pG (color_RGBA c) / 256)) (itoa (pB (color_RGBA c) / 256)) (itoa w) (itoa h)
    (quote L (tdData t)) (quote L (tdFont t)). intros.
  strs. cbn [repeat app]. repeat (rewrite <- ?app_assoc; cbn [app]). reflexivity.
Qed.
Lemma lines_tags L t c w h : float_ok (tl_float L) -> wf_text t -> tdFore t = Some c ->
  0 <= w < 4294967296 -> 0 <= h < 4294967296 ->
  Forall2 (line L) (text_lines L t (color_RGBA c) w h) (text_tags L t (color_RGBA c) w h).
Proof.
  intros FO (BF & BD & SZ & WC) F Hw Hh. rewrite F in WC. pose proof (C15_color_contract c WC) as (R & G & B & A).
  set (q := color_RGBA c) in *.
  assert (RN : forall n k, 0 <= n < 4294967296 -> reads L (num n k) (VNum (num n k))) by (intros n k Hn; now apply reads_number).
  assert (QR : 0 <= pR q / 256 < 4294967296) by (split; [apply Z.div_pos; lia|apply Z.div_lt_upper_bound; lia]).
  assert (QG : 0 <= pG q / 256 < 4294967296) by (split; [apply Z.div_pos; lia|apply Z.div_lt_upper_bound; lia]).
  assert (QB : 0 <= pB q / 256 < 4294967296) by (split; [apply Z.div_pos; lia|apply Z.div_lt_upper_bound; lia]).
  assert (LF : forall n w v, forallb isValName n = true -> n <> [] -> reads L w v -> line L (40 :: n ++ spaced [w] ++ [41]) (mkTag n [v])).
  { intros n w0 v H1 H2 H3. apply line_flat; [assumption|assumption|apply Forall2_cons; [assumption|apply Forall2_nil]|cbn; lia]. }
  assert (LW : forall n w, forallb isValName n = true -> n <> [] -> forallb isValName w = true -> w <> [] -> line L (40 :: n ++ spaced [w] ++ [41]) (mkTag n [VStr w])).
  { intros n w0 H1 H2 H3 H4. apply LF; [assumption|assumption|]. destruct w0; [contradiction|now apply reads_word]. }
  unfold text_lines, text_tags.
  pose proof (reads_quoted L _ BD) as Q1. pose proof (reads_quoted L _ BF) as Q2.
  pose proof (RN _ 9%nat SZ) as N0. pose proof (RN _ 6%nat Hw) as Nw. pose proof (RN _ 6%nat Hh) as Nh.
  pose proof (RN _ 6%nat QR) as N1. pose proof (RN _ 6%nat QG) as N2. pose proof (RN _ 6%nat QB) as N3.
  revert Q1 Q2 N0 Nw Nh N1 N2 N3.
  generalize (quote L (tdData t)) (quote L (tdFont t)) (shown L (tdData t)) (shown L (tdFont t)) (num (tdSize t) 9) (num w 6) (num h 6)
    (num (pR q / 256) 6) (num (pG q / 256) 6) (num (pB q / 256) 6).
  clear - LW LF. intros q1 q2 s1 s2 n0 nw nh n1 n2 n3 Q1 Q2 N0 Nw Nh N1 N2 N3.
  assert (NE : forall c l, (c :: l : list Z) <> []) by discriminate.
  repeat apply Forall2_cons; try apply Forall2_nil;
    lazymatch goal with
    | |- line _ (_ :: _ ++ spaced [str _] ++ _) _ => apply LW; [reflexivity|apply NE|reflexivity|apply NE]
    | |- line _ (_ :: _ ++ spaced [_] ++ _) _ => apply LF; [reflexivity|apply NE|assumption]
    | |- _ => idtac
    end.
  apply line_nested; [reflexivity|apply NE|reflexivity|apply NE| |cbn; lia].
  repeat (apply Forall2_cons; [assumption|]). apply Forall2_nil.
Qed.
(** what one segment is read back as: the default style, font and text after
    quoting, and the size *)
Definition read_back L (t : textDatum) : textDatum :=
  mkTD (Some (CGray 0)) (Some (CAlpha 0)) (tdSize t) 0 0 false false false false (shown L (tdFont t)) (shown L (tdData t)).
Lemma streq_refl s : streq s s = true.
Proof. unfold streq. now destruct (list_eq_dec Z.eq_dec s s). Qed.
Lemma text_tags_parsed L t q w h : float_ok (tl_float L) -> 0 <= tdSize t < 4294967296 ->
  parseText L (text_tags L t q w h) = Some ([], read_back L t).
Proof.
  intros FO SZ. unfold parseText, text_tags. cbn [textTags]. unfold obind.
  pose proof (proj2 (reads_number L (tdSize t) 9 FO SZ)) as N. fold (num (tdSize t) 9) in N.
  assert (U : u32 (tdSize t) = tdSize t) by (unfold u32; apply Z.mod_small; exact SZ).
  set (s1 := shown L (tdData t)). set (s2 := shown L (tdFont t)).
  set (n1 := num (pR q / 256) 6). set (n2 := num (pG q / 256) 6). set (n3 := num (pB q / 256) 6).
  set (n4 := num w 6). set (n5 := num h 6). set (n0 := num (tdSize t) 9) in *.
  assert (E1 : textTag L ([], td0) (mkTag (str "text") [VStr s1]) = Some ([], td_data td0 s1)) by reflexivity. rewrite E1.
  assert (E2 : textTag L ([], td_data td0 s1) (mkTag (str "font") [VStr s2]) = Some ([], td_font (td_data td0 s1) s2)) by reflexivity. rewrite E2.
  assert (E3 : forall x, textTag L ([], x) (mkTag (str "font-size") [VNum n0]) = Some ([], td_size x (tdSize t))).
  { intros x. change (textTag L ([], x) (mkTag (str "font-size") [VNum n0])) with (Some (@nil Z, td_size x (u32 (numOf L (VNum n0))))). now rewrite N, U. }
  rewrite E3.
  assert (E4 : forall st, textTag L st (mkTag (str "color") [VTag (mkTag (str "color-rgb") [VNum n1; VNum n2; VNum n3])]) = Some st) by (intros [? ?]; reflexivity).
  set (x := td_size _ _).
  repeat match goal with
  | |- context [textTag L ([], x) (mkTag ?n ?v)] =>
      replace (textTag L ([], x) (mkTag n v)) with (Some (@nil Z, x)) by (symmetry; first [apply E4|reflexivity])
  end.
  reflexivity.
Qed.
Lemma text_parsed L t c w h : float_ok (tl_float L) -> wf_text t -> tdFore t = Some c -> tdData t <> [] ->
  0 <= w < 4294967296 -> 0 <= h < 4294967296 ->
  exists data, wtext L [t] w h = Some data /\ ptext L data = TOk [read_back L t].
Proof.
  intros FO WF F D Hw Hh. exists (lines (text_lines L t (color_RGBA c) w h) ++ [0]). split; [now apply wtext_lines|].
  unfold ptext, parseTextData.
  destruct (parse_lines L _ _ (lines_tags L t c w h FO WF F Hw Hh) (S (S (S (List.length (lines (text_lines L t (color_RGBA c) w h) ++ [0])))))) as [-> _].
  - unfold text_lines. cbn [lines flat_map]. rewrite !app_length. cbn [List.length]. strs. cbn [List.length app]. lia.
  - rewrite text_tags_parsed; [|exact FO|apply WF]. cbn [tdData read_back].
    destruct (shown L (tdData t)) eqn:E; [|reflexivity]. apply shown_nil in E; [contradiction|apply WF].
Qed.

(** ** C52
    Full statement: the text, font and colour of every text layer are read back
    unchanged, and every list of segments can be encoded.  All of it fails in
    general (the four refutations below). *)

(** One segment with a colour and a text: text and font come back exactly when
    every character is printable; the size comes back.
    Missing: other characters, the colour, the styles, several segments. *)
Theorem C52_text_partial L t w h : float_ok (tl_float L) -> wf_text t -> tdFore t <> None -> tdData t <> [] ->
  0 <= w < 4294967296 -> 0 <= h < 4294967296 ->
  exists data t', wtext L [t] w h = Some data /\ ptext L data = TOk [t'] /\
    (tdData t' = tdData t <-> plain_text (tl_print L) (tdData t)) /\
    (tdFont t' = tdFont t <-> plain_text (tl_print L) (tdFont t)) /\
    tdSize t' = tdSize t.
Proof.
  intros FO WF NC ND Hw Hh. destruct (tdFore t) as [c|] eqn:F; [|contradiction].
  destruct (text_parsed L t c w h FO WF F ND Hw Hh) as (data & E & P). exists data, (read_back L t).
  split; [exact E|]. split; [exact P|]. destruct WF as (BF & BD & _). cbn [read_back tdData tdFont tdSize].
  split; [now apply shown_same|]. split; [now apply shown_same|reflexivity].
Qed.
Print Assumptions C52_text_partial.

(** The colour is lost, whatever it is: it always comes back as Gray{0}. *)
Theorem C52_colour_refuted L t w h : float_ok (tl_float L) -> wf_text t -> tdFore t <> None -> tdData t <> [] ->
  0 <= w < 4294967296 -> 0 <= h < 4294967296 ->
  exists data t', wtext L [t] w h = Some data /\ ptext L data = TOk [t'] /\ tdFore t' = Some (CGray 0).
Proof.
  intros FO WF NC ND Hw Hh. destruct (tdFore t) as [c|] eqn:F; [|contradiction].
  destruct (text_parsed L t c w h FO WF F ND Hw Hh) as (data & E & P). exists data, (read_back L t). auto.
Qed.
Print Assumptions C52_colour_refuted.

(** An empty text is lost: the segment is gone. *)
Theorem C52_empty_refuted L t w h : float_ok (tl_float L) -> tl_xml L [] = ([], true) -> wf_text t -> tdFore t <> None -> tdData t = [] ->
  0 <= w < 4294967296 -> 0 <= h < 4294967296 ->
  exists data, wtext L [t] w h = Some data /\ ptext L data = TOk [].
Proof.
  intros FO XM WF NC D Hw Hh. destruct (tdFore t) as [c|] eqn:F; [|contradiction].
  exists (lines (text_lines L t (color_RGBA c) w h) ++ [0]). split; [now apply wtext_lines|].
  unfold ptext, parseTextData.
  destruct (parse_lines L _ _ (lines_tags L t c w h FO WF F Hw Hh) (S (S (S (List.length (lines (text_lines L t (color_RGBA c) w h) ++ [0])))))) as [-> _].
  - unfold text_lines. cbn [lines flat_map]. rewrite !app_length. cbn [List.length]. strs. cbn [List.length app]. lia.
  - rewrite text_tags_parsed; [|exact FO|apply WF]. cbn [tdData read_back]. rewrite D. cbn [shown shownN List.length]. rewrite XM. reflexivity.
Qed.
Print Assumptions C52_empty_refuted.

(** ** several segments *)
(** [carries i t]: encoding [i] writes a layer with the text [t] *)
Inductive carries : image -> list textDatum -> Prop :=
| carries_here i t : carries (IText i t) t
| carries_in g l t : In l g -> carries (lImage l) t -> carries (IGroup g) t.
Definition dead {A} (m : W A) : Prop := forall st, m st = None.
Lemma dead_l {A B} (m : W A) (k : A -> W B) : dead m -> dead (bindW m k).
Proof. intros D st. unfold bindW. now rewrite D. Qed.
Lemma dead_r {A B} (m : W A) (k : A -> W B) : (forall a, dead (k a)) -> dead (bindW m k).
Proof. intros D st. unfold bindW. destruct (m st) as [[a st']|]; [apply D|reflexivity]. Qed.
Section Dead.
Variables (wr : nat -> Z -> list Z -> Z * option err) (rnd : nat -> Z) (wt : list textDatum -> Z -> Z -> option (list Z)).
Lemma dead_properties ct l ox oy gs g t : t <> [] -> (forall w h, wt t w h = None) -> dead (writeProperties wr wt ct l ox oy gs g t).
Proof.
  intros N D. unfold writeProperties. cbv zeta. do 14 (apply dead_r; intros _). apply dead_r. intros _.
  apply dead_l. destruct t; [contradiction|]. intros st. unfold writeText, obind. now rewrite D.
Qed.
Lemma dead_layers f ct g l : In l g -> (forall ox oy gs pw, dead (writeLayer wr rnd wt f ct l ox oy gs pw)) ->
  forall ox oy gs n pw, dead (writeLayers wr rnd wt f ct g ox oy gs n pw).
Proof.
  intros HI D. induction g as [|a g IH]; [destruct HI|]. intros ox oy gs n pw. rewrite writeLayers_cons. destruct HI as [-> | HI].
  - apply dead_l, D.
  - apply dead_r. intros pw'. now apply IH.
Qed.
Lemma dead_layer i t : carries i t -> t <> [] -> (forall w h, wt t w h = None) ->
  forall f ct name b md inv tr ox oy gs pw, dead (writeLayer wr rnd wt f ct (mkLayer name b md inv tr i) ox oy gs pw).
Proof.
  intros C N D. induction C as [i t|g l t HI _ IH]; intros f ct name b md inv tr ox oy gs pw; rewrite writeLayer_eq; do 2 (apply dead_r; intros ?).
  - apply dead_l. cbn [text_of]. now apply dead_properties.
  - do 3 (apply dead_r; intros _). apply (dead_layers f ct g l HI). destruct l. now apply IH.
Qed.
Theorem encode_dead i t : carries (match i with ILayer l => lImage l | i => i end) t -> t <> [] -> (forall w h, wt t w h = None) ->
  encode wr rnd wt i = None.
Proof.
  intros C N D. unfold encode.
  assert (K : dead (encodeW wr rnd wt i)); [|now rewrite K].
  unfold encodeW. cbv zeta.
  destruct (colour_type _) as [[ct f] pal]. do 10 (apply dead_r; intros _).
  destruct i as [p|g|i m|i t'|[nm b md inv tr im]]; try (inversion C; fail).
  - apply dead_r; intros pw. apply dead_r; intros _. apply dead_l. inversion C; subst. eapply dead_layers; [eassumption|]. destruct l. intros. now apply (dead_layer _ t).
  - apply dead_r; intros pw. apply dead_r; intros _. apply dead_l. now apply (dead_layer _ t).
  - apply dead_r; intros pw. apply dead_r; intros _. apply dead_l. eapply dead_layers; [left; reflexivity|]. intros. now apply (dead_layer _ t).
Qed.
End Dead.
(** A layer with several segments, or with one segment of no colour, makes Encode panic. *)
Theorem C52_segments_refuted L wr rnd i t : carries (match i with ILayer l => lImage l | i => i end) t ->
  (2 <= List.length t)%nat \/ (exists d, t = [d] /\ tdFore d = None) -> encode wr rnd (wtext L) i = None.
Proof.
  intros C T. apply (encode_dead _ _ _ i t C).
  - intros ->. destruct T as [T|(d & T & _)]; [cbn in T; lia|discriminate].
  - intros w h. unfold wtext, obind. destruct T as [T|(d & -> & F)].
    + destruct t as [|a [|b t]]; cbn [List.length] in T; try lia. destruct (writeTextMarkups L (a :: b :: t)); reflexivity.
    + now rewrite F.
Qed.
Print Assumptions C52_segments_refuted.

(** ** whole files *)
(** A layer with one segment at the canvas corner, encoded and decoded: the layer, its
    pixels and its text come back; the string and the font exactly when printable. *)
Theorem C52_file_partial L wr rnd dc l e calls im t : faultless wr -> float_ok (tl_float L) ->
  encode wr rnd (wtext L) (ILayer l) = Some (e, calls) -> encodable (ILayer l) ->
  lImage l = IText im [t] -> wf_text t -> tdData t <> [] ->
  let k := image_ColorModel (IGroup [l]) in let b := lBounds l in
  minX b = 0 -> minY b = 0 -> 0 < dx b < 2147483648 -> 0 < dy b < 2147483648 ->
  dx (image_Bounds im) = dx b -> dy (image_Bounds im) = dy b ->
  utf8 (lName l) -> zlen (lName l) < 16777216 -> 0 <= lTransparency l <= 255 -> mode_kept (base_type k) (lMode l) ->
  e = None /\ exists f, (forall a, S_Linked.stored (map landed calls) a = znth f a) /\
    (zlen f < 16777216 -> forall fuel f32op, 4294967296 <= Z.of_nat fuel -> exists l' p t',
      decodeImage fuel f f32op (ptext L) dc = Ret (inr [l']) /\
      lName l' = lName l /\ lBounds l' = lBounds l /\ lInvisible l' = lInvisible l /\ lTransparency l' = lTransparency l /\
      lImage l' = IText (ILeaf p) [t'] /\ same_pixels rnd k im p /\
      (tdData t' = tdData t <-> plain_text (tl_print L) (tdData t)) /\
      (tdFont t' = tdFont t <-> plain_text (tl_print L) (tdFont t)) /\
      tdSize t' = tdSize t).
Proof.
  intros FL FO E EN LI WT ND k b X0 Y0 DX DY I1 I2 U LN T MK.
  assert (NC : tdFore t <> None).
  { intros N. rewrite (C52_segments_refuted L wr rnd (ILayer l) [t]) in E; [discriminate E| |right; eauto]. rewrite LI. constructor. }
  assert (GB : group_Bounds [l] = b).
  { unfold group_Bounds. cbn [fold_left]. fold b. unfold union. cbn. destruct b as [x0 y0 x1 y1]. unfold dx, dy in *. cbn [minX minY maxX maxY] in *.
    unfold rempty. cbn. reflexivity. }
  assert (RT : exists data t', wtext L [t] (dx b) (dy b) = Some data /\ ptext L data = TOk [t'] /\
    (tdData t' = tdData t <-> plain_text (tl_print L) (tdData t)) /\ (tdFont t' = tdFont t <-> plain_text (tl_print L) (tdFont t)) /\ tdSize t' = tdSize t)
    by (apply C52_text_partial; auto; lia).
  destruct RT as (data & t' & WD & PD & RT).
  destruct (C36_round_trip_partial wr rnd (wtext L) (ptext L) dc (ILayer l) [l] e calls FL ltac:(right; eauto) E EN) as (-> & f & S & K).
  { rewrite GB. lia. } { rewrite GB. lia. } { change (zlen [l]) with 1. lia. }
  { rewrite GB. fold k. cbn [good_layers]. split; [|exact I]. fold b. rewrite X0, Y0. destruct l as [nm b' md inv tr im']. cbn [lImage lBounds lName lTransparency lMode] in *. subst im'.
    unfold b in *. cbn [good_layer image_Bounds]. unfold word_sized. repeat (split; [first [assumption|lia]|]).
    intros data' W'. rewrite WD in W'. injection W' as <-. unfold read_text. rewrite PD. discriminate. }
  split; [reflexivity|]. exists f. split; [exact S|]. intros Hl fuel f32op HF. destruct (K fuel f32op HF) as [K1 _]. destruct (K1 Hl) as (g' & KL & D).
  inversion KL as [|l0 l' g0 g'' KL1 KN]; subst. inversion KN; subst. inversion KL1 as [n b1 b' md v tr i i' SR KI]; subst. cbn [lImage] in LI. subst i.
  inversion KI as [|? ? ? SI| |? ? ? p data' tt Nt SP WD' RD]; subst; [contradiction|].
  unfold b in *. cbn [lBounds] in *. rewrite WD in WD'. injection WD' as <-. unfold read_text in RD. rewrite PD in RD. injection RD as <-.
  eexists. exists p, t'. split; [exact D|]. cbn [lName lBounds lInvisible lTransparency lImage]. do 1 (split; [reflexivity|]).
  split. { destruct SR as [<- | [A _]]; [reflexivity|]. unfold dx, dy in *. lia. }
  tauto.
Qed.
Print Assumptions C52_file_partial.

Definition sample_text : textDatum := mkTD (Some (CNRGBA 10 20 30 255)) (Some (CAlpha 0)) 24 0 0 true false false false (str "Sans ""Bold""") (str "Hello, \ ""World""").
Definition sample_layer : layer := mkLayer (str "t") (mkRect 0 0 1 1) M_Composite.MNormal false 0
  (IText (ILeaf (mkPic (mkRect 0 0 1 1) KNRGBA (fun x y => Some (CNRGBA 1 2 3 255)))) [sample_text]).
Lemma plain_ascii wide s : forallb (fun c => (32 <=? c) && (c <=? 126)) s = true -> plain_text wide s.
Proof.
  intros H. rewrite forallb_forall in H. exists s. split; [apply Forall_forall; intros c Hc; specialize (H c Hc); unfold printable, scalar_value; lia|].
  induction s as [|c s IH]; [reflexivity|]. cbn [flat_map]. rewrite <- IH by (intros x Hx; apply H; now right).
  pose proof (H c ltac:(now left)). unfold utf8_enc. replace (c <? 128) with true by lia. reflexivity.
Qed.
Example C52_ex : float_ok (tl_float plain_libs) /\ wf_text sample_text /\ tdFore sample_text <> None /\ tdData sample_text <> [] /\
  plain_text (tl_print plain_libs) (tdData sample_text) /\ plain_text (tl_print plain_libs) (tdFont sample_text) /\
  encodable (ILayer sample_layer) /\ utf8 (lName sample_layer) /\
  match encode (fun _ _ p => (zlen p, None)) (fun _ => 0) (wtext plain_libs) (ILayer sample_layer) with Some (None, _) => True | _ => False end /\
  (match wtext plain_libs [sample_text] 1 1 with
   | Some data => match ptext plain_libs data with TOk [t] => tdData t = tdData sample_text /\ tdFont t = tdFont sample_text /\ tdSize t = 24 /\ tdFore t = Some (CGray 0) | _ => False end
   | None => False
   end) /\
  (* a newline comes back as a backslash and an n *)
  (match wtext plain_libs [td_data sample_text [65; 10]] 1 1 with
   | Some data => match ptext plain_libs data with TOk [t] => tdData t = [65; 92; 110] | _ => False end
   | None => False
   end) /\
  encode (fun _ _ p => (zlen p, None)) (fun _ => 0) (wtext plain_libs) (IText (ILeaf (mkPic (mkRect 0 0 1 1) KNRGBA (fun x y => None))) [sample_text; sample_text]) = None.
Proof.
  assert (B : forall s, forallb (fun c => (0 <=? c) && (c <? 256)) s = true -> isb s).
  { intros s H. rewrite forallb_forall in H. apply Forall_forall. intros c Hc. specialize (H c Hc). lia. }
  split; [apply plain_float|]. split.
  { split; [apply B; vm_compute; reflexivity|]. split; [apply B; vm_compute; reflexivity|]. split; [cbn; lia|]. vm_compute. intuition discriminate. }
  split; [discriminate|]. split; [discriminate|]. split; [apply plain_ascii; vm_compute; reflexivity|]. split; [apply plain_ascii; vm_compute; reflexivity|].
  split; [cbn; unfold S_Tree.fits; repeat split; vm_compute; discriminate || reflexivity|].
  split. { exists [116]. split; [repeat constructor; unfold scalar_value; lia|reflexivity]. }
  split; [vm_compute; exact I|]. split; [vm_compute; auto|]. split; vm_compute; reflexivity.
Qed.
