(** C32, C35, C36: what Encode writes, Decode reads back. *)
From Coq Require Import Permutation ZifyBool ZifyNat.
Require Import Verif.Base Verif.L_List Verif.M_Color Verif.S_Color Verif.L_Word Verif.P_Color Verif.M_Composite Verif.M_Rect Verif.M_Image Verif.L_Image Verif.M_Reader
  Verif.M_Groups Verif.S_Groups Verif.L_Groups2 Verif.M_Monad Verif.M_Decode Verif.M_Encode Verif.S_Encode Verif.S_String Verif.S_File Verif.S_Layout Verif.S_Tree Verif.S_Linked
  Verif.S_Compressed Verif.L_Emit Verif.L_Layout Verif.L_Grid Verif.L_Run Verif.L_Linked Verif.L_Trip Verif.L_Trip2 Verif.L_Trip3 Verif.L_Trip4 Verif.S_Trip Verif.L_Trip5 Verif.L_Trip6 Verif.P_Layout.

(** the layers of an image: of a group, or a single one *)
Definition layered (i : image) (g : list layer) : Prop := i = IGroup g \/ exists l, i = ILayer l /\ g = [l].

(** ** one file, read by Decode and DecodeCompressed *)
Lemma base_types k : 0 <= base_type k <= 2. Proof. destruct k; cbn; lia. Qed.
Lemma palette_types k : option_map palette_bytes (snd (colour_type k)) <> None -> base_type k = 2.
Proof. destruct k; cbn; auto; now intros []. Qed.
Lemma trip rnd wtext ptext g fls n' dc fuel s f32op :
  let i := IGroup g in let k := image_ColorModel i in let W := dx (image_Bounds i) in let H := dy (image_Bounds i) in
  flat_layers rnd wtext (conv_of i) (base_of i) g 0 0 [] 0 0 fls n' ->
  fold_right (fun l P => writable l /\ P) True g -> 0 <= W < 4294967296 -> 0 <= H < 4294967296 -> zlen g <= 55296 ->
  good_layers wtext (read_text ptext) k dc W H g 0 0 ->
  holds s 0 (file_bytes (head_of i) fls) -> zlen (sFile s) < 4294967296 -> 4294967296 <= Z.of_nat fuel ->
  exists dls f, Forall2 (result ptext (head_params (head_of i) dc)) fls dls /\
    dls = map dl_of (file_order true [] f) /\ well_labelled f /\ numbered 0 f /\
    kept_layers rnd wtext (read_text ptext) k g (tree_layers (mkRect 0 0 W H) 0 0 f) /\
    decodeImageFrom fuel s f32op ptext dc = Ret (inr (bottom_normal (tree_layers (mkRect 0 0 W H) 0 0 f))).
Proof.
  intros i k W H FL Wr RW RH LG GL HB Hl HF. set (d := head_params (head_of i) dc).
  assert (HD : fhW (head_of i) = W /\ fhH (head_of i) = H /\ fhBase (head_of i) = base_type k /\ fhPalette (head_of i) = option_map palette_bytes (snd (colour_type k))).
  { unfold head_of. fold k. rewrite <- ct_base. destruct (colour_type k) as [[ct f] pal]. auto. }
  destruct HD as (E1 & E2 & E3 & E4).
  assert (Hbase : dpBase d = base_type k) by exact E3.
  assert (Hpal : dpPal d = pal_of k).
  { unfold d, head_params, head_palette, pal_of. cbn [dpPal]. rewrite E4. destruct (snd (colour_type k)); reflexivity. }
  assert (CB : conv_of i = conv k) by reflexivity. assert (BB : base_of i = base_type k) by (apply ct_base).
  rewrite CB, BB in FL.
  assert (GH : good_fhead (head_of i)).
  { unfold good_fhead. rewrite E1, E2, E3, E4. split; [exact RW|]. split; [exact RH|]. split; [apply base_types|]. apply palette_types. }
  assert (RD : Forall (readable ptext d) fls).
  { apply (flats_readable rnd wtext ptext k d W H Hbase Hpal g 0 0 [] 0 0%nat fls n' FL Wr GL (Forall_nil _)); lia. }
  rewrite Forall_forall in RD.
  destruct (decode_file fuel s f32op ptext Hl HF (head_of i) fls dc (result ptext d) GH HB) as (dls & F2 & E).
  { intros fl p I HBl. eapply readable_result; eauto; cbn; lia. }
  destruct (flats_tree rnd wtext ptext k d W H Hbase Hpal _ _ _ _ _ _ _ _ FL Wr GL ltac:(lia) ltac:(lia) dls F2) as (f & ED & WL & NF & _ & K).
  exists dls, f. split; [exact F2|]. split; [exact ED|]. split; [exact WL|]. split; [exact NF|]. split; [exact K|].
  rewrite E, E1, E2. apply rebuilt; auto. eapply result_alpha; eassumption.
Qed.
Lemma holds_all f : holds (mkSrc f false) 0 f. Proof. exists [], []. split; [|reflexivity]. cbn. now rewrite app_nil_r. Qed.

(** Encode on a layered image whose layers lie inside the canvas and can be expressed in
    XCF; then Decode.  The file [f] is what the destination holds.  Decode and
    DecodeCompressed ([dc]) rebuild the tree: nesting, order, names, opacity, visibility,
    places, modes and converted pixels, except that the lowest layer's mode becomes Normal
    unless it is Dissolve.  The readers stop at 16 MiB (see C42); without that limit the
    same holds for files up to 4 GiB. *)
Theorem C36_round_trip_partial wr rnd wtext ptext dc i g e calls : faultless wr -> layered i g ->
  encode wr rnd wtext i = Some (e, calls) -> encodable i ->
  let k := image_ColorModel (IGroup g) in let W := dx (group_Bounds g) in let H := dy (group_Bounds g) in
  0 <= W < 4294967296 -> 0 <= H < 4294967296 -> zlen g <= 55296 ->
  good_layers wtext (read_text ptext) k dc W H g 0 0 ->
  e = None /\ exists f, (forall a, stored (map landed calls) a = znth f a) /\
    forall fuel f32op, 4294967296 <= Z.of_nat fuel ->
      (zlen f < 16777216 -> exists g', kept_layers rnd wtext (read_text ptext) k g g' /\
         decodeImage fuel f f32op ptext dc = Ret (inr (bottom_normal g'))) /\
      (zlen f < 4294967296 -> exists g', kept_layers rnd wtext (read_text ptext) k g g' /\
         decodeImageFrom fuel (mkSrc f false) f32op ptext dc = Ret (inr (bottom_normal g'))).
Proof.
  intros FL LY E EN k W H RW RH LG GL.
  assert (EG : encode wr rnd wtext (IGroup g) = Some (e, calls) /\ encodable (IGroup g)).
  { destruct LY as [-> | (l & -> & ->)]; [auto|]. rewrite encode_layer in E. destruct EN as [E1 E2]. split; [exact E|]. cbn. split; [auto|lia]. }
  clear E EN. destruct EG as [E [Wr LN]].
  destruct (encode_group wr rnd wtext FL g e calls E Wr LN) as (-> & fls & n' & F & Z & C). split; [reflexivity|].
  exists (file_bytes (head_of (IGroup g)) fls). destruct (covers_laid _ _ _ C) as (cs & P & L).
  apply (Permutation_map landed) in P. split; [exact (laid_stored _ _ _ P L)|]. intros fuel f32op HF.
  assert (T : zlen (file_bytes (head_of (IGroup g)) fls) < 4294967296 -> exists g', kept_layers rnd wtext (read_text ptext) k g g' /\
         decodeImageFrom fuel (mkSrc (file_bytes (head_of (IGroup g)) fls) false) f32op ptext dc = Ret (inr (bottom_normal g'))).
  { intros Hl. destruct (trip rnd wtext ptext g fls n' dc fuel (mkSrc (file_bytes (head_of (IGroup g)) fls) false) f32op F Wr RW RH LG GL (holds_all _) Hl HF)
      as (dls & f & _ & _ & _ & _ & K & D). eauto. }
  split; [|exact T]. intros Hl. unfold decodeImage, newReader, maxString. replace (_ <? _) with true by lia. apply T. lia.
Qed.
Print Assumptions C36_round_trip_partial.

(** The lowest layer's mode is kept when it is Normal or Dissolve. *)
Theorem C36_bottom_mode g l : lMode l = MNormal \/ lMode l = MDissolve -> bottom_normal (g ++ [l]) = g ++ [l].
Proof.
  intros K. unfold bottom_normal. rewrite rev_unit. destruct l as [n b m v t im]. cbn in K. cbn [rev]. rewrite rev_involutive.
  now destruct K as [-> | ->].
Qed.
Print Assumptions C36_bottom_mode.

(** two layers on a 2x1 canvas, the first masked, the second a group of a layer *)
Definition layers36 : list layer := [
  mkLayer [97] (mkRect 0 0 1 1) MNormal false 0 (IMasked (ILeaf (px1 1)) (mkGray (mkRect 0 0 1 1) (fun _ _ => 7)));
  mkLayer [98] (mkRect 0 0 2 1) MNormal true 10 (IGroup [mkLayer [] (mkRect 1 0 2 1) MScreen false 0 (ILeaf (px1 9))])].
Lemma ascii1 c : 0 <= c <= 127 -> utf8 [c].
Proof. intros C. exists [c]. split; [constructor; [unfold scalar_value; lia|constructor]|]. unfold utf8_enc. cbn. replace (c <? 128) with true by lia. reflexivity. Qed.
Example C36_ex : group_Bounds layers36 = mkRect 0 0 2 1 /\ image_ColorModel (IGroup layers36) = KNRGBA /\ encodable (IGroup layers36) /\
  good_layers (fun _ _ _ => None) (fun _ => None) KNRGBA true 2 1 layers36 0 0.
Proof.
  split; [reflexivity|]. split; [reflexivity|]. split; [cbn; unfold fits; repeat split; vm_compute; discriminate || reflexivity|].
  cbn [good_layers layers36 good_layer lBounds minX minY]. unfold word_sized, dx, dy, px1, image_Bounds, mode_kept, base_type.
  cbn [picBounds grayBounds minX minY maxX maxY Z.eqb]. pose proof (ascii1 97 ltac:(lia)). pose proof (ascii1 98 ltac:(lia)).
  assert (utf8 []) by (exists []; split; [constructor|reflexivity]).
  repeat match goal with |- _ /\ _ => split | |- In _ _ => cbn; tauto end; try assumption; try exact I; try reflexivity; try (vm_compute; discriminate); try (vm_compute; reflexivity); lia.
Qed.

(** Every offset counts from the canvas corner, but the canvas is only given its size: a layer
    away from the origin is cut off.  One pixel at (5,5) comes back as nothing. *)
Definition away : image := IGroup [mkLayer [97] (mkRect 5 5 6 6) MNormal false 0
  (ILeaf (mkPic (mkRect 0 0 1 1) KNRGBA (fun x y => Some (CNRGBA 1 2 3 255))))].
(** [f] is the file Encode makes of the image on a destination that never fails *)
Definition writes_file (i : image) (f : list Z) : Prop :=
  exists calls, encode (fun _ _ p => (zlen p, None)) (fun _ => 0) (fun _ _ _ => None) i = Some (None, calls) /\
    forall a, stored (map landed calls) a = znth f a.
(** the bytes 0 .. n-1 of a destination *)
Definition held (ws : list (Z * list Z)) (n : nat) : list Z := map (fun j => match stored ws (Z.of_nat j) with Some v => v | None => 0 end) (seq 0 n).
Definition file_of (i : image) (n : nat) : list Z :=
  match encode (fun _ _ p => (zlen p, None)) (fun _ => 0) (fun _ _ _ => None) i with Some (_, calls) => held (map landed calls) n | None => [] end.
Lemma held_all ws F n : (forall a, stored ws a = znth F a) -> stored ws (Z.of_nat (S n)) = None -> stored ws (Z.of_nat n) <> None -> held ws (S n) = F.
Proof.
  intros A N S. rewrite A in N, S. assert (L : length F = Datatypes.S n).
  { unfold znth in N, S. replace (Z.of_nat (Datatypes.S n) <? 0) with false in N by lia. replace (Z.of_nat n <? 0) with false in S by lia.
    rewrite Nat2Z.id in N, S. apply nth_error_None in N. apply nth_error_Some in S. lia. }
  unfold held. rewrite <- L. clear N S L n. apply (nth_ext _ _ 0 0); [now rewrite map_length, seq_length|].
  intros j. rewrite map_length, seq_length. intros J. 
  rewrite (nth_indep _ 0 (match stored ws (Z.of_nat 0) with Some v => v | None => 0 end)) by now rewrite map_length, seq_length.
  rewrite (map_nth (fun j => match stored ws (Z.of_nat j) with Some v => v | None => 0 end)). rewrite seq_nth by assumption. rewrite A. unfold znth.
  replace (Z.of_nat (0 + j) <? 0) with false by lia. rewrite Nat2Z.id. cbn [plus]. rewrite (nth_error_nth' F 0 J). reflexivity.
Qed.
Lemma ok_faultless : faultless (fun _ _ p => (zlen p, None)). Proof. intros n pos p. reflexivity. Qed.
Lemma writes_of i n : encodable i ->
  match encode (fun _ _ p => (zlen p, None)) (fun _ => 0) (fun _ _ _ => None) i with
  | Some (_, calls) => stored (map landed calls) (Z.of_nat (S n)) = None /\ stored (map landed calls) (Z.of_nat n) <> None
  | None => False
  end -> writes_file i (file_of i (S n)).
Proof.
  intros EN. unfold writes_file, file_of. destruct (encode _ _ _ i) as [[e calls]|] eqn:E; [|contradiction]. intros [A B].
  destruct (C38_hole_free_linked _ _ _ _ _ _ ok_faultless E EN) as (-> & h & fls & S & _). exists calls. split; [reflexivity|].
  cbv zeta in S. now rewrite (held_all _ _ n S A B).
Qed.
Theorem C36_round_trip_refuted : exists f l', encodable away /\ writes_file away f /\ zlen f = 185 /\
  decode 1000 f (fun z => z) (fun _ => TErr) = Ret (inr [l']) /\ lName l' = [97] /\ lBounds l' = mkRect 0 0 0 0.
Proof.
  exists (file_of away 185). eexists. assert (EN : encodable away) by (cbn; unfold fits; repeat split; vm_compute; discriminate || reflexivity).
  split; [exact EN|]. split; [apply writes_of; [exact EN|vm_compute; split; [reflexivity|discriminate]]|].
  split; [vm_compute; reflexivity|]. split; [vm_compute; reflexivity|]. split; reflexivity.
Qed.
Print Assumptions C36_round_trip_refuted.

(** ** C32 *)
Lemma result_same ptext d1 d2 fl dl1 dl2 : dpBase d1 = dpBase d2 -> dpPal d1 = dpPal d2 -> dpDecompress d2 = false -> 0 <= flType fl <= 5 ->
  result ptext d1 fl dl1 -> result ptext d2 fl dl2 -> same_dl dl1 dl2.
Proof.
  intros EB EP ED T (im1 & -> & R1) (im2 & -> & R2). unfold same_dl, head_layer.
  cbn [dlName dlBounds dlMode dlInvisible dlTransparency dlImage dlAlpha dlGroup dlPath].
  do 2 (split; [reflexivity|]). split; [unfold read_mode; now rewrite EB|]. do 5 (split; [reflexivity|]).
  destruct (flGroup fl); [subst im1 im2; exact I|].
  destruct R1 as (px1 & pm1 & pc1 & i1 & j1 & G1 & M1 & S1 & T1 & K1 & ->). destruct R2 as (px2 & pm2 & pc2 & i2 & j2 & G2 & M2 & S2 & T2 & K2 & ->).
  cbn [opt_same]. unfold mask_over in *. destruct (flMask fl) as [g|].
  { destruct (M2 g eq_refl) as (D & _). congruence. }
  subst j1 j2. assert (SP : same_pic pc1 pc2).
  { destruct S1 as (B1 & Mo1 & A1), S2 as (B2 & Mo2 & A2). split; [congruence|]. split; [rewrite Mo1, Mo2, EP; reflexivity|].
    rewrite B1. cbn [minX minY maxX maxY]. intros x y X Y. rewrite A1, A2, EP by assumption. apply type_color_ext; [exact T|]. intros n N.
    destruct G1 as (_ & _ & C1 & CH & _), G2 as (_ & _ & C2 & _). apply (codes_fun (flImage fl)); auto. now rewrite CH. }
  unfold text_over in *. destruct (flText fl) as [data|]; [|subst; now constructor].
  destruct T1 as (t1 & P1 & ->), T2 as (t2 & P2 & ->). rewrite P1 in P2. injection P2 as <-. now constructor.
Qed.
Lemma good_mono wtext rt k W H l0 : forall x y, good_layer wtext rt k false W H l0 x y -> good_layer wtext rt k true W H l0 x y.
Proof.
  apply (layer_image_ind (fun i => match i with IGroup g => Forall (fun l => forall x y, good_layer wtext rt k false W H l x y -> good_layer wtext rt k true W H l x y) g | _ => True end)
    (fun l => forall x y, good_layer wtext rt k false W H l x y -> good_layer wtext rt k true W H l x y)); auto.
  intros n b m v t im IH x y (U & LN & T & M & X & Y & DX & DY & IN & G). cbn [good_layer]. do 9 (split; [assumption|]).
  destruct im as [p|g|i mk|i ts|l]; auto.
  - destruct G as [LG G]. split; [exact LG|]. clear - IH G. induction IH as [|l g Hl Hg IH]; [exact I|]. destruct G as [G1 G2]. split; [now apply Hl|now apply IH].
  - destruct G as (_ & _ & F & _). discriminate.
Qed.
Lemma goods_mono wtext rt k W H g x y : good_layers wtext rt k false W H g x y -> good_layers wtext rt k true W H g x y.
Proof. induction g as [|l g IH]; [auto|]. intros [G1 G2]. split; [now apply good_mono|auto]. Qed.
Lemma Forall2_join {A B C} (P : A -> B -> Prop) (Q : A -> C -> Prop) (R : B -> C -> Prop) (S : A -> Prop) l m n :
  (forall a b c, S a -> P a b -> Q a c -> R b c) -> Forall S l -> Forall2 P l m -> Forall2 Q l n -> Forall2 R m n.
Proof.
  intros K F. revert m n. induction F as [|a l Ha Fl IH]; intros m n FP FQ; inversion FP; subst; inversion FQ; subst; constructor; eauto.
Qed.

(** A layered image without masks, encoded: Decode and DecodeCompressed of the file both
    succeed and show the same layers with the same pixels. *)
Theorem C32_same_pixels_partial wr rnd wtext ptext i g e calls : faultless wr -> layered i g ->
  encode wr rnd wtext i = Some (e, calls) -> encodable i ->
  let k := image_ColorModel (IGroup g) in let W := dx (group_Bounds g) in let H := dy (group_Bounds g) in
  0 <= W < 4294967296 -> 0 <= H < 4294967296 -> zlen g <= 55296 ->
  good_layers wtext (read_text ptext) k false W H g 0 0 ->
  exists f, (forall a, stored (map landed calls) a = znth f a) /\
    (zlen f < 16777216 -> forall fuel f32op, 4294967296 <= Z.of_nat fuel -> exists g1 g2,
       decode fuel f f32op ptext = Ret (inr g1) /\ decodeCompressed fuel f f32op ptext = Ret (inr g2) /\ same_layers g1 g2).
Proof.
  intros FL LY E EN k W H RW RH LG GL.
  assert (EG : encode wr rnd wtext (IGroup g) = Some (e, calls) /\ encodable (IGroup g)).
  { destruct LY as [-> | (l & -> & ->)]; [auto|]. rewrite encode_layer in E. destruct EN as [E1 E2]. split; [exact E|]. cbn. split; [auto|lia]. }
  clear E EN. destruct EG as [E [Wr LN]].
  destruct (encode_group wr rnd wtext FL g e calls E Wr LN) as (-> & fls & n' & F & Z & C).
  exists (file_bytes (head_of (IGroup g)) fls). destruct (covers_laid _ _ _ C) as (cs & P & L).
  apply (Permutation_map landed) in P. split; [exact (laid_stored _ _ _ P L)|]. intros Hl fuel f32op HF.
  set (ff := file_bytes (head_of (IGroup g)) fls) in *.
  assert (Hl4 : zlen (sFile (mkSrc ff false)) < 4294967296) by (cbn [sFile]; lia).
  destruct (trip rnd wtext ptext g fls n' true fuel (mkSrc ff false) f32op F Wr RW RH LG (goods_mono _ _ _ _ _ _ _ _ GL) (holds_all _) Hl4 HF)
    as (dls1 & f1 & R1 & E1 & WL1 & N1 & K1 & D1).
  destruct (trip rnd wtext ptext g fls n' false fuel (mkSrc ff false) f32op F Wr RW RH LG GL (holds_all _) Hl4 HF)
    as (dls2 & f2 & R2 & E2 & WL2 & N2 & K2 & D2).
  assert (TY : Forall (fun fl => 0 <= flType fl <= 5) fls).
  { assert (TT : Forall (readable ptext (head_params (head_of (IGroup g)) false)) fls).
    { refine (flats_readable rnd wtext ptext k (head_params (head_of (IGroup g)) false) W H _ _ g 0 0 [] 0 0%nat fls n' _ Wr GL (Forall_nil _) _ _); try lia.
      - unfold head_of, k. cbn [dpBase head_params]. rewrite <- ct_base. now destruct (colour_type _) as [[? ?] ?].
      - unfold head_of, k, head_params, head_palette, pal_of. cbn [dpPal]. destruct (colour_type _) as [[? ?] pal]. now destruct pal.
      - unfold conv_of, base_of in F. rewrite ct_base in F. exact F. }
    eapply Forall_impl; [|exact TT]. intros fl ((_ & _ & T & B & _) & _). lia. }
  assert (SD : Forall2 same_dl dls1 dls2).
  { eapply Forall2_join; [|exact TY|exact R1|exact R2]. cbv beta. intros fl a b T. apply result_same; auto. }
  rewrite E1 in SD. destruct (forest_transfer _ _ _ _ SD) as (f3 & E3 & SF).
  exists (bottom_normal (tree_layers (mkRect 0 0 W H) 0 0 f1)), (bottom_normal (tree_layers (mkRect 0 0 W H) 0 0 f3)).
  assert (NR : newReader ff = mkSrc ff false) by (unfold newReader, maxString; now replace (zlen ff <? 16777216) with true by lia).
  unfold decode, decodeCompressed, decodeImage. rewrite NR. split; [exact D1|]. split; [|now apply same_bottom, same_tree].
  rewrite D2. f_equal. f_equal.
  pose proof (rebuilt W H f2 dls2 E2 WL2 N2 (result_alpha _ _ _ _ R2)) as B2.
  pose proof (rebuilt W H f3 dls2 E3 (same_well _ _ SF WL1) (same_numbered _ _ SF _ N1) (result_alpha _ _ _ _ R2)) as B3.
  rewrite B3 in B2. now injection B2.
Qed.
Print Assumptions C32_same_pixels_partial.
Definition layers32 : list layer :=
  [mkLayer [97] (mkRect 0 0 2 1) MMultiply false 5 (ILeaf (mkPic (mkRect 0 0 2 1) KNRGBA (fun x y => Some (CNRGBA x 2 3 255))));
   mkLayer [] (mkRect 1 0 2 1) MNormal true 0 (ILeaf (mkPic (mkRect 3 3 4 4) KNRGBA (fun x y => Some (CNRGBA 1 2 3 9))))].
Example C32_ex : layered (IGroup layers32) layers32 /\ encodable (IGroup layers32) /\ image_ColorModel (IGroup layers32) = KNRGBA /\
  group_Bounds layers32 = mkRect 0 0 2 1 /\ writes_file (IGroup layers32) (file_of (IGroup layers32) 319) /\
  good_layers (fun _ _ _ => None) (fun _ => None) KNRGBA false 2 1 layers32 0 0.
Proof.
  assert (EN : encodable (IGroup layers32)) by (cbn; unfold fits; repeat split; vm_compute; discriminate || reflexivity).
  split; [now left|]. split; [exact EN|]. split; [reflexivity|]. split; [reflexivity|].
  split; [apply writes_of; [exact EN|vm_compute; split; [reflexivity|discriminate]]|].
  cbn [good_layers layers32 good_layer lBounds minX minY]. unfold word_sized, dx, dy, image_Bounds, mode_kept, base_type.
  cbn [picBounds grayBounds minX minY maxX maxY Z.eqb]. pose proof (ascii1 97 ltac:(lia)).
  assert (utf8 []) by (exists []; split; [constructor|reflexivity]).
  repeat match goal with |- _ /\ _ => split | |- In _ _ => cbn; tauto end; try assumption; try exact I; try reflexivity; try (vm_compute; discriminate); try (vm_compute; reflexivity); lia.
Qed.

(** With a mask DecodeCompressed panics (the compressed mask is not an *image.Gray) on a file Decode reads. *)
Definition masked1 : image := IGroup [mkLayer [97] (mkRect 0 0 1 1) MNormal false 0
  (IMasked (ILeaf (mkPic (mkRect 0 0 1 1) KNRGBA (fun x y => Some (CNRGBA 1 2 3 255)))) (mkGray (mkRect 0 0 1 1) (fun _ _ => 7)))].
Theorem C32_same_pixels_refuted : exists f l, encodable masked1 /\ writes_file masked1 f /\ zlen f = 248 /\
  decode 1000 f (fun z => z) (fun _ => TErr) = Ret (inr [l]) /\
  decodeCompressed 1000 f (fun z => z) (fun _ => TErr) = Panic PAssert.
Proof.
  exists (file_of masked1 248). eexists. assert (EN : encodable masked1) by (cbn; unfold fits; repeat split; vm_compute; discriminate || reflexivity).
  split; [exact EN|]. split; [apply writes_of; [exact EN|vm_compute; split; [reflexivity|discriminate]]|].
  split; [vm_compute; reflexivity|]. split; vm_compute; reflexivity.
Qed.
Print Assumptions C32_same_pixels_refuted.

(** ** C53 *)
(** Masked layers: at the canvas corner (or empty) they are kept, by C36_round_trip_partial, whose
    relation [kept_image] asks for the mask value of every pixel.  Anywhere else Decode reports an
    error on the file. *)
Definition masked2 : image := IGroup [mkLayer [97] (mkRect 0 0 2 1) MNormal false 0 (ILeaf (mkPic (mkRect 0 0 2 1) KNRGBA (fun x y => Some (CNRGBA 9 9 9 255))));
  mkLayer [98] (mkRect 1 0 2 1) MNormal false 0
  (IMasked (ILeaf (mkPic (mkRect 0 0 1 1) KNRGBA (fun x y => Some (CNRGBA 1 2 3 255)))) (mkGray (mkRect 0 0 1 1) (fun _ _ => 7)))].
Theorem C53_masked_round_trip_refuted : exists f, encodable masked2 /\ writes_file masked2 f /\ zlen f = 382 /\
  decode 1000 f (fun z => z) (fun _ => TErr) = Ret (inl EInconsistantData).
Proof.
  exists (file_of masked2 382). assert (EN : encodable masked2) by (cbn; unfold fits; repeat split; vm_compute; discriminate || reflexivity).
  split; [exact EN|]. split; [apply writes_of; [exact EN|vm_compute; split; [reflexivity|discriminate]]|].
  split; vm_compute; reflexivity.
Qed.
Print Assumptions C53_masked_round_trip_refuted.
(** A masked layer at the canvas corner is read back: every pixel converted, every mask value
    the same.  Missing: layers elsewhere, and DecodeCompressed (both refuted). *)
Theorem C53_masked_round_trip_partial wr rnd wtext ptext l e calls im m : faultless wr ->
  encode wr rnd wtext (ILayer l) = Some (e, calls) -> encodable (ILayer l) ->
  lImage l = IMasked im m ->
  let k := image_ColorModel (IGroup [l]) in let b := lBounds l in
  minX b = 0 -> minY b = 0 -> 0 < dx b < 2147483648 -> 0 < dy b < 2147483648 ->
  dx (image_Bounds im) = dx b -> dy (image_Bounds im) = dy b ->
  dx (grayBounds m) = dx b -> dy (grayBounds m) = dy b ->
  utf8 (lName l) -> zlen (lName l) < 16777216 -> 0 <= lTransparency l <= 255 -> mode_kept (base_type k) (lMode l) ->
  e = None /\ exists f, (forall a, stored (map landed calls) a = znth f a) /\
    (zlen f < 16777216 -> forall fuel f32op, 4294967296 <= Z.of_nat fuel -> exists l' p m',
      decode fuel f f32op ptext = Ret (inr [l']) /\
      lName l' = lName l /\ lBounds l' = lBounds l /\ lInvisible l' = lInvisible l /\ lTransparency l' = lTransparency l /\
      lImage l' = IMasked (ILeaf p) m' /\ same_pixels rnd k im p /\ same_mask m m').
Proof.
  intros FL E EN LI k b X0 Y0 DX DY I1 I2 M1 M2 U LN T MK.
  assert (GB : group_Bounds [l] = b).
  { unfold group_Bounds. cbn [fold_left]. fold b. unfold union. cbn. destruct b as [x0 y0 x1 y1]. unfold dx, dy in *. cbn [minX minY maxX maxY] in *.
    unfold rempty. cbn. reflexivity. }
  assert (B0 : b = mkRect 0 0 (dx b) (dy b)) by (clear - X0 Y0; destruct b as [x0 y0 x1 y1]; unfold dx, dy; cbn in *; subst; f_equal; lia).
  destruct (C36_round_trip_partial wr rnd wtext ptext true (ILayer l) [l] e calls FL ltac:(right; eauto) E EN) as (-> & f & S & K).
  { rewrite GB. lia. } { rewrite GB. lia. } { change (zlen [l]) with 1. lia. }
  { rewrite GB. fold k. cbn [good_layers]. split; [|exact I]. fold b. rewrite X0, Y0. destruct l as [nm b' md inv tr im']. cbn [lImage lBounds lName lTransparency lMode] in *. subst im'.
    unfold b in *. cbn [good_layer image_Bounds]. unfold word_sized. repeat (split; [first [assumption|lia]|]). lia. }
  split; [reflexivity|]. exists f. split; [exact S|]. intros Hl fuel f32op HF. destruct (K fuel f32op HF) as [K1 _]. destruct (K1 Hl) as (g' & KL & D).
  inversion KL as [|l0 l' g0 g'' KL1 KN]; subst. inversion KN; subst. inversion KL1 as [n b1 b' md v t i i' SR KI]; subst. cbn [lImage] in LI. subst i.
  inversion KI as [|? ? ? SI| ? ? ? p m' SP SM|]; subst; [contradiction|].
  eexists. exists p, m'. split; [exact D|]. cbn [lName lBounds lInvisible lTransparency lImage]. do 1 (split; [reflexivity|]).
  split. { destruct SR as [<- | [A _]]; [reflexivity|]. cbn [lBounds] in *. unfold b, dx, dy in *. cbn [lBounds] in *. lia. }
  auto.
Qed.
Print Assumptions C53_masked_round_trip_partial.
Definition layer53 : layer := mkLayer [97] (mkRect 0 0 2 1) MNormal false 40
  (IMasked (ILeaf (mkPic (mkRect 4 4 6 5) KNRGBA (fun x y => Some (CNRGBA x 2 3 255)))) (mkGray (mkRect 0 0 2 1) (fun x _ => 7 + x))).
Example C53_ex : encodable (ILayer layer53) /\ (exists e calls, encode (fun _ _ p => (zlen p, None)) (fun _ => 0) (fun _ _ _ => None) (ILayer layer53) = Some (e, calls)) /\
  exists im m, lImage layer53 = IMasked im m /\ image_ColorModel (IGroup [layer53]) = KNRGBA /\
    dx (image_Bounds im) = 2 /\ dy (image_Bounds im) = 1 /\ dx (grayBounds m) = 2 /\ dy (grayBounds m) = 1 /\
    utf8 (lName layer53) /\ mode_kept (base_type KNRGBA) (lMode layer53).
Proof.
  split; [cbn; unfold fits; repeat split; vm_compute; discriminate || reflexivity|]. split; [eexists; eexists; vm_compute; reflexivity|].
  eexists; eexists. split; [reflexivity|]. do 5 (split; [reflexivity|]). split; [apply ascii1; lia|]. unfold mode_kept, base_type. cbn. tauto.
Qed.

(** ** C37 *)
(** A plain image is written as a layer of empty bounds: no Decode of it succeeds. *)
Definition plain1 : image := ILeaf (mkPic (mkRect 0 0 1 1) KNRGBA (fun x y => Some (CNRGBA 1 2 3 255))).
Theorem C37_plain_rejected : exists f, encodable plain1 /\ writes_file plain1 f /\ zlen f = 184 /\
  decode 1000 f (fun z => z) (fun _ => TErr) = Ret (inl EInconsistantData).
Proof.
  exists (file_of plain1 184). assert (EN : encodable plain1) by (cbn; unfold fits; repeat split; vm_compute; discriminate || reflexivity).
  split; [exact EN|]. split; [apply writes_of; [exact EN|vm_compute; split; [reflexivity|discriminate]]|].
  split; vm_compute; reflexivity.
Qed.
Print Assumptions C37_plain_rejected.
(** In fact none that has a pixel: whatever the image, the file is rejected. *)
Theorem C37_plain_survives_refuted wr rnd wtext ptext dc i e calls : faultless wr ->
  encode wr rnd wtext i = Some (e, calls) -> encodable i ->
  match i with IGroup _ | ILayer _ => False | _ => True end ->
  let b := image_Bounds i in
  0 <= dx b < 4294967296 -> 0 <= dy b < 4294967296 -> 0 < dx b \/ 0 < dy b ->
  e = None /\ exists f, (forall a, stored (map landed calls) a = znth f a) /\
    (zlen f < 16777216 -> forall fuel f32op, 4294967296 <= Z.of_nat fuel ->
      decodeImage fuel f f32op ptext dc = Ret (inl EInconsistantData)).
Proof.
  intros FL E EN PL b RW RH NE.
  assert (W : writable (wrapped i)).
  { unfold wrapped. cbn [writable]. destruct i; try contradiction; destruct EN as [A B]; auto. }
  assert (PL' : plain i) by (destruct i; auto).
  assert (UB : image_Bounds (unmasked i) = b) by (destruct i; reflexivity).
  destruct (encode_plain wr rnd wtext FL i e calls E PL' W) as (-> & fls & n' & F & Z & C). split; [reflexivity|].
  exists (file_bytes (head_of i) fls). destruct (covers_laid _ _ _ C) as (cs & P & L).
  apply (Permutation_map landed) in P. split; [exact (laid_stored _ _ _ P L)|]. intros Hl fuel f32op HF.
  set (k := image_ColorModel i).
  assert (HD : fhW (head_of i) = dx b /\ fhH (head_of i) = dy b /\ fhBase (head_of i) = base_type k /\ fhPalette (head_of i) = option_map palette_bytes (snd (colour_type k))).
  { unfold head_of. fold k. rewrite <- ct_base. destruct (colour_type k) as [[ct f] pal]. auto. }
  destruct HD as (E1 & E2 & E3 & E4).
  assert (GH : good_fhead (head_of i)).
  { unfold good_fhead. rewrite E1, E2, E3, E4. split; [exact RW|]. split; [exact RH|]. split; [apply base_types|]. apply palette_types. }
  inversion F as [l ox oy gs n txt img n1 msk n2 NG TD IG MG|]; [subst|subst; contradiction].
  unfold decodeImage, newReader, maxString. replace (_ <? _) with true by lia.
  set (fl := fl_of _ _ _ _ _ _ _ _) in *. set (d := head_params (head_of i) dc).
  set (ff := file_bytes (head_of i) [fl]) in *.
  assert (RJ : forall p, holds (mkSrc ff false) p (layer_bytes fl p) -> exists r q, readLayer fuel (mkSrc ff false) f32op ptext d (mkR p None) = Ret (r, mkR q (Some EInconsistantData))).
  { intros p. apply readLayer_rejects; auto; [cbn [sFile]; lia|cbn; lia|..].
    - unfold good_head, d. cbn [fl_of fl flW flH flType flName flOpacity flVisible flX flY flPath flMode wrapped lBounds lName lTransparency lInvisible lMode head_params dpBase].
      pose proof (base_types k). pose proof (modeID_range MNormal). change (dx ZR) with 0. change (dy ZR) with 0. rewrite E3. unfold base_of. rewrite ct_base. fold k.
      repeat split; try lia; try (constructor; fail); auto. exists []. split; [constructor|reflexivity].
    - destruct IG as (pxs & _ & ->). cbn [fl fl_of flImage flW flH wrapped lBounds grid_of gdW gdH].
      cbn [source_of soBounds]. unfold wrapped. cbn [lImage]. rewrite UB. change (dx ZR) with 0. change (dy ZR) with 0.
      rewrite !u32_small by lia. lia. }
  destruct (file_blocks fuel (mkSrc ff false) f32op ltac:(cbn [sFile]; lia) (head_of i) [fl] (holds_all _)) as [HB OF].
  cbn [map blocks offsets] in HB, OF. rewrite app_nil_r in HB. inversion OF as [|q0 ? Q0 _]; subst. destruct (RJ _ HB) as (r & q & ER).
  rewrite (decode_file_any fuel (mkSrc ff false) f32op ptext ltac:(cbn [sFile]; lia) HF (head_of i) [fl] dc [(r, Some EInconsistantData)] GH (holds_all _)); [reflexivity|].
  cbv zeta. cbn [map offsets mapO]. intros _ _. unfold readLayerAt. fold d.
  assert (G : runs (gotoM (zlen (file_head (head_of i)) + 4 * zlen [layer_bytes fl] + 8)) 0 tt (zlen (file_head (head_of i)) + 4 * zlen [layer_bytes fl] + 8)) by (apply runs_goto; lia).
  unfold bindM. rewrite G, ER. reflexivity.
Qed.
Print Assumptions C37_plain_survives_refuted.
Example C37_ex : encodable plain1 /\ (exists e calls, encode (fun _ _ p => (zlen p, None)) (fun _ => 0) (fun _ _ _ => None) plain1 = Some (e, calls)) /\
  image_Bounds plain1 = mkRect 0 0 1 1.
Proof.
  split; [cbn; unfold fits; repeat split; vm_compute; discriminate || reflexivity|]. split; [eexists; eexists; vm_compute; reflexivity|reflexivity].
Qed.


(** ** C35 *)
(** The encoder's pixel writer and the decoder's pixel reader.  For any image - of zero size
    or not, a multiple of 64 or not - and any colour type: what [writeImage] puts at position
    [p] is a block of bytes; from any source that holds this block at [p], [readImage] with the
    image's size gives a picture whose pixel (x,y) is the converted pixel (min.x+x, min.y+y),
    whether decompressing or not. *)
Theorem C35_tiles_round_trip wr rnd i k log p n u st' : faultless wr -> fits (image_Bounds i) ->
  let W := dx (image_Bounds i) in let H := dy (image_Bounds i) in
  W <= 4294967232 -> H <= 4294967232 ->
  writeImage wr (source_of rnd i) (snd (fst (colour_type k))) (mkW log p None n) = Some (u, st') ->
  wErr st' = None /\ exists calls data, wLog st' = calls ++ log /\ wPos st' = p + zlen data /\
    (forall a, stored (map landed (rev calls)) a = znth data (a - p)) /\
    forall fuel s d, 4294967296 <= Z.of_nat fuel -> zlen (sFile s) < 4294967296 -> at_ (sFile s) p data ->
      dpComp d = 1 -> dpMode d < 2 -> dpBase d = base_type k ->
      dpPal d = option_map (map (fun c => let '(r, g, b) := rgbModel c in CRGB r g b)) (snd (colour_type k)) ->
      exists r q pc, readImage fuel s d W H (2 * base_type k + 1) (mkR p None) = Ret (r, mkR q None) /\
        pic_of (dpPal d) r = Some pc /\ same_pixels rnd k i pc.
Proof.
  intros FL F W H LW LH E. destruct (gives_writeImage wr rnd (fun _ _ _ => None) FL (source_of rnd i) (conv k) p n F log u st' E) as (calls & p' & n' & -> & pxs & R & -> & C).
  cbn [wErr wLog wPos]. split; [reflexivity|]. set (g := grid_of (source_of rnd i) (conv k) pxs) in *.
  exists calls, (grid_bytes g p). split; [reflexivity|]. split; [reflexivity|]. split.
  { destruct (covers_laid _ _ _ C) as (cs & P & L). apply (Permutation_map landed) in P. apply laid_stored_at with (ws' := map landed cs); [|exact L].
    rewrite map_rev. rewrite <- Permutation_rev. exact P. }
  intros fuel s d HF Hl HB Hc Hm Hb Hp.
  assert (Hpal : dpPal d = pal_of k).
  { rewrite Hp. unfold pal_of. destruct (snd (colour_type k)) as [pl|]; [|reflexivity]. cbn [option_map]. f_equal. unfold palette_bytes. rewrite map_map.
    apply map_ext. intros c. unfold rgbModel, entry. unfold u8. now rewrite !Zmod_mod. }
  destruct (grid_codes rnd (fun _ _ _ => None) 0 (source_of rnd i) (conv k) n pxs n' F LW LH R) as [CO PX]. fold g in CO. cbn [source_of soBounds soAt] in PX.
  fold W in CO, PX. fold H in CO, PX.
  assert (GD : gdW g = W /\ gdH g = H /\ gdChannels g = channels (conv k)) by auto. destruct GD as (GW & GH & GC).
  pose proof (base_types k) as BT. assert (M3 : 2 * base_type k + 1 = 1 \/ 2 * base_type k + 1 = 3 \/ 2 * base_type k + 1 = 5) by lia.
  destruct (runs_readImage fuel s d Hl HF Hc Hm g (tiles_px W H pxs) p (2 * base_type k + 1) CO ltac:(lia)) as (r & q & RR & D).
  { rewrite GC. destruct k; reflexivity. } { exact HB. }
  rewrite GW, GH in RR. 
  destruct (pic_shows fuel (fun z => z) d g (tiles_px W H pxs) (2 * base_type k + 1) r CO M3) as (pc & EP & SB & SM & SA).
  { intros E5. rewrite Hpal. destruct k; try discriminate E5; discriminate. } { rewrite GC. now apply (conv_channels k d). } { exact D. }
  exists r, q, pc. split; [exact RR|]. split; [exact EP|]. split; [now rewrite SB, GW, GH|]. fold W H.
  split; [rewrite SM, Hpal, <- model_type; f_equal; lia|].
  intros x y X Y. destruct (PX x y X Y) as (c & m & m' & A & Q). exists c, m, m'. split; [exact A|]. rewrite GW, GH in SA. rewrite SA by assumption.
  rewrite Hpal, <- conv_color. apply type_color_ext; [lia|]. intros j Hj. apply Q.
Qed.
Print Assumptions C35_tiles_round_trip.

(** 65 x 1 pixels, the last one in a second tile *)
Example C35_ex : exists u st',
  writeImage (fun _ _ p => (zlen p, None)) (source_of (fun _ => 0) (ILeaf (mkPic (mkRect 3 0 68 1) KNRGBA (fun x y => Some (CNRGBA x 2 3 255))))) (snd (fst (colour_type KNRGBA)))
    (mkW [] 100 None 0) = Some (u, st') /\ wPos st' = 219 /\ fits (mkRect 3 0 68 1) /\
  map (stored (map landed (rev (wLog st')))) (map Z.of_nat (seq 211 8)) = map Some [0; 67; 0; 2; 0; 3; 0; 255].
Proof. eexists. eexists. split; [vm_compute; reflexivity|]. split; [vm_compute; reflexivity|]. split; [repeat split; vm_compute; discriminate || reflexivity|]. vm_compute. reflexivity. Qed.

(** ** C54 *)
(** an opaque colour of 8 bits *)
Definition opaque8 (e : color) (r g b : Z) : Prop := (e = CRGB r g b \/ e = CNRGBA r g b 255) /\ is_u8 r /\ is_u8 g /\ is_u8 b.
Lemma opaque8_RGBA e r g b : opaque8 e r g b -> color_RGBA e = mkRGBA (257 * r) (257 * g) (257 * b) 65535.
Proof.
  intros ([-> | ->] & R & G & B); unfold is_u8 in *; cbn [color_RGBA]; rewrite !rep8_eq by lia; [reflexivity|].
  assert (K : forall z, 0 <= z <= 255 -> u32 (257 * z * 255) / 255 = 257 * z).
  { intros z Hz. rewrite u32_id by lia. apply Z.div_mul. lia. }
  rewrite !K by lia. reflexivity.
Qed.
Lemma opaque8_wf e r g b : opaque8 e r g b -> wf_color e.
Proof. intros ([-> | ->] & R & G & B); cbn; unfold is_u8 in *; repeat split; lia. Qed.
Lemma member_converted p e r g b : Forall (fun e => exists r g b, opaque8 e r g b) p -> zlen p <= 256 -> In e p -> opaque8 e r g b ->
  forall k, k = KPalette p \/ k = KAlphaPalette p -> converted k e = Some (CNRGBA r g b 255).
Proof.
  intros FP LP IE O k Hk. assert (E : converted k e = converted (KPalette p) e) by (destruct Hk as [-> | ->]; reflexivity). rewrite E. clear E Hk k.
  pose proof (opaque8_RGBA _ _ _ _ O) as EQ. pose proof O as (_ & R & G & B). unfold is_u8 in R, G, B. unfold converted, file_palette. rewrite EQ. cbn [pR pG pB pA].
  assert (M : forall z, 0 <= z <= 255 -> (257 * z) mod 256 = z).
  { intros z Hz. replace (257 * z) with (z + z * 256) by lia. rewrite Z.mod_add by lia. apply Z.mod_small. lia. }
  rewrite !M by lia. change (65535 mod 256) with 255.
  assert (OC : opaque8 (CRGB r g b) r g b) by (split; [now left|]; unfold is_u8; lia).
  destruct (C18_palette_member p (CRGB r g b)) as (e' & N & D).
  { eapply Forall_impl; [|exact FP]. intros a (r' & g' & b' & O'). exact (opaque8_wf _ _ _ _ O'). }
  { exact (opaque8_wf _ _ _ _ OC). }
  { exists e. split; [exact IE|]. now rewrite EQ, (opaque8_RGBA _ _ _ _ OC). }
  assert (I' : In e' p). { unfold znth in N. destruct (_ <? 0); [discriminate|]. exact (nth_error_In _ _ N). }
  rewrite Forall_forall in FP. destruct (FP _ I') as (r' & g' & b' & O'). rewrite (opaque8_RGBA _ _ _ _ OC), (opaque8_RGBA _ _ _ _ O') in D. cbn in D. cbv zeta in D.
  assert (IX : 0 <= alphaPalette_Index p (CRGB r g b) < 256).
  { unfold znth in N. destruct (Z.ltb_spec (alphaPalette_Index p (CRGB r g b)) 0); [discriminate|]. split; [lia|].
    assert (Z.to_nat (alphaPalette_Index p (CRGB r g b)) < length p)%nat by (apply nth_error_Some; congruence). unfold zlen in LP. lia. }
  rewrite Z.mod_small by lia. rewrite znth_map, N. cbn [option_map].
  assert (ER : rgbModel e' = (r', g', b')).
  { unfold rgbModel. rewrite (opaque8_RGBA _ _ _ _ O'). cbn [pR pG pB]. destruct O' as (_ & R' & G' & B'). unfold is_u8 in *.
    assert (S : forall z, 0 <= z <= 255 -> u8 (Z.shiftr (257 * z) 8) = z).
    { intros z Hz. rewrite Z.shiftr_div_pow2 by lia. change (2 ^ 8) with 256. replace (257 * z) with (z + z * 256) by lia. rewrite Z.div_add by lia.
      rewrite Z.div_small by lia. unfold u8. apply Z.mod_small. lia. }
    now rewrite !S by lia. }
  rewrite ER. repeat f_equal; lia.
Qed.
(** What C35 and C36 call the converted pixel is the pixel itself for 8 bit colours with alpha,
    for opaque greys, and for opaque 8 bit members of the palette; alpha of a grey is always
    kept.  Missing: translucent greys and palette colours (refuted below). *)
Theorem C54_colour_space_partial :
  (forall r g b a, is_u8 r -> is_u8 g -> is_u8 b -> is_u8 a -> forall k, base_type k = 0 -> converted k (CNRGBA r g b a) = Some (CNRGBA r g b a)) /\
  (forall y, is_u8 y -> forall k, base_type k = 1 ->
     converted k (CGrayAlpha y 255) = Some (CGrayAlpha y 255) /\ converted k (CGray y) = Some (CGrayAlpha y 255) /\
     forall a, is_u8 a -> exists y', converted k (CGrayAlpha y a) = Some (CGrayAlpha y' a)) /\
  (forall p e r g b, Forall (fun e => exists r g b, opaque8 e r g b) p -> zlen p <= 256 -> In e p -> opaque8 e r g b ->
     forall k, k = KPalette p \/ k = KAlphaPalette p -> converted k e = Some (CNRGBA r g b 255)).
Proof.
  split; [|split; [|exact member_converted]].
  - intros r g b a _ _ _ _ k. destruct k; try discriminate; reflexivity.
  - intros y Y k Hk. destruct (C17_grayalpha_model_partial y Y) as [A B].
    assert (C : forall c, converted k c = let '(y, a) := grayAlphaModel c in Some (CGrayAlpha y a)) by (destruct k; try discriminate; reflexivity).
    rewrite !C, A. split; [reflexivity|]. split; [reflexivity|]. intros a Ha. rewrite C. specialize (B a Ha).
    destruct (grayAlphaModel (CGrayAlpha y a)) as [y' a']. cbn in B. subst a'. eauto.
Qed.
Print Assumptions C54_colour_space_partial.
Example C54_ex : Forall (fun e => exists r g b, opaque8 e r g b) [CRGB 1 2 3; CNRGBA 9 8 7 255] /\
  converted (KPalette [CRGB 1 2 3; CNRGBA 9 8 7 255]) (CNRGBA 9 8 7 255) = Some (CNRGBA 9 8 7 255).
Proof. split; [|vm_compute; reflexivity]. constructor; [exists 1, 2, 3|constructor; [exists 9, 8, 7|constructor]]; (split; [auto|]; unfold is_u8; lia). Qed.

(** a grey pixel of intensity 200 and alpha 128, and a pixel of palette colour (100,0,0) with
    alpha 3, through Encode and Decode *)
Definition grey1 : image := IGroup [mkLayer [97] (mkRect 0 0 1 1) MNormal false 0 (ILeaf (mkPic (mkRect 0 0 1 1) KGrayAlpha (fun x y => Some (CGrayAlpha 200 128))))].
Definition pal1 : image := IGroup [mkLayer [97] (mkRect 0 0 1 1) MNormal false 0
  (ILeaf (mkPic (mkRect 0 0 1 1) (KAlphaPalette [CRGB 0 0 0; CRGB 100 0 0]) (fun x y => Some (CNRGBA 100 0 0 3))))].
(** the pixel (0,0) of the only layer of a decoded file *)
Definition shown_pixel (o : outcome (err + list layer)) : option color :=
  match o with Ret (inr [mkLayer _ _ _ _ _ (ILeaf p)]) => picAt p 0 0 | _ => None end.
Theorem C54_colour_space_refuted : exists f1 f2,
  writes_file grey1 f1 /\ writes_file pal1 f2 /\
  shown_pixel (decode 1000 f1 (fun z => z) (fun _ => TErr)) = Some (CGrayAlpha 100 128) /\
  shown_pixel (decode 1000 f2 (fun z => z) (fun _ => TErr)) = Some (CNRGBA 0 0 0 3).
Proof.
  exists (file_of grey1 181), (file_of pal1 199).
  split; [apply writes_of; [cbn; unfold fits; repeat split; vm_compute; discriminate || reflexivity|vm_compute; split; [reflexivity|discriminate]]|].
  split; [apply writes_of; [cbn; unfold fits; repeat split; vm_compute; discriminate || reflexivity|vm_compute; split; [reflexivity|discriminate]]|].
  split; vm_compute; reflexivity.
Qed.
Print Assumptions C54_colour_space_refuted.
