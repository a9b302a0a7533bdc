(** C90: a saved image looks the same when it is loaded. *)
From Coq Require Import ZifyBool ZifyNat.
Require Import Verif.Base Verif.L_List Verif.L_Word Verif.M_Color Verif.S_Color Verif.M_Composite Verif.M_Rect Verif.S_Rect Verif.M_Image Verif.S_Image Verif.L_Image
  Verif.M_Reader Verif.M_Monad Verif.M_Rle Verif.M_Decode Verif.M_Encode Verif.L_Calls Verif.S_Encode Verif.S_Linked Verif.S_Tree Verif.S_Trip Verif.L_Trip5 Verif.L_Layout Verif.S_Layout Verif.P_Layout Verif.L_Written Verif.P_Trip Verif.P_Model
  Verif.S_File Verif.S_Props Verif.S_Accept Verif.S_Kinds Verif.P_Kinds Verif.S_Meaning Verif.S_Whole Verif.P_Whole Verif.S_Written Verif.P_Written Verif.L_Readable Verif.S_Resave Verif.L_Resave Verif.P_Resave
  Verif.S_Alike Verif.L_Alike Verif.P_Alike Verif.S_Looks.
Require Verif.S_Groups Verif.L_Linked.

(** where the sizes of pictures and layers agree *)
Fixpoint sized (l : layer) : Prop :=
  match l with
  | mkLayer _ b _ _ _ im =>
      match im with
      | IGroup g => fold_right (fun l P => sized l /\ P) True g
      | _ => dx (image_Bounds im) = dx b /\ dy (image_Bounds im) = dy b /\ match im with IMasked _ m => dx (grayBounds m) = dx b /\ dy (grayBounds m) = dy b | _ => True end
      end
  end.
Lemma good_sized wt rd k0 dc W H l : forall x y, good_layer wt rd k0 dc W H l x y -> sized l.
Proof.
  apply (layer_image_ind (fun i => match i with IGroup g => Forall (fun l => forall x y, good_layer wt rd k0 dc W H l x y -> sized l) g | _ => True end)
    (fun l => forall x y, good_layer wt rd k0 dc W H l x y -> sized l)); auto.
  intros n b m v t im IH x y (_ & _ & _ & _ & _ & _ & _ & _ & _ & G). cbn [sized]. destruct im as [p|g|i mk|i ts|l0]; try tauto.
  destruct G as [_ G]. clear - IH G. induction IH as [|l g Hl Hg IH]; [exact I|]. destruct G as [G1 G2]. split; [eapply Hl; exact G1|now apply IH].
Qed.
Lemma goods_sized wt rd k0 dc W H g x y : good_layers wt rd k0 dc W H g x y -> fold_right (fun l P => sized l /\ P) True g.
Proof. induction g as [|l g IH]; [auto|]. intros [G1 G2]. split; [eapply good_sized; exact G1|auto]. Qed.

Section Looks.
Variables (rnd : nat -> Z) (written : list textDatum -> Z -> Z -> option (list Z)) (read : list Z -> option (list textDatum)) (k : cmodel).
Lemma full_member q e r g b : zlen q <= 256 -> Forall (fun e => exists r g b, full e r g b) q -> In e q -> full e r g b ->
  converted (KAlphaPalette q) e = Some (CNRGBA r g b 255).
Proof. intros L F I E. apply (member_converted q e r g b); auto. Qed.
Lemma full_shade e c r g b : full e r g b -> full c r g b -> same_shade c e.
Proof. intros ([-> | ->] & R & G & B) ([-> | ->] & _); constructor; assumption. Qed.
Lemma full_map q : Forall (fun e => exists r g b, full e r g b) q -> Forall2 same_shade q (map (fun t => let '(r, g, b) := t in CRGB r g b) (map rgbModel q)).
Proof.
  induction 1 as [|e q (r & g & b & E & R & G & B) _ IH]; cbn [map]; constructor; [|exact IH].
  assert (X : rgbModel (CRGB r g b) = (r, g, b)).
  { unfold rgbModel. cbn [color_RGBA pR pG pB]. unfold is_u8 in *. rewrite !rep8_eq by lia. unfold u8. rewrite !Z.shiftr_div_pow2 by lia. change (2 ^ 8) with 256. now rewrite !hi8 by lia. }
  destruct E as [-> | ->]; [rewrite X; constructor|]. assert (rgbModel (CNRGBA r g b 255) = (r, g, b)) as ->; [|now constructor].
  rewrite <- X. unfold rgbModel. now rewrite (shade_RGBA _ _ (shade_right r g b R G B)).
Qed.
Lemma back_shade c k' : plain_model k k' -> plain_colour k c -> exists c', converted k c = Some c' /\ same_shade c c'.
Proof.
  assert (RGBc : forall c, eight c -> exists c', (let '(r, g, b, a) := nrgbaModel c in Some (CNRGBA r g b a)) = Some c' /\ same_shade c c').
  { intros d E. destruct d; try contradiction; cbn [eight] in E.
    - cbn [nrgbaModel]. eexists. split; [reflexivity|constructor].
    - destruct E as (R & G & B). rewrite (shade_nrgba _ _ (shade_left r g b R G B)). cbn [nrgbaModel]. eexists. split; [reflexivity|]. now constructor. }
  assert (GRAYc : forall c, match c with CGray y => is_u8 y | CGrayAlpha y a => is_u8 y /\ is_u8 a /\ (a = 255 \/ y = 0) | _ => False end ->
     exists c', (let '(y, a) := grayAlphaModel c in Some (CGrayAlpha y a)) = Some c' /\ same_shade c c').
  { assert (HA : forall a, is_u8 a -> u8 (Z.shiftr (rep8 a) 8) = a).
    { intros a A. unfold is_u8 in A. rewrite rep8_eq by lia. unfold u8. rewrite Z.shiftr_div_pow2 by lia. change (2 ^ 8) with 256. apply hi8. lia. }
    intros d E. destruct d as [| | |y a| | |y| |]; try contradiction; unfold grayAlphaModel.
    - destruct E as (Y & A & [-> | ->]).
      + rewrite grey_gray by exact Y. cbn [color_RGBA pA]. rewrite HA by exact A. eexists. split; [reflexivity|constructor].
      + cbn [color_RGBA pA]. cbv zeta. cbn [pA]. rewrite HA by exact A. assert (grayModel (CGrayAlpha 0 a) = 0) as -> by reflexivity. eexists. split; [reflexivity|constructor].
    - cbn [grayModel color_RGBA pA]. change (u8 (Z.shiftr 65535 8)) with 255. eexists. split; [reflexivity|]. now constructor. }
  intros M C. destruct k; cbn [plain_model plain_colour converted] in *; auto; try contradiction.
  destruct M as (_ & L & F). destruct C as (e & r & g & b & IE & E & CE). pose proof (full_shade _ _ _ _ _ E CE) as S. rewrite (shade_RGBA _ _ S).
  pose proof (full_member _ _ _ _ _ L F IE E) as X. cbn [converted] in X. rewrite X. eexists. split; [reflexivity|].
  apply (full_shade (CNRGBA r g b 255) c r g b); [|exact CE]. split; [now right|apply E].
Qed.
Lemma back_model k' : plain_model k k' -> same_model k' (model_back k).
Proof.
  intros M. destruct k; cbn [plain_model model_back] in *; try contradiction; try (destruct M as [-> | ->]; constructor).
  destruct M as (-> & _ & F). constructor. unfold file_palette. now apply full_map.
Qed.
Lemma back_pic p q : plain_pic k p -> same_pixels rnd k (ILeaf p) q -> alike_pic p q.
Proof.
  intros (X0 & Y0 & M & E) (QB & QM & QP). cbn [image_Bounds] in *. unfold dx, dy in *. rewrite X0, Y0, !Z.sub_0_r in *.
  assert (EB : picBounds p = mkRect 0 0 (maxX (picBounds p)) (maxY (picBounds p))) by (destruct (picBounds p); cbn in *; congruence).
  split; [congruence|]. split.
  { rewrite QM. now apply back_model. }
  intros x y I. pose proof I as [Ix Iy]. rewrite X0 in Ix. rewrite Y0 in Iy. destruct (QP x y Ix Iy) as (c & m & m' & A & Q). cbn [image_At] in A. rewrite !Z.add_0_l in A.
  destruct (picAt p x y) as [c0|] eqn:P; [|discriminate]. cbn [obind] in A. assert (c0 = c) as -> by congruence. rewrite Q.
  destruct (back_shade c _ M (E x y c I P)) as (c' & X & S). rewrite X. exact S.
Qed.
Lemma back_mask p m m' q : plain_pic k p -> minX (grayBounds m) = 0 -> minY (grayBounds m) = 0 -> dx (grayBounds m) = dx (picBounds p) -> dy (grayBounds m) = dy (picBounds p) ->
  S_Trip.same_mask m m' -> alike_pic p q -> alike (IMasked (ILeaf p) m) (IMasked (ILeaf q) m').
Proof.
  intros (X0 & Y0 & _) MX MY DX DY (B & V) A. unfold dx, dy in *. rewrite MX, MY in *. rewrite !Z.sub_0_r in *. constructor; [now constructor|]. split.
  { rewrite B. destruct (grayBounds m); cbn in *; congruence. }
  intros x y I. rewrite V; [rewrite !Z.add_0_l; reflexivity| |]; (destruct I as [[Ix Iy]|[[=]|[Ix Iy]]]; cbn [image_Bounds] in *; lia).
Qed.

Lemma pic_cover p b : plain_pic k p -> minX b < maxX b -> minY b < maxY b -> dx (picBounds p) = dx b -> dy (picBounds p) = dy b ->
  forall x y, inside b x y -> inside (picBounds p) (x - minX b) (y - minY b).
Proof. intros (X0 & Y0 & _) _ _ DX DY x y [Ix Iy]. unfold dx, dy in *. split; lia. Qed.
Lemma plain_covered l : plain_layer written read k l -> sized l -> covered_layer l.
Proof.
  apply (layer_image_ind (fun i => match i with IGroup g => Forall (fun l => plain_layer written read k l -> sized l -> covered_layer l) g | _ => True end)
    (fun l => plain_layer written read k l -> sized l -> covered_layer l)); auto.
  intros n b m v t im IH (BX & BY & P) S. cbn [sized] in S. cbn [covered_layer].
  destruct im as [p|g|[p| | | |] mk|[p| | | |] ts|l0]; try contradiction; cbn [image_Bounds covered grouped] in *.
  - split; [exact I|]. right. now apply pic_cover.
  - split; [|now left]. clear - IH P S. induction IH as [|l g Hl Hg IH]; [exact I|]. destruct P, S. split; auto.
  - destruct P as [P _]. split; [exact I|]. right. now apply pic_cover.
  - destruct P as [P _]. split; [exact I|]. right. now apply pic_cover.
Qed.
Lemma plains_covered g : fold_right (fun l P => plain_layer written read k l /\ P) True g -> fold_right (fun l P => sized l /\ P) True g -> covered (IGroup g).
Proof. induction g as [|l g IH]; [auto|]. intros [P1 P2] [S1 S2]. split; [now apply plain_covered|now apply IH]. Qed.

Lemma back_alike g g' : kept_layers rnd written read k g g' -> fold_right (fun l P => plain_layer written read k l /\ P) True g -> fold_right (fun l P => sized l /\ P) True g -> alike_layers g g'.
Proof.
  apply (kept_layers_mut rnd written read k (fun l l' => plain_layer written read k l -> sized l -> alike_layer l l')
    (fun b i i' => forall n m v t, plain_layer written read k (mkLayer n b m v t i) -> sized (mkLayer n b m v t i) -> alike i i')
    (fun g g' => fold_right (fun l P => plain_layer written read k l /\ P) True g -> fold_right (fun l P => sized l /\ P) True g -> alike_layers g g')).
  - intros n b b' m v t i i' R _ IH P S. assert (b' = b) as ->. { destruct P as (BX & BY & _). destruct R as [->|[[R|R] _]]; [reflexivity|lia|lia]. }
    constructor. eapply IH; eauto.
  - intros b g0 g1 _ IH n m v t (_ & _ & P) S. constructor. now apply IH.
  - intros b i p SI SP n m v t (_ & _ & P) _. destruct i as [q| | |[| | | |] [|]|]; try contradiction; [|destruct P as (_ & [] & _); reflexivity]. constructor. now apply back_pic.
  - intros b i mk p m' SP SM n m v t (_ & _ & P) S. destruct i as [q| | | |]; try contradiction. destruct P as (P & MX & MY). cbn [sized image_Bounds] in S. destruct S as (D1 & D2 & D3 & D4).
    apply back_mask; auto; try congruence. now apply back_pic.
  - intros b i t p data t' NT SP WD RD n m v t0 (_ & _ & P) _. destruct i as [q| | | |]; try contradiction. destruct P as (P & _ & T).
    assert (t' = t) as -> by (unfold dx, dy in WD; rewrite (T data WD) in RD; congruence). constructor. constructor. now apply back_pic.
  - constructor.
  - intros l l' g0 g1 _ IHl _ IHg [P1 P2] [S1 S2]. constructor; auto.
Qed.
End Looks.

(** A layered image of colours (pictures at the corner (0,0) of their layers, 8 bit colours) that can be
    expressed in XCF, the lowest layer in mode Normal or Dissolve, is encoded; Decode of the file gives
    an image that shows the same colour at every point of the plane (with the same random draws), and
    that Encode writes as the same bytes again. *)
Theorem C90_partial wr rnd wtext ptext dc g e calls : faultless wr ->
  encode wr rnd wtext (IGroup g) = Some (e, calls) -> encodable (IGroup g) ->
  let k := image_ColorModel (IGroup g) in let W := dx (group_Bounds g) in let H := dy (group_Bounds g) in
  0 <= W < 4294967296 -> 0 <= H < 4294967296 -> zlen g <= 55296 ->
  good_layers wtext (read_text ptext) k dc W H g 0 0 ->
  fold_right (fun l P => plain_layer wtext (read_text ptext) k l /\ P) True g -> S_Groups.bottom_normal g = g ->
  exists f, (forall a, stored (map landed calls) a = znth f a) /\
    (zlen f < 16777216 -> forall fuel f32op, 4294967296 <= Z.of_nat fuel -> exists g',
       decodeImage fuel f f32op ptext dc = Ret (inr g') /\
       (forall rnd x y n, match image_At rnd (IGroup g) x y n, image_At rnd (IGroup g') x y n with
          | Some (c, m), Some (c', m') => same_shade c c' /\ m' = m
          | None, None => True
          | _, _ => False
          end) /\
       (forall wr rnd, encode wr rnd wtext (IGroup g') = encode wr rnd wtext (IGroup g))).
Proof.
  intros FL E EN k W H RW RH LG GL PL BN.
  destruct (C36_round_trip_partial wr rnd wtext ptext dc (IGroup g) g e calls FL ltac:(now left) E EN RW RH LG GL) as (_ & f & ST & D).
  exists f. split; [exact ST|]. intros ZF fuel f32op HF. destruct (D fuel f32op HF) as [D1 _]. destruct (D1 ZF) as (g' & KL & DE).
  exists (S_Groups.bottom_normal g'). split; [exact DE|].
  assert (SZ : fold_right (fun l P => sized l /\ P) True g) by (eapply goods_sized; exact GL).
  pose proof (back_alike rnd wtext (read_text ptext) k g g' KL PL SZ) as A. apply alike_bottom in A. rewrite BN in A.
  assert (C : covered (IGroup g)) by (eapply plains_covered; eauto). apply alike_group in A. split.
  - intros rnd' x y n. apply C89_shows; [exact A|exact C|now left].
  - intros wr' rnd'. now apply C89_saves.
Qed.
Print Assumptions C90_partial.
Example C90_ex : fold_right (fun l P => plain_layer (fun _ _ _ => None) (fun _ => None) (image_ColorModel (IGroup layers36)) l /\ P) True layers36 /\ S_Groups.bottom_normal layers36 = layers36.
Proof.
  split; [|reflexivity]. cbn. unfold plain_pic, px1. cbn [picBounds picModel picAt minX minY].
  repeat split; try lia; try (right; reflexivity); intros x y c _ E; assert (EE : eight c) by (injection E as <-; cbn; unfold is_u8; lia); exact EE.
Qed.
(** a grey above a GrayAlpha; an indexed picture *)
Definition greys90 : list layer := [
  mkLayer [97] (mkRect 0 0 1 1) MNormal false 7 (ILeaf (mkPic (mkRect 0 0 1 1) KGray (fun _ _ => Some (CGray 9))));
  mkLayer [98] (mkRect 0 0 1 1) MNormal false 0 (ILeaf (mkPic (mkRect 0 0 1 1) KGrayAlpha (fun _ _ => Some (CGrayAlpha 200 255))))].
Definition indexed90 : list layer :=
  let q := [CRGB 1 2 3; CNRGBA 9 8 7 255] in
  [mkLayer [97] (mkRect 0 0 1 1) MNormal false 7 (ILeaf (mkPic (mkRect 0 0 1 1) (KAlphaPalette q) (fun _ _ => Some (CNRGBA 9 8 7 255))))].
Example C90_grey_ex : Forall (fun g => fold_right (fun l P => plain_layer (fun _ _ _ => None) (fun _ => None) (image_ColorModel (IGroup g)) l /\ P) True g /\ S_Groups.bottom_normal g = g) [greys90; indexed90].
Proof.
  assert (F0 : full (CRGB 1 2 3) 1 2 3) by (unfold full, is_u8; repeat split; auto; lia). assert (F1 : full (CNRGBA 9 8 7 255) 9 8 7) by (unfold full, is_u8; repeat split; auto; lia).
  constructor; [|constructor; [|constructor]]; (split; [|reflexivity]); cbn; unfold plain_pic; cbn [picBounds picModel picAt minX minY plain_model plain_colour].
  - repeat split; try lia; auto; intros x y c _ E; injection E as <-; unfold is_u8; lia.
  - repeat split; try lia; [vm_compute; discriminate|repeat constructor; eauto|]. intros x y c _ E. injection E as <-. exists (CNRGBA 9 8 7 255), 9, 8, 7. cbn. auto.
Qed.

(** ** Files *)
(** the colour models of the images of a file *)
Definition km_of (base : Z) (pal : list (Z * Z * Z)) (km : cmodel) : Prop := if base =? 2 then km = KAlphaPalette (colour_map pal) else base_type km = base.
Lemma pic_plain base pal km D pc dec : km_of base pal km -> 0 <= base <= 2 -> Forall bytes3 pal -> zlen pal <= 256 -> said base D ->
  (base = 0 \/ (ldType D <> 4 /\ forall x y, 0 <= x < ldW D -> 0 <= y < ldH D -> exists r g b, meant (ldType D) pal (fun k => ldPx D k x y) = Some (r, g, b, 255))) ->
  pictured dec pal D (match ldText D with Some t => IText (ILeaf pc) t | None => ILeaf pc end) -> plain_pic km pc.
Proof.
  intros HK RB FP LP SD U (pc' & PB & PM & TY & _ & EI). assert (pc' = pc) as -> by (destruct (ldText D); congruence). clear EI.
  split; [now rewrite PB|]. split; [now rewrite PB|]. pose proof (sd_type _ _ SD) as RT. pose proof (sd_base _ _ SD) as BT. unfold km_of in HK.
  assert (B3 : base = 0 \/ base = 1 \/ base = 2) by lia. destruct B3 as [-> | [-> | ->]].
  - clear U. change (0 =? 2) with false in HK. assert (C : ldType D = 0 \/ ldType D = 1) by lia. 
    assert (PM' : plain_model km (picModel pc)) by (rewrite PM; destruct km; try discriminate HK; cbn; destruct C as [-> | ->]; (now left) || (now right)).
    split; [exact PM'|]. intros x y c I E. rewrite PB in I. destruct I as [Ix Iy]. cbn in Ix, Iy. destruct (TY x y c Ix Iy E) as (OT & WC & _).
    assert (E8 : eight c) by (clear - C OT WC; destruct c; cbn in OT; try contradiction; try lia; exact WC). destruct km; try discriminate HK; exact E8.
  - destruct U as [U|[_ U]]; [lia|]. change (1 =? 2) with false in HK. assert (C : ldType D = 2 \/ ldType D = 3) by lia. split.
    + rewrite PM. destruct km; try discriminate HK; destruct C as [-> | ->]; (now left) || (now right).
    + intros x y c I E. rewrite PB in I. destruct I as [Ix Iy]. cbn in Ix, Iy. destruct (TY x y c Ix Iy E) as (OT & WC & SC). destruct (U x y Ix Iy) as (r & g & b & M). rewrite M in SC.
      assert (X : match c with CGray y => is_u8 y | CGrayAlpha y a => is_u8 y /\ is_u8 a /\ (a = 255 \/ y = 0) | _ => False end).
      { clear - C OT WC SC. destruct c; cbn in OT, SC; try lia; cbn in WC; [|exact WC]. injection SC as _ _ _ A. destruct WC. auto. }
      destruct km; try discriminate HK; exact X.
  - destruct U as [U|[T4 U]]; [lia|]. change (km = KAlphaPalette (colour_map pal)) in HK. subst km. assert (C : ldType D = 5) by lia. cbn [plain_model plain_colour]. split; [split; [|split]|].
    + rewrite PM, C. reflexivity.
    + unfold colour_map, zlen in *. now rewrite map_length.
    + unfold colour_map. rewrite Forall_map. eapply Forall_impl; [|exact FP]. intros [[r g] b] H. exists r, g, b. split; [now left|exact H].
    + intros x y c I E. rewrite PB in I. destruct I as [Ix Iy]. cbn in Ix, Iy. destruct (TY x y c Ix Iy E) as (OT & WC & SC). destruct (U x y Ix Iy) as (r & g & b & M). rewrite M in SC.
      rewrite C in M. cbn [meant] in M. destruct (znth pal _) as [[[r' g'] b']|] eqn:Z; [|discriminate]. injection M as -> -> -> _. apply L_Linked.znth_In in Z.
      exists (CRGB r g b), r, g, b. rewrite Forall_forall in FP. pose proof (FP _ Z) as B. cbn in B.
      split; [unfold colour_map; rewrite in_map_iff; now exists (r, g, b)|]. split; [split; [now left|exact B]|]. split; [|exact B].
      clear - C OT SC. destruct c; cbn in OT, SC; try lia; injection SC as; subst; (now right) || (now left).
Qed.
Lemma shape_plain dec base pal wtext ptext km : km_of base pal km -> 0 <= base <= 2 -> Forall bytes3 pal -> zlen pal <= 256 -> forall F ox oy x0 y0 x1 y1 bare p ls,
  shaped dec pal base ox oy F ls -> neat wtext ptext base pal x0 y0 x1 y1 F -> steady wtext ptext F -> base = 0 \/ unbroken pal F ->
  Forall (spoken base) (dorder bare p F) -> fold_right (fun l P => plain_layer wtext (read_text ptext) km l /\ P) True ls.
Proof.
  intros HK RB FP LP.
  induction F as [|r D F IH|r D kids F IHk IH] using df_ind; intros ox oy x0 y0 x1 y1 bare p ls S N T U SP; cbn [shaped] in S.
  1: subst; exact I.
  all: destruct S as (l & rest & -> & E1 & E2 & E3 & E4 & E5 & S); cbn [neat] in N; destruct N as (N1 & N2 & N3 & N4 & N5 & N6 & N7 & N8 & N); cbn [steady] in T; destruct T as [T0 T];
    cbn [dorder] in SP; apply Forall_app in SP as [S1 S2]; pose proof (Forall_inv S1) as [SD SG]; cbn [fst snd] in SD, SG; cbn [unbroken] in U;
    (split; [|eapply IH; eauto; tauto]); destruct l as [n b m v t i]; cbn [lName lBounds lMode lTransparency lImage] in *; subst b; unfold box; cbn [plain_layer minX minY maxX maxY];
    (split; [lia|]); (split; [lia|]).
  - destruct E5 as (j & PIC & MK). destruct N8 as [TK _]. unfold text_kept in TK. pose proof PIC as (pc & _ & _ & _ & _ & ->).
    assert (PP : plain_pic km pc) by (eapply pic_plain; eauto; tauto). clear PIC.
    unfold masked in MK. destruct (ldMask D) as [mk|] eqn:EM.
    + destruct MK as (g & -> & GB & _). assert (ET : ldText D = None) by (destruct (ldText D); [destruct TK as (_ & X & _); congruence|reflexivity]). rewrite ET.
      split; [exact PP|]. now rewrite GB.
    + subst i. destruct (ldText D) as [tx|]; [|exact PP]. split; [exact PP|]. destruct TK as (TN & _). split; [exact TN|]. intros data WD.
      replace (aX (ldAttrs D) - ox + ldW D - (aX (ldAttrs D) - ox)) with (ldW D) in WD by lia. replace (aY (ldAttrs D) - oy + ldH D - (aY (ldAttrs D) - oy)) with (ldH D) in WD by lia.
      unfold read_text. now rewrite (T0 tx data eq_refl WD).
  - destruct E5 as (g & SK & ->). destruct N8 as [_ N8]. apply Forall_inv_tail in S1. eapply IHk; eauto. tauto.
Qed.
Lemma front_model dec base pal F : forall ox oy ls bare p, 0 < base <= 2 -> shaped dec pal base ox oy F ls -> Forall (spoken base) (dorder bare p F) -> unbroken pal F -> fronted F ->
  km_of base pal (image_ColorModel (IGroup ls)).
Proof.
  induction F as [|r D F IH|r D kd F IHk IH] using df_ind; intros ox oy ls bare p RB S SP U FR; cbn [shaped fronted unbroken] in *; [contradiction| |];
    destruct S as (l & rest & -> & E1 & E2 & E3 & E4 & E5 & S); destruct l as [n b m v t i]; cbn [lImage] in E5; cbn [image_ColorModel];
    cbn [dorder] in SP; apply Forall_app in SP as [S1 S2]; pose proof (Forall_inv S1) as [SD SG]; cbn [fst snd] in SD, SG.
  - destruct E5 as (j & (pc & B & M & _ & _ & ->) & MK). assert (EK : image_ColorModel i = kind (ldType D) (colour_map pal)).
    { unfold masked in MK. destruct (ldMask D); [destruct MK as (g & -> & _)|subst i]; cbn [image_ColorModel]; destruct (ldText D); exact M. }
    rewrite EK. pose proof (sd_type _ _ SD) as RT. pose proof (sd_base _ _ SD) as BT. destruct U as [[T4 _] _]. unfold km_of.
    assert (C : base = 1 /\ (ldType D = 2 \/ ldType D = 3) \/ base = 2 /\ ldType D = 5) by lia. destruct C as [[-> [-> | ->]]|[-> ->]]; reflexivity.
  - destruct E5 as (g & SK & ->). apply Forall_inv_tail in S1. eapply IHk; eauto. tauto.
Qed.
(** A file of the format of an image is loaded and the image saved (C86 for when this succeeds): the
    new file, loaded, shows the same colours everywhere; and saving what was loaded from it gives the
    same bytes again.  A grey or indexed image has no translucent pixels, its indexed layers are of
    the kind with alpha, and its first layer is not an empty group. *)
Theorem C90_loaded_partial wr rnd wtext ptext f n w h base pal F fuel f32op dec ls :
  file_of (fun z => u8 (f32op z)) (modes_read base) ptext f n w h base pal F -> 4294967296 <= Z.of_nat fuel ->
  masks_ok dec F -> neat wtext ptext base pal 0 0 w h F -> canvas_kept w h F -> zlen pal <= 256 -> steady wtext ptext F ->
  base = 0 \/ (unbroken pal F /\ fronted F) ->
  decodeImage fuel f f32op ptext dec = Ret (inr ls) -> faultless wr ->
  exists calls, encode wr rnd wtext (IGroup ls) = Some (None, calls) /\ exists f2, (forall a, stored (map landed calls) a = znth f2 a) /\
    (zlen f2 < 16777216 -> forall fuel2 f32op2, 4294967296 <= Z.of_nat fuel2 -> exists ls2,
       decodeImage fuel2 f2 f32op2 ptext dec = Ret (inr ls2) /\
       (forall rnd x y n, match image_At rnd (IGroup ls) x y n, image_At rnd (IGroup ls2) x y n with
          | Some (c, m), Some (c', m') => same_shade c c' /\ m' = m
          | None, None => True
          | _, _ => False
          end) /\
       (forall wr rnd, encode wr rnd wtext (IGroup ls2) = encode wr rnd wtext (IGroup ls))).
Proof.
  intros FO HF MO NE CK LP ST UB DE FL.
  destruct (loaded_good wr rnd _ _ _ _ _ _ _ _ _ _ _ _ _ FO HF MO NE CK LP DE) as (bare & SP & FP & RB & S0 & BI & FM & EC & WB & HB & LL & GD & ES).
  destruct (encode wr rnd wtext (IGroup ls)) as [[e calls]|] eqn:EN; [|easy]. clear ES.
  assert (K : km_of base pal (image_ColorModel (IGroup ls))).
  { destruct UB as [-> | [U FR]]; [|destruct (Z.eq_dec base 0) as [->|]].
    1,2: unfold km_of; destruct FM as [-> | (t & RT & BT & ->)]; [reflexivity|]; assert (C : t = 0 \/ t = 1) by lia; destruct C as [-> | ->]; reflexivity.
    eapply front_model; eauto. lia. }
  assert (PL : fold_right (fun l P => plain_layer wtext (read_text ptext) (image_ColorModel (IGroup ls)) l /\ P) True ls) by (eapply shape_plain; eauto; tauto).
  destruct (C36_round_trip_partial wr rnd wtext ptext dec (IGroup ls) ls e calls FL ltac:(now left) EN EC WB HB LL GD) as (-> & _).
  exists calls. split; [reflexivity|]. exact (C90_partial wr rnd wtext ptext dec ls None calls FL EN EC WB HB LL GD PL BI).
Qed.
Print Assumptions C90_loaded_partial.

(** A file of one translucent pixel. *)
Definition pixel (m : mode) (k : cmodel) (b : rect) (c : color) : image :=
  IGroup [mkLayer [97] (mkRect 0 0 1 1) m false 0 (ILeaf (mkPic b k (fun x y => Some (if (minX b <=? x) && (x <? maxX b) && (minY b <=? y) && (y <? maxY b) then c else CNRGBA 0 0 0 0))))].
Definition glass : image := pixel MNormal KNRGBA (mkRect 0 0 1 1) (CNRGBA 100 200 30 128).
Example C90_loaded_ex : exists f F, file_of (fun z => u8 z) (modes_read 0) P_Accept.no_text f 3 1 1 0 [] F /\ masks_ok true F /\
  neat (fun _ _ _ => None) P_Accept.no_text 0 [] 0 0 1 1 F /\ canvas_kept 1 1 F /\ steady (fun _ _ _ => None) P_Accept.no_text F /\
  exists ls, decodeImage 1000 f (fun z => z) P_Accept.no_text true = Ret (inr ls) /\
    image_At (fun _ => 0) (IGroup ls) 0 0 0 = Some (CNRGBA64 (mk64 25700 51400 7710 32896), 0%nat).
Proof.
  assert (EN : encodable glass) by (cbn; unfold S_Tree.fits; repeat split; vm_compute; discriminate || reflexivity).
  assert (WF : writes_file glass (P_Trip.file_of glass 185)) by (apply writes_of; [exact EN|vm_compute; split; [reflexivity|discriminate]]).
  pose proof WF as (calls & E & S).
  destruct (encoded _ _ _ _ _ _ _ ltac:(intros ? ? ?; reflexivity) ltac:(now left) E EN) as (_ & Wr & fls & n' & FLs & S').
  assert (EF : file_bytes (head_of glass) fls = P_Trip.file_of glass 185).
  { apply same_bytes. intros a. rewrite <- S, <- S'. reflexivity. }
  destruct (L_Written.file_written (fun _ => 0) (fun _ _ _ => None) P_Accept.no_text (modes_read 0) (back_mode 0) (fun m => mode_kept 0 m) (fun m M => back_number 0 m (fun _ => M)) _ fls n' FLs Wr) as (F & T & FO).
  - cbn. repeat split; try (unfold is_u8; lia). intros x y. eexists. split; [reflexivity|]. destruct (_ && _); cbn; unfold is_u8; lia.
  - cbn. unfold word_sized, dx, dy, mode_kept. cbn. repeat split; try lia; try tauto. apply ascii1. lia.
  - vm_compute. discriminate.
  - unfold is_word, dx. cbn. lia.
  - unfold is_word, dy. cbn. lia.
  - match goal with |- context [file_bytes ?h ?f] => change (file_bytes h f) with (file_bytes (head_of glass) f) end. rewrite EF. vm_compute. reflexivity.
  - match type of FO with context [file_bytes ?h ?f] => change (file_bytes h f) with (file_bytes (head_of glass) f) in FO end. rewrite EF in FO. exists (P_Trip.file_of glass 185), F. split; [apply FO|].
    inversion T as [|l g x y r nd F' TL TR]; subst. inversion TR; subst. inversion TL as [name b m inv tr i x y D NG HT PT MT TX|]; subst.
    destruct HT as (_ & HW & HH & _ & HX & HY & HM & _). cbn in HW, HH, HX, HY, HM, MT, TX. unfold dx, dy in HW, HH. cbn in HW, HH.
    assert (MN : ldMask D = None) by (destruct (ldMask D); [contradiction|reflexivity]).
    split; [cbn; split; [congruence|exact I]|].
    split. { cbn [neat]. unfold text_kept. rewrite HW, HH, HX, HY, HM, TX. cbn. repeat split; try lia; try discriminate. }
    split. { unfold canvas_kept. split; [lia|]. split; [lia|]. split; [vm_compute; discriminate|]. split; [reflexivity|]. split; apply Exists_cons_hd; assumption. }
    split. { cbn. split; [|exact I]. intros t data _ [=]. }
    exists (layers_of_file (P_Trip.file_of glass 185)). split; [apply layers_loaded; vm_compute; reflexivity|vm_compute; reflexivity].
Qed.

(** ** Not so *)
(** the image is saved, the file loaded, and the pixel at (0,0) has another colour *)
Definition looks_other (i : image) : Prop :=
  exists f ls c c', writes_file i f /\ decodeImage 1000 f (fun z => z) P_Accept.no_text true = Ret (inr ls) /\
    image_At (fun _ => 0) i 0 0 0 = Some (c, 0%nat) /\ image_At (fun _ => 0) (IGroup ls) 0 0 0 = Some (c', 0%nat) /\ color_RGBA c' <> color_RGBA c.
Definition other_at (o o' : option (color * nat)) : bool :=
  match o, o' with
  | Some (c, O), Some (c', O) => negb ((pR (color_RGBA c') =? pR (color_RGBA c)) && (pA (color_RGBA c') =? pA (color_RGBA c)))
  | _, _ => false
  end.
Lemma is_other i n : encodable i ->
  match encode (fun _ _ p => (zlen p, None)) (fun _ => 0) (fun _ _ _ => None) i with
  | Some (_, calls) => stored (map landed calls) (Z.of_nat (S n)) = None /\ stored (map landed calls) (Z.of_nat n) <> None
  | None => False
  end ->
  match decodeImage 1000 (P_Trip.file_of i (S n)) (fun z => z) P_Accept.no_text true with
  | Ret (inr ls) => other_at (image_At (fun _ => 0) i 0 0 0) (image_At (fun _ => 0) (IGroup ls) 0 0 0) | _ => false end = true -> looks_other i.
Proof.
  intros EN E D. pose proof (writes_of i n EN E) as WF. destruct (decodeImage _ _ _ _ _) as [[|ls]| |] eqn:DE; try discriminate.
  unfold other_at in D. destruct (image_At _ i 0 0 0) as [[c [|]]|] eqn:A1; try discriminate. destruct (image_At _ (IGroup ls) 0 0 0) as [[c' [|]]|] eqn:A2; try discriminate.
  exists (P_Trip.file_of i (S n)), ls, c, c'. split; [exact WF|]. split; [exact DE|]. split; [exact A1|]. split; [exact A2|]. intros Q. rewrite Q, !Z.eqb_refl in D. discriminate.
Qed.
(** A picture whose corner is not (0,0) is drawn from (0,0) but saved from its corner. *)
Theorem C90_corner_refuted : looks_other (pixel MNormal KNRGBA (mkRect 5 5 6 6) (CNRGBA 1 2 3 255)).
Proof. apply (is_other _ 184); [cbn; unfold S_Tree.fits; repeat split; vm_compute; discriminate || reflexivity|vm_compute; split; [reflexivity|discriminate]|vm_compute; reflexivity]. Qed.
Print Assumptions C90_corner_refuted.
(** A lowest layer in mode Multiply is not seen; it is loaded in mode Normal. *)
Theorem C90_mode_refuted : looks_other (pixel MMultiply KNRGBA (mkRect 0 0 1 1) (CNRGBA 1 2 3 255)).
Proof. apply (is_other _ 184); [cbn; unfold S_Tree.fits; repeat split; vm_compute; discriminate || reflexivity|vm_compute; split; [reflexivity|discriminate]|vm_compute; reflexivity]. Qed.
Print Assumptions C90_mode_refuted.
(** Translucent greys are darker when they are loaded. *)
Theorem C90_grey_refuted : looks_other (pixel MNormal KGrayAlpha (mkRect 0 0 1 1) (CGrayAlpha 200 128)).
Proof. apply (is_other _ 180); [cbn; unfold S_Tree.fits; repeat split; vm_compute; discriminate || reflexivity|vm_compute; split; [reflexivity|discriminate]|vm_compute; reflexivity]. Qed.
Print Assumptions C90_grey_refuted.
(** A color.Palette image is drawn without translucency, but it is loaded as an AlphaPalette image: a
    faint layer that is not seen is seen when it is loaded. *)
Theorem C90_palette_refuted : looks_other (IGroup [mkLayer [97] (mkRect 0 0 1 1) MNormal false 200 (ILeaf (mkPic (mkRect 0 0 1 1) (KPalette [CRGB 1 2 3]) (fun _ _ => Some (CRGB 1 2 3))))]).
Proof. apply (is_other _ 195); [cbn; unfold S_Tree.fits; repeat split; vm_compute; discriminate || reflexivity|vm_compute; split; [reflexivity|discriminate]|vm_compute; reflexivity]. Qed.
Print Assumptions C90_palette_refuted.
