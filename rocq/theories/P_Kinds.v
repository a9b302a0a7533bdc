(** C75: what the pixel data of each of the six layer types shows, decompressed or not. *)
From Coq Require Import ZifyBool ZifyNat.
Require Import Verif.Base Verif.L_List Verif.L_Word Verif.M_Color Verif.S_Color Verif.M_Composite Verif.M_Rect Verif.M_Image Verif.M_Reader Verif.L_Reader
  Verif.M_Rle Verif.S_Rle Verif.L_Rle Verif.L_Rle3 Verif.S_Compressed Verif.S_Kinds Verif.M_Compressed Verif.L_Compressed Verif.P_Compressed Verif.M_Groups Verif.M_Monad Verif.M_Decode Verif.M_Encode
  Verif.L_Encode Verif.S_String Verif.S_File Verif.S_Layout Verif.L_Pix Verif.L_Layout Verif.L_Grid Verif.L_Run Verif.L_File Verif.L_Linked Verif.L_Trip Verif.L_Trip2 Verif.L_Trip3.

Lemma bget_map (f : Z -> Z) n k : 0 <= k < n -> bget (map f (zseq n)) k = f k.
Proof. intros H. unfold bget. rewrite znth_map, znth_zseq by lia. reflexivity. Qed.
Lemma part8 v a : is_u8 v -> is_u8 a -> u32 (rep8 v * a) / 255 = 257 * v * a / 255.
Proof. unfold is_u8. intros V A. rewrite rep8_eq by lia. unfold u32. rewrite Z.mod_small by nia. reflexivity. Qed.
Lemma opq v : 257 * v * 255 / 255 = 257 * v. Proof. now rewrite Z.div_mul by lia. Qed.
Lemma is_nrgba r g b a : is_u8 r -> is_u8 g -> is_u8 b -> is_u8 a -> is_colour (CNRGBA r g b a) (r, g, b, a).
Proof. intros. unfold is_colour. cbn [color_RGBA]. rewrite !part8 by assumption. rewrite rep8_eq by (unfold is_u8 in *; lia). reflexivity. Qed.
Lemma is_rgb r g b : is_u8 r -> is_u8 g -> is_u8 b -> is_colour (CRGB r g b) (r, g, b, 255).
Proof. unfold is_u8. intros. unfold is_colour. cbn [color_RGBA]. rewrite !opq, !rep8_eq by lia. reflexivity. Qed.
Lemma is_graya y a : is_u8 y -> is_u8 a -> is_colour (CGrayAlpha y a) (y, y, y, a).
Proof. intros. unfold is_colour. cbn [color_RGBA]. rewrite !part8 by assumption. rewrite rep8_eq by (unfold is_u8 in *; lia). reflexivity. Qed.
Lemma is_gray y : is_u8 y -> is_colour (CGray y) (y, y, y, 255).
Proof. unfold is_u8. intros. unfold is_colour. cbn [color_RGBA]. rewrite !opq, !rep8_eq by lia. reflexivity. Qed.
Lemma hi257 v : is_u8 v -> 257 * v / 256 mod 256 = v.
Proof. unfold is_u8. intros V. replace (257 * v) with (v + v * 256) by lia. rewrite Z.div_add, Z.div_small, Z.add_0_l by lia. apply Z.mod_small. lia. Qed.
Lemma byte_hi v : is_u8 v -> u8 (Z.shiftr (257 * v) 8) = v.
Proof. intros V. unfold u8. rewrite Z.shiftr_div_pow2 by lia. now apply hi257. Qed.
Lemma znth_in {A} (l : list A) i x : znth l i = Some x -> In x l.
Proof. unfold znth. destruct (_ <? 0); [discriminate|]. apply nth_error_In. Qed.

Lemma type_color_meant mode pal b : 0 <= mode <= 5 -> Forall bytes3 pal -> (forall k, 0 <= k < type_channels mode -> is_u8 (b k)) ->
  shown_as (type_color mode (colour_map pal) b) (meant mode pal b).
Proof.
  intros M FP B. assert (C : mode = 0 \/ mode = 1 \/ mode = 2 \/ mode = 3 \/ mode = 4 \/ mode = 5) by lia.
  destruct C as [-> | [-> | [-> | [-> | C]]]]; cbn [type_channels] in B; cbn [type_color meant shown_as Z.odd].
  1: eexists; split; [reflexivity|]; apply is_rgb; apply B; lia.
  1: eexists; split; [reflexivity|]; apply is_nrgba; apply B; lia.
  1: eexists; split; [reflexivity|]; apply is_gray; apply B; lia.
  1: eexists; split; [reflexivity|]; apply is_graya; apply B; lia.
  assert (B0 : is_u8 (b 0)) by (apply B; destruct C as [-> | ->]; cbn; lia).
  assert (BA : is_u8 (if mode =? 4 then 255 else b 1)).
  { destruct C as [-> | ->]; cbn [Z.eqb Pos.eqb]; [unfold is_u8; lia|]. apply B; cbn; lia. }
  assert (E : type_color mode (colour_map pal) b = match znth (colour_map pal) (b 0) with None => None | Some e =>
      let p := color_RGBA e in Some (CNRGBA (pR p / 256 mod 256) (pG p / 256 mod 256) (pB p / 256 mod 256) (if mode =? 4 then 255 else b 1)) end)
    by (destruct C as [-> | ->]; reflexivity).
  assert (E2 : meant mode pal b = match znth pal (b 0) with Some (r, g, l) => Some (r, g, l, if mode =? 4 then 255 else b 1) | None => None end)
    by (destruct C as [-> | ->]; reflexivity).
  rewrite E, E2. unfold colour_map. rewrite znth_map. destruct (znth pal (b 0)) as [[[r g] l]|] eqn:N; cbn [option_map shown_as]; [|reflexivity].
  apply znth_in in N. rewrite Forall_forall in FP. destruct (FP _ N) as (R & G & L). eexists. split; [reflexivity|].
  cbn [color_RGBA pR pG pB]. unfold is_u8 in *. rewrite !rep8_eq, !hi257 by (unfold is_u8; lia). apply is_nrgba; unfold is_u8; lia.
Qed.
Lemma dec_color_meant mode pal b : 0 <= mode <= 5 -> Forall bytes3 pal -> (forall k, 0 <= k < type_channels mode -> is_u8 (b k)) ->
  shown_as (dec_color mode (Some (colour_map pal)) (map b (zseq (type_channels mode)))) (meant mode pal b).
Proof.
  intros M FP B. assert (C : mode = 0 \/ mode = 1 \/ mode = 2 \/ mode = 3 \/ mode = 4 \/ mode = 5) by lia.
  destruct C as [-> | [-> | [-> | [-> | [-> | ->]]]]]; cbn [type_channels] in *; unfold dec_color, obind; rewrite !bget_map by lia; cbn [meant shown_as Z.odd].
  1: eexists; split; [reflexivity|]; apply is_rgb; apply B; lia.
  1: eexists; split; [reflexivity|]; apply is_nrgba; apply B; lia.
  1: eexists; split; [reflexivity|]; apply is_gray; apply B; lia.
  1: eexists; split; [reflexivity|]; apply is_graya; apply B; lia.
  - unfold colour_map. rewrite znth_map. destruct (znth pal (b 0)) as [[[r g] l]|] eqn:N; cbn [option_map shown_as]; [|reflexivity].
    apply znth_in in N. rewrite Forall_forall in FP. destruct (FP _ N) as (R & G & L). eexists. split; [reflexivity|]. now apply is_rgb.
  - unfold colour_map. rewrite znth_map. destruct (znth pal (b 0)) as [[[r g] l]|] eqn:N; cbn [option_map shown_as]; [|reflexivity].
    apply znth_in in N. rewrite Forall_forall in FP. destruct (FP _ N) as (R & G & L). eexists. split; [reflexivity|].
    cbn [color_RGBA pR pG pB]. rewrite !rep8_eq by (unfold is_u8 in *; lia). rewrite !byte_hi by assumption. apply is_nrgba; try assumption. apply B. lia.
Qed.

(** the Go types of the colours *)
Lemma type_color_type mode pal b c : 0 <= mode <= 5 -> Forall bytes3 pal -> (forall k, 0 <= k < type_channels mode -> is_u8 (b k)) ->
  type_color mode (colour_map pal) b = Some c -> of_type mode c /\ wf_color c /\ straight c = meant mode pal b.
Proof.
  intros M FP B E. assert (C : mode = 0 \/ mode = 1 \/ mode = 2 \/ mode = 3 \/ mode = 4 \/ mode = 5) by lia.
  unfold is_u8 in B.
  destruct C as [-> | [-> | [-> | [-> | [-> | ->]]]]]; cbn [type_channels] in B; cbn [type_color] in E;
    pose proof (B 0 ltac:(lia)); try pose proof (B 1 ltac:(lia)); try pose proof (B 2 ltac:(lia)); try pose proof (B 3 ltac:(lia));
    try (injection E as <-; cbn; unfold is_u8; split; [lia|]; split; [lia|reflexivity]);
    unfold colour_map in E; rewrite znth_map in E; cbn [meant Z.odd];
    (destruct (znth pal (b 0)) as [[[r g] l]|] eqn:N; [|discriminate]);
    apply znth_in in N; rewrite Forall_forall in FP; destruct (FP _ N) as (R & G & L); cbn [option_map] in E; injection E as <-;
    cbn [of_type color_RGBA pR pG pB]; rewrite !rep8_eq by (unfold is_u8 in *; lia); rewrite !hi257 by assumption;
    (split; [lia|]); (split; [cbn; unfold is_u8 in *; lia|reflexivity]).
Qed.
Lemma dec_color_type mode pal b c : 0 <= mode <= 5 -> Forall bytes3 pal -> (forall k, 0 <= k < type_channels mode -> is_u8 (b k)) ->
  dec_color mode (Some (colour_map pal)) (map b (zseq (type_channels mode))) = Some c -> of_type mode c /\ wf_color c /\ straight c = meant mode pal b.
Proof.
  intros M FP B E. assert (C : mode = 0 \/ mode = 1 \/ mode = 2 \/ mode = 3 \/ mode = 4 \/ mode = 5) by lia.
  unfold is_u8 in B.
  destruct C as [-> | [-> | [-> | [-> | [-> | ->]]]]]; cbn [type_channels] in *; unfold dec_color, obind in E; rewrite !bget_map in E by lia;
    pose proof (B 0 ltac:(lia)); try pose proof (B 1 ltac:(lia)); try pose proof (B 2 ltac:(lia)); try pose proof (B 3 ltac:(lia));
    try (injection E as <-; cbn; unfold is_u8; split; [lia|]; split; [lia|reflexivity]);
    unfold colour_map in E; rewrite znth_map in E; cbn [meant Z.odd]; (destruct (znth pal _) as [[[r g] l]|] eqn:N; [|discriminate]);
    apply znth_in in N; rewrite Forall_forall in FP; destruct (FP _ N) as (R & G & L); cbn [option_map] in E; injection E as <-;
    cbn [of_type color_RGBA pR pG pB]; try (rewrite !rep8_eq by (unfold is_u8 in *; lia)); try (rewrite !byte_hi by assumption);
    (split; [lia|]); (split; [cbn; unfold is_u8 in *; lia|reflexivity]).
Qed.

(** whatever is decoded from data coding [px] shows it *)
Lemma kinds_pic d g px mode opal pal r : codes g px -> 0 <= mode <= 5 -> gdChannels g = type_channels mode ->
  (4 <= mode -> opal = Some (colour_map pal)) -> Forall bytes3 pal ->
  (forall k x y, 0 <= k < type_channels mode -> 0 <= x < gdW g -> 0 <= y < gdH g -> is_u8 (px k x y)) ->
  decoded d mode g px r ->
  exists pc, pic_of opal r = Some pc /\
    picBounds pc = mkRect 0 0 (gdW g) (gdH g) /\ picModel pc = kind mode (colour_map pal) /\
    typed mode pal (gdW g) (gdH g) px (picAt pc) /\
    forall x y, shown_as (picAt pc x y)
      (if (0 <=? x) && (x <? gdW g) && (0 <=? y) && (y <? gdH g) then meant mode pal (fun k => px k x y) else outside (dpDecompress d) mode pal).
Proof.
  intros (RW & RH & RC & RT & TC) M CH HP FP BX D.
  assert (C : mode = 0 \/ mode = 1 \/ mode = 2 \/ mode = 3 \/ mode = 4 \/ mode = 5) by lia.
  assert (KM : type_model mode opal = kind mode (colour_map pal)).
  { destruct C as [-> | [-> | [-> | [-> | [-> | ->]]]]]; try reflexivity; now rewrite HP by lia. }
  assert (DC : forall b, dec_color mode opal b = dec_color mode (Some (colour_map pal)) b).
  { intros b. destruct C as [-> | [-> | [-> | [-> | [-> | ->]]]]]; try reflexivity; now rewrite HP by lia. }
  unfold decoded in D. destruct (dpDecompress d) eqn:DD.
  - destruct D as (f & -> & F). eexists. cbn [pic_of]. split; [reflexivity|]. split; [reflexivity|]. split; [exact KM|].
    split.
    { intros x y c X Y. cbn [picAt]. unfold pin. cbn [minX minY maxX maxY]. destruct (_ && _) eqn:I; [|lia]. rewrite F by lia. rewrite CH, DC. apply (dec_color_type mode pal (fun k => px k x y)); auto; intros; apply BX; lia. }
    intros x y. cbn [picAt]. unfold pin. cbn [minX minY maxX maxY].
    destruct ((0 <=? x) && (x <? gdW g) && (0 <=? y) && (y <? gdH g)) eqn:I.
    + rewrite F by lia. rewrite CH, DC. apply (dec_color_meant mode pal (fun k => px k x y)); auto. intros k K. apply BX; lia.
    + unfold outside, dec_outside. rewrite DC.
      destruct C as [-> | [-> | [-> | [-> | C]]]]; cbn [comp_outside shown_as Z.ltb Z.compare Pos.compare Pos.compare_cont Z.odd];
        try (eexists; split; [reflexivity|]; vm_compute; reflexivity).
      replace (mode <? 4) with false by lia.
      destruct pal as [|[[a b] c] pal]; [destruct C as [-> | ->]; reflexivity|].
      pose proof (Forall_inv FP) as (U1 & U2 & U3).
      destruct C as [-> | ->]; eexists; (split; [reflexivity|]).
      * change (is_colour (CRGB a b c) (a, b, c, 255)). now apply is_rgb.
      * cbn [color_RGBA pR pG pB]. rewrite !rep8_eq by (unfold is_u8 in *; lia). rewrite !byte_hi by assumption.
        change (is_colour (CNRGBA a b c 0) (a, b, c, 0)). apply is_nrgba; auto. unfold is_u8; lia.
  - subst r. eexists. cbn [pic_of]. split; [reflexivity|]. split; [reflexivity|]. split; [exact KM|].
    split.
    { intros x y c X Y. cbn [picAt].
      pose proof (C31_shows_coded_pixels mode (gdW g) (gdH g) opal (gdTiles g) px [] x y ltac:(lia)
        ltac:(rewrite <- CH; now apply tcoded_coded) ltac:(intros; rewrite HP by lia; discriminate)) as E.
      cbn [comp_history fold_left] in E. rewrite E. unfold pin. cbn [minX minY maxX maxY]. destruct (_ && _) eqn:I; [|lia].
      assert (TCE : forall b, type_color mode (match opal with Some p => p | None => [] end) b = type_color mode (colour_map pal) b).
      { intros b. destruct C as [-> | [-> | [-> | [-> | [-> | ->]]]]]; try reflexivity; now rewrite HP by lia. }
      rewrite TCE. destruct (type_color mode (colour_map pal) (fun k => px k x y)) as [c0|] eqn:T; [|discriminate]. intros Q. assert (c0 = c) as -> by congruence.
      apply (type_color_type mode pal (fun k => px k x y)); auto; intros; apply BX; lia. }
    intros x y. cbn [picAt].
    pose proof (C31_shows_coded_pixels mode (gdW g) (gdH g) opal (gdTiles g) px [] x y ltac:(lia)
      ltac:(rewrite <- CH; now apply tcoded_coded) ltac:(intros; rewrite HP by lia; discriminate)) as E.
    cbn [comp_history fold_left] in E. rewrite E. unfold pin. cbn [minX minY maxX maxY].
    destruct ((0 <=? x) && (x <? gdW g) && (0 <=? y) && (y <? gdH g)) eqn:I.
    + pose proof (type_color_meant mode pal (fun k => px k x y) M FP ltac:(intros k K; apply BX; lia)) as T.
      assert (TCE : forall b, type_color mode (match opal with Some p => p | None => [] end) b = type_color mode (colour_map pal) b).
      { intros b. destruct C as [-> | [-> | [-> | [-> | [-> | ->]]]]]; try reflexivity; now rewrite HP by lia. }
      rewrite TCE. unfold shown_as in *. destruct (meant mode pal (fun k => px k x y)); [destruct T as (c & -> & T); eauto|]. now rewrite T.
    + unfold outside.
      destruct C as [-> | [-> | [-> | [-> | [-> | ->]]]]]; (eexists; split; [reflexivity|]; vm_compute; reflexivity).
Qed.

(** From a block of pixel data of any of the six types, laid out as the format says and coding
    the bytes [px], the decoder builds, decompressing or not, an image of the size and the colour
    model of the type, whose pixels are the colours meant by the bytes, in the Go types of that model.  Outside the bounds it is
    transparent, or black for the types without alpha; but an index type shows the first colour
    of the colour map if decompressed (transparent with alpha), and opaque black if not. *)
Theorem C75_kinds fuel s d g px p mode pal :
  4294967296 <= Z.of_nat fuel -> zlen (sFile s) < 4294967296 -> dpComp d = 1 -> dpMode d < 2 ->
  codes g px -> 0 <= mode <= 5 -> gdChannels g = type_channels mode -> holds s p (grid_bytes g p) ->
  dpPal d = Some (colour_map pal) -> Forall bytes3 pal ->
  (forall k x y, 0 <= k < type_channels mode -> 0 <= x < gdW g -> 0 <= y < gdH g -> is_u8 (px k x y)) ->
  exists r q pc, readImage fuel s d (gdW g) (gdH g) mode (mkR p None) = Ret (r, mkR q None) /\ pic_of (dpPal d) r = Some pc /\
    picBounds pc = mkRect 0 0 (gdW g) (gdH g) /\ picModel pc = kind mode (colour_map pal) /\
    typed mode pal (gdW g) (gdH g) px (picAt pc) /\
    forall x y, shown_as (picAt pc x y)
      (if (0 <=? x) && (x <? gdW g) && (0 <=? y) && (y <? gdH g) then meant mode pal (fun k => px k x y) else outside (dpDecompress d) mode pal).
Proof.
  intros HF HL HC HM CO M CH H HP FP BX.
  assert (VB : validBPP mode (gdChannels g) = true).
  { rewrite CH. assert (C : mode = 0 \/ mode = 1 \/ mode = 2 \/ mode = 3 \/ mode = 4 \/ mode = 5) by lia.
    destruct C as [-> | [-> | [-> | [-> | [-> | ->]]]]]; reflexivity. }
  destruct (runs_readImage fuel s d HL HF HC HM g px p mode CO ltac:(lia) VB H) as (r & q & R & D).
  destruct (kinds_pic d g px mode (dpPal d) pal r CO M CH ltac:(auto) FP BX D) as (pc & P). exists r, q, pc. split; [exact R|exact P].
Qed.
Print Assumptions C75_kinds.

(** two indexed pixels: the data meets the theorem's hypotheses *)
Definition two_pixels : grid := mkGrid 2 1 1 [[[254; 1; 0]]].
Definition white_black : list (Z * Z * Z) := [(255, 255, 255); (9, 8, 7)].
Definition bytes_of (k x y : Z) : Z := if x =? 0 then 1 else 0.
Definition dp (dec : bool) : dparams := mkDP 1 dec 2 (Some (colour_map white_black)) 0.
Example C75_ex : codes two_pixels bytes_of /\ gdChannels two_pixels = type_channels 4 /\ Forall bytes3 white_black /\ holds (mkSrc (grid_bytes two_pixels 0) false) 0 (grid_bytes two_pixels 0) /\  meant 4 white_black (fun k => bytes_of k 0 0) = Some (9, 8, 7, 255).
Proof.
  split; [|split; [reflexivity|]; split; [repeat constructor; cbn; unfold is_u8; lia|]; split; [exists [], []; split; [now rewrite app_nil_r|reflexivity]|reflexivity]].
  unfold codes, two_pixels. cbn [gdW gdH gdChannels gdTiles]. do 3 (split; [lia|]). split; [reflexivity|].
  intros i j Hi Hj. change (tiles_across 2) with 1 in *. change (tiles_across 1) with 1 in *. assert (i = 0) as -> by lia. assert (j = 0) as -> by lia.
  exists [[254; 1; 0]]. split; [reflexivity|]. split; [reflexivity|]. intros k Hk. assert (k = 0) as -> by lia.
  exists [254; 1; 0], [1; 0]. split; [reflexivity|].
  split; [change (tight (254 :: [1; 0] ++ []) ([1; 0] ++ [])); apply ti_short_lit; [lia|reflexivity|constructor]|].
  split; [reflexivity|]. change (tile_side 2 0) with 2. change (tile_side 1 0) with 1. intros u v U V. assert (v = 0) as -> by lia.
  assert (C : u = 0 \/ u = 1) by lia. destruct C as [-> | ->]; reflexivity.
Qed.

(** Decode and DecodeCompressed disagree outside the bounds of an indexed layer: for a colour
    map that does not begin with black, every image of type 4 and size shows there the first
    colour in one case and black in the other. *)
Theorem C32_outside_refuted fuel s d d' g px p r0 g0 b0 pal :
  4294967296 <= Z.of_nat fuel -> zlen (sFile s) < 4294967296 -> dpComp d = 1 -> dpMode d < 2 ->
  d' = mkDP (dpComp d) (negb (dpDecompress d)) (dpBase d) (dpPal d) (dpMode d) ->
  codes g px -> gdChannels g = 1 -> holds s p (grid_bytes g p) ->
  dpPal d = Some (colour_map ((r0, g0, b0) :: pal)) -> Forall bytes3 ((r0, g0, b0) :: pal) ->
  (forall x y, 0 <= x < gdW g -> 0 <= y < gdH g -> is_u8 (px 0 x y)) -> (r0, g0, b0) <> (0, 0, 0) ->
  exists r q pc r' q' pc',
    readImage fuel s d (gdW g) (gdH g) 4 (mkR p None) = Ret (r, mkR q None) /\ pic_of (dpPal d) r = Some pc /\
    readImage fuel s d' (gdW g) (gdH g) 4 (mkR p None) = Ret (r', mkR q' None) /\ pic_of (dpPal d) r' = Some pc' /\
    picBounds pc = picBounds pc' /\ picModel pc = picModel pc' /\
    forall x y, ~ (0 <= x < gdW g /\ 0 <= y < gdH g) ->
      exists c c', picAt pc x y = Some c /\ picAt pc' x y = Some c' /\ color_RGBA c <> color_RGBA c'.
Proof.
  intros HF HL HC HM -> CO CH H HP FP BX NE.
  assert (BX' : forall k x y, 0 <= k < type_channels 4 -> 0 <= x < gdW g -> 0 <= y < gdH g -> is_u8 (px k x y)).
  { intros k x y K X Y. cbn in K. assert (k = 0) as -> by lia. auto. }
  destruct (C75_kinds fuel s d g px p 4 _ HF HL HC HM CO ltac:(lia) CH H HP FP BX') as (r & q & pc & R & P & B & K & _ & S).
  destruct (C75_kinds fuel s (mkDP (dpComp d) (negb (dpDecompress d)) (dpBase d) (dpPal d) (dpMode d)) g px p 4 _ HF HL HC HM CO ltac:(lia) CH H HP FP BX')
    as (r' & q' & pc' & R' & P' & B' & K' & _ & S').
  exists r, q, pc, r', q', pc'. split; [exact R|]. split; [exact P|]. split; [exact R'|]. split; [exact P'|].
  split; [congruence|]. split; [congruence|]. intros x y Out. specialize (S x y). specialize (S' x y).
  destruct ((0 <=? x) && (x <? gdW g) && (0 <=? y) && (y <? gdH g)) eqn:I; [lia|].
  pose proof (Forall_inv FP) as (U1 & U2 & U3). unfold is_u8 in *.
  assert (D : forall c c', is_colour c (r0, g0, b0, 255) -> is_colour c' (0, 0, 0, 255) -> color_RGBA c <> color_RGBA c').
  { intros c c' E E' Q. unfold is_colour in *. rewrite E, E' in Q. rewrite !opq in Q. injection Q as Q1 Q2 Q3. apply NE. repeat f_equal; lia. }
  cbn [dpDecompress] in S'. unfold outside in *. cbn [Z.ltb Z.compare Pos.compare Pos.compare_cont Z.odd] in *.
  destruct (dpDecompress d); cbn [negb] in *; cbn [shown_as] in *; destruct S as (c & S & E); destruct S' as (c' & S' & E'); exists c, c';
    (split; [exact S|]; split; [exact S'|]); [now apply D|apply not_eq_sym; now apply D].
Qed.
Print Assumptions C32_outside_refuted.
