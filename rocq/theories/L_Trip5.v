(** The layer tree rebuilt from an encoded file. *)
From Coq Require Import ZifyBool ZifyNat.
Require Import Verif.Base Verif.L_List Verif.M_Color Verif.L_Word Verif.L_Color Verif.M_Composite Verif.M_Rect Verif.M_Image Verif.M_Reader
  Verif.S_Rle Verif.L_Rle Verif.S_Compressed Verif.L_Compressed Verif.M_Groups Verif.S_Groups Verif.L_Groups2 Verif.M_Monad Verif.M_Decode Verif.M_Encode
  Verif.S_String Verif.S_File Verif.S_Layout Verif.S_Tree Verif.L_Layout Verif.L_Grid Verif.L_Run Verif.L_Linked Verif.L_Trip Verif.L_Trip2 Verif.L_Trip3 Verif.L_Trip4 Verif.S_Trip.

(** pixel data code one image only *)
Lemma codes_fun g px px' : codes g px -> codes g px' ->
  forall k x y, 0 <= k < gdChannels g -> 0 <= x < gdW g -> 0 <= y < gdH g -> px k x y = px' k x y.
Proof.
  intros (_ & _ & _ & _ & T) (_ & _ & _ & _ & T') k x y K X Y. apply tcoded_coded in T, T'.
  assert (A : 0 <= x / 64 < tiles_across (gdW g)) by (unfold tiles_across; pose proof (Z.div_mod x 64); pose proof (Z.mod_pos_bound x 64); pose proof (Z.div_mod (gdW g + 63) 64); pose proof (Z.mod_pos_bound (gdW g + 63) 64); lia).
  assert (B : 0 <= y / 64 < tiles_across (gdH g)) by (unfold tiles_across; pose proof (Z.div_mod y 64); pose proof (Z.mod_pos_bound y 64); pose proof (Z.div_mod (gdH g + 63) 64); pose proof (Z.mod_pos_bound (gdH g + 63) 64); lia).
  destruct (T _ _ A B) as (chs & N & _ & D). destruct (T' _ _ A B) as (chs' & N' & _ & D'). rewrite N in N'. injection N' as <-.
  destruct (D k K) as (data & z & E & X1 & _ & P). destruct (D' k K) as (data' & z' & E' & X1' & _ & P'). rewrite E in E'. injection E' as <-.
  pose proof (expands_det _ _ X1 _ X1') as <-.
  assert (U : 0 <= x mod 64 < tile_side (gdW g) (x / 64)) by (unfold tile_side; pose proof (Z.div_mod x 64); pose proof (Z.mod_pos_bound x 64); lia).
  assert (V : 0 <= y mod 64 < tile_side (gdH g) (y / 64)) by (unfold tile_side; pose proof (Z.div_mod y 64); pose proof (Z.mod_pos_bound y 64); lia).
  specialize (P _ _ U V). specialize (P' _ _ U V). rewrite P in P'. injection P' as Q.
  rewrite <- !Z.div_mod in Q by lia. exact Q.
Qed.

(** ** colours *)
Definition conv (k : cmodel) : colfun := snd (fst (colour_type k)).
Definition pal_of (k : cmodel) : option (list color) := option_map (fun p => map entry (palette_bytes p)) (snd (colour_type k)).
Lemma ct_base k : fst (fst (colour_type k)) = base_type k. Proof. destruct k; reflexivity. Qed.
Lemma rep8_hi z : 0 <= z < 256 -> rep8 z / 256 mod 256 = z.
Proof.
  intros H. rewrite rep8_eq by lia. replace (257 * z) with (z + z * 256) by lia. rewrite ?Z.div_add by lia. 
  rewrite Z.div_small by lia. apply Z.mod_small. lia.
Qed.
Lemma palette_color k p c : k = KPalette p \/ k = KAlphaPalette p ->
  type_color 5 (map entry (palette_bytes p)) (fun n => bget (colour_bytes (CfPal p) c) n) = converted k c.
Proof.
  intros K. assert (E : converted k c = converted (KPalette p) c) by (destruct K as [-> | ->]; reflexivity). rewrite E. clear E K.
  unfold type_color, converted, colour_bytes, file_palette. cbv zeta.
  set (q := color_RGBA c). unfold u8 at 2 3 4. set (ix := alphaPalette_Index p _).
  assert (B0 : forall u v, bget [u; v] 0 = u) by reflexivity. assert (B1 : forall u v, bget [u; v] 1 = v) by reflexivity.
  rewrite B0, B1. clear B0 B1. change (5 =? 4) with false. cbv iota. change (u8 ix) with (ix mod 256). change (u8 (pA q)) with (pA q mod 256).
  unfold palette_bytes. rewrite !znth_map. destruct (znth p (ix mod 256)) as [e|]; [|reflexivity]. cbn [option_map].
  unfold rgbModel. set (r := u8 _). set (g := u8 _). set (b := u8 _).
  assert (B : forall z, 0 <= u8 z < 256) by (intros; unfold u8; apply Z.mod_pos_bound; lia).
  assert (I : forall z, u8 (u8 z) = u8 z) by (intros; unfold u8; now rewrite Zmod_mod).
  unfold entry, r, g, b. rewrite !I. cbn [color_RGBA pR pG pB]. rewrite !rep8_hi by apply B. reflexivity.
Qed.
Lemma conv_color k c : type_color (2 * base_type k + 1) (match pal_of k with Some p => p | None => [] end)
  (fun n => bget (colour_bytes (conv k) c) n) = converted k c.
Proof.
  destruct k as [| | | | | |p|p|]; try (apply (palette_color _ p); auto); unfold conv, pal_of, converted, colour_bytes; cbn [colour_type fst snd base_type option_map];
  try (destruct (nrgbaModel c) as [[[r g] b] a]; reflexivity); destruct (grayAlphaModel c) as [y a]; reflexivity.
Qed.
Lemma type_color_ext m pal f g : 0 <= m <= 5 -> (forall n, 0 <= n < type_channels m -> f n = g n) -> type_color m pal f = type_color m pal g.
Proof.
  intros M E. assert (C : m = 0 \/ m = 1 \/ m = 2 \/ m = 3 \/ m = 4 \/ m = 5) by lia.
  destruct C as [-> | [-> | [-> | [-> | [-> | ->]]]]]; cbn [type_channels] in E; unfold type_color; rewrite ?(E 0), ?(E 1), ?(E 2), ?(E 3) by lia; reflexivity.
Qed.
Lemma mode_read d m : dpBase d = 0 \/ dpBase d = 1 \/ dpBase d = 2 -> mode_kept (dpBase d) m -> read_mode d (modeID m) = m.
Proof.
  unfold read_mode, mode_kept. intros [-> | [-> | ->]]; cbn [Z.eqb negb]; intros K.
  - cbn [In] in K. repeat (destruct K as [<-|K]; [reflexivity|]). contradiction.
  - destruct K as [-> | ->]; reflexivity.
  - destruct K as [-> | ->]; reflexivity.
Qed.
Lemma modeID_range m : 0 <= modeID m <= 61. Proof. destruct m; cbn; lia. Qed.

Section Tree.
Variables (rnd : nat -> Z) (wtext : list textDatum -> Z -> Z -> option (list Z)) (ptext : list Z -> tres).
Variables (k : cmodel) (d : dparams) (W H : Z).
Hypothesis Hbase : dpBase d = base_type k.
Hypothesis Hpal : dpPal d = pal_of k.
Definition read_text (data : list Z) : option (list textDatum) := match ptext data with TOk t => Some t | _ => None end.
Notation kept_layer := (kept_layer rnd wtext read_text k).
Notation kept_layers := (kept_layers rnd wtext read_text k).
Notation kept_image := (kept_image rnd wtext read_text k).
Notation good_layer := (good_layer wtext read_text k (dpDecompress d) W H).
Notation good_layers := (good_layers wtext read_text k (dpDecompress d) W H).
Notation flat_layer := (flat_layer rnd wtext (conv k) (base_type k)).
Notation flat_layers := (flat_layers rnd wtext (conv k) (base_type k)).

Lemma base_range : 0 <= base_type k <= 2. Proof. destruct k; cbn; lia. Qed.
Lemma conv_channels : channels (conv k) = type_channels (2 * base_type k + 1).
Proof. destruct k; reflexivity. Qed.

(** ** the records can be read *)
Definition readable (fl : flayer) : Prop :=
  good_head d fl /\ (flGroup fl = true -> flText fl = None /\ flMask fl = None) /\
  (flGroup fl = false -> exists px, good_image d fl px) /\
  (forall data, flText fl = Some data -> exists td, ptext data = TOk td) /\
  (forall g, flMask fl = Some g -> exists pm, good_mask d fl g pm).
Definition result (fl : flayer) (dl : dlayer) : Prop :=
  exists im, dl = head_layer d fl im /\
  if flGroup fl then im = None
  else exists px pm pc i' i'', good_image d fl px /\ (forall g, flMask fl = Some g -> good_mask d fl g pm) /\
    shows (flType fl) (dpPal d) (flImage fl) px pc /\ text_over ptext fl (ILeaf pc) i' /\ mask_over fl pm i' i'' /\ im = Some i''.
Lemma readable_result fuel s f32op fl p : zlen (sFile s) < 4294967296 -> 4294967296 <= Z.of_nat fuel -> dpComp d = 1 -> dpMode d < 2 ->
  readable fl -> holds s p (layer_bytes fl p) -> runsTo (readLayer fuel s f32op ptext d) p (result fl).
Proof.
  intros Hl HF HC HM (GH & GG & GI & GT & GM) HB.
  assert (exists px, flGroup fl = false -> good_image d fl px) as [px Gpx].
  { destruct (flGroup fl); [exists (fun _ _ _ => 0); discriminate|]. destruct (GI eq_refl) as [px G]. exists px. auto. }
  assert (exists pm, forall g, flMask fl = Some g -> good_mask d fl g pm) as [pm Gpm].
  { destruct (flMask fl) as [g|]; [|exists (fun _ _ _ => 0); discriminate]. destruct (GM g eq_refl) as [pm G]. exists pm. intros ? [= <-]. exact G. }
  destruct (runs_readLayer fuel s f32op ptext d Hl HF HC HM fl px pm p GH GG Gpx GT Gpm HB) as (dl & q & R & im & E & K).
  exists dl, q. split; [exact R|]. exists im. split; [exact E|]. destruct (flGroup fl); [exact K|].
  destruct K as (pc & i' & i'' & A & B & C & D). exists px, pm, pc, i', i''. auto 10.
Qed.

Lemma grid_codes so f n pxs n' : fits (soBounds so) -> dx (soBounds so) <= 4294967232 -> dy (soBounds so) <= 4294967232 ->
  reads_tiles so f (tile_starts (soBounds so)) n pxs n' ->
  codes (grid_of so f pxs) (tiles_px (dx (soBounds so)) (dy (soBounds so)) pxs) /\
  forall x y, 0 <= x < dx (soBounds so) -> 0 <= y < dy (soBounds so) -> exists c m m',
    soAt so (minX (soBounds so) + x) (minY (soBounds so) + y) m = Some (c, m') /\
    forall k, tiles_px (dx (soBounds so)) (dy (soBounds so)) pxs k x y = bget (colour_bytes f c) k.
Proof.
  intros F DX DY R. pose proof F as (X & Y & _). destruct (grid_coded so f n pxs n' X Y R) as [TC AT]. split; [|exact AT].
  destruct (sound_grid_of so f n pxs n' F R) as [[WS _] _].
  do 4 (split; [try exact WS; cbn [grid_of gdW gdH gdChannels]; try (unfold dx, dy in *; lia); destruct f; cbn; lia|]). exact TC.
Qed.
Lemma image_px f i n img n' : fits (image_Bounds i) -> dx (image_Bounds i) <= 4294967232 -> dy (image_Bounds i) <= 4294967232 ->
  image_grid rnd f i n img n' -> gdW img = dx (image_Bounds i) /\ gdH img = dy (image_Bounds i) /\ gdChannels img = channels f /\
  exists px, codes img px /\ forall x y, 0 <= x < dx (image_Bounds i) -> 0 <= y < dy (image_Bounds i) -> exists c m m',
    image_At rnd i (minX (image_Bounds i) + x) (minY (image_Bounds i) + y) m = Some (c, m') /\
    forall k, px k x y = bget (colour_bytes f c) k.
Proof.
  intros F DX DY (pxs & R & ->). do 3 (split; [reflexivity|]). eexists. exact (grid_codes (source_of rnd i) f n pxs n' F DX DY R).
Qed.
Lemma mask_px m n g n' : fits (grayBounds m) -> dx (grayBounds m) <= 4294967232 -> dy (grayBounds m) <= 4294967232 ->
  mask_grid (Some m) n (Some g) n' -> gdW g = dx (grayBounds m) /\ gdH g = dy (grayBounds m) /\ gdChannels g = 1 /\
  exists px, codes g px /\ forall x y, 0 <= x < dx (grayBounds m) -> 0 <= y < dy (grayBounds m) ->
    px 0 x y = grayAt m (minX (grayBounds m) + x) (minY (grayBounds m) + y).
Proof.
  intros F DX DY (pxs & R & ->). do 3 (split; [reflexivity|]). eexists.
  destruct (grid_codes (source_gray m) CfGray n pxs n' F DX DY R) as [C K]. split; [exact C|].
  intros x y X Y. destruct (K x y X Y) as (c & a & b & E & P). rewrite P. cbn [source_gray soAt soBounds] in E. injection E as <- _. reflexivity.
Qed.

Lemma good_head_of l ox oy gs txt img msk : good_layer l ox oy -> Forall (fun z => word_sized z) gs ->
  good_head d (fl_of (base_type k) l ox oy gs txt img msk).
Proof.
  destruct l as [nm b md inv tr im]. intros (U & LN & T & M & X & Y & DX & DY & _) F.
  pose proof base_range. pose proof (modeID_range md). unfold good_head. cbn [fl_of flW flH flType flName flOpacity flVisible flX flY flPath flMode lBounds lName lTransparency lInvisible lMode].
  rewrite Hbase. unfold word_sized in *. repeat (split; [try assumption; try lia; try (destruct inv; auto)|]). lia.
Qed.
Lemma good_all g x y : (fix all (g : list layer) : Prop :=
             match g with
             | [] => True
             | l :: g => good_layer l (x + minX (lBounds l)) (y + minY (lBounds l)) /\ all g
             end) g <-> good_layers g x y.
Proof. induction g as [|l g IH]; [reflexivity|]. cbn [S_Trip.good_layers]. now rewrite <- IH. Qed.

Lemma flat_readable l ox oy gs n fls n' : flat_layer l ox oy gs n fls n' -> writable l -> good_layer l ox oy ->
  Forall (fun z => word_sized z) gs -> Forall readable fls.
Proof.
  apply (flat_layer_mut rnd wtext (conv k) (base_type k)
   (fun l ox oy gs n fls n' _ => writable l -> good_layer l ox oy -> Forall (fun z => word_sized z) gs -> Forall readable fls)
   (fun g ox oy gs i n fls n' _ => fold_right (fun l P => writable l /\ P) True g -> good_layers g ox oy -> Forall (fun z => word_sized z) gs ->
      0 <= i -> i + zlen g <= 55296 -> Forall readable fls)).
  - clear l ox oy gs n fls n'. intros l ox oy gs n txt img n1 msk n2 NG TD IG MG Wr G F. constructor; [|constructor].
    split; [now apply good_head_of|]. destruct l as [nm b md inv tr im]. cbn [fl_of flGroup flText flMask lImage] in *.
    destruct G as (U & LN & T & M & X & Y & DX & DY & IN & GI). destruct Wr as (W1 & W2 & _).
    assert (E : dx (image_Bounds im) = dx b /\ dy (image_Bounds im) = dy b) by (destruct im; try discriminate; tauto).
    assert (EU : image_Bounds (unmasked im) = image_Bounds im) by (destruct im; reflexivity). rewrite <- EU in E. destruct E as [E1 E2].
    split; [congruence|]. split; [|split].
    + intros _. destruct (image_px (conv k) (unmasked im) n img n1 W1 ltac:(lia) ltac:(lia) IG) as (GW & GH & GC & px & CO & _).
      exists px. unfold good_image. cbn [fl_of flW flH flImage flType lBounds]. rewrite GW, GH, GC. do 3 (split; [assumption|]).
      split; [rewrite conv_channels; f_equal; lia|]. intros B5. rewrite Hpal. unfold pal_of. assert (B2 : base_type k = 2) by lia.
      destruct k; try discriminate.
    + intros data ->. unfold text_data in TD. cbn [lImage lBounds] in TD. destruct (text_of im) as [|t ts] eqn:ET; [contradiction|].
      rewrite !u32_small in TD by lia. destruct im as [| | |i t'|]; try discriminate. cbn [text_of] in ET. subst t'.
      destruct GI as (_ & _ & GT). specialize (GT _ TD). unfold read_text in GT. destruct (ptext data); try contradiction. eauto.
    + intros g ->. destruct im as [| |i m| |]; cbn [mask_of] in *; try contradiction. destruct GI as (_ & _ & MK & MX & MY & MO).
      destruct (mask_px m n1 g n2 W2 ltac:(lia) ltac:(lia) MG) as (GW & GH & GC & px & CO & _).
      exists px. unfold good_mask. cbn [fl_of flW flH flX flY lBounds]. rewrite GW, GH, MX, MY. split; [exact MK|]. split; [exact CO|]. split; [exact GC|].
      unfold rEq, rect_eqb, rempty. cbn [minX minY maxX maxY]. lia.
  - clear l ox oy gs n fls n'. intros nm b md inv tr g ox oy gs n img n1 fls n2 l IG FL IH Wr G F.
    pose proof G as (U & LN & T & M & X & Y & DX & DY & IN & LG & GL). destruct Wr as (W1 & W2 & W3). apply good_all in GL. constructor.
    + split; [now apply good_head_of|]. unfold fl_of, l. cbn [flGroup flText flMask lImage is_group]. split; [auto|].
      split; [discriminate|]. split; discriminate.
    + apply IH; auto; lia.
  - intros. constructor.
  - clear l ox oy gs n fls n'. intros l g ox oy gs i n fl1 n1 fl2 n2 F1 IH1 F2 IH2 [W1 W2] [G1 G2] F I L. rewrite zlen_cons in L. pose proof (zlen_pos g).
    apply Forall_app. split.
    + apply IH1; auto. apply Forall_app. split; [exact F|]. constructor; [unfold word_sized; lia|constructor].
    + apply IH2; auto; lia.
Qed.
Lemma flats_readable g ox oy gs i n fls n' : flat_layers g ox oy gs i n fls n' -> fold_right (fun l P => writable l /\ P) True g ->
  good_layers g ox oy -> Forall (fun z => word_sized z) gs -> 0 <= i -> i + zlen g <= 55296 -> Forall readable fls.
Proof.
  induction 1 as [|l g ox oy gs i n fl1 n1 fl2 n2 F1 F2 IH2]; intros Wr G F I L; [constructor|]. destruct Wr as [W1 W2], G as [G1 G2].
  rewrite zlen_cons in L. pose proof (zlen_pos g). apply Forall_app. split.
  + eapply flat_readable; eauto. apply Forall_app. split; [exact F|]. constructor; [unfold word_sized; lia|constructor].
  + apply IH2; auto; lia.
Qed.

(** ** the tree *)
Notation canvas := (mkRect 0 0 W H).
Definition node_order (bare : bool) (p : list Z) (r : Z) (nd : node) : list (attrs * bool * list Z) :=
  let path := if bare then [] else p ++ [r] in
  match nd with
  | NLeaf a => [(a, false, path)]
  | NGroup a k => (a, true, path) :: file_order false (p ++ [r]) k
  end.
Definition node_layer (ox oy : Z) (nd : node) : layer :=
  let '(a, i) := match nd with
                 | NLeaf a => (a, match aImage a with Some i => i | None => ILeaf (mkPic ZR KOther (fun _ _ => None)) end)
                 | NGroup a k => (a, IGroup (tree_layers canvas (minX (aBounds a)) (minY (aBounds a)) k))
                 end in
  mkLayer (aName a) (placed canvas ox oy (aBounds a)) (aMode a) (aInvisible a) (aTransparency a) i.
Definition well_node (nd : node) : Prop := match nd with NLeaf _ => True | NGroup _ k => well_labelled k end.
Definition bare_at (p : list Z) : bool := match p with [] => true | _ => false end.
Lemma file_order_cons bare p r nd f : file_order bare p (FCons r nd f) = node_order bare p r nd ++ file_order bare p f.
Proof. reflexivity. Qed.
Lemma tree_layers_cons ox oy r nd f : tree_layers canvas ox oy (FCons r nd f) = node_layer ox oy nd :: tree_layers canvas ox oy f.
Proof. destruct nd; reflexivity. Qed.

Lemma placed_same b ox oy px py : 0 <= dx b -> 0 <= dy b -> ox = px + minX b -> oy = py + minY b ->
  (dx b = 0 \/ dy b = 0 \/ (0 <= ox /\ 0 <= oy /\ ox + dx b <= W /\ oy + dy b <= H)) ->
  same_rect b (placed canvas px py (mkRect ox oy (ox + dx b) (oy + dy b))).
Proof.
  intros DX DY -> -> K. unfold placed, intersect, rsub, same_rect, rempty. cbn [minX minY maxX maxY].
  destruct b as [x0 y0 x1 y1]. unfold dx, dy in *. cbn [minX minY maxX maxY] in *.
  match goal with |- context [if ?c then ZR else _] => destruct c eqn:E end; cbn [minX minY maxX maxY ZR] in *.
  - right. lia.
  - destruct K as [K | [K | K]]; [right; cbn; lia..|]. left. f_equal; lia.
Qed.

Lemma model_type : type_model (base_type k * 2 + 1) (pal_of k) = model_back k.
Proof.
  clear. assert (E : forall p, map entry (palette_bytes p) = map (fun q => let '(r, g, b) := q in CRGB r g b) (map rgbModel p)).
  { intros p. unfold palette_bytes. rewrite !map_map. apply map_ext. intros c. unfold rgbModel, entry, u8. now rewrite !Zmod_mod. }
  destruct k as [| | | | | |p|p|]; try reflexivity; exact (f_equal KAlphaPalette (E p)).
Qed.
Lemma leaf_kept l ox oy px py gs txt img msk n n1 n2 dl : is_group (lImage l) = false -> text_data wtext l txt ->
  image_grid rnd (conv k) (unmasked (lImage l)) n img n1 -> mask_grid (mask_of (lImage l)) n1 msk n2 ->
  writable l -> good_layer l ox oy -> ox = px + minX (lBounds l) -> oy = py + minY (lBounds l) ->
  result (fl_of (base_type k) l ox oy gs txt img msk) dl ->
  exists a, dl = dl_of (a, false, path_kept (fl_of (base_type k) l ox oy gs txt img msk)) /\ aAlpha a = true /\ kept_layer l (node_layer px py (NLeaf a)).
Proof.
  intros NG TD IG MG Wr G EX EY (im' & -> & R). set (fl := fl_of _ _ _ _ _ _ _ _) in *.
  exists (mkA (flName fl) (mkRect (flX fl) (flY fl) (flX fl + flW fl) (flY fl + flH fl)) (read_mode d (flMode fl)) (flVisible fl =? 0) (255 - flOpacity fl) im' true).
  split. { unfold head_layer, dl_of. cbn [aName aBounds aMode aInvisible aTransparency aImage aAlpha]. f_equal. exact NG. }
  split; [reflexivity|]. unfold node_layer. cbn [aName aBounds aMode aInvisible aTransparency aImage aAlpha].
  destruct l as [nm b md inv tr im]. cbn [lImage lBounds] in *. unfold fl in *. cbn [fl_of flW flH flX flY flName flMode flVisible flOpacity flGroup flText flMask flImage flType lBounds lName lMode lInvisible lTransparency lImage] in *.
  rewrite NG in R. destruct R as (px1 & pm & pc & i' & i'' & GI & GM & SH & TO & MO & ->).
  destruct G as (U & LN & T & M & X & Y & DX & DY & IN & GE).
  rewrite mode_read; [|rewrite Hbase; pose proof base_range; lia|now rewrite Hbase].
  replace (255 - (255 - tr)) with tr by lia. replace ((if inv then 0 else 1) =? 0) with inv by now destruct inv.
  constructor; [apply placed_same; auto; lia|].
  destruct Wr as (W1 & W2 & _).
  assert (E : dx (image_Bounds im) = dx b /\ dy (image_Bounds im) = dy b) by (destruct im; try discriminate; tauto).
  assert (EU : image_Bounds (unmasked im) = image_Bounds im) by (destruct im; reflexivity). rewrite <- EU in E. destruct E as [E1 E2].
  assert (SP : same_pixels rnd k (unmasked im) pc).
  { destruct (image_px (conv k) (unmasked im) n img n1 W1 ltac:(lia) ltac:(lia) IG) as (GW & GH & GC & px2 & CO & PX).
    destruct SH as (SB & SM & SA). split; [now rewrite SB, GW, GH|]. split; [rewrite SM, Hpal; apply model_type|]. intros x y Hx Hy. destruct (PX x y Hx Hy) as (c & m & m' & A & Q).
    exists c, m, m'. split; [exact A|]. rewrite GW, GH in SA. rewrite SA by assumption. rewrite Hpal, <- conv_color.
    replace (base_type k * 2 + 1) with (2 * base_type k + 1) by lia. pose proof base_range.
    apply type_color_ext; [lia|]. intros j Hj. rewrite <- Q. destruct GI as (_ & _ & CO1 & _).
    apply (codes_fun img); auto; [|lia..]. rewrite GC, conv_channels. exact Hj. }
  unfold text_over, text_data in *. unfold mask_over in MO. cbn [fl_of flText flMask lImage lBounds] in *.
  destruct im as [p|g|i m|i t|l]; try discriminate; cbn [text_of mask_of unmasked] in *.
  - destruct txt; [contradiction|]. subst i'. destruct msk; [contradiction|]. subst i''.
    apply kept_plain; [exact I|exact SP].
  - destruct txt; [contradiction|]. subst i'. destruct msk as [gm|]; [|contradiction].
    destruct MO as (m' & (MB & MA) & ->). constructor; [exact SP|]. destruct GE as (_ & _ & MK & MX & MY & _).
    destruct (mask_px m n1 gm n2 W2 ltac:(lia) ltac:(lia) MG) as (GW & GH & GC & px2 & CO & PX).
    destruct (GM gm eq_refl) as (_ & CO1 & _). split; [now rewrite MB, GW, GH|]. intros x y Hx Hy. rewrite MA, <- PX by assumption.
    replace (pin x y _) with true by (unfold pin; cbn; rewrite GW, GH; lia). apply (codes_fun gm); auto; [lia..].
  - destruct msk; [contradiction|]. subst i''. destruct t as [|t ts].
    + destruct txt; [contradiction|]. subst i'. apply kept_plain; [exact I|exact SP].
    + destruct txt as [data|]; [|contradiction]. destruct TO as (td & PT & ->). rewrite !u32_small in TD by lia.
      apply (kept_text rnd wtext read_text k b i (t :: ts) pc data td); [discriminate|exact SP|exact TD|]. unfold read_text. now rewrite PT.
  - destruct txt; [contradiction|]. subst i'. destruct msk; [contradiction|]. subst i''.
    apply kept_plain; [exact I|exact SP].
Qed.

Lemma path_kept_snoc p r l ox oy txt img msk : path_kept (fl_of (base_type k) l ox oy (p ++ [r]) txt img msk) = if bare_at p then [] else p ++ [r].
Proof.
  unfold path_kept. cbn [fl_of flPath]. destruct p as [|z p]; [reflexivity|]. cbn [bare_at]. rewrite zlen_app, zlen_cons. change (zlen [r]) with 1.
  pose proof (zlen_pos p). now replace (1 <? 1 + zlen p + 1) with true by lia.
Qed.
Definition tree_good (bare : bool) (p : list Z) (i : Z) (g : list layer) (ox oy : Z) (dls : list dlayer) : Prop :=
  exists f, dls = map dl_of (file_order bare p f) /\ well_labelled f /\ numbered i f /\ zlen (labels f) = zlen g /\ kept_layers g (tree_layers canvas ox oy f).
Lemma labels_from f : forall i, numbered i f -> forall r, In r (labels f) -> i <= r < i + zlen (labels f).
Proof.
  induction f as [|r0 nd f IH]; intros i N r I; [contradiction|]. cbn [labels numbered] in *. destruct N as [-> N]. rewrite zlen_cons.
  pose proof (zlen_pos (labels f)). destruct I as [<-|I]; [lia|]. specialize (IH _ N r I). lia.
Qed.
Lemma tree_cons p i l g ox oy dl1 dl2 nd : 0 <= i -> i + zlen (l :: g) <= 55296 ->
  dl1 = map dl_of (node_order (bare_at p) p i nd) -> well_node nd -> kept_layer l (node_layer ox oy nd) ->
  tree_good (bare_at p) p (i + 1) g ox oy dl2 -> tree_good (bare_at p) p i (l :: g) ox oy (dl1 ++ dl2).
Proof.
  intros I L -> WN KL (f & -> & WF & NF & LF & KF). exists (FCons i nd f). rewrite zlen_cons in *. pose proof (zlen_pos g).
  split; [now rewrite file_order_cons, map_app|]. split.
  - cbn [well_labelled]. split; [unfold scalar; lia|]. split; [|split; [exact WN|exact WF]].
    intros In_. apply (labels_from _ _ NF) in In_. lia.
  - split; [split; [reflexivity|exact NF]|]. split; [cbn [labels]; rewrite zlen_cons; lia|]. rewrite tree_layers_cons. now constructor.
Qed.

Lemma group_kept nm b md inv tr g img ox oy px py gs dl dls : let l := mkLayer nm b md inv tr (IGroup g) in
  good_layer l ox oy -> ox = px + minX b -> oy = py + minY b ->
  result (fl_of (base_type k) l ox oy gs None img None) dl -> gs <> [] -> tree_good false gs 0 g ox oy dls ->
  exists a kids, dl = dl_of (a, true, path_kept (fl_of (base_type k) l ox oy gs None img None)) /\ dls = map dl_of (file_order false gs kids) /\ aAlpha a = true /\
    well_labelled kids /\ kept_layer l (node_layer px py (NGroup a kids)).
Proof.
  intros l G EX EY (im' & -> & R) NE (kids & -> & WL & NK & LK & KK). set (fl := fl_of _ _ _ _ _ _ _ _) in *.
  exists (mkA (flName fl) (mkRect (flX fl) (flY fl) (flX fl + flW fl) (flY fl + flH fl)) (read_mode d (flMode fl)) (flVisible fl =? 0) (255 - flOpacity fl) im' true), kids.
  split; [reflexivity|]. split; [reflexivity|]. split; [reflexivity|]. split; [exact WL|].
  unfold node_layer. cbn [aName aBounds aMode aInvisible aTransparency aImage aAlpha minX minY].
  unfold fl, l in *. cbn [fl_of flW flH flX flY flName flMode flVisible flOpacity lBounds lName lMode lInvisible lTransparency lImage] in *.
  destruct G as (U & LN & T & M & X & Y & DX & DY & IN & GE).
  rewrite mode_read; [|rewrite Hbase; pose proof base_range; lia|now rewrite Hbase].
  replace (255 - (255 - tr)) with tr by lia. replace ((if inv then 0 else 1) =? 0) with inv by now destruct inv.
  constructor; [apply placed_same; auto; lia|]. constructor. exact KK.
Qed.

Lemma Forall2_app_l {A B} (P : A -> B -> Prop) a b l : Forall2 P (a ++ b) l -> exists l1 l2, l = l1 ++ l2 /\ Forall2 P a l1 /\ Forall2 P b l2.
Proof. intros F. apply Forall2_app_inv_l in F as (l1 & l2 & F1 & F2 & ->). eauto. Qed.
Definition layer_tree (l : layer) (ox oy : Z) (gs : list Z) (fls : list flayer) : Prop :=
  writable l -> good_layer l ox oy -> forall p r px py dls, gs = p ++ [r] -> ox = px + minX (lBounds l) -> oy = py + minY (lBounds l) ->
  Forall2 result fls dls -> exists nd, dls = map dl_of (node_order (bare_at p) p r nd) /\ well_node nd /\ kept_layer l (node_layer px py nd).
Lemma flat_tree l ox oy gs n fls n' : flat_layer l ox oy gs n fls n' -> layer_tree l ox oy gs fls.
Proof.
  apply (flat_layer_mut rnd wtext (conv k) (base_type k)
   (fun l ox oy gs n fls n' _ => layer_tree l ox oy gs fls)
   (fun g ox oy gs i n fls n' _ => fold_right (fun l P => writable l /\ P) True g -> good_layers g ox oy ->
      0 <= i -> i + zlen g <= 55296 -> forall dls, Forall2 result fls dls -> tree_good (bare_at gs) gs i g ox oy dls)).
  - clear l ox oy gs n fls n'. intros l ox oy gs n txt img n1 msk n2 NG TD IG MG Wr G p r px py dls -> EX EY F.
    inversion F as [|? dl ? ? R F']; subst. inversion F'; subst.
    destruct (leaf_kept l _ _ px py _ _ _ _ _ _ _ dl NG TD IG MG Wr G eq_refl eq_refl R) as (a & -> & AA & KL).
    exists (NLeaf a). split; [|split; [exact I|exact KL]]. cbn [node_order map]. now rewrite path_kept_snoc.
  - clear l ox oy gs n fls n'. intros nm b md inv tr g ox oy gs n img n1 fls n2 l IG FL IH Wr G p r px py dls -> EX EY F.
    inversion F as [|? dl ? dls' R F']; subst. pose proof G as (_ & _ & _ & _ & _ & _ & _ & _ & _ & LG & GL). apply good_all in GL. destruct Wr as (_ & _ & W3).
    specialize (IH W3 GL ltac:(lia) ltac:(lia) _ F').
    replace (bare_at (p ++ [r])) with false in IH by (now destruct p).
    destruct (group_kept nm b md inv tr g img _ _ px py (p ++ [r]) dl dls' G eq_refl eq_refl R ltac:(now destruct p) IH) as (a & kids & -> & -> & AA & WL & KL).
    exists (NGroup a kids). split; [|split; [exact WL|exact KL]]. cbn [node_order map]. unfold l. now rewrite path_kept_snoc.
  - intros. match goal with X : Forall2 _ [] _ |- _ => inversion X; subst end. exists FNil. repeat split; constructor.
  - clear l ox oy gs n fls n'. intros l g ox oy gs i n fl1 n1 fl2 n2 F1 IH1 F2 IH2 [W1 W2] [G1 G2] I L dls F.
    apply Forall2_app_l in F as (d1 & d2 & -> & R1 & R2).
    destruct (IH1 W1 G1 gs i ox oy d1 eq_refl eq_refl eq_refl R1) as (nd & E & WN & KL).
    pose proof (zlen_pos g). eapply tree_cons; eauto. apply IH2; auto; [lia|rewrite zlen_cons in L; lia].
Qed.
Lemma flats_tree g ox oy gs i n fls n' : flat_layers g ox oy gs i n fls n' -> fold_right (fun l P => writable l /\ P) True g -> good_layers g ox oy ->
      0 <= i -> i + zlen g <= 55296 -> forall dls, Forall2 result fls dls -> tree_good (bare_at gs) gs i g ox oy dls.
Proof.
  induction 1 as [|l g ox oy gs i n fl1 n1 fl2 n2 F1 F2 IH2]; intros Wr G I L dls F.
  - inversion F; subst. exists FNil. repeat split; constructor.
  - destruct Wr as [W1 W2], G as [G1 G2]. apply Forall2_app_l in F as (d1 & d2 & -> & R1 & R2).
    destruct (flat_tree _ _ _ _ _ _ _ F1 W1 G1 gs i ox oy d1 eq_refl eq_refl eq_refl R1) as (nd & E & WN & KL).
    pose proof (zlen_pos g). eapply tree_cons; eauto. apply IH2; auto; [lia|rewrite zlen_cons in L; lia].
Qed.
End Tree.
