(** C86: loading a file and saving the image changes nothing. *)
From Coq Require Import ZifyBool ZifyNat.
Require Import Verif.Base Verif.L_List Verif.M_Color Verif.S_Color Verif.L_Word Verif.M_Composite Verif.L_Modes Verif.L_Pix Verif.L_Layout Verif.L_Grid Verif.M_Rect Verif.M_Image Verif.S_Rect Verif.S_Image Verif.L_Image
  Verif.M_Reader Verif.M_Monad Verif.M_Decode Verif.M_Encode Verif.S_Encode Verif.S_String Verif.S_File Verif.S_Props Verif.S_Accept Verif.S_Compressed Verif.S_Tree Verif.S_Linked Verif.S_Trip Verif.L_Emit Verif.L_Trip5 Verif.P_Trip Verif.S_Layout Verif.P_Layout Verif.L_Written
  Verif.S_Kinds Verif.P_Kinds Verif.S_Meaning Verif.S_Whole Verif.P_Whole Verif.P_Written Verif.S_Panics Verif.P_Panics Verif.L_Readable Verif.S_Resave Verif.L_Resave.
Require Verif.S_Groups Verif.L_Run.

Section Same.
Variables (rnd : nat -> Z) (written : list textDatum -> Z -> Z -> option (list Z)) (ptext : list Z -> tres).
Variables (dec : bool) (pal : list (Z * Z * Z)) (base : Z) (k : cmodel).
Hypotheses (FP : Forall bytes3 pal) (LP : zlen pal <= 256) (FM : file_model base pal k).
Notation neat := (neat written ptext base pal).
Notation shaped := (shaped dec pal base).
Lemma meant_u8 T (bs : Z -> Z) r g b a : 0 <= T <= 5 -> (forall j, 0 <= j < type_channels T -> is_u8 (bs j)) -> meant T pal bs = Some (r, g, b, a) -> is_u8 r /\ is_u8 g /\ is_u8 b.
Proof.
  intros RT B M. assert (C : T = 0 \/ T = 1 \/ T = 2 \/ T = 3 \/ T = 4 \/ T = 5) by lia.
  destruct C as [-> | [-> | [-> | [-> | [-> | ->]]]]]; cbn [meant type_channels] in *;
    try (destruct (znth pal (bs 0)) as [[[r0 g0] b0]|] eqn:N; [|discriminate]; apply znth_in in N; rewrite Forall_forall in FP; pose proof (FP _ N) as (U1 & U2 & U3));
    injection M as <- <- <- _; (split; [|split]); (assumption || (apply B; lia)).
Qed.
(** the picture of a layer, saved and loaded *)
Lemma kept_colours D pc i q : said base D -> aGroup (ldAttrs D) = false -> base = 0 \/ solid pal D ->
  picBounds pc = mkRect 0 0 (ldW D) (ldH D) -> typed (ldType D) pal (ldW D) (ldH D) (ldPx D) (picAt pc) ->
  (forall x y, shown_as (picAt pc x y)
    (if (0 <=? x) && (x <? ldW D) && (0 <=? y) && (y <? ldH D) then meant (ldType D) pal (fun k => ldPx D k x y) else outside dec (ldType D) pal)) ->
  i = ILeaf pc \/ (exists t, i = IText (ILeaf pc) t) ->
  same_pixels rnd k i q -> same_colours pc q.
Proof.
  intros SD G SO PB TY SH Hi SP.
  assert (SP' : same_pixels rnd k (ILeaf pc) q) by (destruct Hi as [-> | (t & ->)]; exact SP). clear SP Hi i.
  destruct SP' as (QB & _ & QP). cbn [image_Bounds] in QB, QP. rewrite PB in QB, QP. unfold dx, dy in QB, QP. cbn [minX minY maxX maxY] in QB, QP. rewrite !Z.sub_0_r in QB, QP.
  split; [now rewrite QB, PB|]. rewrite PB. cbn [minX minY maxX maxY]. intros x y X Y.
  destruct (QP x y X Y) as (c & m & m' & A & Q). cbn [image_At] in A. rewrite !Z.add_0_l in A.
  destruct (picAt pc x y) as [c0|] eqn:E; [|discriminate]. cbn [obind] in A. assert (c0 = c) as -> by congruence. clear A.
  specialize (SH x y). rewrite E in SH. destruct ((0 <=? x) && (x <? ldW D) && (0 <=? y) && (y <? ldH D)) eqn:IN; [|lia].
  destruct (TY x y c X Y E) as (OT & WC & _).
  destruct (meant (ldType D) pal (fun k0 => ldPx D k0 x y)) as [[[[r g] b] a]|] eqn:M; [|discriminate].
  destruct SH as (c0 & E0 & IC). assert (c = c0) as <- by congruence.
  destruct (meant_u8 _ _ _ _ _ _ (sd_type _ _ SD) (fun j J => sd_bytes _ _ SD G j x y J X Y) M) as (R1 & R2 & R3).
  destruct (kept_pixel base pal k (ldType D) _ c r g b a FM (sd_type _ _ SD) (sd_base _ _ SD) FP LP OT WC M R1 R2 R3 IC) as (c' & CV & CE).
  { destruct SO as [SO | SO]; [now left|]. right. destruct (SO x y X Y) as (r' & g1 & b' & a' & M' & A). rewrite M' in M. injection M as <- <- <- <-. exact A. }
  exists c, c'. split; [reflexivity|]. split; [congruence|exact CE].
Qed.
Lemma kept_unchanged F : forall ox oy x0 y0 x1 y1 ls g' bare p, shaped ox oy F ls -> neat x0 y0 x1 y1 F -> Forall (spoken base) (dorder bare p F) ->
  kept_layers rnd written (read_text ptext) k ls g' -> unchanged_layers written ptext ls g'.
Proof.
  induction F as [|r D F IH|r D kids F IHk IH] using df_ind; intros ox oy x0 y0 x1 y1 ls g' bare p S N SP K; cbn [L_Resave.shaped] in S.
  1: subst; inversion K; constructor.
  all: destruct S as (l & rest & -> & E1 & E2 & E3 & E4 & E5 & S); cbn [S_Resave.neat] in N; destruct N as (N1 & N2 & N3 & N4 & N5 & N6 & N7 & N8 & N);
    cbn [dorder] in SP; apply Forall_app in SP as [S1 S2]; pose proof (Forall_inv S1) as [SD SG]; cbn [fst snd] in SD, SG;
    inversion K as [|l0 l' g0 g'' KL KR]; subst; constructor; [|eapply IH; eauto];
    inversion KL as [n b b' m v t i i' SR KI]; subst; cbn [lName lBounds lMode lTransparency lImage] in *;
    (assert (b' = b) as -> by (destruct SR as [-> | [SR _]]; [reflexivity|]; rewrite E2 in SR; unfold box in SR; cbn [minX minY maxX maxY] in SR; lia)); constructor.
  - destruct E5 as (j & (pc & PB & _ & TY & SH & ->) & MK). unfold masked in MK. destruct N8 as [TK SO]. unfold text_kept in TK.
    destruct (ldMask D) as [mk|] eqn:EM.
    + destruct MK as (g & -> & GB & _).
      assert (ET : ldText D = None) by (destruct (ldText D); [destruct TK as (_ & X & _); congruence|reflexivity]). rewrite ET in KI |- *.
      inversion KI as [|b0 i0 q SI SPX| b0 i0 m0 q m' SPX [MB MA]|]; subst; [contradiction|]. rewrite GB in MB, MA. unfold dx, dy in MB, MA. cbn [minX minY maxX maxY] in MB, MA. rewrite !Z.sub_0_r in MB, MA.
      constructor; [eapply kept_colours; eauto|congruence|]. rewrite GB. cbn [minX minY maxX maxY]. intros x y X Y. rewrite MA by lia. reflexivity.
    + subst i. destruct (ldText D) as [tx|].
      * inversion KI as [|b0 i0 q SI SPX| |b0 i0 t0 q data t' T1 SPX WD RD]; subst; [destruct tx; [easy|contradiction]|]. unfold read_text in RD. destruct (ptext data) as [tt0| | |] eqn:PT; try discriminate.
        assert (tt0 = t') as -> by congruence. econstructor; [eapply kept_colours; eauto|exact WD|exact PT].
      * inversion KI as [|b0 i0 q SI SPX| |]; subst. constructor. eapply kept_colours; eauto.
  - destruct E5 as (g & SK & ->). destruct N8 as [_ N8]. apply Forall_inv_tail in S1. inversion KI as [b0 g0 g1 KG|b0 i0 q SI SPX| |]; subst; [|contradiction].
    constructor. eapply IHk; eauto.
  Unshelve. all: exact [].
Qed.
Lemma unchanged_bottom a : forall b, unchanged_layers written ptext a b -> unchanged_layers written ptext (S_Groups.bottom_normal a) (S_Groups.bottom_normal b).
Proof.
  induction a as [|l a IH]; intros b U; inversion U as [|l0 l' g g' UL UR]; subst; [constructor|].
  destruct a as [|x a]; inversion UR as [|x0 x' g1 g1' UX UX']; subst.
  - inversion UL; subst. rewrite !bottom_one. constructor; [|constructor]. now constructor.
  - rewrite !bottom_cons. constructor; [exact UL|]. now apply IH.
Qed.
End Same.

(** the layers of a file speak *)
Lemma file_spoken float ptext f n w h base pal F : (forall z, is_u8 (float z)) -> file_of float (modes_read base) ptext f n w h base pal F ->
  exists bare, Forall (spoken base) (dorder bare [] F) /\ Forall bytes3 pal /\ zlen (dorder bare [] F) < 4294967296.
Proof.
  intros FB [Hb L N W1 W2 HB (prec & iprops & opal & lps & rest & bare & _ & P2 & _ & _ & _ & P6 & _ & P8 & _) _]. exists bare.
  split; [|split; [exact P6|]].
  - clear P2. induction P8 as [|p [[D g] path] ps xs X P8 IH]; constructor; [|exact IH]. destruct X as (LA & G & _). split; [|exact G]. eapply layer_said; eauto.
  - assert (P9 : zlen lps = zlen (dorder bare [] F)) by (unfold zlen; f_equal; exact (forall2_len _ _ _ P8)). rewrite <- P9. rewrite P2 in L. rewrite !zlen_app in L.
    pose proof (zlen_pos (image_start n w h base prec)). pose proof (zlen_pos (props_bytes iprops)). pose proof (zlen_pos (pointer (pointer_kind n) 0)). pose proof (zlen_pos rest).
    assert (X : zlen lps <= zlen (flat_map (pointer (pointer_kind n)) lps)); [|lia]. clear.
    induction lps as [|z lps IH]; [cbn; lia|]. cbn [flat_map]. rewrite zlen_cons, zlen_app.
    assert (1 <= zlen (pointer (pointer_kind n) z)) by (unfold pointer; destruct (_ <? _); rewrite ?zlen_app; unfold word, zlen; cbn; lia). lia.
Qed.

(** the layers loaded from such a file can be saved, and the file loaded again *)
Lemma loaded_good wr rnd wtext ptext f n w h base pal F fuel f32op dec ls :
  file_of (fun z => u8 (f32op z)) (modes_read base) ptext f n w h base pal F -> 4294967296 <= Z.of_nat fuel ->
  masks_ok dec F -> neat wtext ptext base pal 0 0 w h F -> canvas_kept w h F -> zlen pal <= 256 ->
  decodeImage fuel f f32op ptext dec = Ret (inr ls) ->
  exists bare, Forall (spoken base) (dorder bare [] F) /\ Forall bytes3 pal /\ 0 <= base <= 2 /\
    shaped dec pal base 0 0 F ls /\ S_Groups.bottom_normal ls = ls /\ file_model base pal (image_ColorModel (IGroup ls)) /\
    encodable (IGroup ls) /\ 0 <= dx (group_Bounds ls) < 4294967296 /\ 0 <= dy (group_Bounds ls) < 4294967296 /\ zlen ls <= 55296 /\
    good_layers wtext (read_text ptext) (image_ColorModel (IGroup ls)) dec (dx (group_Bounds ls)) (dy (group_Bounds ls)) ls 0 0 /\
    encode wr rnd wtext (IGroup ls) <> None.
Proof.
  intros FO HF MO NE (CW & CH & CN & CT & CX & CY) LP DE.
  destruct (file_spoken _ _ _ _ _ _ _ _ _ ltac:(intros z; unfold is_u8, u8; apply Z.mod_pos_bound; lia) FO) as (bare & SP & FP & CO).
  assert (RB : 0 <= base <= 2) by (destruct FO; assumption). assert (RW : 0 <= w /\ 0 <= h) by (destruct FO as [_ _ _ [? ?] [? ?] _ _ _]; lia).
  destruct (C80_partial f n w h base pal F fuel f32op ptext dec FO MO HF) as (ls0 & DS & DX). rewrite DX in DE. injection DE as <-.
  pose proof (bottom_readable _ (described_readable dec pal base wtext ptext _ F 0 0 ls0 bare [] SP (neat_coloured pal base wtext ptext F RB _ _ _ _ bare [] SP NE) DS)) as RD.
  assert (S0 : shaped dec pal base 0 0 F ls0) by (eapply (shape_described _ _ _ wtext ptext w h F 0 0 0 0 w h); eauto; lia).
  apply shape_bottom in S0. remember (S_Groups.bottom_normal ls0) as ls eqn:EL. clear DX DS.
  assert (BI : S_Groups.bottom_normal ls = ls) by (rewrite EL; apply bottom_idem). clear EL ls0.
  pose proof (shape_model dec pal base F 0 0 ls bare [] S0 SP) as FM.
  assert (Wr : fold_right (fun l P => writable l /\ P) True ls).
  { eapply (shape_writable _ _ _ wtext ptext w h F CT 0 0 0 0 w h); eauto; lia. }
  pose proof (shape_count dec pal base wtext ptext F 0 0 ls bare [] S0) as LC. pose proof (shape_length dec pal base F 0 0 ls S0) as LL.
  (* the canvas *)
  pose proof (shape_boxed dec pal base wtext ptext F 0 0 0 0 w h ls S0 NE) as BX. rewrite !Z.sub_0_r in BX.
  pose proof (boxed_group wtext _ _ _ _ _ BX) as BG. pose proof (shape_tops dec pal base F 0 0 ls S0) as ST. pose proof (neat_tops pal base wtext ptext F _ _ _ _ NE) as NT.
  destruct (group_Bounds_least ls) as (GL & _ & _). set (B := group_Bounds ls) in *.
  assert (IN : forall D l, In (D, l) (combine (tops F) ls) -> minX B <= aX (ldAttrs D) /\ minY B <= aY (ldAttrs D) /\ aX (ldAttrs D) + ldW D <= maxX B /\ aY (ldAttrs D) + ldH D <= maxY B).
  { clear - GL ST NT. intros D l I. assert (Il : In l ls) by (eapply in_combine_r; exact I). assert (ID : In D (tops F)) by (eapply in_combine_l; exact I).
    rewrite Forall_forall in NT. destruct (NT D ID) as (N1 & N2 & _). specialize (GL l Il).
    assert (EB : lBounds l = box (aX (ldAttrs D) - 0) (aY (ldAttrs D) - 0) (ldW D) (ldH D)).
    { clear - I ST. induction ST as [|D0 l0 T ls0 E ST IH]; [contradiction|]. destruct I as [Q|I]; [injection Q as <- <-; exact E|auto]. }
    pose proof (GL (aX (ldAttrs D)) (aY (ldAttrs D))) as G1. pose proof (GL (aX (ldAttrs D) + ldW D - 1) (aY (ldAttrs D) + ldH D - 1)) as G2.
    rewrite EB in G1, G2. unfold box, inside in G1, G2. cbn [minX minY maxX maxY] in G1, G2. lia. }
  assert (IN' : forall D, In D (tops F) -> minX B <= aX (ldAttrs D) /\ minY B <= aY (ldAttrs D) /\ aX (ldAttrs D) + ldW D <= maxX B /\ aY (ldAttrs D) + ldH D <= maxY B).
  { intros D I. enough (X : exists l, In (D, l) (combine (tops F) ls)) by (destruct X as (l & X); eauto).
    clear - I ST. induction ST as [|D0 l0 T ls0 E ST IH]; [contradiction|]. destruct I as [<-|I]; [exists l0; now left|]. destruct (IH I) as (l & X). exists l. now right. }
  apply Exists_exists in CX as (DX & IX & EX). apply Exists_exists in CY as (DY & IY & EY).
  pose proof (IN' _ IX) as QX. pose proof (IN' _ IY) as QY.
  assert (BB : B <> ZR -> minX B = 0 /\ minY B = 0 /\ 0 < maxX B <= w /\ 0 < maxY B <= h) by (intros NZ; destruct BG as [BG|BG]; [easy|lia]).
  assert (NZ : B <> ZR). { intros Q. rewrite Q in QX. cbn in QX. rewrite Forall_forall in NT. pose proof (NT _ IX) as (N1 & _). lia. }
  destruct (BB NZ) as (B1 & B2 & B3 & B4). clear BB.
  assert (DXB : dx B = maxX B) by (unfold dx; lia). assert (DYB : dy B = maxY B) by (unfold dy; lia).
  assert (NE' : neat wtext ptext base pal 0 0 (dx B) (dy B) F).
  { eapply neat_shrink; [exact NE|]. apply Forall_forall. intros D I. specialize (IN' D I). lia. }
  assert (GD : good_layers wtext (read_text ptext) (image_ColorModel (IGroup ls)) dec (dx B) (dy B) ls 0 0).
  { eapply (shape_good dec pal base wtext ptext _ (dx B) (dy B) F FM RB) with (x0 := 0) (y0 := 0); eauto; lia. }
  assert (ES : encode wr rnd wtext (IGroup ls) <> None).
  { apply C87_partial; [cbn [drawn_image]; eapply Forall_impl; [|exact RD]; intros l; apply readable_drawn_layer|]. cbn [texts_image].
    eapply (shape_texts dec pal base wtext ptext F 0 0 0 0 w h); eauto; lia. }
  exists bare. split; [exact SP|]. split; [exact FP|]. split; [exact RB|]. split; [exact S0|]. split; [exact BI|]. split; [exact FM|].
  split; [split; [exact Wr|]; rewrite LC; exact CO|]. split; [lia|]. split; [lia|]. split; [lia|]. split; [exact GD|exact ES].
Qed.

(** A file of the format is loaded and the image saved: the new file is loaded as the same
    image: layers, names, places, modes, visibility, opacity, masks, colours of pixels; texts as they
    are read back (C52).  The layers have to lie inside the canvas and their groups and to touch its
    left and upper edges, masks are of layers at the origin, and in grey and indexed images no
    pixel is translucent. *)
Theorem C86_partial wr rnd wtext ptext f n w h base pal F fuel f32op dec ls :
  file_of (fun z => u8 (f32op z)) (modes_read base) ptext f n w h base pal F -> 4294967296 <= Z.of_nat fuel ->
  masks_ok dec F -> neat wtext ptext base pal 0 0 w h F -> canvas_kept w h F -> zlen pal <= 256 ->
  decodeImage fuel f f32op ptext dec = Ret (inr ls) ->
  faultless wr ->
  exists calls, encode wr rnd wtext (IGroup ls) = Some (None, calls) /\ exists f2, (forall a, stored (map landed calls) a = znth f2 a) /\
    (zlen f2 < 16777216 -> forall fuel2 f32op2, 4294967296 <= Z.of_nat fuel2 ->
       exists ls2, decodeImage fuel2 f2 f32op2 ptext dec = Ret (inr ls2) /\ unchanged_layers wtext ptext ls ls2).
Proof.
  intros FO HF MO NE CK LP DE FL.
  destruct (loaded_good wr rnd _ _ _ _ _ _ _ _ _ _ _ _ _ FO HF MO NE CK LP DE) as (bare & SP & FP & _ & S0 & BI & FM & EC & WB & HB & LL & GD & ES).
  destruct (encode wr rnd wtext (IGroup ls)) as [[e calls]|] eqn:EN; [|easy]. exists calls. clear ES.
  destruct (C36_round_trip_partial wr rnd wtext ptext dec (IGroup ls) ls e calls FL ltac:(now left) EN EC WB HB LL GD) as (-> & f2 & S2 & R2).
  split; [reflexivity|]. exists f2. split; [exact S2|]. intros L2 fuel2 f32op2 HF2. destruct (R2 fuel2 f32op2 HF2) as [R2' _].
  destruct (R2' L2) as (g' & KL & D2). eexists. split; [exact D2|]. rewrite <- BI. apply unchanged_bottom.
  eapply (kept_unchanged rnd wtext ptext dec pal base _ FP LP FM F); eauto.
Qed.
Print Assumptions C86_partial.

(** a grey image with a masked layer in a group *)
Example C86_ex : let F := small_tree 0 222 0 in
  file_of (fun z => u8 z) (modes_read 1) P_Accept.no_text (small 0 222 0) 0 2 1 1 [] F /\ masks_ok true F /\
  neat (fun _ _ _ => None) P_Accept.no_text 1 [] 0 0 2 1 F /\ canvas_kept 2 1 F /\
  exists ls e calls, decodeImage 1000 (small 0 222 0) (fun z => z) P_Accept.no_text true = Ret (inr ls) /\
    encode (fun _ _ p => (zlen p, None)) (fun _ => 0) (fun _ _ _ => None) (IGroup ls) = Some (e, calls).
Proof.
  cbv zeta. destruct C80_ex as (A & B & _). split; [exact A|]. split; [exact B|]. split; [|split].
  - cbn. unfold text_kept, solid. cbn. repeat split; try lia; try discriminate. right. intros x y _ _. do 4 eexists. split; [reflexivity|]. now right.
  - unfold canvas_kept. split; [lia|]. split; [lia|]. split; [vm_compute; discriminate|]. split; [reflexivity|]. split; apply Exists_cons_hd; reflexivity.
  - assert (X : match decodeImage 1000 (small 0 222 0) (fun z => z) P_Accept.no_text true with
      | Ret (inr ls) => match encode (fun _ _ p => (zlen p, None)) (fun _ => 0) (fun _ _ _ => None) (IGroup ls) with Some _ => true | None => false end | _ => false end = true) by (vm_compute; reflexivity).
    destruct (decodeImage _ _ _ _ _) as [[|ls]| |]; try discriminate. destruct (encode _ _ _ _) as [[e calls]|] eqn:E; [|discriminate]. exists ls, e, calls. auto.
Qed.

(** Not so for translucent greys ([neat] is used with base 0 to leave that condition out): each time
    the file is loaded and saved they become darker.  Here a pixel of grey 100 and alpha 128
    becomes 50. *)
Lemma same_bytes (f : list Z) : forall g, (forall a, znth f a = znth g a) -> f = g.
Proof.
  assert (N : forall (l : list Z) n, znth l (Z.of_nat n) = nth_error l n) by (intros l n; unfold znth; destruct (Z.of_nat n <? 0) eqn:E; [lia|now rewrite Nat2Z.id]).
  intros g H. assert (H' : forall n, nth_error f n = nth_error g n) by (intros n; now rewrite <- !N). clear H N. revert g H'.
  induction f as [|a f IH]; intros [|b g] H; [reflexivity|discriminate (H 0%nat)|discriminate (H 0%nat)|]. injection (H 0%nat) as ->. f_equal. apply IH. intros n. exact (H (S n)).
Qed.
Definition layers_of_file (f : list Z) : list layer :=
  match decodeImage 1000 f (fun z => z) P_Accept.no_text true with Ret (inr ls) => ls | _ => [] end.
Lemma layers_loaded f : match decodeImage 1000 f (fun z => z) P_Accept.no_text true with Ret (inr _) => true | _ => false end = true ->
  decodeImage 1000 f (fun z => z) P_Accept.no_text true = Ret (inr (layers_of_file f)).
Proof. unfold layers_of_file. destruct (decodeImage _ _ _ _ _) as [[|ls]| |]; try discriminate. reflexivity. Qed.
Lemma not_loaded f : match decodeImage 1000 f (fun z => z) P_Accept.no_text true with Ret (inl _) => true | _ => false end = true ->
  exists e, decodeImage 1000 f (fun z => z) P_Accept.no_text true = Ret (inl e).
Proof. destruct (decodeImage _ _ _ _ _) as [[e|ls]| |]; try discriminate. eauto. Qed.
Theorem C86_grey_refuted : exists f F ls f2 ls2,
  file_of (fun z => u8 z) (modes_read 1) P_Accept.no_text f 3 1 1 1 [] F /\ masks_ok true F /\
  neat (fun _ _ _ => None) P_Accept.no_text 0 [] 0 0 1 1 F /\ canvas_kept 1 1 F /\
  decodeImage 1000 f (fun z => z) P_Accept.no_text true = Ret (inr ls) /\
  writes_file (IGroup ls) f2 /\ decodeImage 1000 f2 (fun z => z) P_Accept.no_text true = Ret (inr ls2) /\
  ~ unchanged_layers (fun _ _ _ => None) P_Accept.no_text ls ls2.
Proof.
  assert (EN : encodable grey1) by (cbn; unfold S_Tree.fits; repeat split; vm_compute; discriminate || reflexivity).
  assert (WF : writes_file grey1 (P_Trip.file_of grey1 181)) by (apply writes_of; [exact EN|vm_compute; split; [reflexivity|discriminate]]).
  pose proof WF as (calls & E & S).
  assert (FO : exists F, file_of (fun z => u8 z) (modes_read 1) P_Accept.no_text (P_Trip.file_of grey1 181) 3 1 1 1 [] F /\
    S_Written.tolds (fun _ => 0) (fun _ _ _ => None) P_Accept.no_text KGrayAlpha (back_mode 1) [mkLayer [97] (mkRect 0 0 1 1) MNormal false 0 (ILeaf (mkPic (mkRect 0 0 1 1) KGrayAlpha (fun x y => Some (CGrayAlpha 200 128))))] 0 0 F).
  { destruct (encoded _ _ _ _ _ _ _ ltac:(intros ? ? ?; reflexivity) ltac:(now left) E EN) as (_ & Wr & fls & n' & FLs & S').
    assert (EF : file_bytes (head_of grey1) fls = P_Trip.file_of grey1 181).
    { apply same_bytes. intros a. rewrite <- S, <- S'. reflexivity. }
    destruct (L_Written.file_written (fun _ => 0) (fun _ _ _ => None) P_Accept.no_text (modes_read 1) (back_mode 1) (fun _ => True) (fun m _ => back_number 1 m ltac:(lia)) _ fls n' FLs Wr) as (T & TT & FO).
    - cbn. repeat split; try (unfold is_u8; lia). intros x y. eexists. split; [reflexivity|]. cbn. unfold is_u8. lia.
    - cbn. unfold word_sized, dx, dy. cbn. repeat split; try lia. apply ascii1. lia.
    - vm_compute. discriminate.
    - unfold is_word, dx. cbn. lia.
    - unfold is_word, dy. cbn. lia.
    - fold grey1. rewrite EF. vm_compute. reflexivity.
    - exists T. split; [|exact TT]. fold grey1 in FO. rewrite EF in FO. apply FO. }
  destruct FO as (F & FO & T). inversion T as [|l g x y r nd F' TL TR]; subst. inversion TR; subst. inversion TL as [name b m inv tr i x y D NG HT PT MT TX|]; subst.
  destruct HT as (_ & HW & HH & _ & HX & HY & HM & _). cbn in HW, HH, HX, HY, HM, MT, TX. unfold dx, dy in HW, HH. cbn in HW, HH.
  assert (MN : ldMask D = None) by (destruct (ldMask D); [contradiction|reflexivity]).
  set (ls := layers_of_file (P_Trip.file_of grey1 181)). set (ls2 := layers_of_file (P_Trip.file_of (IGroup ls) 181)).
  exists (P_Trip.file_of grey1 181), (DCons r (DLeaf D) DNil), ls, (P_Trip.file_of (IGroup ls) 181), ls2.
  split; [exact FO|]. split; [cbn; split; [congruence|exact I]|].
  split. { cbn [neat]. unfold text_kept. rewrite HW, HH, HX, HY, HM, TX. cbn. repeat split; try lia; try discriminate. }
  split. { unfold canvas_kept. split; [lia|]. split; [lia|]. split; [vm_compute; discriminate|]. split; [reflexivity|]. split; apply Exists_cons_hd; assumption. }
  split; [apply layers_loaded; vm_compute; reflexivity|].
  split. { apply writes_of; [vm_compute; repeat split; discriminate || reflexivity|vm_compute; split; [reflexivity|discriminate]]. }
  split; [apply layers_loaded; vm_compute; reflexivity|].
  intros U.
  assert (X1 : shown_pixel (Ret (inr ls)) = Some (CGrayAlpha 100 128)) by (vm_compute; reflexivity).
  assert (X2 : shown_pixel (Ret (inr ls2)) = Some (CGrayAlpha 50 128)) by (vm_compute; reflexivity).
  assert (BP : match ls with [mkLayer _ _ _ _ _ (ILeaf p)] => picBounds p = mkRect 0 0 1 1 | _ => False end) by (vm_compute; reflexivity).
  clearbody ls2. clearbody ls. clear - U X1 X2 BP. unfold shown_pixel in *.
  inversion U as [|l l' g g' UL UR]; subst; [discriminate|]. inversion UR; subst; [|destruct l as [? ? ? ? ? []]; discriminate].
  inversion UL as [n b m v t i i' UI]; subst. inversion UI as [| b0 p q SC| |]; subst; try discriminate.
  destruct SC as [_ SC]. rewrite BP in SC. destruct (SC 0 0 ltac:(cbn; lia) ltac:(cbn; lia)) as (c & c' & P1 & P2 & PE). rewrite X1 in P1. rewrite X2 in P2. injection P1 as <-. injection P2 as <-. discriminate.
Qed.
Print Assumptions C86_grey_refuted.

(** A layer that reaches out of the canvas: the image is loaded, and saved without an error, but
    the file it is saved to cannot be loaded. *)
Theorem C86_overhang_refuted : exists F ls f2,
  file_of (fun z => u8 z) (modes_read 1) P_Accept.no_text (small 0 0 1) 0 2 1 1 [] F /\ masks_ok true F /\ canvas_kept 2 1 F /\
  decodeImage 1000 (small 0 0 1) (fun z => z) P_Accept.no_text true = Ret (inr ls) /\
  writes_file (IGroup ls) f2 /\ exists e, decodeImage 1000 f2 (fun z => z) P_Accept.no_text true = Ret (inl e).
Proof.
  set (ls := layers_of_file (small 0 0 1)). exists (small_tree 0 0 1), ls, (P_Trip.file_of (IGroup ls) 336).
  split; [apply small_file; lia|]. split; [cbn; tauto|]. split. { unfold canvas_kept. split; [lia|]. split; [lia|]. split; [vm_compute; discriminate|]. split; [reflexivity|]. split; apply Exists_cons_hd; reflexivity. }
  split; [apply layers_loaded; vm_compute; reflexivity|].
  split. { apply writes_of; [vm_compute; repeat split; discriminate || reflexivity|vm_compute; split; [reflexivity|discriminate]]. }
  apply not_loaded. vm_compute. reflexivity.
Qed.
Print Assumptions C86_overhang_refuted.

(** ** C87 for what has been loaded *)
(** An image loaded from a described file can be read at every point of every layer if all indices
    are in the colour map.  Encode takes it exactly if they are and all texts can be written. *)
Theorem C87_loaded_partial wr rnd wtext ptext f n w h base pal F fuel f32op dec ls :
  file_of (fun z => u8 (f32op z)) (modes_read base) ptext f n w h base pal F -> 4294967296 <= Z.of_nat fuel ->
  masks_ok dec F -> decodeImage fuel f f32op ptext dec = Ret (inr ls) ->
  (coloured pal F -> drawn rnd (IGroup ls) /\ drawn_image rnd (IGroup ls)) /\
  (encode wr rnd wtext (IGroup ls) <> None <-> coloured pal F /\ texts_image (fun t w h => wtext t w h <> None) (IGroup ls)).
Proof.
  intros FO HF MO DE.
  destruct (file_spoken _ _ _ _ _ _ _ _ _ ltac:(intros z; unfold is_u8, u8; apply Z.mod_pos_bound; lia) FO) as (bare & SP & _).
  destruct (C80_partial f n w h base pal F fuel f32op ptext dec FO MO HF) as (ls0 & DS & DX). rewrite DX in DE. injection DE as <-.
  assert (DI : coloured pal F -> drawn rnd (IGroup (S_Groups.bottom_normal ls0)) /\ drawn_image rnd (IGroup (S_Groups.bottom_normal ls0))).
  { intros CO. pose proof (bottom_readable _ (described_readable dec pal base wtext ptext _ F 0 0 ls0 bare [] SP CO DS)) as RD.
    split; [apply readable_drawn; now apply readable_group|]. cbn [drawn_image]. eapply Forall_impl; [|exact RD]. intros l. apply readable_drawn_layer. }
  split; [exact DI|]. split.
  - intros EN. pose proof (C87_reads _ _ _ _ EN) as LD. cbn [leaves_image] in LD. apply bottom_leaves in LD.
    assert (CO : coloured pal F) by exact (described_coloured dec pal wtext ptext _ F _ _ _ MO DS LD). split; [exact CO|]. apply (C87_partial wr rnd wtext); [now apply DI|exact EN].
  - intros [CO T]. apply C87_partial; [now apply DI|exact T].
Qed.
Print Assumptions C87_loaded_partial.
Example C87_loaded_ex : coloured [] (small_tree 0 222 0).
Proof. cbn. repeat split; discriminate. Qed.
(** Not so if an index is not in the colour map: Decode takes the file (here an indexed image of one
    pixel, of colour 7 of 2), but to read that pixel or to save the image is a panic. *)
Definition bad_index : list Z := ztake 196 (P_Trip.file_of pal1 199) ++ [7; 0; 255].
Theorem C87_index_refuted : exists ls p, decodeImage 1000 bad_index (fun z => z) P_Accept.no_text true = Ret (inr ls) /\
  map lImage ls = [ILeaf p] /\ picBounds p = mkRect 0 0 1 1 /\ picAt p 0 0 = None /\
  forall wr rnd wtext, encode wr rnd wtext (IGroup ls) = None.
Proof.
  exists (layers_of_file bad_index).
  assert (X : match layers_of_file bad_index with [mkLayer _ _ _ _ _ (ILeaf p)] => picBounds p = mkRect 0 0 1 1 /\ picAt p 0 0 = None | _ => False end) by (vm_compute; auto).
  assert (DE : decodeImage 1000 bad_index (fun z => z) P_Accept.no_text true = Ret (inr (layers_of_file bad_index))) by (apply layers_loaded; vm_compute; reflexivity).
  destruct (layers_of_file bad_index) as [|[n b m v t i] r]; [contradiction|]. destruct i as [p| | | |]; try contradiction; destruct r; try contradiction.
  destruct X as [PB PN]. exists p. split; [exact DE|]. split; [reflexivity|]. split; [exact PB|]. split; [exact PN|]. intros wr rnd wtext.
  pose proof (C87_reads wr rnd wtext (IGroup [mkLayer n b m v t (ILeaf p)])) as H. destruct (encode _ _ _ _) as [r|]; [exfalso|reflexivity]. specialize (H ltac:(discriminate)). apply Forall_inv in H. destruct H as [H0 _]. apply (H0 0 0); [rewrite PB; unfold inside; cbn; lia|exact PN].
Qed.
Print Assumptions C87_index_refuted.
