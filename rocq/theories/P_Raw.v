(** C77: pixel data without compression. *)
From Coq Require Import ZifyBool ZifyNat.
Require Import Verif.Base Verif.L_List Verif.L_Word Verif.M_Color Verif.M_Composite Verif.M_Rect Verif.M_Image Verif.M_Reader Verif.L_Reader
  Verif.M_Rle Verif.S_Rle Verif.L_Rle Verif.L_Rle3 Verif.S_Compressed Verif.M_Compressed Verif.L_Compressed Verif.P_Compressed Verif.M_Groups Verif.M_Monad Verif.M_Decode Verif.M_Encode
  Verif.L_Encode Verif.S_String Verif.S_File Verif.S_Layout Verif.S_Raw Verif.L_Pix Verif.L_Layout Verif.L_Grid Verif.L_Run Verif.L_File Verif.L_Linked Verif.L_Trip Verif.L_Trip2 Verif.L_Trip3
  Verif.S_Kinds Verif.P_Kinds.

Lemma zdrop_one {A} (l : list A) i a : znth l i = Some a -> zdrop i l = a :: zdrop (i + 1) l.
Proof.
  intros N. pose proof (znth_range _ _ _ N) as R. destruct (cut_at i l) as (a1 & b & E & L1); [lia|].
  subst l. rewrite zdrop_app by exact L1. rewrite znth_app2 in N by lia. replace (i - zlen a1) with 0 in N by lia.
  destruct b as [|x b]; [discriminate|]. injection N as ->. f_equal.
  change (a1 ++ a :: b) with (a1 ++ [a] ++ b). rewrite app_assoc. rewrite zdrop_app; [reflexivity|].
  rewrite zlen_app. change (zlen [a]) with 1. lia.
Qed.
Lemma map_zseq_eq {A} (f g : Z -> A) n : (forall k, 0 <= k < n -> f k = g k) -> map f (zseq n) = map g (zseq n).
Proof.
  intros H. apply map_ext_in. intros k I. unfold zseq in I. apply in_map_iff in I as (m & <- & I). apply in_seq in I. apply H. lia.
Qed.
Section Raw.
Variables (fuel : nat) (s : src) (d : dparams).
Hypothesis Hlen : zlen (sFile s) < 4294967296.
Hypothesis HF : 4294967296 <= Z.of_nat fuel.
Hypothesis Hcomp : dpComp d = 0.
Hypothesis Hmode : dpMode d < 2.
Section Image.
Variables (w h nch : Z) (tiles : list (list Z)) (ptrs : list Z) (px : Z -> Z -> Z -> Z).
Hypothesis Hw : 0 <= w <= 4294967232.
Hypothesis Hh : 0 <= h <= 4294967232.
Hypothesis Hn : 1 <= nch <= 4.
Hypothesis Hc : planar w h nch tiles px.
Hypothesis Hp : forall i t, znth tiles i = Some t -> exists p, znth ptrs i = Some p /\ 0 <= p < 4294967296 /\ holds s p t.
Hypothesis Hpl : zlen ptrs = zlen tiles.
Hypothesis Htl : zlen tiles = tiles_across w * tiles_across h.

Definition raw_inv (i j : Z) (e : eager) : Prop :=
  egTiles e = zdrop (j * tiles_across w + i) ptrs /\ zlen (egBuf e) = 16384 /\
  forall x y, 0 <= x < w -> 0 <= y < h -> (y / 64 < j \/ (y / 64 = j /\ x / 64 < i)) ->
    egPx e x y = map (fun k => px k x y) (zseq nch).
Lemma raw_tile_ok mode i j e p : mode <= 5 -> 0 <= i < tiles_across w -> 0 <= j < tiles_across h -> raw_inv i j e ->
  runsTo (eager_tile s d mode nch w h (64 * i) (64 * j) e) p (raw_inv (i + 1) j).
Proof.
  intros Mo Hi Hj (E1 & E2 & E4).
  destruct (Hc i j Hi Hj) as (t & N & LX & PX). destruct (Hp _ _ N) as (q & Nt & Rt & Ht).
  unfold eager_tile. rewrite E1, (zdrop_one _ _ _ Nt).
  eapply runsTo_step; [apply runs_goto; exact Rt|]. cbv zeta. fold (tile_side w i) (tile_side h j).
  destruct (tiles_in w i Hi) as [I1 I2]. destruct (tiles_in h j Hj) as [J1 J2].
  set (tw := tile_side w i) in *. set (th := tile_side h j) in *.
  replace (5 <? mode) with false by lia.
  assert (B1 : 0 < tw * th <= 4096) by nia. assert (B2 : 0 < tw * th * nch <= 16384) by nia.
  replace (16384 <? tw * th * nch) with false by lia. rewrite Hcomp. change (0 =? 0) with true. cbv iota.
  destruct (holds_rest s q _ None Ht) as [tl R].
  eapply (runsTo_step _ _ _ t).
  { unfold runs, liftM, readSome. cbn [rErr]. rewrite R. destruct (t ++ tl) as [|c l] eqn:E.
    { apply app_eq_nil in E as [-> _]. change (zlen (@nil Z)) with 0 in LX. lia. }
    rewrite <- E. replace (tw * th * nch <=? zlen (t ++ tl)) with true by (rewrite zlen_app; pose proof (zlen_pos tl); lia).
    rewrite ztake_app by exact LX. reflexivity. }
  apply runsTo_ret. unfold raw_inv. cbn [egTiles egBuf egRle egPx].
  split; [f_equal; lia|]. split; [rewrite zlen_app, zlen_zdrop; lia|].
  intros x y Hx Hy Ho. rewrite tile_pixels_ok by lia.
  destruct (coord_tile w x Hx) as (X1 & X2 & X3). destruct (coord_tile h y Hy) as (Y1 & Y2 & Y3).
  destruct ((64 * i <=? x) && (x <? 64 * i + tw) && (64 * j <=? y) && (y <? 64 * j + th)) eqn:B.
  - apply map_zseq_eq. intros k Hk. unfold bget.
    assert (0 <= (y - 64 * j) * tw + (x - 64 * i) < tw * th).
    { assert (U : 0 <= x - 64 * i < tw) by lia. assert (V : 0 <= y - 64 * j < th) by lia. revert U V. generalize (x - 64 * i) (y - 64 * j). clear. intros. nia. }
    assert (PL : tw * th * k + ((y - 64 * j) * tw + (x - 64 * i)) < tw * th * nch) by (revert H Hk; generalize ((y - 64 * j) * tw + (x - 64 * i)) (tw * th); clear; intros; nia).
    rewrite znth_app1 by (rewrite LX; exact PL). rewrite PX by lia. f_equal; lia.
  - apply E4; auto. destruct Ho as [Ho|[Ho1 Ho2]]; [lia|].
    assert (x / 64 <> i); [|lia]. intros Q. subst i. rewrite Ho1 in *. unfold tw, th in *. lia.
Qed.
Lemma raw_read_ok mode p : mode <= 5 -> zlen ptrs * 16384 <= maxAlloc ->
  runsTo (readAndDecompressImage fuel s d mode nch w h ptrs) p (fun r => exists f, r = RDec mode w h f /\
    forall x y, 0 <= x < w -> 0 <= y < h -> f x y = map (fun k => px k x y) (zseq nch)).
Proof.
  intros Mo Al. unfold readAndDecompressImage. replace (mode <=? 5) with true by lia.
  eapply runsTo_step.
  { unfold allocM. replace (maxAlloc <? w * h * nch) with false. { apply runs_ret. }
    assert (w <= 64 * tiles_across w /\ h <= 64 * tiles_across h).
    { unfold tiles_across. pose proof (Z.div_mod (w + 63) 64 ltac:(lia)). pose proof (Z.mod_pos_bound (w + 63) 64 ltac:(lia)).
      pose proof (Z.div_mod (h + 63) 64 ltac:(lia)). pose proof (Z.mod_pos_bound (h + 63) 64 ltac:(lia)). lia. }
    rewrite Hpl, Htl in Al. assert (w * h <= 64 * tiles_across w * (64 * tiles_across h)) by (apply Z.mul_le_mono_nonneg; lia). nia. }
  eapply runsTo_bind with (Q := raw_inv 0 (ceil64 h)).
  - apply (runs_by64 fuel HF h (fun y e => by64M fuel w (fun x e => eager_tile s d mode nch w h x y e) e) (fun j => raw_inv 0 j) Hh).
    + intros j e q Hj Inv.
      destruct (runs_by64 fuel HF w (fun x e => eager_tile s d mode nch w h x (64 * j) e) (fun i => raw_inv i j) Hw) with (st := e) (p := q) as (e' & q' & R & (E1 & E2 & E4)).
      * intros i st p' Hi. now apply raw_tile_ok.
      * exact Inv.
      * exists e', q'. split; [exact R|]. unfold raw_inv. split; [rewrite E1; f_equal; unfold tiles_across, ceil64; lia|].
        split; [exact E2|]. intros x y Hx Hy Ho. apply E4; auto.
        destruct (coord_tile w x Hx) as (X1 & _). unfold tiles_across, ceil64 in *. lia.
    + unfold raw_inv. cbn [egTiles egBuf egRle egPx]. split; [now rewrite zdrop_0 by lia|]. split; [now rewrite zlen_repeat|].
      intros x y Hx Hy Ho. destruct (coord_tile w x Hx). destruct (coord_tile h y Hy). lia.
  - intros e q (_ & _ & E4). apply runsTo_ret. exists (egPx e). split; [reflexivity|]. intros x y Hx Hy. apply E4; auto.
    destruct (coord_tile h y Hy) as (Y1 & _). unfold tiles_across, ceil64 in *. lia.
Qed.
End Image.

Lemma raw_readImage w h nch tiles px p mode : 0 <= w <= 4294967232 -> 0 <= h <= 4294967232 -> 1 <= nch <= 4 ->
  zlen tiles = tiles_across w * tiles_across h -> planar w h nch tiles px -> mode <= 5 -> validBPP mode nch = true ->
  holds s p (grid_bytes (raw_grid w h nch tiles) p) ->
  runsTo (readImage fuel s d w h mode) p (fun r => exists f, r = RDec mode w h f /\
    forall x y, 0 <= x < w -> 0 <= y < h -> f x y = map (fun k => px k x y) (zseq nch)).
Proof.
  intros RW RH RC RT TC Mo VB H. set (g := raw_grid w h nch tiles) in *. pose proof (holds_range _ _ _ H) as HR.
  assert (RT' : zlen (gdTiles g) = tiles_across w * tiles_across h) by (unfold g, raw_grid; cbn [gdTiles]; now rewrite zlen_map).
  unfold grid_bytes in H. cbv zeta in H. rewrite zlen_map in H. set (q := p + 32 + 4 * zlen (gdTiles g)) in *.
  assert (GL : 4 * zlen (gdTiles g) <= zlen (grid_bytes g p)).
  { unfold grid_bytes. cbv zeta. rewrite !zlen_app, zlen_w32s, zlen_offsets, zlen_map, !w32_len.
    match goal with |- context [zlen (blocks ?a ?b)] => pose proof (zlen_pos (blocks a b)) end. lia. }
  change (gdW g) with w in *. change (gdH g) with h in *. change (gdChannels g) with nch in *.
  apply holds_split in H as [H1 H]. rewrite w32_len in H. apply holds_split in H as [H2 H]. rewrite w32_len in H.
  apply holds_split in H as [H3 H]. rewrite w32_len in H. apply holds_split in H as [H4 H]. rewrite w32_len in H.
  apply holds_split in H as [H5 H]. rewrite w32_len in H. replace (p + 4 + 4 + 4 + 4 + 4) with (p + 20) in H by lia.
  apply holds_split in H as [H6 H]. rewrite w32_len in H. apply holds_split in H as [H7 H]. rewrite w32_len in H.
  apply holds_split in H as [H8 H]. rewrite zlen_w32s, zlen_offsets, zlen_map in H.
  apply holds_split in H as [H9 H]. rewrite w32_len in H.
  replace (p + 20 + 4 + 4 + 4 * zlen (gdTiles g) + 4) with q in H by (unfold q; lia).
  pose proof (holds_range _ _ _ H6) as R6. rewrite w32_len in R6.
  unfold readImage.
  eapply runsTo_step; [apply runs_w32; exact H1|]. eapply runsTo_step; [apply runs_w32; exact H2|].
  rewrite !u32_small by lia. rewrite !Z.eqb_refl. cbn [andb negb].
  eapply runsTo_step; [apply runs_w32; exact H3|]. rewrite u32_small by lia. rewrite VB. cbn [negb].
  eapply runsTo_step; [apply (runs_ptr s d Hmode); exact H4|]. rewrite u32_small by lia.
  eapply runsTo_step; [apply runs_goto; lia|].
  eapply runsTo_step; [apply runs_w32; exact H6|]. eapply runsTo_step; [apply runs_w32; exact H7|].
  rewrite !u32_small by lia. rewrite !Z.eqb_refl. cbn [andb negb].
  eapply runsTo_step.
  { unfold readTiles. eapply runs_bind.
    - unfold allocM. replace (maxAlloc <? _) with false. { apply runs_ret. }
      change (ceil64 w * ceil64 h) with (tiles_across w * tiles_across h). unfold maxAlloc. lia.
    - change (ceil64 w * ceil64 h) with (tiles_across w * tiles_across h). rewrite <- RT'.
      replace (Z.to_nat (zlen (gdTiles g))) with (length (offsets q (map tile_block (gdTiles g)))).
      2:{ pose proof (zlen_offsets q (map tile_block (gdTiles g))) as LO. rewrite zlen_map in LO. unfold zlen in *. lia. }
      apply (runs_ptrs s d Hmode). exact H8. }
  rewrite zlen_offsets, zlen_map.
  eapply runsTo_step; [apply runs_w32; exact H9|]. change (u32 0) with 0. cbn [Z.eqb negb].
  set (ptrs := map u32 (offsets q (map tile_block (gdTiles g)))).
  assert (Lp : zlen ptrs = zlen (gdTiles g)) by (unfold ptrs; now rewrite zlen_map, zlen_offsets, zlen_map).
  assert (Hp : forall i t, znth tiles i = Some t -> exists q, znth ptrs i = Some q /\ 0 <= q < 4294967296 /\ holds s q t).
  { intros i t N. destruct (blocks_offsets s _ _ H i (tile_block [t])) as (o & Nt & Ht); [unfold g, raw_grid; cbn [gdTiles]; now rewrite !znth_map, N|].
    pose proof (holds_range _ _ _ Ht) as Rt. pose proof (zlen_pos (tile_block [t] o)).
    exists o. unfold ptrs. rewrite znth_map, Nt. cbn [option_map]. rewrite u32_small by lia. split; [reflexivity|]. split; [lia|].
    unfold tile_block in Ht. cbn [concat] in Ht. now rewrite app_nil_r in Ht. }
  rewrite Hcomp. rewrite Bool.orb_comm. cbn [orb Z.eqb].
  assert (Lp' : zlen ptrs = zlen tiles) by (rewrite Lp, RT'; lia).
  eapply raw_read_ok; try eassumption; try lia. unfold maxAlloc. lia.
Qed.
End Raw.

(** an image read into memory shows the colours its bytes mean *)
Lemma dec_shown mode w h pal f px pc : 0 <= mode <= 5 -> Forall bytes3 pal ->
  (forall x y, 0 <= x < w -> 0 <= y < h -> f x y = map (fun k => px k x y) (zseq (type_channels mode))) ->
  (forall k x y, 0 <= k < type_channels mode -> 0 <= x < w -> 0 <= y < h -> is_u8 (px k x y)) ->
  pic_of (Some (colour_map pal)) (RDec mode w h f) = Some pc ->
  picBounds pc = mkRect 0 0 w h /\ picModel pc = kind mode (colour_map pal) /\
  forall x y, 0 <= x < w -> 0 <= y < h -> shown_as (picAt pc x y) (meant mode pal (fun k => px k x y)).
Proof.
  intros M FP F BX P. cbn [pic_of] in P. injection P as <-. cbn [picBounds picModel picAt]. split; [reflexivity|]. split.
  - assert (C : mode = 0 \/ mode = 1 \/ mode = 2 \/ mode = 3 \/ mode = 4 \/ mode = 5) by lia.
    destruct C as [-> | [-> | [-> | [-> | [-> | ->]]]]]; reflexivity.
  - intros x y Hx Hy. unfold pin. cbn [minX minY maxX maxY].
    replace ((0 <=? x) && (x <? w) && (0 <=? y) && (y <? h)) with true by lia.
    rewrite F by lia. apply (dec_color_meant mode pal (fun k => px k x y)); auto.
Qed.

(** ** C77 *)
(** Uncompressed pixel data of any of the six types is shown, by Decode and
    DecodeCompressed alike, as if its tiles were planar. *)
Theorem C77_planar fuel s d w h tiles px p mode pal :
  4294967296 <= Z.of_nat fuel -> zlen (sFile s) < 4294967296 -> dpComp d = 0 -> dpMode d < 2 ->
  0 <= w <= 4294967232 -> 0 <= h <= 4294967232 -> 0 <= mode <= 5 ->
  zlen tiles = tiles_across w * tiles_across h -> planar w h (type_channels mode) tiles px ->
  holds s p (grid_bytes (raw_grid w h (type_channels mode) tiles) p) ->
  dpPal d = Some (colour_map pal) -> Forall bytes3 pal ->
  (forall k x y, 0 <= k < type_channels mode -> 0 <= x < w -> 0 <= y < h -> is_u8 (px k x y)) ->
  exists r q pc, readImage fuel s d w h mode (mkR p None) = Ret (r, mkR q None) /\ pic_of (dpPal d) r = Some pc /\
    picBounds pc = mkRect 0 0 w h /\ picModel pc = kind mode (colour_map pal) /\
    forall x y, 0 <= x < w -> 0 <= y < h -> shown_as (picAt pc x y) (meant mode pal (fun k => px k x y)).
Proof.
  intros HF HL HC HM RW RH M TL PL H HP FP BX.
  assert (TC : 1 <= type_channels mode <= 4 /\ validBPP mode (type_channels mode) = true).
  { assert (C : mode = 0 \/ mode = 1 \/ mode = 2 \/ mode = 3 \/ mode = 4 \/ mode = 5) by lia.
    destruct C as [-> | [-> | [-> | [-> | [-> | ->]]]]]; cbn; (split; [lia|reflexivity]). }
  destruct TC as [TC VB].
  destruct (raw_readImage fuel s d HL HF HC HM w h _ tiles px p mode RW RH TC TL PL ltac:(lia) VB H) as (r & q & R & f & -> & F).
  destruct (pic_of (dpPal d) (RDec mode w h f)) as [pc|] eqn:P; [|rewrite HP in P; discriminate P].
  exists (RDec mode w h f), q, pc. split; [exact R|]. split; [exact P|]. rewrite HP in P. eapply dec_shown; eassumption.
Qed.
Print Assumptions C77_planar.

(** With one byte to a pixel (grey and indexed) the two orders are the same: right. *)
Lemma one_planar w h tiles px : interleaved w h 1 tiles px -> planar w h 1 tiles px.
Proof.
  intros I i j Hi Hj. destruct (I i j Hi Hj) as (t & N & L & K). exists t. split; [exact N|]. split; [exact L|].
  intros k u v Hk Hu Hv. rewrite <- (K k u v Hk Hu Hv). f_equal. replace k with 0 by lia. lia.
Qed.
Theorem C77_one_byte_partial fuel s d w h tiles px p mode pal :
  4294967296 <= Z.of_nat fuel -> zlen (sFile s) < 4294967296 -> dpComp d = 0 -> dpMode d < 2 ->
  0 <= w <= 4294967232 -> 0 <= h <= 4294967232 -> mode = 2 \/ mode = 4 ->
  zlen tiles = tiles_across w * tiles_across h -> interleaved w h 1 tiles px ->
  holds s p (grid_bytes (raw_grid w h 1 tiles) p) ->
  dpPal d = Some (colour_map pal) -> Forall bytes3 pal ->
  (forall x y, 0 <= x < w -> 0 <= y < h -> is_u8 (px 0 x y)) ->
  exists r q pc, readImage fuel s d w h mode (mkR p None) = Ret (r, mkR q None) /\ pic_of (dpPal d) r = Some pc /\
    picBounds pc = mkRect 0 0 w h /\ picModel pc = kind mode (colour_map pal) /\
    forall x y, 0 <= x < w -> 0 <= y < h -> shown_as (picAt pc x y) (meant mode pal (fun k => px k x y)).
Proof.
  intros HF HL HC HM RW RH M TL IL H HP FP BX. assert (TC : type_channels mode = 1) by (destruct M as [-> | ->]; reflexivity).
  apply (C77_planar fuel s d w h tiles px p mode pal); auto; rewrite ?TC; auto; [lia|now apply one_planar|].
  intros k x y Hk. replace k with 0 by lia. auto.
Qed.
Print Assumptions C77_one_byte_partial.

(** With more bytes to a pixel the components are mixed up: byte k of pixel l of a tile of n
    pixels is taken from place n*k+l.  So the first byte of the second pixel of the image is
    the second byte of the first one. *)
Lemma in_planes a b nch k u v : 0 <= k < nch -> 0 <= u < a -> 0 <= v < b -> 0 <= a * b * k + (v * a + u) < a * b * nch.
Proof.
  intros K U V. assert (0 <= v * a + u < a * b) by nia. assert (a * b * (k + 1) <= a * b * nch) by (apply Z.mul_le_mono_nonneg_l; lia).
  assert (0 <= a * b * k) by (apply Z.mul_nonneg_nonneg; lia). lia.
Qed.
Lemma shuffled_planar w h nch tiles px : 0 < nch -> interleaved w h nch tiles px -> planar w h nch tiles (shuffled w h nch px).
Proof.
  intros NC I i j Hi Hj. destruct (I i j Hi Hj) as (t & N & L & K). exists t. split; [exact N|]. split; [exact L|].
  intros k u v Hk Hu Hv. destruct (tile_coord w i u ltac:(lia) Hu) as [U1 U2]. destruct (tile_coord h j v ltac:(lia) Hv) as [V1 V2].
  unfold shuffled. rewrite U1, U2, V1, V2. cbv zeta. set (a := tile_side w i) in *. set (b := tile_side h j) in *. set (m := a * b * k + (v * a + u)).
  assert (Hm : 0 <= m < a * b * nch) by (apply (in_planes a b nch); lia).
  pose proof (Z.div_mod m nch ltac:(lia)) as D1. pose proof (Z.mod_pos_bound m nch ltac:(lia)) as D2.
  pose proof (Z.div_mod (m / nch) a ltac:(lia)) as D3. pose proof (Z.mod_pos_bound (m / nch) a ltac:(lia)) as D4.
  assert (0 <= m / nch < a * b) by (split; [apply Z.div_pos; lia|apply Z.div_lt_upper_bound; nia]).
  assert (0 <= m / nch / a < b) by (split; [apply Z.div_pos; lia|apply Z.div_lt_upper_bound; nia]).
  rewrite <- (K (m mod nch) (m / nch mod a) (m / nch / a)) by lia. f_equal. nia.
Qed.
Lemma shuffled_u8 w h nch px : 0 < nch ->
  (forall k x y, 0 <= k < nch -> 0 <= x < w -> 0 <= y < h -> is_u8 (px k x y)) ->
  forall k x y, 0 <= k < nch -> 0 <= x < w -> 0 <= y < h -> is_u8 (shuffled w h nch px k x y).
Proof.
  intros NC BX k x y Hk Hx Hy. destruct (coord_tile w x Hx) as (X1 & X2 & X3). destruct (coord_tile h y Hy) as (Y1 & Y2 & Y3).
  unfold shuffled. cbv zeta. set (a := tile_side w (x / 64)) in *. set (b := tile_side h (y / 64)) in *. set (m := a * b * k + (y mod 64 * a + x mod 64)).
  assert (Hm : 0 <= m < a * b * nch) by (apply (in_planes a b nch); lia).
  pose proof (Z.mod_pos_bound m nch ltac:(lia)). pose proof (Z.mod_pos_bound (m / nch) a ltac:(lia)).
  assert (0 <= m / nch < a * b) by (split; [apply Z.div_pos; lia|apply Z.div_lt_upper_bound; nia]).
  assert (0 <= m / nch / a < b) by (split; [apply Z.div_pos; lia|apply Z.div_lt_upper_bound; nia]).
  assert (a <= w - 64 * (x / 64) /\ b <= h - 64 * (y / 64)) by (unfold a, b, tile_side; lia).
  pose proof (Z.div_pos x 64 ltac:(lia) ltac:(lia)). pose proof (Z.div_pos y 64 ltac:(lia) ltac:(lia)). clear Hm. clearbody m. apply BX; lia.
Qed.
Theorem C77_refuted fuel s d w h tiles px p mode pal :
  4294967296 <= Z.of_nat fuel -> zlen (sFile s) < 4294967296 -> dpComp d = 0 -> dpMode d < 2 ->
  0 <= w <= 4294967232 -> 0 <= h <= 4294967232 -> 0 <= mode <= 5 -> mode <> 2 -> mode <> 4 ->
  zlen tiles = tiles_across w * tiles_across h -> interleaved w h (type_channels mode) tiles px ->
  holds s p (grid_bytes (raw_grid w h (type_channels mode) tiles) p) ->
  dpPal d = Some (colour_map pal) -> Forall bytes3 pal ->
  (forall k x y, 0 <= k < type_channels mode -> 0 <= x < w -> 0 <= y < h -> is_u8 (px k x y)) ->
  exists r q pc, readImage fuel s d w h mode (mkR p None) = Ret (r, mkR q None) /\ pic_of (dpPal d) r = Some pc /\
    (forall x y, 0 <= x < w -> 0 <= y < h ->
       shown_as (picAt pc x y) (meant mode pal (fun k => shuffled w h (type_channels mode) px k x y))) /\
    (2 <= w -> 1 <= h -> shuffled w h (type_channels mode) px 0 1 0 = px 1 0 0).
Proof.
  intros HF HL HC HM RW RH M M2 M4 TL IL H HP FP BX.
  assert (TC : 2 <= type_channels mode) by (assert (C : mode = 0 \/ mode = 1 \/ mode = 3 \/ mode = 5) by lia; destruct C as [-> | [-> | [-> | ->]]]; cbn; lia).
  destruct (C77_planar fuel s d w h tiles (shuffled w h (type_channels mode) px) p mode pal) as (r & q & pc & R & P & _ & _ & S); auto.
  - apply shuffled_planar; [lia|exact IL].
  - apply shuffled_u8; [lia|exact BX].
  - exists r, q, pc. split; [exact R|]. split; [exact P|]. split; [exact S|]. intros W2 H1.
    unfold shuffled. change (1 / 64) with 0. change (0 / 64) with 0. change (1 mod 64) with 1. change (0 mod 64) with 0. cbv zeta.
    assert (2 <= tile_side w 0) by (unfold tile_side; lia). set (a := tile_side w 0) in *.
    replace (a * tile_side h 0 * 0 + (0 * a + 1)) with 1 by lia. rewrite (Z.mod_small 1), (Z.div_small 1) by lia.
    rewrite Z.mod_0_l, Z.div_0_l by lia. f_equal; lia.
Qed.
Print Assumptions C77_refuted.

(** a red and a green pixel, as GIMP stores them, are shown as a magenta and a black one *)
Definition red_green_px (k x y : Z) : Z := if k =? x then 255 else 0.
Definition red_green : list (list Z) := [[255; 0; 0; 0; 255; 0]].
Definition dp_raw : dparams := mkDP 0 true 0 (Some (colour_map [])) 0.
Example C77_ex : interleaved 2 1 3 red_green red_green_px /\ zlen red_green = tiles_across 2 * tiles_across 1 /\
  holds (mkSrc (grid_bytes (raw_grid 2 1 3 red_green) 0) false) 0 (grid_bytes (raw_grid 2 1 3 red_green) 0) /\
  meant 0 [] (fun k => red_green_px k 0 0) = Some (255, 0, 0, 255) /\ meant 0 [] (fun k => shuffled 2 1 3 red_green_px k 0 0) = Some (255, 0, 255, 255) /\
  meant 0 [] (fun k => red_green_px k 1 0) = Some (0, 255, 0, 255) /\ meant 0 [] (fun k => shuffled 2 1 3 red_green_px k 1 0) = Some (0, 0, 0, 255) /\
  interleaved 2 1 1 [[7; 8]] (fun _ x _ => 7 + x).
Proof.
  assert (T : forall nch t px, zlen t = 2 * nch -> (forall k u, 0 <= k < nch -> 0 <= u < 2 -> znth t (u * nch + k) = Some (px k u 0)) -> interleaved 2 1 nch [t] px).
  { intros nch t px L K i j Hi Hj. change (tiles_across 2) with 1 in *. change (tiles_across 1) with 1 in *. assert (i = 0) as -> by lia. assert (j = 0) as -> by lia.
    exists t. split; [reflexivity|]. change (tile_side 2 0) with 2. change (tile_side 1 0) with 1. split; [lia|].
    intros k u v Hk Hu Hv. assert (v = 0) as -> by lia. apply (K k u Hk Hu). }
  split. { apply T; [reflexivity|]. intros k u Hk Hu. assert (C : u = 0 \/ u = 1) by lia. assert (D : k = 0 \/ k = 1 \/ k = 2) by lia.
    destruct C as [-> | ->]; destruct D as [-> | [-> | ->]]; reflexivity. }
  split; [reflexivity|]. split; [exists [], []; split; [now rewrite app_nil_r|reflexivity]|]. do 4 (split; [reflexivity|]).
  apply T; [reflexivity|]. intros k u Hk Hu. assert (C : u = 0 \/ u = 1) by lia. assert (k = 0) as -> by lia. destruct C as [-> | ->]; reflexivity.
Qed.
