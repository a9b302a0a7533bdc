(** Model of xcf/compressed.go: images whose tiles stay run-length coded until a
    pixel is asked for. *)
Require Import Verif.Base Verif.M_Color Verif.M_Rect Verif.M_Image Verif.M_Reader Verif.M_Rle.

(** compressed.go:14-19 [compressedImage]: per tile and channel the coded bytes;
    the number of the tile held in [ciBuf] (4 channels of 4096 bytes) *)
Record ci := mkCI { ciTiles : list (list (list Z)); ciWidth : Z; ciTile : Z; ciBuf : list Z }.

(** image_decode.go:197-201: the image as the decoder builds it *)
Definition newCI (tiles : list (list (list Z))) (w : Z) : ci :=
  mkCI tiles w (-1) (repeat 0 (Z.to_nat 16384)).

(** compressed.go:30-36: decompress the channels from the n-th on.  One rle value
    serves all channels (its state and the sticky error persist; io.EOF is
    cleared); [data] is replaced on each iteration. *)
Fixpoint ci_channels (chs : list (list Z)) (n : Z) (buf : list Z) (r : rle) (e : option err) : outcome (list Z) :=
  match chs with
  | [] => Ret buf
  | data :: chs =>
      if 16384 <? 4096 * (n + 1) then Panic PSlice else
      rr <-! rle_Read (memReader data) (ztake 4096 (zdrop (4096 * n) buf)) r (mkR 0 e);;
      ci_channels chs (n + 1) (ztake (4096 * n) buf ++ rrBuf rr ++ zdrop (4096 * (n + 1)) buf) (rrRle rr)
        (match rErr (rrSt rr) with Some EEOF => None | e => e end)
  end.

(** compressed.go:21-46 [decompressTile]; [c.width & ^63] = width - width mod 64.
    (If it panics the receiver is taken to be unchanged.) *)
Definition decompressTile (c : ci) (x y : Z) : outcome (Z * ci) :=
  let tile := Z.quot y 64 * Z.quot (ciWidth c + 63) 64 + Z.quot x 64 in
  c <-! (if negb (tile =? ciTile c) then
           match znth (ciTiles c) tile with
           | None => Panic PIndex
           | Some chs => buf <-! ci_channels chs 0 (ciBuf c) newRle None;;
                         Ret (mkCI (ciTiles c) (ciWidth c) tile buf)
           end
         else Ret c);;
  Ret (if x <? ciWidth c - ciWidth c mod 64 then 64 * Z.rem y 64 + Z.rem x 64
       else (ciWidth c mod 64) * Z.rem y 64 + Z.rem x 64, c).

(** c.decompressed[i] *)
Definition ci_get (c : ci) (i : Z) : outcome Z :=
  match znth (ciBuf c) i with Some b => Ret b | None => Panic PIndex end.

(** c.Palette[i].RGBA(), as 8-bit components *)
Definition pal8 (pal : list color) (i : Z) : outcome (Z * Z * Z) :=
  match znth pal i with
  | None => Panic PIndex
  | Some e => let p := color_RGBA e in
      Ret (u8 (Z.shiftr (pR p) 8), u8 (Z.shiftr (pG p) 8), u8 (Z.shiftr (pB p) 8))
  end.

(** colour of a pixel once its tile is decompressed, p being its place; [mode] is
    the XCF image type that decides the Go type of the image
    (image_decode.go:239-254):
    0 [CompressedRGB.RGBAt] 65-77, 1 [CompressedNRGBA.NRGBAAt] 96-109,
    2 [CompressedGray.GrayAt] 128-138, 3 [CompressedGrayAlpha.GrayAlphaAt] 157-168,
    4 [CompressedPaletted.At] 185-204, 5 [CompressedPalettedAlpha.At] 221-239 *)
Definition comp_pixel (mode : Z) (pal : list color) (c : ci) (p : Z) : outcome color :=
  match mode with
  | 0 => r <-! ci_get c p;; g <-! ci_get c (p + 4096);; b <-! ci_get c (p + 8192);; Ret (CRGB r g b)
  | 1 => r <-! ci_get c p;; g <-! ci_get c (p + 4096);; b <-! ci_get c (p + 8192);;
         a <-! ci_get c (p + 12288);; Ret (CNRGBA r g b a)
  | 2 => y <-! ci_get c p;; Ret (CGray y)
  | 3 => y <-! ci_get c p;; a <-! ci_get c (p + 4096);; Ret (CGrayAlpha y a)
  | 4 => i <-! ci_get c p;; q <-! pal8 pal i;; let '(r, g, b) := q in Ret (CNRGBA r g b 255)
  | _ => i <-! ci_get c p;; q <-! pal8 pal i;; a <-! ci_get c (4096 + p);;
         let '(r, g, b) := q in Ret (CNRGBA r g b a)
  end.
(** the colour outside the bounds *)
Definition comp_outside (mode : Z) : color :=
  match mode with
  | 0 => CRGB 0 0 0 | 1 => CNRGBA 0 0 0 0 | 2 => CGray 0 | 3 => CGrayAlpha 0 0 | _ => CGray 0
  end.

(** At of the six types (compressed.go:62,93,125,154,185,221) with Rect
    (0,0)-(w,h); [None] is a nil color.Color (nil Palette, types 4 and 5).  The
    second component is the image after the call, also when the call panicked. *)
Definition comp_At (mode : Z) (pal : option (list color)) (h : Z) (c : ci) (x y : Z) : outcome (option color) * ci :=
  if ((mode =? 4) || (mode =? 5)) && match pal with None => true | Some _ => false end then (Ret None, c)
  else if negb (pin x y (mkRect 0 0 (ciWidth c) h)) then (Ret (Some (comp_outside mode)), c)
  else match decompressTile c x y with
       | Ret (p, c) =>
           (o <-! comp_pixel mode (match pal with Some l => l | None => [] end) c p;; Ret (Some o), c)
       | Panic w => (Panic w, c)
       | NoFuel => (NoFuel, c)
       end.

(** a history of At calls: the image it leaves behind *)
Definition comp_history (mode : Z) (pal : option (list color)) (h : Z) (c : ci) (calls : list (Z * Z)) : ci :=
  fold_left (fun c xy => snd (comp_At mode pal h c (fst xy) (snd xy))) calls c.
