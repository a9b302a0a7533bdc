(** Model of the XCF decoder: xcf/decoder.go, image_decode.go, layer_decode.go,
    channel.go, skip.go (loops), parasites.go (reading), with the reader of
    M_Reader, the run-length decoder of M_Rle, compressed images of M_Compressed
    and the assembly of M_Groups. *)
Require Import Verif.Base Verif.M_Color Verif.M_Composite Verif.M_Rect Verif.M_Image
  Verif.M_Reader Verif.M_Rle Verif.M_Compressed Verif.M_Groups Verif.M_Monad.

(** make([]T, n) of a byte size beyond the address space panics (Go runtime on
    linux/amd64: maxAlloc = 1<<48); memory below that is taken to be available *)
Definition maxAlloc : Z := 281474976710656.
Definition allocM (bytes : Z) : M unit := if maxAlloc <? bytes then panicM PMake else skipM.

(** result of parsing the text parasite (text.go:19-63 [parseTextData]);
    [THang]: the parser does not come back *)
Inductive tres := TOk (t : list textDatum) | TErr | TPanic | THang.

Section Decoder.
(** [fuel] bounds the loops that Go does not bound; [s] is the byte source behind
    every reader; [f32op] is uint8(math.Float32frombits(b)*255) (rounding of
    float32 and conversion of out-of-range floats are not modelled); [ptext] is
    parseTextData on the parasite's data (modelled in M_Text). *)
Variables (fuel : nat) (s : src) (f32op : Z -> Z) (ptext : list Z -> tres).

Definition rd8 : M Z := liftM (readUint8 s).
Definition rd32 : M Z := liftM (readUint32 s).
Definition rd64 : M Z := liftM (readUint64 s).
Definition rdi32 : M Z := liftM (readInt32 s).
Definition rdBool : M bool := liftM (readBoolProperty s).
Definition rdStr : M (list Z) := liftM (readString s).
Definition skM (n : Z) : M unit := actM (skip n).
Definition skStr : M unit := actM (skipString s).
Definition gotoM (n : Z) : M unit := actM (goto n).
(** a pointer: 32 bits before version 11, 64 bits from then on *)
Definition rdPtr (mode : Z) : M Z := if mode <? 2 then rd32 else rd64.

(** skip.go:33-37 [SkipParasite] *)
Definition skipParasite : M unit := skStr;;; skM 4;;; n <- rd32;; skM n.

(** skip.go:39-67 [SkipPaths] *)
Definition skipPaths : M unit :=
  skM 4;;;
  n <- rd32;;
  countM (Z.to_nat n) (fun _ : unit =>
    skStr;;; skM 4;;; skM 1;;; skM 4;;;
    np <- rd32;;
    v <- rd32;;
    (if v =? 1 then skM (u32 (12 * np));;; retM (inl tt)
     else if v =? 2 then skM 4;;; skM (u32 (12 * np));;; retM (inl tt)
     else if v =? 3 then skM 4;;; skM 4;;; skM (u32 (12 * np));;; retM (inl tt)
     else setErrM EUnknownPathsVersion;;; retM (@inr unit unit tt))) tt;;;
  skipM.

(** skip.go:69-122 [SkipVectors] *)
Definition skipStroke (_ : unit) : M (unit + unit) :=
  ty <- rd32;;
  if negb (ty =? 1) then setErrM EUnknownStrokeType;;; retM (inr tt) else
  skM 4;;;
  nf <- rd32;;
  np <- rd32;;
  if (2 <=? nf) && (nf <=? 6) then skM (u32 (np * u32 (nf * 4 + 1)));;; retM (inl tt)
  else setErrM EInvalidFloatsNumber;;; retM (inr tt).
Definition skipVectors : M unit :=
  v <- rd32;;
  if negb (v =? 1) then setErrM EUnknownVectorVersion else
  skM 4;;;
  n <- rd32;;
  countM (Z.to_nat n) (fun _ : unit =>
    skStr;;; skM 4;;; skM 4;;; skM 4;;;
    m <- rd32;;
    k <- rd32;;
    countM (Z.to_nat m) (fun _ : unit => skipParasite;;; retM (@inl unit unit tt)) tt;;;
    countM (Z.to_nat k) skipStroke tt) tt;;;
  skipM.

(** parasites.go:18-22 [parasite] (name, data; the flags are not used) *)
Record parasite := mkPar { parName : list Z; parFlags : Z; parData : list Z }.
(** parasites.go:26-34 [Get] *)
Definition par_get (ps : list parasite) (name : list Z) : option parasite :=
  find (fun p => key_eqb (parName p) name) ps.

(** parasites.go:36-65 [ReadParasites]; p.data has the declared length, of which
    one Read fills as much as it delivers *)
Definition par_body (st : Z * list parasite) : M (Z * list parasite + list parasite) :=
  let '(l, ps) := st in
  if l =? 0 then retM (inr ps) else
  name <- rdStr;;
  flags <- rd32;;
  pp <- rd32;;
  let read := u32 (4 + u32 (zlen name) + 1 + 4 + 4 + pp) in
  if l <? read then setErrM EInvalidParasites;;; retM (inr [])
  else
    w <- liftM (readSome s pp);;
    retM (inl (l - read, ps ++ [mkPar name flags (w ++ repeat 0 (Z.to_nat (pp - zlen w)))])).
Definition readParasites (l : Z) : M (list parasite) := whileM fuel par_body (l, []).

(** ** Image level: decoder.go *)

(** decoder.go:174-204 [readHeader]: [inl] the returned error *)
Definition hdr_type : list Z := [103; 105; 109; 112; 32; 120; 99; 102; 32].   (* "gimp xcf " *)
Definition version_mode (v : list Z) : option Z :=
  let is (t : list Z) := key_eqb v t in
  if is [102; 105; 108; 101]                                                   (* "file" *)
  || is [118; 48; 48; 49] || is [118; 48; 48; 50] || is [118; 48; 48; 51] then Some 0
  else if is [118; 48; 48; 52] || is [118; 48; 48; 53] || is [118; 48; 48; 54] || is [118; 48; 48; 55]
       || is [118; 48; 48; 56] || is [118; 48; 48; 57] || is [118; 48; 49; 48] then Some 1
  else if is [118; 48; 49; 49] || is [118; 48; 49; 50] || is [118; 48; 49; 51] then Some 2
  else None.
Definition readHeader : M (err + Z) :=
  w <- liftM (readSome s 14);;
  e <- errM;;
  match e with
  | Some e => retM (inl e)
  | None =>
      let h := w ++ repeat 0 (Z.to_nat (14 - zlen w)) in
      if negb (key_eqb (ztake 9 h) hdr_type) then retM (inl EInvalidFileTypeID)
      else match version_mode (slice h 9 13) with
           | None => retM (inl EUnsupportedVersion)
           | Some mode =>
               match znth h 13 with
               | Some 0 => retM (inr mode)
               | _ => retM (inl EInvalidHeader)
               end
           end
  end.

(** decoder.go:242-255: the colour map; one entry *)
Definition readRGB : M color := r <- rd8;; g <- rd8;; b <- rd8;; retM (CRGB r g b).

(** decoder.go:206-305 [readImageProperties]; loop state: palette (nil = [None])
    and compression; result: [inl] the error returned.  Property numbers:
    props.go:5-46. *)
Definition imgprop_state : Type := (option (list color) * Z)%type.
Definition imgprop_body (baseType : Z) (st : imgprop_state)
  : M (imgprop_state + (err + imgprop_state)) :=
  let '(pal, comp) := st in
  typ <- rd32;;
  pl <- rd32;;
  match typ with
  | 0 => retM (inr (if pl =? 0 then inr st else inl EInvalidProperties))
  | 9 | 28 | 8 => rdBool;;; retM (inl st)
  | 6 => o <- rd32;; retM (if 255 <? o then inr (inl EInvalidOpacity) else inl st)
  | 21 => readParasites pl;;; retM (inl st)
  | 20 => rd32;;; retM (inl st)
  | 1 => (if negb (baseType =? 2) then skM pl else skipM);;;
         n <- rd32;;
         p <- listM (Z.to_nat n) readRGB;;
         retM (inl (Some p, comp))
  | 17 => c <- rd8;; retM (if 1 <? c then inr (inl EUnknownCompression) else inl (pal, c))
  | 18 => let ng := pl / 5 in
          if negb (ng * 5 =? pl) then retM (inr (inl EInvalidGuideLength))
          else listM (Z.to_nat ng) (skM 4;;; skM 4);;; retM (inl st)
  | 23 => skipPaths;;; retM (inl st)
  | 19 => skM 4;;; skM 4;;; retM (inl st)
  | 39 => if pl mod 2 =? 1 then retM (inr (inl EInvalidSampleLength))
          else listM (Z.to_nat (pl / 2)) (skM 4;;; skM 4);;; retM (inl st)
  | 22 => u <- rd32;; retM (if 4 <? u then inr (inl EInvalidUnit) else inl st)
  | 24 => skM 4;;; skM 4;;; skStr;;; skStr;;; skStr;;; skStr;;; skStr;;; retM (inl st)
  | 25 => skipVectors;;; retM (inl st)
  | _ => skM pl;;; retM (inl st)
  end.
Definition readImageProperties (baseType : Z) : M (err + imgprop_state) :=
  whileM fuel (imgprop_body baseType) (None, 0).

(** decoder.go:307-325 [readLayerPointers] *)
Definition readLayerPointers (mode : Z) : M (list Z) :=
  whileM fuel (fun l => p <- rdPtr mode;; retM (if p =? 0 then inr l else inl (l ++ [p]))) [].

(** decoder.go:75-108 [DecodeConfig]: the Config and the error; a nil ColorModel
    is [None] *)
Record config := mkCfg { cfgW : Z; cfgH : Z; cfgModel : option cmodel }.
Definition decodeConfigM : M (config * option err) :=
  h <- readHeader;;
  match h with
  | inl e => retM (mkCfg 0 0 None, Some e)
  | inr mode =>
      w <- rd32;; h <- rd32;; baseType <- rd32;;
      (if mode =? 2 then rd32 else retM 0);;;
      match baseType with
      | 0 => e <- errM;; retM (mkCfg w h (Some KNRGBA), e)
      | 1 => e <- errM;; retM (mkCfg w h (Some KGrayAlpha), e)
      | 2 => r <- readImageProperties 2;;
             match r with
             | inl e => retM (mkCfg w h None, Some e)
             | inr (pal, _) => e <- errM;;
                 retM (mkCfg w h (Some (KAlphaPalette (match pal with Some p => p | None => [] end))), e)
             end
      | _ => e <- errM;; retM (mkCfg w h None, e)
      end
  end.

(** ** Pixel data: image_decode.go *)

(** the fields of [decoder] (decoder.go:64-72) other than the reader *)
Record dparams := mkDP {
  dpComp : Z; dpDecompress : bool; dpBase : Z; dpPal : option (list color); dpMode : Z }.
Variable d : dparams.

(** what ReadImage returns: nil, a decoded image (channel bytes of each pixel), or
    a compressed one *)
Inductive rimg :=
| RNil
| RDec (mode w h : Z) (px : Z -> Z -> list Z)
| RComp (mode w h : Z) (tiles : list (list (list Z))).

(** image_decode.go:53-82 [validBPP]; false also sets the error *)
Definition validBPP (mode bpp : Z) : bool :=
  match mode with
  | 2 | 4 => bpp =? 1
  | 3 | 5 => bpp =? 2
  | 0 => bpp =? 3
  | 1 => bpp =? 4
  | _ => true
  end.

(** math.Ceil(float64(w)/64): exact for a uint32 *)
Definition ceil64 (w : Z) : Z := (w + 63) / 64.
(** image_decode.go:92-106 [readTiles] *)
Definition readTiles (w h : Z) : M (list Z) :=
  let n := ceil64 w * ceil64 h in
  allocM (8 * n);;;
  listM (Z.to_nat n) (rdPtr (dpMode d)).

(** 0, 1, ..., n-1 *)
Definition zseq (n : Z) : list Z := map Z.of_nat (seq 0 (Z.to_nat n)).
(** byte i of the buffer (always in range where used) *)
Definition bget (buf : list Z) (i : Z) : Z := match znth buf i with Some b => b | None => 0 end.

(** image_decode.go:176-189: the pixels of one tile.  The heads of the slices
    channels[k] advance together: after l pixels they are at pixBuffer[n*k+l].
    ReadColour stores the pixel (image_decode.go:263-317). *)
Definition put_pixel (px : Z -> Z -> list Z) (x y : Z) (p : list Z) : Z -> Z -> list Z :=
  fun x' y' => if (x' =? x) && (y' =? y) then p else px x' y'.
Definition tile_pixels (bpp : Z) (buf : list Z) (x y w h : Z) (px : Z -> Z -> list Z) : Z -> Z -> list Z :=
  let n := w * h in
  fst (fold_left (fun s1 j =>
         fold_left (fun s2 i =>
           let '(px, l) := s2 in
           (put_pixel px (x + i) (y + j) (map (fun k => bget buf (n * k + l)) (zseq bpp)), l + 1))
           (zseq w) s1)
         (zseq h) (px, 0)).

(** loop state of readAndDecompressImage: remaining tile pointers, pixBuffer, the
    rle reader, the image *)
Record eager := mkEag { egTiles : list Z; egBuf : list Z; egRle : rle; egPx : Z -> Z -> list Z }.

(** image_decode.go:158-189: one tile at (x,y).  An image type above 5 (base type
    above 2) leaves imReader nil: the iteration panics. *)
Definition eager_tile (mode bpp w h x y : Z) (e : eager) : M eager :=
  match egTiles e with
  | [] => panicM PTiles
  | t :: ts =>
      gotoM t;;;
      let tw := Z.min 64 (w - x) in
      let th := Z.min 64 (h - y) in
      let n := tw * th in
      let k := n * bpp in
      if 5 <? mode then panicM PNil
      else if 16384 <? k then panicM PSlice
      else
        if dpComp d =? 0 then
          b <- liftM (readSome s k);;
          let buf := b ++ zdrop (zlen b) (egBuf e) in
          retM (mkEag ts buf (egRle e) (tile_pixels bpp buf x y tw th (egPx e)))
        else
          rr <- (fun st => match rle_Read s (ztake k (egBuf e)) (egRle e) st with
                           | Ret rr => Ret (rr, rrSt rr)
                           | Panic w => Panic w
                           | NoFuel => NoFuel
                           end);;
          actM (fun st => setErrorO st (rrErr rr));;;
          let buf := rrBuf rr ++ zdrop k (egBuf e) in
          retM (mkEag ts buf (rrRle rr) (tile_pixels bpp buf x y tw th (egPx e)))
  end.

(** for v := uint32(0); v < limit; v += 64 { ... }: the addition wraps *)
Definition by64M {S} (limit : Z) (body : Z -> S -> M S) (st : S) : M S :=
  whileM fuel (fun vs : Z * S => let '(v, st) := vs in
    if v <? limit then st <- body v st;; retM (inl (u32 (v + 64), st)) else retM (inr st)) (0, st).

(** image_decode.go:108-194 [readAndDecompressImage]; r is (0,0)-(w,h) *)
Definition readAndDecompressImage (mode bpp w h : Z) (tiles : list Z) : M rimg :=
  (if mode <=? 5 then allocM (w * h * bpp) else skipM);;;
  e <- by64M h (fun y e => by64M w (fun x e => eager_tile mode bpp w h x y e) e)
         (mkEag tiles (repeat 0 (Z.to_nat 16384)) newRle (fun _ _ => repeat 0 (Z.to_nat bpp)));;
  retM (if mode <=? 5 then RDec mode w h (egPx e) else RNil).

(** image_decode.go:207-235: one tile of a compressed image *)
Definition comp_tile (bpp w h x y : Z) (ts : list Z * list (list (list Z))) : M (list Z * list (list (list Z))) :=
  match fst ts with
  | [] => panicM PTiles
  | t :: rest =>
      gotoM t;;;
      let n := Z.min 64 (w - x) * Z.min 64 (h - y) in
      chs <- listM (Z.to_nat bpp)
               (r <- (fun st => match readRLE s n st with
                                | Ret (b, e, st) => Ret ((b, e), st)
                                | Panic w => Panic w
                                | NoFuel => NoFuel
                                end);;
                actM (fun st => setErrorO st (snd r));;;
                retM (fst r));;
      retM (rest, snd ts ++ [chs])
  end.
(** image_decode.go:196-255 [readCompressedImage] *)
Definition readCompressedImage (mode bpp w h : Z) (tiles : list Z) : M rimg :=
  allocM (24 * zlen tiles);;;
  ts <- by64M h (fun y ts => by64M w (fun x ts => comp_tile bpp w h x y ts) ts) (tiles, []);;
  retM (if mode <=? 5 then RComp mode w h (snd ts) else RNil).

(** image_decode.go:14-51 [ReadImage] *)
Definition readImage (w h mode : Z) : M rimg :=
  tw <- rd32;;
  th <- rd32;;
  if negb ((tw =? w) && (th =? h)) then setErrM EInconsistantData;;; retM RNil else
  bpp <- rd32;;
  if negb (validBPP mode bpp) then setErrM EInconsistantData;;; retM RNil else
  p <- rdPtr (dpMode d);;
  gotoM p;;;
  lw <- rd32;;
  lh <- rd32;;
  if negb ((lw =? w) && (lh =? h)) then setErrM EInconsistantData;;; retM RNil else
  tiles <- readTiles w h;;
  z <- rd32;;
  if negb (z =? 0) then setErrM EInconsistantData;;; retM RNil else
  if dpDecompress d || (dpComp d =? 0) then readAndDecompressImage mode bpp w h tiles
  else readCompressedImage mode bpp w h tiles.

(** the decoded pixel as a colour: the types of image_decode.go:118-143 and their
    At methods; [None]: At panics or returns a nil colour *)
Definition dec_color (mode : Z) (pal : option (list color)) (p : list Z) : option color :=
  let b k := bget p k in
  match mode with
  | 0 => Some (CRGB (b 0) (b 1) (b 2))
  | 1 => Some (CNRGBA (b 0) (b 1) (b 2) (b 3))
  | 2 => Some (CGray (b 0))
  | 3 => Some (CGrayAlpha (b 0) (b 1))
  | 4 => pal <-? pal;; znth pal (b 0)
  | _ => pal <-? pal;;
         e <-? znth pal (b 0);;
         let q := color_RGBA e in
         Some (CNRGBA (u8 (Z.shiftr (pR q) 8)) (u8 (Z.shiftr (pG q) 8)) (u8 (Z.shiftr (pB q) 8)) (b 1))
  end.
(** outside the bounds image.Paletted shows its first colour, PalettedAlpha the
    first colour with alpha 0, the others their zero pixel *)
Definition dec_outside (mode : Z) (pal : option (list color)) : option color :=
  match mode with
  | 0 | 1 | 2 | 3 => Some (comp_outside mode)
  | _ => dec_color mode pal [0; 0]
  end.
Definition type_model (mode : Z) (pal : option (list color)) : cmodel :=
  let p := match pal with Some p => p | None => [] end in
  match mode with
  | 0 => KRGB | 1 => KNRGBA | 2 => KGray | 3 => KGrayAlpha | 4 => KPalette p | _ => KAlphaPalette p
  end.
(** the image.Image; a compressed image is observed through its first At call
    (C31: every later call shows the same) *)
Definition pic_of (pal : option (list color)) (r : rimg) : option pic :=
  match r with
  | RNil => None
  | RDec mode w h px =>
      Some (mkPic (mkRect 0 0 w h) (type_model mode pal)
        (fun x y => if pin x y (mkRect 0 0 w h) then dec_color mode pal (px x y) else dec_outside mode pal))
  | RComp mode w h tiles =>
      Some (mkPic (mkRect 0 0 w h) (type_model mode pal)
        (fun x y => match fst (comp_At mode pal h (newCI tiles w) x y) with Ret o => o | _ => None end))
  end.

(** ** Layers: layer_decode.go, channel.go *)

(** channel.go:29-51 [skipProperties] *)
Definition skipProperties : M unit :=
  whileM fuel (fun _ : unit =>
    typ <- rd32;;
    pl <- rd32;;
    match typ with
    | 0 => (if pl =? 0 then skipM else setErrM EInvalidProperties);;; retM (inr tt)
    | 6 => o <- rd32;; (if 255 <? o then setErrM EInvalidOpacity else skipM);;; retM (inl tt)
    | _ => skM pl;;; retM (inl tt)
    end) tt.

(** channel.go:5-27 [ReadChannel]: nil, or the gray image; a compressed image
    fails the type assertion im.( *image.Gray ) *)
Definition readChannel : M (option gray_img) :=
  w <- rd32;;
  h <- rd32;;
  skStr;;;
  skipProperties;;;
  p <- rdPtr (dpMode d);;
  gotoM p;;;
  im <- readImage w h 2;;
  match im with
  | RNil => retM None
  | RDec _ _ _ px => retM (Some (mkGray (mkRect 0 0 w h)
      (fun x y => if pin x y (mkRect 0 0 w h) then bget (px x y) 0 else 0)))
  | RComp _ _ _ _ => panicM PAssert
  end.

(** layer_decode.go:155-232 [readMode] *)
Definition mode_of_id (i : Z) : mode :=
  match i with
  | 0 | 28 => MNormal | 1 => MDissolve | 2 | 29 => MBehind | 3 | 30 => MMultiply
  | 4 | 31 => MScreen | 5 | 23 => MOverlay | 6 | 32 => MDifference | 7 | 33 => MAddition
  | 8 | 34 => MSubtract | 9 | 35 | 54 => MDarkenOnly | 10 | 36 | 55 => MLightenOnly
  | 11 | 24 | 37 => MHue | 12 | 38 => MSaturation | 13 | 26 | 39 => MColor
  | 14 | 40 => MValue | 15 | 41 => MDivide | 16 | 42 => MDodge | 17 | 43 => MBurn
  | 18 | 44 => MHardLight | 19 | 45 => MSoftLight | 20 | 46 => MGrainExtract
  | 21 | 47 => MGrainMerge | 22 | 57 => MColorErase | 25 => MChroma | 27 => MLightness
  | 48 => MVividLight | 49 => MPinLight | 50 => MLinearLight | 51 => MHardMix
  | 52 => MExclusion | 53 => MLinearBurn | 56 => MLuminance | 58 => MErase | 59 => MMerge
  | 60 => MSplit | 61 => MPassThrough | _ => MNormal
  end.

(** updating fields of the layer *)
Definition dl_bounds (l : dlayer) b := mkDL (dlName l) b (dlMode l) (dlInvisible l) (dlTransparency l) (dlImage l) (dlAlpha l) (dlGroup l) (dlPath l).
Definition dl_mode (l : dlayer) m := mkDL (dlName l) (dlBounds l) m (dlInvisible l) (dlTransparency l) (dlImage l) (dlAlpha l) (dlGroup l) (dlPath l).
Definition dl_invisible (l : dlayer) v := mkDL (dlName l) (dlBounds l) (dlMode l) v (dlTransparency l) (dlImage l) (dlAlpha l) (dlGroup l) (dlPath l).
Definition dl_transp (l : dlayer) t := mkDL (dlName l) (dlBounds l) (dlMode l) (dlInvisible l) t (dlImage l) (dlAlpha l) (dlGroup l) (dlPath l).
Definition dl_image (l : dlayer) i := mkDL (dlName l) (dlBounds l) (dlMode l) (dlInvisible l) (dlTransparency l) i (dlAlpha l) (dlGroup l) (dlPath l).
Definition dl_group (l : dlayer) := mkDL (dlName l) (dlBounds l) (dlMode l) (dlInvisible l) (dlTransparency l) (dlImage l) (dlAlpha l) true (dlPath l).
Definition dl_path (l : dlayer) p := mkDL (dlName l) (dlBounds l) (dlMode l) (dlInvisible l) (dlTransparency l) (dlImage l) (dlAlpha l) (dlGroup l) p.

(** layer_decode.go:75-153 [readProperties], 234-244 [readItemPath] *)
Definition lprop_state : Type := (dlayer * list parasite)%type.
Definition lprop_body (st : lprop_state) : M (lprop_state + lprop_state) :=
  let '(l, ps) := st in
  typ <- rd32;;
  pl <- rd32;;
  match typ with
  | 0 => (if pl =? 0 then skipM else setErrM EInvalidProperties);;; retM (inr st)
  | 9 | 28 => skM 4;;; retM (inl st)
  | 6 => o <- rd32;;
         (if 255 <? o then setErrM EInvalidOpacity else skipM);;;
         retM (inl (dl_transp l (u8 (255 - u8 o)), ps))
  | 21 => ps <- readParasites pl;; retM (inl (l, ps))
  | 20 => skM 4;;; retM (inl st)
  | 8 => v <- rdBool;; retM (inl (dl_invisible l (negb v), ps))
  | 2 => retM (inl st)
  | 11 | 12 => skM 4;;; retM (inl st)
  | 5 => skM 4;;; retM (inl st)
  | 29 => retM (inl (dl_group l, ps))
  | 30 => (if negb (pl mod 4 =? 0) then setErrM EInvalidItemPathLength else skipM);;;
          p <- listM (Z.to_nat (pl / 4)) (v <- rd32;; retM (s32 v));;
          retM (inl (dl_path l p, ps))
  | 31 => skM 4;;; retM (inl st)
  | 10 => skM 4;;; retM (inl st)
  | 7 => i <- rd32;;
         retM (inl (dl_mode l (if negb (dpBase d =? 0) then (if i =? 2 then MBehind else MNormal)
                               else mode_of_id i), ps))
  | 15 => ox <- rdi32;; oy <- rdi32;; retM (inl (dl_bounds l (radd (dlBounds l) ox oy), ps))
  | 13 => skM 4;;; retM (inl st)
  | 26 => skM 4;;; retM (inl st)
  | 33 => b <- rd32;; retM (inl (dl_transp l (u8 (255 - u8 (f32op b))), ps))
  | _ => skM pl;;; retM (inl st)
  end.
Definition readProperties (l : dlayer) : M lprop_state := whileM fuel lprop_body (l, []).

(** layer_decode.go:246-262 [readMask] *)
Definition readMask (l : dlayer) : M dlayer :=
  m <- readChannel;;
  match m with
  | None => retM l
  | Some m =>
      if negb (rEq (dlBounds l) (grayBounds m)) then setErrM EInconsistantData;;; retM l
      else retM (dl_image l (Some (IMasked (image_of (dlImage l)) m)))
  end.

(** "gimp-text-layer" *)
Definition textParasiteName : list Z :=
  [103; 105; 109; 112; 45; 116; 101; 120; 116; 45; 108; 97; 121; 101; 114].

(** layer_decode.go:53-72: from the text parasite on *)
Definition finishLayer (l : dlayer) (ps : list parasite) (mptr : Z) : M dlayer :=
  let mask l := if negb (mptr =? 0) then gotoM mptr;;; readMask l else retM l in
  match par_get ps textParasiteName with
  | None => mask l
  | Some t =>
      match ptext (parData t) with
      | TPanic => panicM PText
      | THang => fun _ => NoFuel
      | TErr => setErrM EInvalidLayerType;;; retM l
      | TOk td => mask (dl_image l (Some (IText (image_of (dlImage l)) td)))
      end
  end.
(** layer_decode.go:17-73 [ReadLayer] *)
Definition readLayer : M dlayer :=
  w <- rd32;;
  h <- rd32;;
  typ <- rd32;;
  let l := mkDL [] (mkRect 0 0 w h) MNormal false 0 None false false [] in
  if negb (typ / 2 =? dpBase d) then setErrM EInvalidLayerType;;; retM l else
  name <- rdStr;;
  '(l, ps) <- readProperties (mkDL name (mkRect 0 0 w h) MNormal false 0 None (typ mod 2 =? 1) false []);;
  hptr <- rdPtr (dpMode d);;
  mptr <- rdPtr (dpMode d);;
  gotoM hptr;;;
  if dlGroup l then finishLayer l ps mptr
  else
    im <- readImage (u32 (dx (dlBounds l))) (u32 (dy (dlBounds l))) typ;;
    match pic_of (dpPal d) im with
    | None => retM l
    | Some p => finishLayer (dl_image l (Some (ILeaf p))) ps mptr
    end.
End Decoder.

(** ** decoder.go:128-172 [decodeImage] *)

(** decoder.go:337-361: what one goroutine does: a fresh reader, the layer at
    [lptr]; [fst] the layer, [snd] its d.Err *)
Definition readLayerAt fuel (s : src) f32op ptext (d : dparams) (lptr : Z) : outcome (dlayer * option err) :=
  match (gotoM lptr;;; readLayer fuel s f32op ptext d) (mkR 0 None) with
  | Ret (l, st) => Ret (l, rErr st)
  | Panic w => Panic w
  | NoFuel => NoFuel
  end.
Fixpoint mapO {A B} (f : A -> outcome B) (l : list A) : outcome (list B) :=
  match l with
  | [] => Ret []
  | a :: l => b <-! f a;; r <-! mapO f l;; Ret (b :: r)
  end.
(** the first error of a list *)
Fixpoint first_err {A} (l : list (A * option err)) : option err :=
  match l with
  | [] => None
  | (_, Some e) :: _ => Some e
  | (_, None) :: l => first_err l
  end.

(** decoder.go:128-172 [decodeImage], given the source behind its readers; the
    layers are decoded in order (C49 treats the goroutines), the map of groups is
    visited in the order of creation (C46: the order does not matter) *)
Definition decodeImageFrom fuel (s : src) f32op ptext (decompress : bool) : outcome (err + list layer) :=
  let st := mkR 0 None in
  match readHeader s st with
  | Panic w => Panic w | NoFuel => NoFuel
  | Ret (inl e, _) => Ret (inl e)
  | Ret (inr mode, st) =>
      let (width, st) := readUint32 s st in
      let (height, st) := readUint32 s st in
      let bounds := image_Rect 0 0 width height in
      let (baseType, st) := readUint32 s st in
      let (precision, st) := if 0 <? mode then readUint32 s st else (0, st) in
      match readImageProperties fuel s baseType st with
      | Panic w => Panic w | NoFuel => NoFuel
      | Ret (inl e, _) => Ret (inl e)
      | Ret (inr (pal, comp), st) =>
          match readLayerPointers fuel s mode st with
          | Panic w => Panic w | NoFuel => NoFuel
          | Ret (lptrs, st) =>
              match rErr st with
              | Some e => Ret (inl e)
              | None =>
                  let d := mkDP comp decompress baseType pal mode in
                  les <-! mapO (readLayerAt fuel s f32op ptext d) lptrs;;
                  match first_err les with
                  | Some e => Ret (inl e)
                  | None =>
                      match makeGroups (map fst les) bounds with
                      | inl e => Ret (inl e)
                      | inr (os, m) => Ret (inr (makeImage os (map_order m)))
                      end
                  end
              end
          end
      end
  end.
(** Decode ([decompress] = true) and DecodeCompressed (false) of a file [f] *)
Definition decodeImage fuel (f : list Z) f32op ptext (decompress : bool) : outcome (err + list layer) :=
  decodeImageFrom fuel (newReader f) f32op ptext decompress.
(** decoder.go:111-113, 117-119, 75-108 *)
Definition decode fuel f f32op ptext := decodeImage fuel f f32op ptext true.
Definition decodeCompressed fuel f f32op ptext := decodeImage fuel f f32op ptext false.
Definition decodeConfig fuel (f : list Z) : outcome (config * option err) :=
  match decodeConfigM fuel (newReader f) (mkR 0 None) with
  | Ret (c, _) => Ret c
  | Panic w => Panic w
  | NoFuel => NoFuel
  end.
