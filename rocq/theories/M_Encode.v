(** Model of the XCF encoder: xcf/encoder.go, image_encode.go, layer_encode.go,
    writer.go and WriteChannel of channel.go, on top of byteio's
    StickyBigEndianWriter (dependency: after an error every write is skipped;
    otherwise the error of the underlying Write is kept). *)
Require Import Verif.Base Verif.M_Color Verif.M_Composite Verif.M_Rect Verif.M_Image
  Verif.M_Reader Verif.M_Rle Verif.M_Decode.

(** Big-endian words *)
Definition be32 (z : Z) : list Z :=
  let v := u32 z in [v / 16777216; v / 65536 mod 256; v / 256 mod 256; v mod 256].

(** One WriteAt call: offset, the bytes given, how many of them arrived, the error
    returned; and what it left in the destination: offset and bytes. *)
Record call := mkCall { cOff : Z; cReq : list Z; cGot : Z; cErr : option err }.
Definition landed (c : call) : Z * list Z := (cOff c, ztake (cGot c) (cReq c)).

(** The encoder's state: the WriteAt calls made so far, newest first;
    writerAtWriter.pos; StickyBigEndianWriter.Err; the number of random draws made
    by At. *)
Record wst := mkW { wLog : list call; wPos : Z; wErr : option err; wRnd : nat }.

(** A computation; [None]: Go panics *)
Definition W (A : Type) : Type := wst -> option (A * wst).
Definition retW {A} (a : A) : W A := fun st => Some (a, st).
Definition bindW {A B} (m : W A) (f : A -> W B) : W B :=
  fun st => match m st with Some (a, st) => f a st | None => None end.
Notation "x <~ e ;; k" := (bindW e (fun x => k)) (at level 61, e at next level, right associativity).
Notation "e ~; k" := (bindW e (fun _ => k)) (at level 61, right associativity).
Definition skipW : W unit := retW tt.
Fixpoint eachW {A} (f : A -> W unit) (l : list A) : W unit :=
  match l with
  | [] => skipW
  | a :: l => f a ~; eachW f l
  end.
(** a loop that threads a value *)
Fixpoint foldW {A S} (f : A -> S -> W S) (l : list A) (s : S) : W S :=
  match l with
  | [] => retW s
  | a :: l => s <~ f a s;; foldW f l s
  end.

(** writer.go:50-54 [pointerWriter]; obw is the encoder's own writer *)
Record pointerWriter := mkPW { pwPos : Z; pwLeft : Z; pwErr : option err }.

Section Encoder.
(** The destination: [wr k off p] is what the k-th WriteAt call returns for the
    bytes p at offset off: the number of bytes that arrived, and the error.
    [rnd] are the random draws of Dissolve.  [wtext text dx dy] is the data of the
    text parasite (text.go:207-247), [None]: building it panics. *)
Variables (wr : nat -> Z -> list Z -> Z * option err) (rnd : nat -> Z)
          (wtext : list textDatum -> Z -> Z -> option (list Z)).

(** one call of WriterAt.WriteAt *)
Definition writeAt (off : Z) (p : list Z) (st : wst) : Z * option err * wst :=
  let (n, e) := wr (length (wLog st)) off p in
  (n, e, mkW (mkCall off p n e :: wLog st) (wPos st) (wErr st) (wRnd st)).

(** StickyBigEndianWriter.Write over writerAtWriter.Write (writer.go:98-103) *)
Definition put (p : list Z) : W unit := fun st =>
  match wErr st with
  | Some _ => Some (tt, st)
  | None => let '(n, e, st) := writeAt (wPos st) p st in
            Some (tt, mkW (wLog st) (wPos st + n) e (wRnd st))
  end.
Definition put8 (z : Z) : W unit := put [u8 z].
Definition put32 (z : Z) : W unit := put (be32 z).
Definition posW : W Z := fun st => Some (wPos st, st).
(** writer.go:42-46 [WriteString] *)
Definition putStr (l : list Z) : W unit := put32 (zlen l + 1) ~; put l ~; put8 0.

(** writer.go:56-66 [WritePointer] *)
Definition writePointer (ptr : Z) (pw : pointerWriter) : W pointerWriter := fun st =>
  if 0 <? pwLeft pw then
    match pwErr pw with
    | Some e =>
        Some (mkPW (pwPos pw) (pwLeft pw - 1) (Some e), mkW (wLog st) (wPos st) (Some e) (wRnd st))
    | None =>
        let '(n, e, st) := writeAt (pwPos pw) (be32 ptr) st in
        Some (mkPW (pwPos pw + n) (pwLeft pw - 1) e,
              mkW (wLog st) (wPos st) (match e with Some _ => e | None => wErr st end) (wRnd st))
    end
  else Some (pw, st).
(** writer.go:68-83 [ReservePointers] (n a uint32) *)
Definition reservePointers (n : Z) : W pointerWriter := fun st =>
  Some (mkPW (wPos st) n None, mkW (wLog st) (wPos st + n * 4) (wErr st) (wRnd st)).
(** writer.go:85-91 [ReservePointerList] *)
Definition reservePointerList (n : Z) : W pointerWriter :=
  pw <~ reservePointers n;; put32 0 ~; retW pw.

(** the colour conversions image_encode.go:66-93: the bytes put into colourBuf *)
Inductive colfun := CfRGBA | CfGrayA | CfGray | CfPal (p : list color).
Definition colour_bytes (f : colfun) (c : color) : list Z :=
  match f with
  | CfRGBA => let '(r, g, b, a) := nrgbaModel c in [r; g; b; a]
  | CfGrayA => let '(y, a) := grayAlphaModel c in [y; a]
  | CfGray => [grayModel c]
  | CfPal p => let q := color_RGBA c in
               [u8 (alphaPalette_Index p (CRGB (u8 (pR q)) (u8 (pG q)) (u8 (pB q)))); u8 (pA q)]
  end.
Definition channels (f : colfun) : Z := match f with CfRGBA => 4 | CfGrayA | CfPal _ => 2 | CfGray => 1 end.

(** what WriteImage reads from: Bounds() and At(); At may draw random numbers *)
Record source := mkSource { soBounds : rect; soAt : Z -> Z -> nat -> option (color * nat) }.
Definition source_of (i : image) : source := mkSource (image_Bounds i) (image_At rnd i).
Definition source_gray (g : gray_img) : source :=
  mkSource (grayBounds g) (fun x y n => Some (CGray (grayAt g x y), n)).

(** lo, lo+64, ... below hi *)
Definition starts (lo hi : Z) : list Z := map (fun k => lo + 64 * k) (zseq (ceil64 (hi - lo))).
(** lo, lo+1, ... below hi *)
Definition span (lo hi : Z) : list Z := map (fun k => lo + k) (zseq (hi - lo)).
(** the pixels of the tile at (x,y) in the order of the loops image_encode.go:47-57 *)
Definition tile_points (b : rect) (x y : Z) : list (Z * Z) :=
  flat_map (fun j => map (fun i => (i, j)) (span x (Z.min (x + 64) (maxX b))))
           (span y (Z.min (y + 64) (maxY b))).
(** image_encode.go:44-57: what is collected for the tile; instead of the arrays
    channelBuf[n][l] the list of the pixels' colourBuf *)
Definition readPixel (so : source) (f : colfun) (p : Z * Z) (acc : list (list Z)) : W (list (list Z)) :=
  fun st => cn <-? soAt so (fst p) (snd p) (wRnd st);;
            Some (acc ++ [colour_bytes f (fst cn)], mkW (wLog st) (wPos st) (wErr st) (snd cn)).
Definition channel_of (px : list (list Z)) (n : Z) : list Z := map (fun p => bget p n) px.

(** image_encode.go:10-64 [WriteImage] *)
Definition writeTile (so : source) (f : colfun) (xy : Z * Z) (w : pointerWriter) : W pointerWriter :=
  px <~ foldW (readPixel so f) (tile_points (soBounds so) (fst xy) (snd xy)) [];;
  pos <~ posW;;
  w <~ writePointer pos w;;
  eachW (fun n => eachW put (writeRLE (channel_of px n))) (zseq (channels f)) ~;
  retW w.
Definition tile_starts (b : rect) : list (Z * Z) :=
  flat_map (fun y => map (fun x => (x, y)) (starts (minX b) (maxX b))) (starts (minY b) (maxY b)).
Definition writeImage (so : source) (f : colfun) : W unit :=
  let b := soBounds so in
  put32 (dx b) ~; put32 (dy b) ~; put32 (channels f) ~;
  pos <~ posW;;
  put32 (u32 pos + 8) ~;
  put32 0 ~;
  put32 (dx b) ~; put32 (dy b) ~;
  w <~ reservePointerList (u32 (ceil64 (dx b) * ceil64 (dy b)));;
  foldW (writeTile so f) (tile_starts b) w ~;
  skipW.

(** channel.go:53-65 [WriteChannel] *)
Definition writeChannel (g : gray_img) : W unit :=
  put32 (dx (grayBounds g)) ~; put32 (dy (grayBounds g)) ~;
  putStr [] ~;
  put32 0 ~; put32 0 ~;
  pos <~ posW;;
  put32 (u32 pos + 4) ~;
  writeImage (source_gray g) CfGray.

(** layer_encode.go:186-202 [writeLayer] *)
Definition writeLayerData (f : colfun) (i : image) (mask : option gray_img) : W unit :=
  ptrs <~ reservePointers 2;;
  pos <~ posW;;
  ptrs <~ writePointer pos ptrs;;
  writeImage (source_of i) f ~;
  match mask with
  | Some m => pos <~ posW;; writePointer pos ptrs ~; writeChannel m
  | None => writePointer 0 ptrs ~; skipW
  end.

(** layer_encode.go:104-184 [modeID] *)
Definition modeID (m : mode) : Z :=
  match m with
  | MNormal => 0 | MDissolve => 1 | MBehind => 2 | MMultiply => 3 | MScreen => 4
  | MOverlay => 5 | MDifference => 6 | MAddition => 7 | MSubtract => 8 | MDarkenOnly => 9
  | MLightenOnly => 10 | MHue => 11 | MSaturation => 12 | MColor => 13 | MValue => 14
  | MDivide => 15 | MDodge => 16 | MBurn => 17 | MHardLight => 18 | MSoftLight => 19
  | MGrainExtract => 20 | MGrainMerge => 21 | MLuminosity => 22 | MColorErase => 22
  | MChroma => 25 | MLightness => 27 | MVividLight => 48 | MPinLight => 49
  | MLinearLight => 50 | MHardMix => 51 | MExclusion => 52 | MLinearBurn => 53
  | MErase => 58 | MMerge => 59 | MSplit => 60 | MPassThrough => 61
  | _ => 0
  end.

(** text.go:238-247, the property around the text data *)
Definition writeText (t : list textDatum) (w h : Z) : W unit := fun st =>
  data <-? wtext t w h;;
  (put32 26 ~; put32 4 ~; put32 1 ~;
   put32 21 ~; put32 (4 + 15 + 1 + 4 + 4 + zlen data) ~;
   putStr textParasiteName ~; put32 0 ~; put32 (zlen data) ~; put data) st.

(** layer_encode.go:54-102 [writeProperties]; ct is colourType *)
Definition writeProperties (ct : Z) (l : layer) (ox oy : Z) (groups : list Z)
    (isGroup : bool) (text : list textDatum) : W unit :=
  let w := u32 (dx (lBounds l)) in
  let h := u32 (dy (lBounds l)) in
  put32 w ~; put32 h ~; put32 (ct * 2 + 1) ~;
  putStr (lName l) ~;
  put32 6 ~; put32 4 ~; put32 (255 - lTransparency l) ~;
  put32 8 ~; put32 4 ~; put32 (if lInvisible l then 0 else 1) ~;
  put32 15 ~; put32 8 ~; put32 ox ~; put32 oy ~;
  (if 1 <? zlen groups then
     put32 30 ~; put32 (4 * zlen groups) ~; eachW put32 groups
   else skipW) ~;
  (match text with [] => skipW | _ => writeText text w h end) ~;
  (if isGroup then put32 29 ~; put32 0 else skipW) ~;
  put32 7 ~; put32 4 ~; put32 (modeID (lMode l)) ~;
  put32 0.

(** layer_encode.go:23-40, of [WriteLayer]: mask, image, text,
    group; a group is nil iff the image is no group (an empty limage.Image is
    taken to be non-nil) *)
Definition split_mask (i : image) : image * option gray_img :=
  match i with IMasked i m => (i, Some m) | i => (i, None) end.
Definition text_of (i : image) : list textDatum := match i with IText _ t => t | _ => [] end.
Definition is_group (i : image) : bool := match i with IGroup _ => true | _ => false end.

(** layer_encode.go:9-17 [WriteLayers], given WriteLayer; offsets are int32, passed
    on modulo 2^32 *)
Definition writeLayersWith (wl : layer -> Z -> Z -> list Z -> pointerWriter -> W pointerWriter)
    (ox oy : Z) (groups : list Z) : list layer -> Z -> pointerWriter -> W pointerWriter :=
  fix go (g : list layer) (n : Z) (pw : pointerWriter) {struct g} :=
    match g with
    | [] => retW pw
    | l :: g =>
        pw <~ wl l (ox + minX (lBounds l)) (oy + minY (lBounds l)) (groups ++ [n]) pw;;
        go g (n + 1) pw
    end.
(** layer_encode.go:19-52 [WriteLayer] *)
Fixpoint writeLayer (f : colfun) (ct : Z) (l : layer) (ox oy : Z) (groups : list Z) (pw : pointerWriter)
  {struct l} : W pointerWriter :=
  match l with
  | mkLayer name b md inv tr im =>
      pos <~ posW;;
      pw <~ writePointer pos pw;;
      writeProperties ct l ox oy groups (is_group im) (text_of im) ~;
      put32 0 ~;
      writeLayerData f (fst (split_mask im)) (snd (split_mask im)) ~;
      match im with
      | IGroup g => writeLayersWith (writeLayer f ct) ox oy groups g 0 pw
      | _ => retW pw
      end
  end.
Definition writeLayers (f : colfun) (ct : Z) (g : list layer) (ox oy : Z) (groups : list Z) (n : Z)
    (pw : pointerWriter) : W pointerWriter := writeLayersWith (writeLayer f ct) ox oy groups g n pw.

(** encoder.go:115-128 [layerCount] *)
Fixpoint layerCount (l : layer) : Z :=
  match l with
  | mkLayer _ _ _ _ _ (IGroup g) => 1 + fold_right (fun l n => layerCount l + n) 0 g
  | mkLayer _ _ _ _ _ _ => 1
  end.
Definition layersCount (g : list layer) : Z := fold_right (fun l n => layerCount l + n) 0 g.

(** encoder.go:52-74: colour type, conversion, palette (an empty palette is taken
    to be non-nil) *)
Definition colour_type (k : cmodel) : Z * colfun * option (list color) :=
  match k with
  | KGray | KGray16 | KGrayAlpha => (1, CfGrayA, None)
  | KPalette p | KAlphaPalette p => (2, CfPal p, Some p)
  | _ => (0, CfRGBA, None)
  end.
(** encoder.go:129 *)
Definition xcf_header : list Z := [103; 105; 109; 112; 32; 120; 99; 102; 32; 118; 48; 48; 51; 0].

(** encoder.go:32-113 [Encode]: [inl] a layered image, [inr] any other *)
Definition writePalette (p : list color) : W unit :=
  put32 1 ~; put32 (3 * zlen p + 4) ~; put32 (zlen p) ~;
  eachW (fun c => let '(r, g, b) := rgbModel c in put8 r ~; put8 g ~; put8 b) p.
Definition encodeW (i : image) : W unit :=
  let i := match i with ILayer l => IGroup [l] | i => i end in
  let b := image_Bounds i in
  let '(ct, f, pal) := colour_type (image_ColorModel i) in
  put xcf_header ~;
  put32 (dx b) ~; put32 (dy b) ~; put32 ct ~;
  (match pal with Some p => writePalette p | None => skipW end) ~;
  put32 17 ~; put32 1 ~; put8 1 ~;
  put32 0 ~; put32 0 ~;
  match i with
  | IGroup g =>
      pw <~ reservePointerList (u32 (layersCount g));;
      put32 0 ~;
      writeLayers f ct g 0 0 [] 0 pw ~; skipW
  | i =>
      pw <~ reservePointerList 1;;
      put32 0 ~;
      writeLayer f ct (mkLayer [] ZR MNormal false 0 i) 0 0 [] pw ~; skipW
  end.
(** what Encode returns; the calls made, oldest first *)
Definition encode (i : image) : option (option err * list call) :=
  match encodeW i (mkW [] 0 None 0) with
  | Some (_, st) => Some (wErr st, rev (wLog st))
  | None => None
  end.
End Encoder.
