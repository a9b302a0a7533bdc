(** Model of the ora package: decode.go, stack.go, encode.go, thumbnail.go.

    The libraries under it are not part of /repo: an archive (archive/zip) is
    the list of its members, the XML of stack.xml (encoding/xml) is a list of
    tokens, a PNG (image/png, image.Decode) is a picture; what the libraries
    compute is given by [libs].  Strings are lists of bytes. *)
Require Import Verif.Base Verif.M_Color Verif.M_Composite Verif.M_Rect Verif.M_Image Verif.M_Groups.
From Coq Require Import QArith String Ascii.
Open Scope Z_scope.
Open Scope list_scope.

(** a string literal of the Go code *)
Definition str (s : string) : list Z :=
  map (fun a => Z.of_N (N_of_ascii a)) (list_ascii_of_string s).
Arguments str : simpl never.

(** ** strconv (standard library) *)
Fixpoint dec (fuel : nat) (n : Z) (acc : list Z) : list Z :=
  match fuel with
  | O => acc
  | S f => let acc := (48 + n mod 10) :: acc in if n <? 10 then acc else dec f (n / 10) acc
  end.
(** strconv.Itoa; there are at most as many decimal as binary digits *)
Definition digits (n : Z) : list Z := dec (S (Z.to_nat (Z.log2 n))) n [].
Definition itoa (n : Z) : list Z := if n <? 0 then 45 :: digits (- n) else digits n.
Fixpoint undec (s : list Z) (v : Z) : option Z :=
  match s with
  | [] => Some v
  | c :: s => if (48 <=? c) && (c <=? 57) then undec s (v * 10 + (c - 48)) else None
  end.
(** strconv.Atoi: an optional sign, at least one digit, the value an int; [None] is an error *)
Definition atoi (s : list Z) : option Z :=
  let neg := match s with 45 :: _ => true | _ => false end in
  let t := match s with 45 :: t => t | 43 :: t => t | _ => s end in
  match t with
  | [] => None
  | _ => v <-? undec t 0;;
         let v := if neg then - v else v in
         if (- 9223372036854775808 <=? v) && (v <=? 9223372036854775807) then Some v else None
  end.

(** ** What the decoder sees of the libraries *)
(** an xml.Token: a StartElement with its local name and the local names and
    values of its attributes, an EndElement, or any other token (character data,
    comment, processing instruction, directive) *)
Inductive token :=
| TStart (name : list Z) (attrs : list (list Z * list Z))
| TEnd
| TOther.

(** errors: decode.go:184-188, stack.go:205-207, and those of the libraries *)
Inductive oerr :=
| OMissingStack | OInvalidMime | OInvalidStack | OInvalidSource
| OEOF | OUnexpectedEOF
| OLib (n : Z).  (* any error of archive/zip, encoding/xml, strconv or image *)
Definition res (A : Type) : Type := (A + oerr)%type.
Definition rbind {A B} (x : res A) (f : A -> res B) : res B :=
  match x with inl a => f a | inr e => inr e end.
Notation "x <-! e ;; k" := (rbind e (fun x => k))
  (at level 61, e at next level, right associativity).

(** a *zip.File with the views the decoder takes of it: UncompressedSize64,
    whether Open fails, the bytes, the tokens xml.Decoder delivers and the error
    that ends them (io.EOF or a syntax error), and what image.Decode returns *)
Record member := mkMember {
  mName : list Z;
  mSize : Z;
  mOpen : bool;
  mBytes : list Z;
  mTokens : list token;
  mEnd : oerr;
  mImage : option image }.

(** the library functions: [lib_png m] the picture read back from png.Encode of
    [m] ([None]: png.Encode fails); [lib_fmt t] is
    FormatFloat(float64(255-t)/255, 'f', -1, 64); [lib_opacity s] is
    uint8(255*(1-o)) for o = ParseFloat(s, 64) ([None]: ParseFloat fails);
    [lib_xml s] is the attribute value read back when [s] was written;
    [lib_rnd] rounds to float64 *)
Record libs := mkLibs {
  lib_png : image -> option pic;
  lib_fmt : Z -> list Z;
  lib_opacity : list Z -> option Z;
  lib_xml : list Z -> list Z;
  lib_rnd : Q -> Q }.

(** ** Decoding *)
(** encode.go:14 *)
Definition mimetypeStr : list Z := str "image/openraster".

(** decode.go:39-60 [checkMime] *)
Definition checkMime (m : member) : bool :=
  if negb (mSize m =? zlen mimetypeStr) then false
  else if negb (mOpen m) then false
  else if zlen (mBytes m) <? zlen mimetypeStr then false  (* io.ReadFull *)
  else key_eqb (ztake (zlen mimetypeStr) (mBytes m)) mimetypeStr.

(** decode.go:24-36, the loop of [getStack] *)
Fixpoint getStack_loop (ms : list member) (stack : option member) : res member :=
  match ms with
  | [] => match stack with Some s => inl s | None => inr OMissingStack end
  | f :: ms =>
      if key_eqb (mName f) (str "stack.xml") then getStack_loop ms (Some f)
      else if key_eqb (mName f) (str "mimetype") then
        if checkMime f then getStack_loop ms stack else inr OInvalidMime
      else getStack_loop ms stack
  end.
(** decode.go:21-37 [getStack] *)
Definition getStack (ms : list member) : res member := getStack_loop ms None.

(** strconv.Atoi with its error *)
Definition atoi_err (s : list Z) : res Z :=
  match atoi s with Some v => inl v | None => inr (OLib 1) end.

(** decode.go:77-94: the attributes of <image>; [w], [h] the values so far *)
Fixpoint dims (as_ : list (list Z * list Z)) (w h : option Z) : res (Z * Z) :=
  match as_ with
  | [] => match w, h with Some w, Some h => inl (w, h) | _, _ => inr OInvalidStack end
  | (k, v) :: as_ =>
      if key_eqb k (str "w") then w <-! atoi_err v;; dims as_ (Some w) h
      else if key_eqb k (str "h") then h <-! atoi_err v;; dims as_ w (Some h)
      else dims as_ w h
  end.
(** decode.go:62-102 [getDimensions]; also returns the tokens not yet read *)
Fixpoint getDimensions (e : oerr) (ts : list token) : res (Z * Z * list token) :=
  match ts with
  | [] => match e with OEOF => inr OInvalidStack | _ => inr e end
  | TStart n as_ :: ts =>
      if key_eqb n (str "image") then wh <-! dims as_ None None;; inl (wh, ts)
      else inr OInvalidStack
  | _ :: ts => getDimensions e ts
  end.

(** stack.Open() *)
Definition open (m : member) : res unit := if mOpen m then inl tt else inr (OLib 2).

(** decode.go:107-133 [DecodeConfig]; the ColorModel is always NRGBAModel *)
Definition oraConfig (ms : list member) : res (Z * Z) :=
  s <-! getStack ms;;
  _ <-! open s;;
  r <-! getDimensions (mEnd s) (mTokens s);;
  inl (fst r).

(** stack.go:182-202 [skipTag]; [n] is toSkip *)
Fixpoint skipTag (e : oerr) (ts : list token) (n : nat) : res (list token) :=
  match ts with
  | [] => inr e
  | TStart _ _ :: ts => skipTag e ts (S n)
  | TEnd :: ts => match n with O => inl ts | S n => skipTag e ts n end
  | TOther :: ts => skipTag e ts n
  end.

(** stack.go:131-173: composite-op; an unknown name leaves the mode *)
Definition op_mode (s : list Z) (m : mode) : mode :=
  if key_eqb s (str "svg:src-over") then MNormal
  else if key_eqb s (str "svg:multiply") then MMultiply
  else if key_eqb s (str "svg:screen") then MScreen
  else if key_eqb s (str "svg:overlay") then MOverlay
  else if key_eqb s (str "svg:darken") then MDarkenOnly
  else if key_eqb s (str "svg:lighten") then MLightenOnly
  else if key_eqb s (str "svg:color-dodge") then MDodge
  else if key_eqb s (str "svg:color-burn") then MBurn
  else if key_eqb s (str "svg:hard-light") then MHardLight
  else if key_eqb s (str "svg:soft-light") then MSoftLight
  else if key_eqb s (str "svg:difference") then MDifference
  else if key_eqb s (str "svg:color") then MColor
  else if key_eqb s (str "svg:luminosity") then MLuminosity
  else if key_eqb s (str "svg:hue") then MHue
  else if key_eqb s (str "svg:saturation") then MSaturation
  else if key_eqb s (str "svg:plus") then MPlus
  else if key_eqb s (str "svg:dst-in") then MDestinationIn
  else if key_eqb s (str "svg:dst-out") then MDestinationOut
  else if key_eqb s (str "svg:src-atop") then MSourceAtop
  else if key_eqb s (str "svg:dst-atop") then MDestinationAtop
  else m.

(** what processLayerAttrs fills in: Name, LayerBounds.Min, Transparency,
    Invisible, Mode, and the source *)
Record lattrs := mkLA { laName : list Z; laX : Z; laY : Z; laTransp : Z; laInv : bool; laMode : mode; laSrc : list Z }.
(** the zero limage.Layer, stack.go:54,102 *)
Definition la0 : lattrs := mkLA [] 0 0 0 false MNormal [].
(** stack.go:105-176: one attribute *)
Definition layerAttr (L : libs) (k v : list Z) (a : lattrs) : res lattrs :=
  let '(mkLA n x y t i m s) := a in
  if key_eqb k (str "name") then inl (mkLA v x y t i m s)
  else if key_eqb k (str "x") then x <-! atoi_err v;; inl (mkLA n x y t i m s)
  else if key_eqb k (str "y") then y <-! atoi_err v;; inl (mkLA n x y t i m s)
  else if key_eqb k (str "opacity") then
    match lib_opacity L v with Some t => inl (mkLA n x y t i m s) | None => inr (OLib 3) end
  else if key_eqb k (str "visibility") then inl (mkLA n x y t (key_eqb v (str "hidden")) m s)
  else if key_eqb k (str "composite-op") then inl (mkLA n x y t i (op_mode v m) s)
  else if key_eqb k (str "src") then inl (mkLA n x y t i m v)
  else inl a.
(** stack.go:101-180 [processLayerAttrs] *)
Fixpoint processLayerAttrs (L : libs) (as_ : list (list Z * list Z)) (a : lattrs) : res lattrs :=
  match as_ with
  | [] => inl a
  | (k, v) :: as_ => a <-! layerAttr L k v a;; processLayerAttrs L as_ a
  end.

(** stack.go:69-89: the first member called [src] *)
Fixpoint findImage (ms : list member) (src : list Z) : res image :=
  match ms with
  | [] => inr OInvalidSource
  | f :: ms =>
      if key_eqb (mName f) src then
        _ <-! open f;;
        match mImage f with Some i => inl i | None => inr (OLib 4) end
      else findImage ms src
  end.

(** the layer readLayer returns, stack.go:96 *)
Definition placed (lim : Z * Z) (ox oy : Z) (a : lattrs) (i : image) : layer :=
  mkLayer (laName a)
          (rsub (intersect (radd (image_Bounds i) (laX a) (laY a)) (mkRect 0 0 (fst lim + ox) (snd lim + oy))) ox oy)
          (laMode a) (laInv a) (laTransp a) i.

(** stack.go:12-51 [readStack] with 53-99 [readLayer] inlined; returns the layers
    and the tokens not yet read.  Every call or iteration consumes a token;
    [None]: out of fuel. *)
Fixpoint readStack (fuel : nat) (L : libs) (ms : list member) (lim : Z * Z) (e : oerr)
         (ox oy : Z) (ts : list token) {struct fuel} : option (res (list layer * list token)) :=
  match fuel with
  | O => None
  | S fuel =>
      match ts with
      | [] => Some (inr e)
      | TOther :: ts => readStack fuel L ms lim e ox oy ts
      | TEnd :: ts => Some (inl ([], ts))
      | TStart n as_ :: ts =>
          let continue (l : layer) (ts : list token) :=
            match readStack fuel L ms lim e ox oy ts with
            | Some (inl (ls, ts)) => Some (inl (l :: ls, ts))
            | r => r
            end in
          if key_eqb n (str "stack") then
            match processLayerAttrs L as_ la0 with
            | inr e => Some (inr e)
            | inl a =>
                match readStack fuel L ms lim e (ox + laX a) (oy + laY a) ts with
                | Some (inl (g, ts)) => continue (placed lim ox oy a (IGroup g)) ts
                | r => r
                end
            end
          else if key_eqb n (str "layer") then
            match a <-! processLayerAttrs L as_ la0;;
                  i <-! findImage ms (laSrc a);;
                  ts <-! skipTag e ts 0;;
                  inl (placed lim ox oy a i, ts) with
            | inr e => Some (inr e)
            | inl (l, ts) => continue l ts
            end
          else
            match skipTag e ts 0 with
            | inr e => Some (inr e)
            | inl ts => readStack fuel L ms lim e ox oy ts
            end
      end
  end.

(** decode.go:159-178: skip to the first <stack>; skipTag and the loop both
    consume tokens, so one counter suffices: [None] outside skipTag, [Some n]
    inside skipTag with toSkip = n *)
Fixpoint toStack (e : oerr) (ts : list token) (sk : option nat) : res (list token) :=
  match ts with
  | [] => match sk, e with None, OEOF => inr OUnexpectedEOF | _, _ => inr e end
  | TStart n _ :: ts =>
      match sk with
      | None => if key_eqb n (str "stack") then inl ts else toStack e ts (Some O)
      | Some k => toStack e ts (Some (S k))
      end
  | TEnd :: ts =>
      match sk with
      | None => toStack e ts None
      | Some O => toStack e ts None
      | Some (S k) => toStack e ts (Some k)
      end
  | TOther :: ts => toStack e ts sk
  end.

(** decode.go:138-181 [Decode]; the fuel suffices ([oraDecode_fuel]) *)
Definition oraDecode (L : libs) (ms : list member) : option (res (list layer)) :=
  match (s <-! getStack ms;;
         _ <-! open s;;
         r <-! getDimensions (mEnd s) (mTokens s);;
         ts <-! toStack (mEnd s) (snd r) None;;
         inl (s, fst r, ts)) with
  | inr e => Some (inr e)
  | inl (s, lim, ts) =>
      match readStack (S (List.length ts)) L ms lim (mEnd s) 0 0 ts with
      | Some (inl (ls, _)) => Some (inl ls)
      | Some (inr e) => Some (inr e)
      | None => None
      end
  end.

(** ** Encoding *)
(** what is written to a member: bytes, XML tokens, or a PNG, standing for the
    picture read back from it *)
Inductive written :=
| WBytes (b : list Z)
| WXml (ts : list token)
| WPng (p : pic).

(** encode.go:203-246; [[]]: no operator *)
Definition mode_op (m : mode) : list Z :=
  match m with
  | MMultiply => str "svg:multiply"
  | MScreen => str "svg:screen"
  | MOverlay => str "svg:overlay"
  | MDarkenOnly => str "svg:darken"
  | MLightenOnly => str "svg:lighten"
  | MDodge => str "svg:color-dodge"
  | MBurn => str "svg:color-burn"
  | MHardLight => str "svg:hard-light"
  | MSoftLight => str "svg:soft-light"
  | MDifference => str "svg:difference"
  | MColor => str "svg:color"
  | MLuminosity => str "svg:luminosity"
  | MHue => str "svg:hue"
  | MSaturation => str "svg:saturation"
  | MPlus => str "svg:plus"
  | MDestinationIn => str "svg:dst-in"
  | MDestinationOut => str "svg:dst-out"
  | MSourceAtop => str "svg:src-atop"
  | MDestinationAtop => str "svg:dst-atop"
  | _ => []
  end.

(** encode.go:137,267 *)
Definition dataName (n : Z) : list Z := str "data/" ++ itoa n ++ str ".png".

(** encode.go:165-253: the attributes of a layer *)
Definition layerAttrs (L : libs) (l : layer) : list (list Z * list Z) :=
  (match lName l with [] => [] | n => [(str "name", n)] end) ++
  (if 0 <? minX (lBounds l) then [(str "x", itoa (minX (lBounds l)))] else []) ++
  (if 0 <? minY (lBounds l) then [(str "y", itoa (minY (lBounds l)))] else []) ++
  (if lInvisible l then [(str "visibility", str "hidden")] else []) ++
  (if lTransparency l =? 0 then [] else [(str "visibility", lib_fmt L (lTransparency l))]) ++
  (match mode_op (lMode l) with [] => [] | op => [(str "composite-op", op)] end).

(** encode.go:122-149 [writeLayers] with 151-162 [writeGroup] inlined: the
    members written and the new layerNum; [None]: png.Encode fails *)
Fixpoint writeLayers (L : libs) (l : layer) (n : Z) {struct l} : option (list (list Z * written) * Z) :=
  match lImage l with
  | IGroup g =>
      (fix group (g : list layer) (n : Z) : option (list (list Z * written) * Z) :=
         match g with
         | [] => Some ([], n)
         | l :: g =>
             r <-? writeLayers L l n;;
             s <-? group g (snd r);;
             Some (fst r ++ fst s, snd s)
         end) g n
  | i => p <-? lib_png L i;; Some ([(dataName (n + 1), WPng p)], n + 1)
  end.

(** encode.go:164-281 [writeStack] with 283-300 [writeGroupStack] inlined: the
    tokens written and the new layerNum *)
Fixpoint writeStack (L : libs) (l : layer) (n : Z) {struct l} : list token * Z :=
  match lImage l with
  | IGroup g =>
      let r := (fix group (g : list layer) (n : Z) : list token * Z :=
                  match g with
                  | [] => ([], n)
                  | l :: g =>
                      let r := writeStack L l n in
                      let s := group g (snd r) in
                      (fst r ++ fst s, snd s)
                  end) g n in
      (TStart (str "stack") (layerAttrs L l) :: fst r ++ [TEnd], snd r)
  | _ => ([TStart (str "layer") (layerAttrs L l ++ [(str "src", dataName (n + 1))]); TEnd], n + 1)
  end.

(** int(float64(c)/scale) with scale = float64(big)/256, encode.go:111,113 and
    thumbnail.go:15-18,24; float64(c) and scale are exact for coordinates below
    2^53, the quotient is rounded *)
Definition qtrunc (q : Q) : Z := Z.quot (Qnum q) (Z.pos (Qden q)).
Definition fscale (L : libs) (big c : Z) : Z :=
  qtrunc (lib_rnd L (inject_Z c / (inject_Z big / inject_Z 256))%Q).

(** thumbnail.go:13-21 [thumbnail.Bounds] *)
Definition thumb_Bounds (L : libs) (big : Z) (b : rect) : rect :=
  mkRect (fscale L big (minX b)) (fscale L big (minY b)) (fscale L big (maxX b)) (fscale L big (maxY b)).
(** thumbnail.go:23-25 [thumbnail.At]; both coordinates are computed from x *)
Definition thumb_At (L : libs) (big : Z) (at_ : Z -> Z -> option color) (x y : Z) : option color :=
  at_ (fscale L big x) (fscale L big x).

(** At of an image without the count of random draws *)
Definition at_of (rnd : nat -> Z) (m : image) (x y : Z) : option color :=
  cn <-? image_At rnd m x y 0;; Some (fst cn).

(** encode.go:107-117: the image written as the thumbnail, for the canvas [w] x [h] *)
Definition thumbnail (L : libs) (rnd : nat -> Z) (m : image) (w h : Z) : image :=
  if (256 <? w) || (256 <? h) then
    let big := if h <? w then w else h in
    ILeaf (mkPic (thumb_Bounds L big (image_Bounds m)) (image_ColorModel m)
                 (thumb_At L big (at_of rnd m)))
  else m.

(** encode.go:71-86 [toLayer] with 18-21: LayerBounds.Max is the size of [m] *)
Definition toLayer (m : image) : layer :=
  let b := image_Bounds m in
  mkLayer [] (mkRect 0 0 (dx b) (dy b)) MNormal false 0
          (match m with ILayer l => lImage l | _ => m end).

(** encode.go:17-69 [Encode] with 88-120 [writeImage]: the members in the order
    written; [None]: an error (writing and archive/zip are taken not to fail,
    png.Encode may) *)
Definition oraEncode (L : libs) (rnd : nat -> Z) (m : image) : option (list (list Z * written)) :=
  let lim := toLayer m in
  let w := maxX (lBounds lim) in
  let h := maxY (lBounds lim) in
  data <-? writeLayers L lim 0;;
  merged <-? lib_png L m;;
  thumb <-? lib_png L (thumbnail L rnd m w h);;
  Some ((str "mimetype", WBytes mimetypeStr)
        :: fst data
        ++ [(str "stack.xml",
             WXml (TOther (* xml.Header *)
                   :: TStart (str "image") [(str "version", str "0.0.3"); (str "w", itoa w); (str "h", itoa h)]
                   :: fst (writeStack L lim 0) ++ [TEnd]));
            (str "mergedimage.png", WPng merged);
            (str "Thumbnails/thumbnail.png", WPng thumb)]).
