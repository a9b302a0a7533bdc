(** Model of image.go, layer.go and misc.go: layers, layered images, masked
    images.  A leaf image (any image.Image that is none of these) is observed
    through its three methods only. *)
Require Import Verif.Base Verif.M_Color Verif.M_Composite Verif.M_Rect.

(** the color.Model values the library tells apart; [KOther] is any other *)
Inductive cmodel :=
| KAlpha | KGray | KGray16 | KGrayAlpha | KRGB | KNRGBA
| KPalette (p : list color)       (* image/color.Palette *)
| KAlphaPalette (p : list color)  (* lcolor.AlphaPalette *)
| KOther.

(** image.Image: Bounds(), ColorModel() and At(); At may panic ([None]) *)
Record pic := mkPic { picBounds : rect; picModel : cmodel; picAt : Z -> Z -> option color }.

(** misc.go:40-48 [TextDatum]; strings are lists of bytes; a nil color.Color is [None] *)
Record textDatum := mkTD {
  tdFore : option color; tdBack : option color;
  tdSize : Z; tdLetterSpacing : Z; tdRise : Z;
  tdBold : bool; tdItalic : bool; tdUnderline : bool; tdStrike : bool;
  tdFont : list Z; tdData : list Z }.

(** image/image.Gray, as far as [MaskedImage] uses it: GrayAt *)
Record gray_img := mkGray { grayBounds : rect; grayAt : Z -> Z -> Z }.

(** layer.go:9-16 [Layer]; image.go:11 [Image]; misc.go:13-16 [MaskedImage];
    misc.go:24-27 [Text].  A Layer is itself an image.Image ([ILayer]). *)
Inductive image :=
| ILeaf (p : pic)
| IGroup (g : list layer)
| IMasked (i : image) (m : gray_img)
| IText (i : image) (t : list textDatum)
| ILayer (l : layer)
with layer :=
| mkLayer (name : list Z) (bounds : rect) (md : mode) (invisible : bool) (transp : Z) (im : image).

Definition lName (l : layer) := let '(mkLayer n _ _ _ _ _) := l in n.
Definition lBounds (l : layer) := let '(mkLayer _ b _ _ _ _) := l in b.
Definition lMode (l : layer) := let '(mkLayer _ _ m _ _ _) := l in m.
Definition lInvisible (l : layer) := let '(mkLayer _ _ _ v _ _) := l in v.
Definition lTransparency (l : layer) := let '(mkLayer _ _ _ _ t _) := l in t.
Definition lImage (l : layer) := let '(mkLayer _ _ _ _ _ i) := l in i.

(** image.go:15-21 [Image.ColorModel]; the other types inherit ColorModel from
    the embedded image (layer.go:15, misc.go:14,25) *)
Fixpoint image_ColorModel (i : image) : cmodel :=
  match i with
  | ILeaf p => picModel p
  | IGroup [] => KAlpha
  | IGroup (mkLayer _ _ _ _ _ im :: _) => image_ColorModel im
  | IMasked i _ => image_ColorModel i
  | IText i _ => image_ColorModel i
  | ILayer (mkLayer _ _ _ _ _ im) => image_ColorModel im
  end.

(** image.go:24-32 [Image.Bounds] *)
Definition group_Bounds (g : list layer) : rect :=
  fold_left (fun r l => union r (lBounds l)) g ZR.
(** Bounds of any image: layer.go:19-21 [Layer.Bounds]; inherited otherwise *)
Fixpoint image_Bounds (i : image) : rect :=
  match i with
  | ILeaf p => picBounds p
  | IGroup g => group_Bounds g
  | IMasked i _ => image_Bounds i
  | IText i _ => image_Bounds i
  | ILayer l => lBounds l
  end.

Definition is_palette (k : cmodel) : bool := match k with KPalette _ => true | _ => false end.
Definition is_dissolve (m : mode) : bool := match m with MDissolve => true | _ => false end.

(** One iteration of the loop image.go:39-55 once the layer is known to be
    visible and to contain the point: [c] the colour so far, [d] the layer's
    colour; [n] counts the random draws made, [rnd n] is the n-th draw of
    rand.Int31n(0xffff) (composite.go:194), made by CompositeDissolve only. *)
Definition at_step (rnd : nat -> Z) (pal : bool) (m : mode) (c d : color) (n : nat) : option (color * nat) :=
  if negb (is_dissolve m) && pal then
    let e := colourToNRGBA d in
    if 32767 <? cA e then Some (CNRGBA64 (mk64 (cR e) (cG e) (cB e) 65535), n) else Some (c, n)
  else
    r <-? composite m (rnd n) c d;;
    Some (r, if is_dissolve m then S n else n).

(** image.go:35-58 [Image.At] (the loop runs from the last layer to the first),
    layer.go:24-26 [Layer.At], misc.go:19-21 [MaskedImage.At]; 255-Transparency
    is a uint8 subtraction.  Text inherits At. *)
Fixpoint image_At (rnd : nat -> Z) (i : image) (x y : Z) (n : nat) {struct i} : option (color * nat) :=
  match i with
  | ILeaf p => c <-? picAt p x y;; Some (c, n)
  | IGroup g =>
      let pal := is_palette (image_ColorModel (IGroup g)) in
      (fix loop (g : list layer) : option (color * nat) :=
         match g with
         | [] => Some (CAlpha 0, n)
         | l :: below =>
             cn <-? loop below;;
             if lInvisible l then Some cn
             else if negb (pin x y (lBounds l)) then Some cn
             else dn <-? layer_At rnd l x y (snd cn);;
                  at_step rnd pal (lMode l) (fst cn) (fst dn) (snd dn)
         end) g
  | IMasked i m =>
      cn <-? image_At rnd i x y n;;
      Some (transparency (fst cn) (grayAt m x y), snd cn)
  | IText i _ => image_At rnd i x y n
  | ILayer l => layer_At rnd l x y n
  end
with layer_At (rnd : nat -> Z) (l : layer) (x y : Z) (n : nat) {struct l} : option (color * nat) :=
  match l with
  | mkLayer _ b _ _ t im =>
      cn <-? image_At rnd im (x - minX b) (y - minY b) n;;
      Some (transparency (fst cn) (u8 (255 - t)), snd cn)
  end.

(** layer.go:36-40 [SubImageLayer] (28-32 [SubImage] wraps it) *)
Definition subImageLayer (l : layer) (r : rect) : layer :=
  mkLayer (lName l) (intersect r (lBounds l)) (lMode l) (lInvisible l) (lTransparency l) (lImage l).
(** image.go:62-71 [Image.SubImage] *)
Definition image_SubImage (g : list layer) (r : rect) : list layer :=
  map (fun l => subImageLayer l r) g.
