(** What it means that a layered image survives being written as XCF and read back. *)
Require Import Verif.Base Verif.M_Color Verif.M_Composite Verif.M_Rect Verif.M_Image Verif.S_String Verif.S_Tree.

(** the colour type of a file for images of a colour model: RGB, grey, indexed *)
Definition base_type (k : cmodel) : Z :=
  match k with
  | KGray | KGray16 | KGrayAlpha => 1
  | KPalette _ | KAlphaPalette _ => 2
  | _ => 0
  end.
(** the colour map of the file *)
Definition file_palette (k : cmodel) : list (Z * Z * Z) :=
  match k with
  | KPalette p | KAlphaPalette p => map rgbModel p
  | _ => []
  end.
(** what becomes of a colour: the conversion into the colour type, with alpha *)
Definition converted (k : cmodel) (c : color) : option color :=
  match k with
  | KGray | KGray16 | KGrayAlpha => let '(y, a) := grayAlphaModel c in Some (CGrayAlpha y a)
  | KPalette p | KAlphaPalette p =>
      let q := color_RGBA c in
      match znth (file_palette k) (alphaPalette_Index p (CRGB (pR q mod 256) (pG q mod 256) (pB q mod 256)) mod 256) with
      | Some (r, g, b) => Some (CNRGBA r g b (pA q mod 256))
      | None => None
      end
  | _ => let '(r, g, b, a) := nrgbaModel c in Some (CNRGBA r g b a)
  end.
(** the colour model read back: the same kind of colours, with alpha *)
Definition model_back (k : cmodel) : cmodel :=
  match k with
  | KGray | KGray16 | KGrayAlpha => KGrayAlpha
  | KPalette _ | KAlphaPalette _ => KAlphaPalette (map (fun q => let '(r, g, b) := q in CRGB r g b) (file_palette k))
  | _ => KNRGBA
  end.
(** the composition modes a file can express: all GIMP ones for RGB, two otherwise *)
Definition mode_kept (base : Z) (m : mode) : Prop :=
  if base =? 0 then
    In m [MNormal; MDissolve; MBehind; MMultiply; MScreen; MOverlay; MDifference; MAddition; MSubtract; MDarkenOnly;
          MLightenOnly; MHue; MSaturation; MColor; MValue; MDivide; MDodge; MBurn; MHardLight; MSoftLight; MGrainExtract;
          MGrainMerge; MColorErase; MChroma; MLightness; MVividLight; MPinLight; MLinearLight; MHardMix; MExclusion;
          MLinearBurn; MErase; MMerge; MSplit; MPassThrough]
  else m = MNormal \/ m = MBehind.

(** equal, or both empty *)
Definition same_rect (a b : rect) : Prop :=
  a = b \/ ((maxX a <= minX a \/ maxY a <= minY a) /\ (maxX b <= minX b \/ maxY b <= minY b)).

Section Kept.
(** the random draws of the encoder; how a text is written and read *)
Variables (rnd : nat -> Z) (written : list textDatum -> Z -> Z -> option (list Z)) (read : list Z -> option (list textDatum)).
Variable k : cmodel.

(** the picture [p] shows, from its corner (0,0) on, the converted pixels of [i], and is of that model *)
Definition same_pixels (i : image) (p : pic) : Prop :=
  let b := image_Bounds i in
  picBounds p = mkRect 0 0 (dx b) (dy b) /\ picModel p = model_back k /\
  forall x y, 0 <= x < dx b -> 0 <= y < dy b ->
    exists c m m', image_At rnd i (minX b + x) (minY b + y) m = Some (c, m') /\ picAt p x y = converted k c.
Definition same_mask (m m' : gray_img) : Prop :=
  let b := grayBounds m in
  grayBounds m' = mkRect 0 0 (dx b) (dy b) /\
  forall x y, 0 <= x < dx b -> 0 <= y < dy b -> grayAt m' x y = grayAt m (minX b + x) (minY b + y).
(** an image of no special kind *)
Definition simple (i : image) : Prop :=
  match i with ILeaf _ | ILayer _ | IText _ [] => True | _ => False end.
Inductive kept_layer : layer -> layer -> Prop :=
| kept_l n b b' m v t i i' : same_rect b b' -> kept_image b i i' -> kept_layer (mkLayer n b m v t i) (mkLayer n b' m v t i')
with kept_image : rect -> image -> image -> Prop :=
| kept_group b g g' : kept_layers g g' -> kept_image b (IGroup g) (IGroup g')
| kept_plain b i p : simple i -> same_pixels i p -> kept_image b i (ILeaf p)
| kept_mask b i m p m' : same_pixels i p -> same_mask m m' -> kept_image b (IMasked i m) (IMasked (ILeaf p) m')
| kept_text b i t p data t' : t <> [] -> same_pixels i p ->
    written t (dx b) (dy b) = Some data -> read data = Some t' -> kept_image b (IText i t) (IText (ILeaf p) t')
with kept_layers : list layer -> list layer -> Prop :=
| kept_nil : kept_layers [] []
| kept_cons l l' g g' : kept_layer l l' -> kept_layers g g' -> kept_layers (l :: g) (l' :: g').

(** The trees that survive.  [masks]: masks can be read; W, H the canvas; (x,y) the
    layer's corner on the canvas. *)
Variables (masks : bool) (W H : Z).
Definition word_sized (z : Z) : Prop := -2147483648 <= z < 2147483648.
Fixpoint good_layer (l : layer) (x y : Z) {struct l} : Prop :=
  match l with
  | mkLayer name b md inv tr im =>
      utf8 name /\ zlen name < 16777216 /\ 0 <= tr <= 255 /\ mode_kept (base_type k) md /\
      word_sized x /\ word_sized y /\
      0 <= dx b <= 4294967232 /\ 0 <= dy b <= 4294967232 /\
      (dx b = 0 \/ dy b = 0 \/ (0 <= x /\ 0 <= y /\ x + dx b <= W /\ y + dy b <= H)) /\
      match im with
      | IGroup g =>
          zlen g <= 55296 /\
          (fix all (g : list layer) : Prop :=
             match g with
             | [] => True
             | l :: g => good_layer l (x + minX (lBounds l)) (y + minY (lBounds l)) /\ all g
             end) g
      | _ =>
          dx (image_Bounds im) = dx b /\ dy (image_Bounds im) = dy b /\
          match im with
          | IMasked _ m => masks = true /\ dx (grayBounds m) = dx b /\ dy (grayBounds m) = dy b /\
              (dx b = 0 \/ dy b = 0 \/ (x = 0 /\ y = 0))
          | IText _ (t :: ts) => forall data, written (t :: ts) (dx b) (dy b) = Some data -> read data <> None
          | _ => True
          end
      end
  end.
Fixpoint good_layers (g : list layer) (x y : Z) : Prop :=
  match g with
  | [] => True
  | l :: g => good_layer l (x + minX (lBounds l)) (y + minY (lBounds l)) /\ good_layers g x y
  end.
End Kept.

(** ** the same layers with the same pixels *)
Definition same_pic (p q : pic) : Prop :=
  picBounds p = picBounds q /\ picModel p = picModel q /\
  forall x y, minX (picBounds p) <= x < maxX (picBounds p) -> minY (picBounds p) <= y < maxY (picBounds p) -> picAt p x y = picAt q x y.
Inductive same_layer : layer -> layer -> Prop :=
| same_l n b m v t i i' : same_image i i' -> same_layer (mkLayer n b m v t i) (mkLayer n b m v t i')
with same_image : image -> image -> Prop :=
| same_group g g' : same_layers g g' -> same_image (IGroup g) (IGroup g')
| same_leaf p p' : same_pic p p' -> same_image (ILeaf p) (ILeaf p')
| same_text p p' t : same_pic p p' -> same_image (IText (ILeaf p) t) (IText (ILeaf p') t)
with same_layers : list layer -> list layer -> Prop :=
| same_nil : same_layers [] []
| same_cons l l' g g' : same_layer l l' -> same_layers g g' -> same_layers (l :: g) (l' :: g').
