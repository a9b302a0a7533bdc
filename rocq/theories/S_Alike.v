(** Images that cannot be told apart by drawing or saving them. *)
Require Import Verif.Base Verif.M_Color Verif.M_Rect Verif.S_Rect Verif.M_Image Verif.S_Meaning Verif.S_Whole.

(** the same colour; or the same opaque colour, once as an RGB and once as an NRGBA, or once as a
    Gray and once as a GrayAlpha *)
Inductive same_shade : color -> color -> Prop :=
| shade_same c : same_shade c c
| shade_left r g b : is_u8 r -> is_u8 g -> is_u8 b -> same_shade (CRGB r g b) (CNRGBA r g b 255)
| shade_right r g b : is_u8 r -> is_u8 g -> is_u8 b -> same_shade (CNRGBA r g b 255) (CRGB r g b)
| grey_left y : is_u8 y -> same_shade (CGray y) (CGrayAlpha y 255)
| grey_right y : is_u8 y -> same_shade (CGrayAlpha y 255) (CGray y).
(** what At gives: the same colour, or both panic *)
Definition same_view (o o' : option color) : Prop :=
  match o, o' with Some c, Some c' => same_shade c c' | None, None => True | _, _ => False end.
(** the same colour model; or colours, or greys, with and without alpha; or palettes (with
    alpha) of the same colours *)
Inductive same_model : cmodel -> cmodel -> Prop :=
| model_same k : same_model k k
| model_left : same_model KRGB KNRGBA
| model_right : same_model KNRGBA KRGB
| model_grey_left : same_model KGray KGrayAlpha
| model_grey_right : same_model KGrayAlpha KGray
| model_palette p p' : Forall2 same_shade p p' -> same_model (KAlphaPalette p) (KAlphaPalette p').
(** pictures of the same bounds and colour model that show the same inside the bounds *)
Definition alike_pic (p q : pic) : Prop :=
  picBounds q = picBounds p /\ same_model (picModel p) (picModel q) /\ forall x y, inside (picBounds p) x y -> same_view (picAt p x y) (picAt q x y).
(** a group can be read anywhere *)
Fixpoint grouped (i : image) : bool := match i with IGroup _ => true | IMasked i _ => grouped i | IText i _ => grouped i | _ => false end.
(** masks of the same bounds with the same values, in the bounds and where the image is *)
Definition same_mask (i : image) (m m' : gray_img) : Prop :=
  grayBounds m' = grayBounds m /\
  forall x y, inside (grayBounds m) x y \/ grouped i = true \/ inside (image_Bounds i) x y -> grayAt m' x y = grayAt m x y.
(** the same layers with alike pictures *)
Inductive alike : image -> image -> Prop :=
| alike_leaf p q : alike_pic p q -> alike (ILeaf p) (ILeaf q)
| alike_group g g' : alike_layers g g' -> alike (IGroup g) (IGroup g')
| alike_mask i i' m m' : alike i i' -> same_mask i m m' -> alike (IMasked i m) (IMasked i' m')
| alike_text i i' t : alike i i' -> alike (IText i t) (IText i' t)
| alike_wrap l l' : alike_layer l l' -> alike (ILayer l) (ILayer l')
with alike_layer : layer -> layer -> Prop :=
| alike_mk n b m v t i i' : alike i i' -> alike_layer (mkLayer n b m v t i) (mkLayer n b m v t i')
with alike_layers : list layer -> list layer -> Prop :=
| alike_nil : alike_layers [] []
| alike_cons l l' g g' : alike_layer l l' -> alike_layers g g' -> alike_layers (l :: g) (l' :: g').

(** The bounds of a layer are of what is in it: where the layer is, its image is read inside the
    image's bounds. *)
Fixpoint covered (i : image) : Prop :=
  match i with
  | ILeaf _ => True
  | IGroup g => fold_right (fun l P => covered_layer l /\ P) True g
  | IMasked i _ => covered i
  | IText i _ => covered i
  | ILayer l => covered_layer l
  end
with covered_layer (l : layer) : Prop :=
  match l with
  | mkLayer _ b _ _ _ im => covered im /\ (grouped im = true \/ forall x y, inside b x y -> inside (image_Bounds im) (x - minX b) (y - minY b))
  end.

(** no layer and no group of a file has a mask *)
Fixpoint maskless (F : dforest) : Prop :=
  match F with
  | DNil => True
  | DCons _ nd F => match nd with DLeaf d => ldMask d = None | DGroup d k => ldMask d = None /\ maskless k end /\ maskless F
  end.
