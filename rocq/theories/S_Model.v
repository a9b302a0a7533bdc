(** What a colour model says of the colours of an image. *)
Require Import Verif.Base Verif.M_Color Verif.M_Composite Verif.M_Rect Verif.M_Image.

(** the first picture in the front-most place of an image has this colour model; an image
    without any has the model of an alpha channel *)
Inductive front : image -> cmodel -> Prop :=
| fr_picture p : front (ILeaf p) (picModel p)
| fr_empty : front (IGroup []) KAlpha
| fr_group l g k : front (lImage l) k -> front (IGroup (l :: g)) k
| fr_masked i m k : front i k -> front (IMasked i m) k
| fr_text i t k : front i k -> front (IText i t) k
| fr_layer l k : front (lImage l) k -> front (ILayer l) k.

(** the colours (premultiplied, 16 bits) that a model has *)
Definition in_model (k : cmodel) (p : rgba32) : Prop :=
  match k with
  | KAlpha => pR p = pA p /\ pG p = pA p /\ pB p = pA p
  | KGray | KGray16 => pR p = pG p /\ pG p = pB p /\ pA p = 65535
  | KGrayAlpha => pR p = pG p /\ pG p = pB p
  | KRGB => pA p = 65535
  | KPalette l => In p (map color_RGBA l)
  | KAlphaPalette l => exists c, In c l /\
      pR p = pR (color_RGBA c) * pA p / 65535 /\ pG p = pG (color_RGBA c) * pA p / 65535 /\ pB p = pB (color_RGBA c) * pA p / 65535
  | KNRGBA | KOther => True
  end.
(** an image of the library shows only colours of its model *)
Definition honest (i : image) : Prop :=
  forall rnd x y n c n', image_At rnd i x y n = Some (c, n') -> in_model (image_ColorModel i) (color_RGBA c).

(** a grey colour; every picture in a tree shows only greys *)
Definition grey (p : rgba32) : Prop := pR p = pG p /\ pG p = pB p.
Definition grey_pic (p : pic) : Prop := forall x y c, minX (picBounds p) <= x < maxX (picBounds p) -> minY (picBounds p) <= y < maxY (picBounds p) ->
  picAt p x y = Some c -> grey (color_RGBA c).
Inductive pic_in : pic -> image -> Prop :=
| pi_here p : pic_in p (ILeaf p)
| pi_group p g l : In l g -> pic_in p (lImage l) -> pic_in p (IGroup g)
| pi_masked p i m : pic_in p i -> pic_in p (IMasked i m)
| pi_text p i t : pic_in p i -> pic_in p (IText i t)
| pi_layer p l : pic_in p (lImage l) -> pic_in p (ILayer l).
