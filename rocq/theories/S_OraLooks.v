(** Pictures that a PNG keeps, and what is assumed of image/png about their colours (C92). *)
Require Import Verif.Base Verif.M_Color Verif.M_Composite Verif.M_Rect Verif.S_Rect Verif.M_Image Verif.M_Ora Verif.S_Ora Verif.S_Color.

(** [i] shows [c] at (x, y), whatever is drawn by lot *)
Definition fixed (i : image) (x y : Z) (c : color) : Prop := forall rnd n, image_At rnd i x y n = Some (c, n).
(** the straight components of 16 bits of a colour of 8 bits *)
Definition wide (c : Z * Z * Z * Z) : nrgba64 := let '(r, g, b, a) := c in mk64 (257 * r) (257 * g) (257 * b) (257 * a).

(** image/png: an image of model NRGBA is stored with 8 bits per component, each colour converted by
    color.NRGBAModel; one of the library's model RGB, which image/png does not know, with 16 bits per
    component, and there neither an RGB nor an NRGBA64 loses anything; neither comes back with a palette. *)
Record png_ok (L : libs) : Prop := {
  png_eight : forall i p x y c, lib_png L i = Some p -> image_ColorModel i = KNRGBA -> inside (image_Bounds i) x y -> fixed i x y c ->
      exists c', picAt p (x - minX (image_Bounds i)) (y - minY (image_Bounds i)) = Some c' /\ colourToNRGBA c' = wide (nrgbaModel c);
  png_sixteen : forall i p x y c, lib_png L i = Some p -> image_ColorModel i = KRGB -> inside (image_Bounds i) x y -> fixed i x y c ->
      match c with CRGB _ _ _ | CNRGBA64 _ => True | _ => False end ->
      exists c', picAt p (x - minX (image_Bounds i)) (y - minY (image_Bounds i)) = Some c' /\ colourToNRGBA c' = colourToNRGBA c;
  png_colours : forall i p, lib_png L i = Some p -> image_ColorModel i = KNRGBA \/ image_ColorModel i = KRGB -> is_palette (picModel p) = false }.

(** colours that are kept: with alpha, 8 bits per component (or nothing at all, where a mask is 0);
    without alpha, also behind a mask *)
Definition kept (k : cmodel) (c : color) : Prop :=
  match k, c with
  | KNRGBA, CNRGBA r g b a => is_u8 r /\ is_u8 g /\ is_u8 b /\ is_u8 a
  | KNRGBA, CRGB r g b => is_u8 r /\ is_u8 g /\ is_u8 b
  | KNRGBA, CNRGBA64 n => n = mk64 0 0 0 0
  | KRGB, CRGB _ _ _ | KRGB, CNRGBA64 _ => True
  | _, _ => False
  end.
(** layers whose pictures (also texts, or pictures behind a mask) are drawn from their corner and consist of such colours *)
Fixpoint lasting (l : layer) : Prop :=
  match l with
  | mkLayer _ _ _ _ _ im =>
      match im with
      | IGroup g => fold_right (fun l P => lasting l /\ P) True g
      | i => minX (image_Bounds i) = 0 /\ minY (image_Bounds i) = 0 /\ (image_ColorModel i = KNRGBA \/ image_ColorModel i = KRGB) /\
             forall x y, inside (image_Bounds i) x y -> exists c, fixed i x y c /\ kept (image_ColorModel i) c
      end
  end.
