(** Documents that ora.Encode can save again (C95). *)
Require Import Verif.Base Verif.M_Color Verif.M_Composite Verif.M_Rect Verif.S_Rect Verif.M_Image Verif.M_Ora Verif.S_Ora Verif.S_OraDoc Verif.S_OraLooks.

(** all is opaque, names are XML text, the pictures lie on the canvas; a stack has no offset and its
    content, if any, reaches the left and the upper edge of the canvas *)
Definition simple (L : libs) (a : desc) : Prop := dTransp a = 0 /\ lib_xml L (dName a) = dName a.
Inductive stays (L : libs) (w h : Z) : odoc -> Prop :=
| stays_layer as_ a body i : simple L a ->
    minX (image_Bounds i) = 0 -> minY (image_Bounds i) = 0 -> 0 < maxX (image_Bounds i) -> 0 < maxY (image_Bounds i) ->
    0 <= dX a -> 0 <= dY a -> dX a + maxX (image_Bounds i) <= w -> dY a + maxY (image_Bounds i) <= h ->
    stays L w h (OLayer as_ a body i)
| stays_stack as_ a kids : simple L a -> dX a = 0 -> dY a = 0 ->
    Forall (stays L w h) kids -> kids = [] \/ anchored w h kids -> stays L w h (OStack as_ a kids).

(** the pictures of a document *)
Fixpoint pictures (d : odoc) : list image :=
  match d with OLayer _ _ _ i => [i] | OStack _ _ kids => flat_map pictures kids end.
(** pictures whose colours a PNG keeps *)
Definition keeps (i : image) : Prop :=
  (image_ColorModel i = KNRGBA \/ image_ColorModel i = KRGB) /\
  forall x y, inside (image_Bounds i) x y -> exists c, fixed i x y c /\ kept (image_ColorModel i) c.

(** what the attributes of an element say *)
Definition said (d : odoc) : desc := match d with OLayer _ a _ _ | OStack _ a _ => a end.
