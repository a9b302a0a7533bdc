(** What a file must be for its image to survive being loaded and saved again; and what
    surviving is. *)
Require Import Verif.Base Verif.M_Color Verif.M_Composite Verif.M_Rect Verif.M_Image Verif.M_Decode Verif.S_Kinds Verif.S_Meaning Verif.S_Whole.

(** the layers not in a group *)
Fixpoint tops (F : dforest) : list ldesc :=
  match F with DNil => [] | DCons _ nd F => match nd with DLeaf d => d | DGroup d _ => d end :: tops F end.
(** the text of a layer is not empty, not behind a mask, and can be read when it has been written *)
Definition text_kept (written : list textDatum -> Z -> Z -> option (list Z)) (ptext : list Z -> tres) (D : ldesc) : Prop :=
  match ldText D with
  | None => True
  | Some t => t <> [] /\ ldMask D = None /\ exists data t', written t (ldW D) (ldH D) = Some data /\ ptext data = TOk t'
  end.
(** all pixels have a colour and none is translucent *)
Definition solid (pal : list (Z * Z * Z)) (D : ldesc) : Prop :=
  forall x y, 0 <= x < ldW D -> 0 <= y < ldH D ->
    exists r g b a, meant (ldType D) pal (fun k => ldPx D k x y) = Some (r, g, b, a) /\ (a = 0 \/ a = 255).
(** all pixels of all layers have a colour: the indices of an indexed image are in its colour map *)
Fixpoint coloured (pal : list (Z * Z * Z)) (F : dforest) : Prop :=
  match F with
  | DNil => True
  | DCons _ nd F =>
      match nd with
      | DLeaf d => forall x y, 0 <= x < ldW d -> 0 <= y < ldH d -> meant (ldType d) pal (fun k => ldPx d k x y) <> None
      | DGroup _ k => coloured pal k
      end /\ coloured pal F
  end.
(** [neat]: the layers are not empty, inside their group (inside x0,y0 to x1,y1), of a mode that
    can be written, their texts and (in an image that is not of colours) their pixels as above;
    no group has too many *)
Section Neat.
Variables (written : list textDatum -> Z -> Z -> option (list Z)) (ptext : list Z -> tres) (base : Z) (pal : list (Z * Z * Z)).
Fixpoint neat (x0 y0 x1 y1 : Z) (F : dforest) : Prop :=
  match F with
  | DNil => True
  | DCons _ nd F =>
      let D := match nd with DLeaf d => d | DGroup d _ => d end in
      let a := ldAttrs D in
      0 < ldW D /\ 0 < ldH D /\ x0 <= aX a /\ y0 <= aY a /\ aX a + ldW D <= x1 /\ aY a + ldH D <= y1 /\
      aMode a <> MLuminance /\
      match nd with
      | DLeaf d => text_kept written ptext d /\ (base = 0 \/ solid pal d)
      | DGroup _ k => zlen (tops k) <= 55296 /\ neat (aX a) (aY a) (aX a + ldW D) (aY a + ldH D) k
      end /\
      neat x0 y0 x1 y1 F
  end.
End Neat.
(** the canvas is of a size that can be written, and some layers touch its left and its upper edge;
    there are not too many layers *)
Definition canvas_kept (w h : Z) (F : dforest) : Prop :=
  w < 2147483648 /\ h < 2147483648 /\ zlen (tops F) <= 55296 /\ (w + 63) / 64 * ((h + 63) / 64) < 4294967296 /\
  Exists (fun D => aX (ldAttrs D) = 0) (tops F) /\ Exists (fun D => aY (ldAttrs D) = 0) (tops F).

(** ** The same image *)
Section Same.
Variables (written : list textDatum -> Z -> Z -> option (list Z)) (ptext : list Z -> tres).
(** the same colours inside the same bounds; the colour model may be another *)
Definition same_colours (p q : pic) : Prop :=
  picBounds q = picBounds p /\
  forall x y, minX (picBounds p) <= x < maxX (picBounds p) -> minY (picBounds p) <= y < maxY (picBounds p) ->
    exists c c', picAt p x y = Some c /\ picAt q x y = Some c' /\ color_RGBA c' = color_RGBA c.
Inductive unchanged : layer -> layer -> Prop :=
| un_layer n b m v t i i' : unchanged_image b i i' -> unchanged (mkLayer n b m v t i) (mkLayer n b m v t i')
with unchanged_image : rect -> image -> image -> Prop :=
| un_group b g g' : unchanged_layers g g' -> unchanged_image b (IGroup g) (IGroup g')
| un_leaf b p q : same_colours p q -> unchanged_image b (ILeaf p) (ILeaf q)
| un_mask b p q m m' : same_colours p q -> grayBounds m' = grayBounds m ->
    (forall x y, minX (grayBounds m) <= x < maxX (grayBounds m) -> minY (grayBounds m) <= y < maxY (grayBounds m) -> grayAt m' x y = grayAt m x y) ->
    unchanged_image b (IMasked (ILeaf p) m) (IMasked (ILeaf q) m')
| un_text b p q t data t' : same_colours p q -> written t (dx b) (dy b) = Some data -> ptext data = TOk t' ->
    unchanged_image b (IText (ILeaf p) t) (IText (ILeaf q) t')
with unchanged_layers : list layer -> list layer -> Prop :=
| un_nil : unchanged_layers [] []
| un_cons l l' g g' : unchanged l l' -> unchanged_layers g g' -> unchanged_layers (l :: g) (l' :: g').
End Same.
