(** Images whose pictures are where they are drawn, of colours that a file keeps (C90). *)
Require Import Verif.Base Verif.M_Color Verif.M_Rect Verif.S_Rect Verif.M_Image Verif.M_Decode Verif.S_Meaning Verif.S_Kinds Verif.S_Whole.

(** a colour of 8 bits *)
Definition eight (c : color) : Prop :=
  match c with
  | CRGB r g b => is_u8 r /\ is_u8 g /\ is_u8 b
  | CNRGBA r g b a => is_u8 r /\ is_u8 g /\ is_u8 b /\ is_u8 a
  | _ => False
  end.
(** an opaque colour of 8 bits *)
Definition full (c : color) (r g b : Z) : Prop := (c = CRGB r g b \/ c = CNRGBA r g b 255) /\ is_u8 r /\ is_u8 g /\ is_u8 b.
(** The colours that can be kept in an image of this colour model: colours of 8 bits; greys, opaque
    or black; the opaque colours of its palette. *)
Definition plain_colour (k : cmodel) (c : color) : Prop :=
  match k with
  | KGray | KGray16 | KGrayAlpha =>
      match c with CGray y => is_u8 y | CGrayAlpha y a => is_u8 y /\ is_u8 a /\ (a = 255 \/ y = 0) | _ => False end
  | KAlphaPalette q => exists e r g b, In e q /\ full e r g b /\ full c r g b
  | KPalette _ => False
  | _ => eight c
  end.
(** the colour models of the pictures in it; a color.Palette is drawn in another way than the
    AlphaPalette it is loaded as *)
Definition plain_model (k k' : cmodel) : Prop :=
  match k with
  | KGray | KGray16 | KGrayAlpha => k' = KGray \/ k' = KGrayAlpha
  | KAlphaPalette q => k' = k /\ zlen q <= 256 /\ Forall (fun e => exists r g b, full e r g b) q
  | KPalette _ => False
  | _ => k' = KRGB \/ k' = KNRGBA
  end.
(** a picture of such colours, its corner at (0,0) *)
Definition plain_pic (k : cmodel) (p : pic) : Prop :=
  minX (picBounds p) = 0 /\ minY (picBounds p) = 0 /\ plain_model k (picModel p) /\
  forall x y c, inside (picBounds p) x y -> picAt p x y = Some c -> plain_colour k c.
(** Trees of such pictures: groups, masks with their corner at (0,0), texts that are read as they were written; no
    layer is empty. *)
Section Plain.
Variables (written : list textDatum -> Z -> Z -> option (list Z)) (read : list Z -> option (list textDatum)) (k : cmodel).
Fixpoint plain_layer (l : layer) : Prop :=
  match l with
  | mkLayer _ b _ _ _ im =>
      minX b < maxX b /\ minY b < maxY b /\
      match im with
      | ILeaf p => plain_pic k p
      | IGroup g => fold_right (fun l P => plain_layer l /\ P) True g
      | IMasked (ILeaf p) m => plain_pic k p /\ minX (grayBounds m) = 0 /\ minY (grayBounds m) = 0
      | IText (ILeaf p) t => plain_pic k p /\ t <> [] /\
          forall data, written t (maxX b - minX b) (maxY b - minY b) = Some data -> read data = Some t
      | _ => False
      end
  end.
End Plain.

(** the texts of a file are read as they were when they have been written *)
Fixpoint steady (written : list textDatum -> Z -> Z -> option (list Z)) (ptext : list Z -> tres) (F : dforest) : Prop :=
  match F with
  | DNil => True
  | DCons _ nd F =>
      match nd with
      | DLeaf D => forall t data, ldText D = Some t -> written t (ldW D) (ldH D) = Some data -> ptext data = TOk t
      | DGroup _ k => steady written ptext k
      end /\ steady written ptext F
  end.

(** no pixel of a file is translucent, and no layer is indexed without alpha *)
Fixpoint unbroken (pal : list (Z * Z * Z)) (F : dforest) : Prop :=
  match F with
  | DNil => True
  | DCons _ nd F =>
      match nd with
      | DLeaf D => ldType D <> 4 /\ forall x y, 0 <= x < ldW D -> 0 <= y < ldH D -> exists r g b, meant (ldType D) pal (fun k => ldPx D k x y) = Some (r, g, b, 255)
      | DGroup _ k => unbroken pal k
      end /\ unbroken pal F
  end.
(** the first layer is a picture, or a group whose first layer is one, or ... *)
Fixpoint fronted (F : dforest) : Prop :=
  match F with
  | DNil => False
  | DCons _ (DLeaf _) _ => True
  | DCons _ (DGroup _ k) _ => fronted k
  end.
