(** Specification for C87: which images Encode takes. *)
Require Import Verif.Base Verif.M_Color Verif.M_Rect Verif.M_Image Verif.S_Rect.

(** The layers whose text is written: text layers not behind a mask, in groups of any nesting. Their
    texts, unless empty, can be written for a layer of that size. *)
Section Texts.
Variable written : list textDatum -> Z -> Z -> Prop.
Fixpoint texts_layer (l : layer) : Prop :=
  match l with
  | mkLayer _ b _ _ _ (IText _ t) => t = [] \/ written t ((maxX b - minX b) mod 4294967296) ((maxY b - minY b) mod 4294967296)
  | mkLayer _ _ _ _ _ (IGroup g) => fold_right (fun l P => texts_layer l /\ P) True g
  | _ => True
  end.
(** an image that is no layered image is written as one layer at the corner, of no size *)
Definition texts_image (i : image) : Prop :=
  match i with
  | IGroup g => Forall texts_layer g
  | ILayer l => texts_layer l
  | IText _ t => t = [] \/ written t 0 0
  | _ => True
  end.
End Texts.
(** the texts that can be written: one segment, with a colour *)
Definition one_coloured (t : list textDatum) : Prop := exists d c, t = [d] /\ tdFore d = Some c.

(** The images whose pixels are written: those of the layers, without masks; they can be read inside
    their bounds (At does not panic). *)
Section Drawn.
Variable rnd : nat -> Z.
Definition unmask (i : image) : image := match i with IMasked i _ => i | i => i end.
Definition drawn (i : image) : Prop := forall x y n, inside (image_Bounds i) x y -> image_At rnd i x y n <> None.
Fixpoint drawn_layer (l : layer) : Prop :=
  match l with
  | mkLayer _ _ _ _ _ im =>
      drawn (unmask im) /\
      match im with IGroup g => fold_right (fun l P => drawn_layer l /\ P) True g | _ => True end
  end.
Definition drawn_image (i : image) : Prop :=
  match i with
  | IGroup g => Forall drawn_layer g
  | ILayer l => drawn_layer l
  | i => drawn (unmask i)
  end.
End Drawn.
(** the pictures among them *)
Definition leaf_of (i : image) : option pic :=
  match unmask i with ILeaf p => Some p | IText (ILeaf p) _ => Some p | _ => None end.
Definition leaf_drawn (i : image) : Prop :=
  match leaf_of i with Some p => forall x y, inside (picBounds p) x y -> picAt p x y <> None | None => True end.
Fixpoint leaves_drawn (l : layer) : Prop :=
  match l with
  | mkLayer _ _ _ _ _ im =>
      leaf_drawn im /\
      match im with IGroup g => fold_right (fun l P => leaves_drawn l /\ P) True g | _ => True end
  end.
Definition leaves_image (i : image) : Prop :=
  match i with
  | IGroup g => Forall leaves_drawn g
  | ILayer l => leaves_drawn l
  | i => leaf_drawn i
  end.
