(** Layer trees as the XCF encoder is given them. *)
Require Import Verif.Base Verif.M_Color Verif.M_Composite Verif.M_Rect Verif.M_Image.

(** bounds of an image that can be written: not inside out, and the number of tiles
    fits a word *)
Definition fits (b : rect) : Prop :=
  minX b <= maxX b /\ minY b <= maxY b /\ (dx b + 63) / 64 * ((dy b + 63) / 64) < 4294967296.
(** the image under a mask, and the mask *)
Definition unmasked (i : image) : image := match i with IMasked i _ => i | i => i end.
Definition mask_of (i : image) : option gray_img := match i with IMasked _ m => Some m | _ => None end.
Fixpoint writable (l : layer) : Prop :=
  match l with
  | mkLayer _ _ _ _ _ im =>
      fits (image_Bounds (unmasked im)) /\
      match mask_of im with Some m => fits (grayBounds m) | None => True end /\
      match im with IGroup g => fold_right (fun l P => writable l /\ P) True g | _ => True end
  end.
(** number of layers of a tree *)
Fixpoint layers_in (l : layer) : Z :=
  match l with
  | mkLayer _ _ _ _ _ (IGroup g) => 1 + fold_right (fun l n => layers_in l + n) 0 g
  | mkLayer _ _ _ _ _ _ => 1
  end.
(** The layers of a tree from the first on, a group before its layers: each with its
    position on the canvas and its path (the index in each enclosing group) *)
Fixpoint preorder (l : layer) (x y : Z) (path : list Z) : list (layer * Z * Z * list Z) :=
  match l with
  | mkLayer _ _ _ _ _ im =>
      (l, x, y, path) ::
      match im with
      | IGroup g =>
          (fix go (g : list layer) (i : Z) : list (layer * Z * Z * list Z) :=
             match g with
             | [] => []
             | l :: g => preorder l (x + minX (lBounds l)) (y + minY (lBounds l)) (path ++ [i]) ++ go g (i + 1)
             end) g 0
      | _ => []
      end
  end.
Fixpoint preorders (g : list layer) (x y : Z) (path : list Z) (i : Z) : list (layer * Z * Z * list Z) :=
  match g with
  | [] => []
  | l :: g => preorder l (x + minX (lBounds l)) (y + minY (lBounds l)) (path ++ [i]) ++ preorders g x y path (i + 1)
  end.
