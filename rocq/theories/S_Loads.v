(** Which of the images Encode saves can be loaded again.  Said of each layer of the tree, with
    its corner on the canvas and its path, the index in each enclosing group. *)
Require Import Verif.Base Verif.M_Color Verif.M_Rect Verif.M_Image Verif.S_String Verif.S_Tree Verif.S_Trip.

(** what the fields of the format have room for *)
Definition storable (r : layer * Z * Z * list Z) : Prop :=
  let '(l, x, y, path) := r in
  zlen (lName l) < 16777216 /\ 0 <= lTransparency l <= 255 /\ word_sized x /\ word_sized y /\
  Forall (fun z => 0 <= z < 55296) path /\
  0 <= dx (lBounds l) <= 4294967232 /\ 0 <= dy (lBounds l) <= 4294967232 /\
  match lImage l with
  | IGroup _ => True
  | i => dx (image_Bounds i) <= 4294967232 /\ dy (image_Bounds i) <= 4294967232 /\
         match mask_of i with Some m => dx (grayBounds m) <= 4294967232 /\ dy (grayBounds m) <= 4294967232 | None => True end
  end.

(** What a layer must be for its record to be read: its name is UTF-8; it is a group, or it has
    the size of its picture; a mask has the layer's size and the layer lies in the canvas's corner
    (or both are empty), and masks are read at all; a text can be read back. *)
Definition loads (written : list textDatum -> Z -> Z -> option (list Z)) (read : list Z -> option (list textDatum)) (masks : bool)
    (r : layer * Z * Z * list Z) : Prop :=
  let '(l, x, y, _) := r in
  let w := dx (lBounds l) in let h := dy (lBounds l) in
  utf8 (lName l) /\
  match lImage l with
  | IGroup _ => True
  | i => dx (image_Bounds i) = w /\ dy (image_Bounds i) = h /\
      match i with
      | IMasked _ m => masks = true /\
          ((x = 0 /\ y = 0 /\ dx (grayBounds m) = w /\ dy (grayBounds m) = h) \/
           ((w = 0 \/ h = 0) /\ (dx (grayBounds m) = 0 \/ dy (grayBounds m) = 0)))
      | IText _ (t :: ts) => exists data t', written (t :: ts) w h = Some data /\ read data = Some t'
      | _ => True
      end
  end.
