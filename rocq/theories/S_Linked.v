(** What a destination holds after some writes; and what it is for a file to be well
    linked, said with the bytes found at offsets. *)
Require Import Verif.Base Verif.M_Color Verif.M_Rect Verif.M_Image Verif.S_File Verif.S_Compressed Verif.S_Layout Verif.S_Tree.

(** a destination: the byte at each offset, if one was written; writes in order *)
Definition store (d : Z -> option Z) (w : Z * list Z) : Z -> option Z :=
  fun a => match znth (snd w) (a - fst w) with Some v => Some v | None => d a end.
Definition stored (ws : list (Z * list Z)) : Z -> option Z := fold_left store ws (fun _ => None).
(** number of writes that touch an offset *)
Definition touches (a : Z) (w : Z * list Z) : bool := (fst w <=? a) && (a <? fst w + zlen (snd w)).
Definition touched (ws : list (Z * list Z)) (a : Z) : Z := zlen (filter (touches a) ws).

(** the bytes l at offset p; a pointer at offset p to offset q *)
Definition at_ (f : list Z) (p : Z) (l : list Z) : Prop := exists a b, f = a ++ l ++ b /\ zlen a = p.
Definition points (f : list Z) (p q : Z) : Prop := is_word q /\ at_ f p (word q).

(** pixel data at p: header, one level, its tiles; both lists end with a null pointer *)
Definition linked_grid (f : list Z) (p : Z) (g : grid) : Prop :=
  at_ f p (w32 (gdW g) ++ w32 (gdH g) ++ w32 (gdChannels g)) /\
  exists q, points f (p + 12) q /\ points f (p + 16) 0 /\
  at_ f q (w32 (gdW g) ++ w32 (gdH g)) /\
  zlen (gdTiles g) = tiles_across (gdW g) * tiles_across (gdH g) /\
  points f (q + 8 + 4 * zlen (gdTiles g)) 0 /\
  forall i chs, znth (gdTiles g) i = Some chs ->
    zlen chs = gdChannels g /\ exists t, points f (q + 8 + 4 * i) t /\ at_ f t (concat chs).
(** a layer at p *)
Definition linked_layer (f : list Z) (p : Z) (l : flayer) : Prop :=
  at_ f p (layer_head l) /\
  exists q m, points f (p + zlen (layer_head l)) q /\ linked_grid f q (flImage l) /\
  points f (p + zlen (layer_head l) + 4) m /\
  match flMask l with
  | None => m = 0
  | Some g => at_ f m (w32 (gdW g) ++ w32 (gdH g) ++ string32 [] ++ prop32 0 []) /\
              exists q, points f (m + 21) q /\ linked_grid f q g
  end.
(** a file *)
Definition linked_file (f : list Z) (h : fhead) (ls : list flayer) : Prop :=
  at_ f 0 (file_head h) /\
  points f (zlen (file_head h) + 4 * zlen ls) 0 /\ points f (zlen (file_head h) + 4 * zlen ls + 4) 0 /\
  forall i l, znth ls i = Some l ->
    exists p, points f (zlen (file_head h) + 4 * i) p /\ linked_layer f p l.

(** an image that Encode is given: its layers can be written and their number fits a word *)
Definition encodable (i : image) : Prop :=
  match i with
  | IGroup g => fold_right (fun l P => writable l /\ P) True g /\ fold_right (fun l n => layers_in l + n) 0 g < 4294967296
  | ILayer l => writable l /\ layers_in l < 4294967296
  | i => fits (image_Bounds (unmasked i)) /\ match mask_of i with Some m => fits (grayBounds m) | None => True end
  end.
(** the number of its layers *)
Definition layers_of (i : image) : Z :=
  match i with
  | IGroup g => fold_right (fun l n => layers_in l + n) 0 g
  | ILayer l => layers_in l
  | _ => 1
  end.
(** and these, with position and path; an image of another kind is one layer with
    empty bounds and no path *)
Definition all_layers (i : image) : list (layer * Z * Z * list Z) :=
  match i with
  | IGroup g => preorders g 0 0 [] 0
  | ILayer l => preorders [l] 0 0 [] 0
  | i => [(mkLayer [] (mkRect 0 0 0 0) M_Composite.MNormal false 0 i, 0, 0, [])]
  end.
(** the record of a layer in the file *)
Definition record_of (r : layer * Z * Z * list Z) (fl : flayer) : Prop :=
  let '(l, x, y, path) := r in
  flName fl = lName l /\ flW fl = dx (lBounds l) /\ flH fl = dy (lBounds l) /\
  flOpacity fl = 255 - lTransparency l /\ flVisible fl = (if lInvisible l then 0 else 1) /\
  flX fl = x /\ flY fl = y /\ flPath fl = path /\
  flGroup fl = match lImage l with IGroup _ => true | _ => false end /\
  gdW (flImage fl) = dx (image_Bounds (unmasked (lImage l))) /\ gdH (flImage fl) = dy (image_Bounds (unmasked (lImage l))) /\
  match mask_of (lImage l), flMask fl with
  | None, None => True
  | Some m, Some g => gdW g = dx (grayBounds m) /\ gdH g = dy (grayBounds m)
  | _, _ => False
  end.
