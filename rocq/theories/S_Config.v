(** Vocabulary for C44: pictures in a layer tree, versions of a file. *)
Require Import Verif.Base Verif.M_Color Verif.M_Rect Verif.M_Image.

(** the picture [p] occurs in the image *)
Inductive occurs (p : pic) : image -> Prop :=
| occ_leaf : occurs p (ILeaf p)
| occ_mask i m : occurs p i -> occurs p (IMasked i m)
| occ_text i t : occurs p i -> occurs p (IText i t)
| occ_layer l : occurs p (lImage l) -> occurs p (ILayer l)
| occ_group g l : In l g -> occurs p (lImage l) -> occurs p (IGroup g).

(** "gimp xcf v004" to "gimp xcf v010": files with a precision word and 32-bit pointers *)
Definition mid_version (f : list Z) : Prop := exists a b t,
  f = [103; 105; 109; 112; 32; 120; 99; 102; 32; 118; 48; a; b] ++ t /\ ((a = 48 /\ 52 <= b <= 57) \/ (a = 49 /\ b = 48)).

(** the rectangle lies in the canvas of the given size *)
Definition inside (w h : Z) (r : rect) : Prop := 0 <= minX r /\ 0 <= minY r /\ maxX r <= w /\ maxY r <= h.

(** a picture of colour model [k] can belong to an image that DecodeConfig describes as [c] *)
Definition of_config (c : option cmodel) (k : cmodel) : Prop :=
  match c with
  | Some KNRGBA => k = KRGB \/ k = KNRGBA
  | Some KGrayAlpha => k = KGray \/ k = KGrayAlpha
  | Some (KAlphaPalette p) => k = KPalette p \/ k = KAlphaPalette p
  | _ => False
  end.
(** the base type of a file and the colour model reported for it *)
Definition config_of_base (b : Z) (c : option cmodel) : Prop :=
  (b = 0 -> c = Some KNRGBA) /\ (b = 1 -> c = Some KGrayAlpha) /\ (b = 2 -> exists p, c = Some (KAlphaPalette p)) /\ (2 < b -> c = None).
