(** A file that describes a layered image: what the format's description of a file (S_Whole)
    says of layers and what the layers are. *)
Require Import Verif.Base Verif.M_Color Verif.M_Composite Verif.M_Rect Verif.M_Image Verif.M_Decode Verif.S_String Verif.S_Tree Verif.S_Trip
  Verif.S_Kinds Verif.S_Meaning Verif.S_Whole.

Section Written.
(** the random draws of the encoder; how a text is written and read; the colour model of the
    image; what becomes of composition modes *)
Variables (rnd : nat -> Z) (written : list textDatum -> Z -> Z -> option (list Z)) (ptext : list Z -> tres).
Variables (k : cmodel) (md : mode -> mode).

(** the pixels [px] mean, from the corner (0,0) on, the colours of [i] converted to the type of the file *)
Definition pixels_told (i : image) (px : Z -> Z -> Z -> Z) : Prop :=
  let b := image_Bounds i in
  forall x y, 0 <= x < dx b -> 0 <= y < dy b -> exists c m m',
    image_At rnd i (minX b + x) (minY b + y) m = Some (c, m') /\
    shown_as (converted k c) (meant (2 * base_type k + 1) (file_palette k) (fun j => px j x y)).
Definition mask_told (o : option gray_img) (o' : option (Z -> Z -> Z)) : Prop :=
  match o, o' with
  | None, None => True
  | Some m, Some m' => let b := grayBounds m in
      forall x y, 0 <= x < dx b -> 0 <= y < dy b -> m' x y = grayAt m (minX b + x) (minY b + y)
  | _, _ => False
  end.
(** the text of a layer of size w by h *)
Definition text_told (i : image) (w h : Z) (o : option (list textDatum)) : Prop :=
  match i with
  | IText _ (t :: ts) => exists data t', written (t :: ts) w h = Some data /\ ptext data = TOk t' /\ o = Some t'
  | _ => o = None
  end.
(** name, size, type, place, mode, visibility and transparency *)
Definition head_told (name : list Z) (b : rect) (m : mode) (inv : bool) (tr x y : Z) (D : ldesc) : Prop :=
  let a := ldAttrs D in
  ldName D = name /\ ldW D = dx b /\ ldH D = dy b /\ ldType D = 2 * base_type k + 1 /\
  aX a = x /\ aY a = y /\ aMode a = md m /\ aHidden a = inv /\ aTransparency a = tr.
(** [told l x y nd]: nd describes the layer l, whose corner is at (x,y) of the canvas *)
Inductive told : layer -> Z -> Z -> dnode -> Prop :=
| told_leaf name b m inv tr i x y D : match i with IGroup _ => False | _ => True end ->
    head_told name b m inv tr x y D -> pixels_told (S_Tree.unmasked i) (ldPx D) -> mask_told (mask_of i) (ldMask D) ->
    text_told i (dx b) (dy b) (ldText D) -> told (mkLayer name b m inv tr i) x y (DLeaf D)
| told_group name b m inv tr g x y D F : head_told name b m inv tr x y D -> ldMask D = None ->
    tolds g x y F -> told (mkLayer name b m inv tr (IGroup g)) x y (DGroup D F)
with tolds : list layer -> Z -> Z -> dforest -> Prop :=
| tolds_nil x y : tolds [] x y DNil
| tolds_cons l g x y r nd F : told l (x + minX (lBounds l)) (y + minY (lBounds l)) nd -> tolds g x y F ->
    tolds (l :: g) x y (DCons r nd F).

(** Layers the format can express (C52, C53, C54 for texts, colours): UTF-8 names, modes with a
    number ([ok]), coordinates of 32 bits, pictures and masks of the size of the layer. *)
Variable ok : mode -> Prop.
Fixpoint expressible (l : layer) (x y : Z) {struct l} : Prop :=
  match l with
  | mkLayer name b m inv tr im =>
      utf8 name /\ ok m /\ word_sized x /\ word_sized y /\ 0 <= dx b <= 4294967232 /\ 0 <= dy b <= 4294967232 /\
      match im with
      | IGroup g =>
          zlen g <= 55296 /\
          (fix all (g : list layer) : Prop :=
             match g with
             | [] => True
             | l :: g => expressible l (x + minX (lBounds l)) (y + minY (lBounds l)) /\ all g
             end) g
      | _ =>
          dx (image_Bounds im) = dx b /\ dy (image_Bounds im) = dy b /\
          match im with
          | IMasked _ m => dx (grayBounds m) = dx b /\ dy (grayBounds m) = dy b
          | IText _ (t :: ts) => forall data, written (t :: ts) (dx b) (dy b) = Some data -> Forall is_u8 data /\ exists t', ptext data = TOk t'
          | _ => True
          end
      end
  end.
Fixpoint expressibles (g : list layer) (x y : Z) : Prop :=
  match g with
  | [] => True
  | l :: g => expressible l (x + minX (lBounds l)) (y + minY (lBounds l)) /\ expressibles g x y
  end.
End Written.
