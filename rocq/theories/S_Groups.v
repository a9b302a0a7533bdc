(** Specification of the layer tree of an XCF file, independent of the decoder's
    maps and slices. *)
Require Import Verif.Base Verif.M_Color Verif.M_Composite Verif.M_Rect Verif.M_Image.

(** what the file says of one layer: its place on the canvas is absolute *)
Record attrs := mkA {
  aName : list Z; aBounds : rect; aMode : mode; aInvisible : bool; aTransparency : Z;
  aImage : option image; aAlpha : bool }.
(** a layer tree: the children of a group carry labels (the last number of their
    item path); a layer is written with its path or, at the top level only,
    possibly without *)
Inductive node := NLeaf (a : attrs) | NGroup (a : attrs) (kids : forest)
with forest := FNil | FCons (label : Z) (nd : node) (rest : forest).

Fixpoint labels (f : forest) : list Z :=
  match f with FNil => [] | FCons r _ f => r :: labels f end.

(** a label is a Unicode scalar value *)
Definition scalar (r : Z) : bool :=
  ((0 <=? r) && (r <=? 55295)) || ((57344 <=? r) && (r <=? 1114111)).
(** siblings have distinct labels, all of them scalar values *)
Fixpoint well_labelled (f : forest) : Prop :=
  match f with
  | FNil => True
  | FCons r nd f => scalar r = true /\ ~ In r (labels f) /\
      match nd with NLeaf _ => True | NGroup _ k => well_labelled k end /\ well_labelled f
  end.
(** the labels are the positions n, n+1, ... *)
Fixpoint numbered (n : Z) (f : forest) : Prop :=
  match f with FNil => True | FCons r _ f => r = n /\ numbered (n + 1) f end.

(** the rectangle of a layer in its parent: its part inside the canvas, relative
    to the parent's corner (ox,oy) *)
Definition placed (canvas : rect) (ox oy : Z) (b : rect) : rect := rsub (intersect b canvas) ox oy.
(** the layered image the tree describes *)
Fixpoint tree_layers (canvas : rect) (ox oy : Z) (f : forest) : list layer :=
  match f with
  | FNil => []
  | FCons _ nd f =>
      let '(a, i) := match nd with
                     | NLeaf a => (a, match aImage a with Some i => i | None => ILeaf (mkPic ZR KOther (fun _ _ => None)) end)
                     | NGroup a k => (a, IGroup (tree_layers canvas (minX (aBounds a)) (minY (aBounds a)) k))
                     end in
      mkLayer (aName a) (placed canvas ox oy (aBounds a)) (aMode a) (aInvisible a) (aTransparency a) i
      :: tree_layers canvas ox oy f
  end.
(** the bottom layer of an image has nothing to blend with: it keeps only Normal
    and Dissolve *)
Definition bottom_normal (l : list layer) : list layer :=
  match rev l with
  | [] => []
  | mkLayer n b m v t i :: r =>
      rev (mkLayer n b (match m with MDissolve => MDissolve | _ => MNormal end) v t i :: r)
  end.

(** the layers of the tree in file order (a group before its children), as
    (attributes, is it a group, item path); at the top level the path may be left
    out ([bare]) *)
Fixpoint file_order (bare : bool) (p : list Z) (f : forest) : list (attrs * bool * list Z) :=
  match f with
  | FNil => []
  | FCons r nd f =>
      let path := if bare then [] else p ++ [r] in
      match nd with
      | NLeaf a => [(a, false, path)]
      | NGroup a k => (a, true, path) :: file_order false (p ++ [r]) k
      end ++ file_order bare p f
  end.

(** the layered image as the file places it, nothing clipped *)
Fixpoint tree_unclipped (ox oy : Z) (f : forest) : list layer :=
  match f with
  | FNil => []
  | FCons _ nd f =>
      let '(a, i) := match nd with
                     | NLeaf a => (a, match aImage a with Some i => i | None => ILeaf (mkPic ZR KOther (fun _ _ => None)) end)
                     | NGroup a k => (a, IGroup (tree_unclipped (minX (aBounds a)) (minY (aBounds a)) k))
                     end in
      mkLayer (aName a) (rsub (aBounds a) ox oy) (aMode a) (aInvisible a) (aTransparency a) i
      :: tree_unclipped ox oy f
  end.
(** every layer starts inside the canvas (its right and bottom parts may stick out) *)
Fixpoint starts_inside (canvas : rect) (f : forest) : Prop :=
  match f with
  | FNil => True
  | FCons _ nd f =>
      let b := aBounds (match nd with NLeaf a => a | NGroup a _ => a end) in
      (minX canvas <= minX b /\ minY canvas <= minY b) /\
      match nd with NLeaf _ => True | NGroup _ k => starts_inside canvas k end /\
      starts_inside canvas f
  end.

(** the item paths of a layer list: a layer without one is numbered among the
    layers without one *)
Fixpoint item_paths (n : Z) (ps : list (list Z)) : list (list Z) :=
  match ps with
  | [] => []
  | [] :: ps => [n] :: item_paths (n + 1) ps
  | p :: ps => p :: item_paths n ps
  end.
