(** Model of Go's image.Point and image.Rectangle (standard library, trusted:
    the package is not part of /repo).  Coordinates are unbounded integers (Go's
    int is 64 bits wide; overflow of coordinates is not modelled). *)
Require Import Verif.Base.

Record rect := mkRect { minX : Z; minY : Z; maxX : Z; maxY : Z }.

(** image.ZR *)
Definition ZR : rect := mkRect 0 0 0 0.
(** image.Rect: swaps the coordinates if necessary *)
Definition image_Rect (x0 y0 x1 y1 : Z) : rect :=
  mkRect (Z.min x0 x1) (Z.min y0 y1) (Z.max x0 x1) (Z.max y0 y1).
(** Rectangle.Dx, Dy *)
Definition dx (r : rect) : Z := maxX r - minX r.
Definition dy (r : rect) : Z := maxY r - minY r.
(** Rectangle.Empty *)
Definition rempty (r : rect) : bool := (maxX r <=? minX r) || (maxY r <=? minY r).
(** Point.In *)
Definition pin (x y : Z) (r : rect) : bool :=
  (minX r <=? x) && (x <? maxX r) && (minY r <=? y) && (y <? maxY r).
(** Rectangle.Intersect *)
Definition intersect (r s : rect) : rect :=
  let q := mkRect (Z.max (minX r) (minX s)) (Z.max (minY r) (minY s))
                  (Z.min (maxX r) (maxX s)) (Z.min (maxY r) (maxY s)) in
  if rempty q then ZR else q.
(** Rectangle.Union *)
Definition union (r s : rect) : rect :=
  if rempty r then s else if rempty s then r else
  mkRect (Z.min (minX r) (minX s)) (Z.min (minY r) (minY s))
         (Z.max (maxX r) (maxX s)) (Z.max (maxY r) (maxY s)).
(** Rectangle.Add, Sub *)
Definition radd (r : rect) (x y : Z) : rect :=
  mkRect (minX r + x) (minY r + y) (maxX r + x) (maxY r + y).
Definition rsub (r : rect) (x y : Z) : rect :=
  mkRect (minX r - x) (minY r - y) (maxX r - x) (maxY r - y).
(** Rectangle ==, Rectangle.Eq *)
Definition rect_eqb (r s : rect) : bool :=
  (minX r =? minX s) && (minY r =? minY s) && (maxX r =? maxX s) && (maxY r =? maxY s).
Definition rEq (r s : rect) : bool := rect_eqb r s || (rempty r && rempty s).
