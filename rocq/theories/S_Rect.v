(** Specification vocabulary for rectangles: sets of points. *)
Require Import Verif.Base Verif.M_Rect.

Definition inside (r : rect) (x y : Z) : Prop :=
  minX r <= x < maxX r /\ minY r <= y < maxY r.
Definition is_empty (r : rect) : Prop := forall x y, ~ inside r x y.
(** every point of r is a point of s *)
Definition subset (r s : rect) : Prop := forall x y, inside r x y -> inside s x y.
Definition same_points (r s : rect) : Prop := forall x y, inside r x y <-> inside s x y.
