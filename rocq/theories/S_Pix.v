(** Specification of pixel images: canvases are total maps from points to
    pixels, an image is a window (canvas number, rectangle, palette). *)
Require Import Verif.Base Verif.M_Color Verif.M_Rect Verif.S_Rect Verif.M_Pix.

Definition canvas (P : Type) : Type := Z -> Z -> P.
Record win := mkWin { wCan : nat; wRect : rect; wPal : list color }.
Definition sstate (P : Type) : Type := (list (canvas P) * list win)%type.

Definition set_pt {P} (f : canvas P) (x y : Z) (p : P) : canvas P :=
  fun a b => if (a =? x) && (b =? y) then p else f a b.

(** [zero]: the pixel of a fresh image and of the outside; [conv pal c]: the pixel
    a colour is converted to *)
Definition spec_step {P} (zero : P) (conv : list color -> color -> P)
    (s : sstate P) (o : pixop P) : sstate P * pixout P :=
  let (cs, ws) := s in
  match o with
  | ONew r pal => ((cs ++ [fun _ _ => zero], ws ++ [mkWin (length cs) r pal]), RNone)
  | OSub i r => match nth_error ws i with
      | None => (s, RNone)
      | Some w =>
          let q := mkRect (Z.max (minX r) (minX (wRect w))) (Z.max (minY r) (minY (wRect w)))
                          (Z.min (maxX r) (maxX (wRect w))) (Z.min (maxY r) (maxY (wRect w))) in
          if (minX q <? maxX q) && (minY q <? maxY q)
          then ((cs, ws ++ [mkWin (wCan w) q (wPal w)]), RNone)
          else ((cs, ws ++ [mkWin 0 (mkRect 0 0 0 0) []]), RNone)
      end
  | OSetPix i x y p => match nth_error ws i with
      | None => (s, RNone)
      | Some w => match nth_error cs (wCan w) with
          | Some f => if pin x y (wRect w)
                      then ((upd_nat cs (wCan w) (set_pt f x y p), ws), RNone) else (s, RNone)
          | None => (s, RNone) end end
  | OSet i x y c => match nth_error ws i with
      | None => (s, RNone)
      | Some w => match nth_error cs (wCan w) with
          | Some f => if pin x y (wRect w)
                      then ((upd_nat cs (wCan w) (set_pt f x y (conv (wPal w) c)), ws), RNone) else (s, RNone)
          | None => (s, RNone) end end
  | OGet i x y => match nth_error ws i with
      | None => (s, RNone)
      | Some w => match nth_error cs (wCan w) with
          | Some f => (s, RPix (if pin x y (wRect w) then f x y else zero))
          | None => (s, RPix zero) end end
  | OBounds i => match nth_error ws i with
      | None => (s, RNone)
      | Some w => (s, RRect (wRect w)) end
  end.

Fixpoint spec_run {P} (zero : P) (conv : list color -> color -> P)
    (s : sstate P) (ops : list (pixop P)) : sstate P * list (pixout P) :=
  match ops with
  | [] => (s, [])
  | o :: ops => let (s1, r) := spec_step zero conv s o in
                let (s2, rs) := spec_run zero conv s1 ops in (s2, r :: rs)
  end.

(** conversions to the pixel of each type (high byte of the premultiplied
    components; luminance; nearest palette entry) *)
Definition conv_rgb (_ : list color) (c : color) : px3 :=
  let p := color_RGBA c in (pR p / 256, pG p / 256, pB p / 256).
Definition conv_ga (_ : list color) (c : color) : px2 := grayAlphaModel c.
Definition conv_pa (pal : list color) (c : color) : px2 :=
  (u8 (alphaPalette_Index pal c), pA (color_RGBA c) / 256).

(** an allocation is possible *)
Definition op_ok {P} (o : pixop P) : Prop :=
  match o with
  | ONew r _ => minX r <= maxX r /\ minY r <= maxY r
  | _ => True
  end.
Definition op_wf {P} (wfc : color -> Prop) (o : pixop P) : Prop :=
  match o with OSet _ _ _ c => wfc c | _ => True end.

(** [Sub] of the image [v] is a shared view: it covers exactly the common points,
    is the empty image if there are none, and reading or writing any of its
    points, in any state [h] of the memory, is reading or writing the original *)
Definition shared_view {P} (At : list (list P) -> view -> Z -> Z -> option P)
    (SetP : list (list P) -> view -> Z -> Z -> P -> option (list (list P)))
    (Sub : view -> rect -> option view) (v : view) : Prop :=
  forall r, exists u, Sub v r = Some u /\
    (forall x y, inside (vRect u) x y <-> inside r x y /\ inside (vRect v) x y) /\
    (rempty (vRect u) = true -> u = nilview) /\
    forall x y, inside (vRect u) x y -> forall h p, At h u x y = At h v x y /\ SetP h u x y p = SetP h v x y p.

(** every pixel inside the bounds has full alpha *)
Definition all_opaque (At : Z -> Z -> option px2) (r : rect) : Prop :=
  forall x y, inside r x y -> exists a, At x y = Some (a, 255).

