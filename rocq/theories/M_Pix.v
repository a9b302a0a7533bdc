(** Model of the three pixel containers: rgb.go, grayalpha.go, indexedalpha.go.
    Go slices are windows on shared buffers, so the model has a heap of buffers;
    an image value (the Go pointer's target) is a [view]: its slice (buffer,
    offset, length), Stride, Rect and (PalettedAlpha only) Palette. *)
Require Import Verif.Base Verif.M_Color Verif.M_Rect.

Record view := mkView {
  vBuf : nat; vOff : Z; vLen : Z; vStride : Z; vRect : rect; vPal : list color }.

(** Go slice operations on the window of a view; [None] = run-time panic *)
Definition slice_get {P} (h : list (list P)) (v : view) (i : Z) : option P :=
  if (i <? 0) || (vLen v <=? i) then None
  else b <-? nth_error h (vBuf v);; znth b (vOff v + i).
Definition slice_set {P} (h : list (list P)) (v : view) (i : Z) (p : P) : option (list (list P)) :=
  if (i <? 0) || (vLen v <=? i) then None
  else b <-? nth_error h (vBuf v);;
       b' <-? zupd b (vOff v + i) p;;
       Some (upd_nat h (vBuf v) b').
(** make([]T, n): panics for a negative length *)
Definition make_slice {P} (zero : P) (n : Z) : option (list P) :=
  if n <? 0 then None else Some (repeat zero (Z.to_nat n)).
(** &RGB{} and the like: nil slice, zero rectangle *)
Definition nilview : view := mkView 0 0 0 0 ZR [].

(** ** RGB; a pixel is (R, G, B) *)
Definition px3 : Type := (Z * Z * Z)%type.
(** rgb.go:18-26 [NewRGB] *)
Definition rgb_New (h : list (list px3)) (r : rect) : option (list (list px3) * view) :=
  b <-? make_slice (0, 0, 0) (dx r * dy r);;
  Some (h ++ [b], mkView (length h) 0 (dx r * dy r) (dx r) r []).
(** rgb.go:60-62 [PixOffset] *)
Definition rgb_PixOffset (v : view) (x y : Z) : Z :=
  (y - minY (vRect v)) * vStride v + x - minX (vRect v).
(** rgb.go:45-51 [RGBAt]; At (29-31) returns the same pixel as a color.Color *)
Definition rgb_At (h : list (list px3)) (v : view) (x y : Z) : option px3 :=
  if negb (pin x y (vRect v)) then Some (0, 0, 0) else slice_get h v (rgb_PixOffset v x y).
(** rgb.go:66-77 [Set] *)
Definition rgb_Set (h : list (list px3)) (v : view) (x y : Z) (c : color) : option (list (list px3)) :=
  if negb (pin x y (vRect v)) then Some h
  else let p := color_RGBA c in
       slice_set h v (rgb_PixOffset v x y)
         (u8 (Z.shiftr (pR p) 8), u8 (Z.shiftr (pG p) 8), u8 (Z.shiftr (pB p) 8)).
(** rgb.go:80-86 [SetRGB] *)
Definition rgb_SetRGB (h : list (list px3)) (v : view) (x y : Z) (p : px3) : option (list (list px3)) :=
  if negb (pin x y (vRect v)) then Some h else slice_set h v (rgb_PixOffset v x y) p.
(** rgb.go:89-101 [SubImage] *)
Definition rgb_SubImage (v : view) (r : rect) : option view :=
  let r := intersect r (vRect v) in
  if rempty r then Some nilview
  else let o := rgb_PixOffset v (minX r) (minY r) in
       if (o <? 0) || (vLen v <? o) then None
       else Some (mkView (vBuf v) (vOff v + o) (vLen v - o) (vStride v) r []).
(** rgb.go:54-56 [Opaque] *)
Definition rgb_Opaque (h : list (list px3)) (v : view) : bool := true.

(** ** GrayAlpha; a pixel is (Y, A) *)
Definition px2 : Type := (Z * Z)%type.
(** grayalpha.go:18-26 [NewGrayAlpha] *)
Definition ga_New (h : list (list px2)) (r : rect) : option (list (list px2) * view) :=
  b <-? make_slice (0, 0) (dx r * dy r);;
  Some (h ++ [b], mkView (length h) 0 (dx r * dy r) (dx r) r []).
(** grayalpha.go:66-68 [PixOffset] *)
Definition ga_PixOffset (v : view) (x y : Z) : Z :=
  (y - minY (vRect v)) * vStride v + x - minX (vRect v).
(** grayalpha.go:45-51 [GrayAlphaAt] *)
Definition ga_At (h : list (list px2)) (v : view) (x y : Z) : option px2 :=
  if negb (pin x y (vRect v)) then Some (0, 0) else slice_get h v (ga_PixOffset v x y).
(** grayalpha.go:72-78 [Set] *)
Definition ga_Set (h : list (list px2)) (v : view) (x y : Z) (c : color) : option (list (list px2)) :=
  if negb (pin x y (vRect v)) then Some h
  else slice_set h v (ga_PixOffset v x y) (grayAlphaModel c).
(** grayalpha.go:81-87 [SetGrayAlpha] *)
Definition ga_SetGrayAlpha (h : list (list px2)) (v : view) (x y : Z) (p : px2) : option (list (list px2)) :=
  if negb (pin x y (vRect v)) then Some h else slice_set h v (ga_PixOffset v x y) p.
(** grayalpha.go:90-102 [SubImage] *)
Definition ga_SubImage (v : view) (r : rect) : option view :=
  let r := intersect r (vRect v) in
  if rempty r then Some nilview
  else let o := ga_PixOffset v (minX r) (minY r) in
       if (o <? 0) || (vLen v <? o) then None
       else Some (mkView (vBuf v) (vOff v + o) (vLen v - o) (vStride v) r []).
(** the pixels of the slice g.Pix *)
Definition slice_elems {P} (h : list (list P)) (v : view) : list P :=
  match nth_error h (vBuf v) with
  | Some b => ztake (vLen v) (zdrop (vOff v) b)
  | None => []
  end.
(** grayalpha.go:54-62 [Opaque] *)
Definition ga_Opaque (h : list (list px2)) (v : view) : bool :=
  (fix scan (l : list px2) : bool :=
     match l with
     | [] => true
     | c :: l => if negb (snd c =? 255) then false else scan l
     end) (slice_elems h v).

(** ** PalettedAlpha; a pixel is (I, A) *)
(** indexedalpha.go:19-28 [NewPalettedAlpha] *)
Definition pa_New (h : list (list px2)) (r : rect) (pal : list color) : option (list (list px2) * view) :=
  b <-? make_slice (0, 0) (dx r * dy r);;
  Some (h ++ [b], mkView (length h) 0 (dx r * dy r) (dx r) r pal).
(** indexedalpha.go:80-82 [PixOffset] *)
Definition pa_PixOffset (v : view) (x y : Z) : Z :=
  (y - minY (vRect v)) * vStride v + (x - minX (vRect v)) * 1.
(** indexedalpha.go:59-65 [IndexAlphaAt] *)
Definition pa_IndexAlphaAt (h : list (list px2)) (v : view) (x y : Z) : option px2 :=
  if negb (pin x y (vRect v)) then Some (0, 0) else slice_get h v (pa_PixOffset v x y).
(** indexedalpha.go:31-45 [At], for a non-nil palette; an index outside the
    palette panics.  (A nil palette makes At return a nil color.) *)
Definition pa_At (h : list (list px2)) (v : view) (x y : Z) : option color :=
  ia <-? pa_IndexAlphaAt h v x y;;
  e <-? znth (vPal v) (fst ia);;
  let p := color_RGBA e in
  Some (CNRGBA (u8 (Z.shiftr (pR p) 8)) (u8 (Z.shiftr (pG p) 8)) (u8 (Z.shiftr (pB p) 8)) (snd ia)).
(** indexedalpha.go:86-96 [Set] *)
Definition pa_Set (h : list (list px2)) (v : view) (x y : Z) (c : color) : option (list (list px2)) :=
  if negb (pin x y (vRect v)) then Some h
  else slice_set h v (pa_PixOffset v x y)
         (u8 (alphaPalette_Index (vPal v) c), u8 (Z.shiftr (pA (color_RGBA c)) 8)).
(** indexedalpha.go:99-105 [SetIndexAlpha] *)
Definition pa_SetIndexAlpha (h : list (list px2)) (v : view) (x y : Z) (p : px2) : option (list (list px2)) :=
  if negb (pin x y (vRect v)) then Some h else slice_set h v (pa_PixOffset v x y) p.
(** indexedalpha.go:108-121 [SubImage] *)
Definition pa_SubImage (v : view) (r : rect) : option view :=
  let r := intersect r (vRect v) in
  if rempty r then Some nilview
  else let o := pa_PixOffset v (minX r) (minY r) in
       if (o <? 0) || (vLen v <? o) then None
       else Some (mkView (vBuf v) (vOff v + o) (vLen v - o) (vStride v) r (vPal v)).
(** indexedalpha.go:68-76 [Opaque] *)
Definition pa_Opaque (h : list (list px2)) (v : view) : bool :=
  (fix scan (l : list px2) : bool :=
     match l with
     | [] => false
     | c :: l => if negb (snd c =? 255) then true else scan l
     end) (slice_elems h v).

(** ** Programs using the containers: a history of calls.  Views are numbered in
    the order of creation; a call on a number not yet created is ignored. *)
Inductive pixop (P : Type) :=
| ONew (r : rect) (pal : list color)
| OSub (i : nat) (r : rect)
| OSetPix (i : nat) (x y : Z) (p : P)
| OSet (i : nat) (x y : Z) (c : color)
| OGet (i : nat) (x y : Z)
| OBounds (i : nat).
Arguments ONew {P}. Arguments OSub {P}. Arguments OSetPix {P}. Arguments OSet {P}.
Arguments OGet {P}. Arguments OBounds {P}.
Inductive pixout (P : Type) := RNone | RPix (p : P) | RRect (r : rect).
Arguments RNone {P}. Arguments RPix {P}. Arguments RRect {P}.

Definition pstate (P : Type) : Type := (list (list P) * list view)%type.

(** one call on an RGB / GrayAlpha / PalettedAlpha image *)
Definition rgb_step (s : pstate px3) (o : pixop px3) : option (pstate px3 * pixout px3) :=
  let (h, vs) := s in
  match o with
  | ONew r _ => hv <-? rgb_New h r;; Some ((fst hv, vs ++ [snd hv]), RNone)
  | OSub i r => match nth_error vs i with
      | None => Some (s, RNone)
      | Some v => w <-? rgb_SubImage v r;; Some ((h, vs ++ [w]), RNone) end
  | OSetPix i x y p => match nth_error vs i with
      | None => Some (s, RNone)
      | Some v => h' <-? rgb_SetRGB h v x y p;; Some ((h', vs), RNone) end
  | OSet i x y c => match nth_error vs i with
      | None => Some (s, RNone)
      | Some v => h' <-? rgb_Set h v x y c;; Some ((h', vs), RNone) end
  | OGet i x y => match nth_error vs i with
      | None => Some (s, RNone)
      | Some v => p <-? rgb_At h v x y;; Some (s, RPix p) end
  | OBounds i => match nth_error vs i with
      | None => Some (s, RNone)
      | Some v => Some (s, RRect (vRect v)) end
  end.
Definition ga_step (s : pstate px2) (o : pixop px2) : option (pstate px2 * pixout px2) :=
  let (h, vs) := s in
  match o with
  | ONew r _ => hv <-? ga_New h r;; Some ((fst hv, vs ++ [snd hv]), RNone)
  | OSub i r => match nth_error vs i with
      | None => Some (s, RNone)
      | Some v => w <-? ga_SubImage v r;; Some ((h, vs ++ [w]), RNone) end
  | OSetPix i x y p => match nth_error vs i with
      | None => Some (s, RNone)
      | Some v => h' <-? ga_SetGrayAlpha h v x y p;; Some ((h', vs), RNone) end
  | OSet i x y c => match nth_error vs i with
      | None => Some (s, RNone)
      | Some v => h' <-? ga_Set h v x y c;; Some ((h', vs), RNone) end
  | OGet i x y => match nth_error vs i with
      | None => Some (s, RNone)
      | Some v => p <-? ga_At h v x y;; Some (s, RPix p) end
  | OBounds i => match nth_error vs i with
      | None => Some (s, RNone)
      | Some v => Some (s, RRect (vRect v)) end
  end.
Definition pa_step (s : pstate px2) (o : pixop px2) : option (pstate px2 * pixout px2) :=
  let (h, vs) := s in
  match o with
  | ONew r pal => hv <-? pa_New h r pal;; Some ((fst hv, vs ++ [snd hv]), RNone)
  | OSub i r => match nth_error vs i with
      | None => Some (s, RNone)
      | Some v => w <-? pa_SubImage v r;; Some ((h, vs ++ [w]), RNone) end
  | OSetPix i x y p => match nth_error vs i with
      | None => Some (s, RNone)
      | Some v => h' <-? pa_SetIndexAlpha h v x y p;; Some ((h', vs), RNone) end
  | OSet i x y c => match nth_error vs i with
      | None => Some (s, RNone)
      | Some v => h' <-? pa_Set h v x y c;; Some ((h', vs), RNone) end
  | OGet i x y => match nth_error vs i with
      | None => Some (s, RNone)
      | Some v => p <-? pa_IndexAlphaAt h v x y;; Some (s, RPix p) end
  | OBounds i => match nth_error vs i with
      | None => Some (s, RNone)
      | Some v => Some (s, RRect (vRect v)) end
  end.

(** run a history, collecting the results; [None] = some call panicked *)
Fixpoint prun {P} (step : pstate P -> pixop P -> option (pstate P * pixout P))
    (s : pstate P) (ops : list (pixop P)) : option (pstate P * list (pixout P)) :=
  match ops with
  | [] => Some (s, [])
  | o :: ops => r <-? step s o;;
                rs <-? prun step (fst r) ops;;
                Some (fst rs, snd r :: snd rs)
  end.
