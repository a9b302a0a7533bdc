(** Specification vocabulary for colours: ranges of valid values, and exact
    (rational) reference formulas.  Independent of the model's helpers. *)
Require Import Verif.Base Verif.M_Color.

(** all four channels are uint16 values *)
Definition wf64 (c : nrgba64) : Prop :=
  is_u16 (cR c) /\ is_u16 (cG c) /\ is_u16 (cB c) /\ is_u16 (cA c).

(** A color.Color value as Go can hold it: every field has its machine type's
    range; for a foreign type, RGBA() satisfies the documented color.Color
    contract (alpha-premultiplied 16-bit components). *)
Definition wf_color (c : color) : Prop :=
  match c with
  | CNRGBA r g b a => is_u8 r /\ is_u8 g /\ is_u8 b /\ is_u8 a
  | CNRGBA64 n => wf64 n
  | CRGB r g b => is_u8 r /\ is_u8 g /\ is_u8 b
  | CGrayAlpha y a => is_u8 y /\ is_u8 a
  | CHSLA h => is_u16 (hslH h) /\ is_u16 (hslS h) /\ is_u16 (hslL h) /\ is_u16 (hslA h)
  | CHSVA h => is_u16 (hsvH h) /\ is_u16 (hsvS h) /\ is_u16 (hsvV h) /\ is_u16 (hsvA h)
  | CGray y => is_u8 y
  | CAlpha a => is_u8 a
  | COther r g b a => 0 <= r <= a /\ 0 <= g <= a /\ 0 <= b <= a /\ a <= 65535
  end.

(** The color.Color contract for a RGBA() result. *)
Definition premultiplied (p : rgba32) : Prop :=
  0 <= pR p <= pA p /\ 0 <= pG p <= pA p /\ 0 <= pB p <= pA p /\ pA p <= 65535.

(** [within e n d v]: the integer v is at distance at most e from the rational n/d. *)
Definition within (e n d v : Z) : Prop := 0 < d /\ Z.abs (v * d - n) <= e * d.

(** largest and smallest colour channel *)
Definition mx3 (n : nrgba64) := Z.max (cR n) (Z.max (cG n) (cB n)).
Definition mn3 (n : nrgba64) := Z.min (cR n) (Z.min (cG n) (cB n)).

(** The distance image/color documents for palettes: squared Euclidean
    distance in RGBA space, each term divided by four. *)
Definition sq4 (x y : Z) : Z := (x - y) * (x - y) / 4.
(** the distance of two colours (Go's squared distance, each term /4) *)
Definition dist4 (p v : rgba32) : Z :=
  sq4 (pR p) (pR v) + sq4 (pG p) (pG v) + sq4 (pB p) (pB v) + sq4 (pA p) (pA v).

