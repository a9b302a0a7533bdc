(** Specification of the blend modes: exact formulas on the unit interval
    scaled by M = 65535, with saturation.  Nothing here uses the model's
    arithmetic. *)
Require Import Verif.Base Verif.M_Color Verif.S_Color Verif.M_Composite.

(** an opaque grey of 16-bit intensity x *)
Definition grey (x : Z) : color := CNRGBA64 (mk64 x x x 65535).

(** a blended channel: the exact alpha-over value
    (a2*x2 + (1-a2)*a1*x1) / (a1 + a2 - a1*a2), to within 259/65535
    (about one 8-bit step), and never outside [min-1, max] *)
Definition over_channel (a1 x1 a2 x2 v : Z) : Prop :=
  0 <= v <= 65535 /\ Z.min x1 x2 - 1 <= v <= Z.max x1 x2 /\
  within 259 (65535 * a2 * x2 + (65535 - a2) * a1 * x1) (65535 * (a1 + a2) - a1 * a2) v.

(** the fifteen separable modes *)
Definition separable (m : mode) : bool :=
  match m with
  | MMultiply | MScreen | MOverlay | MDifference | MAddition | MSubtract | MDarkenOnly
  | MLightenOnly | MDivide | MDodge | MBurn | MHardLight | MSoftLight | MGrainExtract
  | MGrainMerge => true
  | _ => false
  end.

(** quotient n/d saturated to [0, 65535], to within one unit; division by zero
    saturates, except 0/0 = 0 *)
Definition sat_quot (n d v : Z) : Prop :=
  (d = 0 /\ v = (if n =? 0 then 0 else 65535)) \/
  (0 < d /\ 65535 * d <= n /\ v = 65535) \/
  (0 < d /\ n < 65535 * d /\ within 1 n d v).

(** documented (GIMP) formula of each arithmetic mode, backdrop x, top y, on
    the scale 0..65535 *)
Definition mode_formula (m : mode) (x y v : Z) : Prop :=
  match m with
  | MMultiply => within 1 (x * y) 65535 v
  | MScreen => within 1 (65535 * 65535 - (65535 - x) * (65535 - y)) 65535 v
  | MDifference => v = Z.abs (x - y)
  | MAddition => v = Z.min 65535 (x + y)
  | MSubtract => v = Z.max 0 (x - y)
  | MDarkenOnly => v = Z.min x y
  | MLightenOnly => v = Z.max x y
  | MDivide => sat_quot (65535 * x) y v
  | MDodge => sat_quot (65535 * x) (65535 - y) v
  | MGrainExtract => v = Z.max 0 (Z.min 65535 (x - y + 32767))
  | _ => False
  end.

Definition arithmetic_mode (m : mode) : bool :=
  match m with
  | MMultiply | MScreen | MDifference | MAddition | MSubtract | MDarkenOnly
  | MLightenOnly | MDivide | MDodge | MGrainExtract => true
  | _ => false
  end.

(** 1 - (1-x)/y, saturated at zero (Burn) *)
Definition burn_formula (x y v : Z) : Prop :=
  (y = 0 /\ v = (if x =? 65535 then 65535 else 0)) \/
  (0 < y /\ 65535 * y <= 65535 * (65535 - x) /\ v = 0) \/
  (0 < y /\ 65535 * (65535 - x) < 65535 * y /\ within 1 (65535 * y - 65535 * (65535 - x)) y v).

(** HardLight: multiply with the doubled top below one half, screen above *)
Definition hardlight_formula (x y v : Z) : Prop :=
  (2 * y <= 65535 /\ within 2 (x * (2 * y)) 65535 v) \/
  (65535 < 2 * y /\
   within 2 (65535 * 65535 - (65535 - x) * (65535 - (2 * y - 65535))) 65535 v).

(** Overlay / SoftLight: I * (I + 2 M (1 - I)) *)
Definition overlay_formula (e x y v : Z) : Prop :=
  within e (x * (65535 * x + 2 * y * (65535 - x))) (65535 * 65535) v.

(** GrainMerge: I + M - 1/2, saturated *)
Definition grainmerge_formula (x y v : Z) : Prop :=
  v = Z.max 0 (Z.min 65535 (x + y - 32767)).
