(** Model of the two String methods of package limage: composite.go:92-98 and misc.go:31-40. *)
Require Import Verif.Base Verif.M_Composite.
From Coq Require Import String.

(** composite.go:60-89 [compositeNames] *)
Definition compositeNames : list string :=
  ["Normal"; "Dissolve"; "Behind"; "Multiply"; "Screen"; "Overlay"; "Difference"; "Addition"; "Subtract";
   "Darken Only"; "Lighten Only"; "Hue"; "Saturation"; "Color"; "Value"; "Divide"; "Dodge"; "Burn";
   "Hard Light"; "Soft Light"; "Grain Extract"; "Grain Merge"; "Luminosity"; "Plus"; "Destination In";
   "Destination Out"; "Source Atop"; "Destination Atop"]%string.
(** composite.go:16-58: the number of a constant *)
Definition mode_number (m : mode) : Z :=
  match m with
  | MNormal => 0 | MDissolve => 1 | MBehind => 2 | MMultiply => 3 | MScreen => 4 | MOverlay => 5
  | MDifference => 6 | MAddition => 7 | MSubtract => 8 | MDarkenOnly => 9 | MLightenOnly => 10
  | MHue => 11 | MSaturation => 12 | MColor => 13 | MValue => 14 | MDivide => 15 | MDodge => 16
  | MBurn => 17 | MHardLight => 18 | MSoftLight => 19 | MGrainExtract => 20 | MGrainMerge => 21
  | MLuminosity => 22 | MPlus => 23 | MDestinationIn => 24 | MDestinationOut => 25 | MSourceAtop => 26
  | MDestinationAtop => 27 | MColorErase => 28 | MChroma => 29 | MLightness => 30 | MVividLight => 31
  | MPinLight => 32 | MLinearLight => 33 | MHardMix => 34 | MExclusion => 35 | MLinearBurn => 36
  | MLuminance => 37 | MErase => 38 | MMerge => 39 | MSplit => 40 | MPassThrough => 41 | MUndef n => n
  end.
(** composite.go:92-98 [String]; [c] is a uint32 and int has 64 bits, so that int(c) is not
    negative.  [None]: an index out of range *)
Definition composite_String (c : Z) : option string :=
  if s64 c <? zlen compositeNames then
    (if (0 <=? c) && (c <? zlen compositeNames) then nth_error compositeNames (Z.to_nat c) else None)
  else nth_error compositeNames 0.
