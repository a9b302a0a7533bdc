(** The six types of layers: what the bytes of a pixel mean. *)
Require Import Verif.Base Verif.M_Color Verif.S_Color Verif.M_Image.

(** The six types of the format: colour or grey or index, with or without alpha.  The colour
    of a pixel with bytes [b] and the colour map [pal] of 8 bit triples: red, green, blue and
    alpha, all on the scale 0..255; [None]: an index beyond the colour map. *)
Definition meant (mode : Z) (pal : list (Z * Z * Z)) (b : Z -> Z) : option (Z * Z * Z * Z) :=
  let alpha k := if Z.odd mode then b k else 255 in
  match mode with
  | 0 | 1 => Some (b 0, b 1, b 2, alpha 3)
  | 2 | 3 => Some (b 0, b 0, b 0, alpha 1)
  | _ => match znth pal (b 0) with Some (r, g, l) => Some (r, g, l, alpha 1) | None => None end
  end.
(** the colour is this one: premultiplied 16 bit components of an 8 bit straight colour *)
Definition is_colour (c : color) (v : Z * Z * Z * Z) : Prop :=
  let '(r, g, b, a) := v in
  color_RGBA c = mkRGBA (257 * r * a / 255) (257 * g * a / 255) (257 * b * a / 255) (257 * a).
Definition kind (mode : Z) (pal : list color) : cmodel :=
  if mode =? 0 then KRGB else if mode =? 1 then KNRGBA else if mode =? 2 then KGray else if mode =? 3 then KGrayAlpha
  else if mode =? 4 then KPalette pal else KAlphaPalette pal.
(** a colour map as files have it *)
Definition colour_map (pal : list (Z * Z * Z)) : list color := map (fun q => let '(r, g, b) := q in CRGB r g b) pal.
Definition bytes3 (q : Z * Z * Z) : Prop := let '(r, g, b) := q in is_u8 r /\ is_u8 g /\ is_u8 b.
(** the colour shown is the one meant *)
Definition shown_as (o : option color) (v : option (Z * Z * Z * Z)) : Prop :=
  match v with Some v => exists c, o = Some c /\ is_colour c v | None => o = None end.
(** the Go types of the colours of each layer type: those of an indexed layer are its palette's
    (RGB), or NRGBA *)
Definition of_type (mode : Z) (c : color) : Prop :=
  match c with
  | CRGB _ _ _ => mode = 0 \/ mode = 4
  | CNRGBA _ _ _ _ => mode = 1 \/ mode = 4 \/ mode = 5
  | CGray _ => mode = 2
  | CGrayAlpha _ _ => mode = 3
  | _ => False
  end.
(** the components of a colour of these types, straight (not multiplied by alpha) on the scale 0..255 *)
Definition straight (c : color) : option (Z * Z * Z * Z) :=
  match c with
  | CRGB r g b => Some (r, g, b, 255)
  | CNRGBA r g b a => Some (r, g, b, a)
  | CGray y => Some (y, y, y, 255)
  | CGrayAlpha y a => Some (y, y, y, a)
  | _ => None
  end.
(** the colours are of these types and have exactly the components meant, also where they hardly
    show (or do not: alpha 0) *)
Definition typed (mode : Z) (pal : list (Z * Z * Z)) (w h : Z) (px : Z -> Z -> Z -> Z) (at_ : Z -> Z -> option color) : Prop :=
  forall x y c, 0 <= x < w -> 0 <= y < h -> at_ x y = Some c ->
    of_type mode c /\ wf_color c /\ straight c = meant mode pal (fun k => px k x y).
(** Outside the bounds: transparent, or black for the types without alpha; but an index type
    shows the first colour of the colour map if decompressed (transparent with alpha), and opaque
    black if not. *)
Definition outside (decompressed : bool) (mode : Z) (pal : list (Z * Z * Z)) : option (Z * Z * Z * Z) :=
  if mode <? 4 then Some (0, 0, 0, if Z.odd mode then 0 else 255)
  else if decompressed then match pal with (r, g, b) :: _ => Some (r, g, b, if Z.odd mode then 0 else 255) | [] => None end
  else Some (0, 0, 0, 255).
