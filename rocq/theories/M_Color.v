(** Model of package lcolor, of internal/nrgba.go and internal/minmax.go, and of
    the parts of Go's image/color they use. *)
Require Import Verif.Base.

(** image/color.NRGBA64 (Go standard library): non-premultiplied 16-bit colour. *)
Record nrgba64 := mk64 { cR : Z; cG : Z; cB : Z; cA : Z }.

(** Result of the method [RGBA() (r, g, b, a uint32)] of color.Color. *)
Record rgba32 := mkRGBA { pR : Z; pG : Z; pB : Z; pA : Z }.

(** lcolor/hsl.go:10-12 *)
Record hsla := mkHSLA { hslH : Z; hslS : Z; hslL : Z; hslA : Z }.
(** lcolor/hsl.go:70-72 *)
Record hsva := mkHSVA { hsvH : Z; hsvS : Z; hsvV : Z; hsvA : Z }.

(** The dynamic types a color.Color can have, as far as this library
    distinguishes them.  [COther r g b a] is any other implementation of
    color.Color (RGBA, RGBA64, user-defined ...): all the library can observe of
    it is the quadruple its RGBA() method returns. *)
Inductive color :=
| CNRGBA (r g b a : Z)          (* image/color.NRGBA, 8-bit *)
| CNRGBA64 (c : nrgba64)        (* image/color.NRGBA64 *)
| CRGB (r g b : Z)              (* lcolor/rgb.go:6-8 *)
| CGrayAlpha (y a : Z)          (* lcolor/gray.go:6-8 *)
| CHSLA (h : hsla)              (* lcolor/hsl.go:10-12 *)
| CHSVA (h : hsva)              (* lcolor/hsl.go:70-72 *)
| CGray (y : Z)                 (* image/color.Gray *)
| CAlpha (a : Z)                (* image/color.Alpha *)
| COther (r g b a : Z).

(** [x |= x << 8] on a byte held in a wider word (gray.go:13, rgb.go:13 ...) *)
Definition rep8 (x : Z) : Z := Z.lor x (Z.shiftl x 8).

(** image/color NRGBA64.RGBA (Go standard library) *)
Definition nrgba64_RGBA (c : nrgba64) : rgba32 :=
  mkRGBA (u32 (cR c * cA c) / 65535) (u32 (cG c * cA c) / 65535)
         (u32 (cB c * cA c) / 65535) (cA c).

(** internal/minmax.go:3-13, on a list of arguments *)
Definition go_min (l : list Z) : Z :=
  fold_left (fun m o => if o <? m then o else m) l 65535.
(** internal/minmax.go:15-25 *)
Definition go_max (l : list Z) : Z :=
  fold_left (fun m o => if m <? o then o else m) l 0.
(** internal/minmax.go:27-29 *)
Definition go_mid (l : list Z) : Z := Z.shiftr (u16 (go_min l + go_max l)) 1.

(** lcolor/hsl.go:145-188 [hcmaToColour] *)
Definition hcmaToColour (hue c m a : Z) : nrgba64 :=
  let h := if hue =? 65535 then 0 else u32 (hue * 6) in
  let x := h mod 131070 in
  let x := if 65535 <=? x then 131070 - x else x in
  let x := u32 (x * c) / 65535 in
  let seg := h / 65535 in
  let '(r, g, b) :=
    if seg =? 0 then (u16 c, u16 x, 0)
    else if seg =? 1 then (u16 x, u16 c, 0)
    else if seg =? 2 then (0, u16 c, u16 x)
    else if seg =? 3 then (0, u16 x, u16 c)
    else if seg =? 4 then (u16 x, 0, u16 c)
    else if seg =? 5 then (u16 c, 0, u16 x)
    else (0, 0, 0) in
  mk64 (u16 (r + m)) (u16 (g + m)) (u16 (b + m)) a.

(** lcolor/hsl.go:49-67 [HSLA.ToNRGBA] *)
Definition hsla_ToNRGBA (h : hsla) : nrgba64 :=
  if hslS h =? 0 then mk64 (hslL h) (hslL h) (hslL h) (hslA h)
  else
    let c := u32 (Z.shiftl (hslL h) 1) in
    let c := if c <? 32767 then u32 (131070 - c) else c in
    let c := u32 (c * hslS h) / 65535 in
    hcmaToColour (hslH h) c (u16 (hslL h - u16 (Z.shiftr c 2))) (hslA h).

(** lcolor/hsl.go:103-116 [HSVA.ToNRGBA] *)
Definition hsva_ToNRGBA (h : hsva) : nrgba64 :=
  if hsvS h =? 0 then mk64 (hsvV h) (hsvV h) (hsvV h) (hsvA h)
  else
    let c := u16 (u32 (hsvV h * hsvS h) / 65535) in
    hcmaToColour (hsvH h) c (u16 (hsvV h - c)) (hsvA h).

(** lcolor/rgb.go:24-33 [RGB.ToNRGBA] *)
Definition rgb_ToNRGBA (r g b : Z) : nrgba64 :=
  mk64 (u16 (rep8 r)) (u16 (rep8 g)) (u16 (rep8 b)) 65535.

(** lcolor/gray.go:23-30 [GrayAlpha.ToNRGBA] *)
Definition grayalpha_ToNRGBA (y a : Z) : nrgba64 :=
  let y := u16 (rep8 y) in let a := u16 (rep8 a) in mk64 y y y a.

(** The RGBA() method of each dynamic type:
    - CNRGBA, CNRGBA64, CGray, CAlpha: Go standard library;
    - CRGB: lcolor/rgb.go:11-20;  CGrayAlpha: lcolor/gray.go:11-20;
    - CHSLA: lcolor/hsl.go:44-46; CHSVA: lcolor/hsl.go:98-100. *)
Definition color_RGBA (c : color) : rgba32 :=
  match c with
  | CNRGBA r g b a =>
      mkRGBA (u32 (rep8 r * a) / 255) (u32 (rep8 g * a) / 255)
             (u32 (rep8 b * a) / 255) (rep8 a)
  | CNRGBA64 n => nrgba64_RGBA n
  | CRGB r g b => mkRGBA (rep8 r) (rep8 g) (rep8 b) 65535
  | CGrayAlpha y a =>
      let y := u32 (rep8 y * a) / 255 in mkRGBA y y y (rep8 a)
  | CHSLA h => nrgba64_RGBA (hsla_ToNRGBA h)
  | CHSVA h => nrgba64_RGBA (hsva_ToNRGBA h)
  | CGray y => mkRGBA (rep8 y) (rep8 y) (rep8 y) 65535
  | CAlpha a => mkRGBA (rep8 a) (rep8 a) (rep8 a) (rep8 a)
  | COther r g b a => mkRGBA r g b a
  end.

(** image/color nrgba64Model (Go standard library), on the RGBA() quadruple *)
Definition nrgba64Model_rgba (p : rgba32) : nrgba64 :=
  if pA p =? 65535 then mk64 (u16 (pR p)) (u16 (pG p)) (u16 (pB p)) 65535
  else if pA p =? 0 then mk64 0 0 0 0
  else mk64 (u16 (u32 (pR p * 65535) / pA p)) (u16 (u32 (pG p * 65535) / pA p))
            (u16 (u32 (pB p * 65535) / pA p)) (u16 (pA p)).

(** internal/nrgba.go:5-31 [ColourToNRGBA] *)
Definition colourToNRGBA (c : color) : nrgba64 :=
  match c with
  | CNRGBA r g b a =>
      mk64 (u16 (rep8 r)) (u16 (rep8 g)) (u16 (rep8 b)) (u16 (rep8 a))
  | CNRGBA64 n => n
  | CRGB r g b => rgb_ToNRGBA r g b
  | CGrayAlpha y a => grayalpha_ToNRGBA y a
  | CHSLA h => hsla_ToNRGBA h
  | CHSVA h => hsva_ToNRGBA h
  | CGray _ | CAlpha _ | COther _ _ _ _ => nrgba64Model_rgba (color_RGBA c)
  end.

(** image/color nrgbaModel (Go standard library): result is an NRGBA *)
Definition nrgbaModel (c : color) : Z * Z * Z * Z :=
  match c with
  | CNRGBA r g b a => (r, g, b, a)
  | _ =>
    let p := color_RGBA c in
    if pA p =? 65535 then
      (u8 (Z.shiftr (pR p) 8), u8 (Z.shiftr (pG p) 8), u8 (Z.shiftr (pB p) 8), 255)
    else if pA p =? 0 then (0, 0, 0, 0)
    else (u8 (Z.shiftr (u32 (pR p * 65535) / pA p) 8),
          u8 (Z.shiftr (u32 (pG p * 65535) / pA p) 8),
          u8 (Z.shiftr (u32 (pB p * 65535) / pA p) 8),
          u8 (Z.shiftr (pA p) 8))
  end.

(** image/color grayModel (Go standard library): result is a Gray *)
Definition grayModel (c : color) : Z :=
  match c with
  | CGray y => y
  | _ => let p := color_RGBA c in
         u8 (Z.shiftr (u32 (19595 * pR p + 38470 * pG p + 7471 * pB p + 32768)) 24)
  end.

(** lcolor/gray.go:32-39 [grayAlphaColourModel]: result is a GrayAlpha (Y, A) *)
Definition grayAlphaModel (c : color) : Z * Z :=
  (grayModel c, u8 (Z.shiftr (pA (color_RGBA c)) 8)).

(** lcolor/rgb.go:35-43 [rgbColourModel]: result is an RGB *)
Definition rgbModel (c : color) : Z * Z * Z :=
  let p := color_RGBA c in
  (u8 (Z.shiftr (pR p) 8), u8 (Z.shiftr (pG p) 8), u8 (Z.shiftr (pB p) 8)).

(** lcolor/hsl.go:118-143 [colourToHue]; the divisor [c] is an argument, a zero
    one would panic.  The missing [default] of the Go switch leaves h = 0. *)
Definition colourToHue (cl : nrgba64) (mx c : Z) : option Z :=
  h <-? (if mx =? cR cl then
           if cB cl <=? cG cl
           then q <-? udiv (u32 (65535 * u16 (cG cl - cB cl))) c;; Some (u32 (0 + q))
           else q <-? udiv (u32 (65535 * u16 (cB cl - cG cl))) c;; Some (u32 (393210 - q))
         else if mx =? cG cl then
           if cR cl <=? cB cl
           then q <-? udiv (u32 (65535 * u16 (cB cl - cR cl))) c;; Some (u32 (131070 + q))
           else q <-? udiv (u32 (65535 * u16 (cR cl - cB cl))) c;; Some (u32 (131070 - q))
         else if mx =? cB cl then
           if cG cl <=? cR cl
           then q <-? udiv (u32 (65535 * u16 (cR cl - cG cl))) c;; Some (u32 (262140 + q))
           else q <-? udiv (u32 (65535 * u16 (cG cl - cR cl))) c;; Some (u32 (262140 - q))
         else Some 0);;
  Some (u16 (h / 6)).

(** lcolor/hsl.go:75-95 [RGBToHSV] *)
Definition RGBToHSV (cl : color) : option hsva :=
  let n := colourToNRGBA cl in
  let mn := go_min [cR n; cG n; cB n] in
  let mx := go_max [cR n; cG n; cB n] in
  let c := u16 (mx - mn) in
  if c =? 0 then Some (mkHSVA 0 0 mx (cA n))
  else
    s <-? udiv (u32 (65535 * c)) mx;;
    h <-? colourToHue n mx c;;
    Some (mkHSVA h (u16 s) mx (cA n)).

(** lcolor/hsl.go:15-41 [RGBToHSL] *)
Definition RGBToHSL (cl : color) : option hsla :=
  let n := colourToNRGBA cl in
  let mn := go_min [cR n; cG n; cB n] in
  let mx := go_max [cR n; cG n; cB n] in
  let l := u32 (mx + mn) in
  let c := u32 (mx - mn) in
  let L := u16 (Z.shiftr l 1) in
  if c =? 0 then Some (mkHSLA 0 0 L (cA n))
  else
    s <-? (if l <=? 65535 then udiv (u32 (65535 * c)) l
           else udiv (u32 (65535 * c)) (u32 (131070 - l)));;
    h <-? colourToHue n (u16 mx) c;;
    Some (mkHSLA h (u16 s) L (cA n)).

(** image/color sqDiff (Go standard library) *)
Definition sqDiff (x y : Z) : Z := let d := u32 (x - y) in Z.shiftr (u32 (d * d)) 2.

(** distance used by image/color Palette.Index (Go standard library) *)
Definition pal_dist (p v : rgba32) : Z :=
  u32 (sqDiff (pR p) (pR v) + sqDiff (pG p) (pG v)
       + sqDiff (pB p) (pB v) + sqDiff (pA p) (pA v)).

(** image/color Palette.Index (Go standard library): loop state (i, ret, bestSum) *)
Fixpoint pal_index_from (p : rgba32) (pal : list color) (i ret best : Z) : Z :=
  match pal with
  | [] => ret
  | v :: rest =>
      let sum := pal_dist p (color_RGBA v) in
      if sum <? best then
        if sum =? 0 then i else pal_index_from p rest (i + 1) i sum
      else pal_index_from p rest (i + 1) ret best
  end.
(** lcolor/indexed.go:23-25 [AlphaPalette.Index] *)
Definition alphaPalette_Index (pal : list color) (c : color) : Z :=
  pal_index_from (color_RGBA c) pal 0 0 4294967295.

(** lcolor/indexed.go:10-20 [AlphaPalette.Convert]; color.Palette.Convert of an
    empty palette returns nil and the following RGBA() call panics. *)
Definition alphaPalette_Convert (pal : list color) (c : color) : option nrgba64 :=
  e <-? znth pal (alphaPalette_Index pal c);;
  let p := color_RGBA e in
  Some (mk64 (u16 (pR p)) (u16 (pG p)) (u16 (pB p)) (u16 (pA (color_RGBA c)))).
