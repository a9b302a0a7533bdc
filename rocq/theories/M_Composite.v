(** Model of composite.go: the Composite type and its method Composite. *)
Require Import Verif.Base Verif.M_Color.

(** composite.go:12-58: the named constants of the uint32 type Composite, in
    order (Normal = 0 ... PassThrough = 41); [MUndef n] is any other value. *)
Inductive mode :=
| MNormal | MDissolve | MBehind | MMultiply | MScreen | MOverlay | MDifference
| MAddition | MSubtract | MDarkenOnly | MLightenOnly | MHue | MSaturation | MColor
| MValue | MDivide | MDodge | MBurn | MHardLight | MSoftLight | MGrainExtract
| MGrainMerge | MLuminosity | MPlus | MDestinationIn | MDestinationOut | MSourceAtop
| MDestinationAtop | MColorErase | MChroma | MLightness | MVividLight | MPinLight
| MLinearLight | MHardMix | MExclusion | MLinearBurn | MLuminance | MErase | MMerge
| MSplit | MPassThrough | MUndef (n : Z).

(** composite.go:363-369 [clamp] *)
Definition clamp (n : Z) : Z := if 65535 <? n then 65535 else u16 n.

(** composite.go:371-379 [blend] *)
Definition blend (a1 x1 a2 x2 : Z) : option Z :=
  let den := u32 (65535 - u32 (u32 (65535 - a1) * u32 (65535 - a2)) / 65535) in
  k <-? udiv (u32 (65535 * a2)) den;;
  Some (u16 (u32 (u32 (u32 (65535 - k) * x1) / 65535 + u32 (k * x2) / 65535))).

(** composite.go:180-191 [compositeNormal] *)
Definition compositeNormal (b t : nrgba64) : option nrgba64 :=
  if (cA b =? 0) && (cA t =? 0) then Some (mk64 0 0 0 0)
  else
    r <-? blend (cA b) (cR b) (cA t) (cR t);;
    g <-? blend (cA b) (cG b) (cA t) (cG t);;
    bl <-? blend (cA b) (cB b) (cA t) (cB t);;
    Some (mk64 r g bl
      (u16 (u32 (65535 - u32 (u32 (65535 - cA b) * u32 (65535 - cA t)) / 65535)))).

(** composite.go:193-201 [compositeDissolve]; [rnd] is the value returned by
    rand.Int31n(0xffff), i.e. any integer in 0..65534. *)
Definition compositeDissolve (rnd : Z) (b t : nrgba64) : nrgba64 :=
  if u16 rnd <? cA b then mk64 (cR t) (cG t) (cB t) 65535 else b.

(** composite.go:203-205 *)
Definition compositeMultiply (x y : Z) : option Z := Some (u16 (u32 (x * y) / 65535)).
(** composite.go:207-209 *)
Definition compositeScreen (x y : Z) : option Z :=
  Some (u16 (u32 (65535 - u32 (u16 (65535 - x) * u16 (65535 - y)) / 65535))).
(** composite.go:211-217 *)
Definition compositeOverlay (x y : Z) : option Z :=
  let t := u32 (65535 - y) in
  Some (u16 (u32 (u32 (u32 (65535 - y) * (u32 (x * x) / 65535)) / 65535
                  + u32 (y * u32 (65535 - u32 (t * t) / 65535)) / 65535))).
(** composite.go:219-225 *)
Definition compositeDifference (x y : Z) : option Z :=
  Some (if y <? x then u16 (x - y) else u16 (y - x)).
(** composite.go:227-229 *)
Definition compositeAddition (x y : Z) : option Z := Some (clamp (u32 (x + y))).
(** composite.go:231-237 *)
Definition compositeSubtract (x y : Z) : option Z :=
  Some (if x <? y then 0 else u16 (x - y)).
(** composite.go:239-241 *)
Definition compositeDarkenOnly (x y : Z) : option Z := Some (go_min [x; y]).
(** composite.go:243-245 *)
Definition compositeLightenOnly (x y : Z) : option Z := Some (go_max [x; y]).
(** composite.go:247-257 *)
Definition compositeDivide (x y : Z) : option Z :=
  if y =? 0 then (if x =? 0 then Some 0 else Some 65535)
  else q <-? udiv (u32 (65535 * x)) y;; Some (clamp q).
(** composite.go:259-269 *)
Definition compositeDodge (x y : Z) : option Z :=
  if y =? 65535 then (if x =? 0 then Some 0 else Some 65535)
  else q <-? udiv (u32 (65535 * x)) (u32 (65535 - y));; Some (clamp q).
(** composite.go:271-281 *)
Definition compositeBurn (x y : Z) : option Z :=
  if y =? 0 then (if x =? 65535 then Some 0 else Some 65535)
  else q <-? udiv (u32 (65535 * u32 (65535 - x))) y;; Some (clamp (u32 (65535 - q))).
(** composite.go:283-289 ([<<] binds tighter than [-] in Go) *)
Definition compositeHardLight (x y : Z) : option Z :=
  if y <? 32767 then Some (u16 (u32 (x * u32 (Z.shiftl y 1)) / 65535))
  else Some (u16 (u32 (65535 -
         u32 (u32 (65535 - x) * u32 (131070 - u32 (Z.shiftl y 1))) / 65535))).
(** composite.go:291-293 *)
Definition compositeSoftLight (x y : Z) : option Z := compositeOverlay x y.
(** composite.go:295-304 *)
Definition compositeGrainExtract (x y : Z) : option Z :=
  if u32 (x + 32767) <? y then Some 0 else Some (clamp (u32 (x - y + 32767))).
(** composite.go:306-308 *)
Definition compositeGrainMerge (x y : Z) : option Z := Some (clamp (u32 (x + y + 32767))).

(** composite.go:310-322 [compositeHue] *)
Definition compositeHue (b t : nrgba64) : option color :=
  let p := nrgba64_RGBA t in
  if (pR p =? pG p) && (pR p =? pB p) then Some (CNRGBA64 b)
  else
    a <-? RGBToHSV (CNRGBA64 b);;
    c <-? RGBToHSV (CNRGBA64 t);;
    Some (CHSVA (mkHSVA (hsvH c) (hsvS a) (hsvV a) (hsvA a))).
(** composite.go:324-329 [compositeSaturation] *)
Definition compositeSaturation (b t : nrgba64) : option color :=
  a <-? RGBToHSV (CNRGBA64 b);;
  c <-? RGBToHSV (CNRGBA64 t);;
  Some (CHSVA (mkHSVA (hsvH a) (hsvS c) (hsvV a) (hsvA a))).
(** composite.go:331-337 [compositeColor] *)
Definition compositeColor (b t : nrgba64) : option color :=
  a <-? RGBToHSL (CNRGBA64 b);;
  c <-? RGBToHSL (CNRGBA64 t);;
  Some (CHSLA (mkHSLA (hslH c) (hslS c) (hslL a) (hslA c))).
(** composite.go:339-345 [compositeValue] *)
Definition compositeValue (b t : nrgba64) : option color :=
  a <-? RGBToHSV (CNRGBA64 b);;
  c <-? RGBToHSV (CNRGBA64 t);;
  Some (CHSVA (mkHSVA (hsvH a) (hsvS a) (hsvV c) (hsvA a))).
(** composite.go:347-349 *)
Definition compositePlus (b t : nrgba64) : option nrgba64 := compositeNormal b t.
(** composite.go:351-353 *)
Definition compositeDstIn (b t : nrgba64) : option nrgba64 := compositeNormal b t.
(** composite.go:355-357 *)
Definition compositeDstOut (b t : nrgba64) : option nrgba64 := compositeNormal b t.
(** composite.go:359-361 *)
Definition compositeAtop (b t : nrgba64) : option nrgba64 := compositeNormal b t.

(** composite.go:105-137: the channel function selected by the switch, for the
    15 modes that set [f] *)
Definition channelFun (m : mode) : option (Z -> Z -> option Z) :=
  match m with
  | MMultiply => Some compositeMultiply
  | MScreen => Some compositeScreen
  | MOverlay => Some compositeOverlay
  | MDifference => Some compositeDifference
  | MAddition => Some compositeAddition
  | MSubtract => Some compositeSubtract
  | MDarkenOnly => Some compositeDarkenOnly
  | MLightenOnly => Some compositeLightenOnly
  | MDivide => Some compositeDivide
  | MDodge => Some compositeDodge
  | MBurn => Some compositeBurn
  | MHardLight => Some compositeHardLight
  | MSoftLight => Some compositeSoftLight
  | MGrainExtract => Some compositeGrainExtract
  | MGrainMerge => Some compositeGrainMerge
  | _ => None
  end.

Definition c64 (x : option nrgba64) : option color := option_map CNRGBA64 x.

(** composite.go:101-178 [Composite.Composite]; [rnd] as in compositeDissolve. *)
Definition composite (m : mode) (rnd : Z) (b t : color) : option color :=
  let bottom := colourToNRGBA b in
  let top := colourToNRGBA t in
  match channelFun m with
  | Some f =>
      if cA bottom =? 0 then Some (CNRGBA 0 0 0 0)
      else
        let ma := go_min [cA bottom; cA top] in
        fr <-? f (cR bottom) (cR top);;
        r <-? blend (cA bottom) (cR bottom) ma fr;;
        fg <-? f (cR bottom) (cG top);;        (* sic: bottom.R, line 174 *)
        g <-? blend (cA bottom) (cG bottom) ma fg;;
        fb <-? f (cR bottom) (cB top);;        (* sic: bottom.R, line 175 *)
        bl <-? blend (cA bottom) (cB bottom) ma fb;;
        Some (CNRGBA64 (mk64 r g bl (cA bottom)))
  | None =>
      match m with
      | MBehind => Some (CNRGBA64 bottom)
      | MDissolve => Some (CNRGBA64 (compositeDissolve rnd bottom top))
      | MHue => compositeHue bottom top
      | MSaturation => compositeSaturation bottom top
      | MColor => compositeColor bottom top
      | MValue => compositeValue bottom top
      | MLuminosity => compositeColor top bottom
      | MPlus => c64 (compositePlus bottom top)
      | MDestinationIn => c64 (compositeDstIn bottom top)
      | MDestinationOut => c64 (compositeDstOut bottom top)
      | MSourceAtop => c64 (compositeAtop bottom top)
      | MDestinationAtop => c64 (compositeAtop top bottom)
      | _ => c64 (compositeNormal bottom top)
      end
  end.

(** misc.go:51-64 [transparency] *)
Definition transparency (ac : color) (ao : Z) : color :=
  if ao =? 255 then ac
  else if ao =? 0 then CNRGBA64 (mk64 0 0 0 0)
  else
    let c := colourToNRGBA ac in
    let o := rep8 ao in
    CNRGBA64 (mk64 (cR c) (cG c) (cB c) (u16 (u32 (o * cA c) / 65535))).
