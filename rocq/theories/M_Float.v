(** The conversion in layer_decode.go:145-146, uint8(d.ReadFloat32()*255): IEEE 754 single
    precision arithmetic on the bits of a float32 (math.Float32frombits), the product rounded to
    nearest, ties to even (the Go specification), the conversion to an integer by dropping the
    fraction. *)
Require Import Verif.Base.

(** |x| of a finite float32 in units of 2^-149 *)
Definition f32mag (b : Z) : Z :=
  let ex := b / 8388608 mod 256 in
  let m := b mod 8388608 in
  if ex =? 0 then m else (8388608 + m) * 2 ^ (ex - 1).
Definition f32finite (b : Z) : bool := negb (b / 8388608 mod 256 =? 255).
Definition f32neg (b : Z) : bool := negb (b / 2147483648 =? 0).
(** n units of 2^-149 rounded to 24 significant bits *)
Definition f32round (n : Z) : Z :=
  if n <? 16777216 then n else
  let u := 2 ^ (Z.log2 n - 23) in
  let q := n / u in
  let r := n mod u in
  u * (if 2 * r <? u then q else if u <? 2 * r then q + 1 else if Z.even q then q else q + 1).
(** uint8(x*255); for a product that is no value of type uint8 the result depends on the
    implementation: [wild] *)
Definition float_opacity (wild : Z -> Z) (b : Z) : Z :=
  let p := f32round (255 * f32mag b) / 2 ^ 149 in
  if f32finite b && (negb (f32neg b) || (p =? 0)) && (p <? 256) then p else wild b.
