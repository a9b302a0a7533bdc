(** Specification of well-formed UTF-8, independent of the decoder's table: the
    encodings of sequences of Unicode scalar values. *)
Require Import Verif.Base.

(** a scalar value: a code point that is no surrogate *)
Definition scalar_value (c : Z) : Prop := 0 <= c < 55296 \/ 57344 <= c < 1114112.
(** the encoding of a code point *)
Definition utf8_enc (c : Z) : list Z :=
  if c <? 128 then [c]
  else if c <? 2048 then [192 + c / 64; 128 + c mod 64]
  else if c <? 65536 then [224 + c / 4096; 128 + c / 64 mod 64; 128 + c mod 64]
  else [240 + c / 262144; 128 + c / 4096 mod 64; 128 + c / 64 mod 64; 128 + c mod 64].
Definition utf8 (l : list Z) : Prop :=
  exists cs, Forall scalar_value cs /\ l = flat_map utf8_enc cs.

(** A stored string: its length plus one, its bytes, a zero byte. *)
Definition stored (len bytes : list Z) (l : list Z) : Prop :=
  exists a b c d, len = [a; b; c; d] /\
    0 <= a < 256 /\ 0 <= b < 256 /\ 0 <= c < 256 /\ 0 <= d < 256 /\
    16777216 * a + 65536 * b + 256 * c + d = zlen l + 1 /\ bytes = l ++ [0].
