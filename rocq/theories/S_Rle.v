(** Specification of the run-length format of XCF tiles, independent of the code:
    a stream is a sequence of packets.
      m d            0 <= m <= 126     m+1 copies of d
      127 h l d                        256h+l copies of d
      128 h l d1..dk  k = 256h+l       the bytes d1..dk
      m d1..dk        k = 256-m < 128  the bytes d1..dk *)
Require Import Verif.Base.

(** [expands e x]: the stream [e] is made of whole packets and expands to [x] *)
Inductive expands : list Z -> list Z -> Prop :=
| ex_nil : expands [] []
| ex_short_run m d e x : 0 <= m < 127 -> expands e x ->
    expands (m :: d :: e) (repeat d (Z.to_nat (m + 1)) ++ x)
| ex_long_run h l d e x : is_u8 h -> is_u8 l -> expands e x ->
    expands (127 :: h :: l :: d :: e) (repeat d (Z.to_nat (256 * h + l)) ++ x)
| ex_long_lit h l ds e x : is_u8 h -> is_u8 l -> zlen ds = 256 * h + l -> expands e x ->
    expands (128 :: h :: l :: ds ++ e) (ds ++ x)
| ex_short_lit m ds e x : 128 < m < 256 -> zlen ds = 256 - m -> expands e x ->
    expands (m :: ds ++ e) (ds ++ x).

Definition bytes (l : list Z) : Prop := Forall is_u8 l.
Definition prefix {A} (a b : list A) : Prop := exists c, b = a ++ c.
