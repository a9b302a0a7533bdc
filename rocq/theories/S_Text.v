(** Specification of texts, independent of the model's quoting and parsing. *)
Require Import Verif.Base Verif.S_String.

(** a text made of printable characters only; [wide c]: the character [c] outside
    ASCII is printable *)
Definition printable (wide : Z -> bool) (c : Z) : Prop :=
  scalar_value c /\ (32 <= c <= 126 \/ (128 <= c /\ wide c = true)).
Definition plain_text (wide : Z -> bool) (s : list Z) : Prop :=
  exists cs, Forall (printable wide) cs /\ s = flat_map utf8_enc cs.
(** the value of a string of decimal digits *)
Definition value_of (s : list Z) : Z := fold_left (fun v c => 10 * v + (c - 48)) s 0.
(** ParseFloat reads an integer of 32 bits, written with a fraction of zeros,
    exactly (every such integer is a float64) *)
Definition float_ok (float : list Z -> option Z) : Prop :=
  forall s k, Forall (fun c => 48 <= c <= 57) s -> s <> [] -> value_of s < 4294967296 ->
    float (s ++ 46 :: repeat 48 k) = Some (value_of s).

(** ** texts whose parsing stops
    Reading from left to right: outside a string only the characters of tags, names
    and numbers occur (a point only inside a number that has none), up to the first
    zero byte outside a string. *)
Inductive place := Outside | InInt | InFrac | InString | AfterBackslash.
Definition letter (c : Z) : bool := ((97 <=? c) && (c <=? 122)) || ((65 <=? c) && (c <=? 90)) || (c =? 45).
Definition bracket_or_space (c : Z) : bool := (c =? 40) || (c =? 41) || (c =? 32) || (c =? 10) || (c =? 13).
Fixpoint clean (p : place) (s : list Z) : Prop :=
  match s with
  | [] => True
  | c :: s =>
      match p with
      | AfterBackslash => clean InString s
      | InString => if c =? 34 then clean Outside s else if c =? 92 then clean AfterBackslash s else clean InString s
      | _ =>
          if c =? 0 then True
          else if c =? 34 then clean InString s
          else if letter c || bracket_or_space c then clean Outside s
          else if (48 <=? c) && (c <=? 57) then clean (match p with InFrac => InFrac | _ => InInt end) s
          else if c =? 46 then match p with InInt => clean InFrac s | _ => False end
          else False
      end
  end.
