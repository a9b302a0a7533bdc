(** Escape sequences of Go strings, and texts in which some characters are spelled by them. *)
From Coq Require Import String.
Require Import Verif.Base Verif.S_String Verif.S_Text Verif.S_Parasite.
Open Scope Z_scope.
Open Scope list_scope.

(** [hexs w v]: w consists of lower case hexadecimal digits and has the value v *)
Inductive hexs : list Z -> Z -> Prop :=
| hs_nil : hexs [] 0
| hs_digit w v c : hexs w v -> 48 <= c <= 57 -> hexs (w ++ [c]) (16 * v + (c - 48))
| hs_letter w v c : hexs w v -> 97 <= c <= 102 -> hexs (w ++ [c]) (16 * v + (c - 87)).
(** the characters with a letter of their own: \a \b \t \n \v \f \r *)
Definition lettered : list (Z * Z) := [(7, 97); (8, 98); (9, 116); (10, 110); (11, 118); (12, 102); (13, 114)].
(** [spells e c]: the escape sequence e (without its backslash) stands for the character c *)
Inductive spells : list Z -> Z -> Prop :=
| sp_letter c l : In (c, l) lettered -> spells [l] c
| sp_x c w : ~ In c (map fst lettered) -> c < 32 \/ c = 127 -> zlen w = 2 -> hexs w c -> spells (120 :: w) c
| sp_u c w : 128 <= c < 65536 -> zlen w = 4 -> hexs w c -> spells (117 :: w) c
| sp_U c w : 65536 <= c -> zlen w = 8 -> hexs w c -> spells (85 :: w) c.

(** [spelled wide s t]: t is s with every character that is not printable and every byte that
    belongs to no character turned into its escape sequence *)
Inductive spelled (wide : Z -> bool) : list Z -> list Z -> Prop :=
| sd_nil : spelled wide [] []
| sd_char c s t : printable wide c -> spelled wide s t -> spelled wide (utf8_enc c ++ s) (utf8_enc c ++ t)
| sd_escape c e s t : scalar_value c -> ~ printable wide c -> spells e c -> spelled wide s t -> spelled wide (utf8_enc c ++ s) (92 :: e ++ t)
| sd_byte x w s t : ~ well_encoded (x :: s) -> zlen w = 2 -> hexs w x -> spelled wide s t -> spelled wide (x :: s) (92 :: 120 :: w ++ t).
