(** How rich text is written down: elements as tags, characters with a meaning in XML as
    entities; inside a string of a text parasite a quote follows a backslash.  Strings are
    lists of bytes. *)
From Coq Require Import String.
Require Import Verif.Base Verif.M_Color Verif.M_Image Verif.M_Ora Verif.S_Markup.
Open Scope Z_scope.
Open Scope list_scope.

Definition attribute (a : list Z * list Z) : list Z := 32 :: fst a ++ 61 :: 34 :: snd a ++ [34].
Definition open_tag (e : element) : list Z := 60 :: fst e ++ flat_map attribute (snd e) ++ [62].
Definition close_tag (e : element) : list Z := 60 :: 47 :: fst e ++ [62].
(** quotes as they stand inside a string *)
Definition backslashed (s : list Z) : list Z := flat_map (fun c => if c =? 34 then [92; 34] else [c]) s.

(** XML character data [w] that reads as [s] *)
Definition entities : list (string * Z) := [("&amp;", 38); ("&lt;", 60); ("&gt;", 62); ("&#34;", 34); ("&#39;", 39)]%string.
Inductive reads_as : list Z -> list Z -> Prop :=
| ra_nil : reads_as [] []
| ra_char c w s : ~ In c (map snd entities) -> reads_as w s -> reads_as (c :: w) (c :: s)
| ra_entity n c w s : In (n, c) entities -> reads_as w s -> reads_as (str n ++ w) (c :: s).

(** the style text has without any element around it: the one of [WriteText]'s layer *)
Definition unstyled (t : textDatum) : Prop :=
  tdFont t = str "Sans" /\ tdSize t = 18 /\ tdLetterSpacing t = 0 /\ tdRise t = 0 /\
  tdBold t = false /\ tdItalic t = false /\ tdUnderline t = false /\ tdStrike t = false /\ tdFore t = Some (CGray 0).
(** the 8 bit components of a colour *)
Definition rgb8 (c : color) : Z * Z * Z := let p := color_RGBA c in (pR p / 256, pG p / 256, pB p / 256).
Definition same_style (t u : textDatum) : Prop :=
  tdFont t = tdFont u /\ tdSize t = tdSize u /\ tdLetterSpacing t = tdLetterSpacing u /\ tdRise t = tdRise u /\
  tdBold t = tdBold u /\ tdItalic t = tdItalic u /\ tdUnderline t = tdUnderline u /\ tdStrike t = tdStrike u /\
  option_map rgb8 (tdFore t) = option_map rgb8 (tdFore u).
