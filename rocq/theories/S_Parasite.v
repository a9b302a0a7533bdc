(** The language of text parasites: tags (name value ...), as the parser reads it. *)
Require Import Verif.Base Verif.M_Text Verif.S_String Verif.S_Text.
Open Scope Z_scope.
Open Scope list_scope.

Definition blank (c : Z) : Prop := c = 32 \/ c = 10 \/ c = 13.
Definition blanks (w : list Z) : Prop := Forall blank w.
Definition digits (w : list Z) : Prop := Forall (fun c => 48 <= c <= 57) w.
Definition word (w : list Z) : Prop := w <> [] /\ Forall (fun c => letter c = true) w.
Definition starts (P : Z -> Prop) (s : list Z) : Prop := match s with c :: _ => P c | [] => False end.
(** a character of the text starts here *)
Definition well_encoded (s : list Z) : Prop := exists c t, scalar_value c /\ s = utf8_enc c ++ t.

(** the bytes between quotes and the string they stand for: a backslash hides a quote
    or a backslash, before anything else it stays; a byte after it that starts no
    character becomes U+FFFD *)
Inductive literal : list Z -> list Z -> Prop :=
| lit_nil : literal [] []
| lit_char c b s : c <> 34 -> c <> 92 -> literal b s -> literal (c :: b) (c :: s)
| lit_hide c b s : c = 34 \/ c = 92 -> literal b s -> literal (92 :: c :: b) (c :: s)
| lit_keep c b s : scalar_value c -> c <> 34 -> c <> 92 -> literal b s -> literal (92 :: utf8_enc c ++ b) (92 :: utf8_enc c ++ s)
| lit_bad x b s : (forall t, ~ well_encoded (x :: b ++ 34 :: t)) -> literal b s -> literal (92 :: x :: b) (92 :: 239 :: 191 :: 189 :: s).

(** digits, perhaps a point and digits *)
Inductive number : list Z -> Prop :=
| num_int d : d <> [] -> digits d -> number d
| num_frac d e : d <> [] -> digits d -> digits e -> number (d ++ 46 :: e).

Section Numbers.
(** the numbers that can be represented *)
Variable ok : list Z -> Prop.

(** the values of a tag; a word or number goes on as long as it can *)
Inductive items : list Z -> list value -> Prop :=
| it_end w : blanks w -> items w []
| it_string w b s rest vs : blanks w -> literal b s -> items rest vs -> items (w ++ 34 :: b ++ 34 :: rest) (VStr s :: vs)
| it_word w n rest vs : blanks w -> word n -> ~ starts (fun c => letter c = true) rest -> items rest vs -> items (w ++ n ++ rest) (VStr n :: vs)
| it_number w n rest vs : blanks w -> number n -> ok n -> ~ starts (fun c => 48 <= c <= 57) rest -> items rest vs -> items (w ++ n ++ rest) (VNum n :: vs)
| it_tag w n body vs' rest vs : blanks w -> word n -> ~ starts (fun c => letter c = true) body -> items body vs' -> items rest vs ->
    items (w ++ 40 :: n ++ body ++ 41 :: rest) (VTag (mkTag n vs') :: vs).
(** values broken off by a zero byte, perhaps inside a tag *)
Inductive unfinished : list Z -> Prop :=
| uf_zero body vs junk : items body vs -> unfinished (body ++ 0 :: junk)
| uf_inside body vs n rest : items body vs -> word n -> ~ starts (fun c => letter c = true) rest -> unfinished rest -> unfinished (body ++ 40 :: n ++ rest).
End Numbers.

(** a document, up to its end or a zero byte; [cut]: a tag may break off *)
Inductive document (ok : list Z -> Prop) (cut : list Z -> Prop) : list Z -> list tag -> Prop :=
| doc_end w : blanks w -> document ok cut w []
| doc_zero w junk : blanks w -> document ok cut (w ++ 0 :: junk) []
| doc_tag w n body vs rest tags : blanks w -> word n -> ~ starts (fun c => letter c = true) body -> items ok body vs -> document ok cut rest tags ->
    document ok cut (w ++ 40 :: n ++ body ++ 41 :: rest) (mkTag n vs :: tags)
| doc_cut w n rest : blanks w -> word n -> ~ starts (fun c => letter c = true) rest -> cut rest -> document ok cut (w ++ 40 :: n ++ rest) [].
