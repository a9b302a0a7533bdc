(** Strings of texts: TextData.String and the writer of quoted strings (not used by the
    encoder). *)
Require Import Verif.Base Verif.M_Color Verif.M_Image Verif.M_Ora Verif.M_Text.
Open Scope Z_scope.
Open Scope list_scope.

(** misc.go:31-40 [TextData.String] *)
Fixpoint textString (t : list textDatum) : list Z :=
  match t with
  | [] => []
  | d :: t => tdData d ++ textString t
  end.

(** text.go:192-205 [quoteWriter.WriteString]: what it appends to its buffer.  The loop
    ranges over the runes of the string; a byte that starts none is the rune U+FFFD. *)
Fixpoint quoteRunes (fuel : nat) (s : list Z) : list Z :=
  match fuel, s with
  | S f, _ :: s' =>
      match decodeRune s with
      | Some (r, w, s'') => (if r =? 92 then [92; 92] else if r =? 34 then [92; 34] else w) ++ quoteRunes f s''
      | None => [239; 191; 189] ++ quoteRunes f s'
      end
  | _, _ => []
  end.
Definition quoteWriter_WriteString (s : list Z) : list Z := quoteRunes (List.length s) s.
