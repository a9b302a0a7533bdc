(** Model of xcf/text.go and of the parser of xcf/parasites.go.

    Strings are lists of bytes.  The libraries under the code are not part of
    /repo: strconv.IsPrint, strconv.ParseFloat and encoding/xml are given by
    [tlibs]; strconv.Quote (fmt's %q), utf8.DecodeRune, strconv.ParseUint and
    html.EscapeString are defined here.  Of vimagination.zapto.org/parser we use:
    a token function is called only when the parser asks for a token, Accept and
    AcceptRun of the parser look at one token, Peek is -1 at the end of the data,
    Err is set by Done (to io.EOF) and by the code itself. *)
From Coq Require Import String Ascii.
Require Import Verif.Base Verif.M_Color Verif.M_Rect Verif.M_Image Verif.M_Decode Verif.M_Ora.
Open Scope Z_scope.
Open Scope list_scope.

(** encoding/xml: the tokens the code looks at; comments etc. are [XOther] *)
Inductive xtok :=
| XStart (name : list Z) (attrs : list (list Z * list Z))
| XEnd
| XText (s : list Z)
| XOther.

(** [tl_print r]: strconv.IsPrint of a rune outside ASCII.
    [tl_float s]: the number [s] (digits, perhaps a point and digits) as read by
    ParseFloat, cut to an integer; [None]: out of range.  (The conversion of an
    out-of-range float to uint32 or uint8 is left to the implementation by Go; we
    take the low bits.)
    [tl_xml s]: the tokens of [s] and whether they end in io.EOF. *)
Record tlibs := mkTLibs {
  tl_print : Z -> bool;
  tl_float : list Z -> option Z;
  tl_xml : list Z -> list xtok * bool }.

(** ** unicode/utf8 DecodeRune (standard library): the rune and the bytes it
    takes; [None]: no valid encoding starts here (RuneError, width 1) *)
Definition cont (c : Z) : bool := (128 <=? c) && (c <=? 191).
Definition decodeRune (s : list Z) : option (Z * list Z * list Z) :=
  match s with
  | [] => None
  | a :: s1 =>
      if a <? 128 then Some (a, [a], s1) else
      if a <? 194 then None else
      match s1 with
      | [] => None
      | b :: s2 =>
          if negb (cont b) then None else
          if a <? 224 then Some ((a - 192) * 64 + (b - 128), [a; b], s2) else
          match s2 with
          | [] => None
          | c :: s3 =>
              if negb (cont c) then None else
              if a <? 240 then
                let r := (a - 224) * 4096 + (b - 128) * 64 + (c - 128) in
                if (r <? 2048) || ((55296 <=? r) && (r <=? 57343)) then None
                else Some (r, [a; b; c], s3)
              else if 245 <=? a then None else
              match s3 with
              | [] => None
              | d :: s4 =>
                  if negb (cont d) then None else
                  let r := (a - 240) * 262144 + (b - 128) * 4096 + (c - 128) * 64 + (d - 128) in
                  if (r <? 65536) || (1114111 <? r) then None
                  else Some (r, [a; b; c; d], s4)
              end
          end
      end
  end.

(** ** strconv.AppendQuote (standard library), the verb %q *)
Definition hexdigit (n : Z) : Z := if n <? 10 then 48 + n else 87 + n.
(** the last [k] hexadecimal digits of [n], lower case *)
Fixpoint hex (k : nat) (n : Z) : list Z :=
  match k with
  | O => []
  | S k => hex k (n / 16) ++ [hexdigit (n mod 16)]
  end.
(** strconv appendEscapedRune for a rune that is not printable *)
Definition escape (r : Z) : list Z :=
  if r =? 7 then [92; 97] else if r =? 8 then [92; 98] else if r =? 12 then [92; 102]
  else if r =? 10 then [92; 110] else if r =? 13 then [92; 114] else if r =? 9 then [92; 116]
  else if r =? 11 then [92; 118]
  else if (r <? 32) || (r =? 127) then 92 :: 120 :: hex 2 r
  else if r <? 65536 then 92 :: 117 :: hex 4 r
  else 92 :: 85 :: hex 8 r.
Section Text.
Variable L : tlibs.
(** strconv.IsPrint *)
Definition isPrint (r : Z) : bool :=
  if r <? 128 then (32 <=? r) && (r <=? 126) else tl_print L r.
Fixpoint quoteBody (fuel : nat) (s : list Z) : list Z :=
  match fuel, s with
  | S f, c :: s' =>
      match decodeRune s with
      | None => 92 :: 120 :: hex 2 c ++ quoteBody f s'
      | Some (r, w, s'') =>
          (if (r =? 34) || (r =? 92) then [92; r]
           else if isPrint r then w else escape r) ++ quoteBody f s''
      end
  | _, _ => []
  end.
Definition quote (s : list Z) : list Z := 34 :: quoteBody (List.length s) s ++ [34].

(** ** parasites.go:104-117: the character classes *)
Definition isValName (c : Z) : bool :=
  ((97 <=? c) && (c <=? 122)) || ((65 <=? c) && (c <=? 90)) || (c =? 45).
Definition isDigit (c : Z) : bool := (48 <=? c) && (c <=? 57).
Definition isSpace (c : Z) : bool := (c =? 10) || (c =? 13) || (c =? 32).
(** AcceptRun: the longest prefix of characters of the class *)
Fixpoint span (f : Z -> bool) (s : list Z) : list Z * list Z :=
  match s with
  | [] => ([], [])
  | c :: s' => if f c then let '(a, b) := span f s' in (c :: a, b) else ([], s)
  end.

(** parasites.go:119-125: the tokens, and the parser package's Done and Error *)
Inductive token := KOpen | KClose | KName (s : list Z) | KStr (s : list Z) | KNum (s : list Z) | KDone | KErr.

(** parasites.go:190-208 [openTK]; the next token function is nameTK after [KOpen] *)
Definition openTK (s : list Z) : token * list Z :=
  let r := snd (span isSpace s) in
  match r with
  | [] => (KDone, r)
  | c :: r' => if c =? 0 then (KDone, r) else if c =? 40 then (KOpen, r') else (KErr, r)
  end.
(** parasites.go:219-232 [nameTK]; then valueTK *)
Definition nameTK (s : list Z) : token * list Z :=
  let '(n, r) := span isValName s in
  match n with [] => (KErr, s) | _ => (KName n, r) end.
(** string(t.Peek()) after a backslash, and what is left when it is accepted: an
    invalid byte, and the end of the data, turn into U+FFFD *)
Definition peekStr (s : list Z) : list Z * list Z :=
  match s with
  | [] => ([239; 191; 189], [])
  | _ :: s' => match decodeRune s with
               | Some (_, w, r) => (w, r)
               | None => ([239; 191; 189], s')
               end
  end.
(** parasites.go:278-312 [quotedString], after the opening quote *)
Fixpoint unquote (fuel : nat) (s acc : list Z) : list Z * list Z :=
  match fuel with
  | O => (acc, s)
  | S f =>
      let '(p, r) := span (fun c => negb ((c =? 34) || (c =? 92))) s in
      match r with
      | c :: r' =>
          if c =? 92 then
            let '(w, r'') := peekStr r' in
            let w' := match w with
                      | [d] => if (d =? 34) || (d =? 92) then w else 92 :: w
                      | _ => 92 :: w
                      end in
            unquote f r'' (acc ++ p ++ w')
          else (acc ++ p, r')
      | [] => (acc ++ p, [])
      end
  end.
Definition quotedString (s : list Z) : list Z * list Z :=
  match s with
  | c :: s' => if c =? 34 then unquote (S (List.length s)) s' [] else unquote (S (List.length s)) s []
  | [] => unquote 1 [] []
  end.
(** parasites.go:234-276 [valueTK]; the next token function is valueTK, except
    nameTK after [KOpen] and openTK after [KClose] (closeTK, 210-217) *)
Definition valueTK (s : list Z) : token * list Z :=
  let r := snd (span isSpace s) in
  match r with
  | [] => (KErr, r)
  | c :: r' =>
      if c =? 0 then (KDone, r) else
      if c =? 40 then openTK r else
      if c =? 41 then (KClose, r') else
      if c =? 34 then let '(v, r') := quotedString r in (KStr v, r') else
      if isDigit c then
        let '(a, r1) := span isDigit r in
        let '(p, r2) := match r1 with c :: r2 => if c =? 46 then ([46], r2) else ([], r1) | [] => ([], r1) end in
        let '(b, r3) := span isDigit r2 in
        (KNum (a ++ p ++ b), r3)
      else
        let '(a, r1) := span isValName r in (KStr a, r1)
  end.

(** parasites.go:127-131 [tag]; a number is kept as its digits *)
Inductive value := VStr (s : list Z) | VNum (s : list Z) | VTag (t : tag)
with tag := mkTag (name : list Z) (values : list value).
Definition tgName (t : tag) := let '(mkTag n _) := t in n.
Definition tgValues (t : tag) := let '(mkTag _ v) := t in v.

(** p.AcceptRun(tokenValueString, tokenValueNumber), parasites.go:154: the run of
    values, the token after it (consumed below, as every token looked at is) and
    the rest; [None]: out of fuel *)
Fixpoint acceptRun (fuel : nat) (s : list Z) : option (list value * token * list Z) :=
  match fuel with
  | O => None
  | S f =>
      match valueTK s with
      | (KStr v, r) => match acceptRun f r with Some (vs, k, r) => Some (VStr v :: vs, k, r) | None => None end
      | (KNum v, r) => match acceptRun f r with Some (vs, k, r) => Some (VNum v :: vs, k, r) | None => None end
      | (k, r) => Some ([], k, r)
      end
  end.
(** parasites.go:156-168: ParseFloat fails on none of the numbers *)
Definition floatsOk (vs : list value) : bool :=
  forallb (fun v => match v with VNum s => match tl_float L s with Some _ => true | None => false end | _ => true end) vs.

(** the result of [readTag]: [REnd]: an error while p.Err is io.EOF *)
Inductive rtag := ROk (t : tag) (rest : list Z) | REnd | RErr | RNoFuel.
(** parasites.go:133-188 [readTag], after the name *)
Fixpoint readValues (fuel : nat) (name : list Z) (acc : list value) (s : list Z) : rtag :=
  match fuel with
  | O => RNoFuel
  | S f =>
      match acceptRun f s with
      | None => RNoFuel
      | Some (vs, k, r) =>
          if negb (floatsOk vs) then match k with KDone => REnd | _ => RErr end else
          match k with
          | KClose => ROk (mkTag name (acc ++ vs)) r
          | KOpen =>
              match nameTK r with
              | (KName n, r) =>
                  match readValues f n [] r with
                  | ROk t r => readValues f name (acc ++ vs ++ [VTag t]) r
                  | e => e
                  end
              | _ => RErr
              end
          | KDone => REnd
          | _ => RErr
          end
      end
  end.
(** parasites.go:133-152 *)
Definition readTag (fuel : nat) (s : list Z) : rtag :=
  match openTK s with
  | (KDone, _) => REnd
  | (KOpen, r) =>
      match nameTK r with
      | (KName n, r) => readValues fuel n [] r
      | _ => RErr
      end
  | _ => RErr
  end.
Inductive pres := POk (ts : list tag) | PErr | PNoFuel.
(** parasites.go:81-102 [parasite.Parse] *)
Fixpoint parse (fuel : nat) (s : list Z) : pres :=
  match fuel with
  | O => PNoFuel
  | S f =>
      match readTag f s with
      | ROk t r => match parse f r with POk ts => POk (t :: ts) | e => e end
      | REnd => POk []
      | RErr => PErr
      | RNoFuel => PNoFuel
      end
  end.

(** ** text.go:65-116 [parseText] *)
Definition strOf (v : value) : list Z := match v with VStr s => s | _ => [] end.
Definition numOf (v : value) : Z := match v with VNum s => match tl_float L s with Some n => n | None => 0 end | _ => 0 end.
Definition tagOf (v : value) : tag := match v with VTag t => t | _ => mkTag [] [] end.
Definition streq (a b : list Z) : bool := if list_eq_dec Z.eq_dec a b then true else false.
Definition td_data (t : textDatum) (d : list Z) : textDatum :=
  mkTD (tdFore t) (tdBack t) (tdSize t) (tdLetterSpacing t) (tdRise t) (tdBold t) (tdItalic t) (tdUnderline t) (tdStrike t) (tdFont t) d.
Definition td_font (t : textDatum) (f : list Z) : textDatum :=
  mkTD (tdFore t) (tdBack t) (tdSize t) (tdLetterSpacing t) (tdRise t) (tdBold t) (tdItalic t) (tdUnderline t) (tdStrike t) f (tdData t).
Definition td_size (t : textDatum) (n : Z) : textDatum :=
  mkTD (tdFore t) (tdBack t) n (tdLetterSpacing t) (tdRise t) (tdBold t) (tdItalic t) (tdUnderline t) (tdStrike t) (tdFont t) (tdData t).
Definition td_fore (t : textDatum) (c : color) : textDatum :=
  mkTD (Some c) (tdBack t) (tdSize t) (tdLetterSpacing t) (tdRise t) (tdBold t) (tdItalic t) (tdUnderline t) (tdStrike t) (tdFont t) (tdData t).
Definition td_spacing (t : textDatum) (n : Z) : textDatum :=
  mkTD (tdFore t) (tdBack t) (tdSize t) n (tdRise t) (tdBold t) (tdItalic t) (tdUnderline t) (tdStrike t) (tdFont t) (tdData t).
Definition td_rise (t : textDatum) (n : Z) : textDatum :=
  mkTD (tdFore t) (tdBack t) (tdSize t) (tdLetterSpacing t) n (tdBold t) (tdItalic t) (tdUnderline t) (tdStrike t) (tdFont t) (tdData t).
Definition td_flags (t : textDatum) (b i u s : bool) : textDatum :=
  mkTD (tdFore t) (tdBack t) (tdSize t) (tdLetterSpacing t) (tdRise t) (tdBold t || b) (tdItalic t || i) (tdUnderline t || u) (tdStrike t || s) (tdFont t) (tdData t).

(** text.go:71-72: the defaults *)
Definition td0 : textDatum := mkTD (Some (CGray 0)) (Some (CAlpha 0)) 0 0 0 false false false false [] [].
(** one round of the loop, text.go:74-113; [None]: index out of range *)
Definition textTag (st : list Z * textDatum) (tg : tag) : option (list Z * textDatum) :=
  let '(m, t) := st in
  let n := tgName tg in
  if streq n (str "text") then
    match tgValues tg with [] => None | v :: _ => Some (m, td_data t (strOf v)) end
  else if streq n (str "markup") then
    match tgValues tg with [v] => Some (strOf v, t) | _ => Some st end
  else if streq n (str "font") then
    match tgValues tg with [v] => Some (m, td_font t (strOf v)) | _ => Some st end
  else if streq n (str "font-size") then
    match tgValues tg with [v] => Some (m, td_size t (u32 (numOf v))) | _ => Some st end
  else if streq n (str "color") then
    match tgValues tg with
    | [v] =>
        let c := tagOf v in
        if streq (tgName c) (str "color-rgb") && negb (zlen (tgValues c) =? 3) then
          match tgValues c with
          | r :: g :: b :: _ => Some (m, td_fore t (CRGB (u8 (numOf r)) (u8 (numOf g)) (u8 (numOf b))))
          | _ => None
          end
        else Some st
    | _ => Some st
    end
  else Some st.
Fixpoint textTags (tags : list tag) (st : list Z * textDatum) : option (list Z * textDatum) :=
  match tags with
  | [] => Some st
  | t :: tags => st <-? textTag st t;; textTags tags st
  end.
Definition parseText (tags : list tag) : option (list Z * textDatum) := textTags tags ([], td0).

(** ** text.go:118-182 [processText] *)
Definition hexval (c : Z) : option Z :=
  if isDigit c then Some (c - 48) else
  if (97 <=? c) && (c <=? 102) then Some (c - 87) else
  if (65 <=? c) && (c <=? 70) then Some (c - 55) else None.
Fixpoint parseHex (s : list Z) (acc : Z) : option Z :=
  match s with
  | [] => Some acc
  | c :: s => v <-? hexval c;; parseHex s (acc * 16 + v)
  end.
(** strconv.ParseUint(s, 10, 32) *)
Definition parseUint (s : list Z) : option Z :=
  match s with
  | [] => None
  | _ => n <-? undec s 0;; if n <? 4294967296 then Some n else None
  end.
(** image/color.RGBA{r, g, b, 255} *)
Definition opaqueRGB (r g b : Z) : color := COther (rep8 r) (rep8 g) (rep8 b) 65535.
(** text.go:123-163; [None]: an error *)
Definition spanAttr (t : textDatum) (a : list Z * list Z) : option textDatum :=
  let '(n, v) := a in
  if streq n (str "font") then Some (td_font t v)
  else if streq n (str "foreground") then
    match v with
    | c :: v' =>
        if (zlen v =? 7) && (c =? 35) then
          n <-? parseHex v' 0;;
          Some (td_fore t (opaqueRGB (u8 (n / 65536)) (Z.land (n / 256) 255) (Z.land n 255)))
        else if (zlen v =? 4) && (c =? 35) then
          n <-? parseHex v' 0;;
          let r := Z.land (n / 16) 240 in
          let g := Z.land n 240 in
          let b := Z.land n 15 in
          Some (td_fore t (opaqueRGB (Z.lor r (r / 16)) (Z.lor g (g / 16)) (Z.lor b (b * 16))))
        else Some t
    | [] => Some t
    end
  else if streq n (str "size") then n <-? parseUint v;; Some (td_size t (n / 1024))
  else if streq n (str "letter_spacing") then n <-? parseUint v;; Some (td_spacing t (n / 1024))
  else if streq n (str "rise") then n <-? parseUint v;; Some (td_rise t (n / 1024))
  else Some t.
Fixpoint spanAttrs (t : textDatum) (l : list (list Z * list Z)) : option textDatum :=
  match l with
  | [] => Some t
  | a :: l => t <-? spanAttr t a;; spanAttrs t l
  end.
Definition processText (name : list Z) (attrs : list (list Z * list Z)) (t : textDatum) : option textDatum :=
  if streq name (str "span") then spanAttrs t attrs
  else if streq name (str "b") then Some (td_flags t true false false false)
  else if streq name (str "i") then Some (td_flags t false true false false)
  else if streq name (str "s") then Some (td_flags t false false false true)
  else if streq name (str "u") then Some (td_flags t false false true false)
  else Some t.

(** text.go:31-60: the loop over the XML tokens; [top] of an empty stack and the
    slice [:len(stack)-1] of one panic (encoding/xml only gives matching ends) *)
Fixpoint markupLoop (toks : list xtok) (ok : bool) (stack : list textDatum) : tres :=
  match toks with
  | [] => if ok then TOk [] else TErr
  | XStart n a :: toks =>
      match stack with
      | [] => TPanic
      | top :: _ => match processText n a top with
                    | None => TErr
                    | Some t => markupLoop toks ok (t :: stack)
                    end
      end
  | XText s :: toks =>
      match stack with
      | [] => TPanic
      | top :: _ => match markupLoop toks ok stack with
                    | TOk td => TOk (td_data top s :: td)
                    | e => e
                    end
      end
  | XEnd :: toks => match stack with [] => TPanic | _ :: stack => markupLoop toks ok stack end
  | XOther :: toks => markupLoop toks ok stack
  end.
(** text.go:19-63 [parseTextData] *)
Definition parseTextData (fuel : nat) (data : list Z) : tres :=
  match parse fuel data with
  | PNoFuel => THang
  | PErr => TErr
  | POk tags =>
      match parseText tags with
      | None => TPanic
      | Some (m, t) =>
          match tdData t with
          | _ :: _ => TOk [t]
          | [] => let '(toks, ok) := tl_xml L m in markupLoop toks ok [t]
          end
      end
  end.
(** the parser looks at every byte a bounded number of times, so this much fuel
    is always enough (P_TextParse, [C62_steps]); what runs out of it runs for ever *)
Definition ptext (data : list Z) : tres := parseTextData (S (S (S (List.length data)))) data.

(** ** text.go:261-321 [writeTextMarkup] *)
(** html.EscapeString (standard library) *)
Definition escapeHTML (s : list Z) : list Z :=
  flat_map (fun c => if c =? 38 then str "&amp;" else if c =? 39 then str "&#39;"
                     else if c =? 60 then str "&lt;" else if c =? 62 then str "&gt;"
                     else if c =? 34 then str "&#34;" else [c]) s.
Definition upper (c : Z) : Z := if (97 <=? c) && (c <=? 122) then c - 32 else c.
(** %02X *)
Definition hex02X (n : Z) : list Z :=
  map upper (hex (if n <? 256 then 2 else if n <? 4096 then 3 else 4) n).
Definition coloured (q : rgba32) : bool := negb ((pR q =? 0) && (pG q =? 0) && (pB q =? 0)).
(** the opening tags and, outermost first, the closing ones *)
Definition markupTags (td : textDatum) (f b : rgba32) : list (list Z * list Z) :=
  let span_ := str "</span>" in
  (if coloured f then [(str "<span foreground=\""#" ++ hex02X (pR f / 256) ++ hex02X (pG f / 256) ++ hex02X (pB f / 256) ++ str "\"">", span_)] else []) ++
  (if coloured b then [(str "<span background=\""#" ++ hex02X (pR b) ++ hex02X (pG b) ++ hex02X (pB b) ++ str "\"">", span_)] else []) ++
  (if streq (tdFont td) (str "Sans") then [] else [(str "<span font=" ++ quote (tdFont td) ++ str ">", span_)]) ++
  (if tdBold td then [(str "<b>", str "</b>")] else []) ++
  (if tdItalic td then [(str "<i>", str "</i>")] else []) ++
  (if tdUnderline td then [(str "<u>", str "</u>")] else []) ++
  (if tdStrike td then [(str "<s>", str "</s>")] else []) ++
  (if tdLetterSpacing td =? 0 then [] else [(str "<span letter_spacing=\""" ++ itoa (u32 (tdLetterSpacing td * 1024)) ++ str "\"">", span_)]) ++
  (if tdSize td =? 18 then [] else [(str "<span size=\""" ++ itoa (u32 (tdSize td * 1024)) ++ str "\"">", span_)]) ++
  (if tdRise td =? 0 then [] else [(str "<span rise=\""" ++ itoa (u32 (tdRise td * 1024)) ++ str "\"">", span_)]).
(** [None]: nil pointer dereference *)
Definition writeTextMarkup (td : textDatum) : option (list Z) :=
  f <-? tdFore td;;
  b <-? tdBack td;;
  let tags := markupTags td (color_RGBA f) (color_RGBA b) in
  Some (flat_map fst tags ++ quote (escapeHTML (tdData td)) ++ flat_map snd (rev tags)).
Fixpoint writeTextMarkups (ts : list textDatum) : option (list Z) :=
  match ts with
  | [] => Some []
  | t :: ts => a <-? writeTextMarkup t;; b <-? writeTextMarkups ts;; Some (a ++ b)
  end.
Definition NL : list Z := [10].
(** text.go:207-242, the data that [WriteText] builds; [None]: it panics *)
Definition wtext (text : list textDatum) (dx dy : Z) : option (list Z) :=
  bh <-? match text with
         | [td] => Some (td, str "(text " ++ quote (tdData td) ++ str ")" ++ NL)
         | _ => m <-? writeTextMarkups text;;
                Some (mkTD None None 18 0 0 false false false false (str "Sans") [],
                      str "(markup ""<markup>" ++ m ++ str "</markup>"")" ++ NL)
         end;;
  let '(base, head) := bh in
  c <-? tdFore base;;
  let q := color_RGBA c in
  Some (head ++
    str "(font " ++ quote (tdFont base) ++ str ")" ++ NL ++
    str "(font-size " ++ itoa (tdSize base) ++ str ".000000000)" ++ NL ++
    str "(font-size-units pixels)" ++ NL ++
    str "(antialias yes)" ++ NL ++
    str "(base-direction ltr)" ++ NL ++
    str "(color (color-rgb " ++ itoa (pR q / 256) ++ str ".000000 " ++ itoa (pG q / 256) ++ str ".000000 " ++ itoa (pB q / 256) ++ str ".000000))" ++ NL ++
    str "(justify left)" ++ NL ++
    str "(box-mode dynamic)" ++ NL ++
    str "(box-width " ++ itoa dx ++ str ".000000)" ++ NL ++
    str "(box-height " ++ itoa dy ++ str ".000000)" ++ NL ++
    str "(box-unit pixels)" ++ NL ++
    str "(hinting yes)" ++ NL ++ [0]).
End Text.
