(** What rich text means: a tree of elements, every piece of text styled by the
    elements around it.  Strings are lists of bytes. *)
From Coq Require Import String.
Require Import Verif.Base Verif.M_Color Verif.M_Image Verif.M_Ora Verif.M_Text Verif.S_Text.
Open Scope Z_scope.
Open Scope list_scope.

(** the document: text, elements with attributes, anything else (comments) *)
Definition element : Type := (list Z * list (list Z * list Z))%type.
Inductive node := NText (s : list Z) | NElem (e : element) (kids : list node) | NOther.

(** the pieces of text in order, each with the elements around it, outermost first *)
Fixpoint pieces (n : node) : list (list element * list Z) :=
  match n with
  | NText s => [([], s)]
  | NElem e kids => map (fun p => (e :: fst p, snd p)) (flat_map pieces kids)
  | NOther => []
  end.
(** all elements *)
Fixpoint elements (n : node) : list element :=
  match n with
  | NText _ | NOther => []
  | NElem e kids => e :: flat_map elements kids
  end.

(** ** attribute values *)
Definition is_number (v : list Z) : Prop := v <> [] /\ Forall (fun c => 48 <= c <= 57) v /\ value_of v < 4294967296.
(** a hexadecimal digit and its value *)
Inductive hexdig : Z -> Z -> Prop :=
| hd_09 c : 48 <= c <= 57 -> hexdig c (c - 48)
| hd_af c : 97 <= c <= 102 -> hexdig c (c - 97 + 10)
| hd_AF c : 65 <= c <= 70 -> hexdig c (c - 65 + 10).
(** an opaque colour of 8-bit components *)
Definition opaque (r g b : Z) : color := COther (257 * r) (257 * g) (257 * b) 65535.
(** the colour a foreground value names; other values have no effect, except those
    of the right form with wrong digits *)
Inductive names_colour : list Z -> color -> Prop :=
| nc_6 a b c d e f r1 r0 g1 g0 b1 b0 :
    hexdig a r1 -> hexdig b r0 -> hexdig c g1 -> hexdig d g0 -> hexdig e b1 -> hexdig f b0 ->
    names_colour [35; a; b; c; d; e; f] (opaque (16 * r1 + r0) (16 * g1 + g0) (16 * b1 + b0))
| nc_3 a b c r g l : hexdig a r -> hexdig b g -> hexdig c l ->
    names_colour [35; a; b; c] (opaque (17 * r) (17 * g) (17 * l)).
Definition colour_form (v : list Z) : Prop := (zlen v = 7 \/ zlen v = 4) /\ exists w, v = 35 :: w.

(** the values of an attribute in a list of attributes; those of the <span> elements
    of a path *)
Definition values (name : string) (as_ : list (list Z * list Z)) : list (list Z) :=
  map snd (filter (fun a => if list_eq_dec Z.eq_dec (fst a) (str name) then true else false) as_).
Definition spans (path : list element) : list (list Z * list Z) :=
  flat_map (fun e => if list_eq_dec Z.eq_dec (fst e) (str "span") then snd e else []) path.
Definition declared (name : string) (path : list element) : list (list Z) := values name (spans path).
Definition inside (name : string) (path : list element) : Prop := In (str name) (map fst path).

(** an element whose attributes can be read *)
Definition readable (e : element) : Prop :=
  fst e = str "span" ->
  (forall name v, In name ["size"; "letter_spacing"; "rise"]%string -> In v (values name (snd e)) -> is_number v) /\
  (forall v, In v (values "foreground" (snd e)) -> colour_form v -> exists c, names_colour v c).

(** an element with an attribute that is no number or colour where there should be one *)
Definition unreadable (e : element) : Prop :=
  fst e = str "span" /\
  ((exists name v, In name ["size"; "letter_spacing"; "rise"]%string /\ In v (values name (snd e)) /\ ~ is_number v) \/
   (exists v, In v (values "foreground" (snd e)) /\ colour_form v /\ forall c, ~ names_colour v c)).

(** the last of several declarations, in units of 1/1024, or what was there before *)
Definition scaled (vs : list (list Z)) (d : Z) : Z := last (map (fun v => value_of v / 1024) vs) d.
(** the colours named by the values, in order *)
Inductive colours : list (list Z) -> list color -> Prop :=
| cs_nil : colours [] []
| cs_name v c vs cs : names_colour v c -> colours vs cs -> colours (v :: vs) (c :: cs)
| cs_other v vs cs : ~ colour_form v -> colours vs cs -> colours (v :: vs) cs.

(** [t] is the piece of text [s] inside the elements [path], [base] being the style
    of the layer *)
Definition styled (base : textDatum) (path : list element) (s : list Z) (t : textDatum) : Prop :=
  tdData t = s /\
  tdFont t = last (declared "font" path) (tdFont base) /\
  tdSize t = scaled (declared "size" path) (tdSize base) /\
  tdLetterSpacing t = scaled (declared "letter_spacing" path) (tdLetterSpacing base) /\
  tdRise t = scaled (declared "rise" path) (tdRise base) /\
  (exists cs, colours (declared "foreground" path) cs /\ tdFore t = last (map Some cs) (tdFore base)) /\
  tdBack t = tdBack base /\
  (tdBold t = true <-> tdBold base = true \/ inside "b" path) /\
  (tdItalic t = true <-> tdItalic base = true \/ inside "i" path) /\
  (tdUnderline t = true <-> tdUnderline base = true \/ inside "u" path) /\
  (tdStrike t = true <-> tdStrike base = true \/ inside "s" path).

(** the tokens of a document, as encoding/xml gives them *)
Fixpoint toks (n : node) : list xtok :=
  match n with
  | NText s => [XText s]
  | NElem e kids => XStart (fst e) (snd e) :: flat_map toks kids ++ [XEnd]
  | NOther => [XOther]
  end.

(** ** the tags of a text parasite: a tag counts if it has one value, the last one wins *)
Definition single (name : string) (tags : list tag) : list value :=
  flat_map (fun t => if list_eq_dec Z.eq_dec (tgName t) (str name) then match tgValues t with [v] => [v] | _ => [] end else []) tags.
(** of a (text ...) only the first value counts *)
Definition firsts (name : string) (tags : list tag) : list value :=
  flat_map (fun t => if list_eq_dec Z.eq_dec (tgName t) (str name) then match tgValues t with v :: _ => [v] | _ => [] end else []) tags.
Definition text_of (v : value) : list Z := match v with VStr s => s | _ => [] end.
Definition number_of (fl : list Z -> option Z) (v : value) : Z :=
  match v with VNum s => match fl s with Some n => n mod 4294967296 | None => 0 end | _ => 0 end.
Definition markup_of (tags : list tag) : list Z := last (map text_of (single "markup" tags)) [].
Definition plain_of (tags : list tag) : list Z := last (map text_of (firsts "text" tags)) [].
(** a (color ...) that is one (color-rgb r g b) *)
Definition plain_colour (t : tag) : Prop :=
  exists r g b, tgValues t = [VTag (mkTag (str "color-rgb") [r; g; b])].
(** a tag with fewer values than it needs *)
Definition short_tag (t : tag) : Prop :=
  (tgName t = str "text" /\ tgValues t = []) \/
  (tgName t = str "color" /\ exists us, tgValues t = [VTag (mkTag (str "color-rgb") us)] /\ (List.length us < 3)%nat).
(** the style of a layer whose parasite has these tags: its font and its size; no
    tag sets the rest *)
Definition layer_style (fl : list Z -> option Z) (tags : list tag) (t : textDatum) : Prop :=
  tdFont t = last (map text_of (single "font" tags)) [] /\
  tdSize t = last (map (number_of fl) (single "font-size" tags)) 0 /\
  tdBack t = Some (CAlpha 0) /\ tdLetterSpacing t = 0 /\ tdRise t = 0 /\
  tdBold t = false /\ tdItalic t = false /\ tdUnderline t = false /\ tdStrike t = false.

(** all the text of a document *)
Fixpoint content (n : node) : list Z :=
  match n with
  | NText s => s
  | NElem _ kids => flat_map content kids
  | NOther => []
  end.
