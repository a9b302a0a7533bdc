(** Specification vocabulary for the ora package (C55-C61). *)
Require Import Verif.Base Verif.M_Color Verif.M_Composite Verif.M_Rect Verif.M_Image Verif.M_Ora.
From Coq Require Import QArith Qabs String.
Open Scope Z_scope.
Open Scope list_scope.

(** ** The libraries *)
Definition printable (s : list Z) : Prop := Forall (fun c => 32 <= c <= 126) s.

(** what is assumed of image/png, strconv, encoding/xml and float64 rounding *)
Record libs_ok (L : libs) : Prop := {
  (* png.Encode refuses an empty image *)
  png_empty : forall i, rempty (image_Bounds i) = true -> lib_png L i = None;
  (* a PNG has no position, only a size *)
  png_bounds : forall i p, lib_png L i = Some p ->
      picBounds p = mkRect 0 0 (dx (image_Bounds i)) (dy (image_Bounds i));
  (* a number is printed with digits, hence is not the word hidden *)
  fmt_printable : forall t, printable (lib_fmt L t);
  fmt_hidden : forall t, lib_fmt L t <> str "hidden";
  (* printable ASCII survives as an attribute value *)
  xml_printable : forall s, printable s -> lib_xml L s = s;
  (* rounding to float64: integers below 2^53 are kept, the relative error is at most 2^-53 *)
  rnd_int : forall q n, (q == inject_Z n)%Q -> Z.abs n <= 2 ^ 53 -> (lib_rnd L q == inject_Z n)%Q;
  rnd_err : forall q, (Qabs (lib_rnd L q - q) <= Qabs q * (1 # (2 ^ 53)))%Q }.

(** ** Reading an archive back *)
Definition is_other (t : token) : bool := match t with TOther => true | _ => false end.
(** the tokens that carry information *)
Definition strip (ts : list token) : list token := filter (fun t => negb (is_other t)) ts.
Definition xml_token (L : libs) (t : token) : token :=
  match t with TStart n as_ => TStart n (map (fun kv => (fst kv, lib_xml L (snd kv))) as_) | _ => t end.

(** [m] is what archive/zip, encoding/xml and image/png give back for the member
    [w] that was written: indentation may add character data *)
Definition reads_back (L : libs) (w : list Z * written) (m : member) : Prop :=
  mName m = fst w /\ mOpen m = true /\
  match snd w with
  | WBytes b => mSize m = zlen b /\ mBytes m = b
  | WXml ts => mEnd m = OEOF /\ strip (mTokens m) = map (xml_token L) (strip ts)
  | WPng p => mImage m = Some (ILeaf p)
  end.

(** ** Trees *)
Definition is_group (i : image) : bool := match i with IGroup _ => true | _ => false end.
(** the image whose layers Encode writes *)
Definition content (m : image) : image := match m with ILayer l => lImage l | _ => m end.

(** the leaves of a layer tree in document order *)
Fixpoint leaves (i : image) : list image :=
  match i with
  | IGroup g => (fix all (g : list layer) := match g with [] => [] | l :: g => leaves_l l ++ all g end) g
  | _ => [i]
  end
with leaves_l (l : layer) : list image := match l with mkLayer _ _ _ _ _ i => leaves i end.

(** [ds] is the decimal numeral of [n] *)
Fixpoint value (ds : list Z) (v : Z) : Z := match ds with [] => v | d :: ds => value ds (v * 10 + (d - 48)) end.
Definition numeral (ds : list Z) (n : Z) : Prop :=
  ds <> [] /\ Forall (fun d => 48 <= d <= 57) ds /\ value ds 0 = n /\ (hd 0 ds = 48 -> ds = [48]).
(** [s] is data/n.png *)
Definition data_name (n : Z) (s : list Z) : Prop :=
  exists ds, numeral ds n /\ s = str "data/" ++ ds ++ str ".png".

Definition attr (k : string) (as_ : list (list Z * list Z)) : list (list Z) :=
  map snd (filter (fun kv => if list_eq_dec Z.eq_dec (fst kv) (str k) then true else false) as_).
(** the src attributes of the <layer> elements, in document order *)
Fixpoint sources (ts : list token) : list (list (list Z)) :=
  match ts with
  | [] => []
  | TStart n as_ :: ts =>
      if list_eq_dec Z.eq_dec n (str "layer") then attr "src" as_ :: sources ts else sources ts
  | _ :: ts => sources ts
  end.

(** ** Composite operators of OpenRaster *)
Definition ora_ops : list (string * mode) :=
  [("svg:src-over", MNormal); ("svg:multiply", MMultiply); ("svg:screen", MScreen); ("svg:overlay", MOverlay);
   ("svg:darken", MDarkenOnly); ("svg:lighten", MLightenOnly); ("svg:color-dodge", MDodge); ("svg:color-burn", MBurn);
   ("svg:hard-light", MHardLight); ("svg:soft-light", MSoftLight); ("svg:difference", MDifference);
   ("svg:color", MColor); ("svg:luminosity", MLuminosity); ("svg:hue", MHue); ("svg:saturation", MSaturation);
   ("svg:plus", MPlus); ("svg:dst-in", MDestinationIn); ("svg:dst-out", MDestinationOut);
   ("svg:src-atop", MSourceAtop); ("svg:dst-atop", MDestinationAtop)]%string.
Definition nameable (m : mode) : Prop := In m (map snd ora_ops).

(** ** Round trip: the layer [d] is the layer [l] read back *)
Inductive same (L : libs) : layer -> layer -> Prop :=
| same_leaf l d p :
    is_group (lImage l) = false -> lib_png L (lImage l) = Some p -> lImage d = ILeaf p ->
    lName d = lName l -> lBounds d = lBounds l -> lMode d = lMode l ->
    lInvisible d = lInvisible l -> lTransparency d = lTransparency l -> same L l d
| same_group l d g h :
    lImage l = IGroup g -> lImage d = IGroup h -> sames L g h ->
    lName d = lName l -> lBounds d = lBounds l -> lMode d = lMode l ->
    lInvisible d = lInvisible l -> lTransparency d = lTransparency l -> same L l d
with sames (L : libs) : list layer -> list layer -> Prop :=
| sames_nil : sames L [] []
| sames_cons l d g h : same L l d -> sames L g h -> sames L (l :: g) (d :: h).

(** ** XML with unknown elements *)
Inductive balanced : list token -> Prop :=
| bal_nil : balanced []
| bal_other ts : balanced ts -> balanced (TOther :: ts)
| bal_elem n as_ body ts : balanced body -> balanced ts -> balanced (TStart n as_ :: body ++ TEnd :: ts).
Definition unknown (n : list Z) : Prop := n <> str "stack" /\ n <> str "layer".
(** [us] is [ts] with whole unknown elements (whatever their content), or other
    tokens, added anywhere *)
Inductive adds : list token -> list token -> Prop :=
| adds_nil : adds [] []
| adds_same t ts us : adds ts us -> adds (t :: ts) (t :: us)
| adds_other ts us : adds ts us -> adds ts (TOther :: us)
| adds_elem n as_ body ts us : unknown n -> balanced body -> adds ts us ->
    adds ts (TStart n as_ :: body ++ TEnd :: us).

(** ** Containers *)
Definition good_mime (m : member) : Prop :=
  mSize m = 16 /\ mOpen m = true /\ exists r, mBytes m = str "image/openraster" ++ r.
(** [s] is the last member called stack.xml *)
Definition the_stack (ms : list member) (s : member) : Prop :=
  exists pre post, ms = pre ++ s :: post /\ mName s = str "stack.xml" /\ Forall (fun m => mName m <> str "stack.xml") post.
(** the root element: the first start element *)
Definition root (ts : list token) (n : list Z) (as_ : list (list Z * list Z)) (rest : list token) : Prop :=
  exists pre, ts = pre ++ TStart n as_ :: rest /\ Forall (fun t => match t with TStart _ _ => False | _ => True end) pre.

(** all layers of a tree, each before the layers inside it *)
Fixpoint layers (i : image) : list layer :=
  match i with
  | IGroup g => (fix all (g : list layer) := match g with [] => [] | l :: g => layers_l l ++ all g end) g
  | _ => []
  end
with layers_l (l : layer) : list layer := l :: match l with mkLayer _ _ _ _ _ i => layers i end.

(** the values of Go's int *)
Definition is_int (n : Z) : Prop := - 9223372036854775808 <= n <= 9223372036854775807.

(** The mode read back for [m]. *)
Definition read_mode (m m' : mode) : Prop := (nameable m -> m' = m) /\ (~ nameable m -> m' = MNormal).

(** What the code reads back for any layer [l] (the canvas is [w] x [h], the
    stack around it is at (ox, oy)): opacity is lost and with it the invisibility
    of a partly transparent layer, negative offsets become 0, and the bounds
    follow from the image read back. *)
Definition back_attrs (L : libs) (w h ox oy : Z) (l d : layer) : Prop :=
  let x := Z.max 0 (minX (lBounds l)) in
  let y := Z.max 0 (minY (lBounds l)) in
  lName d = lib_xml L (lName l) /\ read_mode (lMode l) (lMode d) /\
  lInvisible d = (lInvisible l && (lTransparency l =? 0)) /\ lTransparency d = 0 /\
  lBounds d = rsub (intersect (radd (image_Bounds (lImage d)) x y) (mkRect 0 0 (w + ox) (h + oy))) ox oy.
Inductive back (L : libs) (w h : Z) : Z -> Z -> layer -> layer -> Prop :=
| back_leaf ox oy l d p :
    is_group (lImage l) = false -> lib_png L (lImage l) = Some p -> lImage d = ILeaf p ->
    back_attrs L w h ox oy l d -> back L w h ox oy l d
| back_group ox oy l d g k :
    lImage l = IGroup g -> lImage d = IGroup k ->
    backs L w h (ox + Z.max 0 (minX (lBounds l))) (oy + Z.max 0 (minY (lBounds l))) g k ->
    back_attrs L w h ox oy l d -> back L w h ox oy l d
with backs (L : libs) (w h : Z) : Z -> Z -> list layer -> list layer -> Prop :=
| backs_nil ox oy : backs L w h ox oy [] []
| backs_cons ox oy l d g k : back L w h ox oy l d -> backs L w h ox oy g k -> backs L w h ox oy (l :: g) (d :: k).

(** The layers the code carries through unchanged: the name is XML text, opaque,
    the mode has an ORA name, the bounds have the size of the image and lie on
    the canvas; a group lies at (0,0) and has the bounds of its content. *)
Definition plain_attrs (L : libs) (l : layer) : Prop :=
  lib_xml L (lName l) = lName l /\ nameable (lMode l) /\ lTransparency l = 0.
Inductive expressible (L : libs) (w h : Z) : layer -> Prop :=
| expr_leaf l x y :
    is_group (lImage l) = false -> plain_attrs L l ->
    lBounds l = mkRect x y (x + dx (image_Bounds (lImage l))) (y + dy (image_Bounds (lImage l))) ->
    0 <= x -> 0 <= y -> x + dx (image_Bounds (lImage l)) <= w -> y + dy (image_Bounds (lImage l)) <= h ->
    expressible L w h l
| expr_group l g :
    lImage l = IGroup g -> plain_attrs L l ->
    lBounds l = group_Bounds g -> minX (lBounds l) = 0 -> minY (lBounds l) = 0 ->
    expressibles L w h g -> expressible L w h l
with expressibles (L : libs) (w h : Z) : list layer -> Prop :=
| expr_nil : expressibles L w h []
| expr_cons l g : expressible L w h l -> expressibles L w h g -> expressibles L w h (l :: g).
