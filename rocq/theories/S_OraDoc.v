(** Specification vocabulary for C88: what an OpenRaster document says, apart from
    how the decoder reads it. *)
Require Import Verif.Base Verif.M_Color Verif.M_Composite Verif.M_Rect Verif.M_Image Verif.M_Ora Verif.S_Ora Verif.S_Rect.
From Coq Require Import String.
Open Scope Z_scope.
Open Scope list_scope.

(** ** Attributes *)
(** the attribute [k], given once or not at all (XML does not allow it twice) *)
Definition given (k : string) (as_ : list (list Z * list Z)) (P : list Z -> Prop) (absent : Prop) : Prop :=
  match attr k as_ with
  | [] => absent
  | [v] => P v
  | _ => False
  end.

(** a decimal integer that fits into an int, perhaps signed, perhaps with leading zeros *)
Definition integer (s : list Z) (n : Z) : Prop :=
  is_int n /\
  exists ds, ds <> [] /\ Forall (fun d => 48 <= d <= 57) ds /\
    ((s = ds \/ s = 43 :: ds) /\ n = value ds 0 \/ s = 45 :: ds /\ n = - value ds 0).

(** the mode an operator stands for; operators that are not in the list mean src-over *)
Definition operator (s : list Z) (m : mode) : Prop :=
  (exists o, In (o, m) ora_ops /\ s = str o) \/
  ((forall o k, In (o, k) ora_ops -> s <> str o) /\ m = MNormal).

(** what the attributes of a <layer> or <stack> say *)
Record desc := mkDesc { dName : list Z; dX : Z; dY : Z; dTransp : Z; dHidden : bool; dMode : mode }.
Record says (L : libs) (as_ : list (list Z * list Z)) (a : desc) : Prop := {
  says_name : given "name" as_ (fun v => dName a = v) (dName a = []);
  says_x : given "x" as_ (fun v => integer v (dX a)) (dX a = 0);
  says_y : given "y" as_ (fun v => integer v (dY a)) (dY a = 0);
  says_opacity : given "opacity" as_ (fun v => lib_opacity L v = Some (dTransp a)) (dTransp a = 0);
  says_visibility : given "visibility" as_ (fun v => dHidden a = true <-> v = str "hidden") (dHidden a = false);
  says_op : given "composite-op" as_ (fun v => operator v (dMode a)) (dMode a = MNormal) }.

(** ** Documents *)
Inductive odoc :=
| OLayer (as_ : list (list Z * list Z)) (a : desc) (body : list token) (i : image)
| OStack (as_ : list (list Z * list Z)) (a : desc) (kids : list odoc).

(** the elements of a document *)
Fixpoint elements (d : odoc) : list token :=
  match d with
  | OLayer as_ _ body _ => TStart (str "layer") as_ :: body ++ [TEnd]
  | OStack as_ _ kids => TStart (str "stack") as_ :: flat_map elements kids ++ [TEnd]
  end.

(** the picture the archive has under the name [src] *)
Definition picture (ms : list member) (src : list Z) (i : image) : Prop :=
  exists pre m post, ms = pre ++ m :: post /\ mName m = src /\ Forall (fun k => mName k <> src) pre /\
    mOpen m = true /\ mImage m = Some i.

(** the document is well formed and says what is in the [desc]s and pictures *)
Inductive valid (L : libs) (ms : list member) : odoc -> Prop :=
| valid_layer as_ a body i :
    says L as_ a -> balanced body -> given "src" as_ (fun v => picture ms v i) False -> is_group i = false ->
    valid L ms (OLayer as_ a body i)
| valid_stack as_ a kids :
    says L as_ a -> given "src" as_ (fun _ => True) True -> Forall (valid L ms) kids -> valid L ms (OStack as_ a kids).

(** ** The layers of a document: everything but the position *)
Definition attributes (a : desc) (l : layer) : Prop :=
  lName l = dName a /\ lMode l = dMode a /\ lInvisible l = dHidden a /\ lTransparency l = dTransp a.
Inductive tells : odoc -> layer -> Prop :=
| tells_layer as_ a body i l : attributes a l -> lImage l = i -> tells (OLayer as_ a body i) l
| tells_stack as_ a kids l g : attributes a l -> lImage l = IGroup g -> Forall2 tells kids g ->
    tells (OStack as_ a kids) l.

(** ** Positions *)
Definition on_canvas (w h x y : Z) : Prop := 0 <= x < w /\ 0 <= y < h.

(** the document puts the point (u, v) of the picture [i] at (x, y) of the canvas;
    with [rel] the x and y of a layer count from the corner of the stack around it,
    otherwise from the corner of the canvas *)
Inductive puts (rel : bool) : odoc -> Z -> Z -> image -> Z -> Z -> Prop :=
| puts_layer as_ a body i x y u v :
    x = dX a + u -> y = dY a + v -> inside (image_Bounds i) u v ->
    puts rel (OLayer as_ a body i) x y i u v
| puts_stack as_ a kids k x y i u v :
    In k kids ->
    puts rel k (if rel then x - dX a else x) (if rel then y - dY a else y) i u v ->
    puts rel (OStack as_ a kids) x y i u v.

(** the layers have the point (u, v) of the picture [i] at (x, y): what
    [Image.At] looks at; see [stands_At] *)
Inductive stands : layer -> Z -> Z -> image -> Z -> Z -> Prop :=
| stands_leaf l x y u v :
    is_group (lImage l) = false -> inside (lBounds l) x y ->
    u = x - minX (lBounds l) -> v = y - minY (lBounds l) ->
    stands l x y (lImage l) u v
| stands_group l g k x y i u v :
    lImage l = IGroup g -> In k g -> inside (lBounds l) x y ->
    stands k (x - minX (lBounds l)) (y - minY (lBounds l)) i u v ->
    stands l x y i u v.

(** everything is where the document puts it *)
Definition in_place (rel : bool) (w h : Z) (ds : list odoc) (ls : list layer) : Prop :=
  forall x y i u v, on_canvas w h x y ->
    ((exists l, In l ls /\ stands l x y i u v) <-> (exists d, In d ds /\ puts rel d x y i u v)).

(** ** The documents the code gets right: pictures start on or right of and below
    the corner of the canvas; a stack has no offset and what it contains reaches
    the left and the top edge of the canvas *)
Definition anchored (w h : Z) (kids : list odoc) : Prop :=
  (exists k y i u v, In k kids /\ on_canvas w h 0 y /\ puts false k 0 y i u v) /\
  (exists k x i u v, In k kids /\ on_canvas w h x 0 /\ puts false k x 0 i u v).
Definition blank (w h : Z) (kids : list odoc) : Prop :=
  forall k x y i u v, In k kids -> on_canvas w h x y -> ~ puts false k x y i u v.
Inductive tidy (w h : Z) : odoc -> Prop :=
| tidy_layer as_ a body i :
    0 <= dX a -> 0 <= dY a -> minX (image_Bounds i) = 0 -> minY (image_Bounds i) = 0 -> tidy w h (OLayer as_ a body i)
| tidy_stack as_ a kids :
    dX a = 0 -> dY a = 0 -> Forall (tidy w h) kids -> anchored w h kids \/ blank w h kids -> tidy w h (OStack as_ a kids).

(** ** Archives *)
(** [ms] is an archive whose canvas is [w] x [h] and whose stack.xml contains the
    document [ds], with anything unknown between its elements *)
Definition holds (L : libs) (ms : list member) (w h : Z) (ds : list odoc) : Prop :=
  (forall m, In m ms -> mName m = str "mimetype" -> good_mime m) /\
  exists s as_ sa tail us,
    the_stack ms s /\ mOpen s = true /\ root (mTokens s) (str "image") as_ us /\
    given "w" as_ (fun v => integer v w) False /\ given "h" as_ (fun v => integer v h) False /\
    adds (TStart (str "stack") sa :: flat_map elements ds ++ TEnd :: tail) us /\
    Forall (valid L ms) ds.
