(** Model of the assembly of decoded layers into a layered image:
    xcf/layer_decode.go:10-15 [layer], xcf/decoder.go:121-126, 368-437. *)
Require Import Verif.Base Verif.M_Color Verif.M_Composite Verif.M_Rect Verif.M_Image Verif.M_Reader.

(** layer_decode.go:10-15 [layer] with the embedded limage.Layer; a nil Image is
    [None]; runes are int32 values *)
Record dlayer := mkDL {
  dlName : list Z; dlBounds : rect; dlMode : mode; dlInvisible : bool; dlTransparency : Z;
  dlImage : option image; dlAlpha : bool; dlGroup : bool; dlPath : list Z }.

(** a nil image.Image: every method call on it panics *)
Definition nil_pic : pic := mkPic ZR KOther (fun _ _ => None).
Definition image_of (o : option image) : image := match o with Some i => i | None => ILeaf nil_pic end.

(** the UTF-8 form of a rune in a conversion string([]rune) (Go specification:
    values outside the range of valid code points become U+FFFD) *)
Definition rune_utf8 (r : Z) : list Z :=
  if between 0 127 r then [r]
  else if between 128 2047 r then [192 + r / 64; 128 + r mod 64]
  else if (r <? 0) || (1114111 <? r) || between 55296 57343 r then [239; 191; 189]
  else if r <=? 65535 then [224 + r / 4096; 128 + r / 64 mod 64; 128 + r mod 64]
  else [240 + r / 262144; 128 + r / 4096 mod 64; 128 + r / 64 mod 64; 128 + r mod 64].
(** string(l.itemPath) *)
Definition path_key (p : list Z) : list Z := concat (map rune_utf8 p).

Definition key_eqb (a b : list Z) : bool := if list_eq_dec Z.eq_dec a b then true else false.

(** The elements of a limage.Image under construction.  [GRef a]: the Image field
    holds the slice stored as array number a. *)
Inductive gimg := GImg (o : option image) | GRef (a : nat).
Record gentry := mkGE { geLayer : dlayer; geImage : gimg }.

(** decoder.go:121-126 [groupOffset]; the objects pointed to from the map are
    numbered in the order of creation; [goParent] is the number of the object
    whose Group field Parent points to.  Each object starts with its own array
    (append may reallocate it, but nothing else refers to it). *)
Record gobj := mkGO { goGroup : list gentry; goX : Z; goY : Z; goParent : option nat; goOffset : nat }.

(** the Go map: latest binding first, one binding per key *)
Definition gmap : Type := list (list Z * nat).
Definition gmap_get (m : gmap) (k : list Z) : option nat :=
  match find (fun kv => key_eqb (fst kv) k) m with Some kv => Some (snd kv) | None => None end.
Definition gmap_set (m : gmap) (k : list Z) (v : nat) : gmap :=
  (k, v) :: filter (fun kv => negb (key_eqb (fst kv) k)) m.

(** decoder.go:375 *)
Definition groups0 : list gobj := [mkGO [] 0 0 None 0].
Definition gmap0 : gmap := [([], O)].

(** decoder.go:384-405: one iteration of the loop, after the alpha check.
    State: objects, map, and the counter [n] for layers without a path. *)
Definition group_step (bounds : rect) (os : list gobj) (m : gmap) (n : Z) (l : dlayer)
  : option (list gobj * gmap * Z) :=
  let '(path, n) := match dlPath l with [] => ([n], s32 (n + 1)) | p => (p, n) end in
  match gmap_get m (path_key (removelast path)) with
  | None => None
  | Some gi =>
      match nth_error os gi with
      | None => None
      | Some g =>
          let '(os, m) :=
            if dlGroup l then
              (os ++ [mkGO [] (minX (dlBounds l)) (minY (dlBounds l)) (Some gi) (length (goGroup g))],
               gmap_set m (path_key path) (length os))
            else (os, m) in
          let b := rsub (intersect (dlBounds l) bounds) (goX g) (goY g) in
          let e := mkGE (mkDL (dlName l) b (dlMode l) (dlInvisible l) (dlTransparency l) (dlImage l)
                              (dlAlpha l) (dlGroup l) path) (GImg (dlImage l)) in
          Some (upd_nat os gi (mkGO (goGroup g ++ [e]) (goX g) (goY g) (goParent g) (goOffset g)), m, n)
      end
  end.

(** decoder.go:368-409 [makeGroups] *)
Fixpoint groups_loop (bounds : rect) (ls : list dlayer) (alpha : bool) (os : list gobj) (m : gmap) (n : Z)
  : err + (list gobj * gmap) :=
  match ls with
  | [] => inr (os, m)
  | l :: ls =>
      if negb alpha then inl EMissingAlpha
      else match group_step bounds os m n l with
           | None => inl EInvalidGroup
           | Some (os, m, n) => groups_loop bounds ls (dlAlpha l) os m n
           end
  end.
Definition makeGroups (ls : list dlayer) (bounds : rect) : err + (list gobj * gmap) :=
  groups_loop bounds ls true groups0 gmap0 0.

(** decoder.go:414-426: one iteration for object [gi].  [heap]: the arrays;
    [cur]: for each object the number of the array its Group field refers to now;
    [im]: the array assigned to im.  The copy is a new array. *)
Record mstate := mkMS { msHeap : list (list gentry); msCur : list nat; msIm : option nat }.
Definition set_image (g : list gentry) (off : nat) (a : nat) : list gentry :=
  match nth_error g off with
  | Some e => upd_nat g off (mkGE (geLayer e) (GRef a))
  | None => g
  end.
Definition make_step (os : list gobj) (s : mstate) (gi : nat) : mstate :=
  match nth_error os gi, nth_error (msCur s) gi with
  | Some g, Some a =>
      let ng := match nth_error (msHeap s) a with Some l => l | None => [] end in
      let na := length (msHeap s) in
      let heap := msHeap s ++ [ng] in
      let cur := upd_nat (msCur s) gi na in
      match goParent g with
      | None => mkMS heap cur (Some na)
      | Some p =>
          match nth_error cur p with
          | None => mkMS heap cur (msIm s)
          | Some pa =>
              match nth_error heap pa with
              | None => mkMS heap cur (msIm s)
              | Some pg => mkMS (upd_nat heap pa (set_image pg (goOffset g) na)) cur (msIm s)
              end
          end
      end
  | _, _ => s
  end.

(** the layered image seen when following the references from array [a]; the
    nesting is at most [fuel] deep *)
Definition layer_of (d : dlayer) (i : image) : layer :=
  mkLayer (dlName d) (dlBounds d) (dlMode d) (dlInvisible d) (dlTransparency d) i.
Fixpoint resolve (fuel : nat) (heap : list (list gentry)) (a : nat) : list layer :=
  match fuel with
  | O => []
  | S fuel =>
      match nth_error heap a with
      | None => []
      | Some g =>
          map (fun e => layer_of (geLayer e)
                 (match geImage e with
                  | GImg o => image_of o
                  | GRef b => IGroup (resolve fuel heap b)
                  end)) g
      end
  end.

(** decoder.go:428-434: the bottom layer of the image *)
Definition fix_bottom_layer (l : layer) : layer :=
  match lMode l with
  | MNormal | MDissolve => l
  | _ => mkLayer (lName l) (lBounds l) MNormal (lInvisible l) (lTransparency l) (lImage l)
  end.
Fixpoint fix_bottom (im : list layer) : list layer :=
  match im with
  | [] => []
  | [l] => [fix_bottom_layer l]
  | l :: im => l :: fix_bottom im
  end.

(** decoder.go:411-437 [makeImage]; [order] is the order in which range visits
    the values of the map *)
Definition makeImage (os : list gobj) (order : list nat) : list layer :=
  let s := fold_left (make_step os) order
             (mkMS (map goGroup os) (seq 0 (length os)) None) in
  fix_bottom (match msIm s with Some a => resolve (S (length os)) (msHeap s) a | None => [] end).
(** the values of the map, in some order *)
Definition map_order (m : gmap) : list nat := rev (map snd m).
