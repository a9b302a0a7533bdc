(** What the parts of a file must look like to be accepted, from the format's description. *)
Require Import Verif.Base Verif.S_String Verif.S_File Verif.S_Props.

(** a pointer: a word, or two (version 11 on: [vmode] is 2) *)
Definition pointer (vmode z : Z) : list Z :=
  if vmode <? 2 then word z else word (z / 4294967296) ++ word (z mod 4294967296).
(** bytes for each pixel of a drawable of type 0..5: RGB, RGBA, grey, grey with alpha,
    indexed, indexed with alpha *)
Definition pixel_bytes (typ : Z) : Z := nth (Z.to_nat typ) [3; 4; 1; 2; 1; 2] 0.

(** [f] has the bytes [l] at offset p *)
Definition has (f : list Z) (p : Z) (l : list Z) : Prop := exists a b, f = a ++ l ++ b /\ zlen a = p.

(** the pixel data at p of a drawable of [typ], w by h: dimensions, bytes for each pixel, a
    pointer to the first level, which repeats the dimensions and lists one pointer for each
    64x64 tile, and then 0.  (A pointer of 2^63 or more points nowhere.) *)
Definition pixels_ok (f : list Z) (vmode p w h typ : Z) : Prop :=
  exists bpp q tiles,
    has f p (word w ++ word h ++ word bpp ++ pointer vmode q) /\
    (0 <= typ <= 5 -> bpp = pixel_bytes typ) /\
    zlen tiles = ((w + 63) / 64) * ((h + 63) / 64) /\
    (q < 9223372036854775808 -> has f q (word w ++ word h ++ flat_map (pointer vmode) tiles ++ word 0)).

(** image properties that must be refused: type, declared length, what follows *)
Inductive bad_property : Z -> Z -> list Z -> Prop :=
| bad_end n : n <> 0 -> bad_property 0 n []
| bad_opacity n o : is_word o -> 255 < o -> bad_property 6 n (word o)
| bad_compression n c : 1 < c < 256 -> bad_property 17 n [c]
| bad_guides n : n mod 5 <> 0 -> bad_property 18 n []
| bad_samples n : n mod 2 <> 0 -> bad_property 39 n []
| bad_unit n u : is_word u -> 4 < u -> bad_property 22 n (word u)
| bad_bool typ n b : In typ [8; 9; 28] -> is_word b -> 1 < b -> bad_property typ n (word b).
(** likewise for a layer *)
Inductive bad_layer_property : Z -> Z -> list Z -> Prop :=
| badl_end n : n <> 0 -> bad_layer_property 0 n []
| badl_opacity n o : is_word o -> 255 < o -> bad_layer_property 6 n (word o)
| badl_visible n b : is_word b -> 1 < b -> bad_layer_property 8 n (word b)
| badl_path n : n mod 4 <> 0 -> bad_layer_property 30 n [].
(** and for a channel *)
Inductive bad_channel_property : Z -> Z -> list Z -> Prop :=
| badc_end n : n <> 0 -> bad_channel_property 0 n []
| badc_opacity n o : is_word o -> 255 < o -> bad_channel_property 6 n (word o).

(** the first bytes of a file of version n ("file" is version 0) *)
Definition file_magic (n : Z) : list Z :=
  [103; 105; 109; 112; 32; 120; 99; 102; 32] ++                              (* "gimp xcf " *)
  (if n =? 0 then [102; 105; 108; 101] else [118; 48; 48 + n / 10; 48 + n mod 10]) ++ [0].
(** how pointers are stored *)
Definition pointer_kind (n : Z) : Z := if n <=? 3 then 0 else if n <=? 10 then 1 else 2.
(** up to the properties: dimensions, base type, precision from version 4 on *)
Definition image_start (n w h base prec : Z) : list Z :=
  file_magic n ++ word w ++ word h ++ word base ++ (if n <=? 3 then [] else word prec).

(** a list of properties without its end; a record with a wrong length or content *)
Definition records (l : list (Z * list Z)) : list Z := flat_map (fun q => property (fst q) (snd q)) l.
Definition record (typ n : Z) (l : list Z) : list Z := word typ ++ word n ++ l.

(** A malformed channel at p (the mask of a layer of w by h): other dimensions, a bad
    property, or bad pixel data *)
Inductive bad_mask (f : list Z) (vmode w h p : Z) : Prop :=
| bm_size w' h' name props hp : is_word w' -> is_word h' -> 0 < w -> 0 < h -> (w', h') <> (w, h) ->
    Forall (fun q => cpayload (fst q) (snd q)) props ->
    has f p (word w' ++ word h' ++ text name ++ records props ++ record 0 0 [] ++ pointer vmode hp) -> bad_mask f vmode w h p
| bm_property w' h' name props typ n l : is_word w' -> is_word h' -> is_word n ->
    Forall (fun q => cpayload (fst q) (snd q)) props -> bad_channel_property typ n l ->
    has f p (word w' ++ word h' ++ text name ++ records props ++ record typ n l) -> bad_mask f vmode w h p
| bm_pixels w' h' name props hp : is_word w' -> is_word h' ->
    Forall (fun q => cpayload (fst q) (snd q)) props -> 0 <= hp < 9223372036854775808 ->
    has f p (word w' ++ word h' ++ text name ++ records props ++ record 0 0 [] ++ pointer vmode hp) ->
    ~ pixels_ok f vmode hp w' h' 2 -> bad_mask f vmode w h p.

(** A malformed layer at p of an image of base type [base]: of another type, with a bad
    property, with bad pixel data, with a bad mask.  (Framing: the floating selection
    of a file with eight-byte pointers is left out, see C65.) *)
Definition good_props (vmode : Z) (props : list (Z * list Z)) : Prop :=
  Forall (fun q => lpayload (negb (vmode <? 2)) (fst q) (snd q) /\ (fst q = 5 -> vmode < 2)) props.
Inductive bad_layer (f : list Z) (vmode base p : Z) : Prop :=
| bl_type w h typ : is_word w -> is_word h -> is_word typ -> typ / 2 <> base ->
    has f p (word w ++ word h ++ word typ) -> bad_layer f vmode base p
| bl_property w h typ name props t n l : is_word w -> is_word h -> is_word typ -> is_word n -> utf8 name ->
    good_props vmode props -> bad_layer_property t n l ->
    has f p (word w ++ word h ++ word typ ++ text name ++ records props ++ record t n l) -> bad_layer f vmode base p
| bl_pixels w h typ name props hp mp : is_word w -> is_word h -> is_word typ -> utf8 name ->
    good_props vmode props -> ~ In 29 (map fst props) -> 0 <= hp < 9223372036854775808 -> 
    has f p (word w ++ word h ++ word typ ++ text name ++ records props ++ record 0 0 [] ++ pointer vmode hp ++ pointer vmode mp) ->
    ~ pixels_ok f vmode hp w h typ -> bad_layer f vmode base p
| bl_mask w h typ name props hp mp : is_word w -> is_word h -> is_word typ -> typ <= 5 -> utf8 name ->
    good_props vmode props -> 0 < mp < 9223372036854775808 -> 0 <= hp < 9223372036854775808 -> 
    has f p (word w ++ word h ++ word typ ++ text name ++ records props ++ record 0 0 [] ++ pointer vmode hp ++ pointer vmode mp) ->
    bad_mask f vmode w h mp -> bad_layer f vmode base p.
