(** Vocabulary for statements about files. *)
Require Import Verif.Base Verif.M_Reader Verif.M_Rle Verif.M_Decode.

(** the four bytes from offset p on, as a big-endian number, are v *)
Definition word_at (f : list Z) (p v : Z) : Prop :=
  exists pre a b c d post, f = pre ++ [a; b; c; d] ++ post /\ zlen pre = p /\
    v = 16777216 * a + 65536 * b + 256 * c + d.

(** the eight bytes from offset p on are v; the bytes from offset p on are w *)
Definition long_at (f : list Z) (p v : Z) : Prop :=
  exists hi lo, word_at f p hi /\ word_at f (p + 4) lo /\ v = 4294967296 * hi + lo.
Definition bytes_at (f : list Z) (p : Z) (w : list Z) : Prop := exists pre post, f = pre ++ w ++ post /\ zlen pre = p.

(** The file has pixels of the size w x h in it: at some place the width, the
    height, the bytes per pixel and a pointer (of 32 or 64 bits), and where that
    pointer leads the same width and height again.  (A pointer above 2^63 leads
    nowhere: the reader stays behind it.) *)
Definition pixels_of (f : list Z) (w h : Z) : Prop :=
  exists p n q l, word_at f p w /\ word_at f (p + 4) h /\ word_at f (p + 8) n /\
    (word_at f (p + 12) q \/ long_at f (p + 12) q) /\
    (l = q \/ 9223372036854775808 <= q /\ l = p + 20) /\
    word_at f l w /\ word_at f (l + 4) h.
(** pixels of width 0 and a height above 2^32 - 64 *)
Definition endless (f : list Z) : Prop := exists h, pixels_of f 0 h /\ 4294967232 < h.
(** more than 2^46 pixels *)
Definition huge (f : list Z) : Prop := exists w h, pixels_of f w h /\ 70368744177664 < w * h.
(** pixels of a width or height above 2^32 - 64 *)
Definition wrapping (f : list Z) : Prop := exists w h, pixels_of f w h /\ (4294967232 < w \/ 4294967232 < h).
(** a base type (bytes 22 to 25) other than RGB, grey and indexed *)
Definition base_unknown (f : list Z) : Prop := exists b, word_at f 22 b /\ 3 <= b.
(** [t] is the data of a text parasite: the string "gimp-text-layer", flags, the
    length of [t] and the bytes of [t].  Of the file's first [lim] bytes, that is:
    where they end too early zeros follow, and the length may be missing too. *)
Definition text_within (lim : Z) (f t : list Z) : Prop :=
  exists p, word_at f p 16 /\ 
    bytes_at f (p + 4) [103; 105; 109; 112; 45; 116; 101; 120; 116; 45; 108; 97; 121; 101; 114; 0] /\
    (t = [] \/ word_at f (p + 24) (zlen t) /\ exists w k, bytes_at f (p + 28) w /\ t = w ++ repeat 0 k /\
       (k = 0%nat \/ p + 28 + zlen w = lim)).
(** the reader gets the first 16 MiB of the file *)
Definition text_data (f t : list Z) : Prop := text_within (Z.min (zlen f) 16777216) f t.
(** what must be in the file for each kind of panic *)
Definition excuse (f : list Z) (ptext : list Z -> tres) (decompress : bool) (w : why) : Prop :=
  match w with
  | PMake => huge f
  | PTiles => wrapping f
  | PNil => base_unknown f
  | PText => exists t, text_data f t /\ ptext t = TPanic
  | PAssert => decompress = false
  | PSlice | PIndex => False
  end.

