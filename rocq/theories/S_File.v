(** The XCF format's image properties, from the format's description: what a property
    record of each type looks like.  Independent of the decoder. *)
Require Import Verif.Base Verif.S_String.

(** a big-endian word *)
Definition word (z : Z) : list Z := [z / 16777216; z / 65536 mod 256; z / 256 mod 256; z mod 256].
Definition is_word (z : Z) : Prop := 0 <= z < 4294967296.
Definition text (l : list Z) : list Z := word (zlen l + 1) ++ l ++ [0].
(** a string that may be absent *)
Definition otext (o : option (list Z)) : list Z := match o with Some l => text l | None => word 0 end.
(** a property: type, length of the payload, payload *)
Definition property (typ : Z) (payload : list Z) : list Z := word typ ++ word (zlen payload) ++ payload.

(** one parasite: name, flags, length of the data, data *)
Definition par_rec : Type := (list Z * Z * list Z)%type.
Definition parasite_bytes (r : par_rec) : list Z :=
  let '(name, flags, data) := r in text name ++ word flags ++ word (zlen data) ++ data.
Definition par_ok (r : par_rec) : Prop := let '(name, flags, _) := r in utf8 name /\ is_word flags.
(** one old-style path: name, linked, state (a byte), closed, number of points, version,
    for versions 2 and 3 one or two more words, 12 bytes for each point *)
Record path := mkPath { paName : option (list Z); paLinked : Z; paState : Z; paClosed : Z; paVersion : Z; paExtra : list Z; paPoints : list (Z * Z * Z) }.
Definition path_ok (p : path) : Prop :=
  is_word (paLinked p) /\ is_word (paClosed p) /\
  (paVersion p = 1 /\ zlen (paExtra p) = 0 \/ paVersion p = 2 /\ zlen (paExtra p) = 1 \/ paVersion p = 3 /\ zlen (paExtra p) = 2).
Definition path_bytes (p : path) : list Z :=
  otext (paName p) ++ word (paLinked p) ++ [paState p] ++ word (paClosed p) ++ word (zlen (paPoints p)) ++
  word (paVersion p) ++ flat_map word (paExtra p) ++ flat_map (fun q => let '(t, x, y) := q in word t ++ word x ++ word y) (paPoints p).

(** a stroke of a path: type 1 (Bezier), closed, the number of floats of a point, the
    number of points; each point has a type (a word) and its floats *)
Record stroke := mkStroke { skClosed : Z; skFloats : Z; skPoints : list (Z * list Z) }.
Definition stroke_ok (k : stroke) : Prop :=
  2 <= skFloats k <= 6 /\ Forall (fun p => zlen (snd p) = skFloats k) (skPoints k).
Definition stroke_bytes (k : stroke) : list Z :=
  word 1 ++ word (skClosed k) ++ word (skFloats k) ++ word (zlen (skPoints k)) ++
  flat_map (fun p => word (fst p) ++ flat_map word (snd p)) (skPoints k).
(** a path: name, tattoo, visible, linked, the numbers of parasites and strokes, and these *)
Record vpath := mkVPath { vpName : option (list Z); vpTattoo : Z; vpVisible : Z; vpLinked : Z; vpParasites : list par_rec; vpStrokes : list stroke }.
Definition vpath_bytes (v : vpath) : list Z :=
  otext (vpName v) ++ word (vpTattoo v) ++ word (vpVisible v) ++ word (vpLinked v) ++
  word (zlen (vpParasites v)) ++ word (zlen (vpStrokes v)) ++
  flat_map parasite_bytes (vpParasites v) ++ flat_map stroke_bytes (vpStrokes v).
Definition vectors_bytes (a : Z) (vs : list vpath) : list Z :=
  word 1 ++ word a ++ word (zlen vs) ++ flat_map vpath_bytes vs.
Definition vpath_ok (v : vpath) : Prop := Forall stroke_ok (vpStrokes v).
Definition pointless (v : vpath) : Prop := Forall (fun k => skPoints k = []) (vpStrokes v).

(** the payloads the format allows for the image property [typ] *)
Inductive payload (base : Z) : Z -> list Z -> Prop :=
| pl_bool typ (b : bool) : In typ [8; 9; 28] -> payload base typ (word (if b then 1 else 0))
| pl_opacity o : 0 <= o <= 255 -> payload base 6 (word o)
| pl_tattoo z : is_word z -> payload base 20 (word z)
| pl_compression c : c = 0 \/ c = 1 -> payload base 17 [c]
| pl_resolution x y : payload base 19 (word x ++ word y)
| pl_unit u : 0 <= u <= 4 -> payload base 22 (word u)
| pl_colours l : payload base 1 (word (zlen l) ++ flat_map (fun c => let '(r, g, b) := c in [r; g; b]) l)
| pl_user_unit f d n1 n2 n3 n4 n5 : payload base 24 (word f ++ word d ++ otext n1 ++ otext n2 ++ otext n3 ++ otext n4 ++ otext n5)
| pl_parasites ps : Forall par_ok ps -> payload base 21 (flat_map parasite_bytes ps)
| pl_paths a ps : Forall path_ok ps -> payload base 23 (word a ++ word (zlen ps) ++ flat_map path_bytes ps)
| pl_vectors a vs : Forall vpath_ok vs -> payload base 25 (vectors_bytes a vs)
| pl_guides gs : payload base 18 (flat_map (fun g => let '(pos, dir) := g in word pos ++ [dir]) gs)
| pl_samples ps : payload base 39 (flat_map (fun q => let '(x, y) := q in word x ++ word y) ps)
| pl_other typ l : is_word typ -> ~ In typ [0; 1; 6; 8; 9; 17; 18; 19; 20; 21; 22; 23; 24; 25; 28; 39] -> payload base typ l.
