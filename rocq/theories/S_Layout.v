(** Layout of an XCF file of version 3 with run-length coded tiles, from the format's
    description: every pointer is the offset of what it points to.  Independent of the
    encoder, which leaves gaps and fills the pointers in later. *)
From Coq Require Import Permutation.
Require Import Verif.Base Verif.S_File Verif.S_Rle Verif.S_Compressed.

(** a value stored in a word *)
Definition w32 (z : Z) : list Z := word (z mod 4294967296).
Definition string32 (l : list Z) : list Z := w32 (zlen l + 1) ++ l ++ [0].
Definition prop32 (typ : Z) (payload : list Z) : list Z := w32 typ ++ w32 (zlen payload) ++ payload.

(** blocks whose bytes depend on their own offset, one after the other from p on;
    and their offsets *)
Definition block : Type := Z -> list Z.
Fixpoint blocks (p : Z) (bs : list block) : list Z :=
  match bs with [] => [] | b :: bs => b p ++ blocks (p + zlen (b p)) bs end.
Fixpoint offsets (p : Z) (bs : list block) : list Z :=
  match bs with [] => [] | b :: bs => p :: offsets (p + zlen (b p)) bs end.

(** Pixel data: one level of 64x64 tiles; for each tile and channel the coded bytes *)
Record grid := mkGrid { gdW : Z; gdH : Z; gdChannels : Z; gdTiles : list (list (list Z)) }.
Definition tile_block (chs : list (list Z)) : block := fun _ => concat chs.
Definition grid_bytes (g : grid) : block := fun p =>
  let tiles := map tile_block (gdTiles g) in
  let q := p + 32 + 4 * zlen tiles in
  w32 (gdW g) ++ w32 (gdH g) ++ w32 (gdChannels g) ++
  w32 (p + 20) ++ w32 0 ++                              (* the level, end of levels *)
  w32 (gdW g) ++ w32 (gdH g) ++
  flat_map w32 (offsets q tiles) ++ w32 0 ++            (* the tiles, end of tiles *)
  blocks q tiles.
(** A mask: dimensions, empty name, no properties, pixel data *)
Definition mask_bytes (g : grid) : block := fun p =>
  w32 (gdW g) ++ w32 (gdH g) ++ string32 [] ++ prop32 0 [] ++ w32 (p + 25) ++ grid_bytes g (p + 25).

(** A layer *)
Record flayer := mkFL {
  flW : Z; flH : Z; flType : Z; flName : list Z; flOpacity : Z; flVisible : Z; flX : Z; flY : Z;
  flPath : list Z;                 (* written if it has more than one element *)
  flText : option (list Z); flGroup : bool; flMode : Z; flImage : grid; flMask : option grid }.
(** "gimp-text-layer" *)
Definition text_layer : list Z := [103; 105; 109; 112; 45; 116; 101; 120; 116; 45; 108; 97; 121; 101; 114].
Definition layer_head (l : flayer) : list Z :=
  w32 (flW l) ++ w32 (flH l) ++ w32 (flType l) ++ string32 (flName l) ++
  prop32 6 (w32 (flOpacity l)) ++ prop32 8 (w32 (flVisible l)) ++ prop32 15 (w32 (flX l) ++ w32 (flY l)) ++
  (if 1 <? zlen (flPath l) then prop32 30 (flat_map w32 (flPath l)) else []) ++
  match flText l with
  | Some data => prop32 26 (w32 1) ++ prop32 21 (string32 text_layer ++ w32 0 ++ w32 (zlen data) ++ data)
  | None => []
  end ++
  (if flGroup l then prop32 29 [] else []) ++
  prop32 7 (w32 (flMode l)) ++ prop32 0 [].
Definition layer_bytes (l : flayer) : block := fun p =>
  let hp := p + zlen (layer_head l) + 8 in
  let mp := hp + zlen (grid_bytes (flImage l) hp) in
  layer_head l ++ w32 hp ++ w32 (match flMask l with Some _ => mp | None => 0 end) ++
  grid_bytes (flImage l) hp ++ match flMask l with Some m => mask_bytes m mp | None => [] end.

(** The file: dimensions, base type, palette *)
Record fhead := mkFH { fhW : Z; fhH : Z; fhBase : Z; fhPalette : option (list (Z * Z * Z)) }.
Definition magic : list Z := [103; 105; 109; 112; 32; 120; 99; 102; 32; 118; 48; 48; 51; 0].  (* "gimp xcf v003" *)
Definition file_head (h : fhead) : list Z :=
  magic ++ w32 (fhW h) ++ w32 (fhH h) ++ w32 (fhBase h) ++
  match fhPalette h with
  | Some p => prop32 1 (w32 (zlen p) ++ flat_map (fun c => let '(r, g, b) := c in [r; g; b]) p)
  | None => []
  end ++ prop32 17 [1] ++ prop32 0 [].
Definition file_bytes (h : fhead) (ls : list flayer) : list Z :=
  let bs := map layer_bytes ls in
  let q := zlen (file_head h) + 4 * zlen bs + 8 in
  file_head h ++ flat_map w32 (offsets q bs) ++ w32 0 ++ w32 0 ++    (* layers; no channels *)
  blocks q bs.
