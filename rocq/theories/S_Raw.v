(** Pixel data without compression: a tile is its pixels one after the other, row by row, each
    pixel being its bytes ([interleaved]), as GIMP writes it.  [planar] is the order of the
    compressed tiles: all the first bytes, then all the second ones. *)
Require Import Verif.Base Verif.S_Compressed Verif.S_Layout.

(** [at_tile pos w h nch tiles px]: byte k of the pixel (u,v) of a tile that is a wide and b
    high is at [pos a b k u v] *)
Definition at_tile (pos : Z -> Z -> Z -> Z -> Z -> Z) (w h nch : Z) (tiles : list (list Z)) (px : Z -> Z -> Z -> Z) : Prop :=
  forall i j, 0 <= i < tiles_across w -> 0 <= j < tiles_across h ->
  exists t, znth tiles (j * tiles_across w + i) = Some t /\ zlen t = tile_side w i * tile_side h j * nch /\
    forall k u v, 0 <= k < nch -> 0 <= u < tile_side w i -> 0 <= v < tile_side h j ->
      znth t (pos (tile_side w i) (tile_side h j) k u v) = Some (px k (64 * i + u) (64 * j + v)).
Definition interleaved (w h nch : Z) := at_tile (fun a b k u v => (v * a + u) * nch + k) w h nch.
Definition planar (w h nch : Z) := at_tile (fun a b k u v => a * b * k + (v * a + u)) w h nch.
(** the block of pixel data in the file *)
Definition raw_grid (w h nch : Z) (tiles : list (list Z)) : grid := mkGrid w h nch (map (fun t => [t]) tiles).

(** the picture that one sees reading interleaved bytes as if they were planar *)
Definition shuffled (w h nch : Z) (px : Z -> Z -> Z -> Z) (k x y : Z) : Z :=
  let i := x / 64 in let j := y / 64 in
  let a := tile_side w i in let b := tile_side h j in
  let m := a * b * k + (y mod 64 * a + x mod 64) in
  px (m mod nch) (64 * i + m / nch mod a) (64 * j + m / nch / a).
