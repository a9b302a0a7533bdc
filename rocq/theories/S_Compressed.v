(** Specification of tiled, run-length coded pixel data, independent of the code.
    An image of size w x h is cut into 64x64 tiles (smaller at the right and
    bottom edge), numbered row by row; a tile holds, per channel, its bytes row by
    row, run-length coded. *)
Require Import Verif.Base Verif.M_Color Verif.S_Rle.

Definition tiles_across (w : Z) : Z := (w + 63) / 64.
(** width (height) of the i-th column (row) of tiles *)
Definition tile_side (w i : Z) : Z := Z.min 64 (w - 64 * i).

(** [coded w h nch tiles px]: [tiles] is such a coding of the image whose byte in
    channel k at (x,y) is [px k x y] *)
Definition coded (w h nch : Z) (tiles : list (list (list Z))) (px : Z -> Z -> Z -> Z) : Prop :=
  forall i j, 0 <= i < tiles_across w -> 0 <= j < tiles_across h ->
  exists chs, znth tiles (j * tiles_across w + i) = Some chs /\ zlen chs = nch /\
  forall k, 0 <= k < nch ->
  exists data x, znth chs k = Some data /\ expands data x /\
    zlen x = tile_side w i * tile_side h j /\
    forall u v, 0 <= u < tile_side w i -> 0 <= v < tile_side h j ->
      znth x (v * tile_side w i + u) = Some (px k (64 * i + u) (64 * j + v)).

(** number of channels of the XCF image types: RGB, RGB+alpha, gray, gray+alpha,
    indexed, indexed+alpha *)
Definition type_channels (mode : Z) : Z :=
  match mode with 0 => 3 | 1 => 4 | 2 => 1 | 3 => 2 | 4 => 1 | _ => 2 end.

(** the colour of a pixel with channel bytes [b]; [None]: palette index out of range *)
Definition type_color (mode : Z) (pal : list color) (b : Z -> Z) : option color :=
  match mode with
  | 0 => Some (CRGB (b 0) (b 1) (b 2))
  | 1 => Some (CNRGBA (b 0) (b 1) (b 2) (b 3))
  | 2 => Some (CGray (b 0))
  | 3 => Some (CGrayAlpha (b 0) (b 1))
  | _ => match znth pal (b 0) with
         | None => None
         | Some e =>
             let p := color_RGBA e in
             Some (CNRGBA (pR p / 256 mod 256) (pG p / 256 mod 256) (pB p / 256 mod 256)
                          (if mode =? 4 then 255 else b 1))
         end
  end.
