(** The tiles the encoder writes code the pixels it read. *)
From Coq Require Import ZifyBool ZifyNat.
Require Import Verif.Base Verif.L_List Verif.M_Color Verif.M_Composite Verif.M_Rect Verif.M_Image Verif.M_Reader
  Verif.M_Rle Verif.S_Rle Verif.L_Rle Verif.S_Compressed Verif.M_Decode Verif.M_Encode Verif.S_Layout Verif.L_Layout Verif.L_Pix.

(** [coded] of S_Compressed, for streams without trailing empty packets *)
Definition tcoded (w h nch : Z) (tiles : list (list (list Z))) (px : Z -> Z -> Z -> Z) : Prop :=
  forall i j, 0 <= i < tiles_across w -> 0 <= j < tiles_across h ->
  exists chs, znth tiles (j * tiles_across w + i) = Some chs /\ zlen chs = nch /\
  forall k, 0 <= k < nch ->
  exists data x, znth chs k = Some data /\ tight data x /\
    zlen x = tile_side w i * tile_side h j /\
    forall u v, 0 <= u < tile_side w i -> 0 <= v < tile_side h j ->
      znth x (v * tile_side w i + u) = Some (px k (64 * i + u) (64 * j + v)).
Lemma tcoded_coded w h nch tiles px : tcoded w h nch tiles px -> coded w h nch tiles px.
Proof.
  intros H i j Hi Hj. destruct (H i j Hi Hj) as (chs & A & L & K). exists chs. split; [exact A|]. split; [exact L|].
  intros k Hk. destruct (K k Hk) as (data & x & D & T & Lx & P). exists data, x. repeat split; auto. now apply tight_expands.
Qed.
Lemma tight_app e1 x1 e2 x2 : tight e1 x1 -> tight e2 x2 -> (x2 = [] -> e2 = []) -> tight (e1 ++ e2) (x1 ++ x2).
Proof.
  intros H1 H2 N. pose proof (zlen_pos x2). induction H1 as [|m d e x Hm He IH|h l d e x Hh Hl He IH Hpos|h l ds e x Hh Hl Hd He IH Hpos|m ds e x Hm Hd He IH]; cbn [app].
  - exact H2.
  - rewrite <- app_assoc. constructor; auto.
  - rewrite <- app_assoc. constructor; auto. rewrite zlen_app. lia.
  - rewrite <- !app_assoc. constructor; auto. rewrite zlen_app. lia.
  - rewrite <- !app_assoc. constructor; auto.
Qed.
Lemma tight_app' e1 x1 e2 x2 : tight e1 x1 -> tight e2 x2 -> tight (e1 ++ e2) (x1 ++ x2).
Proof. intros H1 H2. apply tight_app; auto. intros ->. now apply tight_nil in H2. Qed.

Lemma znth_map {A B} (f : A -> B) l i : znth (map f l) i = option_map f (znth l i).
Proof. unfold znth. destruct (i <? 0); [reflexivity|]. apply nth_error_map. Qed.
Lemma znth_zseq n i : 0 <= i < n -> znth (zseq n) i = Some i.
Proof.
  intros H. unfold zseq. rewrite znth_map. unfold znth. replace (i <? 0) with false by lia.
  rewrite (nth_error_nth' _ 0%nat) by (rewrite seq_length; lia). rewrite seq_nth by lia. cbn [option_map]. f_equal. lia.
Qed.
Lemma znth_grid {A B C} (g : A -> B -> C) ys xs j i y x : znth ys j = Some y -> znth xs i = Some x ->
  znth (flat_map (fun y => map (g y) xs) ys) (j * zlen xs + i) = Some (g y x).
Proof.
  revert j. induction ys as [|y0 ys IH]; intros j Hy Hx.
  - apply znth_range in Hy. change (zlen (@nil A)) with 0 in Hy. lia.
  - pose proof (znth_range _ _ _ Hx). pose proof (znth_range _ _ _ Hy). cbn [flat_map].
    destruct (Z.eq_dec j 0) as [->|NE].
    + rewrite znth_app1 by (rewrite zlen_map; lia). replace (0 * zlen xs + i) with i by lia. rewrite znth_map, Hx.
      change (znth (y0 :: ys) 0) with (Some y0) in Hy. now injection Hy as ->.
    + rewrite znth_app2 by (rewrite zlen_map; nia). rewrite zlen_map. replace (j * zlen xs + i - zlen xs) with ((j - 1) * zlen xs + i) by lia.
      apply IH; auto. rewrite <- Hy. change (y0 :: ys) with ([y0] ++ ys). rewrite (znth_app2 [y0]) by (change (zlen [y0]) with 1; lia).
      reflexivity.
Qed.

Lemma reads_nth so f ps n px n' : reads so f ps n px n' -> zlen px = zlen ps /\
  forall i p, znth ps i = Some p -> exists c m m', soAt so (fst p) (snd p) m = Some (c, m') /\ znth px i = Some (colour_bytes f c).
Proof.
  induction 1 as [n|p ps n c n1 px n2 A R [L IH]].
  - split; [reflexivity|]. intros i p E. apply znth_range in E. change (zlen (@nil (Z * Z))) with 0 in E. lia.
  - split; [now rewrite !zlen_cons, L|]. intros i q E. pose proof (znth_range _ _ _ E) as HR. rewrite zlen_cons in HR.
    destruct (Z.eq_dec i 0) as [->|NE].
    + change (Some p = Some q) in E. injection E as <-. exists c, n, n1. auto.
    + destruct (IH (i - 1) q) as (c' & m & m' & A' & N).
      { rewrite <- E. change (p :: ps) with ([p] ++ ps). rewrite (znth_app2 [p]) by (change (zlen [p]) with 1; lia). reflexivity. }
      exists c', m, m'. split; [exact A'|]. rewrite <- N. change (colour_bytes f c :: px) with ([colour_bytes f c] ++ px).
      rewrite (znth_app2 [colour_bytes f c]) by (change (zlen [colour_bytes f c]) with 1; lia). reflexivity.
Qed.
Lemma reads_tiles_nth so f l n pxs n' : reads_tiles so f l n pxs n' ->
  forall i xy, znth l i = Some xy -> exists px m m', znth pxs i = Some px /\ reads so f (tile_points (soBounds so) (fst xy) (snd xy)) m px m'.
Proof.
  induction 1 as [n|xy l n px n1 pxs n2 R RT IH]; intros i q E.
  - apply znth_range in E. change (zlen (@nil (Z * Z))) with 0 in E. lia.
  - pose proof (znth_range _ _ _ E) as HR. rewrite zlen_cons in HR. destruct (Z.eq_dec i 0) as [->|NE].
    + change (Some xy = Some q) in E. injection E as <-. exists px, n, n1. auto.
    + destruct (IH (i - 1) q) as (px' & m & m' & N & R').
      { rewrite <- E. change (xy :: l) with ([xy] ++ l). rewrite (znth_app2 [xy]) by (change (zlen [xy]) with 1; lia). reflexivity. }
      exists px', m, m'. split; [|exact R']. rewrite <- N. change (px :: pxs) with ([px] ++ pxs).
      rewrite (znth_app2 [px]) by (change (zlen [px]) with 1; lia). reflexivity.
Qed.

(** the pixel of the tiles *)
Definition zget {A} (d : A) (l : list A) (i : Z) : A := match znth l i with Some a => a | None => d end.
Definition tiles_px (w h : Z) (pxs : list (list (list Z))) (k x y : Z) : Z :=
  bget (zget [] (zget [] pxs (y / 64 * tiles_across w + x / 64)) (y mod 64 * tile_side w (x / 64) + x mod 64)) k.
Lemma zlen_span lo hi : lo <= hi -> zlen (span lo hi) = hi - lo.
Proof. intros. unfold span. rewrite zlen_map, zlen_zseq; lia. Qed.
Lemma znth_span lo hi i : 0 <= i < hi - lo -> znth (span lo hi) i = Some (lo + i).
Proof. intros. unfold span. rewrite znth_map, znth_zseq by lia. reflexivity. Qed.
Lemma znth_starts lo hi i : 0 <= i < tiles_across (hi - lo) -> znth (starts lo hi) i = Some (lo + 64 * i).
Proof. intros. unfold starts. rewrite znth_map, znth_zseq by exact H. reflexivity. Qed.
Lemma tiles_in w i : 0 <= i < tiles_across w -> 64 * i < w /\ 0 < tile_side w i <= 64.
Proof. unfold tiles_across, tile_side. intros H. pose proof (Z.mul_div_le (w + 63) 64 ltac:(lia)). lia. Qed.
Lemma tile_coord w i u : 0 <= i -> 0 <= u < tile_side w i -> (64 * i + u) / 64 = i /\ (64 * i + u) mod 64 = u.
Proof.
  unfold tile_side. intros Hi Hu. split.
  - symmetry. apply (Z.div_unique _ _ _ u); lia.
  - symmetry. apply (Z.mod_unique _ _ i u); lia.
Qed.
Lemma coord_tile w x : 0 <= x < w -> 0 <= x / 64 < tiles_across w /\ 0 <= x mod 64 < tile_side w (x / 64) /\ x = 64 * (x / 64) + x mod 64.
Proof.
  intros H. unfold tiles_across, tile_side. pose proof (Z.div_mod x 64 ltac:(lia)). pose proof (Z.mod_pos_bound x 64 ltac:(lia)).
  split; [split; [apply Z.div_pos; lia|]|split; lia]. apply Z.lt_le_trans with ((x + 64) / 64).
  - replace (x + 64) with (x + 1 * 64) by lia. rewrite Z.div_add by lia. lia.
  - apply Z.div_le_mono; lia.
Qed.

Lemma channel_px pxl : forall f so ps n n' k, reads so f ps n pxl n' ->
  zlen (channel_of pxl k) = zlen ps /\ forall i, 0 <= i < zlen ps -> znth (channel_of pxl k) i = Some (bget (zget [] pxl i) k).
Proof.
  intros f so ps n n' k R. destruct (reads_nth _ _ _ _ _ _ R) as [L H]. unfold channel_of. rewrite zlen_map, L. split; [reflexivity|].
  intros i Hi. rewrite znth_map. unfold zget. destruct (znth_some pxl i) as [a Ea]; [lia|]. now rewrite Ea.
Qed.

Theorem grid_coded so f n pxs n' : let b := soBounds so in minX b <= maxX b -> minY b <= maxY b ->
  reads_tiles so f (tile_starts b) n pxs n' ->
  let px := tiles_px (dx b) (dy b) pxs in
  tcoded (dx b) (dy b) (channels f) (map (tile_of f) pxs) px /\
  forall x y, 0 <= x < dx b -> 0 <= y < dy b -> exists c m m',
    soAt so (minX b + x) (minY b + y) m = Some (c, m') /\
    forall k, px k x y = bget (colour_bytes f c) k.
Proof.
  intros b X Y RT px.
  assert (T : forall i j, 0 <= i < tiles_across (dx b) -> 0 <= j < tiles_across (dy b) ->
    exists pxl m m', znth pxs (j * tiles_across (dx b) + i) = Some pxl /\
      reads so f (tile_points b (minX b + 64 * i) (minY b + 64 * j)) m pxl m').
  { intros i j Hi Hj.
    assert (E : znth (tile_starts b) (j * tiles_across (dx b) + i) = Some (minX b + 64 * i, minY b + 64 * j)).
    { unfold tile_starts. replace (tiles_across (dx b)) with (zlen (starts (minX b) (maxX b))) by (now rewrite zlen_starts).
      apply (znth_grid (fun y x => (x, y))); now apply znth_starts. }
    destruct (reads_tiles_nth _ _ _ _ _ _ RT _ _ E) as (pxl & m & m' & N & R). exists pxl, m, m'. auto. }
  assert (SP : forall i j, 0 <= i < tiles_across (dx b) -> 0 <= j < tiles_across (dy b) ->
    let pts := tile_points b (minX b + 64 * i) (minY b + 64 * j) in
    zlen pts = tile_side (dx b) i * tile_side (dy b) j /\
    forall u v, 0 <= u < tile_side (dx b) i -> 0 <= v < tile_side (dy b) j ->
      znth pts (v * tile_side (dx b) i + u) = Some (minX b + 64 * i + u, minY b + 64 * j + v)).
  { intros i j Hi Hj pts. unfold pts, tile_points. destruct (tiles_in _ _ Hi) as [I1 I2]. destruct (tiles_in _ _ Hj) as [J1 J2].
    assert (SX : zlen (span (minX b + 64 * i) (Z.min (minX b + 64 * i + 64) (maxX b))) = tile_side (dx b) i).
    { rewrite zlen_span; unfold tile_side, dx in *; lia. }
    assert (SY : zlen (span (minY b + 64 * j) (Z.min (minY b + 64 * j + 64) (maxY b))) = tile_side (dy b) j).
    { rewrite zlen_span; unfold tile_side, dy in *; lia. }
    split.
    - rewrite (zlen_grid (fun j i => (i, j))), SX, SY. lia.
    - intros u v Hu Hv. rewrite <- SX at 1. apply (znth_grid (fun j i => (i, j))); apply znth_span; unfold tile_side, dx, dy in *; lia. }
  split.
  - intros i j Hi Hj. destruct (T i j Hi Hj) as (pxl & m & m' & N & R). destruct (SP i j Hi Hj) as [LP NP].
    exists (tile_of f pxl). rewrite znth_map, N. split; [reflexivity|].
    assert (CH : 0 <= channels f) by (destruct f; cbn; lia).
    unfold tile_of. rewrite zlen_map, zlen_zseq by exact CH. split; [reflexivity|]. intros k Hk.
    rewrite znth_map, znth_zseq by exact Hk. cbn [option_map].
    destruct (channel_px pxl f so _ _ _ k R) as [LC NC].
    exists (concat (writeRLE (channel_of pxl k))), (channel_of pxl k). split; [reflexivity|].
    destruct (tiles_in _ _ Hi) as [I1 I2]. destruct (tiles_in _ _ Hj) as [J1 J2].
    split; [apply writeRLE_tight; rewrite LC, LP; nia|]. split; [now rewrite LC|].
    intros u v Hu Hv. assert (0 <= v * tile_side (dx b) i + u < tile_side (dx b) i * tile_side (dy b) j) by nia.
    rewrite NC by (auto; lia). f_equal. unfold px, tiles_px.
    destruct (tile_coord (dx b) i u ltac:(lia) Hu) as [-> ->]. destruct (tile_coord (dy b) j v ltac:(lia) Hv) as [-> ->].
    do 2 f_equal. unfold zget. now rewrite N.
  - intros x y Hx Hy. destruct (coord_tile _ _ Hx) as (Hi & Hu & Ex). destruct (coord_tile _ _ Hy) as (Hj & Hv & Ey).
    destruct (T _ _ Hi Hj) as (pxl & m & m' & N & R). destruct (SP _ _ Hi Hj) as [LP NP].
    destruct (reads_nth _ _ _ _ _ _ R) as [_ RN]. destruct (RN _ _ (NP _ _ Hu Hv)) as (c & q & q' & A & NC).
    exists c, q, q'. cbn [fst snd] in A. split.
    + replace (minX b + x) with (minX b + 64 * (x / 64) + x mod 64) by lia.
      replace (minY b + y) with (minY b + 64 * (y / 64) + y mod 64) by lia. exact A.
    + intros k. unfold px, tiles_px, zget. now rewrite N, NC.
Qed.
