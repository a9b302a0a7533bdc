(** The decoder on pixel data laid out as in S_Layout. *)
From Coq Require Import ZifyBool ZifyNat.
Require Import Verif.Base Verif.L_List Verif.M_Color Verif.M_Composite Verif.M_Rect Verif.M_Image Verif.M_Reader Verif.L_Reader
  Verif.M_Rle Verif.S_Rle Verif.L_Rle Verif.L_Rle3 Verif.S_Compressed Verif.M_Compressed Verif.L_Compressed Verif.M_Groups Verif.M_Monad Verif.M_Decode Verif.M_Encode
  Verif.L_Encode Verif.S_String Verif.S_File Verif.S_Layout Verif.L_Pix Verif.L_Layout Verif.L_Grid Verif.L_Run.

(** ** one tile *)
Lemma zseq_S n : 0 <= n -> zseq (n + 1) = zseq n ++ [n].
Proof.
  intros H. unfold zseq. replace (Z.to_nat (n + 1)) with (S (Z.to_nat n)) by lia. rewrite seq_S, map_app. cbn [map].
  do 2 f_equal. lia.
Qed.
Lemma zseq_0 n : n <= 0 -> zseq n = []. Proof. intros. unfold zseq. now replace (Z.to_nat n) with 0%nat by lia. Qed.
Lemma znat_ind (P : Z -> Prop) : P 0 -> (forall n, 0 <= n -> P n -> P (n + 1)) -> forall n, 0 <= n -> P n.
Proof. intros H0 HS n Hn. apply natlike_ind; auto. Qed.
Definition tp_row bpp (buf : list Z) (n x y j : Z) (s1 : (Z -> Z -> list Z) * Z) (w : Z) :=
  fold_left (fun s2 i => let '(px, l) := s2 in
      (put_pixel px (x + i) (y + j) (map (fun k => bget buf (n * k + l)) (zseq bpp)), l + 1)) (zseq w) s1.
Lemma tp_row_ok bpp buf n x y j px l w : 0 <= w ->
  exists px', tp_row bpp buf n x y j (px, l) w = (px', l + w) /\
  forall x' y', px' x' y' = if (x <=? x') && (x' <? x + w) && (y' =? y + j)
    then map (fun k => bget buf (n * k + (l + (x' - x)))) (zseq bpp) else px x' y'.
Proof.
  revert w. apply (znat_ind (fun w => exists px', tp_row bpp buf n x y j (px, l) w = (px', l + w) /\ forall x' y', px' x' y' = if (x <=? x') && (x' <? x + w) && (y' =? y + j)
    then map (fun k => bget buf (n * k + (l + (x' - x)))) (zseq bpp) else px x' y')); unfold tp_row.
  - rewrite (zseq_0 0) by lia. exists px. cbn [fold_left]. split; [f_equal; lia|]. intros x' y'.
    now replace ((x <=? x') && (x' <? x + 0) && (y' =? y + j)) with false by lia.
  - intros w W (px' & E & H). rewrite (zseq_S w), fold_left_app, E by exact W. cbn [fold_left]. eexists. split; [f_equal; lia|].
    intros x' y'. unfold put_pixel. rewrite H.
    destruct ((x' =? x + w) && (y' =? y + j)) eqn:A.
    + replace ((x <=? x') && (x' <? x + (w + 1)) && (y' =? y + j)) with true by lia.
      apply map_ext. intros k. f_equal. lia.
    + now replace ((x <=? x') && (x' <? x + (w + 1)) && (y' =? y + j)) with ((x <=? x') && (x' <? x + w) && (y' =? y + j)) by lia.
Qed.
Lemma tile_pixels_ok bpp buf x y w h px : 0 <= w -> 0 <= h -> forall x' y',
  tile_pixels bpp buf x y w h px x' y' =
  if (x <=? x') && (x' <? x + w) && (y <=? y') && (y' <? y + h)
  then map (fun k => bget buf (w * h * k + ((y' - y) * w + (x' - x)))) (zseq bpp) else px x' y'.
Proof.
  intros W H. unfold tile_pixels.
  change (fold_left _ (zseq h) (px, 0)) with (fold_left (fun s1 j => tp_row bpp buf (w * h) x y j s1 w) (zseq h) (px, 0)).
  assert (K : forall h', 0 <= h' -> exists px', fold_left (fun s1 j => tp_row bpp buf (w * h) x y j s1 w) (zseq h') (px, 0) = (px', h' * w) /\
    forall x' y', px' x' y' = if (x <=? x') && (x' <? x + w) && (y <=? y') && (y' <? y + h')
    then map (fun k => bget buf (w * h * k + ((y' - y) * w + (x' - x)))) (zseq bpp) else px x' y').
  { apply (znat_ind (fun h' => exists px', fold_left (fun s1 j => tp_row bpp buf (w * h) x y j s1 w) (zseq h') (px, 0) = (px', h' * w) /\ forall x' y', px' x' y' = if (x <=? x') && (x' <? x + w) && (y <=? y') && (y' <? y + h')
      then map (fun k => bget buf (w * h * k + ((y' - y) * w + (x' - x)))) (zseq bpp) else px x' y')).
    - rewrite (zseq_0 0) by lia. exists px. cbn [fold_left]. split; [reflexivity|]. intros x' y'.
      now replace ((x <=? x') && (x' <? x + w) && (y <=? y') && (y' <? y + 0)) with false by lia.
    - intros h' H' (px' & E & P). rewrite (zseq_S h'), fold_left_app, E by exact H'. cbn [fold_left].
      destruct (tp_row_ok bpp buf (w * h) x y h' px' (h' * w) w W) as (px2 & E2 & P2). rewrite E2. exists px2. split; [f_equal; lia|].
      intros x' y'. rewrite P2, P. destruct ((x <=? x') && (x' <? x + w) && (y' =? y + h')) eqn:A.
      + replace ((x <=? x') && (x' <? x + w) && (y <=? y') && (y' <? y + (h' + 1))) with true by lia.
        apply map_ext. intros k. f_equal. assert (y' - y = h') as -> by lia. lia.
      + now replace ((x <=? x') && (x' <? x + w) && (y <=? y') && (y' <? y + (h' + 1))) with ((x <=? x') && (x' <? x + w) && (y <=? y') && (y' <? y + h')) by lia. }
  destruct (K h H) as (px' & E & P). intros x' y'. rewrite E. cbn [fst]. apply P.
Qed.

(** the channels of one tile, coded one after the other *)
Definition tcoded_tile (n : Z) (chs xs : list (list Z)) : Prop := Forall2 (fun e x => tight e x /\ zlen x = n) chs xs.
Lemma tile_tight n chs xs : tcoded_tile n chs xs -> tight (concat chs) (concat xs) /\ zlen (concat xs) = n * zlen chs.
Proof.
  induction 1 as [|e x chs xs [T L] F [IH1 IH2]]; cbn [concat].
  - split; [constructor|]. change (zlen (@nil Z)) with 0. change (zlen (@nil (list Z))) with 0. lia.
  - split; [now apply tight_app'|]. rewrite zlen_app, zlen_cons. lia.
Qed.
Lemma concat_znth n (xs : list (list Z)) : Forall (fun x => zlen x = n) xs -> forall k x l, znth xs k = Some x -> 0 <= l < n ->
  znth (concat xs) (n * k + l) = znth x l.
Proof.
  induction 1 as [|x0 xs L F IH]; intros k x l N Hl.
  - apply znth_range in N. change (zlen (@nil (list Z))) with 0 in N. lia.
  - pose proof (znth_range _ _ _ N) as R. rewrite zlen_cons in R. cbn [concat]. destruct (Z.eq_dec k 0) as [->|NE].
    + injection N as ->. rewrite znth_app1 by lia. f_equal. lia.
    + rewrite znth_app2 by nia. replace (n * k + l - zlen x0) with (n * (k - 1) + l) by lia. apply IH; [|exact Hl].
      rewrite <- N. change (x0 :: xs) with ([x0] ++ xs). rewrite (znth_app2 [x0]) by (change (zlen [x0]) with 1; lia). reflexivity.
Qed.
(** choosing a list of witnesses *)
Lemma choose_list {A B} (P : Z -> A -> B -> Prop) (l : list A) :
  (forall k a, znth l k = Some a -> exists b, P k a b) -> exists m, zlen m = zlen l /\
  forall k a, znth l k = Some a -> exists b, znth m k = Some b /\ P k a b.
Proof.
  revert P. induction l as [|a l IH]; intros P H.
  - exists []. split; [reflexivity|]. intros k a N. apply znth_range in N. change (zlen (@nil A)) with 0 in N. lia.
  - destruct (H 0 a eq_refl) as [b Hb].
    assert (SH : forall {C} (c : C) m k, 0 < k -> znth (c :: m) k = znth m (k - 1)).
    { intros C c m k K. change (c :: m) with ([c] ++ m). rewrite (znth_app2 [c]) by (change (zlen [c]) with 1; lia). reflexivity. }
    destruct (IH (fun k => P (k + 1))) as (m & L & K).
    { intros k x N. apply (H (k + 1)). pose proof (znth_range _ _ _ N). rewrite SH by lia. now replace (k + 1 - 1) with k by lia. }
    exists (b :: m). split; [now rewrite !zlen_cons, L|]. intros k x N. pose proof (znth_range _ _ _ N) as R.
    destruct (Z.eq_dec k 0) as [->|NE].
    + injection N as <-. exists b. auto.
    + rewrite SH in N by lia. destruct (K _ _ N) as (b' & N' & P'). exists b'. rewrite SH by lia. replace (k - 1 + 1) with k in P' by lia. auto.
Qed.
Lemma Forall2_of_znth {A B} (P : A -> B -> Prop) (l : list A) (m : list B) : zlen m = zlen l ->
  (forall k a, znth l k = Some a -> exists b, znth m k = Some b /\ P a b) -> Forall2 P l m.
Proof.
  revert m. induction l as [|a l IH]; intros [|b m] L H; rewrite ?zlen_cons in L; change (zlen (@nil A)) with 0 in L; change (zlen (@nil B)) with 0 in L;
    try (pose proof (zlen_pos l)); try (pose proof (zlen_pos m)); try lia; constructor.
  - destruct (H 0 a eq_refl) as (b' & E & Pb). now injection E as <-.
  - apply IH; [lia|]. intros k x N. pose proof (znth_range _ _ _ N).
    destruct (H (k + 1) x) as (b' & E & Pb).
    { change (a :: l) with ([a] ++ l). rewrite (znth_app2 [a]) by (change (zlen [a]) with 1; lia). change (zlen [a]) with 1. now replace (k + 1 - 1) with k by lia. }
    exists b'. split; [|exact Pb]. rewrite <- E. change (b :: m) with ([b] ++ m). rewrite (znth_app2 [b]) by (change (zlen [b]) with 1; lia). change (zlen [b]) with 1. f_equal. lia.
Qed.
Lemma tcoded_at w h nch tiles px i j : tcoded w h nch tiles px -> 0 <= i < tiles_across w -> 0 <= j < tiles_across h ->
  exists chs xs, znth tiles (j * tiles_across w + i) = Some chs /\ zlen chs = nch /\
    tcoded_tile (tile_side w i * tile_side h j) chs xs /\
    forall k u v, 0 <= k < nch -> 0 <= u < tile_side w i -> 0 <= v < tile_side h j ->
      znth (concat xs) (tile_side w i * tile_side h j * k + (v * tile_side w i + u)) = Some (px k (64 * i + u) (64 * j + v)).
Proof.
  intros T Hi Hj. destruct (T i j Hi Hj) as (chs & N & L & K).
  destruct (choose_list (fun k e x => tight e x /\ zlen x = tile_side w i * tile_side h j /\
     forall u v, 0 <= u < tile_side w i -> 0 <= v < tile_side h j -> znth x (v * tile_side w i + u) = Some (px k (64 * i + u) (64 * j + v))) chs) as (xs & Lx & Kx).
  { intros k e Nk. pose proof (znth_range _ _ _ Nk). destruct (K k ltac:(lia)) as (data & x & D & R). rewrite Nk in D. injection D as <-. now exists x. }
  assert (TT : tcoded_tile (tile_side w i * tile_side h j) chs xs).
  { apply Forall2_of_znth; [exact Lx|]. intros k e Nk. destruct (Kx k e Nk) as (x & A & B & C & _). exists x. auto. }
  exists chs, xs. split; [exact N|]. split; [exact L|]. split; [exact TT|].
  intros k u v Hk Hu Hv. destruct (znth_some chs k ltac:(lia)) as [e Ne]. destruct (Kx k e Ne) as (x & A & _ & _ & P).
  rewrite (concat_znth _ xs) with (x := x); [now apply P| |exact A|nia].
  clear - TT. induction TT as [|? ? ? ? [? ?] ? ?]; constructor; auto.
Qed.

Lemma cut_at {A} k (l : list A) : 0 <= k <= zlen l -> exists a b, l = a ++ b /\ zlen a = k.
Proof. intros H. exists (ztake k l), (zdrop k l). split; [symmetry; apply ztake_zdrop|now apply zlen_ztake]. Qed.
Lemma rest_holds s p l : holds s p l -> forall e, exists t, rest s (mkR p e) = l ++ t.
Proof. intros H e. now apply holds_rest. Qed.

Section Pixels.
Variables (fuel : nat) (s : src) (d : dparams).
Hypothesis Hlen : zlen (sFile s) <= 4294967296.
Hypothesis HF : 4294967296 <= Z.of_nat fuel.

(** [runsTo]: the program ends without error in a result with Q *)
Definition runsTo {A} (m : M A) (p : Z) (Q : A -> Prop) : Prop := exists a q, runs m p a q /\ Q a.
Lemma runsTo_bind {A B} (m : M A) (f : A -> M B) p (Q : A -> Prop) (R : B -> Prop) :
  runsTo m p Q -> (forall a q, Q a -> runsTo (f a) q R) -> runsTo (bindM m f) p R.
Proof.
  intros (a & q & H & HQ) K. destruct (K a q HQ) as (b & r & H2 & HR). exists b, r. split; [|exact HR]. eapply runs_bind; eassumption.
Qed.
Lemma runsTo_ret {A} (a : A) p (Q : A -> Prop) : Q a -> runsTo (retM a) p Q.
Proof. intros H. exists a, p. split; [apply runs_ret|exact H]. Qed.
Lemma runsTo_step {A B} (m : M A) (f : A -> M B) p a q (R : B -> Prop) :
  runs m p a q -> runsTo (f a) q R -> runsTo (bindM m f) p R.
Proof. intros H (b & r & H2 & HR). exists b, r. split; [|exact HR]. eapply runs_bind; eassumption. Qed.

Lemma runs_by64 {S} limit (body : Z -> S -> M S) (Inv : Z -> S -> Prop) : 0 <= limit <= 4294967232 ->
  (forall i st p, 0 <= i < ceil64 limit -> Inv i st -> runsTo (body (64 * i) st) p (Inv (i + 1))) ->
  forall st p, Inv 0 st -> runsTo (by64M fuel limit body st) p (Inv (ceil64 limit)).
Proof.
  intros L H. unfold by64M.
  set (B := fun vs : Z * S => let '(v, st) := vs in if v <? limit then st <- body v st;; retM (inl (u32 (v + 64), st)) else retM (inr st)).
  assert (C : 0 <= ceil64 limit <= 67108863 /\ limit <= 64 * ceil64 limit < limit + 64).
  { unfold ceil64. pose proof (Z.div_mod (limit + 63) 64 ltac:(lia)). pose proof (Z.mod_pos_bound (limit + 63) 64 ltac:(lia)). lia. }
  assert (K : forall n f i st p, Z.of_nat n = ceil64 limit - i -> 0 <= i -> (n < f)%nat -> Inv i st ->
    runsTo (whileM f B (64 * i, st)) p (Inv (ceil64 limit))).
  { induction n as [|n IH]; intros f i st p En Hi Hf Hst; (destruct f as [|f]; [lia|]); cbn [whileM].
    - eapply (runsTo_step (B (64 * i, st)) _ p (inr st)); [|apply runsTo_ret].
      + unfold B. replace (64 * i <? limit) with false by lia. apply runs_ret.
      + now replace (ceil64 limit) with i by lia.
    - destruct (H i st p ltac:(lia) Hst) as (st' & q & R & Hst').
      eapply (runsTo_step (B (64 * i, st))).
      + unfold B. replace (64 * i <? limit) with true by lia. eapply runs_bind; [exact R|apply runs_ret].
      + cbv iota. rewrite u32_small by lia. replace (64 * i + 64) with (64 * (i + 1)) by lia. apply IH; auto; lia. }
  intros st p H0. apply (K (Z.to_nat (ceil64 limit)) fuel 0 st p); auto; lia.
Qed.

Section Image.
Variables (w h nch : Z) (tiles : list (list (list Z))) (ptrs : list Z) (px : Z -> Z -> Z -> Z).
Hypothesis Hw : 0 <= w <= 4294967232.
Hypothesis Hh : 0 <= h <= 4294967232.
Hypothesis Hn : 1 <= nch <= 4.
Hypothesis Hc : tcoded w h nch tiles px.
Hypothesis Hcomp : dpComp d = 1.
(** the pointers lead to the tiles *)
Hypothesis Hp : forall i chs, znth tiles i = Some chs -> exists t, znth ptrs i = Some t /\ 0 <= t < 4294967296 /\ holds s t (concat chs).
Hypothesis Hpl : zlen ptrs = zlen tiles.
Hypothesis Htl : zlen tiles = tiles_across w * tiles_across h.

Definition eager_inv (i j : Z) (e : eager) : Prop :=
  egTiles e = zdrop (j * tiles_across w + i) ptrs /\ zlen (egBuf e) = 16384 /\ rleCount (egRle e) = 0 /\
  forall x y, 0 <= x < w -> 0 <= y < h -> (y / 64 < j \/ (y / 64 = j /\ x / 64 < i)) ->
    egPx e x y = map (fun k => px k x y) (zseq nch).
Lemma zdrop_next {A} (l : list A) i a : znth l i = Some a -> zdrop i l = a :: zdrop (i + 1) l.
Proof.
  intros N. pose proof (znth_range _ _ _ N) as R. destruct (cut_at i l) as (a1 & b & E & L1); [lia|].
  subst l. rewrite zdrop_app by exact L1. rewrite znth_app2 in N by lia. replace (i - zlen a1) with 0 in N by lia.
  destruct b as [|x b]; [discriminate|]. injection N as ->. f_equal.
  change (a1 ++ a :: b) with (a1 ++ [a] ++ b). rewrite app_assoc. rewrite zdrop_app; [reflexivity|].
  rewrite zlen_app. change (zlen [a]) with 1. lia.
Qed.
Lemma ztake_next {A} (l : list A) i a : znth l i = Some a -> ztake (i + 1) l = ztake i l ++ [a].
Proof.
  intros N. pose proof (znth_range _ _ _ N) as R. destruct (cut_at i l) as (a1 & b & E & L1); [lia|].
  subst l. rewrite znth_app2 in N by lia. replace (i - zlen a1) with 0 in N by lia.
  destruct b as [|x b]; [discriminate|]. injection N as ->. rewrite (ztake_app i) by exact L1. rewrite ztake_app2 by lia.
  now replace (i + 1 - zlen a1) with 1 by lia.
Qed.
Lemma tile_idx i j : 0 <= i < tiles_across w -> 0 <= j < tiles_across h -> 0 <= j * tiles_across w + i < zlen tiles.
Proof. intros. rewrite Htl. nia. Qed.
Lemma map_zseq_ext {A} (f g : Z -> A) n : (forall k, 0 <= k < n -> f k = g k) -> map f (zseq n) = map g (zseq n).
Proof.
  intros H. apply map_ext_in. intros k I. unfold zseq in I. apply in_map_iff in I as (m & <- & I). apply in_seq in I. apply H. lia.
Qed.
Lemma eager_tile_ok mode i j e p : mode <= 5 -> 0 <= i < tiles_across w -> 0 <= j < tiles_across h -> eager_inv i j e ->
  runsTo (eager_tile s d mode nch w h (64 * i) (64 * j) e) p (eager_inv (i + 1) j).
Proof.
  intros Mo Hi Hj (E1 & E2 & E3 & E4).
  destruct (tcoded_at w h nch tiles px i j Hc Hi Hj) as (chs & xs & N & L & TT & PX).
  destruct (Hp _ _ N) as (t & Nt & Rt & Ht). destruct (tile_tight _ _ _ TT) as [T LX].
  unfold eager_tile. rewrite E1, (zdrop_next _ _ _ Nt).
  eapply runsTo_step; [apply runs_goto; exact Rt|]. cbv zeta. fold (tile_side w i) (tile_side h j).
  destruct (tiles_in w i Hi) as [I1 I2]. destruct (tiles_in h j Hj) as [J1 J2].
  set (tw := tile_side w i) in *. set (th := tile_side h j) in *.
  replace (5 <? mode) with false by lia. rewrite L in LX.
  assert (B1 : 0 < tw * th <= 4096) by nia. assert (B2 : 0 < tw * th * nch <= 16384) by nia.
  replace (16384 <? tw * th * nch) with false by lia. rewrite Hcomp. change (1 =? 0) with false. cbv iota.
  destruct (holds_rest s t _ None Ht) as [tl R].
  destruct (tight_read _ _ s (ztake (tw * th * nch) (egBuf e)) (egRle e) (mkR t None) tl T R eq_refl) as (r' & Hr & RR).
  { rewrite zlen_ztake; lia. } { exact E3. }
  eapply runsTo_step. { unfold runs. rewrite RR. cbn [rrSt]. reflexivity. }
  eapply runsTo_step. { unfold runs, actM. cbn [rrErr setErrorO]. reflexivity. }
  cbn [rrBuf rrRle]. apply runsTo_ret. unfold eager_inv. cbn [egTiles egBuf egRle egPx].
  split; [f_equal; lia|]. split; [rewrite zlen_app, LX, zlen_zdrop; lia|]. split; [exact Hr|].
  intros x y Hx Hy Ho. rewrite tile_pixels_ok by lia.
  destruct (coord_tile w x Hx) as (X1 & X2 & X3). destruct (coord_tile h y Hy) as (Y1 & Y2 & Y3).
  destruct ((64 * i <=? x) && (x <? 64 * i + tw) && (64 * j <=? y) && (y <? 64 * j + th)) eqn:B.
  - apply map_zseq_ext. intros k Hk. unfold bget.
    assert (0 <= (y - 64 * j) * tw + (x - 64 * i) < tw * th) by nia.
    rewrite znth_app1 by (rewrite LX; nia). rewrite PX by lia. f_equal; lia.
  - apply E4; auto. destruct Ho as [Ho|[Ho1 Ho2]]; [lia|]. 
    assert (x / 64 <> i); [|lia]. intros Q. subst i. rewrite Ho1 in *. unfold tw, th in *. lia.
Qed.
Lemma readAndDecompress_ok mode p : mode <= 5 -> zlen ptrs * 16384 <= maxAlloc ->
  runsTo (readAndDecompressImage fuel s d mode nch w h ptrs) p (fun r => exists f, r = RDec mode w h f /\
    forall x y, 0 <= x < w -> 0 <= y < h -> f x y = map (fun k => px k x y) (zseq nch)).
Proof.
  intros Mo Al. unfold readAndDecompressImage. replace (mode <=? 5) with true by lia.
  eapply runsTo_step.
  { unfold allocM. replace (maxAlloc <? w * h * nch) with false. { apply runs_ret. }
    assert (w <= 64 * tiles_across w /\ h <= 64 * tiles_across h).
    { unfold tiles_across. pose proof (Z.div_mod (w + 63) 64 ltac:(lia)). pose proof (Z.mod_pos_bound (w + 63) 64 ltac:(lia)).
      pose proof (Z.div_mod (h + 63) 64 ltac:(lia)). pose proof (Z.mod_pos_bound (h + 63) 64 ltac:(lia)). lia. }
    rewrite Hpl, Htl in Al. assert (w * h <= 64 * tiles_across w * (64 * tiles_across h)) by (apply Z.mul_le_mono_nonneg; lia). nia. }
  eapply runsTo_bind with (Q := eager_inv 0 (ceil64 h)).
  - apply (runs_by64 h (fun y e => by64M fuel w (fun x e => eager_tile s d mode nch w h x y e) e) (fun j => eager_inv 0 j) Hh).
    + intros j e q Hj Inv.
      destruct (runs_by64 w (fun x e => eager_tile s d mode nch w h x (64 * j) e) (fun i => eager_inv i j) Hw) with (st := e) (p := q) as (e' & q' & R & (E1 & E2 & E3 & E4)).
      * intros i st p' Hi. now apply eager_tile_ok.
      * exact Inv.
      * exists e', q'. split; [exact R|]. unfold eager_inv. split; [rewrite E1; f_equal; unfold tiles_across, ceil64; lia|].
        split; [exact E2|]. split; [exact E3|]. intros x y Hx Hy Ho. apply E4; auto.
        destruct (coord_tile w x Hx) as (X1 & _). unfold tiles_across, ceil64 in *. lia.
    + unfold eager_inv. cbn [egTiles egBuf egRle egPx]. split; [now rewrite zdrop_0 by lia|]. split; [now rewrite zlen_repeat|]. split; [reflexivity|].
      intros x y Hx Hy Ho. destruct (coord_tile w x Hx). destruct (coord_tile h y Hy). lia.
  - intros e q (_ & _ & _ & E4). apply runsTo_ret. exists (egPx e). split; [reflexivity|]. intros x y Hx Hy. apply E4; auto.
    destruct (coord_tile h y Hy) as (Y1 & _). unfold tiles_across, ceil64 in *. lia.
Qed.

Definition comp_inv (i j : Z) (ts : list Z * list (list (list Z))) : Prop :=
  ts = (zdrop (j * tiles_across w + i) ptrs, ztake (j * tiles_across w + i) tiles).
Lemma runs_channels n chs xs : tcoded_tile n chs xs -> 0 < n -> forall p, holds s p (concat chs) ->
  runs (listM (length chs) (r <- (fun st => match readRLE s n st with
                                | Ret (b, e, st) => Ret ((b, e), st)
                                | Panic w => Panic w
                                | NoFuel => NoFuel
                                end);;
                actM (fun st => setErrorO st (snd r));;;
                retM (fst r))) p chs (p + zlen (concat chs)).
Proof.
  induction 1 as [|e x chs xs [T L] F IH]; intros N p H; cbn [length concat].
  - change (zlen (@nil Z)) with 0. rewrite Z.add_0_r. apply runs_list0.
  - cbn [concat] in H. apply holds_split in H as [H1 H2]. destruct (holds_rest s p _ None H1) as [t R].
    eapply runs_list_step.
    + eapply runs_bind.
      { unfold runs, readRLE. rewrite <- L at 2. rewrite (readRLE_complete e x T _ s [] (mkR p None) t R eq_refl); [reflexivity|]. rewrite R, app_length. lia. }
      eapply runs_bind; [unfold runs, actM; cbn [snd setErrorO]; reflexivity|]. apply runs_ret.
    + eapply runs_q; [apply IH; [exact N|]|]; [exact H2|cbn [rPos advance]; rewrite zlen_app; lia].
Qed.
Lemma comp_tile_ok i j ts p : 0 <= i < tiles_across w -> 0 <= j < tiles_across h -> comp_inv i j ts ->
  runsTo (comp_tile s nch w h (64 * i) (64 * j) ts) p (comp_inv (i + 1) j).
Proof.
  intros Hi Hj ->. destruct (tcoded_at w h nch tiles px i j Hc Hi Hj) as (chs & xs & N & L & TT & _).
  destruct (Hp _ _ N) as (t & Nt & Rt & Ht). unfold comp_tile. cbn [fst snd]. rewrite (zdrop_next _ _ _ Nt).
  eapply runsTo_step; [apply runs_goto; exact Rt|]. cbv zeta. fold (tile_side w i) (tile_side h j).
  destruct (tiles_in w i Hi) as [I1 I2]. destruct (tiles_in h j Hj) as [J1 J2].
  eapply runsTo_step.
  { replace (Z.to_nat nch) with (length chs) by (unfold zlen in L; lia). eapply runs_channels; [exact TT|nia|exact Ht]. }
  apply runsTo_ret. unfold comp_inv. replace (j * tiles_across w + (i + 1)) with (j * tiles_across w + i + 1) by lia. f_equal.
  pose proof (tile_idx i j Hi Hj) as HI. set (q := j * tiles_across w + i) in *.
  symmetry. now apply ztake_next.
Qed.
Lemma readCompressed_ok mode p : mode <= 5 -> zlen ptrs * 24 <= maxAlloc ->
  runsTo (readCompressedImage fuel s mode nch w h ptrs) p (fun r => r = RComp mode w h tiles).
Proof.
  intros Mo Al. unfold readCompressedImage. eapply runsTo_step.
  { unfold allocM. replace (maxAlloc <? 24 * zlen ptrs) with false by lia. apply runs_ret. }
  eapply runsTo_bind with (Q := comp_inv 0 (ceil64 h)).
  - apply (runs_by64 h (fun y ts => by64M fuel w (fun x ts => comp_tile s nch w h x y ts) ts) (fun j => comp_inv 0 j) Hh).
    + intros j ts q Hj Inv.
      destruct (runs_by64 w (fun x ts => comp_tile s nch w h x (64 * j) ts) (fun i => comp_inv i j) Hw) with (st := ts) (p := q) as (e' & q' & R & E).
      * intros i st p' Hi. now apply comp_tile_ok.
      * exact Inv.
      * exists e', q'. split; [exact R|]. rewrite E. unfold comp_inv. replace (j * tiles_across w + ceil64 w) with ((j + 1) * tiles_across w + 0) by (unfold tiles_across, ceil64; lia). reflexivity.
    + unfold comp_inv. now rewrite zdrop_0, ztake_0 by lia.
  - intros ts q ->. apply runsTo_ret. cbn [snd]. replace (mode <=? 5) with true by lia. f_equal. apply ztake_all. rewrite Htl. unfold tiles_across, ceil64. lia.
Qed.
End Image.
End Pixels.
