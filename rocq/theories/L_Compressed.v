(** The tile cache of compressed images. *)
Require Import Verif.Base Verif.L_List Verif.L_Word Verif.M_Color Verif.M_Rect Verif.M_Image
  Verif.M_Reader Verif.M_Rle Verif.S_Rle Verif.L_Reader Verif.L_Rle Verif.L_Rle2
  Verif.M_Compressed Verif.S_Compressed.
From Coq Require Import ZifyBool ZifyNat.

Definition eof_or_none (e : option err) : Prop := e = None \/ e = Some EEOF.

(** packets of length zero *)
Lemma zero_loop e x : expands e x -> x = [] -> forall fuel s out p n r st,
  rest s st = e -> rErr st = None -> rleCount r = 0 -> (length e < fuel)%nat ->
  exists rr, rle_loop fuel s out p n r st = Ret rr /\ rrBuf rr = out ++ p /\ rleCount (rrRle rr) = 0 /\
    eof_or_none (rErr (rrSt rr)).
Proof.
  induction 1 as [|m d e x Hm He IH|h l d e x Hh Hl He IH|h l ds e x Hh Hl Hd He IH|m ds e x Hm Hd He IH];
    intros X fuel s out p n r st R E C F; (destruct fuel as [|fuel]; [cbn in F; lia|]).
  - destruct p as [|p0 p].
    + rewrite loop_nil. eexists. split; [reflexivity|]. cbn. rewrite C, E. unfold eof_or_none. auto.
    + rewrite loop_header by (auto; discriminate).
      unfold readUint8, readBE, readFull. rewrite E, R. change (1 <=? zlen (@nil Z)) with false. cbn iota.
      cbn. eexists. split; [reflexivity|]. cbn. unfold eof_or_none. auto.
  - symmetry in X. apply app_zlen0 in X. rewrite zlen_repeat in X. lia.
  - symmetry in X. apply app_zlen0 in X. rewrite zlen_repeat in X. unfold is_u8 in *.
    destruct X as [X1 X2]. assert (h = 0) as -> by lia. assert (l = 0) as -> by lia.
    apply zlen_zero in X2. subst x. clear X1.
    destruct p as [|p0 p].
    + rewrite loop_nil. eexists. split; [reflexivity|]. cbn. rewrite C, E. unfold eof_or_none. auto.
    + rewrite loop_header by (auto; discriminate).
      rewrite (readUint8_ok s st _ _ E R). cbn iota beta zeta. rewrite advance_err, E.
      unfold rle_header. change (127 <? 127) with false. change (127 =? 127) with true. cbn iota.
      pose proof (adv_rest1 _ _ _ _ R) as R1.
      rewrite (readUint16_ok s (advance st 1) _ _ _ E R1). cbn iota beta zeta.
      pose proof (adv_rest2 _ _ _ _ _ R1) as R2.
      rewrite (readUint8_ok s (advance (advance st 1) 2) d e E R2). cbn iota beta zeta.
      rewrite !advance_err, E.
      pose proof (adv_rest1 _ _ _ _ R2) as R3.
      rewrite body_run; [|assumption|lia|apply zlen_pos].
      change (Z.to_nat (256 * 0 + 0)) with O. cbn [repeat]. rewrite app_nil_r, zdrop_0 by lia.
      refine (IH eq_refl _ _ _ _ _ _ _ _ _ _ _); auto. cbn in F. lia.
  - symmetry in X. apply app_zlen0 in X. destruct X as [X1 X2].
    apply zlen_zero in X2. apply zlen_zero in X1. subst x ds. change (zlen (@nil Z)) with 0 in Hd.
    cbn [app] in *.
    destruct p as [|p0 p].
    + rewrite loop_nil. eexists. split; [reflexivity|]. cbn. rewrite C, E. unfold eof_or_none. auto.
    + rewrite loop_header by (auto; discriminate).
      rewrite (readUint8_ok s st _ _ E R). cbn iota beta zeta. rewrite advance_err, E.
      unfold rle_header. change (128 <? 127) with false. change (128 =? 127) with false.
      change (128 =? 128) with true. cbn iota.
      pose proof (adv_rest1 _ _ _ _ R) as R1.
      rewrite (readUint16_ok s (advance st 1) _ _ _ E R1). cbn iota beta zeta.
      rewrite !advance_err, E.
      pose proof (adv_rest2 _ _ _ _ _ R1) as R2. rewrite <- Hd.
      destruct e as [|e0 e].
      * unfold rle_body. cbn [rleCount repeatByte rleData].
        rewrite Z.min_l by apply zlen_pos. unfold readSome. rewrite !advance_err, E, R2.
        cbn [app]. change (zlen (@nil Z)) with 0. rewrite Z.sub_diag, ztake_0, app_nil_r by lia.
        rewrite zdrop_0 by lia.
        change (u16 0) with 0.
        rewrite loop_err by discriminate.
        eexists. split; [reflexivity|]. cbn. unfold eof_or_none. auto.
      * rewrite (body_lit _ _ _ _ _ _ _ _ [] (e0 :: e)); auto; try discriminate; try lia; try apply zlen_pos.
        rewrite app_nil_r, zdrop_0, advance_0 by lia.
        refine (IH eq_refl _ _ _ _ _ _ _ _ _ _ _); auto. cbn in F |- *. lia.
  - symmetry in X. apply app_zlen0 in X. lia.
Qed.

(** one channel of a tile *)
Lemma channel_read data x p r : expands data x -> zlen x <= zlen p -> rleCount r = 0 ->
  exists rr, rle_Read (memReader data) p r (mkR 0 None) = Ret rr /\
    rrBuf rr = x ++ zdrop (zlen x) p /\ rleCount (rrRle rr) = 0 /\ eof_or_none (rErr (rrSt rr)).
Proof.
  intros X L C. destruct (expands_tight _ _ X) as (e1 & e2 & -> & T & X2).
  assert (R : rest (memReader (e1 ++ e2)) (mkR 0 None) = e1 ++ e2).
  { unfold rest. cbn [rPos memReader sFile]. change (0 <? 0) with false. cbn [orb].
    destruct (zlen (e1 ++ e2) <=? 0) eqn:B; [|now rewrite zdrop_0 by lia].
    pose proof (zlen_pos (e1 ++ e2)). symmetry. apply zlen_zero. lia. }
  unfold rle_Read, rle_fuel. rewrite R.
  destruct (tight_loop e1 x T (S (length p + length (e1 ++ e2))) _ [] p 0 r _ e2 R eq_refl L C) as (f' & r' & HF & HC & Q).
  { rewrite app_length. lia. }
  rewrite Q. rewrite app_length in HF.
  refine (zero_loop e2 [] X2 eq_refl _ _ _ _ _ _ _ _ _ _ _); auto.
  - now apply rest_advance.
  - lia.
Qed.

Lemma znth_ztake {A} (l : list A) k i : i < k -> znth (ztake k l) i = znth l i.
Proof.
  intros H. unfold znth, ztake. destruct (i <? 0) eqn:B; [reflexivity|].
  assert (forall (m : nat) (l : list A) j, (j < m)%nat -> nth_error (firstn m l) j = nth_error l j) as G.
  { induction m as [|m IH]; intros l0 j J; [lia|]. destruct l0, j; cbn; auto. apply IH. lia. }
  apply G. lia.
Qed.
Lemma znth_zdrop {A} (l : list A) k i : 0 <= k -> 0 <= i -> znth (zdrop k l) i = znth l (k + i).
Proof.
  intros K H. unfold znth, zdrop. destruct (i <? 0) eqn:B; [lia|]. destruct (k + i <? 0) eqn:B2; [lia|].
  replace (Z.to_nat (k + i)) with (Z.to_nat k + Z.to_nat i)%nat by lia.
  generalize (Z.to_nat k) as m. generalize (Z.to_nat i) as j. intros j m. revert l.
  induction m as [|m IH]; intros l; [reflexivity|]. destruct l; cbn; [now destruct j|]. apply IH.
Qed.

Lemma expands_det e x : expands e x -> forall y, expands e y -> x = y.
Proof.
  induction 1 as [|m d e x Hm He IH|h l d e x Hh Hl He IH|h l ds e x Hh Hl Hd He IH|m ds e x Hm Hd He IH];
    intros y Y; inversion Y; subst; auto; try lia.
  - f_equal. auto.
  - f_equal. auto.
  - match goal with H : _ ++ _ = _ ++ _ |- _ => apply app_eq_len in H; [destruct H; subst|congruence] end.
    f_equal. auto.
  - match goal with H : _ ++ _ = _ ++ _ |- _ => apply app_eq_len in H; [destruct H; subst|congruence] end.
    f_equal. auto.
Qed.

Definition exps (n : Z) (data x : list Z) : Prop := expands data x /\ zlen x = n.

Lemma channels_read m chs xs : Forall2 (exps m) chs xs -> 0 <= m <= 4096 ->
  forall n buf r, 0 <= n -> n + zlen chs <= 4 -> zlen buf = 16384 -> rleCount r = 0 ->
  exists buf', ci_channels chs n buf r None = Ret buf' /\ zlen buf' = 16384 /\
    (forall i, 0 <= i < 4096 * n -> znth buf' i = znth buf i) /\
    (forall k x i, 0 <= k -> znth xs k = Some x -> 0 <= i < m -> znth buf' (4096 * (n + k) + i) = znth x i).
Proof.
  intros F M. induction F as [|data x chs xs [X L] F IH]; intros n buf r N B Lb C.
  - exists buf. repeat split; auto. intros k x i K H0. unfold znth in H0.
    destruct (k <? 0); [discriminate|]. now destruct (Z.to_nat k).
  - rewrite zlen_cons in B. pose proof (zlen_pos chs). cbn [ci_channels].
    replace (16384 <? 4096 * (n + 1)) with false by lia.
    set (p := ztake 4096 (zdrop (4096 * n) buf)).
    assert (Lp : zlen p = 4096). { unfold p. rewrite zlen_ztake; [reflexivity|]. rewrite zlen_zdrop; lia. }
    destruct (channel_read data x p r X) as (rr & Q & HB & HC & HE); [lia|assumption|].
    rewrite Q. cbn [bindO]. replace (match rErr (rrSt rr) with Some EEOF => None | e => e end) with (@None err)
      by (destruct HE as [-> | ->]; reflexivity).
    set (buf1 := ztake (4096 * n) buf ++ rrBuf rr ++ zdrop (4096 * (n + 1)) buf).
    assert (Lr : zlen (rrBuf rr) = 4096) by (rewrite HB, zlen_app, zlen_zdrop; lia).
    assert (Lt : zlen (ztake (4096 * n) buf) = 4096 * n) by (apply zlen_ztake; lia).
    assert (L1 : zlen buf1 = 16384).
    { unfold buf1. rewrite !zlen_app, Lr, Lt, zlen_zdrop; lia. }
    destruct (IH (n + 1) buf1 (rrRle rr)) as (buf' & Q' & L' & Old & New); auto; try lia.
    exists buf'. split; [assumption|]. split; [assumption|]. split.
    + intros i I. rewrite Old by lia. unfold buf1. rewrite znth_app1 by lia. apply znth_ztake. lia.
    + intros k y i K HK I. destruct (Z.eq_dec k 0) as [->|K0].
      * change (znth (x :: xs) 0) with (Some x) in HK. injection HK as <-.
        rewrite Old by lia. unfold buf1. rewrite znth_app2, Lt by lia.
        rewrite znth_app1 by lia. rewrite HB. rewrite znth_app1 by lia. f_equal. lia.
      * replace (4096 * (n + k) + i) with (4096 * (n + 1 + (k - 1)) + i) by lia.
        apply New; auto; [lia|]. rewrite <- HK. unfold znth.
        destruct (k <? 0) eqn:B1; [lia|]. destruct (k - 1 <? 0) eqn:B2; [lia|].
        replace (Z.to_nat k) with (S (Z.to_nat (k - 1))) by lia. reflexivity.
Qed.

(** ** The cache *)
Section Cache.
Variables (w h mode : Z) (tiles : list (list (list Z))) (px : Z -> Z -> Z -> Z).
Hypothesis M : 0 <= mode <= 5.
Hypothesis CO : coded w h (type_channels mode) tiles px.

(** the tile in the buffer is the one the cache names *)
Definition cached (c : ci) : Prop :=
  ciTiles c = tiles /\ ciWidth c = w /\ zlen (ciBuf c) = 16384 /\
  forall i j, 0 <= i < tiles_across w -> 0 <= j < tiles_across h ->
    ciTile c = j * tiles_across w + i ->
    forall k u v, 0 <= k < type_channels mode -> 0 <= u < tile_side w i -> 0 <= v < tile_side h j ->
      znth (ciBuf c) (4096 * k + (v * tile_side w i + u)) = Some (px k (64 * i + u) (64 * j + v)).

Lemma cached_new : cached (newCI tiles w).
Proof.
  split; [reflexivity|]. split; [reflexivity|]. split.
  - change (ciBuf (newCI tiles w)) with (repeat 0 (Z.to_nat 16384)). rewrite zlen_repeat. apply Z2Nat.id. lia.
  - intros i j I J T. change (ciTile (newCI tiles w)) with (-1) in T. nia.
Qed.
Lemma type_channels_range : 1 <= type_channels mode <= 4.
Proof. assert (mode = 0 \/ mode = 1 \/ mode = 2 \/ mode = 3 \/ mode = 4 \/ mode = 5) as [-> | [-> | [-> | [-> | [-> | ->]]]]] by lia; cbn; lia. Qed.
Lemma tile_side_range a i : 0 <= i < tiles_across a -> 1 <= tile_side a i <= 64.
Proof.
  unfold tiles_across, tile_side. intros I.
  pose proof (Z.div_mod (a + 63) 64). pose proof (Z.mod_pos_bound (a + 63) 64). lia.
Qed.

Lemma Forall2_znth {A B} (P : A -> B -> Prop) (l : list A) :
  (forall k a, znth l k = Some a -> exists b, P a b) -> exists m, Forall2 P l m.
Proof.
  induction l as [|a l IH]; intros H; [exists []; constructor|].
  destruct (H 0 a eq_refl) as [b Hb]. destruct IH as [m Hm].
  { intros k a' K. apply (H (k + 1) a'). unfold znth in *. destruct (k <? 0) eqn:E; [discriminate|].
    destruct (k + 1 <? 0) eqn:E1; [lia|]. replace (Z.to_nat (k + 1)) with (S (Z.to_nat k)) by lia. exact K. }
  exists (b :: m). now constructor.
Qed.
Lemma znth_some_range {A} (l : list A) k a : znth l k = Some a -> 0 <= k < zlen l.
Proof.
  unfold znth, zlen. destruct (k <? 0) eqn:E; [discriminate|]. intros H.
  assert (Z.to_nat k < length l)%nat by (apply nth_error_Some; congruence). lia.
Qed.
Lemma Forall2_znth_inv {A B} (P : A -> B -> Prop) l m k a : Forall2 P l m -> znth l k = Some a ->
  exists b, znth m k = Some b /\ P a b.
Proof.
  intros F. revert k. induction F as [|x y l m H F IH]; intros k K.
  - apply znth_some_range in K. change (zlen (@nil A)) with 0 in K. lia.
  - pose proof (znth_some_range _ _ _ K). destruct (Z.eq_dec k 0) as [->|N].
    + injection K as <-. exists y. auto.
    + rewrite zlen_cons in *. destruct (IH (k - 1)) as (b & B1 & B2).
      { rewrite <- K. unfold znth. destruct (k - 1 <? 0) eqn:E1; [lia|]. destruct (k <? 0) eqn:E2; [lia|].
        replace (Z.to_nat k) with (S (Z.to_nat (k - 1))) by lia. reflexivity. }
      exists b. split; [|assumption]. rewrite <- B1. unfold znth.
      destruct (k - 1 <? 0) eqn:E1; [lia|]. destruct (k <? 0) eqn:E2; [lia|].
      replace (Z.to_nat k) with (S (Z.to_nat (k - 1))) by lia. reflexivity.
Qed.

(** what a tile decompresses to *)
Lemma tile_loaded c i j chs : cached c -> 0 <= i < tiles_across w -> 0 <= j < tiles_across h ->
  znth tiles (j * tiles_across w + i) = Some chs ->
  exists buf, ci_channels chs 0 (ciBuf c) newRle None = Ret buf /\
    cached (mkCI tiles w (j * tiles_across w + i) buf).
Proof.
  intros (CT & CW & CL & CC) I J T.
  destruct (CO i j I J) as (chs' & T' & LC & D). rewrite T in T'. injection T' as <-.
  pose proof (tile_side_range w i I) as TI. pose proof (tile_side_range h j J) as TJ.
  pose proof type_channels_range.
  destruct (Forall2_znth (fun data x => exps (tile_side w i * tile_side h j) data x /\
      exists k, 0 <= k < type_channels mode) chs) as (xs & F0).
  { intros k a K. pose proof (znth_some_range _ _ _ K). destruct (D k) as (data & x & A & B & L & _); [lia|].
    rewrite K in A. injection A as <-. exists x. split; [split; assumption|]. exists k. lia. }
  assert (F : Forall2 (exps (tile_side w i * tile_side h j)) chs xs).
  { clear - F0. induction F0 as [|? ? ? ? [H _]]; constructor; auto. }
  destruct (channels_read _ _ _ F) with (n := 0) (buf := ciBuf c) (r := newRle) as (buf & Q & LB & _ & New); auto; try nia.
  exists buf. split; [assumption|]. split; [reflexivity|]. split; [reflexivity|]. split; [assumption|].
  cbn [ciTile ciBuf]. intros i' j' I' J' E k u v K U V.
  destruct (Z.div_mod_unique (tiles_across w) j' j i' i) as [-> ->]; [lia|lia|lia|].
  destruct (D k K) as (data & x & A & B & L & P).
  destruct (Forall2_znth_inv _ _ _ k data F A) as (x' & X1 & X2 & X3).
  replace (4096 * k + (v * tile_side w i + u)) with (4096 * (0 + k) + (v * tile_side w i + u)) by lia.
  rewrite (New k x'); auto; [|lia|split; nia].
  assert (x' = x) as ->; [|now apply P].
  eapply expands_det; eassumption.
Qed.

Lemma decompress_ok c x y : cached c -> 0 <= x < w -> 0 <= y < h ->
  exists c', decompressTile c x y = Ret (y mod 64 * tile_side w (x / 64) + x mod 64, c') /\ cached c' /\
    ciTile c' = y / 64 * tiles_across w + x / 64.
Proof.
  intros HC X Y. pose proof HC as (CT & CW & CL & CC). unfold decompressTile. rewrite CT, CW.
  rewrite !Z.quot_div_nonneg, !Z.rem_mod_nonneg by lia.
  change ((w + 63) / 64) with (tiles_across w).
  pose proof (Z.div_mod x 64) as DX. pose proof (Z.mod_pos_bound x 64) as MX.
  pose proof (Z.div_mod y 64) as DY. pose proof (Z.mod_pos_bound y 64) as MY.
  pose proof (Z.div_mod w 64) as DW. pose proof (Z.mod_pos_bound w 64) as MW.
  assert (I : 0 <= x / 64 < tiles_across w).
  { unfold tiles_across. split; [apply Z.div_pos; lia|]. pose proof (Z.div_mod (w + 63) 64). pose proof (Z.mod_pos_bound (w + 63) 64). lia. }
  assert (J : 0 <= y / 64 < tiles_across h).
  { unfold tiles_across. split; [apply Z.div_pos; lia|]. pose proof (Z.div_mod (h + 63) 64). pose proof (Z.mod_pos_bound (h + 63) 64). lia. }
  assert (P : (if x <? w - w mod 64 then 64 * (y mod 64) + x mod 64 else w mod 64 * (y mod 64) + x mod 64)
              = y mod 64 * tile_side w (x / 64) + x mod 64).
  { unfold tile_side. destruct (x <? w - w mod 64) eqn:B.
    - rewrite Z.min_l by lia. lia.
    - rewrite Z.min_r by lia. replace (w - 64 * (x / 64)) with (w mod 64) by lia. lia. }
  destruct (negb (y / 64 * tiles_across w + x / 64 =? ciTile c)) eqn:B.
  - destruct (CO _ _ I J) as (chs & T & _). rewrite T.
    destruct (tile_loaded c _ _ chs HC I J T) as (buf & Q & HC'). rewrite Q. cbn [bindO ciWidth].
    rewrite P. eexists. split; [reflexivity|]. split; [exact HC'|reflexivity].
  - cbn [bindO]. rewrite CW, P. exists c. repeat split; auto. lia.
Qed.

Definition comp_spec (pal : option (list color)) (x y : Z) : outcome (option color) :=
  if ((mode =? 4) || (mode =? 5)) && match pal with None => true | Some _ => false end then Ret None
  else if negb (pin x y (mkRect 0 0 w h)) then Ret (Some (comp_outside mode))
  else match type_color mode (match pal with Some l => l | None => [] end) (fun k => px k x y) with
       | Some c => Ret (Some c)
       | None => Panic PIndex
       end.

Lemma pal8_spec pal i : pal8 pal i =
  match znth pal i with
  | None => Panic PIndex
  | Some e => let p := color_RGBA e in Ret (pR p / 256 mod 256, pG p / 256 mod 256, pB p / 256 mod 256)
  end.
Proof.
  unfold pal8. destruct (znth pal i); [|reflexivity]. unfold u8. now rewrite !Z.shiftr_div_pow2 by lia.
Qed.

Lemma comp_At_ok pal c x y : cached c ->
  fst (comp_At mode pal h c x y) = comp_spec pal x y /\ cached (snd (comp_At mode pal h c x y)).
Proof.
  intros HC. unfold comp_At, comp_spec. destruct HC as (CT & CW & CL & CC) eqn:E. rewrite CW. clear E.
  destruct (((mode =? 4) || (mode =? 5)) && _); [auto|].
  destruct (negb (pin x y (mkRect 0 0 w h))) eqn:B; [auto|].
  unfold pin in B. cbn in B.
  destruct (decompress_ok c x y HC) as (c' & Q & HC' & T); [lia|lia|]. rewrite Q. cbn [fst snd].
  split; [|exact HC']. destruct HC' as (CT' & CW' & CL' & CC').
  pose proof (Z.div_mod x 64) as DX. pose proof (Z.mod_pos_bound x 64) as MX.
  pose proof (Z.div_mod y 64) as DY. pose proof (Z.mod_pos_bound y 64) as MY.
  assert (I : 0 <= x / 64 < tiles_across w).
  { unfold tiles_across. split; [apply Z.div_pos; lia|]. pose proof (Z.div_mod (w + 63) 64). pose proof (Z.mod_pos_bound (w + 63) 64). lia. }
  assert (J : 0 <= y / 64 < tiles_across h).
  { unfold tiles_across. split; [apply Z.div_pos; lia|]. pose proof (Z.div_mod (h + 63) 64). pose proof (Z.mod_pos_bound (h + 63) 64). lia. }
  set (P := y mod 64 * tile_side w (x / 64) + x mod 64).
  assert (G : forall k, 0 <= k < type_channels mode -> forall o, o = 4096 * k -> ci_get c' (P + o) = Ret (px k x y)).
  { intros k K o ->. unfold ci_get. rewrite (Z.add_comm P). unfold P.
    rewrite (CC' _ _ I J T k); [f_equal; f_equal; lia|assumption| |]; unfold tile_side; lia. }
  assert (G0 : ci_get c' P = Ret (px 0 x y)).
  { rewrite <- (Z.add_0_r P). apply G; [|reflexivity]. pose proof type_channels_range. lia. }
  assert (mode = 0 \/ mode = 1 \/ mode = 2 \/ mode = 3 \/ mode = 4 \/ mode = 5) as D by lia.
  unfold comp_pixel, type_color. clear CO. 
  destruct D as [D | [D | [D | [D | [D | D]]]]]; rewrite D in *; cbn [type_channels] in G; rewrite G0; cbn [bindO];
    try (rewrite (G 1) by lia; cbn [bindO]); try (rewrite (G 2) by lia; cbn [bindO]);
    try (rewrite (G 3) by lia; cbn [bindO]); auto.
  - rewrite pal8_spec. destruct (znth _ _); reflexivity.
  - rewrite pal8_spec. destruct (znth _ _); cbn [bindO]; [|reflexivity].
    rewrite (Z.add_comm 4096). rewrite (G 1) by lia. reflexivity.
Qed.

Lemma comp_history_ok pal calls : forall c, cached c -> cached (comp_history mode pal h c calls).
Proof.
  induction calls as [|[a b] calls IH]; intros c HC; [exact HC|]. cbn. apply IH. now apply comp_At_ok.
Qed.
End Cache.
