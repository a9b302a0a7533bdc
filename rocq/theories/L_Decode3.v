(** Pixel data: termination and panics. *)
Require Import Verif.Base Verif.L_List Verif.L_Word Verif.M_Reader Verif.L_Reader Verif.M_Rle Verif.S_Rle Verif.L_Rle
  Verif.L_Rle2 Verif.L_Rle3 Verif.M_Color Verif.M_Composite Verif.M_Rect Verif.M_Image Verif.M_Compressed
  Verif.M_Groups Verif.M_Monad Verif.M_Decode Verif.S_Decode Verif.L_Piece Verif.L_Wp Verif.L_Decode Verif.L_Decode2.
From Coq Require Import ZifyBool ZifyNat.

Lemma ceil64_bounds w : 0 <= w -> 64 * ceil64 w - 63 <= w <= 64 * ceil64 w /\ 0 <= ceil64 w.
Proof.
  intros W. unfold ceil64. pose proof (Z.div_mod (w + 63) 64 ltac:(lia)).
  pose proof (Z.mod_pos_bound (w + 63) 64 ltac:(lia)). lia.
Qed.

Lemma ceil64_prod w h : 0 <= w < 4294967296 -> 0 <= h < 4294967296 -> 8000000000000 < ceil64 w * ceil64 h ->
  64 * (ceil64 w * ceil64 h) <= w * h.
Proof.
  intros W H K. destruct (ceil64_bounds w ltac:(lia)) as [A A0]. destruct (ceil64_bounds h ltac:(lia)) as [B B0].
  set (a := ceil64 w) in *. set (b := ceil64 h) in *. clearbody a b.
  assert (2 <= a). { destruct (Z_le_gt_dec 2 a) as [|N]; [assumption|exfalso]. assert (a * b <= 1 * b) by (apply Z.mul_le_mono_nonneg_r; lia). lia. }
  assert (2 <= b). { destruct (Z_le_gt_dec 2 b) as [|N]; [assumption|exfalso]. assert (a * b <= a * 1) by (apply Z.mul_le_mono_nonneg_l; lia). lia. }
  replace (64 * (a * b)) with ((8 * a) * (8 * b)) by ring. apply Z.mul_le_mono_nonneg; lia.
Qed.

(** ** The rle reader's count stays a uint16, the position is kept in range *)
Lemma rle_header_count s m r st : bytes (sFile s) -> 0 <= m < 256 -> 0 <= rleCount r < 65536 ->
  0 <= rleCount (fst (rle_header s m r st)) < 65536.
Proof.
  intros HB HM HR. unfold rle_header, readUint8, readUint16.
  assert (U : forall z, 0 <= u16 z < 65536) by (intros; unfold u16; apply Z.mod_pos_bound; lia).
  destruct (m <? 127); [destruct (readBE s 1 st); cbn; apply U|].
  destruct (m =? 127).
  - pose proof (readBE_spec s HB) as R. 
    assert (B : 0 <= fst (readBE s 2 st) < 65536).
    { unfold readBE. destruct (readFull s 2 st) as [o st1] eqn:Q. cbn [fst].
      destruct (readFull_cases s 2 st o st1 ltac:(lia) Q) as [(e & A & B & -> & ->) | [(A & e & t & B & C & -> & ->) | (A & B & -> & ->)]]; try lia.
      assert (FB : Forall is_u8 e).
      { assert (FR : Forall is_u8 (rest s st)) by (unfold rest; destruct (_ || _); [constructor|now apply Forall_zdrop]).
        rewrite B in FR. now apply Forall_app in FR. }
      pose proof (be_bound e FB) as BB. rewrite C in BB. exact BB. }
    destruct (readBE s 2 st) as [c st1]. destruct (readBE s 1 st1). exact B.
  - destruct (m =? 128).
    + assert (B : 0 <= fst (readBE s 2 st) < 65536).
      { unfold readBE. destruct (readFull s 2 st) as [o st1] eqn:Q. cbn [fst].
        destruct (readFull_cases s 2 st o st1 ltac:(lia) Q) as [(e & A & B & -> & ->) | [(A & e & t & B & C & -> & ->) | (A & B & -> & ->)]]; try lia.
        assert (FB : Forall is_u8 e).
        { assert (FR : Forall is_u8 (rest s st)) by (unfold rest; destruct (_ || _); [constructor|now apply Forall_zdrop]).
          rewrite B in FR. now apply Forall_app in FR. }
        pose proof (be_bound e FB) as BB. rewrite C in BB. exact BB. }
      destruct (readBE s 2 st) as [c st1]. exact B.
    + cbn. apply U.
Qed.

Section Rle.
Variable s : src.
Hypothesis Hbytes : bytes (sFile s).
Hypothesis Hlen : zlen (sFile s) < 9223372036854775808.

Lemma readBE_okpos k st : 0 <= k -> okpos st -> okpos (snd (readBE s k st)).
Proof. intros K O. now apply (adv_readBE s Hlen k st K). Qed.
Lemma rle_header_okpos m r st : okpos st -> okpos (snd (rle_header s m r st)).
Proof.
  intros O. unfold rle_header, readUint8, readUint16.
  destruct (m <? 127). { pose proof (readBE_okpos 1 st ltac:(lia) O). destruct (readBE s 1 st). assumption. }
  destruct (m =? 127).
  { pose proof (readBE_okpos 2 st ltac:(lia) O). destruct (readBE s 2 st) as [c st1]. cbn [snd] in *.
    pose proof (readBE_okpos 1 st1 ltac:(lia) H). destruct (readBE s 1 st1). assumption. }
  destruct (m =? 128); [|exact O].
  pose proof (readBE_okpos 2 st ltac:(lia) O). destruct (readBE s 2 st). assumption.
Qed.

Lemma rle_loop_inv fuel : forall out p n r st rr, okpos st -> 0 <= rleCount r < 65536 ->
  rle_loop fuel s out p n r st = Ret rr ->
  okpos (rrSt rr) /\ 0 <= rleCount (rrRle rr) < 65536 /\ zlen (rrBuf rr) = zlen out + zlen p.
Proof.
  induction fuel as [|fuel IH]; intros out p n r st rr O C H; cbn [rle_loop] in H.
  - destruct p; [injection H as <-; cbn; rewrite zlen_app; auto|].
    destruct (rErr st); [injection H as <-; cbn; rewrite zlen_app; auto|discriminate].
  - destruct p as [|x p']; [injection H as <-; cbn; rewrite zlen_app; auto|]. set (p := x :: p') in *.
    destruct (rErr st) eqn:Er; [injection H as <-; cbn; rewrite zlen_app; auto|].
    assert (BODY : forall r2 st2, okpos st2 -> 0 <= rleCount r2 < 65536 ->
      (let c := Z.min (rleCount r2) (zlen p) in
       let (w, st3) := if repeatByte r2 then (repeat (rleData r2) (Z.to_nat c), st2) else readSome s c st2 in
       let w := w ++ ztake (c - zlen w) (zdrop (zlen w) p) in
       rle_loop fuel s (out ++ w) (zdrop c p) (n + c) (mkRle (repeatByte r2) (rleData r2) (u16 (rleCount r2 - c))) st3) = Ret rr ->
      okpos (rrSt rr) /\ 0 <= rleCount (rrRle rr) < 65536 /\ zlen (rrBuf rr) = zlen out + zlen p).
    { intros r2 st2 O2 C2. cbv zeta. set (c := Z.min (rleCount r2) (zlen p)).
      pose proof (zlen_pos p). assert (CR : 0 <= c <= zlen p) by lia.
      destruct (if repeatByte r2 then _ else _) as [w st3] eqn:W.
      assert (WL : zlen w <= c /\ okpos st3).
      { destruct (repeatByte r2).
        - injection W as <- <-. rewrite zlen_repeat. split; [lia|exact O2].
        - split; [|pose proof (adv_readSome s Hlen c st2 ltac:(lia) O2) as A; rewrite W in A; apply A].
          unfold readSome in W. destruct (rErr st2); [injection W as <- <-; change (zlen (@nil Z)) with 0; lia|].
          destruct (rest s st2) as [|y t] eqn:R; [injection W as <- <-; change (zlen (@nil Z)) with 0; lia|].
          destruct (c <=? zlen (y :: t)) eqn:B; injection W as <- <-; [rewrite zlen_ztake; lia|lia]. }
      destruct WL as [WL O3]. pose proof (zlen_pos w). intros HR. apply IH in HR.
      - destruct HR as (A1 & A2 & A3). split; [exact A1|]. split; [exact A2|].
        rewrite A3, !zlen_app, zlen_ztake by (rewrite zlen_zdrop; lia).
        rewrite zlen_zdrop by lia. lia.
      - exact O3.
      - cbn. unfold u16. apply Z.mod_pos_bound. lia. }
    destruct (rleCount r =? 0); [|now apply (BODY r st)].
    unfold readUint8 in H.
    destruct (readBE_spec s Hbytes Hlen 1 st ltac:(lia)) as (A & B & _).
    destruct (readBE s 1 st) as [m st1]. cbn [fst snd] in *. destruct (A O) as [O1 _].
    destruct (rErr st1); [injection H as <-; cbn; rewrite zlen_app; auto|].
    pose proof (rle_header_count s m r st1 Hbytes B C) as HC. pose proof (rle_header_okpos m r st1 O1) as HO.
    destruct (rle_header s m r st1) as [r2 st2]. cbn [fst snd] in *.
    destruct (rErr st2) eqn:E2.
    + injection H as <-. cbn. rewrite zlen_app. split; [|auto]. unfold eof_to_unexpected.
      destruct (rErr st2) as [[]|]; exact HO.
    + now apply (BODY r2 st2).
Qed.

Lemma readRLE_okpos fuel : forall count out st x, okpos st -> readRLE_loop fuel s count out st = Ret x -> okpos (snd x).
Proof.
  induction fuel as [|fuel IH]; intros count out st x O H; cbn [readRLE_loop] in H.
  - destruct (0 <? count); [discriminate|]. injection H as <-. exact O.
  - destruct (0 <? count); [|injection H as <-; exact O]. unfold readUint8, readUint16 in H.
    pose proof (readBE_okpos 1 st ltac:(lia) O) as O1. destruct (readBE s 1 st) as [c st1]. cbn [snd] in O1.
    destruct (c <? 127).
    { pose proof (readBE_okpos 1 st1 ltac:(lia) O1) as O2. destruct (readBE s 1 st1) as [d st2]. eapply IH; eauto. }
    destruct (c =? 127).
    { pose proof (readBE_okpos 2 st1 ltac:(lia) O1) as O2. destruct (readBE s 2 st1) as [d st2]. cbn [snd] in O2.
      pose proof (readBE_okpos 1 st2 ltac:(lia) O2) as O3. destruct (readBE s 1 st2) as [d3 st3]. eapply IH; eauto. }
    destruct (c =? 128).
    { pose proof (readBE_okpos 2 st1 ltac:(lia) O1) as O2. destruct (readBE s 2 st1) as [d st2]. cbn [snd] in O2.
      pose proof (adv_copyN s Hlen d st2 O2) as [O3 _]. destruct (copyN s d st2) as [w st3]. eapply IH; eauto. }
    pose proof (adv_copyN s Hlen (256 - c) st1 O1) as [O3 _]. destruct (copyN s (256 - c) st1) as [w st3]. eapply IH; eauto.
Qed.
End Rle.

(** ** The loops over the tiles *)
Definition LIM : Z := 4294967232.     (* 2^32 - 64 *)
Definition FUEL : Z := 70368744177664.   (* 2^46 *)

Section Tiles.
Variables (F : Prop) (E : why -> Prop) (fuel : nat).
Notation wpe := (wp F E).

Lemma wp_whileF {S R} (body : S -> M (S + R)) (I : S -> rst -> Prop) (mu : S -> rst -> nat) (Q : R -> rst -> Prop) :
  (forall s st, I s st -> wpe (body s) (fun r st' => match r with
     | inl s' => I s' st' /\ (F \/ (mu s' st' < mu s st)%nat)
     | inr r => Q r st' end) st) ->
  forall fuel s st, I s st -> F \/ (mu s st < fuel)%nat -> wpe (whileM fuel body s) Q st.
Proof.
  intros HB. induction fuel0 as [|fuel0 IH]; intros s st HI HF.
  - destruct HF as [HF|HF]; [exact HF|lia].
  - cbn [whileM]. apply wp_bind. eapply wp_mono; [exact (HB s st HI)|].
    intros [s'|r] st' H; [|exact H]. destruct H as [H1 H2].
    apply IH; [exact H1|]. destruct HF as [HF|HF]; [now left|]. destruct H2 as [H2|H2]; [now left|right; lia].
Qed.
Lemma wp_by64 {S} limit (body : Z -> S -> M S) (I : Z -> S -> rst -> Prop) (T : S -> nat) x st :
  0 <= limit < 4294967296 ->
  (forall v x st, I v x st -> 0 <= v < limit ->
     wpe (body v x) (fun x' st' => I (u32 (v + 64)) x' st' /\ (LIM < limit -> F \/ (T x' < T x)%nat)) st) ->
  F \/ (4294967300 <= Z.of_nat fuel /\ (T x < fuel)%nat) ->
  I 0 x st ->
  wpe (by64M fuel limit body x) (fun x' st' => exists v, limit <= v /\ I v x' st') st.
Proof.
  intros HL HB HF HI. unfold by64M.
  refine (wp_whileF _ (fun vx st' => 0 <= fst vx < 4294967296 /\ I (fst vx) (snd vx) st')
    (fun vx _ => if limit <=? LIM then Z.to_nat (4294967296 - fst vx) else T (snd vx)) _ _ fuel (0, x) st _ _).
  - intros [v y] st0 [V0 I0]. cbn [fst snd] in *. destruct (v <? limit) eqn:B; [|apply wp_ret; exists v; split; [lia|exact I0]].
    apply wp_bind. eapply wp_mono; [apply (HB v y st0 I0); lia|]. intros y' st1 [I1 T1]. apply wp_ret. cbn [fst snd].
    split; [split; [unfold u32; apply Z.mod_pos_bound; lia|exact I1]|].
    unfold LIM in *. destruct (limit <=? 4294967232) eqn:LL; [|apply T1; lia].
    right. unfold u32. rewrite Z.mod_small by lia. lia.
  - cbn. split; [lia|exact HI].
  - destruct HF as [HF|[HF1 HF2]]; [now left|right]. cbn [fst snd]. destruct (limit <=? LIM); lia.
Qed.

Lemma wp_tiles {S} w h (body : Z -> Z -> S -> M S) (tl : S -> list Z) (J : S -> Prop) x0 st :
  0 <= w < 4294967296 -> 0 <= h < 4294967296 ->
  (forall y x e st, okpos st -> J e -> tl e <> [] -> 0 <= x < w -> 0 <= y < h ->
     wpe (body y x e) (fun e' st' => okpos st' /\ J e' /\ zlen (tl e) = 1 + zlen (tl e')) st) ->
  (forall y x e st, tl e = [] -> body y x e st = Panic PTiles) ->
  (w <= LIM /\ h <= LIM) \/ E PTiles ->
  F \/ (FUEL <= Z.of_nat fuel /\ (0 < w \/ h <= LIM)) ->
  zlen (tl x0) = ceil64 w * ceil64 h -> ceil64 w * ceil64 h <= 35184372088832 -> J x0 -> okpos st ->
  wpe (by64M fuel h (fun y e => by64M fuel w (fun x e => body y x e) e) x0) (fun e st' => okpos st' /\ J e) st.
Proof.
  intros HW HH HB HP HE HF HT HN HJ HO.
  destruct (ceil64_bounds w ltac:(lia)) as [CW CW0]. destruct (ceil64_bounds h ltac:(lia)) as [CH CH0].
  set (cw := ceil64 w) in *. set (ch := ceil64 h) in *.
  set (small := w <= LIM /\ h <= LIM).
  set (Iout := fun (y : Z) (e : S) (st : rst) => okpos st /\ J e /\ zlen (tl e) <= cw * ch /\
     (small -> exists k, y = 64 * k /\ 0 <= k <= ch /\ zlen (tl e) = cw * (ch - k))).
  assert (FB : F \/ 4294967300 <= Z.of_nat fuel) by (destruct HF as [HF|[HF _]]; [now left|right; unfold FUEL in HF; lia]).
  assert (FT : forall e, zlen (tl e) <= cw * ch -> F \/ (4294967300 <= Z.of_nat fuel /\ (length (tl e) < fuel)%nat)).
  { intros e He. destruct HF as [HF|[HF _]]; [now left|right]. unfold FUEL in HF. unfold zlen in He. split; lia. }
  eapply wp_mono; [apply (wp_by64 h _ Iout (fun e => length (tl e)) x0 st HH)|].
  - intros y e st0 (O0 & J0 & L0 & K0) Y.
    set (N := zlen (tl e)) in *.
    set (Iin := fun (x : Z) (e' : S) (st : rst) => okpos st /\ J e' /\ zlen (tl e') <= N /\ (0 < x -> zlen (tl e') < N) /\
       (small -> exists k, x = 64 * k /\ 0 <= k <= cw /\ zlen (tl e') = N - k)).
    eapply wp_mono; [apply (wp_by64 w _ Iin (fun e => length (tl e)) e st0 HW)|].
    + intros x e1 st1 (O1 & J1 & L1 & S1 & K1) X.
      destruct (list_eq_dec Z.eq_dec (tl e1) []) as [Q|Q].
      * unfold wp. rewrite (HP y x e1 st1 Q). destruct HE as [HE|HE]; [|exact HE]. exfalso.
        destruct (K1 HE) as (k1 & -> & B1 & Z1). destruct (K0 HE) as (k0 & -> & B0 & Z0).
        rewrite Q in Z1. change (zlen (@nil Z)) with 0 in Z1.
        assert (cw * 1 <= cw * (ch - k0)) by (apply Z.mul_le_mono_nonneg_l; lia).
        clear - H Z1 Z0 X CW B1. lia.
      * eapply wp_mono; [apply (HB y x e1 st1 O1 J1 Q X Y)|]. intros e2 st2 (O2 & J2 & Z2).
        split; [|intros _; right; unfold zlen in Z2; lia]. unfold Iin. split; [assumption|]; split; [assumption|]; split; [lia|]; split; [lia|].
        intros HS. destruct (K1 HS) as (k1 & -> & B1 & Z1). destruct HS as [HS1 HS2]. unfold LIM in *.
        exists (k1 + 1). unfold u32. rewrite Z.mod_small by lia. repeat split; try lia.
    + apply FT. exact L0.
    + unfold Iin. split; [assumption|]; split; [assumption|]; split; [lia|]; split; [lia|]. intros _. exists 0. repeat split; lia.
    + intros e1 st1 (x & X & O1 & J1 & L1 & S1 & K1). split.
      * unfold Iout. split; [assumption|]; split; [assumption|]; split; [lia|]. intros HS. destruct (K0 HS) as (k0 & -> & B0 & Z0).
        destruct (K1 HS) as (k1 & -> & B1 & Z1). destruct HS as [HS1 HS2]. unfold LIM in *.
        exists (k0 + 1). assert (k1 = cw) by lia. subst k1.
        unfold u32. rewrite Z.mod_small by lia. rewrite Z1, Z0, !Z.mul_sub_distr_l, Z.mul_add_distr_l. repeat split; lia.
      * intros HL. destruct HF as [HF|[_ HF]].
        -- now left.
        -- right. assert (0 < w) by lia. assert (zlen (tl e1) < N) by (apply S1; lia). unfold N, zlen in *. lia.
  - apply FT. lia.
  - unfold Iout. split; [assumption|]; split; [assumption|]; split; [lia|]. intros _. exists 0. repeat split; lia.
  - intros e st' (y & _ & O1 & J1 & _). auto.
Qed.
End Tiles.

(** what successful reads tell about the file *)
Lemma got_word s st st' v : got s 4 st st' v -> word_at (sFile s) (rPos st) v.
Proof.
  intros (_ & _ & P & L & ->).
  pose proof (ztake_zdrop (rPos st) (sFile s)) as A. pose proof (ztake_zdrop 4 (zdrop (rPos st) (sFile s))) as B.
  assert (LA : zlen (ztake (rPos st) (sFile s)) = rPos st) by (apply zlen_ztake; lia).
  assert (L4 : zlen (ztake 4 (zdrop (rPos st) (sFile s))) = 4) by (apply zlen_ztake; rewrite zlen_zdrop; lia).
  set (pre := ztake (rPos st) (sFile s)) in *. set (r := ztake 4 _) in *. set (t := zdrop 4 _) in *. clearbody pre r t.
  rewrite <- B in A. rewrite <- A, <- LA. now apply word_at_app.
Qed.
Lemma be8 a b c c' e f g h : be [a; b; c; c'; e; f; g; h] = 4294967296 * be [a; b; c; c'] + be [e; f; g; h].
Proof. cbv [be fold_left]. lia. Qed.
Lemma got_long s st st' v : got s 8 st st' v -> long_at (sFile s) (rPos st) v.
Proof.
  intros (_ & _ & P & L & ->).
  pose proof (ztake_zdrop (rPos st) (sFile s)) as A. pose proof (ztake_zdrop 8 (zdrop (rPos st) (sFile s))) as B.
  assert (LA : zlen (ztake (rPos st) (sFile s)) = rPos st) by (apply zlen_ztake; lia).
  assert (L8 : zlen (ztake 8 (zdrop (rPos st) (sFile s))) = 8) by (apply zlen_ztake; rewrite zlen_zdrop; lia).
  set (pre := ztake (rPos st) (sFile s)) in *. set (r := ztake 8 _) in *. set (t := zdrop 8 _) in *. clearbody pre r t.
  rewrite <- B in A. clear B.
  destruct r as [|a [|b [|c [|c' [|e [|f [|g [|h [|i l]]]]]]]]]; unfold zlen in L8; cbn [length] in L8; try lia.
  rewrite be8. exists (be [a; b; c; c']), (be [e; f; g; h]). rewrite <- A, <- LA. split; [|split; [|reflexivity]].
  - exact (word_at_app pre [a; b; c; c'] ([e; f; g; h] ++ t) eq_refl).
  - replace (zlen pre + 4) with (zlen (pre ++ [a; b; c; c'])) by (rewrite zlen_app; reflexivity).
    pose proof (word_at_app (pre ++ [a; b; c; c']) [e; f; g; h] t eq_refl) as W. rewrite <- app_assoc in W. exact W.
Qed.

(** ** ReadImage, ReadChannel, ReadLayer *)
Section Layer.
Variables (F : Prop) (E : why -> Prop) (s : src) (fuel : nat) (d : dparams).
Hypothesis Hbytes : Forall is_u8 (sFile s).
Hypothesis Hlen : zlen (sFile s) < 9223372036854775808.
Hypothesis Hfuel : F \/ FUEL <= Z.of_nat fuel.
Hypothesis Hfuel2 : fuel_ok F s fuel.
Notation wpe := (wp F E).
Notation len := (zlen (sFile s)).

Lemma wp_rdPtr m st (Q : Z -> rst -> Prop) :
  (forall v st', adv st st' -> 0 <= v < 18446744073709551616 ->
     (rErr st' = None -> v < 4294967296 /\ got s 4 st st' v \/ got s 8 st st' v) -> Q v st') ->
  wpe (rdPtr s m) Q st.
Proof.
  intros H. unfold rdPtr. destruct (m <? 2).
  - apply (wp_rd32 F E s Hbytes Hlen). intros v st' A R G _ _. apply H; [exact A|lia|]. intros N. left. split; [lia|auto].
  - apply (wp_read F E s Hbytes Hlen 8); [lia|]. intros v st' A R G _ _. apply H; [exact A|exact R|]. intros N. right. auto.
Qed.

Hypothesis HF : forall h, pixels_of (sFile s) 0 h -> LIM < h -> F.
Hypothesis Emake : forall w h, pixels_of (sFile s) w h -> 70368744177664 < w * h -> E PMake.
Hypothesis Etiles : forall w h, pixels_of (sFile s) w h -> LIM < w \/ LIM < h -> E PTiles.

(** may move the position anywhere *)
Definition calm {A} (m : M A) (P : A -> Prop) : Prop := forall st, okpos st -> wpe m (fun a st' => okpos st' /\ P a) st.
Lemma calm_ret {A} (a : A) (P : A -> Prop) : P a -> calm (retM a) P.
Proof. intros H st O. apply wp_ret. auto. Qed.
Lemma calm_bind {A B} (m : M A) (f : A -> M B) (P : A -> Prop) (Q : B -> Prop) :
  calm m P -> (forall a, P a -> calm (f a) Q) -> calm (bindM m f) Q.
Proof.
  intros Hm Hf st O. apply wp_bind. eapply wp_mono; [apply (Hm st O)|]. intros a st1 [A1 PA]. now apply Hf.
Qed.
Lemma calm_safe {A} (m : M A) P : L_Decode.safe F E m P -> calm m P.
Proof. intros H st O. eapply wp_mono; [apply (H st O)|]. intros a st1 [A1 PA]. split; [now apply A1|exact PA]. Qed.
Lemma calm_panic {A} w (P : A -> Prop) : E w -> calm (panicM w) P.
Proof. intros H st O. now apply wp_panic. Qed.
Lemma calm_goto p : calm (gotoM p) any.
Proof. intros st O. apply wp_act. split; [now apply okpos_goto|exact I]. Qed.
Lemma calm_if {A} (b : bool) (m n : M A) P : (b = true -> calm m P) -> (b = false -> calm n P) -> calm (if b then m else n) P.
Proof. destruct b; auto. Qed.
Lemma calm_any {A} (m : M A) P : calm m P -> calm m any.
Proof. intros H st O. eapply wp_mono; [apply (H st O)|]. intros a st1 [A1 PA]. split; [exact A1|exact I]. Qed.
Lemma calm_err e {A} (a : A) : calm (setErrM e;;; retM a) any.
Proof. eapply calm_bind; [apply calm_safe, safe_setErr|]. intros. apply calm_ret. exact I. Qed.

Lemma wp_eager mode bpp w h y x e st : okpos st -> 0 <= x < w -> 0 <= y < h -> egTiles e <> [] ->
  0 <= rleCount (egRle e) < 65536 -> (5 < mode -> E PNil) -> (mode <= 5 -> 0 <= bpp <= 4) ->
  wpe (eager_tile s d mode bpp w h x y e) (fun e' st' => okpos st' /\ 0 <= rleCount (egRle e') < 65536 /\
     zlen (egTiles e) = 1 + zlen (egTiles e')) st.
Proof.
  intros O X Y T C EN BP. unfold eager_tile. destruct (egTiles e) as [|t ts]; [congruence|].
  apply wp_bind. apply wp_act. cbv zeta. set (k := _ * bpp).
  destruct (5 <? mode) eqn:M; [apply wp_panic, EN; lia|].
  assert (K : 0 <= k <= 16384).
  { unfold k. specialize (BP ltac:(lia)).
    assert (0 <= Z.min 64 (w - x) * Z.min 64 (h - y) <= 64 * 64).
    { split; [apply Z.mul_nonneg_nonneg; lia|apply Z.mul_le_mono_nonneg; lia]. }
    split; [apply Z.mul_nonneg_nonneg; lia|].
    transitivity (64 * 64 * 4); [apply Z.mul_le_mono_nonneg; lia|lia]. }
  replace (16384 <? k) with false by lia.
  pose proof (okpos_goto t st O) as OG.
  destruct (dpComp d =? 0).
  - apply wp_bind. apply wp_lift. apply wp_ret. cbn [egRle egTiles].
    rewrite zlen_cons. split; [|split; [exact C|reflexivity]].
    now apply (adv_readSome s Hlen k (goto t st) ltac:(lia)).
  - apply wp_bind.
    destruct (read_total s (ztake k (egBuf e)) (egRle e) (goto t st) Hbytes C) as [rr Q].
    unfold wp at 1. rewrite Q. cbv beta.
    unfold rle_Read in Q.
    destruct (rle_loop_inv s Hbytes Hlen _ _ _ _ _ _ _ OG C Q) as (A1 & A2 & _).
    apply wp_bind. apply wp_act. apply wp_ret. cbn [egRle egTiles]. rewrite zlen_cons.
    split; [|split; [exact A2|reflexivity]]. now apply adv_setErrorO.
Qed.
Lemma wp_comp bpp w h y x ts st : okpos st -> 0 <= x < w -> 0 <= y < h -> fst ts <> [] ->
  wpe (comp_tile s bpp w h x y ts) (fun ts' st' => okpos st' /\ True /\ zlen (fst ts) = 1 + zlen (fst ts')) st.
Proof.
  intros O X Y T. unfold comp_tile. destruct (fst ts) as [|t rest0]; [congruence|].
  apply wp_bind. apply wp_act. cbv zeta. apply wp_bind.
  eapply wp_mono; [apply (wp_list F E _ okpos (fun _ => True))|].
  - intros st1 O1. apply wp_bind. unfold readRLE.
    set (n := Z.min 64 (w - x) * Z.min 64 (h - y)).
    destruct (readRLE_total (S (Z.to_nat n + length (rest s st1))) s n [] st1 Hbytes ltac:(lia)) as [[[b e] st2] Q].
    unfold wp at 1. rewrite Q. cbv beta. pose proof (readRLE_okpos s Hlen _ _ _ _ _ O1 Q) as O2. cbn [snd] in O2.
    apply wp_bind. apply wp_act. apply wp_ret. split; [now apply adv_setErrorO|exact I].
  - now apply okpos_goto.
  - intros chs st1 [O1 _]. apply wp_ret. cbn [fst]. rewrite zlen_cons. auto.
Qed.

Lemma validBPP_small mode bpp : 0 <= mode <= 5 -> validBPP mode bpp = true -> 0 <= bpp <= 4.
Proof.
  intros M V.
  assert (C : mode = 0 \/ mode = 1 \/ mode = 2 \/ mode = 3 \/ mode = 4 \/ mode = 5) by lia.
  destruct C as [->|[->|[->|[->|[->| ->]]]]]; cbn in V; lia.
Qed.

Lemma calm_readImage w h mode : 0 <= w < 4294967296 -> 0 <= h < 4294967296 -> 0 <= mode -> (5 < mode -> E PNil) ->
  calm (readImage fuel s d w h mode)
    (fun r => match r with RComp _ _ _ _ => dpDecompress d = false /\ dpComp d <> 0 | _ => True end).
Proof.
  intros HW HH HM EN.
  assert (NILOK : calm (setErrM EInconsistantData;;; retM RNil)
    (fun r => match r with RComp _ _ _ _ => dpDecompress d = false /\ dpComp d <> 0 | _ => True end)).
  { eapply calm_bind; [apply calm_safe, safe_setErr|]. intros. now apply calm_ret. }
  unfold readImage. intros st0 O0.
  apply wp_bind. apply (wp_rd32 F E s Hbytes Hlen). intros tw sa Aa _ Ga _ _. destruct (Aa O0) as [Oa _].
  apply wp_bind. apply (wp_rd32 F E s Hbytes Hlen). intros th sb Ab _ Gb _ _. destruct (Ab Oa) as [Ob _].
  destruct ((tw =? w) && (th =? h)) eqn:TEQ; cbn [negb]; [|apply NILOK; exact Ob].
  assert (tw = w /\ th = h) as [-> ->] by lia. clear TEQ.
  apply wp_bind. apply (wp_rd32 F E s Hbytes Hlen). intros bpp sc Ac BR Gc _ _. destruct (Ac Ob) as [Oc _].
  destruct (validBPP mode bpp) eqn:VB; cbn [negb]; [|apply NILOK; exact Oc].
  assert (BP : mode <= 5 -> 0 <= bpp <= 4) by (intros; apply (validBPP_small mode); [lia|exact VB]).
  apply wp_bind. apply wp_rdPtr. intros p sd Ad PR Gd. destruct (Ad Oc) as [Od _].
  apply wp_bind. apply wp_act. pose proof (okpos_goto p sd Od) as O. pose proof (eq_refl (goto p sd)) as GO. set (st := goto p sd) in GO at 1, O |- *.
  clearbody st.
  apply wp_bind. apply (wp_rd32 F E s Hbytes Hlen). intros lw st1 A1 R1 G1 Z1 _.
  apply wp_bind. apply (wp_rd32 F E s Hbytes Hlen). intros lh st2 A2 R2 G2 Z2 Z2'.
  destruct (A1 O) as [O1 F1]. destruct (A2 O1) as [O2 F2].
  destruct ((lw =? w) && (lh =? h)) eqn:EQ; cbn [negb]; [|apply NILOK; exact O2].
  assert (lw = w /\ lh = h) as [-> ->] by lia. clear EQ.
  assert (WORDS : h = 0 \/ pixels_of (sFile s) w h).
  { destruct (rErr st2) eqn:E2; [left; apply Z2; congruence|right]. specialize (G2 eq_refl).
    pose proof G2 as (B1 & B2 & _). specialize (G1 B1). pose proof G1 as (C1 & C2 & _).
    assert (D0 : rErr sd = None) by (rewrite GO in C1; unfold goto in C1; cbv zeta in C1; destruct (s64 p <? 0); exact C1).
    specialize (Gd D0).
    assert (D1 : rErr sc = None) by (destruct Gd as [[_ (X & _)]|(X & _)]; exact X).
    specialize (Gc D1). pose proof Gc as (D2 & Pc & _). specialize (Gb D2). pose proof Gb as (D3 & Pb & _). specialize (Ga D3). pose proof Ga as (_ & Pa & _).
    exists (rPos st0), bpp, p, (rPos st).
    split; [exact (got_word _ _ _ _ Ga)|]. split; [rewrite <- Pa; exact (got_word _ _ _ _ Gb)|].
    split; [replace (rPos st0 + 8) with (rPos sb) by lia; exact (got_word _ _ _ _ Gc)|].
    replace (rPos st0 + 12) with (rPos sc) by lia.
    split; [destruct Gd as [[_ Gd]|Gd]; [left; exact (got_word _ _ _ _ Gd)|right; exact (got_long _ _ _ _ Gd)]|].
    split; [|split; [exact (got_word _ _ _ _ G1)|rewrite <- C2; exact (got_word _ _ _ _ G2)]].
    rewrite GO. unfold goto. cbv zeta. unfold s64.
    destruct (Z_lt_le_dec p 9223372036854775808) as [Q|Q].
    - left. rewrite (Z.mod_small p) by lia. replace (p <? 9223372036854775808) with true by lia. replace (p <? 0) with false by lia. reflexivity.
    - right. split; [exact Q|]. rewrite (Z.mod_small p) by lia. replace (p <? 9223372036854775808) with false by lia.
      replace (p - 18446744073709551616 <? 0) with true by lia.
      destruct Gd as [[X _]|(_ & X & _)]; lia. }
  clear G1 G2 Z1 Z2 Z2' A1 A2 F1 F2 O1 O Ga Gb Gc Gd GO Aa Ab Ac Ad O0 Oa Ob Oc Od.
  destruct (ceil64_bounds w ltac:(lia)) as [CW CW0]. destruct (ceil64_bounds h ltac:(lia)) as [CH CH0].
  pose proof (ceil64_prod w h HW HH) as CP.
  assert (HN : forall n, n > 70368744177664 -> n <= w * h -> E PMake).
  { intros n N1 N2. destruct WORDS as [->|Q]; [lia|]. apply (Emake w h Q). lia. }
  unfold readTiles. apply wp_bind. apply wp_bind.
  unfold allocM at 1. destruct (maxAlloc <? 8 * (ceil64 w * ceil64 h)) eqn:MA.
  { apply wp_panic. unfold maxAlloc in MA. apply (HN (w * h)); lia. }
  assert (N1 : ceil64 w * ceil64 h <= 35184372088832) by (unfold maxAlloc in MA; lia).
  apply wp_ret.
  eapply wp_mono; [apply (safe_list F E _ _ any); [apply safe_rdPtr; assumption|exact O2]|].
  intros tiles st3 [A3 [_ L3]]. destruct (A3 O2) as [O3 _].
  assert (T3 : zlen tiles = ceil64 w * ceil64 h) by (unfold zlen; rewrite L3; apply Z2Nat.id, Z.mul_nonneg_nonneg; lia).
  apply wp_bind. apply (wp_rd32 F E s Hbytes Hlen). intros z st4 A4 _ _ _ _. destruct (A4 O3) as [O4 _].
  destruct (z =? 0); cbn [negb]; [|apply NILOK; exact O4].
  assert (LOOP : forall S (body : Z -> Z -> S -> M S) (tl : S -> list Z) (J : S -> Prop) x0 st,
    (forall y x e st, okpos st -> J e -> tl e <> [] -> 0 <= x < w -> 0 <= y < h ->
       wpe (body y x e) (fun e' st' => okpos st' /\ J e' /\ zlen (tl e) = 1 + zlen (tl e')) st) ->
    (forall y x e st, tl e = [] -> body y x e st = Panic PTiles) ->
    zlen (tl x0) = ceil64 w * ceil64 h -> J x0 -> okpos st ->
    wpe (by64M fuel h (fun y e => by64M fuel w (fun x e => body y x e) e) x0) (fun e st' => okpos st' /\ J e) st).
  { intros S body tl J x0 st5 HB HP HT HJ O5.
    destruct (Z.eq_dec h 0) as [H0|H0].
    - unfold by64M at 1. destruct fuel as [|fuel'] eqn:FE.
      + unfold wp. cbn. destruct Hfuel as [Hf|Hf]; [exact Hf|unfold FUEL in Hf; lia].
      + cbn [whileM]. subst h. apply wp_bind. change (0 <? 0) with false. cbv iota. apply wp_ret. apply wp_ret. auto.
    - apply (wp_tiles F E fuel w h body tl J x0 st5); auto.
      + destruct WORDS as [WO|Q]; [lia|].
        destruct (Z_le_gt_dec w LIM), (Z_le_gt_dec h LIM); try (left; lia); right; apply (Etiles w h Q); lia.
      + destruct WORDS as [WO|Q]; [lia|]. destruct Hfuel as [Hf|Hf]; [now left|].
        destruct (Z_le_gt_dec h LIM); [right; auto|]. destruct (Z.eq_dec w 0) as [->|]; [left; apply (HF h Q); lia|].
        right. split; [exact Hf|left; lia]. }
  destruct (dpDecompress d || (dpComp d =? 0)) eqn:DD.
  - unfold readAndDecompressImage. apply wp_bind.
    assert (AL : wpe (if mode <=? 5 then allocM (w * h * bpp) else skipM) (fun _ st' => st' = st4) st4).
    { destruct (mode <=? 5) eqn:M5; [|now apply wp_ret]. unfold allocM. specialize (BP ltac:(lia)).
      destruct (maxAlloc <? w * h * bpp) eqn:MA2; [|now apply wp_ret].
      apply wp_panic. unfold maxAlloc in MA2. apply (HN (w * h)); [|lia].
      assert (w * h * bpp <= w * h * 4) by (apply Z.mul_le_mono_nonneg_l; [apply Z.mul_nonneg_nonneg|]; lia). lia. }
    eapply wp_mono; [exact AL|]. intros _ st5 ->. apply wp_bind.
    eapply wp_mono; [apply (LOOP eager (fun y x e => eager_tile s d mode bpp w h x y e) egTiles (fun e => 0 <= rleCount (egRle e) < 65536))|].
    + intros y x e st5 O5 J5 T5 X5 Y5. now apply wp_eager.
    + intros y x e st5 T5. unfold eager_tile. now rewrite T5.
    + exact T3.
    + cbn. lia.
    + exact O4.
    + intros e st5 [O5 _]. apply wp_ret. split; [exact O5|]. now destruct (mode <=? 5).
  - unfold readCompressedImage. apply wp_bind. unfold allocM.
    destruct (maxAlloc <? 24 * zlen tiles) eqn:MA3.
    { apply wp_panic. unfold maxAlloc in MA3. rewrite T3 in MA3. apply (HN (w * h)); lia. }
    apply wp_ret. apply wp_bind.
    eapply wp_mono; [apply (LOOP _ (fun y x ts => comp_tile s bpp w h x y ts) fst (fun _ => True))|].
    + intros y x e st5 O5 J5 T5 X5 Y5. now apply wp_comp.
    + intros y x e st5 T5. unfold comp_tile. now rewrite T5.
    + exact T3.
    + exact I.
    + exact O4.
    + intros e st5 [O5 _]. apply wp_ret. split; [exact O5|]. destruct (mode <=? 5); [|exact I].
      apply orb_false_iff in DD. lia.
Qed.

Hypothesis Eassert : dpDecompress d = false -> dpComp d <> 0 -> E PAssert.
Lemma calm_readChannel : calm (readChannel fuel s d) any.
Proof.
  unfold readChannel.
  eapply calm_bind; [apply calm_safe, safe_rd32; assumption|]. cbv beta. intros w W.
  eapply calm_bind; [apply calm_safe, safe_rd32; assumption|]. cbv beta. intros h H.
  eapply calm_bind; [apply calm_safe, safe_skStr; assumption|]. intros _ _.
  eapply calm_bind; [apply calm_safe, safe_skipProperties; assumption|]. intros _ _.
  eapply calm_bind; [apply calm_safe, safe_rdPtr; assumption|]. intros p _.
  eapply calm_bind; [apply calm_goto|]. intros _ _.
  eapply calm_bind; [apply (calm_readImage w h 2 W H); lia|]. intros [| |] R; try (apply calm_ret; exact I).
  apply calm_panic. now apply Eassert.
Qed.
Lemma calm_readMask l : calm (readMask fuel s d l) any.
Proof.
  unfold readMask. eapply calm_bind; [apply calm_readChannel|]. intros [m|] _; [|apply calm_ret; exact I].
  apply calm_if; intros _; [apply calm_err|apply calm_ret; exact I].
Qed.
Variables (f32op : Z -> Z) (ptext : list Z -> tres).
Hypothesis Etext : forall t, text_within (zlen (sFile s)) (sFile s) t -> ptext t = TPanic -> E PText.
Hypothesis Htext : forall t, text_within (zlen (sFile s)) (sFile s) t -> ptext t = THang -> F.
Lemma calm_yields {A} (m : M A) Q : calm m any -> yields m Q -> calm m Q.
Proof.
  intros C Y st O. specialize (C st O). unfold wp in *. destruct (m st) as [[x st']| |] eqn:R; [|exact C|exact C].
  split; [apply C|exact (Y _ _ _ R)].
Qed.
Lemma calm_finishLayer l ps mptr : Forall (from_file s) ps -> calm (finishLayer fuel s ptext d l ps mptr) any.
Proof.
  intros FF. unfold finishLayer.
  assert (MK : forall l, calm (if negb (mptr =? 0) then gotoM mptr;;; readMask fuel s d l else retM l) any).
  { intros l0. apply calm_if; intros _; [|apply calm_ret; exact I].
    eapply calm_bind; [apply calm_goto|]. intros. apply calm_readMask. }
  destruct (par_get ps textParasiteName) as [t|] eqn:G; [|apply MK]. pose proof (text_from_file s ps t FF G) as TD.
  destruct (ptext (parData t)) eqn:P; [apply MK|apply calm_err|apply calm_panic; eapply Etext; eauto|].
  intros st _. unfold wp. exact (Htext _ TD P).
Qed.
Hypothesis Enil : 3 <= dpBase d -> E PNil.
Lemma calm_readLayer : calm (readLayer fuel s f32op ptext d) any.
Proof.
  unfold readLayer.
  eapply calm_bind; [apply calm_safe, safe_rd32; assumption|]. cbv beta. intros w W.
  eapply calm_bind; [apply calm_safe, safe_rd32; assumption|]. cbv beta. intros h H.
  eapply calm_bind; [apply calm_safe, safe_rd32; assumption|]. cbv beta. intros typ TY. cbv zeta.
  apply calm_if; intros TB; [apply calm_err|].
  eapply calm_bind; [apply calm_safe, safe_rdStr; assumption|]. intros name _.
  eapply calm_bind; [apply calm_yields; [apply calm_safe, safe_readProperties; assumption|apply y_properties; exact Hbytes]|].
  cbv beta. intros [l ps] FF. cbn [snd] in FF.
  eapply calm_bind; [apply calm_safe, safe_rdPtr; assumption|]. intros hptr _.
  eapply calm_bind; [apply calm_safe, safe_rdPtr; assumption|]. intros mptr _.
  eapply calm_bind; [apply calm_goto|]. intros _ _.
  apply calm_if; intros _; [now apply calm_finishLayer|].
  eapply calm_bind; [apply calm_readImage; try apply u32_range; try lia|].
  - intros T5. apply Enil. pose proof (Z.div_mod typ 2 ltac:(lia)). pose proof (Z.mod_pos_bound typ 2 ltac:(lia)). lia.
  - intros im _. destruct (pic_of (dpPal d) im); [now apply calm_finishLayer|apply calm_ret; exact I].
Qed.
Lemma readLayerAt_ok lptr : match readLayerAt fuel s f32op ptext d lptr with
  | Ret _ => True | Panic w => E w | NoFuel => F end.
Proof.
  unfold readLayerAt.
  pose proof (calm_bind (gotoM lptr) (fun _ => readLayer fuel s f32op ptext d) any any (calm_goto lptr)
    (fun _ _ => calm_readLayer) (mkR 0 None)) as C.
  specialize (C ltac:(split; cbn; lia)). unfold wp in C. destruct ((gotoM lptr;;; readLayer fuel s f32op ptext d) (mkR 0 None)) as [[l st]| |]; auto.
Qed.
End Layer.

Lemma mapO_ok {A B} (F : Prop) (E : why -> Prop) (f : A -> outcome B) l :
  (forall a, match f a with Ret _ => True | Panic w => E w | NoFuel => F end) ->
  match mapO f l with Ret _ => True | Panic w => E w | NoFuel => F end.
Proof.
  intros H. induction l as [|a l IH]; cbn [mapO]; [exact I|]. specialize (H a).
  destruct (f a); cbn; auto. destruct (mapO f l); cbn; auto.
Qed.
