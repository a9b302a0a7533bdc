(** The run-length reader on arbitrary streams; splitting; the deferred copy. *)
Require Import Verif.Base Verif.L_List Verif.L_Word Verif.M_Reader Verif.M_Rle Verif.S_Rle Verif.L_Reader Verif.L_Rle.
From Coq Require Import ZifyBool ZifyNat.

(** expansion continuing a half-delivered packet *)
Definition expf (r : rle) (e x : list Z) : Prop :=
  if repeatByte r then exists x', x = repeat (rleData r) (Z.to_nat (rleCount r)) ++ x' /\ expands e x'
  else exists l e' x', e = l ++ e' /\ zlen l = rleCount r /\ x = l ++ x' /\ expands e' x'.
Lemma expf_0 r e x : rleCount r = 0 -> (expf r e x <-> expands e x).
Proof.
  intros C. unfold expf. rewrite C. destruct (repeatByte r).
  - split; [intros (x' & -> & H); exact H|intros H; exists x; auto].
  - split; [intros (l & e' & x' & -> & Q & -> & H)|intros H; exists [], e, x; auto].
    apply zlen_zero in Q. subst l. exact H.
Qed.

Lemma rest_end s st n er : n = zlen (rest s st) -> rest s (mkR (rPos st + n) er) = [].
Proof.
  intros ->. rewrite <- (rest_advance s st (rest s st) []) by now rewrite app_nil_r. reflexivity.
Qed.
Lemma readFull_rest s k st o st' : 0 <= k -> readFull s k st = (o, st') ->
  exists e t, rest s st = e ++ t /\ rest s st' = t /\ rPos st' = rPos st + zlen e /\
  (rErr st' = None -> o = Some e /\ zlen e = k /\ st' = advance st k) /\
  (rErr st = None -> rErr st' <> None -> zlen (rest s st) < k /\ o = None).
Proof.
  intros K H. destruct (readFull_cases s k st o st' K H) as [(e & A & B & -> & C)|[(A & e & t & B & C & -> & ->)|(A & B & -> & ->)]].
  - exists [], (rest s st). change (zlen (@nil Z)) with 0. rewrite Z.add_0_r. repeat split; auto; congruence.
  - exists e, t. rewrite B. subst k. repeat split; auto.
    now rewrite (rest_advance s st e t). all: cbn; try congruence. all: try (intros; cbn in *; congruence).
  - exists (rest s st), []. rewrite app_nil_r, rest_end by reflexivity. cbn. repeat split; auto; congruence.
Qed.
Lemma be1 a : be [a] = a. Proof. unfold be. cbn [fold_left]. lia. Qed.
Lemma be2 a b : be [a; b] = 256 * a + b. Proof. unfold be. cbn [fold_left]. lia. Qed.
Lemma len1 {A} (l : list A) : zlen l = 1 -> exists a, l = [a].
Proof.
  destruct l as [|a [|b l]]; [discriminate|eauto|]. rewrite !zlen_cons. pose proof (zlen_pos l). lia.
Qed.
Lemma len2 {A} (l : list A) : zlen l = 2 -> exists a b, l = [a; b].
Proof.
  destruct l as [|a l]; [discriminate|]. rewrite zlen_cons. intros H.
  destruct (len1 l) as (b & ->); [lia|eauto].
Qed.
Lemma readUint8_cases s st v st' : readUint8 s st = (v, st') ->
  exists e t, rest s st = e ++ t /\ rest s st' = t /\ rPos st' = rPos st + zlen e /\
  (rErr st' = None -> e = [v] /\ rErr st = None /\ st' = advance st 1).
Proof.
  unfold readUint8, readBE. destruct (readFull s 1 st) as [o st1] eqn:Q. intros [= <- <-].
  destruct (readFull_rest s 1 st o st1) as (e & t & A & B & C & D & _); [lia|assumption|].
  exists e, t. do 3 (split; [assumption|]). intros N; destruct (D N) as (-> & L & ->).
  destruct (len1 e L) as (a & ->). rewrite be1. auto.
Qed.
Lemma readUint16_cases s st v st' : readUint16 s st = (v, st') ->
  exists e t, rest s st = e ++ t /\ rest s st' = t /\ rPos st' = rPos st + zlen e /\
  (rErr st' = None -> exists h l, e = [h; l] /\ v = 256 * h + l /\ rErr st = None /\ st' = advance st 2).
Proof.
  unfold readUint16, readBE. destruct (readFull s 2 st) as [o st1] eqn:Q. intros [= <- <-].
  destruct (readFull_rest s 2 st o st1) as (e & t & A & B & C & D & _); [lia|assumption|].
  exists e, t. do 3 (split; [assumption|]). intros N; destruct (D N) as (-> & L & ->).
  destruct (len2 e L) as (h & l & ->). exists h, l. rewrite be2. auto.
Qed.
Lemma bytes_rest s st : bytes (sFile s) -> bytes (rest s st).
Proof. intros H. unfold rest. destruct (_ || _); [constructor|]. now apply Forall_zdrop. Qed.

(** ** Headers *)
Lemma header_ok s m r st r2 st2 : bytes (sFile s) -> is_u8 m -> rErr st = None ->
  rle_header s m r st = (r2, st2) ->
  exists e t, rest s st = e ++ t /\ rest s st2 = t /\ rPos st2 = rPos st + zlen e /\
  (rErr st2 = None -> st2 = advance st (zlen e) /\ 0 <= rleCount r2 < 65536 /\
     forall e' y, expands (m :: e ++ e') y <-> expf r2 e' y).
Proof.
  intros HB Hm E. unfold rle_header. pose proof (bytes_rest s st HB) as BR. unfold is_u8 in Hm.
  destruct (m <? 127) eqn:M1.
  { destruct (readUint8 s st) as [d st1] eqn:Q1. intros [= <- <-].
    destruct (readUint8_cases _ _ _ _ Q1) as (e & t & A & B & C & D).
    exists e, t. do 3 (split; [assumption|]). intros N. destruct (D N) as (-> & _ & ->).
    split; [reflexivity|]. split; [cbn [rleCount]; rewrite u16_small by lia; lia|].
    intros e' y. split.
    - unfold expf; cbn [repeatByte rleData rleCount]. rewrite u16_small by lia. intros X.
      inversion X; subst; try lia. eauto.
    - unfold expf; cbn [repeatByte rleData rleCount]. rewrite u16_small by lia.
      intros (x' & -> & X). cbn [app]. constructor; auto; lia. }
  destruct (m =? 127) eqn:M2.
  { assert (m = 127) as -> by lia.
    destruct (readUint16 s st) as [c st1] eqn:Q1. destruct (readUint8 s st1) as [d st3] eqn:Q2. intros [= <- <-].
    destruct (readUint16_cases _ _ _ _ Q1) as (e & t & A & B & C & D).
    destruct (readUint8_cases _ _ _ _ Q2) as (e2 & t2 & A2 & B2 & C2 & D2).
    exists (e ++ e2), t2. rewrite <- app_assoc.
    split; [congruence|]. split; [assumption|]. split; [rewrite zlen_app; lia|].
    intros N. destruct (D2 N) as (-> & N1 & ->). destruct (D N1) as (h & l & -> & -> & _ & ->).
    rewrite A in BR. inversion BR as [|? ? Bh BR1]; subst. inversion BR1 as [|? ? Bl BR2]; subst.
    split; [now rewrite advance_advance|]. cbn [rleCount app]. split; [now apply hl_range|].
    unfold expf; cbn [repeatByte rleData rleCount]. intros e' y. split.
    - intros X. inversion X; subst; try lia. eauto.
    - intros (x' & -> & X). now constructor. }
  destruct (m =? 128) eqn:M3.
  { assert (m = 128) as -> by lia.
    destruct (readUint16 s st) as [c st1] eqn:Q1. intros [= <- <-].
    destruct (readUint16_cases _ _ _ _ Q1) as (e & t & A & B & C & D).
    exists e, t. split; [assumption|]. split; [assumption|]. split; [assumption|].
    intros N. destruct (D N) as (h & l & -> & -> & _ & ->).
    rewrite A in BR. inversion BR as [|? ? Bh BR1]; subst. inversion BR1 as [|? ? Bl BR2]; subst.
    split; [reflexivity|]. cbn [rleCount app]. split; [now apply hl_range|].
    unfold expf; cbn [repeatByte rleData rleCount]. intros e' y. split.
    - intros X. inversion X; subst; try lia. repeat eexists; eauto.
    - intros (l' & e2 & x' & -> & L & -> & X). now constructor. }
  intros [= <- <-]. exists [], (rest s st). change (zlen (@nil Z)) with 0. rewrite advance_0.
  repeat split; try lia; cbn [rleCount]; try (apply u16_range).
  - unfold expf; cbn [repeatByte rleData rleCount app]. rewrite u16_small by lia. intros X.
    inversion X; subst; try lia. repeat eexists; eauto.
  - unfold expf; cbn [repeatByte rleData rleCount app]. rewrite u16_small by lia.
    intros (l' & e2 & x' & -> & L & -> & X). constructor; auto; lia.
Qed.

(** ** Termination *)
Lemma readSome_rest s k st w st' : 0 <= k -> rErr st = None -> readSome s k st = (w, st') ->
  rest s st = w ++ rest s st' /\ zlen w <= k /\ rPos st' = rPos st + zlen w.
Proof.
  intros K E H. destruct (readSome_cases s k st w st' K E H) as [(t & A & B & C & ->)|(A & B & C & _)].
  - subst k. rewrite (rest_advance _ _ _ _ A). cbn. repeat split; auto. lia.
  - rewrite (rest_pos s st' (mkR (rPos st + zlen w) None)) by exact C.
    rewrite rest_end, app_nil_r by congruence. repeat split; auto.
    destruct B as [B| ->]; [lia|]. change (zlen (@nil Z)) with 0. lia.
Qed.
Lemma loop_total fuel : forall s out p n r st, bytes (sFile s) -> 0 <= rleCount r < 65536 ->
  (length p + length (rest s st) < fuel)%nat -> exists rr, rle_loop fuel s out p n r st = Ret rr.
Proof.
  induction fuel as [|fuel IH]; intros s out p n r st HB HC HF; [lia|].
  assert (BODY : forall r2 st2, rErr st2 = None -> p <> [] -> 0 <= rleCount r2 < 65536 ->
    (rleCount r2 <> 0 -> (length (rest s st2) <= length (rest s st))%nat) ->
    (rleCount r2 = 0 -> (length (rest s st2) < length (rest s st))%nat) ->
    exists rr, rle_body fuel s out p n r2 st2 = Ret rr).
  { intros r2 st2 E2 P2 C2 L1 L2. unfold rle_body.
    destruct (if repeatByte r2 then _ else _) as [w st3] eqn:Q. apply IH; auto.
    - cbn [rleCount]. apply u16_range.
    - assert (PL : 0 < zlen p).
      { destruct p; [congruence|]. rewrite zlen_cons. pose proof (zlen_pos p). lia. }
      assert (W : (length (rest s st3) <= length (rest s st2))%nat).
      { destruct (repeatByte r2); [injection Q as _ <-; lia|].
        apply readSome_rest in Q; [|lia|assumption]. destruct Q as (Q & _). rewrite Q, app_length. lia. }
      assert (DL : zlen (zdrop (Z.min (rleCount r2) (zlen p)) p) = zlen p - Z.min (rleCount r2) (zlen p))
        by (apply zlen_zdrop; lia).
      unfold zlen in DL at 1 3. destruct (Z.eq_dec (rleCount r2) 0) as [Z0|Z0].
      + specialize (L2 Z0). lia. + specialize (L1 Z0). unfold zlen in *. lia. }
  destruct p as [|p0 p']; [rewrite loop_nil; eauto|].
  destruct (rErr st) eqn:E; [rewrite loop_err by congruence; eauto|].
  destruct (Z.eq_dec (rleCount r) 0) as [Z0|Z0].
  - rewrite loop_header by (auto; discriminate).
    destruct (readUint8 s st) as [m st1] eqn:Q1. destruct (rErr st1) eqn:E1; [eauto|].
    destruct (readUint8_cases _ _ _ _ Q1) as (e & t & A & B & C & D).
    destruct (D E1) as (-> & _ & ->).
    destruct (rle_header s m r (advance st 1)) as [r2 st2] eqn:Q2.
    assert (Hm : is_u8 m). { pose proof (bytes_rest s st HB) as BR. rewrite A in BR. now inversion BR. }
    destruct (header_ok s m r (advance st 1) r2 st2 HB Hm E1 Q2) as (e2 & t2 & A2 & B2 & _ & D2).
    destruct (rErr st2) eqn:E2; [eauto|].
    destruct (D2 eq_refl) as (_ & C2 & _).
    assert (LL : (length (rest s st2) < length (rest s st))%nat).
    { rewrite A, B2. rewrite <- B, A2. cbn. rewrite app_length. lia. }
    apply BODY; auto; try discriminate; lia.
  - rewrite loop_pending by (auto; discriminate). apply BODY; auto; try discriminate; lia.
Qed.
Lemma read_total s p r st : bytes (sFile s) -> 0 <= rleCount r < 65536 -> exists rr, rle_Read s p r st = Ret rr.
Proof. intros. apply loop_total; auto; unfold rle_fuel; lia. Qed.

(** ** Soundness *)
Definition good (s : src) (out p : list Z) (n : Z) (r : rle) (st : rst) (rr : rle_res) : Prop :=
  (rrErr rr = None -> exists e t x, rest s st = e ++ t /\ expf r e x /\ rrBuf rr = out ++ x /\
     zlen x = zlen p /\ rrN rr = n + zlen p /\ rrSt rr = advance st (zlen e) /\ rleCount (rrRle rr) = 0) /\
  (exists e t x, rest s st = e ++ t /\ rPos (rrSt rr) = rPos st + zlen e /\
     rrBuf rr = out ++ x ++ zdrop (zlen x) p /\ zlen x <= zlen p /\
     forall e' y, expf r (e ++ e') y -> prefix x y).

Lemma finish_good s out p n r st : (p = [] \/ rErr st <> None) -> good s out p n r st (rle_finish out p n r st).
Proof.
  intros H. unfold good, rle_finish. cbn [rrErr rrBuf rrN rrSt rrRle]. split.
  - intros Q. destruct H as [->|H].
    + exists [], (rest s st), []. change (zlen (@nil Z)) with 0. rewrite advance_0, Z.add_0_r.
      destruct (rErr st) eqn:E; [destruct (negb _ && _); discriminate|].
      destruct (rleCount r =? 0) eqn:C; [|discriminate].
      repeat split; auto; [|lia]. apply expf_0; [lia|constructor].
    + destruct (rErr st) eqn:E; [destruct (negb _ && _); discriminate|congruence].
  - exists [], (rest s st), []. change (zlen (@nil Z)) with 0. rewrite Z.add_0_r, zdrop_0 by lia.
    repeat split; auto. apply zlen_pos. intros e' y _. now exists y.
Qed.

Lemma loop_good fuel : forall s out p n r st rr, bytes (sFile s) -> sShort s = false -> 0 <= rleCount r < 65536 ->
  rle_loop fuel s out p n r st = Ret rr -> good s out p n r st rr.
Proof.
  induction fuel as [|fuel IH]; intros s out p n r st rr HB HS HC.
  { destruct p as [|p0 p']; [rewrite loop_nil; intros [= <-]; apply finish_good; auto|].
    destruct (rErr st) eqn:E; [rewrite loop_err by congruence; intros [= <-]; apply finish_good; right; congruence|].
    cbn [rle_loop]. rewrite E. discriminate. }
  assert (BODY : forall r2 st2, rErr st2 = None -> p <> [] -> 0 <= rleCount r2 < 65536 ->
    rle_body fuel s out p n r2 st2 = Ret rr -> good s out p n r2 st2 rr).
  { intros r2 st2 E2 P2 C2. unfold rle_body. set (c := Z.min (rleCount r2) (zlen p)).
    assert (c0 : 0 <= c <= zlen p /\ c <= rleCount r2) by (pose proof (zlen_pos p); unfold c; lia).
    destruct (repeatByte r2) eqn:RB.
    - rewrite zlen_repeat. replace (c - Z.of_nat (Z.to_nat c)) with 0 by lia.
      rewrite ztake_0, app_nil_r, u16_small by lia. intros H.
      apply IH in H; auto; [|cbn; lia]. destruct H as [G1 G2].
      assert (X : forall e x, expf (mkRle true (rleData r2) (rleCount r2 - c)) e x <->
                   expf r2 e (repeat (rleData r2) (Z.to_nat c) ++ x)).
      { intros e x. unfold expf. rewrite RB. cbn [repeatByte rleData rleCount].
        replace (Z.to_nat (rleCount r2)) with (Z.to_nat c + Z.to_nat (rleCount r2 - c))%nat by lia.
        split; intros (x' & Q & Y); exists x'; split; auto.
        - now rewrite Q, repeat_app, app_assoc.
        - rewrite repeat_app, <- app_assoc in Q. now apply app_inv_head in Q. }
      split.
      + intros N. destruct (G1 N) as (e & t & x & A & B & C & D & F & G & H).
        exists e, t, (repeat (rleData r2) (Z.to_nat c) ++ x).
        repeat split; auto; [now apply X|now rewrite C, app_assoc| |].
        * rewrite zlen_app, zlen_repeat, D, zlen_zdrop; lia.
        * rewrite F, zlen_zdrop; lia.
      + destruct G2 as (e & t & x & A & B & C & D & F).
        exists e, t, (repeat (rleData r2) (Z.to_nat c) ++ x).
        rewrite zlen_zdrop in D by lia. pose proof (zlen_pos x). rewrite zdrop_zdrop in C by lia.
        rewrite zlen_app, zlen_repeat.
        repeat split; auto; try lia.
        * rewrite C, <- !app_assoc. repeat f_equal. lia.
        * intros e' y Y. assert (Y' := Y). unfold expf in Y'. rewrite RB in Y'. destruct Y' as (x' & Q & _).
          replace (Z.to_nat (rleCount r2)) with (Z.to_nat c + Z.to_nat (rleCount r2 - c))%nat in Q by lia.
          rewrite repeat_app, <- app_assoc in Q. rewrite Q in Y. apply X in Y.
          apply F in Y. destruct Y as [z Y]. exists z. rewrite Q, Y, <- app_assoc. reflexivity.
    - destruct (readSome s c st2) as [w st3] eqn:Q.
      destruct (readSome_cases s c st2 w st3) as [(t & A & B & C & ->)|(A & B & C & D & _)]; auto; [lia| |].
      + rewrite B, Z.sub_diag, ztake_0, app_nil_r, u16_small by lia. intros H.
        apply IH in H; auto; [|cbn; lia]. destruct H as [G1 G2].
        assert (X : forall e x, expf (mkRle false (rleData r2) (rleCount r2 - c)) e x -> expf r2 (w ++ e) (w ++ x)).
        { intros e x. unfold expf. rewrite RB. cbn [repeatByte rleData rleCount].
          intros (l & e' & x' & -> & L & -> & Y). exists (w ++ l), e', x'. rewrite zlen_app, <- !app_assoc.
          repeat split; auto. lia. }
        assert (RA := rest_advance _ _ _ _ A). rewrite B in RA.
        split.
        * intros N. destruct (G1 N) as (e & t' & x & A' & B' & C' & D' & F' & G' & H').
          exists (w ++ e), t', (w ++ x).
          assert (QA : rest s st2 = (w ++ e) ++ t') by (rewrite A, <- RA, A', app_assoc; reflexivity).
          repeat split; auto; [now rewrite C', app_assoc| | |].
          -- rewrite zlen_app, D', zlen_zdrop; lia.
          -- rewrite F', zlen_zdrop; lia.
          -- rewrite G', advance_advance, zlen_app. f_equal. lia.
        * destruct G2 as (e & t' & x & A' & B' & C' & D' & F').
          exists (w ++ e), t', (w ++ x).
          assert (QA : rest s st2 = (w ++ e) ++ t') by (rewrite A, <- RA, A', app_assoc; reflexivity).
          rewrite zlen_zdrop in D' by lia. pose proof (zlen_pos x). rewrite zdrop_zdrop in C' by lia.
          rewrite !zlen_app. cbn [rPos advance] in B'.
          repeat split; auto; try lia.
          -- rewrite C', <- !app_assoc. repeat f_equal. lia.
          -- intros e' y Y. unfold expf in Y. rewrite RB in Y. destruct Y as (l & e2 & x2 & Q1 & Q2 & Q3 & Y).
             rewrite <- app_assoc in Q1.
             destruct (app_eq_split w (e ++ e') l e2) as (m & -> & Q5); [exact Q1|lia|].
             destruct (F' e' (m ++ x2)) as [z Z].
             { unfold expf. cbn [repeatByte rleCount]. exists m, e2, x2. repeat split; auto. rewrite zlen_app in Q2. lia. }
             exists z. rewrite Q3, <- !app_assoc, Z. reflexivity.
      + rewrite loop_err by (rewrite D by auto; discriminate). intros [= <-].
        unfold good, rle_finish. cbn [rrErr rrBuf rrN rrSt rrRle]. rewrite D by auto. split.
        * destruct (negb _ && _) eqn:Z; [discriminate|discriminate].
        * assert (LW : zlen w <= c). { destruct B as [B| ->]; [lia|]. change (zlen (@nil Z)) with 0. lia. }
          pose proof (zlen_pos w).
          exists w, [], w. rewrite A, app_nil_r. repeat split; auto; try lia.
          -- rewrite <- !app_assoc. f_equal. f_equal.
             replace (zdrop c p) with (zdrop (c - zlen w) (zdrop (zlen w) p)).
             apply ztake_zdrop. rewrite zdrop_zdrop by lia. f_equal. lia.
          -- intros e' y Y. unfold expf in Y. rewrite RB in Y. destruct Y as (l & e2 & x2 & Q1 & Q2 & Q3 & Y).
             destruct (app_eq_split w e' l e2) as (m & -> & _); [exact Q1|lia|].
             exists (m ++ x2). now rewrite Q3, app_assoc. }
  destruct p as [|p0 p']; [rewrite loop_nil; intros [= <-]; apply finish_good; auto|].
  destruct (rErr st) eqn:E; [rewrite loop_err by congruence; intros [= <-]; apply finish_good; right; congruence|].
  destruct (Z.eq_dec (rleCount r) 0) as [Z0|Z0].
  2:{ rewrite loop_pending by (auto; discriminate). apply BODY; auto. discriminate. }
  rewrite loop_header by (auto; discriminate).
  destruct (readUint8 s st) as [m st1] eqn:Q1.
  destruct (readUint8_cases _ _ _ _ Q1) as (e & t & A & B & C & D).
  assert (TRIV : forall buf er r' st', rrErr rr = Some er -> rrBuf rr = out ++ buf -> buf = p0 :: p' ->
            rr = mkRR (out ++ buf) n (Some er) r' st' ->
            (exists e t, rest s st = e ++ t /\ rPos st' = rPos st + zlen e) -> good s out (p0 :: p') n r st rr).
  { intros buf er r' st' X1 X2 -> X3 (e1 & t1 & X4 & X5). rewrite X3 in *. split; [discriminate|].
    exists e1, t1, []. cbn [rrSt rrBuf]. change (zlen (@nil Z)) with 0. rewrite zdrop_0 by lia.
    repeat split; auto; [apply zlen_pos|]. intros e' y _. now exists y. }
  destruct (rErr st1) as [e1|] eqn:E1.
  { intros [= <-]. apply (TRIV (p0 :: p') e1 r st1); auto. exists e, t. auto. }
  destruct (D eq_refl) as (-> & _ & ->).
  destruct (rle_header s m r (advance st 1)) as [r2 st2] eqn:Q2.
  assert (Hm : is_u8 m). { pose proof (bytes_rest s st HB) as BR. rewrite A in BR. now inversion BR. }
  destruct (header_ok s m r (advance st 1) r2 st2 HB Hm E1 Q2) as (e2 & t2 & A2 & B2 & C2 & D2).
  assert (AA : rest s st = (m :: e2) ++ t2) by (rewrite A, <- B, A2; reflexivity).
  destruct (rErr st2) as [er|] eqn:E2.
  { cbn zeta. destruct (rErr (eof_to_unexpected st2)) as [er'|] eqn:ER.
    2:{ unfold eof_to_unexpected in ER. rewrite E2 in ER. destruct er; cbn in ER; congruence. }
    intros [= <-]. apply (TRIV (p0 :: p') er' r2 (eof_to_unexpected st2)); auto.
    exists (m :: e2), t2. split; [assumption|]. rewrite zlen_cons.
    unfold eof_to_unexpected. rewrite E2. cbn [rPos advance] in C2. destruct er; cbn [rPos]; lia. }
  destruct (D2 eq_refl) as (-> & R2 & X).
  intros H. apply BODY in H; auto; [|discriminate]. destruct H as [G1 G2].
  assert (R3 : rest s (advance (advance st 1) (zlen e2)) = t2) by exact B2.
  assert (X' : forall e' y, expands ((m :: e2) ++ e') y <-> expf r2 e' y) by exact X.
  split.
  - intros N. destruct (G1 N) as (e & t' & x & A' & B' & C' & D' & F' & G' & H').
    exists ((m :: e2) ++ e), t', x.
    assert (QA : rest s st = ((m :: e2) ++ e) ++ t') by (rewrite AA, <- R3, A', app_assoc; reflexivity).
    repeat split; auto; [apply expf_0; auto; now apply X'|].
    rewrite G', !advance_advance, zlen_app, zlen_cons. f_equal. lia.
  - destruct G2 as (e & t' & x & A' & B' & C' & D' & F').
    exists ((m :: e2) ++ e), t', x.
    assert (QA : rest s st = ((m :: e2) ++ e) ++ t') by (rewrite AA, <- R3, A', app_assoc; reflexivity).
    repeat split; auto; [cbn [rPos advance] in B'; rewrite zlen_app, zlen_cons; lia|].
    intros e' y Y. apply F' with e'. apply X'. rewrite app_assoc. now apply expf_0 in Y.
Qed.

Lemma read_good s p r st rr : bytes (sFile s) -> sShort s = false -> 0 <= rleCount r < 65536 ->
  rle_Read s p r st = Ret rr -> good s [] p 0 r st rr.
Proof. intros. unfold rle_Read in *. eapply loop_good; eauto. Qed.
