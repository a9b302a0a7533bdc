(** Splitting reads; the deferred copy. *)
Require Import Verif.Base Verif.L_List Verif.L_Word Verif.M_Reader Verif.M_Rle Verif.S_Rle Verif.L_Reader Verif.L_Rle Verif.L_Rle2.
From Coq Require Import ZifyBool ZifyNat.

Definition acc (out : list Z) (n : Z) (o : outcome rle_res) : outcome rle_res :=
  match o with
  | Ret rr => Ret (mkRR (out ++ rrBuf rr) (n + rrN rr) (rrErr rr) (rrRle rr) (rrSt rr))
  | Panic w => Panic w | NoFuel => NoFuel
  end.
Lemma acc_acc a n b m o : acc a n (acc b m o) = acc (a ++ b) (n + m) o.
Proof. destruct o as [rr| |]; cbn; try reflexivity. now rewrite app_assoc, Z.add_assoc. Qed.
Lemma acc_0 o : acc [] 0 o = o.
Proof. destruct o as [[]| |]; reflexivity. Qed.
Lemma loop_acc fuel : forall s out p n r st,
  rle_loop fuel s out p n r st = acc out n (rle_loop fuel s [] p 0 r st).
Proof.
  assert (FIN : forall out p n r st, Ret (rle_finish out p n r st) = acc out n (Ret (rle_finish [] p 0 r st))).
  { intros. unfold rle_finish. cbn [acc rrBuf rrN rrErr rrRle rrSt app]. now rewrite Z.add_0_r. }
  induction fuel as [|fuel IH]; intros s out p n r st.
  - destruct p as [|p0 p']; [rewrite !loop_nil; apply FIN|].
    destruct (rErr st) eqn:E; [rewrite !loop_err by congruence; apply FIN|].
    cbn [rle_loop]. rewrite E. reflexivity.
  - assert (BODY : forall r2 st2, rle_body fuel s out p n r2 st2 = acc out n (rle_body fuel s [] p 0 r2 st2)).
    { intros. unfold rle_body. destruct (if repeatByte r2 then _ else _) as [w st3].
      rewrite (IH s (out ++ _)), (IH s ([] ++ _)), acc_acc. reflexivity. }
    destruct p as [|p0 p']; [rewrite !loop_nil; apply FIN|].
    destruct (rErr st) eqn:E; [rewrite !loop_err by congruence; apply FIN|].
    destruct (Z.eq_dec (rleCount r) 0) as [Z0|Z0].
    + rewrite !loop_header by (auto; discriminate).
      destruct (readUint8 s st) as [m st1]. destruct (rErr st1); [cbn; now rewrite Z.add_0_r|].
      destruct (rle_header s m r st1) as [r2 st2]. destruct (rErr st2); [cbn; now rewrite Z.add_0_r|].
      apply BODY.
    + rewrite !loop_pending by (auto; discriminate). apply BODY.
Qed.
Lemma loop_mono fuel : forall fuel' s out p n r st rr, (fuel <= fuel')%nat ->
  rle_loop fuel s out p n r st = Ret rr -> rle_loop fuel' s out p n r st = Ret rr.
Proof.
  induction fuel as [|fuel IH]; intros fuel' s out p n r st rr L.
  - destruct p as [|p0 p']; [now rewrite !loop_nil|].
    destruct (rErr st) eqn:E; [now rewrite !loop_err by congruence|].
    cbn [rle_loop]. rewrite E. discriminate.
  - destruct p as [|p0 p']; [now rewrite !loop_nil|].
    destruct (rErr st) eqn:E; [now rewrite !loop_err by congruence|].
    destruct fuel' as [|fuel']; [lia|].
    assert (BODY : forall r2 st2, rle_body fuel s out (p0 :: p') n r2 st2 = Ret rr ->
                                  rle_body fuel' s out (p0 :: p') n r2 st2 = Ret rr).
    { intros r2 st2. unfold rle_body. destruct (if repeatByte r2 then _ else _) as [w st3]. apply IH. lia. }
    destruct (Z.eq_dec (rleCount r) 0) as [Z0|Z0].
    + rewrite !loop_header by (auto; discriminate).
      destruct (readUint8 s st) as [m st1]. destruct (rErr st1); [auto|].
      destruct (rle_header s m r st1) as [r2 st2]. destruct (rErr st2); [auto|]. apply BODY.
    + rewrite !loop_pending by (auto; discriminate). apply BODY.
Qed.
Lemma loop_det f1 f2 s out p n r st a b : rle_loop f1 s out p n r st = Ret a ->
  rle_loop f2 s out p n r st = Ret b -> a = b.
Proof.
  intros A B. apply (loop_mono f1 (Nat.max f1 f2)) in A; [|lia]. apply (loop_mono f2 (Nat.max f1 f2)) in B; [|lia].
  congruence.
Qed.

Lemma readSome_split s a b st w1 st1 : sShort s = false -> rErr st = None -> 0 < a -> 0 < b ->
  readSome s a st = (w1, st1) ->
  readSome s (a + b) st = match rErr st1 with
                          | None => let (w2, st2) := readSome s b st1 in (w1 ++ w2, st2)
                          | Some _ => (w1, st1)
                          end.
Proof.
  intros S E A B H. destruct (readSome_cases s a st w1 st1) as [(t & Q & L & N & ->)|(Q & L & P & D & _)]; auto; [lia| |].
  - rewrite advance_err, E.
    assert (RA := rest_advance _ _ _ _ Q). rewrite L in RA.
    destruct (readSome s b (advance st a)) as [w2 st2] eqn:H2.
    destruct (readSome_cases s b (advance st a) w2 st2) as [(t2 & Q2 & L2 & N2 & ->)|(Q2 & L2 & P2 & D2 & _)]; auto; [lia| |].
    + rewrite (readSome_ok s (a + b) st (w1 ++ w2) t2); auto.
      * now rewrite advance_advance.
      * rewrite Q, <- app_assoc. f_equal. congruence.
      * rewrite zlen_app. lia.
      * intros X. apply app_eq_nil in X. destruct X as [X _]. apply app_eq_nil in X. destruct X as [-> _].
        change (zlen (@nil Z)) with 0 in L. lia.
    + assert (T : w2 = t) by congruence. clear Q2. subst w2.
      unfold readSome. rewrite E, Q, zlen_app.
      destruct (w1 ++ t) as [|x y] eqn:X; [congruence|].
      assert (LT : zlen t < b). { destruct L2 as [L2|L2]; [lia|rewrite L2]. change (zlen (@nil Z)) with 0. lia. }
      replace (a + b <=? zlen w1 + zlen t) with false by lia. rewrite S. f_equal.
      destruct st2 as [p2 e2]. cbn [rPos rErr advance] in *. f_equal; [lia|]. symmetry. apply D2. auto.
  - rewrite D by auto. unfold readSome. rewrite E, Q.
    assert (ST : st1 = mkR (rPos st + zlen w1) (Some EEOF)).
    { destruct st1 as [p1 e1]. cbn [rPos rErr] in *. f_equal; [assumption|]. apply D. auto. }
    destruct w1 as [|x y] eqn:X.
    + rewrite ST. unfold withErr. f_equal. f_equal. change (zlen (@nil Z)) with 0. lia.
    + assert (LT : zlen (x :: y) < a). { destruct L as [L|L]; [lia|discriminate]. }
      replace (a + b <=? zlen (x :: y)) with false by lia. now rewrite S, ST.
Qed.

Definition split_ok (p1 p2 : list Z) (rr1 rr2 rr : rle_res) : Prop :=
  rrBuf rr = rrBuf rr1 ++ rrBuf rr2 /\ rrSt rr = rrSt rr2 /\
  (rErr (rrSt rr) = None -> rrRle rr = rrRle rr2 /\ rrN rr = rrN rr1 + rrN rr2 /\ rrErr rr = rrErr rr2).

Lemma stale_ok (w p q : list Z) c : zlen w <= c -> c <= zlen p ->
  ztake (c - zlen w) (zdrop (zlen w) (p ++ q)) = ztake (c - zlen w) (zdrop (zlen w) p).
Proof.
  intros. pose proof (zlen_pos w). rewrite zdrop_app1 by lia. apply ztake_app1. rewrite zlen_zdrop; lia.
Qed.
Lemma stale_rest (w p : list Z) c : zlen w <= c -> c <= zlen p ->
  ztake (c - zlen w) (zdrop (zlen w) p) ++ zdrop c p = zdrop (zlen w) p.
Proof.
  intros. pose proof (zlen_pos w).
  replace (zdrop c p) with (zdrop (c - zlen w) (zdrop (zlen w) p)) by (rewrite zdrop_zdrop by lia; f_equal; lia).
  apply ztake_zdrop.
Qed.

Lemma acc_ret a n o rr : acc a n o = Ret rr -> exists rr0, o = Ret rr0 /\
  rr = mkRR (a ++ rrBuf rr0) (n + rrN rr0) (rrErr rr0) (rrRle rr0) (rrSt rr0).
Proof. destruct o as [rr0| |]; cbn; try discriminate. intros [= <-]. eauto. Qed.

Lemma loop_split f1 : forall s p1 p2 r st rr1 rr2 rr f2 f, bytes (sFile s) -> sShort s = false ->
  0 <= rleCount r < 65536 ->
  rle_loop f1 s [] p1 0 r st = Ret rr1 ->
  rle_loop f2 s [] p2 0 (rrRle rr1) (rrSt rr1) = Ret rr2 ->
  rle_loop f s [] (p1 ++ p2) 0 r st = Ret rr -> split_ok p1 p2 rr1 rr2 rr.
Proof.
  assert (NIL : forall f1 s p2 r st rr1 rr2 rr f2 f, rle_loop f1 s [] [] 0 r st = Ret rr1 ->
     rle_loop f2 s [] p2 0 (rrRle rr1) (rrSt rr1) = Ret rr2 ->
     rle_loop f s [] p2 0 r st = Ret rr -> split_ok [] p2 rr1 rr2 rr).
  { intros g1 s p2 r st rr1 rr2 rr f2 f. rewrite loop_nil. intros [= <-]. unfold rle_finish at 1 2. cbn [rrRle rrSt].
    intros A B. rewrite (loop_det _ _ _ _ _ _ _ _ _ _ A B). unfold split_ok, rle_finish. cbn. auto. }
  assert (ERR : forall f1 s p1 p2 r st rr1 rr2 rr f2 f, rErr st <> None -> rle_loop f1 s [] p1 0 r st = Ret rr1 ->
     rle_loop f2 s [] p2 0 (rrRle rr1) (rrSt rr1) = Ret rr2 ->
     rle_loop f s [] (p1 ++ p2) 0 r st = Ret rr -> split_ok p1 p2 rr1 rr2 rr).
  { intros g1 s p1 p2 r st rr1 rr2 rr f2 f E. rewrite loop_err by assumption. intros [= <-].
    unfold rle_finish at 1 2. cbn [rrRle rrSt]. rewrite !loop_err by assumption. intros [= <-] [= <-].
    unfold split_ok, rle_finish. cbn. auto. }
  induction f1 as [|f1 IH]; intros s p1 p2 r st rr1 rr2 rr f2 f HB HS HC.
  { destruct p1 as [|x p1]; [apply NIL|].
    destruct (rErr st) eqn:E; [apply ERR; congruence|]. cbn [rle_loop]. rewrite E. discriminate. }
  destruct p1 as [|x p1]; [apply NIL|].
  destruct (rErr st) eqn:E; [apply ERR; congruence|].
  destruct f as [|f]; [cbn [rle_loop app]; rewrite E; discriminate|].
  set (P1 := x :: p1) in *.
  assert (PL : 0 < zlen P1) by (unfold P1; rewrite zlen_cons; pose proof (zlen_pos p1); lia).
  assert (BODY : forall r2 st2, rErr st2 = None -> 0 <= rleCount r2 < 65536 ->
    rle_body f1 s [] P1 0 r2 st2 = Ret rr1 ->
    rle_loop f2 s [] p2 0 (rrRle rr1) (rrSt rr1) = Ret rr2 ->
    rle_body f s [] (P1 ++ p2) 0 r2 st2 = Ret rr -> split_ok P1 p2 rr1 rr2 rr).
  { clear r st E HC. intros r st E HC. unfold rle_body. rewrite zlen_app. pose proof (zlen_pos p2).
    destruct (Z.leb_spec (rleCount r) (zlen P1)) as [LE|GT].
    - (* the run ends within the first part *)
      rewrite !Z.min_l by lia.
      destruct (if repeatByte r then _ else _) as [w st3] eqn:Q.
      assert (LW : zlen w <= rleCount r).
      { destruct (repeatByte r); [injection Q as <- _; rewrite zlen_repeat; lia|].
        apply readSome_rest in Q; auto; lia. }
      rewrite stale_ok by lia. rewrite zdrop_app1 by lia. set (W := [] ++ _).
      rewrite (loop_acc f1 s W), (loop_acc f s W). intros A B C.
      apply acc_ret in A. destruct A as (q1 & A & ->). apply acc_ret in C. destruct C as (q & C & ->).
      cbn [rrRle rrSt] in B.
      assert (I : split_ok (zdrop (rleCount r) P1) p2 q1 rr2 q).
      { refine (IH s _ p2 _ st3 q1 rr2 q f2 f HB HS _ A B C). cbn [rleCount]. apply u16_range. }
      destruct I as (I1 & I2 & I3). unfold split_ok. cbn [rrBuf rrSt rrRle rrN rrErr].
      rewrite I1, app_assoc. split; [reflexivity|]. split; [assumption|]. intros N; destruct (I3 N) as (? & ? & ?). repeat split; auto; lia.
    - (* it goes on into the second *)
      rewrite (Z.min_r _ (zlen P1)) by lia. rewrite zdrop_all by lia. rewrite u16_small by lia.
      set (c1 := zlen P1) in *.
      destruct (repeatByte r) eqn:RB.
      + rewrite !zlen_repeat. rewrite !Z2Nat.id by lia. rewrite !Z.sub_diag, !ztake_0, !app_nil_r by lia.
        rewrite loop_nil. intros [= <-]. unfold rle_finish at 1 2. cbn [rrRle rrSt].
        destruct p2 as [|y p2].
        * change (zlen (@nil Z)) with 0 in *. rewrite Z.add_0_r, Z.min_r, app_nil_r by lia.
          rewrite zdrop_all by (fold c1; lia). rewrite !loop_nil. intros [= <-] [= <-].
          unfold split_ok, rle_finish. cbn. rewrite u16_small by lia. rewrite ?app_nil_r. repeat split; auto; try lia.
        * set (P2 := y :: p2) in *. destruct f2 as [|f2]; [cbn [rle_loop P2]; rewrite E; discriminate|].
          assert (PL2 : 0 < zlen P2) by (unfold P2; rewrite zlen_cons; pose proof (zlen_pos p2); lia).
          rewrite loop_pending; [|discriminate|assumption|cbn; lia].
          unfold rle_body. cbn [rleCount repeatByte rleData].
          set (c2 := Z.min (rleCount r - c1) (zlen P2)).
          replace (Z.min (rleCount r) (c1 + zlen P2)) with (c1 + c2) by lia.
          rewrite zlen_repeat, Z2Nat.id, Z.sub_diag, ztake_0, app_nil_r by lia.
          rewrite zdrop_app2 by (fold c1; lia). fold c1. replace (c1 + c2 - c1) with c2 by lia.
          replace (rleCount r - (c1 + c2)) with (rleCount r - c1 - c2) by lia.
          rewrite (loop_acc f2), (loop_acc f). intros B C.
          apply acc_ret in B. destruct B as (q2 & B & ->). apply acc_ret in C. destruct C as (q & C & ->).
          rewrite (loop_det _ _ _ _ _ _ _ _ _ _ B C).
          unfold split_ok, rle_finish. cbn. rewrite Z2Nat.inj_add, repeat_app by lia.
          rewrite app_nil_r, app_assoc. repeat split; auto. lia.
      + destruct (readSome s c1 st) as [w1 st1] eqn:Q1.
        destruct p2 as [|y p2].
        { change (zlen (@nil Z)) with 0 in *. rewrite Z.add_0_r, Z.min_r, app_nil_r by lia.
          rewrite Q1. rewrite (zdrop_all c1 P1) by (fold c1; lia). rewrite !loop_nil. intros [= <-].
          unfold rle_finish at 1 2. cbn [rrRle rrSt]. intros [= <-] [= <-].
          rewrite u16_small by lia.
          unfold split_ok, rle_finish. cbn. rewrite !app_nil_r. repeat split; auto; lia. }
        set (P2 := y :: p2) in *.
        assert (PL2 : 0 < zlen P2) by (unfold P2; rewrite zlen_cons; pose proof (zlen_pos p2); lia).
        set (c2 := Z.min (rleCount r - c1) (zlen P2)).
        replace (Z.min (rleCount r) (c1 + zlen P2)) with (c1 + c2) by lia.
        rewrite (readSome_split s c1 c2 st w1 st1) by (auto; lia).
        rewrite loop_nil. intros [= <-]. unfold rle_finish at 1 2. cbn [rrRle rrSt].
        assert (C10 : 0 <= c1) by lia.
        destruct (readSome_cases s c1 st w1 st1 C10 E Q1) as [(t & QQ & L & N & ->)|(QQ & L & PP & D & _)].
        * rewrite advance_err, E.
          destruct f2 as [|f2]; [cbn [rle_loop P2]; rewrite advance_err, E; discriminate|].
          rewrite loop_pending; [|discriminate|assumption|cbn; lia].
          unfold rle_body. cbn [rleCount repeatByte rleData]. fold c2.
          destruct (readSome s c2 (advance st c1)) as [w2 st2] eqn:Q2.
          assert (LW2 : zlen w2 <= c2) by (apply readSome_rest in Q2; auto; lia).
          pose proof (zlen_pos w2).
          rewrite zlen_app, L. rewrite !zdrop_app2 by (fold c1; lia). fold c1.
          replace (c1 + c2 - c1) with c2 by lia.
          replace (c1 + zlen w2 - c1) with (zlen w2) by lia.
          replace (c1 + c2 - (c1 + zlen w2)) with (c2 - zlen w2) by lia.
          replace (rleCount r - (c1 + c2)) with (rleCount r - c1 - c2) by lia.
          rewrite (loop_acc f2), (loop_acc f). intros B C.
          apply acc_ret in B. destruct B as (q2 & B & ->). apply acc_ret in C. destruct C as (q & C & ->).
          rewrite (loop_det _ _ _ _ _ _ _ _ _ _ B C).
          unfold split_ok, rle_finish. cbn [rrBuf rrSt rrRle rrN rrErr app].
          rewrite ?L. rewrite Z.sub_diag, (ztake_0 0) by lia. rewrite !app_nil_r, <- !app_assoc. repeat split; auto. lia.
        * rewrite D by auto. rewrite !loop_err by (rewrite D by auto; discriminate). intros [= <-] [= <-].
          unfold split_ok, rle_finish. cbn [rrBuf rrSt rrRle rrN rrErr]. rewrite !app_nil_l.
          assert (LW : zlen w1 <= c1). { destruct L as [L| ->]; [lia|]. change (zlen (@nil Z)) with 0. lia. }
          rewrite (D (or_intror HS)). repeat split; try discriminate.
          rewrite app_nil_r, <- !app_assoc. f_equal.
          assert (C2 : 0 < c2 <= zlen P2) by (unfold c2; lia).
          change (x :: p1 ++ P2) with (P1 ++ P2).
          rewrite stale_rest by (rewrite ?zlen_app; fold c1; lia).
          rewrite zdrop_app1 by (fold c1; lia).
          rewrite (ztake_all (c1 - zlen w1)); [reflexivity|].
          pose proof (zlen_pos w1). rewrite zlen_zdrop; fold c1; lia. }
  assert (NE : P1 <> []) by discriminate.
  assert (NE2 : P1 ++ p2 <> []) by discriminate.
  destruct (Z.eq_dec (rleCount r) 0) as [Z0|Z0].
  2:{ rewrite !loop_pending by auto. now apply BODY. }
  rewrite !loop_header by auto.
  destruct (readUint8 s st) as [m st1] eqn:Q1. destruct (rErr st1) as [e1|] eqn:E1.
  { intros [= <-]. cbn [rrRle rrSt]. rewrite loop_err by congruence. intros [= <-] [= <-].
    unfold split_ok, rle_finish. cbn. rewrite E1. repeat split; auto; discriminate. }
  destruct (rle_header s m r st1) as [r2 st2] eqn:Q2.
  destruct (readUint8_cases _ _ _ _ Q1) as (e & t & A & B & C & D). destruct (D E1) as (-> & _ & ->).
  assert (Hm : is_u8 m). { pose proof (bytes_rest s st HB) as BR. rewrite A in BR. now inversion BR. }
  destruct (header_ok s m r (advance st 1) r2 st2 HB Hm E1 Q2) as (e2 & t2 & A2 & B2 & C2 & D2).
  destruct (rErr st2) as [er|] eqn:E2.
  { cbn zeta. intros [= <-]. cbn [rrRle rrSt].
    assert (ER : rErr (eof_to_unexpected st2) <> None).
    { unfold eof_to_unexpected. rewrite E2. destruct er; cbn; congruence. }
    rewrite loop_err by assumption. intros [= <-] [= <-].
    unfold split_ok, rle_finish. cbn. repeat split; auto; congruence. }
  destruct (D2 eq_refl) as (_ & R2 & _). now apply BODY.
Qed.
Lemma read_split s p1 p2 r st rr1 rr2 rr : bytes (sFile s) -> sShort s = false -> 0 <= rleCount r < 65536 ->
  rle_Read s p1 r st = Ret rr1 -> rle_Read s p2 (rrRle rr1) (rrSt rr1) = Ret rr2 ->
  rle_Read s (p1 ++ p2) r st = Ret rr -> split_ok p1 p2 rr1 rr2 rr.
Proof. unfold rle_Read. intros. eapply loop_split; eauto. Qed.

(** ** The deferred copy *)
Lemma be16_hl h l : is_u8 h -> is_u8 l -> be16 (256 * h + l) = [h; l].
Proof.
  intros H L. unfold be16, is_u8 in *. rewrite u16_id by lia.
  replace (256 * h + l) with (l + h * 256) by lia.
  rewrite Z.div_add, Z.mod_add, Z.div_small, Z.mod_small by lia. reflexivity.
Qed.

Lemma copyN_total s k st w st' : 0 <= k -> copyN s k st = (w, st') -> (length (rest s st') <= length (rest s st))%nat.
Proof.
  intros K. unfold copyN. destruct (k <=? 0); [intros [= _ <-]; lia|].
  destruct (rErr st); [intros [= _ <-]; lia|].
  destruct (k <=? zlen (rest s st)) eqn:B; intros [= <- <-].
  - destruct (split_at k (rest s st)) as (a & b & Q & L); [lia|].
    subst k. rewrite (rest_advance s st a b Q), Q, app_length. lia.
  - rewrite rest_end by reflexivity. cbn. lia.
Qed.
Lemma readRLE_total fuel : forall s count out st, bytes (sFile s) ->
  (Z.to_nat count + length (rest s st) < fuel)%nat -> exists x, readRLE_loop fuel s count out st = Ret x.
Proof.
  induction fuel as [|fuel IH]; intros s count out st HB HF; [lia|]. cbn [readRLE_loop].
  destruct (0 <? count) eqn:B; [|eauto].
  destruct (readUint8 s st) as [c st1] eqn:Q1.
  destruct (readUint8_cases _ _ _ _ Q1) as (e & t & A1 & A2 & A3 & A4).
  assert (L1 : (length (rest s st1) <= length (rest s st))%nat) by (rewrite A1, A2, app_length; lia).
  assert (C : is_u8 c /\ (c <> 0 -> (length (rest s st1) < length (rest s st))%nat)).
  { destruct (rErr st1) eqn:E1.
    - assert (c = 0) as ->; [|unfold is_u8; lia].
      unfold readUint8, readBE in Q1. destruct (readFull s 1 st) as [o s1] eqn:Q. injection Q1 as <- <-.
      destruct (readFull_cases s 1 st o s1) as [(? & ? & ? & ? & ->)|[(? & ? & ? & ? & ? & -> & ->)|(? & ? & -> & ?)]]; auto; [lia|].
      cbn in E1. congruence.
    - destruct (A4 eq_refl) as (-> & _ & _). pose proof (bytes_rest s st HB) as BR. rewrite A1 in BR.
      split; [now inversion BR|]. intros _. rewrite A1, A2. cbn. lia. }
  destruct C as [Cr Cl]. unfold is_u8 in Cr.
  destruct (c <? 127) eqn:C1.
  { destruct (readUint8 s st1) as [d st2] eqn:Q2.
    destruct (readUint8_cases _ _ _ _ Q2) as (e2 & t2 & B1 & B2 & _).
    apply IH; auto. rewrite B2. rewrite B1, app_length in L1. lia. }
  specialize (Cl ltac:(lia)).
  destruct (c =? 127) eqn:C2.
  { destruct (readUint16 s st1) as [p st2] eqn:Q2. destruct (readUint8 s st2) as [d st3] eqn:Q3.
    destruct (readUint16_cases _ _ _ _ Q2) as (e2 & t2 & B1 & B2 & B3 & B4).
    destruct (readUint8_cases _ _ _ _ Q3) as (e3 & t3 & D1 & D2 & _).
    assert (P0 : 0 <= p).
    { unfold readUint16, readBE in Q2. destruct (readFull s 2 st1) as [o s1] eqn:Q. injection Q2 as <- <-.
      destruct (readFull_cases s 2 st1 o s1) as [(? & ? & ? & ? & ->)|[(? & x & y & X & L & -> & ->)|(? & ? & -> & ?)]]; auto; try lia.
      destruct (len2 x L) as (h & l & ->). rewrite be2.
      pose proof (bytes_rest s st1 HB) as BR. rewrite X in BR. inversion BR as [|? ? Bh BR1]; subst. inversion BR1; subst.
      unfold is_u8 in *. lia. }
    apply IH; auto. rewrite D2. rewrite <- B2 in *. rewrite B1, app_length, D1, app_length in Cl. lia. }
  destruct (c =? 128) eqn:C3.
  { destruct (readUint16 s st1) as [p st2] eqn:Q2. destruct (copyN s p st2) as [w st3] eqn:Q3.
    destruct (readUint16_cases _ _ _ _ Q2) as (e2 & t2 & B1 & B2 & B3 & B4).
    assert (P0 : 0 <= p).
    { unfold readUint16, readBE in Q2. destruct (readFull s 2 st1) as [o s1] eqn:Q. injection Q2 as <- <-.
      destruct (readFull_cases s 2 st1 o s1) as [(? & ? & ? & ? & ->)|[(? & x & y & X & L & -> & ->)|(? & ? & -> & ?)]]; auto; try lia.
      destruct (len2 x L) as (h & l & ->). rewrite be2.
      pose proof (bytes_rest s st1 HB) as BR. rewrite X in BR. inversion BR as [|? ? Bh BR1]; subst. inversion BR1; subst.
      unfold is_u8 in *. lia. }
    apply copyN_total in Q3; [|assumption].
    apply IH; auto. rewrite B2 in Q3. rewrite B1, app_length in Cl. lia. }
  destruct (copyN s (256 - c) st1) as [w st2] eqn:Q2. apply copyN_total in Q2; [|lia].
  apply IH; auto. lia.
Qed.

Lemma readRLE_complete e x : tight e x -> forall fuel s out st t,
  rest s st = e ++ t -> rErr st = None -> (length e <= fuel)%nat ->
  readRLE_loop fuel s (zlen x) out st = Ret (out ++ e, None, advance st (zlen e)).
Proof.
  induction 1 as [|m d e x Hm He IH|h l d e x Hh Hl He IH Hpos|h l ds e x Hh Hl Hd He IH Hpos|m ds e x Hm Hd He IH];
    intros fuel s out st t R E F; try pose proof (zlen_pos x); unfold bytes in *.
  - change (zlen (@nil Z)) with 0. rewrite advance_0, app_nil_r. destruct fuel; reflexivity.
  - destruct fuel as [|fuel]; [cbn in F; lia|]. cbn [readRLE_loop].
    rewrite zlen_app, zlen_repeat. replace (0 <? Z.of_nat (Z.to_nat (m + 1)) + zlen x) with true by lia.
    cbn [app] in R. rewrite (readUint8_ok _ _ _ _ E R). replace (m <? 127) with true by lia.
    pose proof (adv_rest1 _ _ _ _ R) as R1. rewrite (readUint8_ok s (advance st 1) d (e ++ t)); auto.
    replace (Z.of_nat (Z.to_nat (m + 1)) + zlen x - (m + 1)) with (zlen x) by lia.
    pose proof (adv_rest1 _ _ _ _ R1) as R2.
    rewrite (IH fuel s _ _ t); auto; [|cbn in F; lia].
    rewrite !advance_advance, !zlen_cons, <- app_assoc. cbn [app].
    repeat (f_equal; try lia).
  - pose proof (hl_range h l Hh Hl) as HR.
    destruct fuel as [|fuel]; [cbn in F; lia|]. cbn [readRLE_loop].
    rewrite zlen_app, zlen_repeat. replace (0 <? Z.of_nat (Z.to_nat (256 * h + l)) + zlen x) with true by lia.
    cbn [app] in R. rewrite (readUint8_ok _ _ _ _ E R).
    change (127 <? 127) with false. change (127 =? 127) with true. cbn iota.
    pose proof (adv_rest1 _ _ _ _ R) as R1. rewrite (readUint16_ok s (advance st 1) h l (d :: e ++ t)); auto.
    pose proof (adv_rest2 _ _ _ _ _ R1) as R2. rewrite (readUint8_ok s _ d (e ++ t)); auto.
    pose proof (adv_rest1 _ _ _ _ R2) as R3.
    replace (Z.of_nat (Z.to_nat (256 * h + l)) + zlen x - (256 * h + l)) with (zlen x) by lia.
    rewrite (IH fuel s _ _ t); auto; [|cbn in F; lia].
    rewrite be16_hl by assumption. rewrite !advance_advance, !zlen_cons, <- app_assoc. cbn [app].
    repeat (f_equal; try lia).
  - pose proof (hl_range h l Hh Hl) as HR.
    destruct fuel as [|fuel]; [cbn in F; lia|]. cbn [readRLE_loop].
    rewrite zlen_app. replace (0 <? zlen ds + zlen x) with true by lia.
    cbn [app] in R. rewrite (readUint8_ok _ _ _ _ E R).
    change (128 <? 127) with false. change (128 =? 127) with false. change (128 =? 128) with true. cbn iota.
    pose proof (adv_rest1 _ _ _ _ R) as R1. rewrite (readUint16_ok s (advance st 1) h l ((ds ++ e) ++ t)); auto.
    pose proof (adv_rest2 _ _ _ _ _ R1) as R2. rewrite <- app_assoc in R2.
    rewrite (copyN_ok s (256 * h + l) (advance (advance st 1) 2) ds (e ++ t)); auto.
    pose proof (rest_advance _ _ _ _ R2) as R3. rewrite Hd in R3.
    replace (zlen ds + zlen x - (256 * h + l)) with (zlen x) by lia.
    rewrite (IH fuel s _ _ t); auto; [|cbn in F; rewrite app_length in F; lia].
    rewrite be16_hl by assumption. rewrite !advance_advance, !zlen_cons, zlen_app, <- !app_assoc. cbn [app].
    repeat (f_equal; try lia).
  - destruct fuel as [|fuel]; [cbn in F; lia|]. cbn [readRLE_loop].
    rewrite zlen_app. replace (0 <? zlen ds + zlen x) with true by lia.
    cbn [app] in R. rewrite (readUint8_ok _ _ _ _ E R).
    replace (m <? 127) with false by lia. replace (m =? 127) with false by lia. replace (m =? 128) with false by lia.
    pose proof (adv_rest1 _ _ _ _ R) as R1. rewrite <- app_assoc in R1.
    rewrite (copyN_ok s (256 - m) (advance st 1) ds (e ++ t)); auto.
    pose proof (rest_advance _ _ _ _ R1) as R3. rewrite Hd in R3.
    replace (zlen ds + zlen x - (256 - m)) with (zlen x) by lia.
    rewrite (IH fuel s _ _ t); auto; [|cbn in F; rewrite app_length in F; lia].
    rewrite !advance_advance, !zlen_cons, zlen_app, <- !app_assoc. cbn [app].
    repeat (f_equal; try lia).
Qed.

Lemma readBE_sticky s k st v st' : readBE s k st = (v, st') -> rErr st' = None -> rErr st = None.
Proof.
  unfold readBE, readFull. destruct (rErr st) eqn:E; [|reflexivity]. intros [= _ <-]. congruence.
Qed.
Lemma copyN_sticky s k st v st' : copyN s k st = (v, st') -> rErr st' = None -> rErr st = None.
Proof.
  unfold copyN. destruct (rErr st) eqn:E; [|reflexivity]. destruct (k <=? 0); intros [= _ <-]; congruence.
Qed.
Lemma readRLE_sticky fuel : forall s count out st out' er st',
  readRLE_loop fuel s count out st = Ret (out', er, st') -> rErr st' = None -> rErr st = None.
Proof.
  induction fuel as [|fuel IH]; intros s count out st out' er st' H N; cbn [readRLE_loop] in H;
    (destruct (0 <? count); [|injection H as _ _ <-; exact N]); [discriminate|].
  destruct (readUint8 s st) as [c st1] eqn:Q1. apply (readBE_sticky _ _ _ _ _ Q1).
  destruct (c <? 127).
  { destruct (readUint8 s st1) as [d st2] eqn:Q2. apply (readBE_sticky _ _ _ _ _ Q2). eauto. }
  destruct (c =? 127).
  { destruct (readUint16 s st1) as [p st2] eqn:Q2. destruct (readUint8 s st2) as [d st3] eqn:Q3.
    apply (readBE_sticky _ _ _ _ _ Q2), (readBE_sticky _ _ _ _ _ Q3). eauto. }
  destruct (c =? 128).
  { destruct (readUint16 s st1) as [p st2] eqn:Q2. destruct (copyN s p st2) as [w st3] eqn:Q3.
    apply (readBE_sticky _ _ _ _ _ Q2), (copyN_sticky _ _ _ _ _ Q3). eauto. }
  destruct (copyN s (256 - c) st1) as [w st3] eqn:Q3. apply (copyN_sticky _ _ _ _ _ Q3). eauto.
Qed.
Lemma readRLE_sound fuel : forall s count out st out' st', bytes (sFile s) -> 0 <= count ->
  readRLE_loop fuel s count out st = Ret (out', None, st') -> rErr st' = None ->
  exists e t x, rest s st = e ++ t /\ tight e x /\ zlen x = count /\ out' = out ++ e /\ st' = advance st (zlen e).
Proof.
  induction fuel as [|fuel IH]; intros s count out st out' st' HB HC H N.
  { cbn [readRLE_loop] in H. destruct (0 <? count) eqn:B; [discriminate|]. assert (count = 0) as -> by lia.
    injection H as <- <-. exists [], (rest s st), []. rewrite app_nil_r. change (zlen (@nil Z)) with 0. rewrite advance_0.
    repeat split. constructor. }
  cbn [readRLE_loop] in H. destruct (0 <? count) eqn:B.
  2:{ assert (count = 0) as -> by lia.
    injection H as <- <-. exists [], (rest s st), []. rewrite app_nil_r. change (zlen (@nil Z)) with 0. rewrite advance_0.
    repeat split. constructor. }
  assert (NEG : forall c o s1, readRLE_loop fuel s c o s1 = Ret (out', None, st') -> 0 <= c).
  { intros c o s1. destruct fuel; cbn [readRLE_loop]; destruct (0 <? c) eqn:C; try lia; destruct (c <? 0) eqn:C'; try lia; discriminate. }
  pose proof (bytes_rest s st HB) as BR.
  destruct (readUint8 s st) as [c st1] eqn:Q1.
  destruct (readUint8_cases _ _ _ _ Q1) as (e & t & A1 & A2 & A3 & A4).
  destruct (c <? 127) eqn:C1.
  { destruct (readUint8 s st1) as [d st2] eqn:Q2.
    destruct (readUint8_cases _ _ _ _ Q2) as (e2 & t2 & B1 & B2 & B3 & B4).
    pose proof (NEG _ _ _ H) as C0. pose proof (readRLE_sticky _ _ _ _ _ _ _ _ H N) as N2.
    destruct (B4 N2) as (-> & N1 & ->). destruct (A4 N1) as (-> & _ & ->).
    apply IH in H; auto. destruct H as (e & t' & x & X1 & X2 & X3 & X4 & X5).
    assert (is_u8 c) by (rewrite A1 in BR; now inversion BR). unfold is_u8 in *.
    exists (c :: d :: e), t', (repeat d (Z.to_nat (c + 1)) ++ x).
    rewrite A1, <- A2, B1, <- B2, X1. repeat split.
    - constructor; [lia|assumption].
    - rewrite zlen_app, zlen_repeat. lia.
    - rewrite X4, <- app_assoc. reflexivity.
    - rewrite X5, !advance_advance, !zlen_cons. repeat (f_equal; try lia). }
  destruct (c =? 127) eqn:C2.
  { destruct (readUint16 s st1) as [p st2] eqn:Q2. destruct (readUint8 s st2) as [d st3] eqn:Q3.
    destruct (readUint16_cases _ _ _ _ Q2) as (e2 & t2 & B1 & B2 & B3 & B4).
    destruct (readUint8_cases _ _ _ _ Q3) as (e3 & t3 & D1 & D2 & D3 & D4).
    pose proof (NEG _ _ _ H) as C0. pose proof (readRLE_sticky _ _ _ _ _ _ _ _ H N) as N3.
    destruct (D4 N3) as (-> & N2 & ->). destruct (B4 N2) as (h & l & -> & -> & N1 & ->). destruct (A4 N1) as (-> & _ & ->).
    rewrite A1, <- A2, B1 in BR. unfold bytes in BR. cbn [app] in BR. rewrite !Forall_cons_iff in BR. destruct BR as (_ & Bh & Bl & _).
    apply IH in H; auto. destruct H as (e & t' & x & X1 & X2 & X3 & X4 & X5).
    exists (c :: h :: l :: d :: e), t', (repeat d (Z.to_nat (256 * h + l)) ++ x).
    pose proof (hl_range h l Bh Bl). assert (c = 127) as -> by lia.
    rewrite A1, <- A2, B1, <- B2, D1, <- D2, X1. repeat split.
    - constructor; auto. lia.
    - rewrite zlen_app, zlen_repeat. lia.
    - rewrite X4, be16_hl by assumption. rewrite <- app_assoc. reflexivity.
    - rewrite X5, !advance_advance, !zlen_cons. repeat (f_equal; try lia). }
  destruct (c =? 128) eqn:C3.
  { destruct (readUint16 s st1) as [p st2] eqn:Q2. destruct (copyN s p st2) as [w st3] eqn:Q3.
    destruct (readUint16_cases _ _ _ _ Q2) as (e2 & t2 & B1 & B2 & B3 & B4).
    pose proof (NEG _ _ _ H) as C0. pose proof (readRLE_sticky _ _ _ _ _ _ _ _ H N) as N3.
    pose proof (copyN_sticky _ _ _ _ _ Q3 N3) as N2.
    destruct (B4 N2) as (h & l & -> & -> & N1 & ->). destruct (A4 N1) as (-> & _ & ->).
    rewrite A1, <- A2, B1 in BR. unfold bytes in BR. cbn [app] in BR. rewrite !Forall_cons_iff in BR. destruct BR as (_ & Bh & Bl & _).
    pose proof (hl_range h l Bh Bl). assert (c = 128) as -> by lia.
    destruct (copyN_cases _ _ _ _ _ (proj1 H0) Q3) as [(t3 & D1 & D2 & -> & _)|D]; [|congruence].
    pose proof (rest_advance _ _ _ _ D1) as D3. rewrite D2 in D3.
    apply IH in H; auto. destruct H as (e & t' & x & X1 & X2 & X3 & X4 & X5).
    exists (128 :: h :: l :: w ++ e), t', (w ++ x).
    rewrite A1, <- A2, B1, <- B2, D1, <- D3, X1. repeat split.
    - cbn [app]. now rewrite <- !app_assoc.
    - constructor; auto. lia.
    - rewrite zlen_app. lia.
    - rewrite X4, be16_hl by assumption. rewrite <- app_assoc. reflexivity.
    - rewrite X5, !advance_advance, !zlen_cons, zlen_app. repeat (f_equal; try lia). }
  destruct (copyN s (256 - c) st1) as [w st3] eqn:Q3.
  pose proof (NEG _ _ _ H) as C0. pose proof (readRLE_sticky _ _ _ _ _ _ _ _ H N) as N3.
  pose proof (copyN_sticky _ _ _ _ _ Q3 N3) as N1. destruct (A4 N1) as (-> & _ & ->).
  assert (U : is_u8 c) by (rewrite A1 in BR; now inversion BR). unfold is_u8 in U.
  assert (K : 0 <= 256 - c) by lia.
  destruct (copyN_cases _ _ _ _ _ K Q3) as [(t3 & D1 & D2 & -> & _)|D]; [|congruence].
  pose proof (rest_advance _ _ _ _ D1) as D3. rewrite D2 in D3.
  apply IH in H; auto. destruct H as (e & t' & x & X1 & X2 & X3 & X4 & X5).
  exists (c :: w ++ e), t', (w ++ x).
  rewrite A1, <- A2, D1, <- D3, X1. repeat split.
  - cbn [app]. now rewrite <- !app_assoc.
  - constructor; auto. lia.
  - rewrite zlen_app. lia.
  - rewrite X4, <- app_assoc. reflexivity.
  - rewrite X5, !advance_advance, !zlen_cons, zlen_app. repeat (f_equal; try lia).
Qed.

(** deferred copy: exact conditions *)
Lemma readRLE_iff s count st : bytes (sFile s) -> rErr st = None -> 0 <= count ->
  (exists cp st', readRLE s count st = Ret (cp, None, st') /\ rErr st' = None) <->
  (exists e t x, rest s st = e ++ t /\ expands e x /\ zlen x = count).
Proof.
  intros HB E C. split.
  - intros (cp & st' & H & N). unfold readRLE in H. apply readRLE_sound in H; auto.
    destruct H as (e & t & x & A & T & L & _). exists e, t, x. repeat split; auto. now apply tight_expands.
  - intros (e & t & x & A & T & <-). apply expands_tight in T. destruct T as (e1 & e2 & -> & T & _).
    rewrite <- app_assoc in A. exists e1, (advance st (zlen e1)). split; [|exact E].
    unfold readRLE. rewrite (readRLE_complete e1 x T _ s [] st (e2 ++ t)); auto.
    rewrite A, app_length. lia.
Qed.
Lemma readRLE_copy s count st cp st' p : bytes (sFile s) -> 0 <= count -> zlen p = count ->
  readRLE s count st = Ret (cp, None, st') -> rErr st' = None ->
  exists t x r1 r2, rest s st = cp ++ t /\ expands cp x /\ zlen x = count /\ st' = advance st (zlen cp) /\
    rle_Read (memReader cp) p newRle (mkR 0 None) = Ret (mkRR x count None r1 (mkR (zlen cp) None)) /\
    rle_Read s p newRle st = Ret (mkRR x count None r2 st').
Proof.
  intros HB C P H N. pose proof (readRLE_sticky _ _ _ _ _ _ _ _ H N) as E.
  unfold readRLE in H. apply readRLE_sound in H; auto.
  destruct H as (e & t & x & A & T & L & Q & ->). cbn in Q. subst cp.
  destruct (tight_read e x (memReader e) p newRle (mkR 0 None) [] T) as (r1 & _ & R1); auto; try congruence.
  { unfold rest, memReader. cbn [rPos sFile]. rewrite app_nil_r. destruct e; [reflexivity|].
    rewrite zlen_cons. pose proof (zlen_pos e). replace ((0 <? 0) || (1 + zlen e <=? 0)) with false by lia. reflexivity. }
  destruct (tight_read e x s p newRle st t T A E) as (r2 & _ & R2); auto; try congruence.
  exists t, x, r1, r2. rewrite L in R1, R2. repeat split; auto. now apply tight_expands.
Qed.
