(** C26-C30: the XCF run-length coder. *)
Require Import Verif.Base Verif.L_List Verif.M_Reader Verif.M_Rle Verif.S_Rle Verif.L_Reader Verif.L_Rle Verif.L_Rle2 Verif.L_Rle3.
From Coq Require Import ZifyBool ZifyNat.

(** ** C26.  For every byte string shorter than 65536, whatever the source, the
    position, the stale contents of the buffer and the bytes that follow. *)
Theorem C26_rle_round_trip : forall data s p r st t,
  zlen data < 65536 -> zlen p = zlen data -> rleCount r = 0 -> rErr st = None ->
  rest s st = concat (writeRLE data) ++ t ->
  exists r', rleCount r' = 0 /\
    rle_Read s p r st = Ret (mkRR data (zlen data) None r' (advance st (zlen (concat (writeRLE data))))).
Proof. exact rle_round_trip. Qed.
(** and what is written is a sequence of whole packets of the format *)
Theorem C26_rle_well_formed : forall data, zlen data < 65536 -> expands (concat (writeRLE data)) data.
Proof. intros data H. apply tight_expands. now apply writeRLE_tight. Qed.
(** the bound is needed: the 16-bit length field wraps *)
Lemma scan_const data b k : forall n run, rle_scan data (repeat b k) n run 0 b =
  let run := run + Z.of_nat k in
  let run := if (run <=? 3) && (run <? zlen data) then 0 else run in
  writeRLEData (slice data 0 (zlen data - run)) run b.
Proof.
  induction k as [|k IH]; intros n run; cbn [repeat rle_scan].
  - now rewrite Z.add_0_r.
  - rewrite Z.eqb_refl, IH. replace (run + 1 + Z.of_nat k) with (run + Z.of_nat (S k)) by lia. reflexivity.
Qed.
Theorem C26_rle_65536_wraps : exists data, zlen data = 65536 /\ ~ expands (concat (writeRLE data)) data.
Proof.
  set (N := Z.to_nat 65536). assert (HN : Z.of_nat N = 65536) by (unfold N; rewrite Z2Nat.id; lia). clearbody N.
  exists (repeat 7 N). assert (LN : zlen (repeat 7 N) = 65536) by now rewrite zlen_repeat. split; [exact LN|].
  assert (Q : concat (writeRLE (repeat 7 N)) = [127; 0; 0; 7]).
  { destruct N as [|N]; [lia|]. unfold writeRLE. cbn [repeat].
    change (7 :: repeat 7 N) with (repeat 7 (S N)). rewrite scan_const, LN.
    rewrite HN. change ((0 + 65536 <=? 3) && _) with false. cbn zeta iota.
    change (65536 - (0 + 65536)) with 0. unfold slice. rewrite ztake_0 by (vm_compute; discriminate). reflexivity. }
  rewrite Q. intros H.
  assert (L : forall e x, expands e x -> e = [127; 0; 0; 7] -> x = []).
  { intros e x X E. destruct X; try discriminate; injection E; intros; subst; try lia.
    inversion X; reflexivity. }
  apply L in H; [|reflexivity]. rewrite H in LN. discriminate.
Qed.
Print Assumptions C26_rle_round_trip.
Print Assumptions C26_rle_well_formed.
Print Assumptions C26_rle_65536_wraps.
Definition c26_data : list Z := [1; 2; 2; 3] ++ repeat 9 130 ++ [4; 4; 4; 4; 4] ++ [5].
Example C26_ex : concat (writeRLE c26_data) = [252; 1; 2; 2; 3; 127; 0; 130; 9; 4; 4; 0; 5] /\
  rle_Read (mkSrc (77 :: concat (writeRLE c26_data) ++ [8; 8]) false) (repeat 0 140) newRle (mkR 1 None)
  = Ret (mkRR c26_data 140 None (mkRle true 5 0) (mkR 14 None)).
Proof. split; vm_compute; reflexivity. Qed.

(** ** C27 *)
Theorem C27_rle_size : forall data,
  zlen (concat (writeRLE data)) <= zlen data + zlen data / 128 + 3 /\
  (data <> [] -> 0 < zlen (concat (writeRLE data))).
Proof. exact rle_size. Qed.
Print Assumptions C27_rle_size.
Example C27_ex : zlen (concat (writeRLE (map (fun n => Z.of_nat (Nat.modulo n 3)) (seq 0 200)))) = 203.
Proof. vm_compute. reflexivity. Qed.

(** ** C28.  The reader always returns (for every source). *)
Theorem C28_rle_terminates : forall s p r st, bytes (sFile s) -> 0 <= rleCount r < 65536 ->
  exists rr, rle_Read s p r st = Ret rr.
Proof. exact read_total. Qed.
(** With a source that reports io.EOF for short reads: nil error means the buffer
    holds exactly the expansion of the packets consumed; in every case only bytes
    the stream determines are stored, the rest of the buffer is untouched. *)
Theorem C28_rle_safe_partial : forall s p r st rr, bytes (sFile s) -> sShort s = false -> rleCount r = 0 ->
  rle_Read s p r st = Ret rr ->
  (rrErr rr = None -> exists e t, rest s st = e ++ t /\ expands e (rrBuf rr) /\ zlen (rrBuf rr) = zlen p /\
       rrN rr = zlen p /\ rrSt rr = advance st (zlen e)) /\
  (exists e t x, rest s st = e ++ t /\ rPos (rrSt rr) = rPos st + zlen e /\
     rrBuf rr = x ++ zdrop (zlen x) p /\ zlen x <= zlen p /\
     forall e' y, expands (e ++ e') y -> prefix x y).
Proof.
  intros s p r st rr HB HS HC H. destruct (read_good s p r st rr HB HS) as [G1 G2]; auto; [lia|]. split.
  - intros N. destruct (G1 N) as (e & t & x & A & B & C & D & E & F & _). cbn in C. subst x.
    exists e, t. apply (expf_0 r e _ HC) in B. repeat split; auto.
  - destruct G2 as (e & t & x & A & B & C & D & E). exists e, t, x. repeat split; auto.
    intros e' y Y. apply (E e' y). now apply expf_0.
Qed.
(** Full statement of C28 fails at the 16 MiB limit of the reader: a literal run cut
    by the limit is returned with a nil error, the missing bytes are whatever the
    buffer held before. *)
Definition c28_file (n : nat) : list Z := repeat 0 n ++ [253; 7; 8] ++ [9; 9; 9; 9].
Lemma c28_rest n m : Z.of_nat n = maxString - 3 -> m = maxString - 3 ->
  rest (newReader (c28_file n)) (mkR m None) = [253; 7; 8] /\ sShort (newReader (c28_file n)) = true.
Proof.
  intros N ->. set (f := c28_file n).
  assert (L : zlen f = maxString + 4).
  { unfold f, c28_file. rewrite !zlen_app, zlen_repeat. change (zlen [253; 7; 8]) with 3. change (zlen [9; 9; 9; 9]) with 4. lia. }
  unfold newReader. destruct (Z.ltb_spec (zlen f) maxString) as [X|X]; [lia|]. split; [|reflexivity].
  unfold rest. cbn [rPos sFile].
  assert (T : ztake maxString f = repeat 0 n ++ [253; 7; 8]).
  { unfold f, c28_file. rewrite app_assoc. apply ztake_app.
    rewrite zlen_app, zlen_repeat. change (zlen [253; 7; 8]) with 3. lia. }
  rewrite T, zlen_app, zlen_repeat, N. change (zlen [253; 7; 8]) with 3.
  replace ((maxString - 3 <? 0) || (maxString - 3 + 3 <=? maxString - 3)) with false by (unfold maxString; lia).
  apply zdrop_app. now rewrite zlen_repeat.
Qed.
Lemma short_literal s st : rest s st = [253; 7; 8] -> rErr st = None -> sShort s = true ->
  rle_Read s [1; 1; 1] newRle st = Ret (mkRR [7; 8; 1] 3 None (mkRle false 0 0) (mkR (rPos st + 1 + 2) None)).
Proof.
  intros R E S. unfold rle_Read, rle_fuel. rewrite R. cbn [length Nat.add]. rewrite loop_header by (auto; discriminate).
  rewrite (readUint8_ok _ _ _ _ E R). rewrite advance_err, E.
  unfold rle_header. change (253 <? 127) with false. change (253 =? 127) with false. change (253 =? 128) with false.
  cbn iota. rewrite advance_err, E.
  pose proof (adv_rest1 _ _ _ _ R) as R1.
  unfold rle_body. cbn [rleCount repeatByte rleData].
  change (Z.min (u16 (256 - 253)) (zlen [1; 1; 1])) with 3.
  unfold readSome. rewrite advance_err, E, R1, S.
  change (3 <=? zlen [7; 8]) with false. cbn iota. rewrite loop_nil. reflexivity.
Qed.
Lemma short_literal_bad e t : [253; 7; 8] = e ++ t -> ~ expands e [7; 8; 1].
Proof.
  intros A B. apply expands_tight in B. destruct B as (e1 & e2 & -> & T & _).
  inversion T as [|m d e x Hm He Q1 Q2|h l d e x Hh Hl He Hpos Q1 Q2|h l ds e x Hh Hl Hd He Hpos Q1 Q2|m ds e x Hm Hd He Q1 Q2];
    subst e1; cbn [app] in A; injection A; intros; subst; try lia; try discriminate.
  apply (f_equal zlen) in H. rewrite !zlen_app, Hd in H.
  change (zlen [7; 8]) with 2 in H. pose proof (zlen_pos e). pose proof (zlen_pos e2). pose proof (zlen_pos t). lia.
Qed.
Lemma c28_bytes n : bytes (c28_file n).
Proof.
  unfold c28_file, bytes. rewrite !Forall_app. split.
  - apply Forall_forall. intros x X. apply repeat_spec in X. subst. unfold is_u8. lia.
  - split; repeat (apply Forall_cons; [unfold is_u8; lia|]); apply Forall_nil.
Qed.
Theorem C28_rle_safe_refuted : exists f p st rr, bytes f /\ rErr st = None /\
  rle_Read (newReader f) p newRle st = Ret rr /\ rrErr rr = None /\
  ~ (exists e t, rest (newReader f) st = e ++ t /\ expands e (rrBuf rr)).
Proof.
  assert (N : exists n, Z.of_nat n = maxString - 3).
  { exists (Z.to_nat (maxString - 3)). apply Z2Nat.id. unfold maxString. lia. }
  destruct N as [n N]. destruct (c28_rest n _ N eq_refl) as [R S]. pose proof (c28_bytes n) as B.
  exists (c28_file n), [1; 1; 1], (mkR (maxString - 3) None). eexists.
  split; [exact B|]. split; [reflexivity|]. split; [exact (short_literal _ _ R eq_refl S)|]. split; [reflexivity|].
  rewrite R. cbn [rrBuf]. intros (e & t & A & X). exact (short_literal_bad e t A X).
Qed.
Print Assumptions C28_rle_terminates.
Print Assumptions C28_rle_safe_partial.
Print Assumptions C28_rle_safe_refuted.
Example C28_ex1 : (* a hostile stream: a literal run longer than the stream *)
  rle_Read (mkSrc [1; 5; 200; 3; 4] false) [0; 0; 0; 0; 0; 0] newRle (mkR 0 None)
  = Ret (mkRR [5; 5; 3; 4; 0; 0] 6 (Some EEOF) (mkRle false 5 52) (mkR 5 (Some EEOF))).
Proof. vm_compute. reflexivity. Qed.
Example C28_ex2 : (* a run longer than the request *)
  rle_Read (mkSrc [9; 5; 1] false) [0; 0] newRle (mkR 0 None)
  = Ret (mkRR [5; 5] 2 (Some EInvalidRLE) (mkRle true 5 8) (mkR 2 None)).
Proof. vm_compute. reflexivity. Qed.

(** ** C29.  One call for p1 ++ p2, or one for p1 and one for p2: same bytes, same
    stream position and sticky error; without a read error also the same decoder
    state, total count and final returned error.  (The error value returned by the
    first of two calls that split a run is ErrInvalidRLE, see C28_ex2.) *)
Theorem C29_rle_split : forall s p1 p2 r st rr1 rr2 rr,
  bytes (sFile s) -> sShort s = false -> 0 <= rleCount r < 65536 ->
  rle_Read s p1 r st = Ret rr1 -> rle_Read s p2 (rrRle rr1) (rrSt rr1) = Ret rr2 ->
  rle_Read s (p1 ++ p2) r st = Ret rr ->
  rrBuf rr = rrBuf rr1 ++ rrBuf rr2 /\ rrSt rr = rrSt rr2 /\
  (rErr (rrSt rr) = None -> rrRle rr = rrRle rr2 /\ rrN rr = rrN rr1 + rrN rr2 /\ rrErr rr = rrErr rr2).
Proof. exact read_split. Qed.
Print Assumptions C29_rle_split.
Example C29_ex : exists rr1 rr2,
  rle_Read (mkSrc [251; 1; 2; 3; 4; 5; 9; 6] false) [0; 0] newRle (mkR 0 None) = Ret rr1 /\ rrBuf rr1 = [1; 2] /\
  rle_Read (mkSrc [251; 1; 2; 3; 4; 5; 9; 6] false) [0; 0; 0; 0] (rrRle rr1) (rrSt rr1) = Ret rr2 /\ rrBuf rr2 = [3; 4; 5; 6].
Proof. do 2 eexists. repeat split. Qed.

(** ** C30 *)
Theorem C30_copy_iff : forall s count st, bytes (sFile s) -> rErr st = None -> 0 <= count ->
  (exists cp st', readRLE s count st = Ret (cp, None, st') /\ rErr st' = None) <->
  (exists e t x, rest s st = e ++ t /\ expands e x /\ zlen x = count).
Proof. exact readRLE_iff. Qed.
Theorem C30_copy_total : forall s count st, bytes (sFile s) -> exists x, readRLE s count st = Ret x.
Proof. intros. apply readRLE_total; [assumption|lia]. Qed.
Theorem C30_copy_then_decode : forall s count st cp st' p, bytes (sFile s) -> 0 <= count -> zlen p = count ->
  readRLE s count st = Ret (cp, None, st') -> rErr st' = None ->
  exists t x r1 r2, rest s st = cp ++ t /\ expands cp x /\ zlen x = count /\ st' = advance st (zlen cp) /\
    rle_Read (memReader cp) p newRle (mkR 0 None) = Ret (mkRR x count None r1 (mkR (zlen cp) None)) /\
    rle_Read s p newRle st = Ret (mkRR x count None r2 st').
Proof. exact readRLE_copy. Qed.
(** conversely an eager read that succeeds could have been deferred *)
Theorem C30_eager_then_copy : forall s st p rr, bytes (sFile s) -> sShort s = false -> rErr st = None ->
  rle_Read s p newRle st = Ret rr -> rrErr rr = None ->
  exists cp st', readRLE s (zlen p) st = Ret (cp, None, st') /\ rErr st' = None.
Proof.
  intros s st p rr HB HS E H N. apply readRLE_iff; auto; [apply zlen_pos|].
  destruct (C28_rle_safe_partial s p newRle st rr HB HS eq_refl H) as [G _].
  destruct (G N) as (e & t & A & B & C & _). exists e, t, (rrBuf rr). auto.
Qed.
Print Assumptions C30_copy_iff.
Print Assumptions C30_copy_total.
Print Assumptions C30_copy_then_decode.
Print Assumptions C30_eager_then_copy.
Example C30_ex : readRLE (mkSrc [2; 5; 254; 8; 9; 1; 1] false) 5 (mkR 0 None)
  = Ret ([2; 5; 254; 8; 9], None, mkR 5 None) /\
  readRLE (mkSrc [2; 5; 254; 8; 9; 1; 1] false) 4 (mkR 0 None)
  = Ret ([2; 5; 254; 8; 9], Some EInvalidRLE, mkR 5 None).
Proof. split; vm_compute; reflexivity. Qed.
