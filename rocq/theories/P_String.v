(** C33 strings, C34 layer modes, C43 version gate. *)
Require Import Verif.Base Verif.L_List Verif.L_Word Verif.M_Composite Verif.M_Reader Verif.L_Reader
  Verif.M_Rle Verif.M_Groups Verif.M_Monad Verif.M_Decode Verif.M_Encode Verif.S_String Verif.S_Encode Verif.L_String Verif.L_Encode.
From Coq Require Import ZifyBool ZifyNat.

(** ** C33 *)
Theorem C33_written wr l st : faultless wr -> wErr st = None -> zlen l < 4294967295 ->
  exists st' calls len bytes, putStr wr l st = Some (tt, st') /\
    wLog st' = rev calls ++ wLog st /\ wErr st' = None /\ wPos st' = wPos st + zlen (len ++ bytes) /\
    laid (wPos st) (map landed calls) (len ++ bytes) /\ stored len bytes l.
Proof.
  intros F E L. unfold putStr, bindW, put32, put8.
  rewrite (put_ok wr _ st F E). rewrite (put_ok wr) by (auto; reflexivity).
  rewrite (put_ok wr) by (auto; reflexivity).
  eexists _, [mkCall (wPos st) (be32 (zlen l + 1)) 4 None; mkCall (wPos st + 4) l (zlen l) None;
              mkCall (wPos st + 4 + zlen l) [0] 1 None],
    (be32 (zlen l + 1)), (l ++ [0]).
  split; [reflexivity|]. pose proof (zlen_pos l). pose proof (be32_bytes (zlen l + 1)) as FB.
  assert (V : u32 (zlen l + 1) = zlen l + 1) by (unfold u32; apply Z.mod_small; lia).
  pose proof (be32_be (zlen l + 1)) as B. rewrite V in B.
  split; [reflexivity|]. split; [reflexivity|]. split; [|split].
  - cbn [wPos]. rewrite !zlen_app, be32_len. change (zlen [u8 0]) with 1. change (zlen [0]) with 1. lia.
  - cbn [map]. rewrite (landed_all _ l), (landed_all _ [0]), (landed_all _ (be32 _)).
    split; [cbn [consecutive]; rewrite be32_len; repeat split|]. reflexivity.
  - unfold be32 in *. rewrite be4 in B.
    inversion FB as [|? ? Fa FB1]; subst. inversion FB1 as [|? ? Fb FB2]; subst.
    inversion FB2 as [|? ? Fc FB3]; subst. inversion FB3 as [|? ? Fd FB4]; subst.
    eexists _, _, _, _. split; [reflexivity|]. unfold is_u8 in *. auto 10.
Qed.
Print Assumptions C33_written.

(** every stored valid string below the limit is read back, and the reader is left
    just after it *)
Theorem C33_read s st len bytes l t : rErr st = None ->
  stored len bytes l -> utf8 l -> zlen l < 16777216 -> rest s st = len ++ bytes ++ t ->
  exists st', readString s st = (l, st') /\ rErr st' = None /\ rPos st' = rPos st + zlen (len ++ bytes) /\ rest s st' = t.
Proof.
  intros E ST U L R. exists (advance st (4 + zlen bytes)).
  pose proof (readString_stored s st len bytes l t E ST U L R) as H.
  destruct ST as (a & b & c & d & -> & _). split; [exact H|]. split; [exact E|].
  rewrite zlen_app. change (zlen [a; b; c; d]) with 4. split; [reflexivity|].
  rewrite app_assoc in R. rewrite <- (rest_advance s st _ t R). now rewrite zlen_app.
Qed.
Print Assumptions C33_read.

(** nothing else is accepted, apart from the length 0 (GIMP's null string) *)
Theorem C33_rejects s st v st' : Forall is_u8 (sFile s) ->
  readString s st = (v, st') -> rErr st' = None ->
  (v = [] /\ (exists t, rest s st = [0; 0; 0; 0] ++ t) /\ rPos st' = rPos st + 4) \/
  (exists len bytes t, stored len bytes v /\ utf8 v /\ zlen v < 16777216 /\
     rest s st = len ++ bytes ++ t /\ rPos st' = rPos st + zlen (len ++ bytes)).
Proof.
  intros F R N. destruct (readString_inv s st v st' F R N) as [(A & B & ->) | (len & bytes & t & A & B & C & D & ->)].
  - left. auto.
  - right. exists len, bytes, t. repeat split; auto.
    destruct A as (a & b & c & d & -> & _). rewrite zlen_app. reflexivity.
Qed.
Print Assumptions C33_rejects.

(** "h\195\169" *)
Example C33_example :
  readString (newReader [9; 0; 0; 0; 4; 104; 195; 169; 0; 7]) (mkR 1 None) = ([104; 195; 169], mkR 9 None).
Proof. reflexivity. Qed.
Example C33_example_surrogate :
  readString (newReader [0; 0; 0; 4; 237; 160; 128; 0]) (mkR 0 None) = ([], mkR 8 (Some EInvalidString)).
Proof. reflexivity. Qed.

(** ** C34 *)

(** the modes whose number is not their own *)
Definition unwritten (m : mode) : Prop :=
  match m with
  | MLuminosity | MPlus | MDestinationIn | MDestinationOut | MSourceAtop | MDestinationAtop
  | MLuminance | MUndef _ => True
  | _ => False
  end.
Theorem C34_partial m : mode_of_id (modeID m) = m <-> ~ unwritten m.
Proof.
  split.
  - intros H U. destruct m; cbn in U; try contradiction; discriminate H.
  - intros U. destruct m; try reflexivity; exfalso; now apply U.
Qed.
Print Assumptions C34_partial.
Theorem C34_refuted : ~ (forall m, mode_of_id (modeID m) = m).
Proof. intros H. discriminate (H MLuminosity). Qed.
Print Assumptions C34_refuted.
(** what the others become *)
Theorem C34_losses : mode_of_id (modeID MLuminosity) = MColorErase /\
  forall m, unwritten m -> m <> MLuminosity -> mode_of_id (modeID m) = MNormal.
Proof. split; [reflexivity|]. intros m U N. destruct m; cbn in U; try contradiction; reflexivity. Qed.
Example C34_example : mode_of_id (modeID MHardLight) = MHardLight.
Proof. reflexivity. Qed.

(** ** C43 *)

(** decimal digits of the version *)
Definition version_text (v : Z) : list Z := [118; 48; 48 + v / 10; 48 + v mod 10].
(** "gimp xcf " then "file" or "v001".."v013", then a zero byte *)
Definition good_header (h : list Z) : Prop :=
  exists v, h = [103; 105; 109; 112; 32; 120; 99; 102; 32] ++ v ++ [0] /\
    (v = [102; 105; 108; 101] \/ exists n, 1 <= n <= 13 /\ v = version_text n).

Lemma key_eqb_iff a b : key_eqb a b = true <-> a = b.
Proof. unfold key_eqb. destruct (list_eq_dec Z.eq_dec a b); split; congruence. Qed.

Lemma version_mode_iff v : (exists m, version_mode v = Some m) <->
  (v = [102; 105; 108; 101] \/ exists n, 1 <= n <= 13 /\ v = version_text n).
Proof.
  split.
  - intros (m & H). unfold version_mode in H.
    assert (forall l, key_eqb v l = true -> v = l) as K by (intros l; apply key_eqb_iff).
    cbv zeta in H.
    repeat match type of H with
    | (if ?b then _ else _) = _ => destruct b eqn:?B
    end; try discriminate H; clear H;
    repeat match goal with B : _ = false |- _ => clear B end;
    repeat match goal with
    | B : (_ || _) = true |- _ => apply orb_prop in B; destruct B as [B|B]
    end;
    match goal with B : key_eqb _ _ = true |- _ => apply K in B; clear K; subst v end;
    first [ left; reflexivity | right ];
    match goal with
    | |- exists n, _ /\ [_; _; ?t; ?u] = _ =>
        let n := eval vm_compute in ((t - 48) * 10 + (u - 48)) in
        exists n; split; [split; discriminate|reflexivity]
    end.
  - intros [-> | (n & N & ->)]; [now exists 0|].
    assert (n = 1 \/ n = 2 \/ n = 3 \/ n = 4 \/ n = 5 \/ n = 6 \/ n = 7 \/ n = 8 \/ n = 9 \/ n = 10 \/
            n = 11 \/ n = 12 \/ n = 13) as D by lia.
    destruct D as [->|[->|[->|[->|[->|[->|[->|[->|[->|[->|[->|[->| ->]]]]]]]]]]]]; eexists; reflexivity.
Qed.

Lemma rest_start f : rest (newReader f) (mkR 0 None) = sFile (newReader f).
Proof.
  unfold rest. cbn [rPos]. destruct (zlen (sFile (newReader f)) <=? 0) eqn:B; cbn [Z.ltb orb].
  - symmetry. apply zlen_zero. pose proof (zlen_pos (sFile (newReader f))). cbn in *. lia.
  - reflexivity.
Qed.
Lemma newReader_take f k : k <= 16777216 -> ztake k (sFile (newReader f)) = ztake k f.
Proof. unfold newReader, maxString. destruct (_ <? _); [reflexivity|]. intros. now apply ztake_ztake. Qed.
Lemma newReader_long f k : 0 <= k <= 16777216 -> k <= zlen (sFile (newReader f)) <-> k <= zlen f.
Proof.
  unfold newReader, maxString. destruct (_ <? _) eqn:B; [reflexivity|]. cbn [sFile]. intros.
  rewrite zlen_ztake; lia.
Qed.

(** a header is accepted exactly when it is a good one *)
Theorem C43_header f :
  (good_header (ztake 14 f) -> exists mode, readHeader (newReader f) (mkR 0 None) = Ret (inr mode, mkR 14 None)) /\
  (~ good_header (ztake 14 f) -> exists e st, readHeader (newReader f) (mkR 0 None) = Ret (inl e, st)).
Proof.
  set (s := newReader f). unfold readHeader, bindM, liftM, errM, retM.
  destruct (readSome s 14 (mkR 0 None)) as [w st] eqn:R.
  destruct (readSome_cases s 14 (mkR 0 None) w st ltac:(lia) eq_refl R) as
    [(t & RS & L & NE & ->) | (RS & SH & P & E1 & E2)]; unfold s in RS; rewrite rest_start in RS.
  - assert (T : ztake 14 f = w) by (rewrite <- (newReader_take f 14), RS by lia; now apply ztake_app).
    rewrite T. cbn [rErr advance]. replace (Z.to_nat (14 - zlen w)) with O by lia. cbn [repeat].
    rewrite app_nil_r.
    assert (SP : w = ztake 9 w ++ slice w 9 13 ++ zdrop 13 w).
    { unfold slice. rewrite <- (ztake_zdrop 9 w) at 1. f_equal.
      rewrite <- (ztake_zdrop (13 - 9) (zdrop 9 w)) at 1. f_equal. rewrite zdrop_zdrop by lia. reflexivity. }
    assert (L9 : zlen (ztake 9 w) = 9) by (apply zlen_ztake; lia).
    assert (L13 : zlen (slice w 9 13) = 4).
    { unfold slice. rewrite zlen_ztake; [lia|]. rewrite zlen_zdrop; lia. }
    assert (LL : exists z, zdrop 13 w = [z] /\ znth w 13 = Some z).
    { assert (zlen (zdrop 13 w) = 1) as Q by (rewrite zlen_zdrop; lia).
      destruct (zdrop 13 w) as [|z [|y r]] eqn:D; unfold zlen in Q; cbn [length] in Q; try lia.
      exists z. split; [reflexivity|]. unfold znth. cbn [Z.ltb Z.compare].
      rewrite <- (ztake_zdrop 13 w), D.
      assert (LT : zlen (ztake 13 w) = 13) by (apply zlen_ztake; lia).
      rewrite nth_error_app2 by (unfold zlen in LT; lia).
      replace (Z.to_nat 13 - length (ztake 13 w))%nat with O by (unfold zlen in LT; lia). reflexivity. }
    destruct LL as (z & DZ & NZ). rewrite NZ.
    assert (GH : good_header w <-> ztake 9 w = hdr_type /\ (exists m, version_mode (slice w 9 13) = Some m) /\ z = 0).
    { rewrite version_mode_iff. split.
      - intros (v & -> & V). 
        assert (LV : zlen v = 4) by (destruct V as [-> | (n & N & ->)]; reflexivity).
        set (h := [103; 105; 109; 112; 32; 120; 99; 102; 32]) in *.
        assert (T9 : ztake 9 (h ++ v ++ [0]) = h) by (apply ztake_app; reflexivity).
        assert (D9 : zdrop 9 (h ++ v ++ [0]) = v ++ [0]) by (apply zdrop_app; reflexivity).
        assert (SV : slice (h ++ v ++ [0]) 9 13 = v).
        { unfold slice. rewrite D9. apply ztake_app. lia. }
        rewrite T9, SV in SP. rewrite SV, T9. split; [reflexivity|]. split; [exact V|].
        apply app_inv_head, app_inv_head in SP. rewrite DZ in SP. congruence.
      - intros (A & V & ->). rewrite DZ, A in SP. exists (slice w 9 13). split; [exact SP|exact V]. }
    rewrite GH. clear GH.
    destruct (key_eqb (ztake 9 w) hdr_type) eqn:K; cbn [negb].
    + apply key_eqb_iff in K. destruct (version_mode (slice w 9 13)) as [m|].
      * destruct z as [|z|z].
        -- split; [eexists; reflexivity|]. intros N. exfalso. apply N. eauto.
        -- split; [intros (_ & _ & X); discriminate X|]. eauto.
        -- split; [intros (_ & _ & X); discriminate X|]. eauto.
      * split; [intros (_ & (m & X) & _); discriminate X|]. eauto.
    + split; [|eauto]. intros (A & _). apply key_eqb_iff in A. congruence.
  - assert (SL : zlen f < 14).
    { apply Z.nle_gt. intros Q. apply (proj2 (newReader_long f 14 ltac:(lia))) in Q. rewrite RS in Q.
      destruct SH as [SH| ->]; [lia|]. change (zlen (@nil Z)) with 0 in Q. lia. }
    assert (E : rErr st = Some EEOF).
    { apply E1. right. unfold s, newReader, maxString. replace (zlen f <? 16777216) with true by lia. reflexivity. }
    rewrite E. split; [|eauto]. intros (v & H & V).
    assert (zlen v = 4) by (destruct V as [-> | (n & N & ->)]; reflexivity).
    assert (Q : zlen (ztake 14 f) = 14) by (rewrite H, !zlen_app; change (zlen [103; 105; 109; 112; 32; 120; 99; 102; 32]) with 9; change (zlen [0]) with 1; lia).
    rewrite ztake_all in Q by lia. lia.
Qed.
Print Assumptions C43_header.

(** any other header is rejected, whatever follows *)
Theorem C43_rejected f f32op ptext : ~ good_header (ztake 14 f) ->
  exists e, (forall fuel d, decodeImage fuel f f32op ptext d = Ret (inl e)) /\
            (forall fuel, decodeConfig fuel f = Ret (mkCfg 0 0 None, Some e)).
Proof.
  intros N. destruct (proj2 (C43_header f) N) as (e & st & H). exists e. split.
  - intros fuel d. unfold decodeImage, decodeImageFrom. now rewrite H.
  - intros fuel. unfold decodeConfig, decodeConfigM, bindM, retM. now rewrite H.
Qed.
Print Assumptions C43_rejected.

(** "gimp xcf v011" with a zero byte; "gimp xcf v014" *)
Example C43_example :
  readHeader (newReader (hdr_type ++ [118; 48; 49; 49; 0; 5; 5])) (mkR 0 None) = Ret (inr 2, mkR 14 None) /\
  readHeader (newReader (hdr_type ++ [118; 48; 49; 52; 0; 5; 5])) (mkR 0 None) = Ret (inl EUnsupportedVersion, mkR 14 None).
Proof. split; reflexivity. Qed.
