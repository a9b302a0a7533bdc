(** The whole decoder: termination and panics in terms of the file. *)
Require Import Verif.Base Verif.L_List Verif.L_Word Verif.M_Reader Verif.L_Reader Verif.M_Rle Verif.S_Rle Verif.L_Rle
  Verif.L_Rle2 Verif.L_Rle3 Verif.M_Color Verif.M_Composite Verif.M_Rect Verif.M_Image Verif.M_Compressed
  Verif.M_Groups Verif.M_Monad Verif.M_Decode Verif.L_Wp Verif.L_Decode Verif.L_Decode2 Verif.L_Decode3 Verif.S_Decode Verif.L_Piece Verif.P_String.
From Coq Require Import ZifyBool ZifyNat.

Lemma newReader_prefix f : exists t, f = sFile (newReader f) ++ t.
Proof.
  unfold newReader. destruct (_ <? _); cbn [sFile]; [exists []; now rewrite app_nil_r|].
  exists (zdrop maxString f). symmetry. apply ztake_zdrop.
Qed.
Lemma newReader_bytes f : bytes f -> bytes (sFile (newReader f)).
Proof. unfold newReader. intros B. destruct (_ <? _); cbn [sFile]; [exact B|]. now apply Forall_ztake. Qed.
Lemma newReader_len f : zlen (sFile (newReader f)) <= 16777216.
Proof.
  unfold newReader. destruct (zlen f <? maxString) eqn:B; cbn [sFile]; unfold maxString in *; [lia|]. rewrite zlen_ztake; lia.
Qed.
Lemma word_at_more g t p v : word_at g p v -> word_at (g ++ t) p v.
Proof. intros (pre & a & b & c & d & post & -> & P & V). exists pre, a, b, c, d, (post ++ t). split; [now rewrite <- !app_assoc|auto]. Qed.
Lemma bytes_at_more g t p v : bytes_at g p v -> bytes_at (g ++ t) p v.
Proof. intros (pre & post & -> & P). exists pre, (post ++ t). split; [now rewrite <- !app_assoc|auto]. Qed.
Lemma pixels_more g t w h : pixels_of g w h -> pixels_of (g ++ t) w h.
Proof.
  intros (p & n & q & l & A & B & C & D & L & G & H). exists p, n, q, l. pose proof (word_at_more g t) as W.
  repeat (split; [now auto|]). split; [|split; [exact L|auto]].
  destruct D as [D|(hi & lo & D1 & D2 & D3)]; [left; auto|right; exists hi, lo; auto].
Qed.
Lemma text_more lim g t x : text_within lim g x -> text_within lim (g ++ t) x.
Proof.
  intros (p & A & B & C). exists p. split; [now apply word_at_more|]. split; [now apply bytes_at_more|].
  destruct C as [C|(C & w & k & D & G)]; [now left|right]. split; [now apply word_at_more|]. exists w, k. split; [now apply bytes_at_more|exact G].
Qed.
Lemma newReader_word f p v : word_at (sFile (newReader f)) p v -> word_at f p v.
Proof. intros P. destruct (newReader_prefix f) as [u U]. rewrite U. now apply word_at_more. Qed.
Lemma newReader_min f : zlen (sFile (newReader f)) = Z.min (zlen f) 16777216.
Proof.
  unfold newReader. destruct (zlen f <? maxString) eqn:B; cbn [sFile]; unfold maxString in *; [lia|]. rewrite zlen_ztake; lia.
Qed.

Lemma header_pos f mode st : readHeader (newReader f) (mkR 0 None) = Ret (inr mode, st) -> st = mkR 14 None.
Proof.
  set (s := newReader f). unfold readHeader, bindM, liftM, errM, retM.
  destruct (readSome s 14 (mkR 0 None)) as [w st0] eqn:R.
  destruct (readSome_cases s 14 (mkR 0 None) w st0 ltac:(lia) eq_refl R) as
    [(t & RS & L & NE & ->) | (RS & SH & P & E1 & E2)].
  - cbn [rErr advance rPos]. cbv zeta. destruct (negb _); [intros H; discriminate H|]. destruct (version_mode _); [|intros H; discriminate H].
    set (o := znth _ 13). destruct o as [[| |]|]; intros H; inversion H; reflexivity.
  - destruct (rErr st0) eqn:E; [discriminate|]. exfalso.
    assert (C : sShort s = true /\ zlen w < 14).
    { destruct SH as [SH| ->]; [|specialize (E1 ltac:(auto)); discriminate E1].
      split; [|exact SH]. destruct (sShort s) eqn:SS; [reflexivity|]. specialize (E1 ltac:(auto)); discriminate E1. }
    destruct C as [C1 C2]. unfold s in RS. rewrite rest_start in RS.
    assert (zlen f < 14) as SL.
    { apply Z.nle_gt. intros Q. apply (proj2 (newReader_long f 14 ltac:(lia))) in Q. rewrite RS in Q. lia. }
    unfold s, newReader in C1. destruct (zlen f <? maxString) eqn:B; [discriminate C1|].
    clear - SL B. unfold maxString in B. lia.
Qed.

Lemma decode_ok (F : Prop) fuel f f32op ptext dec : bytes f -> (endless f -> F) -> (forall t, text_data f t -> ptext t = THang -> F) -> F \/ FUEL <= Z.of_nat fuel ->
  match decodeImage fuel f f32op ptext dec with
  | Ret _ => True | Panic w => excuse f ptext dec w | NoFuel => F end.
Proof.
  intros HB HF HT HN. set (E := excuse f ptext dec).
  assert (TD : forall t, text_within (zlen (sFile (newReader f))) (sFile (newReader f)) t -> text_data f t).
  { intros t T. unfold text_data. rewrite <- newReader_min. destruct (newReader_prefix f) as [u U]. rewrite U at 2. now apply text_more. }
  assert (PX : forall w h, pixels_of (sFile (newReader f)) w h -> pixels_of f w h).
  { intros w h P. destruct (newReader_prefix f) as [u U]. rewrite U. now apply pixels_more. }
  pose proof (newReader_word f) as WW.
  pose proof (newReader_bytes f HB) as SB. pose proof (newReader_len f) as SL.
  pose proof (header_pos f) as HP.
  unfold decodeImage, decodeImageFrom. cbv zeta.
  assert (HD : match readHeader (newReader f) (mkR 0 None) with Ret _ => True | _ => False end).
  { unfold readHeader, bindM, liftM, errM, retM. destruct (readSome (newReader f) 14 (mkR 0 None)) as [w st].
    destruct (rErr st); [exact I|]. destruct (negb _); [exact I|]. destruct (version_mode _); [|exact I].
    destruct (znth _ 13) as [[| |]|]; exact I. }
  set (s := newReader f) in *. clearbody s.
  destruct (readHeader s (mkR 0 None)) as [[[e|mode] st]| |]; [exact I| |contradiction|contradiction].
  rewrite (HP _ _ eq_refl). clear HP st HD.
  assert (SL2 : zlen (sFile s) < 9223372036854775808) by lia.
  assert (FO : fuel_ok F s fuel) by (destruct HN as [HN|HN]; [now left|right; unfold FUEL in HN; lia]).
  unfold readUint32.
  destruct (readBE_spec s SB SL2 4 (mkR 14 None) ltac:(lia)) as (A1 & _ & G1 & _).
  destruct (readBE s 4 (mkR 14 None)) as [w st1]. cbn [fst snd] in *.
  destruct (readBE_spec s SB SL2 4 st1 ltac:(lia)) as (A2 & _ & G2 & _).
  destruct (readBE s 4 st1) as [h st2]. cbn [fst snd] in *.
  destruct (readBE_spec s SB SL2 4 st2 ltac:(lia)) as (A3 & _ & G3 & Z3 & _).
  destruct (readBE s 4 st2) as [bt st3]. cbn [fst snd] in *.
  destruct (A1 ltac:(split; cbn; lia)) as [O1 _]. destruct (A2 O1) as [O2 _]. destruct (A3 O2) as [O3 _].
  assert (BT : 3 <= bt -> E PNil).
  { intros B3. exists bt. split; [|exact B3]. apply WW.
    destruct (rErr st3) eqn:E3; [rewrite Z3 in B3 by congruence; lia|].
    specialize (G3 eq_refl). pose proof G3 as (B1 & _). destruct (G2 B1) as (C1 & C2 & _). destruct (G1 C1) as (_ & D2 & _).
    cbn [rPos] in D2. replace 22 with (rPos st2) by lia. exact (got_word _ _ _ _ G3). }
  assert (O4 : okpos (snd (if 0 <? mode then readBE s 4 st3 else (0, st3)))).
  { destruct (0 <? mode); [|exact O3]. now apply (adv_readBE s SL2 4 st3 ltac:(lia)). }
  destruct (if 0 <? mode then readBE s 4 st3 else (0, st3)) as [pr st4]. cbn [snd] in O4.
  pose proof (safe_readImageProperties F E s fuel SB SL2 FO bt st4 O4) as R5. unfold wp in R5.
  destruct (readImageProperties fuel s bt st4) as [[[e|[pal comp]] st5]| |]; [exact I| |exact R5|exact R5].
  destruct R5 as [A5 _]. destruct (A5 O4) as [O5 _].
  pose proof (safe_readLayerPointers F E s fuel SB SL2 FO mode st5 O5) as R6. unfold wp in R6.
  destruct (readLayerPointers fuel s mode st5) as [[lp st6]| |]; [|exact R6|exact R6].
  destruct (rErr st6); [exact I|].
  assert (ML : match mapO (readLayerAt fuel s f32op ptext (mkDP comp dec bt pal mode)) lp with
               | Ret _ => True | Panic w => E w | NoFuel => F end).
  { apply mapO_ok. intros p. apply readLayerAt_ok; try assumption.
    - intros hh Q L. apply HF. exists hh. auto.
    - intros ww hh Q L. exists ww, hh. auto.
    - intros ww hh Q L. exists ww, hh. auto.
    - intros D _. exact D.
    - intros t T P. exists t. auto.
    - intros t T P. eauto. }
  destruct (mapO _ lp) as [les| |]; cbn; [|exact ML|exact ML].
  destruct (first_err les); [exact I|]. destruct (makeGroups _ _) as [e|[os m]]; exact I.
Qed.
Lemma config_ok (F : Prop) fuel f : bytes f -> F \/ FUEL <= Z.of_nat fuel ->
  match decodeConfig fuel f with Ret _ => True | Panic w => False | NoFuel => F end.
Proof.
  intros HB HN. pose proof (newReader_bytes f HB) as SB. pose proof (newReader_len f) as SL.
  unfold decodeConfig. set (s := newReader f) in *. clearbody s.
  assert (SL2 : zlen (sFile s) < 9223372036854775808) by lia.
  assert (FO : fuel_ok F s fuel) by (destruct HN as [HN|HN]; [now left|right; unfold FUEL in HN; lia]).
  pose proof (safe_decodeConfig F (fun _ => False) s fuel SB SL2 FO (mkR 0 None) ltac:(split; cbn; lia)) as R. unfold wp in R.
  destruct (decodeConfigM fuel s (mkR 0 None)) as [[c st]| |]; auto.
Qed.
