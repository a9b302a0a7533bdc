(** C44: DecodeConfig against Decode. *)
From Coq Require Import ZifyBool.
Require Import Verif.Base Verif.L_List Verif.M_Color Verif.M_Composite Verif.M_Rect Verif.M_Image Verif.M_Reader Verif.M_Rle
  Verif.M_Groups Verif.M_Monad Verif.M_Decode Verif.S_Decode Verif.L_Reader Verif.L_Rle3 Verif.L_Wp Verif.L_Decode Verif.L_Decode3 Verif.L_Decode4 Verif.P_String
  Verif.S_Rle Verif.S_Config Verif.L_Config Verif.L_Sticky.

(** ** C44 *)
Lemma version_one v : version_mode v = Some 1 -> exists a b, v = [118; 48; a; b] /\ ((a = 48 /\ 52 <= b <= 57) \/ (a = 49 /\ b = 48)).
Proof.
  unfold version_mode. cbv zeta. intros H.
  repeat match type of H with (if ?b then _ else _) = _ => destruct b eqn:?B end; try discriminate H; clear H.
  repeat match goal with B : _ = false |- _ => clear B end.
  repeat match goal with B : (_ || _) = true |- _ => apply orb_prop in B; destruct B as [B|B] end;
  match goal with B : key_eqb _ _ = true |- _ => apply key_eqb_iff in B; subst v end; eexists; eexists; (split; [reflexivity|lia]).
Qed.
Lemma header_version f st : readHeader (newReader f) (mkR 0 None) = Ret (inr 1, st) -> mid_version f.
Proof.
  intros H. destruct (newReader_prefix f) as [tl T]. revert H.
  pose proof (rest_start f) as RST. pose proof (newReader_long f 14 ltac:(lia)) as NL.
  assert (SS : sShort (newReader f) = true -> 14 <= zlen f) by (unfold newReader, maxString; destruct (zlen f <? _) eqn:B; [discriminate|lia]).
  set (s := newReader f) in *. clearbody s. unfold readHeader, bindM, liftM, errM, retM.
  destruct (readSome s 14 (mkR 0 None)) as [w st0] eqn:R.
  destruct (readSome_cases s 14 (mkR 0 None) w st0 ltac:(lia) eq_refl R) as [(t & RS & L & NE & ->) | (RS & SH & P & E1 & E2)].
  - cbn [rErr advance rPos]. rewrite L. change (Z.to_nat (14 - 14)) with 0%nat. cbn [repeat]. rewrite app_nil_r. cbv zeta.
    destruct (key_eqb (ztake 9 w) hdr_type) eqn:K; cbn [negb]; [|intros X; discriminate X].
    destruct (version_mode (slice w 9 13)) as [m|] eqn:V; [|intros X; discriminate X]. intros X.
    assert (m = 1) as -> by (destruct (znth w 13) as [[| |]|]; inversion X; reflexivity). clear X.
    rewrite RST in RS. apply key_eqb_iff in K. destruct (version_one _ V) as (a & b & E & C).
    exists a, b, (zdrop 13 w ++ t ++ tl). split; [|exact C].
    assert (W : w = [103; 105; 109; 112; 32; 120; 99; 102; 32; 118; 48; a; b] ++ zdrop 13 w).
    { change [103; 105; 109; 112; 32; 120; 99; 102; 32; 118; 48; a; b] with (hdr_type ++ [118; 48; a; b]). rewrite <- app_assoc, <- K, <- E.
      rewrite <- (ztake_zdrop 9 w) at 1. f_equal. rewrite <- (ztake_zdrop 4 (zdrop 9 w)) at 1. f_equal. now rewrite zdrop_zdrop by lia. }
    rewrite T, RS. rewrite <- app_assoc. rewrite W at 1. now rewrite <- app_assoc.
  - destruct (rErr st0) eqn:E; [intros X; discriminate X|]. exfalso.
    assert (C : sShort s = true /\ zlen w < 14).
    { destruct SH as [SH| ->]; [|specialize (E1 ltac:(auto)); discriminate E1].
      split; [|exact SH]. destruct (sShort s) eqn:SQ; [reflexivity|]. specialize (E1 ltac:(auto)); discriminate E1. }
    destruct C as [C1 C2]. rewrite RST in RS. specialize (SS C1). apply (proj2 NL) in SS. rewrite RS in SS. lia.
Qed.
Lemma header_mode s st mode st' : readHeader s st = Ret (inr mode, st') -> mode = 0 \/ mode = 1 \/ mode = 2.
Proof.
  unfold readHeader, bindM, liftM, errM, retM. destruct (readSome s 14 st) as [w st0]. destruct (rErr st0); [intros X; discriminate X|]. cbv zeta. destruct (negb _); [intros X; discriminate X|].
  destruct (version_mode _) as [m|] eqn:V; [|intros X; discriminate X]. intros X.
  assert (m = mode) as -> by (destruct (znth _ 13) as [[| |]|]; inversion X; reflexivity).
  unfold version_mode in V. repeat match type of V with (if ?b then _ else _) = _ => destruct b end; inversion V; auto.
Qed.
Lemma keep_none {A} (m : M A) st a st' : keeps m -> m st = Ret (a, st') -> rErr st' = None -> rErr st = None.
Proof. intros K E N. destruct (rErr st) eqn:R; [|reflexivity]. rewrite (K _ _ _ _ R E) in N. discriminate N. Qed.

(** When Decode succeeds on a file that is not an indexed one of version 4 to 10,
    DecodeConfig succeeds.  It reports the size in the header, in which every top
    layer lies, and a colour model whose palette is that of every paletted
    picture Decode returns.  ([nil_pic] stands for a nil image.) *)
Theorem C44_config_partial fuel f f32op ptext dc ls : bytes f -> ~ (mid_version f /\ word_at f 22 2) ->
  decodeImage fuel f f32op ptext dc = Ret (inr ls) ->
  exists c b, decodeConfig fuel f = Ret (c, None) /\
    word_at f 14 (cfgW c) /\ word_at f 18 (cfgH c) /\ word_at f 22 b /\ config_of_base b (cfgModel c) /\
    (forall l, In l ls -> inside (cfgW c) (cfgH c) (lBounds l)) /\
    (forall l p, In l ls -> occurs p (lImage l) -> p = nil_pic \/ of_config (cfgModel c) (picModel p)).
Proof.
  intros HB NM. pose proof (newReader_bytes f HB) as SB. pose proof (newReader_len f) as SL. pose proof (header_pos f) as HP. pose proof (header_version f) as HV.
  pose proof (newReader_word f) as WW. intros HD. unfold decodeImage, decodeImageFrom in HD. unfold decodeConfig. cbv zeta in HD.
  set (s := newReader f) in *. clearbody s. assert (SL2 : zlen (sFile s) < 9223372036854775808) by lia.
  destruct (readHeader s (mkR 0 None)) as [[[e|mode] st]| |] eqn:EH; try discriminate HD.
  pose proof (HP _ _ eq_refl) as ->. clear HP.
  assert (NN : forall st, 0 <= fst (readUint32 s st)) by (intros st; apply (readBE_spec s SB SL2 4 st); lia).
  destruct (readBE_spec s SB SL2 4 (mkR 14 None) ltac:(lia)) as (_ & R1 & G1 & _).
  unfold readUint32 in HD. destruct (readBE s 4 (mkR 14 None)) as [w st1] eqn:E1. cbn [fst snd] in *.
  destruct (readBE_spec s SB SL2 4 st1 ltac:(lia)) as (_ & R2 & G2 & _).
  destruct (readBE s 4 st1) as [h st2] eqn:E2. cbn [fst snd] in *.
  destruct (readBE_spec s SB SL2 4 st2 ltac:(lia)) as (_ & R3 & G3 & _).
  destruct (readBE s 4 st2) as [bt st3] eqn:E3. cbn [fst snd] in *.
  destruct (if 0 <? mode then readBE s 4 st3 else (0, st3)) as [pr st4] eqn:E4.
  destruct (readImageProperties fuel s bt st4) as [[[e|[pal comp]] st5]| |] eqn:E5; try discriminate HD.
  destruct (readLayerPointers fuel s mode st5) as [[lp st6]| |] eqn:E6; try discriminate HD.
  destruct (rErr st6) eqn:N6; [discriminate HD|].
  pose proof (keep_none _ _ _ _ (k_pointers fuel s mode) E6 N6) as N5. pose proof (keep_none _ _ _ _ (k_imgProps fuel s bt) E5 N5) as N4.
  assert (N3 : rErr st3 = None).
  { destruct (0 <? mode); [|now injection E4 as _ ->]. eapply (keep_none (rd32 s)); [apply k_rd32| |exact N4]. unfold rd32, liftM, readUint32. now rewrite E4. }
  destruct (G3 N3) as (N2 & P3 & B31 & B32 & B33). destruct (G2 N2) as (N1 & P2 & B21 & B22 & B23). destruct (G1 N1) as (_ & P1 & B11 & B12 & B13). cbn [rPos] in *.
  assert (W1 : word_at f 14 w) by (apply WW; exact (got_word _ _ _ _ (G1 N1))).
  assert (W2 : word_at f 18 h) by (apply WW; replace 18 with (rPos st1) by lia; exact (got_word _ _ _ _ (G2 N2))).
  assert (W3 : word_at f 22 bt) by (apply WW; replace 22 with (rPos st2) by lia; exact (got_word _ _ _ _ (G3 N3))).
  destruct (mapO _ lp) as [les| |] eqn:EL; cbn [bindO] in HD; try discriminate HD.
  destruct (first_err les); [discriminate HD|]. destruct (makeGroups _ _) as [e|[os m]] eqn:EG; [discriminate HD|]. injection HD as <-.
  unfold decodeConfigM, bindM, rd32, liftM, errM, retM, readUint32. rewrite EH, E1, E2, E3.
  assert (IN : forall l, In l (makeImage os (map_order m)) -> inside w h (lBounds l)).
  { apply Forall_forall. pose proof (top_image (image_Rect 0 0 w h)) as TI. unfold image_Rect in TI at 1 2 3 4. cbn [minX minY maxX maxY] in TI.
    specialize (TI ltac:(change (256 ^ 4) with 4294967296 in *; lia) _ _ _ EG (map_order m)). unfold image_Rect in TI. cbn [minX minY maxX maxY] in TI.
    rewrite !Z.max_r in TI by lia. exact TI. }
  assert (MO : forall l p, In l (makeImage os (map_order m)) -> occurs p (lImage l) -> p = nil_pic \/ base_model (mkDP comp dc bt pal mode) (picModel p)).
  { intros l p I. revert p. change (base_image (mkDP comp dc bt pal mode) (lImage l)). revert l I. apply Forall_forall.
    eapply (good_image _ (base_group _)); [exact EG|]. apply Forall_map. eapply mapO_forall; [|exact EL]. intros a x E. exact (r_layerAt _ _ _ _ _ _ _ NN E). }
  assert (BC : 2 < bt \/ bt = 2 \/ bt = 1 \/ bt = 0) by lia.
  assert (FIN : forall c, cfgW c = w -> cfgH c = h -> config_of_base bt (cfgModel c) -> (bt = 2 -> cfgModel c = Some (KAlphaPalette (match pal with Some p => p | None => [] end))) ->
    exists c0 b, Ret (c, @None err) = Ret (c0, None) /\ word_at f 14 (cfgW c0) /\ word_at f 18 (cfgH c0) /\ word_at f 22 b /\ config_of_base b (cfgModel c0) /\
    (forall l, In l (makeImage os (map_order m)) -> inside (cfgW c0) (cfgH c0) (lBounds l)) /\
    (forall l p, In l (makeImage os (map_order m)) -> occurs p (lImage l) -> p = nil_pic \/ of_config (cfgModel c0) (picModel p))).
  { clear B13 B23 B33. intros c <- <- CB PAL. exists c, bt. repeat (split; [assumption || reflexivity|]). intros l p I O. destruct (MO l p I O) as [N|(mm & MR & MB & MK)]; [now left|right].
    cbn [dpBase dpPal] in MB, MK. rewrite MK.
    assert (mm = 0 \/ mm = 1 \/ mm = 2 \/ mm = 3 \/ mm = 4 \/ mm = 5) as D by lia. destruct CB as (C0 & C1 & C2 & C3).
    destruct D as [-> | [-> | [-> | [-> | [-> | ->]]]]]; cbv in MB; try (rewrite (C0 (eq_sym MB))); try (rewrite (C1 (eq_sym MB))); try (rewrite (PAL (eq_sym MB))); cbn; auto.
 }
  destruct (header_mode _ _ _ _ EH) as [-> | [-> | ->]]; cbn [Z.eqb Z.ltb Z.compare Pos.eqb Pos.compare Pos.compare_cont] in E4 |- *.
  - injection E4 as <- <-. destruct BC as [BC | [-> | [-> | ->]]].
    + assert (CC : config_of_base bt None) by (repeat split; intros; lia || reflexivity).
      destruct bt as [|[b|[b|b|]|]|b]; try lia; rewrite N3; apply FIN; auto; lia.
    + rewrite E5, N5. apply FIN; auto; repeat split; intros; try lia; cbn; eauto.
    + rewrite N3. apply FIN; auto; try (repeat split; intros; lia || reflexivity); lia.
    + rewrite N3. apply FIN; auto; try (repeat split; intros; lia || reflexivity); lia.
  - assert (B2 : bt <> 2) by (intros ->; apply NM; split; [exact (HV _ eq_refl)|exact W3]).
    destruct BC as [BC | [-> | [-> | ->]]]; [|contradiction| |].
    + assert (CC : config_of_base bt None) by (repeat split; intros; lia || reflexivity).
      destruct bt as [|[b|[b|b|]|]|b]; try lia; rewrite N3; apply FIN; auto; lia.
    + rewrite N3. apply FIN; auto; try (repeat split; intros; lia || reflexivity); lia.
    + rewrite N3. apply FIN; auto; try (repeat split; intros; lia || reflexivity); lia.
  - rewrite E4. destruct BC as [BC | [-> | [-> | ->]]].
    + assert (CC : config_of_base bt None) by (repeat split; intros; lia || reflexivity).
      destruct bt as [|[b|[b|b|]|]|b]; try lia; rewrite N4; apply FIN; auto; lia.
    + rewrite E5, N5. apply FIN; auto; repeat split; intros; try lia; cbn; eauto.
    + rewrite N4. apply FIN; auto; try (repeat split; intros; lia || reflexivity); lia.
    + rewrite N4. apply FIN; auto; try (repeat split; intros; lia || reflexivity); lia.
Qed.
Print Assumptions C44_config_partial.

(** The full statement fails: an indexed file of version 4 (one colour, no
    layers) that Decode accepts.  DecodeConfig takes the precision word for a
    property and reports an error. *)
Definition indexed4 : list Z :=
  [103; 105; 109; 112; 32; 120; 99; 102; 32; 118; 48; 48; 52; 0] ++
  [0; 0; 0; 1] ++ [0; 0; 0; 1] ++ [0; 0; 0; 2] ++ [0; 0; 0; 150] ++
  [0; 0; 0; 1] ++ [0; 0; 0; 7] ++ [0; 0; 0; 1] ++ [10; 20; 30] ++
  [0; 0; 0; 17] ++ [0; 0; 0; 1] ++ [1] ++ [0; 0; 0; 0] ++ [0; 0; 0; 0] ++ [0; 0; 0; 0] ++ [0; 0; 0; 0].
Theorem C44_refuted : bytes indexed4 /\ mid_version indexed4 /\ word_at indexed4 22 2 /\ forall f32op ptext dc fuel, (20 <= fuel)%nat ->
  decodeImage fuel indexed4 f32op ptext dc = Ret (inr []) /\
  exists c, decodeConfig fuel indexed4 = Ret (c, Some EEOF).
Proof.
  split; [repeat constructor; lia|]. split; [exists 48, 52, (skipn 13 indexed4); split; [reflexivity|lia]|].
  split; [exists (firstn 22 indexed4), 0, 0, 0, 2, (skipn 26 indexed4); repeat split|].
  intros f32op ptext dc fuel HF. do 20 (destruct fuel as [|fuel]; [lia|]).
  split; [vm_compute; reflexivity|]. eexists. vm_compute. reflexivity.
Qed.
Print Assumptions C44_refuted.
(** A file within the partial theorem: the same colours in the layout of version 3. *)
Definition indexed3 : list Z :=
  [103; 105; 109; 112; 32; 120; 99; 102; 32; 118; 48; 48; 51; 0] ++
  [0; 0; 0; 1] ++ [0; 0; 0; 1] ++ [0; 0; 0; 2] ++
  [0; 0; 0; 1] ++ [0; 0; 0; 7] ++ [0; 0; 0; 1] ++ [10; 20; 30] ++
  [0; 0; 0; 17] ++ [0; 0; 0; 1] ++ [0] ++ [0; 0; 0; 0] ++ [0; 0; 0; 0] ++
  [0; 0; 0; 66] ++ [0; 0; 0; 0] ++
  (* layer at 66 *) [0; 0; 0; 1] ++ [0; 0; 0; 1] ++ [0; 0; 0; 5] ++ [0; 0; 0; 1; 0] ++ [0; 0; 0; 0] ++ [0; 0; 0; 0] ++ [0; 0; 0; 99] ++ [0; 0; 0; 0] ++
  (* hierarchy at 99 *) [0; 0; 0; 1] ++ [0; 0; 0; 1] ++ [0; 0; 0; 2] ++ [0; 0; 0; 115] ++
  (* level at 115 *) [0; 0; 0; 1] ++ [0; 0; 0; 1] ++ [0; 0; 0; 131] ++ [0; 0; 0; 0] ++
  (* tile at 131 *) [0; 128].
Example C44_ex ptext : bytes indexed3 /\ ~ (mid_version indexed3 /\ word_at indexed3 22 2) /\
  match decodeImage 20 indexed3 (fun z => z) ptext true with
  | Ret (inr [l]) => match lImage l with ILeaf p => Some (picModel p) | _ => None end
  | _ => None
  end = Some (KAlphaPalette [CRGB 10 20 30]).
Proof.
  split; [repeat constructor; lia|]. split.
  - intros ((a & b & t & E & C) & _). unfold indexed3 in E. cbn [app] in E. injection E as A B _. lia.
  - vm_compute. reflexivity.
Qed.
