(** The decoder on a layer laid out as in S_Layout. *)
From Coq Require Import ZifyBool ZifyNat.
Require Import Verif.Base Verif.L_List Verif.M_Color Verif.M_Composite Verif.M_Rect Verif.M_Image Verif.M_Reader Verif.L_Reader
  Verif.M_Rle Verif.S_Rle Verif.L_Rle Verif.L_Rle3 Verif.S_Compressed Verif.M_Compressed Verif.L_Compressed Verif.P_Compressed Verif.M_Groups Verif.M_Monad Verif.M_Decode Verif.M_Encode
  Verif.L_Encode Verif.S_String Verif.S_File Verif.S_Layout Verif.L_Pix Verif.L_Layout Verif.L_Grid Verif.L_Run Verif.L_File Verif.L_Linked Verif.L_Trip Verif.L_Trip2.

(** a picture of one of the types with alpha, of the size of [g], showing [px] *)
Definition shows (mode : Z) (pal : option (list color)) (g : grid) (px : Z -> Z -> Z -> Z) (pc : pic) : Prop :=
  picBounds pc = mkRect 0 0 (gdW g) (gdH g) /\ picModel pc = type_model mode pal /\
  forall x y, 0 <= x < gdW g -> 0 <= y < gdH g ->
    picAt pc x y = type_color mode (match pal with Some p => p | None => [] end) (fun k => px k x y).

Section Layer.
Variables (fuel : nat) (s : src) (f32op : Z -> Z) (ptext : list Z -> tres) (d : dparams).
Hypothesis Hlen : zlen (sFile s) < 4294967296.
Hypothesis HF : 4294967296 <= Z.of_nat fuel.
Hypothesis Hcomp : dpComp d = 1.
Hypothesis Hmode : dpMode d < 2.

Lemma bget_zseq (f : Z -> Z) n k : 0 <= k < n -> bget (map f (zseq n)) k = f k.
Proof. intros H. unfold bget. rewrite znth_map, znth_zseq by lia. reflexivity. Qed.
Lemma byte_shift z : u8 (Z.shiftr z 8) = z / 256 mod 256.
Proof. unfold u8. rewrite Z.shiftr_div_pow2 by lia. reflexivity. Qed.
Lemma pic_shows g px mode r : codes g px -> mode = 1 \/ mode = 3 \/ mode = 5 -> (mode = 5 -> dpPal d <> None) ->
  gdChannels g = type_channels mode -> decoded d mode g px r ->
  exists pc, pic_of (dpPal d) r = Some pc /\ shows mode (dpPal d) g px pc.
Proof.
  intros (RW & RH & RC & RT & TC) Mo HP Ch D. unfold decoded in D. destruct (dpDecompress d).
  - destruct D as (f & -> & F). cbn [pic_of]. eexists. split; [reflexivity|]. split; [reflexivity|]. split; [reflexivity|].
    intros x y X Y. cbn [picAt]. replace (pin x y _) with true by (unfold pin; cbn; lia). rewrite F by assumption. rewrite Ch.
    destruct Mo as [-> | [-> | ->]]; cbn [type_channels]; unfold dec_color, type_color; rewrite !bget_zseq by lia; try reflexivity.
    destruct (dpPal d) as [pal|]; [|now destruct HP]. unfold obind. cbv beta iota zeta. destruct (znth pal (px 0 x y)); [|reflexivity]. rewrite !byte_shift. reflexivity.
  - subst r. cbn [pic_of]. eexists. split; [reflexivity|]. split; [reflexivity|]. split; [reflexivity|].
    intros x y X Y. cbn [picAt].
    pose proof (C31_shows_coded_pixels mode (gdW g) (gdH g) (dpPal d) (gdTiles g) px [] x y ltac:(lia)
      ltac:(rewrite <- Ch; now apply tcoded_coded) ltac:(intros; apply HP; lia)) as E.
    cbn [comp_history fold_left] in E. rewrite E. replace (pin x y _) with true by (unfold pin; cbn; lia).
    now destruct (type_color _ _ _).
Qed.

(** ** the loop over the properties *)
Notation lbody := (lprop_body fuel s f32op d).
Definition steps (N : nat) (st : lprop_state) (p : Z) (st' : lprop_state) (q : Z) : Prop :=
  exists k, (k <= N)%nat /\ forall n r q', runs (whileM n lbody st') q r q' -> runs (whileM (k + n) lbody st) p r q'.
Lemma steps_one st p st' q : runs (lbody st) p (inl st') q -> steps 1 st p st' q.
Proof. intros H. exists 1%nat. split; [lia|]. intros n r q' K. eapply runs_while_inl; eassumption. Qed.
Lemma steps_none st p q : p = q -> steps 0 st p st q.
Proof. intros ->. exists O. split; [lia|]. intros n r q' K. exact K. Qed.
Lemma steps_more N M st p st' q : (N <= M)%nat -> steps N st p st' q -> steps M st p st' q.
Proof. intros L (k & K & H). exists k. split; [lia|exact H]. Qed.
Lemma steps_trans N M st p st' q st'' r : steps N st p st' q -> steps M st' q st'' r -> steps (N + M) st p st'' r.
Proof.
  intros (k & K & H) (j & J & H2). exists (k + j)%nat. split; [lia|]. intros n a b R. rewrite <- Nat.add_assoc. apply H. now apply H2.
Qed.

Definition path_kept (l : flayer) : list Z := if 1 <? zlen (flPath l) then flPath l else [].
Definition good_head (l : flayer) : Prop :=
  0 <= flW l < 4294967296 /\ 0 <= flH l < 4294967296 /\ flType l = 2 * dpBase d + 1 /\ 0 <= dpBase d <= 2 /\
  utf8 (flName l) /\ zlen (flName l) < maxString /\
  0 <= flOpacity l <= 255 /\ (flVisible l = 0 \/ flVisible l = 1) /\
  -2147483648 <= flX l < 2147483648 /\ -2147483648 <= flY l < 2147483648 /\
  Forall (fun z => -2147483648 <= z < 2147483648) (flPath l) /\ 0 <= flMode l < 4294967296.
Definition head_layer (l : flayer) (im : option image) : dlayer :=
  mkDL (flName l) (mkRect (flX l) (flY l) (flX l + flW l) (flY l + flH l)) (read_mode d (flMode l)) (flVisible l =? 0)
    (255 - flOpacity l) im true (flGroup l) (path_kept l).
Definition text_pars (l : flayer) : list parasite :=
  match flText l with Some data => [mkPar text_layer 0 data] | None => [] end.

Lemma runs_readProps l p hp t : good_head l ->
  holds s p (layer_head l ++ t) -> hp = p + zlen (layer_head l) ->
  runs (readProperties fuel s f32op d (mkDL (flName l) (mkRect 0 0 (flW l) (flH l)) MNormal false 0 None true false []))
    (p + 12 + zlen (string32 (flName l))) (head_layer l None, text_pars l) hp.
Proof.
  intros (W & H & T & B & U & LN & O & V & X & Y & FP & MO) HH ->.
  apply holds_split in HH as [HH _]. unfold layer_head in HH.
  apply holds_split in HH as [_ HH]. rewrite w32_len in HH. apply holds_split in HH as [_ HH]. rewrite w32_len in HH.
  apply holds_split in HH as [_ HH]. rewrite w32_len in HH. apply holds_split in HH as [_ HH].
  replace (p + 4 + 4 + 4) with (p + 12) in HH by lia.
  set (p0 := p + 12 + zlen (string32 (flName l))) in *.
  apply holds_split in HH as [H6 HH]. rewrite prop32_len, w32_len in HH.
  apply holds_split in HH as [H8 HH]. rewrite prop32_len, w32_len in HH.
  apply holds_split in HH as [H15 HH]. rewrite prop32_len, zlen_app, !w32_len in HH.
  apply holds_split in HH as [H30 HH]. apply holds_split in HH as [H21 HH]. apply holds_split in HH as [H29 HH].
  pose proof HH as HT. apply holds_split in HH as [H7 H0]. rewrite prop32_len, w32_len in H0.
  set (p1 := p0 + (8 + 4) + (8 + 4) + (8 + (4 + 4))) in *.
  match type of H21 with holds _ ?x _ => set (p2 := x) in * end.
  match type of H29 with holds _ ?x _ => set (p3 := x) in * end.
  match type of H7 with holds _ ?x _ => set (p4 := x) in * end.
  set (l0 := mkDL (flName l) (mkRect 0 0 (flW l) (flH l)) MNormal false 0 None true false []).
  set (l1 := mkDL (flName l) (mkRect (flX l) (flY l) (flX l + flW l) (flY l + flH l)) MNormal (flVisible l =? 0) (255 - flOpacity l) None true false []).
  assert (S1 : steps 3 (l0, []) p0 (l1, []) p1).
  { apply (steps_trans 1 2 _ _ (dl_transp l0 (255 - flOpacity l), []) (p0 + 12)); [apply steps_one; now apply lp_opacity|].
    apply (steps_trans 1 1 _ _ (dl_invisible (dl_transp l0 (255 - flOpacity l)) (flVisible l =? 0), []) (p0 + 24)).
    - apply steps_one.
      replace (flVisible l) with (if negb (flVisible l =? 0) then 1 else 0) in H8 by (destruct V as [-> | ->]; reflexivity).
      apply (lp_visible fuel s d f32op (dl_transp l0 (255 - flOpacity l)) []) in H8; try assumption. rewrite negb_involutive in H8. replace (p0 + 24) with (p0 + 12 + 12) by lia. exact H8.
    - apply steps_one. replace p1 with (p0 + 24 + 16) by (unfold p1; lia).
      replace (p0 + (8 + 4) + (8 + 4)) with (p0 + 24) in H15 by lia.
      apply (lp_offsets fuel s d f32op (dl_invisible (dl_transp l0 (255 - flOpacity l)) (flVisible l =? 0)) []) in H15; try assumption.
      replace l1 with (dl_bounds (dl_invisible (dl_transp l0 (255 - flOpacity l)) (flVisible l =? 0)) (radd (mkRect 0 0 (flW l) (flH l)) (flX l) (flY l))); [exact H15|].
      unfold l1, dl_bounds, dl_invisible, dl_transp, radd. cbn. do 2 f_equal; lia. }
  set (l2 := dl_path l1 (path_kept l)).
  assert (S2 : steps 1 (l1, []) p1 (l2, []) p2).
  { unfold l2, path_kept, p2. destruct (1 <? zlen (flPath l)).
    - apply steps_one. rewrite prop32_len, zlen_w32s. rewrite Z.add_assoc. now apply lp_path.
    - eapply steps_more; [|apply steps_none; change (zlen (@nil Z)) with 0; lia]. lia. }
  assert (S3 : steps 2 (l2, []) p2 (l2, text_pars l) p3).
  { unfold text_pars, p3. destruct (flText l) as [data|].
    - pose proof H21 as HT1. apply holds_split in H21 as [A1 A2]. rewrite prop32_len, w32_len in A2.
      apply (steps_trans 1 1 _ _ (l2, []) (p2 + 12)); [apply steps_one; apply lp_textflag; assumption|].
      apply steps_one.
      match goal with |- runs _ _ _ ?q => replace q with (p2 + 12 + 36 + zlen data) end.
      2:{ rewrite !zlen_app, !prop32_len, !zlen_app, !w32_len. change (zlen (string32 text_layer)) with 20. lia. }
      eapply lp_text; try assumption; [eapply holds_join; [exact A2|]|].
      + match goal with |- holds _ ?x _ => replace x with p3 end; [exact (holds_join _ _ _ _ H29 HT)|].
        unfold p3. rewrite zlen_app, (prop32_len 26), w32_len. lia.
      + intros E. apply app_eq_nil in E as [_ E]. discriminate E.
    - eapply steps_more; [|apply steps_none; change (zlen (@nil Z)) with 0; lia]. lia. }
  set (l3 := mkDL (dlName l2) (dlBounds l2) (dlMode l2) (dlInvisible l2) (dlTransparency l2) (dlImage l2) (dlAlpha l2) (flGroup l) (dlPath l2)).
  assert (S4 : steps 1 (l2, text_pars l) p3 (l3, text_pars l) p4).
  { unfold l3, p4. destruct (flGroup l).
    - apply steps_one. rewrite prop32_len. change (zlen (@nil Z)) with 0. rewrite Z.add_0_r. now apply (lp_group fuel s d f32op l2).
    - eapply steps_more; [|apply steps_none; change (zlen (@nil Z)) with 0; lia]. lia. }
  assert (S5 : steps 1 (l3, text_pars l) p4 (head_layer l None, text_pars l) (p4 + 12)).
  { apply steps_one. change (head_layer l None) with (dl_mode l3 (read_mode d (flMode l))). now apply lp_mode. }
  pose proof (steps_trans _ _ _ _ _ _ _ _ S1 (steps_trans _ _ _ _ _ _ _ _ S2 (steps_trans _ _ _ _ _ _ _ _ S3 (steps_trans _ _ _ _ _ _ _ _ S4 S5)))) as (k & K & S).
  unfold readProperties. cbn in K. replace fuel with (k + Datatypes.S (fuel - k - 1))%nat at 1 by lia.
  apply S. apply runs_while_inr.
  match goal with |- runs _ _ _ ?q => replace q with (p4 + 12 + 8) end; [now apply lp_end|].
  unfold p4, p3, p2, p1, p0, layer_head. rewrite !zlen_app, !prop32_len, !w32_len, !zlen_app, !w32_len. change (zlen (@nil Z)) with 0. lia.
Qed.

(** ** the layer *)
Definition good_image (l : flayer) (px : Z -> Z -> Z -> Z) : Prop :=
  gdW (flImage l) = flW l /\ gdH (flImage l) = flH l /\ codes (flImage l) px /\
  gdChannels (flImage l) = type_channels (flType l) /\ (flType l = 5 -> dpPal d <> None).
Definition good_mask (l : flayer) (g : grid) (pm : Z -> Z -> Z -> Z) : Prop :=
  dpDecompress d = true /\ codes g pm /\ gdChannels g = 1 /\
  rEq (mkRect (flX l) (flY l) (flX l + flW l) (flY l + flH l)) (mkRect 0 0 (gdW g) (gdH g)) = true.
Definition shows_mask (g : grid) (pm : Z -> Z -> Z -> Z) (m : gray_img) : Prop :=
  grayBounds m = mkRect 0 0 (gdW g) (gdH g) /\
  forall x y, grayAt m x y = if pin x y (mkRect 0 0 (gdW g) (gdH g)) then pm 0 x y else 0.
(** the decoded image: the pixels, under the text, under the mask *)
Definition text_over (l : flayer) (i i' : image) : Prop :=
  match flText l with Some data => exists td, ptext data = TOk td /\ i' = IText i td | None => i' = i end.
Definition mask_over (l : flayer) (pm : Z -> Z -> Z -> Z) (i i' : image) : Prop :=
  match flMask l with Some g => exists m, shows_mask g pm m /\ i' = IMasked i m | None => i' = i end.

Lemma runs_readLayer l px pm p : good_head l ->
  (flGroup l = true -> flText l = None /\ flMask l = None) ->
  (flGroup l = false -> good_image l px) ->
  (forall data, flText l = Some data -> exists td, ptext data = TOk td) ->
  (forall g, flMask l = Some g -> good_mask l g pm) ->
  holds s p (layer_bytes l p) ->
  runsTo (readLayer fuel s f32op ptext d) p (fun r => exists im, r = head_layer l im /\
    if flGroup l then im = None
    else exists pc i' i'', shows (flType l) (dpPal d) (flImage l) px pc /\ text_over l (ILeaf pc) i' /\ mask_over l pm i' i'' /\ im = Some i'').
Proof.
  intros GH GG GI GT GM H. pose proof GH as (W & Hh & T & B & U & LN & O & V & X & Y & FP & MO).
  pose proof (holds_range _ _ _ H) as HR. unfold layer_bytes in H, HR. cbv zeta in H, HR. set (hp := p + zlen (layer_head l) + 8) in *.
  set (mp := hp + zlen (grid_bytes (flImage l) hp)) in *. rewrite !zlen_app, !w32_len in HR.
  pose proof (zlen_pos (grid_bytes (flImage l) hp)) as ZG. pose proof (zlen_pos (layer_head l)) as ZH.
  pose proof (zlen_pos match flMask l with Some m => mask_bytes m mp | None => [] end) as ZM.
  assert (HPB : 0 <= hp < 4294967296) by (unfold hp; lia).
  pose proof (runs_readProps l p (p + zlen (layer_head l)) _ GH H eq_refl) as RP.
  apply holds_split in H as [HH H]. apply holds_split in H as [Hp1 H]. rewrite w32_len in H. apply holds_split in H as [Hp2 H]. rewrite w32_len in H.
  replace (p + zlen (layer_head l) + 4 + 4) with hp in H by (unfold hp; lia). apply holds_split in H as [HI HM]. fold mp in HM.
  unfold layer_head in HH. apply holds_split in HH as [H1 HH]. rewrite w32_len in HH. apply holds_split in HH as [H2 HH]. rewrite w32_len in HH.
  apply holds_split in HH as [H3 HH]. rewrite w32_len in HH. apply holds_split in HH as [H4 _].
  unfold readLayer.
  eapply runsTo_step; [apply runs_w32; exact H1|]. eapply runsTo_step; [apply runs_w32; exact H2|].
  eapply runsTo_step; [apply runs_w32; exact H3|]. rewrite !u32_small by lia. cbv zeta. rewrite T.
  replace ((2 * dpBase d + 1) / 2) with (dpBase d) by (rewrite Z.mul_comm, Z.div_add_l by lia; change (1 / 2) with 0; lia).
  rewrite Z.eqb_refl. cbn [negb].
  replace (((2 * dpBase d + 1) mod 2 =? 1)) with true.
  2:{ rewrite Z.add_comm, Z.mul_comm, Z.mod_add by lia. reflexivity. }
  eapply runsTo_step; [rewrite string32_str in H4; apply runs_rdStr; [exact H4|exact U|exact LN]|].
  eapply runsTo_step; [rewrite <- string32_str; replace (p + 4 + 4 + 4) with (p + 12) by lia; exact RP|]. cbv beta iota.
  eapply runsTo_step; [apply runs_ptr; [exact Hmode|exact Hp1]|]. eapply runsTo_step; [apply runs_ptr; [exact Hmode|exact Hp2]|].
  rewrite (u32_small hp) by lia. eapply runsTo_step; [apply runs_goto; lia|].
  assert (TP : par_get (text_pars l) textParasiteName = match flText l with Some data => Some (mkPar text_layer 0 data) | None => None end).
  { unfold text_pars. destruct (flText l); reflexivity. }
  assert (FIN : forall im q i', text_over l (image_of im) i' -> (flText l = None -> im = Some (image_of im)) ->
    (flMask l <> None -> flGroup l = false) ->
    runsTo (finishLayer fuel s ptext d (head_layer l im) (text_pars l) (u32 match flMask l with Some _ => mp | None => 0 end)) q
      (fun r => exists i'', r = head_layer l (Some i'') /\ mask_over l pm i' i'')).
  { intros im q i' TO IM MG. unfold finishLayer. rewrite TP.
    assert (MK : forall q, runsTo (if negb (u32 match flMask l with Some _ => mp | None => 0 end =? 0)
        then gotoM (u32 match flMask l with Some _ => mp | None => 0 end);;; readMask fuel s d (head_layer l (Some i')) else retM (head_layer l (Some i'))) q
      (fun r => exists i'', r = head_layer l (Some i'') /\ mask_over l pm i' i'')).
    { clear q. intros q. unfold mask_over. destruct (flMask l) as [g|] eqn:EM.
      - pose proof (holds_range _ _ _ HM) as RM. pose proof (zlen_pos (mask_bytes g mp)). rewrite u32_small by (unfold mp in *; lia).
        replace (mp =? 0) with false by (unfold mp, hp in *; lia). cbn [negb].
        eapply runsTo_step; [apply runs_goto; lia|]. destruct (GM g eq_refl) as (D1 & CG & C1 & EQ).
        unfold readMask. eapply runsTo_bind; [apply (runs_readChannel fuel s d Hlen HF Hcomp Hmode g pm); eassumption|].
        intros r q' (m & -> & BM & PM). rewrite BM. cbn [head_layer dlBounds]. rewrite EQ. cbn [negb].
        apply runsTo_ret. exists (IMasked i' m). split; [reflexivity|]. exists m. split; [split; assumption|reflexivity].
      - change (u32 0) with 0. cbn [Z.eqb negb]. apply runsTo_ret. exists i'. auto. }
    unfold text_over in TO. destruct (flText l) as [data|].
    - cbn [parData]. destruct TO as (td & E & ->). rewrite E. apply MK.
    - rewrite (IM eq_refl). rewrite <- TO. apply MK. }
  cbn [head_layer dlGroup]. destruct (flGroup l) eqn:EG.
  - destruct (GG eq_refl) as [ET EM]. unfold finishLayer. rewrite TP, ET, EM. change (u32 0) with 0. cbn [Z.eqb negb].
    apply runsTo_ret. exists None. auto.
  - destruct (GI eq_refl) as (GW & Gh & CG & CC & PL). unfold head_layer at 1 2. cbn [dlBounds].
    replace (dx _) with (flW l) by (unfold dx; cbn; lia). replace (dy _) with (flH l) by (unfold dy; cbn; lia). rewrite !u32_small by lia.
    rewrite <- GW at 1. rewrite <- Gh at 1.
    assert (M3 : flType l = 1 \/ flType l = 3 \/ flType l = 5) by lia.
    eapply runsTo_bind; [apply (runs_readImage fuel s d Hlen HF Hcomp Hmode (flImage l) px); [exact CG|lia| |exact HI]|].
    { rewrite CC. rewrite <- T. destruct M3 as [-> | [-> | ->]]; reflexivity. }
    intros r q D. rewrite <- T in D. destruct (pic_shows _ _ _ _ CG M3 PL CC D) as (pc & -> & SH).
    assert (exists i', text_over l (ILeaf pc) i') as [i' TO].
    { unfold text_over. destruct (flText l) as [data|]; [|eauto]. destruct (GT data eq_refl) as [td E]. eauto. }
    pose proof (FIN (Some (ILeaf pc)) q i' TO ltac:(reflexivity) ltac:(intros; reflexivity)) as (r' & q' & R & (i'' & -> & MO')).
    exists (head_layer l (Some i'')), q'. split; [exact R|]. exists (Some i''). split; [reflexivity|].
    exists pc, i', i''. rewrite <- T. auto.
Qed.
End Layer.
