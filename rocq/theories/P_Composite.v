(** Property theorems: compositing (C01 - C11, C14).  [composite m rnd b t] is
    Composite.Composite; [rnd] is the random draw (only Dissolve looks at it). *)
Require Import Verif.Base Verif.M_Color Verif.M_Composite Verif.S_Color Verif.S_Composite
  Verif.L_Word Verif.L_Color Verif.L_Composite Verif.L_Blend Verif.L_HSV Verif.L_Modes.

Definition half_red : color := CNRGBA64 (mk64 65535 0 100 32768).
Definition some_blue : color := CNRGBA 10 20 250 200.
Example colours_wf : wf_color half_red /\ wf_color some_blue /\ wf_color (grey 300).
Proof. cbn; unfold wf64, is_u16, is_u8; cbn. lia. Qed.

(** ** C01 *)
Theorem C01_opaque_top : forall rnd b t, wf_color b -> wf_color t ->
  cA (colourToNRGBA t) = 65535 ->
  composite MNormal rnd b t = Some (CNRGBA64 (colourToNRGBA t)).
Proof. exact normal_opaque. Qed.
Print Assumptions C01_opaque_top.
Theorem C01_transparent_top : forall rnd b t, wf_color b -> wf_color t ->
  cA (colourToNRGBA t) = 0 -> 0 < cA (colourToNRGBA b) ->
  composite MNormal rnd b t = Some (CNRGBA64 (colourToNRGBA b)).
Proof. exact normal_transparent. Qed.
Print Assumptions C01_transparent_top.
Theorem C01_both_empty : forall rnd b t,
  cA (colourToNRGBA b) = 0 -> cA (colourToNRGBA t) = 0 ->
  composite MNormal rnd b t = Some (CNRGBA64 (mk64 0 0 0 0)).
Proof. exact normal_empty. Qed.
Print Assumptions C01_both_empty.
Theorem C01_alpha_over : forall rnd b t, wf_color b -> wf_color t ->
  let x := colourToNRGBA b in let y := colourToNRGBA t in
  0 < cA x + cA y ->
  exists c, composite MNormal rnd b t = Some (CNRGBA64 c) /\ wf64 c /\
    over_channel (cA x) (cR x) (cA y) (cR y) (cR c) /\
    over_channel (cA x) (cG x) (cA y) (cG y) (cG c) /\
    over_channel (cA x) (cB x) (cA y) (cB y) (cB c) /\
    0 <= 65535 * cA c - (65535 * (cA x + cA y) - cA x * cA y) < 65535 /\
    Z.max (cA x) (cA y) <= cA c <= 65535.
Proof. exact normal_general. Qed.
Print Assumptions C01_alpha_over.
Example C01_example : composite MNormal 0 some_blue half_red =
  Some (CNRGBA64 (mk64 37857 2259 28298 58468)).
Proof. vm_compute. reflexivity. Qed.

(** ** C02: every mode (also undefined values), every draw: a colour comes back *)
Theorem C02_total : forall m rnd b t, wf_color b -> wf_color t ->
  exists c, composite m rnd b t = Some c /\ wf_color c.
Proof. exact composite_total. Qed.
Print Assumptions C02_total.
Example C02_example : composite (MUndef 77) 5 some_blue half_red = composite MNormal 0 some_blue half_red.
Proof. vm_compute. reflexivity. Qed.

(** ** C03 *)
(** false: changing only the red of the bottom changes the green of the result *)
Theorem C03_per_channel_refuted :
  exists b b' t c c', wf_color b /\ wf_color b' /\ wf_color t /\
    cG (colourToNRGBA b) = cG (colourToNRGBA b') /\ cA (colourToNRGBA b) = cA (colourToNRGBA b') /\
    composite MMultiply 0 b t = Some c /\ composite MMultiply 0 b' t = Some c' /\
    cG (colourToNRGBA c) <> cG (colourToNRGBA c').
Proof.
  exists (CNRGBA64 (mk64 0 65535 0 65535)), (CNRGBA64 (mk64 65535 65535 0 65535)), (grey 65535).
  do 2 eexists. repeat split; try (vm_compute; reflexivity); try (vm_compute; discriminate).
Qed.
Print Assumptions C03_per_channel_refuted.
(** What holds: the red output is a function of the two reds and the alphas ... *)
Theorem C03_per_channel_red_partial : forall m rnd b t b' t' c c', separable m = true ->
  wf_color b -> wf_color t -> wf_color b' -> wf_color t' ->
  cR (colourToNRGBA b) = cR (colourToNRGBA b') -> cA (colourToNRGBA b) = cA (colourToNRGBA b') ->
  cR (colourToNRGBA t) = cR (colourToNRGBA t') -> cA (colourToNRGBA t) = cA (colourToNRGBA t') ->
  composite m rnd b t = Some c -> composite m rnd b' t' = Some c' ->
  cR (colourToNRGBA c) = cR (colourToNRGBA c').
Proof. exact sep_red. Qed.
Print Assumptions C03_per_channel_red_partial.
(** ... and over a grey bottom every channel is the mix of the bottom channel with
    what the mode yields on greys of that channel.  Missing: G and B over a
    coloured bottom (refuted above). *)
Theorem C03_per_channel_grey_bottom_partial : forall m rnd b t,
  separable m = true -> wf_color b -> wf_color t ->
  let x := colourToNRGBA b in let y := colourToNRGBA t in
  cR x = cG x -> cR x = cB x -> 0 < cA x ->
  exists c, composite m rnd b t = Some (CNRGBA64 c) /\
   (forall v, composite m rnd (grey (cR x)) (grey (cR y)) = Some (grey v) ->
      over_channel (cA x) (cR x) (Z.min (cA x) (cA y)) v (cR c)) /\
   (forall v, composite m rnd (grey (cG x)) (grey (cG y)) = Some (grey v) ->
      over_channel (cA x) (cG x) (Z.min (cA x) (cA y)) v (cG c)) /\
   (forall v, composite m rnd (grey (cB x)) (grey (cB y)) = Some (grey v) ->
      over_channel (cA x) (cB x) (Z.min (cA x) (cA y)) v (cB c)).
Proof. exact sep_grey_bottom. Qed.
Print Assumptions C03_per_channel_grey_bottom_partial.
Example C03_example : separable MScreen = true /\ composite MScreen 0 (grey 30000) half_red =
  Some (CNRGBA64 (mk64 47767 29999 30026 65535)).
Proof. vm_compute. auto. Qed.

(** ** C04 *)
Theorem C04_keeps_alpha : forall m rnd b t, separable m = true -> wf_color b -> wf_color t ->
  exists c, composite m rnd b t = Some c /\ cA (colourToNRGBA c) = cA (colourToNRGBA b).
Proof. exact sep_alpha. Qed.
Print Assumptions C04_keeps_alpha.
Theorem C04_empty_bottom : forall m rnd b t, separable m = true -> cA (colourToNRGBA b) = 0 ->
  composite m rnd b t = Some (CNRGBA 0 0 0 0).
Proof. exact sep_empty_bottom. Qed.
Print Assumptions C04_empty_bottom.
Theorem C04_transparent_top : forall m rnd b t, separable m = true -> wf_color b -> wf_color t ->
  0 < cA (colourToNRGBA b) -> cA (colourToNRGBA t) = 0 ->
  composite m rnd b t = Some (CNRGBA64 (colourToNRGBA b)).
Proof. exact sep_transparent_top. Qed.
Print Assumptions C04_transparent_top.
Example C04_example : composite MBurn 0 half_red (CNRGBA 9 9 9 0) = Some half_red.
Proof. vm_compute. reflexivity. Qed.

(** ** C05 *)
Theorem C05_arithmetic_modes : forall m rnd x y, arithmetic_mode m = true ->
  0 <= x <= 65535 -> 0 <= y <= 65535 ->
  exists v, composite m rnd (grey x) (grey y) = Some (grey v) /\ mode_formula m x y v /\
    0 <= v <= 65535.
Proof. exact formula_grey. Qed.
Print Assumptions C05_arithmetic_modes.
Example C05_example : composite MDodge 0 (grey 20000) (grey 40000) = Some (grey 51329) /\
  composite MGrainExtract 0 (grey 20000) (grey 40000) = Some (grey 12767).
Proof. vm_compute. auto. Qed.

(** ** C06 *)
(** false: burning black with black paints white *)
Theorem C06_burn_refuted : exists x y v,
  0 <= x <= 65535 /\ 0 <= y <= 65535 /\
  composite MBurn 0 (grey x) (grey y) = Some (grey v) /\ x < v /\ ~ burn_formula x y v.
Proof.
  exists 0, 1, 65535. split; [lia|]. split; [lia|]. split; [vm_compute; reflexivity|]. split; [lia|].
  unfold burn_formula, within. lia.
Qed.
Print Assumptions C06_burn_refuted.
(** the failure is general: wherever 1-(1-b)/t is negative the code answers white *)
Theorem C06_burn_saturation_refuted : forall rnd x y,
  0 <= x <= 65535 -> 0 <= y <= 65535 -> y < 65535 - x -> 65536 * y <= 65535 * (65535 - x) ->
  composite MBurn rnd (grey x) (grey y) = Some (grey 65535).
Proof. exact burn_bad. Qed.
Print Assumptions C06_burn_saturation_refuted.
(** What holds: whenever the exact result does not saturate.  Missing: saturation. *)
Theorem C06_burn_partial : forall rnd x y,
  0 <= x <= 65535 -> 0 <= y <= 65535 -> 65535 - x <= y -> 0 < y ->
  exists v, composite MBurn rnd (grey x) (grey y) = Some (grey v) /\ burn_formula x y v /\ v <= x.
Proof. exact burn_good. Qed.
Print Assumptions C06_burn_partial.
Example C06_example : 65535 - 50000 <= 30000 /\
  composite MBurn 0 (grey 50000) (grey 30000) = Some (grey 31599).
Proof. vm_compute. split; [discriminate|reflexivity]. Qed.

(** ** C07 *)
Theorem C07_hardlight_refuted : exists x y v,
  0 <= x <= 65535 /\ 0 <= y <= 65535 /\
  composite MHardLight 0 (grey x) (grey y) = Some (grey v) /\ x = 0 /\ 2 * y <= 65535 /\
  v = 65535 /\ ~ hardlight_formula x y v.
Proof.
  exists 0, 32767, 65535. repeat split; try lia; try (vm_compute; reflexivity).
  unfold hardlight_formula, within. lia.
Qed.
Print Assumptions C07_hardlight_refuted.
(** What holds: every other one of the 2^32 pairs. *)
Theorem C07_hardlight_partial : forall rnd x y,
  0 <= x <= 65535 -> 0 <= y <= 65535 -> ~ (x = 0 /\ y = 32767) ->
  exists v, composite MHardLight rnd (grey x) (grey y) = Some (grey v) /\ hardlight_formula x y v.
Proof. exact hardlight_good. Qed.
Print Assumptions C07_hardlight_partial.
Example C07_example : composite MHardLight 0 (grey 20000) (grey 60000) = Some (grey 57844).
Proof. vm_compute. reflexivity. Qed.

(** ** C08 *)
Theorem C08_overlay_refuted : exists y v w, 0 <= y <= 65535 /\
  composite MOverlay 0 (grey 0) (grey y) = Some (grey v) /\
  composite MSoftLight 0 (grey 0) (grey y) = Some (grey v) /\ 20000 < v /\
  composite MOverlay 0 (grey 65535) (grey y) = Some (grey w) /\ w < 60000.
Proof.
  exists 30000. do 2 eexists. repeat split; try (vm_compute; reflexivity); try (vm_compute; discriminate).
Qed.
Print Assumptions C08_overlay_refuted.
(** What holds: a black top, and a top equal to the backdrop.  Missing: the rest. *)
Theorem C08_overlay_black_top_partial : forall rnd x, 0 <= x <= 65535 ->
  exists v, composite MOverlay rnd (grey x) (grey 0) = Some (grey v) /\
            composite MSoftLight rnd (grey x) (grey 0) = Some (grey v) /\ overlay_formula 1 x 0 v.
Proof. exact overlay_black_top. Qed.
Print Assumptions C08_overlay_black_top_partial.
Theorem C08_overlay_equal_partial : forall rnd x, 0 <= x <= 65535 ->
  exists v, composite MOverlay rnd (grey x) (grey x) = Some (grey v) /\
            composite MSoftLight rnd (grey x) (grey x) = Some (grey v) /\ overlay_formula 4 x x v.
Proof. exact overlay_equal. Qed.
Print Assumptions C08_overlay_equal_partial.
Example C08_example : composite MOverlay 0 (grey 40000) (grey 40000) = Some (grey 43439).
Proof. vm_compute. reflexivity. Qed.

(** ** C09 *)
(** false for every backdrop but black: merging mid-grey gives white *)
Theorem C09_grainmerge_refuted : forall rnd x, 0 < x <= 65535 ->
  composite MGrainMerge rnd (grey x) (grey 32767) = Some (grey 65535).
Proof. exact grainmerge_neutral_bad. Qed.
Print Assumptions C09_grainmerge_refuted.
Theorem C09_grain_roundtrip_refuted : exists x y v w, 0 <= x <= 65535 /\ 0 <= y <= 65535 /\
  0 < x - y + 32767 < 65535 /\
  composite MGrainExtract 0 (grey x) (grey y) = Some (grey v) /\
  composite MGrainMerge 0 (grey y) (grey v) = Some (grey w) /\ Z.abs (w - x) > 60000.
Proof. exists 100, 100, 32767, 65535. vm_compute. repeat split; discriminate. Qed.
Print Assumptions C09_grain_roundtrip_refuted.
(** What holds: the result where the exact formula saturates at white. Missing: the rest. *)
Theorem C09_grainmerge_partial : forall rnd x y, 0 <= x <= 65535 -> 0 <= y <= 65535 ->
  98302 <= x + y ->
  exists v, composite MGrainMerge rnd (grey x) (grey y) = Some (grey v) /\ grainmerge_formula x y v.
Proof. exact grainmerge_sat. Qed.
Print Assumptions C09_grainmerge_partial.
Example C09_example : 98302 <= 60000 + 50000. Proof. lia. Qed.

(** ** C10 *)
(** false: a fully transparent top shows *)
Theorem C10_dissolve_refuted : exists rnd b t, 0 <= rnd < 65535 /\ wf_color b /\ wf_color t /\
  cA (colourToNRGBA t) = 0 /\
  composite MDissolve rnd b t = Some (CNRGBA64 (mk64 7 8 9 65535)) /\
  colourToNRGBA b <> mk64 7 8 9 65535.
Proof.
  exists 5, (grey 1), (CNRGBA64 (mk64 7 8 9 0)). vm_compute. repeat split; discriminate.
Qed.
Print Assumptions C10_dissolve_refuted.
(** What holds: the result is the bottom or the top made opaque, and for tops as
    opaque as the bottom the draw is compared with the top's alpha. *)
Theorem C10_dissolve_partial : forall rnd b t, 0 <= rnd < 65535 ->
  let x := colourToNRGBA b in let y := colourToNRGBA t in
  exists c, composite MDissolve rnd b t = Some (CNRGBA64 c) /\
    (c = x \/ c = mk64 (cR y) (cG y) (cB y) 65535) /\
    (cA x = cA y -> c = (if rnd <? cA y then mk64 (cR y) (cG y) (cB y) 65535 else x)).
Proof. exact dissolve_partial. Qed.
Print Assumptions C10_dissolve_partial.
Example C10_example : composite MDissolve 40000 half_red (CNRGBA64 (mk64 1 2 3 32768)) = Some half_red.
Proof. vm_compute. reflexivity. Qed.

(** ** C11 *)
Theorem C11_porter_duff_refuted : exists b t c1 c2 c3 c4 c5,
  wf_color b /\ wf_color t /\ cA (colourToNRGBA t) = 65535 /\
  (* DestinationOut with an opaque top does not clear *)
  composite MDestinationOut 0 b t = Some c1 /\ cA (colourToNRGBA c1) = 65535 /\
  (* DestinationIn with a transparent top does not clear *)
  composite MDestinationIn 0 b (CNRGBA 0 0 0 0) = Some c2 /\ cA (colourToNRGBA c2) = cA (colourToNRGBA b) /\
  0 < cA (colourToNRGBA b) /\
  (* SourceAtop does not keep the bottom alpha, DestinationAtop not the top's *)
  composite MSourceAtop 0 b t = Some c3 /\ cA (colourToNRGBA c3) <> cA (colourToNRGBA b) /\
  composite MDestinationAtop 0 t b = Some c4 /\ cA (colourToNRGBA c4) <> cA (colourToNRGBA b) /\
  (* Plus does not add *)
  composite MPlus 0 t t = Some c5 /\ cR (colourToNRGBA c5) = cR (colourToNRGBA t) /\
  cR (colourToNRGBA t) = 20000.
Proof.
  exists half_red, (grey 20000). do 5 eexists.
  repeat split; try (vm_compute; reflexivity); try (vm_compute; discriminate).
Qed.
Print Assumptions C11_porter_duff_refuted.
(** What holds: all five are the over operator (DestinationAtop with swapped
    arguments), so Atop keeps the right alpha when that alpha is full. *)
Theorem C11_porter_duff_partial : forall rnd b t, wf_color b -> wf_color t ->
  composite MPlus rnd b t = composite MNormal rnd b t /\
  composite MDestinationIn rnd b t = composite MNormal rnd b t /\
  composite MDestinationOut rnd b t = composite MNormal rnd b t /\
  composite MSourceAtop rnd b t = composite MNormal rnd b t /\
  composite MDestinationAtop rnd b t = composite MNormal rnd t b /\
  (cA (colourToNRGBA b) = 65535 ->
     exists c, composite MSourceAtop rnd b t = Some c /\ cA (colourToNRGBA c) = 65535) /\
  (cA (colourToNRGBA t) = 65535 ->
     exists c, composite MDestinationAtop rnd b t = Some c /\ cA (colourToNRGBA c) = 65535).
Proof. exact porter_duff_partial. Qed.
Print Assumptions C11_porter_duff_partial.
Example C11_example : cA (colourToNRGBA (grey 5)) = 65535. Proof. reflexivity. Qed.

(** ** C14 *)
Theorem C14_value_mode : forall rnd b t, wf_color b -> wf_color t ->
  exists c hb hc, composite MValue rnd b t = Some c /\
    mx3 (colourToNRGBA c) = mx3 (colourToNRGBA t) /\ cA (colourToNRGBA c) = cA (colourToNRGBA b) /\
    RGBToHSV b = Some hb /\ c = CHSVA hc /\ hsvH hc = hsvH hb /\ hsvS hc = hsvS hb.
Proof. exact value_mode. Qed.
Print Assumptions C14_value_mode.
Theorem C14_saturation_mode : forall rnd b t, wf_color b -> wf_color t ->
  exists c hb ht hc, composite MSaturation rnd b t = Some c /\
    mx3 (colourToNRGBA c) = mx3 (colourToNRGBA b) /\ cA (colourToNRGBA c) = cA (colourToNRGBA b) /\
    RGBToHSV b = Some hb /\ RGBToHSV t = Some ht /\ c = CHSVA hc /\
    hsvH hc = hsvH hb /\ hsvS hc = hsvS ht.
Proof. exact saturation_mode. Qed.
Print Assumptions C14_saturation_mode.
Theorem C14_hue_mode : forall rnd b t, wf_color b -> wf_color t ->
  exists c, composite MHue rnd b t = Some c /\
    mx3 (colourToNRGBA c) = mx3 (colourToNRGBA b) /\ cA (colourToNRGBA c) = cA (colourToNRGBA b).
Proof. exact hue_mode. Qed.
Print Assumptions C14_hue_mode.
Theorem C14_hue_mode_takes_hue : forall rnd b t, wf_color b -> wf_color t ->
  let y := colourToNRGBA t in
  cA y = 65535 -> ~ (cR y = cG y /\ cR y = cB y) ->
  exists hb ht, RGBToHSV b = Some hb /\ RGBToHSV t = Some ht /\
    composite MHue rnd b t = Some (CHSVA (mkHSVA (hsvH ht) (hsvS hb) (hsvV hb) (hsvA hb))).
Proof. exact hue_takes_hue. Qed.
Print Assumptions C14_hue_mode_takes_hue.
Theorem C14_hue_grey_top : forall rnd b t, let y := colourToNRGBA t in
  cR y = cG y -> cR y = cB y ->
  composite MHue rnd b t = Some (CNRGBA64 (colourToNRGBA b)).
Proof. exact hue_grey_top. Qed.
Print Assumptions C14_hue_grey_top.
(** Color mode keeps neither the bottom's lightness nor its alpha. *)
Theorem C14_color_mode_refuted : exists b t c,
  wf_color b /\ wf_color t /\ composite MColor 0 b t = Some c /\
  Z.abs (mx3 (colourToNRGBA c) + mn3 (colourToNRGBA c)
         - (mx3 (colourToNRGBA b) + mn3 (colourToNRGBA b))) > 10000 /\
  cA (colourToNRGBA c) <> cA (colourToNRGBA b).
Proof.
  exists (grey 4000), half_red, (CHSLA (mkHSLA 65518 65535 4000 32768)). vm_compute. repeat split; discriminate.
Qed.
Print Assumptions C14_color_mode_refuted.
(** Color takes hue, saturation and alpha of the top and the lightness of the bottom;
    Luminosity is Color with the layers exchanged: hue, saturation and alpha of the bottom,
    lightness of the top. *)
Theorem C14_luminosity_mode : forall rnd b t, wf_color b -> wf_color t ->
  exists hb ht, RGBToHSL b = Some hb /\ RGBToHSL t = Some ht /\
    composite MColor rnd b t = Some (CHSLA (mkHSLA (hslH ht) (hslS ht) (hslL hb) (hslA ht))) /\
    composite MLuminosity rnd b t = Some (CHSLA (mkHSLA (hslH hb) (hslS hb) (hslL ht) (hslA hb))) /\
    hslL hb = (mx3 (colourToNRGBA b) + mn3 (colourToNRGBA b)) / 2 /\ hslA hb = cA (colourToNRGBA b) /\
    hslL ht = (mx3 (colourToNRGBA t) + mn3 (colourToNRGBA t)) / 2 /\ hslA ht = cA (colourToNRGBA t).
Proof.
  intros rnd b t Hb Ht. destruct (RGBToHSL_wf b Hb) as (hb & E1 & _ & A1 & L1). destruct (RGBToHSL_wf t Ht) as (ht & E2 & _ & A2 & L2).
  assert (N : forall c, RGBToHSL (CNRGBA64 (colourToNRGBA c)) = RGBToHSL c) by reflexivity.
  exists hb, ht. unfold composite; cbn [channelFun]. unfold compositeColor. rewrite !N, E1, E2. cbn [obind]. repeat split; assumption.
Qed.
Print Assumptions C14_luminosity_mode.
Example C14_luminosity_ex : composite MLuminosity 0 (CNRGBA 200 100 50 255) (CNRGBA 10 20 30 128) = Some (CHSLA (mkHSLA 3640 39321 5140 65535)) /\
  composite MColor 0 (CNRGBA 200 100 50 255) (CNRGBA 10 20 30 128) = Some (CHSLA (mkHSLA 38228 32767 32125 32896)).
Proof. split; vm_compute; reflexivity. Qed.
Example C14_example : composite MValue 0 (CNRGBA 200 100 50 255) (CNRGBA 10 20 30 255) =
  Some (CHSVA (mkHSVA 3640 49151 7710 65535)).
Proof. vm_compute. reflexivity. Qed.
