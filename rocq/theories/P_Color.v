(** Property theorems: colour types and conversions (C12, C13, C15 - C18). *)
Require Import Verif.Base Verif.M_Color Verif.M_Composite Verif.S_Color Verif.S_Composite
  Verif.L_Word Verif.L_Color Verif.L_Composite Verif.L_Blend Verif.L_HSV Verif.L_Modes.

(** ** C12: HSV round trip.  RGBToHSV never panics, and converting back keeps
    alpha and the largest channel exactly and each channel within 8/65535. *)
Theorem C12_hsv_roundtrip : forall c, wf_color c ->
  let n := colourToNRGBA c in
  exists h, RGBToHSV c = Some h /\ wf_color (CHSVA h) /\
    cA (hsva_ToNRGBA h) = cA n /\ mx3 (hsva_ToNRGBA h) = mx3 n /\
    Z.abs (cR (hsva_ToNRGBA h) - cR n) <= 8 /\
    Z.abs (cG (hsva_ToNRGBA h) - cG n) <= 8 /\
    Z.abs (cB (hsva_ToNRGBA h) - cB n) <= 8.
Proof. exact hsv_roundtrip. Qed.
Print Assumptions C12_hsv_roundtrip.
Example C12_example : wf_color (CNRGBA64 (mk64 60000 12345 777 30000)) /\
  RGBToHSV (CNRGBA64 (mk64 60000 12345 777 30000)) = Some (mkHSVA 2133 64686 60000 30000).
Proof. split; [cbn; unfold wf64, is_u16; cbn; lia|vm_compute; reflexivity]. Qed.

(** ** C13: HSL round trip: false; pure red does not come back as red. *)
Theorem C13_hsl_roundtrip_refuted :
  exists c h, wf_color c /\ RGBToHSL c = Some h /\
    hsla_ToNRGBA h <> colourToNRGBA c /\
    Z.abs (cG (hsla_ToNRGBA h) - cG (colourToNRGBA c)) >= 16384.
Proof.
  exists (CNRGBA64 (mk64 65535 0 0 65535)). eexists.
  split; [cbn; unfold wf64, is_u16; cbn; lia|]. split; [vm_compute; reflexivity|].
  vm_compute. split; [discriminate|discriminate].
Qed.
Print Assumptions C13_hsl_roundtrip_refuted.
(** What holds of C13: RGBToHSL never panics, keeps alpha, gives the right
    lightness, and achromatic colours round-trip exactly.  Missing: every
    chromatic colour (refuted above). *)
Theorem C13_hsl_roundtrip_partial : forall c, wf_color c ->
  let n := colourToNRGBA c in
  exists h, RGBToHSL c = Some h /\ wf_color (CHSLA h) /\ hslA h = cA n /\
    hslL h = (mx3 n + mn3 n) / 2 /\ cA (hsla_ToNRGBA h) = cA n /\
    (mx3 n = mn3 n -> hsla_ToNRGBA h = n).
Proof. exact hsl_partial. Qed.
Print Assumptions C13_hsl_roundtrip_partial.
Example C13_example : let n := mk64 700 700 700 9 in wf_color (CNRGBA64 n) /\ mx3 n = mn3 n.
Proof. vm_compute. repeat split; discriminate. Qed.

(** ** C15: every colour type of the library meets the color.Color contract *)
Theorem C15_color_contract : forall c, wf_color c -> premultiplied (color_RGBA c).
Proof. exact color_RGBA_premul. Qed.
Print Assumptions C15_color_contract.
Example C15_example : wf_color (CHSLA (mkHSLA 1 60000 65000 4)) /\ wf_color (CGrayAlpha 200 100).
Proof. cbn; unfold is_u8, is_u16; cbn. lia. Qed.

(** ** C16 *)
Theorem C16_ToNRGBA_agrees : forall c, wf_color c ->
  let p := color_RGBA c in let q := nrgba64_RGBA (colourToNRGBA c) in
  pA q = pA p /\ 0 <= pR p - pR q <= 1 /\ 0 <= pG p - pG q <= 1 /\ 0 <= pB p - pB q <= 1.
Proof. exact toNRGBA_RGBA. Qed.
Print Assumptions C16_ToNRGBA_agrees.
Theorem C16_library_types_exact : forall c, wf_color c ->
  match c with CRGB _ _ _ | CGrayAlpha _ _ | CHSLA _ | CHSVA _ =>
    nrgba64_RGBA (colourToNRGBA c) = color_RGBA c
  | _ => True end.
Proof. exact lib_ToNRGBA_exact. Qed.
Print Assumptions C16_library_types_exact.
Example C16_example : wf_color (COther 100 20 3 300) /\ wf_color (CGrayAlpha 3 4).
Proof. cbn; unfold is_u8; lia. Qed.

(** ** C17 *)
Theorem C17_rgb_model_idempotent : forall c, wf_color c ->
  let '(r, g, b) := rgbModel c in rgbModel (CRGB r g b) = rgbModel c.
Proof. exact rgbModel_idem. Qed.
Print Assumptions C17_rgb_model_idempotent.
Theorem C17_rgb_model_identity : forall r g b, is_u8 r -> is_u8 g -> is_u8 b ->
  rgbModel (CRGB r g b) = (r, g, b).
Proof. exact rgbModel_id. Qed.
Print Assumptions C17_rgb_model_identity.
(** GrayAlphaModel is not a projection: a half transparent white is changed. *)
Theorem C17_grayalpha_model_refuted :
  exists y a, is_u8 y /\ is_u8 a /\ grayAlphaModel (CGrayAlpha y a) <> (y, a).
Proof. exists 255, 128. split; [unfold is_u8; lia|]. split; [unfold is_u8; lia|]. vm_compute. discriminate. Qed.
Print Assumptions C17_grayalpha_model_refuted.
(** What holds: opaque greys are fixed, alpha is always the argument's.  Missing:
    the intensity of translucent greys (refuted above). *)
Theorem C17_grayalpha_model_partial : forall y, is_u8 y ->
  grayAlphaModel (CGrayAlpha y 255) = (y, 255) /\
  forall a, is_u8 a -> snd (grayAlphaModel (CGrayAlpha y a)) = a.
Proof. exact grayalpha_partial. Qed.
Print Assumptions C17_grayalpha_model_partial.
Example C17_example : is_u8 77 /\ is_u8 3 /\ grayAlphaModel (CGrayAlpha 77 3) = (0, 3).
Proof. vm_compute. repeat split; discriminate. Qed.

(** ** C18 *)
Theorem C18_palette_nearest : forall pal c, Forall wf_color pal -> wf_color c -> pal <> [] ->
  exists e, znth pal (alphaPalette_Index pal c) = Some e /\
   (forall e', In e' pal ->
      dist4 (color_RGBA c) (color_RGBA e) <= dist4 (color_RGBA c) (color_RGBA e')) /\
   alphaPalette_Convert pal c =
     Some (mk64 (pR (color_RGBA e)) (pG (color_RGBA e)) (pB (color_RGBA e)) (pA (color_RGBA c))).
Proof. exact palette_nearest. Qed.
Print Assumptions C18_palette_nearest.
Theorem C18_palette_member : forall pal c, Forall wf_color pal -> wf_color c ->
  (exists e', In e' pal /\ color_RGBA e' = color_RGBA c) ->
  exists e, znth pal (alphaPalette_Index pal c) = Some e /\
   let p := color_RGBA e in let q := color_RGBA c in
   Z.abs (pR p - pR q) <= 1 /\ Z.abs (pG p - pG q) <= 1 /\ Z.abs (pB p - pB q) <= 1 /\
   Z.abs (pA p - pA q) <= 1.
Proof. exact palette_member. Qed.
Print Assumptions C18_palette_member.
Theorem C18_palette_member_8bit : forall pal r g b,
  Forall (fun e => exists r g b, e = CNRGBA r g b 255 /\ is_u8 r /\ is_u8 g /\ is_u8 b) pal ->
  In (CNRGBA r g b 255) pal ->
  znth pal (alphaPalette_Index pal (CNRGBA r g b 255)) = Some (CNRGBA r g b 255).
Proof. exact palette_member8. Qed.
Print Assumptions C18_palette_member_8bit.
Example C18_example :
  alphaPalette_Index [CNRGBA 0 0 0 255; CNRGBA 250 0 0 255; CNRGBA 0 255 0 255] (CNRGBA 200 10 0 255) = 1.
Proof. vm_compute. reflexivity. Qed.
