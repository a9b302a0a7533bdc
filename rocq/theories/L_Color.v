(** Lemmas about the colour model. *)
Require Import Verif.Base Verif.M_Color Verif.S_Color Verif.L_Word.
From Coq Require Import ZifyBool ZifyNat.

Lemma div_range a n m : 0 < n -> 0 <= a <= n * m -> 0 <= a / n <= m.
Proof.
  intros Hn [H1 H2]. split; [apply Z.div_pos; lia|].
  apply Z.div_le_upper_bound; lia.
Qed.

Lemma premul_le x a : 0 <= x <= 65535 -> 0 <= a <= 65535 ->
  0 <= u32 (x * a) / 65535 <= a.
Proof.
  intros Hx Ha. pose proof (mul16 x a Hx Ha).
  rewrite u32_id by lia. apply div_range; nia.
Qed.

Lemma nrgba64_RGBA_premul c : wf64 c -> premultiplied (nrgba64_RGBA c).
Proof.
  destruct c as [r g b a]; unfold wf64, is_u16, premultiplied, nrgba64_RGBA; cbn.
  intros (?&?&?&?).
  pose proof (premul_le r a); pose proof (premul_le g a); pose proof (premul_le b a); lia.
Qed.

Lemma hcma_wf hue c m a : is_u16 a -> wf64 (hcmaToColour hue c m a).
Proof.
  intros Ha. unfold hcmaToColour.
  set (h := if hue =? 65535 then 0 else u32 (hue * 6)).
  set (x := u32 _ / 65535).
  destruct (if h / 65535 =? 0 then _ else _) as [[r g] b].
  unfold wf64, is_u16; cbn.
  pose proof (u16_range (r + m)); pose proof (u16_range (g + m)); pose proof (u16_range (b + m)).
  repeat split; try lia; apply Ha.
Qed.

Lemma hsla_wf h : wf_color (CHSLA h) -> wf64 (hsla_ToNRGBA h).
Proof.
  intros (?&?&?&?). unfold hsla_ToNRGBA. destruct (hslS h =? 0).
  - unfold wf64; cbn; auto.
  - apply hcma_wf; assumption.
Qed.
Lemma hsva_wf h : wf_color (CHSVA h) -> wf64 (hsva_ToNRGBA h).
Proof.
  intros (?&?&?&?). unfold hsva_ToNRGBA. destruct (hsvS h =? 0).
  - unfold wf64; cbn; auto.
  - apply hcma_wf; assumption.
Qed.

Lemma color_RGBA_premul c : wf_color c -> premultiplied (color_RGBA c).
Proof.
  destruct c; cbn [wf_color color_RGBA]; unfold is_u8, is_u16.
  - intros (?&?&?&?).
    assert (B : forall x, 0 <= x < 256 -> 0 <= u32 (rep8 x * a) / 255 <= rep8 a).
    { intros x Hx. rewrite !rep8_eq by lia. rewrite u32_id by nia.
      apply div_range; nia. }
    unfold premultiplied; cbn. pose proof (B r); pose proof (B g); pose proof (B b).
    rewrite (rep8_eq a) in * by lia. lia.
  - apply nrgba64_RGBA_premul.
  - intros (?&?&?). unfold premultiplied; cbn. rewrite !rep8_eq by lia. lia.
  - intros (?&?).
    assert (B : 0 <= u32 (rep8 y * a) / 255 <= rep8 a).
    { rewrite !rep8_eq by lia. rewrite u32_id by nia. apply div_range; nia. }
    unfold premultiplied; cbn. rewrite (rep8_eq a) in * by lia. lia.
  - intros H. apply nrgba64_RGBA_premul, hsla_wf, H.
  - intros H. apply nrgba64_RGBA_premul, hsva_wf, H.
  - intros H. unfold premultiplied; cbn. rewrite !rep8_eq by lia. lia.
  - intros H. unfold premultiplied; cbn. rewrite !rep8_eq by lia. lia.
  - unfold premultiplied; cbn. lia.
Qed.

Lemma unpremul_range r a : 0 <= r <= a -> 0 < a <= 65535 ->
  u32 (r * 65535) / a = r * 65535 / a /\ 0 <= r * 65535 / a <= 65535.
Proof.
  intros. rewrite u32_id by nia. split; [reflexivity|].
  apply div_range; nia.
Qed.

Lemma nrgba64Model_wf p : premultiplied p -> wf64 (nrgba64Model_rgba p).
Proof.
  intros (?&?&?&?). unfold nrgba64Model_rgba.
  destruct (Z.eqb_spec (pA p) 65535); [|destruct (Z.eqb_spec (pA p) 0)];
  unfold wf64, is_u16; cbn; repeat split; try apply u16_range; try lia.
Qed.

Lemma colourToNRGBA_wf c : wf_color c -> wf64 (colourToNRGBA c).
Proof.
  intros H. destruct c; cbn [colourToNRGBA].
  - unfold wf64, is_u16; cbn. repeat split; apply u16_range.
  - exact H.
  - unfold wf64, is_u16; cbn. repeat split; try apply u16_range; lia.
  - unfold wf64, is_u16; cbn. repeat split; apply u16_range.
  - apply hsla_wf, H.
  - apply hsva_wf, H.
  - apply nrgba64Model_wf, color_RGBA_premul, H.
  - apply nrgba64Model_wf, color_RGBA_premul, H.
  - apply nrgba64Model_wf, color_RGBA_premul, H.
Qed.
