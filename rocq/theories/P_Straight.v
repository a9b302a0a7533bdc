(** C74: what becomes of a pixel of any colour type written into an RGB file; wide
    colours in an indexed file. *)
Require Import Verif.Base Verif.L_Word Verif.M_Color Verif.S_Color Verif.L_Color Verif.M_Image Verif.S_Trip Verif.P_Color.

(** the byte [s] is the share [v/alpha] of full intensity, rounded down: the straight
    (not premultiplied) value of a premultiplied component *)
Definition share (v alpha s : Z) : Prop := 256 * s * alpha <= 65535 * v < 256 * (s + 1) * alpha.

Lemma share_byte v al : 0 < al -> 0 <= v <= al -> al <= 65535 ->
  share v al (u8 (Z.shiftr (u32 (v * 65535) / al) 8)) /\ 0 <= u8 (Z.shiftr (u32 (v * 65535) / al) 8) <= 255.
Proof.
  intros A V W. assert (P : 0 <= v * 65535 < 4294967296) by nia.
  unfold u32. rewrite (Z.mod_small _ _ P). rewrite Z.shiftr_div_pow2 by lia. change (2 ^ 8) with 256.
  set (q := v * 65535 / al). pose proof (Z.mul_div_le (v * 65535) al A) as Q1. pose proof (Z.mul_succ_div_gt (v * 65535) al A) as Q2. fold q in Q1, Q2.
  assert (Q : 0 <= q <= 65535). { split; [apply Z.div_pos; nia|]. apply Z.lt_succ_r. apply Z.div_lt_upper_bound; nia. }
  pose proof (Z.mul_div_le q 256 ltac:(lia)) as S1. pose proof (Z.mul_succ_div_gt q 256 ltac:(lia)) as S2.
  unfold u8. rewrite Z.mod_small by (set (z := q / 256) in *; lia). set (z := q / 256) in *. unfold share. split; [|lia]. nia.
Qed.
Lemma share_opaque v : 0 <= v <= 65535 -> share v 65535 (u8 (Z.shiftr v 8)) /\ 0 <= u8 (Z.shiftr v 8) <= 255.
Proof.
  intros V. rewrite Z.shiftr_div_pow2 by lia. change (2 ^ 8) with 256.
  pose proof (Z.mul_div_le v 256 ltac:(lia)) as S1. pose proof (Z.mul_succ_div_gt v 256 ltac:(lia)) as S2.
  unfold u8. rewrite Z.mod_small by (set (z := v / 256) in *; lia). unfold share. set (z := v / 256) in *. lia.
Qed.

(** A pixel written into an RGB file keeps, whatever its Go type, its alpha and, component by
    component, its straight colour, both rounded down to 8 bits; a transparent pixel becomes
    transparent black; an 8 bit straight colour is kept as it is. *)
Theorem C74_straight k c : base_type k = 0 -> wf_color c ->
  let p := color_RGBA c in
  exists r g b a, converted k c = Some (CNRGBA r g b a) /\
    is_u8 r /\ is_u8 g /\ is_u8 b /\ is_u8 a /\
    256 * a <= pA p < 256 * (a + 1) /\
    ((exists r' g' b' a', c = CNRGBA r' g' b' a') -> c = CNRGBA r g b a) /\
    (pA p = 0 -> (forall r' g' b' a', c <> CNRGBA r' g' b' a') -> r = 0 /\ g = 0 /\ b = 0) /\
    (pA p <> 0 -> (forall r' g' b' a', c <> CNRGBA r' g' b' a') ->
       share (pR p) (pA p) r /\ share (pG p) (pA p) g /\ share (pB p) (pA p) b).
Proof.
  intros K W p. pose proof (color_RGBA_premul c W) as (B1 & B2 & B3 & B4). fold p in B1, B2, B3, B4.
  assert (E : converted k c = let '(r, g, b, a) := nrgbaModel c in Some (CNRGBA r g b a)) by (destruct k; try discriminate K; reflexivity).
  assert (D : (exists r g b a, c = CNRGBA r g b a) \/ ((forall r g b a, c <> CNRGBA r g b a) /\
     nrgbaModel c = (if pA p =? 65535 then
      (u8 (Z.shiftr (pR p) 8), u8 (Z.shiftr (pG p) 8), u8 (Z.shiftr (pB p) 8), 255)
    else if pA p =? 0 then (0, 0, 0, 0)
    else (u8 (Z.shiftr (u32 (pR p * 65535) / pA p) 8),
          u8 (Z.shiftr (u32 (pG p * 65535) / pA p) 8),
          u8 (Z.shiftr (u32 (pB p * 65535) / pA p) 8),
          u8 (Z.shiftr (pA p) 8))))).
  { destruct c; [left; repeat eexists|right..]; (split; [intros; discriminate|reflexivity]). }
  rewrite E. clear E. destruct D as [(r & g & b & a & ->) | (N & ->)].
  - cbn [nrgbaModel]. exists r, g, b, a. cbn in W. destruct W as (W1 & W2 & W3 & W4). split; [reflexivity|].
    repeat (split; [assumption|]). split; [subst p; cbn [color_RGBA pA]; unfold is_u8 in *; rewrite rep8_eq by lia; lia|].
    split; [reflexivity|]. split; intros _ F; exfalso; exact (F _ _ _ _ eq_refl).
  - destruct (Z.eqb_spec (pA p) 65535) as [A|A]; [|destruct (Z.eqb_spec (pA p) 0) as [A0|A0]].
    + destruct (share_opaque (pR p) ltac:(lia)) as [X1 X2]. destruct (share_opaque (pG p) ltac:(lia)) as [X3 X4]. destruct (share_opaque (pB p) ltac:(lia)) as [X5 X6].
      do 4 eexists. split; [reflexivity|]. unfold is_u8. repeat (split; [lia|]). split; [intros (? & ? & ? & ? & F); destruct (N _ _ _ _ F)|].
      split; [lia|]. intros _ _. rewrite A. auto.
    + do 4 eexists. split; [reflexivity|]. unfold is_u8. repeat (split; [lia|]). split; [intros (? & ? & ? & ? & F); destruct (N _ _ _ _ F)|].
      split; [auto|]. lia.
    + destruct (share_byte (pR p) (pA p) ltac:(lia) ltac:(lia) ltac:(lia)) as [X1 X2]. destruct (share_byte (pG p) (pA p) ltac:(lia) ltac:(lia) ltac:(lia)) as [X3 X4].
      destruct (share_byte (pB p) (pA p) ltac:(lia) ltac:(lia) ltac:(lia)) as [X5 X6]. destruct (share_opaque (pA p) ltac:(lia)) as [X7 X8]. unfold share in X7.
      do 4 eexists. split; [reflexivity|]. unfold is_u8. repeat (split; [lia|]). split; [intros (? & ? & ? & ? & F); destruct (N _ _ _ _ F)|].
      split; [lia|]. intros _ _. auto.
Qed.
Print Assumptions C74_straight.
Example C74_ex : wf_color (COther 16384 8192 0 32768) /\ converted KNRGBA (COther 16384 8192 0 32768) = Some (CNRGBA 127 63 0 128).
Proof. split; [cbn; lia|reflexivity]. Qed.

(** In an indexed file the colours of the palette are written rounded down to 8 bits, but a
    pixel is looked up by the LOW bytes of its components: an opaque 16 bit colour that is an
    entry of the palette comes back as another entry. *)
Theorem C54_wide_refuted : exists p e, Forall wf_color p /\ In e p /\ pA (color_RGBA e) = 65535 /\
  znth (file_palette (KPalette p)) 1 = Some (255, 0, 0) /\ znth p 1 = Some e /\
  converted (KPalette p) e = Some (CNRGBA 0 0 0 255).
Proof.
  exists [COther 0 0 0 65535; COther 65280 0 0 65535], (COther 65280 0 0 65535).
  split; [repeat constructor; cbn; lia|]. repeat split; cbn [In]; auto.
Qed.
Print Assumptions C54_wide_refuted.
