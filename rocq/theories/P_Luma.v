(** C69: grey is the weighted sum of red, green and blue. *)
Require Import Verif.Base Verif.M_Color Verif.S_Color Verif.L_Color Verif.L_Word Verif.L_Blend.
From Coq Require Import ZifyBool.

(** a thousand times the luma of JFIF: 0.299 red, 0.587 green, 0.114 blue; at most 65535000 *)
Definition luma1000 (c : color) : Z := 299 * pR (color_RGBA c) + 587 * pG (color_RGBA c) + 114 * pB (color_RGBA c).

Lemma gray_formula c : wf_color c ->
  grayModel c = (19595 * pR (color_RGBA c) + 38470 * pG (color_RGBA c) + 7471 * pB (color_RGBA c) + 32768) / 16777216.
Proof.
  intros W. pose proof (color_RGBA_premul c W) as (B1 & B2 & B3 & B4).
  destruct c; cbn [grayModel];
    try (set (p := color_RGBA _) in *; rewrite Z.shiftr_div_pow2 by lia; change (2 ^ 24) with 16777216;
         unfold u32, u8; rewrite (Z.mod_small (_ + _)) by lia; apply Z.mod_small;
         split; [apply Z.div_pos; lia|apply Z.div_lt_upper_bound; lia]).
  cbn [wf_color] in W. unfold is_u8 in W. cbn [color_RGBA pR pG pB]. rewrite rep8_eq by lia.
  apply Z.div_unique with (r := 65536 * (257 * y) + 32768 - 16777216 * y); lia.
Qed.
(** the grey value is the luma's upper byte, or the next one if the luma is within 0.868 of it *)
Theorem C69_luma c : wf_color c -> 256000 * fst (grayAlphaModel c) - 868 <= luma1000 c < 256000 * (fst (grayAlphaModel c) + 1).
Proof.
  intros W. pose proof (color_RGBA_premul c W) as (B1 & B2 & B3 & B4). unfold grayAlphaModel, luma1000. cbn [fst]. rewrite (gray_formula c W).
  set (p := color_RGBA c) in *.
  pose proof (Z.div_mod (19595 * pR p + 38470 * pG p + 7471 * pB p + 32768) 16777216 ltac:(lia)) as D.
  pose proof (Z.mod_pos_bound (19595 * pR p + 38470 * pG p + 7471 * pB p + 32768) 16777216 ltac:(lia)). lia.
Qed.
Print Assumptions C69_luma.
(** a colour without colour keeps its byte; more red, green and blue is no darker *)
Theorem C69_neutral c v : wf_color c -> pR (color_RGBA c) = v -> pG (color_RGBA c) = v -> pB (color_RGBA c) = v -> fst (grayAlphaModel c) = v / 256.
Proof.
  intros W R G B. cbn [grayAlphaModel fst]. rewrite (gray_formula c W), R, G, B.
  replace (19595 * v + 38470 * v + 7471 * v + 32768) with (32768 + v * 65536) by lia. change 16777216 with (65536 * 256). rewrite <- Z.div_div, Z.div_add by lia. reflexivity.
Qed.
Print Assumptions C69_neutral.
Theorem C69_monotone c c' : wf_color c -> wf_color c' ->
  pR (color_RGBA c) <= pR (color_RGBA c') -> pG (color_RGBA c) <= pG (color_RGBA c') -> pB (color_RGBA c) <= pB (color_RGBA c') ->
  fst (grayAlphaModel c) <= fst (grayAlphaModel c').
Proof. intros W W' R G B. cbn [grayAlphaModel fst]. rewrite (gray_formula c W), (gray_formula c' W'). apply Z.div_le_mono; lia. Qed.
Print Assumptions C69_monotone.
Example C69_ex : wf_color (CNRGBA 255 0 0 255) /\ luma1000 (CNRGBA 255 0 0 255) = 19594965 /\ fst (grayAlphaModel (CNRGBA 255 0 0 255)) = 76 /\
  fst (grayAlphaModel (CNRGBA 0 255 0 255)) = 150 /\ fst (grayAlphaModel (CNRGBA 0 0 255 255)) = 29 /\ fst (grayAlphaModel (CNRGBA 7 7 7 255)) = 7.
Proof. repeat split; cbn; lia. Qed.
