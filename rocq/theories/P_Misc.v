(** C68: the names of the composition modes. *)
Require Import Verif.Base Verif.M_Composite Verif.M_Misc.
From Coq Require Import String Ascii ZifyBool ZifyNat.

(** the identifiers of the constants, without the prefix "Composite" *)
Definition identifier (m : mode) : string :=
  (match m with
  | MNormal => "Normal" | MDissolve => "Dissolve" | MBehind => "Behind" | MMultiply => "Multiply"
  | MScreen => "Screen" | MOverlay => "Overlay" | MDifference => "Difference" | MAddition => "Addition"
  | MSubtract => "Subtract" | MDarkenOnly => "DarkenOnly" | MLightenOnly => "LightenOnly" | MHue => "Hue"
  | MSaturation => "Saturation" | MColor => "Color" | MValue => "Value" | MDivide => "Divide"
  | MDodge => "Dodge" | MBurn => "Burn" | MHardLight => "HardLight" | MSoftLight => "SoftLight"
  | MGrainExtract => "GrainExtract" | MGrainMerge => "GrainMerge" | MLuminosity => "Luminosity"
  | MPlus => "Plus" | MDestinationIn => "DestinationIn" | MDestinationOut => "DestinationOut"
  | MSourceAtop => "SourceAtop" | MDestinationAtop => "DestinationAtop" | MColorErase => "ColorErase"
  | MChroma => "Chroma" | MLightness => "Lightness" | MVividLight => "VividLight" | MPinLight => "PinLight"
  | MLinearLight => "LinearLight" | MHardMix => "HardMix" | MExclusion => "Exclusion"
  | MLinearBurn => "LinearBurn" | MLuminance => "Luminance" | MErase => "Erase" | MMerge => "Merge"
  | MSplit => "Split" | MPassThrough => "PassThrough" | MUndef _ => "Normal"
  end)%string.
Fixpoint unspaced (s : string) : string :=
  match s with
  | EmptyString => EmptyString
  | String c s => if Ascii.eqb c " "%char then unspaced s else String c (unspaced s)
  end.

Lemma s64_word c : 0 <= c < 4294967296 -> s64 c = c.
Proof. intros. unfold s64. rewrite Z.mod_small by lia. cbn zeta. destruct (Z.ltb_spec c 9223372036854775808); lia. Qed.
(** String never panics *)
Theorem C68_total c : 0 <= c < 4294967296 -> exists n, composite_String c = Some n.
Proof.
  intros C. unfold composite_String. rewrite (s64_word c C). change (zlen compositeNames) with 28.
  destruct (Z.ltb_spec c 28); [|eexists; reflexivity]. replace (0 <=? c) with true by lia. cbn [andb].
  destruct (nth_error compositeNames (Z.to_nat c)) eqn:E; [eauto|]. apply nth_error_None in E. change (List.length compositeNames) with 28%nat in E. lia.
Qed.
Print Assumptions C68_total.
(** the first 28 modes have their own name, and so different ones *)
Theorem C68_partial m : mode_number m < 28 -> (forall n, m <> MUndef n) -> exists n, composite_String (mode_number m) = Some n /\ unspaced n = identifier m.
Proof. intros L N. destruct m; try (eexists; split; reflexivity); try (cbn in L; lia). now destruct (N n). Qed.
Print Assumptions C68_partial.
(** the other 14 are called Normal *)
Theorem C68_refuted : ~ (forall m, (forall n, m <> MUndef n) -> exists n, composite_String (mode_number m) = Some n /\ unspaced n = identifier m).
Proof. intros H. destruct (H MErase ltac:(discriminate)) as (n & E & U). vm_compute in E. injection E as <-. discriminate U. Qed.
Print Assumptions C68_refuted.
Theorem C68_lost m : 28 <= mode_number m < 4294967296 -> composite_String (mode_number m) = Some "Normal"%string.
Proof.
  intros L. unfold composite_String. rewrite s64_word by lia. change (zlen compositeNames) with 28. now replace (mode_number m <? 28) with false by lia.
Qed.
Print Assumptions C68_lost.
Example C68_ex : composite_String (mode_number MDarkenOnly) = Some "Darken Only"%string /\ composite_String 4294967295 = Some "Normal"%string.
Proof. split; reflexivity. Qed.

(** the constants in the order in which they are declared (composite.go:16-58) are 0, 1, ..., 41: no two are the same number *)
Definition declared : list mode :=
  [MNormal; MDissolve; MBehind; MMultiply; MScreen; MOverlay; MDifference; MAddition; MSubtract; MDarkenOnly; MLightenOnly; MHue;
   MSaturation; MColor; MValue; MDivide; MDodge; MBurn; MHardLight; MSoftLight; MGrainExtract; MGrainMerge; MLuminosity; MPlus;
   MDestinationIn; MDestinationOut; MSourceAtop; MDestinationAtop; MColorErase; MChroma; MLightness; MVividLight; MPinLight;
   MLinearLight; MHardMix; MExclusion; MLinearBurn; MLuminance; MErase; MMerge; MSplit; MPassThrough].
Theorem C68_numbers k : (k < 42)%nat -> exists m, nth_error declared k = Some m /\ mode_number m = Z.of_nat k /\ (forall n, m <> MUndef n) /\
  forall m', (forall n, m' <> MUndef n) -> mode_number m' = Z.of_nat k -> m' = m.
Proof.
  intros K. do 42 (destruct k as [|k]; [eexists; split; [reflexivity|]; split; [reflexivity|]; split; [discriminate|];
    intros m' N E; destruct m'; cbn in E; try discriminate; [reflexivity|now destruct (N n)]|]). lia.
Qed.
Print Assumptions C68_numbers.
