(** What the properties of a layer mean, from the format's description. *)
Require Import Verif.Base Verif.S_File Verif.S_Props Verif.M_Composite.
From Coq Require Import String.

(** The layer modes in the order of their numbers (GimpLayerMode), each with the
    constant of package limage of that name; those in several colour spaces (HSV, LCh,
    luma) and the legacy ones share it. *)
Definition gimp_modes : list (string * mode) :=
  [("NORMAL_LEGACY", MNormal); ("DISSOLVE", MDissolve); ("BEHIND_LEGACY", MBehind); ("MULTIPLY_LEGACY", MMultiply);
   ("SCREEN_LEGACY", MScreen); ("OVERLAY_LEGACY", MOverlay); ("DIFFERENCE_LEGACY", MDifference);
   ("ADDITION_LEGACY", MAddition); ("SUBTRACT_LEGACY", MSubtract); ("DARKEN_ONLY_LEGACY", MDarkenOnly);
   ("LIGHTEN_ONLY_LEGACY", MLightenOnly); ("HSV_HUE_LEGACY", MHue); ("HSV_SATURATION_LEGACY", MSaturation);
   ("HSL_COLOR_LEGACY", MColor); ("HSV_VALUE_LEGACY", MValue); ("DIVIDE_LEGACY", MDivide); ("DODGE_LEGACY", MDodge);
   ("BURN_LEGACY", MBurn); ("HARDLIGHT_LEGACY", MHardLight); ("SOFTLIGHT_LEGACY", MSoftLight);
   ("GRAIN_EXTRACT_LEGACY", MGrainExtract); ("GRAIN_MERGE_LEGACY", MGrainMerge); ("COLOR_ERASE_LEGACY", MColorErase);
   ("OVERLAY", MOverlay); ("LCH_HUE", MHue); ("LCH_CHROMA", MChroma); ("LCH_COLOR", MColor);
   ("LCH_LIGHTNESS", MLightness); ("NORMAL", MNormal); ("BEHIND", MBehind); ("MULTIPLY", MMultiply);
   ("SCREEN", MScreen); ("DIFFERENCE", MDifference); ("ADDITION", MAddition); ("SUBTRACT", MSubtract);
   ("DARKEN_ONLY", MDarkenOnly); ("LIGHTEN_ONLY", MLightenOnly); ("HSV_HUE", MHue); ("HSV_SATURATION", MSaturation);
   ("HSL_COLOR", MColor); ("HSV_VALUE", MValue); ("DIVIDE", MDivide); ("DODGE", MDodge); ("BURN", MBurn);
   ("HARDLIGHT", MHardLight); ("SOFTLIGHT", MSoftLight); ("GRAIN_EXTRACT", MGrainExtract);
   ("GRAIN_MERGE", MGrainMerge); ("VIVID_LIGHT", MVividLight); ("PIN_LIGHT", MPinLight);
   ("LINEAR_LIGHT", MLinearLight); ("HARD_MIX", MHardMix); ("EXCLUSION", MExclusion); ("LINEAR_BURN", MLinearBurn);
   ("LUMA_DARKEN_ONLY", MDarkenOnly); ("LUMA_LIGHTEN_ONLY", MLightenOnly); ("LUMINANCE", MLuminance);
   ("COLOR_ERASE", MColorErase); ("ERASE", MErase); ("MERGE", MMerge); ("SPLIT", MSplit);
   ("PASS_THROUGH", MPassThrough)]%string.
(** an unknown number is drawn as Normal *)
Definition gimp_mode (n : Z) : mode := nth (Z.to_nat n) (map snd gimp_modes) MNormal.

(** two's complement *)
Definition signed (z : Z) : Z := if z <? 2147483648 then z else z - 4294967296.

(** what a layer's properties decide *)
Record attrs := mkAttrs {
  aX : Z; aY : Z;              (* where it is *)
  aMode : mode;
  aHidden : bool;
  aTransparency : Z;           (* 0 (opaque) to 255 *)
  aGroup : bool;
  aPath : list Z;              (* its place in the tree of groups *)
  aParasites : list par_rec }.
(** without properties *)
Definition plain : attrs := mkAttrs 0 0 MNormal false 0 false [] [].

(** [means float mo typ l a a']: the property [typ] with payload [l] turns a into a';
    [float] gives the byte for the opacity in a 32-bit float, [mo] the mode of a number *)
Inductive means (float : Z -> Z) (mo : Z -> mode) : Z -> list Z -> attrs -> attrs -> Prop :=
| m_opacity o x y m h t g p ps : 0 <= o <= 255 -> means float mo 6 (word o) (mkAttrs x y m h t g p ps) (mkAttrs x y m h (255 - o) g p ps)
| m_float z x y m h t g p ps : is_word z -> means float mo 33 (word z) (mkAttrs x y m h t g p ps) (mkAttrs x y m h (255 - float z) g p ps)
| m_mode z x y m h t g p ps : is_word z -> means float mo 7 (word z) (mkAttrs x y m h t g p ps) (mkAttrs x y (mo z) h t g p ps)
| m_visible (b : bool) x y m h t g p ps : means float mo 8 (word (if b then 1 else 0)) (mkAttrs x y m h t g p ps) (mkAttrs x y m (negb b) t g p ps)
| m_offsets ox oy x y m h t g p ps : is_word ox -> is_word oy ->
    means float mo 15 (word ox ++ word oy) (mkAttrs x y m h t g p ps) (mkAttrs (x + signed ox) (y + signed oy) m h t g p ps)
| m_group x y m h t g p ps : means float mo 29 [] (mkAttrs x y m h t g p ps) (mkAttrs x y m h t true p ps)
| m_path l x y m h t g p ps : Forall is_word l -> means float mo 30 (flat_map word l) (mkAttrs x y m h t g p ps) (mkAttrs x y m h t g (map signed l) ps)
| m_parasites l x y m h t g p ps : Forall par_ok l -> means float mo 21 (flat_map parasite_bytes l) (mkAttrs x y m h t g p ps) (mkAttrs x y m h t g p l)
| m_nothing typ l a : ~ In typ [6; 33; 7; 8; 15; 29; 30; 21] -> means float mo typ l a a.
(** one after the other *)
Fixpoint all_mean (float : Z -> Z) (mo : Z -> mode) (props : list (Z * list Z)) (a a' : attrs) : Prop :=
  match props with
  | [] => a' = a
  | q :: props => exists b, means float mo (fst q) (snd q) a b /\ all_mean float mo props b a'
  end.
