(** Layers loaded from a neat file: they can be written. *)
From Coq Require Import ZifyBool ZifyNat.
Require Import Verif.Base Verif.L_List Verif.M_Color Verif.S_Color Verif.L_Word Verif.M_Composite Verif.L_Modes Verif.L_Pix Verif.L_Layout Verif.L_Grid Verif.L_Compressed Verif.M_Rect Verif.M_Image Verif.S_Rect Verif.S_Image Verif.L_Image
  Verif.M_Decode Verif.S_String Verif.S_File Verif.S_Props Verif.S_Accept Verif.S_Tree Verif.S_Linked Verif.S_Trip Verif.L_Trip5 Verif.P_Color Verif.P_Trip
  Verif.S_Compressed Verif.M_Reader Verif.S_Kinds Verif.P_Kinds Verif.S_Meaning Verif.S_Whole Verif.P_Whole Verif.P_Written Verif.S_Resave Verif.S_Panics Verif.P_Panics Verif.L_Readable.
Require Verif.S_Groups Verif.L_Run.

(** ** One pixel *)
Lemma straight8 c r g b : is_colour c (r, g, b, 255) -> color_RGBA c = mkRGBA (257 * r) (257 * g) (257 * b) 65535.
Proof. intros E. unfold is_colour in E. rewrite E, !opq. reflexivity. Qed.
Lemma clear8 c r g b : is_colour c (r, g, b, 0) -> color_RGBA c = mkRGBA 0 0 0 0.
Proof. intros E. unfold is_colour in E. rewrite E, !Z.mul_0_r. reflexivity. Qed.
Lemma nrgba_solid r g b : is_u8 r -> is_u8 g -> is_u8 b -> color_RGBA (CNRGBA r g b 255) = mkRGBA (257 * r) (257 * g) (257 * b) 65535.
Proof. intros R G B. apply straight8. apply is_nrgba; auto. unfold is_u8; lia. Qed.
Lemma nrgba_clear r g b : color_RGBA (CNRGBA r g b 0) = mkRGBA 0 0 0 0.
Proof. cbn [color_RGBA]. rewrite !Z.mul_0_r. reflexivity. Qed.
(** the colour model of an image loaded from a file: of its first layer's type, or that of an empty group *)
Definition file_model (base : Z) (pal : list (Z * Z * Z)) (k : cmodel) : Prop :=
  k = KAlpha \/ exists t, 0 <= t <= 5 /\ t / 2 = base /\ k = kind t (colour_map pal).
Lemma to_nrgba c r g b a : is_u8 r -> is_u8 g -> is_u8 b -> is_colour c (r, g, b, a) -> a = 0 \/ a = 255 ->
  exists c', (let '(r, g, b, a) := nrgbaModel c in Some (CNRGBA r g b a)) = Some c' /\ color_RGBA c' = color_RGBA c.
Proof.
  intros R G B E A.
  assert (X : (exists r g b a, c = CNRGBA r g b a) \/ nrgbaModel c = let p := color_RGBA c in
    if pA p =? 65535 then (u8 (Z.shiftr (pR p) 8), u8 (Z.shiftr (pG p) 8), u8 (Z.shiftr (pB p) 8), 255)
    else if pA p =? 0 then (0, 0, 0, 0) else (u8 (Z.shiftr (u32 (pR p * 65535) / pA p) 8), u8 (Z.shiftr (u32 (pG p * 65535) / pA p) 8),
          u8 (Z.shiftr (u32 (pB p * 65535) / pA p) 8), u8 (Z.shiftr (pA p) 8))).
  { destruct c; try (right; reflexivity). left. eauto. }
  destruct X as [(r' & g' & b' & a' & ->) | ->]; [cbn [nrgbaModel]; eexists; split; reflexivity|].
  destruct A as [-> | ->].
  - rewrite (clear8 _ _ _ _ E). cbn [pR pG pB pA Z.eqb]. eexists. split; reflexivity.
  - rewrite (straight8 _ _ _ _ E). cbv zeta. cbn [pR pG pB pA]. change (65535 =? 65535) with true. cbv iota. rewrite !byte_hi by assumption.
    eexists. split; [reflexivity|]. now apply nrgba_solid.
Qed.
Lemma kept_pixel base pal k T bs c r g b a : file_model base pal k -> 0 <= T <= 5 -> T / 2 = base -> Forall bytes3 pal -> zlen pal <= 256 ->
  of_type T c -> wf_color c -> meant T pal bs = Some (r, g, b, a) -> is_u8 r -> is_u8 g -> is_u8 b -> is_colour c (r, g, b, a) ->
  base = 0 \/ a = 0 \/ a = 255 -> exists c', converted k c = Some c' /\ color_RGBA c' = color_RGBA c.
Proof.
  intros FM RT TB FP LP OT WC ME R G B IC A.
  assert (NA : (forall r g b a, c <> CNRGBA r g b a) -> base = 0 -> a = 0 \/ a = 255).
  { intros N B0. destruct c; cbn in OT; try lia; try contradiction; [exfalso; eapply N; reflexivity|]. right. unfold is_colour in IC. cbn [color_RGBA] in IC. injection IC as _ _ _ IC. lia. }
  assert (Straight : base = 0 \/ k = KAlpha -> exists c', (let '(r, g, b, a) := nrgbaModel c in Some (CNRGBA r g b a)) = Some c' /\ color_RGBA c' = color_RGBA c).
  { intros _. destruct A as [B0 | A]; [|exact (to_nrgba c r g b a R G B IC A)].
    destruct c; try (refine (to_nrgba _ r g b a R G B IC (NA _ B0)); congruence). cbn [nrgbaModel]. eexists. split; reflexivity. }
  destruct FM as [-> | (t & Rt & tb & ->)]; [apply Straight; now right|].
  assert (C : base = 0 \/ base = 1 \/ base = 2) by lia. destruct C as [B0 | [B1 | B2]].
  - assert (K : t = 0 \/ t = 1) by lia. destruct K as [-> | ->]; cbn [kind Z.eqb Pos.eqb converted]; apply Straight; now left.
  - assert (K : converted (kind t (colour_map pal)) c = let '(y, a) := grayAlphaModel c in Some (CGrayAlpha y a)).
    { assert (K : t = 2 \/ t = 3) by lia. destruct K as [-> | ->]; reflexivity. }
    rewrite K. clear K. destruct A as [A | A]; [lia|].
    destruct c; cbn in OT; try lia; try contradiction.
    + cbn in WC. unfold is_colour in IC. rewrite is_graya in IC by tauto.
      destruct A as [-> | ->].
      * assert (a0 = 0) as -> by (injection IC as _ _ _ IC; lia). unfold grayAlphaModel. rewrite is_graya by tauto. cbn [pA]. rewrite !Z.mul_0_r. eexists. split; [reflexivity|].
        cbn [color_RGBA]. rewrite !Z.mul_0_r. reflexivity.
      * assert (a0 = 255) as -> by (injection IC as _ _ _ IC; lia). destruct (C17_grayalpha_model_partial y ltac:(tauto)) as [Q _]. rewrite Q. eexists. split; reflexivity.
    + cbn in WC. eexists. split; [reflexivity|].
      transitivity (mkRGBA (257 * y) (257 * y) (257 * y) 65535); [apply straight8, is_graya; auto; unfold is_u8; lia|symmetry; apply straight8, is_gray; auto].
  - assert (K : kind t (colour_map pal) = KPalette (colour_map pal) \/ kind t (colour_map pal) = KAlphaPalette (colour_map pal)).
    { assert (K : t = 4 \/ t = 5) by lia. destruct K as [-> | ->]; auto. }
    destruct A as [A | A]; [lia|].
    assert (IN : In (r, g, b) pal).
    { assert (TT : T = 4 \/ T = 5) by lia. destruct TT as [-> | ->]; cbn [meant] in ME; (destruct (znth pal (bs 0)) as [[[r0 g0] b0]|] eqn:N; [|discriminate]);
        injection ME as <- <- <- _; exact (znth_in _ _ _ N). }
    assert (OP : Forall (fun e => exists r g b, opaque8 e r g b) (colour_map pal)).
    { unfold colour_map. apply Forall_map. eapply Forall_impl; [|exact FP]. intros [[r0 g0] b0] (X & Y & Z). exists r0, g0, b0. split; [now left|auto]. }
    destruct A as [-> | ->].
    + assert (CV : converted (kind t (colour_map pal)) c = converted (KPalette (colour_map pal)) (CAlpha 0)).
      { assert (Q : color_RGBA c = color_RGBA (CAlpha 0)) by (rewrite (clear8 _ _ _ _ IC); reflexivity).
        destruct K as [-> | ->]; unfold converted; rewrite Q; reflexivity. }
      rewrite CV, (clear8 _ _ _ _ IC). unfold converted. change (color_RGBA (CAlpha 0)) with (mkRGBA 0 0 0 0). cbn [pR pG pB pA]. change (0 mod 256) with 0.
      destruct (palette_nearest (colour_map pal) (CRGB 0 0 0)) as (e & N & _).
      { eapply Forall_impl; [|exact OP]. intros e (r0 & g0 & b0 & O). exact (opaque8_wf _ _ _ _ O). }
      { cbn. unfold is_u8. lia. } { destruct pal; [contradiction|discriminate]. }
      set (ix := alphaPalette_Index (colour_map pal) (CRGB 0 0 0)) in *.
      pose proof (znth_range _ _ _ N) as [I1 I2]. pose proof (Z.mod_le ix 256 I1 ltac:(lia)). pose proof (Z.mod_pos_bound ix 256 ltac:(lia)).
      destruct (znth (file_palette (KPalette (colour_map pal))) (ix mod 256)) as [[[r0 g0] b0]|] eqn:N0.
      * eexists. split; [reflexivity|]. apply nrgba_clear.
      * exfalso. unfold file_palette in N0. rewrite znth_map in N0. destruct (znth_some (colour_map pal) (ix mod 256) ltac:(lia)) as (z & Q). rewrite Q in N0. discriminate.
    + assert (CV : converted (kind t (colour_map pal)) c = converted (kind t (colour_map pal)) (CRGB r g b)).
      { assert (Q : color_RGBA c = color_RGBA (CRGB r g b)) by (rewrite (straight8 _ _ _ _ IC); symmetry; apply straight8, is_rgb; auto).
        destruct K as [-> | ->]; unfold converted; rewrite Q; reflexivity. }
      rewrite CV, (member_converted (colour_map pal) (CRGB r g b) r g b); auto.
      * eexists. split; [reflexivity|]. rewrite nrgba_solid by auto. symmetry. now apply straight8.
      * unfold colour_map. now rewrite zlen_map.
      * unfold colour_map. apply in_map_iff. exists (r, g, b). auto.
      * split; [now left|auto].
Qed.

(** ** What a file says of its layers *)
Record said (base : Z) (D : ldesc) : Prop := mkSaid {
  sd_name : utf8 (ldName D);
  sd_len : zlen (ldName D) < 16777216;
  sd_tr : 0 <= aTransparency (ldAttrs D) <= 255;
  sd_mode : aMode (ldAttrs D) <> MLuminance -> mode_kept base (aMode (ldAttrs D));
  sd_type : 0 <= ldType D <= 5;
  sd_base : ldType D / 2 = base;
  sd_bytes : aGroup (ldAttrs D) = false -> forall k x y, 0 <= k < type_channels (ldType D) -> 0 <= x < ldW D -> 0 <= y < ldH D -> is_u8 (ldPx D k x y);
  sd_mask : forall m, ldMask D = Some m -> forall x y, 0 <= x < ldW D -> 0 <= y < ldH D -> is_u8 (m x y) }.
Lemma mean_tr float mo props : (forall z, is_u8 (float z)) -> forall a a', all_mean float mo props a a' -> 0 <= aTransparency a <= 255 -> 0 <= aTransparency a' <= 255.
Proof.
  intros FB. induction props as [|q props IH]; intros a a' A R; cbn [all_mean] in A; [now subst|].
  destruct A as (b & M & A). apply (IH b a' A). inversion M; subst; cbn [aTransparency] in *; auto; [lia|]. specialize (FB z). unfold is_u8 in FB. lia.
Qed.
Lemma mean_mode float base props : forall a a', all_mean float (modes_read base) props a a' ->
  (if base =? 0 then In (aMode a) (map snd gimp_modes) else aMode a = MNormal \/ aMode a = MBehind) ->
  if base =? 0 then In (aMode a') (map snd gimp_modes) else aMode a' = MNormal \/ aMode a' = MBehind.
Proof.
  induction props as [|q props IH]; intros a a' A I; cbn [all_mean] in A; [now subst|].
  destruct A as (b & M & A). apply (IH b a' A). inversion M; subst; cbn [aMode] in *; auto.
  unfold modes_read. destruct (base =? 0).
  - unfold gimp_mode. destruct (nth_in_or_default (Z.to_nat z) (map snd gimp_modes) MNormal) as [X|X]; [exact X|]. rewrite X. now left.
  - destruct (z =? 2); auto.
Qed.
Lemma listed_kept m : In m (map snd gimp_modes) -> m <> MLuminance -> mode_kept 0 m.
Proof. intros I N. unfold mode_kept. cbn [Z.eqb]. destruct m; try (cbn; tauto); cbn in I; exfalso; intuition discriminate. Qed.
Lemma layer_said float ptext f vm base p D : (forall z, is_u8 (float z)) -> 0 <= base <= 2 -> zlen f < 16777216 ->
  layer_at float (modes_read base) ptext f vm base p D -> said base D.
Proof.
  intros FB RB LF (props & hp & mp & H & RW & RH & TB & U & _ & _ & A & _ & PX & MP).
  pose proof (L_Run.holds_range (mkSrc f false) _ _ H) as HR. rewrite !zlen_app in HR. cbn [sFile] in HR.
  pose proof (zlen_pos (props_bytes props)). pose proof (zlen_pos (pointer vm hp)). pose proof (zlen_pos (pointer vm mp)). pose proof (zlen_pos (word (ldW D))). pose proof (zlen_pos (word (ldH D))). pose proof (zlen_pos (word (ldType D))).
  assert (LN : zlen (ldName D) <= zlen (text (ldName D))) by (unfold text; rewrite !zlen_app; pose proof (zlen_pos (word (zlen (ldName D) + 1))); pose proof (zlen_pos [0]); lia).
  split.
  - exact U.
  - lia.
  - apply (mean_tr _ _ _ FB _ _ A). cbn. lia.
  - intros N. pose proof (mean_mode _ _ _ _ _ A) as M. cbn [aMode plain] in M. specialize (M ltac:(destruct (base =? 0); auto; now left)).
    destruct (base =? 0) eqn:B0; [assert (base = 0) as -> by lia; now apply listed_kept|]. unfold mode_kept. now rewrite B0.
  - lia.
  - exact TB.
  - intros G. rewrite G in PX. destruct PX as (? & ? & ? & _ & _ & _ & _ & _ & BX). exact BX.
  - intros m EM x y RX RY. rewrite EM in MP. destruct MP as (_ & name & cp & cq & _ & _ & ? & ? & ? & _ & _ & _ & _ & _ & BX). exact (BX 0 x y ltac:(lia) RX RY).
Qed.

(** ** The layers *)
Definition spoken (base : Z) (x : ldesc * bool * list Z) : Prop := said base (fst (fst x)) /\ aGroup (ldAttrs (fst (fst x))) = snd (fst x).
Definition box (x y w h : Z) : rect := mkRect x y (x + w) (y + h).
Section Tree.
Variables (dec : bool) (pal : list (Z * Z * Z)) (base : Z) (written : list textDatum -> Z -> Z -> option (list Z)) (ptext : list Z -> tres).
Notation neat := (neat written ptext base pal).
Fixpoint shaped (ox oy : Z) (F : dforest) (ls : list layer) : Prop :=
  match F with
  | DNil => ls = []
  | DCons _ nd F =>
      exists l rest, ls = l :: rest /\
        let D := match nd with DLeaf d => d | DGroup d _ => d end in
        let a := ldAttrs D in
        lName l = ldName D /\ lBounds l = box (aX a - ox) (aY a - oy) (ldW D) (ldH D) /\
        mode_kept base (lMode l) /\ lTransparency l = aTransparency a /\
        match nd with
        | DLeaf d => exists i, pictured dec pal d i /\ masked d i (lImage l)
        | DGroup d k => exists g, shaped (aX a) (aY a) k g /\ lImage l = IGroup g
        end /\ shaped ox oy F rest
  end.
Lemma placed_in w h ox oy x y dw dh : 0 < dw -> 0 < dh -> 0 <= x -> 0 <= y -> x + dw <= w -> y + dh <= h ->
  S_Groups.placed (mkRect 0 0 w h) ox oy (mkRect x y (x + dw) (y + dh)) = box (x - ox) (y - oy) dw dh.
Proof.
  intros. unfold S_Groups.placed, rsub, intersect, rempty, box. cbn [minX minY maxX maxY].
  rewrite !Z.max_l, !Z.min_l by lia. destruct (_ || _) eqn:E; [lia|]. cbn [minX minY maxX maxY]. f_equal; lia.
Qed.
Lemma shape_described w h F : forall ox oy x0 y0 x1 y1 ls bare p, 0 <= x0 -> 0 <= y0 -> x1 <= w -> y1 <= h -> neat x0 y0 x1 y1 F -> masks_ok dec F ->
  Forall (spoken base) (dorder bare p F) -> described dec pal (mkRect 0 0 w h) ox oy F ls -> shaped ox oy F ls.
Proof.
  induction F as [|r D F IH|r D k F IHk IH] using df_ind; intros ox oy x0 y0 x1 y1 ls bare p X0 Y0 X1 Y1 N MO SP DS; cbn [described shaped] in *; [exact DS| |];
    destruct DS as (l & rest & -> & E1 & E2 & E3 & E4 & E5 & E6 & DS); destruct N as (N1 & N2 & N3 & N4 & N5 & N6 & N7 & N8 & N); destruct MO as [MD MO];
    cbn [dorder] in SP; apply Forall_app in SP as [S1 S2]; pose proof (Forall_inv S1) as [SD SG]; cbn [fst snd] in SD, SG;
    exists l, rest; (split; [reflexivity|]); cbv zeta; (split; [exact E1|]); (split; [rewrite E2; apply placed_in; lia|]);
    (split; [rewrite E3; now apply (sd_mode _ _ SD)|]); (split; [exact E5|]); (split; [|eapply (IH ox oy x0 y0 x1 y1); eauto]).
  - exact E6.
  - destruct E6 as (g & DG & MG). destruct MD as [MD MK]. unfold masked in MG. rewrite MD in MG. exists g. split; [|exact MG].
    destruct N8 as [_ N8]. apply Forall_inv_tail in S1. eapply (IHk _ _ (aX (ldAttrs D)) (aY (ldAttrs D)) (aX (ldAttrs D) + ldW D) (aY (ldAttrs D) + ldH D)); eauto; lia.
Qed.
Lemma normal_kept : mode_kept base MNormal.
Proof. unfold mode_kept. destruct (base =? 0); [now left|now left]. Qed.
Lemma bottom_cons l x r : S_Groups.bottom_normal (l :: x :: r) = l :: S_Groups.bottom_normal (x :: r).
Proof.
  unfold S_Groups.bottom_normal. cbn [rev]. set (u := rev r ++ [x]). assert (U : u <> []) by (unfold u; destruct (rev r); discriminate).
  destruct u as [|[n b m v t i] u]; [easy|]. cbn [app]. cbn [rev]. rewrite rev_app_distr. cbn [rev app]. reflexivity.
Qed.
Lemma bottom_one n b m v t i : S_Groups.bottom_normal [mkLayer n b m v t i] = [mkLayer n b (match m with MDissolve => MDissolve | _ => MNormal end) v t i].
Proof. reflexivity. Qed.
Lemma bottom_idem ls : S_Groups.bottom_normal (S_Groups.bottom_normal ls) = S_Groups.bottom_normal ls.
Proof.
  induction ls as [|l [|x r] IH]; [reflexivity| |].
  - destruct l as [n b m v t i]. rewrite !bottom_one. f_equal. f_equal. now destruct m.
  - rewrite bottom_cons. destruct (S_Groups.bottom_normal (x :: r)) as [|y s] eqn:E; [|rewrite bottom_cons; congruence].
    destruct r as [|z r]; [destruct x|rewrite bottom_cons in E]; discriminate.
Qed.
Lemma shape_bottom F : forall ox oy ls, shaped ox oy F ls -> shaped ox oy F (S_Groups.bottom_normal ls).
Proof.
  induction F as [|r D F IH|r D k F IHk IH] using df_ind; intros ox oy ls S; cbn [shaped] in *; [subst; reflexivity| |];
    destruct S as (l & rest & -> & E1 & E2 & E3 & E4 & E5 & S);
    (destruct rest as [|x rest];
      [destruct l as [n b m v t i]; rewrite bottom_one; eexists; eexists; split; [reflexivity|]; cbv zeta;
       split; [exact E1|]; split; [exact E2|]; split; [destruct m; (exact E3 || apply normal_kept)|]; split; [exact E4|]; split; [exact E5|exact S]
      |rewrite bottom_cons; eexists; eexists; split; [reflexivity|]; cbv zeta; split; [exact E1|]; split; [exact E2|]; split; [exact E3|]; split; [exact E4|]; split; [exact E5|];
       apply IH; exact S]).
Qed.
Lemma shape_model F : forall ox oy ls bare p, shaped ox oy F ls -> Forall (spoken base) (dorder bare p F) -> file_model base pal (image_ColorModel (IGroup ls)).
Proof.
  induction F as [|r D F IH|r D k F IHk IH] using df_ind; intros ox oy ls bare p S SP; cbn [shaped] in *; [subst; now left| |];
    destruct S as (l & rest & -> & E1 & E2 & E3 & E4 & E5 & S); destruct l as [n b m v t i]; cbn [lImage] in E5; cbn [image_ColorModel];
    cbn [dorder] in SP; apply Forall_app in SP as [S1 S2]; pose proof (Forall_inv S1) as [SD SG]; cbn [fst snd] in SD, SG.
  - right. exists (ldType D). split; [exact (sd_type _ _ SD)|]. split; [exact (sd_base _ _ SD)|].
    destruct E5 as (j & (pc & B & M & _ & _ & ->) & MK). unfold masked in MK. destruct (ldMask D); [destruct MK as (g & -> & _)|subst i]; cbn [image_ColorModel]; destruct (ldText D); exact M.
  - destruct E5 as (g & SK & ->). apply Forall_inv_tail in S1. exact (IHk _ _ _ _ _ SK S1).
Qed.
Lemma shape_tops F : forall ox oy ls, shaped ox oy F ls -> Forall2 (fun D l => lBounds l = box (aX (ldAttrs D) - ox) (aY (ldAttrs D) - oy) (ldW D) (ldH D)) (tops F) ls.
Proof.
  induction F as [|r D F IH|r D k F IHk IH] using df_ind; intros ox oy ls S; cbn [shaped tops] in *; [subst; constructor| |];
    destruct S as (l & rest & -> & E1 & E2 & _ & _ & _ & S); constructor; auto.
Qed.
Lemma shape_count F : forall ox oy ls bare p, shaped ox oy F ls -> fold_right (fun l n => layers_in l + n) 0 ls = zlen (dorder bare p F).
Proof.
  induction F as [|r D F IH|r D k F IHk IH] using df_ind; intros ox oy ls bare p S; cbn [shaped] in *; [subst; reflexivity| |];
    destruct S as (l & rest & -> & E1 & E2 & E3 & E4 & E5 & S); cbn [fold_right dorder]; rewrite (IH _ _ _ bare p S); destruct l as [n b m v t i]; cbn [lImage] in E5.
  - destruct E5 as (j & (pc & _ & _ & _ & _ & ->) & MK). rewrite zlen_app. change (zlen [(D, false, if bare then [] else p ++ [r])]) with 1.
    assert (X : layers_in (mkLayer n b m v t i) = 1) by (unfold masked in MK; destruct (ldMask D); [destruct MK as (g & -> & _)|subst i]; [|destruct (ldText D)]; reflexivity).
    lia.
  - destruct E5 as (g & SK & ->). cbn [layers_in]. rewrite (IHk _ _ _ false (p ++ [r]) SK). cbn [app]. rewrite zlen_cons, zlen_app. lia.
Qed.

(** the bounds of such layers *)
Definition boxed (x0 y0 x1 y1 : Z) (r : rect) : Prop := r = ZR \/ (x0 <= minX r < maxX r /\ maxX r <= x1 /\ y0 <= minY r < maxY r /\ maxY r <= y1).
Lemma boxed_union x0 y0 x1 y1 r s : boxed x0 y0 x1 y1 r -> boxed x0 y0 x1 y1 s -> boxed x0 y0 x1 y1 (union r s).
Proof.
  unfold boxed, union, rempty. intros [-> | R] [-> | S]; cbn [minX minY maxX maxY ZR] in *.
  - now left. - right. exact S. - destruct ((_ || _)) eqn:E; [lia|]. cbn. right. exact R.
  - right. destruct ((maxX r <=? _) || _) eqn:E; [lia|]. destruct ((maxX s <=? _) || _) eqn:E2; [lia|]. cbn [minX minY maxX maxY]. lia.
Qed.
Lemma boxed_group x0 y0 x1 y1 g : Forall (fun l => boxed x0 y0 x1 y1 (lBounds l)) g -> boxed x0 y0 x1 y1 (group_Bounds g).
Proof.
  unfold group_Bounds. intros H. cut (forall r, boxed x0 y0 x1 y1 r -> boxed x0 y0 x1 y1 (fold_left (fun r l => union r (lBounds l)) g r)).
  { intros X. apply X. now left. }
  induction H as [|l g L H IH]; intros r R; cbn [fold_left]; [exact R|]. apply IH. now apply boxed_union.
Qed.
Lemma neat_tops F : forall x0 y0 x1 y1, neat x0 y0 x1 y1 F ->
  Forall (fun D => let a := ldAttrs D in 0 < ldW D /\ 0 < ldH D /\ x0 <= aX a /\ y0 <= aY a /\ aX a + ldW D <= x1 /\ aY a + ldH D <= y1) (tops F).
Proof.
  induction F as [|r D F IH|r D k F IHk IH] using df_ind; intros x0 y0 x1 y1 N; cbn [S_Resave.neat tops] in *; constructor;
    destruct N as (N1 & N2 & N3 & N4 & N5 & N6 & N7 & N8 & N); cbv zeta; auto 8.
Qed.
Lemma neat_shrink F : forall x0 y0 x1 y1 x1' y1', neat x0 y0 x1 y1 F ->
  Forall (fun D => aX (ldAttrs D) + ldW D <= x1' /\ aY (ldAttrs D) + ldH D <= y1') (tops F) -> neat x0 y0 x1' y1' F.
Proof.
  induction F as [|r D F IH|r D k F IHk IH] using df_ind; intros x0 y0 x1 y1 x1' y1' N T; cbn [S_Resave.neat tops] in *; [exact I| |];
    destruct N as (N1 & N2 & N3 & N4 & N5 & N6 & N7 & N8 & N); pose proof (Forall_inv T) as [T1 T2]; apply Forall_inv_tail in T;
    repeat (split; [assumption|]); eapply IH; eauto.
Qed.
Lemma shape_boxed F ox oy x0 y0 x1 y1 ls : shaped ox oy F ls -> neat x0 y0 x1 y1 F ->
  Forall (fun l => boxed (x0 - ox) (y0 - oy) (x1 - ox) (y1 - oy) (lBounds l)) ls.
Proof.
  intros S N. apply shape_tops in S. apply neat_tops in N. induction S as [|D l T ls B S IH]; constructor.
  - pose proof (Forall_inv N) as (N1 & N2 & N3 & N4 & N5 & N6). rewrite B. unfold boxed, box. cbn [minX minY maxX maxY]. right. lia.
  - apply IH. exact (Forall_inv_tail N).
Qed.
Lemma tiles_le a b w h : 0 <= a <= w -> 0 <= b <= h -> (w + 63) / 64 * ((h + 63) / 64) < 4294967296 -> (a + 63) / 64 * ((b + 63) / 64) < 4294967296.
Proof.
  intros A B L. pose proof (Z.div_le_mono (a + 63) (w + 63) 64 ltac:(lia) ltac:(lia)). pose proof (Z.div_le_mono (b + 63) (h + 63) 64 ltac:(lia) ltac:(lia)).
  pose proof (Z.div_pos (a + 63) 64 ltac:(lia) ltac:(lia)). pose proof (Z.div_pos (b + 63) 64 ltac:(lia) ltac:(lia)). nia.
Qed.
Lemma shape_writable w h F : (w + 63) / 64 * ((h + 63) / 64) < 4294967296 -> forall ox oy x0 y0 x1 y1 ls, x1 - x0 <= w -> y1 - y0 <= h ->
  shaped ox oy F ls -> neat x0 y0 x1 y1 F -> fold_right (fun l P => writable l /\ P) True ls.
Proof.
  intros WH. induction F as [|r D F IH|r D k F IHk IH] using df_ind; intros ox oy x0 y0 x1 y1 ls X Y S N; pose proof S as S0; cbn [shaped] in S; [subst; exact I| |];
    destruct S as (l & rest & -> & E1 & E2 & E3 & E4 & E5 & S); cbn [S_Resave.neat] in N; destruct N as (N1 & N2 & N3 & N4 & N5 & N6 & N7 & N8 & N);
    cbn [fold_right]; (split; [|eapply IH; eauto]); destruct l as [n b m v t i]; cbn [lImage] in E5; cbn [writable].
  - assert (FT : S_Tree.fits (mkRect 0 0 (ldW D) (ldH D))).
    { unfold S_Tree.fits, dx, dy. cbn [minX minY maxX maxY]. split; [lia|]. split; [lia|]. rewrite !Z.sub_0_r. eapply tiles_le; [| |exact WH]; lia. }
    destruct E5 as (j & (pc & PB & _ & _ & _ & ->) & MK). unfold masked in MK.
    destruct (ldMask D); [destruct MK as (g & -> & GB & _)|subst i]; destruct (ldText D); cbn [S_Tree.unmasked mask_of image_Bounds]; rewrite ?PB, ?GB; auto.
  - destruct E5 as (g & SK & ->). destruct N8 as [_ N8]. cbn [S_Tree.unmasked mask_of image_Bounds]. split; [|split; [exact I|]].
    + pose proof (boxed_group _ _ _ _ _ (shape_boxed _ _ _ _ _ _ _ _ SK N8)) as B. unfold S_Tree.fits. destruct B as [-> | B]; [cbn; unfold dx, dy; cbn; lia|].
      unfold dx, dy. split; [lia|]. split; [lia|]. eapply tiles_le; [| |exact WH]; lia.
    + eapply (IHk _ _ (aX (ldAttrs D)) (aY (ldAttrs D)) (aX (ldAttrs D) + ldW D) (aY (ldAttrs D) + ldH D)); eauto; lia.
Qed.
Lemma kept_base k m : file_model base pal k -> 0 <= base <= 2 -> mode_kept base m -> mode_kept (base_type k) m.
Proof.
  intros FM RB K. assert (X : base_type k = base \/ base_type k = 0).
  { destruct FM as [-> | (t & Rt & tb & ->)]; [now right|left].
    assert (C : t = 0 \/ t = 1 \/ t = 2 \/ t = 3 \/ t = 4 \/ t = 5) by lia. destruct C as [-> | [-> | [-> | [-> | [-> | ->]]]]]; exact tb. }
  destruct X as [-> | ->]; [exact K|]. unfold mode_kept in K. destruct (base =? 0) eqn:B; [exact K|]. destruct K as [-> | ->]; cbn; tauto.
Qed.
Lemma shape_length F ox oy ls : shaped ox oy F ls -> zlen ls = zlen (tops F).
Proof. intros S. apply shape_tops in S. unfold zlen. f_equal. symmetry. induction S; cbn; congruence. Qed.
Lemma all_good k W H g x y : good_layers written (read_text ptext) k dec W H g x y -> (fix all (g : list layer) : Prop :=
  match g with [] => True | l :: g => good_layer written (read_text ptext) k dec W H l (x + minX (lBounds l)) (y + minY (lBounds l)) /\ all g end) g.
Proof. induction g as [|l g IH]; [easy|]. cbn [good_layers]. intros [A B]. split; [exact A|exact (IH B)]. Qed.
Lemma shape_good k W H F : file_model base pal k -> 0 <= base <= 2 -> W < 2147483648 -> H < 2147483648 ->
  forall ox oy x0 y0 x1 y1 ls bare p, 0 <= x0 -> 0 <= y0 -> x1 <= W -> y1 <= H ->
  shaped ox oy F ls -> neat x0 y0 x1 y1 F -> masks_ok dec F -> Forall (spoken base) (dorder bare p F) ->
  good_layers written (read_text ptext) k dec W H ls ox oy.
Proof.
  intros FM RB RW RH. induction F as [|r D F IH|r D kids F IHk IH] using df_ind; intros ox oy x0 y0 x1 y1 ls bare p X0 Y0 X1 Y1 S N MO SP; cbn [shaped] in S; [subst; exact I| |];
    destruct S as (l & rest & -> & E1 & E2 & E3 & E4 & E5 & S); cbn [S_Resave.neat] in N; destruct N as (N1 & N2 & N3 & N4 & N5 & N6 & N7 & N8 & N);
    cbn [masks_ok] in MO; destruct MO as [MD MO]; cbn [dorder] in SP; apply Forall_app in SP as [S1 S2]; pose proof (Forall_inv S1) as [SD SG]; cbn [fst snd] in SD, SG;
    destruct l as [n b m v t i]; cbn [lName lBounds lMode lTransparency lImage] in *; subst b; cbn [good_layers lBounds]; (split; [|eapply (IH ox oy x0 y0 x1 y1); eauto]);
    unfold box; cbn [minX minY maxX maxY]; rewrite !Zplus_minus; cbn [good_layer]; unfold dx, dy, word_sized; cbn [minX minY maxX maxY];
    rewrite E1, E4; (split; [exact (sd_name _ _ SD)|]); (split; [exact (sd_len _ _ SD)|]); (split; [exact (sd_tr _ _ SD)|]);
    (split; [now apply kept_base|]); do 5 (split; [lia|]).
  - assert (DI : forall z w, z + w - z = w) by (intros; lia). rewrite !DI.
    destruct E5 as (j & (pc & PB & _ & _ & _ & ->) & MK). unfold masked in MK. destruct N8 as [TK _]. unfold text_kept in TK.
    destruct (ldMask D) as [mk|] eqn:EM.
    + destruct MK as (g & -> & GB & _). cbn [image_Bounds]. destruct (MD ltac:(discriminate)) as [-> PL]. unfold placed in PL.
      assert (ET : ldText D = None) by (destruct (ldText D); [destruct TK as (_ & X & _); congruence|reflexivity]). rewrite ET. cbn [image_Bounds]. rewrite PB, GB. cbn [minX minY maxX maxY]. lia.
    + subst i. destruct (ldText D) as [tx|]; cbn [image_Bounds]; rewrite PB; cbn [minX minY maxX maxY]; (split; [lia|]); (split; [lia|]); [|exact I].
      destruct TK as (T1 & _ & T3). destruct tx as [|t0 ts]; [easy|]. intros data WD. destruct T3 as (data' & t' & WD' & E). rewrite WD' in WD. injection WD as <-. unfold read_text. rewrite E. discriminate.
  - destruct E5 as (g & SK & ->). destruct N8 as [LK N8]. destruct MD as [_ MK]. split; [rewrite (shape_length _ _ _ _ SK); exact LK|].
    apply Forall_inv_tail in S1.
    apply all_good.
    eapply (IHk _ _ (aX (ldAttrs D)) (aY (ldAttrs D)) (aX (ldAttrs D) + ldW D) (aY (ldAttrs D) + ldH D)); eauto; lia.
Qed.
(** what is loaded can be read at every point *)
Lemma described_readable canvas F : forall ox oy ls bare p, Forall (spoken base) (dorder bare p F) -> coloured pal F ->
  described dec pal canvas ox oy F ls -> Forall readable_layer ls.
Proof.
  assert (MK : forall D i j, said base D -> masked D i j -> readable i -> readable j /\ groups j = groups i /\ image_Bounds j = image_Bounds i).
  { intros D i j SD M R. unfold masked in M. destruct (ldMask D) as [m|] eqn:EM; [|subst; auto]. destruct M as (g & -> & _ & GA). split; [|auto]. split; [exact R|].
    intros x y. rewrite GA. destruct (_ && _) eqn:I; [apply (sd_mask _ _ SD m EM); lia|unfold is_u8; lia]. }
  induction F as [|r D F IH|r D kids F IHk IH] using df_ind; intros ox oy ls bare p SP C S; cbn [described] in S; [subst; constructor| |];
    destruct S as (l & rest & -> & _ & E2 & _ & _ & E4 & E5 & S); cbn [coloured] in C; destruct C as [C0 C]; cbn [dorder] in SP; apply Forall_app in SP as [S1 S2];
    pose proof (Forall_inv S1) as [SD _]; cbn [fst snd] in SD; (constructor; [|eapply IH; eauto]); destruct l as [n b m v t i]; cbn [lBounds lTransparency lImage] in *; cbn [readable_layer];
    (split; [rewrite E4; pose proof (sd_tr _ _ SD); unfold is_u8; lia|]).
  - destruct E5 as (j & (pc & PB & _ & TY & SH & ->) & M).
    assert (R : readable (ILeaf pc)).
    { cbn [readable]. rewrite PB. intros x y (Ix & Iy). cbn [minX minY maxX maxY] in Ix, Iy. specialize (SH x y). replace ((0 <=? x) && (x <? ldW D) && (0 <=? y) && (y <? ldH D)) with true in SH by lia.
      specialize (C0 x y Ix Iy). destruct (meant _ _ _) as [v0|]; [|easy]. destruct SH as (c & E & _). exists c. split; [exact E|]. now apply (TY x y c Ix Iy). }
    destruct (MK D _ _ SD M) as (R' & G & B). { destruct (ldText D); exact R. }
    split; [exact R'|]. right. rewrite B. intros x y. rewrite E2. intros I. apply placed_inside in I. destruct (ldText D); cbn [image_Bounds]; rewrite PB; exact I.
  - destruct E5 as (g & SK & M). apply Forall_inv_tail in S1. destruct (MK D _ _ SD M) as (R & G & _); [apply readable_group; eapply IHk; eauto|]. split; [exact R|]. now left.
Qed.
Lemma described_coloured canvas F : forall ox oy ls, masks_ok dec F -> described dec pal canvas ox oy F ls -> Forall leaves_drawn ls -> coloured pal F.
Proof.
  induction F as [|r D F IH|r D kids F IHk IH] using df_ind; intros ox oy ls MO S L; cbn [described] in S; [exact I| |]; cbn [masks_ok] in MO; destruct MO as [MD MO];
    destruct S as (l & rest & -> & _ & _ & _ & _ & _ & E5 & S); inversion L as [|? ? L1 L2]; subst; cbn [coloured]; (split; [|eapply IH; eauto]); destruct l as [n b m v t i]; cbn [lImage] in E5; cbn [leaves_drawn] in L1.
  - destruct E5 as (j & (pc & PB & _ & _ & SH & ->) & M). destruct L1 as [L1 _].
    assert (LP : forall x y, inside (picBounds pc) x y -> picAt pc x y <> None).
    { unfold leaf_drawn in L1. unfold masked in M. destruct (ldMask D); [destruct M as (g & -> & _)|subst i]; destruct (ldText D); exact L1. }
    intros x y Ix Iy N. specialize (SH x y). replace ((0 <=? x) && (x <? ldW D) && (0 <=? y) && (y <? ldH D)) with true in SH by lia. rewrite N in SH.
    apply (LP x y); [rewrite PB; split; cbn; lia|exact SH].
  - destruct E5 as (g & SK & M). unfold masked in M. destruct MD as [MN MK]. rewrite MN in M. subst i. destruct L1 as [_ L1]. apply leaves_fold in L1. eapply IHk; eauto.
Qed.
Lemma neat_coloured F : 0 <= base <= 2 -> forall x0 y0 x1 y1 bare p, Forall (spoken base) (dorder bare p F) -> neat x0 y0 x1 y1 F -> coloured pal F.
Proof.
  intros RB. induction F as [|r D F IH|r D kids F IHk IH] using df_ind; intros x0 y0 x1 y1 bare p SP N; [exact I| |]; cbn [S_Resave.neat] in N; destruct N as (_ & _ & _ & _ & _ & _ & _ & N8 & N);
    cbn [dorder] in SP; apply Forall_app in SP as [S1 S2]; pose proof (Forall_inv S1) as [SD _]; cbn [fst snd] in SD; cbn [coloured]; (split; [|eapply IH; eauto]).
  - destruct N8 as [_ SO]. intros x y Ix Iy. destruct SO as [B0|SO].
    + pose proof (sd_base _ _ SD) as TB. pose proof (sd_type _ _ SD) as TT. assert (ldType D = 0 \/ ldType D = 1) as [-> | ->] by lia; discriminate.
    + destruct (SO x y Ix Iy) as (a1 & a2 & a3 & a4 & -> & _). discriminate.
  - destruct N8 as [_ N8]. apply Forall_inv_tail in S1. eapply IHk; eauto.
Qed.
Lemma shape_texts F : forall ox oy x0 y0 x1 y1 ls bare p, Forall (spoken base) (dorder bare p F) -> shaped ox oy F ls -> neat x0 y0 x1 y1 F -> x1 < 4294967296 -> y1 < 4294967296 -> 0 <= x0 -> 0 <= y0 ->
  Forall (texts_layer (fun t w h => written t w h <> None)) ls.
Proof.
  induction F as [|r D F IH|r D kids F IHk IH] using df_ind; intros ox oy x0 y0 x1 y1 ls bare p SP S N L1 L2 X0 Y0; cbn [shaped] in S; [subst; constructor| |];
    destruct S as (l & rest & -> & _ & E2 & _ & _ & E5 & S); cbn [S_Resave.neat] in N; destruct N as (N1 & N2 & N3 & N4 & N5 & N6 & N7 & N8 & N);
    cbn [dorder] in SP; apply Forall_app in SP as [S1 S2]; (constructor; [|eapply (IH ox oy x0 y0 x1 y1); eauto]); destruct l as [n b m v t i]; cbn [lBounds lImage] in *.
  - destruct E5 as (j & (pc & _ & _ & _ & _ & ->) & M). destruct N8 as [TK _]. unfold text_kept in TK. unfold masked in M.
    destruct (ldMask D) as [mk|]; [destruct M as (g & -> & _); exact I|]. subst i. destruct (ldText D) as [tx|]; [|exact I].
    destruct TK as (_ & _ & data & t' & WD & _). cbn [texts_layer]. right. subst b. unfold box. cbn [minX minY maxX maxY].
    replace (aX (ldAttrs D) - ox + ldW D - (aX (ldAttrs D) - ox)) with (ldW D) by lia. replace (aY (ldAttrs D) - oy + ldH D - (aY (ldAttrs D) - oy)) with (ldH D) by lia.
    rewrite !Z.mod_small by lia. rewrite WD. discriminate.
  - destruct E5 as (g & SK & ->). destruct N8 as [_ N8]. apply Forall_inv_tail in S1. cbn [texts_layer]. apply texts_fold.
    eapply (IHk _ _ (aX (ldAttrs D)) (aY (ldAttrs D)) (aX (ldAttrs D) + ldW D) (aY (ldAttrs D) + ldH D)); eauto; lia.
Qed.
End Tree.
