(** Lemmas for C89: Encode depends only on what is read. *)
From Coq Require Import ZifyBool ZifyNat.
Require Import Verif.Base Verif.L_List Verif.L_Word Verif.M_Color Verif.S_Color Verif.M_Composite Verif.M_Rect Verif.M_Image Verif.S_Rect Verif.S_Image Verif.L_Image
  Verif.M_Reader Verif.M_Rle Verif.M_Decode Verif.M_Encode Verif.L_Calls Verif.L_Pix Verif.P_Panics Verif.S_Alike.

Scheme alike_mut := Minimality for alike Sort Prop with alike_layer_mut := Minimality for alike_layer Sort Prop
  with alike_layers_mut := Minimality for alike_layers Sort Prop.
Combined Scheme alike_ind3 from alike_mut, alike_layer_mut, alike_layers_mut.

(** ** Colours *)
Lemma opaque8 v : is_u8 v -> u32 (rep8 v * 255) / 255 = rep8 v.
Proof. unfold is_u8. intros V. rewrite rep8_eq by lia. unfold u32. rewrite Z.mod_small by lia. now rewrite Z.div_mul by lia. Qed.
Lemma hi8 v : 0 <= v <= 255 -> 257 * v / 256 mod 256 = v.
Proof. intros V. replace (257 * v) with (v + v * 256) by lia. rewrite Z.div_add, Z.div_small, Z.add_0_l by lia. apply Z.mod_small. lia. Qed.
Lemma shade_RGBA c c' : same_shade c c' -> color_RGBA c = color_RGBA c'.
Proof. intros [|r g b R G B|r g b R G B|y Y|y Y]; [reflexivity| | | |]; cbn [color_RGBA]; cbv zeta; rewrite !opaque8 by assumption; reflexivity. Qed.
Lemma shade_NRGBA c c' : same_shade c c' -> colourToNRGBA c = colourToNRGBA c'.
Proof.
  intros [|r g b R G B|r g b R G B|y Y|y Y]; [reflexivity| | | |]; cbn [colourToNRGBA color_RGBA]; unfold rgb_ToNRGBA, grayalpha_ToNRGBA, nrgba64Model_rgba; cbn [pA pR pG pB Z.eqb Pos.eqb]; cbv zeta; unfold is_u8 in *; rewrite ?rep8_eq by lia; unfold u16;
    rewrite ?(Z.mod_small (257 * _)) by lia; repeat f_equal; lia.
Qed.
Lemma shade_nrgba c c' : same_shade c c' -> nrgbaModel c = nrgbaModel c'.
Proof.
  intros S. pose proof (shade_RGBA _ _ S) as E. destruct S as [|r g b R G B|r g b R G B|y Y|y Y]; [reflexivity| | |unfold nrgbaModel; now rewrite E|unfold nrgbaModel; now rewrite E]; clear E;
    cbn [nrgbaModel color_RGBA pA pR pG pB]; unfold is_u8 in *; rewrite !rep8_eq by lia; cbn [Z.eqb Pos.eqb];
    unfold u8; rewrite !Z.shiftr_div_pow2 by lia; change (2 ^ 8) with 256; rewrite !hi8 by lia; reflexivity.
Qed.
Lemma grey_gray y : is_u8 y -> grayModel (CGrayAlpha y 255) = y.
Proof.
  intros Y. unfold grayModel. cbn [color_RGBA pR pG pB]. cbv zeta. rewrite opaque8 by exact Y. unfold is_u8 in Y. rewrite rep8_eq by lia.
  replace (19595 * (257 * y) + 38470 * (257 * y) + 7471 * (257 * y) + 32768) with (16842752 * y + 32768) by lia.
  unfold u32, u8. rewrite (Z.mod_small (_ + _)) by lia. rewrite Z.shiftr_div_pow2 by lia. change (2 ^ 24) with 16777216.
  assert ((16842752 * y + 32768) / 16777216 = y) as -> by (symmetry; apply (Z.div_unique_pos _ _ _ (65536 * y + 32768)); lia). apply Z.mod_small. lia.
Qed.
Lemma shade_gray c c' : same_shade c c' -> grayModel c = grayModel c'.
Proof. intros S. pose proof (shade_RGBA _ _ S) as E. destruct S; [reflexivity| | | |]; try (unfold grayModel; now rewrite E); now rewrite grey_gray. Qed.
Lemma shade_bytes f c c' : same_shade c c' -> colour_bytes f c = colour_bytes f c'.
Proof.
  intros S. destruct f; cbn [colour_bytes].
  - now rewrite (shade_nrgba _ _ S).
  - unfold grayAlphaModel. now rewrite (shade_gray _ _ S), (shade_RGBA _ _ S).
  - now rewrite (shade_gray _ _ S).
  - now rewrite (shade_RGBA _ _ S).
Qed.
Lemma shade_transparency c c' a : same_shade c c' -> same_shade (transparency c a) (transparency c' a).
Proof.
  intros S. unfold transparency. destruct (a =? 255); [exact S|]. destruct (a =? 0); [constructor|]. rewrite (shade_NRGBA _ _ S). constructor.
Qed.
Definition same_draw (o o' : option (color * nat)) : Prop :=
  match o, o' with Some (c, n), Some (c', n') => same_shade c c' /\ n = n' | None, None => True | _, _ => False end.
Lemma same_draw_refl o : same_draw o o.
Proof. destruct o as [[c n]|]; [|exact I]. split; [constructor|reflexivity]. Qed.
Lemma shade_composite m r b b' t t' : same_shade b b' -> same_shade t t' -> composite m r b t = composite m r b' t'.
Proof. intros B T. unfold composite. now rewrite (shade_NRGBA _ _ B), (shade_NRGBA _ _ T). Qed.
Lemma shade_step rnd pal m c c' d d' n : same_shade c c' -> same_shade d d' -> same_draw (at_step rnd pal m c d n) (at_step rnd pal m c' d' n).
Proof.
  intros C D. unfold at_step. rewrite (shade_NRGBA _ _ D), (shade_composite m (rnd n) _ _ _ _ C D).
  destruct (negb (is_dissolve m) && pal); [|apply same_draw_refl]. cbv zeta. destruct (32767 <? _); [apply same_draw_refl|]. now split.
Qed.

(** ** Images *)
Lemma alike_bounds : (forall i i', alike i i' -> image_Bounds i' = image_Bounds i) /\ (forall l l', alike_layer l l' -> lBounds l' = lBounds l) /\
  (forall g g', alike_layers g g' -> forall r, fold_left (fun r l => union r (lBounds l)) g' r = fold_left (fun r l => union r (lBounds l)) g r).
Proof.
  apply alike_ind3; try (intros; cbn; auto; fail).
  - intros p q (B & _). exact B.
  - intros g g' _ E. apply E.
  - intros l l' g g' _ E _ IH r. cbn [fold_left]. now rewrite E, IH.
Qed.
Lemma alike_model : (forall i i', alike i i' -> same_model (image_ColorModel i) (image_ColorModel i')) /\ (forall l l', alike_layer l l' -> same_model (image_ColorModel (lImage l)) (image_ColorModel (lImage l'))) /\
  (forall g g', alike_layers g g' -> same_model (image_ColorModel (IGroup g)) (image_ColorModel (IGroup g'))).
Proof.
  apply alike_ind3; try (intros; cbn; auto; constructor; fail).
  - intros p q (_ & M & _). exact M.
  - intros [n b m v t i] [n' b' m' v' t' i'] _ E. exact E.
  - intros [n b m v t i] [n' b' m' v' t' i'] g g' _ E _ _. exact E.
Qed.
Lemma same_palette k k' : same_model k k' -> is_palette k' = is_palette k.
Proof. intros []; reflexivity. Qed.
(** conversions that write the same bytes *)
Definition same_fun (f f' : colfun) : Prop := channels f' = channels f /\ forall c c', same_shade c c' -> colour_bytes f c = colour_bytes f' c'.
Lemma same_fun_refl f : same_fun f f.
Proof. split; [reflexivity|]. intros. now apply shade_bytes. Qed.
Lemma shade_index p p' c c' : Forall2 same_shade p p' -> same_shade c c' -> alphaPalette_Index p c = alphaPalette_Index p' c'.
Proof.
  intros F S. unfold alphaPalette_Index. rewrite (shade_RGBA _ _ S).
  enough (G : forall i ret best, pal_index_from (color_RGBA c') p i ret best = pal_index_from (color_RGBA c') p' i ret best) by apply G.
  induction F as [|e e' p p' E _ IH]; intros i ret best; [reflexivity|]. cbn [pal_index_from]. rewrite (shade_RGBA _ _ E). cbv zeta. now rewrite !IH.
Qed.
Definition same_colour_map (o o' : option (list color)) : Prop :=
  match o, o' with Some p, Some p' => Forall2 same_shade p p' | None, None => True | _, _ => False end.
Lemma shades_refl p : Forall2 same_shade p p.
Proof. induction p; constructor; [constructor|assumption]. Qed.
Lemma same_type k k' : same_model k k' -> let '(ct, f, pal) := colour_type k in let '(ct', f', pal') := colour_type k' in ct' = ct /\ same_fun f f' /\ same_colour_map pal pal'.
Proof.
  assert (R : forall k, let '(ct, f, pal) := colour_type k in ct = ct /\ same_fun f f /\ same_colour_map pal pal).
  { intros j. destruct (colour_type j) as [[ct f] pal]. split; [reflexivity|]. split; [apply same_fun_refl|]. destruct pal; [apply shades_refl|exact I]. }
  intros [j| | | | |p p' F]; [specialize (R j); destruct (colour_type j) as [[ct f] pal]; exact R|exact (R KRGB)|exact (R KRGB)|exact (R KGray)|exact (R KGray)|].
  cbn [colour_type]. split; [reflexivity|]. split; [|exact F]. split; [reflexivity|]. intros c c' S. cbn [colour_bytes]. cbv zeta. rewrite (shade_RGBA _ _ S).
  now rewrite (shade_index p p' _ _ F (shade_same _)).
Qed.
Lemma alike_count : (forall i i', alike i i' -> match i, i' with IGroup g, IGroup g' => layersCount g' = layersCount g | IGroup _, _ | _, IGroup _ => False | _, _ => True end) /\
  (forall l l', alike_layer l l' -> layerCount l' = layerCount l) /\ (forall g g', alike_layers g g' -> layersCount g' = layersCount g).
Proof.
  apply alike_ind3; try (intros; cbn; auto; fail).
  - intros n b m v t i i' _ E. destruct i, i'; try contradiction; cbn [layerCount]; try reflexivity. f_equal. exact E.
  - intros l l' g g' _ E _ IH. unfold layersCount in *. cbn [fold_right]. now rewrite E, IH.
Qed.
Definition layers_At (rnd : nat -> Z) (pal : bool) (x y : Z) (n : nat) : list layer -> option (color * nat) :=
  fix loop (g : list layer) : option (color * nat) :=
    match g with
    | [] => Some (CAlpha 0, n)
    | l :: below =>
        cn <-? loop below;;
        if lInvisible l then Some cn
        else if negb (pin x y (lBounds l)) then Some cn
        else dn <-? layer_At rnd l x y (snd cn);;
             at_step rnd pal (lMode l) (fst cn) (fst dn) (snd dn)
    end.
Lemma group_layers_At rnd g x y n : image_At rnd (IGroup g) x y n = layers_At rnd (is_palette (image_ColorModel (IGroup g))) x y n g.
Proof. reflexivity. Qed.
Lemma alike_at rnd :
  (forall i i', alike i i' -> covered i -> forall x y n, grouped i = true \/ inside (image_Bounds i) x y -> same_draw (image_At rnd i x y n) (image_At rnd i' x y n)) /\
  (forall l l', alike_layer l l' -> covered_layer l -> forall x y n, inside (lBounds l) x y -> same_draw (layer_At rnd l x y n) (layer_At rnd l' x y n)) /\
  (forall g g', alike_layers g g' -> covered (IGroup g) -> forall pal x y n, same_draw (layers_At rnd pal x y n g) (layers_At rnd pal x y n g')).
Proof.
  apply alike_ind3.
  - intros p q (_ & _ & V) _ x y n [[=]|I]. specialize (V x y I). cbn [image_At]. unfold same_view in V.
    destruct (picAt p x y), (picAt q x y); try contradiction; cbn [obind same_draw]; auto.
  - intros g g' A IH C x y n _. rewrite !group_layers_At. rewrite (same_palette _ _ (proj2 (proj2 alike_model) _ _ A)). now apply IH.
  - intros i i' m m' A IH [_ M] C x y n I. specialize (IH C x y n I). cbn [image_At].
    destruct (image_At rnd i x y n) as [[c k]|], (image_At rnd i' x y n) as [[c' k']|]; try contradiction; [|exact IH]. cbn [obind fst snd same_draw]. destruct IH as [S ->].
    rewrite M by (right; exact I). split; [now apply shade_transparency|reflexivity].
  - intros i i' t A IH C x y n I. exact (IH C x y n I).
  - intros l l' A IH C x y n [[=]|I]. exact (IH C x y n I).
  - intros n b m v t i i' A IH [C CB] x y k I. cbn [lBounds] in I. cbn [layer_At].
    assert (J : grouped i = true \/ inside (image_Bounds i) (x - minX b) (y - minY b)) by (destruct CB as [CB|CB]; [now left|right; now apply CB]).
    specialize (IH C _ _ k J). destruct (image_At rnd i _ _ k) as [[c k1]|], (image_At rnd i' _ _ k) as [[c' k2]|]; try contradiction; [|exact IH]. cbn [obind fst snd same_draw].
    destruct IH as [S ->]. split; [now apply shade_transparency|reflexivity].
  - intros _ pal x y n. apply same_draw_refl.
  - intros l l' g g' A IHl _ IHg [C1 C2] pal x y n. specialize (IHg C2 pal x y n). cbn [layers_At].
    destruct (layers_At rnd pal x y n g) as [[c k]|], (layers_At rnd pal x y n g') as [[c' k']|]; try contradiction; [|exact IHg]. destruct IHg as [S <-]. cbn [obind fst snd].
    assert (EB : lBounds l' = lBounds l) by (now apply alike_bounds).
    assert (EV : lInvisible l' = lInvisible l /\ lMode l' = lMode l) by (destruct A; split; reflexivity). destruct EV as [-> ->]. rewrite EB.
    destruct (lInvisible l); [now split|]. destruct (pin x y (lBounds l)) eqn:P; cbn [negb]; [|now split].
    assert (J : inside (lBounds l) x y) by (unfold pin in P; unfold inside; lia).
    specialize (IHl C1 x y k J). destruct (layer_At rnd l x y k) as [[d q]|], (layer_At rnd l' x y k) as [[d' q']|]; try contradiction; [|exact IHl]. destruct IHl as [T <-]. cbn [obind fst snd].
    now apply shade_step.
Qed.

(** ** The writer *)
Section Writer.
Variables (wr : nat -> Z -> list Z -> Z * option err) (rnd : nat -> Z) (wt : list textDatum -> Z -> Z -> option (list Z)).
Definition same_run {A} (m m' : W A) : Prop := forall st, m st = m' st.
Lemma same_run_refl {A} (m : W A) : same_run m m. Proof. intros st. reflexivity. Qed.
Lemma same_bind {A B} (m m' : W A) (f f' : A -> W B) : same_run m m' -> (forall a, same_run (f a) (f' a)) -> same_run (bindW m f) (bindW m' f').
Proof. intros M F st. unfold bindW. rewrite (M st). destruct (m' st) as [[a st']|]; [apply F|reflexivity]. Qed.
Lemma same_fold {A S} (f f' : A -> S -> W S) l : (forall a s, In a l -> same_run (f a s) (f' a s)) -> forall s, same_run (foldW f l s) (foldW f' l s).
Proof.
  induction l as [|a l IH]; intros F s; cbn [foldW]; [apply same_run_refl|]. apply same_bind; [apply F; now left|]. intros s'. apply IH. intros. apply F. now right.
Qed.
Lemma same_image so so' f f' : same_fun f f' -> soBounds so' = soBounds so -> (forall x y n, inside (soBounds so) x y -> same_draw (soAt so x y n) (soAt so' x y n)) ->
  same_run (writeImage wr so f) (writeImage wr so' f').
Proof.
  intros [CH FB] B H. unfold writeImage. cbv zeta. rewrite B, CH.
  repeat (apply same_bind; [apply same_run_refl|intros ?]).
  apply same_bind; [|intros ?; apply same_run_refl]. apply same_fold. intros xy w T. unfold writeTile. rewrite B, CH.
  apply same_bind; [|intros ?; apply same_run_refl]. apply same_fold. intros p acc P st. unfold readPixel, obind.
  specialize (H (fst p) (snd p) (wRnd st) ltac:(eapply P_Panics.in_tile; eassumption)).
  destruct (soAt so _ _ _) as [[c k]|], (soAt so' _ _ _) as [[c' k']|]; try contradiction; [|reflexivity]. destruct H as [S <-]. cbn [fst snd]. now rewrite (FB _ _ S).
Qed.
Lemma same_channel i m m' : same_mask i m m' -> same_run (writeChannel wr m) (writeChannel wr m').
Proof.
  intros [B M]. unfold writeChannel. rewrite B. repeat (apply same_bind; [apply same_run_refl|intros ?]).
  apply same_image; [apply same_fun_refl|exact B|]. intros x y n J. cbn [source_gray soAt soBounds] in *. rewrite M by (left; exact J). split; [constructor|reflexivity].
Qed.
Lemma same_data f f' i i' o o' : same_fun f f' -> alike i i' -> covered i -> match o, o' with Some m, Some m' => same_mask i m m' | None, None => True | _, _ => False end ->
  same_run (writeLayerData wr rnd f i o) (writeLayerData wr rnd f' i' o').
Proof.
  intros SF A C M. unfold writeLayerData. repeat (apply same_bind; [apply same_run_refl|intros ?]).
  apply same_bind.
  - apply same_image; [exact SF|now apply alike_bounds|]. intros x y n I. cbn [source_of soAt soBounds] in *. apply alike_at; auto.
  - intros _. destruct o, o'; try contradiction; [|apply same_run_refl]. repeat (apply same_bind; [apply same_run_refl|intros ?]). now apply (same_channel i).
Qed.
Lemma same_layer : 
  (forall i i', alike i i' -> match i, i' with IGroup g, IGroup g' => covered (IGroup g) -> forall f f' ct ox oy gs n pw, same_fun f f' -> same_run (writeLayers wr rnd wt f ct g ox oy gs n pw) (writeLayers wr rnd wt f' ct g' ox oy gs n pw) | _, _ => True end) /\
  (forall l l', alike_layer l l' -> covered_layer l -> forall f f' ct ox oy gs pw, same_fun f f' -> same_run (writeLayer wr rnd wt f ct l ox oy gs pw) (writeLayer wr rnd wt f' ct l' ox oy gs pw)) /\
  (forall g g', alike_layers g g' -> covered (IGroup g) -> forall f f' ct ox oy gs n pw, same_fun f f' -> same_run (writeLayers wr rnd wt f ct g ox oy gs n pw) (writeLayers wr rnd wt f' ct g' ox oy gs n pw)).
Proof.
  apply alike_ind3; try (intros; exact I).
  - intros g g' _ IH. exact IH.
  - intros n b m v t i i' A IH [C _] f f' ct ox oy gs pw SF. rewrite !writeLayer_eq.
    do 2 (apply same_bind; [apply same_run_refl|intros ?]).
    assert (E : is_group i' = is_group i /\ text_of i' = text_of i) by (destruct A; split; reflexivity). destruct E as [-> ->].
    apply same_bind; [apply same_run_refl|intros ?]. apply same_bind; [apply same_run_refl|intros ?].
    apply same_bind.
    + destruct A as [p q L|g g' L|j j' mk mk' L M|j j' tx L|l l' L]; cbn [split_mask fst snd]; apply same_data; auto; try (constructor; assumption).
    + intros _. destruct A as [p q L|g g' L|j j' mk mk' L M|j j' tx L|l l' L]; try apply same_run_refl. apply IH; [exact C|exact SF].
  - intros _ f f' ct ox oy gs n pw _. apply same_run_refl.
  - intros l l' g g' A IHl _ IHg [C1 C2] f f' ct ox oy gs n pw SF. rewrite !writeLayers_cons.
    rewrite (proj1 (proj2 alike_bounds) _ _ A). apply same_bind; [now apply IHl|intros pw'; now apply IHg].
Qed.
Lemma same_writePalette p p' : Forall2 same_shade p p' -> same_run (writePalette wr p) (writePalette wr p').
Proof.
  intros F. unfold writePalette. assert (zlen p' = zlen p) as -> by (unfold zlen; f_equal; clear - F; induction F; cbn; congruence).
  repeat (apply same_bind; [apply same_run_refl|intros ?]). induction F as [|c c' p p' S _ IH]; [apply same_run_refl|]. cbn [eachW].
  apply same_bind; [|intros ?; exact IH]. unfold rgbModel. rewrite (shade_RGBA _ _ S). apply same_run_refl.
Qed.
End Writer.
