(** Property theorems: layers and layered images (C19, C23 - C25). *)
Require Import Verif.Base Verif.M_Color Verif.M_Composite Verif.S_Color Verif.M_Rect Verif.S_Rect Verif.M_Image
  Verif.S_Image Verif.L_Word Verif.L_Color Verif.L_Modes Verif.L_Rect Verif.L_Image.
From Coq Require Import Permutation.

(** ** C19 *)
(** what opacity [o] (0..255) does to a colour *)
Definition scaled (o : Z) (c d : color) : Prop :=
  (o = 255 -> d = c) /\ (o = 0 -> d = CNRGBA64 (mk64 0 0 0 0)) /\
  (0 < o -> cR (colourToNRGBA d) = cR (colourToNRGBA c) /\ cG (colourToNRGBA d) = cG (colourToNRGBA c) /\
            cB (colourToNRGBA d) = cB (colourToNRGBA c)) /\
  cA (colourToNRGBA d) = o * cA (colourToNRGBA c) / 255.
Theorem C19_layer_At : forall rnd l x y n c k, is_u8 (lTransparency l) ->
  image_At rnd (lImage l) (x - minX (lBounds l)) (y - minY (lBounds l)) n = Some (c, k) -> wf_color c ->
  exists d, layer_At rnd l x y n = Some (d, k) /\ wf_color d /\ scaled (255 - lTransparency l) c d.
Proof.
  intros rnd l x y n c k Ht E Hc. rewrite layer_at_eq, E. unfold is_u8 in Ht. rewrite u8_id by lia.
  destruct (transparency_laws c Hc) as (A & B & W & C & D & _).
  eexists. split; [reflexivity|]. split; [apply W; lia|]. split; [intros ->; exact A|]. split; [intros ->; exact B|].
  split; [intros; apply C; lia|apply D; lia].
Qed.
Print Assumptions C19_layer_At.
Theorem C19_masked_At : forall rnd i m x y n c k, is_u8 (grayAt m x y) ->
  image_At rnd i x y n = Some (c, k) -> wf_color c ->
  exists d, image_At rnd (IMasked i m) x y n = Some (d, k) /\ wf_color d /\ scaled (grayAt m x y) c d.
Proof.
  intros rnd i m x y n c k Hm E Hc. cbn [image_At]. rewrite E. unfold is_u8 in Hm. cbn [obind fst snd].
  destruct (transparency_laws c Hc) as (A & B & W & C & D & _).
  eexists. split; [reflexivity|]. split; [apply W; lia|]. split; [intros ->; exact A|]. split; [intros ->; exact B|].
  split; [intros; apply C; lia|apply D; lia].
Qed.
Print Assumptions C19_masked_At.
Theorem C19_monotone : forall c, wf_color c -> forall o o', 0 <= o <= o' -> o' <= 255 ->
  cA (colourToNRGBA (transparency c o)) <= cA (colourToNRGBA (transparency c o')).
Proof. intros c Hc. apply (transparency_laws c Hc). Qed.
Print Assumptions C19_monotone.
Definition leaf (b : rect) (c : color) : image := ILeaf (mkPic b KNRGBA (fun _ _ => Some c)).
Example C19_example :
  layer_At (fun _ => 0) (mkLayer [] (mkRect 3 4 9 9) MNormal false 155 (leaf ZR (CRGB 9 8 7))) 5 5 0
  = Some (CNRGBA64 (mk64 2313 2056 1799 25700), O).
Proof. vm_compute. reflexivity. Qed.

(** ** C23 *)
(** Which rule holds is decided by the group's colour model: exactly color.Palette has the
    rule of palettes (a palette with alpha does not). *)
Lemma palette_iff k : is_palette k = true <-> palette_model k.
Proof. unfold palette_model. destruct k; cbn; split; try discriminate; eauto; intros [? ?]; discriminate. Qed.
Lemma palette_not k : is_palette k = false <-> ~ palette_model k.
Proof. rewrite <- palette_iff. destruct (is_palette k); split; congruence. Qed.
Lemma palette_same k k' : (palette_model k <-> palette_model k') -> is_palette k = is_palette k'.
Proof. rewrite <- !palette_iff. destruct (is_palette k), (is_palette k'); intuition congruence. Qed.
Theorem C23_fold : forall rnd g x y n, ~ palette_model (image_ColorModel (IGroup g)) ->
  image_At rnd (IGroup g) x y n =
  fold_layers (over_rule rnd) rnd x y (bottom_up x y g) (Some (CAlpha 0, n)).
Proof. intros rnd g x y n H. apply palette_not in H. rewrite group_At_fold, H. reflexivity. Qed.
Print Assumptions C23_fold.
Theorem C23_fold_palette : forall rnd g x y n, palette_model (image_ColorModel (IGroup g)) ->
  image_At rnd (IGroup g) x y n =
  fold_layers (palette_rule rnd) rnd x y (bottom_up x y g) (Some (CAlpha 0, n)).
Proof. intros rnd g x y n H. apply palette_iff in H. rewrite group_At_fold, H. reflexivity. Qed.
Print Assumptions C23_fold_palette.
(** a layer that is hidden or does not contain the point could as well be absent *)
Theorem C23_unseen_layer : forall rnd g1 l g2 x y n,
  (palette_model (image_ColorModel (IGroup (g1 ++ l :: g2))) <-> palette_model (image_ColorModel (IGroup (g1 ++ g2)))) ->
  shown x y l = false ->
  image_At rnd (IGroup (g1 ++ l :: g2)) x y n = image_At rnd (IGroup (g1 ++ g2)) x y n.
Proof. intros rnd g1 l g2 x y n P. apply not_shown_no_effect, palette_same, P. Qed.
Print Assumptions C23_unseen_layer.
(** an opaque Normal layer hides everything below it (up to the position [k] in
    the stream of random draws, which hidden Dissolve layers still consume) *)
Theorem C23_opaque_hides : forall rnd above l below x y n,
  ~ palette_model (image_ColorModel (IGroup (above ++ [l]))) ->
  wf_image (IGroup below) -> wf_layer l -> lMode l = MNormal -> shown x y l = true ->
  (forall k, exists c k', layer_At rnd l x y k = Some (c, k') /\ cA (colourToNRGBA c) = 65535) ->
  exists k, image_At rnd (IGroup (above ++ l :: below)) x y n = image_At rnd (IGroup (above ++ [l])) x y k.
Proof. intros rnd above l below x y n P. apply opaque_hides, palette_not, P. Qed.
Print Assumptions C23_opaque_hides.
(** nested groups: a layer that is a group shows the group's own fold, at local
    coordinates, scaled by the layer's opacity *)
Theorem C23_nested : forall rnd nm b m v t g x y n,
  layer_At rnd (mkLayer nm b m v t (IGroup g)) x y n =
  match image_At rnd (IGroup g) (x - minX b) (y - minY b) n with
  | Some (c, k) => Some (transparency c (u8 (255 - t)), k) | None => None end.
Proof. intros. apply (layer_at_eq (mkLayer nm b m v t (IGroup g))). Qed.
Print Assumptions C23_nested.
(** any stack of any nesting: no panic, and a proper colour *)
Theorem C23_total : forall i, wf_image i -> forall rnd x y n,
  exists c k, image_At rnd i x y n = Some (c, k) /\ wf_color c.
Proof. exact image_layer_total. Qed.
Print Assumptions C23_total.
(** without Dissolve layers the result does not depend on random draws *)
Theorem C23_deterministic : forall i, no_dissolve i -> forall x y,
  exists o, forall rnd n, image_At rnd i x y n = option_map (fun c => (c, n)) o.
Proof. exact no_dissolve_det. Qed.
Print Assumptions C23_deterministic.
Definition C23_stack : list layer :=
  [mkLayer [] (mkRect 0 0 9 9) MMultiply false 100
     (IGroup [mkLayer [] (mkRect 1 1 5 5) MNormal false 0 (leaf ZR (CRGB 200 100 50))]);
   mkLayer [] (mkRect 0 0 9 9) MNormal true 0 (leaf ZR (CRGB 1 1 1));
   mkLayer [] (mkRect 2 2 4 4) MNormal false 0 (leaf ZR (CRGB 250 240 230));
   mkLayer [] (mkRect 0 0 9 9) MNormal false 9 (leaf ZR (CGray 77))].
Example C23_example : wf_image (IGroup C23_stack) /\ no_dissolve (IGroup C23_stack) /\
  map (fun l => lMode l) (bottom_up 3 3 C23_stack) = [MNormal; MNormal; MMultiply] /\
  image_At (fun _ => 0) (IGroup C23_stack) 3 3 0 = Some (CNRGBA64 (mk64 55826 39503 30837 65535), O) /\
  ~ palette_model (image_ColorModel (IGroup C23_stack)).
Proof.
  split; [|split; [|split; [vm_compute; reflexivity|split; [vm_compute; reflexivity|intros [? [=]]]]]].
  - cbn. unfold is_u8. repeat split; try lia; intros; eexists; (split; [reflexivity|]); cbn; unfold is_u8; lia.
  - cbn. repeat split; discriminate.
Qed.

(** ** C24 *)
Theorem C24_bounds_least : forall g,
  (forall l, In l g -> subset (lBounds l) (group_Bounds g)) /\
  (forall q, (forall l, In l g -> subset (lBounds l) q) -> subset (group_Bounds g) q) /\
  ((forall l, In l g -> is_empty (lBounds l)) -> is_empty (group_Bounds g)).
Proof. exact group_Bounds_least. Qed.
Print Assumptions C24_bounds_least.
Theorem C24_order_independent : forall g h, Permutation g h ->
  rEq (group_Bounds g) (group_Bounds h) = true.
Proof. exact group_Bounds_perm. Qed.
Print Assumptions C24_order_independent.
(** A layer by itself, used as an image, has the bounds of the image made of that layer
    alone, and so is what SubImage returns for it. *)
Theorem C24_layer : forall l x y,
  inside (image_Bounds (ILayer l)) x y <-> inside (image_Bounds (IGroup [l])) x y.
Proof.
  intros l x y. cbn [image_Bounds]. destruct (group_Bounds_least [l]) as (A & B & _). specialize (A l ltac:(now left)).
  specialize (B (lBounds l) ltac:(intros l' [<-|[]]; intros ? ?; auto)). split; auto.
Qed.
Print Assumptions C24_layer.
Example C24_example : group_Bounds C23_stack = mkRect 0 0 9 9.
Proof. reflexivity. Qed.

(** ** C25: false for a sub-rectangle that cuts off the left or the top: it shows
    other pixels of the layer. *)
Definition ramp : image := ILeaf (mkPic (mkRect 0 0 9 9) KGray (fun x _ => Some (CGray x))).
Theorem C25_layer_subimage_refuted : exists l r x y,
  inside r x y /\ inside (lBounds l) x y /\
  layer_At (fun _ => 0) (subImageLayer l r) x y 0 <> layer_At (fun _ => 0) l x y 0 /\
  image_At (fun _ => 0) (IGroup (image_SubImage [l] r)) x y 0 <> image_At (fun _ => 0) (IGroup [l]) x y 0.
Proof.
  exists (mkLayer [] (mkRect 0 0 9 9) MNormal false 0 ramp), (mkRect 2 2 5 5), 3, 3.
  unfold inside; cbn. split; [lia|]. split; [lia|]. vm_compute. split; discriminate.
Qed.
Print Assumptions C25_layer_subimage_refuted.
(** exactly what it shows: the layer shifted by what was cut off *)
Theorem C25_layer_subimage_shifts : forall l r rnd x y n, rempty (intersect r (lBounds l)) = false ->
  layer_At rnd (subImageLayer l r) x y n =
  layer_At rnd l (x - Z.max 0 (minX r - minX (lBounds l))) (y - Z.max 0 (minY r - minY (lBounds l))) n.
Proof. exact sub_layer_at. Qed.
Print Assumptions C25_layer_subimage_shifts.
(** What holds: the bounds are right, outside r nothing is shown, and inside r
    the colour is kept where every visible layer at the point keeps its origin.
    Missing: layers that lose their left or top part (refuted above). *)
Theorem C25_subimage_partial : forall g r rnd x y n,
  (~ inside r x y -> image_At rnd (IGroup (image_SubImage g r)) x y n = Some (CAlpha 0, n)) /\
  (inside r x y ->
   (forall l, In l g -> lInvisible l = false -> inside (lBounds l) x y ->
      minX r <= minX (lBounds l) /\ minY r <= minY (lBounds l)) ->
   image_At rnd (IGroup (image_SubImage g r)) x y n = image_At rnd (IGroup g) x y n).
Proof. intros. split; [apply sub_outside|apply sub_image_at]. Qed.
Print Assumptions C25_subimage_partial.
Theorem C25_bounds : forall l r x y,
  (inside (lBounds (subImageLayer l r)) x y <-> inside r x y /\ inside (lBounds l) x y) /\
  (inside (image_Bounds (ILayer (subImageLayer l r))) x y <-> inside r x y /\ inside (image_Bounds (ILayer l)) x y).
Proof. split; apply sub_layer_bounds. Qed.
Print Assumptions C25_bounds.
Example C25_example : let r := mkRect 0 0 4 4 in inside r 3 3 /\
  forall l, In l C23_stack -> lInvisible l = false -> inside (lBounds l) 3 3 ->
    minX r <= minX (lBounds l) /\ minY r <= minY (lBounds l).
Proof.
  cbv zeta. split; [unfold inside; cbn; lia|].
  intros l H _ _. repeat (destruct H as [<-|H]; [cbn; lia|]). destruct H.
Qed.
