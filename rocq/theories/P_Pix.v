(** Property theorems: RGB, GrayAlpha and PalettedAlpha images (C20 - C22). *)
Require Import Verif.Base Verif.M_Color Verif.S_Color Verif.M_Rect Verif.S_Rect Verif.M_Pix Verif.S_Pix
  Verif.L_Rect Verif.L_Pix.

(** ** C20: any history of New, SubImage, Set, Get and Bounds calls on images of
    one type runs without a panic and gives the results of the specification, in
    which each New makes a map from points to pixels and each (sub-)image is a
    window on one. *)
Theorem C20_rgb_is_a_map : forall ops, Forall op_ok ops -> Forall (op_wf wf_color) ops ->
  option_map snd (prun rgb_step ([], []) ops) = Some (snd (spec_run (0, 0, 0) conv_rgb ([], []) ops)).
Proof. intros ops A B. destruct (rgb_refines ops A B) as (s & -> & _). reflexivity. Qed.
Print Assumptions C20_rgb_is_a_map.
Theorem C20_grayalpha_is_a_map : forall ops, Forall op_ok ops ->
  option_map snd (prun ga_step ([], []) ops) = Some (snd (spec_run (0, 0) conv_ga ([], []) ops)).
Proof. intros ops A. destruct (ga_refines ops A) as (s & -> & _). reflexivity. Qed.
Print Assumptions C20_grayalpha_is_a_map.
Theorem C20_palettedalpha_is_a_map : forall ops, Forall op_ok ops -> Forall (op_wf wf_color) ops ->
  option_map snd (prun pa_step ([], []) ops) = Some (snd (spec_run (0, 0) conv_pa ([], []) ops)).
Proof. intros ops A B. destruct (pa_refines ops A B) as (s & -> & _). reflexivity. Qed.
Print Assumptions C20_palettedalpha_is_a_map.
(** PalettedAlpha.At looks the stored index up in the palette; it panics exactly
    when the caller stored an index the palette does not have. *)
Theorem C20_palettedalpha_At : forall ops h vs outs i v, Forall op_ok ops -> Forall (op_wf wf_color) ops ->
  prun pa_step ([], []) ops = Some ((h, vs), outs) -> nth_error vs i = Some v ->
  forall x y, exists k a, pa_IndexAlphaAt h v x y = Some (k, a) /\
    pa_At h v x y = match znth (vPal v) k with
                    | Some e => Some (CNRGBA (u8 (pR (color_RGBA e) / 256)) (u8 (pG (color_RGBA e) / 256))
                                             (u8 (pB (color_RGBA e) / 256)) a)
                    | None => None end.
Proof. exact pa_at_ok. Qed.
Print Assumptions C20_palettedalpha_At.
(** New of any rectangle, also one with its corners the wrong way round: it panics exactly if one of
    the sides is negative and the other positive; else every pixel is zero, and the image has the
    bounds given. *)
Lemma new_get {P} (zero : P) h r n pal x y : 0 <= n -> n = dx r * dy r -> inside r x y ->
  slice_get (h ++ [repeat zero (Z.to_nat n)]) (mkView (length h) 0 n (dx r) r pal) ((y - minY r) * dx r + x - minX r) = Some zero.
Proof.
  intros N E [Ix Iy]. unfold slice_get, dx, dy in *. cbn [vLen vBuf vOff].
  assert (B : 0 <= (y - minY r) * (maxX r - minX r) + x - minX r < n) by nia.
  replace (_ || _) with false by lia. rewrite nth_error_app2, Nat.sub_diag by lia. cbn [nth_error obind]. unfold znth. replace (_ <? 0) with false by lia.
  apply nth_error_repeat. lia.
Qed.
Theorem C20_new h2 h3 r pal :
  let crossed := (minX r < maxX r /\ maxY r < minY r) \/ (maxX r < minX r /\ minY r < maxY r) in
  match rgb_New h3 r with None => crossed | Some (h, v) => ~ crossed /\ vRect v = r /\ forall x y, rgb_At h v x y = Some (0, 0, 0) end /\
  match ga_New h2 r with None => crossed | Some (h, v) => ~ crossed /\ vRect v = r /\ forall x y, ga_At h v x y = Some (0, 0) end /\
  match pa_New h2 r pal with None => crossed | Some (h, v) => ~ crossed /\ vRect v = r /\ vPal v = pal /\ forall x y, pa_IndexAlphaAt h v x y = Some (0, 0) end.
Proof.
  cbv zeta. unfold rgb_New, ga_New, pa_New, make_slice.
  assert (C : dx r * dy r < 0 <-> (minX r < maxX r /\ maxY r < minY r) \/ (maxX r < minX r /\ minY r < maxY r)) by (rewrite Z.lt_mul_0; unfold dx, dy; lia).
  destruct (Z.ltb_spec (dx r * dy r) 0) as [N|N]; cbn [obind]; [tauto|].
  repeat match goal with |- _ /\ _ => split end; try reflexivity; try (rewrite <- C; lia); intros x y.
  1: unfold rgb_At. 2: unfold ga_At. 3: unfold pa_IndexAlphaAt.
  all: cbn [vRect]; destruct (pin x y r) eqn:P; cbn [negb]; [|reflexivity]; apply pin_spec in P.
  - now apply new_get.
  - now apply new_get.
  - unfold pa_PixOffset. cbn [vRect vStride]. rewrite Z.mul_1_r, Z.add_sub_assoc. now apply new_get.
Qed.
Print Assumptions C20_new.
Example C20_new_ex : rgb_New [] (mkRect 0 0 3 (-1)) = None /\ ga_New [] (mkRect 2 1 0 0) <> None /\ pa_New [] (mkRect 0 0 2 1) [] = Some ([[(0, 0); (0, 0)]], mkView 0 0 2 2 (mkRect 0 0 2 1) []).
Proof. repeat split; discriminate. Qed.
(** a 4x3 image with a negative origin, a nested sub-image, overlapping writes *)
Definition C20_history : list (pixop px3) :=
  [ONew (mkRect (-2) (-1) 2 2) []; OSub 0 (mkRect (-1) 0 9 9); OSub 1 (mkRect 0 0 1 1);
   OSetPix 2 0 0 (7, 8, 9); OGet 0 0 0; OGet 1 0 0; OSetPix 0 (-1) 0 (1, 1, 1); OGet 1 (-1) 0; OGet 2 (-1) 0;
   OSet 1 5 5 (CRGB 1 2 3); OSet 1 1 1 (CGray 200); OGet 0 1 1; OBounds 1].
Example C20_example : Forall op_ok C20_history /\ Forall (op_wf wf_color) C20_history /\
  option_map snd (prun rgb_step ([], []) C20_history) =
  Some [RNone; RNone; RNone; RNone; RPix (7, 8, 9); RPix (7, 8, 9); RNone; RPix (1, 1, 1); RPix (0, 0, 0);
        RNone; RNone; RPix (200, 200, 200); RRect (mkRect (-1) 0 2 2)].
Proof.
  split; [|split; [|vm_compute; reflexivity]];
    repeat (apply Forall_cons; [cbn; unfold is_u8; try lia|]); try apply Forall_nil.
Qed.

(** ** C21: SubImage of any image reached by any history is a shared view. *)
Theorem C21_rgb_subimage_shared : forall ops h vs outs i v, Forall op_ok ops -> Forall (op_wf wf_color) ops ->
  prun rgb_step ([], []) ops = Some ((h, vs), outs) -> nth_error vs i = Some v ->
  shared_view rgb_At rgb_SetRGB rgb_SubImage v.
Proof. exact rgb_sub_shared. Qed.
Print Assumptions C21_rgb_subimage_shared.
Theorem C21_grayalpha_subimage_shared : forall ops h vs outs i v, Forall op_ok ops ->
  prun ga_step ([], []) ops = Some ((h, vs), outs) -> nth_error vs i = Some v ->
  shared_view ga_At ga_SetGrayAlpha ga_SubImage v.
Proof. exact ga_sub_shared. Qed.
Print Assumptions C21_grayalpha_subimage_shared.
Theorem C21_palettedalpha_subimage_shared : forall ops h vs outs i v, Forall op_ok ops -> Forall (op_wf wf_color) ops ->
  prun pa_step ([], []) ops = Some ((h, vs), outs) -> nth_error vs i = Some v ->
  shared_view pa_IndexAlphaAt pa_SetIndexAlpha pa_SubImage v /\
  forall r u, pa_SubImage v r = Some u -> rempty (vRect u) = false -> vPal u = vPal v.
Proof. exact pa_sub_shared. Qed.
Print Assumptions C21_palettedalpha_subimage_shared.
Example C21_example : exists h vs outs v, prun rgb_step ([], []) C20_history = Some ((h, vs), outs) /\
  nth_error vs 1 = Some v /\ exists u, rgb_SubImage v (mkRect 0 (-5) 5 1) = Some u /\ vRect u = mkRect 0 0 2 1.
Proof.
  destruct (prun rgb_step ([], []) C20_history) as [[[h vs] outs]|] eqn:E; vm_compute in E; [|discriminate].
  injection E as <- <- <-. eexists _, _, _, _. split; [reflexivity|]. split; [reflexivity|].
  eexists. split; vm_compute; reflexivity.
Qed.

(** ** C22.  RGB is right: its pixels always have full alpha. *)
Theorem C22_rgb_opaque : forall h v,
  rgb_Opaque h v = true <->
  forall x y r g b, rgb_At h v x y = Some (r, g, b) -> pA (color_RGBA (CRGB r g b)) = 65535.
Proof. intros h v. split; reflexivity. Qed.
Print Assumptions C22_rgb_opaque.
(** GrayAlpha is wrong for sub-images: an image of opaque pixels is not Opaque
    because of a pixel of the parent outside the sub-image. *)
Definition C22_ga_history : list (pixop px2) :=
  [ONew (mkRect 0 0 2 1) []; OSetPix 0 0 0 (9, 255); OSub 0 (mkRect 0 0 1 1)].
Theorem C22_grayalpha_opaque_refuted : exists ops h vs outs i v, Forall op_ok ops /\
  prun ga_step ([], []) ops = Some ((h, vs), outs) /\ nth_error vs i = Some v /\
  all_opaque (ga_At h v) (vRect v) /\ ga_Opaque h v = false.
Proof.
  exists C22_ga_history, [[(9, 255); (0, 0)]],
    [mkView 0 0 2 2 (mkRect 0 0 2 1) []; mkView 0 0 2 2 (mkRect 0 0 1 1) []], [RNone; RNone; RNone], 1%nat,
    (mkView 0 0 2 2 (mkRect 0 0 1 1) []).
  split; [repeat (apply Forall_cons; [cbn; try lia; exact I|]); apply Forall_nil|].
  split; [vm_compute; reflexivity|]. split; [reflexivity|]. split; [|vm_compute; reflexivity].
  intros x y [X Y]. cbn in X, Y. assert (x = 0) as -> by lia. assert (y = 0) as -> by lia.
  exists 9. vm_compute. reflexivity.
Qed.
Print Assumptions C22_grayalpha_opaque_refuted.
(** What holds: "true" is always right, and the answer is exact for images that
    own their whole buffer (New...).  Missing: exactness for sub-images. *)
Theorem C22_grayalpha_opaque_partial : forall ops h vs outs i v, Forall op_ok ops ->
  prun ga_step ([], []) ops = Some ((h, vs), outs) -> nth_error vs i = Some v ->
  (ga_Opaque h v = true -> all_opaque (ga_At h v) (vRect v)) /\
  (vOff v = 0 -> vLen v = dx (vRect v) * dy (vRect v) ->
   (ga_Opaque h v = true <-> all_opaque (ga_At h v) (vRect v))).
Proof. exact ga_opaque_true. Qed.
Print Assumptions C22_grayalpha_opaque_partial.
(** PalettedAlpha answers the opposite, on every whole image. *)
Theorem C22_palettedalpha_opaque_refuted : forall ops h vs outs i v, Forall op_ok ops -> Forall (op_wf wf_color) ops ->
  prun pa_step ([], []) ops = Some ((h, vs), outs) -> nth_error vs i = Some v ->
  vOff v = 0 -> vLen v = dx (vRect v) * dy (vRect v) ->
  (pa_Opaque h v = false <-> all_opaque (pa_IndexAlphaAt h v) (vRect v)).
Proof. exact pa_opaque_inverted. Qed.
Print Assumptions C22_palettedalpha_opaque_refuted.
Example C22_example : exists h vs outs v, prun ga_step ([], []) C22_ga_history = Some ((h, vs), outs) /\
  nth_error vs 0 = Some v /\ vOff v = 0 /\ vLen v = dx (vRect v) * dy (vRect v) /\ ga_Opaque h v = false.
Proof.
  destruct (prun ga_step ([], []) C22_ga_history) as [[[h vs] outs]|] eqn:E; vm_compute in E; [|discriminate].
  injection E as <- <- <-. eexists _, _, _, _. split; [reflexivity|]. split; [reflexivity|].
  vm_compute. auto.
Qed.
