(** C89: what is loaded with DecodeCompressed is drawn and saved like what is loaded with Decode. *)
From Coq Require Import ZifyBool ZifyNat.
Require Import Verif.Base Verif.L_List Verif.M_Color Verif.S_Color Verif.L_Word Verif.L_Pix Verif.M_Composite Verif.M_Rect Verif.S_Rect Verif.M_Image Verif.S_Image Verif.L_Image
  Verif.M_Reader Verif.M_Monad Verif.M_Rle Verif.M_Decode Verif.M_Encode Verif.L_Calls Verif.S_File Verif.S_Props Verif.S_Compressed Verif.S_Kinds Verif.S_Meaning Verif.S_Whole
  Verif.P_Panics Verif.L_Readable Verif.L_Resave Verif.P_Whole Verif.S_Alike Verif.L_Alike.
Require Verif.S_Groups Verif.P_Accept.

(** Alike images (the same layers, with pictures of the same colours inside their bounds; an opaque
    colour may be an RGB in one and an NRGBA in the other, or a Gray and a GrayAlpha) show the same colour at every point,
    after the same number of random draws, or both panic: if the layers are not larger than the
    pictures in them. *)
Theorem C89_shows rnd i i' x y n : alike i i' -> covered i -> grouped i = true \/ inside (image_Bounds i) x y ->
  match image_At rnd i x y n, image_At rnd i' x y n with
  | Some (c, k), Some (c', k') => same_shade c c' /\ k' = k
  | None, None => True
  | _, _ => False
  end.
Proof.
  intros A C I. pose proof (proj1 (alike_at rnd) _ _ A C x y n I) as S. destruct (image_At rnd i x y n) as [[c k]|], (image_At rnd i' x y n) as [[c' k']|]; try contradiction; [|exact S].
  destruct S as [S ->]. auto.
Qed.
Print Assumptions C89_shows.

(** Encode of alike images: the same calls of WriteAt, the same error, for every destination. *)
Theorem C89_saves wr rnd wtext i i' : alike i i' -> covered i -> encode wr rnd wtext i' = encode wr rnd wtext i.
Proof.
  intros A C. unfold encode.
  enough (S : same_run (encodeW wr rnd wtext i) (encodeW wr rnd wtext i')) by (now rewrite (S (mkW [] 0 None 0))).
  set (j := match i with ILayer l => IGroup [l] | i => i end). set (j' := match i' with ILayer l => IGroup [l] | i' => i' end).
  assert (AJ : alike j j' /\ covered j).
  { unfold j, j'. destruct A; try (split; [constructor; assumption|exact C]). split; [constructor; constructor; [assumption|constructor]|]. split; [exact C|exact I]. }
  destruct AJ as [AJ CJ]. unfold encodeW. fold j j'. cbv zeta. rewrite (proj1 alike_bounds _ _ AJ). pose proof (same_type _ _ (proj1 alike_model _ _ AJ)) as ST.
  destruct (colour_type (image_ColorModel j)) as [[ct f] pal]. destruct (colour_type (image_ColorModel j')) as [[ct' f'] pal']. destruct ST as (-> & SF & SP).
  do 4 (apply same_bind; [apply same_run_refl|intros ?]).
  apply same_bind; [destruct pal, pal'; try contradiction; [now apply same_writePalette|apply same_run_refl]|intros ?].
  do 5 (apply same_bind; [apply same_run_refl|intros ?]).
  assert (L : forall pw, match j with IGroup _ => False | _ => True end ->
    same_run (writeLayer wr rnd wtext f ct (mkLayer [] ZR MNormal false 0 j) 0 0 [] pw ~; skipW) (writeLayer wr rnd wtext f' ct (mkLayer [] ZR MNormal false 0 j') 0 0 [] pw ~; skipW)).
  { intros pw _. apply same_bind; [|intros ?; apply same_run_refl]. apply same_layer; [now constructor| |exact SF]. split; [exact CJ|]. right. intros x y [H _]. cbn in H. lia. }
  clearbody j j'. pose proof (proj1 alike_count _ _ AJ) as N.
  destruct j as [p|g|k mk|k tx|l], j' as [p'|g'|k' mk'|k' tx'|l']; try contradiction;
    try (apply same_bind; [apply same_run_refl|intros ?]; apply same_bind; [apply same_run_refl|intros ?]; now apply L).
  rewrite N. apply same_bind; [apply same_run_refl|intros ?]. apply same_bind; [apply same_run_refl|intros ?]. apply same_bind; [|intros ?; apply same_run_refl].
  inversion AJ. subst. now apply same_layer.
Qed.
Print Assumptions C89_saves.

(** ** What is loaded *)
Lemma typed_shade mode c c' v : of_type mode c -> wf_color c -> straight c = v -> of_type mode c' -> wf_color c' -> straight c' = v -> same_shade c c'.
Proof.
  intros O W <- O' W' E. destruct c, c'; cbn in O, O', W, W', E; try contradiction; try lia; injection E as; subst; try constructor; tauto.
Qed.
Lemma described_alike pal canvas F : forall ox oy ls ls', maskless F -> described true pal canvas ox oy F ls -> described false pal canvas ox oy F ls' ->
  alike_layers ls ls' /\ covered (IGroup ls) /\ image_ColorModel (IGroup ls') = image_ColorModel (IGroup ls).
Proof.
  induction F as [|r D F IH|r D kids F IHk IH] using df_ind; intros ox oy ls ls' M S S'; cbn [described] in S, S'; [subst; split; [constructor|split; [exact I|reflexivity]]| |];
    cbn [maskless] in M; destruct M as [MD M];
    destruct S as (l & rest & -> & E1 & E2 & E3 & E4 & E5 & E6 & S); destruct S' as (l' & rest' & -> & E1' & E2' & E3' & E4' & E5' & E6' & S');
    destruct (IH _ _ _ _ M S S') as (A & C & _); destruct l as [n b m v t i], l' as [n' b' m' v' t' i']; cbn [lName lBounds lMode lInvisible lTransparency lImage] in *;
    assert (HD : n' = n /\ b' = b /\ m' = m /\ v' = v /\ t' = t) by (repeat split; congruence); destruct HD as (-> & -> & -> & -> & ->).
  - destruct E6 as (j & (pc & PB & PM & TY & SH & ->) & MK), E6' as (j' & (pc' & PB' & PM' & TY' & SH' & ->) & MK').
    unfold masked in MK, MK'. rewrite MD in MK, MK'. subst i i'.
    assert (AP : alike_pic pc pc').
    { split; [congruence|]. split; [rewrite PM, PM'; constructor|]. rewrite PB. intros x y (Ix & Iy). cbn [minX minY maxX maxY] in Ix, Iy. specialize (SH x y). specialize (SH' x y).
      replace ((0 <=? x) && (x <? ldW D) && (0 <=? y) && (y <? ldH D)) with true in SH, SH' by lia.
      specialize (TY x y). specialize (TY' x y). unfold shown_as in SH, SH'. destruct (meant (ldType D) pal (fun k => ldPx D k x y)) as [q|].
      - destruct SH as (c & EC & _), SH' as (c' & EC' & _). rewrite EC, EC'. cbn [same_view].
        destruct (TY c Ix Iy EC) as (O & W & V), (TY' c' Ix Iy EC') as (O' & W' & V'). eapply typed_shade; eauto.
      - rewrite SH, SH'. exact I. }
    split.
    + constructor; [|exact A]. constructor. destruct (ldText D); repeat constructor; apply AP.
    + split; [|cbn; destruct (ldText D); cbn; congruence]. split; [|exact C]. cbn [covered_layer]. split; [destruct (ldText D); exact I|]. right. intros x y J. rewrite E2 in *. apply placed_inside in J.
      destruct (ldText D); cbn [image_Bounds]; rewrite PB; exact J.
  - destruct E6 as (g & SK & MK), E6' as (g' & SK' & MK'). destruct MD as [MD MK0]. unfold masked in MK, MK'. rewrite MD in MK, MK'. subst i i'.
    destruct (IHk _ _ _ _ MK0 SK SK') as (AK & CK & EK). split.
    + constructor; [|exact A]. now do 2 constructor.
    + split; [|exact EK]. split; [|exact C]. split; [exact CK|now left].
Qed.
Lemma alike_rev g g' : alike_layers g g' -> forall h h', alike_layers h h' -> alike_layers (rev_append g h) (rev_append g' h').
Proof. induction 1 as [|l l' g g' L _ IH]; intros h h' H; cbn [rev_append]; [exact H|]. apply IH. now constructor. Qed.
Lemma alike_bottom g g' : alike_layers g g' -> alike_layers (S_Groups.bottom_normal g) (S_Groups.bottom_normal g').
Proof.
  intros A. unfold S_Groups.bottom_normal. pose proof (alike_rev _ _ A [] [] alike_nil) as R. rewrite <- !rev_alt in R.
  inversion R as [|l l' h h' L H E E']; [constructor|]. destruct L as [n b m v t i i' L]. rewrite !(rev_alt (_ :: _)). apply alike_rev; [|constructor]. now repeat constructor.
Qed.
Lemma bottom_model g : image_ColorModel (IGroup (S_Groups.bottom_normal g)) = image_ColorModel (IGroup g).
Proof.
  unfold S_Groups.bottom_normal. destruct (rev g) as [|[n b m v t i] r] eqn:E; apply (f_equal (@rev _)) in E; rewrite rev_involutive in E; subst g; [reflexivity|]. cbn [rev].
  destruct (rev r) as [|l q]; [reflexivity|]. now destruct l.
Qed.
Lemma covered_Forall g : covered (IGroup g) <-> Forall covered_layer g.
Proof. cbn [covered]. induction g as [|l g IH]; cbn [fold_right]; [split; constructor|]. rewrite IH. split; [intros []; now constructor|intros H; inversion H; auto]. Qed.
Lemma covered_bottom g : covered (IGroup g) -> covered (IGroup (S_Groups.bottom_normal g)).
Proof.
  rewrite !covered_Forall. intros F. unfold S_Groups.bottom_normal. apply Forall_rev in F. destruct (rev g) as [|[n b m v t i] r]; [constructor|]. apply Forall_rev.
  inversion F as [|? ? R F']. subst. constructor; assumption.
Qed.
Lemma maskless_ok dec F : maskless F -> masks_ok dec F.
Proof.
  induction F as [|r D F IH|r D kids F IHk IH] using df_ind; cbn [maskless masks_ok]; [auto| |].
  - intros [M R]. split; [congruence|auto].
  - intros [[M K] R]. auto.
Qed.
(** Every file of a layered image without masks, of any of the three base types, run length coded:
    Decode and DecodeCompressed both load it.  The two images are drawn alike at every point (with
    any random draws), and Encode makes of the one what it makes of the other. *)
Theorem C89_loaded f n w h base pal F fuel f32op ptext :
  file_of (fun z => u8 (f32op z)) (modes_read base) ptext f n w h base pal F -> 4294967296 <= Z.of_nat fuel -> maskless F ->
  exists ls ls', decode fuel f f32op ptext = Ret (inr ls) /\ decodeCompressed fuel f f32op ptext = Ret (inr ls') /\
    image_Bounds (IGroup ls') = image_Bounds (IGroup ls) /\ image_ColorModel (IGroup ls') = image_ColorModel (IGroup ls) /\
    (forall rnd x y k, match image_At rnd (IGroup ls) x y k, image_At rnd (IGroup ls') x y k with
      | Some (c, k1), Some (c', k2) => same_shade c c' /\ k2 = k1
      | None, None => True
      | _, _ => False
      end) /\
    (forall wr rnd wtext, encode wr rnd wtext (IGroup ls') = encode wr rnd wtext (IGroup ls)).
Proof.
  intros FO HF M. destruct (C80_partial f n w h base pal F fuel f32op ptext true FO (maskless_ok _ _ M) HF) as (ls & DS & DX).
  destruct (C80_partial f n w h base pal F fuel f32op ptext false FO (maskless_ok _ _ M) HF) as (ls' & DS' & DX').
  destruct (described_alike _ _ _ _ _ _ _ M DS DS') as (A & C & K). apply alike_bottom in A. apply covered_bottom in C.
  assert (AG : alike (IGroup (S_Groups.bottom_normal ls)) (IGroup (S_Groups.bottom_normal ls'))) by now constructor.
  exists (S_Groups.bottom_normal ls), (S_Groups.bottom_normal ls'). split; [exact DX|]. split; [exact DX'|].
  split; [now apply alike_bounds|]. split; [now rewrite !bottom_model|]. split.
  - intros rnd x y k. apply C89_shows; [exact AG|exact C|now left].
  - intros wr rnd wtext. now apply C89_saves.
Qed.
Print Assumptions C89_loaded.
Example C89_ex : file_of (fun z => u8 z) (modes_read 1) P_Accept.no_text (small 0 0 1) 0 2 1 1 [] (small_tree 0 0 1) /\ maskless (small_tree 0 0 1).
Proof. split; [apply small_file; lia|]. cbn. auto. Qed.

(** alike images: an RGB and an NRGBA picture *)
Definition red (c : color) : image := IGroup [mkLayer [97] (mkRect 0 0 1 1) MMultiply false 5 (ILeaf (mkPic (mkRect 0 0 1 1) (KPalette [CRGB 9 8 7]) (fun _ _ => Some c)))].
Example C89_alike_ex : alike (red (CRGB 9 8 7)) (red (CNRGBA 9 8 7 255)) /\ covered (red (CRGB 9 8 7)).
Proof.
  split; [|cbn; repeat split; auto; right; intros x y; unfold inside; cbn; lia].
  constructor. constructor; [|constructor]. constructor. constructor. split; [reflexivity|]. split; [constructor|]. intros x y _. apply shade_left; unfold is_u8; lia.
Qed.
Lemma differ (o o' : option (option err * list call)) :
  match o, o' with Some (_, a), Some (_, b) => if list_eq_dec Z.eq_dec (flat_map cReq a) (flat_map cReq b) then true else false | _, _ => true end = false -> o <> o'.
Proof. intros E ->. destruct o' as [[e a]|]; [|discriminate]. destruct (list_eq_dec _ _ _); [discriminate|easy]. Qed.
(** Without the condition on the layers' sizes it is not so: a layer in a group that is larger than
    its picture, two pictures alike that differ outside their bounds. *)
Definition wide (v : Z) : image := IGroup [mkLayer [97] (mkRect 0 0 2 1) MNormal false 0 (IGroup [mkLayer [98] (mkRect 0 0 2 1) MNormal false 0
  (ILeaf (mkPic (mkRect 0 0 1 1) KNRGBA (fun x _ => Some (CNRGBA (if x =? 0 then 7 else v) 2 3 255))))])].
Example C89_covered_ex : alike (wide 0) (wide 1) /\
  encode (fun _ _ p => (zlen p, None)) (fun _ => 0) (fun _ _ _ => None) (wide 1) <> encode (fun _ _ p => (zlen p, None)) (fun _ => 0) (fun _ _ _ => None) (wide 0).
Proof.
  split.
  - constructor. constructor; [|constructor]. constructor. constructor. constructor; [|constructor]. constructor. constructor. split; [reflexivity|]. split; [constructor|]. intros x y [X _]. cbn in X. cbn [picAt]. replace (x =? 0) with true by lia. constructor.
  - apply differ. vm_compute. reflexivity.
Qed.
