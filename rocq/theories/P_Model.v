(** C81: the colour model of a layered image. *)
From Coq Require Import ZifyBool.
Require Import Verif.Base Verif.M_Color Verif.M_Composite Verif.M_Rect Verif.M_Image Verif.L_Image Verif.M_Reader Verif.M_Monad Verif.M_Decode Verif.M_Encode
  Verif.S_Encode Verif.L_Emit Verif.S_Linked Verif.L_Layout Verif.L_Linked Verif.L_Run Verif.L_Trip Verif.L_Trip2 Verif.L_Trip3 Verif.S_String Verif.S_Layout Verif.S_Tree Verif.L_Trip4 Verif.S_Trip Verif.L_Trip5 Verif.S_Model Verif.P_Image Verif.P_Layout Verif.P_Trip.
Require Verif.S_Groups Verif.L_Groups Verif.L_Trip6.

(** ** which model it is *)
Lemma front_model : forall i, front i (image_ColorModel i).
Proof.
  fix IH 1. intros [p|[|[n b m v t im] g]|i m|i t|[n b m v t im]]; cbn [image_ColorModel].
  - constructor.
  - constructor.
  - apply fr_group. exact (IH im).
  - apply fr_masked, IH.
  - apply fr_text, IH.
  - apply fr_layer. exact (IH im).
Qed.
Theorem C81_front : (forall i k, front i k <-> image_ColorModel i = k).
Proof.
  intros i k. split.
  - induction 1 as [p| |l g k F IH|i m k F IH|i t k F IH|l k F IH]; cbn; auto; destruct l; exact IH.
  - intros <-. apply front_model.
Qed.
Print Assumptions C81_front.
(** the empty image shows colours of its model everywhere *)
Theorem C81_empty rnd x y n : image_At rnd (IGroup []) x y n = Some (CAlpha 0, n) /\ honest (IGroup []).
Proof. split; [reflexivity|]. intros r a b m c m' E. injection E as <- _. cbn. auto. Qed.
Print Assumptions C81_empty.

(** ** Only the front counts: whatever an image shows, it shows with the colour model of any layer
    put in front of it, even one that is hidden or elsewhere (unless that changes whether it is
    composited as a palette image). *)
Theorem C81_unseen rnd l g x y n k : front (lImage l) k -> (S_Image.palette_model k <-> S_Image.palette_model (image_ColorModel (IGroup g))) -> S_Image.shown x y l = false ->
  image_ColorModel (IGroup (l :: g)) = k /\ image_At rnd (IGroup (l :: g)) x y n = image_At rnd (IGroup g) x y n.
Proof.
  intros F P S. pose proof (proj1 (C81_front _ _) (fr_group l g k F)) as E. split; [exact E|].
  apply (C23_unseen_layer rnd [] l g); [|exact S]. cbn [app]. now rewrite E.
Qed.
Print Assumptions C81_unseen.
Definition dot (k : cmodel) (c : color) : image := ILeaf (mkPic (mkRect 0 0 1 1) k (fun _ _ => Some c)).
Definition red : layer := mkLayer [114] (mkRect 0 0 1 1) MNormal false 0 (dot KNRGBA (CNRGBA 255 0 0 255)).
Definition hidden (k : cmodel) : layer := mkLayer [104] (mkRect 0 0 1 1) MNormal true 0 (dot k (CGray 0)).
Example C81_unseen_ex : front (lImage (hidden KGray)) KGray /\ ~ S_Image.palette_model KGray /\ ~ S_Image.palette_model (image_ColorModel (IGroup [red])) /\ S_Image.shown 0 0 (hidden KGray) = false /\
  image_At (fun _ => 0) (IGroup [red]) 0 0 0 = Some (CNRGBA64 (mk64 65535 0 0 65535), O).
Proof. split; [constructor|]. split; [intros [? [=]]|]. split; [intros [? [=]]|]. split; reflexivity. Qed.
Theorem C81_refuted : exists i, image_ColorModel i = KGray /\ ~ honest i.
Proof.
  exists (IGroup [hidden KGray; red]). split; [reflexivity|]. intros H.
  specialize (H (fun _ => 0) 0 0 O (CNRGBA64 (mk64 65535 0 0 65535)) O eq_refl). vm_compute in H. destruct H as [H _]. discriminate.
Qed.
Print Assumptions C81_refuted.
(** a hidden palette image in front changes what is seen of the others *)
Definition veil : layer := mkLayer [118] (mkRect 0 0 1 1) MNormal false 200 (dot KNRGBA (CNRGBA 0 0 255 255)).
Theorem C81_hidden_refuted : exists l g, lInvisible l = true /\
  image_At (fun _ => 0) (IGroup (l :: g)) 0 0 0 <> image_At (fun _ => 0) (IGroup g) 0 0 0.
Proof. exists (hidden (KPalette [CGray 0])), [veil; red]. split; [reflexivity|]. vm_compute. discriminate. Qed.
Print Assumptions C81_hidden_refuted.

(** ** A file has the colours of the front layer's model: with a grey picture in front every
    layer of the image comes back grey *)
Lemma converted_grey k c c' : base_type k = 1 -> converted k c = Some c' -> grey (color_RGBA c').
Proof.
  intros B E. assert (X : exists y a, c' = CGrayAlpha y a).
  { destruct k; cbn in B; try discriminate; cbn [converted] in E; destruct (grayAlphaModel c) as [y a]; injection E as <-; eauto. }
  destruct X as (y & a & ->). split; reflexivity.
Qed.
Scheme kept_layer_mut := Minimality for kept_layer Sort Prop
  with kept_image_mut := Minimality for kept_image Sort Prop
  with kept_layers_mut := Minimality for kept_layers Sort Prop.
Lemma same_grey rnd k i p : base_type k = 1 -> same_pixels rnd k i p -> grey_pic p.
Proof.
  intros B (EB & _ & P) x y c X Y E. rewrite EB in X, Y. cbn [minX minY maxX maxY] in X, Y.
  destruct (P x y X Y) as (c0 & m & m' & _ & Q). rewrite Q in E. exact (converted_grey k c0 c B E).
Qed.
Lemma kept_grey rnd wr rd k g g' : base_type k = 1 -> kept_layers rnd wr rd k g g' -> forall p l, In l g' -> pic_in p (lImage l) -> grey_pic p.
Proof.
  intros B. apply (kept_layers_mut rnd wr rd k (fun _ l => forall p, pic_in p (lImage l) -> grey_pic p) (fun _ _ i => forall p, pic_in p i -> grey_pic p)
    (fun _ g => forall p l, In l g -> pic_in p (lImage l) -> grey_pic p)).
  - intros n b b' m v t i i' _ _ IH p. exact (IH p).
  - intros _ g0 g1 _ IH p H. inversion H; subst. eauto.
  - intros _ i p _ SP p' H. inversion H; subst. eapply same_grey; eauto.
  - intros _ i m p m' SP _ p' H. inversion H as [| |? ? ? H'| |]; subst. inversion H'; subst. eapply same_grey; eauto.
  - intros _ i t p data t' _ SP _ _ p' H. inversion H as [| | |? ? ? H'|]; subst. inversion H'; subst. eapply same_grey; eauto.
  - intros p l [].
  - intros l l' g0 g1 _ IH1 _ IH2 p x [<-|I]; eauto.
Qed.
Lemma bottom_in l g : In l (S_Groups.bottom_normal g) -> exists l', In l' g /\ lImage l' = lImage l.
Proof.
  unfold S_Groups.bottom_normal. destruct (rev g) as [|[n b m v t i] r] eqn:E; [easy|].
  assert (EG : g = rev r ++ [mkLayer n b m v t i]) by (rewrite <- (rev_involutive g), E; reflexivity).
  cbn [rev]. intros I. apply in_app_or in I as [I|[<-|[]]]; rewrite EG.
  - exists l. split; [apply in_or_app; now left|reflexivity].
  - eexists. split; [apply in_or_app; right; left; reflexivity|reflexivity].
Qed.
Theorem C81_grey_file wr rnd wtext ptext dc i g e calls : faultless wr -> layered i g ->
  encode wr rnd wtext i = Some (e, calls) -> encodable i ->
  let k := image_ColorModel (IGroup g) in let W := dx (group_Bounds g) in let H := dy (group_Bounds g) in
  0 <= W < 4294967296 -> 0 <= H < 4294967296 -> zlen g <= 55296 ->
  good_layers wtext (read_text ptext) k dc W H g 0 0 ->
  (k = KGray \/ k = KGray16 \/ k = KGrayAlpha) ->
  exists f, (forall a, S_Linked.stored (map landed calls) a = znth f a) /\
    forall fuel f32op, 4294967296 <= Z.of_nat fuel -> zlen f < 16777216 ->
    exists ls, decodeImage fuel f f32op ptext dc = Ret (inr ls) /\
      forall p l, In l ls -> pic_in p (lImage l) -> grey_pic p.
Proof.
  intros FL LY E EN k W H RW RH LG GL K.
  destruct (C36_round_trip_partial wr rnd wtext ptext dc i g e calls FL LY E EN RW RH LG GL) as (_ & f & ST & D).
  exists f. split; [exact ST|]. intros fuel f32op HF ZF. destruct (D fuel f32op HF) as [D1 _]. destruct (D1 ZF) as (g' & KL & DE).
  exists (S_Groups.bottom_normal g'). split; [exact DE|]. intros p l I PI.
  destruct (bottom_in l g' I) as (l' & I' & EI). rewrite <- EI in PI.
  eapply (kept_grey _ _ _ k); [|exact KL|exact I'|exact PI]. destruct K as [-> | [-> | ->]]; reflexivity.
Qed.
Print Assumptions C81_grey_file.
Example C81_grey_file_ex : let g := [hidden KGray; red] in image_ColorModel (IGroup g) = KGray /\ group_Bounds g = mkRect 0 0 1 1 /\ encodable (IGroup g) /\
  good_layers (fun _ _ _ => None) (fun _ => None) KGray true 1 1 g 0 0 /\ image_At (fun _ => 0) (lImage red) 0 0 0 = Some (CNRGBA 255 0 0 255, O).
Proof.
  split; [reflexivity|]. split; [reflexivity|]. split; [cbn; unfold fits; repeat split; vm_compute; discriminate || reflexivity|]. split; [|reflexivity].
  cbn [good_layers good_layer lBounds minX minY hidden red dot]. unfold word_sized, dx, dy, image_Bounds, mode_kept, base_type.
  cbn [picBounds grayBounds minX minY maxX maxY Z.eqb]. pose proof (ascii1 104 ltac:(lia)). pose proof (ascii1 114 ltac:(lia)).
  repeat match goal with |- _ /\ _ => split | |- In _ _ => cbn; tauto end; try assumption; try exact I; try reflexivity; try (vm_compute; discriminate); try (vm_compute; reflexivity); try (left; reflexivity); lia.
Qed.
