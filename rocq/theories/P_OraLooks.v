(** C92: an image saved as OpenRaster looks the same when it is loaded. *)
From Coq Require Import ZifyBool ZifyNat QArith Qabs String.
Require Import Verif.Base Verif.M_Color Verif.S_Color Verif.M_Composite Verif.M_Rect Verif.S_Rect Verif.M_Image Verif.M_Groups Verif.M_Ora Verif.S_Ora Verif.S_OraLooks Verif.S_Alike
  Verif.L_List Verif.L_Word Verif.L_Groups Verif.L_Image Verif.L_Ora Verif.L_Ora2 Verif.L_Pix Verif.L_Alike Verif.P_Composite Verif.P_OraEnc.
Open Scope Z_scope.
Open Scope list_scope.

Scheme same_mut := Minimality for same Sort Prop with sames_mut := Minimality for sames Sort Prop.

(** what is seen: the same straight components and the same number of random draws *)
Definition drawn (o o' : option (color * nat)) : Prop :=
  match o, o' with Some (c, n), Some (c', n') => colourToNRGBA c' = colourToNRGBA c /\ n' = n | None, None => True | _, _ => False end.

Lemma kept_wide c : kept KNRGBA c -> wide (nrgbaModel c) = colourToNRGBA c.
Proof.
  destruct c; cbn [kept]; try contradiction.
  - intros (R & G & B & A). cbn [nrgbaModel wide colourToNRGBA]. unfold is_u8 in *. rewrite !rep8_eq by lia. unfold u16. rewrite !Z.mod_small by lia. reflexivity.
  - intros ->. reflexivity.
  - intros (R & G & B). rewrite (shade_nrgba _ _ (shade_left r g b R G B)), (shade_NRGBA _ _ (shade_left r g b R G B)).
    cbn [nrgbaModel wide colourToNRGBA]. unfold is_u8 in *. rewrite !rep8_eq by lia. unfold u16. rewrite !Z.mod_small by lia. reflexivity.
Qed.
Lemma see_transparency c c' a : colourToNRGBA c' = colourToNRGBA c -> colourToNRGBA (transparency c' a) = colourToNRGBA (transparency c a).
Proof. intros E. unfold transparency. destruct (a =? 255); [exact E|]. destruct (a =? 0); [reflexivity|]. now rewrite E. Qed.

Lemma lasting_layers g : lasting (mkLayer [] ZR MNormal false 0 (IGroup g)) <-> Forall lasting g.
Proof. cbn [lasting]. induction g as [|l g IH]; cbn [fold_right]; [split; constructor|]. rewrite IH. split; [intros []; now constructor|intros H; inversion H; auto]. Qed.

Section Look.
Variable L : libs.
Hypotheses (OK : libs_ok L) (PNG : png_ok L).
Variables w h : Z.

(** neither image has a palette *)
Lemma unpaletted : forall g, expressibles L w h g -> forall ds, sames L g ds -> Forall lasting g ->
  is_palette (image_ColorModel (IGroup g)) = false /\ is_palette (image_ColorModel (IGroup ds)) = false.
Proof.
  apply (expressibles_mut L w h
    (fun l => forall d, same L l d -> lasting l -> is_palette (image_ColorModel (lImage l)) = false /\ is_palette (image_ColorModel (lImage d)) = false)
    (fun g => forall ds, sames L g ds -> Forall lasting g -> is_palette (image_ColorModel (IGroup g)) = false /\ is_palette (image_ColorModel (IGroup ds)) = false)).
  - intros l x y NG _ _ _ _ _ _ d S La. inversion S as [? ? p _ P E|? ? g k E]; subst; [|rewrite E in NG; discriminate].
    rewrite E. cbn [image_ColorModel]. destruct l as [n b m v t i]. cbn [lImage] in *.
    assert (K : image_ColorModel i = KNRGBA \/ image_ColorModel i = KRGB) by (destruct i; try discriminate NG; exact (proj1 (proj2 (proj2 La)))).
    split; [destruct K as [-> | ->]; reflexivity|exact (png_colours L PNG _ _ P K)].
  - intros l g E _ _ _ _ _ IH d S La. inversion S as [? ? p NG|? ? g' k E1 E2 Ss]; subst; [rewrite E in NG; discriminate|].
    rewrite E in E1. injection E1 as <-. rewrite E, E2. apply IH; [exact Ss|]. destruct l as [n b m v t i]. cbn [lImage] in E. subst i. now apply lasting_layers.
  - intros ds S _. inversion S. split; reflexivity.
  - intros l g _ IHl _ _ ds S La. inversion S as [|? d ? k Sl Sg]; subst. inversion La as [|? ? L1 L2]; subst. specialize (IHl d Sl L1). destruct l, d. exact IHl.
Qed.

(** the layers read back show the same *)
Lemma looks : forall g, expressibles L w h g -> forall ds, sames L g ds -> Forall lasting g ->
  forall rnd x y n, layers_At rnd false x y n ds = layers_At rnd false x y n g.
Proof.
  apply (expressibles_mut L w h
    (fun l => forall d, same L l d -> lasting l -> forall rnd x y n, inside (lBounds l) x y -> drawn (layer_At rnd l x y n) (layer_At rnd d x y n))
    (fun g => forall ds, sames L g ds -> Forall lasting g -> forall rnd x y n, layers_At rnd false x y n ds = layers_At rnd false x y n g)).
  - intros l x0 y0 NG _ B X Y MX MY d S La rnd x y n I. inversion S as [? ? p _ P E _ EB _ _ ET|? ? g k E]; subst; [|rewrite E in NG; discriminate].
    destruct l as [nm b m v t i], d as [nm' b' m' v' t' i']. cbn [lImage lBounds lTransparency] in *. subst i' b' t' b. cbn [layer_At minX minY]. cbn [inside minX minY maxX maxY] in I.
    assert (K : minX (image_Bounds i) = 0 /\ minY (image_Bounds i) = 0 /\ (image_ColorModel i = KNRGBA \/ image_ColorModel i = KRGB) /\
             forall x y, inside (image_Bounds i) x y -> exists c, fixed i x y c /\ kept (image_ColorModel i) c) by (destruct i; try discriminate NG; exact La).
    clear La. destruct K as (CX & CY & K & V).
    assert (J : inside (image_Bounds i) (x - x0) (y - y0)) by (unfold inside, dx, dy in *; cbn [minX minY maxX maxY] in I; lia).
    destruct (V _ _ J) as (c & F & KC). rewrite F. cbn [obind fst snd image_At].
    assert (Q : exists c', picAt p (x - x0) (y - y0) = Some c' /\ colourToNRGBA c' = colourToNRGBA c).
    { destruct K as [K|K]; rewrite K in KC.
      - destruct (png_eight L PNG i p _ _ c P K J F) as (c' & A & C). rewrite CX, CY, !Z.sub_0_r in A. exists c'. split; [exact A|]. now rewrite C, kept_wide.
      - destruct (png_sixteen L PNG i p _ _ c P K J F) as (c' & A & C); [destruct c; cbn in KC; try contradiction; exact Logic.I|]. rewrite CX, CY, !Z.sub_0_r in A. now exists c'. }
    destruct Q as (c' & -> & C). cbn [obind fst snd drawn]. split; [now apply see_transparency|reflexivity].
  - intros l g E _ _ _ _ X IH d S La rnd x y n I. inversion S as [? ? p NG|? ? g' k E1 E2 Ss _ EB _ _ ET]; subst; [rewrite E in NG; discriminate|].
    rewrite E in E1. injection E1 as <-.
    destruct l as [nm b m v t i], d as [nm' b' m' v' t' i']. cbn [lImage lBounds lTransparency] in *. subst i i' b' t'. apply lasting_layers in La.
    cbn [layer_At]. rewrite !group_layers_At. destruct (unpaletted g X k Ss La) as [-> ->]. rewrite (IH k Ss La).
    destruct (layers_At rnd false _ _ n g) as [[c q]|]; cbn [obind drawn]; [split; reflexivity|exact Logic.I].
  - intros ds S _ rnd x y n. inversion S. reflexivity.
  - intros l g _ IHl _ IHg ds S La rnd x y n. inversion S as [|? d ? k Sl Sg]; subst. inversion La as [|? ? L1 L2]; subst. cbn [layers_At]. rewrite (IHg k Sg L2).
    destruct (layers_At rnd false x y n g) as [[c q]|]; [|reflexivity]. cbn [obind fst snd].
    assert (EV : lBounds d = lBounds l /\ lInvisible d = lInvisible l /\ lMode d = lMode l) by (inversion Sl; auto). destruct EV as (-> & -> & ->).
    destruct (lInvisible l); [reflexivity|]. destruct (pin x y (lBounds l)) eqn:Pn; cbn [negb]; [|reflexivity].
    assert (J : inside (lBounds l) x y) by (unfold pin in Pn; unfold inside; lia).
    specialize (IHl d Sl L1 rnd x y q J). destruct (layer_At rnd l x y q) as [[e r]|], (layer_At rnd d x y q) as [[e' r']|]; try contradiction; [|reflexivity].
    destruct IHl as [C ->]. cbn [obind fst snd]. unfold at_step. rewrite andb_false_r. unfold composite. now rewrite C.
Qed.
End Look.

(** Encode, then Decode: the image loaded has the same bounds and shows exactly the same colour at every
    point, with the same random draws for Dissolve.
    Missing from the full statement: what C56 says is lost (translucent layers, modes without a name in
    OpenRaster, layers left of or above the canvas, groups elsewhere), and pictures that do not start at
    (0,0), for they are drawn from (0,0) but saved from their corner; see the [_refuted] theorems.  Greys and
    palettes are left out. *)
Theorem C92_partial L rnd m g out ms :
  libs_ok L -> png_ok L -> content m = IGroup g -> ints_of m ->
  expressibles L (dx (image_Bounds m)) (dy (image_Bounds m)) g -> Forall lasting g ->
  oraEncode L rnd m = Some out -> Forall2 (reads_back L) out ms ->
  exists ds, oraDecode L ms = Some (inl ds) /\ image_Bounds (IGroup ds) = image_Bounds (IGroup g) /\
    forall rnd x y n, image_At rnd (IGroup ds) x y n = image_At rnd (IGroup g) x y n.
Proof.
  intros OK PNG C I X La En Rb. destruct (C56_exact L rnd m g out ms OK C I En Rb) as (ds & D & B).
  destruct (backs_same L _ _ OK g X ds B) as (S & BB & _). exists ds. split; [exact D|]. split; [exact BB|]. intros r x y n.
  rewrite !group_layers_At. destruct (unpaletted L PNG _ _ g X ds S La) as [-> ->]. now apply (looks L PNG _ _ g X ds S La).
Qed.
Print Assumptions C92_partial.

Lemma same_attrs L l d : same L l d -> layerAttrs L d = layerAttrs L l.
Proof. intros S. unfold layerAttrs. assert (E : lName d = lName l /\ lBounds d = lBounds l /\ lMode d = lMode l /\ lInvisible d = lInvisible l /\ lTransparency d = lTransparency l) by (inversion S; auto). destruct E as (-> & -> & -> & -> & ->). reflexivity. Qed.
Lemma same_stack L : forall g ds, sames L g ds -> forall n, sgroup L ds n = sgroup L g n.
Proof.
  apply (sames_mut L (fun l d => forall n, writeStack L d n = writeStack L l n) (fun g ds => forall n, sgroup L ds n = sgroup L g n)).
  - intros l d p NG P E N B M V T n. assert (S : layerAttrs L d = layerAttrs L l) by (apply same_attrs; econstructor 1; eassumption).
    destruct l as [nm b m v t i], d as [nm' b' m' v' t' i']. cbn [lImage] in *. subst i'. cbn [writeStack lImage]. rewrite S. destruct i; try reflexivity. discriminate NG.
  - intros l d g k E1 E2 Ss IH N B M V T n. assert (S : layerAttrs L d = layerAttrs L l) by (apply same_attrs; econstructor 2; eassumption).
    rewrite (writeStack_group L l g n E1), (writeStack_group L d k n E2), S, IH. reflexivity.
  - reflexivity.
  - intros l d g k _ Hl _ Hg n. cbn [sgroup]. now rewrite Hl, Hg.
Qed.
(** The image loaded and saved again has the same stack.xml; and the merged picture in the file is the
    image loaded, with 8 bits per component. *)
Theorem C92_again_partial L rnd g out ms :
  libs_ok L -> png_ok L -> ints_of (IGroup g) ->
  expressibles L (dx (group_Bounds g)) (dy (group_Bounds g)) g -> Forall lasting g ->
  oraEncode L rnd (IGroup g) = Some out -> Forall2 (reads_back L) out ms ->
  exists ds, oraDecode L ms = Some (inl ds) /\
    (forall rnd2 out2, oraEncode L rnd2 (IGroup ds) = Some out2 ->
       forall ts, In (str "stack.xml", WXml ts) out -> In (str "stack.xml", WXml ts) out2) /\
    (exists p, In (str "mergedimage.png", WPng p) out /\
       forall x y c, image_ColorModel (IGroup g) = KNRGBA -> inside (group_Bounds g) x y -> fixed (IGroup ds) x y c ->
       exists c', picAt p (x - minX (group_Bounds g)) (y - minY (group_Bounds g)) = Some c' /\ colourToNRGBA c' = wide (nrgbaModel c)).
Proof.
  intros OK PNG I X La En Rb. destruct (C56_exact L rnd (IGroup g) g out ms OK eq_refl I En Rb) as (ds & D & B).
  destruct (backs_same L _ _ OK g X ds B) as (S & BB & _). exists ds. split; [exact D|].
  destruct (C92_partial L rnd (IGroup g) g out ms OK PNG eq_refl I X La En Rb) as (ds' & D' & _ & V). rewrite D in D'. injection D' as <-.
  clear D B Rb. unfold oraEncode in En.
  destruct (M_Ora.writeLayers L (toLayer (IGroup g)) 0) as [[da k]|] eqn:W; cbn [obind fst] in En; [|discriminate].
  destruct (lib_png L (IGroup g)) as [mg|] eqn:Mg; cbn [obind] in En; [|discriminate].
  destruct (lib_png L (thumbnail L rnd (IGroup g) _ _)) as [th|] eqn:Th; cbn [obind] in En; [|discriminate].
  assert (TS : writeStack L (toLayer (IGroup ds)) 0 = writeStack L (toLayer (IGroup g)) 0).
  { rewrite !(writeStack_group L (toLayer (IGroup _)) _ 0 eq_refl), (same_stack L g ds S). unfold toLayer. cbn [image_Bounds]. rewrite BB. reflexivity. }
  assert (TL : lBounds (toLayer (IGroup ds)) = lBounds (toLayer (IGroup g))) by (unfold toLayer; cbn [image_Bounds lBounds]; now rewrite BB).
  split.
  - intros rnd2 out2 En2 ts IN. unfold oraEncode in En2. rewrite TL, TS in En2.
    destruct (M_Ora.writeLayers L (toLayer (IGroup ds)) 0) as [[da2 k2]|] eqn:W2; cbn [obind fst] in En2; [|discriminate].
    destruct (lib_png L (IGroup ds)) as [mg2|]; cbn [obind] in En2; [|discriminate].
    destruct (lib_png L (thumbnail L rnd2 (IGroup ds) _ _)) as [th2|]; cbn [obind] in En2; [|discriminate].
    remember (WXml (TOther :: _)) as T eqn:ET. clear ET.
    apply (f_equal (fun o => match o with Some x => x | None => [] end)) in En, En2. cbv beta iota in En, En2. subst out out2.
    pose proof (proj2 (writeLayers_numbered _ _ _ _ _ W)) as NU.
    destruct IN as [E|IN]; [discriminate E|]. apply in_app_or in IN. destruct IN as [IN|IN].
    { destruct (numbered_names L _ da 0 NU ltac:(lia) _ IN) as (q & _ & Eq). cbn [fst] in Eq. symmetry in Eq. apply dataName_hd in Eq; [contradiction|vm_compute; discriminate]. }
    right. apply in_or_app. right. destruct IN as [E|[E|[E|[]]]]; [|discriminate E|discriminate E]. left. exact E.
  - exists mg. split.
    + apply (f_equal (fun o => match o with Some x => x | None => [] end)) in En. cbv beta iota in En. subst out. right. apply in_or_app. right. right. left. reflexivity.
    + intros x y c K J F. apply (png_eight L PNG (IGroup g) mg x y c Mg K J). intros r n. rewrite <- V. apply F.
Qed.
Print Assumptions C92_again_partial.

(** libraries for which the assumptions hold: a PNG of 16 bits, of 8 bits for an image of model NRGBA *)
Definition true_png (i : image) : option pic :=
  if rempty (image_Bounds i) then None
  else Some (mkPic (mkRect 0 0 (dx (image_Bounds i)) (dy (image_Bounds i))) KNRGBA
    (fun x y => c <-? at_of (fun _ => 0) i (x + minX (image_Bounds i)) (y + minY (image_Bounds i));;
                Some (match image_ColorModel i with KNRGBA => CNRGBA64 (wide (nrgbaModel c)) | _ => c end))).
Definition true_libs : libs := mkLibs true_png (fun _ => str "0.5") (fun _ => Some 0) (fun s => s) (fun q => q).
Lemma true_libs_ok : libs_ok true_libs.
Proof.
  destruct ex_libs_ok as [_ _ P3 P4 P5 P6 P7]. constructor; [| |exact P3|exact P4|exact P5|exact P6|exact P7]; cbn [lib_png true_libs].
  - intros i E. unfold true_png. rewrite E. reflexivity.
  - intros i p. unfold true_png. destruct (rempty (image_Bounds i)); [discriminate|]. intros [= <-]. reflexivity.
Qed.
Lemma true_png_ok : png_ok true_libs.
Proof.
  constructor; cbn [lib_png true_libs]; unfold true_png.
  - intros i p x y c E K _ F. destruct (rempty (image_Bounds i)); [discriminate|]. injection E as <-. cbn [picAt]. rewrite !Z.sub_add. unfold at_of. rewrite F. cbn [obind fst]. rewrite K. eexists. split; reflexivity.
  - intros i p x y c E K _ F _. destruct (rempty (image_Bounds i)); [discriminate|]. injection E as <-. cbn [picAt]. rewrite !Z.sub_add. unfold at_of. rewrite F. cbn [obind fst]. rewrite K. eexists. split; reflexivity.
  - intros i p E _. destruct (rempty (image_Bounds i)); [discriminate|]. injection E as <-. reflexivity.
Qed.

(** a text layer, a group of a picture behind a mask and another in mode Dissolve, a background *)
Definition ex_pic (w h : Z) (k : cmodel) : image :=
  ILeaf (mkPic (mkRect 0 0 w h) k (fun x y => Some (match k with KRGB => CRGB (u8 (40 * x)) (u8 (50 * y)) 9 | _ => CNRGBA (u8 (30 * x)) 200 (u8 (20 * y)) 128 end))).
Definition ex_looks : image := IGroup [
  mkLayer (str "text") (mkRect 3 1 5 3) MMultiply false 0 (IText (ex_pic 2 2 KNRGBA) []);
  mkLayer (str "group") (mkRect 0 0 6 4) MScreen false 0
    (IGroup [mkLayer (str "a") (mkRect 0 0 3 4) MNormal false 0 (IMasked (ex_pic 3 4 KRGB) (mkGray (mkRect 0 0 3 4) (fun x y => 80 * x)));
             mkLayer (str "b") (mkRect 2 1 6 3) MSoftLight false 0 (ex_pic 4 2 KNRGBA)]);
  mkLayer [] (mkRect 0 0 8 5) MNormal false 0 (ex_pic 8 5 KNRGBA)].
Definition ora_back (m : image) : option (list layer) :=
  out <-? oraEncode true_libs (fun _ => 0) m;;
  match oraDecode true_libs (map (read_member true_libs) out) with Some (inl ds) => Some ds | _ => None end.
Definition look (m : image) (x y : Z) : option color := cn <-? image_At (fun _ => 0) m x y 0;; Some (fst cn).
Lemma u8_is x : is_u8 (u8 x).
Proof. unfold is_u8, u8. pose proof (Z.mod_pos_bound x 256). lia. Qed.
Lemma ex_pic_fixed w h k x y : k = KNRGBA \/ k = KRGB -> exists c, fixed (ex_pic w h k) x y c /\ kept k c.
Proof.
  intros [-> | ->]; eexists; (split; [intros rnd n; cbn [ex_pic image_At picAt obind]; reflexivity|]); cbn [kept]; [|exact I].
  split; [apply u8_is|]. split; [unfold is_u8; lia|]. split; [apply u8_is|unfold is_u8; lia].
Qed.
Example C92_ex :
  (exists g, ex_looks = IGroup g /\ expressibles true_libs 8 5 g /\ Forall lasting g) /\ ints_of ex_looks /\
  let seen (o : option (list layer)) := match o with Some ds => [look (IGroup ds) 3 2; look (IGroup ds) 1 1] | None => [] end in
  seen (ora_back ex_looks) = [look ex_looks 3 2; look ex_looks 1 1] /\
  [look ex_looks 3 2; look ex_looks 1 1] = [Some (CNRGBA64 (mk64 7690 29198 4627 32896)); Some (CNRGBA64 (mk64 12033 35980 7337 32896))].
Proof.
  split; [|split].
  - eexists. split; [reflexivity|]. split.
    + repeat match goal with
      | |- expressibles _ _ _ (_ :: _) => apply expr_cons
      | |- expressibles _ _ _ [] => apply expr_nil
      | |- expressible _ _ _ (mkLayer _ _ _ _ _ (IGroup _)) => eapply expr_group; [reflexivity|split; [reflexivity|split; [cbn; tauto|reflexivity]]|vm_compute; reflexivity..|]
      | |- expressible _ _ _ (mkLayer _ (mkRect ?x ?y _ _) _ _ _ _) =>
        apply (expr_leaf _ _ _ _ x y); [reflexivity|split; [reflexivity|split; [cbn; tauto|reflexivity]]|reflexivity|..]; vm_compute; discriminate
      end.
    + repeat constructor; try (left; reflexivity); try (right; reflexivity); intros x y J; cbn [image_ColorModel ex_pic picModel image_At]; try (apply ex_pic_fixed; auto; fail).
      eexists. split; [intros rnd n; cbn [image_At ex_pic picAt obind fst snd grayAt]; reflexivity|].
        unfold transparency. destruct (80 * x =? 255); [exact I|]. destruct (80 * x =? 0); exact I.
  - unfold ints_of. split; [vm_compute; split; discriminate|]. split; [vm_compute; split; discriminate|].
    cbn. intros l H. repeat (destruct H as [<-|H]; [vm_compute; repeat split; discriminate|]). contradiction.
  - intros seen. split; vm_compute; reflexivity.
Qed.

(** Opacity is lost: an image of one layer, not fully opaque, is loaded as another image at every point where
    the picture is opaque. *)
Theorem C92_opacity_refuted L rnd nm v t p w h out ms ds x y r g b :
  libs_ok L -> png_ok L -> 0 < t <= 255 -> 0 < w <= 9223372036854775807 -> 0 < h <= 9223372036854775807 ->
  picBounds p = mkRect 0 0 w h -> picModel p = KNRGBA -> inside (mkRect 0 0 w h) x y ->
  is_u8 r -> is_u8 g -> is_u8 b -> picAt p x y = Some (CNRGBA r g b 255) ->
  let m := IGroup [mkLayer nm (mkRect 0 0 w h) MNormal v t (ILeaf p)] in
  oraEncode L rnd m = Some out -> Forall2 (reads_back L) out ms -> oraDecode L ms = Some (inl ds) ->
  forall rnd n, image_At rnd (IGroup ds) x y n <> image_At rnd m x y n.
Proof.
  intros OK PNG T W H PB PM J R G B PA m En Rb De r' n.
  assert (GB : group_Bounds [mkLayer nm (mkRect 0 0 w h) MNormal v t (ILeaf p)] = mkRect 0 0 w h) by (unfold group_Bounds, union; cbn [fold_left lBounds]; reflexivity).
  assert (IO : ints_of m).
  { unfold ints_of, m. cbn [image_Bounds content layers layers_l app]. rewrite GB. unfold dx, dy, is_int. cbn [minX minY maxX maxY].
    split; [lia|]. split; [lia|]. intros l [<-|[]]. cbn [lBounds minX minY]. lia. }
  destruct (C56_exact L rnd m _ out ms OK eq_refl IO En Rb) as (ds' & D & Bs). rewrite De in D. injection D as <-. clear En Rb De.
  unfold m in Bs. cbn [image_Bounds] in Bs. rewrite GB in Bs.
  inversion Bs as [|? ? ? d ? k Bk Bn]; subst. inversion Bn; subst. clear Bs Bn.
  inversion Bk as [? ? ? ? q _ P E A|? ? ? ? g' k E]; subst; [|discriminate E]. destruct A as (_ & [MD _] & V & TR & LB).
  cbn [lImage lMode lInvisible lTransparency lBounds minX minY] in *. rewrite E in LB. cbn [image_Bounds] in LB. rewrite (png_bounds L OK _ _ P) in LB. cbn [image_Bounds] in LB. rewrite PB in LB.
  assert (LB' : lBounds d = mkRect 0 0 w h).
  { rewrite LB. unfold rsub, intersect, radd, dx, dy, rempty. cbn. replace (w - 0) with w by lia. replace (h - 0) with h by lia. rewrite ?Z.add_0_r, ?Z.sub_0_r, ?Z.min_id. change (Z.max 0 0) with 0.
    destruct (w <=? 0) eqn:E1; [lia|]. destruct (h <=? 0) eqn:E2; [lia|]. cbn. now rewrite ?Z.sub_0_r. }
  clear LB. specialize (MD ltac:(cbn; tauto)).
  assert (Vd : v && (t =? 0) = false) by (destruct (Z.eqb_spec t 0); [lia|apply andb_false_r]).
  destruct (png_eight L PNG (ILeaf p) q x y (CNRGBA r g b 255) P PM) as (c' & PQ & CQ).
  { cbn [image_Bounds]. now rewrite PB. } { intros ? ?. cbn [image_At]. rewrite PA. reflexivity. }
  cbn [image_Bounds] in PQ. rewrite PB in PQ. cbn [minX minY] in PQ. rewrite !Z.sub_0_r in PQ.
  assert (In : pin x y (mkRect 0 0 w h) = true) by (unfold pin, inside in *; cbn [minX minY maxX maxY] in *; lia).
  destruct d as [nm' b' m' v' t' i']. cbn [lImage lMode lInvisible lTransparency lBounds] in *. subst i' b' m' v' t'.
  unfold m. rewrite !group_layers_At. cbn [layers_At obind fst snd lInvisible lBounds lMode].
  cbn [image_ColorModel]. rewrite PM, (png_colours L PNG _ _ P (or_introl PM)). cbn [is_palette]. rewrite In. cbn [negb layer_At image_At minX minY]. rewrite !Z.sub_0_r, PQ, PA. cbn [obind fst snd]. unfold at_step. rewrite andb_false_r.
  change (transparency c' (u8 255)) with c'. rewrite Vd.
  assert (WA : wf_color (CAlpha 0)) by (cbn; unfold is_u8; lia).
  assert (W1 : wf_color (CNRGBA64 (wide (r, g, b, 255)))) by (cbn; unfold wf64, is_u16, is_u8 in *; cbn; lia).
  replace (composite MNormal (r' n) (CAlpha 0) c') with (composite MNormal (r' n) (CAlpha 0) (CNRGBA64 (wide (r, g, b, 255)))) by (unfold composite; now rewrite CQ).
  rewrite (C01_opaque_top (r' n) _ _ WA W1 eq_refl). cbn [obind is_dissolve].
  destruct v; [discriminate|].
  assert (WT : wf_color (transparency (CNRGBA r g b 255) (u8 (255 - t))) /\ cA (colourToNRGBA (transparency (CNRGBA r g b 255) (u8 (255 - t)))) < 65535).
  { unfold u8. rewrite Z.mod_small by lia. unfold transparency. destruct (Z.eqb_spec (255 - t) 255); [lia|]. destruct (Z.eqb_spec (255 - t) 0); [cbn; unfold wf64, is_u16; cbn; lia|].
    unfold is_u8 in *. cbv zeta. cbn [colourToNRGBA cA cR cG cB wf_color]. unfold wf64, is_u16. cbn [cA cR cG cB]. rewrite !rep8_eq by lia. unfold u16, u32.
    rewrite (Z.mod_small (257 * 255)) by lia. rewrite (Z.mod_small (257 * (255 - t) * _)) by lia. change (257 * 255) with 65535. rewrite Z.div_mul by lia. rewrite !Z.mod_small by lia. lia. }
  destruct WT as [WT LT].
  destruct (Z_lt_le_dec 0 (cA (colourToNRGBA (transparency (CNRGBA r g b 255) (u8 (255 - t)))))) as [PO|PO].
  - destruct (C01_alpha_over (r' n) (CAlpha 0) _ WA WT) as (c & -> & _ & _ & _ & _ & AL & _); [cbv zeta; change (cA (colourToNRGBA (CAlpha 0))) with 0; lia|].
    intros E'. cbn [obind] in E'. assert (AC : cA c = 65535) by (injection E' as E'; rewrite <- E'; reflexivity). rewrite AC in AL. change (cA (colourToNRGBA (CAlpha 0))) with 0 in AL. lia.
  - rewrite C01_both_empty; [|reflexivity|]; [intros [=]|]. destruct (L_Color.colourToNRGBA_wf _ WT) as (_ & _ & _ & [Q _]). lia.
Qed.
Print Assumptions C92_opacity_refuted.
(** what the image saved and loaded shows *)
Definition seen (m : image) (x y : Z) : option color := match ora_back m with Some ds => look (IGroup ds) x y | None => None end.
Example C92_opacity_ex : let m := IGroup [mkLayer [97] (mkRect 0 0 8 5) MNormal false 100 (ILeaf (mkPic (mkRect 0 0 8 5) KNRGBA (fun _ _ => Some (CNRGBA 10 20 30 255))))] in
  seen m 7 4 = Some (CNRGBA64 (mk64 2570 5140 7710 65535)) /\
  look m 7 4 = Some (CNRGBA64 (mk64 2570 5140 7710 39835)).
Proof. intros m. split; vm_compute; reflexivity. Qed.

(** saved and loaded, [m] shows another colour at (0,0) *)
Definition ora_other (m : image) : Prop :=
  ints_of m /\ exists out ds, oraEncode true_libs (fun _ => 0) m = Some out /\ oraDecode true_libs (map (read_member true_libs) out) = Some (inl ds) /\
    look (IGroup ds) 0 0 <> look m 0 0.
Lemma is_ora_other m : ints_of m -> forall c, seen m 0 0 = Some c -> look m 0 0 <> Some c -> ora_other m.
Proof.
  intros I c. unfold seen, ora_back. destruct (oraEncode true_libs (fun _ => 0) m) as [out|] eqn:E; cbn [obind]; [|discriminate].
  destruct (oraDecode true_libs (map (read_member true_libs) out)) as [[ds|]|] eqn:D; try discriminate. intros S N. split; [exact I|]. exists out, ds. rewrite S. auto.
Qed.
(** one pixel saved from its corner (5,5), drawn from (0,0) *)
Theorem C92_corner_refuted : ora_other (IGroup [mkLayer [97] (mkRect 0 0 1 1) MNormal false 0
  (ILeaf (mkPic (mkRect 5 5 6 6) KNRGBA (fun x y => Some (CNRGBA 1 2 3 (if (x =? 5) && (y =? 5) then 255 else 0)))))]).
Proof. eapply is_ora_other; [|vm_compute; reflexivity|vm_compute; discriminate]. unfold ints_of. split; [vm_compute; split; discriminate|]. split; [vm_compute; split; discriminate|]. cbn. intros l H. repeat (destruct H as [<-|H]; [vm_compute; repeat split; discriminate|]). contradiction. Qed.
Print Assumptions C92_corner_refuted.
(** a mode without a name in OpenRaster *)
Theorem C92_mode_refuted : ora_other (IGroup [
  mkLayer [97] (mkRect 0 0 1 1) MSubtract false 0 (ILeaf (mkPic (mkRect 0 0 1 1) KNRGBA (fun x y => Some (CNRGBA 1 2 3 255))));
  mkLayer [98] (mkRect 0 0 1 1) MNormal false 0 (ILeaf (mkPic (mkRect 0 0 1 1) KNRGBA (fun x y => Some (CNRGBA 7 7 7 255))))]).
Proof. eapply is_ora_other; [|vm_compute; reflexivity|vm_compute; discriminate]. unfold ints_of. split; [vm_compute; split; discriminate|]. split; [vm_compute; split; discriminate|]. cbn. intros l H. repeat (destruct H as [<-|H]; [vm_compute; repeat split; discriminate|]). contradiction. Qed.
Print Assumptions C92_mode_refuted.
