(** C83: Encode writes a file of the format that describes the image. *)
From Coq Require Import Permutation ZifyBool ZifyNat.
Require Import Verif.Base Verif.L_List Verif.M_Color Verif.S_Color Verif.L_Word Verif.M_Composite Verif.M_Rect Verif.M_Image Verif.S_Image Verif.L_Image Verif.M_Reader
  Verif.M_Rle Verif.S_Rle Verif.L_Rle Verif.S_Compressed Verif.M_Monad Verif.M_Decode Verif.M_Encode Verif.S_Encode Verif.S_String Verif.S_File Verif.S_Props Verif.S_Accept Verif.S_Layout Verif.S_Tree Verif.S_Linked
  Verif.L_Emit Verif.L_Layout Verif.L_Grid Verif.L_Run Verif.L_Linked Verif.L_Trip Verif.L_Trip2 Verif.L_Trip3 Verif.L_Trip4 Verif.S_Trip Verif.L_Trip5 Verif.P_Layout Verif.P_Trip
  Verif.S_Kinds Verif.P_Kinds Verif.S_Meaning Verif.S_Whole Verif.P_Whole Verif.S_Written Verif.L_Written Verif.L_Fuel Verif.P_Accept.
Require Verif.S_Groups.
(** ** C83 *)
(** the mode numbers: those of the format for the modes that have one *)
Lemma kept_number m : mode_kept 0 m -> gimp_mode (modeID m) = m.
Proof. unfold mode_kept. cbn [Z.eqb]. cbn [In]. intros K. repeat (destruct K as [<-|K]; [reflexivity|]). contradiction. Qed.
(** as the decoder reads them: for grey and indexed images only two modes are left (C67) *)
Definition back_mode (base : Z) (m : mode) : mode := if base =? 0 then m else match m with MBehind => MBehind | _ => MNormal end.
Lemma back_number base m : (base = 0 -> mode_kept 0 m) -> modes_read base (modeID m) = back_mode base m.
Proof.
  intros K. unfold modes_read, back_mode. destruct (base =? 0) eqn:B; [apply kept_number, K; lia|]. destruct m; reflexivity.
Qed.
Lemma encoded wr rnd wtext i g e calls : faultless wr -> layered i g -> encode wr rnd wtext i = Some (e, calls) -> encodable i ->
  e = None /\ fold_right (fun l P => writable l /\ P) True g /\ exists fls n',
    flat_layers rnd wtext (conv_of (IGroup g)) (base_of (IGroup g)) g 0 0 [] 0 0 fls n' /\
    forall a, stored (map landed calls) a = znth (file_bytes (head_of (IGroup g)) fls) a.
Proof.
  intros FL LY E EN.
  assert (EG : encode wr rnd wtext (IGroup g) = Some (e, calls) /\ encodable (IGroup g)).
  { destruct LY as [-> | (l & -> & ->)]; [auto|]. rewrite encode_layer in E. destruct EN as [E1 E2]. split; [exact E|]. cbn. split; [auto|lia]. }
  destruct EG as [E' [Wr LN]]. destruct (encode_group wr rnd wtext FL g e calls E' Wr LN) as (-> & fls & n' & F & Z & C).
  split; [reflexivity|]. split; [exact Wr|]. exists fls, n'. split; [exact F|]. destruct (covers_laid _ _ _ C) as (cs & P & L).
  apply (Permutation_map landed) in P. exact (laid_stored _ _ _ P L).
Qed.
(** Whatever layered image is encoded, if its layers can be expressed: the destination holds a
    file of the format (version 3) that describes these layers at their coordinates, on a canvas of the
    image's size.  (Files of 16 MiB and more are left out with [file_of], see C42.) *)
Theorem C83_described wr rnd wtext ptext i g e calls : faultless wr -> layered i g ->
  encode wr rnd wtext i = Some (e, calls) -> encodable i -> wf_image i ->
  let k := image_ColorModel (IGroup g) in let W := dx (group_Bounds g) in let H := dy (group_Bounds g) in
  is_word W -> is_word H -> zlen g <= 55296 -> expressibles wtext ptext (mode_kept 0) g 0 0 ->
  e = None /\ exists f, (forall a, stored (map landed calls) a = znth f a) /\
    (zlen f < 16777216 -> exists F, tolds rnd wtext ptext k (fun m => m) g 0 0 F /\
       forall float, file_of float gimp_mode ptext f 3 W H (base_type k) (file_palette k) F).
Proof.
  intros FL LY E EN WF k W H WW WH LG EX. destruct (encoded _ _ _ _ _ _ _ FL LY E EN) as (-> & Wr & fls & n' & F & S).
  split; [reflexivity|]. exists (file_bytes (head_of (IGroup g)) fls). split; [exact S|]. intros L.
  assert (WI : wf_image (IGroup g)). { destruct LY as [-> | (l & -> & ->)]; [exact WF|]. apply wf_group_Forall. constructor; [exact WF|constructor]. }
  exact (file_written rnd wtext ptext gimp_mode (fun m => m) (mode_kept 0) kept_number g fls n' F Wr WI EX LG WW WH L).
Qed.
Print Assumptions C83_described.
(** So images whose canvas starts at (0,0) are described as they are. *)
Theorem C83_partial wr rnd wtext ptext i g e calls : faultless wr -> layered i g ->
  encode wr rnd wtext i = Some (e, calls) -> encodable i -> wf_image i ->
  let k := image_ColorModel (IGroup g) in let B := group_Bounds g in
  minX B = 0 -> minY B = 0 ->
  is_word (dx B) -> is_word (dy B) -> zlen g <= 55296 -> expressibles wtext ptext (mode_kept 0) g (- minX B) (- minY B) ->
  e = None /\ exists f, (forall a, stored (map landed calls) a = znth f a) /\
    (zlen f < 16777216 -> exists F, tolds rnd wtext ptext k (fun m => m) g (- minX B) (- minY B) F /\
       forall float, file_of float gimp_mode ptext f 3 (dx B) (dy B) (base_type k) (file_palette k) F).
Proof. intros FL LY E EN WF k B X Y. rewrite X, Y. exact (C83_described wr rnd wtext ptext i g e calls FL LY E EN WF). Qed.
Print Assumptions C83_partial.

(** Both decoders, on the file Encode wrote: they show what the file describes (layers cut off at the
    canvas, modes of grey and indexed images reduced to two) if all masks are of layers at the
    origin and the decoder is Decode; otherwise they do not read it. *)
Lemma tolds_masks rnd wtext ptext k md dec F : forall g x y, tolds rnd wtext ptext k md g x y F -> masks_taken dec F -> masks_ok dec F.
Proof.
  induction F as [|r D F IH|r D kids F IHk IH] using df_ind; intros g x y T M; cbn [masks_taken masks_ok] in *; [exact I| |];
  inversion T as [|? ? ? ? ? ? ? TL TR]; subst; inversion TL; subst; destruct M as [M1 M2].
  - split; [exact M1|eapply IH; eassumption].
  - split; [split; [assumption|eapply IHk; [eassumption|apply M1]]|eapply IH; eassumption].
Qed.
Theorem C83_back wr rnd wtext ptext i g e calls : faultless wr -> layered i g ->
  encode wr rnd wtext i = Some (e, calls) -> encodable i -> wf_image i ->
  let k := image_ColorModel (IGroup g) in let W := dx (group_Bounds g) in let H := dy (group_Bounds g) in let base := base_type k in
  is_word W -> is_word H -> zlen g <= 55296 -> expressibles wtext ptext (fun m => base = 0 -> mode_kept 0 m) g 0 0 ->
  e = None /\ exists f, (forall a, stored (map landed calls) a = znth f a) /\
    (zlen f < 16777216 -> exists F, tolds rnd wtext ptext k (back_mode base) g 0 0 F /\
       forall fuel f32op dec, 4294967296 <= Z.of_nat fuel ->
         (masks_ok dec F -> exists ls, described dec (file_palette k) (mkRect 0 0 W H) 0 0 F ls /\
            decodeImage fuel f f32op ptext dec = Ret (inr (S_Groups.bottom_normal ls))) /\
         (~ masks_ok dec F -> forall ls, decodeImage fuel f f32op ptext dec <> Ret (inr ls))).
Proof.
  intros FL LY E EN WF k W H base WW WH LG EX. destruct (encoded _ _ _ _ _ _ _ FL LY E EN) as (-> & Wr & fls & n' & F & S).
  split; [reflexivity|]. exists (file_bytes (head_of (IGroup g)) fls). split; [exact S|]. intros L.
  assert (WI : wf_image (IGroup g)). { destruct LY as [-> | (l & -> & ->)]; [exact WF|]. apply wf_group_Forall. constructor; [exact WF|constructor]. }
  destruct (file_written rnd wtext ptext (modes_read base) (back_mode base) (fun m => base = 0 -> mode_kept 0 m) (back_number base) g fls n' F Wr WI EX LG WW WH L) as (T & TT & FO).
  exists T. split; [exact TT|]. intros fuel f32op dec HF. specialize (FO (fun z => u8 (f32op z))). split.
  - intros M. exact (C80_partial _ _ _ _ _ _ _ fuel f32op ptext dec FO M HF).
  - intros M ls. apply (C80_untaken _ _ _ _ _ _ _ fuel f32op ptext dec ls FO). intros MT. apply M. exact (tolds_masks _ _ _ _ _ _ _ _ _ _ TT MT).
Qed.
Print Assumptions C83_back.

(** *** Images elsewhere *)
(** The file of an image with one pixel at (5,5) describes something, but not that pixel on the
    canvas: no description of the file has it at the corner. *)
Theorem C83_moved_refuted : exists g f, away = IGroup g /\ encodable away /\ writes_file away f /\ group_Bounds g = mkRect 5 5 6 6 /\
  ~ exists F, tolds (fun _ => 0) (fun _ _ _ => None) (fun _ => TErr) KNRGBA (fun m => m) g (- 5) (- 5) F /\
    file_of (fun z => u8 z) gimp_mode (fun _ => TErr) f 3 1 1 0 [] F.
Proof.
  destruct C36_round_trip_refuted as (f & l' & EN & WF & _ & DE & _ & LB). eexists. exists f. split; [reflexivity|]. split; [exact EN|]. split; [exact WF|].
  split; [reflexivity|]. intros (F & T & FO).
  destruct (big_fuel 1000 4294967296) as (K & K1 & K2). destruct (le_decodeImage 1000 K f (fun z => z) (fun _ => TErr) true K1) as [Q|Q]; unfold decode in DE; rewrite DE in Q; [discriminate|].
  inversion T as [|l g' x y r nd F' TL TR]; subst. inversion TR; subst. inversion TL as [name b m inv tr i x y D NG HT PT MT TX|]; subst.
  destruct HT as (_ & HW & HH & _ & HX & HY & _). cbn in HW, HH, HX, HY, MT.
  destruct (C80_partial f 3 1 1 0 [] _ K (fun z => z) (fun _ => TErr) true FO) as (ls & DS & DX); [|lia|].
  { cbn. split; [|exact I]. destruct (ldMask D); [contradiction|congruence]. }
  rewrite DX in Q. injection Q as Q. cbn in DS. destruct DS as (l & rest & -> & _ & B & _ & _ & _ & _ & ->).
  destruct l as [ln lb lm li lt im]. cbn in Q. injection Q as Q. subst l'. cbn in LB, B. rewrite HX, HY, HW, HH in B. subst lb. discriminate.
Qed.
Print Assumptions C83_moved_refuted.

(** *** Images that are not layered *)
Definition with_mode (m : mode) (a : attrs) : attrs := mkAttrs (aX a) (aY a) m (aHidden a) (aTransparency a) (aGroup a) (aPath a) (aParasites a).
Lemma remode float mo mo' props : forall a a' m, all_mean float mo props a a' -> exists m', all_mean float mo' props (with_mode m a) (with_mode m' a').
Proof.
  induction props as [|q props IH]; intros a a' m A; cbn [all_mean] in *; [subst; now exists m|].
  destruct A as (b & M & A).
  assert (X : exists m1, means float mo' (fst q) (snd q) (with_mode m a) (with_mode m1 b)).
  { inversion M; subst; unfold with_mode; cbn; eexists; econstructor; eassumption. }
  destruct X as (m1 & X). destruct (IH b a' m1 A) as (m' & Y). exists m', (with_mode m1 b). auto.
Qed.
(** Such an image is written as the only layer.  The file is not one of the format that has a layer
    showing that image at (0,0), whatever else it says; the decoders refuse it (C37). *)
Theorem C83_plain_refuted wr rnd wtext ptext i e calls : faultless wr ->
  encode wr rnd wtext i = Some (e, calls) -> encodable i ->
  match i with IGroup _ | ILayer _ => False | _ => True end ->
  let b := image_Bounds i in
  0 <= dx b < 4294967296 -> 0 <= dy b < 4294967296 -> 0 < dx b \/ 0 < dy b ->
  e = None /\ exists f, (forall a, stored (map landed calls) a = znth f a) /\
    (zlen f < 16777216 -> ~ exists f32op n w h base pal r D k md name lb m inv tr,
       file_of (fun z => u8 (f32op z)) gimp_mode ptext f n w h base pal (DCons r (DLeaf D) DNil) /\
       told rnd wtext ptext k md (mkLayer name lb m inv tr i) 0 0 (DLeaf D)).
Proof.
  intros FL E EN PL b RW RH NE. destruct (C37_plain_survives_refuted wr rnd wtext ptext true i e calls FL E EN PL RW RH NE) as (-> & f & S & X).
  split; [reflexivity|]. exists f. split; [exact S|]. intros L (f32op & n & w & h & base & pal & r & D & k & md & name & lb & m & inv & tr & FO & T).
  destruct (big_fuel 0 4294967296) as (K & _ & K2). specialize (X L K f32op ltac:(lia)).
  assert (FO' : exists m', file_of (fun z => u8 (f32op z)) (modes_read base) ptext f n w h base pal
     (DCons r (DLeaf (mkLD (ldName D) (ldW D) (ldH D) (ldType D) (with_mode m' (ldAttrs D)) (ldPx D) (ldMask D) (ldText D))) DNil)).
  { destruct FO as [F1 F2 F3 F4 F5 F6 (prec & iprops & opal & lps & rest & bare & P1 & P2 & P3 & P4 & P5 & P6 & P7 & P8 & P9 & P10) F8].
    cbn [dorder app] in P8, P9, P10. inversion P8 as [|p ? lps' ? LA LN]; subst. inversion LN; subst. cbn beta iota in LA. destruct LA as ((props & hp & mp & A1 & A2 & A3 & A4 & A5 & A6 & A7 & A8 & A9) & GA & PA).
    destruct (remode (fun z => u8 (f32op z)) gimp_mode (modes_read base) props _ _ MNormal A8) as (m' & A8'). exists m'.
    constructor; auto. exists prec, iprops, opal, [p], rest, bare. do 7 (split; [assumption || reflexivity|]). split; [|split; [exact P9|]].
    - cbn [dorder app]. constructor; [|constructor]. split; [|split; [exact GA|exact PA]]. exists props, hp, mp. cbn [ldName ldW ldH ldType ldAttrs ldPx ldMask ldText]. tauto.
    - cbn [dorder app]. intros [|[|j]] x N LT; cbn in *; try lia; discriminate. }
  destruct FO' as (m' & FO'). destruct (C80_masks _ _ _ _ _ _ _ K f32op ptext true FO') as (ls & _ & Q); [|lia|rewrite X in Q; discriminate].
  cbn. split; [|exact I]. intros _. split; [reflexivity|]. left. cbn. inversion T as [name' b' m0 inv' tr' i' x y D' NG HT|]; subst; destruct HT as (_ & _ & _ & _ & HX & HY & _); auto.
Qed.
Print Assumptions C83_plain_refuted.

(** *** Modes *)
(** Luminance has a number (56, which the decoder knows), but it is written as Normal (0). *)
Definition lum : image := IGroup [
  mkLayer [97] (mkRect 0 0 1 1) MLuminance false 0 (ILeaf (mkPic (mkRect 0 0 1 1) KNRGBA (fun x y => Some (CNRGBA 1 2 3 255))));
  mkLayer [98] (mkRect 0 0 1 1) MNormal false 0 (ILeaf (mkPic (mkRect 0 0 1 1) KNRGBA (fun x y => Some (CNRGBA 4 5 6 255))))].
Lemma two_read f m name b inv tr i l : match i with ILeaf _ => True | _ => False end ->
  match l with mkLayer _ _ _ _ _ (ILeaf _) => True | _ => False end ->
  forall m', (match decodeImage 1000 f (fun z => z) (fun _ => TErr) true with Ret (inr [mkLayer _ _ m1 _ _ _; _]) => Some m1 | _ => None end) = Some m' ->
  m <> m' -> ~ exists w h base pal n F, 
    tolds (fun _ => 0) (fun _ _ _ => None) (fun _ => TErr) KNRGBA (fun m => m) [mkLayer name b m inv tr i; l] 0 0 F /\
    file_of (fun z => u8 z) (modes_read base) (fun _ => TErr) f n w h base pal F.
Proof.
  intros LI LL m' DE NM (w & h & base & pal & n & F & T & FO).
  destruct (decodeImage 1000 f (fun z => z) (fun _ => TErr) true) as [r| |] eqn:DD; [|discriminate|discriminate].
  destruct (big_fuel 1000 4294967296) as (K & K1 & K2). destruct (le_decodeImage 1000 K f (fun z => z) (fun _ => TErr) true K1) as [Q|Q]; rewrite DD in Q; [discriminate|].
  inversion T as [|l0 g' x y r0 nd F' TL TR]; subst. inversion TR as [|l1 g1 x1 y1 r1 nd1 F1 TL1 TR1]; subst. inversion TR1; subst.
  inversion TL as [name' b' m0 inv' tr' i' x y D NG HT PT MT TX|]; subst; [|contradiction].
  destruct l as [ln lb lm li lt [pc| | | |]]; try contradiction.
  inversion TL1 as [name1 b1 m1 inv1 tr1 i1 x1 y1 D1 NG1 HT1 PT1 MT1 TX1|]; subst.
  destruct HT as (_ & _ & _ & _ & _ & _ & HM & _).
  destruct (C80_partial f n w h base pal _ K (fun z => z) (fun _ => TErr) true FO) as (ls & DS & DX); [|lia|].
  { cbn. destruct i; try contradiction. cbn in MT, MT1. destruct (ldMask D); [contradiction|]. destruct (ldMask D1); [contradiction|]. repeat split; congruence. }
  rewrite DX in Q. injection Q as ->. cbn in DS. destruct DS as (la & resta & -> & _ & _ & MA & _ & _ & _ & lc & restc & -> & _ & _ & _ & _ & _ & _ & ->).
  destruct la, lc. cbn in DE, MA. injection DE as <-. congruence.
Qed.
Theorem C83_luminance_refuted : In MLuminance (map snd gimp_modes) /\ exists g f, lum = IGroup g /\ encodable lum /\ writes_file lum f /\ group_Bounds g = mkRect 0 0 1 1 /\
  ~ exists F, tolds (fun _ => 0) (fun _ _ _ => None) (fun _ => TErr) KNRGBA (fun m => m) g 0 0 F /\
    file_of (fun z => u8 z) gimp_mode (fun _ => TErr) f 3 1 1 0 [] F.
Proof.
  split; [cbn; tauto|]. eexists. exists (P_Trip.file_of lum 319).
  assert (EN : encodable lum) by (cbn; unfold fits; repeat split; vm_compute; discriminate || reflexivity).
  split; [reflexivity|]. split; [exact EN|]. split; [apply writes_of; [exact EN|vm_compute; split; [reflexivity|discriminate]]|].
  split; [reflexivity|]. intros (F & T & FO).
  refine (two_read (P_Trip.file_of lum 319) MLuminance _ _ _ _ _ _ _ _ MNormal _ _ _); [..|exists 1, 1, 0, [], 3, F; split; [exact T|exact FO]]; try exact I; [vm_compute; reflexivity|discriminate].
Qed.
Print Assumptions C83_luminance_refuted.

(** A mode without a number is in no file; yet such images are written without an error. *)
Lemma mode_numbered float props : forall a a', all_mean float gimp_mode props a a' -> In (aMode a) (map snd gimp_modes) -> In (aMode a') (map snd gimp_modes).
Proof.
  induction props as [|q props IH]; intros a a' A I; cbn [all_mean] in A; [now subst|].
  destruct A as (b & M & A). apply (IH b a' A). inversion M; subst; cbn [aMode] in *; auto.
  unfold gimp_mode. destruct (nth_in_or_default (Z.to_nat z) (map snd gimp_modes) MNormal) as [X|X]; [exact X|]. rewrite X. now left.
Qed.
Theorem C83_unnumbered_refuted wr rnd wtext ptext i g e calls l : faultless wr -> layered i g ->
  encode wr rnd wtext i = Some (e, calls) -> encodable i -> In l g -> ~ In (lMode l) (map snd gimp_modes) ->
  e = None /\ ~ exists f F float n w h base pal k x y, file_of float gimp_mode ptext f n w h base pal F /\ tolds rnd wtext ptext k (fun m => m) g x y F.
Proof.
  intros FL LY E EN IL NI. destruct (encoded _ _ _ _ _ _ _ FL LY E EN) as (-> & _). split; [reflexivity|].
  intros (f & F & float & n & w & h & base & pal & k & x & y & FO & T).
  destruct FO as [_ _ _ _ _ _ (prec & iprops & opal & lps & rest & bare & _ & _ & _ & _ & _ & _ & _ & P8 & _) _].
  assert (X : exists D gr pa, In (D, gr, pa) (dorder bare [] F) /\ aMode (ldAttrs D) = lMode l).
  { clear - T IL. generalize dependent (@nil Z). revert bare g T IL. induction F as [|r D F IH|r D kids F IHk IH] using df_ind; intros bare g T IL path;
    (inversion T as [|l0 g' x0 y0 r0 nd F' TL TR]; subst); [contradiction| |]; cbn [dorder];
    (destruct IL as [->|IL]; [|destruct (IH bare _ TR IL path) as (D' & gr & pa & I1 & I2); exists D', gr, pa; split; [apply in_or_app; now right|exact I2]]);
    inversion TL; subst; match goal with HT : head_told _ _ _ _ _ _ _ _ _ _ |- _ => destruct HT as (_ & _ & _ & _ & _ & _ & HM & _) end.
    - eexists _, _, _. split; [left; reflexivity|exact HM].
    - eexists _, _, _. split; [left; reflexivity|exact HM]. }
  destruct X as (D & gr & pa & I1 & I2). destruct (forall2_in_r _ _ _ _ P8 I1) as (p & _ & (props & hp & mp & _ & _ & _ & _ & _ & _ & _ & A & _) & _).
  apply NI. rewrite <- I2. apply (mode_numbered _ _ _ _ A). now left.
Qed.
Print Assumptions C83_unnumbered_refuted.

(** ** Cases *)
(** a picture with its own corner; a hidden group whose masked layer starts on the canvas's edge (nothing of it is seen) and has its mask elsewhere *)
Definition layers83 : list layer := [
  mkLayer [97] (mkRect 0 0 2 1) MExclusion false 0 (ILeaf (mkPic (mkRect 3 3 5 4) KNRGBA (fun x y => Some (CNRGBA 1 2 3 255))));
  mkLayer [98] (mkRect 1 0 2 1) MNormal true 10 (IGroup [
     mkLayer [] (mkRect 1 0 3 1) MScreen false 0 (IMasked (ILeaf (mkPic (mkRect 0 0 2 1) KNRGBA (fun x y => Some (CNRGBA 9 9 9 (if x =? 0 then 7 else 8)))))
        (mkGray (mkRect 4 4 6 5) (fun x y => if (x =? 5) && (y =? 4) then 77 else 0)))])].
Example C83_ex : group_Bounds layers83 = mkRect 0 0 2 1 /\ image_ColorModel (IGroup layers83) = KNRGBA /\ encodable (IGroup layers83) /\ wf_image (IGroup layers83) /\
  expressibles (fun _ _ _ => None) (fun _ => TErr) (mode_kept 0) layers83 0 0.
Proof.
  split; [reflexivity|]. split; [reflexivity|]. split; [cbn; unfold fits; repeat split; vm_compute; discriminate || reflexivity|]. split.
  - cbn. repeat split; try (unfold is_u8; lia); intros; try (eexists; split; [reflexivity|]); cbn; unfold is_u8; repeat (match goal with |- context [if ?b then _ else _] => destruct b end); lia.
  - cbn [expressibles layers83 expressible lBounds minX minY]. unfold word_sized, dx, dy, image_Bounds, mode_kept.
    cbn [picBounds grayBounds minX minY maxX maxY Z.eqb]. pose proof (ascii1 97 ltac:(lia)). pose proof (ascii1 98 ltac:(lia)).
    assert (utf8 []) by (exists []; split; [constructor|reflexivity]).
    repeat match goal with |- _ /\ _ => split | |- In _ _ => cbn; tauto end; try assumption; try exact I; try reflexivity; try (vm_compute; discriminate); try (vm_compute; reflexivity); lia.
Qed.
Example C83_back_ex : base_type (image_ColorModel (IGroup layers83)) = 0 /\ expressibles (fun _ _ _ => None) (fun _ => TErr) (fun m => base_type KNRGBA = 0 -> mode_kept 0 m) layers83 0 0.
Proof.
  split; [reflexivity|]. cbn [expressibles layers83 expressible lBounds minX minY]. unfold word_sized, dx, dy, image_Bounds, mode_kept.
  cbn [picBounds grayBounds minX minY maxX maxY Z.eqb]. pose proof (ascii1 97 ltac:(lia)). pose proof (ascii1 98 ltac:(lia)).
  assert (utf8 []) by (exists []; split; [constructor|reflexivity]).
  repeat match goal with |- _ /\ _ => split | |- _ -> _ => intros _ | |- In _ _ => cbn; tauto end; try assumption; try exact I; try reflexivity; try (vm_compute; discriminate); try (vm_compute; reflexivity); lia.
Qed.
Example C83_unnumbered_ex : ~ In MLuminosity (map snd gimp_modes) /\ ~ In MPlus (map snd gimp_modes).
Proof. split; cbn; intuition discriminate. Qed.
