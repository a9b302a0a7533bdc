(** C94: which of the images Encode saves can be loaded. *)
From Coq Require Import Permutation ZifyBool ZifyNat.
Require Import Verif.Base Verif.L_List Verif.M_Color Verif.L_Word Verif.M_Composite Verif.M_Rect Verif.M_Image Verif.M_Reader Verif.L_Reader Verif.L_Encode
  Verif.M_Groups Verif.S_Groups Verif.L_Groups2 Verif.M_Monad Verif.M_Decode Verif.M_Encode Verif.S_Encode Verif.L_String Verif.S_String Verif.S_File Verif.S_Layout Verif.S_Tree Verif.S_Linked
  Verif.S_Compressed Verif.L_Emit Verif.L_Layout Verif.L_Grid Verif.L_Run Verif.L_Linked Verif.L_Sticky Verif.L_Trip Verif.L_Trip2 Verif.L_Trip3 Verif.L_Trip4 Verif.S_Trip Verif.L_Trip5 Verif.L_Trip6
  Verif.P_Layout Verif.P_Trip Verif.S_Loads.

Lemma step {A B} (m : M A) (g : A -> M B) p a q : runs m p a q -> bindM m g (mkR p None) = g a (mkR q None).
Proof. unfold runs, bindM. now intros ->. Qed.
Lemma bindM_inv {A B} (m : M A) (f : A -> M B) st b st' : bindM m f st = Ret (b, st') ->
  exists a st1, m st = Ret (a, st1) /\ f a st1 = Ret (b, st').
Proof. unfold bindM. destruct (m st) as [[a st1]|w|]; [|discriminate|discriminate]. intros H. now exists a, st1. Qed.

Ltac kk t := repeat first [t | cbv zeta; first
  [ apply k_ret | apply k_panic | apply k_rd32 | apply k_rdPtr | apply k_rdStr | apply k_gotoM | apply k_setErr
  | apply k_bind; [|intros ?] | apply k_if | match goal with |- keeps (match ?x with _ => _ end) => destruct x end ]].

(** ** a record of the file and its layer *)
Section Records.
Variables (rnd : nat -> Z) (wtext : list textDatum -> Z -> Z -> option (list Z)) (f : colfun) (ct : Z).
Definition made (r : layer * Z * Z * list Z) (fl : flayer) : Prop :=
  let '(l, x, y, path) := r in exists txt img msk n n1 n2,
    fl = fl_of ct l x y path txt img msk /\ text_data wtext l txt /\
    image_grid rnd f (unmasked (lImage l)) n img n1 /\ mask_grid (mask_of (lImage l)) n1 msk n2 /\
    fits (image_Bounds (unmasked (lImage l))) /\ match mask_of (lImage l) with Some m => fits (grayBounds m) | None => True end.
Lemma flat_made l ox oy gs n fls n' : flat_layer rnd wtext f ct l ox oy gs n fls n' -> writable l -> Forall2 made (preorder l ox oy gs) fls.
Proof.
  apply (flat_layer_mut rnd wtext f ct (fun l ox oy gs n fls n' _ => writable l -> Forall2 made (preorder l ox oy gs) fls)
   (fun g ox oy gs i n fls n' _ => fold_right (fun l P => writable l /\ P) True g -> Forall2 made (preorders g ox oy gs i) fls)).
  - clear. intros l ox oy gs n txt img n1 msk n2 G T R M W. rewrite preorder_leaf by exact G. constructor; [|constructor].
    exists txt, img, msk, n, n1, n2. destruct l as [nm b md inv tr im]. destruct W as (W1 & W2 & _). auto 10.
  - clear. intros name b md inv tr g ox oy gs n img n1 fls n2 l R _ IH (W1 & W2 & W3). unfold l. rewrite preorder_group.
    constructor; [|exact (IH W3)]. exists None, img, None, n, n1, n1. cbn [lImage mask_of unmasked text_data text_of]. repeat split; auto; apply W1.
  - constructor.
  - clear. intros l g ox oy gs i n fl1 n1 fl2 n2 _ IH1 _ IH2 [W1 W2]. cbn [preorders]. apply Forall2_app; auto.
Qed.
Lemma flats_made g ox oy gs i n fls n' : flat_layers rnd wtext f ct g ox oy gs i n fls n' -> fold_right (fun l P => writable l /\ P) True g ->
  Forall2 made (preorders g ox oy gs i) fls.
Proof. induction 1; intros W; cbn [preorders]; [constructor|]. destruct W. apply Forall2_app; [eapply flat_made; eassumption|auto]. Qed.
End Records.

Section One.
Variables (rnd : nat -> Z) (wtext : list textDatum -> Z -> Z -> option (list Z)) (ptext : list Z -> tres).
Variables (k : cmodel) (d : dparams).
Hypothesis Hbase : dpBase d = base_type k.
Hypothesis Hpal : dpPal d = pal_of k.
Hypothesis Hcomp : dpComp d = 1.
Hypothesis Hmode : dpMode d < 2.
Notation made := (made rnd wtext (conv k) (base_type k)).
Notation loads := (loads wtext (read_text ptext) (dpDecompress d)).

Lemma head_ok l x y path txt img msk : storable (l, x, y, path) -> utf8 (lName l) -> good_head d (fl_of (base_type k) l x y path txt img msk).
Proof.
  destruct l as [nm b md inv tr im]. intros (LN & T & X & Y & F & DX & DY & _) U. cbn [lName lBounds lTransparency] in *.
  pose proof (base_types k). pose proof (modeID_range md). unfold good_head. cbn [fl_of flW flH flType flName flOpacity flVisible flX flY flPath flMode lBounds lName lTransparency lInvisible lMode].
  rewrite Hbase. unfold word_sized in *.
  assert (F' : Forall (fun z => -2147483648 <= z < 2147483648) path) by (eapply Forall_impl; [|exact F]; cbv beta; intros; lia).
  repeat (split; [try assumption; try lia; try (destruct inv; auto)|]). lia.
Qed.
Lemma unmasked_bounds i : image_Bounds (unmasked i) = image_Bounds i. Proof. destruct i; reflexivity. Qed.
Lemma picture_ok l x y path txt img msk n n1 : storable (l, x, y, path) -> is_group (lImage l) = false -> fits (image_Bounds (unmasked (lImage l))) ->
  image_grid rnd (conv k) (unmasked (lImage l)) n img n1 ->
  0 <= gdW img <= 4294967232 /\ 0 <= gdH img <= 4294967232 /\ gdW img = dx (image_Bounds (lImage l)) /\ gdH img = dy (image_Bounds (lImage l)) /\
  (gdW img = dx (lBounds l) -> gdH img = dy (lBounds l) -> exists px, good_image d (fl_of (base_type k) l x y path txt img msk) px).
Proof.
  intros (LN & T & X & Y & F & DX & DY & S) NG FI IG. pose proof (unmasked_bounds (lImage l)) as EU.
  assert (S1 : dx (image_Bounds (lImage l)) <= 4294967232 /\ dy (image_Bounds (lImage l)) <= 4294967232) by (clear - S NG; destruct (lImage l); try discriminate; cbn in S |- *; tauto).
  rewrite <- EU in S1. destruct (image_px rnd wtext 0 (conv k) _ n img n1 FI (proj1 S1) (proj2 S1) IG) as (GW & GH & GC & px & CO & _).
  pose proof CO as (RW & RH & _). split; [exact RW|]. split; [exact RH|]. rewrite <- EU. split; [exact GW|]. split; [exact GH|].
  intros E1 E2. exists px. unfold good_image. cbn [fl_of flW flH flImage flType]. do 3 (split; [assumption|]).
  split; [rewrite GC, (conv_channels k d Hbase Hpal); f_equal; lia|]. intros B5. rewrite Hpal. unfold pal_of. assert (B2 : base_type k = 2) by lia.
  destruct k; try discriminate.
Qed.
Lemma mask_ok l x y path g n1 n2 m : storable (l, x, y, path) -> mask_of (lImage l) = Some m -> fits (grayBounds m) -> mask_grid (Some m) n1 (Some g) n2 ->
  gdW g = dx (grayBounds m) /\ gdH g = dy (grayBounds m) /\ gdChannels g = 1 /\ exists px, codes g px.
Proof.
  intros (LN & T & X & Y & F & DX & DY & S) ME FM MG. destruct (lImage l) as [| |i m'| |]; try discriminate. cbn [mask_of] in *. injection ME as ->.
  destruct S as (_ & _ & S1 & S2). destruct (mask_px rnd wtext 0 m n1 g n2 FM S1 S2 MG) as (GW & GH & GC & px & CO & _). eauto 10.
Qed.
(** the rectangles compared *)
Lemma rEq_mask x y w h gw gh : 0 <= w -> 0 <= h -> 0 <= gw -> 0 <= gh ->
  rEq (mkRect x y (x + w) (y + h)) (mkRect 0 0 gw gh) = true <->
  (x = 0 /\ y = 0 /\ gw = w /\ gh = h) \/ ((w = 0 \/ h = 0) /\ (gw = 0 \/ gh = 0)).
Proof. intros. unfold rEq, rect_eqb, rempty. cbn [minX minY maxX maxY]. lia. Qed.

Lemma loads_readable r fl : made r fl -> storable r -> loads r -> readable ptext d fl.
Proof.
  destruct r as [[[l x] y] path]. intros (txt & img & msk & n & n1 & n2 & -> & TD & IG & MG & FI & FM) ST (U & LO).
  split; [now apply head_ok|]. cbn [fl_of flGroup flText flMask].
  pose proof ST as (_ & _ & _ & _ & _ & DX & DY & _).
  destruct (is_group (lImage l)) eqn:NG.
  - destruct (lImage l) as [|g| | |] eqn:EI; try discriminate. unfold text_data in TD. rewrite EI in TD. cbn [text_of mask_of] in *.
    destruct txt; [contradiction|]. destruct msk; [contradiction|]. repeat split; discriminate.
  - split; [discriminate|]. destruct (picture_ok l x y path txt img msk n n1 ST NG FI IG) as (RW & RH & EW & EH & GI).
    split; [|split].
    + intros _. assert (LW : dx (image_Bounds (lImage l)) = dx (lBounds l) /\ dy (image_Bounds (lImage l)) = dy (lBounds l)) by (clear - LO NG; destruct (lImage l); try discriminate; cbv zeta in LO; tauto).
      apply GI; lia.
    + intros data ->. unfold text_data in TD. rewrite !u32_small in TD by lia. destruct (lImage l) as [| | |i [|t ts]|] eqn:EI; try contradiction.
      cbn [text_of] in TD. destruct LO as (_ & _ & da & t' & E1 & E2). rewrite E1 in TD. injection TD as ->.
      unfold read_text in E2. destruct (ptext data); try discriminate. eauto.
    + intros g ->. destruct (mask_of (lImage l)) as [m|] eqn:ME; [|contradiction].
      destruct (mask_ok l x y path g n1 n2 m ST ME FM MG) as (GW & GH & GC & px & CO). pose proof CO as (CW & CH & _). exists px. unfold good_mask.
      cbn [fl_of flW flH flX flY]. destruct (lImage l) as [| |i m'| |]; try discriminate. cbn [mask_of] in ME. injection ME as ->.
      destruct LO as (_ & _ & DC & K). split; [exact DC|]. split; [exact CO|]. split; [exact GC|]. apply rEq_mask; lia.
Qed.

(** ** a layer that is read without an error *)
Variables (fuel : nat) (s : src) (f32op : Z -> Z).
Hypothesis Hlen : zlen (sFile s) < 4294967296.
Hypothesis HF : 4294967296 <= Z.of_nat fuel.

Lemma name_utf8 p l a st : holds s p (str l) -> zlen l < maxString -> rdStr s (mkR p None) = Ret (a, st) -> rErr st = None -> utf8 l.
Proof.
  intros H LS E N. destruct (utf8_valid l) eqn:V; [exact (utf8_valid_sound _ l (le_n _) V)|exfalso].
  destruct (holds_split _ _ _ _ H) as [H1 H2]. rewrite be32_len in H2. pose proof (zlen_pos l).
  assert (U : u32 (zlen l + 1) = zlen l + 1) by (apply u32_small; unfold maxString in *; lia).
  destruct (holds_rest s p _ None H1) as [t R]. unfold rdStr, liftM, readString in E.
  rewrite (readUint32_ok s (mkR p None) _ t (eq_refl : rErr (mkR p None) = None) R), U in E.
  replace (zlen l + 1 =? 0) with false in E by lia. replace (maxString <? zlen l + 1) with false in E by lia.
  destruct (holds_rest s (p + 4) _ None H2) as [t2 R2].
  change (advance (mkR p None) 4) with (mkR (p + 4) None) in E.
  rewrite (readFull_ok s (zlen l + 1) (mkR (p + 4) None) (l ++ [0]) t2) in E; [|reflexivity|exact R2|now rewrite zlen_app].
  replace (zlen l + 1 - 1) with (zlen l) in E by lia. rewrite ztake_app in E by reflexivity.
  assert (Z : znth (l ++ [0]) (zlen l) = Some 0).
  { unfold znth. replace (zlen l <? 0) with false by lia. rewrite nth_error_app2 by (unfold zlen; lia).
    replace (Z.to_nat (zlen l) - length l)%nat with O by (unfold zlen; lia). reflexivity. }
  rewrite Z, V in E. injection E as _ <-. discriminate N.
Qed.
Lemma size_checked g p w h mode a st : holds s p (grid_bytes g p) -> 0 <= gdW g < 4294967296 -> 0 <= gdH g < 4294967296 ->
  readImage fuel s d w h mode (mkR p None) = Ret (a, st) -> (gdW g = w /\ gdH g = h) \/ (a = RNil /\ rErr st <> None).
Proof.
  intros H RW RH E. unfold grid_bytes in H. cbv zeta in H. apply holds_split in H as [H1 H]. rewrite w32_len in H. apply holds_split in H as [H2 _].
  unfold readImage in E. rewrite (step _ _ _ _ _ (runs_w32 s _ _ H1)) in E. rewrite (step _ _ _ _ _ (runs_w32 s _ _ H2)) in E.
  rewrite !u32_small in E by lia. destruct ((gdW g =? w) && (gdH g =? h)) eqn:B; [left; lia|right].
  cbn [negb] in E. cbn in E. injection E as <- <-. split; [reflexivity|discriminate].
Qed.
(** a mask is not read by DecodeCompressed *)
Lemma channel_asserts g px p : dpDecompress d = false -> codes g px -> gdChannels g = 1 -> holds s p (mask_bytes g p) ->
  readChannel fuel s d (mkR p None) = Panic PAssert.
Proof.
  intros HD C C1 H. unfold mask_bytes in H. pose proof C as (RW & RH & _).
  apply holds_split in H as [H1 H]. rewrite w32_len in H. apply holds_split in H as [H2 H]. rewrite w32_len in H.
  apply holds_split in H as [H3 H]. change (zlen (string32 [])) with 5 in H. apply holds_split in H as [H4 H]. change (zlen (prop32 0 [])) with 8 in H.
  apply holds_split in H as [H5 H]. rewrite w32_len in H. replace (p + 4 + 4 + 5 + 8 + 4) with (p + 25) in H by lia.
  unfold readChannel. rewrite (step _ _ _ _ _ (runs_w32 s _ _ H1)), (step _ _ _ _ _ (runs_w32 s _ _ H2)). rewrite !u32_small by lia.
  rewrite string32_str in H3. rewrite (step _ _ _ _ _ (runs_skStr s ltac:(lia) _ _ H3)). change (zlen (str [])) with 5.
  rewrite (step (skipProperties fuel s) _ _ tt (p + 4 + 4 + 5 + 8)).
  2:{ unfold skipProperties. destruct fuel as [|f]; [lia|]. cbn [whileM]. apply holds_split in H4 as [A1 A2]. rewrite w32_len in A2.
    apply holds_split in A2 as [A2 _]. eapply (runs_bind _ _ _ (inr tt)).
    - eapply runs_bind; [apply runs_w32; exact A1|]. eapply runs_bind; [apply runs_w32; exact A2|].
      change (u32 0) with 0. change (u32 (zlen (@nil Z))) with 0. cbn [Z.eqb]. eapply runs_bind; [apply runs_ret|].
      apply runs_ret.
    - eapply runs_q; [apply runs_ret|lia]. }
  pose proof (holds_range _ _ _ H) as HR. pose proof (grid_len g (p + 25)). pose proof (holds_range _ _ _ H1).
  rewrite (step _ _ _ _ _ (runs_ptr s d Hmode _ _ H5)). rewrite u32_small by lia. rewrite (step _ _ _ _ _ (runs_goto (p + 4 + 4 + 5 + 8 + 4) (p + 25) ltac:(lia))).
  destruct (runs_readImage fuel s d Hlen HF Hcomp Hmode g px (p + 25) 2 C ltac:(lia) ltac:(rewrite C1; reflexivity) H) as (r & q & R & D).
  rewrite (step _ _ _ _ _ R). unfold decoded in D. rewrite HD in D. subst r. reflexivity.
Qed.

Lemma read_loads r fl p a st : made r fl -> storable r -> holds s p (layer_bytes fl p) ->
  readLayer fuel s f32op ptext d (mkR p None) = Ret (a, st) -> rErr st = None -> loads r.
Proof.
  destruct r as [[[l x] y] path]. intros (txt & img & msk & n & n1 & n2 & Efl & TD & IG & MG & FI & FM) ST H E N.
  pose proof ST as (LN & T & X & Y & F & DX & DY & SP). pose proof (base_types k) as BR.
  pose proof (holds_range _ _ _ H) as HR. unfold layer_bytes in H, HR. cbv zeta in H, HR. set (hp := p + zlen (layer_head fl) + 8) in *.
  set (mp := hp + zlen (grid_bytes (flImage fl) hp)) in *. rewrite !zlen_app, !w32_len in HR.
  pose proof (zlen_pos (grid_bytes (flImage fl) hp)) as ZG. pose proof (zlen_pos (layer_head fl)) as ZH.
  pose proof (zlen_pos match flMask fl with Some m => mask_bytes m mp | None => [] end) as ZM.
  pose proof H as HALL.
  apply holds_split in H as [HH H]. apply holds_split in H as [Hp1 H]. rewrite w32_len in H. apply holds_split in H as [Hp2 H]. rewrite w32_len in H.
  replace (p + zlen (layer_head fl) + 4 + 4) with hp in H by (unfold hp; lia). apply holds_split in H as [HI HM]. fold mp in HM.
  unfold layer_head in HH. apply holds_split in HH as [H1 HH]. rewrite w32_len in HH. apply holds_split in HH as [H2 HH]. rewrite w32_len in HH.
  apply holds_split in HH as [H3 HH]. rewrite w32_len in HH. apply holds_split in HH as [H4 _].
  assert (FW : flW fl = dx (lBounds l) /\ flH fl = dy (lBounds l) /\ flType fl = 2 * dpBase d + 1 /\ flName fl = lName l /\ flImage fl = img /\ flMask fl = msk /\ flText fl = txt /\
    flGroup fl = is_group (lImage l) /\ flX fl = x /\ flY fl = y) by (rewrite Efl, Hbase; cbn; repeat split; lia).
  destruct FW as (EW & EH & ET & EN & EI & EM & EX & EG & EPX & EPY).
  unfold readLayer in E.
  rewrite (step _ _ _ _ _ (runs_w32 s _ _ H1)), (step _ _ _ _ _ (runs_w32 s _ _ H2)), (step _ _ _ _ _ (runs_w32 s _ _ H3)) in E.
  rewrite !u32_small in E by lia. cbv zeta in E. rewrite ET in E.
  replace ((2 * dpBase d + 1) / 2) with (dpBase d) in E by (rewrite Z.mul_comm, Z.div_add_l by lia; change (1 / 2) with 0; lia).
  rewrite Z.eqb_refl in E. cbn [negb] in E.
  replace (((2 * dpBase d + 1) mod 2 =? 1)) with true in E.
  2:{ rewrite Z.add_comm, Z.mul_comm, Z.mod_add by lia. reflexivity. }
  (* the name *)
  assert (U : utf8 (lName l)).
  { apply bindM_inv in E. destruct E as (nm & st1 & EN1 & E). rewrite string32_str in H4. rewrite EN in H4.
    eapply (name_utf8 _ _ nm st1 H4); [exact LN|replace (p + 4 + 4 + 4) with (p + 12) in EN1 by lia; replace (p + 4 + 4 + 4) with (p + 12) by lia; exact EN1|].
    destruct (rErr st1) as [er|] eqn:R1; [|reflexivity]. exfalso.
    match type of E with ?m _ = _ => assert (K : keeps m) end.
    { unfold finishLayer, readMask. kk ltac:(first [apply k_props|apply k_readImage|apply k_channel]). all: intros ? ? ? ? ? [=]. }
    rewrite (K _ _ _ _ R1 E) in N. discriminate. }
  split; [exact U|]. 
  assert (GH : good_head d fl) by (rewrite Efl; now apply head_ok).
  pose proof (runs_readProps fuel s f32op ptext d Hlen HF fl p (p + zlen (layer_head fl)) _ GH HALL eq_refl) as RP.
  rewrite (step (rdStr s) _ _ (flName fl) (p + 12 + zlen (string32 (flName fl)))) in E.
  2:{ replace (p + 12) with (p + 4 + 4 + 4) by lia. rewrite string32_str in *. apply runs_rdStr; [exact H4|now rewrite EN|now rewrite EN]. }
  rewrite (step _ _ _ _ _ RP) in E. cbv beta iota in E.
  rewrite (step _ _ _ _ _ (runs_ptr s d Hmode _ _ Hp1)), (step _ _ _ _ _ (runs_ptr s d Hmode _ _ Hp2)) in E.
  assert (HPB : 0 <= hp < 4294967296) by (unfold hp; lia).
  rewrite (u32_small hp) in E by lia. rewrite (step _ _ _ _ _ (runs_goto (p + zlen (layer_head fl) + 4 + 4) hp HPB)) in E.
  cbn [head_layer dlGroup] in E. rewrite EG in E. destruct (is_group (lImage l)) eqn:NG.
  { destruct (lImage l); try discriminate. exact Logic.I. }
  destruct (picture_ok l x y path txt img msk n n1 ST NG FI IG) as (RW & RH & PW & PH & GI).
  fold (head_layer d fl None) in E.
  replace (dx (dlBounds (head_layer d fl None))) with (flW fl) in E by (unfold dx; cbn; lia).
  replace (dy (dlBounds (head_layer d fl None))) with (flH fl) in E by (unfold dy; cbn; lia).
  rewrite !(u32_small (flW fl)), !(u32_small (flH fl)) in E by lia.
  apply bindM_inv in E. destruct E as (im & st1 & EI1 & E). rewrite EI in HI.
  destruct (size_checked img hp (flW fl) (flH fl) _ im st1 HI ltac:(lia) ltac:(lia) EI1) as [[S1 S2]|[-> NE]].
  2:{ cbn [pic_of] in E. injection E as _ <-. now rewrite N in NE. }
  destruct (GI ltac:(lia) ltac:(lia)) as (px & GI'). rewrite <- Efl in GI'. destruct GI' as (_ & _ & CG & CC & PL). rewrite EI in CG, CC.
  assert (M3 : flType fl = 1 \/ flType fl = 3 \/ flType fl = 5) by lia. rewrite <- ET in EI1.
  destruct (runs_readImage fuel s d Hlen HF Hcomp Hmode img px hp (flType fl) CG ltac:(lia)) as (r & q & R & D).
  { rewrite CC. destruct M3 as [-> | [-> | ->]]; reflexivity. }
  { exact HI. }
  rewrite S1, S2 in R. unfold runs in R. rewrite R in EI1. injection EI1 as <- <-.
  destruct (pic_shows fuel f32op d _ _ _ _ CG M3 PL CC D) as (pc & EP & _). rewrite EP in E.
  assert (LO : match lImage l with IGroup _ => True | i => match i with
      | IMasked _ m => dpDecompress d = true /\ ((x = 0 /\ y = 0 /\ dx (grayBounds m) = dx (lBounds l) /\ dy (grayBounds m) = dy (lBounds l)) \/
           ((dx (lBounds l) = 0 \/ dy (lBounds l) = 0) /\ (dx (grayBounds m) = 0 \/ dy (grayBounds m) = 0)))
      | IText _ (t :: ts) => exists data t', wtext (t :: ts) (dx (lBounds l)) (dy (lBounds l)) = Some data /\ read_text ptext data = Some t'
      | _ => True end end).
  { unfold finishLayer in E. unfold text_pars in E. rewrite EX, EM in E. unfold text_data in TD.
    destruct (lImage l) as [| |i m|i [|t ts]|] eqn:EL; try exact Logic.I; cbn [text_of mask_of] in TD, MG, FM.
    - destruct txt; [contradiction|]. destruct msk as [g|]; [|contradiction].
      destruct (mask_ok l x y path g n1 n2 m ST ltac:(now rewrite EL) FM MG) as (GW & GHh & GC & pm & CO). pose proof CO as (CW & CH & _).
      rewrite EM in HM. pose proof (holds_range _ _ _ HM) as RM. pose proof (zlen_pos (mask_bytes g mp)).
      cbn [par_get find] in E. rewrite u32_small in E by (unfold mp in *; lia).
      replace (mp =? 0) with false in E by (unfold mp, hp in *; lia). cbn [negb] in E.
      rewrite (step _ _ _ _ _ (runs_goto q mp ltac:(unfold mp in *; lia))) in E.
      destruct (dpDecompress d) eqn:DC.
      + split; [reflexivity|]. unfold readMask in E.
        destruct (runs_readChannel fuel s d Hlen HF Hcomp Hmode g pm mp DC CO GC HM) as (o & q2 & R2 & m' & -> & BM & _).
        rewrite (step _ _ _ _ _ R2) in E. rewrite BM in E. cbn [head_layer dl_image dlBounds] in E. rewrite EPX, EPY, EW, EH in E.
        destruct (rEq _ _) eqn:RE in E.
        * apply rEq_mask in RE; lia.
        * cbn [negb] in E. cbn in E. injection E as _ <-. discriminate N.
      + unfold readMask, bindM in E. rewrite (channel_asserts g pm mp DC CO GC HM) in E. discriminate.
    - destruct txt as [data|]; [|contradiction]. rewrite !u32_small in TD by lia. exists data.
      unfold read_text. cbn in E. destruct (ptext data) as [td| | |]; try discriminate; [eauto|].
      cbn in E. injection E as _ <-. discriminate N. }
  destruct (lImage l); try discriminate; (split; [lia|split; [lia|exact LO]]).
Qed.
End One.

(** ** the places of the layers in the tree *)
Section Shape.
Variables (rnd : nat -> Z) (wtext : list textDatum -> Z -> Z -> option (list Z)) (ptext : list Z -> tres) (f : colfun) (ct : Z) (d : dparams).
Definition indices (r : layer * Z * Z * list Z) : Prop := Forall (fun z => 0 <= z < 55296) (snd r).
Definition result_of (fl : flayer) : dlayer -> Prop := fun dl => exists im, dl = head_layer d fl im.
Definition node_paths (p : list Z) (r : Z) (dls : list dlayer) : Prop := exists nd, dls = map dl_of (node_order (bare_at p) p r nd) /\ well_node nd.
Definition forest_paths (p : list Z) (i : Z) (dls : list dlayer) : Prop :=
  exists f, dls = map dl_of (file_order (bare_at p) p f) /\ well_labelled f /\ numbered i f.
Lemma forest_cons p i dl1 dl2 : 0 <= i < 55296 -> node_paths p i dl1 -> forest_paths p (i + 1) dl2 -> forest_paths p i (dl1 ++ dl2).
Proof.
  intros I (nd & -> & WN) (g & -> & WF & NF). exists (FCons i nd g). split; [now rewrite file_order_cons, map_app|]. split.
  - cbn [well_labelled]. split; [unfold scalar; lia|]. split; [|split; [exact WN|exact WF]]. intros In_. apply (labels_from wtext _ _ NF) in In_. lia.
  - split; [reflexivity|exact NF].
Qed.
Lemma kept_path l x y p r txt img msk : path_kept (fl_of ct l x y (p ++ [r]) txt img msk) = if bare_at p then [] else p ++ [r].
Proof.
  unfold path_kept. cbn [fl_of flPath]. destruct p as [|z p]; [reflexivity|]. cbn [bare_at]. rewrite zlen_app, zlen_cons. change (zlen [r]) with 1.
  pose proof (zlen_pos p). now replace (1 <? 1 + zlen p + 1) with true by lia.
Qed.
Lemma last_index p r : Forall (fun z => 0 <= z < 55296) (p ++ [r]) -> 0 <= r < 55296.
Proof. intros F. apply Forall_app in F as [_ F]. now inversion F. Qed.
Lemma preorder_first l x y path : exists t, preorder l x y path = (l, x, y, path) :: t.
Proof. destruct l as [? ? ? ? ? im]. cbn [preorder]. eauto. Qed.
Lemma flat_shape l ox oy gs n fls n' : flat_layer rnd wtext f ct l ox oy gs n fls n' ->
  forall p r dls, gs = p ++ [r] -> Forall indices (preorder l ox oy gs) -> Forall2 result_of fls dls -> node_paths p r dls.
Proof.
  apply (flat_layer_mut rnd wtext f ct
   (fun l ox oy gs n fls n' _ => forall p r dls, gs = p ++ [r] -> Forall indices (preorder l ox oy gs) -> Forall2 result_of fls dls -> node_paths p r dls)
   (fun g ox oy gs i n fls n' _ => 0 <= i -> forall dls, Forall indices (preorders g ox oy gs i) -> Forall2 result_of fls dls -> forest_paths gs i dls)).
  - clear l ox oy gs n fls n'. intros l ox oy gs n txt img n1 msk n2 NG _ _ _ p r dls -> _ F.
    inversion F as [|? dl ? ? (im & ->) F']; subst. inversion F'; subst. set (fl := fl_of _ _ _ _ _ _ _ _) in *.
    exists (NLeaf (mkA (flName fl) (mkRect (flX fl) (flY fl) (flX fl + flW fl) (flY fl + flH fl)) (read_mode d (flMode fl)) (flVisible fl =? 0) (255 - flOpacity fl) im true)).
    split; [|exact Logic.I]. cbn [node_order map]. unfold head_layer, dl_of. cbn [aName aBounds aMode aInvisible aTransparency aImage aAlpha].
    f_equal. f_equal; [exact NG|]. unfold fl. now rewrite kept_path.
  - clear l ox oy gs n fls n'. intros nm b md inv tr g ox oy gs n img n1 fls n2 l IG FL IH p r dls -> IX F.
    inversion F as [|? dl ? dls' (im & ->) F']; subst. set (fl := fl_of _ _ _ _ _ _ _ _) in *. unfold l in IX. rewrite preorder_group in IX. inversion IX as [|? ? I1 I2]; subst.
    destruct (IH ltac:(lia) dls' I2 F') as (kids & -> & WK & _). replace (bare_at (p ++ [r])) with false by (now destruct p).
    exists (NGroup (mkA (flName fl) (mkRect (flX fl) (flY fl) (flX fl + flW fl) (flY fl + flH fl)) (read_mode d (flMode fl)) (flVisible fl =? 0) (255 - flOpacity fl) im true) kids).
    split; [|exact WK]. cbn [node_order map]. unfold head_layer, dl_of at 1. cbn [aName aBounds aMode aInvisible aTransparency aImage aAlpha].
    f_equal. f_equal. unfold fl. now rewrite kept_path.
  - intros. match goal with X : Forall2 _ [] _ |- _ => inversion X; subst end. exists FNil. repeat split; constructor.
  - clear l ox oy gs n fls n'. intros l g ox oy gs i n fl1 n1 fl2 n2 F1 IH1 F2 IH2 I0 dls IX F.
    cbn [preorders] in IX. apply Forall_app in IX as [I1 I2].
    apply Forall2_app_l in F as (d1 & d2 & -> & R1 & R2). apply forest_cons; [|now apply IH1|apply IH2; auto; lia].
    destruct (preorder_first l (ox + minX (lBounds l)) (oy + minY (lBounds l)) (gs ++ [i])) as (t & E). rewrite E in I1. inversion I1 as [|? ? J _]; subst. exact (last_index _ _ J).
Qed.
Lemma flats_shape g ox oy gs i n fls n' : flat_layers rnd wtext f ct g ox oy gs i n fls n' -> 0 <= i ->
  forall dls, Forall indices (preorders g ox oy gs i) -> Forall2 result_of fls dls -> forest_paths gs i dls.
Proof.
  induction 1 as [|l g ox oy gs i n fl1 n1 fl2 n2 F1 F2 IH2]; intros I0 dls IX F.
  - inversion F; subst. exists FNil. repeat split; constructor.
  - cbn [preorders] in IX. apply Forall_app in IX as [I1 I2]. apply Forall2_app_l in F as (d1 & d2 & -> & R1 & R2).
    apply forest_cons; [|eapply flat_shape; eauto|apply IH2; auto; lia].
    destruct (preorder_first l (ox + minX (lBounds l)) (oy + minY (lBounds l)) (gs ++ [i])) as (t & E). rewrite E in I1. inversion I1 as [|? ? J _]; subst. exact (last_index _ _ J).
Qed.
End Shape.

(** ** the file *)
Lemma made_in {A B} (P : A -> B -> Prop) la lb a : Forall2 P la lb -> In a la -> exists b, In b lb /\ P a b.
Proof. induction 1 as [|x y la lb H F IH]; [easy|]. intros [->|I]; [exists y; split; [now left|exact H]|]. destruct (IH I) as (b & J & K). exists b. split; [now right|exact K]. Qed.
Lemma made_in_r {A B} (P : A -> B -> Prop) la lb b : Forall2 P la lb -> In b lb -> exists a, In a la /\ P a b.
Proof. induction 1 as [|x y la lb H F IH]; [easy|]. intros [->|I]; [exists x; split; [now left|exact H]|]. destruct (IH I) as (a & J & K). exists a. split; [now right|exact K]. Qed.
Lemma in_znth {A} (l : list A) a : In a l -> exists i, znth l i = Some a.
Proof. intros I. apply In_nth_error in I as (n & E). exists (Z.of_nat n). unfold znth. replace (Z.of_nat n <? 0) with false by lia. now rewrite Nat2Z.id. Qed.
Lemma mapO_all {A B} (g : A -> outcome B) l : forall r a, mapO g l = Ret r -> In a l -> exists b, g a = Ret b /\ In b r.
Proof.
  induction l as [|x l IH]; intros r a; cbn [mapO]; [intros _ []|].
  destruct (g x) as [b| |] eqn:E; try discriminate. cbn [bindO]. destruct (mapO g l) as [r'| |]; try discriminate. cbn [bindO].
  intros [= <-] [-> | I]; [exists b; split; [exact E|now left]|]. destruct (IH r' a eq_refl I) as (c & F & J). exists c. split; [exact F|now right].
Qed.
Lemma no_err {A} (l : list (A * option err)) x : first_err l = None -> In x l -> snd x = None.
Proof. induction l as [|[a [e|]] l IH]; [easy|discriminate|]. intros H [<-|I]; [reflexivity|now apply IH]. Qed.

Lemma loads_file rnd wtext ptext g fls n' dc fuel s f32op :
  let i := IGroup g in let W := dx (image_Bounds i) in let H := dy (image_Bounds i) in
  flat_layers rnd wtext (conv_of i) (base_of i) g 0 0 [] 0 0 fls n' ->
  fold_right (fun l P => writable l /\ P) True g -> 0 <= W < 4294967296 -> 0 <= H < 4294967296 ->
  Forall storable (preorders g 0 0 [] 0) ->
  holds s 0 (file_bytes (head_of i) fls) -> zlen (sFile s) < 4294967296 -> 4294967296 <= Z.of_nat fuel ->
  (exists ls, decodeImageFrom fuel s f32op ptext dc = Ret (inr ls)) <-> Forall (loads wtext (read_text ptext) dc) (preorders g 0 0 [] 0).
Proof.
  intros i W H FL Wr RW RH ST HB Hl HF. set (d := head_params (head_of i) dc). set (k := image_ColorModel i).
  assert (HD : fhW (head_of i) = W /\ fhH (head_of i) = H /\ fhBase (head_of i) = base_type k /\ fhPalette (head_of i) = option_map palette_bytes (snd (colour_type k))).
  { unfold head_of. fold k. rewrite <- ct_base. destruct (colour_type k) as [[ct f] pal]. auto. }
  destruct HD as (E1 & E2 & E3 & E4).
  assert (Hbase : dpBase d = base_type k) by exact E3.
  assert (Hpal : dpPal d = pal_of k).
  { unfold d, head_params, head_palette, pal_of. cbn [dpPal]. rewrite E4. destruct (snd (colour_type k)); reflexivity. }
  assert (CB : conv_of i = conv k) by reflexivity. assert (BB : base_of i = base_type k) by (apply ct_base).
  rewrite CB, BB in FL.
  assert (GH : good_fhead (head_of i)).
  { unfold good_fhead. rewrite E1, E2, E3, E4. split; [exact RW|]. split; [exact RH|]. split; [apply base_types|]. apply palette_types. }
  pose proof (flats_made rnd wtext (conv k) (base_type k) _ _ _ _ _ _ _ _ FL Wr) as MD.
  pose proof ST as ST'. rewrite Forall_forall in ST'.
  assert (CM : dpComp d = 1 /\ dpMode d < 2) by (cbn; lia). destruct CM as [Hcomp Hmode]. split.
  - intros (ls & D). rewrite Forall_forall. intros r IR. destruct (made_in _ _ _ _ MD IR) as (fl & IFL & MR).
    destruct (file_blocks fuel s f32op Hl _ _ HB) as [BL OF]. cbv zeta in BL, OF.
    pose proof (holds_range _ _ _ HB) as HR. pose proof HB as HB'. unfold file_bytes in HB', HR. cbv zeta in HB', HR.
    set (bs := map layer_bytes fls) in *. set (q := zlen (file_head (head_of i)) + 4 * zlen bs + 8) in *.
    rewrite !zlen_app, zlen_w32s, zlen_offsets, !w32_len in HR.
    pose proof (zlen_pos bs) as Zb. pose proof (zlen_pos (blocks q bs)) as Zbl. pose proof (zlen_pos (file_head (head_of i))) as Zh.
    rewrite (decode_head fuel s f32op ptext Hl HF (head_of i) (offsets q bs) dc GH OF) in D.
    2:{ rewrite zlen_offsets. lia. }
    2:{ replace (file_head (head_of i) ++ flat_map w32 (offsets q bs) ++ w32 0 ++ w32 0 ++ blocks q bs)
          with ((file_head (head_of i) ++ flat_map w32 (offsets q bs) ++ w32 0) ++ w32 0 ++ blocks q bs) in HB' by now rewrite <- !app_assoc.
        exact (proj1 (holds_split _ _ _ _ HB')). }
    fold d in D. destruct (mapO (readLayerAt fuel s f32op ptext d) (offsets q bs)) as [rs| |] eqn:MO; [|discriminate|discriminate]. cbn [bindO] in D.
    destruct (first_err rs) as [e|] eqn:FE; [discriminate|].
    destruct (in_znth _ _ IFL) as (j & Nj). destruct (blocks_offsets s bs q BL j (layer_bytes fl)) as (p & Np & Hp); [unfold bs; now rewrite znth_map, Nj|].
    pose proof (znth_In _ _ _ Np) as Ip. destruct (mapO_all _ _ _ _ MO Ip) as ([ly oe] & RL & IL). pose proof (no_err _ _ FE IL) as SE. cbn [snd] in SE. subst oe.
    rewrite Forall_forall in OF. specialize (OF p Ip). cbv beta in OF.
    unfold readLayerAt in RL. rewrite (step _ _ _ _ _ (runs_goto 0 p ltac:(lia))) in RL.
    destruct (readLayer fuel s f32op ptext d (mkR p None)) as [[l2 st2]| |] eqn:ER; [|discriminate|discriminate]. injection RL as _ RE.
    exact (read_loads rnd wtext ptext k d Hbase Hpal Hcomp Hmode fuel s f32op Hl HF r fl p l2 st2 MR (ST' r IR) Hp ER RE).
  - intros LO. rewrite Forall_forall in LO.
    destruct (decode_file fuel s f32op ptext Hl HF (head_of i) fls dc (result ptext d) GH HB) as (dls & F2 & E).
    { intros fl p I HBl. destruct (made_in_r _ _ _ _ MD I) as (r & IR & MR).
      eapply readable_result; eauto. exact (loads_readable rnd wtext ptext k d Hbase Hpal r fl MR (ST' r IR) (LO r IR)). }
    assert (IX : Forall indices (preorders g 0 0 [] 0)).
    { eapply Forall_impl; [|exact ST]. intros [[[l x] y] path] (_ & _ & _ & _ & P & _). exact P. }
    assert (F3 : Forall2 (result_of d) fls dls) by (clear -F2; induction F2 as [|fl dl u v (im & K & _) F2 IH]; constructor; [now exists im|exact IH]).
    destruct (flats_shape rnd wtext ptext (conv k) (base_type k) d _ _ _ _ _ _ _ _ FL ltac:(lia) dls IX F3) as (f & ED & WL & NF).
    rewrite E, E1, E2, (rebuilt W H f dls ED WL NF); [eauto|]. eapply result_alpha; eassumption.
Qed.

(** An image saved by Encode is loaded exactly if each of its layers has a name in UTF-8, is a group
    or of its picture's size, and its mask and text can be read.  The file is what the destination
    holds; [masks] are read by Decode ([dc]) but not by DecodeCompressed.  The readers stop at 16 MiB
    (C42); without that limit the same holds up to 4 GiB. *)
Theorem C94_loads wr rnd wtext ptext dc i g e calls : faultless wr -> layered i g ->
  encode wr rnd wtext i = Some (e, calls) -> encodable i ->
  0 <= dx (group_Bounds g) < 4294967296 -> 0 <= dy (group_Bounds g) < 4294967296 -> Forall storable (all_layers i) ->
  e = None /\ exists f, (forall a, stored (map landed calls) a = znth f a) /\
    forall fuel f32op, 4294967296 <= Z.of_nat fuel ->
      (zlen f < 16777216 ->
         (exists ls, decodeImage fuel f f32op ptext dc = Ret (inr ls)) <-> Forall (loads wtext (read_text ptext) dc) (all_layers i)) /\
      (zlen f < 4294967296 ->
         (exists ls, decodeImageFrom fuel (mkSrc f false) f32op ptext dc = Ret (inr ls)) <-> Forall (loads wtext (read_text ptext) dc) (all_layers i)).
Proof.
  intros FL LY E EN RW RH ST.
  assert (AL : all_layers i = preorders g 0 0 [] 0) by (destruct LY as [-> | (l & -> & ->)]; reflexivity). rewrite AL in *.
  assert (EG : encode wr rnd wtext (IGroup g) = Some (e, calls) /\ encodable (IGroup g)).
  { destruct LY as [-> | (l & -> & ->)]; [auto|]. rewrite encode_layer in E. destruct EN as [E1 E2]. split; [exact E|]. cbn. split; [auto|lia]. }
  clear E EN. destruct EG as [E [Wr LN]].
  destruct (encode_group wr rnd wtext FL g e calls E Wr LN) as (-> & fls & n' & F & Z & C). split; [reflexivity|].
  exists (file_bytes (head_of (IGroup g)) fls). destruct (covers_laid _ _ _ C) as (cs & P & L).
  apply (Permutation_map landed) in P. split; [exact (laid_stored _ _ _ P L)|]. intros fuel f32op HF.
  assert (T : zlen (file_bytes (head_of (IGroup g)) fls) < 4294967296 ->
     (exists ls, decodeImageFrom fuel (mkSrc (file_bytes (head_of (IGroup g)) fls) false) f32op ptext dc = Ret (inr ls)) <-> Forall (loads wtext (read_text ptext) dc) (preorders g 0 0 [] 0)).
  { intros Hl. exact (loads_file rnd wtext ptext g fls n' dc fuel (mkSrc (file_bytes (head_of (IGroup g)) fls) false) f32op F Wr RW RH ST (holds_all _) Hl HF). }
  split; [|exact T]. intros Hl. unfold decodeImage, newReader, maxString. replace (_ <? _) with true by lia. apply T. lia.
Qed.
Print Assumptions C94_loads.

(** So Encode saves without an error images of which nothing can be loaded: one layer that is not
    of its picture's size is enough. *)
Theorem C94_size_lost wr rnd wtext ptext dc i g e calls l x y p : faultless wr -> layered i g ->
  encode wr rnd wtext i = Some (e, calls) -> encodable i ->
  0 <= dx (group_Bounds g) < 4294967296 -> 0 <= dy (group_Bounds g) < 4294967296 -> Forall storable (all_layers i) ->
  In (l, x, y, p) (all_layers i) -> (forall g', lImage l <> IGroup g') ->
  (dx (image_Bounds (lImage l)), dy (image_Bounds (lImage l))) <> (dx (lBounds l), dy (lBounds l)) ->
  e = None /\ exists f, (forall a, stored (map landed calls) a = znth f a) /\
    (zlen f < 16777216 -> forall fuel f32op ls, 4294967296 <= Z.of_nat fuel -> decodeImage fuel f f32op ptext dc <> Ret (inr ls)).
Proof.
  intros FL LY E EN RW RH ST IL NG NE. destruct (C94_loads wr rnd wtext ptext dc i g e calls FL LY E EN RW RH ST) as (-> & f & SF & D).
  split; [reflexivity|]. exists f. split; [exact SF|]. intros Hl fuel f32op ls HF K. destruct (D fuel f32op HF) as [D1 _].
  destruct (D1 Hl) as [D2 _]. specialize (D2 (ex_intro _ ls K)). rewrite Forall_forall in D2. apply D2 in IL. cbn in IL. apply NE. destruct IL as [_ IL].
  destruct (lImage l) as [ | | | | ]; try (destruct IL as (A1 & A2 & _); f_equal; [exact A1|exact A2]). exfalso. eapply NG. reflexivity.
Qed.
Print Assumptions C94_size_lost.

(** the layers of C36_ex are loaded, but not if their masks are not; nor is a 1x1 picture in a 2x1 layer *)
Definition wide94 : list layer := [mkLayer [97] (mkRect 0 0 2 1) MNormal false 0 (ILeaf (px1 1))].
Example C94_ex : Forall storable (all_layers (IGroup layers36)) /\ zlen (all_layers (IGroup layers36)) = 3 /\
  Forall (loads (fun _ _ _ => None) (fun _ => None) true) (all_layers (IGroup layers36)) /\
  ~ Forall (loads (fun _ _ _ => None) (fun _ => None) false) (all_layers (IGroup layers36)) /\
  encodable (IGroup wide94) /\ Forall storable (all_layers (IGroup wide94)) /\
  ~ Forall (loads (fun _ _ _ => None) (fun _ => None) true) (all_layers (IGroup wide94)).
Proof.
  pose proof (ascii1 97 ltac:(lia)) as U1. pose proof (ascii1 98 ltac:(lia)) as U2.
  assert (U0 : utf8 []) by (exists []; split; [constructor|reflexivity]).
  split; [|split; [|split; [|split; [|split; [|split]]]]].
  - rewrite Forall_forall. intros r IR. cbn in IR. unfold storable, word_sized, dx, dy. decompose [or] IR; subst; try contradiction; cbn; repeat split; try lia; repeat constructor; lia.
  - reflexivity.
  - rewrite Forall_forall. intros r IR. cbn in IR. decompose [or] IR; subst; try contradiction; cbn; repeat split; try assumption; try (left; repeat split; reflexivity).
  - intros F. inversion F as [|a b L _]; subst. cbn in L. destruct L as (_ & _ & _ & L & _). discriminate.
  - cbn; unfold fits; repeat split; vm_compute; discriminate || reflexivity.
  - rewrite Forall_forall. intros r IR. cbn in IR. unfold storable, word_sized, dx, dy. decompose [or] IR; subst; try contradiction; cbn; repeat split; try lia; repeat constructor; lia.
  - intros F. inversion F as [|a b L _]; subst. cbn in L. destruct L as (_ & L & _). discriminate.
Qed.
