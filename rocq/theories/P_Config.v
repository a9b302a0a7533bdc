(** C42: how much of a file is read. *)
From Coq Require Import Permutation ZifyBool ZifyNat.
Require Import Verif.Base Verif.L_List Verif.M_Color Verif.S_Color Verif.L_Word Verif.M_Composite Verif.M_Rect Verif.M_Image Verif.M_Reader
  Verif.M_Rle Verif.M_Groups Verif.S_Groups Verif.M_Monad Verif.M_Decode Verif.M_Encode Verif.S_Encode Verif.S_String Verif.S_File Verif.S_Layout Verif.S_Tree Verif.S_Linked
  Verif.L_Sticky Verif.L_Emit Verif.L_Layout Verif.L_Grid Verif.L_Run Verif.L_Linked Verif.L_Trip Verif.L_Trip2 Verif.L_Trip3 Verif.L_Trip4 Verif.S_Trip Verif.L_Trip5 Verif.L_Trip6 Verif.P_Layout Verif.P_Trip.

(** ** C42 *)
Lemma first_ext {A} (n : nat) : forall l m : list A, (forall j, (j < n)%nat -> nth_error l j = nth_error m j) -> firstn n l = firstn n m.
Proof.
  induction n as [|n IH]; intros l m E; [reflexivity|]. pose proof (E 0%nat ltac:(lia)) as E0.
  destruct l as [|a l], m as [|b m]; cbn in E0; try discriminate; [reflexivity|]. injection E0 as ->. cbn. f_equal.
  apply IH. intros j J. apply (E (S j)). lia.
Qed.
(** Nothing behind the first 16 MiB is seen: files that agree there give the same result. *)
Theorem C42_prefix_only_refuted fuel f32op ptext dc f g :
  16777216 <= zlen f -> 16777216 <= zlen g -> (forall j, 0 <= j < 16777216 -> znth f j = znth g j) ->
  decodeImage fuel f f32op ptext dc = decodeImage fuel g f32op ptext dc.
Proof.
  intros F G E. unfold decodeImage, newReader, maxString. rewrite !(proj2 (Z.ltb_ge _ _)) by assumption.
  replace (ztake 16777216 g) with (ztake 16777216 f); [reflexivity|].
  unfold ztake. apply first_ext. intros j J. specialize (E (Z.of_nat j)). unfold znth in E. replace (Z.of_nat j <? 0) with false in E by lia.
  rewrite Nat2Z.id in E. apply E. lia.
Qed.
Print Assumptions C42_prefix_only_refuted.

(** Files below 16 MiB are read whole. *)
Theorem C42_small_files_partial fuel f32op ptext dc f : zlen f < 16777216 ->
  decodeImage fuel f f32op ptext dc = decodeImageFrom fuel (mkSrc f false) f32op ptext dc.
Proof. intros L. unfold decodeImage, newReader, maxString. now replace (zlen f <? 16777216) with true by lia. Qed.
Print Assumptions C42_small_files_partial.
(** one short of the limit *)
Example C42_small_ex : zlen (repeat 0 (Z.to_nat 16777215)) < 16777216.
Proof. unfold zlen. rewrite repeat_length. lia. Qed.

Lemma mapO_in {A B} (f : A -> outcome B) l : forall r a, mapO f l = Ret r -> In a l -> exists b, f a = Ret b /\ In b r.
Proof.
  induction l as [|x l IH]; intros r a; cbn [mapO]; [intros _ []|].
  destruct (f x) as [b| |] eqn:E; try discriminate. cbn [bindO]. destruct (mapO f l) as [r'| |]; try discriminate. cbn [bindO].
  intros [= <-] [-> | I]; [exists b; split; [exact E|now left]|]. destruct (IH r' a eq_refl I) as (c & F & J). exists c. split; [exact F|now right].
Qed.
Lemma first_err_some {A} (l : list (A * option err)) a e : In (a, Some e) l -> first_err l <> None.
Proof. induction l as [|[b [x|]] l IH]; cbn; [intros []|discriminate|]. intros [[=]|I]. auto. Qed.
Lemma offsets_le bs : forall q o, In o (offsets q bs) -> o <= q + zlen (blocks q bs).
Proof.
  induction bs as [|b bs IH]; intros q o; cbn [offsets blocks]; [intros []|]. rewrite zlen_app. pose proof (zlen_pos (b q)). pose proof (zlen_pos (blocks (q + zlen (b q)) bs)).
  intros [-> | I]; [lia|]. specialize (IH _ _ I). lia.
Qed.
Lemma holds_take f a b n : f = a ++ b -> zlen a <= n -> holds (mkSrc (ztake n f) true) 0 a.
Proof.
  intros -> L. exists [], (ztake (n - zlen a) b). split; [|reflexivity]. cbn [sFile app]. unfold ztake, zlen in *.
  rewrite firstn_app. rewrite firstn_all2 by lia. f_equal. f_equal. lia.
Qed.
(** A file of the XCF layout in which a layer starts behind the first 16 MiB is not read,
    although the format allows 4 GiB. *)
Theorem C42_far_layer_refuted h fls fuel f32op ptext dc o :
  0 <= fhW h < 4294967296 -> 0 <= fhH h < 4294967296 -> 0 <= fhBase h <= 2 -> (fhPalette h <> None -> fhBase h = 2) ->
  let f := file_bytes h fls in let table := zlen (file_head h) + 4 * zlen fls + 4 in
  zlen f < 4294967296 -> table <= 16777216 ->
  In o (offsets (table + 4) (map layer_bytes fls)) -> 16777216 <= o ->
  4294967296 <= Z.of_nat fuel -> forall ls, decodeImage fuel f f32op ptext dc <> Ret (inr ls).
Proof.
  intros W H B P f table L T I O HF ls.
  assert (EF : f = (file_head h ++ flat_map w32 (offsets (table + 4) (map layer_bytes fls)) ++ w32 0) ++ w32 0 ++ blocks (table + 4) (map layer_bytes fls)).
  { unfold f, file_bytes. cbv zeta. rewrite !zlen_map. replace (table + 4) with (zlen (file_head h) + 4 * zlen fls + 8) by (unfold table; lia). now rewrite <- !app_assoc. }
  assert (OF : Forall (fun z => 0 < z < 4294967296) (offsets (table + 4) (map layer_bytes fls))).
  { assert (HH := holds_all f). destruct (file_blocks fuel (mkSrc f false) f32op L h fls HH) as [_ OF].
    rewrite zlen_map in OF. now replace (table + 4) with (zlen (file_head h) + 4 * zlen fls + 8) by (unfold table; lia). }
  set (bs := map layer_bytes fls) in *. pose proof (offsets_le _ _ _ I) as OL.
  assert (LF : zlen f = table + 4 + zlen (blocks (table + 4) bs)).
  { rewrite EF, !zlen_app, zlen_w32s, zlen_offsets, !w32_len. unfold bs. rewrite zlen_map. unfold table. lia. }
  unfold decodeImage, newReader, maxString. replace (zlen f <? 16777216) with false by lia.
  set (s := mkSrc (ztake 16777216 f) true). pose proof (zlen_ztake 16777216 f ltac:(lia)) as LS.
  assert (HB : holds s 0 (file_head h ++ flat_map w32 (offsets (table + 4) bs) ++ w32 0)).
  { eapply holds_take; [exact EF|]. rewrite !zlen_app, zlen_w32s, zlen_offsets, w32_len. unfold bs. rewrite zlen_map. unfold table in T. lia. }
  assert (LL : zlen (sFile s) < 4294967296) by (change (sFile s) with (ztake 16777216 f); rewrite LS; reflexivity).
  assert (LE : zlen (sFile s) = 16777216) by exact LS. clearbody s. clear LS.
  rewrite (decode_head fuel s f32op ptext LL HF h (offsets (table + 4) bs) dc (conj W (conj H (conj B P))) OF); [| |exact HB].
  2:{ rewrite zlen_offsets. unfold bs. rewrite zlen_map. unfold table in *. pose proof (zlen_pos (file_head h)). lia. }
  destruct (mapO _ _) as [rs| |] eqn:E; cbn [bindO]; try discriminate.
  destruct (mapO_in _ _ _ _ E I) as ([l e] & R & J). apply far_layer in R; [|rewrite LE; rewrite Forall_forall in OF; specialize (OF o I); lia].
  cbn [snd] in R. subst e. pose proof (first_err_some _ _ _ J) as N. destruct (first_err rs); [discriminate|congruence].
Qed.
Print Assumptions C42_far_layer_refuted.

(** two layers, the first with a name of 16 MiB less one byte *)
Definition long_name : list Z := repeat 97 (Z.to_nat 16777215).
Definition two (name : list Z) : list layer := [
  mkLayer name (mkRect 0 0 1 1) MNormal false 0 (ILeaf (px1 1));
  mkLayer [98] (mkRect 0 0 1 1) MNormal false 0 (ILeaf (px1 2))].
Lemma utf8_as c n : 0 <= c <= 127 -> utf8 (repeat c n).
Proof.
  intros C. exists (repeat c n). split; [apply Forall_forall; intros x X; apply repeat_spec in X; subst; unfold scalar_value; lia|].
  induction n as [|n IH]; [reflexivity|]. cbn [repeat flat_map]. rewrite <- IH. unfold utf8_enc. now replace (c <? 128) with true by lia.
Qed.
Lemma px1_grid rnd v n g n' : image_grid rnd CfRGBA (ILeaf (px1 v)) n g n' -> v = 1 \/ v = 2 -> forall p, zlen (grid_bytes g p) = 44.
Proof.
  intros (pxs & R & ->) V p. inversion R as [|? ? ? ? ? ? ? A B]; subst. inversion B; subst.
  inversion A as [|? ? ? ? ? ? ? S T]; subst. inversion T; subst. injection S as <- _.
  destruct V as [-> | ->]; vm_compute; reflexivity.
Qed.
Lemma leaf_inv rnd wtext f ct nm b md inv tr p ox oy gs n fls n' :
  flat_layer rnd wtext f ct (mkLayer nm b md inv tr (ILeaf p)) ox oy gs n fls n' -> exists img n1,
    fls = [fl_of ct (mkLayer nm b md inv tr (ILeaf p)) ox oy gs None img None] /\ image_grid rnd f (ILeaf p) n img n1.
Proof.
  intros F. inversion F as [? ? ? ? ? txt img n1 msk n2 G T I M|]; subst. cbn in T, I, M. destruct txt; [contradiction|]. destruct msk; [contradiction|].
  exists img, n1. auto.
Qed.
Lemma two_inv rnd wtext name fls n' : flat_layers rnd wtext CfRGBA 0 (two name) 0 0 [] 0 0 fls n' -> exists img1 img2,
  fls = [fl_of 0 (mkLayer name (mkRect 0 0 1 1) MNormal false 0 (ILeaf (px1 1))) 0 0 [0] None img1 None;
         fl_of 0 (mkLayer [98] (mkRect 0 0 1 1) MNormal false 0 (ILeaf (px1 2))) 0 0 [1] None img2 None] /\
  (forall p, zlen (grid_bytes img1 p) = 44) /\ (forall p, zlen (grid_bytes img2 p) = 44).
Proof.
  intros F. inversion F as [|? ? ? ? ? ? ? ? ? ? ? A B]; subst. inversion B as [|? ? ? ? ? ? ? ? ? ? ? A' B']; subst. inversion B'; subst.
  apply leaf_inv in A as (i1 & ? & -> & I1). apply leaf_inv in A' as (i2 & ? & -> & I2).
  exists i1, i2. split; [reflexivity|]. split; intros p; eapply px1_grid; eauto.
Qed.
Lemma two_good name ptext : utf8 name -> zlen name < 16777216 -> good_layers (fun _ _ _ => None) (read_text ptext) KNRGBA true 1 1 (two name) 0 0.
Proof.
  intros U L. pose proof (ascii1 98 ltac:(lia)).
  cbn [good_layers two good_layer lBounds minX minY]. unfold word_sized, dx, dy, px1, image_Bounds, mode_kept, base_type.
  cbn [picBounds minX minY maxX maxY Z.eqb].
  repeat match goal with |- _ /\ _ => split | |- In _ _ => cbn; tauto end; try assumption; try exact I; try reflexivity; try (vm_compute; discriminate); try (vm_compute; reflexivity); lia.
Qed.
(** Encode writes this file, a reader of the whole file gets both layers, Decode fails. *)
Theorem C42_whole_file_refuted : exists f, writes_file (IGroup (two long_name)) f /\ 16777216 < zlen f < 16778000 /\
  forall fuel f32op ptext, 4294967296 <= Z.of_nat fuel ->
    (exists l1 l2, decodeImageFrom fuel (mkSrc f false) f32op ptext true = Ret (inr [l1; l2])) /\
    forall ls, decode fuel f f32op ptext <> Ret (inr ls).
Proof.
  assert (LN : zlen long_name = 16777215) by (unfold long_name, zlen; rewrite repeat_length, Z2Nat.id by lia; reflexivity).
  assert (UN : utf8 long_name) by (apply utf8_as; lia).
  revert LN UN. generalize long_name. intros name LN UN.
  assert (EE : match encode (fun _ _ p => (zlen p, None)) (fun _ => 0) (fun _ _ _ => None) (IGroup (two name)) with Some _ => True | None => False end).
  { clear. vm_compute. exact I. }
  destruct (encode _ _ _ _) as [[e calls]|] eqn:E; [|contradiction]. clear EE.
  assert (Wr : fold_right (fun l P => writable l /\ P) True (two name)).
  { cbn. unfold fits. repeat split; vm_compute; discriminate || reflexivity. }
  destruct (encode_group _ _ _ ok_faultless (two name) e calls E Wr ltac:(vm_compute; reflexivity)) as (-> & fls & n' & F & ZL & C).
  exists (file_bytes (head_of (IGroup (two name))) fls). split.
  { exists calls. split; [exact E|]. destruct (covers_laid _ _ _ C) as (cs & P & L). apply (Permutation_map landed) in P. exact (laid_stored _ _ _ P L). }
  destruct (two_inv _ _ _ _ _ F) as (i1 & i2 & EF & L1 & L2).
  set (h := head_of (IGroup (two name))) in *.
  assert (LH : zlen (file_head h) = 43) by reflexivity.
  assert (LB : forall p, zlen (layer_bytes (fl_of 0 (mkLayer name (mkRect 0 0 1 1) MNormal false 0 (ILeaf (px1 1))) 0 0 [0] None i1 None) p) = 129 + zlen name).
  { intros p. unfold layer_bytes. cbv zeta. cbn [flMask flImage fl_of]. rewrite !zlen_app, L1, !w32_len. unfold layer_head.
    cbn [flPath flText flGroup fl_of lImage is_group]. change (1 <? zlen [0]) with false. cbn iota. unfold string32. rewrite !zlen_app, !prop32_len, ?zlen_app, !w32_len.
    cbn [flName fl_of lName]. change (zlen [0]) with 1. change (zlen (@nil Z)) with 0. lia. }
  assert (LB2 : forall p, zlen (layer_bytes (fl_of 0 (mkLayer [98] (mkRect 0 0 1 1) MNormal false 0 (ILeaf (px1 2))) 0 0 [1] None i2 None) p) = 130).
  { intros p. unfold layer_bytes. cbv zeta. cbn [flMask flImage fl_of]. rewrite !zlen_app, L2, !w32_len. reflexivity. }
  assert (LF : zlen (file_bytes h fls) = 16777533 /\ In 16777403 (offsets 59 (map layer_bytes fls))).
  { unfold file_bytes. cbv zeta. rewrite LH, EF. cbn [map]. change (43 + 4 * zlen [_; _] + 8) with 59. cbn [blocks offsets]. rewrite LB, LN.
    split; [|right; now left]. rewrite !zlen_app, zlen_w32s, LB, LB2, !w32_len, LH, LN. reflexivity. }
  destruct LF as [LF IO]. split; [lia|]. intros fuel f32op ptext HF. split.
  - assert (LU : zlen (sFile (mkSrc (file_bytes h fls) false)) < 4294967296) by (cbn [sFile]; lia).
    pose proof (trip (fun _ => 0) (fun _ _ _ => None) ptext (two name) fls n' true fuel (mkSrc (file_bytes h fls) false) f32op F Wr) as T.
    cbv zeta in T.
    assert (EK : image_ColorModel (IGroup (two name)) = KNRGBA) by reflexivity.
    assert (EB : image_Bounds (IGroup (two name)) = mkRect 0 0 1 1) by reflexivity.
    rewrite EK, EB in T. change (dx (mkRect 0 0 1 1)) with 1 in T. change (dy (mkRect 0 0 1 1)) with 1 in T. fold h in T.
    destruct (T ltac:(lia) ltac:(lia) ltac:(change (zlen (two name)) with 2; lia) (two_good name ptext UN ltac:(lia)) (holds_all _) LU HF) as (dls & t & _ & _ & _ & _ & K & D).
    clear T.
    rewrite D. unfold two in K. inversion K as [|? ? ? ? K1 K2]; subst. inversion K2 as [|? ? ? ? K3 K4]; subst. inversion K4; subst.
      destruct l'0 as [a1 a2 a3 a4 a5 a6]. unfold bottom_normal. cbn [rev app]. destruct a3; eexists; eexists; reflexivity.
  - intros ls. apply (C42_far_layer_refuted h fls fuel f32op ptext true 16777403);
      [vm_compute; intuition discriminate|vm_compute; intuition discriminate|vm_compute; intuition discriminate|vm_compute; congruence|lia| | |lia|exact HF].
    + rewrite LH, EF. vm_compute. discriminate.
    + rewrite LH, ZL. exact IO.
Qed.
Print Assumptions C42_whole_file_refuted.
