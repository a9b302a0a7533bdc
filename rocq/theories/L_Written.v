(** C83: Encode writes a file of the format that describes the image. *)
From Coq Require Import Permutation ZifyBool ZifyNat.
Require Import Verif.Base Verif.L_List Verif.M_Color Verif.S_Color Verif.L_Word Verif.M_Composite Verif.M_Rect Verif.M_Image Verif.S_Image Verif.L_Image Verif.M_Reader
  Verif.M_Rle Verif.S_Rle Verif.L_Rle Verif.S_Compressed Verif.M_Monad Verif.M_Decode Verif.M_Encode Verif.S_Encode Verif.S_String Verif.S_File Verif.S_Props Verif.S_Accept Verif.S_Layout Verif.S_Tree Verif.S_Linked
  Verif.L_Emit Verif.L_Layout Verif.L_Grid Verif.L_Run Verif.L_Linked Verif.L_Trip Verif.L_Trip2 Verif.L_Trip3 Verif.L_Trip4 Verif.S_Trip Verif.L_Trip5 Verif.P_Layout Verif.P_Trip
  Verif.S_Kinds Verif.P_Kinds Verif.S_Meaning Verif.S_Whole Verif.P_Whole Verif.S_Written.
Require Verif.S_Groups.

(** ** what is written are bytes *)
Notation bytes := (Forall is_u8).
Lemma u8_byte z : is_u8 (u8 z). Proof. unfold is_u8, u8. pose proof (Z.mod_pos_bound z 256). lia. Qed.
Lemma w32_bytes z : bytes (w32 z).
Proof.
  unfold w32, word. set (m := z mod 4294967296). assert (M : 0 <= m < 4294967296) by (apply Z.mod_pos_bound; lia).
  pose proof (Z.div_lt_upper_bound m 16777216 256). pose proof (Z.div_pos m 16777216).
  pose proof (Z.mod_pos_bound (m / 65536) 256). pose proof (Z.mod_pos_bound (m / 256) 256). pose proof (Z.mod_pos_bound m 256).
  repeat constructor; unfold is_u8; lia.
Qed.
Lemma w32s_bytes l : bytes (flat_map w32 l).
Proof. induction l as [|z l IH]; [constructor|]. cbn [flat_map]. apply Forall_app. split; [apply w32_bytes|exact IH]. Qed.
Lemma prop32_bytes t l : bytes l -> bytes (prop32 t l).
Proof. intros B. unfold prop32. rewrite !Forall_app. auto using w32_bytes. Qed.
Lemma string32_bytes l : bytes l -> bytes (string32 l).
Proof. intros B. unfold string32. rewrite !Forall_app. split; [apply w32_bytes|]. split; [exact B|]. constructor; [unfold is_u8; lia|constructor]. Qed.
Lemma utf8_bytes l : utf8 l -> bytes l.
Proof.
  intros (cs & S & ->). induction S as [|c cs C S IH]; [constructor|]. cbn [flat_map]. apply Forall_app. split; [|exact IH]. clear IH S.
  unfold scalar_value in C. unfold utf8_enc.
  repeat match goal with |- context [if ?b then _ else _] => destruct b eqn:? end; repeat constructor; unfold is_u8;
  repeat match goal with |- context [?a / ?n] => pose proof (Z.div_pos a n); pose proof (Z.div_mod a n); pose proof (Z.mod_pos_bound a n); generalize dependent (a / n); intros | |- context [?a mod ?n] => pose proof (Z.mod_pos_bound a n); generalize dependent (a mod n); intros end; try lia.
Qed.
Lemma be16_byte z : bytes (be16 z).
Proof.
  unfold be16. pose proof (Z.mod_pos_bound z 65536). unfold u16. change (2 ^ 16) with 65536. pose proof (Z.div_pos (z mod 65536) 256).
  pose proof (Z.div_lt_upper_bound (z mod 65536) 256 256). pose proof (Z.mod_pos_bound (z mod 65536) 256). repeat constructor; unfold is_u8; lia.
Qed.
Lemma run_bytes n b : is_u8 b -> bytes (concat (rle_run n b)).
Proof.
  intros B. unfold rle_run. destruct (0 <? n); [|constructor]. destruct (n <? 128); cbn [concat app].
  - constructor; [apply u8_byte|]. constructor; [exact B|constructor].
  - constructor; [unfold is_u8; lia|]. apply Forall_app. split; [apply be16_byte|]. constructor; [exact B|constructor].
Qed.
Lemma lit_bytes l : bytes l -> bytes (concat (rle_lit l)).
Proof.
  intros B. unfold rle_lit. destruct l as [|b l]; [constructor|]. inversion B; subst. destruct (_ && _); [now apply run_bytes|].
  rewrite concat_app. apply Forall_app. split; [|cbn; rewrite app_nil_r; exact B].
  destruct (_ <? _); cbn [concat app]; constructor; try apply u8_byte; try (unfold is_u8; lia); [constructor|]. rewrite app_nil_r. apply be16_byte.
Qed.
Lemma slice_bytes l a b : bytes l -> bytes (slice l a b).
Proof.
  intros B. unfold slice. rewrite <- (ztake_zdrop a l) in B. apply Forall_app in B as [_ B].
  rewrite <- (ztake_zdrop (b - a) (zdrop a l)) in B. now apply Forall_app in B as [B _].
Qed.
Lemma scan_bytes data todo : bytes data -> bytes todo -> forall n run wr last, is_u8 last -> bytes (concat (rle_scan data todo n run wr last)).
Proof.
  intros B T. induction T as [|b todo Hb T IH]; intros n run wr last L; cbn [rle_scan].
  - unfold writeRLEData. rewrite concat_app. apply Forall_app. split; [now apply lit_bytes, slice_bytes|now apply run_bytes].
  - destruct (b =? last); [now apply IH|]. destruct (3 <? run); [|now apply IH]. unfold writeRLEData. rewrite !concat_app, !Forall_app.
    split; [split; [now apply lit_bytes, slice_bytes|now apply run_bytes]|now apply IH].
Qed.
Lemma rle_bytes l : bytes l -> bytes (concat (writeRLE l)).
Proof. intros B. unfold writeRLE. destruct l as [|b l]; [constructor|]. inversion B; subst. now apply scan_bytes. Qed.
Lemma colour_byte f c k : (f = CfGray -> exists y, c = CGray y /\ is_u8 y) -> wf_color c -> is_u8 (bget (colour_bytes f c) k).
Proof.
  intros G W. assert (A : bytes (colour_bytes f c)).
  { destruct f; cbn [colour_bytes].
    - destruct c; cbn [nrgbaModel wf_color] in *; repeat match goal with |- context [if ?b then _ else _] => destruct b end;
      repeat (apply Forall_cons; [try apply u8_byte; try apply W; unfold is_u8; lia|]); apply Forall_nil.
    - unfold grayAlphaModel. apply Forall_cons; [|apply Forall_cons; [apply u8_byte|apply Forall_nil]]. destruct c; cbn [grayModel]; try apply u8_byte. exact W.
    - destruct (G eq_refl) as (y & -> & Y). apply Forall_cons; [exact Y|apply Forall_nil].
    - apply Forall_cons; [apply u8_byte|]. apply Forall_cons; [apply u8_byte|apply Forall_nil]. }
  unfold bget. destruct (znth (colour_bytes f c) k) as [z|] eqn:E; [|unfold is_u8; lia]. rewrite Forall_forall in A. apply A. exact (znth_in _ _ _ E).
Qed.
(** a source of proper colours *)
Definition proper (so : source) (f : colfun) : Prop := forall x y n c n', soAt so x y n = Some (c, n') ->
  wf_color c /\ (f = CfGray -> exists y, c = CGray y /\ is_u8 y).
Lemma reads_bytes so f ps n px n' k : proper so f -> reads so f ps n px n' -> bytes (channel_of px k).
Proof.
  intros P R. unfold channel_of. induction R as [|p ps n c n1 px n2 A R IH]; [constructor|]. cbn [map]. constructor; [|exact IH].
  destruct (P _ _ _ _ _ A). now apply colour_byte.
Qed.
Lemma tile_bytes so f ps n px n' : proper so f -> reads so f ps n px n' -> bytes (concat (tile_of f px)).
Proof.
  intros P R. unfold tile_of. rewrite <- flat_map_concat_map. apply Forall_flat_map, Forall_forall. intros k _. apply rle_bytes. eapply reads_bytes; eassumption.
Qed.
Lemma tiles_bytes so f l n pxs n' : proper so f -> reads_tiles so f l n pxs n' -> Forall (fun t => bytes (concat t)) (map (tile_of f) pxs).
Proof. intros P. induction 1; cbn [map]; constructor; auto. eapply tile_bytes; eassumption. Qed.
Lemma blocks_bytes bs : Forall (fun b => forall p, bytes (b p)) bs -> forall p, bytes (blocks p bs).
Proof. induction 1 as [|b bs B F IH]; intros p; [constructor|]. cbn [blocks]. apply Forall_app. split; [apply B|apply IH]. Qed.
Definition grid_ok (g : grid) : Prop := Forall (fun t => bytes (concat t)) (gdTiles g).
Lemma grid_byte g p : grid_ok g -> bytes (grid_bytes g p).
Proof.
  intros G. unfold grid_bytes. cbv zeta. rewrite !Forall_app. repeat (split; [apply w32_bytes || apply w32s_bytes|]).
  apply blocks_bytes. apply Forall_forall. intros b I q. apply in_map_iff in I as (t & <- & I). unfold grid_ok in G. rewrite Forall_forall in G. exact (G t I).
Qed.
Lemma mask_byte g p : grid_ok g -> bytes (mask_bytes g p).
Proof.
  intros G. unfold mask_bytes. rewrite !Forall_app. split; [apply w32_bytes|]. split; [apply w32_bytes|]. split; [apply string32_bytes; constructor|].
  split; [apply prop32_bytes; constructor|]. split; [apply w32_bytes|]. now apply grid_byte.
Qed.
Definition layer_ok (l : flayer) : Prop :=
  bytes (flName l) /\ (forall d, flText l = Some d -> bytes d) /\ grid_ok (flImage l) /\ (forall g, flMask l = Some g -> grid_ok g).
Lemma layer_byte l p : layer_ok l -> bytes (layer_bytes l p).
Proof.
  intros (N & T & I & M). unfold layer_bytes, layer_head. cbv zeta. rewrite !Forall_app.
  repeat match goal with
  | |- _ /\ _ => split
  | |- bytes (w32 _) => apply w32_bytes
  | |- bytes (flat_map w32 _) => apply w32s_bytes
  | |- bytes (prop32 _ _) => apply prop32_bytes
  | |- bytes [] => constructor
  | |- bytes (_ ++ _) => apply Forall_app
  | |- bytes (string32 _) => apply string32_bytes
  | |- bytes (if ?b then _ else _) => destruct b
  | |- bytes (grid_bytes _ _) => now apply grid_byte
  end; auto.
  - destruct (flText l) as [d|]; [|constructor]. specialize (T d eq_refl).
    apply Forall_app. split; [apply prop32_bytes, w32_bytes|]. apply prop32_bytes. rewrite !Forall_app. split; [|auto using w32_bytes].
    apply string32_bytes. repeat constructor; unfold is_u8; lia.
  - destruct (flMask l) as [g|]; [|constructor]. apply mask_byte. now apply M.
Qed.
Lemma file_byte h fls : (forall p, fhPalette h = Some p -> Forall bytes3 p) -> Forall layer_ok fls -> bytes (file_bytes h fls).
Proof.
  intros P F. unfold file_bytes, file_head. cbv zeta. rewrite !Forall_app.
  repeat match goal with
  | |- _ /\ _ => split
  | |- bytes (w32 _) => apply w32_bytes
  | |- bytes (flat_map w32 _) => apply w32s_bytes
  | |- bytes (prop32 _ _) => apply prop32_bytes
  | |- bytes [] => constructor
  | |- bytes magic => repeat constructor; unfold is_u8; lia
  | |- bytes [1] => repeat constructor; unfold is_u8; lia
  end.
  - destruct (fhPalette h) as [p|]; [|constructor]. specialize (P p eq_refl). apply prop32_bytes, Forall_app. split; [apply w32_bytes|].
    apply Forall_flat_map. eapply Forall_impl; [|exact P]. intros [[r g] b] (R & G & B). repeat (apply Forall_cons; [assumption|]); apply Forall_nil.
  - apply blocks_bytes, Forall_forall. intros b I p. apply in_map_iff in I as (l & <- & I). rewrite Forall_forall in F. now apply layer_byte, F.
Qed.

(** ** the parts of the file *)
Lemma w32_word z : is_word z -> w32 z = word z. Proof. unfold is_word, w32. intros. now rewrite Z.mod_small. Qed.
Lemma w32_is z : exists w, is_word w /\ w32 z = word w /\ w = z mod 4294967296.
Proof. exists (z mod 4294967296). split; [apply Z.mod_pos_bound; lia|]. split; reflexivity. Qed.
Lemma w32s_pointers l : Forall is_word l -> flat_map w32 l = flat_map (pointer 0) l.
Proof. induction 1 as [|z l Z F IH]; [reflexivity|]. cbn [flat_map]. now rewrite IH, w32_word. Qed.
Lemma prop32_property t l : is_word t -> zlen l < 4294967296 -> prop32 t l = property t l.
Proof. intros T L. unfold prop32, property. pose proof (zlen_pos l). now rewrite !w32_word by (assumption || unfold is_word; lia). Qed.
Lemma string32_text l : zlen l + 1 < 4294967296 -> string32 l = text l.
Proof. intros L. unfold string32, text. pose proof (zlen_pos l). now rewrite w32_word by (unfold is_word; lia). Qed.
Lemma signed_mod z : word_sized z -> signed (z mod 4294967296) = z.
Proof.
  unfold word_sized, signed. intros Z. destruct (Z_lt_ge_dec z 0) as [N|N].
  - rewrite <- (Z.mod_unique z 4294967296 (-1) (z + 4294967296)) by lia. replace (_ <? _) with false by lia. lia.
  - rewrite Z.mod_small by lia. now replace (_ <? _) with true by lia.
Qed.

Section File.
Variable f : list Z.
Hypothesis Hlen : zlen f < 16777216.
Let s : src := mkSrc f false.

Lemma offsets_words bs : forall p, 0 <= p -> p + zlen (blocks p bs) < 4294967296 -> Forall is_word (offsets p bs).
Proof.
  induction bs as [|b bs IH]; intros p P L; [constructor|]. cbn [offsets blocks] in *. rewrite zlen_app in L.
  pose proof (zlen_pos (b p)). pose proof (zlen_pos (blocks (p + zlen (b p)) bs)). constructor; [unfold is_word; lia|]. apply IH; lia.
Qed.
Lemma tiles_held tiles : forall q, holds s q (blocks q (map tile_block tiles)) ->
  Forall2 (fun t chs => has f t (concat chs)) (offsets q (map tile_block tiles)) tiles.
Proof.
  induction tiles as [|t tiles IH]; intros q H; [constructor|]. cbn [map blocks offsets] in *. apply holds_split in H as [H1 H2].
  constructor; [exact H1|now apply IH].
Qed.
Lemma pixels_written g px p : codes g px -> (forall k x y, 0 <= k < gdChannels g -> 0 <= x < gdW g -> 0 <= y < gdH g -> is_u8 (px k x y)) ->
  holds s p (grid_bytes g p) -> pixel_data f 0 p (gdW g) (gdH g) (gdChannels g) px.
Proof.
  intros (RW & RH & RC & RT & TC) PB H. pose proof (holds_range _ _ _ H) as HR. cbn [sFile s] in HR.
  unfold grid_bytes in H, HR. cbv zeta in H, HR. set (tl := map tile_block (gdTiles g)) in *. set (q := p + 32 + 4 * zlen tl) in *.
  rewrite !zlen_app, zlen_w32s, zlen_offsets, !w32_len in HR. pose proof (zlen_pos tl). pose proof (zlen_pos (blocks q tl)).
  exists (p + 20), (offsets q tl), (gdTiles g).
  assert (W1 : is_word (gdW g)) by (unfold is_word; lia). assert (W2 : is_word (gdH g)) by (unfold is_word; lia).
  assert (W3 : is_word (gdChannels g)) by (unfold is_word; lia). assert (W4 : is_word (p + 20)) by (unfold is_word; lia).
  rewrite (w32_word (gdW g)), (w32_word (gdH g)), (w32_word (gdChannels g)), (w32_word (p + 20)) in H by assumption.
  rewrite w32s_pointers in H by (apply offsets_words; unfold q in *; lia).
  split; [|split; [|split; [|split; [|split]]]].
  - assert (E : forall A B C D R : list Z, holds s p (A ++ B ++ C ++ D ++ R) -> holds s p (A ++ B ++ C ++ D)).
    { intros A B C D R X. rewrite !app_assoc in *. now apply holds_split in X. }
    exact (E _ _ _ _ _ H).
  - do 4 (apply holds_split in H as [_ H]). apply holds_split in H as [_ H].
    assert (L : forall z, zlen (word z) = 4) by reflexivity. rewrite !L, w32_len in H. replace (p + 4 + 4 + 4 + 4 + 4) with (p + 20) in H by lia.
    assert (E : forall A B C D R : list Z, holds s (p + 20) (A ++ B ++ C ++ D ++ R) -> holds s (p + 20) (A ++ B ++ C ++ D)).
    { intros A B C D R X. rewrite !app_assoc in *. now apply holds_split in X. }
    exact (E _ _ _ _ _ H).
  - rewrite zlen_offsets. unfold tl. now rewrite zlen_map.
  - do 9 (apply holds_split in H as [_ H]). apply tiles_held. fold tl.
    assert (L : forall z, zlen (word z) = 4) by reflexivity. rewrite !L, !w32_len in H.
    match type of H with holds _ ?x _ => replace x with q in H end; [exact H|].
    rewrite <- w32s_pointers by (apply offsets_words; unfold q in *; lia). rewrite zlen_w32s, zlen_offsets. unfold q. lia.
  - exact TC.
  - exact PB.
Qed.
Lemma mask_written g px p : codes g px -> gdChannels g = 1 -> (forall x y, 0 <= x < gdW g -> 0 <= y < gdH g -> is_u8 (px 0 x y)) ->
  holds s p (mask_bytes g p) -> mask_data f 0 p (gdW g) (gdH g) (px 0).
Proof.
  intros C C1 PB H. pose proof C as (RW & RH & _). pose proof (holds_range _ _ _ H) as HR. cbn [sFile s] in HR.
  unfold mask_bytes in H, HR. exists [], [], (p + 25).
  rewrite !zlen_app, !w32_len in HR. match type of HR with context [zlen (grid_bytes g ?q)] => pose proof (zlen_pos (grid_bytes g q)) end.
  rewrite (w32_word (gdW g)), (w32_word (gdH g)), (w32_word (p + 25)) in H by (unfold is_word; change (zlen (string32 [])) with 5 in HR; change (zlen (prop32 0 [])) with 8 in HR; lia).
  split; [|split; [constructor|]].
  - assert (E : forall A B C D E R : list Z, holds s p (A ++ B ++ C ++ D ++ E ++ R) -> holds s p (A ++ B ++ C ++ D ++ E)).
    { intros A B C0 D E R X. rewrite !app_assoc in *. now apply holds_split in X. }
    exact (E _ _ _ _ _ _ H).
  - do 5 (apply holds_split in H as [_ H]). assert (L : forall z, zlen (word z) = 4) by reflexivity. rewrite !L in H.
    change (zlen (string32 [])) with 5 in H. change (zlen (prop32 0 [])) with 8 in H. replace (p + 4 + 4 + 5 + 8 + 4) with (p + 25) in H by lia.
    rewrite <- C1. apply (pixels_written g (fun _ => px 0)); [|intros; now apply PB|exact H].
    destruct C as (X1 & X2 & X3 & X4 & TC). do 4 (split; [assumption|]). intros i j I J. destruct (TC i j I J) as (chs & A & B & K). exists chs. split; [exact A|]. split; [exact B|].
    intros k K1. assert (k = 0) by lia. subst k. exact (K 0 K1).
Qed.

(** what a record says *)
Variables (float : Z -> Z) (mo : Z -> mode) (ptext : list Z -> tres).
Definition pars_of (l : flayer) : list par_rec := match flText l with Some d => [(text_layer, 0, d)] | None => [] end.
Definition desc (l : flayer) (px : Z -> Z -> Z -> Z) (m : option (Z -> Z -> Z)) (t : option (list textDatum)) : ldesc :=
  mkLD (flName l) (flW l) (flH l) (flType l)
    (mkAttrs (flX l) (flY l) (mo (flMode l)) (flVisible l =? 0) (255 - flOpacity l) (flGroup l) (path_kept l) (pars_of l)) px m t.
Definition props_of (l : flayer) : list (Z * list Z) :=
  [(6, w32 (flOpacity l)); (8, w32 (flVisible l)); (15, w32 (flX l) ++ w32 (flY l))] ++
  (if 1 <? zlen (flPath l) then [(30, flat_map w32 (flPath l))] else []) ++
  match flText l with Some d => [(26, w32 1); (21, flat_map parasite_bytes [(text_layer, 0, d)])] | None => [] end ++
  (if flGroup l then [(29, [])] else []) ++ [(7, w32 (flMode l))].
Definition sayable (base : Z) (l : flayer) : Prop :=
  0 <= flW l <= 4294967232 /\ 0 <= flH l <= 4294967232 /\ flType l = 2 * base + 1 /\ 0 <= base <= 2 /\
  utf8 (flName l) /\ 0 <= flOpacity l <= 255 /\ (flVisible l = 0 \/ flVisible l = 1) /\
  word_sized (flX l) /\ word_sized (flY l) /\ Forall word_sized (flPath l) /\ is_word (flMode l).

Lemma head_props base l p t : sayable base l -> holds s p (layer_head l ++ t) ->
  layer_head l = word (flW l) ++ word (flH l) ++ word (flType l) ++ text (flName l) ++ props_bytes (props_of l).
Proof.
  intros (W & H & T & B & U & O & V & X & Y & FP & M) HH. pose proof (holds_range _ _ _ HH) as R. cbn [sFile s] in R.
  rewrite zlen_app in R. pose proof (zlen_pos t) as Zt. unfold layer_head in *. rewrite !zlen_app, !w32_len, !prop32_len in R.
  assert (LN : zlen (flName l) + 1 < 4294967296).
  { unfold string32 in R. rewrite !zlen_app in R. change (zlen [0]) with 1 in R.
    repeat match type of R with context [zlen ?x] => lazymatch goal with H : 0 <= zlen x |- _ => fail | _ => pose proof (zlen_pos x) end end. lia. }
  rewrite (w32_word (flW l)), (w32_word (flH l)), (w32_word (flType l)), (string32_text (flName l) LN) by (unfold is_word; lia).
  do 4 f_equal. unfold props_bytes, props_of. cbn [app flat_map fst snd].
  rewrite (prop32_property 6), (prop32_property 8), (prop32_property 15), (prop32_property 7), (prop32_property 0)
    by (unfold is_word; rewrite ?zlen_app, ?w32_len; change (zlen (@nil Z)) with 0; lia).
  rewrite <- !app_assoc. do 3 f_equal. rewrite !flat_map_app, <- !app_assoc. f_equal; [|f_equal; [|f_equal]].
  - destruct (1 <? zlen (flPath l)); [|reflexivity]. cbn [flat_map fst snd]. rewrite app_nil_r. apply prop32_property; [unfold is_word; lia|].
    rewrite zlen_w32s. rewrite prop32_len, zlen_w32s in R.
    repeat match type of R with context [zlen ?x] => lazymatch goal with H : 0 <= zlen x |- _ => fail | _ => pose proof (zlen_pos x) end end. lia.
  - destruct (flText l) as [d|]; [|reflexivity]. cbn [flat_map fst snd]. rewrite !app_nil_r.
    rewrite !zlen_app, !prop32_len, !zlen_app, !w32_len in R. change (zlen (string32 text_layer)) with 20 in R.
    assert (LD : zlen d < 4294967000).
    { repeat match type of R with context [zlen ?x] => lazymatch goal with H : 0 <= zlen x |- _ => fail | _ => pose proof (zlen_pos x) end end. lia. }
    pose proof (zlen_pos d).
    rewrite prop32_property by (unfold is_word; rewrite ?w32_len; lia). f_equal.
    rewrite prop32_property; [|unfold is_word; lia|rewrite !zlen_app, !w32_len; change (zlen (string32 text_layer)) with 20; lia].
    unfold parasite_bytes. rewrite (string32_text text_layer) by (vm_compute; reflexivity).
    now rewrite (w32_word (zlen d)), (w32_word 0) by (unfold is_word; lia).
  - destruct (flGroup l); [|reflexivity]. cbn [flat_map fst snd]. rewrite app_nil_r. apply prop32_property; [unfold is_word; lia|reflexivity].
Qed.

Lemma path_words l : Forall word_sized l -> exists ws, Forall is_word ws /\ flat_map w32 l = flat_map word ws /\ map signed ws = l.
Proof.
  induction 1 as [|z l Z F (ws & A & B & C)]; [exists []; repeat split; constructor|].
  exists (z mod 4294967296 :: ws). split; [constructor; [apply Z.mod_pos_bound; lia|exact A]|]. cbn [flat_map map]. split; [now rewrite B|].
  now rewrite C, signed_mod.
Qed.
Lemma text_layer_utf8 : utf8 text_layer.
Proof. exists text_layer. split; [|reflexivity]. repeat (apply Forall_cons; [unfold scalar_value; lia|]). apply Forall_nil. Qed.
Lemma good_lprops base l : sayable base l -> good_props 0 (props_of l).
Proof.
  intros (W & H & T & B & U & O & V & X & Y & FP & M). unfold good_props, props_of. rewrite !Forall_app. cbn [fst snd Z.ltb].
  assert (NE : forall t, t <> 5 -> t = 5 -> 0 < 2) by lia.
  repeat split.
  - rewrite w32_word by (unfold is_word; lia).
    apply Forall_cons; [split; [now apply S_Props.lp_opacity|cbn [fst]; lia]|].
    apply Forall_cons; [split; [|cbn [fst]; lia]|].
    { cbn [fst snd]. replace (w32 (flVisible l)) with (word (if flVisible l =? 1 then 1 else 0)) by (destruct V as [-> | ->]; reflexivity).
      apply S_Props.lp_bool. cbn. tauto. }
    apply Forall_cons; [split; [|cbn [fst]; lia]|constructor]. cbn [fst snd].
    destruct (w32_is (flX l)) as (a & A & -> & _), (w32_is (flY l)) as (b & B' & -> & _). now apply S_Props.lp_offsets.
  - destruct (1 <? zlen (flPath l)); [|constructor]. apply Forall_cons; [split; [|cbn [fst]; lia]|constructor]. cbn [fst snd].
    destruct (path_words _ FP) as (ws & A & -> & _). now apply S_Props.lp_path.
  - destruct (flText l) as [d|]; [|constructor]. apply Forall_cons; [split; [|cbn [fst]; lia]|apply Forall_cons; [split; [|cbn [fst]; lia]|constructor]]; cbn [fst snd].
    + rewrite w32_word by (unfold is_word; lia). apply S_Props.lp_word; [cbn; tauto|unfold is_word; lia].
    + apply S_Props.lp_parasites. constructor; [|constructor]. split; [apply text_layer_utf8|unfold is_word; lia].
  - destruct (flGroup l); [|constructor]. apply Forall_cons; [split; [|cbn [fst]; lia]|constructor]. apply S_Props.lp_none. cbn. tauto.
  - apply Forall_cons; [split; [|cbn [fst]; lia]|constructor]. cbn [fst snd]. rewrite w32_word by assumption. apply S_Props.lp_word; [cbn; tauto|assumption].
Qed.
Lemma all_mean_app a b x z : all_mean float mo (a ++ b) x z <-> exists y, all_mean float mo a x y /\ all_mean float mo b y z.
Proof.
  revert x. induction a as [|q a IH]; intros x; cbn [app all_mean].
  - split; [intros A; exists x; auto|]. intros (y & -> & A). exact A.
  - split.
    + intros (y & M & A). apply IH in A as (w & A & B). exists w. split; [exists y; auto|exact B].
    + intros (w & (y & M & A) & B). exists y. split; [exact M|]. apply IH. eauto.
Qed.
Lemma props_mean base l px m t : sayable base l -> all_mean float mo (props_of l) plain (ldAttrs (desc l px m t)).
Proof.
  intros (W & H & T & B & U & O & V & X & Y & FP & M). unfold props_of, desc. cbn [ldAttrs]. rewrite !all_mean_app.
  exists (mkAttrs (flX l) (flY l) MNormal (flVisible l =? 0) (255 - flOpacity l) false [] []). split.
  { cbn [all_mean fst snd]. rewrite (w32_word (flOpacity l)) by (unfold is_word; lia). eexists. split; [unfold plain; now apply m_opacity|].
    eexists. split.
    { replace (w32 (flVisible l)) with (word (if flVisible l =? 1 then 1 else 0)) by (destruct V as [-> | ->]; reflexivity). apply m_visible. }
    eexists. split.
    { unfold w32. apply m_offsets; apply Z.mod_pos_bound; lia. }
    rewrite !signed_mod by assumption. f_equal; lia. }
  rewrite all_mean_app. exists (mkAttrs (flX l) (flY l) MNormal (flVisible l =? 0) (255 - flOpacity l) false (path_kept l) []). split.
  { unfold path_kept. destruct (1 <? zlen (flPath l)); [|reflexivity]. cbn [all_mean fst snd]. destruct (path_words _ FP) as (ws & A & -> & C).
    eexists. split; [now apply m_path|]. now rewrite C. }
  rewrite all_mean_app. exists (mkAttrs (flX l) (flY l) MNormal (flVisible l =? 0) (255 - flOpacity l) false (path_kept l) (pars_of l)). split.
  { unfold pars_of. destruct (flText l) as [d|]; [|reflexivity]. cbn [all_mean fst snd]. eexists. split; [apply m_nothing; cbn; lia|].
    eexists. split; [apply m_parasites|reflexivity]. constructor; [|constructor]. split; [apply text_layer_utf8|unfold is_word; lia]. }
  rewrite all_mean_app. exists (mkAttrs (flX l) (flY l) MNormal (flVisible l =? 0) (255 - flOpacity l) (flGroup l) (path_kept l) (pars_of l)). split.
  { destruct (flGroup l); [|reflexivity]. cbn [all_mean fst snd]. eexists. split; [apply m_group|reflexivity]. }
  cbn [all_mean fst snd]. eexists. split; [rewrite w32_word by assumption; now apply m_mode|reflexivity].
Qed.

(** pixels, mask and text of a record *)
Definition shows_px (l : flayer) (px : Z -> Z -> Z -> Z) : Prop :=
  gdW (flImage l) = flW l /\ gdH (flImage l) = flH l /\ gdChannels (flImage l) = type_channels (flType l) /\ codes (flImage l) px /\
  forall k x y, 0 <= k < gdChannels (flImage l) -> 0 <= x < flW l -> 0 <= y < flH l -> is_u8 (px k x y).
Definition shows_mask (l : flayer) (m : option (Z -> Z -> Z)) : Prop :=
  match flMask l, m with
  | None, None => True
  | Some g, Some m => gdW g = flW l /\ gdH g = flH l /\ gdChannels g = 1 /\ (exists px, codes g px /\ m = px 0) /\
      forall x y, 0 <= x < flW l -> 0 <= y < flH l -> is_u8 (m x y)
  | _, _ => False
  end.
Definition shows_text (l : flayer) (t : option (list textDatum)) : Prop :=
  match flText l, t with
  | None, None => True
  | Some d, Some t => ptext d = TOk t
  | _, _ => False
  end.
Lemma layer_written base l px m t p : sayable base l -> holds s p (layer_bytes l p) -> 
  (if flGroup l then t = None else shows_px l px) -> shows_mask l m -> shows_text l t -> layer_at float mo ptext f 0 base p (desc l px m t).
Proof.
  intros S HB GP SM ST. pose proof (holds_range _ _ _ HB) as HR. cbn [sFile s] in HR. unfold layer_bytes in HB, HR. cbv zeta in HB, HR.
  set (hp := p + zlen (layer_head l) + 8) in *. set (mp := hp + zlen (grid_bytes (flImage l) hp)) in *.
  rewrite !zlen_app, !w32_len in HR. pose proof (zlen_pos (layer_head l)). pose proof (zlen_pos (grid_bytes (flImage l) hp)).
  pose proof (head_props base l p _ S HB) as HP. pose proof S as (W & Hh & T & B & U & O & V & X & Y & FP & M).
  set (mp' := match flMask l with Some _ => mp | None => 0 end) in *.
  match type of HR with context [zlen ?x] => match x with (match _ with Some _ => _ | None => _ end) => pose proof (zlen_pos x) end end.
  assert (Whp : is_word hp) by (unfold is_word, hp in *; lia). assert (Wmp : is_word mp') by (unfold is_word, mp', mp, hp in *; destruct (flMask l); lia).
  rewrite (w32_word hp Whp), (w32_word mp' Wmp) in HB.
  exists (props_of l), hp, mp'. cbn [desc ldW ldH ldType ldName ldAttrs ldText ldPx ldMask aParasites aGroup].
  split. { assert (E : forall A B C R : list Z, holds s p (A ++ B ++ C ++ R) -> holds s p (A ++ B ++ C)).
    { intros A B' C R Q. rewrite !app_assoc in *. now apply holds_split in Q. }
    apply E in HB. rewrite HP in HB. rewrite <- !app_assoc in HB. exact HB. }
  split; [exact W|]. split; [exact Hh|]. split; [rewrite T; symmetry; apply (Z.div_unique _ _ _ 1); lia|]. split; [exact U|]. split; [unfold is_word in Whp; lia|].
  split; [exact (good_lprops base l S)|]. split; [exact (props_mean base l px m t S)|].
  split. { unfold shows_text in ST. unfold pars_of. destruct (flText l) as [d|], t as [t|]; try contradiction; [|constructor; constructor].
    apply (ts_some ptext [] 0 d [] t); [constructor|exact ST]. }
  apply holds_split in HB as [_ HB]. apply holds_split in HB as [_ HB]. apply holds_split in HB as [_ HB]. assert (L : forall z, zlen (word z) = 4) by reflexivity. rewrite !L in HB.
  replace (p + zlen (layer_head l) + 4 + 4) with hp in HB by (unfold hp; lia). apply holds_split in HB as [HG HM]. fold mp in HM.
  split.
  - destruct (flGroup l); [exact GP|]. destruct GP as (G1 & G2 & G3 & CO & PB). rewrite <- G1, <- G2, <- G3. apply pixels_written; auto. now rewrite G1, G2.
  - unfold shows_mask in SM. unfold mp'. destruct (flMask l) as [g|], m as [m|]; try contradiction; [|reflexivity].
    destruct SM as (G1 & G2 & G3 & (px' & CO & ->) & PB). split; [assert (8 <= hp) by (unfold hp; lia); unfold mp; lia|]. rewrite <- G1, <- G2. apply mask_written; auto. now rewrite G1, G2.
Qed.
End File.

(** ** the tree *)
Lemma entries_map k : match pal_of k with Some p => p | None => [] end = colour_map (file_palette k).
Proof.
  destruct k; try reflexivity; unfold pal_of, file_palette, colour_map; cbn [colour_type snd option_map]; unfold palette_bytes; rewrite !map_map; apply map_ext; intros c;
  unfold rgbModel; cbn [fst snd]; unfold entry, u8; now rewrite !Zmod_mod.
Qed.
Lemma palette_bytes3 k : Forall bytes3 (file_palette k).
Proof.
  destruct k; try constructor; unfold file_palette; apply Forall_forall; intros c I; apply in_map_iff in I as (e & <- & _); unfold rgbModel; repeat split; apply u8_byte.
Qed.
Lemma proper_image rnd f i : f <> CfGray -> wf_image i -> proper (source_of rnd i) f.
Proof.
  intros NG W x y n c n' A. cbn [source_of soAt] in A. destruct (image_layer_total i W rnd x y n) as (c' & m & E & C). rewrite A in E. injection E as <- <-.
  split; [exact C|]. congruence.
Qed.
Lemma proper_gray m : (forall x y, is_u8 (grayAt m x y)) -> proper (source_gray m) CfGray.
Proof. intros B x y n c n' A. cbn [source_gray soAt] in A. injection A as <- _. split; [exact (B x y)|]. intros _. exists (grayAt m x y). auto. Qed.
Lemma conv_colours k : conv k <> CfGray. Proof. destruct k; discriminate. Qed.
Lemma wf_unmasked i : wf_image i -> wf_image (S_Tree.unmasked i). Proof. destruct i; auto. now intros []. Qed.

Section Tree.
Variables (rnd : nat -> Z) (wtext : list textDatum -> Z -> Z -> option (list Z)) (ptext : list Z -> tres) (k : cmodel).
Variables (mo : Z -> mode) (md : mode -> mode) (ok : mode -> Prop).
Hypothesis Hmode : forall m, ok m -> mo (modeID m) = md m.
Variable f : list Z.
Hypothesis Hlen : zlen f < 16777216.
Notation told := (told rnd wtext ptext k md).
Notation tolds := (tolds rnd wtext ptext k md).
Notation expressible := (expressible wtext ptext ok).
Notation expressibles := (expressibles wtext ptext ok).
Notation flat_layer := (flat_layer rnd wtext (conv k) (base_type k)).
Notation flat_layers := (flat_layers rnd wtext (conv k) (base_type k)).
Definition says (fl : flayer) (x : ldesc * bool * list Z) : Prop :=
  let '(D, g, path) := x in
  (forall float p, holds (mkSrc f false) p (layer_bytes fl p) -> layer_at float mo ptext f 0 (base_type k) p D) /\
  aGroup (ldAttrs D) = g /\ aPath (ldAttrs D) = path /\ Z.odd (ldType D) = true.

Lemma sayable_of l ox oy gs txt img msk : expressible l ox oy -> is_u8 (lTransparency l) -> Forall word_sized gs ->
  sayable (base_type k) (fl_of (base_type k) l ox oy gs txt img msk).
Proof.
  destruct l as [nm b m inv tr im]. intros (U & M & X & Y & DX & DY & _) T F. pose proof (base_types k). pose proof (modeID_range m).
  unfold sayable. cbn [fl_of flW flH flType flName flOpacity flVisible flX flY flPath flMode lBounds lName lTransparency lInvisible lMode] in *. unfold is_u8, is_word in *.
  repeat (split; [try assumption; try lia; try (destruct inv; auto)|]). lia.
Qed.
Lemma head_told_of l ox oy gs txt img msk px m t : expressible l ox oy ->
  head_told k md (lName l) (lBounds l) (lMode l) (lInvisible l) (lTransparency l) ox oy (desc mo (fl_of (base_type k) l ox oy gs txt img msk) px m t).
Proof.
  destruct l as [nm b md' inv tr im]. intros (U & M & _). unfold head_told, desc.
  cbn [fl_of flW flH flType flName flOpacity flVisible flX flY flPath flMode lBounds lName lTransparency lInvisible lMode ldName ldW ldH ldType ldAttrs aX aY aMode aHidden aTransparency].
  do 3 (split; [reflexivity|]). split; [lia|]. do 2 (split; [reflexivity|]). split; [now apply Hmode|]. split; [destruct inv; reflexivity|lia].
Qed.
Lemma odd_type l ox oy gs txt img msk px m t : Z.odd (ldType (desc mo (fl_of (base_type k) l ox oy gs txt img msk) px m t)) = true.
Proof. cbn [desc fl_of flType ldType]. pose proof (base_types k). assert (C : base_type k = 0 \/ base_type k = 1 \/ base_type k = 2) by lia. now destruct C as [-> | [-> | ->]]. Qed.

Lemma leaf_told l ox oy gs txt img msk n n1 n2 : is_group (lImage l) = false -> text_data wtext l txt ->
  image_grid rnd (conv k) (S_Tree.unmasked (lImage l)) n img n1 -> mask_grid (mask_of (lImage l)) n1 msk n2 ->
  writable l -> wf_layer l -> expressible l ox oy -> Forall word_sized gs ->
  let fl := fl_of (base_type k) l ox oy gs txt img msk in
  layer_ok fl /\ exists D, told l ox oy (DLeaf D) /\ says fl (D, false, path_kept fl).
Proof.
  intros NG TD IG MG Wr WF EX F fl. 
  assert (WF' : is_u8 (lTransparency l) /\ wf_image (lImage l)) by (destruct l; exact WF). destruct WF' as [WT WI].
  pose proof (sayable_of l ox oy gs txt img msk EX WT F) as SY. fold fl in SY.
  pose proof (head_told_of l ox oy gs txt img msk) as HT. fold fl in HT. specialize (fun px m t => HT px m t EX).
  pose proof (odd_type l ox oy gs txt img msk) as OT. fold fl in OT.
  destruct l as [nm b m inv tr im]. cbn [lImage lName lBounds lMode lInvisible lTransparency] in *.
  destruct EX as (U & M & X & Y & DX & DY & EI). destruct Wr as (W1 & W2 & _).
  assert (E : dx (image_Bounds im) = dx b /\ dy (image_Bounds im) = dy b) by (destruct im; try discriminate; tauto).
  assert (EU : image_Bounds (S_Tree.unmasked im) = image_Bounds im) by (destruct im; reflexivity). rewrite <- EU in E. destruct E as [E1 E2].
  pose proof (proper_image rnd (conv k) _ (conv_colours k) (wf_unmasked _ WI)) as PI.
  assert (GI : grid_ok img) by (destruct IG as (pxs & R & ->); exact (tiles_bytes _ _ _ _ _ _ PI R)).
  assert (MB : forall m, mask_of im = Some m -> forall x y, is_u8 (grayAt m x y)) by (destruct im; try discriminate; intros ? [= <-]; apply WI).
  assert (GM : forall g, msk = Some g -> grid_ok g).
  { intros g ->. destruct (mask_of im) as [m0|]; [|contradiction]. destruct MG as (pxs & R & ->). refine (tiles_bytes _ _ _ _ _ _ _ R). apply proper_gray. now apply MB. }
  assert (TX : forall d, txt = Some d -> bytes d /\ exists t', ptext d = TOk t').
  { intros d ->. unfold text_data in TD. cbn [lImage lBounds] in TD. destruct im as [| | |i [|t ts]|]; try contradiction. cbn [text_of] in TD.
    rewrite !u32_small in TD by lia. destruct EI as (_ & _ & EI). exact (EI d TD). }
  split. { split; [now apply utf8_bytes|]. split; [intros d Q; now apply TX|]. split; [exact GI|exact GM]. }
  destruct (image_px rnd wtext 0 (conv k) (S_Tree.unmasked im) n img n1 W1 ltac:(lia) ltac:(lia) IG) as (GW & GH & GC & px & CO & PX).
  assert (PB : forall j x y, 0 <= x < dx b -> 0 <= y < dy b -> is_u8 (px j x y)).
  { intros j x y Hx Hy. destruct (PX x y) as (c & i1 & i2 & A & Q); [lia|lia|]. rewrite Q. destruct (PI _ _ _ _ _ A) as [C1 C2]. apply colour_byte; auto. }
  assert (SPX : shows_px fl px).
  { unfold shows_px, fl. cbn [fl_of flImage flW flH flType lBounds]. split; [lia|]. split; [lia|]. split; [rewrite GC; rewrite (Z.mul_comm (base_type k) 2); clear; destruct k; reflexivity|].
    split; [exact CO|]. intros. now apply PB. }
  assert (TPX : pixels_told rnd k (S_Tree.unmasked im) px).
  { intros x y Hx Hy. destruct (PX x y Hx Hy) as (c & i1 & i2 & A & Q). exists c, i1, i2. split; [exact A|].
    pose proof (base_types k). rewrite <- conv_color, entries_map.
    rewrite (type_color_ext _ _ _ (fun j => px j x y)); [|lia|intros j _; now rewrite Q].
    apply type_color_meant; [lia|apply palette_bytes3|]. intros j _. apply PB; lia. }
  assert (exists mm, shows_mask fl mm /\ mask_told (mask_of im) mm) as (mm & SM & TM).
  { unfold shows_mask, fl. cbn [fl_of flMask]. destruct msk as [g|].
    - destruct (mask_of im) as [m0|] eqn:Em; [|contradiction].
      assert (ME : dx (grayBounds m0) = dx b /\ dy (grayBounds m0) = dy b) by (destruct im; try discriminate; injection Em as <-; tauto). destruct ME as [M1 M2].
      destruct (mask_px rnd wtext 0 m0 n1 g n2 W2 ltac:(lia) ltac:(lia) MG) as (GW' & GH' & GC' & pm & CO' & PM).
      exists (Some (pm 0)). cbn [mask_told fl_of flW flH lBounds]. split; [|exact PM]. split; [lia|]. split; [lia|]. split; [exact GC'|]. split; [eauto|].
      intros x y Hx Hy. rewrite PM by lia. now apply MB.
    - exists None. destruct (mask_of im); [contradiction|]. auto. }
  assert (exists t, shows_text ptext fl t /\ text_told wtext ptext im (dx b) (dy b) t) as (t & ST & TT).
  { unfold shows_text, fl. cbn [fl_of flText]. unfold text_data in TD. cbn [lImage lBounds] in TD. destruct txt as [d|].
    - destruct (TX d eq_refl) as (_ & t' & PT). exists (Some t'). split; [exact PT|].
      destruct im as [| | |i [|t ts]|]; try contradiction. cbn [text_of] in TD. rewrite !u32_small in TD by lia. exists d, t'. auto.
    - exists None. split; [exact I|]. destruct im as [| | |i [|t ts]|]; try reflexivity. contradiction. }
  exists (desc mo fl px mm t). split.
  - apply told_leaf; [now destruct im|apply HT|exact TPX|exact TM|exact TT].
  - split; [|split; [exact NG|split; [reflexivity|apply OT]]]. intros float p HB. apply layer_written; auto. unfold fl at 1. cbn [fl_of flGroup lImage]. rewrite NG. exact SPX.
Qed.
Definition node_order (bare : bool) (p : list Z) (r : Z) (nd : dnode) : list (ldesc * bool * list Z) :=
  let path := if bare then [] else p ++ [r] in
  match nd with DLeaf d => [(d, false, path)] | DGroup d kids => (d, true, path) :: dorder false (p ++ [r]) kids end.
Lemma dorder_cons bare p r nd F : dorder bare p (DCons r nd F) = node_order bare p r nd ++ dorder bare p F.
Proof. reflexivity. Qed.
Definition node_labelled (nd : dnode) : Prop := match nd with DLeaf _ => True | DGroup _ kids => dlabelled kids end.
Lemma dlabels_from F : forall i, dnumbered i F -> forall r, In r (dlabels F) -> i <= r < i + zlen (dlabels F).
Proof.
  induction F as [|r0 nd F IH]; intros i N r I; [contradiction|]. cbn [dlabels dnumbered] in *. destruct N as [-> N]. rewrite zlen_cons.
  pose proof (zlen_pos (dlabels F)). destruct I as [<-|I]; [lia|]. specialize (IH _ N r I). lia.
Qed.
Lemma expr_all g x y : (fix all (g : list layer) : Prop :=
             match g with
             | [] => True
             | l :: g => expressible l (x + minX (lBounds l)) (y + minY (lBounds l)) /\ all g
             end) g <-> expressibles g x y.
Proof. induction g as [|l g IH]; [reflexivity|]. cbn [S_Written.expressibles]. now rewrite <- IH. Qed.
Definition layer_says (l : layer) (ox oy : Z) (gs : list Z) (fls : list flayer) : Prop :=
  writable l -> wf_layer l -> expressible l ox oy -> Forall word_sized gs -> forall p r, gs = p ++ [r] ->
  Forall layer_ok fls /\ exists nd, told l ox oy nd /\ node_labelled nd /\ Forall2 says fls (node_order (bare_at p) p r nd).
Definition layers_say (g : list layer) (ox oy : Z) (gs : list Z) (i : Z) (fls : list flayer) : Prop :=
  fold_right (fun l P => writable l /\ P) True g -> Forall wf_layer g -> expressibles g ox oy -> Forall word_sized gs -> 0 <= i -> i + zlen g <= 55296 ->
  Forall layer_ok fls /\ exists F, tolds g ox oy F /\ dlabelled F /\ dnumbered i F /\ zlen (dlabels F) = zlen g /\ Forall2 says fls (dorder (bare_at gs) gs F).
Lemma snoc_kept p r l ox oy txt img msk : path_kept (fl_of (base_type k) l ox oy (p ++ [r]) txt img msk) = if bare_at p then [] else p ++ [r].
Proof.
  unfold path_kept. cbn [fl_of flPath]. destruct p as [|z p]; [reflexivity|]. cbn [bare_at]. rewrite zlen_app, zlen_cons. change (zlen [r]) with 1.
  pose proof (zlen_pos p). now replace (1 <? 1 + zlen p + 1) with true by lia.
Qed.
Lemma cons_say l g ox oy gs i fl1 fl2 : layer_says l (ox + minX (lBounds l)) (oy + minY (lBounds l)) (gs ++ [i]) fl1 ->
  layers_say g ox oy gs (i + 1) fl2 -> layers_say (l :: g) ox oy gs i (fl1 ++ fl2).
Proof.
  intros IH1 IH2 [W1 W2] WF [E1 E2] F I L. inversion WF as [|? ? WF1 WF2]; subst. rewrite zlen_cons in L. pose proof (zlen_pos g).
  destruct (IH1 W1 WF1 E1) with (p := gs) (r := i) as (O1 & nd & T1 & N1 & S1).
  { apply Forall_app. split; [exact F|]. constructor; [unfold word_sized; lia|constructor]. }
  { reflexivity. }
  destruct (IH2 W2 WF2 E2 F ltac:(lia) ltac:(lia)) as (O2 & FF & T2 & N2 & M2 & L2 & S2).
  split; [apply Forall_app; auto|]. exists (DCons i nd FF). split; [now constructor|]. split.
  { cbn [dlabelled]. split; [unfold S_Groups.scalar; lia|]. split; [intros Q; apply (dlabels_from _ _ M2) in Q; lia|]. split; [exact N1|exact N2]. }
  split; [split; [reflexivity|exact M2]|]. split; [cbn [dlabels]; rewrite !zlen_cons; lia|].
  rewrite dorder_cons. now apply Forall2_app.
Qed.
Lemma flat_says l ox oy gs n fls n' : flat_layer l ox oy gs n fls n' -> layer_says l ox oy gs fls.
Proof.
  apply (flat_layer_mut rnd wtext (conv k) (base_type k) (fun l ox oy gs n fls n' _ => layer_says l ox oy gs fls)
    (fun g ox oy gs i n fls n' _ => layers_say g ox oy gs i fls)).
  - clear l ox oy gs n fls n'. intros l ox oy gs n txt img n1 msk n2 NG TD IG MG Wr WF EX F p r ->.
    destruct (leaf_told l ox oy (p ++ [r]) txt img msk n n1 n2 NG TD IG MG Wr WF EX F) as (O & D & T & S).
    split; [constructor; [exact O|constructor]|]. exists (DLeaf D). split; [exact T|]. split; [exact I|]. cbn [node_order].
    rewrite snoc_kept in S. constructor; [exact S|constructor].
  - clear l ox oy gs n fls n'. intros nm b m inv tr g ox oy gs n img n1 fls n2 l IG FL IH Wr WF EX F p r ->.
    pose proof EX as (U & M & X & Y & DX & DY & LG & EG). apply expr_all in EG. destruct Wr as (_ & _ & W3).
    assert (WT : is_u8 tr) by apply WF. assert (WI : wf_image (IGroup g)) by apply WF.
    destruct (IH W3 (proj1 (wf_group_Forall g) WI) EG F ltac:(lia) ltac:(lia)) as (O & FF & T & N1 & N2 & N3 & S).
    replace (bare_at (p ++ [r])) with false in S by (now destruct p).
    set (fl := fl_of (base_type k) l ox oy (p ++ [r]) None img None).
    assert (SY : sayable (base_type k) fl) by (apply sayable_of; assumption).
    split.
    { constructor; [|exact O]. split; [now apply utf8_bytes|]. split; [discriminate|]. split; [|discriminate].
      destruct IG as (pxs & R & ->). refine (tiles_bytes _ _ _ _ _ _ _ R). apply proper_image; [apply conv_colours|exact WI]. }
    exists (DGroup (desc mo fl (fun _ _ _ => 0) None None) FF). split.
    { apply told_group; [exact (head_told_of l ox oy (p ++ [r]) None img None _ _ _ EX)|reflexivity|exact T]. }
    split; [exact N1|]. cbn [node_order]. constructor; [|exact S]. split; [|split; [reflexivity|split; [|exact (odd_type l ox oy _ _ _ _ _ _ _)]]].
    + intros float q HB. apply layer_written; auto; exact I || reflexivity.
    + cbn [desc ldAttrs aPath]. unfold fl. now rewrite snoc_kept.
  - clear l ox oy gs n fls n'. intros ox oy gs i n _ _ _ _ _ _. split; [constructor|]. exists DNil. repeat split; constructor.
  - intros. now apply cons_say.
Qed.
Lemma flats_say g ox oy gs i n fls n' : flat_layers g ox oy gs i n fls n' -> layers_say g ox oy gs i fls.
Proof.
  induction 1 as [ox oy gs i n|l g ox oy gs i n fl1 n1 fl2 n2 F1 F2 IH].
  - intros _ _ _ _ _ _. split; [constructor|]. exists DNil. repeat split; constructor.
  - apply cons_say; [|exact IH]. eapply flat_says; eassumption.
Qed.
End Tree.

(** ** the file *)
Definition image_props (k : cmodel) : list (Z * list Z) :=
  match k with
  | KPalette _ | KAlphaPalette _ =>
      [(1, word (zlen (file_palette k)) ++ flat_map (fun c => let '(r, g, b) := c in [r; g; b]) (file_palette k)); (17, [1])]
  | _ => [(17, [1])]
  end.
Definition opal_of (k : cmodel) : option (list (Z * Z * Z)) := match k with KPalette _ | KAlphaPalette _ => Some (file_palette k) | _ => None end.
Lemma palette_eq p : palette_bytes p = map rgbModel p.
Proof. unfold palette_bytes. apply map_ext. intros c. unfold rgbModel, u8. cbn. now rewrite !Zmod_mod. Qed.
Lemma colours_property p : let X := flat_map (fun c : Z * Z * Z => let '(r, g, b) := c in [r; g; b]) p in
  zlen (prop32 1 (w32 (zlen p) ++ X)) < 4294967296 -> prop32 1 (w32 (zlen p) ++ X) = property 1 (word (zlen p) ++ X).
Proof.
  intros X L. rewrite prop32_len, zlen_app, w32_len in L. pose proof (zlen_pos X). pose proof (zlen_pos p).
  assert (LX : zlen X = 3 * zlen p).
  { unfold X. clear. induction p as [|[[r g] b] p IH]; [reflexivity|]. cbn [flat_map]. rewrite zlen_app, IH. change (zlen [r; g; b]) with 3. rewrite zlen_cons. lia. }
  rewrite prop32_property; [|unfold is_word; lia|rewrite zlen_app, w32_len; lia]. now rewrite w32_word by (unfold is_word; lia).
Qed.
Lemma head_palette_of k W H : let h := mkFH W H (fst (fst (colour_type k))) (option_map palette_bytes (snd (colour_type k))) in
  is_word W -> is_word H -> zlen (file_head h) < 4294967296 ->
  file_head h = image_start 3 W H (base_type k) 0 ++ props_bytes (image_props k).
Proof.
  intros h WW WH L. unfold h in *. clear h. rewrite ct_base in *.
  pose proof (base_types k) as B. unfold file_head in *. cbn [fhW fhH fhBase fhPalette] in *.
  unfold image_start. rewrite (w32_word W WW), (w32_word H WH), (w32_word (base_type k)) by (unfold is_word; lia).
  change (file_magic 3) with magic. change (3 <=? 3) with true. cbv iota. rewrite app_nil_r, <- !app_assoc. do 4 f_equal.
  unfold image_props, props_bytes. rewrite (prop32_property 17), (prop32_property 0) by (unfold is_word; vm_compute; (reflexivity || (split; [discriminate|reflexivity]))).
  rewrite !zlen_app in L.
  destruct k as [| | | | | |p|p|]; cbn [colour_type snd option_map] in *; cbn [flat_map fst snd app]; try reflexivity;
  rewrite <- !app_assoc; cbn [app]; unfold file_palette; rewrite <- palette_eq; (rewrite colours_property; [reflexivity|]);
  repeat match type of L with context [zlen ?x] => lazymatch goal with H : 0 <= zlen x |- _ => fail | _ => pose proof (zlen_pos x) end end; lia.
Qed.
Lemma image_props_ok k : Forall (framed_image (base_type k)) (image_props k) /\ all_imean (image_props k) (None, 0) (opal_of k, 1).
Proof.
  assert (F17 : forall b, framed_image b (17, [1])).
  { intros b. split; [apply pl_compression; auto|]. cbn [fst snd]. repeat split; lia. }
  split.
  - destruct k; cbn [image_props]; try (apply Forall_cons; [apply F17|apply Forall_nil]);
    (apply Forall_cons; [|apply Forall_cons; [apply F17|apply Forall_nil]]); (split; [apply pl_colours|]); cbn [fst snd base_type]; (split; [lia|]); intros; lia.
  - destruct k; cbn [image_props opal_of all_imean fst snd]; try (eexists; split; [apply im_compression|reflexivity]);
    (eexists; split; [apply im_colours|]; eexists; split; [apply im_compression|reflexivity]).
Qed.

Section Whole.
Variables (rnd : nat -> Z) (wtext : list textDatum -> Z -> Z -> option (list Z)) (ptext : list Z -> tres).
Variables (mo : Z -> mode) (md : mode -> mode) (ok : mode -> Prop).
Hypothesis Hmode : forall m, ok m -> mo (modeID m) = md m.
Lemma file_written g fls n' : let i := IGroup g in let k := image_ColorModel i in let W := dx (image_Bounds i) in let H := dy (image_Bounds i) in
  flat_layers rnd wtext (conv_of i) (base_of i) g 0 0 [] 0 0 fls n' -> fold_right (fun l P => writable l /\ P) True g -> wf_image i ->
  expressibles wtext ptext ok g 0 0 -> zlen g <= 55296 -> is_word W -> is_word H ->
  let f := file_bytes (head_of i) fls in zlen f < 16777216 ->
  exists F, tolds rnd wtext ptext k md g 0 0 F /\ forall float, file_of float mo ptext f 3 W H (base_type k) (file_palette k) F.
Proof.
  intros i k W H FL Wr WI EX LG WW WH f L.
  assert (CB : conv_of i = conv k) by reflexivity. assert (BB : base_of i = base_type k) by apply ct_base. rewrite CB, BB in FL.
  destruct (flats_say rnd wtext ptext k mo md ok Hmode f L g 0 0 [] 0 0%nat fls n' FL Wr (proj1 (wf_group_Forall g) WI) EX (Forall_nil _) ltac:(lia) ltac:(lia))
    as (O & F & T & DL & DN & _ & S). cbn [bare_at] in S.
  assert (HD : head_of i = mkFH W H (fst (fst (colour_type k))) (option_map palette_bytes (snd (colour_type k)))).
  { unfold head_of. fold k W H. now destruct (colour_type k) as [[ct cf] pal]. }
  exists F. split; [exact T|]. intros float.
  assert (HB : holds (mkSrc f false) 0 f) by apply holds_all.
  destruct (file_blocks 0%nat (mkSrc f false) (fun z => z) ltac:(cbn [sFile]; lia) (head_of i) fls HB) as [BL OF].
  set (q := zlen (file_head (head_of i)) + 4 * zlen (map layer_bytes fls) + 8) in *. set (lps := offsets q (map layer_bytes fls)) in *.
  assert (LH : zlen (file_head (head_of i)) < 4294967296).
  { unfold f, file_bytes in L. cbv zeta in L. rewrite !zlen_app in L.
    repeat match type of L with context [zlen ?x] => lazymatch goal with H : 0 <= zlen x |- _ => fail | _ => pose proof (zlen_pos x) end end. lia. }
  constructor.
  - apply file_byte; [|exact O]. rewrite HD. cbn [fhPalette]. intros p E. pose proof (palette_bytes3 k) as B3. unfold file_palette in B3.
    destruct k; cbn in E; try discriminate; injection E as <-; rewrite palette_eq; exact B3.
  - exact L.
  - lia.
  - exact WW.
  - exact WH.
  - apply base_types.
  - exists 0, (image_props k), (opal_of k), lps, (w32 0 ++ blocks q (map layer_bytes fls)), true.
    destruct (image_props_ok k) as [IP1 IP2]. split; [unfold is_word; lia|]. split.
    { assert (HP : file_head (head_of i) = image_start 3 W H (base_type k) 0 ++ props_bytes (image_props k)).
      { rewrite HD in LH |- *. apply head_palette_of; assumption. }
      assert (PS : flat_map w32 lps = flat_map (pointer (pointer_kind 3)) lps).
      { apply w32s_pointers. eapply Forall_impl; [|exact OF]. unfold is_word. cbv beta. lia. }
      change f with (file_head (head_of i) ++ flat_map w32 lps ++ w32 0 ++ w32 0 ++ blocks q (map layer_bytes fls)).
      rewrite HP, PS, <- !app_assoc. reflexivity. }
    split; [exact IP1|]. split; [exact IP2|]. split; [destruct k; cbn; intros; (reflexivity || lia)|]. split; [apply palette_bytes3|].
    split; [eapply Forall_impl; [|exact OF]; cbv beta; lia|]. split; [|split].
    + clear - S BL. unfold lps. clear lps. clearbody f. revert BL S. generalize (dorder true [] F) as xs. generalize q as z. clear q. induction fls as [|fl fls IH]; intros z xs BL S; inversion S; subst; [constructor|].
      cbn [map offsets blocks] in *. apply holds_split in BL as [B1 B2]. constructor; [|now apply IH].
      destruct y as [[D gr] path]. destruct H1 as (A & B & C & _). split; [now apply A|auto].
    + intros _. exact DN.
    + intros j x N _. clear - S N. clearbody f. revert j N. induction S as [|fl y fls ys A S IH]; intros [|j] N; try discriminate; [|now apply (IH j)].
      injection N as <-. destruct y as [[D gr] path]. now destruct A as (_ & _ & _ & A).
  - exact DL.
Qed.
End Whole.

