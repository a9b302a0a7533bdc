(** The encoder's functions lay out the structures of S_Layout. *)
From Coq Require Import Permutation ZifyBool ZifyNat.
Require Import Verif.Base Verif.L_List Verif.M_Color Verif.M_Composite Verif.M_Rect Verif.M_Image Verif.L_Image Verif.M_Reader
  Verif.M_Rle Verif.M_Decode Verif.M_Encode Verif.S_Encode Verif.L_Encode Verif.L_Calls Verif.S_File Verif.S_Layout Verif.S_Tree Verif.L_Run Verif.L_Emit.

Lemma w32_len z : zlen (w32 z) = 4. Proof. reflexivity. Qed.
Lemma w32_u32 z : w32 (u32 z) = w32 z.
Proof. unfold w32, u32. now rewrite Z.mod_mod. Qed.
Lemma zlen_w32s l : zlen (flat_map w32 l) = 4 * zlen l.
Proof. induction l as [|z l IH]; [reflexivity|]. cbn [flat_map]. rewrite zlen_app, IH, w32_len, zlen_cons. lia. Qed.
Lemma zlen_offsets p bs : zlen (offsets p bs) = zlen bs.
Proof. revert p. induction bs as [|b bs IH]; intros p; [reflexivity|]. cbn [offsets]. now rewrite !zlen_cons, IH. Qed.
Lemma offsets_app p a b : offsets p (a ++ b) = offsets p a ++ offsets (p + zlen (blocks p a)) b.
Proof.
  revert p. induction a as [|x a IH]; intros p; cbn [app offsets blocks].
  - change (zlen (@nil Z)) with 0. now rewrite Z.add_0_r.
  - rewrite IH, zlen_app. cbn [app]. now rewrite Z.add_assoc.
Qed.
Lemma blocks_app p a b : blocks p (a ++ b) = blocks p a ++ blocks (p + zlen (blocks p a)) b.
Proof.
  revert p. induction a as [|x a IH]; intros p; cbn [app blocks].
  - change (zlen (@nil Z)) with 0. now rewrite Z.add_0_r.
  - rewrite IH, zlen_app, <- app_assoc. now rewrite Z.add_assoc.
Qed.

(** the pixels read for a tile, for all tiles: the conversions of what At returns *)
Inductive reads (so : source) (f : colfun) : list (Z * Z) -> nat -> list (list Z) -> nat -> Prop :=
| reads_nil n : reads so f [] n [] n
| reads_cons p ps n c n1 px n2 : soAt so (fst p) (snd p) n = Some (c, n1) -> reads so f ps n1 px n2 ->
    reads so f (p :: ps) n (colour_bytes f c :: px) n2.
Inductive reads_tiles (so : source) (f : colfun) : list (Z * Z) -> nat -> list (list (list Z)) -> nat -> Prop :=
| rt_nil n : reads_tiles so f [] n [] n
| rt_cons xy l n px n1 pxs n2 : reads so f (tile_points (soBounds so) (fst xy) (snd xy)) n px n1 ->
    reads_tiles so f l n1 pxs n2 -> reads_tiles so f (xy :: l) n (px :: pxs) n2.
Definition tile_of (f : colfun) (px : list (list Z)) : list (list Z) :=
  map (fun n => concat (writeRLE (channel_of px n))) (zseq (channels f)).
Definition grid_of (so : source) (f : colfun) (pxs : list (list (list Z))) : grid :=
  mkGrid (dx (soBounds so)) (dy (soBounds so)) (channels f) (map (tile_of f) pxs).

Lemma zlen_zseq n : 0 <= n -> zlen (zseq n) = n.
Proof. intros. unfold zseq, zlen. rewrite map_length, seq_length. lia. Qed.
Lemma zlen_map {A B} (f : A -> B) l : zlen (map f l) = zlen l.
Proof. unfold zlen. now rewrite map_length. Qed.
Lemma zlen_grid {A B C} (g : A -> B -> C) (ys : list A) (xs : list B) : zlen (flat_map (fun y => map (g y) xs) ys) = zlen ys * zlen xs.
Proof.
  induction ys as [|y ys IH]; [reflexivity|]. cbn [flat_map]. rewrite zlen_app, zlen_map, IH, zlen_cons. lia.
Qed.
Lemma ceil64_pos n : 0 <= n -> 0 <= ceil64 n. Proof. intros. unfold ceil64. apply Z.div_pos; lia. Qed.
Lemma zlen_starts lo hi : lo <= hi -> zlen (starts lo hi) = ceil64 (hi - lo).
Proof. intros. unfold starts. rewrite zlen_map, zlen_zseq; [reflexivity|]. apply ceil64_pos. lia. Qed.
Lemma zlen_tile_starts b : minX b <= maxX b -> minY b <= maxY b -> zlen (tile_starts b) = ceil64 (dx b) * ceil64 (dy b).
Proof.
  intros X Y. unfold tile_starts. rewrite (zlen_grid (fun y x => (x, y))), !zlen_starts by assumption. unfold dx, dy. lia.
Qed.

Lemma layers_in_pos l : 0 < layers_in l.
Proof.
  apply (layer_image_ind (fun i => match i with IGroup g => 0 <= fold_right (fun l n => layers_in l + n) 0 g | _ => True end)
    (fun l => 0 < layers_in l)); auto.
  - intros g F. induction F as [|l' g H F IH]; cbn; lia.
  - intros name b md inv tr im H. destruct im; cbn; try lia.
Qed.

Section Layout.
Variables (wr : nat -> Z -> list Z -> Z * option err) (rnd : nat -> Z)
          (wtext : list textDatum -> Z -> Z -> option (list Z)).
Hypothesis FL : faultless wr.

Lemma gives_reads so f ps : forall acc p n,
  gives (foldW (readPixel so f) ps acc) p n (fun r p' n' k => exists px, r = acc ++ px /\ reads so f ps n px n' /\ p' = p /\ k = []).
Proof.
  induction ps as [|q ps IH]; intros acc p n; cbn [foldW].
  - apply gives_ret. exists []. rewrite app_nil_r. repeat split; auto. constructor.
  - apply (gives_bind _ _ _ _ (fun r p' n' k => exists c, soAt so (fst q) (snd q) n = Some (c, n') /\ r = acc ++ [colour_bytes f c] /\ p' = p /\ k = [])).
    + intros log a st' E. unfold readPixel, obind in E. cbn [wRnd wLog wPos wErr] in E.
      destruct (soAt so (fst q) (snd q) n) as [[c n1]|] eqn:A; [|discriminate]. injection E as <- <-.
      exists [], p, n1. split; [reflexivity|]. eauto.
    + intros a p' n' k (c & A & -> & -> & ->). eapply gives_mono; [apply IH|]. cbv beta.
      intros r p'' n'' k' (px & -> & R & -> & ->). exists (colour_bytes f c :: px). rewrite <- app_assoc.
      repeat split; auto. econstructor; eassumption.
Qed.
(** a pointer and what it points to *)
Lemma gives_writeTile so f xy w p n : pwErr w = None -> 0 < pwLeft w ->
  gives (writeTile wr so f xy w) p n (fun w' p' n' k => exists px,
    reads so f (tile_points (soBounds so) (fst xy) (snd xy)) n px n' /\
    w' = mkPW (pwPos w + 4) (pwLeft w - 1) None /\ p' = p + zlen (concat (tile_of f px)) /\
    covers k [(pwPos w, w32 p); (p, concat (tile_of f px))]).
Proof.
  intros E L. unfold writeTile. eapply gives_bind; [apply gives_reads|]. cbv beta. intros r p1 n1 k1 (px & -> & R & -> & ->).
  cbn [app]. eapply gives_bind; [apply (gives_pos p n1 (fun a p' n' k => a = p /\ p' = p /\ n' = n1 /\ k = [])); auto|].
  cbv beta. intros pos p2 n2 k2 (-> & -> & -> & ->).
  eapply gives_bind; [apply (gives_pointer wr FL w p p n1 (fun a p' n' k => a = mkPW (pwPos w + 4) (pwLeft w - 1) None /\ p' = p /\ n' = n1 /\ covers k [(pwPos w, w32 p)])); auto|].
  cbv beta. intros w1 p2 n2 k2 (-> & -> & -> & C).
  eapply (gives_emits _ _ (concat (tile_of f px))).
  { unfold tile_of. rewrite <- flat_map_concat_map. apply emits_each. intros c _. now apply emits_puts. }
  intros u k3 C3. apply gives_ret. exists px. repeat split; auto.
  rewrite app_nil_r. cbn [app]. rewrite app_nil_r. now apply (covers_app k2 [(pwPos w, w32 p)]).
Qed.
Lemma covers4 k r P q B P' B' : covers k [(r, P); (q, B); (r + zlen P, P'); (q + zlen B, B')] ->
  covers k [(r, P ++ P'); (q, B ++ B')].
Proof.
  intros C. apply (covers_perm _ _ [(r, P); (r + zlen P, P'); (q, B); (q + zlen B, B')]) in C; [|apply perm_skip, perm_swap].
  apply covers_merge in C; [|reflexivity].
  apply (covers_perm _ _ [(q, B); (q + zlen B, B'); (r, P ++ P')]) in C.
  2:{ apply (Permutation_cons_append [(q, B); (q + zlen B, B')] (r, P ++ P')). }
  apply covers_merge in C; [|reflexivity]. eapply covers_perm; [exact C|apply perm_swap].
Qed.
Lemma gives_tiles so f xys : forall w p n, pwErr w = None -> zlen xys <= pwLeft w ->
  gives (foldW (writeTile wr so f) xys w) p n (fun _ p' n' k => exists pxs,
    reads_tiles so f xys n pxs n' /\
    let bs := map tile_block (map (tile_of f) pxs) in
    p' = p + zlen (blocks p bs) /\
    covers k [(pwPos w, flat_map w32 (offsets p bs)); (p, blocks p bs)]).
Proof.
  induction xys as [|xy xys IH]; intros w p n E L; cbn [foldW].
  - apply gives_ret. exists []. split; [constructor|]. cbn. change (zlen (@nil Z)) with 0. split; [lia|].
    do 2 apply covers_empty. apply covers_nil.
  - rewrite zlen_cons in L. pose proof (zlen_pos xys).
    eapply gives_bind; [apply gives_writeTile; [exact E|lia]|]. cbv beta. intros w1 p1 n1 k1 (px & R & -> & -> & C).
    eapply gives_mono; [apply IH; [reflexivity|cbn [pwLeft]; lia]|]. cbv beta. cbn [pwPos].
    intros _ p' n' k (pxs & RT & -> & C'). exists (px :: pxs). split; [econstructor; eassumption|].
    cbn [map]. cbv zeta. cbn [blocks offsets flat_map]. unfold tile_block at 1 2 3 4 5 6. rewrite zlen_app.
    split; [lia|]. apply covers4. exact (covers_app k1 [_; _] k _ C C').
Qed.
Lemma zlen_reads_tiles so f xys n pxs n' : reads_tiles so f xys n pxs n' -> zlen pxs = zlen xys.
Proof. induction 1; [reflexivity|]. now rewrite !zlen_cons, IHreads_tiles. Qed.

Lemma gives_reserveList c p n (Q : pointerWriter -> Z -> nat -> list call -> Prop) :
  (forall k, covers k [(p + c * 4, w32 0)] -> Q (mkPW p c None) (p + c * 4 + 4) n k) ->
  gives (reservePointerList wr c) p n Q.
Proof.
  intros H. unfold reservePointerList. eapply gives_bind; [apply (gives_reserve c p n (fun a p' n' k => a = mkPW p c None /\ p' = p + c * 4 /\ n' = n /\ k = [])); auto|].
  cbv beta. intros a p' n' k (-> & -> & -> & ->). eapply gives_emits; [now apply emits_put32|]. intros _ k C.
  apply gives_ret. rewrite app_nil_r. cbn [app]. apply H. exact C.
Qed.
(** image_encode.go:10-64 *)
Lemma gives_writeImage so f p n : fits (soBounds so) ->
  gives (writeImage wr so f) p n (fun _ p' n' k => exists pxs,
    reads_tiles so f (tile_starts (soBounds so)) n pxs n' /\
    p' = p + zlen (grid_bytes (grid_of so f pxs) p) /\ covers k [(p, grid_bytes (grid_of so f pxs) p)]).
Proof.
  intros (X & Y & N). fold (ceil64 (dx (soBounds so))) in N. fold (ceil64 (dy (soBounds so))) in N. unfold writeImage. set (b := soBounds so) in *.
  assert (Nn : 0 <= ceil64 (dx b) * ceil64 (dy b)).
  { apply Z.mul_nonneg_nonneg; apply ceil64_pos; unfold dx, dy; lia. }
  eapply gives_emits; [now apply emits_put32|]. intros _ k1 C1. rewrite w32_len.
  eapply gives_emits; [now apply emits_put32|]. intros _ k2 C2. rewrite w32_len.
  eapply gives_emits; [now apply emits_put32|]. intros _ k3 C3. rewrite w32_len.
  eapply gives_bind; [apply (gives_pos _ n (fun a p' n' k => a = p + 12 /\ p' = p + 12 /\ n' = n /\ k = [])); repeat split; lia|].
  cbv beta. intros pos p' n' k (-> & -> & -> & ->).
  eapply gives_emits; [now apply emits_put32|]. intros _ k4 C4. rewrite w32_len.
  eapply gives_emits; [now apply emits_put32|]. intros _ k5 C5. rewrite w32_len.
  eapply gives_emits; [now apply emits_put32|]. intros _ k6 C6. rewrite w32_len.
  eapply gives_emits; [now apply emits_put32|]. intros _ k7 C7. rewrite w32_len.
  rewrite (u32_small (ceil64 (dx b) * ceil64 (dy b))) by lia.
  set (c := ceil64 (dx b) * ceil64 (dy b)) in *.
  eapply gives_bind.
  { apply (gives_reserveList c _ n (fun a p' n' k => a = mkPW (p + 28) c None /\ p' = p + 32 + 4 * c /\ n' = n /\ covers k [(p + 28 + c * 4, w32 0)])).
    intros k8 C8. replace (p + 12 + 4 + 4 + 4 + 4) with (p + 28) in * by lia. repeat split; auto; lia. }
  cbv beta. intros w p' n' k8 (-> & -> & -> & C8).
  eapply gives_bind; [apply gives_tiles; [reflexivity|]|].
  { cbn [pwLeft]. rewrite zlen_tile_starts; auto. unfold c. lia. }
  cbv beta. cbn [pwPos]. intros u p' n' k9 (pxs & RT & -> & C9). apply gives_ret. exists pxs. split; [exact RT|].
  pose proof (zlen_reads_tiles _ _ _ _ _ _ RT) as LT. rewrite zlen_tile_starts in LT by auto. fold c in LT.
  unfold grid_of. unfold grid_bytes. cbn [gdW gdH gdChannels gdTiles]. fold b. rewrite !(zlen_map). rewrite LT.
  set (bs := map tile_block (map (tile_of f) pxs)) in *.
  assert (Lb : zlen bs = c) by (unfold bs; now rewrite !zlen_map).
  split.
  - rewrite !zlen_app, !w32_len, zlen_w32s, zlen_offsets, Lb. lia.
  - cbn [app]. rewrite !app_nil_r. rewrite !app_assoc. cbv zeta.
    pose proof (covers_app _ _ _ _ (covers_app _ _ _ _ (covers_app _ _ _ _ C1 C2) C3) C4) as D1. cbn [app] in D1.
    replace (w32 (u32 (p + 12) + 8)) with (w32 (p + 20)) in D1.
    2:{ unfold w32, u32. rewrite Zplus_mod_idemp_l. now replace (p + 12 + 8) with (p + 20) by lia. }
    pose proof (covers_app _ _ _ _ (covers_app _ _ _ _ (covers_app _ _ _ _ D1 C5) C6) C7) as D2. cbn [app] in D2.
    repeat (apply covers_merge in D2; [|rewrite ?zlen_app, ?w32_len; lia]).
    pose proof (covers_app _ _ _ _ (covers_app _ _ _ _ D2 C8) C9) as D3. cbn [app] in D3.
    match type of D3 with covers _ ((p, ?h) :: _) => set (H := h) in D3 end.
    assert (LH : zlen H = 28) by (unfold H; rewrite !zlen_app, !w32_len; lia).
    apply (covers_perm _ _ [(p, H); (p + 28, flat_map w32 (offsets (p + 32 + 4 * c) bs)); (p + 28 + c * 4, w32 0); (p + 32 + 4 * c, blocks (p + 32 + 4 * c) bs)]) in D3.
    2:{ apply perm_skip. apply perm_swap. }
    repeat (apply covers_merge in D3; [|rewrite ?zlen_app, ?zlen_w32s, ?zlen_offsets, ?w32_len, ?Lb, LH; lia]).
    subst H. rewrite <- !app_assoc in *. exact D3.
Qed.
(** channel.go:53-65 *)
Lemma gives_writeChannel g p n : fits (grayBounds g) ->
  gives (writeChannel wr g) p n (fun _ p' n' k => exists pxs,
    reads_tiles (source_gray g) CfGray (tile_starts (grayBounds g)) n pxs n' /\
    let gr := grid_of (source_gray g) CfGray pxs in
    p' = p + zlen (mask_bytes gr p) /\ covers k [(p, mask_bytes gr p)]).
Proof.
  intros Fi. unfold writeChannel.
  eapply gives_emits; [now apply emits_put32|]. intros _ k1 C1. rewrite w32_len.
  eapply gives_emits; [now apply emits_put32|]. intros _ k2 C2. rewrite w32_len.
  eapply gives_emits; [now apply emits_str|]. intros _ k3 C3. change (zlen (string32 [])) with 5.
  eapply gives_emits; [now apply emits_put32|]. intros _ k4 C4. rewrite w32_len.
  eapply gives_emits; [now apply emits_put32|]. intros _ k5 C5. rewrite w32_len.
  eapply gives_bind; [apply (gives_pos _ n (fun a p' n' k => a = p + 21 /\ p' = p + 21 /\ n' = n /\ k = [])); repeat split; lia|].
  cbv beta. intros pos p' n' k (-> & -> & -> & ->).
  eapply gives_emits; [now apply emits_put32|]. intros _ k6 C6. rewrite w32_len. replace (p + 21 + 4) with (p + 25) by lia.
  eapply gives_mono; [now apply gives_writeImage|]. cbv beta. intros _ p' n' k (pxs & R & -> & C7).
  exists pxs. split; [exact R|]. cbv zeta. unfold mask_bytes. set (gr := grid_of _ _ _) in *. split.
  - rewrite !zlen_app, !w32_len. change (zlen (string32 [])) with 5. change (zlen (prop32 0 [])) with 8. lia.
  - cbn [app]. rewrite app_nil_r. rewrite !app_assoc.
    pose proof (covers_app _ _ _ _ (covers_app _ _ _ _ (covers_app _ _ _ _ C1 C2) C3) C4) as D. cbn [app] in D.
    pose proof (covers_app _ _ _ _ (covers_app _ _ _ _ (covers_app _ _ _ _ D C5) C6) C7) as D7. clear C7. rename D7 into C7. cbn [app] in C7.
    replace (w32 (u32 (p + 21) + 4)) with (w32 (p + 25)) in C7.
    2:{ unfold w32, u32. rewrite Zplus_mod_idemp_l. now replace (p + 21 + 4) with (p + 25) by lia. }
    repeat (apply covers_merge in C7; [|rewrite ?zlen_app, ?w32_len; change (zlen (string32 [])) with 5; lia]).
    unfold prop32. change (w32 (zlen (@nil Z))) with (w32 0). rewrite app_nil_r. rewrite <- !app_assoc in *. exact C7.
Qed.

(** what is written for an image and for a mask *)
Definition image_grid (f : colfun) (i : image) (n : nat) (g : grid) (n' : nat) : Prop :=
  exists pxs, reads_tiles (source_of rnd i) f (tile_starts (image_Bounds i)) n pxs n' /\
    g = grid_of (source_of rnd i) f pxs.
Definition mask_grid (m : option gray_img) (n : nat) (g : option grid) (n' : nat) : Prop :=
  match m, g with
  | None, None => n' = n
  | Some m, Some g => exists pxs, reads_tiles (source_gray m) CfGray (tile_starts (grayBounds m)) n pxs n' /\
      g = grid_of (source_gray m) CfGray pxs
  | _, _ => False
  end.
Definition data_bytes (img : grid) (msk : option grid) : block := fun q =>
  let mp := q + 8 + zlen (grid_bytes img (q + 8)) in
  w32 (q + 8) ++ w32 (match msk with Some _ => mp | None => 0 end) ++
  grid_bytes img (q + 8) ++ match msk with Some m => mask_bytes m mp | None => [] end.

(** layer_encode.go:186-202 *)
Lemma gives_writeLayerData f i m p n : fits (image_Bounds i) -> (forall g, m = Some g -> fits (grayBounds g)) ->
  gives (writeLayerData wr rnd f i m) p n (fun _ p' n' k => exists img n1 msk,
    image_grid f i n img n1 /\ mask_grid m n1 msk n' /\
    p' = p + zlen (data_bytes img msk p) /\ covers k [(p, data_bytes img msk p)]).
Proof.
  intros Fi Fm. unfold writeLayerData.
  eapply gives_bind; [apply (gives_reserve 2 p n (fun a p' n' k => a = mkPW p 2 None /\ p' = p + 8 /\ n' = n /\ k = [])); repeat split; lia|].
  cbv beta. intros w p' n' k (-> & -> & -> & ->).
  eapply gives_bind; [apply (gives_pos _ n (fun a p' n' k => a = p + 8 /\ p' = p + 8 /\ n' = n /\ k = [])); repeat split; lia|].
  cbv beta. intros pos p' n' k (-> & -> & -> & ->).
  eapply gives_bind; [apply (gives_pointer wr FL _ (p + 8) (p + 8) n (fun a p' n' k => a = mkPW (p + 4) 1 None /\ p' = p + 8 /\ n' = n /\ covers k [(p, w32 (p + 8))])); auto; reflexivity|].
  cbv beta. intros w1 p2 n2 k1 (-> & -> & -> & C1).
  eapply gives_bind; [apply (gives_writeImage (source_of rnd i)); exact Fi|]. cbv beta. cbn [source_of soBounds].
  intros u p2 n1 k2 (pxs & R & -> & C2). set (img := grid_of _ _ _) in *.
  assert (IG : image_grid f i n img n1) by (exists pxs; auto).
  destruct m as [m|].
  - eapply gives_bind; [apply (gives_pos _ n1 (fun a p' n' k => a = p + 8 + zlen (grid_bytes img (p + 8)) /\ p' = p + 8 + zlen (grid_bytes img (p + 8)) /\ n' = n1 /\ k = [])); repeat split; lia|].
    cbv beta. intros pos p' n' k (-> & -> & -> & ->). set (mp := p + 8 + _) in *.
    eapply gives_bind; [apply (gives_pointer wr FL _ mp mp n1 (fun a p' n' k => p' = mp /\ n' = n1 /\ covers k [(p + 4, w32 mp)])); auto; reflexivity|].
    cbv beta. intros w1 p2 n2 k3 (-> & -> & C3).
    eapply gives_mono; [apply gives_writeChannel; auto|]. cbv beta. intros _ p' n' k (pxm & Rm & -> & C4).
    set (gm := grid_of (source_gray m) CfGray pxm) in *. exists img, n1, (Some gm). split; [exact IG|]. split; [cbn; eauto|].
    unfold data_bytes. fold mp. cbn [app]. rewrite ?app_nil_r.
    pose proof (covers_app _ _ _ _ (covers_app _ _ _ _ C1 C2) C3) as D. cbn [app] in D.
    pose proof (covers_app _ _ _ _ D C4) as D4. clear C4. rename D4 into C4. cbn [app] in C4.
    split; [rewrite !zlen_app, !w32_len; unfold mp; lia|].
    apply (covers_perm _ _ [(p, w32 (p + 8)); (p + 4, w32 mp); (p + 8, grid_bytes img (p + 8)); (mp, mask_bytes gm mp)]) in C4.
    2:{ apply perm_skip, perm_swap. }
    repeat (apply covers_merge in C4; [|rewrite ?zlen_app, ?w32_len; unfold mp; lia]).
    rewrite <- !app_assoc in *. exact C4.
  - eapply gives_bind; [apply (gives_pointer wr FL _ 0 _ n1 (fun a p' n' k => p' = p + 8 + zlen (grid_bytes img (p + 8)) /\ n' = n1 /\ covers k [(p + 4, w32 0)])); auto; reflexivity|].
    cbv beta. intros w1 p2 n2 k3 (-> & -> & C3). apply gives_ret. exists img, n1, None.
    split; [exact IG|]. split; [reflexivity|]. unfold data_bytes. cbn [app]. rewrite ?app_nil_r.
    pose proof (covers_app _ _ _ _ (covers_app _ _ _ _ C1 C2) C3) as D. cbn [app] in D.
    split; [rewrite !zlen_app, !w32_len; lia|].
    apply (covers_perm _ _ [(p, w32 (p + 8)); (p + 4, w32 0); (p + 8, grid_bytes img (p + 8))]) in D.
    2:{ apply perm_skip, perm_swap. }
    repeat (apply covers_merge in D; [|rewrite ?zlen_app, ?w32_len; lia]).
    rewrite <- !app_assoc in *. exact D.
Qed.

(** the record written for a layer *)
Definition fl_of (ct : Z) (l : layer) (ox oy : Z) (gs : list Z) (txt : option (list Z)) (img : grid) (msk : option grid) : flayer :=
  mkFL (dx (lBounds l)) (dy (lBounds l)) (ct * 2 + 1) (lName l) (255 - lTransparency l) (if lInvisible l then 0 else 1)
    ox oy gs txt (is_group (lImage l)) (modeID (lMode l)) img msk.
Definition text_data (l : layer) (txt : option (list Z)) : Prop :=
  match text_of (lImage l), txt with
  | [], None => True
  | (_ :: _) as t, Some d => wtext t (u32 (dx (lBounds l))) (u32 (dy (lBounds l))) = Some d
  | _, _ => False
  end.
Lemma gives_writeText t w h p n :
  gives (writeText wr wtext t w h) p n (fun _ p' n' k => exists d, wtext t w h = Some d /\
    let B := prop32 26 (w32 1) ++ prop32 21 (string32 text_layer ++ w32 0 ++ w32 (zlen d) ++ d) in
    p' = p + zlen B /\ n' = n /\ covers k [(p, B)]).
Proof.
  intros log a st' E. unfold writeText, obind in E. destruct (wtext t w h) as [d|]; [|discriminate].
  assert (H : emits (put32 wr 26 ~; put32 wr 4 ~; put32 wr 1 ~;
      put32 wr 21 ~; put32 wr (4 + 15 + 1 + 4 + 4 + zlen d) ~;
      putStr wr textParasiteName ~; put32 wr 0 ~; put32 wr (zlen d) ~; put wr d)
    (w32 26 ++ w32 4 ++ w32 1 ++ w32 21 ++ w32 (4 + 15 + 1 + 4 + 4 + zlen d) ++ string32 text_layer ++ w32 0 ++ w32 (zlen d) ++ d)).
  { repeat (apply emits_bind; [first [now apply emits_put32 | now apply emits_str]|intros _]). now apply emits_put. }
  destruct (H p n log a st' E) as (k & p' & n' & -> & -> & -> & C). exists k. eexists _, _. split; [reflexivity|].
  exists d. split; [reflexivity|]. cbv zeta.
  match type of C with covers _ [(p, ?x)] => match goal with |- _ = p + zlen ?y /\ _ => assert (Q : x = y) end end.
  { unfold prop32. change (zlen (w32 1)) with 4. rewrite !zlen_app, !w32_len. change (zlen (string32 text_layer)) with 20.
    change textParasiteName with text_layer. replace (4 + 15 + 1 + 4 + 4 + zlen d) with (20 + (4 + (4 + zlen d))) by lia.
    now rewrite <- !app_assoc. }
  rewrite <- Q. auto.
Qed.
Definition text_bytes (txt : option (list Z)) : list Z :=
  match txt with
  | Some data => prop32 26 (w32 1) ++ prop32 21 (string32 text_layer ++ w32 0 ++ w32 (zlen data) ++ data)
  | None => []
  end.
(** layer_encode.go:54-102 *)
Lemma gives_writeProperties ct l ox oy gs img msk p n :
  gives (writeProperties wr wtext ct l ox oy gs (is_group (lImage l)) (text_of (lImage l)) ~; put32 wr 0) p n
    (fun _ p' n' k => exists txt, text_data l txt /\
       let B := layer_head (fl_of ct l ox oy gs txt img msk) in p' = p + zlen B /\ n' = n /\ covers k [(p, B)]).
Proof.
  set (H1 := w32 (dx (lBounds l)) ++ w32 (dy (lBounds l)) ++ w32 (ct * 2 + 1) ++ string32 (lName l) ++
    prop32 6 (w32 (255 - lTransparency l)) ++ prop32 8 (w32 (if lInvisible l then 0 else 1)) ++ prop32 15 (w32 ox ++ w32 oy) ++
    (if 1 <? zlen gs then prop32 30 (flat_map w32 gs) else [])).
  set (H2 := (if is_group (lImage l) then prop32 29 [] else []) ++ prop32 7 (w32 (modeID (lMode l))) ++ prop32 0 []).
  assert (SPLIT : forall txt, layer_head (fl_of ct l ox oy gs txt img msk) = H1 ++ text_bytes txt ++ H2).
  { intros txt. unfold layer_head, fl_of, H1, H2, text_bytes.
    cbn [flW flH flType flName flOpacity flVisible flX flY flPath flText flGroup flMode]. now rewrite <- !app_assoc. }
  assert (G1 : forall m, (forall q, gives m q n (fun (_ : unit) p' n' k => exists txt, text_data l txt /\ p' = q + zlen (text_bytes txt) /\ n' = n /\ covers k [(q, text_bytes txt)])) ->
    forall B (e : W B), emits e H2 -> gives (m ~; e) (p + zlen H1) n (fun _ p' n' k => exists txt, text_data l txt /\
      p' = p + zlen (H1 ++ text_bytes txt ++ H2) /\ n' = n /\ covers k [(p + zlen H1, text_bytes txt ++ H2)])).
  { intros m Gm B e Ee. eapply gives_bind; [apply Gm|]. cbv beta. intros _ p' n' k (txt & T & -> & -> & C).
    eapply gives_mono; [apply Ee|]. cbv beta. intros b p' n' k' (-> & -> & C'). exists txt.
    rewrite !zlen_app. repeat split; auto; [lia|]. apply (covers_merge _ _ _ (p + zlen H1 + zlen (text_bytes txt))); [|reflexivity].
    exact (covers_app _ _ _ _ C C'). }
  assert (Gt : forall q, gives (match text_of (lImage l) with [] => skipW | _ => writeText wr wtext (text_of (lImage l)) (u32 (dx (lBounds l))) (u32 (dy (lBounds l))) end) q n
     (fun (_ : unit) p' n' k => exists txt, text_data l txt /\ p' = q + zlen (text_bytes txt) /\ n' = n /\ covers k [(q, text_bytes txt)])).
  { intros q. unfold text_data. destruct (text_of (lImage l)) as [|t ts] eqn:ET.
    - eapply gives_mono; [apply emits_skip|]. cbv beta. intros _ p' n' k (-> & -> & C). exists None.
      split; [exact I|]. split; [reflexivity|]. split; [reflexivity|exact C].
    - eapply gives_mono; [apply gives_writeText|]. cbv beta. intros _ p' n' k (d & E & -> & -> & C). exists (Some d).
      split; [exact E|]. split; [reflexivity|]. split; [reflexivity|exact C]. }
  (* the whole, regrouped *)
  assert (MAIN : forall (a : W unit), emits a H1 -> forall e : W unit, emits e H2 ->
    gives (a ~; (match text_of (lImage l) with [] => skipW | _ => writeText wr wtext (text_of (lImage l)) (u32 (dx (lBounds l))) (u32 (dy (lBounds l))) end) ~; e) p n
    (fun _ p' n' k => exists txt, text_data l txt /\
       let B := layer_head (fl_of ct l ox oy gs txt img msk) in p' = p + zlen B /\ n' = n /\ covers k [(p, B)])).
  { intros a Ea e Ee. eapply gives_emits; [exact Ea|]. intros u k C. eapply gives_mono; [apply (G1 _ Gt _ e Ee)|].
    cbv beta. intros _ p' n' k' (txt & T & -> & -> & C'). exists txt. rewrite SPLIT. repeat split; auto.
    apply (covers_merge _ _ _ (p + zlen H1)); [|reflexivity]. exact (covers_app _ _ _ _ C C'). }
  assert (ASSOC : forall A (m1 : W unit) (f2 : unit -> W unit) (f3 : unit -> W A) st, bindW (bindW m1 f2) f3 st = bindW m1 (fun a => bindW (f2 a) f3) st).
  { intros A m1 f2 f3 st. unfold bindW. now destruct (m1 st) as [[a s]|]. }
  set (a := put32 wr (u32 (dx (lBounds l))) ~; put32 wr (u32 (dy (lBounds l))) ~; put32 wr (ct * 2 + 1) ~;
    putStr wr (lName l) ~;
    put32 wr 6 ~; put32 wr 4 ~; put32 wr (255 - lTransparency l) ~;
    put32 wr 8 ~; put32 wr 4 ~; put32 wr (if lInvisible l then 0 else 1) ~;
    put32 wr 15 ~; put32 wr 8 ~; put32 wr ox ~; put32 wr oy ~;
    (if 1 <? zlen gs then put32 wr 30 ~; put32 wr (4 * zlen gs) ~; eachW (put32 wr) gs else skipW)).
  set (e := (if is_group (lImage l) then put32 wr 29 ~; put32 wr 0 else skipW) ~;
    put32 wr 7 ~; put32 wr 4 ~; put32 wr (modeID (lMode l)) ~; put32 wr 0 ~; put32 wr 0).
  assert (Ea : emits a H1).
  { assert (Ep : emits (if 1 <? zlen gs then put32 wr 30 ~; put32 wr (4 * zlen gs) ~; eachW (put32 wr) gs else skipW)
      (if 1 <? zlen gs then prop32 30 (flat_map w32 gs) else [])).
    { destruct (1 <? zlen gs); [|apply emits_skip]. eapply emits_eq.
      + apply emits_bind; [now apply emits_put32|]. intros _. apply emits_bind; [now apply emits_put32|]. intros _.
        apply emits_each. intros z _. now apply emits_put32.
      + unfold prop32. now rewrite zlen_w32s. }
    unfold a. eapply emits_eq.
    - do 14 (apply emits_bind; [first [now apply emits_put32 | now apply emits_str]|intros _]). exact Ep.
    - unfold H1. unfold prop32 at 2 3 4. rewrite !w32_u32. change (zlen (w32 ox ++ w32 oy)) with 8. rewrite !w32_len. now rewrite <- !app_assoc. }
  assert (Ee : emits e H2).
  { unfold e, H2. apply emits_bind.
    - destruct (is_group (lImage l)); [|apply emits_skip]. eapply emits_eq; [apply emits_bind; [now apply emits_put32|intros _; now apply emits_put32]|reflexivity].
    - intros _. eapply emits_eq; [do 4 (apply emits_bind; [now apply emits_put32|intros _]); now apply emits_put32|reflexivity]. }
  intros log r st' E. apply (MAIN a Ea e Ee log r st').
  rewrite <- E. unfold a, e, writeProperties. cbv zeta. clear.
  generalize (if 1 <? zlen gs then put32 wr 30 ~; put32 wr (4 * zlen gs) ~; eachW (put32 wr) gs else skipW).
  generalize (match text_of (lImage l) with [] => skipW | _ => writeText wr wtext (text_of (lImage l)) (u32 (dx (lBounds l))) (u32 (dy (lBounds l))) end).
  generalize (if is_group (lImage l) then put32 wr 29 ~; put32 wr 0 else skipW). intros c1 c2 c3. unfold bindW.
  repeat match goal with |- context [match ?x with Some _ => _ | None => _ end] =>
    match x with context [match _ with Some _ => _ | None => _ end] => fail 1 | _ => destruct x as [[? ?]|] eqn:? end end; reflexivity.
Qed.

(** the records of a tree, in file order *)
Inductive flat_layer (f : colfun) (ct : Z) : layer -> Z -> Z -> list Z -> nat -> list flayer -> nat -> Prop :=
| fl_leaf l ox oy gs n txt img n1 msk n2 :
    is_group (lImage l) = false -> text_data l txt ->
    image_grid f (unmasked (lImage l)) n img n1 -> mask_grid (mask_of (lImage l)) n1 msk n2 ->
    flat_layer f ct l ox oy gs n [fl_of ct l ox oy gs txt img msk] n2
| fl_group name b md inv tr g ox oy gs n img n1 fls n2 :
    let l := mkLayer name b md inv tr (IGroup g) in
    image_grid f (IGroup g) n img n1 -> flat_layers f ct g ox oy gs 0 n1 fls n2 ->
    flat_layer f ct l ox oy gs n (fl_of ct l ox oy gs None img None :: fls) n2
with flat_layers (f : colfun) (ct : Z) : list layer -> Z -> Z -> list Z -> Z -> nat -> list flayer -> nat -> Prop :=
| fls_nil ox oy gs i n : flat_layers f ct [] ox oy gs i n [] n
| fls_cons l g ox oy gs i n fl1 n1 fl2 n2 :
    flat_layer f ct l (ox + minX (lBounds l)) (oy + minY (lBounds l)) (gs ++ [i]) n fl1 n1 ->
    flat_layers f ct g ox oy gs (i + 1) n1 fl2 n2 ->
    flat_layers f ct (l :: g) ox oy gs i n (fl1 ++ fl2) n2.

Definition lays (pw : pointerWriter) (p : Z) (fls : list flayer) (pw' : pointerWriter) (p' : Z) (k : list call) : Prop :=
  let bs := map layer_bytes fls in
  pw' = mkPW (pwPos pw + 4 * zlen fls) (pwLeft pw - zlen fls) None /\
  p' = p + zlen (blocks p bs) /\
  covers k [(pwPos pw, flat_map w32 (offsets p bs)); (p, blocks p bs)].
Lemma lays_app pw p f1 pw1 p1 k1 f2 pw2 p2 k2 : lays pw p f1 pw1 p1 k1 -> lays pw1 p1 f2 pw2 p2 k2 ->
  lays pw p (f1 ++ f2) pw2 p2 (k2 ++ k1).
Proof.
  intros (-> & -> & C1) (-> & -> & C2). cbn [pwPos pwLeft] in *. unfold lays. cbv zeta. rewrite map_app, zlen_app.
  split; [f_equal; lia|]. rewrite blocks_app, offsets_app, flat_map_app, zlen_app. split; [lia|].
  apply covers4. rewrite zlen_w32s, zlen_offsets, zlen_map. exact (covers_app k1 [_; _] k2 _ C1 C2).
Qed.
Definition layer_gives (f : colfun) (ct : Z) (l : layer) : Prop :=
  writable l -> forall ox oy gs pw p n, pwErr pw = None -> layers_in l <= pwLeft pw ->
  gives (writeLayer wr rnd wtext f ct l ox oy gs pw) p n (fun pw' p' n' k => exists fls,
    flat_layer f ct l ox oy gs n fls n' /\ zlen fls = layers_in l /\ lays pw p fls pw' p' k).
Lemma gives_layers_of f ct g : Forall (layer_gives f ct) g -> fold_right (fun l P => writable l /\ P) True g ->
  forall ox oy gs i pw p n, pwErr pw = None -> fold_right (fun l n => layers_in l + n) 0 g <= pwLeft pw ->
  gives (writeLayers wr rnd wtext f ct g ox oy gs i pw) p n (fun pw' p' n' k => exists fls,
    flat_layers f ct g ox oy gs i n fls n' /\ zlen fls = fold_right (fun l n => layers_in l + n) 0 g /\ lays pw p fls pw' p' k).
Proof.
  induction 1 as [|l g Hl Hg IH]; intros Wr ox oy gs i pw p n E L.
  - apply gives_ret. exists []. split; [constructor|]. split; [reflexivity|]. unfold lays. cbn.
    change (zlen (@nil flayer)) with 0. change (zlen (@nil Z)) with 0. split; [|split; [lia|]].
    + destruct pw as [a b c]. cbn in E |- *. subst c. f_equal; lia.
    + do 2 apply covers_empty. apply covers_nil.
  - cbn [fold_right] in *. destruct Wr as [W1 W2]. rewrite writeLayers_cons.
    assert (0 <= fold_right (fun l n => layers_in l + n) 0 g).
    { clear. induction g as [|l g IH]; cbn [fold_right]; [lia|]. pose proof (layers_in_pos l). lia. }
    eapply gives_bind; [apply (Hl W1); [exact E|lia]|]. cbv beta. intros pw1 p1 n1 k1 (f1 & F1 & Z1 & L1).
    destruct L1 as (-> & -> & C1).
    eapply gives_mono; [apply (IH W2); [reflexivity|cbn [pwLeft]; lia]|]. cbv beta.
    intros pw2 p2 n2 k2 (f2 & F2 & Z2 & L2). exists (f1 ++ f2). split; [econstructor; eassumption|].
    rewrite zlen_app. split; [lia|]. eapply lays_app; [|exact L2]. split; [reflexivity|]. split; [reflexivity|exact C1].
Qed.
Lemma data_of_head ct l ox oy gs txt img msk q :
  layer_head (fl_of ct l ox oy gs txt img msk) ++ data_bytes img msk (q + zlen (layer_head (fl_of ct l ox oy gs txt img msk))) =
  layer_bytes (fl_of ct l ox oy gs txt img msk) q.
Proof. reflexivity. Qed.
Lemma head_indep ct l ox oy gs txt img msk img' msk' :
  layer_head (fl_of ct l ox oy gs txt img msk) = layer_head (fl_of ct l ox oy gs txt img' msk').
Proof. reflexivity. Qed.
Lemma split_mask_spec i : split_mask i = (unmasked i, mask_of i).
Proof. now destruct i. Qed.

Lemma gives_writeLayer f ct l0 : layer_gives f ct l0.
Proof.
  apply (layer_image_ind
    (fun i => match i with IGroup g => Forall (layer_gives f ct) g | _ => True end) (layer_gives f ct)); auto.
  intros name b md inv tr im IH Wr ox oy gs pw p n E L. rewrite writeLayer_eq. rewrite split_mask_spec. cbn [fst snd].
  set (l := mkLayer name b md inv tr im) in *. pose proof (layers_in_pos l).
  destruct Wr as (W1 & W2 & W3).
  eapply gives_bind; [apply (gives_pos p n (fun a p' n' k => a = p /\ p' = p /\ n' = n /\ k = [])); auto|].
  cbv beta. intros pos p2 n2 k2 (-> & -> & -> & ->).
  eapply gives_bind; [apply (gives_pointer wr FL pw p p n (fun a p' n' k => a = mkPW (pwPos pw + 4) (pwLeft pw - 1) None /\ p' = p /\ n' = n /\ covers k [(pwPos pw, w32 p)])); auto; lia|].
  cbv beta. intros pw1 p2 n2 k1 (-> & -> & -> & C1).
  (* the properties and the zero word in one step *)
  assert (STEP : forall (X : Type) (r : W X) Q,
    (forall txt k, text_data l txt -> (forall img msk, covers k [(p, layer_head (fl_of ct l ox oy gs txt img msk))]) ->
       gives r (p + zlen (layer_head (fl_of ct l ox oy gs txt (mkGrid 0 0 0 []) None))) n (fun b p' n' k' => Q b p' n' (k' ++ k))) ->
    gives (writeProperties wr wtext ct l ox oy gs (is_group im) (text_of im) ~; put32 wr 0 ~; r) p n Q).
  { intros X r Q K.
    assert (G : gives ((writeProperties wr wtext ct l ox oy gs (is_group (lImage l)) (text_of (lImage l)) ~; put32 wr 0) ~; r) p n Q).
    { eapply gives_bind; [apply (gives_writeProperties ct l ox oy gs (mkGrid 0 0 0 []) None)|]. cbv beta.
      intros _ p' n' k (txt & T & -> & -> & C). apply K; auto. }
    intros log a st' X0. apply (G log a st'). rewrite <- X0. clear. cbn [lImage l]. unfold bindW.
    destruct (writeProperties wr wtext ct l ox oy gs (is_group im) (text_of im) _) as [[u s]|]; reflexivity. }
  apply STEP. clear STEP. intros txt k2 T C2. specialize (C2).
  eapply gives_bind; [apply (gives_writeLayerData f (unmasked im) (mask_of im)); [exact W1|]|].
  { intros g Eg. rewrite Eg in W2. exact W2. }
  cbv beta. intros _ p3 n3 k3 (img & n1 & msk & IG & MG & -> & C3).
  specialize (C2 img msk). rewrite (head_indep _ _ _ _ _ _ _ _ img msk) in *.
  set (fl := fl_of ct l ox oy gs txt img msk) in *.
  assert (D : covers (k3 ++ k2 ++ k1) [(pwPos pw, w32 p); (p, layer_bytes fl p)]).
  { unfold fl. rewrite <- data_of_head. fold fl.
    pose proof (covers_app _ _ _ _ (covers_app _ _ _ _ C1 C2) C3) as D. cbn [app] in D.
    apply (covers_perm _ _ [(p, layer_head fl); (p + zlen (layer_head fl), data_bytes img msk (p + zlen (layer_head fl))); (pwPos pw, w32 p)]) in D.
    2:{ apply (Permutation_cons_append [(p, layer_head fl); (p + zlen (layer_head fl), data_bytes img msk (p + zlen (layer_head fl)))] (pwPos pw, w32 p)). }
    apply covers_merge in D; [|reflexivity]. eapply covers_perm; [exact D|apply perm_swap]. }
  assert (P3 : p + zlen (layer_head fl) + zlen (data_bytes img msk (p + zlen (layer_head fl))) = p + zlen (layer_bytes fl p)).
  { unfold fl. rewrite <- data_of_head. fold fl. rewrite zlen_app. lia. }
  rewrite P3. clear P3 C1 C2 C3.
  assert (LAY : lays pw p [fl] (mkPW (pwPos pw + 4) (pwLeft pw - 1) None) (p + zlen (layer_bytes fl p)) (k3 ++ k2 ++ k1)).
  { unfold lays. cbn [map blocks offsets flat_map]. rewrite !app_nil_r. change (zlen [fl]) with 1. auto. }
  destruct (is_group im) eqn:EG.
  - destruct im as [|g| | |]; try discriminate. cbn [layers_in] in L. cbn [unmasked mask_of] in *. unfold mask_grid in MG.
    assert (txt = None) as -> by (unfold text_data, l in T; cbn [lImage text_of] in T; destruct txt; [contradiction|reflexivity]).
    destruct msk; [contradiction|]. subst n3.
    eapply gives_mono; [apply (gives_layers_of f ct g IH W3); [reflexivity|cbn [pwLeft]; unfold l in L; cbn [layers_in] in L; lia]|].
    cbv beta. intros pw2 p2 n2 k4 (fls & F2 & Z2 & L2). exists (fl :: fls). split; [|split].
    + apply fl_group with (n1 := n1); assumption.
    + rewrite zlen_cons, Z2. reflexivity.
    + cbn [app]. rewrite app_nil_r, <- !app_assoc. exact (lays_app _ _ [fl] _ _ _ _ _ _ _ LAY L2).
  - assert (G : gives (retW (mkPW (pwPos pw + 4) (pwLeft pw - 1) None)) (p + zlen (layer_bytes fl p)) n3
       (fun b0 p'' n'' k' => exists fls, flat_layer f ct l ox oy gs n fls n'' /\ zlen fls = layers_in l /\
          lays pw p fls b0 p'' ((((k' ++ k3) ++ k2) ++ k1) ++ []))).
    { apply gives_ret. exists [fl]. split; [|split].
      - eapply fl_leaf; eauto.
      - unfold l. destruct im; try discriminate; reflexivity.
      - cbn [app]. rewrite app_nil_r, <- !app_assoc. exact LAY. }
    destruct im; try discriminate; exact G.
Qed.
Lemma gives_writeLayers f ct g : fold_right (fun l P => writable l /\ P) True g ->
  forall ox oy gs i pw p n, pwErr pw = None -> fold_right (fun l n => layers_in l + n) 0 g <= pwLeft pw ->
  gives (writeLayers wr rnd wtext f ct g ox oy gs i pw) p n (fun pw' p' n' k => exists fls,
    flat_layers f ct g ox oy gs i n fls n' /\ zlen fls = fold_right (fun l n => layers_in l + n) 0 g /\ lays pw p fls pw' p' k).
Proof. apply gives_layers_of. apply Forall_forall. intros. apply gives_writeLayer. Qed.

(** encoder.go:32-113 *)
Definition palette_bytes (p : list color) : list (Z * Z * Z) :=
  map (fun c => let '(r, g, b) := rgbModel c in (u8 r, u8 g, u8 b)) p.
Definition head_of (i : image) : fhead :=
  let '(ct, _, pal) := colour_type (image_ColorModel i) in
  mkFH (dx (image_Bounds i)) (dy (image_Bounds i)) ct (option_map palette_bytes pal).
Lemma emits_palette p : emits (writePalette wr p)
  (prop32 1 (w32 (zlen p) ++ flat_map (fun c => let '(r, g, b) := c in [r; g; b]) (palette_bytes p))).
Proof.
  unfold writePalette, prop32. eapply emits_eq.
  - do 3 (apply emits_bind; [now apply emits_put32|intros _]).
    apply (emits_each _ (fun c => let '(r, g, b) := rgbModel c in [u8 r] ++ [u8 g] ++ [u8 b])). intros c _.
    destruct (rgbModel c) as [[r g] b]. do 2 (apply emits_bind; [now apply emits_put8|intros _]). now apply emits_put8.
  - unfold palette_bytes. rewrite zlen_app, w32_len.
    assert (E : flat_map (fun c => let '(r, g, b) := c in [r; g; b]) (map (fun c => let '(r, g, b) := rgbModel c in (u8 r, u8 g, u8 b)) p) =
      flat_map (fun c => let '(r, g, b) := rgbModel c in [u8 r] ++ [u8 g] ++ [u8 b]) p).
    { induction p as [|c p IH]; [reflexivity|]. cbn [map flat_map]. rewrite IH. now destruct (rgbModel c) as [[r g] b]. }
    rewrite E.
    assert (L : zlen (flat_map (fun c => let '(r, g, b) := rgbModel c in [u8 r] ++ [u8 g] ++ [u8 b]) p) = 3 * zlen p).
    { clear E. induction p as [|c p IH]; [reflexivity|]. cbn [flat_map]. rewrite zlen_app, IH. destruct (rgbModel c) as [[r g] b].
      rewrite zlen_cons. change (zlen ([u8 r] ++ [u8 g] ++ [u8 b])) with 3. lia. }
    rewrite L. now replace (4 + 3 * zlen p) with (3 * zlen p + 4) by lia.
Qed.
Lemma zlen_palette p : zlen (palette_bytes p) = zlen p. Proof. apply zlen_map. Qed.
Lemma layerCount_spec l : layerCount l = layers_in l. Proof. reflexivity. Qed.
Lemma layersCount_spec g : layersCount g = fold_right (fun l n => layers_in l + n) 0 g.
Proof. unfold layersCount. induction g as [|l g IH]; [reflexivity|]. cbn [fold_right]. now rewrite layerCount_spec, IH. Qed.

(** what is written up to the layer pointers *)
Definition image_head (i : image) : W unit :=
  let b := image_Bounds i in
  let '(ct, f, pal) := colour_type (image_ColorModel i) in
  put wr xcf_header ~;
  put32 wr (dx b) ~; put32 wr (dy b) ~; put32 wr ct ~;
  (match pal with Some p => writePalette wr p | None => skipW end) ~;
  put32 wr 17 ~; put32 wr 1 ~; put8 wr 1 ~;
  put32 wr 0 ~; put32 wr 0.
Lemma emits_image_head i : emits (image_head i) (file_head (head_of i)).
Proof.
  unfold image_head, head_of. cbv zeta. destruct (colour_type (image_ColorModel i)) as [[ct f] pal].
  unfold file_head. cbn [fhW fhH fhBase fhPalette].
  apply emits_bind; [now apply emits_put|intros _].
  do 3 (apply emits_bind; [now apply emits_put32|intros _]).
  apply emits_bind.
  { destruct pal as [p|]; cbn [option_map]; [|apply emits_skip]. rewrite zlen_palette. apply emits_palette. }
  intros _. eapply emits_eq; [do 2 (apply emits_bind; [now apply emits_put32|intros _]); apply emits_bind; [now apply emits_put8|intros _];
    apply emits_bind; [now apply emits_put32|intros _]; now apply emits_put32|]. reflexivity.
Qed.
(** the layer pointers and the layers *)
Lemma gives_body (c : Z) (m : pointerWriter -> W pointerWriter) (R : list flayer -> nat -> Prop) p n : 
  (forall pw q, pwErr pw = None -> c <= pwLeft pw ->
    gives (m pw) q n (fun pw' p' n' k => exists fls, R fls n' /\ zlen fls = c /\ lays pw q fls pw' p' k)) ->
  gives (pw <~ reservePointerList wr c;; put32 wr 0 ~; m pw ~; skipW) p n (fun _ p' n' k => exists fls, R fls n' /\
    let bs := map layer_bytes fls in
    let q := p + 4 * zlen bs + 8 in
    let B := flat_map w32 (offsets q bs) ++ w32 0 ++ w32 0 ++ blocks q bs in
    zlen fls = c /\ p' = p + zlen B /\ covers k [(p, B)]).
Proof.
  intros H.
  eapply gives_bind.
  { apply (gives_reserveList c p n (fun a p' n' k => a = mkPW p c None /\ p' = p + c * 4 + 4 /\ n' = n /\ covers k [(p + c * 4, w32 0)])). auto. }
  cbv beta. intros w p' n' k1 (-> & -> & -> & C1).
  eapply gives_emits; [now apply emits_put32|]. intros _ k2 C2. rewrite w32_len.
  eapply gives_bind; [apply H; [reflexivity|cbn; lia]|]. cbv beta. intros pw p' n' k3 (fls & HR & Z & (_ & -> & C3)).
  apply gives_ret. exists fls. split; [exact HR|]. cbn [pwPos] in C3. cbv zeta. rewrite zlen_map, Z.
  replace (p + c * 4 + 4 + 4) with (p + 4 * c + 8) in * by lia.
  set (bs := map layer_bytes fls) in *. assert (Lb : zlen bs = c) by (unfold bs; now rewrite zlen_map).
  split; [reflexivity|]. split.
  - rewrite !zlen_app, zlen_w32s, zlen_offsets, !w32_len, Lb. lia.
  - cbn [app]. pose proof (covers_app _ _ _ _ (covers_app _ _ _ _ C1 C2) C3) as D. cbn [app] in D. rewrite <- !app_assoc. 
    set (q := p + 4 * c + 8) in *.
    apply (covers_perm _ _ [(p, flat_map w32 (offsets q bs)); (p + c * 4, w32 0); (p + c * 4 + 4, w32 0); (q, blocks q bs)]) in D.
    2:{ symmetry. exact (Permutation_middle [(p + c * 4, w32 0); (p + c * 4 + 4, w32 0)] [(q, blocks q bs)] (p, flat_map w32 (offsets q bs))). }
    repeat (apply covers_merge in D; [|rewrite ?zlen_app, ?zlen_w32s, ?zlen_offsets, ?w32_len, ?Lb; unfold q; lia]).
    rewrite <- !app_assoc in D. exact D.
Qed.
Definition base_of (i : image) : Z := fst (fst (colour_type (image_ColorModel i))).
Definition conv_of (i : image) : colfun := snd (fst (colour_type (image_ColorModel i))).
Lemma gives_encode i (body : W unit) (R : list flayer -> nat -> Prop) c :
  (forall log, encodeW wr rnd wtext i (mkW log 0 None 0) = (image_head i ~; body) (mkW log 0 None 0)) ->
  (forall p, gives body p 0 (fun _ p' n' k => exists fls, R fls n' /\
    let bs := map layer_bytes fls in
    let q := p + 4 * zlen bs + 8 in
    let B := flat_map w32 (offsets q bs) ++ w32 0 ++ w32 0 ++ blocks q bs in
    zlen fls = c /\ p' = p + zlen B /\ covers k [(p, B)])) ->
  forall e calls, encode wr rnd wtext i = Some (e, calls) ->
  e = None /\ exists fls n, R fls n /\ zlen fls = c /\ covers calls [(0, file_bytes (head_of i) fls)].
Proof.
  intros Q G e calls E. unfold encode in E. rewrite Q in E.
  assert (K : gives (image_head i ~; body) 0 0 (fun _ p' n' k => exists fls, R fls n' /\ zlen fls = c /\ covers k [(0, file_bytes (head_of i) fls)])).
  { eapply gives_emits; [apply emits_image_head|]. intros _ k C. eapply gives_mono; [apply G|]. cbv beta zeta.
    intros _ p' n' k' (fls & HR & Z & -> & C'). exists fls. split; [exact HR|]. split; [exact Z|].
    unfold file_bytes. cbv zeta. apply (covers_merge _ _ _ (0 + zlen (file_head (head_of i)))); [|reflexivity].
    rewrite Z.add_0_l in *. exact (covers_app _ _ _ _ C C'). }
  destruct ((image_head i ~; body) (mkW [] 0 None 0)) as [[u st]|] eqn:X; [|discriminate]. injection E as <- <-.
  destruct (K _ _ _ X) as (k & p' & n' & -> & fls & HR & Z & C). split; [reflexivity|]. exists fls, n'.
  split; [exact HR|]. split; [exact Z|]. cbn [wLog]. rewrite app_nil_r. eapply covers_k; [exact C|]. apply Permutation_rev.
Qed.
Ltac assoc_head :=
  intros log; unfold encodeW, image_head; cbv zeta;
  match goal with |- context [colour_type ?x] => destruct (colour_type x) as [[?ct ?f] ?pal] end; cbn [fst snd];
  match goal with |- context [match ?pal with Some _ => writePalette _ _ | None => _ end] =>
    generalize (match pal with Some p => writePalette wr p | None => skipW end) end; intros c1;
  match goal with |- context [reservePointerList wr ?x] => generalize (reservePointerList wr x) end; intros c2;
  unfold bindW;
  repeat match goal with |- context [match ?x with Some _ => _ | None => _ end] =>
    match x with context [match _ with Some _ => _ | None => _ end] => fail 1 | _ => destruct x as [[? ?]|] end end; reflexivity.
Lemma encode_group g e calls : encode wr rnd wtext (IGroup g) = Some (e, calls) ->
  fold_right (fun l P => writable l /\ P) True g -> fold_right (fun l n => layers_in l + n) 0 g < 4294967296 ->
  e = None /\ exists fls n', flat_layers (conv_of (IGroup g)) (base_of (IGroup g)) g 0 0 [] 0 0 fls n' /\
    zlen fls = fold_right (fun l n => layers_in l + n) 0 g /\ covers calls [(0, file_bytes (head_of (IGroup g)) fls)].
Proof.
  intros E Wr L. revert E.
  assert (L0 : 0 <= fold_right (fun l n => layers_in l + n) 0 g).
  { clear. induction g as [|l g IH]; cbn [fold_right]; [lia|]. pose proof (layers_in_pos l). lia. }
  apply (gives_encode (IGroup g) (pw <~ reservePointerList wr (u32 (layersCount g));; put32 wr 0 ~;
     writeLayers wr rnd wtext (conv_of (IGroup g)) (base_of (IGroup g)) g 0 0 [] 0 pw ~; skipW)
    (fun fls n' => flat_layers (conv_of (IGroup g)) (base_of (IGroup g)) g 0 0 [] 0 0 fls n')).
  - unfold conv_of, base_of. assoc_head.
  - intros p. rewrite layersCount_spec, u32_small by lia.
    apply (gives_body _ (fun pw => writeLayers wr rnd wtext (conv_of (IGroup g)) (base_of (IGroup g)) g 0 0 [] 0 pw)).
    intros pw q Ep Lp. apply gives_writeLayers; auto.
Qed.
Lemma encode_layer l : encode wr rnd wtext (ILayer l) = encode wr rnd wtext (IGroup [l]).
Proof. reflexivity. Qed.
(** any other image: one layer without a name and with empty bounds *)
Definition plain (i : image) : Prop := match i with IGroup _ | ILayer _ => False | _ => True end.
Definition wrapped (i : image) : layer := mkLayer [] ZR MNormal false 0 i.
Lemma encode_plain i e calls : encode wr rnd wtext i = Some (e, calls) -> plain i -> writable (wrapped i) ->
  e = None /\ exists fls n', flat_layer (conv_of i) (base_of i) (wrapped i) 0 0 [] 0 fls n' /\ zlen fls = 1 /\
    covers calls [(0, file_bytes (head_of i) fls)].
Proof.
  intros E P Wr. revert E.
  apply (gives_encode i (pw <~ reservePointerList wr 1;; put32 wr 0 ~;
     writeLayer wr rnd wtext (conv_of i) (base_of i) (wrapped i) 0 0 [] pw ~; skipW)
    (fun fls n' => flat_layer (conv_of i) (base_of i) (wrapped i) 0 0 [] 0 fls n')).
  - unfold conv_of, base_of, wrapped. destruct i; try contradiction; assoc_head.
  - intros p. apply (gives_body 1 (fun pw => writeLayer wr rnd wtext (conv_of i) (base_of i) (wrapped i) 0 0 [] pw)).
    intros pw q Ep Lp. eapply gives_mono; [apply (gives_writeLayer (conv_of i) (base_of i) (wrapped i) Wr); auto|].
    + destruct i; try contradiction; exact Lp.
    + cbv beta. intros pw' p' n' k (fls & Fl & Z & Ly). exists fls. split; [exact Fl|]. split; [|exact Ly].
      rewrite Z. destruct i; try contradiction; reflexivity.
Qed.
End Layout.
