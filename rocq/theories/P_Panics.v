(** C87: Encode panics for the texts it cannot write, and for nothing else. *)
From Coq Require Import ZifyBool ZifyNat.
Require Import Verif.Base Verif.L_List Verif.M_Color Verif.S_Color Verif.M_Composite Verif.M_Rect Verif.M_Image Verif.S_Rect Verif.S_Image Verif.L_Image
  Verif.M_Reader Verif.M_Rle Verif.M_Decode Verif.M_Encode Verif.L_Calls Verif.M_Text Verif.S_Panics.

Section Panics.
Variables (wr : nat -> Z -> list Z -> Z * option err) (rnd : nat -> Z) (wt : list textDatum -> Z -> Z -> option (list Z)).
(** [m] does not panic iff P *)
Definition lives {A} (m : W A) (P : Prop) : Prop := forall st, m st <> None <-> P.
Lemma lives_bind {A B} (m : W A) (f : A -> W B) P Q : lives m P -> (forall a, lives (f a) Q) -> lives (bindW m f) (P /\ Q).
Proof.
  intros M F st. unfold bindW. specialize (M st). destruct (m st) as [[a st']|]; [|tauto]. rewrite (F a st').
  split; [intros q; split; [apply M; discriminate|exact q]|tauto].
Qed.
Lemma lives_r {A B} (m : W A) (f : A -> W B) Q : lives m True -> (forall a, lives (f a) Q) -> lives (bindW m f) Q.
Proof. intros M F st. rewrite (lives_bind m f True Q M F st). tauto. Qed.
Lemma lives_iff {A} (m : W A) P Q : lives m P -> (P <-> Q) -> lives m Q.
Proof. intros M E st. rewrite (M st). exact E. Qed.
Lemma lives_some {A} (m : W A) : (forall st, exists r, m st = Some r) -> lives m True.
Proof. intros H st. destruct (H st) as (r & ->). split; [easy|discriminate]. Qed.
Lemma lives_ret {A} (a : A) : lives (retW a) True.
Proof. apply lives_some. intros st. now eexists. Qed.
Lemma lives_put p : lives (put wr p) True.
Proof. apply lives_some. intros st. unfold put, writeAt. destruct (wErr st); [now eexists|]. destruct (wr _ _ _). now eexists. Qed.
Lemma lives_pos : lives posW True.
Proof. apply lives_some. intros st. now eexists. Qed.
Lemma lives_pointer p w : lives (writePointer wr p w) True.
Proof. apply lives_some. intros st. unfold writePointer, writeAt. destruct (0 <? pwLeft w); [|now eexists]. destruct (pwErr w); [now eexists|]. destruct (wr _ _ _). now eexists. Qed.
Lemma lives_reserve n : lives (reservePointers n) True.
Proof. apply lives_some. intros st. now eexists. Qed.
Lemma lives_each {A} (f : A -> W unit) l : (forall a, lives (f a) True) -> lives (eachW f l) True.
Proof. intros F. induction l as [|a l IH]; cbn [eachW]; [apply lives_ret|]. apply lives_r; [apply F|intros _; exact IH]. Qed.
Lemma lives_fold {A S} (f : A -> S -> W S) l : (forall a s, In a l -> lives (f a s) True) -> forall s, lives (foldW f l s) True.
Proof.
  induction l as [|a l IH]; intros F s; cbn [foldW]; [apply lives_ret|]. apply lives_r; [apply F; now left|intros s'; apply IH]. intros. apply F. now right.
Qed.
Ltac go := repeat lazymatch goal with
  | |- lives (put _ _) _ => apply lives_put
  | |- lives (put32 _ _) _ => apply lives_put
  | |- lives (put8 _ _) _ => apply lives_put
  | |- lives (retW _) _ => apply lives_ret
  | |- lives skipW _ => apply lives_ret
  | |- lives posW _ => apply lives_pos
  | |- lives (writePointer _ _ _) _ => apply lives_pointer
  | |- lives (reservePointers _) _ => apply lives_reserve
  | |- lives (eachW _ _) _ => apply lives_each; intros ?
  | |- lives (bindW _ _) _ => apply lives_r; [|intros ?]
  end.
Lemma in_zseq n k : In k (zseq n) -> 0 <= k < n.
Proof. unfold zseq. intros I. apply in_map_iff in I as (m & <- & I). apply in_seq in I. lia. Qed.
Lemma in_starts lo hi x : In x (starts lo hi) -> lo <= x.
Proof. unfold starts. intros I. apply in_map_iff in I as (k & <- & I). apply in_zseq in I. lia. Qed.
Lemma in_span lo hi x : In x (M_Encode.span lo hi) -> lo <= x < hi.
Proof. unfold M_Encode.span. intros I. apply in_map_iff in I as (k & <- & I). apply in_zseq in I. lia. Qed.
Lemma in_tile b xy p : In xy (tile_starts b) -> In p (tile_points b (fst xy) (snd xy)) -> inside b (fst p) (snd p).
Proof.
  unfold tile_starts, tile_points. intros T P. apply in_flat_map in T as (y & Y & T). apply in_map_iff in T as (x & <- & X). cbn [fst snd] in P.
  apply in_starts in X. apply in_starts in Y. apply in_flat_map in P as (j & J & P). apply in_map_iff in P as (i & <- & I). cbn [fst snd].
  apply in_span in I. apply in_span in J. unfold inside. lia.
Qed.
Lemma lives_image so f : (forall x y n, inside (soBounds so) x y -> soAt so x y n <> None) -> lives (writeImage wr so f) True.
Proof.
  intros H. unfold writeImage, put32, reservePointerList. cbv zeta. go.
  apply lives_fold. intros xy w T. unfold writeTile. go.
  apply lives_fold. intros p acc P. apply lives_some. intros st. unfold readPixel, obind. specialize (H (fst p) (snd p) (wRnd st) (in_tile _ _ _ T P)). destruct (soAt _ _ _ _); [now eexists|easy].
Qed.
Lemma lives_data f i m : drawn rnd i -> lives (writeLayerData wr rnd f i m) True.
Proof.
  intros WF. unfold writeLayerData. go.
  - apply lives_image. exact WF.
  - destruct m as [g|]; unfold writeChannel, putStr, put32, put8; go. apply lives_image. discriminate.
Qed.
Lemma lives_text t w h : lives (writeText wr wt t w h) (wt t w h <> None).
Proof.
  intros st. unfold writeText, obind. destruct (wt t w h) as [d|]; [|tauto].
  assert (L : forall data, lives (put32 wr 26 ~; put32 wr 4 ~; put32 wr 1 ~; put32 wr 21 ~; put32 wr (4 + 15 + 1 + 4 + 4 + zlen data) ~; putStr wr textParasiteName ~; put32 wr 0 ~; put32 wr (zlen data) ~; put wr data) True).
  { intros data. unfold putStr, put32, put8. go. }
  rewrite (L d st). split; [discriminate|easy].
Qed.
Notation text_ok := (fun t w h => wt t w h <> None).
Lemma lives_properties ct l ox oy gs ig t : lives (writeProperties wr wt ct l ox oy gs ig t) (t = [] \/ wt t (u32 (dx (lBounds l))) (u32 (dy (lBounds l))) <> None).
Proof.
  unfold writeProperties. cbv zeta. unfold putStr, put8, put32. do 14 (apply lives_r; [solve [go]|intros _]).
  apply lives_r; [destruct (1 <? zlen gs); go|intros _].
  apply (lives_iff _ ((t = [] \/ wt t (u32 (dx (lBounds l))) (u32 (dy (lBounds l))) <> None) /\ True)); [|tauto].
  apply lives_bind.
  - destruct t as [|d t]; [apply (lives_iff _ True); [apply lives_ret|tauto]|]. apply (lives_iff _ (wt (d :: t) (u32 (dx (lBounds l))) (u32 (dy (lBounds l))) <> None)); [apply lives_text|].
    split; [tauto|]. intros [[=]|H]; exact H.
  - intros _. apply lives_r; [destruct ig; go|intros _]. go.
Qed.
Lemma lives_layers f ct ox oy gs g : Forall (fun l => forall ox oy gs pw, lives (writeLayer wr rnd wt f ct l ox oy gs pw) (texts_layer text_ok l)) g ->
  forall n pw, lives (writeLayers wr rnd wt f ct g ox oy gs n pw) (Forall (texts_layer text_ok) g).
Proof.
  induction 1 as [|l g L _ IH]; intros n pw.
  - apply (lives_iff _ True); [apply lives_ret|]. split; [constructor|easy].
  - rewrite writeLayers_cons. eapply lives_iff; [apply lives_bind; [apply L|intros w; apply IH]|]. split; [intros [A B]; now constructor|intros H; inversion H; auto].
Qed.
Lemma texts_fold g : fold_right (fun l P => texts_layer text_ok l /\ P) True g <-> Forall (texts_layer text_ok) g.
Proof. induction g as [|l g IH]; cbn [fold_right]; [split; constructor|]. rewrite IH. split; [intros []; now constructor|intros H; inversion H; auto]. Qed.
Lemma drawn_fold g : fold_right (fun l P => drawn_layer rnd l /\ P) True g <-> Forall (drawn_layer rnd) g.
Proof. induction g as [|l g IH]; cbn [fold_right]; [split; constructor|]. rewrite IH. split; [intros []; now constructor|intros H; inversion H; auto]. Qed.
Lemma lives_layer l : drawn_layer rnd l -> forall f ct ox oy gs pw, lives (writeLayer wr rnd wt f ct l ox oy gs pw) (texts_layer text_ok l).
Proof.
  intros WF f ct. revert WF. enough (K : forall i, match i with
      | IGroup g => Forall (fun l => drawn_layer rnd l -> forall ox oy gs pw, lives (writeLayer wr rnd wt f ct l ox oy gs pw) (texts_layer text_ok l)) g
      | ILayer l => drawn_layer rnd l -> forall ox oy gs pw, lives (writeLayer wr rnd wt f ct l ox oy gs pw) (texts_layer text_ok l)
      | _ => True end) by exact (K (ILayer l)).
  apply (image_layer_ind
    (fun i => match i with
      | IGroup g => Forall (fun l => drawn_layer rnd l -> forall ox oy gs pw, lives (writeLayer wr rnd wt f ct l ox oy gs pw) (texts_layer text_ok l)) g
      | ILayer l => drawn_layer rnd l -> forall ox oy gs pw, lives (writeLayer wr rnd wt f ct l ox oy gs pw) (texts_layer text_ok l)
      | _ => True end)
    (fun l => drawn_layer rnd l -> forall ox oy gs pw, lives (writeLayer wr rnd wt f ct l ox oy gs pw) (texts_layer text_ok l))); try exact (fun _ => I).
  - intros g H. exact H.
  - intros i m _. exact I.
  - intros i t _. exact I.
  - intros l0 H. exact H.
  - intros n b m v t i IH [WF WG] ox oy gs pw. rewrite writeLayer_eq. unfold put32.
    do 2 (apply lives_r; [solve [go]|intros ?]).
    assert (D : lives (writeLayerData wr rnd f (fst (split_mask i)) (snd (split_mask i))) True) by (apply lives_data; destruct i; exact WF).
    eapply lives_iff.
    + apply lives_bind; [apply lives_properties|]. intros _. apply lives_r; [go|intros _]. apply lives_r; [exact D|intros _].
      instantiate (1 := match i with IGroup g => Forall (texts_layer text_ok) g | _ => True end).
      destruct i as [p|g|j mk|j tx|l0]; try apply lives_ret.
      apply lives_layers. apply drawn_fold in WG. rewrite Forall_forall in *. auto.
    + cbn [lBounds]. destruct i as [p|g|j mk|j tx|l0]; cbn [text_of texts_layer]; try tauto. rewrite texts_fold. tauto.
Qed.
End Panics.
Lemma wf_drawn rnd i : wf_image i -> drawn rnd i.
Proof. intros WF x y n _. destruct (image_layer_total i WF rnd x y n) as (c & k & -> & _). discriminate. Qed.
Lemma wf_unmask i : wf_image i -> wf_image (unmask i).
Proof. destruct i; cbn; tauto. Qed.
Lemma wf_drawn_image rnd i : wf_image i -> drawn_image rnd i.
Proof.
  assert (K : forall i, match i with IGroup g => Forall (fun l => wf_layer l -> drawn_layer rnd l) g | ILayer l => wf_layer l -> drawn_layer rnd l | _ => True end).
  { apply (image_layer_ind
      (fun i => match i with IGroup g => Forall (fun l => wf_layer l -> drawn_layer rnd l) g | ILayer l => wf_layer l -> drawn_layer rnd l | _ => True end)
      (fun l => wf_layer l -> drawn_layer rnd l)); try exact (fun _ => I); auto.
    intros n b m v t j IH [_ WF]. cbn [drawn_layer]. split; [apply wf_drawn, wf_unmask, WF|]. destruct j; try exact I. apply drawn_fold. apply wf_group_Forall in WF. rewrite Forall_forall in *. auto. }
  intros WF. destruct i as [p|g|j m|j t|l]; cbn [drawn_image]; try (apply wf_drawn, wf_unmask, WF).
  - apply wf_group_Forall in WF. specialize (K (IGroup g)). cbn in K. rewrite Forall_forall in *. auto.
  - exact (K (ILayer l) WF).
Qed.


(** ** C87 *)
(** Encode of an image whose pixels can be read does not panic (whatever the destination does) exactly
    if the texts of the layers can be written. *)
Theorem C87_partial wr rnd wt i : drawn_image rnd i -> encode wr rnd wt i <> None <-> texts_image (fun t w h => wt t w h <> None) i.
Proof.
  intros WF. unfold encode. set (P := texts_image (fun t w h => wt t w h <> None) i).
  enough (L : lives (encodeW wr rnd wt i) P).
  { specialize (L (mkW [] 0 None 0)). destruct (encodeW _ _ _ _ _) as [[u st]|]; rewrite <- L; split; try discriminate; easy. }
  unfold encodeW. cbv zeta. destruct (colour_type _) as [[ct f] pal]. unfold put32, put8, reservePointerList.
  do 4 (apply lives_r; [apply lives_put|intros _]).
  apply lives_r. { destruct pal as [p|]; [|apply lives_ret]. unfold writePalette, put32, put8. do 3 (apply lives_r; [apply lives_put|intros _]). apply lives_each. intros c. destruct (rgbModel c) as [[r g] b]. do 2 (apply lives_r; [apply lives_put|intros _]). apply lives_put. }
  intros _. do 5 (apply lives_r; [apply lives_put|intros _]).
  assert (R : forall n, lives (pw <~ reservePointers n;; put wr (be32 0) ~; retW pw) True) by (intros n; apply lives_r; [apply lives_reserve|intros pw; apply lives_r; [apply lives_put|intros _; apply lives_ret]]).
  assert (S : forall l pw, drawn_layer rnd l -> lives (writeLayer wr rnd wt f ct l 0 0 [] pw ~; skipW) (texts_layer (fun t w h => wt t w h <> None) l)).
  { intros l pw W. eapply lives_iff; [apply lives_bind; [apply lives_layer; exact W|intros; apply lives_ret]|]. tauto. }
  assert (G : forall g pw, Forall (drawn_layer rnd) g -> lives (writeLayers wr rnd wt f ct g 0 0 [] 0 pw ~; skipW) (Forall (texts_layer (fun t w h => wt t w h <> None)) g)).
  { intros g pw W. eapply lives_iff; [apply lives_bind; [apply lives_layers|intros; apply lives_ret]|tauto]. rewrite Forall_forall in *. intros l I ox oy gs pw'. apply lives_layer. auto. }
  unfold P. destruct i as [p|g|j mk|j tx|l]; (apply lives_r; [apply R|intros pw; apply lives_r; [apply lives_put|intros _]]).
  - eapply lives_iff; [apply S; split; [exact WF|exact I]|]. cbn. tauto.
  - eapply lives_iff; [apply G; exact WF|]. cbn. tauto.
  - eapply lives_iff; [apply S; split; [exact WF|exact I]|]. cbn. tauto.
  - eapply lives_iff; [apply S; split; [exact WF|exact I]|]. cbn. tauto.
  - eapply lives_iff; [apply G; constructor; [exact WF|constructor]|]. cbn. split; [intros H; now inversion H|now constructor].
Qed.
Print Assumptions C87_partial.

(** so for images of colours at all pixels, *)
Corollary C87_wf_partial wr rnd wt i : wf_image i -> encode wr rnd wt i <> None <-> texts_image (fun t w h => wt t w h <> None) i.
Proof. intros WF. apply C87_partial, wf_drawn_image, WF. Qed.
Print Assumptions C87_wf_partial.
(** and every pixel of a layer is read *)
Lemma fold_reads so f ps : forall acc st, foldW (readPixel so f) ps acc st <> None -> (forall x y n m, soAt so x y n = None -> soAt so x y m = None) ->
  forall p, In p ps -> soAt so (fst p) (snd p) (wRnd st) <> None.
Proof.
  induction ps as [|q ps IH]; intros acc st H D p I; [contradiction|]. cbn [foldW] in H. unfold bindW, readPixel at 1, obind in H.
  destruct (soAt so (fst q) (snd q) (wRnd st)) as [cn|] eqn:E; [|easy]. destruct I as [<-|I]; [congruence|]. intros N. apply (IH _ _ H D p I). exact (D _ _ _ _ N).
Qed.
Lemma reads_image wr so f st : writeImage wr so f st <> None -> (forall x y n m, soAt so x y n = None -> soAt so x y m = None) ->
  forall x y n, inside (soBounds so) x y -> soAt so x y n <> None.
Proof.
  intros H D x y n I N. unfold writeImage in H. cbv zeta in H.
  assert (B : forall {A B} (m : W A) (k : A -> W B) st, bindW m k st <> None -> exists a st', k a st' <> None) by (intros A B m k st0 X; unfold bindW in X; destruct (m st0) as [[a st']|]; [eauto|easy]).
  do 9 (apply B in H as (? & ? & H)).
  assert (F : forall (l : list (Z * Z)) w st, foldW (writeTile wr so f) l w st <> None -> forall xy, In xy l -> exists w st, writeTile wr so f xy w st <> None).
  { induction l as [|a l IH]; intros w st0 X xy J; [contradiction|]. cbn [foldW] in X. destruct J as [<-|J].
    - exists w, st0. intros Q. apply X. unfold bindW. now rewrite Q.
    - apply B in X as (w' & st' & X). exact (IH _ _ X _ J). }
  match type of H with bindW ?m _ ?s <> None => assert (H' : m s <> None) by (intros Q; apply H; unfold bindW; now rewrite Q) end.
  destruct I as [Ix Iy]. set (b := soBounds so) in *.
  assert (T : In (minX b + 64 * ((x - minX b) / 64), minY b + 64 * ((y - minY b) / 64)) (tile_starts b)).
  { unfold tile_starts. apply in_flat_map. exists (minY b + 64 * ((y - minY b) / 64)).
    assert (K : forall lo hi z, lo <= z < hi -> In (lo + 64 * ((z - lo) / 64)) (starts lo hi)).
    { intros lo hi z R. unfold starts. apply in_map_iff. exists ((z - lo) / 64). split; [reflexivity|]. unfold zseq. apply in_map_iff. exists (Z.to_nat ((z - lo) / 64)).
      assert (0 <= (z - lo) / 64) by (apply Z.div_pos; lia). split; [lia|]. apply in_seq. unfold ceil64. lia. }
    split; [apply K; lia|]. apply in_map_iff. eexists. split; [reflexivity|]. apply K. lia. }
  destruct (F _ _ _ H' _ T) as (w & st0 & X). unfold writeTile in X.
  assert (P : In (x, y) (tile_points b (minX b + 64 * ((x - minX b) / 64)) (minY b + 64 * ((y - minY b) / 64)))).
  { unfold tile_points. apply in_flat_map. exists y.
    assert (K : forall lo hi z, lo <= z < hi -> In z (M_Encode.span lo hi)).
    { intros lo hi z R. unfold M_Encode.span. apply in_map_iff. exists (z - lo). split; [lia|]. unfold zseq. apply in_map_iff. exists (Z.to_nat (z - lo)). split; [lia|]. apply in_seq. lia. }
    split; [apply K; lia|]. apply in_map_iff. exists x. split; [reflexivity|]. apply K. lia. }
  match type of X with bindW ?m _ ?s <> None => assert (X' : m s <> None) by (intros Q; apply X; unfold bindW; now rewrite Q) end.
  apply (fold_reads _ _ _ _ _ X' D (x, y) P). cbn [fst snd]. exact (D _ _ _ _ N).
Qed.
Section Reads.
Variables (wr : nat -> Z -> list Z -> Z * option err) (rnd : nat -> Z) (wt : list textDatum -> Z -> Z -> option (list Z)).
Lemma bind_later {A B} (m : W A) (k : A -> W B) st : bindW m k st <> None -> exists a st', k a st' <> None.
Proof. intros Y. unfold bindW in Y. destruct (m st) as [[a st']|]; [eauto|easy]. Qed.
Lemma bind_first {A B} (m : W A) (k : A -> W B) st : bindW m k st <> None -> m st <> None.
Proof. intros Y Q. apply Y. unfold bindW. now rewrite Q. Qed.
Lemma reads_data f i m st : writeLayerData wr rnd f (fst (split_mask i)) m st <> None -> leaf_drawn i.
Proof.
  intros X. unfold writeLayerData in X. do 2 (apply bind_later in X as (? & ? & X)). apply bind_later in X as (pw & s2 & X). apply bind_first in X.
  assert (K : forall j p, image_Bounds j = picBounds p -> (forall x y n, image_At rnd j x y n = option_map (fun c => (c, n)) (picAt p x y)) ->
    writeImage wr (source_of rnd j) f s2 <> None -> forall x y, inside (picBounds p) x y -> picAt p x y <> None).
  { intros j p EB EA Y u0 v0 I N. refine (reads_image wr _ f _ Y _ u0 v0 0%nat _ _).
    - cbn [soAt source_of]. intros u v n0 n'. rewrite !EA. destruct (picAt p u v); [discriminate|reflexivity].
    - cbn [soBounds source_of]. rewrite EB. exact I.
    - cbn [soAt source_of]. now rewrite EA, N. }
  assert (A : forall p u v k, image_At rnd (ILeaf p) u v k = option_map (fun c => (c, k)) (picAt p u v)) by (intros p u v k; cbn; now destruct (picAt p u v)).
  unfold leaf_drawn, leaf_of. destruct i as [p|g|j mk|j tx|l0]; cbn [split_mask fst unmask] in *; try exact I.
  - exact (K (ILeaf p) p eq_refl (A p) X).
  - destruct j as [p|g|j mk'|j tx|l0]; try exact I; [exact (K (ILeaf p) p eq_refl (A p) X)|].
    destruct j as [p|g|j mk'|j tx'|l0]; try exact I. exact (K (IText (ILeaf p) tx) p eq_refl (A p) X).
  - destruct j as [p|g|j mk'|j tx'|l0]; try exact I. exact (K (IText (ILeaf p) tx) p eq_refl (A p) X).
Qed.
Lemma leaves_fold g : fold_right (fun l P => leaves_drawn l /\ P) True g <-> Forall leaves_drawn g.
Proof. induction g as [|l g IH]; cbn [fold_right]; [split; constructor|]. rewrite IH. split; [intros []; now constructor|intros H; inversion H; auto]. Qed.
Lemma reads_layers f ct ox oy gs g : Forall (fun l => forall ox oy gs pw st, writeLayer wr rnd wt f ct l ox oy gs pw st <> None -> leaves_drawn l) g ->
  forall n pw st, writeLayers wr rnd wt f ct g ox oy gs n pw st <> None -> Forall leaves_drawn g.
Proof.
  induction 1 as [|l g L _ IH]; intros n pw st X; constructor; rewrite writeLayers_cons in X.
  - apply bind_first in X. exact (L _ _ _ _ _ X).
  - apply bind_later in X as (? & ? & X). exact (IH _ _ _ X).
Qed.
Lemma reads_layer f ct l : forall ox oy gs pw st, writeLayer wr rnd wt f ct l ox oy gs pw st <> None -> leaves_drawn l.
Proof.
  enough (K : forall i, match i with
      | IGroup g => Forall (fun l => forall ox oy gs pw st, writeLayer wr rnd wt f ct l ox oy gs pw st <> None -> leaves_drawn l) g
      | ILayer l => forall ox oy gs pw st, writeLayer wr rnd wt f ct l ox oy gs pw st <> None -> leaves_drawn l
      | _ => True end) by exact (K (ILayer l)).
  apply (image_layer_ind
    (fun i => match i with
      | IGroup g => Forall (fun l => forall ox oy gs pw st, writeLayer wr rnd wt f ct l ox oy gs pw st <> None -> leaves_drawn l) g
      | ILayer l => forall ox oy gs pw st, writeLayer wr rnd wt f ct l ox oy gs pw st <> None -> leaves_drawn l
      | _ => True end)
    (fun l => forall ox oy gs pw st, writeLayer wr rnd wt f ct l ox oy gs pw st <> None -> leaves_drawn l)); try exact (fun _ => I); auto.
  intros n b m v t i IH ox oy gs pw st X. rewrite writeLayer_eq in X. do 4 (apply bind_later in X as (? & ? & X)). cbn [leaves_drawn]. split.
  - apply bind_first in X. exact (reads_data _ _ _ _ X).
  - apply bind_later in X as (? & ? & X). destruct i; try exact I. apply leaves_fold. exact (reads_layers _ _ _ _ _ _ IH _ _ _ X).
Qed.
(** Encode without a panic has read every pixel of every picture. *)
Theorem C87_reads i : encode wr rnd wt i <> None -> leaves_image i.
Proof.
  intros H. unfold encode in H. assert (X : encodeW wr rnd wt i (mkW [] 0 None 0) <> None) by (intros Q; now rewrite Q in H). clear H.
  unfold encodeW in X. cbv zeta in X. destruct (colour_type _) as [[ct f] pal]. do 10 (apply bind_later in X as (? & ? & X)).
  assert (S : forall l pw st, writeLayer wr rnd wt f ct l 0 0 [] pw st <> None -> leaves_drawn l) by (intros l pw st; apply reads_layer).
  destruct i as [p|g|j mk|j tx|l]; do 2 (apply bind_later in X as (? & ? & X)); apply bind_first in X.
  - exact (proj1 (S _ _ _ X)).
  - refine (reads_layers _ _ _ _ _ _ _ _ _ _ X). apply Forall_forall. intros l _ ox oy gs pw st. apply reads_layer.
  - exact (proj1 (S _ _ _ X)).
  - exact (proj1 (S _ _ _ X)).
  - rewrite writeLayers_cons in X. apply bind_first in X. exact (reads_layer _ _ _ _ _ _ _ _ X).
Qed.
End Reads.
Print Assumptions C87_reads.

(** With the texts as they are written (text.go): a text can be written iff it is one segment with a
    colour. *)
Lemma text_writable L t w h : wtext L t w h <> None <-> one_coloured t.
Proof.
  unfold wtext, obind, one_coloured. split.
  - destruct t as [|a [|b t]].
    + destruct (writeTextMarkups L []); cbn; easy.
    + destruct (tdFore a) as [c|] eqn:E; [intros _; exists a, c; auto|easy].
    + destruct (writeTextMarkups L (a :: b :: t)); cbn; easy.
  - intros (d & c & -> & ->). discriminate.
Qed.
Lemma texts_mono P Q : (forall t w h, P t w h <-> Q t w h) -> forall i, texts_image P i <-> texts_image Q i.
Proof.
  intros H.
  assert (LL : forall l, texts_layer P l <-> texts_layer Q l).
  { intros l. enough (K : forall i, match i with IGroup g => Forall (fun l => texts_layer P l <-> texts_layer Q l) g | ILayer l => texts_layer P l <-> texts_layer Q l | _ => True end) by exact (K (ILayer l)).
    apply (image_layer_ind
      (fun i => match i with IGroup g => Forall (fun l => texts_layer P l <-> texts_layer Q l) g | ILayer l => texts_layer P l <-> texts_layer Q l | _ => True end)
      (fun l => texts_layer P l <-> texts_layer Q l)); try exact (fun _ => I); auto.
    intros n b m v t i IH. destruct i as [p|g|j mk|j tx|l0]; cbn; try tauto; [|rewrite H; tauto].
    induction IH as [|l0 g E _ IH]; cbn; [tauto|]. tauto. }
  intros [p|g|j mk|j tx|l]; cbn; try tauto; [|rewrite H; tauto|apply LL]. rewrite !Forall_forall. split; intros F l I; apply LL; auto.
Qed.
Theorem C87_texts_partial L wr rnd i : drawn_image rnd i -> encode wr rnd (wtext L) i <> None <-> texts_image (fun t _ _ => one_coloured t) i.
Proof. intros WF. rewrite (C87_partial wr rnd (wtext L) i WF). apply texts_mono. intros. apply text_writable. Qed.
Print Assumptions C87_texts_partial.
(** a masked text of two segments is taken, as the text is not written *)
Definition segment (c : color) : textDatum := mkTD (Some c) None 18 0 0 false false false false [83] [97].
Definition blank_leaf : image := ILeaf (mkPic (mkRect 0 0 1 1) KNRGBA (fun x y => Some (CRGB 1 2 3))).
Example C87_ex : let i := IGroup [mkLayer [] (mkRect 0 0 1 1) MNormal false 0 (IText blank_leaf [segment (CRGB 9 9 9)]);
    mkLayer [] (mkRect 0 0 1 1) MNormal false 0 (IMasked (IText blank_leaf [segment (CRGB 9 9 9); segment (CGray 1)]) (mkGray (mkRect 0 0 1 1) (fun _ _ => 0)))] in
  wf_image i /\ texts_image (fun t _ _ => one_coloured t) i.
Proof.
  cbv zeta. split.
  - cbn. unfold is_u8. repeat split; try lia; intros; eexists; (split; [reflexivity|]); cbn; unfold is_u8; lia.
  - cbn. constructor; [right; eexists _, _; split; reflexivity|]. constructor; [exact I|constructor].
Qed.
(** Encode panics: on a text of two segments whatever the destination *)
Theorem C87_refuted : exists i, wf_image i /\ forall L wr rnd, encode wr rnd (wtext L) i = None.
Proof.
  exists (IGroup [mkLayer [] (mkRect 0 0 1 1) MNormal false 0 (IText blank_leaf [segment (CRGB 9 9 9); segment (CGray 1)])]).
  assert (WF : wf_image (IGroup [mkLayer [] (mkRect 0 0 1 1) MNormal false 0 (IText blank_leaf [segment (CRGB 9 9 9); segment (CGray 1)])])).
  { cbn. unfold is_u8. repeat split; try lia; intros; eexists; (split; [reflexivity|]); cbn; unfold is_u8; lia. }
  split; [exact WF|]. intros L wr rnd. pose proof (proj1 (C87_texts_partial L wr rnd _ (wf_drawn_image rnd _ WF))) as H.
  destruct (encode _ _ _ _) as [r|]; [exfalso|reflexivity]. specialize (H ltac:(discriminate)). cbn in H. inversion H as [|? ? K _]. destruct K as [K|(d & c & K & _)]; discriminate.
Qed.
Print Assumptions C87_refuted.
