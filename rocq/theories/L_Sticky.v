(** The first error of a reader stays: nothing the decoder does replaces or clears it. *)
Require Import Verif.Base Verif.L_List Verif.M_Color Verif.M_Rect Verif.M_Image Verif.M_Reader Verif.M_Rle Verif.L_Rle3 Verif.M_Monad Verif.M_Groups Verif.M_Decode.

Definition keeps {A} (m : M A) : Prop := forall st e a st', rErr st = Some e -> m st = Ret (a, st') -> rErr st' = Some e.

Lemma k_ret {A} (a : A) : keeps (retM a). Proof. intros st e b st' H [= _ <-]. exact H. Qed.
Lemma k_bind {A B} (m : M A) (f : A -> M B) : keeps m -> (forall a, keeps (f a)) -> keeps (bindM m f).
Proof.
  intros K F st e b st' H. unfold bindM. destruct (m st) as [[a st1]| |] eqn:E; try discriminate. intros Q.
  eapply F; [|exact Q]. eapply K; eassumption.
Qed.
Lemma k_panic {A} w : keeps (@panicM A w). Proof. intros st e b st' _ [=]. Qed.
Lemma k_err : keeps errM. Proof. intros st e b st' H [= _ <-]. exact H. Qed.
Lemma k_act f : (forall st e, rErr st = Some e -> rErr (f st) = Some e) -> keeps (actM f).
Proof. intros K st e b st' H [= _ <-]. auto. Qed.
Lemma k_lift {A} (f : rst -> A * rst) : (forall st e, rErr st = Some e -> rErr (snd (f st)) = Some e) -> keeps (liftM f).
Proof. intros K st e b st' H Q. unfold liftM in Q. injection Q as Q. specialize (K st e H). rewrite Q in K. exact K. Qed.
Lemma k_if {A} (b : bool) (m n : M A) : keeps m -> keeps n -> keeps (if b then m else n). Proof. now destruct b. Qed.
Lemma k_while {S R} fuel (body : S -> M (S + R)) : (forall s, keeps (body s)) -> forall s, keeps (whileM fuel body s).
Proof.
  intros K. induction fuel as [|n IH]; intros s; cbn [whileM]; [intros ? ? ? ? _ [=]|].
  apply k_bind; [auto|]. intros [x|r]; [apply IH|apply k_ret].
Qed.
Lemma k_count {S R} n (body : S -> M (S + R)) : (forall s, keeps (body s)) -> forall s, keeps (countM n body s).
Proof.
  intros K. induction n as [|n IH]; intros s; cbn [countM]; [apply k_ret|].
  apply k_bind; [auto|]. intros [x|r]; [apply IH|apply k_ret].
Qed.
Lemma k_list {A} n (m : M A) : keeps m -> keeps (listM n m).
Proof. intros K. induction n; cbn [listM]; [apply k_ret|]. apply k_bind; [exact K|]. intros a. apply k_bind; [exact IHn|]. intros l. apply k_ret. Qed.

Lemma readFull_err s k st e : rErr st = Some e -> readFull s k st = (None, st). Proof. intros H. unfold readFull. now rewrite H. Qed.
Lemma readBE_err s k st e : rErr st = Some e -> readBE s k st = (0, st).
Proof. intros H. unfold readBE. now rewrite (readFull_err _ _ _ _ H). Qed.
Lemma readSome_err s k st e : rErr st = Some e -> readSome s k st = ([], st). Proof. intros H. unfold readSome. now rewrite H. Qed.
Lemma copyN_err s k st e : rErr st = Some e -> snd (copyN s k st) = st. Proof. intros H. unfold copyN. rewrite H. now destruct (k <=? 0). Qed.
Lemma setError_err st x e : rErr st = Some e -> setError st x = st. Proof. intros H. unfold setError. now rewrite H. Qed.
Lemma setErrorO_err st x e : rErr st = Some e -> setErrorO st x = st. Proof. intros H. destruct x; [now apply (setError_err _ _ e)|reflexivity]. Qed.
Lemma skip_err n st : rErr (skip n st) = rErr st. Proof. unfold skip. cbv zeta. now destruct (_ <? 0). Qed.
Lemma goto_err n st : rErr (goto n st) = rErr st. Proof. unfold goto. cbv zeta. now destruct (_ <? 0). Qed.
Lemma rle_header_err s m r st e : rErr st = Some e -> rErr (snd (rle_header s m r st)) = Some e.
Proof.
  intros H. unfold rle_header, readUint8, readUint16. rewrite !(readBE_err _ _ _ _ H).
  destruct (m <? 127); [exact H|]. destruct (m =? 127); [exact H|]. now destruct (m =? 128).
Qed.
Lemma rle_loop_err fuel s : forall out p n r st e rr, rErr st = Some e -> rle_loop fuel s out p n r st = Ret rr -> rErr (rrSt rr) = Some e.
Proof.
  intros out p n r st e rr H. destruct fuel; cbn [rle_loop]; rewrite H; destruct p; intros [= <-]; exact H.
Qed.
Lemma readRLE_err fuel s : forall count out st e x, rErr st = Some e -> readRLE_loop fuel s count out st = Ret x -> rErr (snd x) = Some e.
Proof.
  induction fuel as [|fuel IH]; intros count out st e x H; cbn [readRLE_loop];
    (destruct (0 <? count); [|intros [= <-]; exact H]); [discriminate|].
  unfold readUint8, readUint16. rewrite (readBE_err _ _ _ _ H). change (0 <? 127) with true. cbn iota. rewrite (readBE_err _ _ _ _ H). apply IH. exact H.
Qed.

Section K.
Variables (fuel : nat) (s : src) (f32op : Z -> Z) (ptext : list Z -> tres) (d : dparams).
Lemma k_be k : keeps (liftM (readBE s k)).
Proof. apply k_lift. intros st e H. now rewrite (readBE_err _ _ _ _ H). Qed.
Lemma k_rd8 : keeps (rd8 s). Proof. apply k_be. Qed.
Lemma k_rd32 : keeps (rd32 s). Proof. apply k_be. Qed.
Lemma k_rd64 : keeps (rd64 s). Proof. apply k_be. Qed.
Lemma k_rdPtr m : keeps (rdPtr s m). Proof. apply k_if; apply k_be. Qed.
Lemma k_rdi32 : keeps (rdi32 s).
Proof. apply k_lift. intros st e H. unfold readInt32. now rewrite (readBE_err _ _ _ _ H). Qed.
Lemma k_rdBool : keeps (rdBool s).
Proof. apply k_lift. intros st e H. unfold readBoolProperty, readUint32. now rewrite (readBE_err _ _ _ _ H). Qed.
Lemma k_rdStr : keeps (rdStr s).
Proof. apply k_lift. intros st e H. unfold readString, readUint32. now rewrite (readBE_err _ _ _ _ H). Qed.
Lemma k_skM n : keeps (skM n). Proof. apply k_act. intros st e H. now rewrite skip_err. Qed.
Lemma k_gotoM n : keeps (gotoM n). Proof. apply k_act. intros st e H. now rewrite goto_err. Qed.
Lemma k_skStr : keeps (skStr s).
Proof. apply k_act. intros st e H. unfold skipString, readUint32. rewrite (readBE_err _ _ _ _ H). now rewrite skip_err. Qed.
Lemma k_setErr x : keeps (setErrM x). Proof. apply k_act. intros st e H. now rewrite (setError_err _ _ _ H). Qed.
Lemma k_readSome k : keeps (liftM (readSome s k)). Proof. apply k_lift. intros st e H. now rewrite (readSome_err _ _ _ _ H). Qed.
Lemma k_alloc b : keeps (allocM b). Proof. unfold allocM. apply k_if; [apply k_panic|apply k_ret]. Qed.
Lemma k_skip0 : keeps skipM. Proof. apply k_ret. Qed.

Ltac k1 := cbv zeta; first
  [ apply k_ret | apply k_skip0 | apply k_panic | apply k_err | apply k_rd8 | apply k_rd32 | apply k_rd64 | apply k_rdPtr | apply k_rdi32 | apply k_rdBool | apply k_rdStr
  | apply k_skM | apply k_gotoM | apply k_skStr | apply k_setErr | apply k_readSome | apply k_alloc
  | apply k_bind; [|intros ?] | apply k_if | apply k_while; intros ? | apply k_count; intros ? | apply k_list
  | match goal with |- keeps (match ?x with _ => _ end) => destruct x end ].
Tactic Notation "k" := repeat k1.
Tactic Notation "k" "with" tactic(t) := repeat first [t | k1].
Lemma k_readParasites l : keeps (readParasites fuel s l). Proof. unfold readParasites, par_body. k. Qed.
Lemma k_skipPaths : keeps (skipPaths s). Proof. unfold skipPaths. k. Qed.
Lemma k_skipVectors : keeps (skipVectors s). Proof. unfold skipVectors, skipParasite, skipStroke. k. Qed.
Lemma k_imgProps b : keeps (readImageProperties fuel s b).
Proof. unfold readImageProperties, imgprop_body, readRGB. k with first [apply k_readParasites | apply k_skipPaths | apply k_skipVectors]. Qed.
Lemma k_imgprop b x : keeps (imgprop_body fuel s b x).
Proof. unfold imgprop_body, readRGB. k with first [apply k_readParasites | apply k_skipPaths | apply k_skipVectors]. Qed.
Lemma k_lprop x : keeps (lprop_body fuel s f32op d x).
Proof. unfold lprop_body. k with apply k_readParasites. Qed.
Lemma k_skipProps : keeps (skipProperties fuel s). Proof. unfold skipProperties. k. Qed.
Lemma k_pointers m : keeps (readLayerPointers fuel s m). Proof. unfold readLayerPointers. k. Qed.
Lemma k_header : keeps (readHeader s). Proof. unfold readHeader. k. Qed.
Lemma k_props l : keeps (readProperties fuel s f32op d l).
Proof. unfold readProperties, lprop_body. k with apply k_readParasites. Qed.
Lemma k_by64 {S} limit (body : Z -> S -> M S) x : (forall v x, keeps (body v x)) -> keeps (by64M fuel limit body x).
Proof. intros K. unfold by64M. k with apply K. Qed.
Lemma k_eager mode bpp w h x y e : keeps (eager_tile s d mode bpp w h x y e).
Proof.
  unfold eager_tile. k; [|apply k_act; intros st x0 H; now rewrite (setErrorO_err _ _ _ H)].
  intros st x0 aa st' H. destruct (rle_Read _ _ _ _) as [rr| |] eqn:E; try discriminate. intros [= <- <-]. eapply rle_loop_err; eauto.
Qed.
Lemma k_rle n : keeps (fun st => match readRLE s n st with Ret (b, e, st) => Ret ((b, e), st) | Panic w => Panic w | NoFuel => NoFuel end).
Proof.
  intros st x0 aa st1 H. destruct (readRLE _ _ _) as [[[b e] st2]| |] eqn:E; try discriminate. intros [= <- <-].
  exact (readRLE_err _ _ _ _ _ _ _ H E).
Qed.
Lemma k_setErrO x : keeps (actM (fun st => setErrorO st x)). Proof. apply k_act. intros st e H. now rewrite (setErrorO_err _ _ _ H). Qed.
Lemma k_comp bpp w h x y ts : keeps (comp_tile s bpp w h x y ts).
Proof. unfold comp_tile. k with first [apply k_rle|apply k_setErrO]. Qed.
Lemma k_readImage w h m : keeps (readImage fuel s d w h m).
Proof.
  unfold readImage, readTiles, readAndDecompressImage, readCompressedImage.
  k with first [apply k_by64; intros|apply k_eager|apply k_comp].
Qed.
Lemma k_channel : keeps (readChannel fuel s d).
Proof. unfold readChannel, skipProperties. k with apply k_readImage. Qed.
Lemma k_layer : keeps (readLayer fuel s f32op ptext d).
Proof.
  unfold readLayer, finishLayer, readMask. k with first [apply k_props|apply k_readImage|apply k_channel].
  all: intros ? ? ? ? ? [=].
Qed.
(** a layer that lies behind the end of the source *)
Lemma far_layer lptr x : zlen (sFile s) <= lptr < 9223372036854775808 -> readLayerAt fuel s f32op ptext d lptr = Ret x -> snd x = Some EEOF.
Proof.
  intros L. unfold readLayerAt. destruct ((gotoM lptr;;; readLayer fuel s f32op ptext d) (mkR 0 None)) as [[l st]| |] eqn:E; try discriminate.
  intros [= <-]. cbn [snd]. unfold gotoM, bindM, actM in E. pose proof (zlen_pos (sFile s)).
  assert (G : goto lptr (mkR 0 None) = mkR lptr None).
  { unfold goto. cbv zeta. replace (s64 lptr) with lptr by (unfold s64; rewrite Z.mod_small by lia; cbv zeta; now replace (lptr <? 9223372036854775808) with true by lia). replace (lptr <? 0) with false by lia. reflexivity. }
  rewrite G in E. unfold readLayer in E. unfold bindM at 1 in E. unfold rd32 at 1, liftM in E.
  assert (R : readUint32 s (mkR lptr None) = (0, mkR lptr (Some EEOF))).
  { unfold readUint32, readBE, readFull. cbn [rErr]. unfold rest. cbn [rPos]. replace (zlen (sFile s) <=? lptr) with true by lia.
    rewrite orb_true_r. change (zlen (@nil Z)) with 0. cbn. now rewrite Z.add_0_r. }
  rewrite R in E. match type of E with ?m _ = _ => assert (K : keeps m) end; [|exact (K (mkR lptr (Some EEOF)) EEOF l st eq_refl E)].
  unfold finishLayer, readMask. k with first [apply k_props|apply k_readImage|apply k_channel].
  all: intros ? ? ? ? ? [=].
Qed.
End K.
