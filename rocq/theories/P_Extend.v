(** C85: a file cut short is never decoded to another image; bytes after the end
    of what the file needs change nothing. *)
Require Import Verif.Base Verif.L_List Verif.M_Color Verif.M_Composite Verif.M_Rect Verif.M_Image Verif.M_Reader Verif.M_Rle
  Verif.M_Monad Verif.M_Groups Verif.M_Decode Verif.L_Sticky Verif.L_Fuel Verif.L_Extend.
From Coq Require Import ZifyBool ZifyNat.

Lemma newReader_ext f t : newReader (f ++ t) = newReader f \/
  (sShort (newReader f) = false /\ exists u, sFile (newReader (f ++ t)) = sFile (newReader f) ++ u).
Proof.
  unfold newReader. rewrite zlen_app. pose proof (zlen_pos f). pose proof (zlen_pos t). change maxString with 16777216.
  destruct (zlen f <? 16777216) eqn:A.
  - right. split; [reflexivity|]. destruct (zlen f + zlen t <? 16777216); cbn [sFile]; [now exists t|].
    exists (ztake (16777216 - zlen f) t). unfold ztake, zlen in *. rewrite firstn_app. rewrite firstn_all2 by lia. do 2 f_equal. lia.
  - left. replace (zlen f + zlen t <? 16777216) with false by lia. f_equal. unfold ztake, zlen in *. rewrite firstn_app.
    replace (Z.to_nat 16777216 - length f)%nat with 0%nat by lia. cbn [firstn]. now rewrite app_nil_r.
Qed.
Lemma x_mapO {A B} (f f' : A -> outcome (B * option err)) l : forall x, (forall a y, f a = Ret y -> ~ atEnd (snd y) -> f' a = Ret y) ->
  mapO f l = Ret x -> first_err x = None -> mapO f' l = Ret x.
Proof.
  induction l as [|a l IH]; intros x H; cbn [mapO]; [auto|]. unfold bindO. destruct (f a) as [[b e]| |] eqn:E; try discriminate.
  destruct (mapO f l) as [r| |]; try discriminate. intros [= <-]. cbn [first_err]. destruct e; [discriminate|]. intros N.
  rewrite (H _ _ E) by (intros [Q|Q]; discriminate Q). now rewrite (IH r H eq_refl N).
Qed.
Lemma x_decode fuel s s' u f32op ptext dc ls : sFile s' = sFile s ++ u -> sShort s = false ->
  decodeImageFrom fuel s f32op ptext dc = Ret (inr ls) -> decodeImageFrom fuel s' f32op ptext dc = Ret (inr ls).
Proof.
  intros EX NS. unfold decodeImageFrom. cbv zeta.
  destruct (readHeader s (mkR 0 None)) as [[[e|mode] st0]| |] eqn:E0; try discriminate.
  destruct (readUint32 s st0) as [w st1] eqn:E1. destruct (readUint32 s st1) as [h st2] eqn:E2. destruct (readUint32 s st2) as [bt st3] eqn:E3.
  destruct (if 0 <? mode then readUint32 s st3 else (0, st3)) as [pr st4] eqn:E4.
  destruct (readImageProperties fuel s bt st4) as [[[e|[pal comp]] st5]| |] eqn:E5; try discriminate.
  destruct (readLayerPointers fuel s mode st5) as [[lp st6]| |] eqn:E6; try discriminate.
  destruct (rErr st6) eqn:N6; [discriminate|].
  destruct (mapO (readLayerAt fuel s f32op ptext (mkDP comp dc bt pal mode)) lp) as [les| |] eqn:E7; try discriminate. cbn [bindO].
  destruct (first_err les) eqn:N7; [discriminate|]. intros G.
  (* no error on the way *)
  assert (N5 : rErr st5 = None). { destruct (rErr st5) eqn:Q; [|reflexivity]. rewrite (k_pointers fuel s mode st5 _ _ _ Q E6) in N6. discriminate. }
  assert (N4 : rErr st4 = None). { destruct (rErr st4) eqn:Q; [|reflexivity]. rewrite (k_imgProps fuel s bt st4 _ _ _ Q E5) in N5. discriminate. }
  assert (B : forall st v st', readUint32 s st = (v, st') -> rErr st' = None -> rErr st = None /\ readUint32 s' st = (v, st')).
  { intros st v st' E N. split.
    - destruct (rErr st) eqn:Q; [|reflexivity]. unfold readUint32 in E. rewrite (readBE_err _ _ _ _ Q) in E. injection E as _ <-. congruence.
    - unfold readUint32 in *. rewrite (be_ext s s' u EX NS); [exact E|]. rewrite E. cbn [snd]. rewrite N. intros [X|X]; discriminate X. }
  assert (C4 : rErr st3 = None /\ (if 0 <? mode then readUint32 s' st3 else (0, st3)) = (pr, st4)).
  { destruct (0 <? mode); [now apply B|]. injection E4 as <- <-. auto. }
  destruct C4 as [N3 C4]. destruct (B _ _ _ E3 N3) as [N2 C3]. destruct (B _ _ _ E2 N2) as [N1 C2]. destruct (B _ _ _ E1 N1) as [N0 C1].
  assert (NE : forall st, rErr st = None -> ~ atEnd (rErr st)) by (intros st ->; intros [X|X]; discriminate X).
  rewrite (proj2 (x_header s s' u EX NS) _ _ _ E0 (NE _ N0)). rewrite C1, C2, C3, C4.
  rewrite (proj2 (x_imgProps s s' u EX NS fuel bt) _ _ _ E5 (NE _ N5)).
  rewrite (proj2 (x_pointers s s' u EX NS fuel mode) _ _ _ E6 (NE _ N6)). rewrite N6.
  assert (C7 : mapO (readLayerAt fuel s' f32op ptext (mkDP comp dc bt pal mode)) lp = Ret les).
  { revert E7 N7. apply x_mapO. intros a y. apply (x_layerAt s s' u EX NS). }
  rewrite C7. cbn [bindO]. rewrite N7. exact G.
Qed.

(** What is decoded is decoded in the same way with any bytes behind it. *)
Theorem C85_extended f t fuel f32op ptext dec ls :
  decodeImage fuel f f32op ptext dec = Ret (inr ls) -> decodeImage fuel (f ++ t) f32op ptext dec = Ret (inr ls).
Proof.
  unfold decodeImage. destruct (newReader_ext f t) as [-> | (S & u & U)]; [auto|]. now apply (x_decode _ _ _ u).
Qed.
Print Assumptions C85_extended.
(** A prefix of a file is decoded to the image of the file, or not at all. *)
Theorem C85_truncated f p t fuel n f32op ptext dec ls ls' : f = p ++ t ->
  decodeImage fuel f f32op ptext dec = Ret (inr ls) -> decodeImage n p f32op ptext dec = Ret (inr ls') -> ls' = ls.
Proof.
  intros -> F P. apply C85_extended with (t := t) in P.
  destruct (le_decodeImage n (Nat.max fuel n) (p ++ t) f32op ptext dec ltac:(lia)) as [Q|Q]; [congruence|].
  destruct (le_decodeImage fuel (Nat.max fuel n) (p ++ t) f32op ptext dec ltac:(lia)) as [Q'|Q']; congruence.
Qed.
Print Assumptions C85_truncated.
(** If a file is refused, so is everything it begins with. *)
Theorem C85_refused f p t fuel n f32op ptext dec e ls : f = p ++ t ->
  decodeImage fuel f f32op ptext dec = Ret (inl e) -> decodeImage n p f32op ptext dec <> Ret (inr ls).
Proof.
  intros -> F P. apply C85_extended with (t := t) in P.
  destruct (le_decodeImage n (Nat.max fuel n) (p ++ t) f32op ptext dec ltac:(lia)) as [Q|Q]; [congruence|].
  destruct (le_decodeImage fuel (Nat.max fuel n) (p ++ t) f32op ptext dec ltac:(lia)) as [Q'|Q']; congruence.
Qed.
Print Assumptions C85_refused.
(** The same for the size and colour model. *)
Lemma cfg_done fuel s st c st' : decodeConfigM fuel s st = Ret ((c, None), st') -> rErr st' = None.
Proof.
  unfold decodeConfigM, bindM, retM, errM. destruct (readHeader s st) as [[[e|mode] st0]| |]; try discriminate.
  destruct (rd32 s st0) as [[w st1]| |]; try discriminate. destruct (rd32 s st1) as [[h st2]| |]; try discriminate. destruct (rd32 s st2) as [[bt st3]| |]; try discriminate.
  destruct ((if mode =? 2 then rd32 s else fun st => Ret (0, st)) st3) as [[pr st4]| |]; try discriminate.
  destruct bt as [|[?|[?|?|]|]|]; try (intros [= <- X <-]; exact X).
  destruct (readImageProperties fuel s 2 st4) as [[[e|[pal comp]] st5]| |]; try discriminate. intros [= <- X <-]. exact X.
Qed.
Lemma x_config fuel s s' u : sFile s' = sFile s ++ u -> sShort s = false -> exM (decodeConfigM fuel s) (decodeConfigM fuel s').
Proof.
  intros EX NS. unfold decodeConfigM. apply x_bind; [now apply (x_header s s' u)|]. intros [e|mode]; [apply x_ret|].
  do 3 (apply x_bind; [now apply (x_rd32 s s' u)|]; intros ?). apply x_bind; [destruct (mode =? 2); [now apply (x_rd32 s s' u)|apply x_ret]|]. intros _.
  destruct a1 as [|[?|[?|?|]|]|]; try (apply x_bind; [apply x_err|]; intros; apply x_ret).
  apply x_bind; [now apply (x_imgProps s s' u)|]. intros [e|[pal comp]]; [apply x_ret|]. apply x_bind; [apply x_err|]; intros; apply x_ret.
Qed.
Theorem C85_config f t fuel c : decodeConfig fuel f = Ret (c, None) -> decodeConfig fuel (f ++ t) = Ret (c, None).
Proof.
  unfold decodeConfig. destruct (newReader_ext f t) as [-> | (S & u & U)]; [auto|].
  destruct (decodeConfigM fuel (newReader f) (mkR 0 None)) as [[[c' e] st']| |] eqn:E; try discriminate. intros [= -> ->].
  rewrite (proj2 (x_config fuel _ _ u U S) _ _ _ E); [reflexivity|]. rewrite (cfg_done _ _ _ _ _ E). intros [X|X]; discriminate X.
Qed.
Print Assumptions C85_config.

(** An indexed image of one pixel: every proper prefix of the file is refused with an
    end of file, and the whole is decoded with or without bytes behind it. *)
Definition pixel : list Z :=
  [103; 105; 109; 112; 32; 120; 99; 102; 32; 118; 48; 48; 51; 0] ++
  [0; 0; 0; 1] ++ [0; 0; 0; 1] ++ [0; 0; 0; 2] ++
  [0; 0; 0; 1] ++ [0; 0; 0; 7] ++ [0; 0; 0; 1] ++ [10; 20; 30] ++
  [0; 0; 0; 17] ++ [0; 0; 0; 1] ++ [1] ++ [0; 0; 0; 0] ++ [0; 0; 0; 0] ++
  [0; 0; 0; 66] ++ [0; 0; 0; 0] ++
  (* layer at 66 *) [0; 0; 0; 1] ++ [0; 0; 0; 1] ++ [0; 0; 0; 5] ++ [0; 0; 0; 1; 0] ++ [0; 0; 0; 0] ++ [0; 0; 0; 0] ++ [0; 0; 0; 99] ++ [0; 0; 0; 0] ++
  (* hierarchy at 99 *) [0; 0; 0; 1] ++ [0; 0; 0; 1] ++ [0; 0; 0; 2] ++ [0; 0; 0; 115] ++
  (* level at 115 *) [0; 0; 0; 1] ++ [0; 0; 0; 1] ++ [0; 0; 0; 131] ++ [0; 0; 0; 0] ++
  (* tile at 131 *) [0; 0; 0; 128].
Definition told (r : outcome (err + list layer)) : Z :=
  match r with Ret (inl EEOF) | Ret (inl EUnexpectedEOF) => 0 | Ret (inr [_]) => 1 | _ => 2 end.
Example C85_ex : zlen pixel = 135 /\
  (forall k, (k < 135)%nat -> told (decodeImage 20 (firstn k pixel) (fun z => z) (fun _ => TErr) true) = 0) /\
  told (decodeImage 20 pixel (fun z => z) (fun _ => TErr) true) = 1 /\
  told (decodeImage 20 (pixel ++ [1; 2; 3]) (fun z => z) (fun _ => TErr) true) = 1.
Proof.
  split; [reflexivity|]. split; [|split; vm_compute; reflexivity].
  assert (A : forallb (fun k => told (decodeImage 20 (firstn k pixel) (fun z => z) (fun _ => TErr) true) =? 0) (seq 0 135) = true) by (vm_compute; reflexivity).
  intros k K. rewrite forallb_forall in A. apply Z.eqb_eq, A, in_seq. lia.
Qed.
Example C85_config_ex : exists c, decodeConfig 20 pixel = Ret (c, None) /\ cfgW c = 1.
Proof. eexists. split; [vm_compute; reflexivity|reflexivity]. Qed.
