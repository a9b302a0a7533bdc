(** C45 for whole property lists; C65 framing of layer and channel properties. *)
Require Import Verif.Base Verif.L_List Verif.L_Word Verif.M_Reader Verif.L_Reader Verif.M_Rle Verif.M_Color Verif.M_Rect Verif.M_Image Verif.M_Composite Verif.M_Groups Verif.M_Monad Verif.M_Decode
  Verif.M_Encode Verif.L_Encode Verif.S_String Verif.S_File Verif.S_Props Verif.L_String Verif.L_Run Verif.L_File Verif.P_File.
From Coq Require Import ZifyBool ZifyNat.

Lemma zlen_property typ l : zlen (property typ l) = 8 + zlen l.
Proof. unfold property. rewrite !zlen_app, !zlen_word. lia. Qed.

Section Loop.
Variable s : src.
Hypothesis Hlen : zlen (sFile s) <= 16777216.
Ltac hs H := let G := fresh "G" in apply holds_split in H; destruct H as [G H]; rewrite ?zlen_word, ?zlen_text in H.

(** a loop over property records *)
Lemma runs_props {S R} (body : S -> M (S + R)) (P : Z * list Z -> Prop) (last : S -> R) :
  (forall x p q t, P q -> holds s p (property (fst q) (snd q) ++ t) -> t <> [] -> exists x', runs (body x) p (inl x') (p + zlen (property (fst q) (snd q)))) ->
  (forall x p, holds s p (property 0 []) -> runs (body x) p (inr (last x)) (p + 8)) ->
  forall l, Forall P l -> forall fuel x p, (length l < fuel)%nat -> holds s p (props_bytes l) ->
  exists x', runs (whileM fuel body x) p (last x') (p + zlen (props_bytes l)).
Proof.
  intros B E l F. induction F as [|q l Pq _ IH]; intros fuel x p L H; (destruct fuel as [|fuel]; [cbn in L; lia|]); cbn [whileM length] in *.
  - exists x. eapply runs_bind; [apply E; exact H|]. cbv beta iota. eapply runs_q; [apply runs_ret|]. change (zlen (props_bytes [])) with 8. lia.
  - unfold props_bytes in *. cbn [flat_map] in *. rewrite <- app_assoc in *. destruct (B x p q _ Pq H) as [x1 R1].
    { intros Q. apply (f_equal zlen) in Q. rewrite !zlen_app, zlen_property in Q. change (zlen (@nil Z)) with 0 in Q.
      pose proof (zlen_pos (flat_map (fun q => property (fst q) (snd q)) l)). lia. }
    apply holds_split in H. destruct H as [_ H]. destruct (IH fuel x1 _ ltac:(lia) H) as [x2 R2].
    exists x2. eapply runs_bind; [exact R1|]. cbv beta iota. eapply runs_q; [exact R2|]. rewrite !zlen_app. lia.
Qed.
Lemma runs_head {A} (k : Z -> Z -> M A) p typ l t a q : is_word typ -> holds s p (property typ l ++ t) ->
  runs (k typ (zlen l)) (p + 8) a q -> runs (typ <- rd32 s;; pl <- rd32 s;; k typ pl) p a q.
Proof.
  intros W H K. pose proof (holds_small s Hlen _ _ H) as HS. rewrite zlen_app, zlen_property in HS. pose proof (zlen_pos l). pose proof (zlen_pos t).
  unfold property in H. rewrite <- !app_assoc in H. hs H. hs H.
  eapply runs_bind; [apply runs_word; [exact G|exact W]|]. eapply runs_bind; [apply runs_word; [exact G0|unfold is_word; lia]|].
  replace (p + 4 + 4) with (p + 8) by lia. exact K.
Qed.
Lemma holds_body p typ l t : holds s p (property typ l ++ t) -> holds s (p + 8) (l ++ t).
Proof. intros H. unfold property in H. rewrite <- !app_assoc in H. hs H. hs H. replace (p + 8) with (p + 4 + 4) by lia. exact H. Qed.

Lemma imgprop_end base fuel x p : holds s p (property 0 []) -> runs (imgprop_body fuel s base x) p (inr (inr x)) (p + 8).
Proof.
  intros H. destruct x as [pal comp]. unfold imgprop_body.
  refine (runs_head _ p 0 [] [] _ _ ltac:(unfold is_word; lia) _ _); [rewrite app_nil_r; exact H|]. apply runs_ret.
Qed.

(** layer properties *)
Lemma runs_words p l : Forall is_word l -> holds s p (flat_map word l) ->
  runs (listM (length l) (v <- rd32 s;; retM (s32 v))) p (map s32 l) (p + 4 * zlen l).
Proof.
  intros F. revert p. induction F as [|z l W _ IH]; intros p H; cbn [flat_map length listM map] in *.
  - eapply runs_q; [apply runs_ret|]. change (zlen (@nil Z)) with 0. lia.
  - hs H. eapply runs_bind; [eapply runs_bind; [apply runs_word; eauto|apply runs_ret]|]. eapply runs_bind; [apply IH; exact H|].
    eapply runs_q; [apply runs_ret|]. rewrite zlen_cons. lia.
Qed.
(** what a layer property may change *)
Definition lstep (x : lprop_state) (typ : Z) (x' : lprop_state) : Prop :=
  dx (dlBounds (fst x')) = dx (dlBounds (fst x)) /\ dy (dlBounds (fst x')) = dy (dlBounds (fst x)) /\
  dlGroup (fst x') = dlGroup (fst x) || (typ =? 29).
Ltac lstt := unfold lstep; cbn [fst dlBounds dlGroup dl_transp dl_invisible dl_group dl_path dl_mode dl_bounds];
  repeat split; try (unfold dx, dy, radd; cbn [minX minY maxX maxY]; lia);
  first [match goal with |- context [?a =? 29] => replace (a =? 29) with false by (cbn in *; lia) end; now rewrite orb_false_r | now rewrite orb_true_r | reflexivity].
Lemma lprop_framed f32op d fuel x p typ l t wide : lpayload wide typ l -> (typ = 5 -> wide = false) ->
  holds s p (property typ l ++ t) -> t <> [] -> (Z.to_nat (zlen l) < fuel)%nat ->
  exists x', runs (lprop_body fuel s f32op d x) p (inl x') (p + zlen (property typ l)) /\ lstep x typ x'.
Proof.
  intros P C H T Fu. destruct x as [ly ps0]. rewrite zlen_property.
  pose proof (holds_small s Hlen _ _ H) as HS. rewrite zlen_app, zlen_property in HS. pose proof (zlen_pos l) as L0. pose proof (zlen_pos t).
  assert (WT : is_word typ).
  { inversion P; subst; auto; unfold is_word; cbn in *; lia. }
  pose proof (holds_body _ _ _ _ H) as HB.
  assert (X : forall k r, (exists x, runs (k typ (zlen l)) (p + 8) (inl x : lprop_state + lprop_state) (p + 8 + zlen l) /\ lstep (ly, ps0) typ x) ->
    r = (typ <- rd32 s;; pl <- rd32 s;; k typ pl) -> exists x, runs r p (inl x) (p + (8 + zlen l)) /\ lstep (ly, ps0) typ x).
  { intros k r (x & K & J) ->. exists x. split; [|exact J]. refine (runs_head k p typ l t _ _ WT H _). eapply runs_q; [exact K|]. lia. }
  unfold lprop_body. eapply X; [|reflexivity]. cbv beta. clear X H. set (q := p + 8) in *.
  assert (L' : zlen (sFile s) <= 4294967296) by lia.
  assert (SK : forall y n r, holds s y n -> r = y + zlen n -> runs (skM (zlen n)) y tt r).
  { intros y n r Hy ->. eapply (runs_sk s L'); eauto. }
  inversion P; subst.
  - hs HB. assert (B : runs (rdBool s) q b (q + 4)).
    { apply runs_rdBool. rewrite <- word_be32; [exact G|]. unfold is_word. destruct b; lia. }
    pose proof (SK _ _ _ G eq_refl) as K4. rewrite zlen_word in K4.
    match goal with I : In typ _ |- _ => rename I into IT end. cbn in IT. destruct IT as [<-|[<-|[<-|[<-|[<-|[<-|[<-|[]]]]]]]]; eexists;
      (split; [eapply runs_bind; [first [exact B|exact K4]|apply runs_ret]|lstt]).
  - hs HB. eexists. split; [eapply runs_bind; [apply runs_word; [exact G|unfold is_word; lia]|];
    replace (255 <? o) with false by lia; eapply runs_bind; [apply runs_ret|apply runs_ret]|lstt].
  - hs HB. pose proof (SK _ _ _ G eq_refl) as K4. rewrite zlen_word in K4.
    match goal with I : In typ _ |- _ => rename I into IT end. cbn in IT. destruct IT as [<-|[<-|[<-|[<-|[<-|[]]]]]]; eexists;
      (split; [eapply runs_bind; [first [exact K4 | apply runs_word; [exact G|assumption]]|apply runs_ret]|lstt]).
  - rewrite <- app_assoc in HB. hs HB. hs HB. rewrite word_be32 in G, G0 by assumption. eexists. split.
    { eapply runs_bind; [apply runs_rdi32; exact G|]. eapply runs_bind; [apply runs_rdi32; exact G0|].
      eapply runs_q; [apply runs_ret|]. rewrite zlen_app, !zlen_word. lia. }
    lstt.
  - match goal with I : In typ _ |- _ => rename I into IT end. cbn in IT. destruct IT as [<-|[<-|[]]]; eexists;
      (split; [eapply runs_q; [apply runs_ret|]; change (zlen (@nil Z)) with 0; lia|lstt]).
  - rewrite (C eq_refl) in *. cbn [app] in *. hs HB. eexists. split; [eapply runs_bind; [eapply (SK _ _ _ G); reflexivity|apply runs_ret]|lstt].
  - hs HB. rewrite zlen_words in *. replace (negb (4 * zlen l0 mod 4 =? 0)) with false by (rewrite Z.mul_comm, Z.mod_mul by lia; reflexivity).
    eexists. split.
    { eapply runs_bind; [apply runs_ret|]. replace (4 * zlen l0 / 4) with (zlen l0) by (rewrite Z.mul_comm, Z.div_mul; lia).
      rewrite length_nat. eapply runs_bind; [apply runs_words; eauto|]. apply runs_ret. }
    lstt.
  - assert (LL : (length ps <= Z.to_nat (zlen (flat_map parasite_bytes ps)))%nat).
    { clear. rewrite length_nat. induction ps as [|[[n f] d] ps IH]; [reflexivity|]. cbn [flat_map length].
      rewrite app_length. pose proof (zlen_par n f d) as L. unfold zlen in L. lia. }
    eexists. split; [eapply runs_bind; [apply (runs_readParasites s Hlen fuel ps q t); auto; lia|apply runs_ret]|lstt].
  - exists (ly, ps0). hs HB. split.
    { replace (runs _ _ _ _) with (runs (skM (zlen l);;; retM (@inl lprop_state lprop_state (ly, ps0))) q (inl (ly, ps0)) (q + zlen l)).
      { eapply runs_bind; [eapply (SK _ _ _ G); reflexivity|apply runs_ret]. }
      repeat match goal with |- _ = runs (match ?x with _ => _ end) _ _ _ => is_var x; destruct x; try reflexivity; try (exfalso; cbn in *; intuition fail) end. }
    match goal with N : ~ In typ _ |- _ => assert (NE : typ <> 29) by (intros ->; apply N; cbn; tauto) end. clear - NE. lstt.
Qed.
Lemma lprop_end f32op d fuel x p : holds s p (property 0 []) -> runs (lprop_body fuel s f32op d x) p (inr x) (p + 8).
Proof.
  intros H. destruct x as [l ps]. unfold lprop_body.
  refine (runs_head _ p 0 [] [] _ _ ltac:(unfold is_word; lia) _ _); [rewrite app_nil_r; exact H|].
  cbv beta iota. change (zlen (@nil Z) =? 0) with true. cbv iota. eapply runs_bind; [apply runs_ret|apply runs_ret].
Qed.
End Loop.

Lemma props_len l : Forall (fun q : Z * list Z => zlen (snd q) <= zlen (props_bytes l)) l /\ Z.of_nat (length l) <= zlen (props_bytes l).
Proof.
  unfold props_bytes. rewrite zlen_app. pose proof (zlen_pos (property 0 [])). split.
  - apply Forall_forall. intros q I. enough (zlen (snd q) <= zlen (flat_map (fun q => property (fst q) (snd q)) l)) by lia.
    induction l as [|r l IH]; [easy|]. cbn [flat_map]. rewrite zlen_app, zlen_property. pose proof (zlen_pos (snd r)).
    pose proof (zlen_pos (flat_map (fun q => property (fst q) (snd q)) l)). destruct I as [->|I]; [lia|]. specialize (IH I). lia.
  - enough (Z.of_nat (length l) <= zlen (flat_map (fun q => property (fst q) (snd q)) l)) by lia.
    induction l as [|r l IH]; [cbn [flat_map length]; change (zlen (@nil Z)) with 0; lia|]. cbn [flat_map length]. rewrite zlen_app, zlen_property. pose proof (zlen_pos (snd r)). lia.
Qed.
(** a list of image properties each of which is framed (C45_partial) is read to its end *)
Theorem C45_list_partial s pre l t base fuel : sFile s = pre ++ props_bytes l ++ t -> zlen (sFile s) <= 16777216 ->
  Forall (framed_image base) l -> (Z.to_nat (zlen (props_bytes l)) < fuel)%nat ->
  exists st, readImageProperties fuel s base (mkR (zlen pre) None) = Ret (inr st, mkR (zlen pre + zlen (props_bytes l)) None).
Proof.
  intros E L F Fu. assert (H : holds s (zlen pre) (props_bytes l)) by (exists pre, t; auto).
  destruct (props_len l) as [PL NL].
  destruct (runs_props s (imgprop_body fuel s base) (fun q => framed_image base q /\ zlen (snd q) <= zlen (props_bytes l)) inr) with (l := l) (fuel := fuel) (x := (@None (list color), 0)) (p := zlen pre) as [x' R]; auto.
  - intros x p q t' [(P & C1 & C2 & C3) B] Hq T. eapply property_framed; eauto. lia.
  - intros x p Hp. now apply imgprop_end.
  - rewrite Forall_forall in *. intros q I. auto.
  - lia.
  - exists x'. exact R.
Qed.
Print Assumptions C45_list_partial.

(** ** C65
    Full statement: reading a property of a layer or skipping one of a channel leaves the
    decoder at the end of its payload; so a whole list is read to its end.  False for the
    floating selection of files with eight-byte pointers (C65_refuted), true otherwise. *)
Theorem C65_partial s pre typ l t f32op d fuel x wide :
  sFile s = pre ++ property typ l ++ t -> t <> [] -> zlen (sFile s) <= 16777216 ->
  lpayload wide typ l -> (typ = 5 -> wide = false) -> (Z.to_nat (zlen l) < fuel)%nat ->
  exists x', lprop_body fuel s f32op d x (mkR (zlen pre) None) = Ret (inl x', mkR (zlen pre + zlen (property typ l)) None).
Proof.
  intros E T L P C F. destruct (lprop_framed s L f32op d fuel x (zlen pre) typ l t wide) as (z & R & _); auto; [|exists z; exact R].
  exists pre, []. rewrite app_nil_r. auto.
Qed.
Print Assumptions C65_partial.
Definition framed_layer (wide : bool) (q : Z * list Z) : Prop := lpayload wide (fst q) (snd q) /\ (fst q = 5 -> wide = false).
Theorem C65_list_partial s pre l t f32op d fuel x wide :
  sFile s = pre ++ props_bytes l ++ t -> zlen (sFile s) <= 16777216 ->
  Forall (framed_layer wide) l -> (Z.to_nat (zlen (props_bytes l)) < fuel)%nat ->
  exists x', readProperties fuel s f32op d x (mkR (zlen pre) None) = Ret (x', mkR (zlen pre + zlen (props_bytes l)) None).
Proof.
  intros E L F Fu. assert (H : holds s (zlen pre) (props_bytes l)) by (exists pre, t; auto). destruct (props_len l) as [PL NL].
  destruct (runs_props s (lprop_body fuel s f32op d) (fun q => framed_layer wide q /\ zlen (snd q) <= zlen (props_bytes l)) (fun x => x)) with (l := l) (fuel := fuel) (x := (x, @nil parasite)) (p := zlen pre) as [x' R]; auto.
  - intros y p q t' [[P C] B] Hq T. edestruct lprop_framed as (z & R & _); [exact L|exact P|exact C|exact Hq|exact T| |exists z; exact R]. lia.
  - intros y p Hp. now apply lprop_end.
  - rewrite Forall_forall in *. intros q I. auto.
  - lia.
  - exists x'. exact R.
Qed.
Print Assumptions C65_list_partial.
(** channels *)
Definition chan_body (s : src) (_ : unit) : M (unit + unit) :=
  typ <- rd32 s;;
  pl <- rd32 s;;
  match typ with
  | 0 => (if pl =? 0 then skipM else setErrM EInvalidProperties);;; retM (inr tt)
  | 6 => o <- rd32 s;; (if 255 <? o then setErrM EInvalidOpacity else skipM);;; retM (inl tt)
  | _ => skM pl;;; retM (inl tt)
  end.
Lemma chan_body_eq fuel s : skipProperties fuel s = whileM fuel (chan_body s) tt.
Proof. reflexivity. Qed.
Lemma chan_framed s (L : zlen (sFile s) <= 16777216) x p q t' : cpayload (fst q) (snd q) -> holds s p (property (fst q) (snd q) ++ t') -> t' <> [] ->
  runs (chan_body s x) p (inl tt) (p + zlen (property (fst q) (snd q))).
Proof.
  destruct q as [typ b]. intros P Hq T. cbn [fst snd] in *. rewrite zlen_property.
    assert (WT : is_word typ) by (inversion P; subst; auto; unfold is_word; lia).
    refine (runs_head s L _ p typ b t' _ _ WT Hq _). apply holds_body in Hq. apply holds_split in Hq. destruct Hq as [Hq _].
    inversion P; subst.
    + eapply runs_bind; [apply runs_word; [exact Hq|unfold is_word; lia]|]. replace (255 <? o) with false by lia.
      eapply runs_bind; [apply runs_ret|]. eapply runs_q; [apply runs_ret|]. rewrite zlen_word. lia.
    + replace (runs _ _ _ _) with (runs (skM (zlen b);;; retM (@inl unit unit tt)) (p + 8) (inl tt) (p + (8 + zlen b))).
      { eapply runs_bind; [eapply (runs_sk s); [lia|exact Hq|reflexivity]|]. eapply runs_q; [apply runs_ret|lia]. }
      repeat match goal with |- _ = runs (match ?x with _ => _ end) _ _ _ => is_var x; destruct x; try reflexivity; try (exfalso; lia) end.
Qed.
Theorem C65_channel s pre l t fuel : sFile s = pre ++ props_bytes l ++ t -> zlen (sFile s) <= 16777216 ->
  Forall (fun q => cpayload (fst q) (snd q)) l -> (length l < fuel)%nat ->
  skipProperties fuel s (mkR (zlen pre) None) = Ret (tt, mkR (zlen pre + zlen (props_bytes l)) None).
Proof.
  intros E L F Fu. assert (H : holds s (zlen pre) (props_bytes l)) by (exists pre, t; auto).
  unfold skipProperties. match goal with |- whileM _ ?b _ _ = _ =>
    destruct (runs_props s b (fun q => cpayload (fst q) (snd q)) (fun _ => tt)) with (l := l) (fuel := fuel) (x := tt) (p := zlen pre) as [x' R]; auto end.
  - intros x p q t' P Hq T. exists tt. now apply (chan_framed s L x p q t').
  - intros x p Hp. refine (runs_head s L _ p 0 [] [] _ _ ltac:(unfold is_word; lia) _ _); [rewrite app_nil_r; exact Hp|].
    cbv beta iota. change (zlen (@nil Z) =? 0) with true. cbv iota. eapply runs_bind; [apply runs_ret|apply runs_ret].
Qed.
Print Assumptions C65_channel.
(** the pointer of a floating selection is taken to have four bytes in every version; and a
    declared length other than the usual one is not looked at *)
Theorem C65_refuted s pre t f32op d fuel x : zlen (sFile s) <= 16777216 ->
  (forall hi lo, is_word hi -> is_word lo ->
    lpayload true 5 (word hi ++ word lo) /\
    (sFile s = pre ++ property 5 (word hi ++ word lo) ++ t ->
     lprop_body fuel s f32op d x (mkR (zlen pre) None) =
       Ret (inl x, mkR (zlen pre + zlen (property 5 (word hi ++ word lo)) - 4) None))) /\
  (forall l, sFile s = pre ++ property 2 l ++ t ->
     lprop_body fuel s f32op d x (mkR (zlen pre) None) = Ret (inl x, mkR (zlen pre + 8) None)).
Proof.
  intros L. destruct x as [ly ps]. split.
  - intros hi lo W1 W2. split; [exact (lp_floating true hi lo)|]. intros E.
    assert (H : holds s (zlen pre) (property 5 (word hi ++ word lo) ++ t)) by (exists pre, []; rewrite app_nil_r; auto).
    refine (runs_head s L _ _ 5 (word hi ++ word lo) t _ _ ltac:(unfold is_word; lia) H _). cbv beta iota.
    apply holds_body in H. apply holds_split in H. destruct H as [H _]. apply holds_split in H. destruct H as [H _].
    eapply runs_bind; [eapply (runs_sk s); [lia|exact H|reflexivity]|]. eapply runs_q; [apply runs_ret|].
    rewrite zlen_property, zlen_app, !zlen_word. lia.
  - intros l E. assert (H : holds s (zlen pre) (property 2 l ++ t)) by (exists pre, []; rewrite app_nil_r; auto).
    refine (runs_head s L _ _ 2 l t _ _ ltac:(unfold is_word; lia) H _). cbv beta iota. apply runs_ret.
Qed.
Print Assumptions C65_refuted.
(** a layer with opacity, offsets, a path, a text flag and an unknown property; the same
    list as those of a channel *)
Definition some_props : list (Z * list Z) :=
  [(6, word 200); (8, word 1); (15, word 3 ++ word 4294967295); (2, []); (30, word 1 ++ word 0); (26, word 1); (99, [1; 2; 3]); (5, word 77)].
Example C65_ex :
  let s := mkSrc ([9; 9] ++ props_bytes some_props ++ [1]) false in
  Forall (framed_layer false) some_props /\ Forall (fun q => cpayload (fst q) (snd q)) some_props /\
  (exists x', readProperties 200 s (fun z => z) (mkDP 0 true 0 None 0) (mkDL [] (mkRect 0 0 5 5) MNormal false 0 None false false []) (mkR 2 None) = Ret (x', mkR 109 None) /\
     dlTransparency (fst x') = 55 /\ dlBounds (fst x') = mkRect 3 (-1) 8 4 /\ dlPath (fst x') = [1; 0] /\ dlInvisible (fst x') = false) /\
  skipProperties 200 s (mkR 2 None) = Ret (tt, mkR 109 None).
Proof.
  split; [|split].
  - unfold some_props. repeat apply Forall_cons; try apply Forall_nil; (split; [cbn [fst snd]|try discriminate; try reflexivity]).
    + apply (lp_opacity false 200). lia.
    + apply (lp_bool false 8 true). cbn. auto.
    + apply (lp_offsets false); unfold is_word; lia.
    + apply lp_none. cbn. auto.
    + apply (lp_path false [1; 0]). repeat constructor; unfold is_word; lia.
    + apply lp_word; [cbn; tauto|unfold is_word; lia].
    + apply lp_other; [unfold is_word; lia|]. cbn. lia.
    + apply (lp_floating false 0 77).
  - unfold some_props. repeat apply Forall_cons; try apply Forall_nil; cbn [fst snd]; try (apply cp_other; [unfold is_word|..]; lia). apply cp_opacity. lia.
  - split; [|vm_compute; reflexivity]. eexists. split; [vm_compute; reflexivity|]. vm_compute. auto.
Qed.
