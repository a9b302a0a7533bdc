(** C67: the properties of a layer are given their meaning. *)
Require Import Verif.Base Verif.L_List Verif.L_Word Verif.M_Reader Verif.L_Reader Verif.M_Rle Verif.M_Color Verif.M_Rect Verif.M_Image Verif.M_Composite Verif.M_Groups Verif.M_Monad Verif.M_Decode
  Verif.M_Encode Verif.L_Encode Verif.S_String Verif.S_File Verif.S_Props Verif.S_Accept Verif.S_Meaning Verif.L_String Verif.L_Run Verif.L_File Verif.L_Wp Verif.L_Decode Verif.L_Fuel Verif.L_Sticky
  Verif.P_File Verif.P_Props Verif.P_Paths Verif.P_Accept.
From Coq Require Import ZifyBool ZifyNat.

Definition par_recs (ps : list parasite) : list par_rec := map (fun p => (parName p, parFlags p, parData p)) ps.
(** the attributes of the layer read so far *)
Definition attrs_of (x : lprop_state) : attrs :=
  let l := fst x in
  mkAttrs (minX (dlBounds l)) (minY (dlBounds l)) (dlMode l) (dlInvisible l) (dlTransparency l) (dlGroup l) (dlPath l) (par_recs (snd x)).
Lemma signed_s32 z : is_word z -> s32 z = signed z.
Proof. unfold is_word, s32, signed. intros. rewrite Z.mod_small by lia. reflexivity. Qed.
Lemma mode_ids : map (fun n => mode_of_id (Z.of_nat n)) (seq 0 62) = map snd gimp_modes.
Proof. reflexivity. Qed.
Lemma mode_id z : is_word z -> mode_of_id z = gimp_mode z.
Proof.
  unfold is_word. intros W. unfold gimp_mode. destruct (Z.ltb_spec z 62) as [L|L].
  - rewrite <- mode_ids. change MNormal with ((fun n => mode_of_id (Z.of_nat n)) 0%nat). rewrite map_nth, seq_nth by lia. f_equal. lia.
  - rewrite nth_overflow by (change (length (map snd gimp_modes)) with 62%nat; lia).
    destruct z as [|p|p]; try lia. do 6 (destruct p; try reflexivity; try lia).
Qed.

Section Meaning.
Variable s : src.
Hypothesis Hlen : zlen (sFile s) <= 16777216.
Variable f32op : Z -> Z.
Variable d : dparams.
(** how the mode numbers are read *)
Variable mo : Z -> mode.
Hypothesis Mo : forall z, is_word z -> (if negb (dpBase d =? 0) then (if z =? 2 then MBehind else MNormal) else mode_of_id z) = mo z.
Notation float := (fun z => u8 (f32op z)).
Definition same (x x' : lprop_state) : Prop :=
  dlName (fst x') = dlName (fst x) /\ dlAlpha (fst x') = dlAlpha (fst x) /\
  dx (dlBounds (fst x')) = dx (dlBounds (fst x)) /\ dy (dlBounds (fst x')) = dy (dlBounds (fst x)).
Definition Mean typ l x x' := means float mo typ l (attrs_of x) (attrs_of x') /\ same x x'.
Ltac hs H := let G := fresh "G" in apply holds_split in H; destruct H as [G H]; rewrite ?zlen_word, ?zlen_text in H.
Lemma u8_sub o : 0 <= o <= 255 -> u8 (255 - u8 o) = 255 - o.
Proof. unfold u8. intros. rewrite (Z.mod_small o) by lia. apply Z.mod_small. lia. Qed.
Lemma u8_range z : 0 <= u8 z <= 255.
Proof. unfold u8. pose proof (Z.mod_pos_bound z 256). lia. Qed.
Lemma u8_u8 z : u8 (u8 z) = u8 z.
Proof. unfold u8. apply Z.mod_mod. lia. Qed.
Ltac lmt := unfold Mean; split;
  [|repeat split; try (cbn [fst dl_bounds dlBounds]; unfold dx, dy, radd; cbn [minX minY maxX maxY]; lia)];
  unfold attrs_of; cbn [fst snd dlBounds dlGroup dlMode dlInvisible dlTransparency dlPath dl_transp dl_invisible dl_group dl_path dl_mode dl_bounds minX minY radd];
  first [apply m_nothing; cbn; lia | rewrite u8_sub by assumption; apply m_opacity; assumption
  | rewrite <- (u8_u8 (f32op _)), u8_sub by apply u8_range; apply (m_float float mo); assumption
  | rewrite Mo by assumption; apply m_mode; assumption
  | apply m_visible | apply m_group
  | rewrite !signed_s32 by assumption; apply m_offsets; assumption
  | rewrite (map_ext_in _ signed) by (let z := fresh in let I := fresh in intros z I; apply signed_s32; match goal with F : Forall is_word _ |- _ => rewrite Forall_forall in F; auto end); apply m_path; assumption
  | unfold par_recs; rewrite map_map, (map_ext _ (fun r => r)) by (intros [[? ?] ?]; reflexivity); rewrite map_id; apply m_parasites; assumption].
Lemma lprop_means fuel x p typ l t wide : lpayload wide typ l -> (typ = 5 -> wide = false) ->
  holds s p (property typ l ++ t) -> t <> [] -> (Z.to_nat (zlen l) < fuel)%nat ->
  exists x', runs (lprop_body fuel s f32op d x) p (inl x') (p + zlen (property typ l)) /\ Mean typ l x x'.
Proof.
  intros P C H T Fu. destruct x as [ly ps0]. rewrite zlen_property.
  pose proof (holds_small s Hlen _ _ H) as HS. rewrite zlen_app, zlen_property in HS. pose proof (zlen_pos l) as L0. pose proof (zlen_pos t).
  assert (WT : is_word typ).
  { inversion P; subst; auto; unfold is_word; cbn in *; lia. }
  pose proof (holds_body s _ _ _ _ H) as HB.
  assert (X : forall k r, (exists x, runs (k typ (zlen l)) (p + 8) (inl x : lprop_state + lprop_state) (p + 8 + zlen l) /\ Mean typ l (ly, ps0) x) ->
    r = (typ <- rd32 s;; pl <- rd32 s;; k typ pl) -> exists x, runs r p (inl x) (p + (8 + zlen l)) /\ Mean typ l (ly, ps0) x).
  { intros k r (x & K & J) ->. exists x. split; [|exact J]. refine (runs_head s Hlen k p typ l t _ _ WT H _). eapply runs_q; [exact K|]. lia. }
  unfold lprop_body. eapply X; [|reflexivity]. cbv beta. clear X H. set (q := p + 8) in *.
  assert (L' : zlen (sFile s) <= 4294967296) by lia.
  assert (SK : forall y n r, holds s y n -> r = y + zlen n -> runs (skM (zlen n)) y tt r).
  { intros y n r Hy ->. eapply (runs_sk s L'); eauto. }
  inversion P; subst.
  - hs HB. assert (B : runs (rdBool s) q b (q + 4)).
    { apply runs_rdBool. rewrite <- word_be32; [exact G|]. unfold is_word. destruct b; lia. }
    pose proof (SK _ _ _ G eq_refl) as K4. rewrite zlen_word in K4.
    match goal with I : In typ _ |- _ => rename I into IT end. cbn in IT. destruct IT as [<-|[<-|[<-|[<-|[<-|[<-|[<-|[]]]]]]]]; eexists;
      (split; [eapply runs_bind; [first [exact B|exact K4]|apply runs_ret]|lmt]).
  - hs HB. eexists. split; [eapply runs_bind; [apply runs_word; [exact G|unfold is_word; lia]|];
    replace (255 <? o) with false by lia; eapply runs_bind; [apply runs_ret|apply runs_ret]|lmt].
  - hs HB. pose proof (SK _ _ _ G eq_refl) as K4. rewrite zlen_word in K4.
    match goal with I : In typ _ |- _ => rename I into IT end. cbn in IT. destruct IT as [<-|[<-|[<-|[<-|[<-|[]]]]]]; eexists;
      (split; [eapply runs_bind; [first [exact K4 | apply runs_word; [exact G|assumption]]|apply runs_ret]|lmt]).
  - rewrite <- app_assoc in HB. hs HB. hs HB. rewrite word_be32 in G, G0 by assumption. eexists. split.
    { eapply runs_bind; [apply runs_rdi32; exact G|]. eapply runs_bind; [apply runs_rdi32; exact G0|].
      eapply runs_q; [apply runs_ret|]. rewrite zlen_app, !zlen_word. lia. }
    rewrite !u32_id by assumption. lmt.
  - match goal with I : In typ _ |- _ => rename I into IT end. cbn in IT. destruct IT as [<-|[<-|[]]]; eexists;
      (split; [eapply runs_q; [apply runs_ret|]; change (zlen (@nil Z)) with 0; lia|lmt]).
  - rewrite (C eq_refl) in *. cbn [app] in *. hs HB. eexists. split; [eapply runs_bind; [eapply (SK _ _ _ G); reflexivity|apply runs_ret]|lmt].
  - hs HB. rewrite zlen_words in *. replace (negb (4 * zlen l0 mod 4 =? 0)) with false by (rewrite Z.mul_comm, Z.mod_mul by lia; reflexivity).
    eexists. split.
    { eapply runs_bind; [apply runs_ret|]. replace (4 * zlen l0 / 4) with (zlen l0) by (rewrite Z.mul_comm, Z.div_mul; lia).
      rewrite length_nat. eapply runs_bind; [apply (runs_words s); eauto|]. apply runs_ret. }
    lmt.
  - assert (LL : (length ps <= Z.to_nat (zlen (flat_map parasite_bytes ps)))%nat).
    { clear. rewrite length_nat. induction ps as [|[[n f] d] ps IH]; [reflexivity|]. cbn [flat_map length].
      rewrite app_length. pose proof (zlen_par n f d) as L. unfold zlen in L. lia. }
    eexists. split; [eapply runs_bind; [apply (runs_readParasites s Hlen fuel ps q t); auto; lia|apply runs_ret]|lmt].
  - exists (ly, ps0). hs HB. split.
    { replace (runs _ _ _ _) with (runs (skM (zlen l);;; retM (@inl lprop_state lprop_state (ly, ps0))) q (inl (ly, ps0)) (q + zlen l)).
      { eapply runs_bind; [eapply (SK _ _ _ G); reflexivity|apply runs_ret]. }
      repeat match goal with |- _ = runs (match ?x with _ => _ end) _ _ _ => is_var x; destruct x; try reflexivity; try (exfalso; cbn in *; intuition fail) end. }
    match goal with N : ~ In typ _ |- _ => split; [|repeat split]; apply m_nothing; intros I; apply N; cbn in I |- *; lia end.
Qed.
Lemma layer_means fuel vmode props : forall p t x k, good_props vmode props -> holds s p (records props ++ t) -> t <> [] ->
  (Z.to_nat (zlen (sFile s)) < fuel)%nat -> exists x', all_mean float mo props (attrs_of x) (attrs_of x') /\ same x x' /\
    whileM (length props + k) (lprop_body fuel s f32op d) x (mkR p None) = whileM k (lprop_body fuel s f32op d) x' (mkR (p + zlen (records props)) None).
Proof.
  induction props as [|q props IH]; intros p t x k G H T Fu; cbn [all_mean].
  - exists x. repeat split. change (zlen (records [])) with 0. now rewrite Z.add_0_r.
  - change (records (q :: props)) with (property (fst q) (snd q) ++ records props) in *. inversion G as [|? ? [P C] G']; subst. rewrite <- app_assoc in H.
    pose proof (holds_range _ _ _ H) as HR. rewrite zlen_app, zlen_property in HR. pose proof (zlen_pos (snd q)). pose proof (zlen_pos (records props ++ t)).
    destruct (lprop_means fuel x p (fst q) (snd q) (records props ++ t) _ P ltac:(intros E; specialize (C E); lia) H) as (y & R & My & Sy).
    { intros E. apply app_eq_nil in E. tauto. }
    { lia. }
    apply holds_split in H as [_ H]. destruct (IH _ _ y k G' H T Fu) as (x' & A & Sx & E).
    exists x'. split; [eauto|]. split.
    { destruct Sy as (?&?&?&?), Sx as (?&?&?&?). repeat split; congruence. }
    cbn [length Nat.add whileM]. rewrite (bind_ret _ _ _ _ _ R). rewrite E, zlen_app. do 2 f_equal. lia.
Qed.
End Meaning.

(** what is not decided by properties stays *)
Lemma finish_keeps fuel s ptext d l ps mp st l' st' : finishLayer fuel s ptext d l ps mp st = Ret (l', st') ->
  dlName l' = dlName l /\ dlAlpha l' = dlAlpha l /\ dlBounds l' = dlBounds l /\ dlMode l' = dlMode l /\ dlInvisible l' = dlInvisible l /\
  dlTransparency l' = dlTransparency l /\ dlGroup l' = dlGroup l /\ dlPath l' = dlPath l.
Proof.
  unfold finishLayer.
  assert (K : forall l2 st, (if negb (mp =? 0) then gotoM mp;;; readMask fuel s d l2 else retM l2) st = Ret (l', st') -> l' = l2 \/ exists i, l' = dl_image l2 i).
  { intros l2 y. destruct (negb (mp =? 0)); [|intros [= <- _]; auto]. intros H. apply bindM_inv in H. destruct H as (u & st1 & _ & H).
    unfold readMask in H. apply bindM_inv in H. destruct H as (m & st2 & _ & H). destruct m as [m|]; [|injection H as <- _; auto].
    destruct (negb _); [apply bindM_inv in H; destruct H as (? & ? & _ & H); injection H as <- _; auto|injection H as <- _; eauto]. }
  destruct (par_get ps textParasiteName) as [tp|].
  2: { intros H. destruct (K _ _ H) as [->|[i ->]]; repeat split. }
  destruct (ptext (parData tp)) as [td| | |]; try discriminate.
  - intros H. destruct (K _ _ H) as [->|[i ->]]; repeat split.
  - intros H. apply bindM_inv in H. destruct H as (? & ? & _ & H). injection H as <- _. repeat split.
Qed.
Lemma layer_read f p w h typ name props fuel f32op ptext d l st' mo :
  zlen f < 16777216 -> is_word w -> is_word h -> utf8 name -> good_props (dpMode d) props ->
  has f p (word w ++ word h ++ word typ ++ text name ++ props_bytes props) ->
  0 <= typ -> typ < 4294967296 -> typ / 2 = dpBase d ->
  (forall z, is_word z -> (if negb (dpBase d =? 0) then (if z =? 2 then MBehind else MNormal) else mode_of_id z) = mo z) ->
  readLayer fuel (newReader f) f32op ptext d (mkR p None) = Ret (l, st') ->
  exists a, all_mean (fun z => u8 (f32op z)) mo props plain a /\
    dlName l = name /\ dlBounds l = mkRect (aX a) (aY a) (aX a + w) (aY a + h) /\
    dlMode l = aMode a /\ dlInvisible l = aHidden a /\ dlTransparency l = aTransparency a /\
    dlGroup l = aGroup a /\ dlPath l = aPath a.
Proof.
  intros L W1 W2 U G (pre & post & E & EP) T0 T1 B Mo D. destruct (big_fuel fuel (2 * zlen f)) as (K & K1 & K2).
  destruct (le_readLayer fuel K (newReader f) K1 d f32op ptext (mkR p None)) as [Q|Q]; rewrite D in Q; [discriminate|]. symmetry in Q.
  pose proof (newReader_small f L) as SF. set (s := newReader f) in *.
  assert (HL : zlen (sFile s) <= 16777216) by (rewrite SF; lia).
  assert (Hh : holds s p (word w ++ word h ++ word typ ++ text name ++ props_bytes props)) by (exists pre, post; rewrite SF; auto).
  unfold props_bytes in Hh. fold (records props) in Hh.
  pose proof (holds_range _ _ _ Hh) as HR. rewrite !zlen_app, !zlen_word in HR. pose proof (zlen_records_le props). pose proof (zlen_pos (property 0 [])). pose proof (zlen_pos (text name)).
  rewrite SF in HR. assert (FK : exists k, K = (length props + Datatypes.S k)%nat) by (exists (K - length props - 1)%nat; lia). destruct FK as [k FK].
  unfold readLayer in Q.
  apply holds_split in Hh as [G1 Hh]. apply holds_split in Hh as [G2 Hh]. apply holds_split in Hh as [G3 Hh]. apply holds_split in Hh as [G4 Hh]. rewrite !zlen_word in *.
  rewrite (bind_ret _ _ _ _ _ (runs_word s _ _ G1 W1)), (bind_ret _ _ _ _ _ (runs_word s _ _ G2 W2)), (bind_ret _ _ _ _ _ (runs_word s _ typ G3 ltac:(unfold is_word; lia))) in Q.
  rewrite B, Z.eqb_refl in Q. cbn [negb] in Q.
  rewrite (bind_ret _ _ _ _ _ (runs_text s HL _ _ G4 U)) in Q.
  destruct (layer_means s HL f32op d mo Mo K (dpMode d) props _ _ (mkDL name (mkRect 0 0 w h) MNormal false 0 None (typ mod 2 =? 1) false [], []) (Datatypes.S k) G Hh) as (x & A & (S1 & S2 & S3 & S4) & EW).
  { unfold property, word; discriminate. }
  { rewrite SF. lia. }
  apply holds_split in Hh as [_ Hh].
  assert (FE : forall x, whileM K (lprop_body K s f32op d) x = whileM (length props + Datatypes.S k) (lprop_body K s f32op d) x) by congruence.
  apply bindM_inv in Q. destruct Q as ([l1 ps1] & st1 & E1 & Q). unfold readProperties in E1. rewrite FE, EW in E1.
  rewrite (while_end _ _ _ _ _ _ (lprop_end s HL f32op d K x _ Hh)) in E1. injection E1 as -> <-.
  apply bindM_inv in Q. destruct Q as (hp & st2 & _ & Q). apply bindM_inv in Q. destruct Q as (mp & st3 & _ & Q). apply bindM_inv in Q. destruct Q as (u & st4 & _ & Q).
  cbn [fst snd dlName dlBounds] in S1, S3, S4. unfold dx, dy in S3, S4. cbn [minX minY maxX maxY] in S3, S4.
  exists (attrs_of (l1, ps1)). split; [exact A|].
  assert (Z : dlName l = dlName l1 /\ dlAlpha l = dlAlpha l1 /\ dlBounds l = dlBounds l1 /\ dlMode l = dlMode l1 /\ dlInvisible l = dlInvisible l1 /\
    dlTransparency l = dlTransparency l1 /\ dlGroup l = dlGroup l1 /\ dlPath l = dlPath l1).
  { destruct (dlGroup l1) eqn:GR.
    - rewrite <- GR. exact (finish_keeps _ _ _ _ _ _ _ _ _ _ Q).
    - apply bindM_inv in Q. destruct Q as (im & st5 & _ & Q). destruct (pic_of (dpPal d) im); [|injection Q as <- _; now rewrite GR].
      pose proof (finish_keeps _ _ _ _ _ _ _ _ _ _ Q) as F. cbn [dl_image dlName dlAlpha dlBounds dlMode dlInvisible dlTransparency dlGroup dlPath] in F. rewrite GR in F. exact F. }
  destruct Z as (Z1 & _ & Z3 & Z4 & Z5 & Z6 & Z7 & Z8). unfold attrs_of. cbn [fst snd aX aY aMode aHidden aTransparency aGroup aPath].
  repeat split; try congruence. rewrite Z3. destruct (dlBounds l1) as [x0 y0 x1 y1]. cbn [minX minY maxX maxY] in *. f_equal; lia.
Qed.
Theorem C67_partial f p w h typ name props fuel f32op ptext d l st' :
  zlen f < 16777216 -> is_word w -> is_word h -> utf8 name -> good_props (dpMode d) props ->
  has f p (word w ++ word h ++ word typ ++ text name ++ props_bytes props) ->
  dpBase d = 0 -> 0 <= typ <= 1 ->
  readLayer fuel (newReader f) f32op ptext d (mkR p None) = Ret (l, st') ->
  exists a, all_mean (fun z => u8 (f32op z)) gimp_mode props plain a /\
    dlName l = name /\ dlBounds l = mkRect (aX a) (aY a) (aX a + w) (aY a + h) /\
    dlMode l = aMode a /\ dlInvisible l = aHidden a /\ dlTransparency l = aTransparency a /\
    dlGroup l = aGroup a /\ dlPath l = aPath a.
Proof.
  intros L W1 W2 U G E B T D. apply (layer_read f p w h typ name props fuel f32op ptext d l st' gimp_mode); auto; try lia.
  intros z Wz. rewrite B. cbn [Z.eqb negb]. now apply mode_id.
Qed.
Print Assumptions C67_partial.
(** The layers of grey and indexed images: everything but the mode has its meaning; the mode is
    Behind for the number 2 and Normal for every other one. *)
Theorem C67_other_types f p w h typ name props fuel f32op ptext d l st' :
  zlen f < 16777216 -> is_word w -> is_word h -> utf8 name -> good_props (dpMode d) props ->
  has f p (word w ++ word h ++ word typ ++ text name ++ props_bytes props) ->
  1 <= dpBase d <= 2 -> typ / 2 = dpBase d ->
  readLayer fuel (newReader f) f32op ptext d (mkR p None) = Ret (l, st') ->
  exists a, all_mean (fun z => u8 (f32op z)) (fun z => if z =? 2 then MBehind else MNormal) props plain a /\
    dlName l = name /\ dlBounds l = mkRect (aX a) (aY a) (aX a + w) (aY a + h) /\
    dlMode l = aMode a /\ dlInvisible l = aHidden a /\ dlTransparency l = aTransparency a /\
    dlGroup l = aGroup a /\ dlPath l = aPath a.
Proof.
  intros L W1 W2 U G E B T D. pose proof (Z.div_mod typ 2 ltac:(lia)). pose proof (Z.mod_pos_bound typ 2 ltac:(lia)).
  apply (layer_read f p w h typ name props fuel f32op ptext d l st'); auto; try lia.
  intros z Wz. now replace (dpBase d =? 0) with false by lia.
Qed.
Print Assumptions C67_other_types.

(** The mode of a layer of a greyscale image is lost: 3 is Multiply, the layer is Normal. *)
Definition grey_layer (mode : Z) : list Z :=
  word 1 ++ word 1 ++ word 2 ++ text [97] ++ props_bytes [(7, word mode)] ++ pointer 1 46 ++ pointer 1 0 ++
  word 1 ++ word 1 ++ word 1 ++ pointer 1 62 ++ word 1 ++ word 1 ++ pointer 1 78 ++ word 0 ++ [0; 10].
Definition grey_params : dparams := mkDP 1 true 1 None 1.
Lemma word3 z : is_word z -> word z = word 3 -> z = 3.
Proof.
  unfold word, is_word. intros W H. injection H as H1 H2 H3 H4.
  change (3 / 16777216) with 0 in H1. change (3 / 65536 mod 256) with 0 in H2. change (3 / 256 mod 256) with 0 in H3. change (3 mod 256) with 3 in H4.
  assert (z < 16777216) by (apply Z.div_small_iff in H1; lia).
  assert (z < 65536). { destruct (Z.ltb_spec z 65536); [auto|]. rewrite Z.mod_small in H2; [|split; [apply Z.div_pos; lia|apply Z.div_lt_upper_bound; lia]]. apply Z.div_small_iff in H2; lia. }
  assert (z < 256). { destruct (Z.ltb_spec z 256); [auto|]. rewrite Z.mod_small in H3; [|split; [apply Z.div_pos; lia|apply Z.div_lt_upper_bound; lia]]. apply Z.div_small_iff in H3; lia. }
  rewrite Z.mod_small in H4; lia.
Qed.
Theorem C67_refuted : ~ (forall f p w h typ name props fuel f32op ptext d l st',
  zlen f < 16777216 -> is_word w -> is_word h -> utf8 name -> good_props (dpMode d) props ->
  has f p (word w ++ word h ++ word typ ++ text name ++ props_bytes props) ->
  0 <= dpBase d <= 2 -> typ / 2 = dpBase d ->
  readLayer fuel (newReader f) f32op ptext d (mkR p None) = Ret (l, st') -> rErr st' = None ->
  exists a, all_mean (fun z => u8 (f32op z)) gimp_mode props plain a /\ dlMode l = aMode a).
Proof.
  intros C.
  assert (R : exists l st', readLayer 100 (newReader (grey_layer 3)) (fun z => z) no_text grey_params (mkR 0 None) = Ret (l, st') /\ rErr st' = None /\ dlMode l = MNormal).
  { eexists. eexists. split; [vm_compute; reflexivity|]. split; reflexivity. }
  destruct R as (l & st' & R & N & M).
  destruct (C (grey_layer 3) 0 1 1 2 [97] [(7, word 3)] 100%nat (fun z => z) no_text grey_params l st') as (a & A & E);
    [reflexivity|unfold is_word; lia|unfold is_word; lia|exact a_utf8| | |cbn; lia|reflexivity|exact R|exact N|].
  - constructor; [|constructor]. split; cbn; [|lia]. apply lp_word; [cbn; lia|unfold is_word; lia].
  - eexists [], _. split; [|reflexivity]. cbn [app]. rewrite <- !app_assoc. reflexivity.
  - cbn [all_mean fst snd] in A. destruct A as (b & A & ->). remember (word 3) as W eqn:EW. inversion A; subst.
    + match goal with W0 : is_word ?z |- _ => assert (z = 3) as -> by (apply word3; auto) end.
      cbn [aMode] in E. rewrite M in E. discriminate.
    + match goal with H : ~ In 7 _ |- _ => apply H; cbn; tauto end.
Qed.
Print Assumptions C67_refuted.
(** an RGB layer with several properties, some twice *)
Definition busy_layer : list Z :=
  word 1 ++ word 1 ++ word 0 ++ text [97] ++
  props_bytes [(7, word 3); (6, word 200); (8, word 0); (15, word 5 ++ word 4294967295); (30, word 4294967295 ++ word 2); (99, [1; 2]); (7, word 54)] ++
  pointer 1 0 ++ pointer 1 0.
Example C67_ex : exists l st', readLayer 200 (newReader busy_layer) (fun z => z) no_text (mkDP 1 true 0 None 1) (mkR 0 None) = Ret (l, st') /\
  dlBounds l = mkRect 5 (-1) 6 0 /\ dlMode l = MDarkenOnly /\ dlInvisible l = true /\ dlTransparency l = 55 /\ dlPath l = [-1; 2].
Proof. eexists. eexists. split; [vm_compute; reflexivity|]. repeat split. Qed.
