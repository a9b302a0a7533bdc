(** C80: a whole file is decoded to the layered image it describes. *)
From Coq Require Import ZifyBool ZifyNat.
Require Import Verif.Base Verif.L_List Verif.L_Word Verif.M_Color Verif.M_Composite Verif.M_Rect Verif.M_Image Verif.M_Reader Verif.L_Reader
  Verif.M_Rle Verif.S_Rle Verif.L_Rle Verif.L_Rle3 Verif.S_Compressed Verif.M_Compressed Verif.L_Compressed Verif.M_Groups Verif.M_Monad Verif.M_Decode Verif.M_Encode
  Verif.L_Encode Verif.S_String Verif.S_File Verif.S_Layout Verif.L_Pix Verif.L_Layout Verif.L_Grid Verif.L_String Verif.L_Run Verif.L_File Verif.L_Linked Verif.L_Trip Verif.L_Trip2
  Verif.S_Props Verif.S_Accept Verif.P_Props Verif.P_Paths Verif.P_Accept Verif.S_Kinds Verif.P_Kinds Verif.S_Meaning Verif.P_Meaning Verif.S_Whole.
Require Import Verif.L_Fuel.
Require Verif.P_Trip.
Require Verif.S_Groups Verif.L_Groups Verif.L_Groups2 Verif.P_Groups.

(** ** The meaning of properties is determined *)
Lemma word_inj a b : word a = word b -> a = b.
Proof.
  intros E. injection E as E1 E2 E3 E4.
  assert (D : forall z, z = 16777216 * (z / 16777216) + 65536 * ((z / 65536) mod 256) + 256 * ((z / 256) mod 256) + z mod 256).
  { intros z. pose proof (Z.div_mod z 256 ltac:(lia)). pose proof (Z.div_mod (z / 256) 256 ltac:(lia)). pose proof (Z.div_mod (z / 65536) 256 ltac:(lia)).
    rewrite Z.div_div in * by lia. change (256 * 256) with 65536 in *. change (65536 * 256) with 16777216 in *. lia. }
  rewrite (D a), (D b). congruence.
Qed.
Lemma words_inj a b : flat_map word a = flat_map word b -> a = b.
Proof.
  revert b. induction a as [|x a IH]; intros [|y b] E; try reflexivity; try discriminate.
  cbn [flat_map] in E. apply app_eq_len in E; [|reflexivity]. destruct E as [E1 E2]. f_equal; [now apply word_inj|now apply IH].
Qed.
Lemma word_app_inj a b x y : word a ++ x = word b ++ y -> a = b /\ x = y.
Proof. intros E. apply app_eq_len in E; [|reflexivity]. destruct E as [E ->]. split; [now apply word_inj|reflexivity]. Qed.
Lemma text_app_inj a b x y : text a ++ x = text b ++ y -> a = b /\ x = y.
Proof.
  unfold text. rewrite <- !app_assoc. intros E. apply word_app_inj in E as [L E]. apply app_eq_len in E; [|lia]. destruct E as [-> E]. split; [reflexivity|].
  cbn [app] in E. now injection E.
Qed.
Lemma parasites_inj a b : flat_map parasite_bytes a = flat_map parasite_bytes b -> a = b.
Proof.
  revert b. induction a as [|[[n f] d] a IH]; intros [|[[n' f'] d'] b] E; try reflexivity.
  1, 2: apply (f_equal (@length Z)) in E; cbn [flat_map parasite_bytes] in E; unfold text in E; rewrite ?app_length in E; cbn in E; lia.
  cbn [flat_map parasite_bytes] in E. rewrite <- !app_assoc in E. apply text_app_inj in E as [-> E]. apply word_app_inj in E as [-> E]. apply word_app_inj in E as [L E].
  apply app_eq_len in E; [|exact L]. destruct E as [-> E]. f_equal. now apply IH.
Qed.
Lemma means_det float mo typ l l' a b b' : means float mo typ l a b -> means float mo typ l' a b' -> l = l' -> b = b'.
Proof.
  intros M M' E. destruct M.
  9: { inversion M'; subst; try reflexivity; exfalso; cbn in *; tauto. }
  all: inversion M'; subst l'; try (exfalso; cbn in *; tauto);
    repeat match goal with
    | E : word _ = word _ |- _ => apply word_inj in E
    | E : word _ ++ _ = word _ ++ _ |- _ => apply word_app_inj in E; destruct E
    | E : flat_map word _ = flat_map word _ |- _ => apply words_inj in E
    | E : flat_map parasite_bytes _ = flat_map parasite_bytes _ |- _ => apply parasites_inj in E
    end; subst; try reflexivity.
  repeat match goal with b : bool |- _ => destruct b end; try reflexivity; discriminate.
Qed.
Lemma all_mean_det float mo props : forall a b b', all_mean float mo props a b -> all_mean float mo props a b' -> b = b'.
Proof.
  induction props as [|q props IH]; intros a b b' H H'; cbn [all_mean] in *; [congruence|].
  destruct H as (c & M & H), H' as (c' & M' & H'). rewrite (means_det _ _ _ _ _ _ _ _ M M' eq_refl) in H. eauto.
Qed.
Lemma triples_inj (a b : list (Z * Z * Z)) : flat_map (fun c => let '(r, g, b) := c in [r; g; b]) a = flat_map (fun c => let '(r, g, b) := c in [r; g; b]) b -> a = b.
Proof.
  revert b. induction a as [|[[r g] l] a IH]; intros [|[[r' g'] l'] b] E; try reflexivity; try discriminate.
  cbn [flat_map app] in E. injection E as -> -> -> E. f_equal. now apply IH.
Qed.

(** ** Image properties *)
Definition shown_state (x : istate) : imgprop_state := (option_map colour_map (fst x), snd x).
Lemma istep_means typ l a b st : imeans typ l a b -> istep typ l (shown_state a) st -> st = shown_state b.
Proof.
  intros M [(E & c & -> & ->)|[(E & cs & E2 & ->)|(N1 & N17 & ->)]].
  - inversion M; subst; try congruence. reflexivity.
  - remember l as l' eqn:EL in M. destruct M; try (exfalso; congruence). rewrite E2 in EL. clear E2. rename EL into E2. apply word_app_inj in E2 as [_ E2]. apply triples_inj in E2 as ->. reflexivity.
  - destruct M; try (exfalso; congruence). reflexivity.
Qed.

Section Whole.
Variable s : src.
Hypothesis Hlen : zlen (sFile s) < 16777216.
Hypothesis Hbytes : Forall is_u8 (sFile s).
Notation f := (sFile s).
Let Hlen1 : zlen (sFile s) <= 16777216. Proof. lia. Qed.

Lemma has_holds p l : has f p l -> holds s p l. Proof. exact (fun H => H). Qed.
Lemma ptr_range m p z : holds s p (pointer m z) -> 0 <= z < 18446744073709551616.
Proof.
  intros (a & b & E & _). rewrite E in Hbytes. apply Forall_app in Hbytes as [_ F]. apply Forall_app in F as [F _]. unfold pointer in F.
  destruct (m <? 2).
  - unfold word in F. inversion F as [|? ? U]; subst. unfold is_u8 in U. pose proof (div_bounds z 16777216 ltac:(lia)). lia.
  - unfold word in F. inversion F as [|? ? U]; subst. unfold is_u8 in U. rewrite Z.div_div in U by lia. change (4294967296 * 16777216) with 72057594037927936 in U.
    pose proof (div_bounds z 72057594037927936 ltac:(lia)). lia.
Qed.
Lemma runs_pointer m p z : holds s p (pointer m z) -> runs (rdPtr s m) p z (p + zlen (pointer m z)).
Proof. intros H. rewrite zlen_pointer. apply (runs_ptr s Hlen1 Hbytes); [exact H|now apply (ptr_range m p)]. Qed.

Lemma imgprops_read base fuel props : forall a b p t k, Forall (framed_image base) props -> all_imean props a b ->
  holds s p (records props ++ t) -> t <> [] -> (Z.to_nat (zlen f) < fuel)%nat ->
  whileM (length props + k) (imgprop_body fuel s base) (shown_state a) (mkR p None) =
  whileM k (imgprop_body fuel s base) (shown_state b) (mkR (p + zlen (records props)) None).
Proof.
  induction props as [|q props IH]; intros a b p t k Fr M H T Fu; cbn [all_imean] in M.
  - subst b. change (zlen (records [])) with 0. now rewrite Z.add_0_r.
  - destruct M as (c & M & M'). change (records (q :: props)) with (property (fst q) (snd q) ++ records props) in *.
    inversion Fr as [|? ? (P & C1 & C2 & C3) Fr']; subst. rewrite <- app_assoc in H.
    pose proof (holds_range _ _ _ H) as HR. rewrite zlen_app, zlen_property in HR. pose proof (zlen_pos (snd q)). pose proof (zlen_pos (records props ++ t)).
    destruct (property_step s Hlen1 base fuel (shown_state a) p (fst q) (snd q) (records props ++ t) P C1 C2 C3 H) as (st & R & J).
    { intros E. apply app_eq_nil in E. tauto. }
    { lia. }
    rewrite (istep_means _ _ _ _ _ M J) in R. apply holds_split in H as [_ H].
    cbn [length Nat.add whileM]. rewrite (bind_ret _ _ _ _ _ R), (IH c b _ t k Fr' M' H T Fu), zlen_app. do 2 f_equal. lia.
Qed.
Lemma imgprops_all base fuel props b p t : Forall (framed_image base) props -> all_imean props (None, 0) b ->
  holds s p (props_bytes props ++ t) -> (Z.to_nat (2 * zlen f) < fuel)%nat ->
  readImageProperties fuel s base (mkR p None) = Ret (inr (shown_state b), mkR (p + zlen (props_bytes props)) None).
Proof.
  intros Fr M H Fu. pose proof (holds_range _ _ _ H) as HR. unfold props_bytes in *. fold (records props) in *. rewrite <- app_assoc in H. rewrite !zlen_app in HR.
  pose proof (zlen_pos t). pose proof (zlen_records_le props). assert (zlen (property 0 []) = 8) by reflexivity.
  assert (FK : exists k, fuel = (length props + Datatypes.S k)%nat) by (exists (fuel - length props - 1)%nat; lia). destruct FK as [k FK].
  unfold readImageProperties. change (None, 0) with (shown_state (None, 0)).
  assert (FE : forall x, whileM fuel (imgprop_body fuel s base) x = whileM (length props + Datatypes.S k) (imgprop_body fuel s base) x) by congruence.
  rewrite FE, (imgprops_read base fuel props (None, 0) b p (property 0 [] ++ t) (Datatypes.S k) Fr M H); [|unfold property, word; discriminate|lia].
  apply holds_split in H as [_ H]. apply holds_split in H as [H _].
  assert (W0 : is_word 0) by (unfold is_word; lia).
  rewrite (while_end (imgprop_body fuel s base) k (shown_state b) _ (inr (shown_state b)) (p + zlen (records props) + 8)).
  - rewrite zlen_app. do 3 f_equal. lia.
  - unfold imgprop_body. destruct (shown_state b) as [pal comp].
    unfold runs.
    apply holds_split in H as [G1 H]. apply holds_split in H as [G2 _]. rewrite zlen_word in G2.
    rewrite (bind_ret _ _ _ _ _ (runs_word s _ _ G1 W0)), (bind_ret _ _ _ _ _ (runs_word s _ _ G2 W0)). change (zlen (@nil Z) =? 0) with true. unfold retM. cbv iota. do 3 f_equal. lia.
Qed.

(** ** Pixels *)
Variables (fuel : nat) (d : dparams).
Hypothesis HF : 4294967296 <= Z.of_nat fuel.
Hypothesis Hcomp : dpComp d = 1.

Lemma runs_pixels p w h mode nch px : pixel_data f (dpMode d) p w h nch px -> 0 <= w <= 4294967232 -> 0 <= h <= 4294967232 ->
  1 <= nch <= 4 -> mode <= 5 -> validBPP mode nch = true ->
  exists tiles, codes (mkGrid w h nch tiles) px /\ runsTo (readImage fuel s d w h mode) p (decoded d mode (mkGrid w h nch tiles) px).
Proof.
  intros (q & ptrs & tiles & H1 & H2 & LP & FT & TC & _) RW RH RC Mo VB. exists tiles.
  assert (LT : zlen ptrs = zlen tiles) by (clear - FT; unfold zlen; induction FT; cbn [length]; lia).
  split; [repeat split; cbn [gdW gdH gdChannels gdTiles]; try lia; auto|].
  assert (is_word w) by (unfold is_word; lia). assert (is_word h) by (unfold is_word; lia).
  assert (WN : is_word nch) by (unfold is_word; lia). assert (W0 : is_word 0) by (unfold is_word; lia).
  apply has_holds in H1. apply has_holds in H2. pose proof (holds_range _ _ _ H2) as R2. rewrite !zlen_app in R2.
  assert (PL : 4 * zlen ptrs <= zlen (flat_map (pointer (dpMode d)) ptrs)).
  { clear. induction ptrs as [|a l IH]; [reflexivity|]. cbn [flat_map]. rewrite zlen_app, zlen_cons, zlen_pointer. unfold pwidth. destruct (_ <? 2); lia. }
  rewrite !zlen_word in R2. pose proof (zlen_pos ptrs).
  apply holds_split in H1 as [A1 H1]. apply holds_split in H1 as [A2 H1]. apply holds_split in H1 as [A3 H1]. rewrite !zlen_word in *.
  apply holds_split in H2 as [B1 H2]. apply holds_split in H2 as [B2 H2]. apply holds_split in H2 as [B3 H2]. rewrite !zlen_word in *.
  unfold readImage.
  eapply runsTo_step; [apply runs_word; [exact A1|assumption]|]. eapply runsTo_step; [apply runs_word; [exact A2|assumption]|].
  rewrite !Z.eqb_refl. cbn [andb negb].
  eapply runsTo_step; [apply runs_word; [exact A3|assumption]|]. rewrite VB. cbn [negb].
  eapply runsTo_step; [apply runs_pointer; exact H1|].
  eapply runsTo_step; [apply runs_goto; lia|].
  eapply runsTo_step; [apply runs_word; [exact B1|assumption]|]. eapply runsTo_step; [apply runs_word; [exact B2|assumption]|].
  rewrite !Z.eqb_refl. cbn [andb negb].
  eapply runsTo_step.
  { unfold readTiles. change (ceil64 w * ceil64 h) with (tiles_across w * tiles_across h). rewrite <- LP. eapply runs_bind.
    - unfold allocM. replace (maxAlloc <? _) with false by (unfold maxAlloc; lia). apply runs_ret.
    - apply (runs_list s (rdPtr s (dpMode d)) (pointer (dpMode d)) (fun z => z)); [|apply length_nat|exact B3].
      intros b y Hy. now apply runs_pointer. }
  rewrite map_id. eapply runsTo_step; [apply runs_word; [exact H2|assumption]|]. cbn [Z.eqb negb].
  assert (Hp : forall i chs, znth tiles i = Some chs -> exists t, znth ptrs i = Some t /\ 0 <= t < 4294967296 /\ holds s t (concat chs)).
  { intros i chs N. destruct (znth_some ptrs i) as [t Nt]; [apply znth_range in N; lia|].
    exists t. split; [exact Nt|].
    assert (Ht : holds s t (concat chs)).
    { clear - FT N Nt. apply has_holds. unfold znth in *. destruct (i <? 0); [discriminate|].
      revert N Nt. generalize (Z.to_nat i) as k. induction FT as [|? ? ? ? X FT IH]; intros [|k] N Nt; cbn in *; try discriminate; [injection N as <-; injection Nt as <-; exact X|eauto]. }
    pose proof (holds_range _ _ _ Ht) as Rt. pose proof (zlen_pos (concat chs)). split; [lia|exact Ht]. }
  unfold decoded. cbn [gdW gdH gdChannels gdTiles]. rewrite Hcomp. 
  assert (L4 : zlen f < 4294967296) by lia.
  destruct (dpDecompress d); cbn [orb Z.eqb].
  - eapply (readAndDecompress_ok fuel s d); try eassumption; try lia. unfold maxAlloc. lia.
  - eapply (readCompressed_ok fuel s); try eassumption; try lia. unfold maxAlloc. lia.
Qed.

(** ** Masks *)
(** [m] at p ends in a way that satisfies Q *)
Definition outs {A} (m : M A) (p : Z) (Q : outcome (A * rst) -> Prop) : Prop := Q (m (mkR p None)).
Lemma outs_step {A B} (m : M A) (g : A -> M B) p a q Q : runs m p a q -> outs (g a) q Q -> outs (bindM m g) p Q.
Proof. unfold outs, runs, bindM. now intros ->. Qed.
Lemma outs_bind {A B} (m : M A) (g : A -> M B) p (P : A -> Prop) Q : runsTo m p P -> (forall a q, P a -> outs (g a) q Q) -> outs (bindM m g) p Q.
Proof. intros (a & q & R & H) K. eapply outs_step; eauto. Qed.
Lemma outs_runsTo {A} (m : M A) p (P : A -> Prop) : outs m p (fun o => exists a q, o = Ret (a, mkR q None) /\ P a) -> runsTo m p P.
Proof. auto. Qed.
Lemma channel_outs p w h m Q : mask_data f (dpMode d) p w h m -> 0 <= w <= 4294967232 -> 0 <= h <= 4294967232 ->
  (forall tiles r q, decoded d 2 (mkGrid w h 1 tiles) (fun _ => m) r ->
    outs (match r with
          | RNil => retM None
          | RDec _ _ _ px => retM (Some (mkGray (mkRect 0 0 w h) (fun x y => if pin x y (mkRect 0 0 w h) then bget (px x y) 0 else 0)))
          | RComp _ _ _ _ => panicM PAssert
          end) q Q) -> outs (readChannel fuel s d) p Q.
Proof.
  intros (name & props & hp & H & C & PD) RW RH K. apply has_holds in H. pose proof (holds_range _ _ _ H) as HR. unfold props_bytes in H, HR. fold (records props) in H, HR.
  rewrite <- app_assoc in H. rewrite !zlen_app, !zlen_word in HR. pose proof (zlen_records_le props). pose proof (zlen_pos (text name)). pose proof (zlen_pos (pointer (dpMode d) hp)).
  assert (zlen (property 0 []) = 8) by reflexivity.
  assert (FK : exists k, fuel = (length props + Datatypes.S k)%nat) by (exists (fuel - length props - 1)%nat; lia). destruct FK as [k FK].
  apply holds_split in H as [G1 H]. apply holds_split in H as [G2 H]. apply holds_split in H as [G3 H]. rewrite !zlen_word in *.
  unfold readChannel. eapply outs_step; [apply runs_word; [exact G1|unfold is_word; lia]|]. eapply outs_step; [apply runs_word; [exact G2|unfold is_word; lia]|].
  eapply outs_step; [apply (runs_sktext s Hlen1); exact G3|].
  eapply (outs_step _ _ _ tt (p + 4 + 4 + zlen (text name) + zlen (records props) + 8)).
  { unfold runs. rewrite chan_body_eq.
    assert (FE : whileM fuel (chan_body s) tt = whileM (length props + Datatypes.S k) (chan_body s) tt) by congruence. rewrite FE.
    rewrite (channel_records s Hlen1 props _ _ (Datatypes.S k) C H) by (unfold property, word; discriminate).
    apply holds_split in H as [_ H]. apply holds_split in H as [H _]. exact (while_end _ _ _ _ _ _ (chan_end s tt _ H)). }
  apply holds_split in H as [_ H]. apply holds_split in H as [_ H]. change (zlen (property 0 [])) with 8 in H.
  eapply outs_step; [apply runs_pointer; exact H|].
  destruct PD as (q & ptrs & tiles & HQ & PD). pose proof (holds_range _ _ _ (has_holds _ _ HQ)) as R1. rewrite !zlen_app, !zlen_word in R1. pose proof (zlen_pos (pointer (dpMode d) q)).
  eapply outs_step; [apply runs_goto; lia|].
  destruct (runs_pixels hp w h 2 1 (fun _ => m)) as (tiles' & CO & RI); try lia; [now exists q, ptrs, tiles|reflexivity|].
  eapply outs_bind; [exact RI|]. intros r q' D. exact (K _ _ _ D).
Qed.
Lemma runs_mask p w h m : dpDecompress d = true -> mask_data f (dpMode d) p w h m -> 0 <= w <= 4294967232 -> 0 <= h <= 4294967232 ->
  runsTo (readChannel fuel s d) p (fun r => exists g, r = Some g /\ grayBounds g = mkRect 0 0 w h /\
    forall x y, grayAt g x y = if (0 <=? x) && (x <? w) && (0 <=? y) && (y <? h) then m x y else 0).
Proof.
  intros HD MD RW RH. apply outs_runsTo. apply (channel_outs p w h m _ MD RW RH). intros tiles r q D. unfold decoded in D. rewrite HD in D. destruct D as (px & -> & P). cbn [gdW gdH gdChannels] in *.
  eexists. eexists. split; [reflexivity|].
  eexists. split; [reflexivity|]. cbn [grayBounds grayAt]. split; [reflexivity|]. intros x y. unfold pin. cbn [minX minY maxX maxY].
  destruct ((0 <=? x) && (x <? w) && (0 <=? y) && (y <? h)) eqn:B; [|reflexivity]. rewrite P by lia. reflexivity.
Qed.

(** ** Layers *)
Lemma par_get_said ptext ps o : text_said ptext (par_recs ps) o ->
  match o with
  | None => par_get ps textParasiteName = None
  | Some t => exists tp, par_get ps textParasiteName = Some tp /\ ptext (parData tp) = TOk t
  end.
Proof.
  intros T. unfold par_get. change textParasiteName with text_name. remember (par_recs ps) as R eqn:E. destruct T as [R T|a flags data b t T P]; subst R || (revert ps E).
  - induction ps as [|q ps IH]; [reflexivity|]. cbn [par_recs map] in T. inversion T as [|? ? N T']; subst. cbn [fst] in N. cbn [find].
    rewrite (L_Groups.key_eqb_neq _ _ N). now apply IH.
  - induction T as [|r a N T IH]; intros ps E; (destruct ps as [|q ps]; [discriminate E|]); cbn [par_recs map app] in E; cbn [find].
    + injection E as E11 E12 E13 E2. exists q. rewrite <- E11, L_Groups.key_eqb_refl, <- E13. auto.
    + injection E as E1 E2. subst r. cbn [fst] in N. rewrite (L_Groups.key_eqb_neq _ _ N). now apply IH.
Qed.

Variables (f32op : Z -> Z) (ptext : list Z -> tres) (mo : Z -> mode) (pal : list (Z * Z * Z)).
Hypothesis Mo : forall z, is_word z -> (if negb (dpBase d =? 0) then (if z =? 2 then MBehind else MNormal) else mode_of_id z) = mo z.
Hypothesis Hbase : 0 <= dpBase d <= 2.
Hypothesis Hpal : dpBase d = 2 -> dpPal d = Some (colour_map pal).
Hypothesis Hpal3 : Forall bytes3 pal.
Notation float := (fun z => u8 (f32op z)).

(** the text and the mask *)
Lemma runs_finish D l ps mp i p : dlImage l = Some i -> text_said ptext (par_recs ps) (ldText D) ->
  0 <= ldW D <= 4294967232 -> 0 <= ldH D <= 4294967232 ->
  match ldMask D with None => mp = 0 | Some m => mp <> 0 /\ mask_data f (dpMode d) mp (ldW D) (ldH D) m end ->
  (ldMask D <> None -> dpDecompress d = true /\ rEq (dlBounds l) (mkRect 0 0 (ldW D) (ldH D)) = true) ->
  runsTo (finishLayer fuel s ptext d l ps mp) p (fun l' => exists j, l' = dl_image l (Some j) /\
    masked D (match ldText D with Some t => IText i t | None => i end) j).
Proof.
  intros I T RW RH MD MO.
  assert (MK : forall l2 k q, dlImage l2 = Some k -> dlBounds l2 = dlBounds l ->
    runsTo (if negb (mp =? 0) then gotoM mp;;; readMask fuel s d l2 else retM l2) q (fun l' => exists j, l' = dl_image l2 (Some j) /\ masked D k j)).
  { intros l2 k q I2 B2. unfold masked. destruct (ldMask D) as [m|].
    - destruct MD as [NZ MD]. destruct (MO ltac:(discriminate)) as [HD HB]. replace (negb (mp =? 0)) with true by lia.
      pose proof MD as (name & props & hp & H & _). pose proof (holds_range _ _ _ (has_holds _ _ H)) as R. match type of R with context [zlen ?l] => pose proof (zlen_pos l) end.
      eapply runsTo_step; [apply runs_goto; lia|]. unfold readMask. eapply runsTo_bind; [exact (runs_mask mp _ _ m HD MD RW RH)|].
      intros r q' (g & -> & GB & GA). rewrite B2, GB, HB. cbn [negb]. apply runsTo_ret.
      rewrite I2. cbn [image_of]. exists (IMasked k g). split; [reflexivity|]. now exists g.
    - rewrite MD. cbn [Z.eqb negb]. apply runsTo_ret. exists k. split; [|reflexivity]. rewrite <- I2. now destruct l2. }
  unfold finishLayer. pose proof (par_get_said ptext ps _ T) as PG. destruct (ldText D) as [t|].
  - destruct PG as (tp & -> & ->). rewrite I. cbn [image_of].
    destruct (MK (dl_image l (Some (IText i t))) (IText i t) p eq_refl eq_refl) as (l' & q & R & j & E & J).
    exists l', q. split; [exact R|]. exists j. split; [exact E|exact J].
  - rewrite PG. exact (MK l i p I eq_refl).
Qed.

Lemma runs_finish_group D l ps mp p : text_said ptext (par_recs ps) None ->
  0 <= ldW D <= 4294967232 -> 0 <= ldH D <= 4294967232 ->
  match ldMask D with None => mp = 0 | Some m => mp <> 0 /\ mask_data f (dpMode d) mp (ldW D) (ldH D) m end ->
  (ldMask D <> None -> dpDecompress d = true /\ rEq (dlBounds l) (mkRect 0 0 (ldW D) (ldH D)) = true) ->
  runsTo (finishLayer fuel s ptext d l ps mp) p (fun l' => l' = l \/ exists j, l' = dl_image l j).
Proof.
  intros T RW RH MD MO. unfold finishLayer. rewrite (par_get_said ptext ps _ T). destruct (ldMask D) as [m|].
  - destruct MD as [NZ MD]. destruct (MO ltac:(discriminate)) as [HD HB]. replace (negb (mp =? 0)) with true by lia.
    pose proof MD as (name & props & hp & H & _). pose proof (holds_range _ _ _ (has_holds _ _ H)) as R. match type of R with context [zlen ?l] => pose proof (zlen_pos l) end.
    eapply runsTo_step; [apply runs_goto; lia|]. unfold readMask. eapply runsTo_bind; [exact (runs_mask mp _ _ m HD MD RW RH)|].
    intros r q' (g & -> & GB & GA). rewrite GB, HB. cbn [negb]. apply runsTo_ret. eauto.
  - rewrite MD. cbn [Z.eqb negb]. apply runsTo_ret. now left.
Qed.
Definition depicts (D : ldesc) (l : dlayer) : Prop :=
  let a := ldAttrs D in
  dlName l = ldName D /\ dlBounds l = mkRect (aX a) (aY a) (aX a + ldW D) (aY a + ldH D) /\ dlMode l = aMode a /\ dlInvisible l = aHidden a /\
  dlTransparency l = aTransparency a /\ dlAlpha l = Z.odd (ldType D) /\ dlGroup l = aGroup a /\ dlPath l = aPath a /\
  (aGroup a = false -> exists i j, dlImage l = Some j /\ pictured (dpDecompress d) pal D i /\ masked D i j).
(** what ReadLayer has before it comes to the text and the mask *)
Definition before (D : ldesc) (l : dlayer) : Prop :=
  let a := ldAttrs D in
  dlName l = ldName D /\ dlBounds l = mkRect (aX a) (aY a) (aX a + ldW D) (aY a + ldH D) /\ dlMode l = aMode a /\ dlInvisible l = aHidden a /\
  dlTransparency l = aTransparency a /\ dlAlpha l = Z.odd (ldType D) /\ dlGroup l = aGroup a /\ dlPath l = aPath a /\
  (aGroup a = false -> exists pc, dlImage l = Some (ILeaf pc) /\ picBounds pc = mkRect 0 0 (ldW D) (ldH D) /\ picModel pc = kind (ldType D) (colour_map pal) /\
    typed (ldType D) pal (ldW D) (ldH D) (ldPx D) (picAt pc) /\
    forall x y, shown_as (picAt pc x y)
      (if (0 <=? x) && (x <? ldW D) && (0 <=? y) && (y <? ldH D) then meant (ldType D) pal (fun k => ldPx D k x y)
       else outside (dpDecompress d) (ldType D) pal)).
Lemma layer_outs p D Q : layer_at float mo ptext f (dpMode d) (dpBase d) p D ->
  (forall l ps mp q, before D l -> text_said ptext (par_recs ps) (ldText D) -> (aGroup (ldAttrs D) = true -> ldText D = None) ->
    0 <= ldW D <= 4294967232 -> 0 <= ldH D <= 4294967232 ->
    match ldMask D with None => mp = 0 | Some m => mp <> 0 /\ mask_data f (dpMode d) mp (ldW D) (ldH D) m end ->
    outs (finishLayer fuel s ptext d l ps mp) q Q) ->
  outs (readLayer fuel s f32op ptext d) p Q.
Proof.
  intros (props & hp & mp & H & RW & RH & B & U & HP & G & A & T & PX & MD) K. apply has_holds in H.
  assert (FU : (Z.to_nat (2 * zlen f) < fuel)%nat) by lia.
  pose proof (holds_range _ _ _ H) as HR. unfold props_bytes in H, HR. fold (records props) in H, HR. rewrite !zlen_app, !zlen_word in HR.
  pose proof (zlen_records_le props). pose proof (zlen_pos (property 0 [])). pose proof (zlen_pos (text (ldName D))). pose proof (zlen_pos (pointer (dpMode d) hp)). pose proof (zlen_pos (pointer (dpMode d) mp)).
  assert (FK : exists k, fuel = (length props + Datatypes.S k)%nat) by (exists (fuel - length props - 1)%nat; lia). destruct FK as [k FK].
  rewrite <- app_assoc in H.
  apply holds_split in H as [G1 H]. apply holds_split in H as [G2 H]. apply holds_split in H as [G3 H]. apply holds_split in H as [G4 H]. rewrite !zlen_word in *.
  pose proof (Z.div_mod (ldType D) 2 ltac:(lia)) as DM. pose proof (Z.mod_pos_bound (ldType D) 2 ltac:(lia)) as DB.
  unfold readLayer.
  eapply outs_step; [apply runs_word; [exact G1|unfold is_word; lia]|]. eapply outs_step; [apply runs_word; [exact G2|unfold is_word; lia]|].
  eapply outs_step; [apply runs_word; [exact G3|unfold is_word; lia]|]. cbv zeta. rewrite B, Z.eqb_refl. cbn [negb].
  eapply outs_step; [apply (runs_text s Hlen1); [exact G4|exact U]|].
  set (l0 := mkDL (ldName D) (mkRect 0 0 (ldW D) (ldH D)) MNormal false 0 None (ldType D mod 2 =? 1) false []).
  destruct (layer_means s Hlen1 f32op d mo Mo fuel (dpMode d) props _ _ (l0, []) (Datatypes.S k) G H) as ([l1 ps1] & A' & (S1 & S2 & S3 & S4) & EW).
  { unfold property, word; discriminate. } { lia. }
  pose proof (all_mean_det _ _ _ _ _ _ A A') as EA. clear A A'.
  apply holds_split in H as [_ H]. apply holds_split in H as [HE H]. change (zlen (property 0 [])) with 8 in *.
  assert (FE : forall x, whileM fuel (lprop_body fuel s f32op d) x = whileM (length props + Datatypes.S k) (lprop_body fuel s f32op d) x) by congruence.
  eapply outs_step.
  { unfold runs, readProperties. fold l0. rewrite FE, EW. exact (while_end _ _ _ _ _ _ (lprop_end s Hlen1 f32op d fuel _ _ HE)). }
  cbv beta iota.
  apply holds_split in H as [G5 G6]. eapply outs_step; [apply runs_pointer; exact G5|]. eapply outs_step; [apply runs_pointer; exact G6|].
  cbn [fst snd dlName dlBounds dlAlpha l0] in S1, S2, S3, S4. unfold dx, dy in S3, S4. cbn [minX minY maxX maxY] in S3, S4.
  rewrite EA in *. unfold attrs_of in *. cbn [fst snd aX aY aMode aHidden aTransparency aGroup aPath aParasites] in *.
  assert (AL : dlAlpha l1 = Z.odd (ldType D)).
  { rewrite S2. rewrite <- Z.bit0_odd, <- Z.bit0_mod. now destruct (Z.testbit (ldType D) 0). }
  assert (BD : dlBounds l1 = mkRect (minX (dlBounds l1)) (minY (dlBounds l1)) (minX (dlBounds l1) + ldW D) (minY (dlBounds l1) + ldH D)).
  { destruct (dlBounds l1) as [x0 y0 x1 y1]. cbn [minX minY maxX maxY] in *. f_equal; lia. }
  assert (HG : runs (gotoM hp) (p + 4 + 4 + 4 + zlen (text (ldName D)) + zlen (records props) + 8 + zlen (pointer (dpMode d) hp) + zlen (pointer (dpMode d) mp)) tt hp).
  { unfold runs, gotoM, actM. rewrite goto_small by lia. reflexivity. }
  eapply outs_step; [exact HG|]. clear HG.
  destruct (dlGroup l1) eqn:GR.
  - apply K; auto. unfold before, attrs_of. rewrite EA. cbn [fst snd aX aY aMode aHidden aTransparency aGroup aPath aParasites]. repeat split; auto; discriminate.
  - assert (RT : 0 <= ldType D <= 5) by lia.
    assert (TC : 1 <= type_channels (ldType D) <= 4 /\ validBPP (ldType D) (type_channels (ldType D)) = true).
    { assert (C : ldType D = 0 \/ ldType D = 1 \/ ldType D = 2 \/ ldType D = 3 \/ ldType D = 4 \/ ldType D = 5) by lia.
      destruct C as [-> | [-> | [-> | [-> | [-> | ->]]]]]; split; try reflexivity; cbn; lia. }
    destruct TC as [TC VB].
    unfold dx, dy. rewrite S3, S4, !u32_small by lia. rewrite !Z.sub_0_r.
    destruct (runs_pixels hp (ldW D) (ldH D) (ldType D) _ (ldPx D) PX RW RH TC ltac:(lia) VB) as (tiles & CO & RI).
    eapply outs_bind; [exact RI|]. intros r q DR.
    destruct PX as (? & ? & ? & _ & _ & _ & _ & _ & BX).
    destruct (kinds_pic d _ (ldPx D) (ldType D) (dpPal d) pal r CO RT eq_refl ltac:(intros; apply Hpal; lia) Hpal3 BX DR) as (pc & -> & PB & PM & PT & PA).
    apply K; auto; [|discriminate]. unfold before, attrs_of. rewrite EA.
    cbn [fst snd aX aY aMode aHidden aTransparency aGroup aPath aParasites dl_image dlName dlBounds dlMode dlInvisible dlTransparency dlAlpha dlGroup dlPath dlImage].
    repeat split; auto. intros _. exists pc. auto 8.
Qed.
Lemma placed_eq D l : before D l -> 0 <= ldW D -> 0 <= ldH D -> rEq (dlBounds l) (mkRect 0 0 (ldW D) (ldH D)) = true <-> placed D.
Proof.
  intros (_ & -> & _) RW RH. unfold rEq, rect_eqb, rempty, placed. cbn [minX minY maxX maxY]. split; lia.
Qed.
Lemma runs_layer p D : layer_at float mo ptext f (dpMode d) (dpBase d) p D ->
  (ldMask D <> None -> dpDecompress d = true /\ placed D) ->
  runsTo (readLayer fuel s f32op ptext d) p (depicts D).
Proof.
  intros LA MO. apply outs_runsTo. apply (layer_outs p D _ LA). intros l ps mp q BF T TG RW RH MD.
  assert (MO' : ldMask D <> None -> dpDecompress d = true /\ rEq (dlBounds l) (mkRect 0 0 (ldW D) (ldH D)) = true).
  { intros N. destruct (MO N) as [M1 M2]. split; [exact M1|]. apply (placed_eq D l BF); [lia|lia|exact M2]. }
  destruct BF as (E1 & E2 & E3 & E4 & E5 & E6 & E7 & E8 & E9). destruct (aGroup (ldAttrs D)) eqn:GR.
  - rewrite (TG eq_refl) in T. destruct (runs_finish_group D l ps mp q T RW RH MD MO') as (l' & q' & R & E).
    exists l', q'. split; [exact R|]. unfold depicts. rewrite GR.
    destruct E as [-> | (j & ->)]; cbn [dl_image dlName dlBounds dlMode dlInvisible dlTransparency dlAlpha dlGroup dlPath dlImage]; repeat split; auto; discriminate.
  - destruct (E9 eq_refl) as (pc & EI & PB & PM & PT & PA).
    destruct (runs_finish D l ps mp (ILeaf pc) q EI T RW RH MD MO') as (l' & q' & R & j & -> & J).
    eexists. eexists. split; [exact R|]. unfold depicts. rewrite GR.
    cbn [dl_image dlName dlBounds dlMode dlInvisible dlTransparency dlAlpha dlGroup dlPath dlImage].
    repeat split; auto. intros _. eexists. eexists. split; [reflexivity|]. split; [|exact J]. exists pc. auto 8.
Qed.
(** a layer with a mask that is not taken *)
Lemma finish_mask D l ps mp q Q : text_said ptext (par_recs ps) (ldText D) -> 0 <= mp < 4294967296 -> mp <> 0 ->
  (forall l', dlBounds l' = dlBounds l -> outs (readMask fuel s d l') mp Q) ->
  outs (finishLayer fuel s ptext d l ps mp) q Q.
Proof.
  intros T M NZ K. unfold finishLayer. pose proof (par_get_said ptext ps _ T) as PG. replace (negb (mp =? 0)) with true by lia.
  destruct (ldText D) as [t|].
  - destruct PG as (tp & -> & ->). eapply outs_step; [apply runs_goto; lia|]. apply K. reflexivity.
  - rewrite PG. eapply outs_step; [apply runs_goto; lia|]. now apply K.
Qed.
Lemma layer_refused p D : layer_at float mo ptext f (dpMode d) (dpBase d) p D -> ldMask D <> None -> ~ (dpDecompress d = true /\ placed D) ->
  outs (readLayer fuel s f32op ptext d) p (fun o => (exists w, o = Panic w) \/ exists l q e, o = Ret (l, mkR q (Some e))).
Proof.
  intros LA MN NP. apply (layer_outs p D _ LA). intros l ps mp q BF T _ RW RH MD. destruct (ldMask D) as [m|] eqn:EM; [|easy]. destruct MD as [NZ MD].
  pose proof MD as (name & props & hp & H & _). pose proof (holds_range _ _ _ (has_holds _ _ H)) as R. match type of R with context [zlen ?l] => pose proof (zlen_pos l) end.
  apply (finish_mask D); auto; [lia|]. intros l' EB.
  unfold readMask. destruct (dpDecompress d) eqn:DD.
  - eapply outs_bind; [exact (runs_mask mp _ _ m DD MD RW RH)|]. intros r q' (g & -> & GB & _). rewrite EB, GB.
    destruct (rEq (dlBounds l) (mkRect 0 0 (ldW D) (ldH D))) eqn:RE.
    + destruct NP. split; [reflexivity|]. apply (placed_eq D l BF); [lia|lia|exact RE].
    + cbn [negb]. right. eexists. eexists. eexists. reflexivity.
  - left. unfold bindM. enough (Y : outs (readChannel fuel s d) mp (fun o => exists w, o = Panic w)) by (destruct Y as (w & ->); eauto).
    apply (channel_outs mp _ _ m _ MD RW RH). intros tiles r q' DC. unfold decoded in DC. rewrite DD in DC. subst r. now exists PAssert.
Qed.
End Whole.

(** ** The tree *)
Lemma df_ind (P : dforest -> Prop) : P DNil -> (forall r D F, P F -> P (DCons r (DLeaf D) F)) ->
  (forall r D k F, P k -> P F -> P (DCons r (DGroup D k) F)) -> forall F, P F.
Proof. intros A B C. fix IH 1. intros [|r [D|D k] F]; [exact A|apply B; apply IH|apply C; apply IH]. Qed.
Definition fits d pal (x : ldesc * bool * list Z) (l : dlayer) : Prop :=
  let '(D, g, path) := x in depicts d pal D l /\ aGroup (ldAttrs D) = g /\ aPath (ldAttrs D) = path.
Definition tree_attrs (l : dlayer) : S_Groups.attrs :=
  S_Groups.mkA (dlName l) (dlBounds l) (dlMode l) (dlInvisible l) (dlTransparency l) (dlImage l) (dlAlpha l).
Fixpoint same_tree d pal (F : dforest) (T : S_Groups.forest) : Prop :=
  match F with
  | DNil => T = S_Groups.FNil
  | DCons r (DLeaf D) F => exists l T', T = S_Groups.FCons r (S_Groups.NLeaf (tree_attrs l)) T' /\ depicts d pal D l /\ aGroup (ldAttrs D) = false /\ same_tree d pal F T'
  | DCons r (DGroup D k) F => exists l K T', T = S_Groups.FCons r (S_Groups.NGroup (tree_attrs l) K) T' /\ depicts d pal D l /\ same_tree d pal k K /\ same_tree d pal F T'
  end.
Lemma dl_of_attrs l g p : dlGroup l = g -> dlPath l = p -> L_Groups2.dl_of (tree_attrs l, g, p) = l.
Proof. intros <- <-. now destruct l. Qed.
Lemma build d pal F : forall bare p ls, Forall2 (fits d pal) (dorder bare p F) ls ->
  exists T, same_tree d pal F T /\ map L_Groups2.dl_of (S_Groups.file_order bare p T) = ls.
Proof.
  induction F as [|r D F IH|r D k F IHk IH] using df_ind; intros bare p ls H; cbn [dorder] in H.
  - inversion H; subst. exists S_Groups.FNil. now split.
  - cbn [app] in H. inversion H as [|y l y' ls' HQ H' Q1 Q2]; subst y y' ls. destruct HQ as (DP & G & P). destruct (IH _ _ _ H') as (T & ST & E).
    exists (S_Groups.FCons r (S_Groups.NLeaf (tree_attrs l)) T). split; [cbn [same_tree]; eauto 8|].
    cbn [S_Groups.file_order app map]. rewrite E. f_equal. apply dl_of_attrs; unfold depicts in DP; intuition congruence.
  - rewrite <- app_comm_cons in H. inversion H as [|y l y' ls' HQ H' Q1 Q2]; subst y y' ls. destruct HQ as (DP & G & P). apply Forall2_app_inv_l in H' as (l1 & l2 & H1 & H2 & ->).
    destruct (IHk _ _ _ H1) as (K & SK & EK). destruct (IH _ _ _ H2) as (T & ST & E).
    exists (S_Groups.FCons r (S_Groups.NGroup (tree_attrs l) K) T). split; [cbn [same_tree]; eauto 8|].
    cbn [S_Groups.file_order app map]. rewrite <- E, <- EK, map_app. cbn [map app]. f_equal. apply dl_of_attrs; unfold depicts in DP; intuition congruence.
Qed.
Lemma same_labels d pal F : forall T, same_tree d pal F T -> S_Groups.labels T = dlabels F.
Proof.
  induction F as [|r D F IH|r D k F IHk IH] using df_ind; intros T H; cbn [same_tree] in H.
  - now subst T.
  - destruct H as (l & T' & -> & _ & _ & H). cbn. f_equal. auto.
  - destruct H as (l & K & T' & -> & _ & _ & H). cbn. f_equal. auto.
Qed.
Lemma same_labelled d pal F : forall T, same_tree d pal F T -> dlabelled F -> S_Groups.well_labelled T.
Proof.
  induction F as [|r D F IH|r D k F IHk IH] using df_ind; intros T H L; cbn [same_tree dlabelled] in H, L.
  - now subst T.
  - destruct H as (l & T' & -> & _ & _ & H). destruct L as (L1 & L2 & _ & L4). cbn. rewrite (same_labels _ _ _ _ H). auto.
  - destruct H as (l & K & T' & -> & _ & HK & H). destruct L as (L1 & L2 & L3 & L4). cbn. rewrite (same_labels _ _ _ _ H). auto.
Qed.
Lemma same_numbered d pal F : forall n T, same_tree d pal F T -> dnumbered n F -> S_Groups.numbered n T.
Proof.
  induction F as [|r D F IH|r D k F IHk IH] using df_ind; intros n T H L; cbn [same_tree dnumbered] in H, L.
  - now subst T.
  - destruct H as (l & T' & -> & _ & _ & H). cbn. split; [tauto|]. apply IH; tauto.
  - destruct H as (l & K & T' & -> & _ & _ & H). cbn. split; [tauto|]. apply IH; tauto.
Qed.
Lemma same_described d pal canvas F : forall ox oy T, same_tree d pal F T ->
  described (dpDecompress d) pal canvas ox oy (unmasked F) (S_Groups.tree_layers canvas ox oy T).
Proof.
  induction F as [|r D F IH|r D k F IHk IH] using df_ind; intros ox oy T H; cbn [same_tree unmasked] in H |- *.
  - now subst T.
  - destruct H as (l & T' & -> & DP & G & H). destruct DP as (E1 & E2 & E3 & E4 & E5 & E6 & E7 & E8 & E9). destruct (E9 G) as (i & j & EI & PI & MI).
    cbn [described S_Groups.tree_layers tree_attrs S_Groups.aImage S_Groups.aName S_Groups.aBounds S_Groups.aMode S_Groups.aInvisible S_Groups.aTransparency]. rewrite EI.
    eexists. eexists. split; [reflexivity|]. cbv zeta. cbn [lName lBounds lMode lInvisible lTransparency lImage]. rewrite E1, E2, E3, E4, E5.
    repeat split; auto. exists i. auto.
  - destruct H as (l & K & T' & -> & DP & HK & H). destruct DP as (E1 & E2 & E3 & E4 & E5 & E6 & E7 & E8 & E9).
    cbn [described S_Groups.tree_layers tree_attrs S_Groups.aImage S_Groups.aName S_Groups.aBounds S_Groups.aMode S_Groups.aInvisible S_Groups.aTransparency].
    eexists. eexists. split; [reflexivity|]. cbv zeta. cbn [lName lBounds lMode lInvisible lTransparency lImage no_mask ldName ldAttrs ldW ldH]. rewrite E1, E2, E3, E4, E5. cbn [minX minY].
    repeat split; auto. eexists. split; [apply IHk; exact HK|]. reflexivity.
Qed.
Lemma masks_in dec F : forall bare p x, masks_taken dec F -> In x (dorder bare p F) ->
  let D := fst (fst x) in ldMask D <> None -> dec = true /\ placed D.
Proof.
  induction F as [|r D F IH|r D k F IHk IH] using df_ind; intros bare p x MO I; cbn [dorder masks_taken] in I, MO.
  - easy.
  - cbn [app] in I. destruct I as [<-|I]; [cbn; tauto|]. eapply IH; [tauto|exact I].
  - rewrite <- app_comm_cons in I. destruct I as [<-|I]; [cbn; tauto|]. apply in_app_or in I as [I|I]; [eapply IHk|eapply IH]; try exact I; tauto.
Qed.
Lemma taken_dec dec D : (ldMask D <> None -> dec = true /\ placed D) \/ (ldMask D <> None /\ ~ (dec = true /\ placed D)).
Proof.
  destruct (ldMask D); [|now left]. destruct dec; [|right; split; [discriminate|now intros []]].
  unfold placed. assert (C : ((aX (ldAttrs D) = 0 /\ aY (ldAttrs D) = 0) \/ ldW D = 0 \/ ldH D = 0) \/ ~ ((aX (ldAttrs D) = 0 /\ aY (ldAttrs D) = 0) \/ ldW D = 0 \/ ldH D = 0)) by lia.
  destruct C as [C|C]; [left; auto|right; split; [discriminate|tauto]].
Qed.
Lemma masks_out dec F : forall bare p, masks_taken dec F \/
  exists x, In x (dorder bare p F) /\ ldMask (fst (fst x)) <> None /\ ~ (dec = true /\ placed (fst (fst x))).
Proof.
  induction F as [|r D F IH|r D k F IHk IH] using df_ind; intros bare p; cbn [dorder masks_taken].
  - now left.
  - cbn [app]. destruct (taken_dec dec D) as [T|T]; [|right; eexists; split; [now left|exact T]].
    destruct (IH bare p) as [T'|(x & I & X)]; [now left|]. right. exists x. split; [now right|exact X].
  - rewrite <- app_comm_cons. destruct (taken_dec dec D) as [T|T]; [|right; eexists; split; [now left|exact T]].
    destruct (IH bare p) as [T'|(x & I & X)]; [|right; exists x; split; [right; apply in_or_app; now right|exact X]].
    destruct (IHk false (p ++ [r])) as [T''|(x & I & X)]; [now left|right; exists x; split; [right; apply in_or_app; now left|exact X]].
Qed.
Lemma ok_taken dec F : masks_ok dec F -> masks_taken dec F /\ unmasked F = F.
Proof.
  induction F as [|r D F IH|r D k F IHk IH] using df_ind; cbn [masks_ok masks_taken unmasked].
  - auto.
  - intros [A B]. destruct (IH B) as [C ->]. auto.
  - intros [[A A'] B]. destruct (IH B) as [C ->], (IHk A') as [C' ->]. split; [split; [split; [congruence|exact C']|exact C]|].
    destruct D; cbn in *; subst; reflexivity.
Qed.

(** ** Files *)
Lemma layers_read s (Hlen : zlen (sFile s) < 16777216) (Hb : Forall is_u8 (sFile s)) fuel d f32op ptext mo pal :
  4294967296 <= Z.of_nat fuel -> dpComp d = 1 ->
  (forall z, is_word z -> (if negb (dpBase d =? 0) then (if z =? 2 then MBehind else MNormal) else mode_of_id z) = mo z) ->
  0 <= dpBase d <= 2 -> (dpBase d = 2 -> dpPal d = Some (colour_map pal)) -> Forall bytes3 pal ->
  forall xs lps, Forall2 (fun p x => let '(D, g, path) := x in
      layer_at (fun z => u8 (f32op z)) mo ptext (sFile s) (dpMode d) (dpBase d) p D /\ aGroup (ldAttrs D) = g /\ aPath (ldAttrs D) = path) lps xs ->
  (forall x, In x xs -> let D := fst (fst x) in ldMask D <> None -> dpDecompress d = true /\ placed D) ->
  exists ls, mapO (readLayerAt fuel s f32op ptext d) lps = Ret (map (fun l => (l, None)) ls) /\ Forall2 (fits d pal) xs ls.
Proof.
  intros HF HC Mo HB HP HP3 xs lps H. induction H as [|p [[D g] path] lps xs (LA & G & P) H IH]; intros MO.
  - exists []. split; [reflexivity|constructor].
  - destruct IH as (ls & E & FT). { intros x I. apply MO. now right. }
    pose proof LA as (? & ? & ? & Hp & _). pose proof (holds_range s _ _ Hp) as R. match type of R with context [zlen (?a ++ ?b)] => pose proof (zlen_pos (a ++ b)) end.
    destruct (runs_layer s Hlen Hb fuel d HF HC f32op ptext mo pal Mo HB HP HP3 p D LA) as (l & q & RL & DP).
    { exact (MO (D, g, path) (or_introl eq_refl)). }
    exists (l :: ls). split; [|constructor; [now split|exact FT]].
    cbn [mapO map]. unfold readLayerAt at 1. rewrite (bind_ret _ _ _ _ _ (runs_goto 0 p ltac:(lia))). unfold runs in RL. rewrite RL. cbn [obindO rErr] || idtac.
    rewrite E. reflexivity.
Qed.
Lemma forall2_in_l {A B} (R : A -> B -> Prop) l l' a : Forall2 R l l' -> In a l -> exists b, R a b.
Proof. induction 1 as [|x y l l' H _ IH]; [easy|]. intros [<-|I]; eauto. Qed.
Lemma first_err_clean (ls : list dlayer) : first_err (map (fun l => (l, @None err)) ls) = None.
Proof. induction ls; auto. Qed.
Lemma forall2_nth {A B} (R : A -> B -> Prop) l l' i b : Forall2 R l l' -> nth_error l' i = Some b -> exists a, nth_error l i = Some a /\ R a b.
Proof. intros H. revert i. induction H as [|x y l l' H _ IH]; intros [|i]; try discriminate; cbn; [intros [= <-]; eauto|auto]. Qed.
Lemma forall2_len {A B} (R : A -> B -> Prop) l l' : Forall2 R l l' -> length l = length l'.
Proof. induction 1; cbn; congruence. Qed.

Lemma forall2_in_r {A B} (R : A -> B -> Prop) l l' b : Forall2 R l l' -> In b l' -> exists a, In a l /\ R a b.
Proof. induction 1 as [|x y l l' H _ IH]; [easy|]. intros [<-|I]; [exists x; split; [now left|exact H]|]. destruct (IH I) as (a & J & X). exists a. split; [now right|exact X]. Qed.

(** as far as the layers *)
Lemma opened f n w h base pal F fuel f32op ptext dec :
  file_of (fun z => u8 (f32op z)) (modes_read base) ptext f n w h base pal F -> 4294967296 <= Z.of_nat fuel ->
  let s := newReader f in
  exists opal lps bare, let d := mkDP 1 dec base (option_map colour_map opal) (pointer_kind n) in
    sFile s = f /\ (base = 2 -> opal = Some pal) /\ Forall bytes3 pal /\
    Forall2 (fun p x => let '(D, g, path) := x in
      layer_at (fun z => u8 (f32op z)) (modes_read base) ptext (sFile s) (dpMode d) (dpBase d) p D /\ aGroup (ldAttrs D) = g /\ aPath (ldAttrs D) = path) lps (dorder bare [] F) /\
    (bare = true -> dnumbered 0 F) /\
    (forall i x, nth_error (dorder bare [] F) i = Some x -> (S i < length (dorder bare [] F))%nat -> Z.odd (ldType (fst (fst x))) = true) /\
    decodeImage fuel f f32op ptext dec =
      (les <-! mapO (readLayerAt fuel s f32op ptext d) lps;;
       match first_err les with
       | Some e => Ret (inl e)
       | None => match makeGroups (map fst les) (image_Rect 0 0 w h) with
                 | inl e => Ret (inl e)
                 | inr (os, m) => Ret (inr (makeImage os (map_order m)))
                 end
       end).
Proof.
  intros [Hb L N W1 W2 HB (prec & props & opal & lps & t & bare & W4 & E & Fr & IM & OP & P3 & Fp & LS & NU & AL) LB] HF.
  pose proof (newReader_small f L) as SF. cbv zeta. unfold decodeImage. set (s := newReader f) in *.
  assert (HL : zlen (sFile s) <= 16777216) by (rewrite SF; lia). assert (HL' : zlen (sFile s) < 16777216) by (rewrite SF; lia). assert (HB' : Forall is_u8 (sFile s)) by (rewrite SF; exact Hb).
  assert (H : holds s 0 (image_start n w h base prec ++ props_bytes props ++ flat_map (pointer (pointer_kind n)) lps ++ pointer (pointer_kind n) 0 ++ t)).
  { exists [], []. rewrite SF. cbn [app]. rewrite app_nil_r. auto. }
  assert (W3 : is_word base) by (unfold is_word; lia).
  rewrite (runs_start s fuel f32op ptext dec n w h base prec _ N W1 W2 W3 W4 H).
  assert (ZF : zlen f = zlen (image_start n w h base prec) + (zlen (props_bytes props) + (zlen (flat_map (pointer (pointer_kind n)) lps) + (zlen (pointer (pointer_kind n) 0) + zlen t)))).
  { rewrite E at 1. now rewrite !zlen_app. }
  pose proof (zlen_pos (image_start n w h base prec)). pose proof (zlen_pos (flat_map (pointer (pointer_kind n)) lps)). pose proof (zlen_pos (pointer (pointer_kind n) 0)). pose proof (zlen_pos t).
  pose proof (zlen_pos (props_bytes props)).
  apply holds_split in H as [_ H]. rewrite Z.add_0_l in H.
  rewrite (imgprops_all s HL' base fuel props (opal, 1) _ _ Fr IM H) by (rewrite SF; lia).
  apply holds_split in H as [_ H]. unfold shown_state. cbn [fst snd].
  assert (LP : (length lps < fuel)%nat).
  { enough (Z.of_nat (length lps) <= zlen (flat_map (pointer (pointer_kind n)) lps)) by lia. clear.
    induction lps as [|a ps IH]; cbn [length flat_map]; [change (zlen (@nil Z)) with 0; lia|]. rewrite zlen_app, zlen_pointer. unfold pwidth. destruct (_ <? 2); lia. }
  assert (Fp' : Forall (fun z => 0 < z < 9223372036854775808) lps).
  { rewrite Forall_forall in *. intros z I. specialize (Fp z I). cbv beta in Fp. split; [exact Fp|].
    destruct (forall2_in_l _ _ _ z LS I) as ([[D g] path] & LA & _). destruct LA as (? & ? & ? & Hp & _). rewrite <- SF in Hp. pose proof (holds_range s _ _ Hp) as R. rewrite SF in R.
    match type of R with context [zlen (?a ++ ?b)] => pose proof (zlen_pos (a ++ b)) end. lia. }
  unfold readLayerPointers. rewrite (runs_pointers s HL HB' (pointer_kind n) fuel lps [] _ t LP Fp' H). cbn [rErr app].
  exists opal, lps, bare. cbv zeta. cbn [dpMode dpBase]. rewrite SF. repeat split; auto.
Qed.
Lemma read_modes base (H : 0 <= base <= 2) : forall z, is_word z -> (if negb (base =? 0) then (if z =? 2 then MBehind else MNormal) else mode_of_id z) = modes_read base z.
Proof. intros z Z. unfold modes_read. destruct (base =? 0); cbn [negb]; [now apply P_Meaning.mode_id|reflexivity]. Qed.
(** A file whose masks are taken is decoded to what it describes but the masks of its groups ... *)
Theorem C80_masks f n w h base pal F fuel f32op ptext dec :
  file_of (fun z => u8 (f32op z)) (modes_read base) ptext f n w h base pal F -> masks_taken dec F -> 4294967296 <= Z.of_nat fuel ->
  exists ls, described dec pal (mkRect 0 0 w h) 0 0 (unmasked F) ls /\
    decodeImage fuel f f32op ptext dec = Ret (inr (S_Groups.bottom_normal ls)).
Proof.
  intros FO MO HF. destruct (opened f n w h base pal F fuel f32op ptext dec FO HF) as (opal & lps & bare & SF & OP & P3 & LS & NU & AL & ED).
  destruct FO as [Hb L N W1 W2 HB _ LB]. rewrite ED. clear ED. set (s := newReader f) in *. set (d := mkDP 1 dec base (option_map colour_map opal) (pointer_kind n)) in *.
  assert (HL' : zlen (sFile s) < 16777216) by (rewrite SF; lia). assert (HB' : Forall is_u8 (sFile s)) by (rewrite SF; exact Hb).
  destruct (layers_read s HL' HB' fuel d f32op ptext (modes_read base) pal) with (xs := dorder bare [] F) (lps := lps) as (ls & ML & FT); auto.
  { exact (read_modes base HB). }
  { intros Q. cbn in Q |- *. now rewrite (OP Q). }
  { intros x I. exact (masks_in dec F bare [] x MO I). }
  rewrite ML. cbn [bindO]. rewrite first_err_clean, map_map, map_id.
  destruct (build d pal F bare [] ls FT) as (T & ST & EL).
  destruct (P_Groups.C47_rebuilds_tree (image_Rect 0 0 w h) bare T) as (os & m & MG & MI).
  { exact (same_labelled _ _ _ _ ST LB). }
  { intros Q. exact (same_numbered _ _ _ _ _ ST (NU Q)). }
  { intros i [[a g] p] HN HI. assert (X : nth_error ls i = Some (L_Groups2.dl_of (a, g, p))) by (rewrite <- EL, nth_error_map, HN; reflexivity).
    destruct (forall2_nth _ _ _ _ _ FT X) as ([[D g'] p'] & HD & DP & _ & _).
    assert (LN : length (S_Groups.file_order bare [] T) = length ls) by now rewrite <- EL, map_length.
    specialize (AL i _ HD ltac:(rewrite (forall2_len _ _ _ FT); lia)). cbn [fst snd] in AL. destruct DP as (_ & _ & _ & _ & _ & A & _). cbn [L_Groups2.dl_of dlAlpha fst snd] in *. congruence. }
  rewrite EL in MG. rewrite MG, MI by (apply Permutation.Permutation_sym, Permutation.Permutation_rev).
  assert (ER : image_Rect 0 0 w h = mkRect 0 0 w h).
  { unfold is_word in *. unfold image_Rect. f_equal; lia. }
  rewrite ER. eexists. split; [|reflexivity]. exact (same_described d pal (mkRect 0 0 w h) F 0 0 T ST).
Qed.
Print Assumptions C80_masks.
(** ... and no other file is decoded. *)
Theorem C80_untaken f n w h base pal F fuel f32op ptext dec ls :
  file_of (fun z => u8 (f32op z)) (modes_read base) ptext f n w h base pal F -> ~ masks_taken dec F ->
  decodeImage fuel f f32op ptext dec <> Ret (inr ls).
Proof.
  intros FO NT D. destruct (big_fuel fuel 4294967296) as (K & K1 & K2).
  destruct (le_decodeImage fuel K f f32op ptext dec K1) as [Q|Q]; rewrite D in Q; [discriminate|]. symmetry in Q. clear D.
  destruct (opened f n w h base pal F K f32op ptext dec FO) as (opal & lps & bare & SF & OP & P3 & LS & NU & AL & ED); [lia|].
  destruct FO as [Hb L N W1 W2 HB _ LB]. rewrite ED in Q. clear ED. set (s := newReader f) in *. set (d := mkDP 1 dec base (option_map colour_map opal) (pointer_kind n)) in *.
  assert (HL' : zlen (sFile s) < 16777216) by (rewrite SF; lia). assert (HB' : Forall is_u8 (sFile s)) by (rewrite SF; exact Hb).
  destruct (masks_out dec F bare []) as [T|(x & I & MN & NP)]; [easy|].
  destruct (forall2_in_r _ _ _ _ LS I) as (p & Ip & R). destruct x as [[D g] path]. cbn [fst snd] in *. destruct R as (LA & _ & _).
  pose proof LA as (? & ? & ? & Hp & _). pose proof (holds_range s _ _ Hp) as R. match type of R with context [zlen (?a ++ ?b)] => pose proof (zlen_pos (a ++ b)) end.
  destruct (mapO _ lps) as [les| |] eqn:ML; [|discriminate|discriminate].
  destruct (mapO_in _ _ _ _ ML Ip) as ([ly oe] & RL & IL). cbn [bindO] in Q.
  destruct (first_err les) as [e|] eqn:FE; [discriminate|]. pose proof (first_err_none _ _ FE IL) as SE. cbn [snd] in SE. subst oe.
  unfold readLayerAt in RL. rewrite (bind_ret _ _ _ _ _ (runs_goto 0 p ltac:(lia))) in RL.
  destruct (layer_refused s HL' HB' K d ltac:(lia) eq_refl f32op ptext (modes_read base) pal (read_modes base HB)) with (p := p) (D := D) as [(wh & E)|(l & q & e & E)]; auto.
  { intros E. cbn [dpBase dpPal d] in *. now rewrite (OP E). }
  - rewrite E in RL. discriminate.
  - rewrite E in RL. discriminate.
Qed.
Print Assumptions C80_untaken.
Theorem C80_partial f n w h base pal F fuel f32op ptext dec :
  file_of (fun z => u8 (f32op z)) (modes_read base) ptext f n w h base pal F -> masks_ok dec F -> 4294967296 <= Z.of_nat fuel ->
  exists ls, described dec pal (mkRect 0 0 w h) 0 0 F ls /\
    decodeImage fuel f f32op ptext dec = Ret (inr (S_Groups.bottom_normal ls)).
Proof. intros FO MO HF. destruct (ok_taken _ _ MO) as [T E]. pose proof (C80_masks f n w h base pal F fuel f32op ptext dec FO T HF) as X. rewrite E in X. exact X. Qed.
Print Assumptions C80_partial.

(** A file: a grey image 2 by 1 with a group "g" and in it a half transparent layer "a"; [gm] and
    [cm] point to their masks, [ox] is where the layer is. *)
Definition small (gm cm ox : Z) : list Z :=
  image_start 0 2 1 1 0 ++ props_bytes [(17, [1])] ++ (word 55 ++ word 109) ++ word 0 ++
  (word 2 ++ word 1 ++ word 3 ++ text [103] ++ props_bytes [(29, []); (30, word 0)] ++ word 0 ++ word gm) ++
  (word 2 ++ word 1 ++ word 2 ++ text [97] ++ props_bytes [(30, word 0 ++ word 0); (6, word 128); (15, word ox ++ word 0)] ++ word 187 ++ word cm) ++
  (word 2 ++ word 1 ++ word 1 ++ word 203) ++ (word 2 ++ word 1 ++ word 219 ++ word 0) ++ [254; 7; 9] ++
  (word 2 ++ word 1 ++ text [109] ++ props_bytes [] ++ word 187).
Definition small_px (k x y : Z) : Z := if x =? 0 then 7 else 9.
Definition small_mask (z : Z) : option (Z -> Z -> Z) := if z =? 0 then None else Some (small_px 0).
Definition small_tree (gm cm ox : Z) : dforest :=
  DCons 0 (DGroup (mkLD [103] 2 1 3 (mkAttrs 0 0 MNormal false 0 true [0] []) small_px (small_mask gm) None)
    (DCons 0 (DLeaf (mkLD [97] 2 1 2 (mkAttrs (signed ox) 0 MNormal false 127 false [0; 0] []) small_px (small_mask cm) None)) DNil)) DNil.
Lemma small_pixels gm cm ox : pixel_data (small gm cm ox) 0 187 2 1 1 small_px.
Proof.
  exists 203, [219], [[[254; 7; 9]]].
  split; [exists (firstn 187 (small gm cm ox)), (skipn 203 (small gm cm ox)); split; reflexivity|].
  split; [exists (firstn 203 (small gm cm ox)), (skipn 219 (small gm cm ox)); split; reflexivity|].
  split; [reflexivity|]. split.
  { constructor; [|constructor]. exists (firstn 219 (small gm cm ox)), (skipn 222 (small gm cm ox)); split; reflexivity. }
  split.
  - intros i j Hi Hj. change (tiles_across 2) with 1 in *. change (tiles_across 1) with 1 in *. assert (i = 0) as -> by lia. assert (j = 0) as -> by lia.
    exists [[254; 7; 9]]. split; [reflexivity|]. split; [reflexivity|]. intros k Hk. assert (k = 0) as -> by lia.
    exists [254; 7; 9], [7; 9]. split; [reflexivity|].
    split; [change (tight (254 :: [7; 9] ++ []) ([7; 9] ++ [])); apply ti_short_lit; [lia|reflexivity|constructor]|].
    split; [reflexivity|]. change (tile_side 2 0) with 2. change (tile_side 1 0) with 1. intros u v U V. assert (v = 0) as -> by lia.
    assert (C : u = 0 \/ u = 1) by lia. destruct C as [-> | ->]; reflexivity.
  - intros. unfold small_px, is_u8. destruct (_ =? _); lia.
Qed.
Lemma small_masked gm cm ox z : z = 0 \/ z = 222 ->
  match small_mask z with None => z = 0 | Some m => z <> 0 /\ mask_data (small gm cm ox) 0 z 2 1 m end.
Proof.
  intros [-> | ->]; [reflexivity|]. split; [lia|]. exists [109], [], 187.
  split; [exists (firstn 222 (small gm cm ox)), []; split; reflexivity|]. split; [constructor|]. exact (small_pixels gm cm ox).
Qed.
Lemma small_u8 gm cm ox : (gm = 0 \/ gm = 222) -> (cm = 0 \/ cm = 222) -> (ox = 0 \/ ox = 1) -> Forall is_u8 (small gm cm ox).
Proof. intros [-> | ->] [-> | ->] [-> | ->]; apply u8_list; reflexivity. Qed.
Lemma small_file mo gm cm ox : (gm = 0 \/ gm = 222) -> (cm = 0 \/ cm = 222) -> (ox = 0 \/ ox = 1) ->
  file_of (fun z => u8 z) mo no_text (small gm cm ox) 0 2 1 1 [] (small_tree gm cm ox).
Proof.
  intros G C O. constructor; try (unfold is_word; lia); [now apply small_u8|reflexivity| |].
  - exists 0, [(17, [1])], None, [55; 109], (zdrop 55 (small gm cm ox)), false.
    split; [unfold is_word; lia|]. split; [reflexivity|]. split. { repeat apply Forall_cons; try apply Forall_nil. repeat split; cbn; try lia. constructor; lia. }
    split. { eexists. split; [apply im_compression|reflexivity]. }
    split; [lia|]. split; [constructor|]. split; [repeat constructor; lia|]. split; [|split; [discriminate|]].
    + cbn [dorder small_tree app]. constructor; [|constructor; [|constructor]]; (split; [|now split]).
      * exists [(29, []); (30, word 0)], 0, gm. cbn [ldW ldH ldType ldName ldAttrs ldText ldMask ldPx aGroup aParasites].
        split; [exists (firstn 55 (small gm cm ox)), (skipn 109 (small gm cm ox)); split; reflexivity|]. do 2 (split; [lia|]). split; [reflexivity|].
        split; [apply P_Trip.ascii1; lia|]. split; [lia|].
        split. { repeat apply Forall_cons; try apply Forall_nil; (split; [|cbn; lia]); cbn [fst snd]; [apply lp_none; cbn; tauto|]. apply (lp_path _ [0]). repeat constructor; lia. }
        split. { eexists. split; [apply m_group|]. eexists. split; [apply (m_path _ _ [0]); repeat constructor; lia|reflexivity]. }
        split; [constructor; constructor|]. split; [reflexivity|]. now apply small_masked.
      * exists [(30, word 0 ++ word 0); (6, word 128); (15, word ox ++ word 0)], 187, cm. cbn [ldW ldH ldType ldName ldAttrs ldText ldMask ldPx aGroup aParasites].
        split; [exists (firstn 109 (small gm cm ox)), (skipn 187 (small gm cm ox)); split; reflexivity|]. do 2 (split; [lia|]). split; [reflexivity|].
        split; [apply P_Trip.ascii1; lia|]. split; [lia|].
        split. { repeat apply Forall_cons; try apply Forall_nil; (split; [|cbn; lia]); cbn [fst snd]; [apply (lp_path _ [0; 0]); repeat constructor; lia|apply lp_opacity; lia|apply lp_offsets; unfold is_word; lia]. }
        split. { eexists. split; [apply (m_path _ _ [0; 0]); repeat constructor; lia|]. eexists. split; [apply m_opacity; lia|].
          eexists. split; [apply m_offsets; unfold is_word; lia|]. destruct O as [-> | ->]; reflexivity. }
        split; [constructor; constructor|]. split; [exact (small_pixels gm cm ox)|]. now apply small_masked.
    + intros [|[|i]] x; cbn; [intros [= <-]; reflexivity|intros _; lia|destruct i; discriminate].
  - cbn. intuition.
Qed.
Example C80_ex : file_of (fun z => u8 z) (modes_read 1) no_text (small 0 222 0) 0 2 1 1 [] (small_tree 0 222 0) /\ masks_ok true (small_tree 0 222 0) /\
  small_mask 222 = Some (small_px 0).
Proof. split; [apply small_file; lia|]. split; [|reflexivity]. cbn. unfold placed. cbn. repeat split; auto. Qed.
(** masks of the group and of the layer; the layer moved *)
Example C80_masks_ex : file_of (fun z => u8 z) (modes_read 1) no_text (small 222 222 0) 0 2 1 1 [] (small_tree 222 222 0) /\ masks_taken true (small_tree 222 222 0) /\
  unmasked (small_tree 222 222 0) = small_tree 0 222 0.
Proof. split; [apply small_file; lia|]. split; [|reflexivity]. cbn. unfold placed. cbn. repeat split; auto. Qed.
Example C80_untaken_ex : file_of (fun z => u8 z) (modes_read 1) no_text (small 0 222 1) 0 2 1 1 [] (small_tree 0 222 1) /\ ~ masks_taken true (small_tree 0 222 1) /\
  file_of (fun z => u8 z) (modes_read 1) no_text (small 222 0 0) 0 2 1 1 [] (small_tree 222 0 0) /\ ~ masks_taken false (small_tree 222 0 0).
Proof.
  split; [apply small_file; lia|]. split; [|split; [apply small_file; lia|]].
  - cbn. unfold placed. cbn. intros [[_ [H _]] _]. destruct (H ltac:(discriminate)) as [_ [[E _]|[E|E]]]; discriminate.
  - cbn. intros [[H _] _]. destruct (H ltac:(discriminate)). discriminate.
Qed.

(** The mask of a group is dropped; a layer with a mask is refused unless it is at the origin. *)
Lemma enough fuel f r : (1000 <= fuel)%nat -> decodeImage 1000 f (fun z => z) no_text true = Ret r -> decodeImage fuel f (fun z => z) no_text true = Ret r.
Proof. intros L E. destruct (le_decodeImage 1000 fuel f (fun z => z) no_text true L) as [Q|Q]; congruence. Qed.
Definition shape (r : outcome (err + list layer)) : Z :=
  match r with Ret (inl _) => 0 | Ret (inr [mkLayer _ _ _ _ _ (IGroup _)]) => 1 | _ => 2 end.
Lemma shape_group : shape (decodeImage 1000 (small 222 0 0) (fun z => z) no_text true) = 1.
Proof. vm_compute. reflexivity. Qed.
Lemma shape_moved : shape (decodeImage 1000 (small 0 222 1) (fun z => z) no_text true) = 0.
Proof. vm_compute. reflexivity. Qed.
Theorem C80_group_refuted : exists f F, file_of (fun z => u8 z) gimp_mode no_text f 0 2 1 1 [] F /\
  forall fuel, (1000 <= fuel)%nat -> ~ exists ls, described true [] (mkRect 0 0 2 1) 0 0 F ls /\
    decodeImage fuel f (fun z => z) no_text true = Ret (inr (S_Groups.bottom_normal ls)).
Proof.
  exists (small 222 0 0), (small_tree 222 0 0). split; [apply small_file; lia|]. intros fuel L (ls & D & E).
  pose proof shape_group as SG. destruct (decodeImage 1000 (small 222 0 0) (fun z => z) no_text true) as [r| |] eqn:Q; [|discriminate|discriminate].
  rewrite (enough fuel _ _ L Q) in E. injection E as ->. clear Q.
  cbn [described small_tree] in D. destruct D as (l & rest & -> & _ & _ & _ & _ & _ & (g & _ & (gr & MG & _)) & ->).
  destruct l as [ln lb lm li lt im]. cbn [lImage] in MG. subst im. discriminate.
Qed.
Print Assumptions C80_group_refuted.
Theorem C80_moved_refuted : exists f F, file_of (fun z => u8 z) gimp_mode no_text f 0 2 1 1 [] F /\
  forall fuel, (1000 <= fuel)%nat -> exists e, decodeImage fuel f (fun z => z) no_text true = Ret (inl e).
Proof.
  exists (small 0 222 1), (small_tree 0 222 1). split; [apply small_file; lia|]. intros fuel L.
  pose proof shape_moved as SG. destruct (decodeImage 1000 (small 0 222 1) (fun z => z) no_text true) as [[e|v]| |] eqn:Q; [|destruct v as [|[? ? ? ? ? []] []]; discriminate|discriminate|discriminate].
  exists e. exact (enough fuel _ _ L Q).
Qed.
Print Assumptions C80_moved_refuted.
