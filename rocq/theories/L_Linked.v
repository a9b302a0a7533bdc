From Coq Require Import Permutation ZifyBool ZifyNat.
Require Import Verif.Base Verif.L_List Verif.M_Color Verif.M_Composite Verif.M_Rect Verif.M_Image Verif.M_Reader
  Verif.M_Rle Verif.S_Rle Verif.L_Rle Verif.S_Compressed Verif.M_Decode Verif.M_Encode Verif.S_File Verif.S_Layout Verif.S_Tree Verif.S_Encode
  Verif.L_Emit Verif.L_Layout Verif.L_Pix Verif.L_Compressed Verif.L_Grid Verif.S_Linked.

(** ** replaying the writes *)
Lemma laid_touched o ws B : laid o ws B -> forall a, touched ws a = if (o <=? a) && (a <? o + zlen B) then 1 else 0.
Proof.
  revert o B. induction ws as [|[q l] ws IH]; intros o B [C E] a; cbn [consecutive] in C.
  - subst B. change (zlen (concat (map snd (@nil (Z * list Z))))) with 0. cbn. replace ((o <=? a) && (a <? o + 0)) with false by lia. reflexivity.
  - destruct C as [-> C]. cbn [map concat snd] in E. specialize (IH (o + zlen l) (concat (map snd ws)) (conj C eq_refl) a).
    subst B. rewrite zlen_app. unfold touched in *. cbn [filter]. unfold touches at 1. cbn [fst snd].
    pose proof (zlen_pos l). pose proof (zlen_pos (concat (map snd ws))).
    destruct ((o <=? a) && (a <? o + zlen l)) eqn:T; rewrite ?zlen_cons, IH;
    destruct ((o + zlen l <=? a) && (a <? o + zlen l + zlen (concat (map snd ws)))) eqn:U;
    destruct ((o <=? a) && (a <? o + (zlen l + zlen (concat (map snd ws))))) eqn:V; lia.
Qed.
Lemma touched_perm ws ws' a : Permutation ws ws' -> touched ws a = touched ws' a.
Proof.
  unfold touched. induction 1 as [|x l m P IH|x y l|l m n P1 IH1 P2 IH2]; cbn [filter]; auto.
  - destruct (touches a x); rewrite ?zlen_cons; lia.
  - destruct (touches a x), (touches a y); rewrite ?zlen_cons; lia.
  - lia.
Qed.
Lemma znth_touch a (w : Z * list Z) v : znth (snd w) (a - fst w) = Some v -> touches a w = true.
Proof. intros E. apply znth_range in E. unfold touches. lia. Qed.
Lemma laid_value o ws B w a v : laid o ws B -> In w ws -> znth (snd w) (a - fst w) = Some v -> znth B (a - o) = Some v.
Proof.
  revert o B. induction ws as [|[q l] ws IH]; intros o B [C E] I N; [contradiction|].
  cbn [consecutive] in C. destruct C as [-> C]. cbn [map concat snd] in E. subst B. destruct I as [<-|I].
  - cbn [fst snd] in N. pose proof (znth_range _ _ _ N). rewrite znth_app1 by lia. exact N.
  - assert (K := IH _ _ (conj C eq_refl) I N). pose proof (znth_range _ _ _ K). pose proof (zlen_pos l).
    rewrite znth_app2 by lia. now replace (a - o - zlen l) with (a - (o + zlen l)) by lia.
Qed.
Lemma stored_spec ws d a :
  (exists w v, In w ws /\ znth (snd w) (a - fst w) = Some v /\ fold_left store ws d a = Some v) \/
  ((forall w, In w ws -> znth (snd w) (a - fst w) = None) /\ fold_left store ws d a = d a).
Proof.
  revert d. induction ws as [|w ws IH]; intros d; cbn [fold_left].
  - right. split; [contradiction|reflexivity].
  - destruct (IH (store d w)) as [(w' & v & I & N & S)|[A S]].
    + left. exists w', v. split; [now right|auto].
    + rewrite S. unfold store. destruct (znth (snd w) (a - fst w)) as [v|] eqn:N.
      * left. exists w, v. split; [now left|auto].
      * right. split; [|reflexivity]. intros w' [<-|I]; auto.
Qed.
Lemma laid_in o ws B a v : laid o ws B -> znth B (a - o) = Some v -> exists w, In w ws /\ znth (snd w) (a - fst w) = Some v.
Proof.
  revert o B. induction ws as [|[q l] ws IH]; intros o B [C E] N; cbn [consecutive] in C.
  - subst B. cbn in N. apply znth_range in N. change (zlen (@nil Z)) with 0 in N. lia.
  - destruct C as [-> C]. cbn [map concat snd] in E. subst B. pose proof (znth_range _ _ _ N). destruct (Z.ltb_spec (a - o) (zlen l)) as [L|L].
    + rewrite znth_app1 in N by lia. exists (o, l). split; [now left|exact N].
    + pose proof (zlen_pos l). rewrite znth_app2 in N by lia. replace (a - o - zlen l) with (a - (o + zlen l)) in N by lia.
      destruct (IH _ _ (conj C eq_refl) N) as (w & I & E). exists w. split; [now right|exact E].
Qed.
Theorem laid_stored ws ws' B : Permutation ws ws' -> laid 0 ws' B -> forall a, stored ws a = znth B a.
Proof.
  intros P L a. unfold stored. destruct (stored_spec ws (fun _ => None) a) as [(w & v & I & N & ->)|[A ->]].
  - symmetry. replace a with (a - 0) at 1 by lia. eapply laid_value; [exact L| |exact N]. eapply Permutation_in; eauto.
  - destruct (znth B a) as [v|] eqn:N; [|reflexivity]. replace a with (a - 0) in N at 1 by lia.
    destruct (laid_in _ _ _ _ _ L N) as (w & I & E). rewrite A in E; [discriminate|]. eapply Permutation_in; [symmetry; exact P|exact I].
Qed.

(** ** linked files *)
Lemma at_app f p a b : at_ f p (a ++ b) -> at_ f p a /\ at_ f (p + zlen a) b.
Proof.
  intros (x & y & E & L). split.
  - exists x, (b ++ y). rewrite E, <- app_assoc. auto.
  - exists (x ++ a), y. rewrite E, zlen_app, <- !app_assoc. split; [reflexivity|lia].
Qed.
Lemma at_range f p l : at_ f p l -> 0 <= p /\ p + zlen l <= zlen f.
Proof. intros (a & b & -> & <-). rewrite !zlen_app. pose proof (zlen_pos a). pose proof (zlen_pos b). lia. Qed.
Lemma at_blocks f bs : forall p, at_ f p (blocks p bs) -> forall i b, znth bs i = Some b ->
  exists q, znth (offsets p bs) i = Some q /\ at_ f q (b q).
Proof.
  induction bs as [|b0 bs IH]; intros p A i b N.
  - apply znth_range in N. change (zlen (@nil block)) with 0 in N. lia.
  - cbn [blocks] in A. destruct (at_app _ _ _ _ A) as [A1 A2]. pose proof (znth_range _ _ _ N) as R. rewrite zlen_cons in R.
    destruct (Z.eq_dec i 0) as [->|NE].
    + injection N as ->. exists p. split; [reflexivity|exact A1].
    + destruct (IH _ A2 (i - 1) b) as (q & Nq & Aq).
      { rewrite <- N. change (b0 :: bs) with ([b0] ++ bs). rewrite (znth_app2 [b0]) by (change (zlen [b0]) with 1; lia). reflexivity. }
      exists q. split; [|exact Aq]. rewrite <- Nq. cbn [offsets]. change (p :: offsets (p + zlen (b0 p)) bs) with ([p] ++ offsets (p + zlen (b0 p)) bs).
      rewrite (znth_app2 [p]) by (change (zlen [p]) with 1; lia). reflexivity.
Qed.
Lemma at_w32s f l : forall p, at_ f p (flat_map w32 l) -> forall i z, znth l i = Some z -> at_ f (p + 4 * i) (w32 z).
Proof.
  induction l as [|z0 l IH]; intros p A i z N.
  - apply znth_range in N. change (zlen (@nil Z)) with 0 in N. lia.
  - cbn [flat_map] in A. destruct (at_app _ _ _ _ A) as [A1 A2]. pose proof (znth_range _ _ _ N) as R. rewrite zlen_cons in R.
    destruct (Z.eq_dec i 0) as [->|NE].
    + injection N as ->. now rewrite Z.add_0_r.
    + rewrite w32_len in A2. replace (p + 4 * i) with (p + 4 + 4 * (i - 1)) by lia. apply IH; [exact A2|].
      rewrite <- N. change (z0 :: l) with ([z0] ++ l). rewrite (znth_app2 [z0]) by (change (zlen [z0]) with 1; lia). reflexivity.
Qed.
Lemma at_points f p z : at_ f p (w32 z) -> 0 <= z < 4294967296 -> points f p z.
Proof. intros A R. split; [exact R|]. unfold w32 in A. now rewrite Z.mod_small in A by exact R. Qed.

Ltac at_split H :=
  let A := fresh "A" in apply at_app in H; destruct H as [A H].
Definition well_sized (g : grid) : Prop :=
  zlen (gdTiles g) = tiles_across (gdW g) * tiles_across (gdH g) /\ Forall (fun chs => zlen chs = gdChannels g) (gdTiles g).
Lemma znth_In {A} (l : list A) i a : znth l i = Some a -> In a l.
Proof. unfold znth. destruct (i <? 0); [discriminate|]. apply nth_error_In. Qed.

Section Linked.
Variable f : list Z.
Hypothesis Short : zlen f <= 4294967296.
Lemma at_ptr p q l : at_ f p (w32 q) -> at_ f q l -> 0 < zlen l -> points f p q.
Proof. intros A B L. apply at_points; [exact A|]. pose proof (at_range _ _ _ B). lia. Qed.
Lemma at_linked_grid p g : well_sized g -> Forall (fun chs => 0 < zlen (concat chs)) (gdTiles g) ->
  at_ f p (grid_bytes g p) -> linked_grid f p g.
Proof.
  intros [W1 W2] NE A. unfold grid_bytes in A. cbv zeta in A. rewrite zlen_map in A.
  set (q := p + 32 + 4 * zlen (gdTiles g)) in *.
  rewrite (app_assoc (w32 (gdH g)) (w32 (gdChannels g))), (app_assoc (w32 (gdW g)) (w32 (gdH g) ++ w32 (gdChannels g))) in A.
  apply at_app in A as [A0 A]. rewrite !zlen_app, !w32_len in A. change (4 + (4 + 4)) with 12 in A.
  apply at_app in A as [A1 A]. rewrite w32_len in A. replace (p + 12 + 4) with (p + 16) in A by lia.
  apply at_app in A as [A2 A]. rewrite w32_len in A. replace (p + 16 + 4) with (p + 20) in A by lia.
  rewrite (app_assoc (w32 (gdW g))) in A.
  apply at_app in A as [A3 A]. rewrite zlen_app, !w32_len in A. replace (p + 20 + (4 + 4)) with (p + 28) in A by lia.
  apply at_app in A as [A4 A]. rewrite zlen_w32s, zlen_offsets, zlen_map in A.
  apply at_app in A as [A5 A]. rewrite w32_len in A. replace (p + 28 + 4 * zlen (gdTiles g) + 4) with q in A by (unfold q; lia).
  split; [exact A0|]. exists (p + 20).
  split; [eapply at_ptr; [exact A1|exact A3|rewrite zlen_app, !w32_len; lia]|].
  split; [now apply at_points|]. split; [exact A3|]. split; [exact W1|].
  split; [apply at_points; [now replace (p + 20 + 8) with (p + 28) by lia|lia]|].
  intros i chs N. split; [rewrite Forall_forall in W2; apply W2; eapply znth_In; exact N|].
  destruct (at_blocks f _ _ A i (tile_block chs)) as (t & Nt & At); [now rewrite znth_map, N|].
  exists t. split; [|exact At]. replace (p + 20 + 8) with (p + 28) by lia.
  eapply at_ptr; [exact (at_w32s f _ _ A4 _ _ Nt)|exact At|]. rewrite Forall_forall in NE. unfold tile_block. eapply NE, znth_In, N.
Qed.
Definition sound_grid (g : grid) : Prop := well_sized g /\ Forall (fun chs => 0 < zlen (concat chs)) (gdTiles g).
Lemma grid_len g p : 0 < zlen (grid_bytes g p).
Proof. unfold grid_bytes. cbv zeta. rewrite zlen_app, w32_len. match goal with |- 0 < 4 + zlen ?l => pose proof (zlen_pos l) end. lia. Qed.
Lemma mask_len g p : 0 < zlen (mask_bytes g p).
Proof. unfold mask_bytes. rewrite zlen_app, w32_len. match goal with |- 0 < 4 + zlen ?l => pose proof (zlen_pos l) end. lia. Qed.
Lemma at_linked_layer p l : sound_grid (flImage l) -> (forall g, flMask l = Some g -> sound_grid g) ->
  at_ f p (layer_bytes l p) -> linked_layer f p l.
Proof.
  intros [S1 S2] SM A. unfold layer_bytes in A. cbv zeta in A. set (H := layer_head l) in *.
  set (hp := p + zlen H + 8) in *. set (mp := hp + zlen (grid_bytes (flImage l) hp)) in *.
  apply at_app in A as [A0 A]. apply at_app in A as [A1 A]. rewrite w32_len in A. apply at_app in A as [A2 A]. rewrite w32_len in A.
  replace (p + zlen H + 4 + 4) with hp in A by (unfold hp; lia). apply at_app in A as [A3 A]. fold mp in A.
  split; [exact A0|]. exists hp, (match flMask l with Some _ => mp | None => 0 end).
  split; [eapply at_ptr; [exact A1|exact A3|apply grid_len]|]. split; [apply at_linked_grid; auto|].
  destruct (flMask l) as [g|].
  - split; [eapply at_ptr; [exact A2|exact A|apply mask_len]|].
    destruct (SM g eq_refl) as [G1 G2]. unfold mask_bytes in A.
    rewrite (app_assoc (string32 [])), (app_assoc (w32 (gdH g))), (app_assoc (w32 (gdW g))) in A.
    apply at_app in A as [B0 A]. rewrite !zlen_app, !w32_len in A. change (zlen (string32 [])) with 5 in A. change (zlen (prop32 0 [])) with 8 in A.
    apply at_app in A as [B1 A]. rewrite w32_len in A. replace (mp + (4 + (4 + (5 + 8))) + 4) with (mp + 25) in A by lia.
    replace (mp + (4 + (4 + (5 + 8)))) with (mp + 21) in B1 by lia.
    split; [exact B0|]. exists (mp + 25). split; [eapply at_ptr; [exact B1|exact A|apply grid_len]|]. apply at_linked_grid; auto.
  - split; [now apply at_points|reflexivity].
Qed.
Lemma layer_len l p : 0 < zlen (layer_bytes l p).
Proof. unfold layer_bytes, layer_head. cbv zeta. rewrite !zlen_app, w32_len. repeat match goal with |- context [zlen ?l] => pose proof (zlen_pos l); generalize dependent (zlen l); intros end. lia. Qed.
End Linked.
Definition sound_layer (l : flayer) : Prop := sound_grid (flImage l) /\ forall g, flMask l = Some g -> sound_grid g.
Lemma linked_bytes h ls : Forall sound_layer ls -> zlen (file_bytes h ls) <= 4294967296 -> linked_file (file_bytes h ls) h ls.
Proof.
  intros S L. set (f := file_bytes h ls) in *. assert (A : at_ f 0 (file_bytes h ls)) by (exists [], []; rewrite app_nil_r; auto).
  unfold file_bytes in A. cbv zeta in A. rewrite zlen_map in A. set (H := file_head h) in *. set (q := zlen H + 4 * zlen ls + 8) in *.
  apply at_app in A as [A0 A]. rewrite Z.add_0_l in A. apply at_app in A as [A1 A]. rewrite zlen_w32s, zlen_offsets, zlen_map in A.
  apply at_app in A as [A2 A]. rewrite w32_len in A. apply at_app in A as [A3 A]. rewrite w32_len in A.
  replace (zlen H + 4 * zlen ls + 4 + 4) with q in A by (unfold q; lia).
  split; [exact A0|]. split; [now apply at_points|]. split; [now apply at_points|].
  intros i l N. destruct (at_blocks f _ _ A i (layer_bytes l)) as (p & Np & Ap); [now rewrite znth_map, N|].
  exists p. split.
  - eapply (at_ptr f L); [exact (at_w32s f _ _ A1 _ _ Np)|exact Ap|apply layer_len].
  - rewrite Forall_forall in S. destruct (S l (znth_In _ _ _ N)). apply at_linked_layer; auto.
Qed.

(** ** what the encoder lays out is sound *)
Lemma tight_pos e x : tight e x -> 0 < zlen x -> 0 < zlen e.
Proof. intros T. destruct T; cbn; intros; rewrite ?zlen_cons; try match goal with |- context[zlen ?l] => pose proof (zlen_pos l) end; try lia. Qed.
Lemma sound_grid_of so f n pxs n' : fits (soBounds so) -> reads_tiles so f (tile_starts (soBounds so)) n pxs n' ->
  sound_grid (grid_of so f pxs).
Proof.
  intros (X & Y & T) R. pose proof (zlen_reads_tiles _ _ _ _ _ _ R) as L. rewrite zlen_tile_starts in L by auto.
  assert (CH : 1 <= channels f) by (destruct f; cbn; lia).
  split; [split|]; cbn [grid_of gdTiles gdW gdH gdChannels].
  - rewrite zlen_map, L. unfold tiles_across, ceil64. lia.
  - apply Forall_forall. intros chs I. apply in_map_iff in I as (px & <- & _). unfold tile_of. rewrite zlen_map, zlen_zseq; lia.
  - destruct (grid_coded so f n pxs n' X Y R) as [TC _]. set (b := soBounds so) in *. cbv zeta in TC.
    apply Forall_forall. intros chs I. apply In_nth_error in I as [k Ek].
    assert (N : znth (map (tile_of f) pxs) (Z.of_nat k) = Some chs) by (unfold znth; replace (Z.of_nat k <? 0) with false by lia; now rewrite Nat2Z.id).
    pose proof (znth_range _ _ _ N) as R2. rewrite zlen_map, L in R2.
    assert (DX : 0 <= dx b) by (unfold dx; lia). assert (DY : 0 <= dy b) by (unfold dy; lia).
    set (tx := ceil64 (dx b)) in *. assert (HT : 0 < tx) by (destruct (Z.eq_dec tx 0) as [E|E]; [rewrite E in R2; lia|pose proof (ceil64_pos _ DX); lia]).
    destruct (TC (Z.of_nat k mod tx) (Z.of_nat k / tx)) as (chs' & N' & _ & K).
    { apply Z.mod_pos_bound. exact HT. }
    { split; [apply Z.div_pos; lia|]. apply Z.div_lt_upper_bound; [lia|]. unfold tiles_across. change ((dy b + 63) / 64) with (ceil64 (dy b)). lia. }
    change (tiles_across (dx b)) with tx in N'. rewrite (Z.mul_comm _ tx), <- Z.div_mod, N in N' by lia. injection N' as <-.
    destruct (K 0 ltac:(lia)) as (data & x & D & Ti & Lx & _).
    assert (0 < zlen data).
    { apply (tight_pos _ _ Ti). rewrite Lx.
      assert (I1 : 0 <= Z.of_nat k mod tx < tiles_across (dx b)) by (apply Z.mod_pos_bound; exact HT).
      assert (I2 : 0 <= Z.of_nat k / tx < tiles_across (dy b)) by (split; [apply Z.div_pos; lia|apply Z.div_lt_upper_bound; [lia|]; unfold tiles_across; change ((dy b + 63) / 64) with (ceil64 (dy b)); lia]).
      pose proof (tiles_in _ _ I1). pose proof (tiles_in _ _ I2). nia. }
    destruct chs as [|c0 chs]; [apply znth_range in D; change (zlen (@nil (list Z))) with 0 in D; lia|].
    injection D as ->. cbn [concat]. rewrite zlen_app. pose proof (zlen_pos (concat chs)). lia.
Qed.
Section Sound.
Variables (rnd : nat -> Z) (wtext : list textDatum -> Z -> Z -> option (list Z)).
Scheme flat_layer_mut := Induction for flat_layer Sort Prop with flat_layers_mut := Induction for flat_layers Sort Prop.
Lemma sound_mask m n g n' : (forall g, m = Some g -> fits (grayBounds g)) -> mask_grid m n g n' -> forall g', g = Some g' -> sound_grid g'.
Proof.
  intros F M g' ->. destruct m as [m|]; [|contradiction]. destruct M as (pxs & R & ->). eapply (sound_grid_of (source_gray m)); [apply F; reflexivity|exact R].
Qed.
Lemma flat_sound f ct l ox oy gs n fls n' : flat_layer rnd wtext f ct l ox oy gs n fls n' -> writable l -> Forall sound_layer fls.
Proof.
  apply (flat_layer_mut rnd wtext f ct (fun l ox oy gs n fls n' _ => writable l -> Forall sound_layer fls)
   (fun g ox oy gs i n fls n' _ => fold_right (fun l P => writable l /\ P) True g -> Forall sound_layer fls)).
  - clear. intros [nm b md inv tr im] ox oy gs n txt img n1 msk n2 _ _ (pxs & R & ->) M (W1 & W2 & _). cbn [lImage] in *.
    constructor; [|constructor]. split; cbn [flImage flMask fl_of].
    + eapply sound_grid_of; [|exact R]. exact W1.
    + eapply sound_mask; [|exact M]. intros g E. now rewrite E in W2.
  - clear. intros name b md inv tr g ox oy gs n img n1 fls n2 l (pxs & R & ->) _ IH (W1 & W2 & W3).
    constructor; [|apply IH, W3]. split; cbn [flImage flMask fl_of].
    + eapply sound_grid_of; [|exact R]. exact W1.
    + discriminate.
  - constructor.
  - clear. intros l g ox oy gs i n fl1 n1 fl2 n2 _ IH1 _ IH2 [W1 W2]. apply Forall_app. split; auto.
Qed.
Lemma flats_sound f ct g ox oy gs i n fls n' : flat_layers rnd wtext f ct g ox oy gs i n fls n' ->
  fold_right (fun l P => writable l /\ P) True g -> Forall sound_layer fls.
Proof.
  induction 1; intros W; [constructor|]. destruct W. apply Forall_app. split; [eapply flat_sound; eassumption|auto].
Qed.
End Sound.
(** ** the records are those of the layers *)
Section Records.
Variables (rnd : nat -> Z) (wtext : list textDatum -> Z -> Z -> option (list Z)).
Lemma preorder_group name b md inv tr g x y path :
  preorder (mkLayer name b md inv tr (IGroup g)) x y path = (mkLayer name b md inv tr (IGroup g), x, y, path) :: preorders g x y path 0.
Proof.
  cbn [preorder]. f_equal. generalize 0. induction g as [|l g IH]; intros i; [reflexivity|]. cbn [preorders]. now rewrite IH.
Qed.
Lemma preorder_leaf l x y path : is_group (lImage l) = false -> preorder l x y path = [(l, x, y, path)].
Proof. destruct l as [? ? ? ? ? im]. destruct im; cbn; now try discriminate. Qed.
Lemma flat_records f ct l ox oy gs n fls n' : flat_layer rnd wtext f ct l ox oy gs n fls n' -> Forall2 record_of (preorder l ox oy gs) fls.
Proof.
  apply (flat_layer_mut rnd wtext f ct (fun l ox oy gs n fls n' _ => Forall2 record_of (preorder l ox oy gs) fls)
   (fun g ox oy gs i n fls n' _ => Forall2 record_of (preorders g ox oy gs i) fls)).
  - clear. intros l ox oy gs n txt img n1 msk n2 G _ (pxs & R & ->) M. rewrite preorder_leaf by exact G.
    constructor; [|constructor]. unfold record_of. cbn. repeat split; auto.
    destruct (mask_of (lImage l)), msk; try contradiction; auto. destruct M as (pxs' & _ & ->). cbn. auto.
  - clear. intros name b md inv tr g ox oy gs n img n1 fls n2 l (pxs & R & ->) _ IH. unfold l. rewrite preorder_group.
    constructor; [|exact IH]. unfold record_of. cbn. repeat split; auto.
  - constructor.
  - clear. intros. cbn [preorders]. now apply Forall2_app.
Qed.
Lemma flats_records f ct g ox oy gs i n fls n' : flat_layers rnd wtext f ct g ox oy gs i n fls n' -> Forall2 record_of (preorders g ox oy gs i) fls.
Proof. induction 1; cbn [preorders]; [constructor|]. apply Forall2_app; [eapply flat_records; eassumption|assumption]. Qed.
End Records.
