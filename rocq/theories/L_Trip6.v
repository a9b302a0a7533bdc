(** Two readings of the same layers, and the whole round trip. *)
From Coq Require Import ZifyBool ZifyNat Permutation.
Require Import Verif.Base Verif.L_List Verif.M_Color Verif.L_Word Verif.L_Color Verif.M_Composite Verif.M_Rect Verif.M_Image Verif.M_Reader
  Verif.S_Compressed Verif.M_Groups Verif.S_Groups Verif.L_Groups2 Verif.P_Groups Verif.M_Monad Verif.M_Decode Verif.M_Encode Verif.S_Encode
  Verif.S_String Verif.S_File Verif.S_Layout Verif.S_Tree Verif.S_Linked Verif.L_Emit Verif.L_Layout Verif.L_Grid Verif.L_Run Verif.L_Linked
  Verif.L_Trip Verif.L_Trip2 Verif.L_Trip3 Verif.L_Trip4 Verif.S_Trip Verif.L_Trip5.

Lemma laid_stored_at p ws ws' B : Permutation ws ws' -> laid p ws' B -> forall a, stored ws a = znth B (a - p).
Proof.
  intros P L a. unfold stored. destruct (stored_spec ws (fun _ => None) a) as [(w & v & I & N & ->)|[A ->]].
  - symmetry. eapply laid_value; [exact L| |exact N]. eapply Permutation_in; eauto.
  - destruct (znth B (a - p)) as [v|] eqn:N; [|reflexivity].
    destruct (laid_in _ _ _ _ _ L N) as (w & I & E). rewrite A in E; [discriminate|]. eapply Permutation_in; [symmetry; exact P|exact I].
Qed.

(** ** forests that differ in the images only *)
Definition opt_same (a b : option image) : Prop :=
  match a, b with Some i, Some j => same_image i j | None, None => True | _, _ => False end.
Definition same_dl (a b : dlayer) : Prop :=
  dlName a = dlName b /\ dlBounds a = dlBounds b /\ dlMode a = dlMode b /\ dlInvisible a = dlInvisible b /\ dlTransparency a = dlTransparency b /\
  dlAlpha a = dlAlpha b /\ dlGroup a = dlGroup b /\ dlPath a = dlPath b /\ opt_same (dlImage a) (dlImage b).
Definition same_attrs (a b : attrs) : Prop :=
  aName a = aName b /\ aBounds a = aBounds b /\ aMode a = aMode b /\ aInvisible a = aInvisible b /\ aTransparency a = aTransparency b /\
  aAlpha a = aAlpha b /\ opt_same (aImage a) (aImage b).
Inductive same_node : node -> node -> Prop :=
| sn_leaf a b : same_attrs a b -> same_node (NLeaf a) (NLeaf b)
| sn_group a b k k' : same_attrs a b -> same_forest k k' -> same_node (NGroup a k) (NGroup b k')
with same_forest : forest -> forest -> Prop :=
| sf_nil : same_forest FNil FNil
| sf_cons r n n' f f' : same_node n n' -> same_forest f f' -> same_forest (FCons r n f) (FCons r n' f').
Scheme same_node_mut := Minimality for same_node Sort Prop with same_forest_mut := Minimality for same_forest Sort Prop.
Scheme node_mut := Induction for node Sort Prop with forest_mut := Induction for forest Sort Prop.

Lemma same_dl_of a g p dl : same_dl (dl_of (a, g, p)) dl -> exists b, dl = dl_of (b, g, p) /\ same_attrs a b.
Proof.
  destruct dl as [n b m v t i al g' p']. unfold same_dl, dl_of. cbn [dlName dlBounds dlMode dlInvisible dlTransparency dlImage dlAlpha dlGroup dlPath].
  intros (<- & <- & <- & <- & <- & <- & <- & <- & O). exists (mkA (aName a) (aBounds a) (aMode a) (aInvisible a) (aTransparency a) i (aAlpha a)). split; [reflexivity|]. repeat split. exact O.
Qed.
Lemma forest_transfer f : forall bare p dls, Forall2 same_dl (map dl_of (file_order bare p f)) dls ->
  exists f', dls = map dl_of (file_order bare p f') /\ same_forest f f'.
Proof.
  apply (forest_mut
    (fun nd => forall bare p r dls, Forall2 same_dl (map dl_of (node_order bare p r nd)) dls ->
       exists nd', dls = map dl_of (node_order bare p r nd') /\ same_node nd nd')
    (fun f => forall bare p dls, Forall2 same_dl (map dl_of (file_order bare p f)) dls ->
       exists f', dls = map dl_of (file_order bare p f') /\ same_forest f f')).
  - intros a bare p r dls F. cbn [node_order map] in F. inversion F as [|? dl ? ? S F']; subst. inversion F'; subst.
    apply same_dl_of in S as (b & -> & A). exists (NLeaf b). split; [reflexivity|now constructor].
  - intros a k IH bare p r dls F. cbn [node_order map] in F. inversion F as [|? dl ? dls' S F']; subst.
    apply same_dl_of in S as (b & -> & A). destruct (IH _ _ _ F') as (k' & -> & K). exists (NGroup b k'). split; [reflexivity|now constructor].
  - intros bare p dls F. inversion F; subst. exists FNil. split; [reflexivity|constructor].
  - intros r nd IHn f0 IHf bare p dls F. rewrite file_order_cons, map_app in F. apply Forall2_app_l in F as (d1 & d2 & -> & F1 & F2).
    destruct (IHn _ _ _ _ F1) as (nd' & -> & N). destruct (IHf _ _ _ F2) as (f' & -> & S).
    exists (FCons r nd' f'). rewrite file_order_cons, map_app. split; [reflexivity|now constructor].
Qed.
Lemma same_pic_refl p : same_pic p p. Proof. repeat split. Qed.
Lemma same_tree canvas f f' : same_forest f f' -> forall ox oy, same_layers (tree_layers canvas ox oy f) (tree_layers canvas ox oy f').
Proof.
  apply (same_forest_mut
    (fun n n' => match n, n' with NGroup _ k, NGroup _ k' => forall ox oy, same_layers (tree_layers canvas ox oy k) (tree_layers canvas ox oy k') | _, _ => True end)
    (fun f f' => forall ox oy, same_layers (tree_layers canvas ox oy f) (tree_layers canvas ox oy f'))); try (intros; exact I).
  - intros a b k k' _ _ IH. exact IH.
  - intros. constructor.
  - intros r n n' f0 f0' N IHn _ IHf ox oy. destruct N as [a b A | a b k k' A K]; destruct A as (E1 & E2 & E3 & E4 & E5 & _ & O); cbn [tree_layers]; rewrite E1, E2, E3, E4, E5; constructor; auto; constructor.
    + unfold opt_same in O. destruct (aImage a), (aImage b); try contradiction; auto. constructor. apply same_pic_refl.
    + constructor. apply IHn.
Qed.
Lemma same_labels f f' : same_forest f f' -> labels f = labels f'.
Proof. induction 1 as [|r n n' f f' N F IH]; [reflexivity|]. cbn. now rewrite IH. Qed.
Lemma same_well f f' : same_forest f f' -> well_labelled f -> well_labelled f'.
Proof.
  apply (same_forest_mut (fun n n' => well_node n -> well_node n') (fun f f' => well_labelled f -> well_labelled f')); auto.
  intros r n n' f0 f0' N IHn F IHf (S & NI & WN & WF). cbn [well_labelled]. split; [exact S|]. rewrite <- (same_labels _ _ F). split; [exact NI|].
  split; [now apply IHn|now apply IHf].
Qed.
Lemma same_numbered f f' : same_forest f f' -> forall i, numbered i f -> numbered i f'.
Proof. induction 1 as [|r n n' f f' N F IH]; intros i; [auto|]. intros [-> K]. split; [reflexivity|now apply IH]. Qed.
Lemma same_rev g g' : same_layers g g' -> forall h h', same_layers h h' -> same_layers (rev_append g h) (rev_append g' h').
Proof. induction 1 as [|l l' g g' L G IH]; intros h h' K; [exact K|]. cbn. apply IH. now constructor. Qed.
Lemma same_bottom g g' : same_layers g g' -> same_layers (bottom_normal g) (bottom_normal g').
Proof.
  intros S. unfold bottom_normal. apply same_rev with (h := []) (h' := []) in S; [|constructor]. rewrite <- !rev_alt in S.
  inversion S as [|l l' r r' L R E1 E2]; [constructor|]. inversion L as [n b m v t i i' Im]; subst.
  rewrite !rev_alt. apply same_rev; [|constructor]. constructor; [now constructor|exact R].
Qed.

(** ** decoding the layers of a file *)
Lemma result_alpha ptext d fls dls : Forall2 (result ptext d) fls dls -> Forall (fun l => dlAlpha l = true) dls.
Proof. induction 1 as [|fl dl fls dls (im & -> & _) F IH]; constructor; auto. Qed.
Lemma alpha_order bare f : Forall (fun l => dlAlpha l = true) (map dl_of (file_order bare [] f)) ->
  forall i l, nth_error (file_order bare [] f) i = Some l -> (S i < length (file_order bare [] f))%nat -> aAlpha (fst (fst l)) = true.
Proof.
  intros F i l N _. rewrite Forall_forall in F. apply nth_error_In in N. apply (in_map dl_of) in N. specialize (F _ N). destruct l as [[a g] p]. exact F.
Qed.
Lemma rebuilt W H f dls : dls = map dl_of (file_order true [] f) -> well_labelled f -> numbered 0 f -> Forall (fun l => dlAlpha l = true) dls ->
  match makeGroups dls (mkRect 0 0 W H) with
  | inl e => Ret (inl e)
  | inr (os, m) => Ret (inr (makeImage os (map_order m)))
  end = Ret (inr (bottom_normal (tree_layers (mkRect 0 0 W H) 0 0 f))).
Proof.
  intros -> WL N A. destruct (C47_rebuilds_tree (mkRect 0 0 W H) true f WL (fun _ => N) (alpha_order true f A)) as (os & m & -> & K).
  rewrite K; [reflexivity|]. symmetry. apply Permutation_rev.
Qed.

(** ** a layer whose pixel data have another size than the layer *)
Lemma readLayer_rejects fuel s f32op ptext d l p : zlen (sFile s) < 4294967296 -> 4294967296 <= Z.of_nat fuel -> dpComp d = 1 -> dpMode d < 2 ->
  good_head d l -> flGroup l = false -> ~ (u32 (gdW (flImage l)) = flW l /\ u32 (gdH (flImage l)) = flH l) ->
  holds s p (layer_bytes l p) ->
  exists r q, readLayer fuel s f32op ptext d (mkR p None) = Ret (r, mkR q (Some EInconsistantData)).
Proof.
  intros Hlen HF HC Hmode GH EG NE H. pose proof GH as (W & Hh & T & B & U & LN & O & V & X & Y & FP & MO).
  pose proof (holds_range _ _ _ H) as HR. unfold layer_bytes in H, HR. cbv zeta in H, HR. set (hp := p + zlen (layer_head l) + 8) in *.
  set (mp := hp + zlen (grid_bytes (flImage l) hp)) in *. rewrite !zlen_app, !w32_len in HR.
  pose proof (zlen_pos (grid_bytes (flImage l) hp)) as ZG. pose proof (zlen_pos (layer_head l)) as ZH.
  pose proof (zlen_pos match flMask l with Some m => mask_bytes m mp | None => [] end) as ZM.
  assert (HPB : 0 <= hp < 4294967296) by (unfold hp; lia).
  pose proof (runs_readProps fuel s f32op ptext d Hlen HF l p (p + zlen (layer_head l)) _ GH H eq_refl) as RP.
  apply holds_split in H as [HH H]. apply holds_split in H as [Hp1 H]. rewrite w32_len in H. apply holds_split in H as [Hp2 H]. rewrite w32_len in H.
  replace (p + zlen (layer_head l) + 4 + 4) with hp in H by (unfold hp; lia). apply holds_split in H as [HI _].
  unfold layer_head in HH. apply holds_split in HH as [H1 HH]. rewrite w32_len in HH. apply holds_split in HH as [H2 HH]. rewrite w32_len in HH.
  apply holds_split in HH as [H3 HH]. rewrite w32_len in HH. apply holds_split in HH as [H4 _].
  assert (K : forall A B (m : M A) (f : A -> M B) p a q (R : outcome (B * rst) -> Prop), runs m p a q -> R (f a (mkR q None)) -> R (bindM m f (mkR p None))).
  { clear. intros A B m f p a q R E1. unfold bindM. rewrite E1. auto. }
  set (R := fun o : outcome (dlayer * rst) => exists r q, o = Ret (r, mkR q (Some EInconsistantData))).
  change (R (readLayer fuel s f32op ptext d (mkR p None))). unfold readLayer.
  eapply K; [apply runs_w32; exact H1|]. eapply K; [apply runs_w32; exact H2|].
  eapply K; [apply runs_w32; exact H3|]. rewrite !u32_small by lia. cbv zeta. rewrite T.
  replace ((2 * dpBase d + 1) / 2) with (dpBase d) by (rewrite Z.mul_comm, Z.div_add_l by lia; change (1 / 2) with 0; lia).
  rewrite Z.eqb_refl. cbn [negb].
  replace (((2 * dpBase d + 1) mod 2 =? 1)) with true.
  2:{ rewrite Z.add_comm, Z.mul_comm, Z.mod_add by lia. reflexivity. }
  eapply K; [rewrite string32_str in H4; apply runs_rdStr; [exact H4|exact U|exact LN]|].
  eapply K; [rewrite <- string32_str; replace (p + 4 + 4 + 4) with (p + 12) by lia; exact RP|]. cbv beta iota.
  eapply K; [apply runs_ptr; [exact Hmode|exact Hp1]|]. eapply K; [apply runs_ptr; [exact Hmode|exact Hp2]|].
  rewrite (u32_small hp) by lia. eapply K; [apply runs_goto; lia|].
  cbn [head_layer dlGroup]. rewrite EG. unfold head_layer at 1 2. cbn [dlBounds].
  replace (dx _) with (flW l) by (unfold dx; cbn; lia). replace (dy _) with (flH l) by (unfold dy; cbn; lia). rewrite !u32_small by lia.
  unfold grid_bytes in HI. cbv zeta in HI. apply holds_split in HI as [I1 HI]. rewrite w32_len in HI. apply holds_split in HI as [I2 _].
  unfold R. unfold bindM at 1. unfold readImage. unfold bindM at 1. rewrite (runs_w32 _ _ _ I1). unfold bindM at 1. rewrite (runs_w32 _ _ _ I2).
  replace ((u32 (gdW (flImage l)) =? flW l) && (u32 (gdH (flImage l)) =? flH l)) with false by lia. cbn [negb].
  unfold bindM, setErrM, retM. cbn. eexists. eexists. unfold withErr. cbn [rPos]. reflexivity.
Qed.
