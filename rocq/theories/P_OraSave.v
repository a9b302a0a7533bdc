(** C95: an OpenRaster archive is loaded, saved and loaded again. *)
From Coq Require Import ZifyBool ZifyNat String.
Require Import Verif.Base Verif.M_Color Verif.M_Composite Verif.M_Rect Verif.M_Image Verif.M_Groups Verif.M_Ora Verif.S_Ora
  Verif.P_OraEnc Verif.S_OraLooks Verif.P_OraLooks Verif.S_Rect Verif.S_OraDoc Verif.S_OraSave Verif.L_List Verif.L_Groups Verif.L_Rect Verif.L_Image Verif.L_Ora Verif.L_Ora2
  Verif.P_OraDec Verif.L_OraDoc Verif.P_OraDoc.
Open Scope Z_scope.
Open Scope list_scope.

Lemma stays_tidy L w h d : stays L w h d -> tidy w h d.
Proof.
  induction d as [as_ a body i|as_ a kids IH] using odoc_ind'; intros S; inversion S; subst; constructor; auto.
  - match goal with F : Forall (stays _ _ _) kids |- _ => clear - IH F; induction F; inversion IH; constructor; auto end.
  - match goal with F : kids = [] \/ _ |- _ => destruct F as [->|F]; [right|left; exact F] end. intros ? ? ? ? ? ? [].
Qed.

(** what is saved and loaded without a change *)
Lemma holds_valid L ms w h ds : holds L ms w h ds -> Forall (valid L ms) ds /\ is_int w /\ is_int h.
Proof.
  intros (_ & s & as_ & sa & tail & us & _ & _ & _ & W & H & _ & V). split; [exact V|]. unfold given in W, H.
  destruct (attr "w" as_) as [|? []]; try contradiction. destruct (attr "h" as_) as [|? []]; try contradiction.
  split; [apply W|apply H].
Qed.

Lemma operator_nameable v m : operator v m -> nameable m.
Proof.
  intros [(o & I & _)|[_ ->]]; unfold nameable; [|cbn; tauto]. apply in_map_iff. exists (o, m). split; [reflexivity|exact I].
Qed.
Lemma says_nameable L as_ a : says L as_ a -> nameable (dMode a).
Proof.
  intros [_ _ _ _ _ O]. unfold given in O. destruct (attr "composite-op" as_) as [|v [|? ?]]; [| |contradiction].
  - rewrite O. cbn. tauto.
  - eapply operator_nameable; eassumption.
Qed.

Lemma corner w h r : (forall x y, inside r x y -> on_canvas w h x y) -> (exists y, inside r 0 y) -> (exists x, inside r x 0) ->
  minX r = 0 /\ minY r = 0.
Proof.
  intros C (y & Y) (x & X). assert (inside r (minX r) (minY r)) as O by (unfold inside in *; lia). apply C in O.
  unfold inside, on_canvas in *. lia.
Qed.

Lemma places L ms w h ks g : Forall (stays L w h) ks -> Forall (valid L ms) ks -> Forall2 (lies w h 0 0) ks g ->
  Forall2 (fun k l => meets w h k (lBounds l)) ks g.
Proof.
  intros T V F. induction F as [|k l ks g Lk F IH]; constructor; inversion T; inversion V; subst; auto.
  eapply tidy_place; eauto using stays_tidy.
Qed.

Lemma anchored_corner w h ks g : Forall2 (fun k l => meets w h k (lBounds l)) ks g -> anchored w h ks ->
  minX (group_Bounds g) = 0 /\ minY (group_Bounds g) = 0 /\ rempty (group_Bounds g) = false.
Proof.
  intros M [(k & y & i & u & v & Ik & C & Q) (k' & x & i' & u' & v' & Ik' & C' & Q')].
  apply union_meets in M. cbv zeta in M. destruct M as (M1 & M2 & _).
  pose proof (M2 _ _ _ _ _ _ Ik C Q) as A. pose proof (M2 _ _ _ _ _ _ Ik' C' Q') as B.
  destruct (corner w h _ M1 (ex_intro _ _ A) (ex_intro (fun x => inside _ x 0) _ B)) as [E1 E2]. split; [exact E1|]. split; [exact E2|].
  unfold rempty, inside in *. lia.
Qed.

Lemma stays_expressible L ms w h d : stays L w h d -> valid L ms d -> forall l, lies w h 0 0 d l ->
  forall W H, (forall x y, inside (lBounds l) x y -> on_canvas W H x y) -> expressible L W H l.
Proof.
  induction d as [as_ a body i|as_ a kids IH] using odoc_ind'; intros S V l Ly W H In_; inversion S as [? ? ? ? [T N]|? ? ? [T N]]; inversion V; inversion Ly; subst;
    match goal with A : attributes a l, Y : says L as_ a |- _ => destruct A as (A1 & A2 & A3 & A4); pose proof (says_nameable _ _ _ Y) as Nm end;
    assert (plain_attrs L l) as PA by (repeat split; congruence);
    match goal with B : lBounds l = _ |- _ => rewrite P_OraDoc.rsub_0, !Z.add_0_r in B; fold (canvas w h) in B; rename B into LB end.
  - set (b := image_Bounds (lImage l)) in *.
    assert (E : lBounds l = mkRect (dX a) (dY a) (dX a + dx b) (dY a + dy b)).
    { rewrite LB, cut_inside.
      - destruct (rempty _) eqn:R; [unfold rempty, radd in R; cbn in R; lia|]. unfold radd, dx, dy. f_equal; lia.
      - intros x y. unfold inside, on_canvas, radd. cbn. lia. }
    assert (P1 := In_ (dX a) (dY a)). assert (P2 := In_ (dX a + dx b - 1) (dY a + dy b - 1)).
    rewrite E in P1, P2. unfold inside, on_canvas, dx, dy in P1, P2. cbn [minX minY maxX maxY] in P1, P2.
    eapply expr_leaf; [assumption|exact PA|exact E|lia|lia|fold b; unfold dx; lia|fold b; unfold dy; lia].
  - match goal with B : lImage l = IGroup g |- _ => rename B into LI end.
    match goal with X : dX a = 0, Y : dY a = 0, F : Forall2 (lies _ _ _ _) kids g |- _ => rewrite X, Y in LB, F; change (0 + 0) with 0 in F; rename F into LF end.
    rewrite P_OraDoc.radd_0 in LB.
    match goal with F : Forall (stays _ _ _) kids, G : Forall (valid _ _) kids |- _ => rename F into SF; rename G into VF end.
    pose proof (places L ms w h kids g SF VF LF) as M.
    pose proof (union_meets _ _ _ _ M) as U. cbv zeta in U. destruct U as (M1 & _ & _).
    rewrite cut_inside in LB by exact M1.
    assert (lBounds l = group_Bounds g /\ minX (group_Bounds g) = 0 /\ minY (group_Bounds g) = 0) as (E & E1 & E2).
    { match goal with F : kids = [] \/ _ |- _ => rename F into KA end. destruct KA as [->|KA].
      - inversion LF; subst. repeat split; exact LB.
      - destruct (anchored_corner w h kids g M KA) as (? & ? & R). rewrite R in LB. auto. }
    eapply expr_group; [exact LI|exact PA|exact E|congruence|congruence|].
    assert (forall l', In l' g -> forall x y, inside (lBounds l') x y -> on_canvas W H x y) as Sub.
    { intros l' Il x y P. apply In_. rewrite E. destruct (group_Bounds_least g) as (B & _). exact (B l' Il x y P). }
    clear - IH SF VF LF Sub. induction LF as [|k l ks g Lk LF IHL]; constructor; inversion IH; inversion SF; inversion VF; subst.
    + match goal with F : stays _ _ _ k -> _ |- _ => apply F; auto end. intros x y. apply Sub. left. reflexivity.
    + apply IHL; auto. intros l' Il. apply Sub. right. exact Il.
Qed.

(** all corners are on the canvas *)
Lemma cut_min r w h : is_int w -> is_int h -> is_int (minX (intersect r (canvas w h))) /\ is_int (minY (intersect r (canvas w h))).
Proof.
  intros W H. unfold intersect. cbv zeta. destruct (rempty _) eqn:E; unfold is_int in *; cbn; [lia|].
  unfold rempty in E. cbn in E. lia.
Qed.
Lemma layers_in k g : In k (layers (IGroup g)) -> exists l, In l g /\ In k (layers_l l).
Proof.
  cbn [layers]. induction g as [|l g IH]; [contradiction|]. intros I. apply in_app_or in I. destruct I as [I|I].
  - exists l. split; [left; reflexivity|exact I].
  - destruct (IH I) as (l' & A & B). exists l'. split; [right; exact A|exact B].
Qed.
Lemma Forall2_In_r {A B} (P : A -> B -> Prop) ks g b : Forall2 P ks g -> In b g -> exists a, In a ks /\ P a b.
Proof.
  intros F. induction F as [|a b' ks g Pa F IH]; [contradiction|]. intros [->|I].
  - exists a. split; [left; reflexivity|exact Pa].
  - destruct (IH I) as (a' & X & Y). exists a'. split; [right; exact X|exact Y].
Qed.
Lemma lies_ints L ms w h d : is_int w -> is_int h -> stays L w h d -> valid L ms d -> forall l, lies w h 0 0 d l ->
  forall k, In k (layers_l l) -> is_int (minX (lBounds k)) /\ is_int (minY (lBounds k)).
Proof.
  intros W H. induction d as [as_ a body i|as_ a kids IH] using odoc_ind'; intros S V l Ly k Ik; inversion S; inversion V; inversion Ly; subst;
    match goal with B : lBounds l = _ |- _ => rewrite P_OraDoc.rsub_0, !Z.add_0_r in B; fold (canvas w h) in B; rename B into LB end;
    rewrite layers_l_image in Ik; destruct Ik as [<-|Ik]; try (rewrite LB; now apply cut_min).
  - rewrite layers_leaf in Ik by assumption. contradiction.
  - match goal with B : lImage l = IGroup g |- _ => rewrite B in Ik end.
    match goal with X : dX a = 0, Y : dY a = 0, F : Forall2 (lies _ _ _ _) kids g |- _ => rewrite X, Y in F; change (0 + 0) with 0 in F; rename F into LF end.
    destruct (layers_in _ _ Ik) as (l' & Il & Ik'). destruct (Forall2_In_r _ _ _ _ LF Il) as (d' & Id & Ld).
    rewrite !Forall_forall in *. eapply IH; eauto.
Qed.

(** what is needed of C56: the loaded layers can be saved *)
Lemma loaded L ms w h ds : libs_ok L -> holds L ms w h ds -> Forall (stays L w h) ds -> anchored w h ds ->
  exists ls, oraDecode L ms = Some (inl ls) /\ Forall2 (lies w h 0 0) ds ls /\ ints_of (IGroup ls) /\
    expressibles L (dx (group_Bounds ls)) (dy (group_Bounds ls)) ls.
Proof.
  intros OK Hd S A. destruct (holds_valid _ _ _ _ _ Hd) as (V & W & H). destruct (decode_doc L ms w h ds Hd) as (ls & D & F).
  exists ls. split; [exact D|]. split; [exact F|]. pose proof (places L ms w h ds ls S V F) as M.
  destruct (anchored_corner w h ds ls M A) as (E1 & E2 & R). pose proof (union_meets _ _ _ _ M) as U. cbv zeta in U. destruct U as (M1 & _ & _).
  assert (P := M1 (maxX (group_Bounds ls) - 1) (maxY (group_Bounds ls) - 1)). unfold rempty, inside, on_canvas in P, R. split.
  - split; [|split]; cbn [content image_Bounds]; try (unfold is_int, dx, dy in *; lia).
    intros k Ik. destruct (layers_in _ _ Ik) as (l & Il & Ikl). destruct (Forall2_In_r _ _ _ _ F Il) as (d & Id & Ld).
    rewrite Forall_forall in *. eapply (lies_ints L ms w h d); eauto.
  - assert (forall l, In l ls -> forall x y, inside (lBounds l) x y -> on_canvas (dx (group_Bounds ls)) (dy (group_Bounds ls)) x y) as Sub.
    { intros l Il x y I. destruct (group_Bounds_least ls) as (B & _). specialize (B l Il x y I). unfold inside, on_canvas, dx, dy in *. lia. }
    generalize dependent (dx (group_Bounds ls)). generalize (dy (group_Bounds ls)). intros H' W' Sub. clear - S V F Sub.
    induction F as [|d l ds ls Ld F IH]; constructor; inversion S; inversion V; subst.
    + eapply stays_expressible; eauto. intros x y. apply Sub. left. reflexivity.
    + apply IH; auto. intros l' Il. apply Sub. right. exact Il.
Qed.

Lemma keeps_lasting L ms w h d : stays L w h d -> valid L ms d -> Forall keeps (pictures d) -> forall l, lies w h 0 0 d l -> lasting l.
Proof.
  induction d as [as_ a body i|as_ a kids IH] using odoc_ind'; intros S V K l Ly; inversion S; inversion V; inversion Ly; subst; destruct l as [n b m v t im]; cbn [lImage] in *.
  - cbn [pictures] in K. inversion K as [|? ? [K1 K2]]; subst. cbn [lasting]. destruct im; try discriminate; auto.
  - subst im. cbn [lasting].
    match goal with X : dX a = 0, Y : dY a = 0, F : Forall2 (lies _ _ _ _) kids g |- _ => rewrite X, Y in F; change (0 + 0) with 0 in F; rename F into LF end.
    match goal with F : Forall (stays _ _ _) kids, G : Forall (valid _ _) kids |- _ => rename F into SF; rename G into VF end.
    cbn [pictures] in K. clear - IH SF VF LF K. induction LF as [|k l ks g Lk LF IHL]; cbn [fold_right]; [exact Logic.I|].
    cbn [flat_map] in K. apply Forall_app in K. destruct K as [K1 K2]. inversion IH; inversion SF; inversion VF; subst. split; auto.
Qed.

(** A document of opaque layers on the canvas, reaching its upper left edges, is loaded, saved and
    loaded as the same layers, each picture as its PNG is read; with pictures whose colours a PNG keeps
    the image looks the same, too. *)
Theorem C95_partial L ms w h ds : libs_ok L -> holds L ms w h ds -> Forall (stays L w h) ds -> anchored w h ds ->
  exists ls, oraDecode L ms = Some (inl ls) /\ Forall2 tells ds ls /\
    forall rnd out ms2, oraEncode L rnd (IGroup ls) = Some out -> Forall2 (reads_back L) out ms2 ->
    exists ls2, oraDecode L ms2 = Some (inl ls2) /\ sames L ls ls2 /\
      (png_ok L -> Forall keeps (flat_map pictures ds) ->
       image_Bounds (IGroup ls2) = image_Bounds (IGroup ls) /\
       forall rnd x y n, image_At rnd (IGroup ls2) x y n = image_At rnd (IGroup ls) x y n).
Proof.
  intros OK Hd S A. destruct (loaded L ms w h ds OK Hd S A) as (ls & D & F & I & X). exists ls. split; [exact D|]. split.
  { eapply Forall2_impl'; [|exact F]. intros d l. apply lies_tells. }
  intros rnd out ms2 En Rb. destruct (C56_roundtrip_partial L rnd (IGroup ls) ls out ms2 OK eq_refl I X En Rb) as (ls2 & D2 & Sm).
  exists ls2. split; [exact D2|]. split; [exact Sm|]. intros PO K.
  assert (Forall lasting ls) as La.
  { destruct (holds_valid _ _ _ _ _ Hd) as (V & _). clear - F S V K. induction F as [|d l ds ls Ld F IH]; constructor; inversion S; inversion V; subst;
      cbn [flat_map] in K; apply Forall_app in K; destruct K.
    - eapply keeps_lasting; eauto.
    - auto. }
  destruct (C92_partial L rnd (IGroup ls) ls out ms2 OK PO eq_refl I X La En Rb) as (ls3 & D3 & B & At).
  rewrite D2 in D3. injection D3 as <-. split; [exact B|exact At].
Qed.
Print Assumptions C95_partial.

(** Without that it fails: the opacity of every element of the outermost stack is lost, *)
Theorem C95_opacity_refuted L ms w h ds d ls rnd out ms2 ls2 :
  libs_ok L -> holds L ms w h ds -> In d ds -> dTransp (said d) <> 0 ->
  oraDecode L ms = Some (inl ls) -> ints_of (IGroup ls) ->
  oraEncode L rnd (IGroup ls) = Some out -> Forall2 (reads_back L) out ms2 -> oraDecode L ms2 = Some (inl ls2) ->
  ~ sames L ls ls2.
Proof.
  intros OK Hd Id T D I En Rb D2. destruct (C88_tree L ms w h ds Hd) as (ls' & D' & F). rewrite D in D'. injection D' as <-.
  assert (exists l, In l ls /\ tells d l) as (l & Il & Tl).
  { clear - F Id. induction F as [|k l ks g Tk F IH]; [contradiction|]. destruct Id as [->|Id].
    - exists l. split; [left; reflexivity|exact Tk].
    - destruct (IH Id) as (l' & A & B). exists l'. split; [right; exact A|exact B]. }
  eapply (C56_opacity_refuted L rnd (IGroup ls)); eauto. inversion Tl; subst; cbn [said] in T;
    match goal with A : attributes _ _ |- _ => destruct A as (_ & _ & _ & A); congruence end.
Qed.
Print Assumptions C95_opacity_refuted.

(** and a document whose content does not reach the left or the upper edge is cut at the right or below,
    since it is saved on a canvas of the size of its content. *)
Lemma group_max g : rempty (group_Bounds g) = false ->
  (exists l, In l g /\ rempty (lBounds l) = false /\ maxX (lBounds l) = maxX (group_Bounds g)) /\
  (exists l, In l g /\ rempty (lBounds l) = false /\ maxY (lBounds l) = maxY (group_Bounds g)).
Proof.
  unfold group_Bounds.
  enough (forall r0, rempty (fold_left (fun r l => union r (lBounds l)) g r0) = false ->
    ((rempty r0 = false /\ maxX (fold_left (fun r l => union r (lBounds l)) g r0) = maxX r0) \/
     (exists l, In l g /\ rempty (lBounds l) = false /\ maxX (lBounds l) = maxX (fold_left (fun r l => union r (lBounds l)) g r0))) /\
    ((rempty r0 = false /\ maxY (fold_left (fun r l => union r (lBounds l)) g r0) = maxY r0) \/
     (exists l, In l g /\ rempty (lBounds l) = false /\ maxY (lBounds l) = maxY (fold_left (fun r l => union r (lBounds l)) g r0)))) as K.
  { intros N. destruct (K ZR N) as [[[C _]|K1] [[C' _]|K2]]; try discriminate. split; assumption. }
  induction g as [|l g IH]; intros r0 N; cbn [fold_left] in *; [auto|].
  specialize (IH _ N). destruct IH as [I1 I2]. set (r := fold_left _ g _) in *. clearbody r.
  assert (U : rempty (union r0 (lBounds l)) = false ->
     ((rempty r0 = false /\ maxX (union r0 (lBounds l)) = maxX r0) \/ (rempty (lBounds l) = false /\ maxX (union r0 (lBounds l)) = maxX (lBounds l))) /\
     ((rempty r0 = false /\ maxY (union r0 (lBounds l)) = maxY r0) \/ (rempty (lBounds l) = false /\ maxY (union r0 (lBounds l)) = maxY (lBounds l)))).
  { unfold union. destruct (rempty r0) eqn:E0; [auto|]. destruct (rempty (lBounds l)) eqn:E1; [auto|]. cbn [maxX maxY]. intros _.
    split; [destruct (Z.max_spec (maxX r0) (maxX (lBounds l))) as [[_ ->]|[_ ->]]|destruct (Z.max_spec (maxY r0) (maxY (lBounds l))) as [[_ ->]|[_ ->]]]; auto. }
  split.
  - destruct I1 as [[E1 X1]|(l' & Il & R & X)]; [|right; exists l'; split; [right|]; auto].
    destruct (U E1) as [[Ux|[El Ux]] _]; [left; intuition congruence|right]. exists l. split; [left; reflexivity|]. split; [exact El|congruence].
  - destruct I2 as [[E1 X1]|(l' & Il & R & X)]; [|right; exists l'; split; [right|]; auto].
    destruct (U E1) as [_ [Ux|[El Ux]]]; [left; intuition congruence|right]. exists l. split; [left; reflexivity|]. split; [exact El|congruence].
Qed.
Theorem C56_corner_refuted L rnd g out ms ds :
  libs_ok L -> ints_of (IGroup g) ->
  oraEncode L rnd (IGroup g) = Some out -> Forall2 (reads_back L) out ms -> oraDecode L ms = Some (inl ds) ->
  0 < minX (group_Bounds g) \/ 0 < minY (group_Bounds g) -> ~ sames L g ds.
Proof.
  intros OK I En Rb D P S.
  assert (rempty (group_Bounds g) = false) as R.
  { destruct (rempty (group_Bounds g)) eqn:R; [|reflexivity]. unfold oraEncode in En. cbv zeta in En.
    destruct (writeLayers _ _ _); [|discriminate]. cbn [obind] in En. rewrite (png_empty L OK (IGroup g) R) in En. discriminate. }
  destruct (C56_exact L rnd (IGroup g) g out ms OK eq_refl I En Rb) as (ds' & D' & B). rewrite D in D'. injection D' as <-.
  cbn [image_Bounds] in B. destruct (group_max g R) as [(l & Il & Rl & Ml) (l' & Il' & Rl' & Ml')].
  assert (forall l, In l g -> rempty (lBounds l) = false -> maxX (lBounds l) <= dx (group_Bounds g) /\ maxY (lBounds l) <= dy (group_Bounds g)) as K.
  { intros k Ik Rk. destruct (backs_in _ _ _ _ _ _ _ _ B Ik) as (d & _ & (_ & _ & _ & _ & Bd) & Sd). specialize (Sd S).
    assert (lBounds d = lBounds k) as E by (inversion Sd; assumption). rewrite E in Bd. rewrite P_OraDoc.rsub_0, !Z.add_0_r in Bd.
    unfold intersect in Bd. cbv zeta in Bd. destruct (rempty (mkRect _ _ _ _)) eqn:Q; rewrite Bd in *; [discriminate|]. cbn [maxX maxY]. lia. }
  destruct (K l Il Rl) as [K1 _]. destruct (K l' Il' Rl') as [_ K2]. unfold dx, dy in *. lia.
Qed.
Print Assumptions C56_corner_refuted.

Theorem C95_corner_refuted L ms w h ds ls rnd out ms2 ls2 :
  libs_ok L -> holds L ms w h ds -> Forall (tidy w h) ds ->
  (forall d x y i u v, In d ds -> on_canvas w h x y -> puts false d x y i u v -> 0 < x) \/
  (forall d x y i u v, In d ds -> on_canvas w h x y -> puts false d x y i u v -> 0 < y) ->
  oraDecode L ms = Some (inl ls) -> ints_of (IGroup ls) ->
  oraEncode L rnd (IGroup ls) = Some out -> Forall2 (reads_back L) out ms2 -> oraDecode L ms2 = Some (inl ls2) ->
  ~ sames L ls ls2.
Proof.
  intros OK Hd T P D I En Rb D2. apply (C56_corner_refuted L rnd ls out ms2 ls2 OK I En Rb D2).
  assert (rempty (group_Bounds ls) = false) as R.
  { destruct (rempty (group_Bounds ls)) eqn:R; [|reflexivity]. unfold oraEncode in En. cbv zeta in En.
    destruct (writeLayers _ _ _); [|discriminate]. cbn [obind] in En. rewrite (png_empty L OK (IGroup ls) R) in En. discriminate. }
  destruct (holds_valid _ _ _ _ _ Hd) as (V & _). destruct (decode_doc L ms w h ds Hd) as (ls' & D' & F). rewrite D in D'. injection D' as <-.
  assert (Forall2 (fun k l => meets w h k (lBounds l)) ds ls) as M.
  { clear - T V F. induction F as [|k l ks g Lk F IH]; constructor; inversion T; inversion V; subst; auto. eapply tidy_place; eauto. }
  apply union_meets in M. cbv zeta in M. destruct M as (_ & _ & M). destruct (M R) as [(k & y & i & u & v & Ik & C & Q) (k' & x & i' & u' & v' & Ik' & C' & Q')].
  destruct P as [P|P]; [left; exact (P _ _ _ _ _ _ Ik C Q)|right; exact (P _ _ _ _ _ _ Ik' C' Q')].
Qed.
Print Assumptions C95_corner_refuted.

(** Of every archive that can be loaded, whatever it contains, the composition modes of all layers are
    saved and loaded as they are. *)
Lemma op_nameable s m : nameable m -> nameable (op_mode s m).
Proof.
  intros N. unfold op_mode. repeat match goal with |- nameable (if ?b then _ else _) => destruct b; [unfold nameable; cbn; tauto|] end. exact N.
Qed.
Lemma process_nameable L as_ : forall a b, nameable (laMode a) -> processLayerAttrs L as_ a = inl b -> nameable (laMode b).
Proof.
  induction as_ as [|[k v] as_ IH]; intros a b N E; cbn [processLayerAttrs] in E; [injection E as <-; exact N|].
  destruct (layerAttr L k v a) as [c|] eqn:Ec; [|discriminate]. cbn [rbind] in E. eapply IH; [|exact E]. clear E.
  unfold layerAttr, atoi_err in Ec. destruct a as [n x y t i m s]. cbn [laMode] in N.
  repeat match type of Ec with
  | (if ?b then _ else _) = _ => destruct b
  | match ?o with Some _ => _ | None => _ end = _ => destruct o
  | rbind ?o _ = _ => let E := fresh in destruct o eqn:E; cbn [rbind] in Ec
  end; try discriminate; injection Ec as <-; cbn [laMode]; auto using op_nameable.
Qed.
Lemma read_nameable L ms lim e f : forall ox oy ts ls q, (forall m i, In m ms -> mImage m = Some i -> is_group i = false) ->
  readStack f L ms lim e ox oy ts = Some (inl (ls, q)) -> forall k, In k (layers (IGroup ls)) -> nameable (lMode k).
Proof.
  induction f as [|f IH]; intros ox oy ts ls q PN R k Ik; [discriminate|]. cbn [readStack] in R.
  destruct ts as [|[n as_| |] ts]; [discriminate| |injection R as <- _; contradiction|eapply IH; eassumption].
  assert (forall l ts ls q, match readStack f L ms lim e ox oy ts with Some (inl (ls, ts0)) => Some (inl (l :: ls, ts0)) | r => r end = Some (inl (ls, q)) ->
            (forall k, In k (layers_l l) -> nameable (lMode k)) -> forall k, In k (layers (IGroup ls)) -> nameable (lMode k)) as Co.
  { intros l ts' ls' q' E Hl k' Ik'. destruct (readStack f L ms lim e ox oy ts') as [[[g t]|]|] eqn:Er; try discriminate.
    injection E as <- <-. rewrite layers_group in Ik'. cbn [flat_map] in Ik'. apply in_app_or in Ik'. destruct Ik' as [Ik'|Ik']; [auto|].
    eapply IH; [exact PN|exact Er|]. rewrite layers_group. exact Ik'. }
  destruct (key_eqb n (str "stack")).
  - destruct (processLayerAttrs L as_ la0) as [a|] eqn:Ea; [|discriminate].
    destruct (readStack f L ms lim e (ox + laX a) (oy + laY a) ts) as [[[g t]|]|] eqn:Eg; try discriminate.
    eapply Co; [exact R| |exact Ik]. intros k' Ik'. rewrite layers_l_image in Ik'. destruct Ik' as [<-|Ik'].
    + eapply process_nameable; [|exact Ea]. cbn. tauto.
    + eapply IH; [exact PN|exact Eg|exact Ik'].
  - destruct (key_eqb n (str "layer")).
    + destruct (processLayerAttrs L as_ la0) as [a|] eqn:Ea; [|discriminate]. cbn [rbind] in R.
      destruct (findImage ms (laSrc a)) as [i|] eqn:Ei; [|discriminate]. cbn [rbind] in R.
      destruct (skipTag e ts 0) as [t|]; [|discriminate]. cbn [rbind] in R.
      eapply Co; [exact R| |exact Ik]. intros k' Ik'. rewrite layers_l_image in Ik'. destruct Ik' as [<-|Ik'].
      * eapply process_nameable; [|exact Ea]. cbn. tauto.
      * rewrite layers_leaf in Ik'; [contradiction|]. cbn [lImage placed].
        clear - PN Ei. induction ms as [|m ms IHm]; [discriminate|]. cbn [findImage] in Ei. destruct (key_eqb (mName m) (laSrc a)).
        -- unfold open in Ei. destruct (mOpen m); [|discriminate]. cbn [rbind] in Ei. destruct (mImage m) eqn:Em; [|discriminate]. injection Ei as <-.
           eapply PN; [left; reflexivity|exact Em].
        -- apply IHm; [|exact Ei]. intros m' i' Im. apply PN. right. exact Im.
    + destruct (skipTag e ts 0) as [t|]; [|discriminate]. eapply IH; eassumption.
Qed.
Theorem C95_modes L ms ls rnd out ms2 :
  libs_ok L -> (forall m i, In m ms -> mImage m = Some i -> is_group i = false) ->
  oraDecode L ms = Some (inl ls) -> ints_of (IGroup ls) ->
  oraEncode L rnd (IGroup ls) = Some out -> Forall2 (reads_back L) out ms2 ->
  exists ls2, oraDecode L ms2 = Some (inl ls2) /\ map lMode (layers (IGroup ls2)) = map lMode (layers (IGroup ls)).
Proof.
  intros OK PN D I En Rb.
  assert (forall k, In k (layers (IGroup ls)) -> nameable (lMode k)) as N.
  { unfold oraDecode in D. destruct (getStack ms) as [s|]; [|discriminate]. cbn [rbind] in D. destruct (open s); [|discriminate]. cbn [rbind] in D.
    destruct (getDimensions _ _) as [r|]; [|discriminate]. cbn [rbind] in D. destruct (toStack _ _ _) as [ts|]; [|discriminate]. cbn [rbind] in D.
    destruct (readStack _ _ _ _ _ _ _ _) as [[[g t]|]|] eqn:R; try discriminate. injection D as <-. eapply read_nameable; eassumption. }
  destruct (C61_modes L rnd (IGroup ls) ls out ms2 OK eq_refl I En Rb) as (ls2 & D2 & F). exists ls2. split; [exact D2|].
  clear - F N. induction F as [|a b as_ bs [K _] F IH]; [reflexivity|]. cbn [map]. f_equal; [apply K, N; left; reflexivity|apply IH; intros k Ik; apply N; right; exact Ik].
Qed.
Print Assumptions C95_modes.

(** a stack (a dot at (3,2), hidden and multiplied, over a picture of 4x2 at the corner) over a picture at (4,6) *)
Definition ex_kept : list odoc :=
  [OStack [(str "name", str "g")] (mkDesc (str "g") 0 0 0 false MNormal)
     [OLayer [(str "composite-op", str "svg:multiply"); (str "src", str "a"); (str "y", str "2"); (str "visibility", str "hidden");
              (str "x", str "+3")] (mkDesc [] 3 2 0 true MMultiply) [] (ex_dot 1);
      OLayer [(str "src", str "c")] (ex_at 0 0) [] C58_pic];
   OLayer [(str "x", str "4"); (str "y", str "006"); (str "src", str "c")] (ex_at 4 6) [] C58_pic].
Definition ex_saved : list layer :=
  [mkLayer (str "g") (mkRect 0 0 4 3) MNormal false 0
     (IGroup [mkLayer [] (mkRect 3 2 4 3) MMultiply true 0 (ex_dot 1); mkLayer [] (mkRect 0 0 4 2) MNormal false 0 C58_pic]);
   mkLayer [] (mkRect 4 6 8 8) MNormal false 0 C58_pic].
(** a translucent picture; a picture that does not reach the left edge *)
Definition ex_faint : list odoc := [OLayer [(str "opacity", str "0.98"); (str "src", str "c")] (mkDesc [] 0 0 5 false MNormal) [] C58_pic].
Definition ex_right : list odoc := [OLayer [(str "x", str "4"); (str "src", str "c")] (ex_at 4 0) [] C58_pic].
Definition ex_libs5 : libs := mkLibs P_OraEnc.ex_png (fun _ => str "0.5") (fun _ => Some 5) (fun s => s) (fun q => q).

Ltac from_c := look; eexists [_; _; _], _, (@nil member); split; [reflexivity|]; split; [reflexivity|]; split; [repeat constructor; discriminate|]; split; reflexivity.
Example C95_ex :
  holds ex_libs (ex_archive ex_kept) 8 8 ex_kept /\ Forall (stays ex_libs 8 8) ex_kept /\ anchored 8 8 ex_kept /\
  oraDecode ex_libs (ex_archive ex_kept) = Some (inl ex_saved) /\ ints_of (IGroup ex_saved) /\
  round_trip (IGroup ex_saved) = Some (inl (shape (IGroup ex_saved))).
Proof.
  split.
  { apply ex_holds. constructor; [|constructor; [|constructor]].
    - constructor; [constructor; look; reflexivity|exact Logic.I|]. constructor; [|constructor; [|constructor]].
      + constructor; [|constructor| |reflexivity].
        * constructor; look; try reflexivity; try tauto; [apply (int_plus (str "3")); [num|discriminate|discriminate]|num|].
          left. exists "svg:multiply"%string. split; [cbn; tauto|reflexivity].
        * look. eexists [_], _, [_; _]. split; [reflexivity|]. split; [reflexivity|]. split; [repeat constructor; discriminate|]. split; reflexivity.
      + constructor; [constructor; look; reflexivity|constructor|from_c|reflexivity].
    - constructor; [constructor; look; try reflexivity; num|constructor|from_c|reflexivity]. }
  assert (forall k ks, anchored 8 8 (k :: OLayer [(str "src", str "c")] (ex_at 0 0) [] C58_pic :: ks)) as An.
  { intros k ks. split; eexists; exists 0, C58_pic, 0, 0; (split; [right; left; reflexivity|]); (split; [unfold on_canvas; lia|]);
      constructor; cbn; unfold inside; cbn; lia. }
  split; [|split; [|split; [|split]]].
  - constructor; [|constructor; [|constructor]].
    + constructor; [split; reflexivity|reflexivity|reflexivity| |right; apply An].
      constructor; [|constructor; [|constructor]]; constructor; try split; cbn; try reflexivity; lia.
    + constructor; try split; cbn; try reflexivity; lia.
  - destruct (An (OLayer [(str "composite-op", str "svg:multiply"); (str "src", str "a"); (str "y", str "2"); (str "visibility", str "hidden");
              (str "x", str "+3")] (mkDesc [] 3 2 0 true MMultiply) [] (ex_dot 1)) []) as [(k & y & i & u & v & Ik & C & P) (k' & x & i' & u' & v' & Ik' & C' & P')].
    split; [exists (hd (OLayer [] (ex_at 0 0) [] C58_pic) ex_kept), y, i, u, v|exists (hd (OLayer [] (ex_at 0 0) [] C58_pic) ex_kept), x, i', u', v'];
      (split; [left; reflexivity|]); (split; [assumption|]); [eapply puts_stack; [exact Ik|exact P]|eapply puts_stack; [exact Ik'|exact P']].
  - vm_compute. reflexivity.
  - split; [vm_compute; split; discriminate|]. split; [vm_compute; split; discriminate|].
    cbn. intros l H. repeat (destruct H as [<-|H]; [vm_compute; repeat split; discriminate|]). contradiction.
  - vm_compute. reflexivity.
Qed.
Example C95_refuted_ex :
  holds ex_libs5 (ex_archive ex_faint) 8 8 ex_faint /\ holds ex_libs (ex_archive ex_right) 8 8 ex_right /\ Forall (tidy 8 8) ex_right /\
  oraDecode ex_libs5 (ex_archive ex_faint) = Some (inl [mkLayer [] (mkRect 0 0 4 2) MNormal false 5 C58_pic]) /\
  round_trip (IGroup [mkLayer [] (mkRect 0 0 4 2) MNormal false 5 C58_pic]) = Some (inl (shape (IGroup [mkLayer [] (mkRect 0 0 4 2) MNormal false 0 C58_pic]))) /\
  oraDecode ex_libs (ex_archive ex_right) = Some (inl [mkLayer [] (mkRect 4 0 8 2) MNormal false 0 C58_pic]) /\
  round_trip (IGroup [mkLayer [] (mkRect 4 0 8 2) MNormal false 0 C58_pic]) = Some (inl (shape (IGroup [mkLayer [] (mkRect 0 0 0 0) MNormal false 0 C58_pic]))).
Proof.
  split; [|split; [|split; [|split; [|split; [|split]]]]]; try (vm_compute; reflexivity).
  - apply ex_holds. constructor; [|constructor]. constructor; [constructor; look; reflexivity|constructor|from_c|reflexivity].
  - apply ex_holds. constructor; [|constructor]. constructor; [constructor; look; try reflexivity; num|constructor|from_c|reflexivity].
  - constructor; [|constructor]. constructor; cbn; lia.
Qed.
