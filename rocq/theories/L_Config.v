(** Lemmas for C44: where the pictures of a decoded image come from. *)
From Coq Require Import ZifyBool.
Require Import Verif.Base Verif.L_List Verif.M_Color Verif.M_Composite Verif.M_Rect Verif.M_Image Verif.M_Reader Verif.M_Rle
  Verif.M_Groups Verif.M_Monad Verif.M_Decode Verif.S_Decode Verif.L_Sticky Verif.L_Rle3 Verif.L_Wp Verif.L_Decode Verif.L_Decode3 Verif.L_Decode4 Verif.S_Config.

(** ** the layer tree consists of the images of the layers read *)
Section Tree.
Variable P : image -> Prop.
Hypothesis Pgroup : forall g, Forall (fun l => P (lImage l)) g -> P (IGroup g).
Definition good_entry (e : gentry) : Prop := match geImage e with GImg o => P (image_of o) | GRef _ => True end.
Lemma Forall_upd {A} (Q : A -> Prop) l : forall i v, Forall Q l -> Q v -> Forall Q (upd_nat l i v).
Proof. induction l as [|a l IH]; intros [|i] v F V; cbn; auto; inversion F; subst; constructor; auto. Qed.
Lemma good_set g off a : Forall good_entry g -> Forall good_entry (set_image g off a).
Proof. intros F. unfold set_image. destruct (nth_error g off); [|exact F]. now apply Forall_upd. Qed.
Lemma good_resolve fuel heap : Forall (Forall good_entry) heap -> forall a, Forall (fun l => P (lImage l)) (resolve fuel heap a).
Proof.
  intros F. induction fuel as [|fuel IH]; intros a; cbn [resolve]; [constructor|].
  destruct (nth_error heap a) as [g|] eqn:E; [|constructor]. apply nth_error_In in E. rewrite Forall_forall in F. specialize (F g E).
  apply Forall_forall. intros l I. apply in_map_iff in I as (e & <- & I). rewrite Forall_forall in F. specialize (F e I). unfold good_entry in F.
  cbn. destruct (geImage e); [exact F|]. apply Pgroup. apply IH.
Qed.
Lemma nth_forall {A} (Q : A -> Prop) l i a : Forall Q l -> nth_error l i = Some a -> Q a.
Proof. intros F E. apply nth_error_In in E. rewrite Forall_forall in F. auto. Qed.
Lemma good_make os order : forall s, Forall (Forall good_entry) (msHeap s) -> Forall (Forall good_entry) (msHeap (fold_left (make_step os) order s)).
Proof.
  induction order as [|gi order IH]; intros s F; cbn [fold_left]; [exact F|]. apply IH.
  assert (G : Forall (Forall good_entry) (msHeap s ++ [match nth_error (msHeap s) (nth gi (msCur s) 0%nat) with Some l => l | None => [] end])).
  { apply Forall_app. split; [exact F|]. constructor; [|constructor]. destruct (nth_error _ _) eqn:E; [eapply nth_forall; eauto|constructor]. }
  unfold make_step. destruct (nth_error os gi) as [g|]; [|exact F]. destruct (nth_error (msCur s) gi) as [a|] eqn:E; [|exact F].
  rewrite (nth_error_nth _ _ 0%nat E) in G. cbv zeta. destruct (goParent g) as [p|]; [|exact G].
  destruct (nth_error (upd_nat _ _ _) p) as [pa|]; [|exact G]. destruct (nth_error (msHeap s ++ _) pa) as [pg|] eqn:EP; [|exact G].
  cbn [msHeap]. apply Forall_upd; [exact G|]. apply good_set. eapply nth_forall; eauto.
Qed.
Lemma good_groups bounds ls : forall alpha os m n r, groups_loop bounds ls alpha os m n = inr r ->
  Forall (fun l => P (image_of (dlImage l))) ls -> Forall (fun o => Forall good_entry (goGroup o)) os -> Forall (fun o => Forall good_entry (goGroup o)) (fst r).
Proof.
  induction ls as [|l ls IH]; intros alpha os m n r; cbn [groups_loop]; [intros [= <-]; auto|].
  destruct (negb alpha); [discriminate|]. destruct (group_step bounds os m n l) as [[[os' m'] n']|] eqn:E; [|discriminate].
  intros H FL FO. inversion FL; subst. eapply IH; [exact H|assumption|]. clear H IH.
  unfold group_step in E. destruct (match dlPath l with [] => _ | _ => _ end) as [path n1].
  destruct (gmap_get m _) as [gi|]; [|discriminate]. destruct (nth_error os gi) as [g|] eqn:EG; [|discriminate].
  pose proof (nth_forall _ _ _ _ FO EG) as FG. cbv beta in FG.
  assert (FE : forall b md iv, Forall good_entry (goGroup g ++ [mkGE (mkDL (dlName l) b md iv (dlTransparency l) (dlImage l) (dlAlpha l) (dlGroup l) path) (GImg (dlImage l))])).
  { intros. apply Forall_app. split; [exact FG|]. constructor; [assumption|constructor]. }
  destruct (dlGroup l); injection E as <- _ _; apply Forall_upd; try (cbn [goGroup]; apply FE); try assumption.
  apply Forall_app. split; [assumption|]. constructor; [constructor|constructor].
Qed.
Lemma good_bottom g : Forall (fun l => P (lImage l)) g -> Forall (fun l => P (lImage l)) (fix_bottom g).
Proof.
  induction g as [|l g IH]; [auto|]. intros F. inversion F; subst. cbn [fix_bottom]. destruct g.
  - constructor; [|constructor]. unfold fix_bottom_layer. now destruct (lMode l).
  - constructor; [assumption|]. now apply IH.
Qed.
Lemma good_image ls bounds os m : makeGroups ls bounds = inr (os, m) -> Forall (fun l => P (image_of (dlImage l))) ls ->
  forall order, Forall (fun l => P (lImage l)) (makeImage os order).
Proof.
  intros E F order. unfold makeImage. apply good_bottom. destruct (msIm _); [|constructor]. apply good_resolve. apply good_make. cbn [msHeap].
  pose proof (good_groups _ _ _ _ _ _ _ E F) as G. cbn [fst] in G. rewrite Forall_forall. intros g I. apply in_map_iff in I as (o & <- & I).
  assert (G0 : Forall (fun o : gobj => Forall good_entry (goGroup o)) groups0) by (constructor; [constructor|constructor]). specialize (G G0). rewrite Forall_forall in G. auto.
Qed.
End Tree.

(** ** the layers at the top lie in the canvas *)
Section Top.
Variables (bounds : rect).
Hypothesis Hb : minX bounds = 0 /\ minY bounds = 0 /\ 0 <= maxX bounds /\ 0 <= maxY bounds.
Definition entry_inside (e : gentry) : Prop := inside (maxX bounds) (maxY bounds) (dlBounds (geLayer e)).
(** only object 0 has no parent; it is not moved, its entries lie in the canvas *)
Definition top_ok (os : list gobj) : Prop :=
  forall i o, nth_error os i = Some o -> goParent o = None -> i = O /\ goX o = 0 /\ goY o = 0 /\ Forall entry_inside (goGroup o).
Lemma intersect_inside r : inside (maxX bounds) (maxY bounds) (rsub (intersect r bounds) 0 0).
Proof.
  unfold intersect, inside, rsub, radd, rempty. cbv zeta. cbn. destruct Hb as (A & B & C & D). rewrite A, B.
  match goal with |- context [if ?b then _ else _] => destruct b eqn:E end; cbn; lia.
Qed.
Lemma nth_upd {A} (l : list A) : forall i v j, nth_error (upd_nat l i v) j = if Nat.eqb i j then match nth_error l j with Some _ => Some v | None => None end else nth_error l j.
Proof. induction l as [|a l IH]; intros [|i] v [|j]; cbn; try reflexivity; try (now destruct (Nat.eqb i j)). apply IH. Qed.
Lemma top_groups ls : forall alpha os m n r, groups_loop bounds ls alpha os m n = inr r -> top_ok os -> top_ok (fst r).
Proof.
  induction ls as [|l ls IH]; intros alpha os m n r; cbn [groups_loop]; [intros [= <-]; auto|].
  destruct (negb alpha); [discriminate|]. destruct (group_step bounds os m n l) as [[[os' m'] n']|] eqn:E; [|discriminate].
  intros H T. eapply IH; [exact H|]. clear H IH. unfold group_step in E. destruct (match dlPath l with [] => _ | _ => _ end) as [path n1].
  destruct (gmap_get m _) as [gi|]; [|discriminate]. destruct (nth_error os gi) as [g|] eqn:EG; [|discriminate].
  assert (K : forall os1, os' = upd_nat os1 gi (mkGO (goGroup g ++ [mkGE (mkDL (dlName l) (rsub (intersect (dlBounds l) bounds) (goX g) (goY g)) (dlMode l) (dlInvisible l)
      (dlTransparency l) (dlImage l) (dlAlpha l) (dlGroup l) path) (GImg (dlImage l))]) (goX g) (goY g) (goParent g) (goOffset g)) -> top_ok os1 -> top_ok os').
  { intros os1 -> T1 i o N PN. rewrite nth_upd in N. destruct (Nat.eqb gi i) eqn:EQ; [|eauto]. apply Nat.eqb_eq in EQ as <-.
    destruct (nth_error os1 gi) as [x|] eqn:EX; [|discriminate]. injection N as <-. cbn in PN |- *. destruct (T gi g EG PN) as (A & B & C & D).
    split; [exact A|]. split; [exact B|]. split; [exact C|]. apply Forall_app. split; [exact D|]. constructor; [|constructor].
    unfold entry_inside. cbn. rewrite B, C. apply intersect_inside. }
  destruct (dlGroup l); injection E as <- _ _; eapply K; try reflexivity; [|exact T].
  intros i o N PN. destruct (Nat.lt_ge_cases i (length os)) as [L|L].
  - rewrite nth_error_app1 in N by assumption. eauto.
  - rewrite nth_error_app2 in N by assumption. destruct (i - length os)%nat as [|j]; [|destruct j; discriminate]. injection N as <-. discriminate PN.
Qed.
Lemma upd_len {A} (l : list A) : forall i v, length (upd_nat l i v) = length l.
Proof. induction l as [|a l IH]; intros [|i] v; cbn; auto. Qed.
Definition top_state (os : list gobj) (s : mstate) : Prop :=
  (forall o, nth_error os 0 = Some o -> goParent o = None -> forall a g, nth_error (msCur s) 0 = Some a -> nth_error (msHeap s) a = Some g -> Forall entry_inside g) /\
  (forall a g, msIm s = Some a -> nth_error (msHeap s) a = Some g -> Forall entry_inside g).
Lemma inside_set g off a : Forall entry_inside g -> Forall entry_inside (set_image g off a).
Proof. intros F. unfold set_image. destruct (nth_error g off) eqn:E; [|exact F]. apply Forall_upd; [exact F|]. exact (nth_forall _ _ _ _ F E). Qed.
Lemma top_make os order : top_ok os -> forall s, top_state os s -> 
  (forall a, msIm s = Some a -> (a < length (msHeap s))%nat) -> (forall i a, nth_error (msCur s) i = Some a -> (a < length (msHeap s))%nat) ->
  let s' := fold_left (make_step os) order s in forall a g, msIm s' = Some a -> nth_error (msHeap s') a = Some g -> Forall entry_inside g.
Proof.
  intros T. induction order as [|gi order IH]; intros s TS LI LC; cbn [fold_left]; [exact (proj2 TS)|].
  assert (STEP : let s' := make_step os s gi in top_state os s' /\ (forall a, msIm s' = Some a -> (a < length (msHeap s'))%nat) /\
    (forall i a, nth_error (msCur s') i = Some a -> (a < length (msHeap s'))%nat)).
  2:{ destruct STEP as (A & B & C). exact (IH _ A B C). }
  unfold make_step. destruct (nth_error os gi) as [g|] eqn:EG; [|auto]. destruct (nth_error (msCur s) gi) as [ca|] eqn:EC; [|auto]. cbv zeta.
  pose proof (LC _ _ EC) as LA. destruct (nth_error (msHeap s) ca) as [l|] eqn:EL; [|apply nth_error_None in EL; lia].
  set (na := length (msHeap s)). set (heap := msHeap s ++ [l]). set (cur := upd_nat (msCur s) gi na).
  assert (HEAPL : length heap = S na) by (unfold heap; rewrite app_length; cbn; unfold na; lia).
  assert (OLD : forall a x, (a < na)%nat -> nth_error heap a = Some x -> nth_error (msHeap s) a = Some x) by (intros a x L N; unfold heap in N; rewrite nth_error_app1 in N by exact L; exact N).
  assert (NEW : nth_error heap na = Some l) by (unfold heap, na; rewrite nth_error_app2 by lia; now rewrite Nat.sub_diag).
  assert (TOPC : forall o, nth_error os 0 = Some o -> goParent o = None -> forall a x, nth_error cur 0 = Some a -> nth_error heap a = Some x -> Forall entry_inside x).
  { intros o O1 O2 a x N X. unfold cur in N. rewrite nth_upd in N. destruct (Nat.eqb gi 0) eqn:EQ.
    - apply Nat.eqb_eq in EQ. subst gi. rewrite EC in N. injection N as <-. rewrite NEW in X. injection X as <-. exact (proj1 TS _ O1 O2 _ _ EC EL).
    - refine (proj1 TS o O1 O2 a x N _). apply OLD; [exact (LC _ _ N)|exact X]. }
  assert (TOPI : forall a x, msIm s = Some a -> nth_error heap a = Some x -> Forall entry_inside x).
  { intros a x N X. refine (proj2 TS a x N _). apply OLD; [exact (LI _ N)|exact X]. }
  assert (LC' : forall i a, nth_error cur i = Some a -> (a < S na)%nat).
  { intros i a N. unfold cur in N. rewrite nth_upd in N. destruct (Nat.eqb gi i); [destruct (nth_error (msCur s) i); [injection N as <-; lia|discriminate]|].
    specialize (LC _ _ N). unfold na. lia. }
  assert (LI' : forall a, msIm s = Some a -> (a < S na)%nat) by (intros a N; specialize (LI _ N); unfold na; lia).
  destruct (goParent g) as [p|] eqn:EP.
  - assert (SAME : forall h, length h = S na -> (forall a x, nth_error h a = Some x -> exists y, nth_error heap a = Some y /\ (Forall entry_inside y -> Forall entry_inside x)) ->
      top_state os (mkMS h cur (msIm s)) /\ (forall a, msIm s = Some a -> (a < length h)%nat) /\ (forall i a, nth_error cur i = Some a -> (a < length h)%nat)).
    { intros h LH R. rewrite LH. split; [|auto]. split; cbn [msCur msHeap msIm]; [intros o O1 O2 a x N X|intros a x N X]; destruct (R a x X) as (y & Y & K); eauto. }
    assert (ID : top_state os (mkMS heap cur (msIm s)) /\ (forall a, msIm s = Some a -> (a < length heap)%nat) /\ (forall i a, nth_error cur i = Some a -> (a < length heap)%nat)).
    { apply SAME; [exact HEAPL|]. intros a x N. eauto. }
    destruct (nth_error cur p) as [pa|]; [|exact ID]. destruct (nth_error heap pa) as [pg|] eqn:EPG; [|exact ID].
    apply SAME.
    + cbn [msHeap]. rewrite upd_len. exact HEAPL.
    + intros a x N. cbn [msHeap] in N. rewrite nth_upd in N. destruct (Nat.eqb pa a) eqn:EQ; [|eauto]. apply Nat.eqb_eq in EQ as <-. rewrite EPG in N. injection N as <-.
      exists pg. split; [exact EPG|]. apply inside_set.
  - destruct (T _ _ EG EP) as (-> & _). cbn [msIm msHeap msCur]. rewrite HEAPL. split; [|split; [intros a [= <-]; lia|exact LC']].
    split; cbn [msCur msHeap msIm]; [exact TOPC|]. intros a x [= <-] X. rewrite NEW in X. injection X as <-. exact (proj1 TS _ EG EP _ _ EC EL).
Qed.
Lemma top_image ls os m : makeGroups ls bounds = inr (os, m) -> forall order, Forall (fun l => inside (maxX bounds) (maxY bounds) (lBounds l)) (makeImage os order).
Proof.
  intros E order. unfold makeImage.
  assert (T : top_ok os).
  { apply (top_groups ls true groups0 gmap0 0 (os, m) E). intros [|[|i]] o N PN; cbn in N; try discriminate. injection N as <-. cbn. auto. }
  assert (B : forall g, Forall (fun l => inside (maxX bounds) (maxY bounds) (lBounds l)) g -> Forall (fun l => inside (maxX bounds) (maxY bounds) (lBounds l)) (fix_bottom g)).
  { induction g as [|l g IH]; [auto|]. intros F. inversion F; subst. cbn [fix_bottom]. destruct g; [|constructor; auto].
    constructor; [|constructor]. unfold fix_bottom_layer. now destruct (lMode l). }
  apply B. set (s := fold_left _ _ _). destruct (msIm s) as [a|] eqn:EI; [|constructor]. cbn [resolve].
  destruct (nth_error (msHeap s) a) as [g|] eqn:EG; [|constructor].
  assert (F : Forall entry_inside g).
  { unfold s in EI, EG. revert a g EI EG. apply top_make; [exact T| | |].
    - split; cbn [msCur msHeap msIm]; [|discriminate]. intros o1 O1 O2 a g N X. destruct os as [|o os']; [discriminate|]. cbn in N, O1. injection O1 as <-. injection N as <-. cbn in X. injection X as <-.
      exact (proj2 (proj2 (proj2 (T 0%nat o eq_refl O2)))).
    - discriminate.
    - cbn [msCur msHeap]. intros i a N. rewrite map_length. apply nth_error_In in N. apply in_seq in N. lia. }
  apply Forall_forall. intros l I. apply in_map_iff in I as (e & <- & I). rewrite Forall_forall in F. exact (F e I).
Qed.
End Top.

(** ** the layers read have the colour models of the base type and palette *)
Definition rets {A} (m : M A) (Q : A -> Prop) : Prop := forall st a st', m st = Ret (a, st') -> Q a.
Lemma r_ret {A} (a : A) (Q : A -> Prop) : Q a -> rets (retM a) Q. Proof. intros H st b st' [= <- _]. exact H. Qed.
Lemma r_bind {A B} (m : M A) (f : A -> M B) (P : A -> Prop) (Q : B -> Prop) : rets m P -> (forall a, P a -> rets (f a) Q) -> rets (bindM m f) Q.
Proof. intros H K st b st'. unfold bindM. destruct (m st) as [[a st1]| |] eqn:E; try discriminate. exact (K a (H _ _ _ E) _ _ _). Qed.
Lemma r_any {A} (m : M A) : rets m (fun _ => True). Proof. intros st a st' _. exact I. Qed.
Lemma r_then {A B} (m : M A) (f : A -> M B) (Q : B -> Prop) : (forall a, rets (f a) Q) -> rets (bindM m f) Q.
Proof. intros K. apply (r_bind m f (fun _ => True)); [apply r_any|auto]. Qed.
Lemma r_panic {A} w (Q : A -> Prop) : rets (panicM w) Q. Proof. intros st a st' [=]. Qed.
Lemma r_if {A} (b : bool) (m n : M A) (Q : A -> Prop) : rets m Q -> rets n Q -> rets (if b then m else n) Q. Proof. now destruct b. Qed.
Lemma r_while {S R} fuel (body : S -> M (S + R)) (J : S -> Prop) (Q : R -> Prop) :
  (forall s, J s -> rets (body s) (fun r => match r with inl s => J s | inr r => Q r end)) -> forall s, J s -> rets (whileM fuel body s) Q.
Proof.
  intros H. induction fuel as [|fuel IH]; intros s JS; cbn [whileM]; [intros st a st' [=]|].
  eapply r_bind; [exact (H s JS)|]. intros [s'|r] K; [now apply IH|now apply r_ret].
Qed.
Section Models.
Variables (fuel : nat) (s : src) (f32op : Z -> Z) (ptext : list Z -> tres) (d : dparams).
Definition base_model (k : cmodel) : Prop := exists m, 0 <= m <= 5 /\ m / 2 = dpBase d /\ k = type_model m (dpPal d).
Definition base_image (i : image) : Prop := forall p, occurs p i -> p = nil_pic \/ base_model (picModel p).
Lemma base_group g : Forall (fun l => base_image (lImage l)) g -> base_image (IGroup g).
Proof. intros F p O. inversion O; subst. rewrite Forall_forall in F. exact (F _ H0 _ H1). Qed.
Lemma r_readImage w h m : rets (readImage fuel s d w h m) (fun r => r = RNil \/ (m <= 5 /\ exists w h, (exists px, r = RDec m w h px) \/ (exists ts, r = RComp m w h ts))).
Proof.
  unfold readImage. repeat first [apply r_if | apply r_ret; now left | apply r_then; intros ?].
  - unfold readAndDecompressImage. repeat (apply r_then; intros ?). apply r_ret. destruct (m <=? 5) eqn:E; [right|now left]. split; [lia|]. eauto.
  - unfold readCompressedImage. repeat (apply r_then; intros ?). apply r_ret. destruct (m <=? 5) eqn:E; [right|now left]. split; [lia|]. eauto 6.
Qed.
Definition bl (l : dlayer) : Prop := base_image (image_of (dlImage l)).
Lemma bl_none n b m v t al g p : bl (mkDL n b m v t None al g p).
Proof. intros q O. cbn in O. inversion O. now left. Qed.
Lemma r_props l : dlImage l = None -> rets (readProperties fuel s f32op d l) (fun x => dlImage (fst x) = None).
Proof.
  intros H. unfold readProperties. apply (r_while _ _ (fun x => dlImage (fst x) = None)); [|exact H]. clear l H. intros [l ps] H. cbn in H. unfold lprop_body.
  apply r_then. intros typ. apply r_then. intros pl.
  assert (D : rets (skM pl;;; retM (@inl lprop_state lprop_state (l, ps))) (fun r => match r with inl s | inr s => dlImage (fst s) = None end)) by (apply r_then; intros; now apply r_ret).
  destruct typ as [|t|t]; [apply r_then; intros; now apply r_ret| |exact D].
  do 6 (try (destruct t as [t|t|]; try exact D)); repeat first [apply r_ret; exact H | apply r_then; intros ?].
Qed.
Lemma r_mask l : bl l -> rets (readMask fuel s d l) bl.
Proof.
  intros B. unfold readMask. apply r_then. intros [m|]; [|now apply r_ret]. apply r_if; [apply r_then; intros; now apply r_ret|].
  apply r_ret. intros p O. cbn in O. inversion O; subst. now apply B.
Qed.
Lemma r_finish l ps mptr : bl l -> rets (finishLayer fuel s ptext d l ps mptr) bl.
Proof.
  intros B. unfold finishLayer. cbv zeta.
  assert (K : forall l, bl l -> rets (if negb (mptr =? 0) then gotoM mptr;;; readMask fuel s d l else retM l) bl).
  { intros l' B'. apply r_if; [apply r_then; intros; now apply r_mask|now apply r_ret]. }
  destruct (par_get _ _) as [t|]; [|now apply K]. destruct (ptext _) as [td| | |]; [|apply r_then; intros; now apply r_ret|apply r_panic|intros ? ? ? [=]].
  apply K. intros p O. cbn in O. inversion O; subst. now apply B.
Qed.
Lemma div2_base typ b : typ / 2 = b -> typ <= 5 -> 0 <= typ -> base_model (type_model typ (dpPal d)) \/ b <> dpBase d.
Proof. intros H L P. destruct (Z.eq_dec b (dpBase d)) as [E|E]; [left|now right]. exists typ. repeat split; try lia. Qed.
Lemma r_readLayer : (forall st, 0 <= fst (readUint32 s st)) -> rets (readLayer fuel s f32op ptext d) bl.
Proof.
  intros NN. unfold readLayer. apply r_then. intros w. apply r_then. intros h. apply (r_bind _ _ (fun t => 0 <= t)).
  { intros st a st'. unfold rd32, liftM. intros [= E]. pose proof (NN st). now rewrite E in H. }
  intros typ TP. cbv zeta. destruct (typ / 2 =? dpBase d) eqn:EB; cbn [negb]; [|apply r_then; intros; apply r_ret; apply bl_none].
  apply r_then. intros name. eapply r_bind; [apply r_props; reflexivity|]. intros [l ps] NI. cbn in NI. apply r_then. intros hp. apply r_then. intros mp. apply r_then. intros _.
  assert (BL : bl l) by (intros p O; rewrite NI in O; inversion O; now left).
  apply r_if; [now apply r_finish|]. eapply r_bind; [apply r_readImage|]. intros r R.
  assert (PM : forall p, pic_of (dpPal d) r = Some p -> base_model (picModel p)).
  { destruct R as [-> | (M5 & w' & h' & [(px & ->) | (ts & ->)])]; cbn [pic_of]; [discriminate| |]; intros p [= <-]; cbn [picModel]; exists typ; repeat split; lia. }
  destruct (pic_of _ r) as [p|]; [|now apply r_ret]. apply r_finish. intros q O. cbn in O. inversion O; subst. right. now apply PM.
Qed.
Lemma r_layerAt lptr x : (forall st, 0 <= fst (readUint32 s st)) -> readLayerAt fuel s f32op ptext d lptr = Ret x -> bl (fst x).
Proof.
  intros NN. unfold readLayerAt. destruct ((gotoM lptr;;; _) _) as [[l st]| |] eqn:E; try discriminate. intros [= <-]. cbn [fst].
  revert E. apply (r_then (gotoM lptr) (fun _ => readLayer fuel s f32op ptext d) bl). intros _. now apply r_readLayer.
Qed.
Lemma mapO_forall {A B} (f : A -> outcome B) (Q : B -> Prop) l : (forall a b, f a = Ret b -> Q b) -> forall r, mapO f l = Ret r -> Forall Q r.
Proof.
  intros H. induction l as [|x l IH]; intros r; cbn [mapO]; [intros [= <-]; constructor|].
  destruct (f x) as [b| |] eqn:E; try discriminate. cbn [bindO]. destruct (mapO f l) as [r'| |]; try discriminate. cbn [bindO]. intros [= <-]. constructor; eauto.
Qed.
End Models.
