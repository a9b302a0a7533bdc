(** C88: an OpenRaster document is read as the image it describes. *)
Require Import Verif.Base Verif.M_Color Verif.M_Composite Verif.M_Rect Verif.M_Image Verif.M_Groups Verif.M_Ora Verif.S_Ora
  Verif.S_Rect Verif.S_OraDoc Verif.L_List Verif.L_Groups Verif.L_Rect Verif.L_Image Verif.L_Ora Verif.L_Ora2 Verif.P_OraDec Verif.L_OraDoc.
From Coq Require Import String.
Open Scope Z_scope.
Open Scope list_scope.

Lemma attr_In k v as_ : In v (attr k as_) <-> In (str k, v) as_.
Proof.
  unfold attr. rewrite in_map_iff. split.
  - intros ([k' v'] & <- & I). apply filter_In in I. destruct I as [I E]. cbn [fst snd] in *.
    destruct (list_eq_dec Z.eq_dec k' (str k)); [subst; exact I|discriminate].
  - intros I. exists (str k, v). split; [reflexivity|]. apply filter_In. split; [exact I|]. cbn [fst].
    destruct (list_eq_dec Z.eq_dec (str k) (str k)); [reflexivity|contradiction].
Qed.

Lemma given_declares k as_ n : given k as_ (fun v => integer v n) False -> declares k as_ n.
Proof.
  unfold given. intros G. destruct (attr k as_) as [|v [|]] eqn:E; try contradiction.
  apply atoi_integer in G.
  assert (In (str k, v) as_) as I by (apply attr_In; rewrite E; left; reflexivity).
  split.
  - intros v' I'. apply attr_In in I'. rewrite E in I'. destruct I' as [<-|[]]. eauto.
  - destruct (in_split _ _ I) as (p & q & Q). exists p, q, v. split; [exact Q|]. split; [exact G|].
    intros v' I'. rewrite Q, attr_app, attr_same in E.
    assert (attr k p = [] /\ attr k q = []) as [_ Eq].
    { destruct (attr k p) as [|z zs]; [injection E; auto|]. cbn in E. injection E as _ E. destruct zs; discriminate. }
    apply attr_In in I'. rewrite Eq in I'. destruct I'.
Qed.

(** what Decode makes of an archive that holds a document *)
Lemma decode_doc L ms w h ds : holds L ms w h ds ->
  exists ls, oraDecode L ms = Some (inl ls) /\ Forall2 (lies w h 0 0) ds ls.
Proof.
  intros (M & s & as_ & sa & tail & us & T & O & (pre & E & F) & W & H & A & V).
  assert (getStack ms = inl s) as G.
  { unfold getStack. pose proof (getStack_loop_spec ms None) as S. destruct (getStack_loop ms None) as [s'|x].
    - destruct S as [_ [S|[S _]]]; [|discriminate]. f_equal. symmetry. eapply the_stack_unique; eassumption.
    - exfalso. destruct x; try contradiction; [|apply S, Forall_forall; exact M].
      destruct S as (_ & _ & S). rewrite Forall_forall in S. destruct T as (p & q & -> & N & _).
      apply (S s); [|assumption]. apply in_or_app. right. left. reflexivity. }
  assert (dims as_ None None = inl (w, h)) as D.
  { apply dims_spec. split; left; apply given_declares; assumption. }
  destruct (read_docs L ms w h (mEnd s) ds tail V) as (ls & f & Ll & R). exists ls. split; [|exact Ll].
  unfold oraDecode. rewrite G. cbn [rbind]. unfold open. rewrite O. cbn [rbind].
  rewrite E, getDimensions_root by assumption. rewrite D. cbn [rbind fst snd].
  pose proof (toStack_adds (mEnd s) _ us A) as TS. cbn [toStack] in TS. rewrite key_stack in TS.
  destruct (toStack (mEnd s) us None) as [t2|]; [|contradiction]. cbn [rbind].
  pose proof (read_adds L ms (w, h) (mEnd s) (Datatypes.S (List.length t2))
                (Datatypes.S (List.length (flat_map elements ds ++ TEnd :: tail) + f)) 0 0 _ t2 TS ltac:(lia) ltac:(lia)) as RR.
  rewrite (read_more _ _ _ _ _ _ _ _ _ R) in RR by lia. unfold rel_read in RR.
  destruct (readStack (Datatypes.S (List.length t2)) L ms (w, h) (mEnd s) 0 0 t2) as [[[l2 q]|]|]; try contradiction.
  destruct RR as (<- & _). reflexivity.
Qed.

Lemma Forall2_impl' {A B} (P Q : A -> B -> Prop) l m : (forall a b, P a b -> Q a b) -> Forall2 P l m -> Forall2 Q l m.
Proof. intros H. induction 1; constructor; auto. Qed.

(** Every document is read, and the layers are those of the document: the same tree
    with the names, operators, visibilities, opacities and pictures it gives. *)
Theorem C88_tree L ms w h ds : holds L ms w h ds ->
  exists ls, oraDecode L ms = Some (inl ls) /\ Forall2 tells ds ls.
Proof.
  intros H. destruct (decode_doc L ms w h ds H) as (ls & D & F). exists ls. split; [exact D|].
  eapply Forall2_impl'; [|exact F]. intros d l. apply lies_tells.
Qed.
Print Assumptions C88_tree.

(** [stands] follows the coordinates as Layer.At does *)
Lemma stands_At rnd l x y n : layer_At rnd l x y n =
  (cn <-? image_At rnd (lImage l) (x - minX (lBounds l)) (y - minY (lBounds l)) n;;
   Some (transparency (fst cn) (u8 (255 - lTransparency l)), snd cn)).
Proof. destruct l. reflexivity. Qed.

(** ** positions *)
Definition canvas (w h : Z) : rect := mkRect 0 0 w h.
Lemma inside_canvas w h x y : inside (canvas w h) x y <-> on_canvas w h x y.
Proof. unfold inside, on_canvas, canvas. cbn [minX minY maxX maxY]. lia. Qed.

(** rectangles of tidy layers *)
Lemma rsub_0 r : rsub r 0 0 = r.
Proof. destruct r. unfold rsub. cbn. now rewrite !Z.sub_0_r. Qed.
Lemma radd_0 r : radd r 0 0 = r.
Proof. destruct r. unfold radd. cbn. now rewrite !Z.add_0_r. Qed.

(** the columns and rows where a rectangle starts are met by what is inside *)
Definition meets (w h : Z) (d : odoc) (r : rect) : Prop :=
  (forall x y, inside r x y -> on_canvas w h x y) /\
  (forall x y i u v, on_canvas w h x y -> puts false d x y i u v -> inside r x y) /\
  (rempty r = false ->
    (exists y i u v, on_canvas w h (minX r) y /\ puts false d (minX r) y i u v) /\
    (exists x i u v, on_canvas w h x (minY r) /\ puts false d x (minY r) i u v)).

Lemma union_meets w h ks g : Forall2 (fun k l => meets w h k (lBounds l)) ks g ->
  let r := group_Bounds g in
  (forall x y, inside r x y -> on_canvas w h x y) /\
  (forall k x y i u v, In k ks -> on_canvas w h x y -> puts false k x y i u v -> inside r x y) /\
  (rempty r = false ->
    (exists k y i u v, In k ks /\ on_canvas w h (minX r) y /\ puts false k (minX r) y i u v) /\
    (exists k x i u v, In k ks /\ on_canvas w h x (minY r) /\ puts false k x (minY r) i u v)).
Proof.
  intros F r. destruct (group_Bounds_least g) as (B1 & B2 & _). fold r in B1, B2. split; [|split].
  - intros x y I. apply inside_canvas. revert x y I. change (subset r (canvas w h)). apply B2. intros l Il x y I. apply inside_canvas.
    clear - F Il I. induction F as [|k l' ks g (M & _) _ IH]; [contradiction|]. destruct Il as [->|Il]; [now apply M|auto].
  - intros k x y i u v Ik C P. clear B2. subst r. assert (exists l, In l g /\ inside (lBounds l) x y) as (l & Il & I).
    { clear B1. induction F as [|k' l ks g (_ & M & _) _ IH]; [contradiction|]. destruct Ik as [->|Ik].
      - exists l. split; [left; reflexivity|]. eapply M; eassumption.
      - destruct (IH Ik) as (l' & Il & I). exists l'. split; [right|]; assumption. }
    exact (B1 l Il x y I).
  - unfold r, group_Bounds. clear B1 B2 r.
    enough (forall r0, rempty (fold_left (fun r l => union r (lBounds l)) g r0) = false ->
      let r := fold_left (fun r l => union r (lBounds l)) g r0 in
      ((rempty r0 = false /\ minX r = minX r0) \/ (exists k y i u v, In k ks /\ on_canvas w h (minX r) y /\ puts false k (minX r) y i u v)) /\
      ((rempty r0 = false /\ minY r = minY r0) \/ (exists k x i u v, In k ks /\ on_canvas w h x (minY r) /\ puts false k x (minY r) i u v))) as K.
    { intros N. destruct (K ZR N) as [[[C _]|K1] [[C' _]|K2]]; try discriminate. split; assumption. }
    induction F as [|k l ks g (_ & _ & M) _ IH]; intros r0 N; cbn [fold_left] in *.
    + split; left; (split; [exact N|reflexivity]).
    + specialize (IH (union r0 (lBounds l)) N). cbv zeta in *.
      set (r := fold_left (fun r l => union r (lBounds l)) g (union r0 (lBounds l))) in *.
      destruct IH as [I1 I2].
      assert (rempty (union r0 (lBounds l)) = false ->
              (rempty r0 = false /\ minX (union r0 (lBounds l)) = minX r0) \/
              (rempty (lBounds l) = false /\ minX (union r0 (lBounds l)) = minX (lBounds l))) as UX.
      { unfold union. destruct (rempty r0) eqn:E0; [auto|]. destruct (rempty (lBounds l)) eqn:E1; [auto|].
        cbn [minX]. intros _. destruct (Z.min_spec (minX r0) (minX (lBounds l))) as [[_ ->]|[_ ->]]; auto. }
      assert (rempty (union r0 (lBounds l)) = false ->
              (rempty r0 = false /\ minY (union r0 (lBounds l)) = minY r0) \/
              (rempty (lBounds l) = false /\ minY (union r0 (lBounds l)) = minY (lBounds l))) as UY.
      { unfold union. destruct (rempty r0) eqn:E0; [auto|]. destruct (rempty (lBounds l)) eqn:E1; [auto|].
        cbn [minY]. intros _. destruct (Z.min_spec (minY r0) (minY (lBounds l))) as [[_ ->]|[_ ->]]; auto. }
      split.
      * destruct I1 as [[E1 X1]|(k' & y & i & u & v & Ik & C & P)].
        -- rewrite X1. destruct (UX E1) as [U|[El U]]; [left; exact U|right]. rewrite U.
           destruct (M El) as [(y & i & u & v & C & P) _]. exists k, y, i, u, v. split; [left; reflexivity|]. split; assumption.
        -- right. exists k', y, i, u, v. split; [right; assumption|]. split; assumption.
      * destruct I2 as [[E1 X1]|(k' & x & i & u & v & Ik & C & P)].
        -- rewrite X1. destruct (UY E1) as [U|[El U]]; [left; exact U|right]. rewrite U.
           destruct (M El) as [_ (x & i & u & v & C & P)]. exists k, x, i, u, v. split; [left; reflexivity|]. split; assumption.
        -- right. exists k', x, i, u, v. split; [right; assumption|]. split; assumption.
Qed.

(** a rectangle inside the canvas, cut to the canvas *)
Lemma cut_inside w h r : (forall x y, inside r x y -> on_canvas w h x y) ->
  intersect r (canvas w h) = if rempty r then ZR else r.
Proof.
  intros H. unfold intersect. cbv zeta. destruct (rempty r) eqn:E.
  - assert (rempty (mkRect (Z.max (minX r) (minX (canvas w h))) (Z.max (minY r) (minY (canvas w h)))
       (Z.min (maxX r) (maxX (canvas w h))) (Z.min (maxY r) (maxY (canvas w h)))) = true) as ->; [|reflexivity].
    unfold rempty in *. cbn in *. lia.
  - assert (A := H (minX r) (minY r)). assert (B := H (maxX r - 1) (maxY r - 1)).
    unfold rempty, inside, on_canvas in *. destruct r as [a b c d]. cbn [minX minY maxX maxY canvas] in *.
    replace (Z.max a 0) with a by lia. replace (Z.max b 0) with b by lia.
    replace (Z.min c w) with c by lia. replace (Z.min d h) with d by lia. rewrite E. reflexivity.
Qed.

(** the layer of a tidy piece stands where the document puts it *)
Lemma tidy_place L ms w h d : tidy w h d -> valid L ms d -> forall l, lies w h 0 0 d l ->
  meets w h d (lBounds l) /\
  forall x y i u v, stands l x y i u v <-> on_canvas w h x y /\ puts false d x y i u v.
Proof.
  induction d as [as_ a body i|as_ a kids IH] using odoc_ind'; intros T V l H; inversion T; inversion V; inversion H; subst.
  - match goal with B : lBounds l = _ |- _ => rewrite rsub_0, !Z.add_0_r in B; fold (canvas w h) in B end.
    set (b := image_Bounds (lImage l)) in *.
    assert (P : forall x y, inside (lBounds l) x y <-> on_canvas w h x y /\ inside b (x - dX a) (y - dY a)).
    { intros x y. match goal with B : lBounds l = _ |- _ => rewrite B end.
      rewrite intersect_spec, inside_canvas. unfold inside, on_canvas, radd. cbn [minX minY maxX maxY]. lia. }
    assert (N : rempty (lBounds l) = false -> minX (lBounds l) = dX a /\ minY (lBounds l) = dY a).
    { match goal with B : lBounds l = _ |- _ => rewrite B end. unfold intersect. cbv zeta.
      destruct (rempty (mkRect _ _ _ _)) eqn:E; [discriminate|]. intros _.
      unfold radd. cbn [minX minY maxX maxY canvas]. lia. }
    split; [split; [|split]|].
    + intros x y I. apply P in I. tauto.
    + intros x y i u v C Q. inversion Q; subst. apply P. split; [assumption|].
      replace (dX a + u - dX a) with u by lia. replace (dY a + v - dY a) with v by lia. assumption.
    + intros E. destruct (N E) as [N1 N2]. rewrite N1, N2.
      assert (inside (lBounds l) (dX a) (dY a)) as I.
      { rewrite <- N1, <- N2. unfold rempty in E. unfold inside. lia. }
      apply P in I. rewrite !Z.sub_diag in I. destruct I as [C I].
      split; [exists (dY a)|exists (dX a)]; exists (lImage l), 0, 0; (split; [exact C|]); constructor; try exact I; lia.
    + intros x y i u v. split.
      * intros S. inversion S as [? ? ? ? ? G I E1 E2|? ? ? ? ? ? ? ? G]; subst; [|rewrite G in *; discriminate].
        assert (rempty (lBounds l) = false) as E by (unfold rempty; unfold inside in I; lia).
        destruct (N E) as [N1 N2]. apply P in I. destruct I as [C I]. split; [exact C|].
        constructor; rewrite ?N1, ?N2; [lia|lia|exact I].
      * intros [C Q]. inversion Q; subst.
        assert (inside (lBounds l) (dX a + u) (dY a + v)) as I.
        { apply P. split; [exact C|]. replace (dX a + u - dX a) with u by lia. replace (dY a + v - dY a) with v by lia. assumption. }
        assert (rempty (lBounds l) = false) as E by (unfold rempty; unfold inside in I; lia).
        destruct (N E) as [N1 N2]. constructor; [assumption|exact I|lia|lia].
  - match goal with B : lBounds l = _ |- _ => rewrite rsub_0, !Z.add_0_r in B; fold (canvas w h) in B; rename B into LB end.
    match goal with B : Forall2 (lies _ _ _ _) kids g |- _ => rename B into LF end.
    match goal with B : lImage l = IGroup g |- _ => rename B into LI end.
    match goal with B : dX a = 0 |- _ => rewrite B in LB, LF end.
    match goal with B : dY a = 0 |- _ => rewrite B in LB, LF end.
    rewrite radd_0 in LB. change (0 + 0) with 0 in LF.
    assert (Forall2 (fun k l => meets w h k (lBounds l) /\
       forall x y i u v, stands l x y i u v <-> on_canvas w h x y /\ puts false k x y i u v) kids g) as K.
    { match goal with B : Forall (tidy w h) kids |- _ => rename B into TF end.
      match goal with B : Forall (valid L ms) kids |- _ => rename B into VF end.
      clear - IH LF TF VF. induction LF; constructor; inversion IH; inversion TF; inversion VF; subst; auto. }
    assert (Forall2 (fun k l => meets w h k (lBounds l)) kids g) as M by (eapply Forall2_impl'; [|exact K]; intros ? ? [? _]; assumption).
    apply union_meets in M. cbv zeta in M. destruct M as (M1 & M2 & M3).
    rewrite cut_inside in LB by exact M1. set (r := group_Bounds g) in *.
    assert (rempty r = false -> minX r = 0 /\ minY r = 0) as Cn.
    { intros E. match goal with B : anchored _ _ _ \/ _ |- _ => rename B into AB end.
      destruct AB as [[(k & y & i & u & v & Ik & C & Q) (k' & x & i' & u' & v' & Ik' & C' & Q')]|AB].
      - pose proof (M2 _ _ _ _ _ _ Ik C Q) as I. pose proof (M2 _ _ _ _ _ _ Ik' C' Q') as I'.
        assert (inside r (minX r) (minY r)) as O by (unfold inside, rempty in *; lia). apply M1 in O.
        unfold inside, on_canvas in *. lia.
      - destruct (M3 E) as [(k & y & i & u & v & Ik & C & Q) _]. exfalso. eapply AB; eassumption. }
    assert (forall x y, inside (lBounds l) x y <-> inside r x y) as LR.
    { intros x y. rewrite LB. destruct (rempty r) eqn:E; [|tauto]. apply rempty_spec in E. split; intros I.
      - unfold inside in I; cbn in I; lia.
      - exfalso. exact (E x y I). }
    split; [split; [|split]|].
    + intros x y I. apply LR in I. auto.
    + intros x y i u v C Q. inversion Q as [|? ? ? k ? ? ? ? ? Ik Pk]; subst. apply LR. exact (M2 _ _ _ _ _ _ Ik C Pk).
    + intros E. rewrite LB in *. destruct (rempty r) eqn:Er; [discriminate|].
      destruct (M3 eq_refl) as [(k & y & i & u & v & Ik & C & Q) (k' & x & i' & u' & v' & Ik' & C' & Q')]. split.
      * exists y, i, u, v. split; [exact C|]. econstructor; [exact Ik|exact Q].
      * exists x, i', u', v'. split; [exact C'|]. econstructor; [exact Ik'|exact Q'].
    + intros x y i u v. split.
      * intros S. inversion S as [? ? ? ? ? G|? g' k ? ? ? ? ? G Ik I Q]; subst; [rewrite LI in G; discriminate|].
        rewrite LI in G. injection G as <-. pose proof I as I0. apply LR in I0.
        assert (rempty r = false) as E by (unfold rempty; unfold inside in I0; lia).
        destruct (Cn E) as [C1 C2]. rewrite LB, E, C1, C2, !Z.sub_0_r in Q.
        assert (exists d, In d kids /\ on_canvas w h x y /\ puts false d x y i u v) as (d & Id & C & P).
        { clear - K Ik Q. induction K as [|d l kids g [_ K] _ IHK]; [contradiction|]. destruct Ik as [->|Ik].
          - exists d. split; [left; reflexivity|]. apply K. exact Q.
          - destruct (IHK Ik) as (d' & Id & P). exists d'. split; [right|]; assumption. }
        split; [exact C|]. econstructor; [exact Id|exact P].
      * intros [C Q]. inversion Q as [|? ? ? k ? ? ? ? ? Ik Pk]; subst.
        cbv iota in Pk.
        pose proof (M2 _ _ _ _ _ _ Ik C Pk) as I.
        assert (rempty r = false) as E by (unfold rempty; unfold inside in I; lia). destruct (Cn E) as [C1 C2].
        assert (exists m, In m g /\ stands m x y i u v) as (m & Im & Sm).
        { clear - K Ik Pk C. induction K as [|d l kids g [_ K] _ IHK]; [contradiction|]. destruct Ik as [->|Ik].
          - exists l. split; [left; reflexivity|]. apply K. split; assumption.
          - destruct (IHK Ik) as (m & Im & P). exists m. split; [right|]; assumption. }
        eapply stands_group; [exact LI|exact Im|apply LR; exact I|]. rewrite LB, E, C1, C2, !Z.sub_0_r. exact Sm.
Qed.

Lemma tidy_rel w h d : tidy w h d -> forall x y i u v, puts true d x y i u v <-> puts false d x y i u v.
Proof.
  induction d as [as_ a body i|as_ a kids IH] using odoc_ind'; intros T x y i' u v; inversion T; subst.
  - split; intros Q; inversion Q; subst; constructor; auto.
  - rewrite Forall_forall in IH.
    match goal with B : Forall (tidy w h) kids |- _ => rewrite Forall_forall in B; rename B into TF end.
    split; intros Q; inversion Q; subst.
    + match goal with B : dX a = 0, B' : dY a = 0, P : puts true _ _ _ _ _ _ |- _ => rewrite B, B', !Z.sub_0_r in P end.
      econstructor; [eassumption|]. apply IH; auto.
    + econstructor; [eassumption|]. match goal with B : dX a = 0, B' : dY a = 0 |- _ => rewrite B, B', !Z.sub_0_r end.
      apply IH; auto.
Qed.

(** Full statement (C88): every point of every picture is where the document puts
    it.  Proved for tidy documents, in which both readings of the offsets agree:
    no negative offsets, no offsets on stacks, and the content of every stack
    reaches the top and left edges.  It fails without each of these. *)
Theorem C88_partial L ms w h ds rel : holds L ms w h ds -> Forall (tidy w h) ds ->
  exists ls, oraDecode L ms = Some (inl ls) /\ Forall2 tells ds ls /\ in_place rel w h ds ls.
Proof.
  intros H T. destruct (decode_doc L ms w h ds H) as (ls & D & F). exists ls. split; [exact D|]. split.
  { eapply Forall2_impl'; [|exact F]. intros d l. apply lies_tells. }
  assert (Forall (valid L ms) ds) as V by (destruct H as (_ & ? & ? & ? & ? & ? & H); tauto).
  intros x y i u v C. clear D H. split.
  - intros (l & Il & S). induction F as [|d l' ds ls Ld F IH]; [contradiction|].
    inversion T as [|? ? T1 T2]; inversion V as [|? ? V1 V2]; subst. destruct Il as [->|Il].
    + exists d. split; [left; reflexivity|]. apply (tidy_place L ms w h d T1 V1 l Ld) in S. destruct S as [_ P].
      destruct rel; [apply (tidy_rel w h d T1)|]; exact P.
    + destruct (IH T2 V2 Il) as (d' & Id & P). exists d'. split; [right|]; assumption.
  - intros (d & Id & P). induction F as [|d' l' ds ls Ld F IH]; [contradiction|].
    inversion T as [|? ? T1 T2]; inversion V as [|? ? V1 V2]; subst. destruct Id as [->|Id].
    + exists l'. split; [left; reflexivity|]. apply (tidy_place L ms w h d T1 V1 l' Ld). split; [exact C|].
      destruct rel; [apply (tidy_rel w h d T1)|]; exact P.
    + destruct (IH T2 V2 Id) as (m & Im & S). exists m. split; [right|]; assumption.
Qed.
Print Assumptions C88_partial.

(** A layer that starts left of or above the canvas: what is left of it on the
    canvas is shown from its own top left corner, so no point of it is right. *)
Theorem C88_negative_refuted L ms w h as_ a body i rel : holds L ms w h [OLayer as_ a body i] ->
  minX (image_Bounds i) = 0 -> minY (image_Bounds i) = 0 -> dX a < 0 \/ dY a < 0 ->
  exists ls, oraDecode L ms = Some (inl ls) /\
    forall x y u v, on_canvas w h x y -> puts rel (OLayer as_ a body i) x y i u v ->
    ~ exists l, In l ls /\ stands l x y i u v.
Proof.
  intros H B1 B2 N. destruct (decode_doc L ms w h _ H) as (ls & D & F). exists ls. split; [exact D|].
  assert (is_group i = false) as G.
  { destruct H as (_ & ? & ? & ? & ? & ? & _ & _ & _ & _ & _ & _ & V). inversion V as [|? ? V1]; inversion V1; assumption. }
  inversion F as [|? l ? r Ld F']; subst. inversion F'; subst. inversion Ld; subst.
  intros x y u v C P (l' & [<-|[]] & S). inversion P; subst.
  match goal with B : lBounds l = _ |- _ => rewrite rsub_0, !Z.add_0_r in B; rename B into LB end.
  inversion S as [? ? ? ? ? G' I E1 E2|? ? ? ? ? ? ? ? G']; subst; [|rewrite G' in G; discriminate].
  unfold intersect in LB. cbv zeta in LB. destruct (rempty (mkRect _ _ _ _)) eqn:E.
  - rewrite LB in I. unfold inside in I. cbn in I. lia.
  - rewrite LB in *. unfold radd in *. cbn [minX minY maxX maxY] in *. unfold on_canvas in C. lia.
Qed.
Print Assumptions C88_negative_refuted.

(** A stack without offset whose content does not reach the left and the top edge
    of the canvas: something of it is not where it should be.  (The decoder gives
    the group the bounds of its content and also leaves the offsets inside.) *)
Theorem C88_stack_refuted L ms w h as_ a kids : holds L ms w h [OStack as_ a kids] ->
  dX a = 0 -> dY a = 0 -> Forall (tidy w h) kids ->
  (exists k x y i u v, In k kids /\ on_canvas w h x y /\ puts false k x y i u v) -> ~ anchored w h kids ->
  exists ls, oraDecode L ms = Some (inl ls) /\ ~ in_place false w h [OStack as_ a kids] ls.
Proof.
  intros H X Y T (k0 & x0 & y0 & i0 & u0 & v0 & Ik0 & C0 & P0) NA.
  destruct (decode_doc L ms w h _ H) as (ls & D & F). exists ls. split; [exact D|].
  assert (Forall (valid L ms) kids) as V.
  { destruct H as (_ & ? & ? & ? & ? & ? & _ & _ & _ & _ & _ & _ & V). inversion V as [|? ? V1]; inversion V1; assumption. }
  inversion F as [|? l ? r Ld F']; subst. inversion F'; subst. inversion Ld as [|? ? ? ? ? ? g _ LI LF LB]; subst.
  rewrite rsub_0, !Z.add_0_r, X, Y, radd_0 in LB. rewrite X, Y in LF. change (0 + 0) with 0 in LF. fold (canvas w h) in LB.
  assert (Forall2 (fun k l => meets w h k (lBounds l) /\
     forall x y i u v, stands l x y i u v <-> on_canvas w h x y /\ puts false k x y i u v) kids g) as K.
  { clear - LF T V. induction LF; constructor; inversion T; inversion V; subst; auto. eapply tidy_place; eassumption. }
  assert (Forall2 (fun k l => meets w h k (lBounds l)) kids g) as M by (eapply Forall2_impl'; [|exact K]; intros ? ? [? _]; assumption).
  apply union_meets in M. cbv zeta in M. destruct M as (M1 & M2 & M3).
  rewrite cut_inside in LB by exact M1. set (q := group_Bounds g) in *.
  pose proof (M2 _ _ _ _ _ _ Ik0 C0 P0) as I0.
  assert (rempty q = false) as E by (unfold rempty; unfold inside in I0; lia). rewrite E in LB.
  destruct (M3 E) as [(k1 & y1 & i1 & u1 & v1 & Ik1 & C1 & P1) (k2 & x2 & i2 & u2 & v2 & Ik2 & C2 & P2)].
  assert (W : forall x y i u v, stands l x y i u v ->
    exists k, In k kids /\ on_canvas w h (x - minX q) (y - minY q) /\ puts false k (x - minX q) (y - minY q) i u v).
  { intros x y i u v S. inversion S as [? ? ? ? ? G|? g' k ? ? ? ? ? G Ik I Q]; subst; [rewrite LI in G; discriminate|].
    rewrite LI in G. injection G as <-. rewrite LB in Q.
    clearbody q. clear - K Ik Q. induction K as [|d l kids g [_ K] _ IHK]; [contradiction|]. destruct Ik as [->|Ik].
    - exists d. split; [left; reflexivity|]. apply K. exact Q.
    - destruct (IHK Ik) as (d' & Id & P). exists d'. split; [right|]; assumption. }
  assert (O : on_canvas w h (minX q) (minY q)) by (apply M1; unfold inside, rempty in *; lia).
  intros J.
  assert (on_canvas w h 0 y1 -> minX q = 0 -> False) as N1.
  { intros _ Q0. destruct (Z.eq_dec (minY q) 0) as [Q1|Q1].
    - rewrite Q0 in C1, P1. rewrite Q1 in C2, P2. apply NA.
      split; [exists k1, y1, i1, u1, v1|exists k2, x2, i2, u2, v2]; (split; [assumption|split; assumption]).
    - destruct (proj2 (J x2 (minY q) i2 u2 v2 C2)) as (l' & [<-|[]] & S).
      { exists (OStack as_ a kids). split; [left; reflexivity|]. econstructor; [exact Ik2|exact P2]. }
      destruct (W _ _ _ _ _ S) as (k & Ik & Ck & Pk). rewrite Z.sub_diag in *.
      pose proof (M2 _ _ _ _ _ _ Ik Ck Pk) as I. unfold inside, on_canvas in *. lia. }
  destruct (Z.eq_dec (minX q) 0) as [Q0|Q0]; [apply N1; [|exact Q0]; unfold on_canvas in *; lia|].
  destruct (proj2 (J (minX q) y1 i1 u1 v1 C1)) as (l' & [<-|[]] & S).
  { exists (OStack as_ a kids). split; [left; reflexivity|]. econstructor; [exact Ik1|exact P1]. }
  destruct (W _ _ _ _ _ S) as (k & Ik & Ck & Pk). rewrite Z.sub_diag in *.
  pose proof (M2 _ _ _ _ _ _ Ik Ck Pk) as I. unfold inside, on_canvas in *. lia.
Qed.
Print Assumptions C88_stack_refuted.

(** ** examples *)
Definition ex_dot (n : Z) : image := ILeaf (mkPic (mkRect 0 0 1 1) KNRGBA (fun _ _ => Some (CAlpha n))).
Definition ex_png (name : string) (i : image) : member := mkMember (str name) 0 true [] [] OEOF (Some i).
Definition ex_xml (ts : list token) : member :=
  mkMember (str "stack.xml") 0 true [] (TOther :: TStart (str "image") [(str "h", str "08"); (str "w", str "8")] :: ts) OEOF None.
Definition ex_archive (ds : list odoc) : list member :=
  [ex_xml (TStart (str "stack") [] :: flat_map elements ds ++ [TEnd; TEnd]); ex_png "a" (ex_dot 1); ex_png "b" (ex_dot 2);
   ex_png "c" C58_pic].
Definition ex_at (x y : Z) : desc := mkDesc [] x y 0 false MNormal.

Definition doc_libs : libs := mkLibs (fun _ => None) (fun _ => []) (fun _ => Some 5) (fun s => s) (fun q => q).

Lemma ex_holds L ds : Forall (valid L (ex_archive ds)) ds -> holds L (ex_archive ds) 8 8 ds.
Proof.
  intros V. split.
  { intros m [<-|[<-|[<-|[<-|[]]]]]; discriminate. }
  exists (ex_xml (TStart (str "stack") [] :: flat_map elements ds ++ [TEnd; TEnd])),
    [(str "h", str "08"); (str "w", str "8")], [], [TEnd],
    (TStart (str "stack") [] :: flat_map elements ds ++ [TEnd; TEnd]).
  split. { exists [], [ex_png "a" (ex_dot 1); ex_png "b" (ex_dot 2); ex_png "c" C58_pic]. split; [reflexivity|]. split; [reflexivity|].
    repeat constructor; discriminate. }
  split; [reflexivity|]. split. { exists [TOther]. split; [reflexivity|repeat constructor]. }
  split. { unfold given. change (attr "w" [(str "h", str "08"); (str "w", str "8")]) with [str "8"]. cbv beta iota.
    split; [unfold is_int; lia|]. exists (str "8"). split; [discriminate|]. split; [repeat constructor; vm_compute; discriminate|].
    left. split; [left; reflexivity|reflexivity]. }
  split. { unfold given. change (attr "h" [(str "h", str "08"); (str "w", str "8")]) with [str "08"]. cbv beta iota.
    split; [unfold is_int; lia|]. exists (str "08"). split; [discriminate|]. split; [repeat constructor; vm_compute; discriminate|].
    left. split; [left; reflexivity|reflexivity]. }
  split; [apply adds_refl|exact V].
Qed.

Lemma int_plain ds n : forallb (fun d => (48 <=? d) && (d <=? 57)) ds = true -> ds <> [] -> value ds 0 = n ->
  (- 9223372036854775808 <=? n) && (n <=? 9223372036854775807) = true -> integer ds n.
Proof.
  intros D N V I. split; [unfold is_int; lia|]. exists ds. split; [exact N|]. split; [|left; auto].
  apply Forall_forall. intros d Id. rewrite forallb_forall in D. specialize (D d Id). lia.
Qed.
Lemma int_plus ds n : integer ds n -> hd 0 ds <> 45 -> hd 0 ds <> 43 -> integer (43 :: ds) n.
Proof.
  intros (I & ds' & N & D & [[[->| ->] E]|[-> E]]) H1 H2; try (cbn in *; congruence).
  split; [exact I|]. exists ds'. split; [exact N|]. split; [exact D|]. left. auto.
Qed.
Ltac look := unfold given; repeat first [rewrite attr_same | rewrite attr_other by (vm_compute; discriminate)];
  repeat match goal with |- context [attr ?k []] => change (attr k []) with (@nil (list Z)) end; cbv beta iota; cbn [ex_at dName dX dY dTransp dHidden dMode].
Ltac num := apply int_plain; [vm_compute; reflexivity|discriminate|vm_compute; reflexivity|vm_compute; reflexivity].
Ltac picture_at p q := eexists p, _, q; split; [reflexivity|]; split; [reflexivity|]; split; [repeat constructor; discriminate|]; split; reflexivity.

(** a stack of two layers (a picture of 4x2 at the corner, a hidden dot at (3,2) with
    the operator multiply) over a picture that sticks out *)
Definition ex_doc : list odoc :=
  [OStack [(str "opacity", str "0.98"); (str "name", str "g")] (mkDesc (str "g") 0 0 5 false MNormal)
     [OLayer [(str "composite-op", str "svg:multiply"); (str "src", str "a"); (str "y", str "2"); (str "visibility", str "hidden");
              (str "x", str "+3")] (mkDesc [] 3 2 0 true MMultiply) [TOther; TStart (str "layer") []; TEnd] (ex_dot 1);
      OLayer [(str "src", str "c"); (str "selected", str "true")] (ex_at 0 0) [] C58_pic];
   OLayer [(str "x", str "6"); (str "y", str "007"); (str "composite-op", str "x-sum"); (str "src", str "c")] (ex_at 6 7) [] C58_pic].

Lemma ex_doc_valid : Forall (valid doc_libs (ex_archive ex_doc)) ex_doc.
Proof.
  constructor; [|constructor; [|constructor]].
  - constructor; [|exact I|constructor; [|constructor; [|constructor]]].
    + constructor; look; reflexivity.
    + constructor; [|constructor; apply (bal_elem _ _ [] []); constructor| |reflexivity].
      * constructor; look; try reflexivity; try tauto; [apply (int_plus (str "3")); [num|discriminate|discriminate]|num|].
        left. exists "svg:multiply"%string. split; [cbn; tauto|reflexivity].
      * look. picture_at [ex_xml (TStart (str "stack") [] :: flat_map elements ex_doc ++ [TEnd; TEnd])]
          [ex_png "b" (ex_dot 2); ex_png "c" C58_pic].
    + constructor; [|constructor| |reflexivity].
      * constructor; look; reflexivity.
      * look. picture_at [ex_xml (TStart (str "stack") [] :: flat_map elements ex_doc ++ [TEnd; TEnd]);
          ex_png "a" (ex_dot 1); ex_png "b" (ex_dot 2)] (@nil member).
  - constructor; [|constructor| |reflexivity].
    + constructor; look; try reflexivity; [num|num|].
      right. split; [|reflexivity]. intros o k I. unfold ora_ops in I.
      repeat (destruct I as [E|I]; [injection E as <- <-; vm_compute; discriminate|]). destruct I.
    + look. picture_at [ex_xml (TStart (str "stack") [] :: flat_map elements ex_doc ++ [TEnd; TEnd]);
        ex_png "a" (ex_dot 1); ex_png "b" (ex_dot 2)] (@nil member).
Qed.

Example C88_ex :
  holds doc_libs (ex_archive ex_doc) 8 8 ex_doc /\ Forall (tidy 8 8) ex_doc /\
  oraDecode doc_libs (ex_archive ex_doc) =
    Some (inl [mkLayer (str "g") (mkRect 0 0 4 3) MNormal false 5
                 (IGroup [mkLayer [] (mkRect 3 2 4 3) MMultiply true 0 (ex_dot 1);
                          mkLayer [] (mkRect 0 0 4 2) MNormal false 0 C58_pic]);
               mkLayer [] (mkRect 6 7 8 8) MNormal false 0 C58_pic]).
Proof.
  split; [apply ex_holds, ex_doc_valid|]. split; [|vm_compute; reflexivity].
  constructor; [|constructor; [|constructor]].
  - constructor; [reflexivity|reflexivity| |].
    + constructor; [|constructor; [|constructor]]; constructor; cbn; lia.
    + left. split; eexists; exists 0, C58_pic, 0, 0; (split; [right; left; reflexivity|]); (split; [unfold on_canvas; lia|]);
        constructor; cbn; unfold inside; cbn; lia.
  - constructor; cbn; lia.
Qed.

(** offsets of stacks: a stack at (2,0) with a dot at (2,0) and, in a stack without
    an offset, another dot at (2,0); whether these count from the canvas or from the
    stack around them, the second dot is not where it should be *)
Definition ex_offset : list odoc :=
  [OStack [(str "x", str "2")] (ex_at 2 0)
     [OLayer [(str "x", str "2"); (str "src", str "a")] (ex_at 2 0) [] (ex_dot 1);
      OStack [] (ex_at 0 0) [OLayer [(str "x", str "2"); (str "src", str "b")] (ex_at 2 0) [] (ex_dot 2)]]].
Lemma dots_differ : ex_dot 1 <> ex_dot 2.
Proof.
  intros E. apply (f_equal (fun i => match i with ILeaf p => picAt p 0 0 | _ => None end)) in E. discriminate.
Qed.
Ltac member_at n :=
  lazymatch n with
  | 1%nat => eexists [_], _, _
  | 2%nat => eexists [_; _], _, _
  | 3%nat => eexists [_; _; _], _, _
  end; split; [reflexivity|]; split; [reflexivity|]; split; [repeat constructor; discriminate|]; split; reflexivity.
Lemma ex_offset_valid : Forall (valid doc_libs (ex_archive ex_offset)) ex_offset.
Proof.
  constructor; [|constructor]. constructor; [|exact I|constructor; [|constructor; [|constructor]]].
  - constructor; look; try reflexivity. num.
  - constructor; [|constructor| |reflexivity].
    + constructor; look; try reflexivity. num.
    + look. member_at 1%nat.
  - constructor; [|exact I|constructor; [|constructor]].
    + constructor; look; reflexivity.
    + constructor; [|constructor| |reflexivity].
      * constructor; look; try reflexivity. num.
      * look. member_at 2%nat.
Qed.
Theorem C88_offset_refuted : exists L ms ds ls,
  holds L ms 8 8 ds /\ oraDecode L ms = Some (inl ls) /\ forall rel, ~ in_place rel 8 8 ds ls.
Proof.
  exists doc_libs, (ex_archive ex_offset), ex_offset,
    [mkLayer [] (mkRect 0 0 3 1) MNormal false 0
       (IGroup [mkLayer [] (mkRect 0 0 1 1) MNormal false 0 (ex_dot 1);
                mkLayer [] (mkRect (-2) 0 (-1) 1) MNormal false 0 (IGroup [mkLayer [] (mkRect 0 0 1 1) MNormal false 0 (ex_dot 2)])])].
  split; [|split].
  - apply ex_holds, ex_offset_valid.
  - vm_compute. reflexivity.
  - intros rel J.
    assert (exists d, In d ex_offset /\ puts rel d (if rel then 4 else 2) 0 (ex_dot 2) 0 0) as P.
    { eexists. split; [left; reflexivity|]. eapply puts_stack; [right; left; reflexivity|].
      eapply puts_stack; [left; reflexivity|]. constructor; [destruct rel; reflexivity|destruct rel; reflexivity|unfold inside; cbn; lia]. }
    apply J in P; [|destruct rel; unfold on_canvas; lia]. destruct P as (l & [<-|[]] & S).
    inversion S as [? ? ? ? ? G|? g k ? ? ? ? ? G Ik In0 S1]; subst; try discriminate. cbn [lImage] in G. injection G as <-.
    cbn [lBounds minX minY] in S1. destruct Ik as [<-|[<-|[]]].
    + inversion S1 as [? ? ? ? ? G Q E1 E2|? ? ? ? ? ? ? ? G]; subst; try discriminate. all: cbn [lImage] in *.
      match goal with E : ex_dot 1 = ex_dot 2 |- _ => exact (dots_differ E) | _ => idtac end.
      all: unfold inside in Q; cbn in Q; destruct rel; lia.
    + inversion S1 as [? ? ? ? ? G|? g k ? ? ? ? ? G Ik In1 S2]; subst; try discriminate.
      unfold inside in In1. cbn in In1. destruct rel; lia.
Qed.
Print Assumptions C88_offset_refuted.

(** documents that meet the hypotheses of the refutations: a picture at (-1,0), of
    which the decoder shows the first three columns instead of the last three; a
    stack with one dot at (2,0), which is not shown at all *)
Definition ex_neg : odoc := OLayer [(str "src", str "c"); (str "x", str "-1")] (ex_at (-1) 0) [] C58_pic.
Definition ex_in : list odoc := [OLayer [(str "src", str "a"); (str "x", str "2")] (ex_at 2 0) [] (ex_dot 1)].
Definition ex_in_read : list layer :=
  [mkLayer [] (mkRect 2 0 3 1) MNormal false 0 (IGroup [mkLayer [] (mkRect 2 0 3 1) MNormal false 0 (ex_dot 1)])].
Example C88_refuted_ex :
  holds doc_libs (ex_archive [ex_neg]) 8 8 [ex_neg] /\
  oraDecode doc_libs (ex_archive [ex_neg]) = Some (inl [mkLayer [] (mkRect 0 0 3 2) MNormal false 0 C58_pic]) /\
  puts false ex_neg 0 0 C58_pic 1 0 /\
  holds doc_libs (ex_archive [OStack [] (ex_at 0 0) ex_in]) 8 8 [OStack [] (ex_at 0 0) ex_in] /\
  Forall (tidy 8 8) ex_in /\ ~ anchored 8 8 ex_in /\
  (exists k, In k ex_in /\ puts false k 2 0 (ex_dot 1) 0 0) /\
  oraDecode doc_libs (ex_archive [OStack [] (ex_at 0 0) ex_in]) = Some (inl ex_in_read) /\
  map (fun x => at_of (fun _ => 0) (IGroup ex_in_read) x 0) [0; 1; 2; 3] = 
    [Some (CAlpha 0); Some (CAlpha 0); Some (CNRGBA64 (mk64 0 0 0 0)); Some (CAlpha 0)].
Proof.
  split; [|split; [|split; [|split; [|split; [|split; [|split; [|split]]]]]]].
  - apply ex_holds. constructor; [|constructor]. constructor; [|constructor| |reflexivity].
    + constructor; look; try reflexivity. split; [unfold is_int; lia|]. exists (str "1"). split; [discriminate|].
      split; [repeat constructor; vm_compute; discriminate|]. right. split; reflexivity.
    + look. member_at 3%nat.
  - vm_compute. reflexivity.
  - constructor; [reflexivity|reflexivity|]. unfold inside. cbn. lia.
  - apply ex_holds. constructor; [|constructor]. constructor; [constructor; look; reflexivity|exact I|constructor; [|constructor]].
    constructor; [|constructor| |reflexivity].
    + constructor; look; try reflexivity. num.
    + look. member_at 1%nat.
  - constructor; [|constructor]. constructor; cbn; lia.
  - intros [(k & y & i & u & v & [<-|[]] & C & P) _]. inversion P; subst. unfold inside in *. cbn in *. lia.
  - exists (hd ex_neg ex_in). split; [left; reflexivity|]. constructor; [reflexivity|reflexivity|]. unfold inside. cbn. lia.
  - vm_compute. reflexivity.
  - vm_compute. reflexivity.
Qed.
