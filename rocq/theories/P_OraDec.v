(** C58, C59: the ORA decoder on any archive. *)
Require Import Verif.Base Verif.M_Color Verif.M_Composite Verif.M_Rect Verif.M_Image Verif.M_Groups Verif.M_Ora Verif.S_Ora
  Verif.L_List Verif.L_Groups Verif.L_Ora.
From Coq Require Import String.
Open Scope Z_scope.
Open Scope list_scope.

(** the fuel of the model's Decode always suffices *)
Theorem oraDecode_fuel L ms : oraDecode L ms <> None.
Proof.
  unfold oraDecode. destruct (_ <-! _;; _) as [[[s lim] ts]|x]; [|discriminate].
  destruct (read_fuel L ms lim (mEnd s) (S (List.length ts)) (S (List.length ts)) 0 0 ts) as (r & -> & _); [lia|lia|].
  destruct r as [[ls t]|x]; discriminate.
Qed.
Print Assumptions oraDecode_fuel.

(** ** C58 *)
(** two members that agree on everything Decode looks at except the tokens *)
Definition same_but_tokens (s s' : member) : Prop :=
  mName s' = mName s /\ mOpen s' = mOpen s /\ mEnd s' = mEnd s /\ mImage s' = mImage s.

Lemma getStack_swap pre s s' post a :
  mName s = str "stack.xml" -> mName s' = str "stack.xml" ->
  match getStack_loop (pre ++ s :: post) a, getStack_loop (pre ++ s' :: post) a with
  | inl m, inl m' => m = m' \/ (m = s /\ m' = s')
  | inr x, inr y => x = y
  | _, _ => False
  end.
Proof.
  intros N N'. revert a. induction pre as [|m pre IH]; intros a; cbn [app getStack_loop].
  - rewrite N, N', !key_eqb_refl.
    assert (forall b b', b = b' \/ (b = Some s /\ b' = Some s') ->
      match getStack_loop post b, getStack_loop post b' with
      | inl m, inl m' => m = m' \/ (m = s /\ m' = s') | inr x, inr y => x = y | _, _ => False end) as G.
    { induction post as [|m post IH]; intros b b' [->|[-> ->]]; cbn [getStack_loop].
      - destruct b'; [left|]; reflexivity.
      - right; split; reflexivity.
      - destruct (key_eqb (mName m) (str "stack.xml")); [apply IH; auto|].
        destruct (key_eqb (mName m) (str "mimetype")); [|apply IH; auto].
        destruct (checkMime m); [apply IH; auto|reflexivity].
      - destruct (key_eqb (mName m) (str "stack.xml")); [apply IH; auto|].
        destruct (key_eqb (mName m) (str "mimetype")); [|apply IH; auto].
        destruct (checkMime m); [apply IH; auto|reflexivity]. }
    apply G. right; split; reflexivity.
  - destruct (key_eqb (mName m) (str "stack.xml")); [apply IH|].
    destruct (key_eqb (mName m) (str "mimetype")); [|apply IH].
    destruct (checkMime m); [apply IH|reflexivity].
Qed.

Lemma findImage_swap pre s s' post src : same_but_tokens s s' ->
  findImage (pre ++ s' :: post) src = findImage (pre ++ s :: post) src.
Proof.
  intros (N & O & _ & I). induction pre as [|m pre IH]; cbn [app findImage].
  - rewrite N, I. unfold open. rewrite O. reflexivity.
  - destruct (key_eqb (mName m) src); [reflexivity|apply IH].
Qed.

Lemma readStack_members f L ms ms' lim e : (forall src, findImage ms' src = findImage ms src) ->
  forall ox oy ts, readStack f L ms' lim e ox oy ts = readStack f L ms lim e ox oy ts.
Proof.
  intros F. induction f as [|f IH]; intros ox oy ts; [reflexivity|]. cbn [readStack].
  destruct ts as [|[n as_| |] ts]; [reflexivity| |reflexivity|apply IH].
  destruct (key_eqb n (str "stack")).
  - destruct (processLayerAttrs L as_ la0) as [a|x]; [|reflexivity]. rewrite IH.
    destruct (readStack f L ms lim e (ox + laX a) (oy + laY a) ts) as [[[g t]|x]|]; try reflexivity. rewrite IH. reflexivity.
  - destruct (key_eqb n (str "layer")).
    + destruct (processLayerAttrs L as_ la0) as [a|x]; cbn [rbind]; [|reflexivity]. rewrite F.
      destruct (findImage ms (laSrc a)) as [i|x]; cbn [rbind]; [|reflexivity].
      destruct (skipTag e ts 0) as [t|x]; cbn [rbind]; [|reflexivity]. rewrite IH. reflexivity.
    + destruct (skipTag e ts 0); [apply IH|reflexivity].
Qed.

Lemma getDimensions_root e pre as_ ts : Forall (fun t => match t with TStart _ _ => False | _ => True end) pre ->
  getDimensions e (pre ++ TStart (str "image") as_ :: ts) = wh <-! dims as_ None None;; inl (wh, ts).
Proof.
  induction 1 as [|t pre Ht _ IH]; cbn [app getDimensions].
  - rewrite key_eqb_refl. reflexivity.
  - destruct t; [contradiction| |]; exact IH.
Qed.

(** Whole elements other than <stack> and <layer> may be added anywhere inside
    the root element of stack.xml (before, between, inside stacks, inside
    layers, inside other unknown elements), with any content, and any character
    data, comments and the like: Decode returns the same. *)
Theorem C58_unknown L pre post s s' as_ ts us :
  mName s = str "stack.xml" ->
  same_but_tokens s s' ->
  root (mTokens s) (str "image") as_ ts ->
  root (mTokens s') (str "image") as_ us ->
  adds ts us ->
  oraDecode L (pre ++ s' :: post) = oraDecode L (pre ++ s :: post).
Proof.
  intros N Q (p1 & E1 & P1) (p2 & E2 & P2) A. pose proof Q as (N' & O & Ee & _).
  assert (mName s' = str "stack.xml") as Ns by congruence.
  pose proof (getStack_swap pre s s' post None N Ns) as G. fold (getStack (pre ++ s :: post)) in G.
  fold (getStack (pre ++ s' :: post)) in G.
  pose proof (fun src => findImage_swap pre s s' post src Q) as F.
  set (ms := pre ++ s :: post) in *. set (ms' := pre ++ s' :: post) in *. clearbody ms ms'.
  unfold oraDecode. destruct (getStack ms) as [m|x], (getStack ms') as [m'|x']; try contradiction; cbn [rbind].
  - destruct G as [<-|[-> ->]].
    + destruct (open m); cbn [rbind]; [|reflexivity].
      destruct (getDimensions (mEnd m) (mTokens m)) as [r|]; cbn [rbind]; [|reflexivity].
      destruct (toStack (mEnd m) (snd r) None) as [t|]; cbn [rbind]; [|reflexivity].
      rewrite (readStack_members _ L ms ms' (fst r) (mEnd m) F). reflexivity.
    + unfold open. rewrite O. destruct (mOpen s); cbn [rbind]; [|reflexivity].
      rewrite E1, E2, Ee, !getDimensions_root by assumption.
      destruct (dims as_ None None) as [wh|]; cbn [rbind fst snd]; [|reflexivity].
      pose proof (toStack_adds (mEnd s) ts us A) as T.
      destruct (toStack (mEnd s) ts None) as [t1|], (toStack (mEnd s) us None) as [t2|]; try contradiction; cbn [rbind].
      * rewrite Ee, (readStack_members _ L ms ms' wh (mEnd s) F).
        pose proof (read_adds L ms wh (mEnd s) (S (List.length t2)) (S (List.length t1)) 0 0 t1 t2 T ltac:(lia) ltac:(lia)) as R.
        destruct (readStack (S (List.length t1)) L ms wh (mEnd s) 0 0 t1) as [[[l1 q1]|x1]|],
          (readStack (S (List.length t2)) L ms wh (mEnd s) 0 0 t2) as [[[l2 q2]|x2]|]; cbn in R; try contradiction; auto.
        -- destruct R as (-> & _). reflexivity.
        -- subst. reflexivity.
      * subst. reflexivity.
  - subst. reflexivity.
Qed.
Print Assumptions C58_unknown.

(** a small archive: one layer 4x2 at (1,0); with a <text> element before it, an
    unknown element containing a <stack> and a <layer>, and content inside the layer *)
Definition C58_pic : image := ILeaf (mkPic (mkRect 0 0 4 2) KNRGBA (fun _ _ => Some (CAlpha 7))).
Definition C58_libs : libs := mkLibs (fun _ => None) (fun _ => []) (fun _ => None) (fun s => s) (fun q => q).
Definition C58_stack (ts : list token) : member :=
  mkMember (str "stack.xml") 0 true [] (TOther :: TStart (str "image") [(str "w", str "8"); (str "h", str "8")] :: ts) OEOF None.
Definition C58_png : member := mkMember (str "data/1.png") 0 true [] [] OEOF (Some C58_pic).
Definition C58_layer : token := TStart (str "layer") [(str "x", str "1"); (str "src", str "data/1.png")].
Definition C58_plain : list token := [TStart (str "stack") []; C58_layer; TEnd; TEnd; TEnd].
Definition C58_noisy : list token :=
  [TStart (str "text") [(str "x", str "?")]; TStart (str "stack") []; C58_layer; TEnd; TEnd; TEnd; TOther;
   TStart (str "stack") []; TOther; C58_layer; TStart (str "meta") []; C58_layer; TEnd; TEnd; TEnd;
   TStart (str "filter") []; TEnd; TEnd; TEnd].
Example C58_ex :
  adds C58_plain C58_noisy /\
  oraDecode C58_libs [C58_stack C58_noisy; C58_png] = oraDecode C58_libs [C58_stack C58_plain; C58_png] /\
  oraDecode C58_libs [C58_stack C58_plain; C58_png] =
    Some (inl [mkLayer [] (mkRect 1 0 5 2) MNormal false 0 C58_pic]).
Proof.
  assert (adds C58_plain C58_noisy) as A.
  { unfold C58_plain, C58_noisy.
    apply (adds_elem (str "text") _ [TStart (str "stack") []; C58_layer; TEnd; TEnd]).
    - split; intros H; discriminate H.
    - apply (bal_elem _ _ [C58_layer; TEnd] []); [|constructor]. apply (bal_elem _ _ [] []); constructor.
    - apply adds_other, adds_same, adds_other, adds_same.
      apply (adds_elem (str "meta") _ [C58_layer; TEnd]); [split; intros H; discriminate H| |].
      + apply (bal_elem _ _ [] []); constructor.
      + apply adds_same. apply (adds_elem (str "filter") _ []); [split; intros H; discriminate H|constructor|].
        repeat constructor. }
  split; [exact A|]. split.
  - apply (C58_unknown C58_libs [] [C58_png] (C58_stack C58_plain) (C58_stack C58_noisy)
             [(str "w", str "8"); (str "h", str "8")] C58_plain C58_noisy); [reflexivity| | | |exact A].
    + repeat split.
    + exists [TOther]. repeat constructor.
    + exists [TOther]. repeat constructor.
  - vm_compute. reflexivity.
Qed.

(** ** C59 *)
Lemma mime16 : str "image/openraster" = mimetypeStr. Proof. reflexivity. Qed.
Lemma checkMime_good m : checkMime m = true <-> good_mime m.
Proof.
  unfold checkMime, good_mime. change (zlen mimetypeStr) with 16.
  split.
  - destruct (Z.eqb_spec (mSize m) 16); cbn [negb]; [|discriminate].
    destruct (mOpen m); cbn [negb]; [|discriminate].
    destruct (Z.ltb_spec (zlen (mBytes m)) 16); [discriminate|]. intros Hk. apply key_eqb_eq in Hk.
    split; [assumption|]. split; [reflexivity|]. exists (zdrop 16 (mBytes m)).
    rewrite mime16, <- Hk. symmetry. apply ztake_zdrop.
  - intros (-> & -> & r & ->). cbn [negb]. change (16 =? 16) with true. cbn [negb].
    rewrite zlen_app. change (zlen (str "image/openraster")) with 16. pose proof (zlen_pos r).
    destruct (Z.ltb_spec (16 + zlen r) 16); [lia|].
    rewrite ztake_app by reflexivity. apply key_eqb_refl.
Qed.

Definition mimes_ok (ms : list member) : Prop := Forall (fun m => mName m = str "mimetype" -> good_mime m) ms.

Lemma getStack_loop_spec ms : forall a,
  match getStack_loop ms a with
  | inl s => mimes_ok ms /\ (the_stack ms s \/ (a = Some s /\ Forall (fun m => mName m <> str "stack.xml") ms))
  | inr OInvalidMime => ~ mimes_ok ms
  | inr OMissingStack => mimes_ok ms /\ a = None /\ Forall (fun m => mName m <> str "stack.xml") ms
  | inr _ => False
  end.
Proof.
  unfold mimes_ok.
  induction ms as [|m ms IH]; intros a; cbn [getStack_loop].
  - destruct a; repeat split; auto.
  - destruct (key_eqb (mName m) (str "stack.xml")) eqn:K.
    + apply key_eqb_eq in K. specialize (IH (Some m)).
      assert (mName m = str "mimetype" -> good_mime m) as G by (rewrite K; discriminate).
      destruct (getStack_loop ms (Some m)) as [s|[]]; try contradiction.
      * destruct IH as [O [(p & q & -> & Ns & F)|[[= <-] F]]]; (split; [constructor; assumption|left]).
        -- exists (m :: p), q. repeat split; auto.
        -- exists [], ms. repeat split; auto.
      * destruct IH as (_ & H & _). discriminate.
      * intros H. apply IH. inversion H; assumption.
    + assert (mName m <> str "stack.xml") as N by (intros E; rewrite E, key_eqb_refl in K; discriminate).
      destruct (key_eqb (mName m) (str "mimetype")) eqn:K2.
      * destruct (checkMime m) eqn:C.
        -- apply checkMime_good in C. specialize (IH a).
           destruct (getStack_loop ms a) as [s|[]]; try contradiction.
           ++ destruct IH as [O [(p & q & -> & Ns & F)|[E F]]]; (split; [constructor; auto|]).
              ** left. exists (m :: p), q. repeat split; auto.
              ** right. auto.
           ++ destruct IH as (O & E & F). repeat split; auto.
           ++ intros H. apply IH. inversion H; assumption.
        -- intros H. inversion H as [|? ? H1 _]; subst. apply key_eqb_eq in K2. apply H1 in K2.
           apply checkMime_good in K2. congruence.
      * assert (mName m = str "mimetype" -> good_mime m) as G
          by (intros E; rewrite E, key_eqb_refl in K2; discriminate).
        specialize (IH a).
        destruct (getStack_loop ms a) as [s|[]]; try contradiction.
        -- destruct IH as [O [(p & q & -> & Ns & F)|[E F]]]; (split; [constructor; auto|]).
           ** left. exists (m :: p), q. repeat split; auto.
           ** right. auto.
        -- destruct IH as (O & E & F). repeat split; auto.
        -- intros H. apply IH. inversion H; assumption.
Qed.

Lemma config_decode_err L ms e : oraConfig ms = inr e -> oraDecode L ms = Some (inr e).
Proof.
  unfold oraConfig, oraDecode. destruct (getStack ms) as [s|]; cbn [rbind]; [|congruence].
  destruct (open s); cbn [rbind]; [|congruence].
  destruct (getDimensions (mEnd s) (mTokens s)); cbn [rbind]; congruence.
Qed.

(** An archive with a wrong mimetype member is rejected. *)
Theorem C59_mime L ms m : In m ms -> mName m = str "mimetype" -> ~ good_mime m ->
  oraConfig ms = inr OInvalidMime /\ oraDecode L ms = Some (inr OInvalidMime).
Proof.
  intros I N G.
  assert (oraConfig ms = inr OInvalidMime) as C.
  { unfold oraConfig, getStack. pose proof (getStack_loop_spec ms None) as S.
    assert (~ mimes_ok ms) as M by (intros M; apply G; unfold mimes_ok in M; rewrite Forall_forall in M; auto).
    destruct (getStack_loop ms None) as [s|[]]; try contradiction; try (destruct S; contradiction). reflexivity. }
  split; [exact C|apply config_decode_err, C].
Qed.
Print Assumptions C59_mime.

(** An archive without stack.xml is rejected. *)
Theorem C59_missing L ms : (forall m, In m ms -> mName m <> str "stack.xml") ->
  exists e, (e = OMissingStack \/ e = OInvalidMime) /\ oraConfig ms = inr e /\ oraDecode L ms = Some (inr e).
Proof.
  intros N. unfold oraConfig, oraDecode, getStack. pose proof (getStack_loop_spec ms None) as S.
  destruct (getStack_loop ms None) as [s|[]]; cbn [rbind]; try contradiction.
  - destruct S as [_ [(p & q & -> & Ns & _)|[H _]]]; [|discriminate].
    destruct (N s); [|assumption]. apply in_or_app. right. left. reflexivity.
  - exists OMissingStack. auto.
  - exists OInvalidMime. auto.
Qed.
Print Assumptions C59_missing.

(** ... with ErrMissingStack unless a mimetype member is wrong *)
Theorem C59_missing_err L ms : (forall m, In m ms -> mName m <> str "stack.xml") ->
  (forall m, In m ms -> mName m = str "mimetype" -> good_mime m) ->
  oraDecode L ms = Some (inr OMissingStack).
Proof.
  intros N M. unfold oraDecode, getStack. pose proof (getStack_loop_spec ms None) as S.
  destruct (getStack_loop ms None) as [s|[]]; cbn [rbind]; try contradiction.
  - destruct S as [_ [(p & q & -> & Ns & _)|[H _]]]; [|discriminate].
    destruct (N s); [|assumption]. apply in_or_app. right. left. reflexivity.
  - reflexivity.
  - destruct S. apply Forall_forall. auto.
Qed.
Print Assumptions C59_missing_err.

Lemma getDimensions_spec e ts :
  match getDimensions e ts with
  | inl (wh, rest) => exists as_, root ts (str "image") as_ rest /\ dims as_ None None = inl wh
  | inr _ => forall as_ rest, root ts (str "image") as_ rest -> exists x, dims as_ None None = inr x
  end.
Proof.
  induction ts as [|[n as_| |] ts IH]; cbn [getDimensions].
  - destruct e; intros as_ rest ([|] & H & _); discriminate.
  - destruct (key_eqb n (str "image")) eqn:K.
    + apply key_eqb_eq in K. subst.
      destruct (dims as_ None None) as [wh|x] eqn:D; cbn [rbind].
      * exists as_. split; [exists []; auto|exact D].
      * intros as' rest ([|t p] & H & F); cbn in H.
        -- injection H as <- _. eauto.
        -- injection H as <- _. inversion F; contradiction.
    + intros as' rest ([|t p] & H & F); cbn in H.
      * injection H as -> _. rewrite key_eqb_refl in K. discriminate.
      * injection H as <- _. inversion F; contradiction.
  - destruct (getDimensions e ts) as [[wh rest]|x].
    + destruct IH as (as_ & (p & -> & F) & D). exists as_. split; [|exact D]. exists (TEnd :: p). split; [reflexivity|].
      constructor; auto.
    + intros as_ rest ([|t p] & H & F); cbn in H; [discriminate|]. injection H as <- ->.
      apply (IH as_ rest). exists p. split; [reflexivity|]. inversion F; assumption.
  - destruct (getDimensions e ts) as [[wh rest]|x].
    + destruct IH as (as_ & (p & -> & F) & D). exists as_. split; [|exact D]. exists (TOther :: p). split; [reflexivity|].
      constructor; auto.
    + intros as_ rest ([|t p] & H & F); cbn in H; [discriminate|]. injection H as <- ->.
      apply (IH as_ rest). exists p. split; [reflexivity|]. inversion F; assumption.
Qed.

(** the attributes [k] of an element, all numbers, the last being [n] *)
Definition declares (k : string) (as_ : list (list Z * list Z)) (n : Z) : Prop :=
  (forall v, In (str k, v) as_ -> exists z, atoi v = Some z) /\
  exists p q v, as_ = p ++ (str k, v) :: q /\ atoi v = Some n /\ (forall v', ~ In (str k, v') q).

Lemma atoi_err_inl v z : atoi_err v = inl z <-> atoi v = Some z.
Proof. unfold atoi_err. destruct (atoi v); split; congruence. Qed.

Definition dim_ok (k : string) (as_ : list (list Z * list Z)) (a : option Z) (n : Z) : Prop :=
  declares k as_ n \/ (a = Some n /\ forall v, ~ In (str k, v) as_).

Lemma declares_cons k k' v as_ n : k' <> str k -> (declares k ((k', v) :: as_) n <-> declares k as_ n).
Proof.
  intros N. unfold declares. split.
  - intros (A & p & q & w & E & H & Q). split; [intros; apply A; right; assumption|].
    destruct p as [|x p]; cbn in E; [injection E as E1 _ _; congruence|]. injection E as <- ->. eauto 10.
  - intros (A & p & q & w & -> & H & Q). split.
    + intros u [[= E _]|I]; [congruence|auto].
    + exists ((k', v) :: p), q, w. auto.
Qed.
Lemma dim_ok_skip k k' v as_ a n : k' <> str k -> (dim_ok k ((k', v) :: as_) a n <-> dim_ok k as_ a n).
Proof.
  intros N. unfold dim_ok. rewrite declares_cons by assumption. split.
  - intros [H|[-> H]]; [left; assumption|right]. split; [reflexivity|]. intros u I. apply (H u). right. assumption.
  - intros [H|[-> H]]; [left; assumption|right]. split; [reflexivity|]. intros u [[= E _]|I]; [congruence|]. apply (H u). assumption.
Qed.
Lemma dim_ok_hit k v as_ a n :
  dim_ok k ((str k, v) :: as_) a n <-> exists z, atoi v = Some z /\ dim_ok k as_ (Some z) n.
Proof.
  unfold dim_ok, declares. split.
  - intros [(A & p & q & w & E & H & Q)|[_ H]]; [|destruct (H v); left; reflexivity].
    destruct (A v) as (z & Hz); [left; reflexivity|]. exists z. split; [assumption|].
    destruct p as [|x p]; cbn in E.
    + injection E as <- <-. right. split; [congruence|assumption].
    + injection E as <- ->. left. split; [intros; apply A; right; assumption|]. eauto 10.
  - intros (z & Hz & [(A & p & q & w & -> & H & Q)|[[= ->] H]]); left.
    + split; [intros u [[= <-]|I]; [eauto|auto]|]. exists ((str k, v) :: p), q, w. auto.
    + split; [intros u [[= <-]|I]; [eauto|destruct (H u); assumption]|]. exists [], as_, v. auto.
Qed.

Lemma dims_spec as_ : forall a b w h,
  dims as_ a b = inl (w, h) <-> dim_ok "w" as_ a w /\ dim_ok "h" as_ b h.
Proof.
  induction as_ as [|[k v] as_ IH]; intros a b w h; cbn [dims].
  - unfold dim_ok, declares. split.
    + destruct a, b; try discriminate. intros [= -> ->]. split; right; auto.
    + intros [[(_ & p & q & u & E & _)|[-> _]] [(_ & p' & q' & u' & E' & _)|[-> _]]];
        try (destruct p; discriminate); try (destruct p'; discriminate). reflexivity.
  - destruct (key_eqb k (str "w")) eqn:K.
    + apply key_eqb_eq in K. subst k. rewrite dim_ok_hit, (dim_ok_skip "h") by (intros E; discriminate E).
      unfold atoi_err. destruct (atoi v) as [z|]; cbn [rbind].
      * rewrite IH. split; [intros [A B]; eauto|]. intros [(y & [= <-] & A) B]. auto.
      * split; [discriminate|]. intros [(y & E & _) _]. discriminate.
    + assert (k <> str "w") as N by (intros ->; rewrite key_eqb_refl in K; discriminate).
      rewrite (dim_ok_skip "w") by assumption.
      destruct (key_eqb k (str "h")) eqn:K2.
      * apply key_eqb_eq in K2. subst k. rewrite dim_ok_hit.
        unfold atoi_err. destruct (atoi v) as [z|]; cbn [rbind].
        -- rewrite IH. split; [intros [A B]; eauto|]. intros [A (y & [= <-] & B)]. auto.
        -- split; [discriminate|]. intros [_ (y & E & _)]. discriminate.
      * assert (k <> str "h") as N2 by (intros ->; rewrite key_eqb_refl in K2; discriminate).
        rewrite (dim_ok_skip "h") by assumption. apply IH.
Qed.

Lemma the_stack_unique ms s s' : the_stack ms s -> the_stack ms s' -> s' = s.
Proof.
  intros (p & q & E & N & F) (p' & q' & E' & N' & F'). rewrite Forall_forall in F, F'. rewrite E in E'. clear E.
  revert p' E'. induction p as [|x p IH]; intros [|y p'] E'; cbn in E'; injection E' as H1 H2.
  - congruence.
  - destruct (F s'); [|assumption]. subst q. apply in_or_app. right. left. reflexivity.
  - destruct (F' s); [|assumption]. subst q'. apply in_or_app. right. left. reflexivity.
  - apply (IH p'). assumption.
Qed.
Lemma root_unique ts n n' a a' r r' : root ts n a r -> root ts n' a' r' -> n' = n /\ a' = a /\ r' = r.
Proof.
  intros (p & E & F) (p' & E' & F'). rewrite E in E'. clear E. revert p' F' E'.
  induction p as [|x p IH]; intros [|y p'] F' E'; cbn in E'.
  - injection E' as -> -> ->. auto.
  - injection E' as <- _. inversion F'. contradiction.
  - injection E' as -> _. inversion F. contradiction.
  - injection E' as _ H2. inversion F. inversion F'. apply (IH ltac:(assumption) p'); assumption.
Qed.

(** DecodeConfig reports (w, h) exactly for the archives whose mimetype members
    (if any) are right, whose (last) stack.xml can be opened, and whose root
    element is <image> with the declared width and height. *)
Theorem C59_config ms w h :
  oraConfig ms = inl (w, h) <->
  (forall m, In m ms -> mName m = str "mimetype" -> good_mime m) /\
  exists s as_ rest, the_stack ms s /\ mOpen s = true /\
    root (mTokens s) (str "image") as_ rest /\ declares "w" as_ w /\ declares "h" as_ h.
Proof.
  assert (forall as_, dims as_ None None = inl (w, h) <-> declares "w" as_ w /\ declares "h" as_ h) as D.
  { intros as_. rewrite dims_spec. unfold dim_ok. split.
    - intros [[A|[A _]] [B|[B _]]]; try discriminate. auto.
    - intros [A B]. auto. }
  unfold oraConfig, getStack. pose proof (getStack_loop_spec ms None) as S. unfold mimes_ok in S.
  split.
  - destruct (getStack_loop ms None) as [s|x]; cbn [rbind]; [|discriminate].
    destruct S as [M [T|[T _]]]; [|discriminate]. unfold open. destruct (mOpen s) eqn:O; cbn [rbind]; [|discriminate].
    pose proof (getDimensions_spec (mEnd s) (mTokens s)) as G.
    destruct (getDimensions (mEnd s) (mTokens s)) as [[wh rest]|]; cbn [rbind fst]; [|discriminate]. intros [= ->].
    destruct G as (as_ & R & E). apply D in E. destruct E. split; [exact (proj1 (Forall_forall _ _) M)|]. exists s, as_, rest. auto.
  - intros (M & s & as_ & rest & T & O & R & A).
    destruct (getStack_loop ms None) as [s'|x].
    + assert (s' = s) as -> by (destruct S as [_ [S|[S _]]]; [eapply the_stack_unique; eassumption|discriminate]).
      cbn [rbind]. unfold open. rewrite O. cbn [rbind].
      destruct R as (pre & -> & F). rewrite getDimensions_root by assumption.
      rewrite (proj2 (D as_)) by assumption. reflexivity.
    + exfalso. destruct x; try contradiction; [|apply S, Forall_forall; exact M].
      destruct S as (_ & _ & F). rewrite Forall_forall in F. destruct T as (p & q & -> & N & _).
      apply (F s); [|assumption]. apply in_or_app. right. left. reflexivity.
Qed.
Print Assumptions C59_config.

(** A stack whose root element has no width or no height is rejected. *)
Theorem C59_size L ms s as_ rest k :
  the_stack ms s -> root (mTokens s) (str "image") as_ rest -> k = "w"%string \/ k = "h"%string ->
  (forall v, ~ In (str k, v) as_) ->
  exists e, oraConfig ms = inr e /\ oraDecode L ms = Some (inr e).
Proof.
  intros T R K N. destruct (oraConfig ms) as [[w h]|e] eqn:C.
  - exfalso. apply C59_config in C. destruct C as (M & s' & as' & rest' & T' & O & R' & Dw & Dh).
    assert (s' = s) as -> by (eapply the_stack_unique; eassumption).
    destruct (root_unique _ _ _ _ _ _ _ R R') as (_ & -> & _).
    destruct K as [->| ->].
    + destruct Dw as (_ & p & q & v & -> & _). apply (N v). apply in_or_app. right. left. reflexivity.
    + destruct Dh as (_ & p & q & v & -> & _). apply (N v). apply in_or_app. right. left. reflexivity.
  - exists e. split; [reflexivity|]. apply config_decode_err. assumption.
Qed.
Print Assumptions C59_size.

(** whatever DecodeConfig rejects, Decode rejects with the same error *)
Theorem C59_agree L ms e : oraConfig ms = inr e -> oraDecode L ms = Some (inr e).
Proof. apply config_decode_err. Qed.
Print Assumptions C59_agree.

(** a stack without an element, or with another root than image, is refused as an invalid
    stack (also when the document just ends) *)
Theorem C59_root L ms s : (forall m, In m ms -> mName m = str "mimetype" -> good_mime m) -> the_stack ms s -> mOpen s = true ->
  (mEnd s = OEOF /\ Forall (fun t => match t with TStart _ _ => False | _ => True end) (mTokens s) \/
   exists n as_ rest, n <> str "image" /\ root (mTokens s) n as_ rest) ->
  oraConfig ms = inr OInvalidStack /\ oraDecode L ms = Some (inr OInvalidStack).
Proof.
  intros M T O R. assert (oraConfig ms = inr OInvalidStack) as C; [|split; [exact C|apply config_decode_err, C]].
  unfold oraConfig, getStack. pose proof (getStack_loop_spec ms None) as S. destruct (getStack_loop ms None) as [s'|x].
  - assert (s' = s) as -> by (destruct S as [_ [S|[S _]]]; [eapply the_stack_unique; eassumption|discriminate]).
    cbn [rbind]. unfold open. rewrite O. cbn [rbind].
    enough (getDimensions (mEnd s) (mTokens s) = inr OInvalidStack) as -> by reflexivity.
    destruct R as [[-> F]|(n & as_ & rest & N & pre & -> & F)].
    + induction F as [|[| |] ts H _ IH]; try contradiction; auto.
    + induction F as [|[| |] ts H _ IH]; try contradiction; auto. cbn [app getDimensions].
      destruct (key_eqb n (str "image")) eqn:K; [apply key_eqb_eq in K; contradiction|reflexivity].
  - exfalso. destruct x; try contradiction; [|apply S, Forall_forall; exact M].
    destruct S as (_ & _ & F). rewrite Forall_forall in F. destruct T as (p & q & -> & N & _).
    apply (F s); [|assumption]. apply in_or_app. right. left. reflexivity.
Qed.
Print Assumptions C59_root.

Definition C59_mimetype (b : list Z) : member := mkMember (str "mimetype") (zlen b) true b [] OEOF None.
Example C59_ex :
  oraConfig [C59_mimetype (str "image/openraster"); C58_stack C58_plain; C58_png] = inl (8, 8) /\
  oraConfig [C59_mimetype (str "image/openRaster"); C58_stack C58_plain] = inr OInvalidMime /\
  oraConfig [C58_stack C58_plain; C59_mimetype (str "image/openraster ")] = inr OInvalidMime /\
  oraDecode C58_libs [C59_mimetype (str "image/openraster"); C58_png] = Some (inr OMissingStack) /\
  oraConfig [mkMember (str "stack.xml") 0 true [] [TOther] OEOF None] = inr OInvalidStack /\
  oraConfig [mkMember (str "stack.xml") 0 true [] [TStart (str "image") [(str "w", str "8")]; TEnd] OEOF None] = inr OInvalidStack /\
  oraConfig [mkMember (str "stack.xml") 0 true [] [TStart (str "image") [(str "w", str "8"); (str "h", str "-3")]; TEnd] OEOF None] = inl (8, -3).
Proof. vm_compute. repeat split; reflexivity. Qed.
