(** What the decoder reads from a source it also reads from a longer one, unless
    it ran into the end. *)
Require Import Verif.Base Verif.L_List Verif.M_Color Verif.M_Composite Verif.M_Rect Verif.M_Image Verif.M_Reader Verif.M_Rle Verif.M_Compressed
  Verif.M_Monad Verif.M_Groups Verif.M_Decode Verif.L_Rle3 Verif.L_Sticky.
From Coq Require Import ZifyBool ZifyNat.

(** the end of the source was met *)
Definition atEnd (o : option err) : Prop := o = Some EEOF \/ o = Some EUnexpectedEOF.
(** [m'] does what [m] does if [m] does not meet the end; the error of [m] stays *)
Definition exM {A} (m m' : M A) : Prop :=
  keeps m /\ forall st a st', m st = Ret (a, st') -> ~ atEnd (rErr st') -> m' st = Ret (a, st').
Lemma x_refl {A} (m : M A) : keeps m -> exM m m. Proof. split; [assumption|]. auto. Qed.
Lemma x_ret {A} (a : A) : exM (retM a) (retM a). Proof. apply x_refl, k_ret. Qed.
Lemma x_bind {A B} (m m' : M A) (f f' : A -> M B) : exM m m' -> (forall a, exM (f a) (f' a)) -> exM (bindM m f) (bindM m' f').
Proof.
  intros [K1 H1] H2. split; [apply k_bind; [exact K1|]; intros a; apply H2|]. intros st b st' E N. unfold bindM in *.
  destruct (m st) as [[a st1]| |] eqn:E1; try discriminate.
  destruct (H2 a) as [K2 X2]. rewrite (H1 _ _ _ E1).
  - exact (X2 _ _ _ E N).
  - intros Q. apply N. destruct Q as [Q|Q]; rewrite (K2 _ _ _ _ Q E); [now left|now right].
Qed.
Lemma x_panic {A} w : exM (@panicM A w) (panicM w). Proof. apply x_refl, k_panic. Qed.
Lemma x_nofuel {A} : exM (fun _ : rst => @NoFuel (A * rst)) (fun _ => NoFuel). Proof. split; intros st e; intros; discriminate. Qed.
Lemma x_err : exM errM errM. Proof. apply x_refl, k_err. Qed.
Lemma x_if {A} (b : bool) (m m' n n' : M A) : exM m m' -> exM n n' -> exM (if b then m else n) (if b then m' else n'). Proof. now destruct b. Qed.
Lemma x_while {S R} fuel (b b' : S -> M (S + R)) : (forall s, exM (b s) (b' s)) -> forall s, exM (whileM fuel b s) (whileM fuel b' s).
Proof.
  intros H. induction fuel as [|n IH]; intros s; cbn [whileM]; [apply x_nofuel|].
  apply x_bind; [apply H|]. intros [x|r]; [apply IH|apply x_ret].
Qed.
Lemma x_count {S R} n (b b' : S -> M (S + R)) : (forall s, exM (b s) (b' s)) -> forall s, exM (countM n b s) (countM n b' s).
Proof. intros H. induction n as [|n IH]; intros s; cbn [countM]; [apply x_ret|]. apply x_bind; [apply H|]. intros [x|r]; [apply IH|apply x_ret]. Qed.
Lemma x_list {A} n (m m' : M A) : exM m m' -> exM (listM n m) (listM n m').
Proof. intros H. induction n as [|n IH]; cbn [listM]; [apply x_ret|]. apply x_bind; [exact H|]. intros a. apply x_bind; [exact IH|]. intros. apply x_ret. Qed.
Lemma x_lift {A} (f f' : rst -> A * rst) : keeps (liftM f) -> (forall st, ~ atEnd (rErr (snd (f st))) -> f' st = f st) -> exM (liftM f) (liftM f').
Proof. intros K H. split; [exact K|]. intros st a st' E N. unfold liftM in *. injection E as E. rewrite H by (now rewrite E). now rewrite E. Qed.
Lemma x_act (f f' : rst -> rst) : keeps (actM f) -> (forall st, ~ atEnd (rErr (f st)) -> f' st = f st) -> exM (actM f) (actM f').
Proof. intros K H. split; [exact K|]. intros st a st' E N. unfold actM in *. injection E as <- E. rewrite H by (now rewrite E). now rewrite E. Qed.

Lemma end_setError st x : atEnd (rErr st) -> atEnd (rErr (setError st x)).
Proof. intros [Q|Q]; rewrite (setError_err _ _ _ Q), Q; [now left|now right]. Qed.

Section X.
Variables (s s' : src) (t : list Z).
Hypothesis EX : sFile s' = sFile s ++ t.
Hypothesis NS : sShort s = false.

Lemma rest_ext st : rest s st = [] \/ rest s' st = rest s st ++ t.
Proof.
  unfold rest. rewrite EX, zlen_app. pose proof (zlen_pos t). pose proof (zlen_pos (sFile s)).
  destruct (rPos st <? 0) eqn:P; [now left|]. cbn [orb].
  destruct (zlen (sFile s) <=? rPos st) eqn:Q; [now left|]. right.
  replace (zlen (sFile s) + zlen t <=? rPos st) with false by lia. unfold zdrop. rewrite skipn_app.
  replace (Z.to_nat (rPos st) - length (sFile s))%nat with 0%nat by (unfold zlen in *; lia). reflexivity.
Qed.
Lemma rest_longer st : zlen (rest s st) <= zlen (rest s' st).
Proof. pose proof (zlen_pos t). pose proof (zlen_pos (rest s' st)). destruct (rest_ext st) as [-> | ->]; [exact H0|]. rewrite zlen_app. lia. Qed.
Lemma rest_take st k : k <= zlen (rest s st) -> ztake k (rest s' st) = ztake k (rest s st) /\ k <= zlen (rest s' st).
Proof.
  intros H. pose proof (rest_longer st). split; [|lia]. destruct (rest_ext st) as [E|E].
  - rewrite E in *. unfold zlen in H. cbn in H. unfold ztake. replace (Z.to_nat k) with 0%nat by lia. reflexivity.
  - rewrite E. unfold ztake, zlen in *. rewrite firstn_app. replace (Z.to_nat k - length (rest s st))%nat with 0%nat by lia. cbn. now rewrite app_nil_r.
Qed.
Lemma full_ext k st : ~ atEnd (rErr (snd (readFull s k st))) -> readFull s' k st = readFull s k st.
Proof.
  unfold readFull. destruct (rErr st) eqn:E; [reflexivity|]. cbv zeta. destruct (k <=? zlen (rest s st)) eqn:Q.
  - intros _. destruct (rest_take st k ltac:(lia)) as [-> ?]. now replace (k <=? zlen (rest s' st)) with true by lia.
  - intros N. exfalso. apply N. cbn. destruct (rest s st); [now left|now right].
Qed.
Lemma be_ext k st : ~ atEnd (rErr (snd (readBE s k st))) -> readBE s' k st = readBE s k st.
Proof. unfold readBE. intros N. rewrite full_ext; [reflexivity|]. now destruct (readFull s k st). Qed.
Lemma some_ext k st : ~ atEnd (rErr (snd (readSome s k st))) -> readSome s' k st = readSome s k st.
Proof.
  unfold readSome. destruct (rErr st) eqn:E; [reflexivity|]. cbv zeta. destruct (rest s st) as [|b r] eqn:R.
  { intros N. exfalso. apply N. now left. }
  destruct (k <=? zlen (b :: r)) eqn:Q.
  - intros _. rewrite <- R in *. destruct (rest_take st k ltac:(lia)) as [T ?]. destruct (rest s' st) as [|b' r'] eqn:R'.
    { destruct (rest_ext st) as [X|X]; [congruence|]. rewrite R', R in X. discriminate. }
    rewrite T. now replace (k <=? zlen (b' :: r')) with true by lia.
  - rewrite NS. intros N. exfalso. apply N. now left.
Qed.
Lemma copy_ext k st : ~ atEnd (rErr (snd (copyN s k st))) -> copyN s' k st = copyN s k st.
Proof.
  unfold copyN. destruct (k <=? 0); [reflexivity|]. destruct (rErr st) eqn:E; [reflexivity|]. cbv zeta. destruct (k <=? zlen (rest s st)) eqn:Q.
  - intros _. destruct (rest_take st k ltac:(lia)) as [-> ?]. now replace (k <=? zlen (rest s' st)) with true by lia.
  - intros N. exfalso. apply N. now left.
Qed.
Lemma x_be k : exM (liftM (readBE s k)) (liftM (readBE s' k)). Proof. apply x_lift; [apply k_be|]. intros. now apply be_ext. Qed.
Lemma x_rd8 : exM (rd8 s) (rd8 s'). Proof. apply x_be. Qed.
Lemma x_rd32 : exM (rd32 s) (rd32 s'). Proof. apply x_be. Qed.
Lemma x_rd64 : exM (rd64 s) (rd64 s'). Proof. apply x_be. Qed.
Lemma x_rdPtr m : exM (rdPtr s m) (rdPtr s' m). Proof. apply x_if; apply x_be. Qed.
Lemma x_rdi32 : exM (rdi32 s) (rdi32 s').
Proof. apply x_lift; [apply k_rdi32|]. intros st N. unfold readInt32 in *. rewrite be_ext; [reflexivity|]. now destruct (readBE s 4 st). Qed.
Lemma x_rdBool : exM (rdBool s) (rdBool s').
Proof.
  apply x_lift; [apply k_rdBool|]. intros st N. unfold readBoolProperty, readUint32 in *. rewrite be_ext; [reflexivity|].
  intros Q. apply N. clear N. destruct (readBE s 4 st) as [v st1]. cbn [snd] in Q. destruct (v =? 0), (v =? 1); try exact Q.
  cbn [snd]. now apply end_setError.
Qed.
Lemma x_rdStr : exM (rdStr s) (rdStr s').
Proof.
  apply x_lift; [apply k_rdStr|]. intros st N. unfold readString, readUint32 in *. rewrite be_ext.
  - destruct (readBE s 4 st) as [n st1]. destruct (n =? 0); [reflexivity|]. destruct (maxString <? n); [reflexivity|].
    rewrite full_ext; [reflexivity|]. destruct (readFull s n st1) as [[b|] st2]; [|exact N].
    intros Q. apply N. clear N. cbn [snd] in Q. assert (W : forall x, atEnd (rErr (setError st2 x))).
    { intros x. now apply end_setError. }
    destruct (znth b (n - 1)) as [[| |]|]; try destruct (utf8_valid _); cbn [snd]; auto.
  - intros Q. apply N. clear N. destruct (readBE s 4 st) as [n st1]. cbn [snd] in Q.
    destruct Q as [Q|Q]; (destruct (n =? 0); [cbn [snd]; rewrite Q; unfold atEnd; auto|]; destruct (maxString <? n); cbn [snd];
      [rewrite (setError_err _ _ _ Q), Q; unfold atEnd; auto|rewrite (readFull_err _ _ _ _ Q); cbn [snd]; rewrite Q; unfold atEnd; auto]).
Qed.
Lemma x_skM n : exM (skM n) (skM n). Proof. apply x_refl, k_skM. Qed.
Lemma x_gotoM n : exM (gotoM n) (gotoM n). Proof. apply x_refl, k_gotoM. Qed.
Lemma x_skStr : exM (skStr s) (skStr s').
Proof.
  apply x_act; [apply k_skStr|]. intros st N. unfold skipString, readUint32 in *. rewrite be_ext; [reflexivity|].
  destruct (readBE s 4 st) as [n st1]. now rewrite skip_err in N.
Qed.
Lemma x_setErr x : exM (setErrM x) (setErrM x). Proof. apply x_refl, k_setErr. Qed.
Lemma x_readSome k : exM (liftM (readSome s k)) (liftM (readSome s' k)). Proof. apply x_lift; [apply k_readSome|]. intros. now apply some_ext. Qed.
Lemma x_alloc b : exM (allocM b) (allocM b). Proof. apply x_refl, k_alloc. Qed.
Lemma x_skip0 : exM skipM skipM. Proof. apply x_ret. Qed.

Ltac x1 := cbv zeta; first
  [ apply x_ret | apply x_skip0 | apply x_panic | apply x_nofuel | apply x_err | apply x_rd8 | apply x_rd32 | apply x_rd64 | apply x_rdPtr | apply x_rdi32 | apply x_rdBool | apply x_rdStr
  | apply x_skM | apply x_gotoM | apply x_skStr | apply x_setErr | apply x_readSome | apply x_alloc
  | apply x_bind; [|intros ?] | apply x_if | apply x_while; intros ? | apply x_count; intros ? | apply x_list
  | match goal with |- exM (match ?x with _ => _ end) _ => destruct x end ].
Tactic Notation "x" := repeat x1.
Tactic Notation "x" "with" tactic(t) := repeat first [t | x1].
Variable fuel : nat.
Lemma x_readParasites l : exM (readParasites fuel s l) (readParasites fuel s' l). Proof. unfold readParasites, par_body. x. Qed.
Lemma x_skipPaths : exM (skipPaths s) (skipPaths s'). Proof. unfold skipPaths. x. Qed.
Lemma x_skipVectors : exM (skipVectors s) (skipVectors s'). Proof. unfold skipVectors, skipParasite, skipStroke. x. Qed.
Lemma x_imgprop b y : exM (imgprop_body fuel s b y) (imgprop_body fuel s' b y).
Proof. unfold imgprop_body, readRGB. x with first [apply x_readParasites | apply x_skipPaths | apply x_skipVectors]. Qed.
Lemma x_imgProps b : exM (readImageProperties fuel s b) (readImageProperties fuel s' b).
Proof. unfold readImageProperties. x with apply x_imgprop. Qed.
Lemma x_pointers m : exM (readLayerPointers fuel s m) (readLayerPointers fuel s' m). Proof. unfold readLayerPointers. x. Qed.
Lemma x_header : exM (readHeader s) (readHeader s'). Proof. unfold readHeader. x. Qed.
Variables (f32op : Z -> Z) (ptext : list Z -> tres) (d : dparams).
Lemma x_props l : exM (readProperties fuel s f32op d l) (readProperties fuel s' f32op d l).
Proof. unfold readProperties, lprop_body. x with apply x_readParasites. Qed.
Lemma x_by64 {S} limit (b b' : Z -> S -> M S) y : (forall v y, exM (b v y) (b' v y)) -> exM (by64M fuel limit b y) (by64M fuel limit b' y).
Proof. intros K. unfold by64M. x with apply K. Qed.

Lemma header_ext m r st : ~ atEnd (rErr (snd (rle_header s m r st))) -> rle_header s' m r st = rle_header s m r st.
Proof.
  unfold rle_header, readUint8, readUint16. destruct (m <? 127).
  { intros N. rewrite be_ext; [reflexivity|]. now destruct (readBE s 1 st). }
  destruct (m =? 127).
  { intros N. rewrite be_ext.
    - destruct (readBE s 2 st) as [c st1]. rewrite be_ext; [reflexivity|]. now destruct (readBE s 1 st1).
    - intros [Q|Q]; apply N; destruct (readBE s 2 st) as [c st1]; cbn [snd] in Q; rewrite (readBE_err _ _ _ _ Q); cbn [snd]; rewrite Q; [now left|now right]. }
  destruct (m =? 128); [|reflexivity].
  intros N. rewrite be_ext; [reflexivity|]. now destruct (readBE s 2 st).
Qed.
Lemma rle_err_end n : forall out p c r st rr, atEnd (rErr st) -> rle_loop n s out p c r st = Ret rr -> atEnd (rErr (rrSt rr)).
Proof. intros out p c r st rr [Q|Q] E; rewrite (rle_loop_err _ _ _ _ _ _ _ _ _ Q E); [now left|now right]. Qed.
Lemma rle_ext n : forall k out p c r st rr, (n <= k)%nat -> rle_loop n s out p c r st = Ret rr -> ~ atEnd (rErr (rrSt rr)) ->
  rle_loop k s' out p c r st = Ret rr.
Proof.
  induction n as [|n IH]; intros k out p c r st rr L; (destruct p as [|b p]; [destruct k; auto|]).
  - cbn [rle_loop]. destruct k; cbn [rle_loop]; (destruct (rErr st); [auto|discriminate]).
  - destruct k as [|k]; [lia|]. cbn [rle_loop]. destruct (rErr st) as [e|] eqn:E0; [auto|].
    assert (B : forall r st, (let c0 := Z.min (rleCount r) (zlen (b :: p)) in
          let (w, st) := if repeatByte r then (repeat (rleData r) (Z.to_nat c0), st) else readSome s c0 st in
          let w := w ++ ztake (c0 - zlen w) (zdrop (zlen w) (b :: p)) in
          rle_loop n s (out ++ w) (zdrop c0 (b :: p)) (c + c0) (mkRle (repeatByte r) (rleData r) (u16 (rleCount r - c0))) st) = Ret rr ->
        ~ atEnd (rErr (rrSt rr)) ->
        (let c0 := Z.min (rleCount r) (zlen (b :: p)) in
          let (w, st) := if repeatByte r then (repeat (rleData r) (Z.to_nat c0), st) else readSome s' c0 st in
          let w := w ++ ztake (c0 - zlen w) (zdrop (zlen w) (b :: p)) in
          rle_loop k s' (out ++ w) (zdrop c0 (b :: p)) (c + c0) (mkRle (repeatByte r) (rleData r) (u16 (rleCount r - c0))) st) = Ret rr).
    { clear r st E0. intros r st. cbv zeta. destruct (repeatByte r).
      - intros E N. apply IH; [lia|exact E|exact N].
      - intros E N. rewrite some_ext.
        + destruct (readSome s _ st) as [w st1]. apply IH; [lia|exact E|exact N].
        + intros Q. apply N. destruct (readSome s _ st) as [w st1]. eapply rle_err_end; eassumption. }
    cbv zeta in B |- *. destruct (rleCount r =? 0); [|apply B]. unfold readUint8.
    destruct (readBE s 1 st) as [m st1] eqn:E1. intros E N.
    assert (N1 : ~ atEnd (rErr st1)).
    { intros Q. apply N. destruct (rErr st1) as [e|] eqn:E2; [|destruct Q; discriminate]. injection E as <-. cbn. now rewrite E2. }
    rewrite be_ext by (now rewrite E1). rewrite E1. destruct (rErr st1) as [e|] eqn:E2; [exact E|].
    destruct (rle_header s m r st1) as [r2 st2] eqn:E3.
    assert (N2 : ~ atEnd (rErr st2)).
    { intros Q. apply N. destruct (rErr st2) as [e|] eqn:E4; [|destruct Q; discriminate]. injection E as <-. cbn [rrSt].
      unfold eof_to_unexpected. rewrite E4. destruct Q as [[= ->]|[= ->]]; cbn; [|rewrite E4]; now right. }
    rewrite header_ext by (now rewrite E3). rewrite E3. destruct (rErr st2) as [e|] eqn:E4; [exact E|]. now apply B.
Qed.
Lemma x_rleRead p r : exM (fun st => match rle_Read s p r st with Ret rr => Ret (rr, rrSt rr) | Panic w => Panic w | NoFuel => NoFuel end)
  (fun st => match rle_Read s' p r st with Ret rr => Ret (rr, rrSt rr) | Panic w => Panic w | NoFuel => NoFuel end).
Proof.
  split.
  - intros st y a st' H. destruct (rle_Read _ _ _ _) as [rr| |] eqn:E; try discriminate. intros [= <- <-]. eapply rle_loop_err; eauto.
  - intros st a st'. destruct (rle_Read s p r st) as [rr| |] eqn:E; try discriminate. intros [= <- <-] N. unfold rle_Read in *.
    erewrite rle_ext; [reflexivity| |exact E|exact N]. unfold rle_fuel. pose proof (rest_longer st). unfold zlen in *. lia.
Qed.
Lemma rRLE_end n : forall c out st y, atEnd (rErr st) -> readRLE_loop n s c out st = Ret y -> atEnd (rErr (snd y)).
Proof. intros c out st y [Q|Q] E; rewrite (readRLE_err _ _ _ _ _ _ _ Q E); [now left|now right]. Qed.
Lemma rRLE_ext n : forall k c out st y, (n <= k)%nat -> readRLE_loop n s c out st = Ret y -> ~ atEnd (rErr (snd y)) ->
  readRLE_loop k s' c out st = Ret y.
Proof.
  induction n as [|n IH]; intros k c out st y L.
  - cbn [readRLE_loop]. destruct k; cbn [readRLE_loop]; (destruct (0 <? c); [discriminate|auto]).
  - destruct k as [|k]; [lia|]. cbn [readRLE_loop]. destruct (0 <? c); [|auto]. unfold readUint8, readUint16.
    assert (T : forall st w, atEnd (rErr st) -> atEnd (rErr (snd (readBE s w st)))).
    { intros st0 w [Q|Q]; rewrite (readBE_err _ _ _ _ Q); cbn [snd]; rewrite Q; [now left|now right]. }
    assert (T' : forall st w, atEnd (rErr st) -> atEnd (rErr (snd (copyN s w st)))).
    { intros st0 w [Q|Q]; rewrite (copyN_err _ _ _ _ Q), Q; [now left|now right]. }
    destruct (readBE s 1 st) as [b st1] eqn:E1. intros E N.
    assert (N1 : ~ atEnd (rErr st1)).
    { intros Q. apply N. clear N. destruct (b <? 127).
      { destruct (readBE s 1 st1) as [v st2] eqn:E2. eapply rRLE_end; [|exact E]. pose proof (T st1 1 Q) as X. now rewrite E2 in X. }
      destruct (b =? 127).
      { destruct (readBE s 2 st1) as [v st2] eqn:E2. destruct (readBE s 1 st2) as [v' st3] eqn:E3. eapply rRLE_end; [|exact E].
        pose proof (T st1 2 Q) as X. rewrite E2 in X. pose proof (T st2 1 X) as X'. now rewrite E3 in X'. }
      destruct (b =? 128).
      { destruct (readBE s 2 st1) as [v st2] eqn:E2. destruct (copyN s v st2) as [v' st3] eqn:E3. eapply rRLE_end; [|exact E].
        pose proof (T st1 2 Q) as X. rewrite E2 in X. pose proof (T' st2 v X) as X'. now rewrite E3 in X'. }
      destruct (copyN s (256 - b) st1) as [v' st3] eqn:E3. eapply rRLE_end; [|exact E].
      pose proof (T' st1 (256 - b) Q) as X'. now rewrite E3 in X'. }
    rewrite be_ext by (now rewrite E1). rewrite E1. destruct (b <? 127).
    { destruct (readBE s 1 st1) as [v st2] eqn:E2. rewrite be_ext; rewrite E2.
      - apply IH; [lia|exact E|exact N].
      - intros Q. apply N. eapply rRLE_end; [|exact E]. exact Q. }
    destruct (b =? 127).
    { destruct (readBE s 2 st1) as [v st2] eqn:E2. destruct (readBE s 1 st2) as [v' st3] eqn:E3.
      assert (N3 : ~ atEnd (rErr st3)) by (intros Q; apply N; eapply rRLE_end; [|exact E]; exact Q).
      rewrite be_ext; rewrite E2; [rewrite be_ext; rewrite E3|]; [apply IH; [lia|exact E|exact N]|exact N3|].
      intros Q. apply N3. pose proof (T st2 1 Q) as X. now rewrite E3 in X. }
    destruct (b =? 128).
    { destruct (readBE s 2 st1) as [v st2] eqn:E2. destruct (copyN s v st2) as [v' st3] eqn:E3.
      assert (N3 : ~ atEnd (rErr st3)) by (intros Q; apply N; eapply rRLE_end; [|exact E]; exact Q).
      rewrite be_ext; rewrite E2; [rewrite copy_ext; rewrite E3|]; [apply IH; [lia|exact E|exact N]|exact N3|].
      intros Q. apply N3. pose proof (T' st2 v Q) as X. now rewrite E3 in X. }
    destruct (copyN s (256 - b) st1) as [v' st3] eqn:E3.
    assert (N3 : ~ atEnd (rErr st3)) by (intros Q; apply N; eapply rRLE_end; [|exact E]; exact Q).
    rewrite copy_ext; rewrite E3; [apply IH; [lia|exact E|exact N]|exact N3].
Qed.
Lemma x_rRLE n : exM (fun st => match readRLE s n st with Ret (b, e, st) => Ret ((b, e), st) | Panic w => Panic w | NoFuel => NoFuel end)
  (fun st => match readRLE s' n st with Ret (b, e, st) => Ret ((b, e), st) | Panic w => Panic w | NoFuel => NoFuel end).
Proof.
  split; [apply k_rle|]. intros st a st'. destruct (readRLE s n st) as [[[b e] st1]| |] eqn:E; try discriminate. intros [= <- <-] N.
  unfold readRLE in *. erewrite rRLE_ext with (y := (b, e, st1)); [reflexivity| |exact E|exact N]. pose proof (rest_longer st). unfold zlen in *. lia.
Qed.
Lemma x_setErrO y : exM (actM (fun st => setErrorO st y)) (actM (fun st => setErrorO st y)). Proof. apply x_refl, k_setErrO. Qed.
Lemma x_eager mode bpp w h a b e : exM (eager_tile s d mode bpp w h a b e) (eager_tile s' d mode bpp w h a b e).
Proof. unfold eager_tile. x with first [apply x_rleRead | apply x_setErrO]. Qed.
Lemma x_comp bpp w h a b ts : exM (comp_tile s bpp w h a b ts) (comp_tile s' bpp w h a b ts).
Proof. unfold comp_tile. x with first [apply x_rRLE | apply x_setErrO]. Qed.
Lemma x_readImage w h m : exM (readImage fuel s d w h m) (readImage fuel s' d w h m).
Proof.
  unfold readImage, readTiles, readAndDecompressImage, readCompressedImage.
  x with first [apply x_by64; intros | apply x_eager | apply x_comp].
Qed.
Lemma x_channel : exM (readChannel fuel s d) (readChannel fuel s' d).
Proof. unfold readChannel, skipProperties. x with apply x_readImage. Qed.
Lemma x_layer : exM (readLayer fuel s f32op ptext d) (readLayer fuel s' f32op ptext d).
Proof. unfold readLayer, finishLayer, readMask. x with first [apply x_props | apply x_readImage | apply x_channel]. Qed.
Lemma x_layerAt p x : readLayerAt fuel s f32op ptext d p = Ret x -> ~ atEnd (snd x) -> readLayerAt fuel s' f32op ptext d p = Ret x.
Proof.
  unfold readLayerAt. assert (K : exM (gotoM p;;; readLayer fuel s f32op ptext d) (gotoM p;;; readLayer fuel s' f32op ptext d)) by (x with apply x_layer).
  destruct ((gotoM p;;; readLayer fuel s f32op ptext d) (mkR 0 None)) as [[l st]| |] eqn:E; try discriminate. intros [= <-] N.
  destruct K as [_ K]. now rewrite (K _ _ _ E N).
Qed.
End X.
