(** C63 reading and skipping old-style paths agree; C64 ReadVectors. *)
Require Import Verif.Base Verif.L_List Verif.L_Word Verif.M_Reader Verif.L_Reader Verif.M_Rle Verif.M_Groups Verif.M_Monad Verif.M_Decode
  Verif.M_Encode Verif.L_Encode Verif.S_String Verif.S_File Verif.L_String Verif.L_Run Verif.L_File Verif.L_Wp Verif.L_Decode Verif.M_Paths.
From Coq Require Import ZifyBool ZifyNat.

Section Inv.
Variable s : src.
Hypothesis Hlen : zlen (sFile s) <= 16777216.
Hypothesis Hbytes : Forall is_u8 (sFile s).

Lemma bindM_inv {A B} (m : M A) (f : A -> M B) st b st' : bindM m f st = Ret (b, st') ->
  exists a st1, m st = Ret (a, st1) /\ f a st1 = Ret (b, st').
Proof. unfold bindM. destruct (m st) as [[a st1]|w|]; [|discriminate|discriminate]. intros H. now exists a, st1. Qed.

(** a successful read: where it was, where it is *)
Definition moved (st : rst) (k : Z) (st' : rst) : Prop :=
  rErr st = None /\ 0 <= rPos st /\ rPos st + k <= zlen (sFile s) /\ st' = mkR (rPos st + k) None.
Lemma readBE_inv k st v st' : 0 < k -> readBE s k st = (v, st') -> rErr st' = None -> moved st k st'.
Proof.
  intros K. unfold readBE, readFull, moved. destruct st as [p e]. cbn [rPos rErr]. destruct e as [e|].
  - intros H. injection H as _ <-. cbn. discriminate.
  - unfold rest. cbn [rPos]. destruct ((p <? 0) || (zlen (sFile s) <=? p)) eqn:B.
    + change (zlen (@nil Z)) with 0. replace (k <=? 0) with false by lia. intros H. injection H as _ <-. cbn. discriminate.
    + rewrite zlen_zdrop by lia. destruct (k <=? zlen (sFile s) - p) eqn:C.
      * intros H _. injection H as _ <-. unfold advance. cbn. repeat split; lia.
      * intros H. injection H as _ <-. cbn. discriminate.
Qed.
Lemma rd32_inv st v st' : rd32 s st = Ret (v, st') -> rErr st' = None -> moved st 4 st'.
Proof. unfold rd32, liftM. intros H. injection H as H. now apply (readBE_inv 4 st v). Qed.
Lemma rd8_inv st v st' : rd8 s st = Ret (v, st') -> rErr st' = None -> moved st 1 st'.
Proof. unfold rd8, liftM. intros H. injection H as H. now apply (readBE_inv 1 st v). Qed.
Lemma rdi32_inv st v st' : rdi32 s st = Ret (v, st') -> rErr st' = None -> moved st 4 st'.
Proof.
  unfold rdi32, liftM, readInt32. destruct (readBE s 4 st) as [w st1] eqn:E. intros H. injection H as _ <-. now apply (readBE_inv 4 st w).
Qed.
Lemma setError_err st e : rErr (setError st e) <> None.
Proof. unfold setError. destruct st as [p [x|]]; cbn; discriminate. Qed.
Lemma rdBool_inv st v st' : rdBool s st = Ret (v, st') -> rErr st' = None -> moved st 4 st'.
Proof.
  unfold rdBool, liftM, readBoolProperty, readUint32. destruct (readBE s 4 st) as [w st1] eqn:E. intros H N. apply (readBE_inv 4 st w); [lia| |exact N].
  destruct (w =? 0); [injection H as _ <-; exact E|]. destruct (w =? 1); injection H as _ <-; [exact E|].
  exfalso. eapply setError_err; eauto.
Qed.
Lemma rdStr_inv st v st' : rdStr s st = Ret (v, st') -> rErr st' = None ->
  exists n, fst (readUint32 s st) = n /\ 0 <= n /\ moved st (4 + n) st' /\ moved st 4 (snd (readUint32 s st)).
Proof.
  unfold rdStr, liftM, readString, readUint32. destruct (readBE s 4 st) as [n st1] eqn:E. cbn [fst snd]. intros H N. exists n. split; [reflexivity|].
  destruct (n =? 0) eqn:Z0.
  { injection H as _ <-. pose proof (readBE_inv 4 st n st1 ltac:(lia) E N) as Mv. replace (4 + n) with 4 by lia. repeat split; try apply Mv; lia. }
  destruct (maxString <? n) eqn:MX.
  { injection H as _ <-. exfalso. eapply setError_err; eauto. }
  assert (X : exists b st2, readFull s n st1 = (b, st2) /\ rErr st2 = None /\ st2 = st').
  { destruct (readFull s n st1) as [o st2] eqn:R. destruct o as [b|].
    - destruct (znth b (n - 1)) as [z|]; [|injection H as _ <-; exfalso; eapply setError_err; eauto].
      destruct z as [|z|z]; try (injection H as _ <-; exfalso; eapply setError_err; eauto; fail).
      destruct (utf8_valid (ztake (n - 1) b)); injection H as _ <-; [|exfalso; eapply setError_err; eauto].
      exists (Some b), st2. auto.
    - injection H as _ <-. exists None, st2. auto. }
  destruct X as (b & st2 & R & N2 & ->).
  assert (N0 : 0 <= n).
  { destruct (readBE_spec s Hbytes ltac:(lia) 4 st ltac:(lia)) as (_ & B & _). rewrite E in B. cbn [fst] in B. lia. }
  assert (N1 : rErr st1 = None).
  { unfold readFull in R. destruct (rErr st1) eqn:E1; [injection R as _ <-; congruence|reflexivity]. }
  pose proof (readBE_inv 4 st n st1 ltac:(lia) E N1) as M1. split; [exact N0|]. split; [|exact M1].
  assert (R' : readBE s n st1 = (match b with Some l => be l | None => 0 end, st')) by (unfold readBE; now rewrite R).
  pose proof (readBE_inv n st1 _ st' ltac:(lia) R' N2) as M2. destruct M1 as (A1 & A2 & A3 & ->). destruct M2 as (B1 & B2 & B3 & ->).
  cbn [rPos] in *. unfold moved. repeat split; try lia; auto. f_equal. lia.
Qed.

Lemma skip_ok p n : 0 <= p <= 4294967296 -> 0 <= n <= 4294967296 -> skip n (mkR p None) = mkR (p + n) None.
Proof. intros P N. pose proof (runs_skip p n (p + n) ltac:(lia) ltac:(lia) ltac:(lia) ltac:(lia) eq_refl) as R. unfold runs, skM, actM in R. now injection R. Qed.
Lemma skM_ok k st st' : moved st k st' -> 0 <= k -> skM k st = Ret (tt, st').
Proof. intros (A & B & C & ->) K. destruct st as [p e]. cbn [rPos rErr] in *. subst e. unfold skM, actM. rewrite skip_ok by lia. reflexivity. Qed.
Lemma skStr_ok st v st' : rdStr s st = Ret (v, st') -> rErr st' = None -> skStr s st = Ret (tt, st').
Proof.
  intros H N. destruct (rdStr_inv st v st' H N) as (n & E & N0 & (A & B & C & ->) & (A1 & B1 & C1 & E1)).
  unfold skStr, actM, skipString. destruct (readUint32 s st) as [m st1]. cbn [fst snd] in *. subst m st1.
  rewrite skip_ok by lia. do 3 f_equal. lia.
Qed.
Ltac inv1 H x st H1 := apply bindM_inv in H; destruct H as (x & st & H1 & H).
Ltac seterr H N := let K := fresh "K" in exfalso; apply bindM_inv in H; destruct H as (? & ? & K & H); injection K as _ <-; injection H as _ <-; eapply setError_err; eauto.

(** errors stay *)
Definition ek {A} (m : M A) : Prop := forall st a st', m st = Ret (a, st') -> rErr st' = None -> rErr st = None.
Lemma ek_bind {A B} (m : M A) (f : A -> M B) : ek m -> (forall a, ek (f a)) -> ek (bindM m f).
Proof. intros Hm Hf st b st' H N. apply bindM_inv in H. destruct H as (a & st1 & H1 & H2). eapply Hm; [exact H1|]. eapply Hf; eauto. Qed.
Lemma ek_ret {A} (a : A) : ek (retM a).
Proof. intros st b st' H. injection H as _ <-. auto. Qed.
Lemma ek_rd32 : ek (rd32 s). Proof. intros st v st' H N. now destruct (rd32_inv _ _ _ H N). Qed.
Lemma ek_rd8 : ek (rd8 s). Proof. intros st v st' H N. now destruct (rd8_inv _ _ _ H N). Qed.
Lemma ek_rdi32 : ek (rdi32 s). Proof. intros st v st' H N. now destruct (rdi32_inv _ _ _ H N). Qed.
Lemma ek_rdBool : ek (rdBool s). Proof. intros st v st' H N. now destruct (rdBool_inv _ _ _ H N). Qed.
Lemma ek_rdStr : ek (rdStr s). Proof. intros st v st' H N. destruct (rdStr_inv _ _ _ H N) as (n & _ & _ & (A & _) & _). exact A. Qed.
Lemma ek_skM n : ek (skM n).
Proof. intros st v st' H N. injection H as _ <-. unfold skip in N. destruct (_ <? 0); [exact N|exact N]. Qed.
Lemma ek_setErr e : ek (setErrM e).
Proof. intros st v st' H N. injection H as _ <-. exfalso. eapply setError_err; eauto. Qed.
Lemma ek_list {A} (m : M A) n : ek m -> ek (listM n m).
Proof. intros K. induction n as [|n IH]; cbn [listM]; [apply ek_ret|]. apply ek_bind; [exact K|]. intros a. apply ek_bind; [exact IH|]. intros l. apply ek_ret. Qed.
Lemma ek_count {A R} (b : A -> M (A + R)) n : (forall x, ek (b x)) -> forall x, ek (countM n b x).
Proof. intros K. induction n as [|n IH]; intros x; cbn [countM]; [apply ek_ret|]. apply ek_bind; [apply K|]. intros [y|r]; [apply IH|apply ek_ret]. Qed.
Ltac ekt := repeat first [apply ek_bind; [|intros ?] | apply ek_ret | apply ek_rd32 | apply ek_rd8 | apply ek_rdi32 | apply ek_rdBool | apply ek_rdStr | apply ek_skM | apply ek_setErr
  | apply ek_list | match goal with |- ek (if ?b then _ else _) => destruct b end].
Lemma ek_readPathPoint v : ek (readPathPoint s v). Proof. unfold readPathPoint. ekt. Qed.
Lemma ek_readPath l : ek (readPath s l).
Proof. unfold readPath, skipM. ekt. Qed.

Lemma readPathPoint_inv v st a st' : readPathPoint s v st = Ret (a, st') -> rErr st' = None -> moved st 12 st'.
Proof.
  unfold readPathPoint. intros H N. apply bindM_inv in H. destruct H as (c & st1 & H1 & H).
  assert (X : moved st1 8 st').
  { destruct (v =? 1); apply bindM_inv in H; destruct H as (x & st2 & H2 & H); apply bindM_inv in H; destruct H as (y & st3 & H3 & H); injection H as _ ->;
      [pose proof (rdi32_inv _ _ _ H3 N) as (A & B & C & ->); pose proof (rdi32_inv _ _ _ H2 A) as (A' & B' & C' & ->)
      |pose proof (rd32_inv _ _ _ H3 N) as (A & B & C & ->); pose proof (rd32_inv _ _ _ H2 A) as (A' & B' & C' & ->)];
      cbn [rPos rErr] in *; unfold moved; (repeat split; try lia; auto; f_equal; lia). }
  destruct X as (A & B & C & ->). pose proof (rdBool_inv _ _ _ H1 A) as (A' & B' & C' & ->). cbn [rPos rErr] in *.
  unfold moved. repeat split; try lia; auto. f_equal; lia.
Qed.
Lemma readPoints_inv v n : forall st l st', listM n (readPathPoint s v) st = Ret (l, st') -> rErr st' = None ->
  0 <= rPos st <= zlen (sFile s) + 8 -> rErr st = None /\ st' = mkR (rPos st + 12 * Z.of_nat n) None /\ (n <> O -> rPos st + 12 * Z.of_nat n <= zlen (sFile s)).
Proof.
  induction n as [|n IH]; intros st l st' H N P; cbn [listM] in H.
  - injection H as _ <-. split; [exact N|]. split; [|congruence]. destruct st as [p e]. cbn in *. subst e. f_equal. lia.
  - apply bindM_inv in H. destruct H as (a & st1 & H1 & H). apply bindM_inv in H. destruct H as (l' & st2 & H2 & H). injection H as _ <-.
    pose proof (ek_list _ n (ek_readPathPoint v) _ _ _ H2 N) as N1. destruct (readPathPoint_inv _ _ _ _ H1 N1) as (A & B & C & ->). cbn [rPos rErr] in *.
    destruct (IH _ _ _ H2 N ltac:(cbn; lia)) as (_ & -> & D). cbn [rPos] in *. split; [exact A|]. split; [f_equal; lia|].
    intros _. destruct n as [|n]; [lia|]. specialize (D ltac:(discriminate)). lia.
Qed.
(** one path: the body of SkipPaths does the same *)
Definition skip_path (_ : unit) : M (unit + unit) :=
  skStr s;;; skM 4;;; skM 1;;; skM 4;;;
  np <- rd32 s;;
  v <- rd32 s;;
  (if v =? 1 then skM (u32 (12 * np));;; retM (inl tt)
   else if v =? 2 then skM 4;;; skM (u32 (12 * np));;; retM (inl tt)
   else if v =? 3 then skM 4;;; skM 4;;; skM (u32 (12 * np));;; retM (inl tt)
   else setErrM EUnknownPathsVersion;;; retM (@inr unit unit tt)).
Lemma bind_ret {A B} (m : M A) (f : A -> M B) st a st1 : m st = Ret (a, st1) -> bindM m f st = f a st1.
Proof. unfold bindM. now intros ->. Qed.
Lemma rd32_nonneg st v st' : rd32 s st = Ret (v, st') -> 0 <= v < 4294967296.
Proof.
  unfold rd32, liftM, readUint32. intros H. injection H as H.
  destruct (readBE_spec s Hbytes ltac:(lia) 4 st ltac:(lia)) as (_ & B & _). rewrite H in B. exact B.
Qed.
Lemma readPath_skip l st r st' : readPath s l st = Ret (r, st') -> rErr st' = None ->
  skip_path tt st = Ret (inl tt, st') /\ exists l', r = inl l'.
Proof.
  unfold readPath. intros H N.
  inv1 H name st1 H0. inv1 H linked st2 H1. inv1 H state st3 H2. inv1 H closed st4 H3.
  destruct (negb _). { seterr H N. }
  inv1 H np st5 H4. inv1 H v st6 H5. destruct ((v <? 1) || (3 <? v)) eqn:V. { seterr H N. }
  inv1 H u st7 H6. inv1 H tattoo st8 H7. inv1 H pts st9 H8. injection H as <- ->.
  split; [|eauto].
  assert (N8 : rErr st8 = None) by exact (ek_list _ _ (ek_readPathPoint v) _ _ _ H8 N).
  assert (N7 : rErr st7 = None).
  { destruct (v =? 3); [exact (ek_rd32 _ _ _ H7 N8)|injection H7 as _ ->; exact N8]. }
  assert (N6 : rErr st6 = None).
  { destruct ((v =? 2) || (v =? 3)); [exact (ek_skM 4 _ _ _ H6 N7)|injection H6 as _ ->; exact N7]. }
  pose proof (rd32_inv _ _ _ H5 N6) as M5. assert (N5 : rErr st5 = None) by apply M5.
  pose proof (rd32_inv _ _ _ H4 N5) as M4. assert (N4 : rErr st4 = None) by apply M4.
  pose proof (rdBool_inv _ _ _ H3 N4) as M3. assert (N3 : rErr st3 = None) by apply M3.
  pose proof (rd8_inv _ _ _ H2 N3) as M2. assert (N2 : rErr st2 = None) by apply M2.
  pose proof (rdBool_inv _ _ _ H1 N2) as M1. assert (N1 : rErr st1 = None) by apply M1.
  pose proof (rd32_nonneg _ _ _ H4) as NP.
  unfold skip_path.
  rewrite (bind_ret _ _ _ _ _ (skStr_ok _ _ _ H0 N1)).
  rewrite (bind_ret _ _ _ _ _ (skM_ok _ _ _ M1 ltac:(lia))).
  rewrite (bind_ret _ _ _ _ _ (skM_ok _ _ _ M2 ltac:(lia))).
  rewrite (bind_ret _ _ _ _ _ (skM_ok _ _ _ M3 ltac:(lia))).
  rewrite (bind_ret _ _ _ _ _ H4). rewrite (bind_ret _ _ _ _ _ H5).
  destruct M5 as (_ & B5 & C5 & E6). 
  assert (P6 : 0 <= rPos st6 <= zlen (sFile s)) by (rewrite E6; cbn [rPos]; lia).
  assert (FIN : 0 <= rPos st8 <= zlen (sFile s) + 8 -> (skM (u32 (12 * np));;; retM (@inl unit unit tt)) st8 = Ret (inl tt, st')).
  { intros P8. destruct (readPoints_inv _ _ _ _ _ H8 N P8) as (_ & -> & D).
    assert (12 * np < 4294967296).
    { destruct (Z.eq_dec np 0) as [->|NZ]; [lia|]. specialize (D ltac:(lia)). lia. }
    rewrite u32_small by (unfold is_u32; lia). unfold bindM, skM, actM. destruct st8 as [p8 e8]. cbn [rErr rPos] in *. subst e8.
    rewrite skip_ok by lia. unfold retM. do 3 f_equal. lia. }
  assert (SK4 : forall p, 0 <= p <= zlen (sFile s) + 8 -> skM 4 (mkR p None) = Ret (tt, mkR (p + 4) None)).
  { intros p P. unfold skM, actM. rewrite skip_ok by lia. reflexivity. }
  destruct st6 as [p6 e6]. cbn [rErr rPos] in *. subst e6.
  assert (CV : v = 1 \/ v = 2 \/ v = 3) by lia. destruct CV as [->|[->| ->]].
  - cbn [Z.eqb Pos.eqb orb] in *. injection H6 as _ <-. injection H7 as _ <-. apply FIN. cbn. lia.
  - cbn [Z.eqb Pos.eqb orb] in *. rewrite SK4 in H6 by lia. injection H6 as _ <-. injection H7 as _ <-.
    rewrite (bind_ret _ _ _ _ _ (SK4 p6 ltac:(lia))). apply FIN. cbn. lia.
  - cbn [Z.eqb Pos.eqb orb] in *. rewrite SK4 in H6 by lia. injection H6 as _ <-.
    rewrite (bind_ret _ _ _ _ _ (SK4 p6 ltac:(lia))). pose proof (rd32_inv _ _ _ H7 N8) as (_ & B7 & C7 & ->). cbn [rPos rErr] in *.
    rewrite (bind_ret _ _ _ _ _ (SK4 (p6 + 4) ltac:(lia))). apply FIN. cbn. lia.
Qed.
Lemma readPaths_go n : forall l st r st', countM n (readPath s) l st = Ret (r, st') -> rErr st' = None ->
  countM n skip_path tt st = Ret (inl tt, st').
Proof.
  induction n as [|n IH]; intros l st r st' H N; cbn [countM] in *.
  - now injection H as _ <-.
  - apply bindM_inv in H. destruct H as (x & st1 & H1 & H).
    assert (N1 : rErr st1 = None).
    { destruct x as [x|x]; [exact (ek_count _ n ek_readPath _ _ _ _ H N)|injection H as _ ->; exact N]. }
    destruct (readPath_skip _ _ _ _ H1 N1) as [S [l' ->]]. rewrite (bind_ret _ _ _ _ _ S). exact (IH _ _ _ _ H N).
Qed.
End Inv.

(** ** C63
    ReadPaths ends on every input, and whenever it reports no error SkipPaths does not
    either and stands at the same place. *)
Theorem C63_agree s st : zlen (sFile s) <= 16777216 -> Forall is_u8 (sFile s) ->
  exists r st', readPaths s st = Ret (r, st') /\ (rErr st' = None -> skipPaths s st = Ret (tt, st')).
Proof.
  intros L B.
  assert (T : exists r st', readPaths s st = Ret (r, st')).
  { assert (G : forall A (m : M A), (forall x, exists r x', m x = Ret (r, x')) -> forall n x, exists r x', listM n m x = Ret (r, x')).
    { intros A m K n. induction n as [|n IH]; intros x; cbn [listM]; [now exists [], x|]. destruct (K x) as (a & x1 & E). destruct (IH x1) as (l & x2 & E2).
      exists (a :: l), x2. rewrite (bind_ret _ _ _ _ _ E), (bind_ret _ _ _ _ _ E2). reflexivity. }
    assert (GB : forall A B (m : M A) (f : A -> M B), (forall x, exists r x', m x = Ret (r, x')) -> (forall a x, exists r x', f a x = Ret (r, x')) -> forall x, exists r x', bindM m f x = Ret (r, x')).
    { intros A C m f K1 K2 x. destruct (K1 x) as (a & x1 & E). destruct (K2 a x1) as (b & x2 & E2). exists b, x2. now rewrite (bind_ret _ _ _ _ _ E). }
    assert (GL : forall A (f : rst -> A * rst) x, exists r x', liftM f x = Ret (r, x')) by (intros A f x; unfold liftM; destruct (f x); eauto).
    assert (GA : forall f x, exists r x', actM f x = Ret (r, x')) by (intros; unfold actM; eauto).
    assert (GR : forall A (a : A) x, exists r x', retM a x = Ret (r, x')) by (intros; unfold retM; eauto).
    assert (GP : forall v x, exists r x', readPathPoint s v x = Ret (r, x')).
    { intros v. unfold readPathPoint. apply GB; [apply GL|]. intros c. destruct (v =? 1); (apply GB; [apply GL|]; intros ?; apply GB; [apply GL|]; intros ?; apply GR). }
    assert (GPath : forall l x, exists r x', readPath s l x = Ret (r, x')).
    { intros l. unfold readPath. do 4 (apply GB; [apply GL|]; intros ?). destruct (negb _); [apply GB; [apply GA|]; intros ?; apply GR|].
      do 2 (apply GB; [apply GL|]; intros ?). destruct (_ || _); [apply GB; [apply GA|]; intros ?; apply GR|].
      apply GB; [destruct (_ || _); [apply GA|apply GR]|]. intros ?. apply GB; [destruct (_ =? _); [apply GL|apply GR]|]. intros ?.
      apply GB; [apply G; apply GP|]. intros ?. apply GR. }
    unfold readPaths. do 2 (apply GB; [apply GL|]; intros ?). apply GB; [|intros ?; apply GR].
    generalize (@nil opath). generalize (Z.to_nat a0). intros n. induction n as [|n IH]; intros l x; cbn [countM]; [apply GR|].
    apply GB; [apply GPath|]. intros [l'|l']; [apply IH|apply GR]. }
  destruct T as (r & st' & E). exists r, st'. split; [exact E|]. intros N.
  unfold readPaths in E. apply bindM_inv in E. destruct E as (a & st1 & E1 & E). apply bindM_inv in E. destruct E as (n & st2 & E2 & E).
  apply bindM_inv in E. destruct E as (x & st3 & E3 & E). injection E as _ <-.
  pose proof (readPaths_go s L B _ _ _ _ _ E3 N) as K.
  assert (N2 : rErr st2 = None) by exact (ek_count _ _ (ek_readPath s L B) _ _ _ _ E3 N).
  pose proof (rd32_inv s st1 n st2 E2 N2) as M2. assert (N1 : rErr st1 = None) by apply M2.
  pose proof (rd32_inv s st a st1 E1 N1) as M1.
  unfold skipPaths. rewrite (bind_ret _ _ _ _ _ (skM_ok s L _ _ _ M1 ltac:(lia))), (bind_ret _ _ _ _ _ E2), (bind_ret _ _ _ _ _ K). reflexivity.
Qed.
Print Assumptions C63_agree.

(** what a path of the format means: control points have type 1, anchors 0; version 1
    has integer coordinates *)
Definition two_complement (z : Z) : Z := if z <? 2147483648 then z else z - 4294967296.
Definition meaning (p : path) : opath :=
  mkOP (match paName p with Some l => l | None => [] end) (paLinked p =? 1) (paClosed p =? 1)
       (match paExtra p with [_; t] => t | _ => 0 end)
       (map (fun q => let '(t, x, y) := q in
             if paVersion p =? 1 then mkPP (t =? 1) (two_complement x) (two_complement y) else mkPP (t =? 1) x y) (paPoints p)).
(** a path as GIMP writes it *)
Definition regular (p : path) : Prop :=
  path_ok p /\ Forall is_word (paExtra p) /\
  (match paName p with Some l => utf8 l | None => True end) /\
  (paLinked p = 0 \/ paLinked p = 1) /\ (paClosed p = 0 /\ paState p = 2 \/ paClosed p = 1 /\ paState p = 4) /\
  Forall (fun q => let '(t, x, y) := q in (t = 0 \/ t = 1) /\ is_word x /\ is_word y) (paPoints p).

Section Values.
Variable s : src.
Hypothesis Hlen : zlen (sFile s) <= 16777216.
Lemma runs_rdotext p o : match o with Some l => utf8 l | None => True end -> holds s p (otext o) ->
  runs (rdStr s) p (match o with Some l => l | None => [] end) (p + zlen (otext o)).
Proof.
  destruct o as [l|]; intros U H; [now apply runs_text|]. cbn [otext] in *.
  pose proof (runs_word s p 0 H ltac:(unfold is_word; lia)) as R. unfold runs, rd32, liftM in R.
  unfold runs, rdStr, liftM, readString. rewrite zlen_word. destruct (readUint32 s (mkR p None)) as [n q]. injection R as -> ->. reflexivity.
Qed.
Lemma runs_boolword p z : z = 0 \/ z = 1 -> holds s p (word z) -> runs (rdBool s) p (z =? 1) (p + 4).
Proof.
  intros Z H. assert (W : is_word z) by (unfold is_word; lia). rewrite word_be32 in H by exact W.
  destruct Z as [-> | ->]; [exact (runs_rdBool s p false H)|exact (runs_rdBool s p true H)].
Qed.
Lemma runs_intword p z : is_word z -> holds s p (word z) -> runs (rdi32 s) p (two_complement z) (p + 4).
Proof.
  intros W H. rewrite word_be32 in H by exact W. pose proof (runs_rdi32 s p z H) as R. rewrite (u32_small z W) in R.
  unfold s32, two_complement in *. unfold is_word in W. rewrite Z.mod_small in R by lia. exact R.
Qed.
Ltac hs H := let G := fresh "G" in apply holds_split in H; destruct H as [G H]; rewrite ?zlen_word, ?zlen_text in H.
Lemma runs_readPath l p q : regular q -> holds s p (path_bytes q) ->
  runs (readPath s l) p (inl (l ++ [meaning q])) (p + zlen (path_bytes q)).
Proof.
  intros (OK & EW & U & LK & CL & PT) H. destruct OK as (W1 & W2 & V). pose proof (holds_small s Hlen _ _ H) as HS. pose proof (holds_range _ _ _ H) as HR.
  unfold path_bytes in *. repeat rewrite zlen_app in *. repeat rewrite ?zlen_word, ?zlen_words, ?zlen_points in *.
  change (zlen [paState q]) with 1 in *. pose proof (zlen_pos (paPoints q)). pose proof (zlen_pos (otext (paName q))).
  hs H. hs H. hs H. change (zlen [paState q]) with 1 in H. hs H. hs H. hs H. hs H. rewrite zlen_words in H.
  unfold readPath.
  eapply runs_bind; [apply runs_rdotext; [exact U|exact G]|].
  eapply runs_bind; [apply runs_boolword; [exact LK|exact G0]|].
  eapply runs_bind; [apply (runs_rd8 s); exact G1|].
  eapply runs_bind; [apply (runs_boolword _ (paClosed q)); [lia|exact G2]|].
  replace (paState q =? (if paClosed q =? 1 then 4 else 2)) with true by (destruct CL as [[-> ->]|[-> ->]]; reflexivity).
  cbn [negb].
  eapply runs_bind; [apply (runs_word s); [exact G3|unfold is_word; lia]|].
  eapply runs_bind; [apply (runs_word s); [exact G4|unfold is_word; lia]|].
  replace ((paVersion q <? 1) || (3 <? paVersion q)) with false by lia.
  set (P0 := p + zlen (otext (paName q)) + 4 + 1 + 4 + 4 + 4) in *.
  assert (PTS : forall x, x = P0 + 4 * zlen (paExtra q) -> runs (listM (Z.to_nat (zlen (paPoints q))) (readPathPoint s (paVersion q))) x (opPoints (meaning q)) (x + 12 * zlen (paPoints q))).
  { intros x ->. unfold meaning. cbn [opPoints]. rewrite length_nat. clear - H PT V Hlen. revert H. generalize (P0 + 4 * zlen (paExtra q)).
    induction (paPoints q) as [|[[t x] y] pts IH]; intros z H; cbn [flat_map map length listM] in *.
    - eapply runs_q; [apply runs_ret|]. change (zlen (@nil (Z * Z * Z))) with 0. lia.
    - pose proof (Forall_inv PT) as (T & WX & WY). pose proof (Forall_inv_tail PT) as PT'. apply holds_split in H. destruct H as [K H].
      rewrite !zlen_app, !zlen_word in H. hs K. hs K.
      assert (ONE : runs (readPathPoint s (paVersion q)) z (if paVersion q =? 1 then mkPP (t =? 1) (two_complement x) (two_complement y) else mkPP (t =? 1) x y) (z + (4 + (4 + 4)))).
      { unfold readPathPoint. eapply runs_bind; [apply (runs_boolword _ t); [exact T|exact G]|].
        destruct (paVersion q =? 1).
        - eapply runs_bind; [apply runs_intword; [exact WX|exact G0]|]. eapply runs_bind; [apply runs_intword; [exact WY|exact K]|]. eapply runs_q; [apply runs_ret|lia].
        - eapply runs_bind; [apply (runs_word s); [exact G0|exact WX]|]. eapply runs_bind; [apply (runs_word s); [exact K|exact WY]|]. eapply runs_q; [apply runs_ret|lia]. }
      eapply runs_bind; [exact ONE|]. eapply runs_bind; [apply IH; [exact PT'|exact H]|].
      rewrite zlen_cons. eapply runs_q; [apply runs_ret|lia]. }
  destruct V as [[V E]|[[V E]|[V E]]]; rewrite E in *.
  - replace ((paVersion q =? 2) || (paVersion q =? 3)) with false by lia. replace (paVersion q =? 3) with false by lia.
    eapply runs_bind; [apply runs_ret|]. eapply runs_bind; [apply runs_ret|].
    eapply runs_bind; [apply PTS; lia|].
    assert (X : paExtra q = []) by (apply zlen_zero; lia).
    replace (mkOP (match paName q with Some l => l | None => [] end) (paLinked q =? 1) (paClosed q =? 1) 0 (opPoints (meaning q))) with (meaning q) by (unfold meaning; cbn [opPoints]; now rewrite X).
    eapply runs_q; [apply runs_ret|]. lia.
  - replace ((paVersion q =? 2) || (paVersion q =? 3)) with true by lia. replace (paVersion q =? 3) with false by lia.
    eapply runs_bind; [eapply (runs_skip P0 4 (P0 + 4)); lia|]. eapply runs_bind; [apply runs_ret|].
    eapply runs_bind; [apply PTS; lia|].
    assert (X : exists a, paExtra q = [a]) by (destruct (paExtra q) as [|a [|b m]]; rewrite ?zlen_cons in E; pose proof (zlen_pos (@nil Z)); try (pose proof (zlen_pos m)); [change (zlen (@nil Z)) with 0 in E; lia|eauto|lia]).
    destruct X as [a X].
    replace (mkOP (match paName q with Some l => l | None => [] end) (paLinked q =? 1) (paClosed q =? 1) 0 (opPoints (meaning q))) with (meaning q) by (unfold meaning; cbn [opPoints]; now rewrite X).
    eapply runs_q; [apply runs_ret|]. lia.
  - replace ((paVersion q =? 2) || (paVersion q =? 3)) with true by lia. replace (paVersion q =? 3) with true by lia.
    assert (X : exists a b, paExtra q = [a; b]).
    { destruct (paExtra q) as [|a [|b [|c m]]]; rewrite ?zlen_cons in E; try (pose proof (zlen_pos m)); change (zlen (@nil Z)) with 0 in E; try lia. eauto. }
    destruct X as (a & b & X). rewrite X in G5, EW. cbn [flat_map] in G5. rewrite app_nil_r in G5. hs G5.
    eapply runs_bind; [eapply (runs_skip P0 4 (P0 + 4)); lia|].
    eapply runs_bind; [apply (runs_word s _ b); [exact G5|exact (Forall_inv (Forall_inv_tail EW))]|].
    eapply runs_bind; [apply PTS; lia|].
    replace (mkOP (match paName q with Some l => l | None => [] end) (paLinked q =? 1) (paClosed q =? 1) b (opPoints (meaning q))) with (meaning q) by (unfold meaning; cbn [opPoints]; now rewrite X).
    eapply runs_q; [apply runs_ret|]. lia.
Qed.
Lemma runs_readPaths_go ps : Forall regular ps -> forall l p, holds s p (flat_map path_bytes ps) ->
  runs (countM (length ps) (readPath s) l) p (inl (l ++ map meaning ps)) (p + zlen (flat_map path_bytes ps)).
Proof.
  induction 1 as [|q ps R _ IH]; intros l p H; cbn [flat_map map length countM] in *.
  - rewrite app_nil_r. eapply runs_q; [apply runs_ret|]. change (zlen (@nil Z)) with 0. lia.
  - apply holds_split in H. destruct H as [H1 H2]. eapply runs_bind; [apply runs_readPath; eauto|]. cbv beta iota.
    replace (l ++ meaning q :: map meaning ps) with ((l ++ [meaning q]) ++ map meaning ps) by now rewrite <- app_assoc.
    eapply runs_q; [apply IH; exact H2|]. rewrite zlen_app. lia.
Qed.
End Values.
(** ReadPaths returns the paths of a well-formed property and stands behind it. *)
Theorem C63_values s pre a ps t : sFile s = pre ++ word a ++ word (zlen ps) ++ flat_map path_bytes ps ++ t ->
  zlen (sFile s) <= 16777216 -> is_word a -> Forall regular ps ->
  readPaths s (mkR (zlen pre) None) = Ret (mkPaths a (map meaning ps), mkR (zlen (sFile s) - zlen t) None).
Proof.
  intros E L W R.
  assert (H : holds s (zlen pre) (word a ++ word (zlen ps) ++ flat_map path_bytes ps)) by (exists pre, t; split; [now rewrite E, <- !app_assoc|reflexivity]).
  assert (LL : zlen (sFile s) - zlen t = zlen pre + 8 + zlen (flat_map path_bytes ps)) by (rewrite E, !zlen_app, !zlen_word; lia).
  rewrite LL. pose proof (zlen_pos t). pose proof (zlen_pos pre).
  assert (LP : zlen ps <= zlen (flat_map path_bytes ps)).
  { clear. induction ps as [|q ps IH]; [reflexivity|]. cbn [flat_map]. rewrite zlen_app, zlen_cons. unfold path_bytes at 1. rewrite !zlen_app, !zlen_word.
    pose proof (zlen_pos (otext (paName q))). pose proof (zlen_pos [paState q]). pose proof (zlen_pos (flat_map word (paExtra q))).
    pose proof (zlen_pos (flat_map (fun q => let '(t, x, y) := q in word t ++ word x ++ word y) (paPoints q))). lia. }
  pose proof (zlen_pos ps).
  apply holds_split in H. destruct H as [X1 H]. apply holds_split in H. destruct H as [X2 H]. rewrite !zlen_word in *.
  change (runs (readPaths s) (zlen pre) (mkPaths a (map meaning ps)) (zlen pre + 8 + zlen (flat_map path_bytes ps))). unfold readPaths.
  eapply runs_bind; [apply (runs_word s); [exact X1|exact W]|]. eapply runs_bind; [apply (runs_word s); [exact X2|unfold is_word; lia]|].
  rewrite length_nat. eapply runs_bind; [apply runs_readPaths_go; eauto|]. cbn [app].
  unfold filled. replace (Z.to_nat (zlen ps - zlen (map meaning ps))) with O by (unfold zlen; rewrite map_length; lia).
  cbn [repeat]. rewrite app_nil_r. eapply runs_q; [apply runs_ret|]. lia.
Qed.
Print Assumptions C63_values.

(** two paths, one closed: read, and skipped to the same place; a state that does not
    fit is refused *)
Definition two_paths : list path :=
  [mkPath (Some [97]) 1 4 1 3 [9; 7] [(0, 5, 6); (1, 7, 8)]; mkPath None 0 2 0 1 [] [(0, 4294967295, 2)]].
Example C63_ex :
  let s := mkSrc ([0; 0] ++ word 1 ++ word 2 ++ flat_map path_bytes two_paths ++ [5]) false in
  Forall regular two_paths /\
  readPaths s (mkR 2 None) =
    Ret (mkPaths 1 [mkOP [97] true true 7 [mkPP false 5 6; mkPP true 7 8]; mkOP [] false false 0 [mkPP false (-1) 2]], mkR 98 None) /\
  skipPaths s (mkR 2 None) = Ret (tt, mkR 98 None) /\
  (exists r, readPaths (mkSrc (word 1 ++ word 1 ++ path_bytes (mkPath None 0 3 0 1 [] [])) false) (mkR 0 None) = Ret (r, mkR 21 (Some EInconsistantClosedState))).
Proof.
  intros s. split.
  - assert (U : utf8 [97]) by (exists [97]; split; [repeat constructor; unfold scalar_value; lia|reflexivity]).
    constructor; [|constructor; [|constructor]]; unfold regular, path_ok, is_word; cbn;
      repeat match goal with |- _ /\ _ => split | |- Forall _ [] => constructor | |- Forall _ (_ :: _) => constructor | |- utf8 _ => exact U end; lia || auto.
  - subst s. split; [vm_compute; reflexivity|]. split; [vm_compute; reflexivity|]. eexists. vm_compute. reflexivity.
Qed.

(** ** C64
    Full statement: ReadVectors returns the paths of every well-formed property.  False for
    all of them that have a path: it panics as soon as one is announced; it returns for
    exactly the other inputs. *)
Lemma readVector_panics s n l st : readVector s n l st = Panic PIndex.
Proof.
  unfold readVector. unfold bindM at 1. unfold rdStr, liftM. destruct (readString s st) as [name y1].
  unfold bindM at 1. unfold rd32 at 1, liftM. destruct (readUint32 s y1) as [x1 y2].
  unfold bindM at 1. unfold rdBool at 1, liftM. destruct (readBoolProperty s y2) as [x2 y3].
  unfold bindM at 1. unfold rdBool at 1, liftM. destruct (readBoolProperty s y3) as [x3 y4].
  unfold bindM at 1. unfold rd32 at 1, liftM. destruct (readUint32 s y4) as [x4 y5].
  unfold bindM at 1. unfold rd32 at 1, liftM. destruct (readUint32 s y5) as [x5 y6].
  unfold bindM at 1, index_ok at 1. now replace ((0 <=? n) && (n <? n)) with false by lia.
Qed.
Lemma readVectors_eq s st : readVectors s st =
  let (v, st1) := readUint32 s st in
  if negb (v =? 1) then Ret (mkVecs 0 [], setError st1 EUnknownVectorVersion) else
  let (a, st2) := readUint32 s st1 in
  let (n, st3) := readUint32 s st2 in
  if 0 <? n then Panic PIndex else Ret (mkVecs a [], st3).
Proof.
  unfold readVectors. unfold bindM at 1. unfold rd32 at 1, liftM at 1. destruct (readUint32 s st) as [v st1].
  destruct (negb (v =? 1)); [reflexivity|].
  unfold bindM at 1. unfold rd32 at 1, liftM at 1. destruct (readUint32 s st1) as [a st2].
  unfold bindM at 1. unfold rd32 at 1, liftM at 1. destruct (readUint32 s st2) as [n st3].
  destruct (0 <? n) eqn:P.
  - destruct (Z.to_nat n) as [|m] eqn:Q; [lia|]. cbn [countM]. unfold bindM at 1. unfold bindM at 1. now rewrite readVector_panics.
  - replace (Z.to_nat n) with O by lia. cbn [countM]. unfold bindM, retM, filled. cbn [app]. change (zlen (@nil vector)) with 0.
    now replace (Z.to_nat (n - 0)) with O by lia.
Qed.
Theorem C64_refuted s pre a vs t : sFile s = pre ++ vectors_bytes a vs ++ t -> is_word a -> zlen (sFile s) <= 16777216 -> vs <> [] ->
  readVectors s (mkR (zlen pre) None) = Panic PIndex.
Proof.
  intros E WA L N. assert (H : holds s (zlen pre) (vectors_bytes a vs)) by (exists pre, t; auto).
  pose proof (holds_small s L _ _ H) as HS. unfold vectors_bytes in *. rewrite !zlen_app, !zlen_word in HS. pose proof (zlen_vpaths_le vs).
  assert (V : 1 <= zlen vs) by (destruct vs as [|v vs]; [congruence|]; rewrite zlen_cons; pose proof (zlen_pos vs); lia).
  apply holds_split in H. destruct H as [H1 H]. apply holds_split in H. destruct H as [H2 H]. apply holds_split in H. destruct H as [H3 _]. rewrite !zlen_word in *.
  rewrite readVectors_eq.
  pose proof (runs_word s _ _ H1 ltac:(unfold is_word; lia)) as R1. unfold runs, rd32, liftM in R1. injection R1 as ->. cbn [negb Z.eqb Pos.eqb].
  pose proof (runs_word s _ _ H2 WA) as R2. unfold runs, rd32, liftM in R2. injection R2 as ->.
  pose proof (runs_word s _ _ H3 ltac:(unfold is_word; lia)) as R3. unfold runs, rd32, liftM in R3. injection R3 as ->.
  now replace (0 <? zlen vs) with true by lia.
Qed.
Print Assumptions C64_refuted.
(** it panics only if the version is 1 and a path is announced, and always ends *)
Theorem C64_partial s st :
  let (v, st1) := readUint32 s st in let (a, st2) := readUint32 s st1 in let (n, st3) := readUint32 s st2 in
  if (v =? 1) && (0 <? n) then readVectors s st = Panic PIndex
  else exists e, readVectors s st = Ret (mkVecs (if v =? 1 then a else 0) [], e) /\
    e = if v =? 1 then st3 else setError st1 EUnknownVectorVersion.
Proof.
  rewrite readVectors_eq. destruct (readUint32 s st) as [v st1]. destruct (readUint32 s st1) as [a st2]. destruct (readUint32 s st2) as [n st3].
  destruct (v =? 1); cbn [negb andb]; [|eauto]. destruct (0 <? n); [reflexivity|eauto].
Qed.
Print Assumptions C64_partial.
(** the empty property is read; one path without strokes panics *)
Example C64_ex :
  readVectors (mkSrc (vectors_bytes 3 []) false) (mkR 0 None) = Ret (mkVecs 3 [], mkR 12 None) /\
  readVectors (mkSrc (vectors_bytes 3 [mkVPath (Some [97]) 1 1 0 [] []]) false) (mkR 0 None) = Panic PIndex.
Proof. vm_compute. auto. Qed.
