(** C84: what ora.Encode reports of a destination that fails. *)
From Coq Require Import String ZifyBool ZifyNat.
Require Import Verif.Base Verif.L_List Verif.M_Image Verif.L_Image Verif.M_Rect Verif.M_Composite Verif.M_Color Verif.M_Ora Verif.M_OraWrite Verif.S_OraWrite.
Open Scope Z_scope.
Open Scope list_scope.

Lemma z0 : zlen (@nil Z) = 0. Proof. reflexivity. Qed.
(** ** Encode is made of its calls *)
Section Made.
Variables (emit : list zop -> zop -> list (list Z)) (fails : list zop -> zop -> option Z) (dst dst' : nat -> list Z -> option (Z * Z)).
Variable R : forall A, M A -> M A -> Prop.
Hypothesis Rret : forall A (a : A), R A (wret a) (wret a).
Hypothesis Rbind : forall A B (m m' : M A) (k k' : A -> M B), R A m m' -> (forall a, R B (k a) (k' a)) -> R B (wbind m k) (wbind m' k').
Hypothesis Rcall : forall c, c <> OpClose -> R unit (call emit fails dst c) (call emit fails dst' c).
Definition Rl (l : layer) : Prop := forall n, R Z (wLayers emit fails dst l n) (wLayers emit fails dst' l n).
Lemma made_layers : forall l, Rl l.
Proof.
  apply (layer_image_ind (fun i => match i with IGroup g => Forall Rl g | _ => True end) Rl); auto.
  intros name b m v t i IH n. cbn [wLayers lImage].
  destruct i as [p|g| | |]; try (apply Rbind; [apply Rcall; discriminate|intros _; apply Rbind; [apply Rcall; discriminate|intros _; apply Rret]]).
  revert n. induction IH as [|l g Q F IHg]; intros n; [apply Rret|]. apply Rbind; [apply Q|intros a; apply IHg].
Qed.
Variable L : libs.
Definition Rs (l : layer) : Prop := forall n, R Z (wStack emit fails dst L l n) (wStack emit fails dst' L l n).
Lemma made_stack : forall l, Rs l.
Proof.
  apply (layer_image_ind (fun i => match i with IGroup g => Forall Rs g | _ => True end) Rs); auto.
  intros name b m v t i IH n. cbn [wStack lImage].
  destruct i as [p|g| | |]; try (apply Rbind; [apply Rcall; discriminate|intros _; apply Rbind; [apply Rcall; discriminate|intros _; apply Rret]]).
  apply Rbind; [apply Rcall; discriminate|intros _]. apply Rbind; [|intros a; apply Rbind; [apply Rcall; discriminate|intros _; apply Rret]].
  revert n. induction IH as [|l g Q F IHg]; intros n; [apply Rret|]. apply Rbind; [apply Q|intros a; apply IHg].
Qed.
Lemma made_body rnd m : R unit (wBody emit fails dst L rnd m) (wBody emit fails dst' L rnd m).
Proof.
  unfold wBody, wImage. cbv zeta. repeat (apply Rbind; [(apply Rcall; discriminate) || apply made_layers || apply made_stack|intros _]). apply Rcall. discriminate.
Qed.
End Made.

Section Writer.
Variables (emit : list zop -> zop -> list (list Z)) (fails : list zop -> zop -> option Z).
Variable dst : nat -> list Z -> option (Z * Z).
Notation bwrite := (bwrite dst). Notation bflush := (bflush dst). Notation send := (send dst). Notation direct := (direct dst).
Notation zdo := (zdo emit fails dst). Notation call := (call emit fails dst).

Definition fine (log : list (list Z * option (Z * Z))) : Prop := Forall (fun w => snd w = None) log.
(** B was given to the writer *)
Definition Inv (B : list Z) (st : zst) : Prop :=
  match zErr st with
  | None => fine (zLog st) /\ accepted (zLog st) ++ zBuf st = B /\ zlen (zBuf st) <= 4096
  | Some e => (exists log p n, zLog st = log ++ [(p, Some (n, e))] /\ fine log) /\ exists t, accepted (zLog st) ++ t = B
  end.
Lemma accepted_app a b : accepted (a ++ b) = accepted a ++ accepted b.
Proof. apply flat_map_app. Qed.
Lemma send_inv B p st : zErr st = None -> fine (zLog st) -> accepted (zLog st) ++ p = B ->
  let st' := send p st in
  match zErr st' with
  | None => fine (zLog st') /\ accepted (zLog st') = B /\ zBuf st' = []
  | Some e => (exists log q n, zLog st' = log ++ [(q, Some (n, e))] /\ fine log) /\ exists t, accepted (zLog st') ++ t = B
  end.
Proof.
  intros E F A st'. unfold st', send. cbn [zErr zLog zBuf]. destruct (dst _ p) as [[n e]|].
  - split; [exists (zLog st), p, n; auto|]. exists (zdrop n p). rewrite accepted_app, <- app_assoc, <- A. f_equal. cbn. rewrite app_nil_r. apply firstn_skipn.
  - split; [|split; [|reflexivity]].
    + apply Forall_app. split; [exact F|]. constructor; [reflexivity|constructor].
    + rewrite accepted_app, <- A. f_equal. cbn. apply app_nil_r.
Qed.
Lemma bflush_inv B st : Inv B st -> Inv B (bflush st) /\ (zErr (bflush st) = None -> zBuf (bflush st) = []).
Proof.
  intros I. unfold M_OraWrite.bflush. destruct (zErr st) as [e|] eqn:E; [split; [exact I|congruence]|].
  destruct (zBuf st) as [|b bs] eqn:BB; [split; [exact I|auto]|].
  unfold Inv in I. rewrite E in I. destruct I as (F & A & LB). rewrite BB in A. pose proof (send_inv B (b :: bs) st E F A) as S. cbv zeta in S.
  unfold Inv. destruct (zErr (send (b :: bs) st)); [split; [exact S|discriminate]|]. destruct S as (S1 & S2 & S3). rewrite S3, app_nil_r. split; [|auto]. split; [exact S1|]. split; [exact S2|]. rewrite z0. lia.
Qed.
Lemma direct_inv B p st : Inv B st -> (zErr st = None -> zBuf st = []) -> Inv (B ++ p) (direct p st).
Proof.
  intros I N. unfold M_OraWrite.direct. unfold Inv in I. destruct (zErr st) as [e|] eqn:E.
  - unfold Inv. rewrite E. destruct I as [I1 (t & I2)]. split; [exact I1|]. exists (t ++ p). now rewrite app_assoc, I2.
  - specialize (N eq_refl). destruct I as (F & A & LB). rewrite N, app_nil_r in A. unfold bufSize. destruct (4096 <? zlen p) eqn:L.
    + pose proof (send_inv (B ++ p) p st E F ltac:(now rewrite A)) as S. cbv zeta in S. unfold Inv. cbn [zErr zLog zBuf]. destruct (zErr (send p st)); [exact S|].
      destruct S as (S1 & S2 & S3). rewrite app_nil_r, z0. split; [exact S1|]. split; [exact S2|lia].
    + unfold Inv, append. cbn [zErr zLog zBuf]. rewrite E, N. cbn [app]. split; [exact F|]. split; [now rewrite A|lia].
Qed.
Lemma append_inv B p st : zErr st = None -> Inv B st -> zlen p <= 4096 - zlen (zBuf st) -> Inv (B ++ p) (append p st).
Proof.
  intros E I L. unfold Inv, append in *. cbn [zErr zLog zBuf]. rewrite E in *. destruct I as (F & A & LB). split; [exact F|]. split; [now rewrite app_assoc, A|]. rewrite zlen_app. lia.
Qed.
Lemma bwrite_inv B p st : Inv B st -> Inv (B ++ p) (bwrite p st).
Proof.
  intros I. unfold M_OraWrite.bwrite. destruct (zErr st) as [e|] eqn:E.
  - unfold Inv in *. rewrite E in *. destruct I as [I1 (t & I2)]. split; [exact I1|]. exists (t ++ p). now rewrite app_assoc, I2.
  - unfold bufSize. destruct (4096 - zlen (zBuf st) <? zlen p) eqn:L.
    + destruct (zBuf st) as [|b bs] eqn:BB; [apply direct_inv; auto|]. rewrite <- BB in *.
      assert (LB : zlen (zBuf st) <= 4096). { unfold Inv in I. rewrite E in I. tauto. }
      set (free := 4096 - zlen (zBuf st)) in *.
      rewrite <- (firstn_skipn (Z.to_nat free) p) at 1. change (firstn (Z.to_nat free) p) with (ztake free p). change (skipn (Z.to_nat free) p) with (zdrop free p). rewrite app_assoc.
      destruct (bflush_inv (B ++ ztake free p) (append (ztake free p) st)) as [J1 J2].
      { apply append_inv; auto. fold free. pose proof (zlen_ztake free p). unfold zlen, ztake in *. rewrite firstn_length. lia. }
      apply direct_inv; auto.
    + apply append_inv; auto. lia.
Qed.
Lemma bwrites_inv ps : forall B st, Inv B st -> Inv (B ++ concat ps) (fold_left (fun st p => bwrite p st) ps st).
Proof.
  induction ps as [|p ps IH]; intros B st I; cbn [fold_left concat]; [now rewrite app_nil_r|]. rewrite app_assoc. apply IH. now apply bwrite_inv.
Qed.
Lemma produced_app a : forall b0 b, produced emit b0 (a ++ b) = produced emit b0 a ++ produced emit (b0 ++ a) b.
Proof.
  induction a as [|c a IH]; intros b0 b; cbn [produced app]; [now rewrite app_nil_r|]. rewrite IH, <- !app_assoc. reflexivity.
Qed.
Definition Ok (st : zst) : Prop := Inv (produced emit [] (zHist st)) st.
Lemma Inv_hist B h h' b e l : Inv B (mkZ h b e l) <-> Inv B (mkZ h' b e l).
Proof. reflexivity. Qed.
Lemma zdo_ok c st r st' : zdo c st = (r, st') -> Ok st -> Ok st' /\ zHist st' = zHist st ++ [c] /\
  match r with
  | None => zErr st' = None /\ fails (zHist st) c = None
  | Some (EDst e) => zErr st' = Some e
  | Some (ELib e) => zErr st' = None /\ fails (zHist st) c = Some e
  end /\ (c = OpClose -> zErr st' = None -> zBuf st' = []).
Proof.
  intros E O. unfold M_OraWrite.zdo in E. injection E as E1 E2. subst st'. cbn [zHist zErr zBuf].
  set (st1 := fold_left _ _ st) in *. assert (I1 : Inv (produced emit [] (zHist st ++ [c])) st1).
  { rewrite produced_app. cbn [produced app]. rewrite app_nil_r. now apply bwrites_inv. }
  set (st2 := match c with OpClose => bflush st1 | _ => st1 end) in *.
  assert (I2 : Inv (produced emit [] (zHist st ++ [c])) st2 /\ (c = OpClose -> zErr st2 = None -> zBuf st2 = [])).
  { unfold st2. destruct (bflush_inv _ _ I1) as [J1 J2]. destruct c; (split; [assumption|intros; try discriminate; auto]). }
  destruct I2 as [I2 I3]. split; [|split; [reflexivity|split; [|exact I3]]].
  - unfold Ok. cbn [zHist]. destruct st2. exact I2.
  - subst r. destruct (zErr st2); [reflexivity|]. destruct (fails (zHist st) c); cbn; auto.
Qed.

(** ** actions *)
Definition sound {A} (m : M A) : Prop := forall st r st', m st = (r, st') -> Ok st -> zErr st = None ->
  Ok st' /\
  match r with
  | inl _ => zErr st' = None
  | inr (EDst e) => zErr st' = Some e
  | inr (ELib e) => zErr st' = None /\ exists h c, zHist st' = h ++ [c] /\ fails h c = Some e
  end.
Lemma sound_ret {A} (a : A) : sound (wret a).
Proof. intros st r st' E O N. injection E as <- <-. auto. Qed.
Lemma sound_bind {A B} (m : M A) (k : A -> M B) : sound m -> (forall a, sound (k a)) -> sound (wbind m k).
Proof.
  intros S K st r st' E O N. unfold wbind in E. destruct (m st) as [[a|e] st1] eqn:E1.
  - destruct (S _ _ _ E1 O N) as [O1 N1]. exact (K a _ _ _ E O1 N1).
  - injection E as <- <-. exact (S _ _ _ E1 O N).
Qed.
Lemma sound_call c : sound (call c).
Proof.
  intros st r st' E O N. unfold M_OraWrite.call in E. destruct (zdo c st) as [q st1] eqn:Z. injection E as <- <-.
  destruct (zdo_ok c st q st1 Z O) as (O1 & H1 & R & _). split; [exact O1|]. destruct q as [[e|e]|]; try tauto. destruct R as [R1 R2]. split; [exact R1|]. eauto.
Qed.

Lemma sound_body L rnd m : sound (wBody emit fails dst L rnd m).
Proof.
  apply (made_body emit fails dst dst (fun A m _ => sound m)); [intros; apply sound_ret|intros; now apply sound_bind|intros; apply sound_call].
Qed.
Lemma fine_stops log : fine log -> forall w, stops (log ++ [w]).
Proof.
  intros F w a w' b E N. destruct (exists_last N) as (b' & x & ->). rewrite app_comm_cons, app_assoc in E. apply app_inj_tail in E as [-> _].
  apply Forall_app in F as [_ F]. now inversion F.
Qed.
Lemma Inv_stops B st : Inv B st -> stops (zLog st).
Proof.
  unfold Inv. destruct (zErr st).
  - intros [(log & p & n & -> & F) _]. now apply fine_stops.
  - intros (F & _) a w b E _. rewrite E in F. apply Forall_app in F as [_ F]. now inversion F.
Qed.
Definition start : zst := mkZ [] [] None [].
Lemma start_ok : Ok start. Proof. unfold Ok, Inv, start. cbn. rewrite z0. repeat split; try constructor; lia. Qed.
(** the writes between two states *)
Definition ext (st st' : zst) : Prop := exists t, zLog st' = zLog st ++ t /\ forall j w, nth_error t j = Some w -> snd w = dst (List.length (zLog st) + j) (fst w).
Lemma ext_refl st st' : zLog st' = zLog st -> ext st st'.
Proof. intros E. exists []. rewrite app_nil_r. split; [exact E|]. now intros [|j]. Qed.
Lemma ext_trans st1 st2 st3 : ext st1 st2 -> ext st2 st3 -> ext st1 st3.
Proof.
  intros (t & E & F) (t' & E' & F'). exists (t ++ t'). split; [now rewrite E', E, app_assoc|]. intros j w N.
  destruct (Nat.lt_ge_cases j (List.length t)) as [LT|GE]; [rewrite nth_error_app1 in N by exact LT; auto|]. rewrite nth_error_app2 in N by exact GE.
  rewrite (F' _ _ N), E, app_length. f_equal. lia.
Qed.
Lemma ext_send p st : ext st (send p st).
Proof. eexists. split; [reflexivity|]. intros [|[|j]] w N; try discriminate. injection N as <-. cbn. f_equal. lia. Qed.
Lemma ext_log st st' : ext st st' -> exists t, zLog st' = zLog st ++ t.
Proof. intros (t & E & _). eauto. Qed.
Lemma bflush_ext st : ext st (bflush st).
Proof. unfold M_OraWrite.bflush. destruct (zErr st), (zBuf st); try (now apply ext_refl). apply ext_send. Qed.
Lemma direct_ext p st : ext st (direct p st).
Proof. unfold M_OraWrite.direct. destruct (zErr st); [now apply ext_refl|]. destruct (bufSize <? zlen p); [exact (ext_send p st)|now apply ext_refl]. Qed.
Lemma bwrite_ext p st : ext st (bwrite p st).
Proof.
  unfold M_OraWrite.bwrite. destruct (zErr st); [now apply ext_refl|]. destruct (_ <? _); [|now apply ext_refl].
  destruct (zBuf st); [apply direct_ext|]. eapply ext_trans; [|apply direct_ext]. eapply ext_trans; [|apply bflush_ext]. now apply ext_refl.
Qed.
Lemma bwrites_ext ps : forall st, ext st (fold_left (fun st p => bwrite p st) ps st).
Proof.
  induction ps as [|p ps IH]; intros st; cbn [fold_left]; [now apply ext_refl|]. eapply ext_trans; [apply bwrite_ext|apply IH].
Qed.
Lemma zdo_ext c st : ext st (snd (zdo c st)).
Proof.
  unfold M_OraWrite.zdo. cbn [snd]. eapply ext_trans; [apply (bwrites_ext (emit (zHist st) c))|].
  destruct c; try (now apply ext_refl). eapply ext_trans; [apply bflush_ext|now apply ext_refl].
Qed.
Definition bflush_log st := ext_log _ _ (bflush_ext st).
Definition direct_log p st := ext_log _ _ (direct_ext p st).
Definition bwrites_log ps st := ext_log _ _ (bwrites_ext ps st).
Definition zdo_log c st := ext_log _ _ (zdo_ext c st).
End Writer.

(** ** C84 *)
(** Encode writes nothing after a write that failed; what the destination took is the beginning of the
    archive.  An error Encode returns is that of the write that failed, or one of a library call that
    was the last one before Close; without an error, everything the calls before Close made was
    taken but for the last (at most) 4096 bytes, which are left to Close. *)
Theorem C84_partial emit fails dst L rnd m r st : wEncode emit fails dst L rnd m = (r, st) ->
  stops (zLog st) /\ (exists t, accepted (zLog st) ++ t = produced emit [] (zHist st)) /\
  exists before, zHist st = before ++ [OpClose] /\
  match r with
  | Some (EDst e) => exists log p n, zLog st = log ++ [(p, Some (n, e))]
  | Some (ELib e) => exists h c, before = h ++ [c] /\ fails h c = Some e
  | None => exists log late buf, zLog st = log ++ late /\ Forall (fun w => snd w = None) log /\
      accepted log ++ buf = produced emit [] before /\ zlen buf <= 4096 /\
      ((forall w, In w late -> snd w = None) -> accepted (zLog st) = produced emit [] (zHist st))
  end.
Proof.
  intros E. unfold wEncode in E. change (mkZ [] [] None []) with start in E. destruct (wBody emit fails dst L rnd m start) as [q st1] eqn:B.
  destruct (sound_body emit fails dst L rnd m _ _ _ B (start_ok emit) eq_refl) as [O1 R].
  destruct (zdo emit fails dst OpClose st1) as [rc stc] eqn:Z. cbn [snd] in E. injection E as Er Es. subst stc.
  destruct (zdo_ok emit fails dst _ _ _ _ Z O1) as (O2 & H2 & RC & CL). split; [exact (Inv_stops _ _ O2)|]. split.
  { unfold Ok, Inv in O2. destruct (zErr st); [tauto|]. destruct O2 as (_ & A & _). eauto. }
  exists (zHist st1). split; [exact H2|]. pose proof (zdo_log emit fails dst OpClose st1) as (late & ZL). rewrite Z in ZL. cbn [snd] in ZL.
  destruct q as [u|[e|e]]; subst r.
  - exists (zLog st1), late, (zBuf st1). unfold Ok, Inv in O1. rewrite R in O1. destruct O1 as (F & A & LB). split; [exact ZL|]. split; [exact F|]. split; [exact A|]. split; [exact LB|].
    intros LF. unfold Ok, Inv in O2. destruct (zErr st) as [e|] eqn:EE.
    + destruct O2 as [(log & p & n & EL & _) _]. rewrite ZL in EL. assert (IN : In (p, Some (n, e)) (zLog st1 ++ late)) by (rewrite EL; apply in_or_app; right; now left).
      apply in_app_or in IN as [IN|IN]; [|specialize (LF _ IN); discriminate]. unfold fine in F. rewrite Forall_forall in F. specialize (F _ IN). discriminate.
    + destruct O2 as (_ & A2 & _). rewrite <- A2, (CL eq_refl eq_refl). now rewrite app_nil_r.
  - unfold Ok, Inv in O1. rewrite R in O1. destruct O1 as [(log & p & n & EL & F) _].
    (* nothing is sent after the error *)
    assert (Q : zLog st = zLog st1).
    { unfold zdo in Z. injection Z as _ <-. cbn [zLog]. assert (K : forall ps, fold_left (fun st p => bwrite dst p st) ps st1 = st1).
      { induction ps as [|x ps IH]; [reflexivity|]. cbn [fold_left]. unfold bwrite at 2. now rewrite R. }
      rewrite K. unfold bflush. now rewrite R. }
    rewrite Q, EL. eauto.
  - destruct R as [_ R]. exact R.
Qed.
Print Assumptions C84_partial.

(** ** Errors that are not reported *)
(** Close's error is dropped.  An archive of at most 4096 bytes (without what Close adds) is only sent by Close. *)
Section Small.
Variables (emit : list zop -> zop -> list (list Z)) (fails : list zop -> zop -> option Z) (dst dst' : nat -> list Z -> option (Z * Z)).
Definition unsent (st : zst) : Prop := zErr st = None /\ zLog st = [] /\ zBuf st = produced emit [] (zHist st).
Definition small_same A (m m' : M A) : Prop := forall st a st', m st = (inl a, st') -> (exists t, zHist st' = zHist st ++ t) /\
  (unsent st -> zlen (produced emit [] (zHist st')) <= 4096 -> m' st = (inl a, st') /\ unsent st').
Lemma small_bwrite d p st : zErr st = None -> zlen (zBuf st ++ p) <= 4096 -> bwrite d p st = append p st.
Proof. intros E L. unfold bwrite. rewrite E. rewrite zlen_app in L. replace (bufSize - zlen (zBuf st) <? zlen p) with false by (unfold bufSize; lia). reflexivity. Qed.
Lemma small_bwrites d ps : forall st, zErr st = None -> zlen (zBuf st ++ concat ps) <= 4096 ->
  fold_left (fun st p => bwrite d p st) ps st = append (concat ps) st.
Proof.
  induction ps as [|p ps IH]; intros st E L; cbn [fold_left concat] in *.
  - unfold append. rewrite app_nil_r. now destruct st.
  - rewrite app_assoc in L. rewrite small_bwrite; [|exact E|rewrite zlen_app in L; pose proof (zlen_pos (concat ps)); lia].
    rewrite IH; [|exact E|exact L]. unfold append. cbn. now rewrite app_assoc.
Qed.
Lemma small_body L rnd m : small_same unit (wBody emit fails dst L rnd m) (wBody emit fails dst' L rnd m).
Proof.
  apply made_body.
  - intros A a st b st' E. injection E as <- <-. split; [exists []; now rewrite app_nil_r|]. auto.
  - intros A B p p' k k' R1 R2 st b st' E. unfold wbind in E. destruct (p st) as [[a|e] st1] eqn:E1; [|discriminate].
    destruct (R1 _ _ _ E1) as [(t1 & H1) S1], (R2 a _ _ _ E) as [(t2 & H2) S2]. split; [exists (t1 ++ t2); now rewrite H2, H1, app_assoc|].
    intros U L0. destruct (S1 U) as [E1' U1].
    { rewrite H2, produced_app, zlen_app in L0. pose proof (zlen_pos (produced emit ([] ++ zHist st1) t2)). lia. }
    unfold wbind. rewrite E1'. now apply S2.
  - intros c NC st a st' E. unfold call in E. destruct (zdo emit fails dst c st) as [q st1] eqn:Z. destruct q; [discriminate|]. injection E as <- <-.
    assert (H1 : zHist st1 = zHist st ++ [c]) by (unfold zdo in Z; injection Z as _ <-; reflexivity).
    split; [eauto|]. intros (U1 & U2 & U3) L0. rewrite H1, produced_app in L0. cbn [app produced] in L0. rewrite app_nil_r, <- U3 in L0.
    unfold call. unfold zdo in *. rewrite !small_bwrites in * by assumption.
    destruct c; try congruence; cbn [append zErr zBuf zLog zHist] in Z |- *; rewrite U1 in *; injection Z as Z1 Z2; subst st1; rewrite Z1;
    cbn [zErr zBuf zLog zHist]; (split; [reflexivity|]); unfold unsent; cbn [zErr zBuf zLog zHist]; rewrite produced_app, U3; cbn [produced app]; rewrite app_nil_r; auto.
Qed.
End Small.
(** Whatever the destination does, Encode reports success; a destination that takes nothing has got nothing. *)
Theorem C84_small_refuted emit fails dst dst' L rnd m st before : wEncode emit fails dst L rnd m = (None, st) -> zHist st = before ++ [OpClose] ->
  zlen (produced emit [] before) <= 4096 ->
  fst (wEncode emit fails dst' L rnd m) = None /\
  ((forall k p, exists e, dst' k p = Some (0, e)) -> accepted (zLog (snd (wEncode emit fails dst' L rnd m))) = []).
Proof.
  intros E H LB. unfold wEncode in *. change (mkZ [] [] None []) with start in *. destruct (wBody emit fails dst L rnd m start) as [q st1] eqn:B.
  destruct q as [u|e]; [|discriminate]. injection E as E. 
  assert (H1 : zHist st1 = before). { subst st. unfold zdo in H. cbn in H. now apply app_inj_tail in H as [H _]. }
  destruct (small_body emit fails dst dst' L rnd m _ _ _ B) as [_ S]. destruct S as [B' U].
  { unfold unsent, start. cbn [zErr zLog zBuf zHist produced]. auto. } { now rewrite H1. }
  rewrite B'. cbn [fst snd]. split; [reflexivity|]. intros NO.
  destruct (zdo emit fails dst' OpClose st1) as [rc stc] eqn:Z. cbn [snd].
  assert (O1 : Ok emit st1). { destruct U as (U1 & U2 & U3). unfold Ok, Inv. rewrite U1, U2, U3, H1. split; [constructor|]. split; [reflexivity|exact LB]. }
  destruct (zdo_ok emit fails dst' _ _ _ _ Z O1) as (O2 & _ & _ & _).
  assert (ALL : forall w, In w (zLog stc) -> took w = []).
  { pose proof (zdo_ok emit fails dst' _ _ _ _ Z O1) as _. clear - Z NO U.
    assert (G : forall st, (forall w, In w (zLog st) -> took w = []) -> forall p, forall w, In w (zLog (send dst' p st)) -> took w = []).
    { intros st A p w I. unfold send in I. cbn in I. apply in_app_or in I as [I|[<-|[]]]; [auto|]. destruct (NO (List.length (zLog st)) p) as (e & ->). reflexivity. }
    assert (FL : forall st, (forall w, In w (zLog st) -> took w = []) -> forall w, In w (zLog (bflush dst' st)) -> took w = []).
    { intros st A. unfold bflush. destruct (zErr st); [exact A|]. destruct (zBuf st); [exact A|]. exact (G st A _). }
    assert (DI : forall st p, (forall w, In w (zLog st) -> took w = []) -> forall w, In w (zLog (direct dst' p st)) -> took w = []).
    { intros st p A. unfold direct. destruct (zErr st); [exact A|]. destruct (bufSize <? zlen p); [exact (G st A p)|exact A]. }
    assert (WR : forall st p, (forall w, In w (zLog st) -> took w = []) -> forall w, In w (zLog (bwrite dst' p st)) -> took w = []).
    { intros st p A. unfold bwrite. destruct (zErr st); [exact A|]. destruct (_ <? _); [|exact A]. destruct (zBuf st); [now apply DI|]. apply DI, FL. exact A. }
    assert (WS : forall ps st, (forall w, In w (zLog st) -> took w = []) -> forall w, In w (zLog (fold_left (fun st p => bwrite dst' p st) ps st)) -> took w = []).
    { induction ps as [|p ps IH]; intros st A; [exact A|]. cbn [fold_left]. apply IH, WR, A. }
    unfold zdo in Z. injection Z as _ <-. cbn [zLog]. apply FL, WS. destruct U as (_ & -> & _). intros w []. }
  unfold accepted. clear - ALL. induction (zLog stc) as [|w l IH]; [reflexivity|]. cbn [flat_map]. rewrite (ALL w (or_introl eq_refl)). apply IH. intros x I. apply ALL. now right.
Qed.
Print Assumptions C84_small_refuted.

(** Of any archive the end can be lost unnoticed: a destination that takes everything until Close. *)
Section Agree.
Variables (dst dst' : nat -> list Z -> option (Z * Z)).
Definition agree (st : zst) : Prop := forall k p, (k < List.length (zLog st))%nat -> dst' k p = dst k p.
Lemma agree_back st st' t : zLog st' = zLog st ++ t -> agree st' -> agree st.
Proof. intros E A k p K. apply A. rewrite E, app_length. lia. Qed.
Lemma send_agree p st : agree (send dst p st) -> send dst' p st = send dst p st.
Proof. intros A. unfold send. rewrite A; [reflexivity|]. unfold send. cbn [zLog]. rewrite app_length. cbn. lia. Qed.
Lemma bflush_agree st : agree (bflush dst st) -> bflush dst' st = bflush dst st.
Proof. unfold bflush. destruct (zErr st), (zBuf st); auto using send_agree. Qed.
Lemma direct_agree p st : agree (direct dst p st) -> direct dst' p st = direct dst p st.
Proof. unfold direct. destruct (zErr st); [auto|]. destruct (bufSize <? zlen p); [|auto]. intros A. rewrite send_agree; [reflexivity|]. exact A. Qed.
Lemma bwrite_agree p st : agree (bwrite dst p st) -> bwrite dst' p st = bwrite dst p st.
Proof.
  unfold bwrite. destruct (zErr st); [auto|]. destruct (_ <? _); [|auto]. destruct (zBuf st); [apply direct_agree|]. intros A.
  rewrite bflush_agree; [apply direct_agree; exact A|]. destruct (direct_log dst (zdrop (bufSize - zlen (z :: l)) p) (bflush dst (append (ztake (bufSize - zlen (z :: l)) p) st))) as (t & T). exact (agree_back _ _ _ T A).
Qed.
Lemma bwrites_agree ps : forall st, agree (fold_left (fun st p => bwrite dst p st) ps st) ->
  fold_left (fun st p => bwrite dst' p st) ps st = fold_left (fun st p => bwrite dst p st) ps st.
Proof.
  induction ps as [|p ps IH]; intros st A; [reflexivity|]. cbn [fold_left] in *. rewrite bwrite_agree; [now apply IH|].
  destruct (bwrites_log dst ps (bwrite dst p st)) as (t & T). exact (agree_back _ _ _ T A).
Qed.
Variables (emit : list zop -> zop -> list (list Z)) (fails : list zop -> zop -> option Z).
Lemma zdo_agree c st : agree (snd (zdo emit fails dst c st)) -> zdo emit fails dst' c st = zdo emit fails dst c st.
Proof.
  intros A. unfold zdo in *. cbn [snd] in A. rewrite bwrites_agree.
  - destruct c; try reflexivity. now rewrite bflush_agree.
  - destruct c; try exact A. destruct (bflush_log dst (fold_left (fun st p => bwrite dst p st) (emit (zHist st) OpClose) st)) as (t & T). exact (agree_back _ _ _ T A).
Qed.
Definition same_run A (m m' : M A) : Prop := forall st r st', m st = (r, st') -> (exists t, zLog st' = zLog st ++ t) /\ (agree st' -> m' st = (r, st')).
Lemma same_body L rnd m : same_run unit (wBody emit fails dst L rnd m) (wBody emit fails dst' L rnd m).
Proof.
  apply made_body.
  - intros A a st b st' E. injection E as <- <-. split; [exists []; now rewrite app_nil_r|auto].
  - intros A B p p' k k' R1 R2 st b st' E. unfold wbind in E. destruct (p st) as [[a|e] st1] eqn:E1.
    + destruct (R1 _ _ _ E1) as [(t1 & H1) S1], (R2 a _ _ _ E) as [(t2 & H2) S2]. split; [exists (t1 ++ t2); now rewrite H2, H1, app_assoc|].
      intros A'. unfold wbind. rewrite S1; [now apply S2|]. exact (agree_back _ _ _ H2 A').
    + injection E as <- <-. destruct (R1 _ _ _ E1) as [X S1]. split; [exact X|]. intros A'. unfold wbind. now rewrite S1.
  - intros c _ st a st' E. unfold call in E. destruct (zdo emit fails dst c st) as [q st1] eqn:Z. injection E as <- <-.
    pose proof (zdo_log emit fails dst c st) as G. rewrite Z in G. split; [exact G|]. intros A. unfold call. rewrite zdo_agree; [now rewrite Z|now rewrite Z].
Qed.
End Agree.
Theorem C84_refuted emit fails dst L rnd m st before : wEncode emit fails dst L rnd m = (None, st) -> zHist st = before ++ [OpClose] ->
  concat (emit before OpClose) <> [] ->
  exists dst' st', wEncode emit fails dst' L rnd m = (None, st') /\ zHist st' = zHist st /\
    (exists w, In w (zLog st') /\ snd w <> None) /\ accepted (zLog st') <> produced emit [] (zHist st').
Proof.
  intros E H NC. unfold wEncode in E. change (mkZ [] [] None []) with start in *. destruct (wBody emit fails dst L rnd m start) as [q st1] eqn:B.
  destruct q as [u|e]; [|discriminate]. injection E as E.
  assert (H1 : zHist st1 = before). { subst st. unfold zdo in H. cbn in H. now apply app_inj_tail in H as [H _]. }
  set (K := List.length (zLog st1)). set (dst' := fun k p => if (k <? K)%nat then dst k p else Some (0, 1)).
  destruct (sound_body emit fails dst L rnd m _ _ _ B (start_ok emit) eq_refl) as [O1 R].
  assert (B' : wBody emit fails dst' L rnd m start = (inl u, st1)).
  { apply (same_body dst dst' emit fails L rnd m _ _ _ B). intros k p KL. unfold dst'. replace (k <? K)%nat with true by (unfold K; lia). reflexivity. }
  exists dst', (snd (zdo emit fails dst' OpClose st1)). split; [unfold wEncode; change (mkZ [] [] None []) with start; now rewrite B'|].
  destruct (zdo emit fails dst' OpClose st1) as [rc stc] eqn:Z. cbn [snd]. destruct (zdo_ok emit fails dst' _ _ _ _ Z O1) as (O2 & H2 & _ & CL).
  split; [subst st; rewrite H2; reflexivity|].
  pose proof (zdo_ext emit fails dst' OpClose st1) as (late & ZL & ZE). rewrite Z in ZL. cbn [snd] in ZL.
  unfold Ok, Inv in O1. rewrite R in O1. destruct O1 as (F & A & LB).
  assert (P2 : produced emit [] (zHist stc) = produced emit [] before ++ concat (emit before OpClose)).
  { rewrite H2, H1, produced_app. cbn [produced app]. now rewrite app_nil_r. }
  destruct late as [|w late].
  { exfalso. rewrite app_nil_r in ZL. unfold Ok, Inv in O2. destruct (zErr stc) as [e|] eqn:EC.
    - destruct O2 as [(log & p & n & EL & _) _]. rewrite ZL in EL. unfold fine in F. rewrite EL in F. apply Forall_app in F as [_ F]. inversion F as [|? ? X _]. discriminate.
    - destruct O2 as (_ & A2 & _). rewrite (CL eq_refl eq_refl), app_nil_r, ZL, P2 in A2. rewrite H1 in A. rewrite <- A, <- app_assoc in A2.
      rewrite <- (app_nil_r (accepted (zLog st1))) in A2 at 1. apply app_inv_head in A2. symmetry in A2. apply app_eq_nil in A2 as [_ A2]. now apply NC. }
  pose proof (ZE 0%nat w eq_refl) as Sw. unfold dst' in Sw. replace (List.length (zLog st1) + 0 <? K)%nat with false in Sw by (unfold K; lia).
  split; [exists w; split; [rewrite ZL; apply in_or_app; right; now left|congruence]|].
  assert (LN : late = []).
  { destruct late as [|x late]; [reflexivity|]. pose proof (Inv_stops _ _ O2) as ST. rewrite ZL in ST. specialize (ST _ _ _ eq_refl ltac:(discriminate)). congruence. }
  subst late. rewrite ZL, accepted_app, P2. rewrite H1 in A. rewrite <- A. cbn. unfold took. rewrite Sw. cbn. intros Q. rewrite app_nil_r, <- app_assoc in Q.
  rewrite <- (app_nil_r (accepted (zLog st1))) in Q at 1. apply app_inv_head in Q. symmetry in Q. apply app_eq_nil in Q as [_ Q]. now apply NC.
Qed.
Print Assumptions C84_refuted.

(** ** The calls are those that write the members of C55 and C56 *)
Section Calls.
Variables (emit : list zop -> zop -> list (list Z)) (fails : list zop -> zop -> option Z) (dst : nat -> list Z -> option (Z * Z)) (L : libs).
Lemma call_hist c st a st' : call emit fails dst c st = (inl a, st') -> zHist st' = zHist st ++ [c].
Proof. unfold call. destruct (zdo emit fails dst c st) as [[q|] st1] eqn:Z; intros E; [discriminate|]. injection E as <- <-. unfold zdo in Z. now injection Z as _ <-. Qed.
Lemma bind_inl {A B} (m : M A) (k : A -> M B) st b st' : wbind m k st = (inl b, st') -> exists a st1, m st = (inl a, st1) /\ k a st1 = (inl b, st').
Proof. unfold wbind. destruct (m st) as [[a|e] st1]; intros E; [eauto|discriminate]. Qed.
Definition data_calls (l : layer) : Prop := forall n st n' st' ms k, wLayers emit fails dst l n st = (inl n', st') -> writeLayers L l n = Some (ms, k) ->
  n' = k /\ exists blocks, zHist st' = zHist st ++ concat blocks /\ Forall2 (member_calls L) ms blocks.
Lemma data_called : forall l, data_calls l.
Proof.
  apply (layer_image_ind (fun i => match i with IGroup g => Forall data_calls g | _ => True end) data_calls); auto.
  intros name b m v t i IH n st n' st' ms k E W. cbn [wLayers writeLayers lImage] in E, W.
  destruct i as [p|g|i gm|i tx|l]; try (apply bind_inl in E as ([] & st1 & E1 & E); apply bind_inl in E as ([] & st2 & E2 & E); injection E as <- <-;
    destruct (lib_png L _) as [q|] eqn:P; [|discriminate]; injection W as <- <-; split; [reflexivity|];
    eexists [_]; apply call_hist in E1; apply call_hist in E2; split; [|constructor; [apply mc_png; exact P|constructor]]; cbn [concat app]; rewrite E2, E1, <- app_assoc; reflexivity).
  revert n st n' st' ms k E W. induction IH as [|l g Q F IHg]; intros n st n' st' ms k E W.
  - injection E as <- <-. injection W as <- <-. split; [reflexivity|]. exists []. cbn. rewrite app_nil_r. auto.
  - apply bind_inl in E as (n1 & st1 & E1 & E). destruct (writeLayers L l n) as [[ms1 k1]|] eqn:W1; [|discriminate]. cbn [obind fst snd] in W.
    destruct (Q _ _ _ _ _ _ E1 W1) as (-> & b1 & H1 & F1).
    match type of W with obind ?x _ = _ => destruct x as [[ms2 k2]|] eqn:W2; [|discriminate] end. injection W as <- <-. cbn [fst snd].
    destruct (IHg _ _ _ _ _ _ E W2) as (-> & b2 & H2 & F2). split; [reflexivity|]. exists (b1 ++ b2). split; [now rewrite H2, H1, concat_app, app_assoc|]. now apply Forall2_app.
Qed.
Definition stack_calls (l : layer) : Prop := forall n st n' st', wStack emit fails dst L l n st = (inl n', st') ->
  n' = snd (writeStack L l n) /\ zHist st' = zHist st ++ map OpToken (fst (writeStack L l n)).
Lemma stack_called : forall l, stack_calls l.
Proof.
  apply (layer_image_ind (fun i => match i with IGroup g => Forall stack_calls g | _ => True end) stack_calls); auto.
  intros name b m v t i IH n st n' st' E. cbn [wStack writeStack lImage] in E |- *.
  destruct i as [p|g|i gm|i tx|l]; try (apply bind_inl in E as ([] & st1 & E1 & E); apply bind_inl in E as ([] & st2 & E2 & E); injection E as <- <-;
    split; [reflexivity|]; apply call_hist in E1; apply call_hist in E2; cbn [fst map]; rewrite E2, E1, <- app_assoc; reflexivity).
  apply bind_inl in E as ([] & st1 & E1 & E). apply bind_inl in E as (n2 & st2 & E2 & E). apply bind_inl in E as ([] & st3 & E3 & E). injection E as <- <-.
  apply call_hist in E1. apply call_hist in E3. cbn [fst snd map]. rewrite map_app, E3. cbn [map].
  match type of E2 with ?X g n st1 = _ => set (gw := X) in * end. match goal with |- context [?X g n] => set (gs := X) in * end.
  assert (G : n2 = snd (gs g n) /\ zHist st2 = zHist st1 ++ map OpToken (fst (gs g n))).
  { clear E1 E3. revert n st1 n2 st2 E2. induction IH as [|l g Q F IHg]; intros n st1 n2 st2 E2.
    - cbn in E2. injection E2 as <- <-. cbn. rewrite app_nil_r. auto.
    - cbn in E2. apply bind_inl in E2 as (n1 & sta & Ea & Eb). destruct (Q _ _ _ _ Ea) as [-> Ha]. destruct (IHg _ _ _ _ Eb) as [-> Hb]. cbn. split; [reflexivity|].
      now rewrite Hb, Ha, map_app, app_assoc. }
  destruct G as [-> G]. split; [reflexivity|]. rewrite G, E1, <- !app_assoc. reflexivity.
Qed.
End Calls.
Theorem C84_calls emit fails dst L rnd m st out : wEncode emit fails dst L rnd m = (None, st) -> oraEncode L rnd m = Some out ->
  exists blocks, zHist st = concat blocks ++ [OpClose] /\ Forall2 (member_calls L) out blocks.
Proof.
  intros E W. unfold wEncode in E. change (mkZ [] [] None []) with start in *. destruct (wBody emit fails dst L rnd m start) as [[u|e] st1] eqn:B; [|discriminate]. injection E as <-.
  unfold wBody in B. cbv zeta in B. unfold oraEncode, obind in W. cbv zeta in W. generalize dependent (toLayer m). intros lim B W.
  destruct (writeLayers L lim 0) as [[data k]|] eqn:WL; [|discriminate]. destruct (lib_png L m) as [merged|] eqn:P1; [|discriminate].
  destruct (lib_png L (thumbnail L rnd m (maxX (lBounds lim)) (maxY (lBounds lim)))) as [thumb|] eqn:P2; [|discriminate]. injection W as <-. cbn [fst].
  apply bind_inl in B as ([] & s1 & B1 & B). apply bind_inl in B as ([] & s2 & B2 & B). apply bind_inl in B as (n3 & s3 & B3 & B). apply bind_inl in B as ([] & s4 & B4 & B).
  apply bind_inl in B as ([] & s5 & B5 & B). apply bind_inl in B as ([] & s6 & B6 & B). unfold wImage in B.
  apply bind_inl in B as (n7 & s7 & B7 & B). apply bind_inl in B as ([] & s8 & B8 & B). apply bind_inl in B as ([] & s9 & B9 & B). apply bind_inl in B as ([] & s10 & B10 & B).
  apply bind_inl in B as ([] & s11 & B11 & B). apply bind_inl in B as ([] & s12 & B12 & B).
  destruct (data_called emit fails dst L _ _ _ _ _ _ _ B3 WL) as (-> & db & H3 & FD). destruct (stack_called emit fails dst L _ _ _ _ _ B7) as [-> H7].
  apply call_hist in B1, B2, B4, B5, B6, B8, B9, B10, B11, B12, B.
  eexists ([OpCreate (str "mimetype"%string); OpWrite mimetypeStr] :: db ++ [_; [OpCreate (str "mergedimage.png"%string); OpPng m]; [OpCreate (str "Thumbnails/thumbnail.png"%string); OpPng _]]). split.
  2:{ constructor; [apply mc_bytes|]. apply Forall2_app; [exact FD|]. repeat constructor; [exact P1|exact P2]. }
  unfold zdo. cbn [zHist snd]. rewrite B, B12, B11, B10, B9, B8, H7, B6, B5, B4, H3, B2, B1. cbn [start zHist app]. cbn [concat]. rewrite !concat_app. cbn [concat app]. rewrite map_cons, map_app. cbn [map].
  rewrite <- !app_assoc. cbn [app]. rewrite <- !app_assoc. reflexivity.
Qed.
Print Assumptions C84_calls.

(** ** Cases *)
(** An image of one pixel; every png takes [n] bytes, the directory 22. *)
Definition dot : image := IGroup [mkLayer [] (mkRect 0 0 1 1) MNormal false 0 (ILeaf (mkPic (mkRect 0 0 1 1) KNRGBA (fun _ _ => Some (CNRGBA 1 2 3 255))))].
Definition any_libs : libs := mkLibs (fun i => Some (mkPic (mkRect 0 0 1 1) KNRGBA (fun _ _ => Some (CNRGBA 1 2 3 255)))) (fun _ => []) (fun _ => Some 0) (fun s => s) (fun q => q).
Definition takes (n : Z) (before : list zop) (c : zop) : list (list Z) :=
  match c with OpPng _ => [repeat 7 (Z.to_nat n)] | OpClose => [repeat 0 22] | OpCreate s => [s] | OpWrite b => [b] | _ => [] end.
Definition nofail (before : list zop) (c : zop) : option Z := None.
(** the second write is refused: reported *)
Example C84_ex : let '(r, st) := wEncode (takes 3000) nofail (fun k _ => if (k =? 1)%nat then Some (100, 5) else None) any_libs (fun _ => 0) dot in
  r = Some (EDst 5) /\ map (fun w => (zlen (fst w), snd w)) (zLog st) = [(4096, None); (4096, Some (100, 5))].
Proof. vm_compute. auto. Qed.
(** the third, in Close: not reported *)
Example C84_refuted_ex : exists st before, wEncode (takes 3000) nofail (fun k _ => if (k =? 2)%nat then Some (100, 5) else None) any_libs (fun _ => 0) dot = (None, st) /\
  zHist st = before ++ [OpClose] /\ List.concat (takes 3000 before OpClose) <> [] /\ exists w, In w (zLog st) /\ snd w = Some (100, 5).
Proof.
  destruct (wEncode (takes 3000) nofail (fun k _ => if (k =? 2)%nat then Some (100, 5) else None) any_libs (fun _ => 0) dot) as [r st] eqn:E.
  pose proof (C84_partial _ _ _ _ _ _ _ _ E) as (_ & _ & before & H & _). exists st, before. 
  assert (R : fst (wEncode (takes 3000) nofail (fun k _ => if (k =? 2)%nat then Some (100, 5) else None) any_libs (fun _ => 0) dot) = None) by (vm_compute; reflexivity).
  assert (Q : existsb (fun w => match snd w with Some (n, e) => (n =? 100) && (e =? 5) | None => false end) (zLog (snd (wEncode (takes 3000) nofail (fun k _ => if (k =? 2)%nat then Some (100, 5) else None) any_libs (fun _ => 0) dot))) = true) by (vm_compute; reflexivity).
  rewrite E in R, Q. cbn [fst snd] in R, Q. subst r. split; [reflexivity|]. split; [exact H|]. split; [discriminate|].
  apply existsb_exists in Q as (w & I & Q). exists w. split; [exact I|]. destruct (snd w) as [[n e]|]; [|discriminate].
  apply andb_true_iff in Q as [Q1 Q2]. apply Z.eqb_eq in Q1, Q2. now subst.
Qed.
(** pngs of 100 bytes: nothing is written before Close *)
Example C84_small_ex : exists st before, wEncode (takes 100) nofail (fun _ _ => None) any_libs (fun _ => 0) dot = (None, st) /\ zHist st = before ++ [OpClose] /\
  zlen (produced (takes 100) [] before) <= 4096.
Proof.
  destruct (wEncode (takes 100) nofail (fun _ _ => None) any_libs (fun _ => 0) dot) as [r st] eqn:E.
  assert (R : fst (wEncode (takes 100) nofail (fun _ _ => None) any_libs (fun _ => 0) dot) = None) by (vm_compute; reflexivity).
  assert (Q : zlen (produced (takes 100) [] (zHist (snd (wEncode (takes 100) nofail (fun _ _ => None) any_libs (fun _ => 0) dot)))) <= 4096) by (vm_compute; discriminate).
  pose proof (C84_partial _ _ _ _ _ _ _ _ E) as (_ & _ & before & H & _). rewrite E in R, Q. cbn [fst snd] in R, Q. subst r. exists st, before. split; [reflexivity|]. split; [exact H|].
  rewrite H, produced_app, zlen_app in Q. pose proof (zlen_pos (produced (takes 100) ([] ++ before) [OpClose])). lia.
Qed.
Example C84_calls_ex : exists out, oraEncode any_libs (fun _ => 0) dot = Some out /\ List.length out = 5%nat.
Proof. eexists. split; reflexivity. Qed.
