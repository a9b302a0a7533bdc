(** The data of the parasites come from the file. *)
Require Import Verif.Base Verif.L_List Verif.M_Reader Verif.L_Reader Verif.M_Image Verif.M_Groups Verif.L_Groups Verif.M_Monad Verif.M_Decode Verif.S_Decode Verif.L_Wp Verif.L_Decode.
From Coq Require Import ZifyBool ZifyNat.

Lemma rest_split s st : rest s st <> [] -> exists pre, sFile s = pre ++ rest s st /\ zlen pre = rPos st.
Proof.
  unfold rest. destruct (_ || _) eqn:B; [intros H; now destruct H|]. intros _.
  exists (ztake (rPos st) (sFile s)). split; [symmetry; apply ztake_zdrop|apply zlen_ztake; lia].
Qed.
Lemma be4 a b c d : be [a; b; c; d] = 16777216 * a + 65536 * b + 256 * c + d.
Proof. cbv [be fold_left]. lia. Qed.
Lemma list4 (l : list Z) : zlen l = 4 -> exists a b c d, l = [a; b; c; d].
Proof.
  intros L. destruct l as [|a [|b [|c [|d [|e l]]]]]; unfold zlen in L; cbn [length] in L; try lia. now exists a, b, c, d.
Qed.
Lemma word_at_app pre e post : zlen e = 4 -> word_at (pre ++ e ++ post) (zlen pre) (be e).
Proof. intros L. destruct (list4 e L) as (a & b & c & d & ->). exists pre, a, b, c, d, post. split; [reflexivity|]. split; [reflexivity|apply be4]. Qed.

(** a word read, or an error and 0 *)
Lemma readUint32_at s st v st' : readUint32 s st = (v, st') ->
  (rErr st' <> None /\ v = 0) \/
  (rErr st = None /\ rErr st' = None /\ exists e, zlen e = 4 /\ rest s st = e ++ rest s st' /\ v = be e).
Proof.
  unfold readUint32, readBE. destruct (readFull s 4 st) as [o st1] eqn:R. intros [= <- <-].
  destruct (readFull_cases s 4 st o st1 ltac:(lia) R) as [(e & A & B & -> & ->) | [(A & e & t & B & C & -> & ->) | (A & B & -> & ->)]].
  - left. split; [congruence|reflexivity].
  - right. split; [exact A|]. split; [exact A|]. exists e. split; [exact C|]. split; [|reflexivity].
    rewrite <- C, (rest_advance s st e t B). exact B.
  - left. split; [cbn; congruence|reflexivity].
Qed.
Lemma readString_at s st name st' : readString s st = (name, st') -> name <> [] ->
  rErr st' = None /\ exists e, zlen e = 4 /\ be e = zlen name + 1 /\ rest s st = e ++ name ++ [0] ++ rest s st'.
Proof.
  unfold readString. destruct (readUint32 s st) as [n st1] eqn:U. intros H NE.
  assert (NIL : forall st2, ([], st2) = (name, st') -> False) by (intros st2 [= Q _]; congruence).
  destruct (n =? 0) eqn:N0; [destruct (NIL _ H)|]. destruct (_ <? n); [destruct (NIL _ H)|].
  destruct (readUint32_at s st n st1 U) as [(_ & ->)|(E0 & E1 & e & L & R & V)]; [discriminate N0|].
  destruct (readFull s n st1) as [[b|] st2] eqn:RF; [|destruct (NIL _ H)].
  destruct (Z_lt_le_dec n 0) as [NN|NN].
  { exfalso. unfold readFull in RF. rewrite E1 in RF. destruct (n <=? zlen (rest s st1)) eqn:Q; [|discriminate RF].
    injection RF as <- _. unfold ztake in H. replace (Z.to_nat n) with 0%nat in H by lia. cbn [firstn] in H.
    unfold znth in H. destruct (n - 1 <? 0) eqn:Q2 in H; [|lia]. destruct (NIL _ H). }
  destruct (readFull_cases s n st1 _ st2 NN RF) as [(x & _ & _ & _ & X) | [(_ & x & t & B & C & X & ->) | (_ & _ & X & _)]]; try discriminate X.
  injection X as <-.
  destruct (znth b (n - 1)) as [[| |]|] eqn:Z; try destruct (NIL _ H).
  destruct (utf8_valid _); [|destruct (NIL _ H)]. injection H as <- <-. split; [exact E1|]. exists e. split; [exact L|].
  assert (BN : b = ztake (n - 1) b ++ [0]).
  { destruct (split_at (n - 1) b) as (u & v & Q & LU); [lia|]. rewrite Q, ztake_app by exact LU.
    assert (LV : zlen v = 1) by (rewrite Q, zlen_app in C; lia).
    destruct v as [|y [|y2 v]]; unfold zlen in LV; cbn [length] in LV; try lia. f_equal. f_equal.
    rewrite Q, znth_app2 in Z by lia. replace (n - 1 - zlen u) with 0 in Z by lia. now injection Z. }
  split.
  - rewrite <- V, zlen_ztake by lia. lia.
  - assert (RT : rest s (advance st1 n) = t) by (rewrite <- C; exact (rest_advance s st1 b t B)).
    rewrite R, B, RT. f_equal. transitivity ((ztake (n - 1) b ++ [0]) ++ t); [now rewrite <- BN|now rewrite <- app_assoc].
Qed.

(** every result of [m] has [Q] *)
Definition yields {A} (m : M A) (Q : A -> Prop) : Prop := forall st a st', m st = Ret (a, st') -> Q a.
Lemma y_ret {A} (a : A) (Q : A -> Prop) : Q a -> yields (retM a) Q. Proof. intros H st b st' [= <- _]. exact H. Qed.
Lemma y_bind {A B} (m : M A) (f : A -> M B) (P : A -> Prop) (Q : B -> Prop) : yields m P -> (forall a, P a -> yields (f a) Q) -> yields (bindM m f) Q.
Proof. intros H K st b st' E. unfold bindM in E. destruct (m st) as [[a st1]| |] eqn:Em; try discriminate. exact (K a (H _ _ _ Em) _ _ _ E). Qed.
Lemma y_then {A B} (m : M A) (f : A -> M B) (Q : B -> Prop) : (forall a, yields (f a) Q) -> yields (bindM m f) Q.
Proof. intros K. apply (y_bind m f (fun _ => True)); [intros ? ? ? _; exact I|auto]. Qed.
Lemma y_if {A} (b : bool) (m n : M A) (Q : A -> Prop) : yields m Q -> yields n Q -> yields (if b then m else n) Q. Proof. now destruct b. Qed.
Lemma y_while {S R} (fuel : nat) (body : S -> M (S + R)) (J : S -> Prop) (Q : R -> Prop) :
  (forall s, J s -> yields (body s) (fun r => match r with inl s => J s | inr r => Q r end)) -> forall s, J s -> yields (whileM fuel body s) Q.
Proof.
  intros H. induction fuel as [|n IH]; intros s Js; [intros st a st' [=]|]. cbn [whileM].
  eapply y_bind; [exact (H s Js)|]. cbv beta. intros [s'|r] K; [now apply IH|now apply y_ret].
Qed.

Section Piece.
Variables (fuel : nat) (s : src).
Hypothesis Hbytes : Forall is_u8 (sFile s).
Definition from_file (p : parasite) : Prop := parName p = textParasiteName -> text_within (zlen (sFile s)) (sFile s) (parData p).
Lemma y_parasites l : yields (readParasites fuel s l) (Forall from_file).
Proof.
  unfold readParasites. apply (y_while fuel _ (fun x => Forall from_file (snd x))); [|constructor].
  intros [n ps] J. cbn [snd] in J. unfold par_body. apply y_if; [now apply y_ret|].
  intros st a st' E. unfold bindM, rdStr, rd32, liftM in E.
  destruct (readString s st) as [name st1] eqn:R1. destruct (readUint32 s st1) as [flags st2] eqn:R2. destruct (readUint32 s st2) as [pp st3] eqn:R3.
  cbv zeta in E. destruct (n <? _) in E; [unfold setErrM, actM, retM in E; injection E as <- _; constructor|].
  destruct (readSome s pp st3) as [w st4] eqn:R4. unfold retM in E. injection E as <- _. cbn [snd].
  apply Forall_app. split; [exact J|]. constructor; [|constructor]. unfold from_file. cbn [parName parData]. intros ->.
  destruct (readString_at s st _ st1 R1 ltac:(discriminate)) as (E1 & e & L & V & RS).
  destruct (rest_split s st) as (pre & SF & SP).
  { rewrite RS. intros Q. apply (f_equal (@List.length Z)) in Q. rewrite app_length in Q. cbn in Q. unfold zlen in L. lia. }
  rewrite RS in SF. exists (zlen pre). split; [|split].
  - replace 16 with (be e) by (rewrite V; reflexivity). rewrite SF. now apply word_at_app.
  - exists (pre ++ e), (rest s st1). rewrite SF, zlen_app, L. split; [now rewrite <- !app_assoc|reflexivity].
  - destruct (readUint32_at s st2 pp st3 R3) as [(E3 & ->)|(E2 & E3 & e2 & L2 & RS2 & V2)].
    { left. unfold readSome in R4. destruct (rErr st3); [|congruence]. injection R4 as <- _. reflexivity. }
    destruct (readUint32_at s st1 flags st2 R2) as [(E2' & _)|(_ & _ & e1 & L1 & RS1 & _)]; [congruence|].
    rewrite RS1, RS2 in SF.
    assert (W24 : word_at (sFile s) (zlen pre + 24) pp).
    { replace (zlen pre + 24) with (zlen (pre ++ e ++ textParasiteName ++ [0] ++ e1)) by (rewrite !zlen_app, L, L1; change (zlen textParasiteName) with 15; change (zlen [0]) with 1; lia).
      rewrite V2, SF. replace (pre ++ e ++ textParasiteName ++ [0] ++ e1 ++ e2 ++ rest s st3) with ((pre ++ e ++ textParasiteName ++ [0] ++ e1) ++ e2 ++ rest s st3) by (now rewrite <- !app_assoc).
      now apply word_at_app. }
    assert (B28 : forall w t, rest s st3 = w ++ t -> bytes_at (sFile s) (zlen pre + 28) w).
    { intros u t U. exists (pre ++ e ++ textParasiteName ++ [0] ++ e1 ++ e2), t. rewrite SF, U. split; [now rewrite <- !app_assoc|].
      rewrite !zlen_app, L, L1, L2. change (zlen textParasiteName) with 15. change (zlen [0]) with 1. lia. }
    assert (SL : zlen (sFile s) = zlen pre + 28 + zlen (rest s st3)).
    { rewrite SF, !zlen_app, L, L1, L2. change (zlen textParasiteName) with 15. change (zlen [0]) with 1. lia. }
    right. pose proof (zlen_pos w).
    destruct (Z_lt_le_dec pp 0) as [NG|NG].
    { exfalso. pose proof (rest_bytes s Hbytes st2) as FB. rewrite RS2 in FB. apply Forall_app in FB. pose proof (be_bound e2 (proj1 FB)). lia. }
    assert (WL : zlen w <= pp).
    { destruct (readSome_cases s pp st3 w st4 NG E3 R4) as [(t & _ & Q & _)|(_ & [Q| ->] & _)]; [lia|lia|change (zlen (@nil Z)) with 0; lia]. }
    split.
    + replace (zlen (w ++ repeat 0 (Z.to_nat (pp - zlen w)))) with pp; [exact W24|]. rewrite zlen_app, zlen_repeat. lia.
    + exists w, (Z.to_nat (pp - zlen w)).
      destruct (readSome_cases s pp st3 w st4 NG E3 R4) as [(t & RW & Q & _)|(RW & _)].
      * split; [exact (B28 w t RW)|]. split; [reflexivity|]. left. lia.
      * split; [apply (B28 w []); now rewrite app_nil_r|]. split; [reflexivity|]. right. rewrite SL, RW. reflexivity.
Qed.
Lemma y_properties f32op d l : yields (readProperties fuel s f32op d l) (fun x => Forall from_file (snd x)).
Proof.
  unfold readProperties. apply (y_while fuel _ (fun x => Forall from_file (snd x))); [|constructor].
  intros [l0 ps] J. unfold lprop_body. cbn [snd] in J. apply y_then. intros typ. apply y_then. intros pl.
  assert (D : yields (skM pl;;; retM (@inl lprop_state lprop_state (l0, ps))) (fun r => match r with inl s | inr s => Forall from_file (snd s) end)) by (apply y_then; intros; now apply y_ret).
  repeat match goal with
  | |- yields (match ?x with _ => _ end) _ => is_var x; destruct x; try exact D
  end;
  repeat (first [exact D | apply y_ret; exact J | eapply y_bind; [apply y_parasites|intros ? ?; apply y_ret; assumption] | apply y_then; intros ?]).
Qed.
(** the text parasite of a layer *)
Lemma text_from_file ps t : Forall from_file ps -> par_get ps textParasiteName = Some t -> text_within (zlen (sFile s)) (sFile s) (parData t).
Proof.
  intros F G. unfold par_get in G. apply find_some in G. destruct G as [I E]. apply key_eqb_eq in E.
  exact (proj1 (Forall_forall _ _) F t I E).
Qed.
End Piece.
