(** Which errors the encoder's writes leave behind. *)
Require Import Verif.Base Verif.L_List Verif.M_Color Verif.M_Composite Verif.M_Rect Verif.M_Image Verif.L_Image
  Verif.M_Reader Verif.M_Decode Verif.M_Encode Verif.S_Encode.
From Coq Require Import ZifyBool ZifyNat.

(** the recursion of writeLayer is writeLayers *)
Lemma writeLayer_eq wr rnd wtext f ct name b md inv tr im ox oy gs pw :
  writeLayer wr rnd wtext f ct (mkLayer name b md inv tr im) ox oy gs pw =
  (pos <~ posW;;
   pw <~ writePointer wr pos pw;;
   writeProperties wr wtext ct (mkLayer name b md inv tr im) ox oy gs (is_group im) (text_of im) ~;
   put32 wr 0 ~;
   writeLayerData wr rnd f (fst (split_mask im)) (snd (split_mask im)) ~;
   match im with
   | IGroup g => writeLayers wr rnd wtext f ct g ox oy gs 0 pw
   | _ => retW pw
   end).
Proof. reflexivity. Qed.
Lemma writeLayers_cons wr rnd wtext f ct l g ox oy gs n pw :
  writeLayers wr rnd wtext f ct (l :: g) ox oy gs n pw =
  (pw <~ writeLayer wr rnd wtext f ct l (ox + minX (lBounds l)) (oy + minY (lBounds l)) (gs ++ [n]) pw;;
   writeLayers wr rnd wtext f ct g ox oy gs (n + 1) pw).
Proof. reflexivity. Qed.

Section Calls.
Variables (wr : nat -> Z -> list Z -> Z * option err) (rnd : nat -> Z)
          (wtext : list textDatum -> Z -> Z -> option (list Z)).

(** e is the error of one of the calls *)
Definition from (log : list call) (e : option err) : Prop :=
  match e with Some _ => exists c, In c log /\ cErr c = e | None => True end.
Definition made (c : call) : Prop := exists k, (cGot c, cErr c) = wr k (cOff c) (cReq c).
Definition sound (st : wst) : Prop :=
  from (wLog st) (wErr st) /\ (wErr st = None -> Forall (fun c => cErr c = None) (wLog st)) /\
  Forall made (wLog st).
Definition more (l l' : list call) : Prop := exists k, l' = k ++ l.
Lemma more_refl l : more l l. Proof. now exists []. Qed.
Lemma more_trans a b c : more a b -> more b c -> more a c.
Proof. intros [k ->] [j ->]. exists (j ++ k). now rewrite app_assoc. Qed.
Lemma from_more l l' e : more l l' -> from l e -> from l' e.
Proof.
  intros [k ->] F. destruct e; [|trivial]. destruct F as (c & I & E). exists c. split; [|exact E]. apply in_or_app. auto.
Qed.

(** m keeps the invariant, given P about the log; its result satisfies Q *)
Definition keeps {A} (P : list call -> Prop) (m : W A) (Q : A -> list call -> Prop) : Prop :=
  forall st a st', sound st -> P (wLog st) -> m st = Some (a, st') ->
    sound st' /\ more (wLog st) (wLog st') /\ Q a (wLog st').
Definition stable (P : list call -> Prop) : Prop := forall l l', more l l' -> P l -> P l'.
Definition any : list call -> Prop := fun _ => True.
Definition any1 {A} (_ : A) : list call -> Prop := any.
Definition okpw (pw : pointerWriter) (log : list call) : Prop := from log (pwErr pw).
Lemma any_stable : stable any. Proof. intros ? ? _ H. exact H. Qed.
Lemma okpw_stable pw : stable (okpw pw). Proof. intros ? ? M H. eapply from_more; eauto. Qed.

Lemma keeps_bind {A B} P (m : W A) Q (f : A -> W B) R :
  keeps P m Q -> (forall a, keeps (Q a) (f a) R) -> keeps P (bindW m f) R.
Proof.
  intros H1 H2 st b st' S H E. unfold bindW in E. destruct (m st) as [[a st1]|] eqn:M; [|discriminate].
  destruct (H1 _ _ _ S H M) as (S1 & M1 & Q1). destruct (H2 a _ _ _ S1 Q1 E) as (S2 & M2 & R2).
  split; [exact S2|]. split; [|exact R2]. eapply more_trans; eauto.
Qed.
(** carrying an assertion past m *)
Lemma keeps_seq {A B} P (m : W A) (f : A -> W B) R : stable P ->
  keeps any m any1 -> (forall a, keeps P (f a) R) -> keeps P (bindW m f) R.
Proof.
  intros SP H1 H2. apply (keeps_bind P m (fun _ => P)); [|exact H2].
  intros st a st' S H E. destruct (H1 _ _ _ S Logic.I E) as (S1 & M1 & _). split; [exact S1|]. split; [exact M1|].
  now apply (SP (wLog st)).
Qed.
Lemma keeps_ret {A} (P : list call -> Prop) (a : A) (Q : A -> list call -> Prop) :
  (forall l, P l -> Q a l) -> keeps P (retW a) Q.
Proof. intros H st b st' S HP E. injection E as <- <-. split; [exact S|]. split; [apply more_refl|]. now apply H. Qed.
Lemma keeps_weaken {A} (P P' : list call -> Prop) (m : W A) (Q Q' : A -> list call -> Prop) : keeps P m Q -> (forall l, P' l -> P l) -> (forall a l, Q a l -> Q' a l) -> keeps P' m Q'.
Proof. intros K H1 H2 st a st' S HP E. destruct (K _ _ _ S (H1 _ HP) E) as (S1 & M & Q1). auto. Qed.
Lemma keeps_each {A} (f : A -> W unit) l : (forall a, In a l -> keeps any (f a) any1) -> keeps any (eachW f l) any1.
Proof.
  induction l; intros K; cbn [eachW]; [now apply keeps_ret|].
  apply (keeps_bind any _ any1); [apply K; now left|]. intros u. apply IHl. intros b Ib. apply K. now right.
Qed.
Lemma keeps_fold {A S} (f : A -> S -> W S) l (P : S -> list call -> Prop) :
  (forall a s, keeps (P s) (f a s) P) -> forall s, keeps (P s) (foldW f l s) P.
Proof.
  intros K. induction l; intros s; cbn [foldW]; [now apply keeps_ret|].
  apply (keeps_bind _ _ P); [apply K|]. exact IHl.
Qed.
Lemma keeps_id {A} (m : W A) : (forall st a st', m st = Some (a, st') -> wLog st' = wLog st /\ wErr st' = wErr st) -> keeps any m any1.
Proof.
  intros H st a st' S _ E. destruct (H _ _ _ E) as [L R]. unfold sound. rewrite L, R. split; [exact S|].
  split; [apply more_refl|exact I].
Qed.

(** the primitive writes *)
Lemma keeps_put p : keeps any (put wr p) any1.
Proof.
  intros st a st' (S1 & S2 & S3) _ E. unfold put, writeAt in E. destruct (wErr st) as [e|] eqn:We.
  - injection E as <- <-. split; [|split; [apply more_refl|exact I]]. split; [|split]; [rewrite We; exact S1| congruence | exact S3].
  - destruct (wr (length (wLog st)) (wPos st) p) as [n e] eqn:Ew. injection E as <- <-. cbn.
    split; [|split; [now exists [mkCall (wPos st) p n e]|exact I]].
    split; [|split]; cbn.
    + destruct e; cbn; [|exact I]. exists (mkCall (wPos st) p n (Some e)). auto.
    + intros ->. constructor; auto.
    + constructor; [|exact S3]. exists (length (wLog st)). cbn. now rewrite Ew.
Qed.
Lemma keeps_writePointer ptr pw : keeps (okpw pw) (writePointer wr ptr pw) okpw.
Proof.
  intros st a st' (S1 & S2 & S3) HP E. unfold writePointer, writeAt in E. destruct (0 <? pwLeft pw).
  2:{ injection E as <- <-. split; [split; auto|]. split; [apply more_refl|exact HP]. }
  destruct (pwErr pw) as [e|] eqn:We.
  - injection E as <- <-. unfold okpw in HP. rewrite We in HP. cbn. split; [|split; [apply more_refl|]].
    + split; [|split]; cbn; auto. discriminate.
    + exact HP.
  - destruct (wr (length (wLog st)) (pwPos pw) (be32 ptr)) as [n e] eqn:Ew. injection E as <- <-.
    set (c := mkCall (pwPos pw) (be32 ptr) n e). assert (M : more (wLog st) (c :: wLog st)) by now exists [c].
    assert (F : from (c :: wLog st) e).
    { destruct e; cbn; [|exact I]. exists c. split; [now left|reflexivity]. }
    split; [|split; [exact M|exact F]]. split; [|split]; cbn.
    + destruct e; [exact F|]. eapply from_more; eauto.
    + intros N. destruct e; [discriminate|]. constructor; auto.
    + constructor; [|exact S3]. exists (length (wLog st)). cbn. now rewrite Ew.
Qed.
Lemma keeps_reserve n : keeps any (reservePointers n) okpw.
Proof.
  intros st a st' S _ E. unfold reservePointers in E. injection E as <- <-. cbn.
  split; [exact S|]. split; [apply more_refl|exact I].
Qed.
Lemma keeps_posW : keeps any posW any1.
Proof. apply keeps_id. intros st a st' E. injection E as <- <-. auto. Qed.

Ltac k1 := first
  [ apply keeps_put | apply keeps_posW
  | (apply keeps_seq; [first [apply any_stable | apply okpw_stable] | | intros ?]) ].
Lemma keeps_seqs m {B} (f : unit -> W B) R : keeps any m any1 -> keeps any (f tt) R -> keeps any (bindW m f) R.
Proof. intros H1 H2. apply (keeps_bind any m any1); [exact H1|]. intros []. exact H2. Qed.
Ltac kp := repeat (apply keeps_seqs; [apply keeps_put|]).

Lemma keeps_putStr l : keeps any (putStr wr l) any1.
Proof. unfold putStr, put32, put8. kp. apply keeps_put. Qed.
Lemma keeps_reserveList n : keeps any (reservePointerList wr n) okpw.
Proof.
  unfold reservePointerList. apply (keeps_bind any _ okpw); [apply keeps_reserve|]. intros pw.
  k1; [apply keeps_put|]. now apply keeps_ret.
Qed.
Lemma keeps_readPixel so f p acc : keeps any (readPixel so f p acc) any1.
Proof.
  apply keeps_id. intros st a st' E. unfold readPixel in E. destruct (soAt so (fst p) (snd p) (wRnd st)); [|discriminate].
  injection E as <- <-. auto.
Qed.
Lemma keeps_writeTile so f xy w : keeps (okpw w) (writeTile wr so f xy w) okpw.
Proof.
  unfold writeTile. k1. { apply (keeps_fold _ _ (fun _ => any)). intros. apply keeps_readPixel. }
  k1; [k1|]. apply (keeps_bind _ _ okpw); [apply keeps_writePointer|]. intros w'.
  k1; [|now apply keeps_ret].
  apply keeps_each. intros n _. apply keeps_each. intros; apply keeps_put.
Qed.
Lemma keeps_writeImage so f : keeps any (writeImage wr so f) any1.
Proof.
  unfold writeImage, put32. kp. k1; [k1|]. kp.
  apply (keeps_bind _ _ okpw); [apply keeps_reserveList|]. intros w.
  apply (keeps_bind _ _ okpw); [apply keeps_fold; intros; apply keeps_writeTile|].
  intros. now apply keeps_ret.
Qed.
Lemma keeps_writeChannel g : keeps any (writeChannel wr g) any1.
Proof.
  unfold writeChannel, put32. kp. apply keeps_seqs; [apply keeps_putStr|]. kp. k1; [k1|].
  apply keeps_seqs; [apply keeps_put|]. apply keeps_writeImage.
Qed.
Lemma keeps_pw ptr pw : keeps (okpw pw) (writePointer wr ptr pw ~; skipW) any1.
Proof. apply (keeps_bind _ _ okpw); [apply keeps_writePointer|]. intros. now apply keeps_ret. Qed.
Lemma keeps_writeLayerData f i m : keeps any (writeLayerData wr rnd f i m) any1.
Proof.
  unfold writeLayerData. apply (keeps_bind _ _ okpw); [apply keeps_reserve|]. intros p.
  k1; [k1|]. apply (keeps_bind _ _ okpw); [apply keeps_writePointer|]. intros p'.
  k1; [apply keeps_writeImage|]. destruct m.
  - k1; [k1|]. apply (keeps_bind _ _ okpw); [apply keeps_writePointer|]. intros.
    eapply keeps_weaken; [apply keeps_writeChannel|exact (fun _ _ => I)|auto].
  - apply keeps_pw.
Qed.
Lemma keeps_writeText t w h : keeps any (writeText wr wtext t w h) any1.
Proof.
  intros st a st' S H E. unfold writeText in E. destruct (wtext t w h); [|discriminate]. revert st a st' S H E.
  change (keeps any (put32 wr 26 ~; put32 wr 4 ~; put32 wr 1 ~; put32 wr 21 ~; put32 wr (4 + 15 + 1 + 4 + 4 + zlen l) ~;
   putStr wr textParasiteName ~; put32 wr 0 ~; put32 wr (zlen l) ~; put wr l) any1).
  unfold put32. kp. apply keeps_seqs; [apply keeps_putStr|]. kp. apply keeps_put.
Qed.
Lemma keeps_writeProperties ct l ox oy gs g t : keeps any (writeProperties wr wtext ct l ox oy gs g t) any1.
Proof.
  unfold writeProperties, put32. kp. apply keeps_seqs; [apply keeps_putStr|]. kp.
  apply keeps_seqs. { destruct (1 <? zlen gs); [kp; apply keeps_each; intros; apply keeps_put|now apply keeps_ret]. }
  apply keeps_seqs. { destruct t; [now apply keeps_ret|apply keeps_writeText]. }
  apply keeps_seqs. { destruct g; [kp; apply keeps_put|now apply keeps_ret]. }
  kp. apply keeps_put.
Qed.
Lemma keeps_writeLayers_of f ct g : Forall (fun l => forall ox oy gs pw, keeps (okpw pw) (writeLayer wr rnd wtext f ct l ox oy gs pw) okpw) g ->
  forall ox oy gs n pw, keeps (okpw pw) (writeLayers wr rnd wtext f ct g ox oy gs n pw) okpw.
Proof.
  induction 1 as [|l g H _ IH]; intros; [now apply keeps_ret|]. rewrite writeLayers_cons.
  apply (keeps_bind _ _ okpw); [apply H|]. intros. apply IH.
Qed.
Lemma keeps_writeLayer f ct l ox oy gs pw : keeps (okpw pw) (writeLayer wr rnd wtext f ct l ox oy gs pw) okpw.
Proof.
  revert ox oy gs pw.
  apply (layer_image_ind
    (fun i => match i with IGroup g => Forall (fun l => forall ox oy gs pw, keeps (okpw pw) (writeLayer wr rnd wtext f ct l ox oy gs pw) okpw) g | _ => True end)
    (fun l => forall ox oy gs pw, keeps (okpw pw) (writeLayer wr rnd wtext f ct l ox oy gs pw) okpw)); auto.
  intros name b md inv tr im H ox oy gs pw. rewrite writeLayer_eq.
  k1; [k1|]. apply (keeps_bind _ _ okpw); [apply keeps_writePointer|]. intros pw1.
  k1; [apply keeps_writeProperties|]. k1; [apply keeps_put|]. k1; [apply keeps_writeLayerData|].
  destruct im; try now apply keeps_ret. now apply keeps_writeLayers_of.
Qed.
Lemma keeps_writeLayers f ct g ox oy gs n pw : keeps (okpw pw) (writeLayers wr rnd wtext f ct g ox oy gs n pw) okpw.
Proof. apply keeps_writeLayers_of. apply Forall_forall. intros. apply keeps_writeLayer. Qed.
Lemma keeps_encodeW i : keeps any (encodeW wr rnd wtext i) any1.
Proof.
  unfold encodeW. cbv zeta. set (j := match i with ILayer l => IGroup [l] | i => i end). clearbody j.
  destruct (colour_type (image_ColorModel j)) as [[ct f] pal]. unfold put32, put8. kp.
  apply keeps_seqs. { destruct pal; [|now apply keeps_ret]. unfold writePalette, put32, put8. kp.
    apply keeps_each. intros c _. destruct (rgbModel c) as [[r g] b]. kp. apply keeps_put. }
  kp. destruct j; (apply (keeps_bind _ _ okpw); [apply keeps_reserveList|]; intros pw; k1; [apply keeps_put|];
   apply (keeps_bind _ _ okpw); [first [apply keeps_writeLayers | apply keeps_writeLayer]|]; intros; now apply keeps_ret).
Qed.
Theorem encode_calls i e calls : encode wr rnd wtext i = Some (e, calls) ->
  from calls e /\ (e = None -> Forall (fun c => cErr c = None) calls) /\ Forall made calls.
Proof.
  unfold encode. destruct (encodeW wr rnd wtext i (mkW [] 0 None 0)) as [[u st]|] eqn:E; [|discriminate].
  intros H. injection H as <- <-.
  assert (S0 : sound (mkW [] 0 None 0)). { split; [exact I|]. split; constructor. }
  destruct (keeps_encodeW i _ _ _ S0 I E) as ((S1 & S2 & S3) & _ & _).
  split; [|split].
  - destruct (wErr st); cbn in *; [|exact I]. destruct S1 as (c & I & Ec). exists c. split; [now apply -> in_rev|exact Ec].
  - intros N. apply Forall_rev. auto.
  - now apply Forall_rev.
Qed.
End Calls.
