(** What the encoder's programs leave behind on a faultless destination: the calls
    they make, in any order, tile given segments of the file. *)
From Coq Require Import Permutation ZifyBool ZifyNat.
Require Import Verif.Base Verif.L_List Verif.M_Reader Verif.M_Encode Verif.S_Encode Verif.L_Encode
  Verif.S_File Verif.S_Layout.

(** ** segments *)
Definition seg : Type := (Z * list Z)%type.
Definition covers (k : list call) (ss : list seg) : Prop :=
  exists css, Permutation k (concat css) /\
    Forall2 (fun cs s => laid (fst s) (map landed cs) (snd s)) css ss.
Lemma covers_nil : covers [] []. Proof. exists []. split; constructor. Qed.
Lemma covers_one c p l : landed c = (p, l) -> covers [c] [(p, l)].
Proof.
  intros E. exists [[c]]. split; [cbn; apply Permutation_refl|]. constructor; [|constructor].
  cbn. rewrite E. split; [cbn; auto|cbn; now rewrite app_nil_r].
Qed.
Lemma covers_app k1 s1 k2 s2 : covers k1 s1 -> covers k2 s2 -> covers (k2 ++ k1) (s1 ++ s2).
Proof.
  intros (c1 & P1 & F1) (c2 & P2 & F2). exists (c1 ++ c2). split.
  - rewrite concat_app. rewrite Permutation_app_comm. now apply Permutation_app.
  - now apply Forall2_app.
Qed.
Lemma Forall2_perm {A B} (R : A -> B -> Prop) l m : Permutation l m ->
  forall k, Forall2 R k l -> exists k', Permutation k k' /\ Forall2 R k' m.
Proof.
  induction 1 as [|x l m P IH|x y l|l m n P1 IH1 P2 IH2]; intros k F.
  - inversion F. exists []. auto.
  - inversion F as [|a ? k' ? H F']; subst. destruct (IH _ F') as (k2 & Q & G). exists (a :: k2). auto.
  - inversion F as [|a ? k' ? H F']; subst. inversion F' as [|b ? k2 ? H' F2]; subst.
    exists (b :: a :: k2). split; [apply perm_swap|auto].
  - destruct (IH1 _ F) as (k1 & Q1 & G1). destruct (IH2 _ G1) as (k2 & Q2 & G2).
    exists k2. split; [now transitivity k1|auto].
Qed.
Lemma concat_perm {A} (l m : list (list A)) : Permutation l m -> Permutation (concat l) (concat m).
Proof.
  induction 1 as [|x l m P IH|x y l|l m n P1 IH1 P2 IH2]; cbn [concat]; auto.
  - now apply Permutation_app_head.
  - rewrite !app_assoc. apply Permutation_app_tail, Permutation_app_comm.
  - now transitivity (concat m).
Qed.
Lemma covers_perm k ss ss' : covers k ss -> Permutation ss ss' -> covers k ss'.
Proof.
  intros (c & P & F) Q. destruct (Forall2_perm _ _ _ Q _ F) as (c' & Q' & F'). exists c'. split; [|exact F'].
  rewrite P. now apply concat_perm.
Qed.
Lemma consecutive_app o a b : consecutive o a -> consecutive (o + zlen (concat (map snd a))) b -> consecutive o (a ++ b).
Proof.
  revert o. induction a as [|[q l] a IH]; intros o C1 C2; cbn [app consecutive map concat snd] in *.
  - change (zlen (@nil Z)) with 0 in C2. now rewrite Z.add_0_r in C2.
  - destruct C1 as [-> C1]. split; [reflexivity|]. apply IH; [exact C1|]. rewrite zlen_app in C2. now rewrite <- Z.add_assoc.
Qed.
Lemma laid_app o a A b B : laid o a A -> laid (o + zlen A) b B -> laid o (a ++ b) (A ++ B).
Proof.
  intros [C1 E1] [C2 E2]. split; [|now rewrite map_app, concat_app, <- E1, <- E2].
  apply consecutive_app; [exact C1|]. now rewrite <- E1.
Qed.
Lemma covers_merge k p A q B ss : covers k ((p, A) :: (q, B) :: ss) -> q = p + zlen A -> covers k ((p, A ++ B) :: ss).
Proof.
  intros (c & P & F) ->. inversion F as [|a ? c1 ? H1 F1]; subst. inversion F1 as [|b ? c2 ? H2 F2]; subst.
  exists ((a ++ b) :: c2). split; [cbn [concat] in *; now rewrite <- app_assoc|].
  constructor; [|exact F2]. cbn [fst snd] in *. rewrite map_app. now apply laid_app.
Qed.
Lemma covers_empty k p ss : covers k ss -> covers k ((p, []) :: ss).
Proof. intros (c & P & F). exists ([] :: c). split; [exact P|]. constructor; [|exact F]. split; cbn; auto. Qed.
Lemma covers_k k k' ss : covers k ss -> Permutation k k' -> covers k' ss.
Proof. intros (c & P & F) Q. exists c. split; [|exact F]. now rewrite <- Q. Qed.
(** one segment: the calls, rearranged, are consecutive *)
Lemma covers_laid k p B : covers k [(p, B)] -> exists cs, Permutation k cs /\ laid p (map landed cs) B.
Proof.
  intros (c & P & F). inversion F as [|a ? c1 ? H1 F1]; subst. inversion F1; subst.
  exists a. cbn in P. rewrite app_nil_r in P. auto.
Qed.

(** ** programs *)
(** Run at position p with n draws made, a program that does not panic appends calls
    [k] and ends without an error at position p' with n' draws, and these satisfy Q *)
Definition gives {A} (m : W A) (p : Z) (n : nat) (Q : A -> Z -> nat -> list call -> Prop) : Prop :=
  forall log a st', m (mkW log p None n) = Some (a, st') ->
  exists k p' n', st' = mkW (k ++ log) p' None n' /\ Q a p' n' k.
Lemma gives_mono {A} (m : W A) p n (Q Q' : A -> Z -> nat -> list call -> Prop) :
  gives m p n Q -> (forall a p' n' k, Q a p' n' k -> Q' a p' n' k) -> gives m p n Q'.
Proof. intros G I log a st' E. destruct (G _ _ _ E) as (k & p' & n' & S & q). exists k, p', n'. auto. Qed.
Lemma gives_ret {A} (a : A) p n (Q : A -> Z -> nat -> list call -> Prop) : Q a p n [] -> gives (retW a) p n Q.
Proof. intros H log a' st' [= <- <-]. exists [], p, n. auto. Qed.
Lemma gives_bind {A B} (m : W A) (f : A -> W B) p n R Q :
  gives m p n R ->
  (forall a p' n' k, R a p' n' k -> gives (f a) p' n' (fun b p'' n'' k' => Q b p'' n'' (k' ++ k))) ->
  gives (bindW m f) p n Q.
Proof.
  intros G1 G2 log b st' E. unfold bindW in E. destruct (m (mkW log p None n)) as [[a st1]|] eqn:E1; [|discriminate].
  destruct (G1 _ _ _ E1) as (k & p' & n' & -> & r). destruct (G2 _ _ _ _ r _ _ _ E) as (k' & p'' & n'' & -> & q).
  exists (k' ++ k), p'', n''. split; [now rewrite app_assoc|exact q].
Qed.
Lemma gives_pos p n (Q : Z -> Z -> nat -> list call -> Prop) : Q p p n [] -> gives posW p n Q.
Proof. intros H log a st' [= <- <-]. exists [], p, n. auto. Qed.

Section Emit.
Variables (wr : nat -> Z -> list Z -> Z * option err).
Hypothesis F : faultless wr.

(** a program that only writes the bytes B at the current position *)
Definition emits {A} (m : W A) (B : list Z) : Prop :=
  forall p n, gives m p n (fun _ p' n' k => p' = p + zlen B /\ n' = n /\ covers k [(p, B)]).
Lemma emits_eq {A} (m : W A) B B' : emits m B -> B = B' -> emits m B'. Proof. now intros H <-. Qed.
Lemma emits_put l : emits (put wr l) l.
Proof.
  intros p n log a st' E. rewrite (put_ok wr l _ F) in E by reflexivity. cbn [wPos wLog wRnd] in E. injection E as <- <-.
  exists [mkCall p l (zlen l) None], (p + zlen l), n. repeat split; auto. apply covers_one. apply landed_all.
Qed.
Lemma emits_skip : emits skipW [].
Proof.
  intros p n. apply gives_ret. change (zlen (@nil Z)) with 0. rewrite Z.add_0_r. repeat split; auto.
  apply covers_empty, covers_nil.
Qed.
Lemma emits_bind {A B} (m : W A) (f : A -> W B) L1 L2 : emits m L1 -> (forall a, emits (f a) L2) -> emits (bindW m f) (L1 ++ L2).
Proof.
  intros H1 H2 p n. eapply gives_bind; [apply H1|]. cbv beta. intros a p' n' k (-> & -> & C).
  eapply gives_mono; [apply H2|]. cbv beta. intros _ p' n' k' (-> & -> & C'). rewrite zlen_app. repeat split; [lia|].
  apply (covers_merge _ _ _ (p + zlen L1)); [|reflexivity]. now apply (covers_app k [(p, L1)]).
Qed.
Lemma emits_put32 z : emits (put32 wr z) (w32 z). Proof. apply emits_put. Qed.
Lemma emits_put8 z : emits (put8 wr z) [u8 z]. Proof. apply emits_put. Qed.
Lemma emits_each {A} (f : A -> W unit) (g : A -> list Z) l : (forall a, In a l -> emits (f a) (g a)) -> emits (eachW f l) (flat_map g l).
Proof.
  induction l as [|a l IH]; intros H; cbn [eachW flat_map]; [apply emits_skip|].
  apply emits_bind; [apply H; now left|]. intros _. apply IH. intros b I. apply H. now right.
Qed.
Lemma emits_puts l : emits (eachW (put wr) l) (concat l).
Proof. rewrite <- (map_id l) at 2. rewrite <- flat_map_concat_map. apply emits_each. intros a _. apply emits_put. Qed.
Lemma emits_str l : emits (putStr wr l) (string32 l).
Proof.
  unfold putStr, string32. apply emits_bind; [apply emits_put32|]. intros _.
  apply emits_bind; [apply emits_put|]. intros _. apply emits_put8.
Qed.
(** what is written next *)
Lemma gives_emits {A B} (m : W A) (f : A -> W B) L p n Q : emits m L ->
  (forall a k, covers k [(p, L)] -> gives (f a) (p + zlen L) n (fun b p' n' k' => Q b p' n' (k' ++ k))) ->
  gives (bindW m f) p n Q.
Proof. intros E H. eapply gives_bind; [apply E|]. cbv beta. intros a p' n' k (-> & -> & C). auto. Qed.
Lemma gives_pointer w ptr p n (Q : pointerWriter -> Z -> nat -> list call -> Prop) : pwErr w = None -> 0 < pwLeft w ->
  (forall k, covers k [(pwPos w, w32 ptr)] -> Q (mkPW (pwPos w + 4) (pwLeft w - 1) None) p n k) ->
  gives (writePointer wr ptr w) p n Q.
Proof.
  intros E L H log a st' X. unfold writePointer, writeAt in X. replace (0 <? pwLeft w) with true in X by lia.
  rewrite E, F in X. cbn in X. injection X as <- <-.
  eexists [_], p, n. split; [reflexivity|]. apply H. apply covers_one. reflexivity.
Qed.
Lemma gives_reserve c p n (Q : pointerWriter -> Z -> nat -> list call -> Prop) :
  Q (mkPW p c None) (p + c * 4) n [] -> gives (reservePointers c) p n Q.
Proof. intros H log a st' [= <- <-]. exists [], (p + c * 4), n. auto. Qed.
End Emit.
