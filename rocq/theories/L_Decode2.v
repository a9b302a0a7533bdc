(** The property lists of the decoder. *)
Require Import Verif.Base Verif.L_List Verif.L_Word Verif.M_Reader Verif.L_Reader Verif.M_Rle Verif.S_Rle
  Verif.M_Color Verif.M_Composite Verif.M_Rect Verif.M_Image Verif.M_Compressed
  Verif.M_Groups Verif.M_Monad Verif.M_Decode Verif.L_Wp Verif.L_Decode.
From Coq Require Import ZifyBool ZifyNat.

Section Props.
Variables (F : Prop) (E : why -> Prop) (s : src) (fuel : nat).
Hypothesis Hbytes : Forall is_u8 (sFile s).
Hypothesis Hlen : zlen (sFile s) < 9223372036854775808.
Hypothesis HF : fuel_ok F s fuel.
Notation safe := (safe F E).

Lemma safe_skipParasite : safe (skipParasite s) any.
Proof. unfold skipParasite. repeat safe_step. Qed.
Hint Resolve safe_skipParasite : safe.
Lemma safe_skipPaths : safe (skipPaths s) any.
Proof. unfold skipPaths. repeat safe_step. Qed.
Lemma safe_skipStroke u : safe (skipStroke s u) any.
Proof. unfold skipStroke. repeat safe_step. Qed.
Lemma safe_skipVectors : safe (skipVectors s) any.
Proof.
  unfold skipVectors. repeat safe_step. apply safe_skipStroke.
Qed.
Lemma safe_readRGB : safe (readRGB s) any.
Proof. unfold readRGB. repeat safe_step. Qed.

Hint Resolve safe_skipPaths safe_skipVectors safe_readRGB : safe.
Ltac dz := repeat match goal with |- L_Decode.safe _ _ (match ?x with _ => _ end) _ => is_var x; destruct x end.
Ltac fin := try (apply safe_ret; cbv beta iota zeta; first [exact I | split; [exact I|discriminate]]).
Ltac go := repeat (fin; safe_step); fin.
Lemma safe_ret_if {A} (b : bool) (x y : A) (P : A -> Prop) : P x -> P y -> safe (retM (if b then x else y)) P.
Proof. intros; destruct b; apply safe_ret; assumption. Qed.

Ltac props :=
  eexists; split; [reflexivity|]; intros typ pl Ht Hp; cbv beta in *; dz;
  repeat (first [ apply safe_ret_if; cbv beta iota zeta; first [exact I | split; [exact I|discriminate]]
                | apply safe_ret; cbv beta iota zeta; first [exact I | split; [exact I|discriminate]]
                | safe_step ]).
Lemma safe_readImageProperties bt : safe (readImageProperties fuel s bt) any.
Proof.
  unfold readImageProperties. apply safe_props with (s := s) (I := any); auto; [|exact I].
  intros [pal comp] _. unfold imgprop_body. props.
Qed.
Lemma safe_readLayerPointers mode : safe (readLayerPointers fuel s mode) any.
Proof.
  intros st O. unfold readLayerPointers.
  eapply wp_mono; [refine (wp_while F E _ (fun _ st' => okpos st' /\ adv st st') (fun _ st' => mu s st') (fun _ st' => adv st st') _ fuel [] st _ _)|].
  - intros l st0 [O0 A0]. apply wp_bind.
    assert (X : forall k, 0 < k -> wp F E (liftM (readBE s k))
      (fun p st1 => wp F E (retM (if p =? 0 then inr l else inl (l ++ [p])))
        (fun r st' => match r with
           | inl _ => (okpos st' /\ adv st st') /\ (mu s st' < mu s st0)%nat
           | inr _ => adv st st' end) st1) st0).
    { intros k K. apply wp_read; auto. intros v st1 A1 B1 G1 Z1 W1. apply wp_ret.
      destruct (v =? 0) eqn:V; [eapply adv_trans; eauto|].
      destruct (A1 O0) as [O1 F1].
      split; [split; [exact O1|eapply adv_trans; eauto]|].
      assert (N1 : rErr st1 = None) by (destruct (rErr st1) eqn:Q; auto; exfalso; assert (v = 0) by (apply Z1; congruence); lia).
      destruct (G1 N1) as (N0 & P1 & Q1 & Q2 & _). apply (mu_dec s k); [exact O0|congruence|exact K|lia|intros _; lia]. }
    unfold rdPtr. destruct (mode <? 2); [apply (X 4)|apply (X 8)]; lia.
  - split; [exact O|apply adv_refl].
  - destruct HF as [H|H]; [now left|right]. unfold mu, okpos in *. pose proof (zlen_pos (sFile s)). destruct (rErr st); lia.
  - intros a st' A. split; [exact A|exact I].
Qed.
Lemma safe_skipProperties : safe (skipProperties fuel s) any.
Proof.
  unfold skipProperties. apply safe_props with (s := s) (I := any); auto; [|exact I].
  intros x _. props.
Qed.
Lemma safe_readProperties f32op d l : safe (readProperties fuel s f32op d l) any.
Proof.
  unfold readProperties. apply safe_props with (s := s) (I := any); auto; [|exact I].
  intros [l0 ps] _. unfold lprop_body. props.
Qed.
Lemma safe_decodeConfig : safe (decodeConfigM fuel s) any.
Proof.
  unfold decodeConfigM.
  assert (H0 : safe errM any) by (intros st O; apply wp_err; split; [apply adv_refl|exact I]).
  assert (HH : safe (readHeader s) any).
  { unfold readHeader. eapply safe_bind; [apply safe_readSome; auto; lia|]. intros w _.
    eapply safe_bind; [exact H0|]. intros [e|] _; [apply safe_ret; exact I|].
    destruct (negb _); [apply safe_ret; exact I|]. destruct (version_mode _); [|apply safe_ret; exact I].
    destruct (znth _ _) as [[| |]|]; apply safe_ret; exact I. }
  eapply safe_bind; [exact HH|]. intros [e|mode] _; [apply safe_ret; exact I|].
  repeat safe_step; [lia|].
  assert (R : forall c : config, safe (e <- errM;; retM (c, e)) any).
  { intros c. eapply safe_bind; [exact H0|]. intros; apply safe_ret; exact I. }
  dz; try apply R.
  eapply safe_bind; [apply safe_readImageProperties|]. intros [e|[pal c]] _; [apply safe_ret; exact I|apply R].
Qed.
End Props.
