(** Facts about the byte sources. *)
Require Import Verif.Base Verif.L_List Verif.L_Word Verif.M_Reader Verif.S_Rle.
From Coq Require Import ZifyBool ZifyNat.

Lemma rest_advance s st e t : rest s st = e ++ t -> rest s (advance st (zlen e)) = t.
Proof.
  unfold rest, advance. cbn.
  destruct ((rPos st <? 0) || (zlen (sFile s) <=? rPos st)) eqn:B.
  - intros H. symmetry in H. apply app_eq_nil in H. destruct H as [-> ->].
    rewrite zlen_nil, Z.add_0_r, B. reflexivity.
  - intros H.
    assert (L : zlen (zdrop (rPos st) (sFile s)) = zlen e + zlen t) by (now rewrite H, zlen_app).
    rewrite zlen_zdrop in L by lia.
    pose proof (zlen_pos e). pose proof (zlen_pos t).
    destruct ((rPos st + zlen e <? 0) || (zlen (sFile s) <=? rPos st + zlen e)) eqn:B2.
    + assert (t = []) as -> by (apply zlen_zero; lia). reflexivity.
    + rewrite <- zdrop_zdrop by lia. rewrite H. now apply zdrop_app.
Qed.
Lemma rest_pos s st st' : rPos st = rPos st' -> rest s st = rest s st'.
Proof. unfold rest. now intros ->. Qed.
Lemma advance_advance st a b : advance (advance st a) b = advance st (a + b).
Proof. unfold advance. cbn. f_equal. lia. Qed.
Lemma advance_err st a : rErr (advance st a) = rErr st.
Proof. reflexivity. Qed.
Lemma advance_0 st : advance st 0 = st.
Proof. unfold advance. destruct st. cbn. f_equal. lia. Qed.

Lemma readFull_ok s k st e t : rErr st = None -> rest s st = e ++ t -> zlen e = k ->
  readFull s k st = (Some e, advance st k).
Proof.
  intros E R L. unfold readFull. rewrite E, R.
  pose proof (zlen_pos t). rewrite zlen_app.
  replace (k <=? zlen e + zlen t) with true by lia.
  rewrite ztake_app by assumption. reflexivity.
Qed.
Lemma readBE_ok s k st e t : rErr st = None -> rest s st = e ++ t -> zlen e = k ->
  readBE s k st = (be e, advance st k).
Proof. intros E R L. unfold readBE. rewrite (readFull_ok s k st e t E R L). reflexivity. Qed.
Lemma readUint8_ok s st a t : rErr st = None -> rest s st = a :: t ->
  readUint8 s st = (a, advance st 1).
Proof.
  intros E R. unfold readUint8. rewrite (readBE_ok s 1 st [a] t E R eq_refl). unfold be. cbn [fold_left].
  f_equal.
Qed.
Lemma readUint16_ok s st a b t : rErr st = None -> rest s st = a :: b :: t ->
  readUint16 s st = (256 * a + b, advance st 2).
Proof.
  intros E R. unfold readUint16. rewrite (readBE_ok s 2 st [a; b] t E R eq_refl). unfold be. cbn [fold_left].
  f_equal. lia.
Qed.
Lemma readSome_ok s k st e t : rErr st = None -> rest s st = e ++ t -> zlen e = k -> e ++ t <> [] ->
  readSome s k st = (e, advance st k).
Proof.
  intros E R L N. unfold readSome. rewrite E, R.
  destruct (e ++ t) as [|x y] eqn:Q; [congruence|].
  rewrite <- Q. pose proof (zlen_pos t). rewrite zlen_app.
  replace (k <=? zlen e + zlen t) with true by lia.
  rewrite ztake_app by assumption. reflexivity.
Qed.
Lemma copyN_ok s k st e t : rErr st = None -> rest s st = e ++ t -> zlen e = k ->
  copyN s k st = (e, advance st k).
Proof.
  intros E R L. unfold copyN. destruct (k <=? 0) eqn:K.
  - pose proof (zlen_pos e). assert (e = []) as -> by (apply zlen_zero; lia).
    assert (k = 0) as -> by lia. now rewrite advance_0.
  - rewrite E, R. pose proof (zlen_pos t). rewrite zlen_app.
    replace (k <=? zlen e + zlen t) with true by lia.
    rewrite ztake_app by assumption. reflexivity.
Qed.

(** what an integer read does, in all cases *)
Lemma readFull_cases s k st o st' : 0 <= k -> readFull s k st = (o, st') ->
  (exists e, rErr st <> None /\ rErr st' = Some e /\ st' = st /\ o = None) \/
  (rErr st = None /\ exists e t, rest s st = e ++ t /\ zlen e = k /\ o = Some e /\ st' = advance st k) \/
  (rErr st = None /\ zlen (rest s st) < k /\ o = None /\
   st' = mkR (rPos st + zlen (rest s st)) (Some (match rest s st with [] => EEOF | _ => EUnexpectedEOF end))).
Proof.
  intros K. unfold readFull. destruct (rErr st) as [e|] eqn:E.
  - intros [= <- <-]. left. exists e. now rewrite E.
  - destruct (k <=? zlen (rest s st)) eqn:B; intros [= <- <-].
    + right; left. split; [reflexivity|]. destruct (split_at k (rest s st)) as (a & b & Q & L); [lia|].
      exists a, b. rewrite Q, ztake_app by assumption. auto.
    + right; right. repeat split. lia.
Qed.
Lemma readSome_cases s k st w st' : 0 <= k -> rErr st = None -> readSome s k st = (w, st') ->
  (exists t, rest s st = w ++ t /\ zlen w = k /\ w ++ t <> [] /\ st' = advance st k) \/
  (rest s st = w /\ (zlen w < k \/ w = []) /\ rPos st' = rPos st + zlen w /\
   (w = [] \/ sShort s = false -> rErr st' = Some EEOF) /\
   (w <> [] -> sShort s = true -> rErr st' = None)).
Proof.
  intros K E. unfold readSome. rewrite E.
  destruct (rest s st) as [|x y] eqn:R.
  - intros [= <- <-]. right. cbn. repeat split; auto. + rewrite zlen_nil. lia. + congruence.
  - destruct (k <=? zlen (x :: y)) eqn:B; intros [= <- <-].
    + left. destruct (split_at k (x :: y)) as (a & b & Q & L); [lia|].
      exists b. rewrite Q, ztake_app by assumption. repeat split; auto. now rewrite <- Q.
    + right. cbn. repeat split; auto. * left. lia. * intros [H|H]; [discriminate|]. now rewrite H.
      * now intros _ ->.
Qed.
Lemma copyN_cases s k st w st' : 0 <= k -> copyN s k st = (w, st') ->
  (exists t, rest s st = w ++ t /\ zlen w = k /\ st' = advance st k /\ (rErr st = None \/ k = 0)) \/
  (rErr st' <> None).
Proof.
  intros K. unfold copyN. destruct (k <=? 0) eqn:B0.
  - intros [= <- <-]. left. exists (rest s st). assert (k = 0) as -> by lia. rewrite advance_0. auto.
  - destruct (rErr st) eqn:E.
    + intros [= <- <-]. right. congruence.
    + destruct (k <=? zlen (rest s st)) eqn:B; intros [= <- <-].
      * left. destruct (split_at k (rest s st)) as (a & b & Q & L); [lia|].
        exists b. rewrite Q, ztake_app by assumption. auto.
      * right. cbn. discriminate.
Qed.
