Require Import Verif.Base Verif.L_List Verif.L_Word Verif.M_Reader Verif.L_Reader Verif.S_String.
From Coq Require Import ZifyBool ZifyNat.

Ltac zdm x k := pose proof (Z.div_mod x k ltac:(lia)); pose proof (Z.mod_pos_bound x k ltac:(lia)).

Lemma utf8_valid_enc c t : scalar_value c -> utf8_valid (utf8_enc c ++ t) = utf8_valid t.
Proof.
  intros S. unfold scalar_value in S. unfold utf8_enc.
  zdm c 64. zdm c 4096. zdm c 262144. zdm (c / 64) 64. zdm (c / 4096) 64.
  assert (c / 64 / 64 = c / 4096) by (rewrite Z.div_div by lia; reflexivity).
  assert (c / 4096 / 64 = c / 262144) by (rewrite Z.div_div by lia; reflexivity).
  destruct (c <? 128) eqn:B1; [| destruct (c <? 2048) eqn:B2; [| destruct (c <? 65536) eqn:B3]];
    cbn [app utf8_valid]; unfold between;
    repeat match goal with
    | |- context [if ?b then _ else _] => let E := fresh in destruct b eqn:E; try (exfalso; lia)
    end;
    repeat match goal with
    | |- (?b && _) = _ => replace b with true by lia; rewrite ?andb_true_l
    end; try reflexivity; exfalso; lia.
Qed.

Lemma utf8_cons c l : scalar_value c -> utf8 l -> utf8 (utf8_enc c ++ l).
Proof. intros S (cs & F & ->). exists (c :: cs). split; [now constructor|reflexivity]. Qed.

Lemma enc2 a b : 194 <= a <= 223 -> 128 <= b <= 191 ->
  scalar_value ((a - 192) * 64 + (b - 128)) /\ utf8_enc ((a - 192) * 64 + (b - 128)) = [a; b].
Proof.
  intros A B. set (c := _ + _). split; [unfold scalar_value; lia|].
  unfold utf8_enc. replace (c <? 128) with false by lia. replace (c <? 2048) with true by lia.
  zdm c 64. repeat f_equal; lia.
Qed.
Lemma enc3 a b c : 224 <= a <= 239 -> 128 <= b <= 191 -> 128 <= c <= 191 ->
  (a = 224 -> 160 <= b) -> (a = 237 -> b <= 159) ->
  let v := (a - 224) * 4096 + (b - 128) * 64 + (c - 128) in
  scalar_value v /\ utf8_enc v = [a; b; c].
Proof.
  intros A B C X Y v. split; [unfold scalar_value; lia|].
  unfold utf8_enc. replace (v <? 128) with false by lia. replace (v <? 2048) with false by lia.
  replace (v <? 65536) with true by lia.
  zdm v 64. zdm v 4096. zdm (v / 64) 64.
  assert (v / 64 / 64 = v / 4096) by (rewrite Z.div_div by lia; reflexivity).
  repeat f_equal; lia.
Qed.
Lemma enc4 a b c d : 240 <= a <= 244 -> 128 <= b <= 191 -> 128 <= c <= 191 -> 128 <= d <= 191 ->
  (a = 240 -> 144 <= b) -> (a = 244 -> b <= 143) ->
  let v := (a - 240) * 262144 + (b - 128) * 4096 + (c - 128) * 64 + (d - 128) in
  scalar_value v /\ utf8_enc v = [a; b; c; d].
Proof.
  intros A B C D X Y v. split; [unfold scalar_value; lia|].
  unfold utf8_enc. replace (v <? 128) with false by lia. replace (v <? 2048) with false by lia.
  replace (v <? 65536) with false by lia.
  zdm v 64. zdm v 4096. zdm v 262144. zdm (v / 64) 64. zdm (v / 4096) 64.
  assert (v / 64 / 64 = v / 4096) by (rewrite Z.div_div by lia; reflexivity).
  assert (v / 4096 / 64 = v / 262144) by (rewrite Z.div_div by lia; reflexivity).
  repeat f_equal; lia.
Qed.

Lemma utf8_valid_sound n : forall l, (length l <= n)%nat -> utf8_valid l = true -> utf8 l.
Proof.
  induction n as [|n IH]; intros l L V.
  - destruct l; [|cbn in L; lia]. now exists [].
  - destruct l as [|a l1]; [now exists []|]. cbn [utf8_valid] in V. unfold between in V. cbn [length] in L.
    destruct ((0 <=? a) && (a <=? 127)) eqn:A1.
    { change (a :: l1) with ([a] ++ l1).
      replace [a] with (utf8_enc a) by (unfold utf8_enc; replace (a <? 128) with true by lia; reflexivity).
      apply utf8_cons; [unfold scalar_value; lia|]. apply IH; [lia|exact V]. }
    destruct l1 as [|b l2]; [discriminate|]. cbn [length] in L.
    destruct ((194 <=? a) && (a <=? 223)) eqn:A2.
    { apply andb_prop in V. destruct V as [V1 V].
      destruct (enc2 a b ltac:(lia) ltac:(lia)) as [S E].
      change (a :: b :: l2) with ([a; b] ++ l2). rewrite <- E. apply utf8_cons; [exact S|].
      apply IH; [lia|exact V]. }
    destruct l2 as [|c l3]; [discriminate|]. cbn [length] in L.
    assert (T : 224 <= a <= 239 -> 128 <= b <= 191 -> 128 <= c <= 191 ->
        (a = 224 -> 160 <= b) -> (a = 237 -> b <= 159) -> utf8_valid l3 = true -> utf8 (a :: b :: c :: l3)).
    { intros Q1 Q2 Q3 Q4 Q5 W. destruct (enc3 a b c Q1 Q2 Q3 Q4 Q5) as [S E].
      change (a :: b :: c :: l3) with ([a; b; c] ++ l3). rewrite <- E. apply utf8_cons; [exact S|].
      apply IH; [lia|exact W]. }
    destruct (a =? 224) eqn:A3. { apply andb_prop in V. destruct V. apply T; auto; lia. }
    destruct (((225 <=? a) && (a <=? 236)) || ((238 <=? a) && (a <=? 239))) eqn:A4.
    { apply andb_prop in V. destruct V. apply T; auto; lia. }
    destruct (a =? 237) eqn:A5. { apply andb_prop in V. destruct V. apply T; auto; lia. }
    clear T. destruct l3 as [|d l4]; [discriminate|]. cbn [length] in L.
    assert (T : 240 <= a <= 244 -> 128 <= b <= 191 -> 128 <= c <= 191 -> 128 <= d <= 191 ->
        (a = 240 -> 144 <= b) -> (a = 244 -> b <= 143) -> utf8_valid l4 = true -> utf8 (a :: b :: c :: d :: l4)).
    { intros Q1 Q2 Q3 Q4 Q5 Q6 W. destruct (enc4 a b c d Q1 Q2 Q3 Q4 Q5 Q6) as [S E].
      change (a :: b :: c :: d :: l4) with ([a; b; c; d] ++ l4). rewrite <- E. apply utf8_cons; [exact S|].
      apply IH; [lia|exact W]. }
    destruct (a =? 240) eqn:A6. { apply andb_prop in V. destruct V. apply T; auto; lia. }
    destruct ((241 <=? a) && (a <=? 243)) eqn:A7. { apply andb_prop in V. destruct V. apply T; auto; lia. }
    destruct (a =? 244) eqn:A8; [|discriminate].
    apply andb_prop in V. destruct V. apply T; auto; lia.
Qed.

Lemma utf8_valid_iff l : utf8_valid l = true <-> utf8 l.
Proof.
  split.
  - now apply (utf8_valid_sound (length l)).
  - intros (cs & F & ->). induction F as [|c cs S F IH]; [reflexivity|].
    cbn [flat_map]. now rewrite utf8_valid_enc.
Qed.

Lemma readUint32_cases s st n st' : readUint32 s st = (n, st') -> rErr st' = None ->
  rErr st = None /\ exists e t, rest s st = e ++ t /\ zlen e = 4 /\ n = be e /\ st' = advance st 4.
Proof.
  unfold readUint32, readBE. destruct (readFull s 4 st) as [o st1] eqn:R. intros H N. injection H as <- <-.
  destruct (readFull_cases s 4 st o st1 ltac:(lia) R) as [(e & A & B & C & D) | [(A & e & t & B & C & D & E) | (A & B & C & D)]].
  - congruence.
  - split; [exact A|]. exists e, t. subst o. auto.
  - subst st1. discriminate.
Qed.

Lemma list4 (e : list Z) : zlen e = 4 -> exists a b c d, e = [a; b; c; d].
Proof.
  intros L. unfold zlen in L. destruct e as [|a [|b [|c [|d [|x e]]]]]; cbn [length] in L; try lia.
  now exists a, b, c, d.
Qed.
Lemma be4 a b c d : be [a; b; c; d] = 16777216 * a + 65536 * b + 256 * c + d.
Proof. unfold be. cbn [fold_left]. lia. Qed.

(** what a successful ReadString has read *)
Lemma readString_inv s st v st' : Forall is_u8 (sFile s) ->
  readString s st = (v, st') -> rErr st' = None ->
  (v = [] /\ (exists t, rest s st = [0; 0; 0; 0] ++ t) /\ st' = advance st 4) \/
  (exists len bytes t, stored len bytes v /\ utf8 v /\ zlen v < maxString /\
     rest s st = len ++ bytes ++ t /\ st' = advance st (4 + zlen bytes)).
Proof.
  intros FB R N. unfold readString in R. destruct (readUint32 s st) as [n st1] eqn:R1.
  assert (N1 : rErr st1 = None).
  { destruct (n =? 0); [now injection R as _ <-|]. destruct (maxString <? n).
    - injection R as _ <-. unfold setError in N. destruct (rErr st1) eqn:Q; [cbn in N; congruence|reflexivity].
    - destruct (rErr st1) eqn:E1; [|reflexivity]. exfalso.
      unfold readFull in R. rewrite E1 in R. injection R as _ <-. congruence. }
  destruct (readUint32_cases s st n st1 R1 N1) as (E & e & t & RS & L & -> & ->).
  destruct (list4 e L) as (a & b & c & d & ->). rewrite be4 in R.
  assert (FR : Forall is_u8 (rest s st)).
  { unfold rest. destruct (_ || _); [constructor|]. now apply Forall_zdrop. }
  rewrite RS in FR. cbn [app] in FR.
  inversion FR as [|? ? Fa FR1]; subst. inversion FR1 as [|? ? Fb FR2]; subst.
  inversion FR2 as [|? ? Fc FR3]; subst. inversion FR3 as [|? ? Fd FR4]; subst.
  unfold is_u8 in Fa, Fb, Fc, Fd.
  destruct (_ =? 0) eqn:Z0.
  - injection R as <- <-. left. split; [reflexivity|]. split; [|reflexivity]. exists t. rewrite RS.
    assert (a = 0 /\ b = 0 /\ c = 0 /\ d = 0) as (-> & -> & -> & ->) by lia. reflexivity.
  - right. set (n := 16777216 * a + 65536 * b + 256 * c + d) in *.
    destruct (maxString <? n) eqn:MX.
    { injection R as _ <-. unfold setError in N. destruct (rErr (advance st 4)) eqn:Q; cbn in N; congruence. }
    destruct (readFull s n (advance st 4)) as [o st2] eqn:R2.
    destruct (readFull_cases s n (advance st 4) o st2 ltac:(lia) R2)
      as [(e & A & B & C & D) | [(A & e & t2 & RS2 & L2 & -> & ->) | (A & B & -> & ->)]].
    + congruence.
    + destruct (znth e (n - 1)) as [z|] eqn:ZN.
      2:{ injection R as _ <-. unfold setError in N. destruct (rErr (advance (advance st 4) n)) eqn:Q; cbn in N, Q, A; congruence. }
      assert (z = 0 /\ utf8_valid (ztake (n - 1) e) = true /\ v = ztake (n - 1) e /\
              st' = advance (advance st 4) n) as (-> & U & -> & ->).
      { destruct z; try (injection R as _ <-; unfold setError in N; cbn in N, A; rewrite A in N; discriminate N).
        destruct (utf8_valid _); [injection R as <- <-; auto|].
        injection R as _ <-. unfold setError in N. destruct (rErr (advance (advance st 4) n)) eqn:Q; cbn in N, Q, A; congruence. }
      pose proof (rest_advance s st [a; b; c; d] t RS) as RA. change (zlen [a; b; c; d]) with 4 in RA.
      rewrite RA in RS2.
      assert (LE : e = ztake (n - 1) e ++ [0]).
      { rewrite <- (ztake_zdrop (n - 1) e) at 1. f_equal.
        assert (LD : zlen (zdrop (n - 1) e) = 1) by (rewrite zlen_zdrop; lia).
        unfold znth in ZN. replace (n - 1 <? 0) with false in ZN by lia.
        unfold zdrop in *. destruct (skipn (Z.to_nat (n - 1)) e) as [|x [|y w]] eqn:SK;
          unfold zlen in LD; cbn [length] in LD; try lia.
        rewrite <- (firstn_skipn (Z.to_nat (n - 1)) e) in ZN. rewrite SK in ZN.
        rewrite nth_error_app2 in ZN by (rewrite firstn_length; lia).
        rewrite firstn_length in ZN.
        replace (Z.to_nat (n - 1) - Nat.min (Z.to_nat (n - 1)) (length e))%nat with O in ZN
          by (unfold zlen in L2; lia).
        cbn in ZN. congruence. }
      assert (LT : zlen (ztake (n - 1) e) = n - 1) by (apply zlen_ztake; lia).
      exists [a; b; c; d], e, t2. split; [|split; [|split; [|split]]].
      * exists a, b, c, d. repeat split; try lia. exact LE.
      * now apply utf8_valid_iff.
      * unfold maxString in *. lia.
      * rewrite RS. now rewrite RS2.
      * rewrite advance_advance. f_equal. lia.
    + injection R as _ <-. discriminate N.
Qed.

(** and every stored string is read *)
Lemma readString_stored s st len bytes v t : rErr st = None ->
  stored len bytes v -> utf8 v -> zlen v < maxString -> rest s st = len ++ bytes ++ t ->
  readString s st = (v, advance st (4 + zlen bytes)).
Proof.
  intros E (a & b & c & d & -> & Ba & Bb & Bc & Bd & LN & ->) U LM R.
  unfold readString, readUint32. rewrite (readBE_ok s 4 st [a; b; c; d] _ E R eq_refl).
  rewrite be4, LN. pose proof (zlen_pos v). unfold maxString in *.
  replace (zlen v + 1 =? 0) with false by lia. replace (16777216 <? zlen v + 1) with false by lia.
  pose proof (rest_advance s st [a; b; c; d] _ R) as R2. change (zlen [a; b; c; d]) with 4 in R2.
  rewrite (readFull_ok s (zlen v + 1) (advance st 4) (v ++ [0]) t); [|exact E|exact R2|now rewrite zlen_app].
  replace (zlen v + 1 - 1) with (zlen v) by lia. rewrite ztake_app by reflexivity.
  unfold znth. replace (zlen v <? 0) with false by lia.
  rewrite nth_error_app2 by (unfold zlen; lia).
  replace (Z.to_nat (zlen v) - length v)%nat with O by (unfold zlen; lia). cbn [nth_error].
  apply utf8_valid_iff in U. rewrite U. f_equal. rewrite advance_advance, zlen_app. reflexivity.
Qed.
