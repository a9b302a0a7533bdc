(** Lemmas about the ora package: numbers, attributes, tokens. *)
Require Import Verif.Base Verif.M_Color Verif.M_Composite Verif.M_Rect Verif.M_Image Verif.M_Groups Verif.M_Ora Verif.S_Ora
  Verif.L_List Verif.L_Groups.
From Coq Require Import String ZifyBool.
Open Scope Z_scope.
Open Scope list_scope.

(** ** numbers *)
Lemma undec_app s t v : undec (s ++ t) v = obind (undec s v) (undec t).
Proof.
  revert v. induction s as [|c s IH]; intros v; cbn [app undec]; [reflexivity|].
  destruct ((48 <=? c) && (c <=? 57)); [apply IH|reflexivity].
Qed.

Lemma dec_app f n acc : dec f n acc = dec f n [] ++ acc.
Proof.
  revert n acc. induction f as [|f IH]; intros n acc; cbn [dec app]; [reflexivity|].
  cbv zeta. destruct (n <? 10); [reflexivity|].
  rewrite (IH (n / 10) [_]), (IH (n / 10) (_ :: acc)), <- app_assoc. reflexivity.
Qed.

Definition digit (d : Z) : Prop := 48 <= d <= 57.
Lemma dec_spec f : forall n, 0 <= n < 10 ^ Z.of_nat f -> (0 < f)%nat ->
  let s := dec f n [] in
  s <> [] /\ Forall digit s /\ (forall v, value s v = v * 10 ^ zlen s + n) /\
  (n = 0 -> s = [48]) /\ (0 < n -> hd 0 s <> 48).
Proof.
  induction f as [|f IH]; intros n Hn Hf; [lia|]. cbn [dec]. cbv zeta.
  pose proof (Z.mod_pos_bound n 10). pose proof (Z.div_mod n 10).
  destruct (Z.ltb_spec n 10).
  - assert (n mod 10 = n) as M by (apply Z.mod_small; lia). rewrite M.
    repeat split.
    + discriminate.
    + constructor; [unfold digit; lia|constructor].
    + intros v. cbn [value]. rewrite zlen_cons, zlen_nil. lia.
    + intros ->. reflexivity.
    + intros. cbn [hd]. lia.
  - assert (0 <= n / 10) by (apply Z.div_pos; lia).
    assert (0 < n / 10) by (apply Z.div_str_pos; lia).
    assert (n / 10 < 10 ^ Z.of_nat f) as U.
    { apply Z.div_lt_upper_bound; [lia|]. replace (Z.of_nat (S f)) with (1 + Z.of_nat f) in Hn by lia.
      rewrite Z.pow_add_r in Hn by lia. lia. }
    assert (0 < f)%nat as Fp.
    { destruct f; [|lia]. cbn in U. change (10 ^ Z.of_nat 0) with 1 in U. lia. }
    destruct (IH (n / 10) ltac:(lia) Fp) as (N & D & V & _ & P). rewrite dec_app.
    set (s := dec f (n / 10) []) in *.
    repeat split.
    + destruct s; discriminate.
    + apply Forall_app'. split; [exact D|]. constructor; [unfold digit; lia|constructor].
    + intros v.
      assert (forall a b w, value (a ++ b) w = value b (value a w)) as VA
        by (intros a b; induction a; intros w; cbn; auto).
      rewrite VA, V. cbn [value]. rewrite zlen_app, zlen_cons, zlen_nil.
      rewrite Z.pow_add_r by (pose proof (zlen_pos s); lia). rewrite Z.pow_1_r. nia.
    + lia.
    + intros _. destruct s; [contradiction|]. cbn [app hd] in *. apply P. lia.
Qed.

Lemma digits_ok n : 0 <= n ->
  let s := digits n in
  s <> [] /\ Forall digit s /\ (forall v, value s v = v * 10 ^ zlen s + n) /\
  (n = 0 -> s = [48]) /\ (0 < n -> hd 0 s <> 48).
Proof.
  intros Hn. unfold digits. apply dec_spec; [|lia]. split; [assumption|].
  destruct (Z.eq_dec n 0) as [->|N]; [vm_compute; reflexivity|].
  pose proof (Z.log2_spec n ltac:(lia)) as [_ U]. pose proof (Z.log2_nonneg n).
  rewrite Nat2Z.inj_succ, Z2Nat.id by assumption.
  eapply Z.lt_le_trans; [exact U|]. apply Z.pow_le_mono_l. lia.
Qed.

Lemma digits_numeral n : 0 <= n -> numeral (digits n) n.
Proof.
  intros Hn. destruct (digits_ok n Hn) as (N & D & V & O & P). repeat split; auto.
  - rewrite V. lia.
  - intros E. destruct (Z.eq_dec n 0); [auto|]. destruct P; [lia|assumption].
Qed.
Lemma itoa_numeral n : 0 <= n -> numeral (itoa n) n.
Proof. intros. unfold itoa. destruct (Z.ltb_spec n 0); [lia|]. apply digits_numeral; assumption. Qed.

Lemma itoa_inj a b : 0 <= a -> 0 <= b -> itoa a = itoa b -> a = b.
Proof.
  intros Ha Hb E. pose proof (itoa_numeral a Ha) as (_ & _ & <- & _).
  pose proof (itoa_numeral b Hb) as (_ & _ & <- & _). rewrite E. reflexivity.
Qed.

Lemma undec_value s : Forall digit s -> forall v, undec s v = Some (value s v).
Proof.
  induction 1 as [|d s Hd _ IH]; intros v; cbn [undec value]; [reflexivity|].
  unfold digit in Hd. destruct (Z.leb_spec 48 d), (Z.leb_spec d 57); try lia. cbn [andb]. apply IH.
Qed.

Lemma atoi_itoa n : is_int n -> atoi (itoa n) = Some n.
Proof.
  unfold is_int. intros Hn. unfold itoa.
  destruct (Z.ltb_spec n 0).
  - destruct (digits_ok (- n)) as (N & D & V & _); [lia|].
    unfold atoi. destruct (digits (- n)) as [|d ds] eqn:E; [contradiction|].
    rewrite undec_value by assumption. cbn [obind]. rewrite V.
    replace (- (0 * 10 ^ zlen (d :: ds) + - n)) with n by lia.
    destruct (Z.leb_spec (- 9223372036854775808) n), (Z.leb_spec n 9223372036854775807); try lia. reflexivity.
  - destruct (digits_ok n) as (N & D & V & _); [lia|].
    destruct (digits n) as [|d ds] eqn:E; [contradiction|].
    assert (digit d) as Dd by (inversion D; assumption). unfold digit in Dd.
    unfold atoi.
    replace (match d :: ds with 45 :: _ => true | _ => false end) with false
      by (assert (d <> 45) by lia; destruct d as [|p|p]; try reflexivity;
          repeat (destruct p as [p|p|]; try reflexivity); lia).
    replace (match d :: ds with 45 :: t => t | 43 :: t => t | _ => d :: ds end) with (d :: ds)
      by (assert (d <> 45) by lia; assert (d <> 43) by lia; destruct d as [|p|p]; try reflexivity;
          repeat (destruct p as [p|p|]; try reflexivity); lia).
    rewrite undec_value by assumption. cbn [obind]. rewrite V.
    replace (0 * 10 ^ zlen (d :: ds) + n) with n by lia.
    destruct (Z.leb_spec (- 9223372036854775808) n), (Z.leb_spec n 9223372036854775807); try lia. reflexivity.
Qed.

Lemma itoa_printable n : printable (itoa n).
Proof.
  assert (forall n, 0 <= n -> printable (digits n)) as D.
  { intros k Hk. destruct (digits_ok k Hk) as (_ & D & _). eapply Forall_impl; [|exact D].
    unfold digit. intros; lia. }
  unfold itoa. destruct (Z.ltb_spec n 0).
  - constructor; [lia|]. apply D. lia.
  - apply D. lia.
Qed.

Lemma printable_app s t : printable s -> printable t -> printable (s ++ t).
Proof. intros. apply Forall_app'. split; assumption. Qed.
Lemma dataName_printable n : printable (dataName n).
Proof.
  unfold dataName. repeat apply printable_app; try apply itoa_printable;
    repeat constructor; vm_compute; discriminate.
Qed.
Lemma dataName_name n : 0 <= n -> data_name n (dataName n).
Proof. intros. exists (itoa n). split; [apply itoa_numeral; assumption|reflexivity]. Qed.
Lemma dataName_inj a b : 0 <= a -> 0 <= b -> dataName a = dataName b -> a = b.
Proof.
  intros Ha Hb E. unfold dataName in E. apply app_inv_head in E. apply app_inv_tail in E.
  apply itoa_inj; assumption.
Qed.
Lemma dataName_hd n s : hd 0 s <> 100 -> dataName n <> s.
Proof. intros H <-. apply H. reflexivity. Qed.

(** ** skipTag and added elements *)
Lemma skip_balanced e b : balanced b -> forall r n, skipTag e (b ++ r) n = skipTag e r n.
Proof.
  induction 1 as [|ts _ IH|m as_ body ts _ IHb _ IHt]; intros r n.
  - reflexivity.
  - cbn [app skipTag]. apply IH.
  - rewrite <- app_comm_cons, <- app_assoc, <- app_comm_cons. cbn [skipTag]. rewrite IHb. cbn [skipTag]. apply IHt.
Qed.

Lemma adds_refl ts : adds ts ts.
Proof. induction ts; constructor; assumption. Qed.
Lemma adds_strip ts : adds (strip ts) ts.
Proof. induction ts as [|[n as_| |] ts IH]; cbn; constructor; assumption. Qed.

Lemma skip_adds e ts us : adds ts us -> forall n,
  match skipTag e ts n, skipTag e us n with
  | inl a, inl b => adds a b
  | inr a, inr b => a = b
  | _, _ => False
  end.
Proof.
  induction 1 as [|t ts us A IH|ts us A IH|m as_ body ts us U B A IH]; intros n.
  - cbn. reflexivity.
  - destruct t; cbn [skipTag]; [apply IH| |apply IH]. destruct n; [exact A|apply IH].
  - cbn [skipTag]. apply IH.
  - cbn [skipTag]. rewrite (skip_balanced e body B). cbn [skipTag]. apply IH.
Qed.

Lemma skip_length e ts : forall n r, skipTag e ts n = inl r -> (List.length r < List.length ts)%nat.
Proof.
  induction ts as [|[m as_| |] ts IH]; intros n r; cbn [skipTag List.length]; [discriminate| | |].
  - intros H. apply IH in H. lia.
  - destruct n; [intros [= <-]; lia|]. intros H. apply IH in H. lia.
  - intros H. apply IH in H. lia.
Qed.

Lemma toStack_skip e ts : forall n,
  toStack e ts (Some n) = match skipTag e ts n with inl r => toStack e r None | inr x => inr x end.
Proof.
  induction ts as [|[m as_| |] ts IH]; intros n; cbn [toStack skipTag].
  - destruct e; reflexivity.
  - apply IH.
  - destruct n; [reflexivity|apply IH].
  - apply IH.
Qed.

Lemma toStack_adds e ts us : adds ts us ->
  match toStack e ts None, toStack e us None with
  | inl a, inl b => adds a b
  | inr a, inr b => a = b
  | _, _ => False
  end.
Proof.
  remember (List.length us) as k eqn:K. revert ts us K.
  induction k as [k IH] using (well_founded_induction lt_wf). intros ts us -> A.
  inversion A as [|t ts' us' A'|ts' us' A'|m as_ body ts' us' U B A']; subst.
  - cbn. destruct e; reflexivity.
  - destruct t; cbn [toStack].
    + destruct (key_eqb name (str "stack")); [exact A'|]. rewrite !toStack_skip.
      pose proof (skip_adds e ts' us' A' 0) as S.
      destruct (skipTag e ts' 0), (skipTag e us' 0) eqn:E; try contradiction; [|exact S].
      apply skip_length in E. eapply IH; [|reflexivity|exact S]. cbn [List.length]. lia.
    + eapply IH; [|reflexivity|exact A']. cbn [List.length]. lia.
    + eapply IH; [|reflexivity|exact A']. cbn [List.length]. lia.
  - cbn [toStack]. eapply IH; [|reflexivity|exact A']. cbn [List.length]. lia.
  - cbn [toStack]. rewrite (key_eqb_neq _ _ (proj1 U)), toStack_skip, (skip_balanced e body B). cbn [skipTag].
    eapply IH; [|reflexivity|exact A']. cbn [List.length]. rewrite app_length. cbn [List.length]. lia.
Qed.

(** ** readStack *)
Definition rel_read (a b : option (res (list layer * list token))) (n m : nat) : Prop :=
  match a, b with
  | Some (inl (l, ts)), Some (inl (k, us)) =>
      l = k /\ adds ts us /\ (List.length ts < n)%nat /\ (List.length us < m)%nat
  | Some (inr x), Some (inr y) => x = y
  | _, _ => False
  end.

Lemma rel_weaken a b n m n' m' : rel_read a b n m -> (n <= n')%nat -> (m <= m')%nat -> rel_read a b n' m'.
Proof.
  destruct a as [[[l ts]|x]|], b as [[[k us]|y]|]; cbn; auto. intuition lia.
Qed.

Lemma read_adds L ms lim e f' : forall f ox oy ts us, adds ts us ->
  (List.length ts < f)%nat -> (List.length us < f')%nat ->
  rel_read (readStack f L ms lim e ox oy ts) (readStack f' L ms lim e ox oy us) (List.length ts) (List.length us).
Proof.
  induction f' as [|f' IH]; intros f ox oy ts us A Hf Hf'; [lia|].
  inversion A as [|t ts' us' A'|ts' us' A'|m as_ body ts' us' U B A']; subst.
  - destruct f; [cbn in Hf; lia|]. reflexivity.
  - destruct f as [|f]; [lia|]. cbn [List.length] in *.
    (* the rest of the loop, after a layer *)
    assert (forall l ts1 us1, adds ts1 us1 -> (List.length ts1 <= List.length ts')%nat ->
              (List.length us1 <= List.length us')%nat ->
              rel_read
                match readStack f L ms lim e ox oy ts1 with
                | Some (inl (ls, ts)) => Some (inl (l :: ls, ts)) | r => r end
                match readStack f' L ms lim e ox oy us1 with
                | Some (inl (ls, ts)) => Some (inl (l :: ls, ts)) | r => r end
                (S (List.length ts')) (S (List.length us'))) as Rest.
    { intros l ts1 us1 A1 L1 L2.
      pose proof (IH f ox oy ts1 us1 A1 ltac:(lia) ltac:(lia)) as R.
      destruct (readStack f L ms lim e ox oy ts1) as [[[l1 t1]|x1]|],
        (readStack f' L ms lim e ox oy us1) as [[[l2 t2]|x2]|]; cbn in *; try contradiction; auto.
      destruct R as (-> & R1 & R2 & R3). repeat split; auto; lia. }
    destruct t as [n as_| |]; cbn [readStack].
    + destruct (key_eqb n (str "stack")).
      * destruct (processLayerAttrs L as_ la0) as [a|x]; [|reflexivity].
        pose proof (IH f (ox + laX a) (oy + laY a) ts' us' A' ltac:(lia) ltac:(lia)) as R.
        destruct (readStack f L ms lim e (ox + laX a) (oy + laY a) ts') as [[[l1 t1]|x1]|],
          (readStack f' L ms lim e (ox + laX a) (oy + laY a) us') as [[[l2 t2]|x2]|]; cbn in R; try contradiction; auto.
        destruct R as (-> & R1 & R2 & R3). apply Rest; auto; lia.
      * destruct (key_eqb n (str "layer")).
        -- destruct (processLayerAttrs L as_ la0) as [a|x]; cbn [rbind]; [|reflexivity].
           destruct (findImage ms (laSrc a)) as [i|x]; cbn [rbind]; [|reflexivity].
           pose proof (skip_adds e ts' us' A' 0) as S.
           destruct (skipTag e ts' 0) eqn:E1, (skipTag e us' 0) eqn:E2; cbn [rbind]; try contradiction.
           ++ apply skip_length in E1. apply skip_length in E2. apply Rest; auto; lia.
           ++ exact S.
        -- pose proof (skip_adds e ts' us' A' 0) as S.
           destruct (skipTag e ts' 0) eqn:E1, (skipTag e us' 0) eqn:E2; try contradiction; [|exact S].
           apply skip_length in E1. apply skip_length in E2.
           eapply rel_weaken; [apply IH; auto; lia|lia|lia].
    + cbn. repeat split; auto; lia.
    + eapply rel_weaken; [apply IH; auto; lia|lia|lia].
  - cbn [readStack List.length] in *. eapply rel_weaken; [apply IH; auto; lia|lia|lia].
  - cbn [List.length] in *. rewrite app_length in *. cbn [readStack List.length] in *.
    rewrite (key_eqb_neq _ _ (proj1 U)), (key_eqb_neq _ _ (proj2 U)), (skip_balanced e body B). cbn [skipTag].
    eapply rel_weaken; [apply IH; auto; lia|lia|lia].
Qed.

Lemma read_fuel L ms lim e f f' ox oy ts : (List.length ts < f)%nat -> (List.length ts < f')%nat ->
  exists r, readStack f L ms lim e ox oy ts = Some r /\
  match readStack f' L ms lim e ox oy ts with Some r' =>
     match r, r' with inl (a, _), inl (b, _) => a = b | inr a, inr b => a = b | _, _ => False end | None => False end.
Proof.
  intros F F'. pose proof (read_adds L ms lim e f' f ox oy ts ts (adds_refl ts) F F') as R. unfold rel_read in R.
  destruct (readStack f L ms lim e ox oy ts) as [[[a x]|a]|], (readStack f' L ms lim e ox oy ts) as [[[b y]|b]|];
    try contradiction; eexists; (split; [reflexivity|]); intuition.
Qed.

(** more fuel does not change a result *)
Lemma read_more L ms lim e f : forall ox oy ts r, readStack f L ms lim e ox oy ts = Some r ->
  forall f', (f <= f')%nat -> readStack f' L ms lim e ox oy ts = Some r.
Proof.
  induction f as [|f IH]; intros ox oy ts r H f' Hf; [discriminate|].
  destruct f' as [|f']; [lia|]. cbn [readStack] in *.
  assert (forall l ts1 r,
            match readStack f L ms lim e ox oy ts1 with
            | Some (inl (ls, ts)) => Some (inl (l :: ls, ts)) | r => r end = Some r ->
            match readStack f' L ms lim e ox oy ts1 with
            | Some (inl (ls, ts)) => Some (inl (l :: ls, ts)) | r => r end = Some r) as Rest.
  { intros l ts1 r1 H1. destruct (readStack f L ms lim e ox oy ts1) as [q|] eqn:E; [|discriminate].
    rewrite (IH _ _ _ _ E f') by lia. exact H1. }
  destruct ts as [|[n as_| |] ts].
  - exact H.
  - destruct (key_eqb n (str "stack")).
    + destruct (processLayerAttrs L as_ la0) as [a|x]; [|exact H].
      destruct (readStack f L ms lim e (ox + laX a) (oy + laY a) ts) as [q|] eqn:E; [|discriminate].
      rewrite (IH _ _ _ _ E f') by lia. destruct q as [[g t]|x]; [|exact H]. apply Rest. exact H.
    + destruct (key_eqb n (str "layer")).
      * destruct (_ <-! _;; _) as [[l t]|x]; [|exact H]. apply Rest. exact H.
      * destruct (skipTag e ts 0); [|exact H]. apply IH; [exact H|lia].
  - exact H.
  - apply IH; [exact H|lia].
Qed.
