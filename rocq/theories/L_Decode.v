(** Termination and panics of the decoder's building blocks. *)
Require Import Verif.Base Verif.L_List Verif.L_Word Verif.M_Reader Verif.L_Reader Verif.M_Rle Verif.S_Rle Verif.L_Rle
  Verif.L_Rle2 Verif.L_Rle3 Verif.M_Color Verif.M_Composite Verif.M_Rect Verif.M_Image Verif.M_Compressed
  Verif.M_Groups Verif.M_Monad Verif.M_Decode Verif.L_Wp.
From Coq Require Import ZifyBool ZifyNat.

Lemma be_bound l : Forall is_u8 l -> 0 <= be l < 256 ^ zlen l.
Proof.
  intros H. unfold be.
  assert (G : forall l a k, Forall is_u8 l -> 0 <= k -> 0 <= a < 256 ^ k ->
     0 <= fold_left (fun a b => a * 256 + b) l a < 256 ^ (k + zlen l)).
  { clear. induction l as [|x l IH]; intros a k H K A; cbn [fold_left].
    - change (zlen (@nil Z)) with 0. now rewrite Z.add_0_r.
    - inversion H as [|? ? Hx Hl]; subst. unfold is_u8 in Hx. rewrite zlen_cons.
      replace (k + (1 + zlen l)) with ((k + 1) + zlen l) by lia. apply IH; auto; [lia|].
      rewrite Z.pow_add_r by lia. change (256 ^ 1) with 256. nia. }
  specialize (G l 0 0 H ltac:(lia)). rewrite Z.add_0_l in G. apply G. cbn. lia.
Qed.

Section Blocks.
Variables (F : Prop) (E : why -> Prop) (s : src).
Hypothesis Hbytes : Forall is_u8 (sFile s).
Hypothesis Hlen : zlen (sFile s) < 9223372036854775808.
Notation wpe := (wp F E).
Notation len := (zlen (sFile s)).

(** what a successful read of k bytes tells *)
Definition got (k : Z) (st st' : rst) (v : Z) : Prop :=
  rErr st = None /\ rPos st' = rPos st + k /\ 0 <= rPos st /\ rPos st + k <= len /\
  v = be (ztake k (zdrop (rPos st) (sFile s))).

Lemma rest_bytes st : Forall is_u8 (rest s st).
Proof. unfold rest. destruct (_ || _); [constructor|]. now apply Forall_zdrop. Qed.

Lemma readBE_spec k st : 0 < k -> let v := fst (readBE s k st) in let st' := snd (readBE s k st) in
  adv st st' /\ 0 <= v < 256 ^ k /\ (rErr st' = None -> got k st st' v) /\
  (rErr st' <> None -> v = 0) /\ (rErr st <> None -> st' = st /\ v = 0).
Proof.
  intros K v st'. split; [apply adv_readBE; lia|].
  unfold v, st', readBE. destruct (readFull s k st) as [o st1] eqn:R. cbn [fst snd].
  assert (0 < 256 ^ k) by (apply Z.pow_pos_nonneg; lia).
  destruct (readFull_cases s k st o st1 ltac:(lia) R) as [(e & A & B & -> & ->) | [(A & e & t & B & C & -> & ->) | (A & B & -> & ->)]].
  - repeat split; try congruence; lia.
  - pose proof (rest_bytes st) as FB. rewrite B in FB. apply Forall_app in FB. destruct FB as [FB _].
    pose proof (be_bound e FB) as BB. rewrite C in BB.
    pose proof (rest_len s st) as RL. pose proof (zlen_pos t).
    assert (zlen (rest s st) = k + zlen t) by (rewrite B, zlen_app; lia).
    cbn [advance rErr rPos]. split; [exact BB|]. split; [|split; congruence].
    intros _. unfold got. cbn [rPos advance]. repeat split; try lia; auto.
    f_equal. unfold rest in B. destruct (_ || _) eqn:Q; [symmetry in B; apply app_eq_nil in B; destruct B as [Be _]; rewrite Be in C; change (zlen (@nil Z)) with 0 in C; lia|].
    rewrite B. symmetry. now apply ztake_app.
  - cbn [rErr rPos]. repeat split; try congruence; lia.
Qed.

Lemma wp_read k st (Q : Z -> rst -> Prop) : 0 < k ->
  (forall v st', adv st st' -> 0 <= v < 256 ^ k -> (rErr st' = None -> got k st st' v) ->
     (rErr st' <> None -> v = 0) -> (rErr st <> None -> st' = st /\ v = 0) -> Q v st') ->
  wpe (liftM (readBE s k)) Q st.
Proof.
  intros K H. apply wp_lift. destruct (readBE_spec k st K) as (A & B & C & D & G). now apply H.
Qed.
Lemma wp_rd32 st (Q : Z -> rst -> Prop) :
  (forall v st', adv st st' -> 0 <= v < 4294967296 -> (rErr st' = None -> got 4 st st' v) ->
     (rErr st' <> None -> v = 0) -> (rErr st <> None -> st' = st /\ v = 0) -> Q v st') ->
  wpe (rd32 s) Q st.
Proof. intros H. apply (wp_read 4); [lia|]. exact H. Qed.

(** "safe": whatever the state, only moves forward *)
Definition safe {A} (m : M A) (P : A -> Prop) : Prop := forall st, okpos st -> wpe m (fun a st' => adv st st' /\ P a) st.
Definition any {A} (_ : A) : Prop := True.

Lemma safe_ret {A} (a : A) (P : A -> Prop) : P a -> safe (retM a) P.
Proof. intros H st O. apply wp_ret. split; [apply adv_refl|exact H]. Qed.
Lemma safe_bind {A B} (m : M A) (f : A -> M B) (P : A -> Prop) (Q : B -> Prop) :
  safe m P -> (forall a, P a -> safe (f a) Q) -> safe (bindM m f) Q.
Proof.
  intros Hm Hf st O. apply wp_bind. eapply wp_mono; [apply (Hm st O)|]. intros a st1 [A1 PA].
  eapply wp_mono; [apply (Hf a PA); now apply A1|]. intros b st2 [A2 QB]. split; [eapply adv_trans; eauto|exact QB].
Qed.
Lemma safe_mono {A} (m : M A) (P Q : A -> Prop) : safe m P -> (forall a, P a -> Q a) -> safe m Q.
Proof. intros H I st O. eapply wp_mono; [apply (H st O)|]. cbn. intuition. Qed.
Lemma safe_read k : 0 < k -> safe (liftM (readBE s k)) (fun v => 0 <= v < 256 ^ k).
Proof. intros K st O. apply wp_read; auto. Qed.
Lemma safe_rd32 : safe (rd32 s) (fun v => 0 <= v < 4294967296).
Proof. apply (safe_read 4). lia. Qed.
Lemma safe_rd64 : safe (rd64 s) (fun v => 0 <= v < 18446744073709551616).
Proof. apply (safe_read 8). lia. Qed.
Lemma safe_rd8 : safe (rd8 s) (fun v => 0 <= v < 256).
Proof. apply (safe_read 1). lia. Qed.
Lemma safe_rdPtr m : safe (rdPtr s m) any.
Proof. unfold rdPtr. destruct (_ <? _); eapply safe_mono; try apply safe_rd32; try apply safe_rd64; exact (fun _ _ => I). Qed.
Lemma safe_rdi32 : safe (rdi32 s) any.
Proof.
  intros st O. unfold rdi32. apply wp_lift. split; [|exact I]. unfold readInt32.
  pose proof (adv_readBE s Hlen 4 st ltac:(lia)) as H. destruct (readBE s 4 st). exact H.
Qed.
Lemma safe_skM n : 0 <= n < 4294967296 -> safe (skM n) any.
Proof. intros H st O. apply wp_act. split; [now apply adv_skip|exact I]. Qed.
Lemma safe_setErr e : safe (setErrM e) any.
Proof. intros st O. apply wp_act. split; [apply adv_setError|exact I]. Qed.
Lemma safe_rdBool : safe (rdBool s) any.
Proof.
  intros st O. unfold rdBool. apply wp_lift. split; [|exact I]. unfold readBoolProperty, readUint32.
  pose proof (adv_readBE s Hlen 4 st ltac:(lia)) as H. destruct (readBE s 4 st) as [v st']. cbn [snd] in H.
  destruct (v =? 0); [exact H|]. destruct (v =? 1); [exact H|]. eapply adv_trans; [exact H|apply adv_setError].
Qed.
Lemma readString_spec st : let v := fst (readString s st) in let st' := snd (readString s st) in
  adv st st' /\ (rErr st <> None -> st' = st /\ v = []) /\
  (rErr st' = None -> rErr st = None /\ 0 <= rPos st /\ rPos st + 4 + zlen v <= rPos st' /\ rPos st' <= len).
Proof.
  cbv zeta. unfold readString, readUint32.
  destruct (readBE_spec 4 st ltac:(lia)) as (A & B & C & D & G).
  destruct (readBE s 4 st) as [n st1]. cbn [fst snd] in *.
  destruct (n =? 0) eqn:N0; cbn [fst snd].
  { split; [exact A|]. split; [intros X; apply G in X; destruct X; auto|].
    intros X. destruct (C X) as (C1 & C2 & C3 & C4 & _). change (zlen (@nil Z)) with 0. repeat split; auto; lia. }
  assert (X1 : rErr st <> None -> False) by (intros X; apply G in X; lia).
  destruct (maxString <? n) eqn:MX; cbn [fst snd].
  { split; [eapply adv_trans; [exact A|apply adv_setError]|]. split; [tauto|].
    unfold setError. destruct (rErr st1) eqn:Q; cbn; congruence. }
  destruct (readFull s n st1) as [o st2] eqn:R.
  pose proof (adv_readFull s Hlen n st1 ltac:(lia)) as A2. rewrite R in A2. cbn [snd] in A2.
  assert (EX : forall e, rErr (setError st2 e) <> None).
  { intros e. unfold setError. destruct (rErr st2) eqn:Q; cbn; congruence. }
  assert (AX : forall e, adv st (setError st2 e)).
  { intros e. eapply adv_trans; [exact A|]. eapply adv_trans; [exact A2|apply adv_setError]. }
  destruct (readFull_cases s n st1 o st2 ltac:(lia) R) as [(e & H1 & H2 & -> & ->) | [(H1 & e & t & H2 & H3 & -> & ->) | (H1 & H2 & -> & ->)]];
    cbn [fst snd].
  - split; [exact A|]. split; [tauto|congruence].
  - destruct (C H1) as (C1 & C2 & C3 & C4 & _).
    destruct (znth e (n - 1)) as [[|z|z]|]; try destruct (utf8_valid _) eqn:U; cbn [fst snd];
      (split; [first [apply AX | eapply adv_trans; [exact A|exact A2]]|]; split; [tauto|]);
      try (intros X; exfalso; revert X; apply EX).
    intros _. cbn [advance rPos]. pose proof (rest_len s st1) as RL. rewrite H2, zlen_app in RL. pose proof (zlen_pos t).
    rewrite zlen_ztake by lia. repeat split; auto; lia.
  - split; [eapply adv_trans; [exact A|exact A2]|]. split; [tauto|]. cbn. congruence.
Qed.
Lemma safe_rdStr : safe (rdStr s) any.
Proof. intros st O. apply wp_lift. split; [apply readString_spec|exact I]. Qed.
Lemma safe_skStr : safe (skStr s) any.
Proof.
  intros st O. unfold skStr. apply wp_act. split; [|exact I]. unfold skipString, readUint32.
  destruct (readBE_spec 4 st ltac:(lia)) as (A & B & _). destruct (readBE s 4 st) as [n st1]. cbn [fst snd] in *.
  eapply adv_trans; [exact A|]. apply adv_skip. lia.
Qed.
Lemma safe_readSome k : 0 <= k -> safe (liftM (readSome s k)) any.
Proof. intros K st O. apply wp_lift. split; [now apply adv_readSome|exact I]. Qed.
Lemma safe_list {A} n (m : M A) P : safe m P -> safe (listM n m) (fun l => Forall P l /\ length l = n).
Proof.
  intros H st O. eapply wp_mono; [apply (wp_list F E m (fun st' => adv st st') P)|].
  - intros st1 A1. eapply wp_mono; [apply H; now apply A1|]. intros a st2 [A2 PA]. split; [eapply adv_trans; eauto|exact PA].
  - apply adv_refl.
  - cbn. intuition.
Qed.
Lemma safe_count {S R} n (body : S -> M (S + R)) x : (forall x, safe (body x) any) -> safe (countM n body x) any.
Proof.
  intros H st O. eapply wp_mono; [apply (wp_count F E body (fun _ st' => adv st st') (fun _ st' => adv st st'))|].
  - intros y st1 A1. eapply wp_mono; [apply H; now apply A1|]. intros [a|a] st2 [A2 _]; eapply adv_trans; eauto.
  - apply adv_refl.
  - intros [a|a] st' HA; split; auto; exact I.
Qed.

(** ** Loops *)
Definition mu (st : rst) : nat :=
  match rErr st with None => S (Z.to_nat (len - rPos st)) | Some _ => O end.
Lemma mu_dec k st st' : okpos st -> (rErr st <> None -> False) -> 0 < k -> rPos st + k <= len ->
  (rErr st' = None -> rPos st + k <= rPos st') -> (mu st' < mu st)%nat.
Proof.
  intros O NE K L H. unfold mu. destruct (rErr st) eqn:Q; [exfalso; apply NE; congruence|].
  destruct (rErr st') eqn:Q'; [lia|]. specialize (H eq_refl). unfold okpos in O. lia.
Qed.

Lemma fwd_pos st st' : fwd st st' -> rErr st' = None -> rErr st = None /\ rPos st <= rPos st'.
Proof.
  intros [A B] N. split; [|auto]. destruct (rErr st) eqn:Q; [|reflexivity]. exfalso. apply A; congruence.
Qed.

(** property lists: type, length, then [k]; type 0 ends the loop *)
Lemma wp_props {S R} fuel (body : S -> M (S + R)) (I : S -> Prop) (Q : R -> Prop) x st :
  (forall x, I x -> exists k, body x = (typ <- rd32 s;; pl <- rd32 s;; k typ pl) /\
     forall typ pl, 0 <= typ < 4294967296 -> 0 <= pl < 4294967296 ->
     safe (k typ pl) (fun r => match r with inl x' => I x' /\ typ <> 0 | inr r => Q r end)) ->
  F \/ (Z.to_nat len + 2 <= fuel)%nat -> I x -> okpos st ->
  wpe (whileM fuel body x) (fun r st' => adv st st' /\ Q r) st.
Proof.
  intros HK HF HI HO.
  refine (wp_while F E _ (fun x st' => okpos st' /\ adv st st' /\ I x) (fun _ st' => mu st') _ _ fuel x st _ _).
  - intros y st0 (O0 & A0 & I0). destruct (HK y I0) as (k & -> & HK'). apply wp_bind. apply wp_rd32. intros typ st1 A1 B1 G1 Z1 W1.
    apply wp_bind. apply wp_rd32. intros pl st2 A2 B2 G2 Z2 W2.
    eapply wp_mono; [apply (HK' typ pl B1 B2); apply A2, A1, O0|]. intros r st3 [A3 HR].
    assert (A03 : adv st0 st3) by (eapply adv_trans; [exact A1|]; eapply adv_trans; eauto).
    destruct r as [y'|r]; [|split; [eapply adv_trans; eauto|exact HR]].
    destruct HR as [IY TZ]. destruct (A1 O0) as [O1 F1]. destruct (A2 O1) as [O2 F2]. destruct (A3 O2) as [O3 F3].
    split; [split; [exact O3|split; [eapply adv_trans; eauto|exact IY]]|].
    assert (N1 : rErr st1 = None) by (destruct (rErr st1) eqn:Q1; auto; exfalso; apply TZ, Z1; congruence).
    destruct (G1 N1) as (N0 & P1 & Q1 & Q2 & _).
    apply (mu_dec 4); [exact O0|congruence|lia|lia|]. intros N3.
    destruct (fwd_pos _ _ F3 N3) as [N2 P3]. destruct (fwd_pos _ _ F2 N2) as [_ P2]. lia.
  - split; [exact HO|split; [apply adv_refl|exact HI]].
  - destruct HF as [HF|HF]; [now left|right]. unfold mu, okpos in *. destruct (rErr st); lia.
Qed.

(** ReadParasites *)
Lemma wp_readParasites fuel l st : 0 <= l < 4294967296 -> okpos st ->
  F \/ (Z.to_nat (len + 4294967300) <= fuel)%nat ->
  wpe (readParasites fuel s l) (fun _ st' => adv st st') st.
Proof.
  intros L O HF. unfold readParasites.
  set (m := fun (x : Z * list parasite) (st : rst) =>
     match rErr st with None => Z.to_nat (Z.max 0 (len - rPos st) + 1 + 4294967296) | Some _ => Z.to_nat (fst x) end).
  refine (wp_while F E _ (fun x st' => okpos st' /\ adv st st' /\ 0 <= fst x < 4294967296) m _ _ fuel (l, []) st _ _).
  - intros [l0 ps] st0 (O0 & A0 & I0). cbn [fst] in I0. unfold par_body.
    destruct (l0 =? 0) eqn:L0; [apply wp_ret; exact A0|].
    apply wp_bind. unfold rdStr. apply wp_lift. destruct (readString_spec st0) as (AS & ES & NS).
    destruct (readString s st0) as [name st1]. cbn [fst snd] in *.
    apply wp_bind. apply wp_rd32. intros flags st2 A2 B2 G2 Z2 W2.
    apply wp_bind. apply wp_rd32. intros pp st3 A3 B3 G3 Z3 W3.
    cbv zeta. set (rd := u32 (4 + u32 (zlen name) + 1 + 4 + 4 + pp)).
    assert (0 <= rd < 4294967296) by (unfold rd, u32; apply Z.mod_pos_bound; lia).
    destruct (l0 <? rd) eqn:LR.
    + apply wp_bind. apply wp_act. apply wp_ret.
      eapply adv_trans; [exact A0|]. eapply adv_trans; [exact AS|]. eapply adv_trans; [exact A2|].
      eapply adv_trans; [exact A3|apply adv_setError].
    + apply wp_bind. apply wp_lift. pose proof (adv_readSome s Hlen pp st3 ltac:(lia)) as A4.
      destruct (readSome s pp st3) as [w st4]. cbn [fst snd] in *. apply wp_ret.
      destruct (AS O0) as [O1 F1]. destruct (A2 O1) as [O2 F2]. destruct (A3 O2) as [O3 F3]. destruct (A4 O3) as [O4 F4].
      split.
      * split; [exact O4|]. split; [|cbn; lia]. eapply adv_trans; [exact A0|]. eapply adv_trans; [exact AS|].
        eapply adv_trans; [exact A2|]. eapply adv_trans; [exact A3|exact A4].
      * unfold m. cbn [fst]. unfold okpos in *. destruct (rErr st0) eqn:N0.
        -- destruct ES as [-> ->]; [congruence|].
           destruct W2 as [-> ->]; [congruence|]. destruct W3 as [-> ->]; [congruence|].
           assert (rErr st4 <> None) by (apply F4; congruence).
           destruct (rErr st4); [|congruence].
           change (zlen (@nil Z)) with 0 in rd. assert (rd = 13) by reflexivity. lia.
        -- destruct (rErr st4) eqn:N4; [lia|].
           destruct (fwd_pos _ _ F4 N4) as [N3 P4]. destruct (fwd_pos _ _ F3 N3) as [N2 P3].
           destruct (fwd_pos _ _ F2 N2) as [N1 P2]. destruct (NS N1) as (_ & X1 & X2 & X3).
           pose proof (zlen_pos name). lia.
  - cbn [fst]. repeat split; try apply adv_refl; try lia; apply O.
  - destruct HF as [HF|HF]; [now left|right]. unfold m, okpos in *. cbn [fst].
    pose proof (zlen_pos (sFile s)). destruct (rErr st); lia.
Qed.

(** enough fuel for the loops that read the file *)
Definition fuel_ok (fuel : nat) : Prop := F \/ (Z.to_nat (len + 4294967300) <= fuel)%nat.
Lemma safe_readParasites fuel l : fuel_ok fuel -> 0 <= l < 4294967296 -> safe (readParasites fuel s l) any.
Proof.
  intros HF HL st O. eapply wp_mono; [apply wp_readParasites; auto|]. intros a st' A. split; [exact A|exact I].
Qed.
Lemma safe_props {S R} fuel (body : S -> M (S + R)) (I : S -> Prop) (Q : R -> Prop) x :
  (forall x, I x -> exists k, body x = (typ <- rd32 s;; pl <- rd32 s;; k typ pl) /\
     forall typ pl, 0 <= typ < 4294967296 -> 0 <= pl < 4294967296 ->
     safe (k typ pl) (fun r => match r with inl x' => I x' /\ typ <> 0 | inr r => Q r end)) ->
  fuel_ok fuel -> I x -> safe (whileM fuel body x) Q.
Proof.
  intros HK HF HI st O. apply wp_props with (I := I); auto.
  destruct HF as [HF|HF]; [now left|right]. pose proof (zlen_pos (sFile s)). lia.
Qed.
Lemma safe_any {A} (m : M A) P : safe m P -> safe m any.
Proof. intros H. eapply safe_mono; [exact H|]. exact (fun _ _ => I). Qed.
Lemma safe_if {A} (b : bool) (m n : M A) P : safe m P -> safe n P -> safe (if b then m else n) P.
Proof. destruct b; auto. Qed.
Lemma safe_skip0 : safe skipM any.
Proof. apply safe_ret. exact I. Qed.
End Blocks.
Lemma u32_range z : 0 <= u32 z < 4294967296.
Proof. unfold u32. apply Z.mod_pos_bound. lia. Qed.
#[global] Hint Resolve safe_rd32 safe_rd64 safe_rd8 safe_rdPtr safe_rdi32 safe_setErr safe_rdBool safe_rdStr safe_skStr
  safe_skip0 safe_readParasites : safe.
#[global] Hint Resolve u32_range : safe.
(** a sequence of safe steps *)
Ltac safe_step :=
  match goal with
  | |- safe _ _ (retM _) _ => apply safe_ret; try exact I; auto
  | |- safe _ _ (if _ then _ else _) _ => apply safe_if
  | |- safe _ _ (bindM (skM _) _) _ => eapply safe_bind; [apply safe_skM; first [lia | apply u32_range]|intros ? _]
  | |- safe _ _ (skM _) _ => apply safe_skM; first [lia | apply u32_range]
  | |- safe _ _ (bindM (bindM _ _) _) _ => eapply safe_bind; [|intros ? _]
  | |- safe _ _ (bindM (if _ then _ else _) _) _ => eapply safe_bind; [|intros ? _]
  | |- safe _ _ (bindM (countM _ _ _) _) _ => eapply safe_bind; [apply safe_count; intros ?|intros ? _]
  | |- safe _ _ (countM _ _ _) _ => apply safe_count; intros ?
  | |- safe _ _ (bindM (listM _ _) _) _ => eapply safe_bind; [apply safe_list with (P := any)|intros ? _]
  | |- safe _ _ (bindM _ _) _ => eapply safe_bind; [solve [eauto with safe]|intros ? ?; cbv beta in *]
  | |- safe _ _ _ any => first [solve [eauto with safe] | eapply safe_any; solve [eauto with safe]]
  | |- safe _ _ _ _ => solve [eauto with safe]
  end.
