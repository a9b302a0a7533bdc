(** Running decoder programs on a source whose bytes are known at some place. *)
Require Import Verif.Base Verif.L_List Verif.L_Word Verif.M_Reader Verif.L_Reader Verif.M_Rle Verif.M_Groups Verif.M_Monad Verif.M_Decode
  Verif.M_Encode Verif.L_Encode Verif.S_String Verif.L_String.
From Coq Require Import ZifyBool ZifyNat.

(** the bytes l are at offset p *)
Definition holds (s : src) (p : Z) (l : list Z) : Prop :=
  exists pre post, sFile s = pre ++ l ++ post /\ zlen pre = p.
Lemma holds_split s p a b : holds s p (a ++ b) -> holds s p a /\ holds s (p + zlen a) b.
Proof.
  intros (pre & post & E & L). split.
  - exists pre, (b ++ post). split; [|exact L]. now rewrite E, <- app_assoc.
  - exists (pre ++ a), post. rewrite E, zlen_app, L, <- !app_assoc. auto.
Qed.
Lemma holds_join s p a b : holds s p a -> holds s (p + zlen a) b -> holds s p (a ++ b).
Proof.
  intros (pre & post & E & L) (pre' & post' & E' & L'). exists pre, post'. split; [|exact L].
  rewrite E in E'. rewrite app_assoc in E'. apply app_eq_len in E'; [|rewrite zlen_app; lia].
  destruct E' as [E1 E2]. now rewrite E, E2, <- app_assoc.
Qed.
Lemma holds_range s p l : holds s p l -> 0 <= p /\ p + zlen l <= zlen (sFile s).
Proof. intros (pre & post & E & L). rewrite E, !zlen_app, L. pose proof (zlen_pos pre). pose proof (zlen_pos post). lia. Qed.
Lemma holds_rest s p l e : holds s p l -> exists t, rest s (mkR p e) = l ++ t.
Proof.
  intros (pre & post & E & L). unfold rest. cbn [rPos]. destruct ((p <? 0) || (zlen (sFile s) <=? p)) eqn:B.
  - assert (l = []) as ->; [|now exists []].
    apply zlen_zero. rewrite E, !zlen_app in B. pose proof (zlen_pos pre). pose proof (zlen_pos l). pose proof (zlen_pos post). lia.
  - exists post. rewrite E. now apply zdrop_app.
Qed.

Definition runs {A} (m : M A) (p : Z) (a : A) (q : Z) : Prop := m (mkR p None) = Ret (a, mkR q None).
Lemma runs_ret {A} (a : A) p : runs (retM a) p a p. Proof. reflexivity. Qed.
Lemma runs_bind {A B} (m : M A) (f : A -> M B) p a q b r : runs m p a q -> runs (f a) q b r -> runs (bindM m f) p b r.
Proof. unfold runs, bindM. now intros ->. Qed.
Lemma runs_q {A} (m : M A) p a q q' : runs m p a q' -> q' = q -> runs m p a q.
Proof. now intros H <-. Qed.
Lemma runs_det {A} (m : M A) p a q a' q' : runs m p a q -> runs m p a' q' -> a = a' /\ q = q'.
Proof. unfold runs. intros -> H. injection H. auto. Qed.

Section Run.
Variable s : src.
Hypothesis Hlen : zlen (sFile s) <= 4294967296.

Lemma runs_rd32 p z : holds s p (be32 z) -> runs (rd32 s) p (u32 z) (p + 4).
Proof.
  intros H. destruct (holds_rest s p _ None H) as [t R]. unfold runs, rd32, liftM.
  now rewrite (readUint32_ok s (mkR p None) z t eq_refl R).
Qed.
Lemma runs_rd8 p z : holds s p [z] -> runs (rd8 s) p z (p + 1).
Proof.
  intros H. destruct (holds_rest s p _ None H) as [t R]. unfold runs, rd8, liftM.
  now rewrite (readUint8_ok s (mkR p None) z t eq_refl R).
Qed.
Lemma runs_rdi32 p z : holds s p (be32 z) -> runs (rdi32 s) p (s32 (u32 z)) (p + 4).
Proof.
  intros H. destruct (holds_rest s p _ None H) as [t R]. unfold runs, rdi32, liftM, readInt32.
  pose proof (readUint32_ok s (mkR p None) z t eq_refl R) as Q. unfold readUint32 in Q. now rewrite Q.
Qed.
Lemma runs_rdBool p (b : bool) : holds s p (be32 (if b then 1 else 0)) -> runs (rdBool s) p b (p + 4).
Proof.
  intros H. destruct (holds_rest s p _ None H) as [t R]. unfold runs, rdBool, liftM, readBoolProperty.
  rewrite (readUint32_ok s (mkR p None) _ t (eq_refl : rErr (mkR p None) = None) R). now destruct b.
Qed.
Lemma runs_skip p n q : 0 <= p -> 0 <= n -> p <= 4294967296 -> n <= 4294967296 -> p + n = q -> runs (skM n) p tt q.
Proof.
  intros P N L L' <-. unfold runs, skM, actM, skip, s64 in *. cbn [rPos rErr]. rewrite Z.mod_small by lia.
  replace (p + n <? 9223372036854775808) with true by lia. now replace (p + n <? 0) with false by lia.
Qed.
Lemma runs_sk p l n : holds s p l -> zlen l = n -> runs (skM n) p tt (p + n).
Proof.
  intros H E. pose proof (holds_range _ _ _ H). pose proof (zlen_pos l).
  apply runs_skip; lia.
Qed.
Lemma runs_goto p n : 0 <= n < 4294967296 -> runs (gotoM n) p tt n.
Proof.
  intros N. unfold runs, gotoM, actM, goto, s64. rewrite Z.mod_small by lia.
  replace (n <? 9223372036854775808) with true by lia. now replace (n <? 0) with false by lia.
Qed.
(** a stored string *)
Definition str (l : list Z) : list Z := be32 (zlen l + 1) ++ l ++ [0].
Lemma zlen_str l : zlen (str l) = 5 + zlen l.
Proof. unfold str. rewrite !zlen_app, be32_len. cbn. change (zlen [0]) with 1. lia. Qed.
Lemma stored_str l : zlen l < 4294967295 -> stored (be32 (zlen l + 1)) (l ++ [0]) l.
Proof.
  intros L. pose proof (zlen_pos l). pose proof (be32_bytes (zlen l + 1)) as FB.
  assert (V : u32 (zlen l + 1) = zlen l + 1) by (unfold u32; apply Z.mod_small; lia).
  pose proof (be32_be (zlen l + 1)) as B. rewrite V in B. unfold be32 in *. rewrite be4 in B.
  inversion FB as [|? ? Fa FB1]; subst. inversion FB1 as [|? ? Fb FB2]; subst.
  inversion FB2 as [|? ? Fc FB3]; subst. inversion FB3 as [|? ? Fd FB4]; subst.
  eexists _, _, _, _. split; [reflexivity|]. unfold is_u8 in *. auto 10.
Qed.
Lemma runs_rdStr p l : holds s p (str l) -> utf8 l -> zlen l < maxString -> runs (rdStr s) p l (p + zlen (str l)).
Proof.
  intros H U LS. destruct (holds_rest s p _ None H) as [t R]. pose proof (holds_range _ _ _ H) as HR.
  pose proof (zlen_pos l). rewrite zlen_str in *.
  unfold runs, rdStr, liftM. unfold str in R. rewrite <- app_assoc in R.
  rewrite (readString_stored s (mkR p None) _ (l ++ [0]) l t eq_refl (stored_str l ltac:(unfold maxString in *; lia)) U LS R).
  unfold advance. cbn [rPos rErr]. rewrite zlen_app. change (zlen [0]) with 1. do 3 f_equal. lia.
Qed.
Lemma runs_skStr p l : holds s p (str l) -> runs (skStr s) p tt (p + zlen (str l)).
Proof.
  intros H. pose proof (holds_range _ _ _ H) as HR. pose proof (zlen_pos l). rewrite zlen_str in *.
  destruct (holds_split s p (be32 (zlen l + 1)) (l ++ [0]) H) as [H1 H2].
  destruct (holds_rest s p _ None H1) as [t R]. unfold runs, skStr, actM, skipString.
  rewrite (readUint32_ok s (mkR p None) _ t (eq_refl : rErr (mkR p None) = None) R).
  assert (V : u32 (zlen l + 1) = zlen l + 1) by (unfold u32; apply Z.mod_small; lia). rewrite V.
  pose proof (runs_skip (p + 4) (zlen l + 1) (p + (5 + zlen l)) ltac:(lia) ltac:(lia) ltac:(lia) ltac:(lia) ltac:(lia)) as K.
  exact K.
Qed.
Lemma runs_readSome p l n : holds s p l -> zlen l = n -> 0 < n -> runs (liftM (readSome s n)) p l (p + n).
Proof.
  intros H E N. destruct (holds_rest s p _ None H) as [t R]. unfold runs, liftM.
  rewrite (readSome_ok s n (mkR p None) l t eq_refl R E); [reflexivity|].
  intros Q. apply app_eq_nil in Q. destruct Q as [-> _]. change (zlen (@nil Z)) with 0 in E. lia.
Qed.
Lemma runs_list0 {A} (m : M A) p : runs (listM 0 m) p [] p. Proof. reflexivity. Qed.
Lemma runs_list_step {A} (m : M A) n p a q l r : runs m p a q -> runs (listM n m) q l r -> runs (listM (S n) m) p (a :: l) r.
Proof. intros H1 H2. cbn [listM]. eapply runs_bind; [exact H1|]. eapply runs_bind; [exact H2|]. apply runs_ret. Qed.
(** a list of items, each of which is read from its own bytes *)
Lemma runs_list {A B} (m : M A) (enc : B -> list Z) (val : B -> A) : 
  (forall b p, holds s p (enc b) -> runs m p (val b) (p + zlen (enc b))) ->
  forall bs p n, n = length bs -> holds s p (flat_map enc bs) -> runs (listM n m) p (map val bs) (p + zlen (flat_map enc bs)).
Proof.
  intros K. induction bs as [|b bs IH]; intros p n -> H; cbn [flat_map map length] in *.
  - eapply runs_q; [apply runs_list0|]. change (zlen (@nil Z)) with 0. lia.
  - apply holds_split in H. destruct H as [H1 H2]. eapply runs_list_step; [apply K; exact H1|].
    eapply runs_q; [apply IH; [reflexivity|exact H2]|]. rewrite zlen_app. lia.
Qed.
End Run.
Lemma u32_small z : 0 <= z < 4294967296 -> u32 z = z. Proof. intros. unfold u32. now apply Z.mod_small. Qed.
