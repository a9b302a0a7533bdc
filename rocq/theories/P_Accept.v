(** C66: malformed structures are refused. *)
Require Import Verif.Base Verif.L_List Verif.L_Word Verif.M_Reader Verif.L_Reader Verif.M_Rle Verif.M_Color Verif.M_Rect Verif.M_Image Verif.M_Composite Verif.M_Groups Verif.M_Monad Verif.M_Decode
  Verif.M_Encode Verif.L_Encode Verif.S_String Verif.S_File Verif.S_Props Verif.S_Accept Verif.L_String Verif.L_Run Verif.L_File Verif.L_Wp Verif.L_Decode Verif.L_Fuel Verif.L_Sticky
  Verif.P_File Verif.P_Props Verif.P_Paths.
From Coq Require Import ZifyBool ZifyNat.

Section Pixels.
Variable s : src.
Hypothesis Hlen : zlen (sFile s) <= 16777216.
Hypothesis Hbytes : Forall is_u8 (sFile s).

Lemma none_before {A} (m : M A) st a st' : keeps m -> m st = Ret (a, st') -> rErr st' = None -> rErr st = None.
Proof. intros K H N. destruct (rErr st) as [e|] eqn:E; [|reflexivity]. rewrite (K _ _ _ _ E H) in N. discriminate. Qed.

Lemma word_be a b c d : is_u8 a -> is_u8 b -> is_u8 c -> is_u8 d -> word (be [a; b; c; d]) = [a; b; c; d] /\ is_word (be [a; b; c; d]).
Proof.
  unfold is_u8, is_word, word, be. cbn [fold_left]. intros. split; [|lia].
  replace (((0 * 256 + a) * 256 + b) * 256 + c) with ((a * 256 + b) * 256 + c) by lia.
  set (z := ((a * 256 + b) * 256 + c) * 256 + d).
  assert (E1 : z / 256 = (a * 256 + b) * 256 + c) by (unfold z; rewrite Z.div_add_l by lia; rewrite (Z.div_small d); lia).
  assert (E2 : z / 65536 = a * 256 + b).
  { change 65536 with (256 * 256). rewrite <- Z.div_div by lia. rewrite E1, Z.div_add_l by lia. rewrite (Z.div_small c); lia. }
  assert (E3 : z / 16777216 = a).
  { change 16777216 with (65536 * 256). rewrite <- Z.div_div by lia. rewrite E2, Z.div_add_l by lia. rewrite (Z.div_small b); lia. }
  rewrite E1, E2, E3. unfold z. rewrite !(Z.add_comm (_ * 256)), !Z.mod_add, !Z.mod_small by lia. reflexivity.
Qed.
Lemma four {A} (l : list A) : zlen l = 4 -> exists a b c d, l = [a; b; c; d].
Proof.
  unfold zlen. destruct l as [|a [|b [|c [|d [|e l]]]]]; cbn [length]; intros; try lia. now exists a, b, c, d.
Qed.
Lemma holds_at p k : 0 <= p -> 0 <= k -> p + k <= zlen (sFile s) -> holds s p (ztake k (zdrop p (sFile s))).
Proof.
  intros. exists (ztake p (sFile s)), (zdrop k (zdrop p (sFile s))). rewrite ztake_zdrop, ztake_zdrop. split; [reflexivity|]. apply zlen_ztake. lia.
Qed.
Lemma bytes_at p k : Forall is_u8 (ztake k (zdrop p (sFile s))).
Proof. apply Forall_ztake. now apply Forall_zdrop. Qed.
Lemma word_at p : 0 <= p -> p + 4 <= zlen (sFile s) ->
  let v := be (ztake 4 (zdrop p (sFile s))) in holds s p (word v) /\ is_word v.
Proof.
  intros P L v. pose proof (bytes_at p 4) as F. pose proof (holds_at p 4 P ltac:(lia) L) as H. unfold v. clear v.
  assert (Z4 : zlen (ztake 4 (zdrop p (sFile s))) = 4) by (rewrite zlen_ztake; [lia|rewrite zlen_zdrop by lia; lia]).
  destruct (four _ Z4) as (a & b & c & d & E). rewrite E in *.
  inversion F as [|? ? ? F1]; subst. inversion F1 as [|? ? ? F2]; subst. inversion F2 as [|? ? ? F3]; subst. inversion F3; subst.
  destruct (word_be a b c d) as [Q W]; auto. rewrite Q. auto.
Qed.
Lemma rd32_holds st v st' : rd32 s st = Ret (v, st') -> rErr st' = None -> moved s st 4 st' /\ holds s (rPos st) (word v) /\ is_word v.
Proof.
  intros H N. pose proof (rd32_inv s st v st' H N) as Mv. split; [exact Mv|]. destruct Mv as (_ & P & L & _).
  pose proof (readBE_spec s Hbytes ltac:(lia) 4 st ltac:(lia)) as (_ & _ & G & _). unfold rd32, liftM, readUint32 in H. injection H as H. rewrite H in G. cbn [fst snd] in G.
  destruct (G N) as (_ & _ & _ & _ & ->). apply word_at; lia.
Qed.
Lemma be_app a b : be (a ++ b) = be a * 256 ^ zlen b + be b.
Proof.
  revert a. unfold be. induction b as [|x b IH] using rev_ind; intros a.
  - rewrite app_nil_r. cbn [fold_left]. change (zlen (@nil Z)) with 0. lia.
  - rewrite app_assoc, !fold_left_app. cbn [fold_left]. rewrite <- fold_left_app, IH, zlen_app. change (zlen [x]) with 1.
    pose proof (zlen_pos b). rewrite Z.pow_add_r by lia. lia.
Qed.
Lemma rd64_holds st v st' : rd64 s st = Ret (v, st') -> rErr st' = None ->
  moved s st 8 st' /\ holds s (rPos st) (word (v / 4294967296) ++ word (v mod 4294967296)) /\ 0 <= v < 18446744073709551616.
Proof.
  unfold rd64, liftM, readUint64. intros H N. injection H as H.
  pose proof (readBE_inv s 8 st v st' ltac:(lia) H N) as Mv. split; [exact Mv|]. destruct Mv as (_ & P & L & _).
  pose proof (readBE_spec s Hbytes ltac:(lia) 8 st ltac:(lia)) as (_ & _ & G & _). rewrite H in G. cbn [fst snd] in G.
  destruct (G N) as (_ & _ & _ & _ & ->).
  assert (E : ztake 8 (zdrop (rPos st) (sFile s)) = ztake 4 (zdrop (rPos st) (sFile s)) ++ ztake 4 (zdrop (rPos st + 4) (sFile s))).
  { rewrite <- (zdrop_zdrop 4 (rPos st)) by lia. set (l := zdrop (rPos st) (sFile s)).
    rewrite <- (ztake_zdrop 4 l) at 1. rewrite ztake_app2; [|rewrite zlen_ztake; [lia|unfold l; rewrite zlen_zdrop; lia]].
    rewrite zlen_ztake; [|unfold l; rewrite zlen_zdrop; lia]. reflexivity. }
  rewrite E, be_app. rewrite zlen_ztake by (rewrite zlen_zdrop; lia). change (256 ^ 4) with 4294967296.
  destruct (word_at (rPos st)) as [H1 W1]; [lia|lia|]. destruct (word_at (rPos st + 4)) as [H2 W2]; [lia|lia|]. unfold is_word in *.
  set (a := be (ztake 4 (zdrop (rPos st) (sFile s)))) in *. set (b := be (ztake 4 (zdrop (rPos st + 4) (sFile s)))) in *.
  rewrite Z.div_add_l by lia. rewrite (Z.div_small b), Z.add_0_r by lia. rewrite Z.add_comm, Z.mod_add, Z.mod_small by lia.
  split; [|lia]. apply holds_join; [exact H1|]. rewrite zlen_word. exact H2.
Qed.
Definition pwidth (m : Z) : Z := if m <? 2 then 4 else 8.
Lemma zlen_pointer m z : zlen (pointer m z) = pwidth m.
Proof. unfold pointer, pwidth. destruct (m <? 2); reflexivity. Qed.
Lemma rdPtr_holds m st v st' : rdPtr s m st = Ret (v, st') -> rErr st' = None ->
  moved s st (pwidth m) st' /\ holds s (rPos st) (pointer m v) /\ 0 <= v < 18446744073709551616.
Proof.
  unfold rdPtr, pwidth, pointer. destruct (m <? 2); intros H N.
  - destruct (rd32_holds _ _ _ H N) as (A & B & C). unfold is_word in C. repeat split; try apply A; auto; lia.
  - now apply rd64_holds.
Qed.
Lemma ptrs_holds m n : forall st l st', listM n (rdPtr s m) st = Ret (l, st') -> rErr st' = None -> rErr st = None -> 0 <= rPos st <= zlen (sFile s) ->
  length l = n /\ st' = mkR (rPos st + zlen (flat_map (pointer m) l)) None /\ holds s (rPos st) (flat_map (pointer m) l) /\ rPos st' <= zlen (sFile s).
Proof.
  induction n as [|n IH]; intros st l st' H N N0 P; cbn [listM] in H.
  - injection H as <- <-. cbn [length flat_map]. change (zlen (@nil Z)) with 0. rewrite Z.add_0_r. destruct st as [p e]. cbn [rErr rPos] in *. subst e.
    repeat split; try lia. exists (ztake p (sFile s)), (zdrop p (sFile s)). cbn [app]. rewrite ztake_zdrop. split; [reflexivity|apply zlen_ztake; lia].
  - apply bindM_inv in H. destruct H as (v & st1 & E & H). apply bindM_inv in H. destruct H as (l1 & st2 & E2 & H). injection H as <- <-.
    assert (N1 : rErr st1 = None) by (eapply none_before; [|exact E2|exact N]; apply k_list; apply k_rdPtr).
    destruct (rdPtr_holds m _ _ _ E N1) as ((_ & _ & B & ->) & HP & _). cbn [rPos rErr] in *.
    assert (0 <= pwidth m) by (unfold pwidth; destruct (m <? 2); lia).
    destruct (IH _ _ _ E2 N eq_refl) as (LL & EE & HH & PP); [cbn [rPos]; lia|]. cbn [rPos] in *. cbn [length flat_map].
    split; [lia|]. split; [|split; [|exact PP]].
    + rewrite EE. f_equal. rewrite zlen_app, zlen_pointer. lia.
    + apply holds_join; [exact HP|]. now rewrite zlen_pointer.
Qed.

Lemma goto_small n st : 0 <= n < 9223372036854775808 -> goto n st = mkR n (rErr st).
Proof.
  intros H. unfold goto, s64. rewrite Z.mod_small by lia. replace (n <? 9223372036854775808) with true by lia. cbv zeta.
  replace (n <? 0) with false by lia. reflexivity.
Qed.

Lemma readImage_nil fuel d w h typ st st' : readImage fuel s d w h typ st = Ret (RNil, st') -> typ <= 5 -> rErr st' <> None.
Proof.
  intros H T. unfold readImage in H.
  assert (BAD : forall st, (setErrM EInconsistantData;;; retM RNil) st = Ret (RNil, st') -> rErr st' <> None).
  { intros y Q. unfold bindM, setErrM, actM, retM in Q. injection Q as <-. apply P_Paths.setError_err. }
  apply bindM_inv in H. destruct H as (tw & st1 & E1 & H). apply bindM_inv in H. destruct H as (th & st2 & E2 & H).
  destruct (negb ((tw =? w) && (th =? h))); [now apply BAD in H|].
  apply bindM_inv in H. destruct H as (bpp & st3 & E3 & H).
  destruct (negb (validBPP typ bpp)); [now apply BAD in H|].
  apply bindM_inv in H. destruct H as (q & st4 & E4 & H).
  apply bindM_inv in H. destruct H as (u & st5 & E5 & H).
  apply bindM_inv in H. destruct H as (lw & st6 & E6 & H). apply bindM_inv in H. destruct H as (lh & st7 & E7 & H).
  destruct (negb ((lw =? w) && (lh =? h))); [now apply BAD in H|].
  apply bindM_inv in H. destruct H as (tiles & st8 & E8 & H). apply bindM_inv in H. destruct H as (z & st9 & E9 & H).
  destruct (negb (z =? 0)); [now apply BAD in H|]. exfalso. clear - H T. destruct (dpDecompress d || (dpComp d =? 0)).
  - unfold readAndDecompressImage in H. apply bindM_inv in H. destruct H as (? & ? & _ & H). apply bindM_inv in H. destruct H as (? & ? & _ & H).
    replace (typ <=? 5) with true in H by lia. discriminate.
  - unfold readCompressedImage in H. apply bindM_inv in H. destruct H as (? & ? & _ & H). apply bindM_inv in H. destruct H as (? & ? & _ & H).
    replace (typ <=? 5) with true in H by lia. discriminate.
Qed.
Lemma readImage_pixels fuel d w h typ p im st' : 0 <= p -> is_word w -> is_word h ->
  readImage fuel s d w h typ (mkR p None) = Ret (im, st') -> rErr st' = None -> pixels_ok (sFile s) (dpMode d) p w h typ.
Proof.
  intros P Ww Wh H N. unfold readImage in H.
  assert (KT : forall tiles z mode bpp, keeps (if negb (z =? 0) then setErrM EInconsistantData;;; retM RNil
     else if dpDecompress d || (dpComp d =? 0) then readAndDecompressImage fuel s d mode bpp w h tiles else readCompressedImage fuel s mode bpp w h tiles)).
  { intros. apply k_if; [apply k_bind; [apply k_setErr|intros; apply k_ret]|]. apply k_if.
    - unfold readAndDecompressImage. apply k_bind; [apply k_if; [apply k_alloc|apply k_skip0]|intros _]. apply k_bind; [|intros; apply k_ret].
      apply k_by64. intros. apply k_by64. intros. apply k_eager.
    - unfold readCompressedImage. apply k_bind; [apply k_alloc|intros _]. apply k_bind; [|intros; apply k_ret]. apply k_by64. intros. apply k_by64. intros. apply k_comp. }
  assert (BAD : forall st r, (setErrM EInconsistantData;;; retM RNil) st = Ret (r, st') -> False).
  { intros st r Q. unfold bindM, setErrM, actM, retM in Q. injection Q as _ <-. eapply P_Paths.setError_err; eauto. }
  apply bindM_inv in H. destruct H as (tw & st1 & E1 & H). apply bindM_inv in H. destruct H as (th & st2 & E2 & H).
  destruct (negb ((tw =? w) && (th =? h))) eqn:C1; [now apply BAD in H|]. assert (tw = w /\ th = h) as [-> ->] by lia. clear C1.
  apply bindM_inv in H. destruct H as (bpp & st3 & E3 & H).
  destruct (negb (validBPP typ bpp)) eqn:C2; [now apply BAD in H|].
  apply bindM_inv in H. destruct H as (q & st4 & E4 & H).
  apply bindM_inv in H. destruct H as (u & st5 & E5 & H). unfold gotoM, actM in E5. injection E5 as _ <-.
  apply bindM_inv in H. destruct H as (lw & st6 & E6 & H). apply bindM_inv in H. destruct H as (lh & st7 & E7 & H).
  destruct (negb ((lw =? w) && (lh =? h))) eqn:C3; [now apply BAD in H|]. assert (lw = w /\ lh = h) as [-> ->] by lia. clear C3.
  apply bindM_inv in H. destruct H as (tiles & st8 & E8 & H). apply bindM_inv in H. destruct H as (z & st9 & E9 & H).
  assert (N9 : rErr st9 = None) by (eapply none_before; [apply KT|exact H|exact N]).
  destruct (negb (z =? 0)) eqn:C4; [now apply BAD in H|]. assert (z = 0) as -> by lia. clear C4 KT BAD.
  clear H.
  destruct (rd32_holds _ _ _ E9 N9) as ((N8 & _) & H9 & _).
  unfold readTiles in E8. apply bindM_inv in E8. destruct E8 as (u' & st7' & EA & E8).
  assert (st7' = st7) as -> by (unfold allocM in EA; destruct (maxAlloc <? _); [discriminate|]; now injection EA as _ <-). clear EA u u'.
  assert (N7 : rErr st7 = None) by (eapply none_before; [|exact E8|exact N8]; apply k_list; apply k_rdPtr).
  destruct (rd32_holds _ _ _ E7 N7) as ((N6 & P6 & B7 & S7) & H7 & _).
  destruct (rd32_holds _ _ _ E6 N6) as ((N5 & P5 & B6 & S6) & H6 & _).
  assert (N4 : rErr st4 = None) by (now rewrite goto_err in N5).
  destruct (rdPtr_holds _ _ _ _ E4 N4) as ((N3 & P3 & B4 & S4) & H4 & R4).
  destruct (rd32_holds _ _ _ E3 N3) as ((N2 & P2 & B3 & S3) & H3 & W3).
  destruct (rd32_holds _ _ _ E2 N2) as ((N1 & P1 & B2 & S2) & H2 & _).
  destruct (rd32_holds _ _ _ E1 N1) as ((_ & _ & B1 & S1) & H1 & _). cbn [rPos] in *.
  subst st1. cbn [rPos] in *. subst st2. cbn [rPos] in *. subst st3. cbn [rPos] in *. subst st4. cbn [rPos rErr] in *.
  destruct (ptrs_holds _ _ _ _ _ E8 N8 N7) as (LT & S8 & H8 & B8); [subst st7 st6; cbn [rPos] in *; lia|].
  exists bpp, q, tiles. split; [|split; [|split]].
  - change (holds s p (word w ++ word h ++ word bpp ++ pointer (dpMode d) q)).
    apply holds_join; [exact H1|]. rewrite zlen_word. apply holds_join; [exact H2|]. rewrite zlen_word. apply holds_join; [exact H3|]. rewrite zlen_word. exact H4.
  - intros T. assert (typ = 0 \/ typ = 1 \/ typ = 2 \/ typ = 3 \/ typ = 4 \/ typ = 5) as D by lia.
    destruct D as [->|[->|[->|[->|[->| ->]]]]]; (match goal with |- _ = ?x => let y := eval vm_compute in x in change x with y end); unfold validBPP in C2; lia.
  - unfold zlen. rewrite LT. unfold ceil64. rewrite Z2Nat.id; [reflexivity|]. unfold is_word in *. apply Z.mul_nonneg_nonneg; apply Z.div_pos; lia.
  - intros Q. rewrite goto_small in E6, H6, S6 by lia. cbn [rPos rErr] in *. subst st6. cbn [rPos] in *. subst st7. cbn [rPos] in *. subst st8. cbn [rPos] in *.
    change (holds s q (word w ++ word h ++ flat_map (pointer (dpMode d)) tiles ++ word 0)).
    apply holds_join; [exact H6|]. rewrite zlen_word. apply holds_join; [exact H7|]. rewrite zlen_word. apply holds_join; [exact H8|]. exact H9.
Qed.
End Pixels.

(** ** Up to the first property *)
Section Start.
Variable s : src.
Hypothesis Hlen : zlen (sFile s) <= 16777216.
Hypothesis Hbytes : Forall is_u8 (sFile s).
Ltac hs H := let G := fresh "G" in apply holds_split in H; destruct H as [G H]; rewrite ?zlen_word, ?zlen_text in H.

Lemma runs_header n t : 0 <= n <= 13 -> holds s 0 (file_magic n ++ t) -> runs (readHeader s) 0 (inr (pointer_kind n)) 14.
Proof.
  intros N H. apply holds_split in H as [H _].
  assert (n = 0 \/ n = 1 \/ n = 2 \/ n = 3 \/ n = 4 \/ n = 5 \/ n = 6 \/ n = 7 \/ n = 8 \/ n = 9 \/ n = 10 \/ n = 11 \/ n = 12 \/ n = 13) as D by lia.
  assert (L : zlen (file_magic n) = 14) by (unfold file_magic; rewrite !zlen_app; destruct (n =? 0); reflexivity).
  unfold readHeader. eapply runs_bind; [apply (runs_readSome s 0 _ 14 H L); lia|].
  eapply (runs_bind _ _ _ None); [reflexivity|]. cbv iota. rewrite L. change (Z.to_nat (14 - 14)) with O. cbn [repeat]. rewrite app_nil_r. clear H L N.
  destruct D as [->|[->|[->|[->|[->|[->|[->|[->|[->|[->|[->|[->|[->| ->]]]]]]]]]]]]]; reflexivity.
Qed.
Lemma runs_ptr m p z : holds s p (pointer m z) -> 0 <= z < 18446744073709551616 -> runs (rdPtr s m) p z (p + pwidth m).
Proof.
  unfold pointer, rdPtr, pwidth. destruct (m <? 2); intros H Z.
  - apply runs_word; [exact H|]. destruct H as (a & b & E & _). rewrite E in Hbytes. apply Forall_app in Hbytes as [_ F]. apply Forall_app in F as [F _].
    unfold word in F. inversion F as [|? ? U]; subst. unfold is_u8 in U. unfold is_word. pose proof (div_bounds z 16777216 ltac:(lia)). lia.
  - pose proof (holds_range _ _ _ H) as R. rewrite zlen_app, !zlen_word in R.
    destruct (readBE_inv s 8 (mkR p None) (fst (readBE s 8 (mkR p None))) (snd (readBE s 8 (mkR p None))) ltac:(lia)) as (_ & _ & _ & S'); [now destruct (readBE s 8 (mkR p None))| |].
    { unfold readBE, readFull, rest. cbn [rErr rPos]. replace ((p <? 0) || (zlen (sFile s) <=? p)) with false by lia.
      rewrite zlen_zdrop by lia. replace (8 <=? zlen (sFile s) - p) with true by lia. reflexivity. }
    destruct (rd64_holds s Hlen Hbytes (mkR p None) (fst (readBE s 8 (mkR p None))) (snd (readBE s 8 (mkR p None)))) as (_ & H2 & Z2).
    { unfold rd64, liftM, readUint64. now destruct (readBE s 8 (mkR p None)). }
    { now rewrite S'. }
    cbn [rPos] in *. unfold runs, rd64, liftM, readUint64. f_equal.
    enough (E : fst (readBE s 8 (mkR p None)) = z) by (rewrite <- E at 1; rewrite <- S'; now destruct (readBE s 8 (mkR p None))).
    set (v := fst (readBE s 8 (mkR p None))) in *. clearbody v. hs H. hs H2.
    assert (W : forall z, 0 <= z < 18446744073709551616 -> is_word (z / 4294967296) /\ is_word (z mod 4294967296)).
    { intros y Y. unfold is_word. split; [pose proof (div_bounds y 4294967296 ltac:(lia)); lia|apply Z.mod_pos_bound; lia]. }
    destruct (W z Z) as [A1 A2]. destruct (W v Z2) as [B1 B2].
    pose proof (runs_det _ _ _ _ _ _ (runs_word s p _ G A1) (runs_word s p _ G0 B1)) as [Q1 _].
    pose proof (runs_det _ _ _ _ _ _ (runs_word s (p + 4) _ H A2) (runs_word s (p + 4) _ H2 B2)) as [Q2 _].
    rewrite (Z.div_mod v 4294967296), (Z.div_mod z 4294967296) by lia. congruence.
Qed.

(** property records without their end *)
Fixpoint passes {S} (R : S -> Z -> S -> Prop) (x : S) (l : list (Z * list Z)) (y : S) : Prop :=
  match l with [] => x = y | q :: l => exists z, R x (fst q) z /\ passes R z l y end.
Lemma runs_records {S U} (body : S -> M (S + U)) (P : Z * list Z -> Prop) (R : S -> Z -> S -> Prop) :
  (forall x p q t, P q -> holds s p (property (fst q) (snd q) ++ t) -> t <> [] ->
     exists x', runs (body x) p (inl x') (p + zlen (property (fst q) (snd q))) /\ R x (fst q) x') ->
  forall l, Forall P l -> forall k x p t, holds s p (records l ++ t) -> t <> [] ->
  exists x', passes R x l x' /\ whileM (length l + k) body x (mkR p None) = whileM k body x' (mkR (p + zlen (records l)) None).
Proof.
  intros B l F. induction F as [|q l Pq _ IH]; intros k x p t H T; cbn [records flat_map length plus passes] in *.
  - exists x. split; [reflexivity|]. change (zlen (@nil Z)) with 0. now rewrite Z.add_0_r.
  - fold (records l) in *. rewrite <- app_assoc in H. destruct (B x p q _ Pq H) as (x1 & R1 & J1).
    { intros Q. apply app_eq_nil in Q. destruct Q. auto. }
    apply holds_split in H. destruct H as [_ H]. destruct (IH k x1 _ t H T) as (x2 & J2 & R2).
    exists x2. split; [eauto|]. cbn [whileM]. rewrite (bind_ret _ _ _ _ _ R1), R2. f_equal. f_equal. rewrite zlen_app. lia.
Qed.
Lemma runs_record {A} (k : Z -> Z -> M A) p typ n l t : is_word typ -> is_word n -> holds s p (record typ n l ++ t) ->
  (typ <- rd32 s;; pl <- rd32 s;; k typ pl) (mkR p None) = k typ n (mkR (p + 8) None) /\ holds s (p + 8) (l ++ t).
Proof.
  intros W1 W2 H. unfold record in H. rewrite <- !app_assoc in H. hs H. hs H. replace (p + 8) with (p + 4 + 4) by lia. split; [|exact H].
  rewrite (bind_ret _ _ _ _ _ (runs_word s p _ G W1)). now rewrite (bind_ret _ _ _ _ _ (runs_word s (p + 4) _ G0 W2)).
Qed.
Lemma zlen_records_le l : Z.of_nat (length l) <= zlen (records l).
Proof. induction l as [|q l IH]; cbn [records flat_map length]; [change (zlen (@nil Z)) with 0; lia|]. fold (records l). rewrite zlen_app, zlen_property. pose proof (zlen_pos (snd q)). lia. Qed.

Lemma imgprop_framed base fuel x p q t : framed_image base q -> holds s p (property (fst q) (snd q) ++ t) -> t <> [] ->
  (Z.to_nat (zlen (sFile s)) < fuel)%nat ->
  exists x', runs (imgprop_body fuel s base x) p (inl x') (p + zlen (property (fst q) (snd q))).
Proof.
  intros (P & C1 & C2 & C3) H T F. eapply property_framed; eauto.
  pose proof (holds_range _ _ _ H) as R. rewrite zlen_app, zlen_property in R. pose proof (zlen_pos t). pose proof (zlen_pos (snd q)). lia.
Qed.

(** what follows a refused image property: an error is returned, or kept *)
Lemma bad_imgprop base fuel x p typ n l t r st : bad_property typ n l -> is_word n -> holds s p (record typ n l ++ t) ->
  imgprop_body fuel s base x (mkR p None) = Ret (r, st) -> (exists e, r = inr (inl e)) \/ rErr st <> None.
Proof.
  intros B W H E. destruct x as [pal comp]. unfold imgprop_body in E.
  assert (WT : is_word typ).
  { inversion B; subst; unfold is_word; try lia. match goal with I : In typ _ |- _ => cbn in I; lia end. }
  match type of E with (typ <- rd32 s;; pl <- rd32 s;; @?k typ pl) _ = _ => pose proof (runs_record k p typ n l t WT W H) as [E1 HB] end.
  rewrite E1 in E. clear E1 H. cbv beta in E. inversion B; subst.
  - cbv iota in E. injection E as <- _. replace (n =? 0) with false by lia. left. eauto.
  - cbv iota in E. hs HB. rewrite (bind_ret _ _ _ _ _ (runs_word s _ _ G H)) in E. injection E as <- _. replace (255 <? o) with true by lia. left. eauto.
  - cbv iota in E. hs HB. rewrite (bind_ret _ _ _ _ _ (runs_rd8 s _ _ G)) in E. injection E as <- _. replace (1 <? c) with true by lia. left. eauto.
  - cbv iota zeta in E. pose proof (Z.div_mod n 5 ltac:(lia)). replace (negb (n / 5 * 5 =? n)) with true in E by lia. injection E as <- _. left. eauto.
  - cbv iota in E. pose proof (Z.mod_pos_bound n 2 ltac:(lia)). replace (n mod 2 =? 1) with true in E by lia. injection E as <- _. left. eauto.
  - cbv iota in E. hs HB. rewrite (bind_ret _ _ _ _ _ (runs_word s _ _ G H)) in E. injection E as <- _. replace (4 <? u) with true by lia. left. eauto.
  - hs HB. right.
    assert (RB : rdBool s (mkR (p + 8) None) = Ret (false, setError (mkR (p + 8 + 4) None) EInvalidBoolean)).
    { pose proof (runs_word s _ _ G ltac:(assumption)) as R. unfold runs, rd32, liftM in R. injection R as R. unfold rdBool, liftM, readBoolProperty. rewrite R.
      replace (b =? 0) with false by lia. replace (b =? 1) with false by lia. reflexivity. }
    cbn [In] in H. destruct H as [<-|[<-|[<-|[]]]]; cbv iota in E; rewrite (bind_ret _ _ _ _ _ RB) in E; injection E as _ <-; cbn; discriminate.
Qed.
Lemma k_while_err {S R} fuel (body : S -> M (S + R)) x st r st' : (forall x, keeps (body x)) -> rErr st <> None -> whileM fuel body x st = Ret (r, st') -> rErr st' <> None.
Proof. intros K E H. destruct (rErr st) as [e|] eqn:Q; [|easy]. rewrite (k_while fuel body K x st e r st' Q H). discriminate. Qed.
Lemma bad_imgprops base fuel props p typ n l t : Forall (framed_image base) props -> bad_property typ n l -> is_word n ->
  holds s p (records props ++ record typ n l ++ t) -> (Z.to_nat (2 * zlen (sFile s)) < fuel)%nat ->
  match readImageProperties fuel s base (mkR p None) with
  | Ret (inr _, st) => rErr st <> None
  | _ => True
  end.
Proof.
  intros F B W H Fu. unfold readImageProperties.
  pose proof (holds_range _ _ _ H) as HR. rewrite zlen_app in HR. pose proof (zlen_records_le props). pose proof (zlen_pos (record typ n l ++ t)).
  assert (FK : exists k, fuel = (length props + S k)%nat) by (exists (fuel - length props - 1)%nat; lia). destruct FK as [k FK].
  assert (FE : whileM fuel (imgprop_body fuel s base) (None, 0) = whileM (length props + S k) (imgprop_body fuel s base) (None, 0)) by congruence.
  rewrite FE. clear FE. 
  destruct (runs_records (imgprop_body fuel s base) (framed_image base) (fun _ _ _ => True)) with (l := props) (k := S k) (x := (@None (list color), 0)) (p := p) (t := record typ n l ++ t) as (x' & _ & ->); auto.
  - intros x y q u P Hq T. destruct (imgprop_framed base fuel x y q u P Hq T) as [x' R]; [lia|]. eauto.
  - unfold record, word. discriminate.
  - cbn [whileM]. apply holds_split in H as [_ H].
    destruct (bindM _ _ _) as [[[e|a] st]| |] eqn:E; auto. apply bindM_inv in E. destruct E as (r & st1 & E1 & E2).
    destruct (bad_imgprop base fuel x' _ typ n l t r st1 B W H E1) as [[e ->]|N].
    + cbn in E2. discriminate.
    + destruct r as [x2|r]; [|injection E2 as _ <-; exact N]. eapply k_while_err; [|exact N|exact E2].
      intros x. apply k_imgprop.
Qed.

Lemma runs_start fuel f32op ptext dec n w h base prec t : 0 <= n <= 13 -> is_word w -> is_word h -> is_word base -> is_word prec ->
  holds s 0 (image_start n w h base prec ++ t) ->
  decodeImageFrom fuel s f32op ptext dec =
  match readImageProperties fuel s base (mkR (zlen (image_start n w h base prec)) None) with
  | Panic w => Panic w | NoFuel => NoFuel
  | Ret (inl e, _) => Ret (inl e)
  | Ret (inr (pal, comp), st) =>
      match readLayerPointers fuel s (pointer_kind n) st with
      | Panic w => Panic w | NoFuel => NoFuel
      | Ret (lptrs, st) =>
          match rErr st with
          | Some e => Ret (inl e)
          | None =>
              les <-! mapO (readLayerAt fuel s f32op ptext (mkDP comp dec base pal (pointer_kind n))) lptrs;;
              match first_err les with
              | Some e => Ret (inl e)
              | None =>
                  match makeGroups (map fst les) (image_Rect 0 0 w h) with
                  | inl e => Ret (inl e)
                  | inr (os, m) => Ret (inr (makeImage os (map_order m)))
                  end
              end
          end
      end
  end.
Proof.
  intros N W1 W2 W3 W4 H. unfold decodeImageFrom. cbv zeta.
  assert (RW : forall p z, holds s p (word z) -> is_word z -> readUint32 s (mkR p None) = (z, mkR (p + 4) None)).
  { intros p z Hp Wz. pose proof (runs_word s p z Hp Wz) as R. unfold runs, rd32, liftM in R. now injection R. }
  unfold image_start in *. rewrite <- !app_assoc in H. pose proof (runs_header n _ N H) as RH. unfold runs in RH. rewrite RH. clear RH.
  assert (L : zlen (file_magic n) = 14) by (unfold file_magic; rewrite !zlen_app; destruct (n =? 0); reflexivity).
  apply holds_split in H as [_ H]. rewrite L in H. change (0 + 14) with 14 in H. hs H. hs H. hs H.
  rewrite (RW _ _ G W1), (RW _ _ G0 W2), (RW _ _ G1 W3). rewrite !zlen_app, L, !zlen_word.
  replace (0 <? pointer_kind n) with (negb (n <=? 3)) by (unfold pointer_kind; destruct (n <=? 3) eqn:?; [|destruct (n <=? 10)]; reflexivity).
  destruct (n <=? 3); cbn [negb].
  - change (zlen (@nil Z)) with 0. reflexivity.
  - hs H. rewrite (RW _ _ G2 W4), zlen_word. reflexivity.
Qed.
Lemma runs_pointers m n ps : forall l p t, (length ps < n)%nat -> Forall (fun z => 0 < z < 9223372036854775808) ps ->
  holds s p (flat_map (pointer m) ps ++ pointer m 0 ++ t) ->
  whileM n (fun l => p <- rdPtr s m;; retM (if p =? 0 then inr l else inl (l ++ [p]))) l (mkR p None) =
  Ret (l ++ ps, mkR (p + zlen (flat_map (pointer m) ps) + pwidth m) None).
Proof.
  revert n. induction ps as [|z ps IH]; intros n l p t N F H; (destruct n as [|n]; [cbn in N; lia|]); cbn [whileM flat_map app] in *.
  - apply holds_split in H as [H _]. unfold bindM at 1. unfold bindM at 1. pose proof (runs_ptr m p 0 H ltac:(lia)) as R. unfold runs in R. rewrite R.
    cbv beta. unfold retM. change (0 =? 0) with true. cbv iota. rewrite app_nil_r. change (zlen (@nil Z)) with 0. do 3 f_equal. lia.
  - rewrite <- app_assoc in H. apply holds_split in H as [H1 H]. rewrite zlen_pointer in H. inversion F as [|? ? Z F']; subst.
    unfold bindM at 1. unfold bindM at 1. pose proof (runs_ptr m p z H1 ltac:(lia)) as R. unfold runs in R. rewrite R. cbv beta. unfold retM at 1.
    replace (z =? 0) with false by lia. cbn [length] in N. rewrite (IH n (l ++ [z]) _ t ltac:(lia) F' H). rewrite <- app_assoc. cbn [app].
    rewrite zlen_app, zlen_pointer. do 3 f_equal. lia.
Qed.
Lemma mapO_in {A B} (g : A -> outcome B) l r a : mapO g l = Ret r -> In a l -> exists b, g a = Ret b /\ In b r.
Proof.
  revert r. induction l as [|x l IH]; intros r H I; [easy|]. cbn [mapO] in H. destruct (g x) as [b| |] eqn:E; [|discriminate|discriminate].
  destruct (mapO g l) as [r'| |] eqn:E'; [|discriminate|discriminate]. injection H as <-. destruct I as [->|I].
  - exists b. split; [exact E|now left].
  - destruct (IH r' eq_refl I) as (c & C1 & C2). exists c. split; [exact C1|now right].
Qed.
Lemma first_err_none {A} (l : list (A * option err)) x : first_err l = None -> In x l -> snd x = None.
Proof. induction l as [|[a [e|]] l IH]; [easy|discriminate|]. intros H [<-|I]; [reflexivity|now apply IH]. Qed.

(** layers *)
Lemma bad_lprop f32op d fuel x p typ n l t r st : bad_layer_property typ n l -> is_word n -> holds s p (record typ n l ++ t) ->
  lprop_body fuel s f32op d x (mkR p None) = Ret (r, st) -> rErr st <> None.
Proof.
  intros B W H E. destruct x as [ly ps]. unfold lprop_body in E.
  assert (WT : is_word typ) by (inversion B; subst; unfold is_word; lia).
  match type of E with (typ <- rd32 s;; pl <- rd32 s;; @?k typ pl) _ = _ => pose proof (runs_record k p typ n l t WT W H) as [E1 HB] end.
  rewrite E1 in E. clear E1 H. cbv beta in E. inversion B; subst; cbv iota in E.
  - replace (n =? 0) with false in E by lia. cbn in E. injection E as _ <-. cbn. discriminate.
  - hs HB. rewrite (bind_ret _ _ _ _ _ (runs_word s _ _ G H)) in E. replace (255 <? o) with true in E by lia. cbn in E. injection E as _ <-. cbn. discriminate.
  - hs HB.
    assert (RB : rdBool s (mkR (p + 8) None) = Ret (false, setError (mkR (p + 8 + 4) None) EInvalidBoolean)).
    { pose proof (runs_word s _ _ G ltac:(assumption)) as R. unfold runs, rd32, liftM in R. injection R as R. unfold rdBool, liftM, readBoolProperty. rewrite R.
      replace (b =? 0) with false by lia. replace (b =? 1) with false by lia. reflexivity. }
    rewrite (bind_ret _ _ _ _ _ RB) in E. injection E as _ <-. cbn. discriminate.
  - replace (negb (n mod 4 =? 0)) with true in E by lia.
    apply bindM_inv in E. destruct E as (u & st1 & E1 & E). injection E1 as _ <-.
    apply bindM_inv in E. destruct E as (v & st2 & E2 & E). injection E as _ <-.
    assert (K : keeps (listM (Z.to_nat (n / 4)) (v <- rd32 s;; retM (s32 v)))) by (apply k_list; apply k_bind; [apply k_rd32|intros; apply k_ret]).
    rewrite (K (setError (mkR (p + 8) None) EInvalidItemPathLength) EInvalidItemPathLength _ _ eq_refl E2). discriminate.
Qed.
Lemma passes_step (R : lprop_state -> Z -> lprop_state -> Prop) x l y : (forall x t y, R x t y -> lstep x t y) -> passes R x l y ->
  dx (dlBounds (fst y)) = dx (dlBounds (fst x)) /\ dy (dlBounds (fst y)) = dy (dlBounds (fst x)) /\ (~ In 29 (map fst l) -> dlGroup (fst y) = dlGroup (fst x)).
Proof.
  intros RL. revert x. induction l as [|q l IH]; intros x H; cbn [passes map] in H |- *; [now subst|].
  destruct H as (z & H1 & H2). destruct (RL _ _ _ H1) as (A1 & A2 & A3). destruct (IH z H2) as (B1 & B2 & B3).
  repeat split; try congruence. intros N. rewrite B3, A3 by (intros I; apply N; now right).
  replace (fst q =? 29) with false; [apply orb_false_r|]. symmetry. apply Z.eqb_neq. intros Q. apply N. now left.
Qed.
Lemma layer_records f32op d fuel vmode props p t ly k : good_props vmode props -> holds s p (records props ++ t) -> t <> [] ->
  (Z.to_nat (zlen (sFile s)) < fuel)%nat -> exists x, passes lstep (ly, []) props x /\
    whileM (length props + k) (lprop_body fuel s f32op d) (ly, []) (mkR p None) = whileM k (lprop_body fuel s f32op d) x (mkR (p + zlen (records props)) None).
Proof.
  intros G H T Fu. apply (runs_records (lprop_body fuel s f32op d) (fun q => lpayload (negb (vmode <? 2)) (fst q) (snd q) /\ (fst q = 5 -> vmode < 2)) lstep) with (t := t); auto.
  intros x y q u [P C] Hq Tu. apply (lprop_framed s Hlen f32op d fuel x y _ _ u (negb (vmode <? 2))); auto.
  - intros Q. specialize (C Q). lia.
  - pose proof (holds_range _ _ _ Hq) as HR. rewrite zlen_app, zlen_property in HR. pose proof (zlen_pos u). pose proof (zlen_pos (snd q)). lia.
Qed.
Lemma channel_records props p t k : Forall (fun q => cpayload (fst q) (snd q)) props -> holds s p (records props ++ t) -> t <> [] ->
  whileM (length props + k) (chan_body s) tt (mkR p None) = whileM k (chan_body s) tt (mkR (p + zlen (records props)) None).
Proof.
  intros F H T.
  destruct (runs_records (chan_body s) (fun q => cpayload (fst q) (snd q)) (fun _ _ _ => True)) with (l := props) (k := k) (x := tt) (p := p) (t := t) as ([] & _ & R); auto.
  intros x y q u P Hq Tu. exists tt. split; [|exact I]. now apply (chan_framed s Hlen x y q u).
Qed.
Lemma bad_chan x p typ n l t r st : bad_channel_property typ n l -> is_word n -> holds s p (record typ n l ++ t) ->
  chan_body s x (mkR p None) = Ret (r, st) -> rErr st <> None.
Proof.
  intros B W H E. unfold chan_body in E.
  assert (WT : is_word typ) by (inversion B; subst; unfold is_word; lia).
  match type of E with (typ <- rd32 s;; pl <- rd32 s;; @?k typ pl) _ = _ => pose proof (runs_record k p typ n l t WT W H) as [E1 HB] end.
  rewrite E1 in E. clear E1 H. cbv beta in E. inversion B; subst; cbv iota in E.
  - replace (n =? 0) with false in E by lia. cbn in E. injection E as _ <-. cbn. discriminate.
  - hs HB. rewrite (bind_ret _ _ _ _ _ (runs_word s _ _ G H)) in E. replace (255 <? o) with true in E by lia. cbn in E. injection E as _ <-. cbn. discriminate.
Qed.
Lemma while_end {S U} (body : S -> M (S + U)) k x p a q : runs (body x) p (inr a) q -> whileM (Datatypes.S k) body x (mkR p None) = Ret (a, mkR q None).
Proof. intros R. cbn [whileM]. rewrite (bind_ret _ _ _ _ _ R). reflexivity. Qed.
Lemma chan_end x p : holds s p (record 0 0 []) -> runs (chan_body s x) p (inr tt) (p + 8).
Proof.
  intros H. unfold chan_body. pose proof (runs_record (fun typ pl => match typ with
  | 0 => (if pl =? 0 then skipM else setErrM EInvalidProperties);;; retM (inr tt)
  | 6 => o <- rd32 s;; (if 255 <? o then setErrM EInvalidOpacity else skipM);;; retM (inl tt)
  | _ => skM pl;;; retM (inl tt)
  end) p 0 0 [] [] ltac:(unfold is_word; lia) ltac:(unfold is_word; lia)) as R. rewrite app_nil_r in R. destruct (R H) as [E _]. exact E.
Qed.

(** a mask *)
Lemma bad_mask_refused fuel d l p a st' : 0 <= p -> bad_mask (sFile s) (dpMode d) (dx (dlBounds l)) (dy (dlBounds l)) p -> (Z.to_nat (2 * zlen (sFile s)) < fuel)%nat ->
  readMask fuel s d l (mkR p None) = Ret (a, st') -> rErr st' = None -> False.
Proof.
  intros P0 B Fu H N. unfold readMask in H. apply bindM_inv in H. destruct H as (m & st1 & E & H).
  assert (N1 : rErr st1 = None).
  { eapply none_before; [|exact H|exact N]. destruct m as [m|]; [|apply k_ret]. apply k_if; [apply k_bind; [apply k_setErr|intros; apply k_ret]|apply k_ret]. }
  assert (GO : forall w' h' name props t, is_word w' -> is_word h' -> Forall (fun q => cpayload (fst q) (snd q)) props -> t <> [] ->
    holds s p (word w' ++ word h' ++ text name ++ records props ++ t) ->
    exists k q, holds s q t /\
      bindM (fun _ => whileM (Datatypes.S k) (chan_body s) tt (mkR q None)) (fun _ =>
        hp <- rdPtr s (dpMode d);; gotoM hp;;;
        im <- readImage fuel s d w' h' 2;;
        match im with
        | RNil => retM None
        | RDec _ _ _ px => retM (Some (mkGray (mkRect 0 0 w' h') (fun x y => if pin x y (mkRect 0 0 w' h') then bget (px x y) 0 else 0)))
        | RComp _ _ _ _ => panicM PAssert
        end) (mkR p None) = Ret (m, st1)).
  { intros w' h' name props t W1 W2 F T Hh. pose proof (holds_range _ _ _ Hh) as HR. rewrite !zlen_app in HR. pose proof (zlen_records_le props).
    pose proof (zlen_pos t). pose proof (zlen_pos (text name)). pose proof (zlen_pos (word w')). pose proof (zlen_pos (word h')).
    assert (FK : exists k, fuel = (length props + Datatypes.S k)%nat) by (exists (fuel - length props - 1)%nat; lia). destruct FK as [k FK].
    hs Hh. hs Hh. apply holds_split in Hh as [G1 Hh]. pose proof Hh as Hr. apply holds_split in Hr as [_ Hr].
    exists k, (p + 4 + 4 + zlen (text name) + zlen (records props)). split; [exact Hr|].
    rewrite <- E. unfold readChannel. symmetry.
    rewrite (bind_ret _ _ _ _ _ (runs_word s _ _ G W1)), (bind_ret _ _ _ _ _ (runs_word s _ _ G0 W2)), (bind_ret _ _ _ _ _ (runs_sktext s Hlen _ _ G1)).
    rewrite chan_body_eq. unfold bindM at 1. unfold bindM at 5.
    assert (FE : whileM fuel (chan_body s) tt = whileM (length props + Datatypes.S k) (chan_body s) tt) by congruence. rewrite FE.
    rewrite (channel_records props _ t (Datatypes.S k) F Hh T). reflexivity. }
  destruct B.
  - destruct (GO w' h' name props (record 0 0 [] ++ pointer (dpMode d) hp)) as (k & q & Hq & EQ); auto; [unfold record, word; discriminate|].
    apply bindM_inv in EQ. destruct EQ as (u & st2 & E1 & EQ). apply holds_split in Hq as [Hq Hq2].
    rewrite (while_end _ _ _ _ _ _ (chan_end tt q Hq)) in E1. injection E1 as <- <-.
    apply bindM_inv in EQ. destruct EQ as (hp' & st3 & _ & EQ). apply bindM_inv in EQ. destruct EQ as (u & st4 & _ & EQ).
    apply bindM_inv in EQ. destruct EQ as (im & st5 & EI & EQ).
    destruct im as [|mode ww hh px|]; [|injection EQ as <- <-|discriminate].
    + injection EQ as <- <-. exact (readImage_nil s fuel d w' h' 2 st4 st5 EI ltac:(lia) N1).
    + cbn [grayBounds] in H. destruct (rEq (dlBounds l) (mkRect 0 0 w' h')) eqn:Q; cbn [negb] in H.
      * unfold rEq, rect_eqb, rempty in Q. unfold dx, dy in *. cbn [minX minY maxX maxY] in Q.
        match goal with X : _ <> _ |- _ => apply X end. f_equal; lia.
      * apply bindM_inv in H. destruct H as (u' & st6 & EE & H). injection EE as _ <-. injection H as _ <-. eapply P_Paths.setError_err; eauto.
  - destruct (GO w' h' name props (record typ n l0)) as (k & q & Hq & EQ); auto; [unfold record, word; discriminate|].
    apply bindM_inv in EQ. destruct EQ as (u & st2 & E1 & EQ).
    assert (N2 : rErr st2 = None).
    { eapply none_before; [|exact EQ|exact N1]. apply k_bind; [apply k_rdPtr|intros]. apply k_bind; [apply k_gotoM|intros]. apply k_bind; [apply k_readImage|intros im].
      destruct im; [apply k_ret|apply k_ret|apply k_panic]. }
    cbn [whileM] in E1. apply bindM_inv in E1. destruct E1 as (r & st3 & E1 & E2).
    pose proof (bad_chan tt q typ n l0 [] r st3) as BC. rewrite app_nil_r in BC. specialize (BC ltac:(assumption) ltac:(assumption) Hq E1).
    destruct r as [[]|r]; [|injection E2 as _ <-; auto]. revert N2. eapply k_while_err; [|exact BC|exact E2].
    intros []. unfold chan_body. apply k_bind; [apply k_rd32|intros ty]. apply k_bind; [apply k_rd32|intros pl].
    repeat match goal with |- keeps (match ?x with _ => _ end) => destruct x end;
      repeat first [apply k_bind; [|intros]|apply k_rd32|apply k_skM|apply k_ret|apply k_if|apply k_setErr].
  - destruct (GO w' h' name props (record 0 0 [] ++ pointer (dpMode d) hp)) as (k & q & Hq & EQ); auto; [unfold record, word; discriminate|].
    apply bindM_inv in EQ. destruct EQ as (u & st2 & E1 & EQ). apply holds_split in Hq as [Hq Hq2].
    rewrite (while_end _ _ _ _ _ _ (chan_end tt q Hq)) in E1. injection E1 as <- <-. change (zlen (record 0 0 [])) with 8 in Hq2.
    rewrite (bind_ret _ _ _ _ _ (runs_ptr (dpMode d) _ hp Hq2 ltac:(lia))) in EQ.
    apply bindM_inv in EQ. destruct EQ as (u & st4 & EG & EQ). unfold gotoM, actM in EG. rewrite goto_small in EG by lia. injection EG as _ <-. cbn [rErr] in EQ.
    apply bindM_inv in EQ. destruct EQ as (im & st5 & EI & EQ).
    assert (N5 : rErr st5 = None) by (destruct im; [injection EQ as _ <-; exact N1|injection EQ as _ <-; exact N1|discriminate]).
    match goal with X : ~ pixels_ok _ _ _ _ _ _ |- _ => apply X end. eapply (readImage_pixels s Hlen Hbytes); [| | |exact EI|exact N5]; auto; lia.
Qed.

Lemma lprop_end0 f32op d fuel x p : holds s p (record 0 0 []) -> runs (lprop_body fuel s f32op d x) p (inr x) (p + 8).
Proof. exact (lprop_end s Hlen f32op d fuel x p). Qed.
Lemma k_mask fuel d l : keeps (readMask fuel s d l).
Proof.
  unfold readMask. apply k_bind; [apply k_channel|intros m]. destruct m; [|apply k_ret]. apply k_if; [apply k_bind; [apply k_setErr|intros; apply k_ret]|apply k_ret].
Qed.
Lemma k_finish fuel ptext d l ps mp : keeps (finishLayer fuel s ptext d l ps mp).
Proof.
  unfold finishLayer.
  assert (K : forall l, keeps (if negb (mp =? 0) then gotoM mp;;; readMask fuel s d l else retM l)).
  { intros. apply k_if; [|apply k_ret]. apply k_bind; [apply k_gotoM|intros; apply k_mask]. }
  destruct (par_get ps textParasiteName) as [tp|]; [|apply K]. destruct (ptext (parData tp)); [apply K| | |].
  - apply k_bind; [apply k_setErr|intros; apply k_ret].
  - intros ? ? ? ? ? [=].
  - intros ? ? ? ? ? [=].
Qed.
Lemma bad_finish fuel ptext d l ps mp st a st' : 0 < mp < 9223372036854775808 ->
  bad_mask (sFile s) (dpMode d) (dx (dlBounds l)) (dy (dlBounds l)) mp -> (Z.to_nat (2 * zlen (sFile s)) < fuel)%nat ->
  finishLayer fuel s ptext d l ps mp st = Ret (a, st') -> rErr st' = None -> False.
Proof.
  intros M B Fu H N. unfold finishLayer in H. replace (negb (mp =? 0)) with true in H by lia.
  assert (GO : forall l', dlBounds l' = dlBounds l -> forall st, (gotoM mp;;; readMask fuel s d l') st = Ret (a, st') -> False).
  { intros l' E y Q. apply bindM_inv in Q. destruct Q as (u & st4 & EG & Q). unfold gotoM, actM in EG. rewrite goto_small in EG by lia. injection EG as _ <-.
    assert (N4 : rErr y = None).
    { exact (none_before _ (mkR mp (rErr y)) _ _ (k_mask _ _ _) Q N). }
    rewrite N4 in Q. refine (bad_mask_refused fuel d l' mp a st' ltac:(lia) _ Fu Q N). rewrite E. exact B. }
  destruct (par_get ps textParasiteName) as [tp|]; [|exact (GO l eq_refl _ H)].
  destruct (ptext (parData tp)) as [td| | |]; try discriminate.
  - refine (GO _ _ _ H). reflexivity.
  - apply bindM_inv in H. destruct H as (u & st1 & E1 & H). injection E1 as _ <-. injection H as _ <-. eapply P_Paths.setError_err; eauto.
Qed.
Lemma bad_layer_refused fuel f32op ptext d p a st' : 0 <= p -> bad_layer (sFile s) (dpMode d) (dpBase d) p -> (Z.to_nat (2 * zlen (sFile s)) < fuel)%nat ->
  readLayer fuel s f32op ptext d (mkR p None) = Ret (a, st') -> rErr st' = None -> False.
Proof.
  intros P0 B Fu H N. unfold readLayer in H.
  assert (WH : forall w h typ t, is_word w -> is_word h -> is_word typ -> holds s p (word w ++ word h ++ word typ ++ t) ->
    (let l := mkDL [] (mkRect 0 0 w h) MNormal false 0 None false false [] in
     if negb (typ / 2 =? dpBase d) then setErrM EInvalidLayerType;;; retM l else
     name <- rdStr s;;
     '(l, ps) <- readProperties fuel s f32op d (mkDL name (mkRect 0 0 w h) MNormal false 0 None (typ mod 2 =? 1) false []);;
     hptr <- rdPtr s (dpMode d);;
     mptr <- rdPtr s (dpMode d);;
     gotoM hptr;;;
     if dlGroup l then finishLayer fuel s ptext d l ps mptr
     else
       im <- readImage fuel s d (u32 (dx (dlBounds l))) (u32 (dy (dlBounds l))) typ;;
       match pic_of (dpPal d) im with
       | None => retM l
       | Some p => finishLayer fuel s ptext d (dl_image l (Some (ILeaf p))) ps mptr
       end) (mkR (p + 12) None) = Ret (a, st') /\ holds s (p + 12) t).
  { intros w h typ t W1 W2 W3 Hh. hs Hh. hs Hh. hs Hh. replace (p + 12) with (p + 4 + 4 + 4) by lia. split; [|exact Hh].
    rewrite (bind_ret _ _ _ _ _ (runs_word s _ _ G W1)), (bind_ret _ _ _ _ _ (runs_word s _ _ G0 W2)), (bind_ret _ _ _ _ _ (runs_word s _ _ G1 W3)) in H. exact H. }
  clear H.
  assert (GO : forall w h typ name props t, is_word w -> is_word h -> is_word typ -> utf8 name -> good_props (dpMode d) props -> t <> [] ->
    holds s p (word w ++ word h ++ word typ ++ text name ++ records props ++ t) ->
    exists k q x, passes lstep (mkDL name (mkRect 0 0 w h) MNormal false 0 None (typ mod 2 =? 1) false [], []) props x /\ holds s q t /\
      bindM (fun _ => whileM (Datatypes.S k) (lprop_body fuel s f32op d) x (mkR q None)) (fun '(l, ps) =>
        hptr <- rdPtr s (dpMode d);;
        mptr <- rdPtr s (dpMode d);;
        gotoM hptr;;;
        if dlGroup l then finishLayer fuel s ptext d l ps mptr
        else
          im <- readImage fuel s d (u32 (dx (dlBounds l))) (u32 (dy (dlBounds l))) typ;;
          match pic_of (dpPal d) im with
          | None => retM l
          | Some p => finishLayer fuel s ptext d (dl_image l (Some (ILeaf p))) ps mptr
          end) (mkR p None) = Ret (a, st')).
  { intros w h typ name props t W1 W2 W3 U F T Hh. pose proof (holds_range _ _ _ Hh) as HR. rewrite !zlen_app in HR. pose proof (zlen_records_le props).
    pose proof (zlen_pos t). pose proof (zlen_pos (text name)). pose proof (zlen_pos (word w)). pose proof (zlen_pos (word h)). pose proof (zlen_pos (word typ)).
    assert (FK : exists k, fuel = (length props + Datatypes.S k)%nat) by (exists (fuel - length props - 1)%nat; lia). destruct FK as [k FK].
    destruct (WH w h typ _ W1 W2 W3 Hh) as [E Hn]. cbv zeta in E.
    destruct (negb (typ / 2 =? dpBase d)).
    { exfalso. apply bindM_inv in E. destruct E as (u & st1 & E1 & E). injection E1 as _ <-. injection E as _ <-. eapply P_Paths.setError_err; eauto. }
    apply holds_split in Hn as [G1 Hn]. rewrite (bind_ret _ _ _ _ _ (runs_text s Hlen _ _ G1 U)) in E.
    destruct (layer_records f32op d fuel (dpMode d) props _ t (mkDL name (mkRect 0 0 w h) MNormal false 0 None (typ mod 2 =? 1) false []) (Datatypes.S k) F Hn T ltac:(lia)) as (x & Px & EW).
    pose proof Hn as Hr. apply holds_split in Hr as [_ Hr].
    exists k, (p + 12 + zlen (text name) + zlen (records props)), x. split; [exact Px|]. split; [exact Hr|].
    rewrite <- E. unfold bindM at 1. unfold bindM at 5. unfold readProperties.
    assert (FE : forall x, whileM fuel (lprop_body fuel s f32op d) x = whileM (length props + Datatypes.S k) (lprop_body fuel s f32op d) x) by congruence.
    rewrite FE, EW. reflexivity. }
  destruct B.
  - destruct (WH w h typ []) as [E _]; [assumption|assumption|assumption|rewrite app_nil_r; assumption|]. cbv zeta in E. replace (negb (typ / 2 =? dpBase d)) with true in E by lia.
    apply bindM_inv in E. destruct E as (u & st1 & E1 & E). injection E1 as _ <-. injection E as _ <-. eapply P_Paths.setError_err; eauto.
  - destruct (GO w h typ name props (record t n l)) as (k & q & x & Px & Hq & EQ); [assumption|assumption|assumption|assumption|assumption|unfold record, word; discriminate|assumption|].
    apply bindM_inv in EQ. destruct EQ as ([l1 ps1] & st2 & E1 & EQ).
    assert (N2 : rErr st2 = None).
    { eapply none_before; [|exact EQ|exact N]. apply k_bind; [apply k_rdPtr|intros]. apply k_bind; [apply k_rdPtr|intros]. apply k_bind; [apply k_gotoM|intros].
      assert (KF : forall l m, keeps (finishLayer fuel s ptext d l ps1 m)) by (intros; apply k_finish).
      apply k_if; [apply KF|]. apply k_bind; [apply k_readImage|intros im]. destruct (pic_of (dpPal d) im); [apply KF|apply k_ret]. }
    cbn [whileM] in E1. apply bindM_inv in E1. destruct E1 as (r & st3 & E1 & E2).
    pose proof (bad_lprop f32op d fuel x q t n l [] r st3) as BC. rewrite app_nil_r in BC. specialize (BC ltac:(assumption) ltac:(assumption) Hq E1).
    destruct r as [x2|r]; [|injection E2 as _ <-; auto]. revert N2. eapply k_while_err; [|exact BC|exact E2]. intros. apply k_lprop.
  - destruct (GO w h typ name props (record 0 0 [] ++ pointer (dpMode d) hp ++ pointer (dpMode d) mp)) as (k & q & x & Px & Hq & EQ); [assumption|assumption|assumption|assumption|assumption|unfold record, word; discriminate|assumption|].
    apply bindM_inv in EQ. destruct EQ as ([l1 ps1] & st2 & E1 & EQ). apply holds_split in Hq as [Hq Hq2].
    rewrite (while_end _ _ _ _ _ _ (lprop_end0 f32op d fuel x q Hq)) in E1. injection E1 as -> <-. change (zlen (record 0 0 [])) with 8 in Hq2.
    apply holds_split in Hq2 as [Hq2 _].
    rewrite (bind_ret _ _ _ _ _ (runs_ptr (dpMode d) _ hp Hq2 ltac:(lia))) in EQ.
    apply bindM_inv in EQ. destruct EQ as (mp' & st3 & _ & EQ). apply bindM_inv in EQ. destruct EQ as (u & st4 & EG & EQ).
    unfold gotoM, actM in EG. rewrite goto_small in EG by lia. injection EG as _ <-.
    destruct (passes_step lstep _ _ _ (fun _ _ _ Z => Z) Px) as (D1 & D2 & D3). cbn [fst dlBounds dlGroup] in D1, D2, D3.
    rewrite (D3 ltac:(assumption)) in EQ. unfold dx, dy in D1, D2. cbn [minX minY maxX maxY] in D1, D2. rewrite !Z.sub_0_r in D1, D2.
    apply bindM_inv in EQ. destruct EQ as (im & st5 & EI & EQ).
    assert (N5 : rErr st5 = None).
    { eapply none_before; [|exact EQ|exact N]. destruct (pic_of (dpPal d) im); [apply k_finish|apply k_ret]. }
    assert (N3 : rErr st3 = None) by (apply (none_before _ (mkR hp (rErr st3)) _ _ (k_readImage _ _ _ _ _ _) EI N5)). rewrite N3 in EI.
    unfold dx, dy in EI. rewrite D1, D2, !u32_id in EI by assumption.
    match goal with X : ~ pixels_ok _ _ _ _ _ _ |- _ => apply X end. eapply (readImage_pixels s Hlen Hbytes); [| | |exact EI|exact N5]; auto; lia.
  - destruct (GO w h typ name props (record 0 0 [] ++ pointer (dpMode d) hp ++ pointer (dpMode d) mp)) as (k & q & x & Px & Hq & EQ); [assumption|assumption|assumption|assumption|assumption|unfold record, word; discriminate|assumption|].
    apply bindM_inv in EQ. destruct EQ as ([l1 ps1] & st2 & E1 & EQ). apply holds_split in Hq as [Hq Hq2].
    rewrite (while_end _ _ _ _ _ _ (lprop_end0 f32op d fuel x q Hq)) in E1. injection E1 as -> <-. change (zlen (record 0 0 [])) with 8 in Hq2.
    apply holds_split in Hq2 as [Hq2 Hq3]. rewrite zlen_pointer in Hq3.
    rewrite (bind_ret _ _ _ _ _ (runs_ptr (dpMode d) _ hp Hq2 ltac:(lia))) in EQ.
    rewrite (bind_ret _ _ _ _ _ (runs_ptr (dpMode d) _ mp Hq3 ltac:(lia))) in EQ.
    apply bindM_inv in EQ. destruct EQ as (u & st4 & EG & EQ).
    destruct (passes_step lstep _ _ _ (fun _ _ _ Z => Z) Px) as (D1 & D2 & _). cbn [fst dlBounds dlGroup] in D1, D2.
    unfold dx in D1. unfold dy in D2. cbn [minX minY maxX maxY] in D1, D2. rewrite !Z.sub_0_r in D1, D2.
    destruct (dlGroup l1).
    + eapply bad_finish; [| |exact Fu|exact EQ|exact N]; [assumption|]. unfold dx, dy. rewrite D1, D2. assumption.
    + apply bindM_inv in EQ. destruct EQ as (im & st5 & EI & EQ).
      destruct (pic_of (dpPal d) im) as [pc|] eqn:PC.
      * eapply bad_finish; [| |exact Fu|exact EQ|exact N]; [assumption|]. unfold dx, dy. cbn [dl_image dlBounds]. rewrite D1, D2. assumption.
      * injection EQ as _ <-. destruct im; [|discriminate|discriminate]. eapply readImage_nil; eauto.
Qed.
End Start.

(** ** C66 at the level of Decode and DecodeCompressed *)
Lemma newReader_small f : zlen f < 16777216 -> sFile (newReader f) = f.
Proof. intros L. unfold newReader, maxString. replace (zlen f <? 16777216) with true by lia. reflexivity. Qed.
Lemma big_fuel n (z : Z) : exists k, (n <= k)%nat /\ (Z.to_nat z < k)%nat.
Proof. exists (n + Z.to_nat z + 1)%nat. lia. Qed.
Theorem C66_image f n w h base prec props typ k l t fuel f32op ptext dec ls :
  Forall is_u8 f -> zlen f < 16777216 -> 0 <= n <= 13 -> is_word w -> is_word h -> is_word base -> is_word prec ->
  f = image_start n w h base prec ++ records props ++ record typ k l ++ t ->
  Forall (framed_image base) props -> is_word k -> bad_property typ k l ->
  decodeImage fuel f f32op ptext dec <> Ret (inr ls).
Proof.
  intros Hb L N W1 W2 W3 W4 E F Wk B D. destruct (big_fuel fuel (2 * zlen f)) as (K & K1 & K2).
  destruct (le_decodeImage fuel K f f32op ptext dec K1) as [Q|Q]; rewrite D in Q; [discriminate|]. symmetry in Q. unfold decodeImage in Q.
  pose proof (newReader_small f L) as SF. set (s := newReader f) in *.
  assert (HL : zlen (sFile s) <= 16777216) by (rewrite SF; lia). assert (HB : Forall is_u8 (sFile s)) by (rewrite SF; exact Hb).
  assert (H : holds s 0 (image_start n w h base prec ++ records props ++ record typ k l ++ t)).
  { exists [], []. rewrite SF. cbn [app]. rewrite app_nil_r. auto. }
  rewrite (runs_start s K f32op ptext dec n w h base prec _ N W1 W2 W3 W4 H) in Q.
  apply holds_split in H as [_ H]. cbn [Z.add] in H.
  pose proof (bad_imgprops s HL base K props _ typ k l t F B Wk H ltac:(rewrite SF; lia)) as R.
  destruct (readImageProperties _ _ _ _) as [[[e|[pal comp]] st]| |]; [discriminate| |discriminate|discriminate].
  destruct (readLayerPointers K s (pointer_kind n) st) as [[lp st6]| |] eqn:LP; [|discriminate|discriminate].
  destruct (rErr st) as [e|] eqn:RE; [|easy]. rewrite (k_pointers K s (pointer_kind n) st e lp st6 RE LP) in Q. discriminate.
Qed.
Print Assumptions C66_image.
Theorem C66_layer f n w h base prec props ps p t fuel f32op ptext dec ls :
  Forall is_u8 f -> zlen f < 16777216 -> 0 <= n <= 13 -> is_word w -> is_word h -> is_word base -> is_word prec ->
  f = image_start n w h base prec ++ props_bytes props ++ flat_map (pointer (pointer_kind n)) ps ++ pointer (pointer_kind n) 0 ++ t ->
  Forall (framed_image base) props -> Forall (fun z => 0 < z < 9223372036854775808) ps ->
  In p ps -> bad_layer f (pointer_kind n) base p ->
  decodeImage fuel f f32op ptext dec <> Ret (inr ls).
Proof.
  intros Hb L N W1 W2 W3 W4 E F Fp Ip B D. destruct (big_fuel fuel (2 * zlen f)) as (K & K1 & K2).
  destruct (le_decodeImage fuel K f f32op ptext dec K1) as [Q|Q]; rewrite D in Q; [discriminate|]. symmetry in Q. unfold decodeImage in Q.
  pose proof (newReader_small f L) as SF. set (s := newReader f) in *.
  assert (HL : zlen (sFile s) <= 16777216) by (rewrite SF; lia). assert (HB : Forall is_u8 (sFile s)) by (rewrite SF; exact Hb).
  assert (H : holds s 0 (image_start n w h base prec ++ props_bytes props ++ flat_map (pointer (pointer_kind n)) ps ++ pointer (pointer_kind n) 0 ++ t)).
  { exists [], []. rewrite SF. cbn [app]. rewrite app_nil_r. auto. }
  rewrite (runs_start s K f32op ptext dec n w h base prec _ N W1 W2 W3 W4 H) in Q.
  assert (ZF : zlen f = zlen (image_start n w h base prec) + (zlen (props_bytes props) + (zlen (flat_map (pointer (pointer_kind n)) ps) + (zlen (pointer (pointer_kind n) 0) + zlen t)))).
  { rewrite E at 1. now rewrite !zlen_app. }
  pose proof (zlen_pos (image_start n w h base prec)). pose proof (zlen_pos (flat_map (pointer (pointer_kind n)) ps)). pose proof (zlen_pos (pointer (pointer_kind n) 0)). pose proof (zlen_pos t).
  pose proof (zlen_pos (props_bytes props)).
  destruct (C45_list_partial s (image_start n w h base prec) props (flat_map (pointer (pointer_kind n)) ps ++ pointer (pointer_kind n) 0 ++ t) base K) as ([pal comp] & RP); auto.
  { rewrite SF. exact E. }
  { lia. }
  rewrite RP in Q. apply holds_split in H as [_ H]. rewrite Z.add_0_l in H. apply holds_split in H as [_ H].
  assert (LP : (length ps < K)%nat).
  { enough (Z.of_nat (length ps) <= zlen (flat_map (pointer (pointer_kind n)) ps)) by lia. clear.
    induction ps as [|a ps IH]; cbn [length flat_map]; [change (zlen (@nil Z)) with 0; lia|]. rewrite zlen_app, zlen_pointer. unfold pwidth. destruct (_ <? 2); lia. }
  unfold readLayerPointers in Q. rewrite (runs_pointers s HL HB (pointer_kind n) K ps [] _ t LP Fp H) in Q. cbn [rErr app] in Q.
  destruct (mapO _ ps) as [les| |] eqn:ML; [|discriminate|discriminate].
  destruct (mapO_in _ _ _ _ ML Ip) as ([ly oe] & RL & IL). cbn in Q.
  destruct (first_err les) as [e|] eqn:FE; [discriminate|]. pose proof (first_err_none _ _ FE IL) as SE. cbn [snd] in SE. subst oe.
  unfold readLayerAt in RL. rewrite Forall_forall in Fp. specialize (Fp p Ip). cbv beta in Fp.
  destruct ((gotoM p;;; readLayer K s f32op ptext (mkDP comp dec base pal (pointer_kind n))) (mkR 0 None)) as [[l2 st2]| |] eqn:ER; [|discriminate|discriminate].
  injection RL as -> RE. apply bindM_inv in ER. destruct ER as (u & st1 & EG & ER). unfold gotoM, actM in EG. rewrite goto_small in EG by lia. injection EG as _ <-.
  eapply (bad_layer_refused s HL HB K f32op ptext (mkDP comp dec base pal (pointer_kind n)) p); [lia| |rewrite SF; lia|exact ER|exact RE].
  cbn [dpMode dpBase]. rewrite SF. exact B.
Qed.
Print Assumptions C66_layer.

(** *** a guide property of 7 bytes, a layer with one byte for each RGB pixel, a mask of another size *)
Definition no_text : list Z -> tres := fun _ => TErr.
Definition guides7 : list Z := image_start 0 1 1 0 0 ++ records [(17, [1])] ++ record 18 7 [] ++ [0; 0; 0; 9; 1; 0; 0].
Definition one_layer (typ bpp mp : Z) (rest : list Z) : list Z :=
  image_start 4 1 1 0 150 ++ props_bytes [(17, [1])] ++ pointer 1 55 ++ pointer 1 0 ++ 
  (word 1 ++ word 1 ++ word typ ++ text [97] ++ records [(6, word 255)] ++ record 0 0 [] ++ pointer 1 101 ++ pointer 1 mp) ++
  word 1 ++ word 1 ++ word bpp ++ pointer 1 117 ++ word 1 ++ word 1 ++ pointer 1 133 ++ word 0 ++ [0; 10; 0; 20; 0; 30] ++ rest.
Definition wide_mask : list Z := word 2 ++ word 1 ++ text [97] ++ records [] ++ record 0 0 [] ++ pointer 1 101.
Lemma u8_list l : forallb (fun z => (0 <=? z) && (z <? 256)) l = true -> Forall is_u8 l.
Proof. intros F. apply Forall_forall. intros z I. rewrite forallb_forall in F. specialize (F z I). unfold is_u8. lia. Qed.
Lemma has_nth f p l k : has f p l -> (k < length l)%nat -> nth (Z.to_nat p + k) f 0 = nth k l 0.
Proof.
  intros (a & b & -> & <-) K. unfold zlen. rewrite Nat2Z.id, app_nth2_plus. now apply app_nth1.
Qed.
Lemma a_utf8 : utf8 [97].
Proof. exists [97]. split; [|reflexivity]. repeat constructor; unfold scalar_value; lia. Qed.
Lemma framed17 : Forall (framed_image 0) [(17, [1])].
Proof. repeat apply Forall_cons; try apply Forall_nil. repeat split; cbn; try lia. constructor; lia. Qed.
Lemma good6 : good_props 1 [(6, word 255)].
Proof. repeat apply Forall_cons; try apply Forall_nil. split; cbn; [|lia]. apply lp_opacity. lia. Qed.
Example C66_image_ex : Forall is_u8 guides7 /\
  (forall fuel f32op ptext dec ls, decodeImage fuel guides7 f32op ptext dec <> Ret (inr ls)) /\
  (exists ls, decodeImage 1000 (image_start 0 1 1 0 0 ++ props_bytes [(17, [1])] ++ word 0) (fun x => x) no_text true = Ret (inr ls)).
Proof.
  assert (B : Forall is_u8 guides7) by (apply u8_list; reflexivity).
  split; [exact B|]. split; [|eexists; vm_compute; reflexivity]. intros.
  apply (C66_image guides7 0 1 1 0 0 [(17, [1])] 18 7 [] [0; 0; 0; 9; 1; 0; 0]);
    [exact B|reflexivity|lia|unfold is_word; lia|unfold is_word; lia|unfold is_word; lia|unfold is_word; lia|reflexivity|exact framed17|unfold is_word; lia|apply bad_guides; discriminate].
Qed.
Example C66_layer_ex :
  (forall fuel f32op ptext dec ls, decodeImage fuel (one_layer 0 1 0 []) f32op ptext dec <> Ret (inr ls)) /\
  (forall fuel f32op ptext dec ls, decodeImage fuel (one_layer 0 3 139 wide_mask) f32op ptext dec <> Ret (inr ls)) /\
  (exists ls, decodeImage 1000 (one_layer 0 3 0 []) (fun x => x) no_text true = Ret (inr ls)).
Proof.
  split; [|split; [|eexists; vm_compute; reflexivity]]; intros.
  - eapply (C66_layer _ 4 1 1 0 150 [(17, [1])] [55] 55);
      [apply u8_list; reflexivity|reflexivity|lia|unfold is_word; lia|unfold is_word; lia|unfold is_word; lia|unfold is_word; lia|reflexivity|exact framed17|repeat constructor|now left|].
    apply (bl_pixels _ _ _ _ 1 1 0 [97] [(6, word 255)] 101 0); try (unfold is_word; lia); [exact a_utf8|exact good6|cbn; lia| |].
    + exists (firstn 55 (one_layer 0 1 0 [])), (skipn 101 (one_layer 0 1 0 [])). split; reflexivity.
    + intros (bpp & q & tiles & H & T & _). rewrite (T ltac:(lia)) in H. pose proof (has_nth _ _ _ 11 H ltac:(vm_compute; lia)) as N. vm_compute in N. discriminate.
  - eapply (C66_layer _ 4 1 1 0 150 [(17, [1])] [55] 55);
      [apply u8_list; reflexivity|reflexivity|lia|unfold is_word; lia|unfold is_word; lia|unfold is_word; lia|unfold is_word; lia|reflexivity|exact framed17|repeat constructor|now left|].
    apply (bl_mask _ _ _ _ 1 1 0 [97] [(6, word 255)] 101 139); try (unfold is_word; lia); [exact a_utf8|exact good6| |].
    + exists (firstn 55 (one_layer 0 3 139 wide_mask)), (skipn 101 (one_layer 0 3 139 wide_mask)). split; reflexivity.
    + apply (bm_size _ _ _ _ _ 2 1 [97] [] 101); try (unfold is_word; lia); [discriminate|constructor|].
      exists (firstn 139 (one_layer 0 3 139 wide_mask)), []. split; reflexivity.
Qed.
