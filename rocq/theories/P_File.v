(** C45 framing of image properties, C51 parasites. *)
Require Import Verif.Base Verif.L_List Verif.L_Word Verif.M_Reader Verif.L_Reader Verif.M_Rle Verif.M_Color Verif.M_Image Verif.M_Groups Verif.M_Monad Verif.M_Decode
  Verif.S_String Verif.S_File Verif.L_String Verif.L_Run Verif.L_File Verif.L_Wp Verif.L_Decode.
From Coq Require Import ZifyBool ZifyNat.

(** ** C45
    Full statement: for every property record the format allows, reading it leaves the
    decoder at the end of its payload.  False (C45_refuted) for guides, sample points,
    strokes with points and colour maps of images that are not indexed; true for the
    others. *)
Theorem C45_partial s pre typ l t base fuel st :
  sFile s = pre ++ property typ l ++ t -> t <> [] -> zlen (sFile s) <= 16777216 ->
  payload base typ l -> (typ = 1 -> base = 2) -> (typ = 18 \/ typ = 39 -> l = []) ->
  (typ = 25 -> exists a vs, l = vectors_bytes a vs /\ Forall vpath_ok vs /\ Forall pointless vs) ->
  (Z.to_nat (zlen l) < fuel)%nat ->
  exists st', imgprop_body fuel s base st (mkR (zlen pre) None) =
    Ret (inl st', mkR (zlen pre + zlen (property typ l)) None).
Proof.
  intros E T L P C1 C2 C3 F. apply (property_framed s L base fuel st (zlen pre) typ l t); auto.
  exists pre, []. rewrite app_nil_r. auto.
Qed.
Print Assumptions C45_partial.

Definition guide_bytes (g : Z * Z) : list Z := let '(pos, dir) := g in word pos ++ [dir].
Definition sample_bytes (q : Z * Z) : list Z := let '(x, y) := q in word x ++ word y.
Lemma zlen_guides gs : zlen (flat_map guide_bytes gs) = 5 * zlen gs.
Proof. induction gs as [|[a b] gs IH]; [reflexivity|]. cbn [flat_map]. rewrite zlen_app, IH, zlen_cons. change (zlen (guide_bytes (a, b))) with 5. lia. Qed.
Lemma zlen_samples gs : zlen (flat_map sample_bytes gs) = 8 * zlen gs.
Proof. induction gs as [|[a b] gs IH]; [reflexivity|]. cbn [flat_map]. rewrite zlen_app, IH, zlen_cons. change (zlen (sample_bytes (a, b))) with 8. lia. Qed.
Lemma runs_skips n : forall p, 0 <= p -> p + 8 * Z.of_nat n <= maxString * 4 + 8 -> exists l, runs (listM n (skM 4;;; skM 4)) p l (p + 8 * Z.of_nat n).
Proof.
  assert (SK : forall p, 0 <= p -> p <= maxString * 4 + 4 -> runs (skM 4) p tt (p + 4)).
  { intros p P Q. unfold runs, skM, actM, skip, s64, maxString in *. cbn [rPos rErr]. rewrite Z.mod_small by lia.
    replace (p + 4 <? 9223372036854775808) with true by lia. now replace (p + 4 <? 0) with false by lia. }
  induction n as [|n IH]; intros p P B.
  - exists []. eapply runs_q; [apply runs_list0|]. lia.
  - destruct (IH (p + 8)) as [l R]; [lia|lia|]. exists (tt :: l).
    eapply runs_list_step; [|eapply runs_q; [exact R|lia]].
    eapply runs_bind; [apply SK; unfold maxString in *; lia|]. eapply runs_q; [apply SK; unfold maxString in *; lia|]. lia.
Qed.
Lemma runs_header s pre typ pl t {A} (k : Z -> Z -> M A) a q : zlen (sFile s) <= 16777216 ->
  sFile s = pre ++ word typ ++ word pl ++ t -> is_word typ -> is_word pl ->
  runs (k typ pl) (zlen pre + 8) a q -> runs (typ <- rd32 s;; pl <- rd32 s;; k typ pl) (zlen pre) a q.
Proof.
  intros L E W1 W2 K.
  assert (H : holds s (zlen pre) (word typ ++ word pl)) by (exists pre, t; rewrite <- app_assoc; auto).
  apply holds_split in H. destruct H as [H1 H2]. rewrite zlen_word in H2.
  eapply runs_bind; [apply runs_word; eassumption|]. eapply runs_bind; [apply runs_word; eassumption|].
  replace (zlen pre + 4 + 4) with (zlen pre + 8) by lia. exact K.
Qed.

(** every nonempty list of guides or sample points is skipped with the wrong length; so is
    every stroke with points (three bytes short for each); a colour map in an image that is not indexed is followed by four more bytes; the length
    declared for, say, a tattoo does not matter *)
Theorem C45_refuted s pre t base fuel st : zlen (sFile s) <= 16777216 ->
  (forall gs, gs <> [] -> payload base 18 (flat_map guide_bytes gs) /\
     (sFile s = pre ++ property 18 (flat_map guide_bytes gs) ++ t ->
      imgprop_body fuel s base st (mkR (zlen pre) None) = Ret (inl st, mkR (zlen pre + 8 + 8 * zlen gs) None) /\
      8 + 8 * zlen gs <> zlen (property 18 (flat_map guide_bytes gs)))) /\
  (forall ps, ps <> [] -> payload base 39 (flat_map sample_bytes ps) /\
     (sFile s = pre ++ property 39 (flat_map sample_bytes ps) ++ t ->
      imgprop_body fuel s base st (mkR (zlen pre) None) = Ret (inl st, mkR (zlen pre + 8 + 32 * zlen ps) None) /\
      8 + 32 * zlen ps <> zlen (property 39 (flat_map sample_bytes ps)))) /\
  (forall cs, let l := word (zlen cs) ++ flat_map (fun c => let '(r, g, b) := c in [r; g; b]) cs in
     base <> 2 -> payload base 1 l /\
     (sFile s = pre ++ property 1 l ++ word 0 ++ t ->
      imgprop_body fuel s base st (mkR (zlen pre) None) =
        Ret (inl (Some [], snd st), mkR (zlen pre + zlen (property 1 l) + 4) None))) /\
  (forall a v k, stroke_ok k -> vpStrokes v = [k] -> payload base 25 (vectors_bytes a [v]) /\
     (sFile s = pre ++ property 25 (vectors_bytes a [v]) ++ t ->
      imgprop_body fuel s base st (mkR (zlen pre) None) =
        Ret (inl st, mkR (zlen pre + zlen (property 25 (vectors_bytes a [v])) - 3 * zlen (skPoints k)) None))) /\
  (forall l, 4 <= zlen l -> sFile s = pre ++ property 20 l ++ t ->
     imgprop_body fuel s base st (mkR (zlen pre) None) = Ret (inl st, mkR (zlen pre + 12) None)).
Proof.
  intros L. destruct st as [pal comp]. pose proof (zlen_pos pre) as Pp. pose proof (zlen_pos t) as Pt.
  split; [|split; [|split; [|split]]].
  - intros gs N. split; [apply (pl_guides base gs)|]. intros E.
    assert (G : 1 <= zlen gs) by (destruct gs; [congruence|rewrite zlen_cons; pose proof (zlen_pos gs); lia]).
    unfold property in *. rewrite <- !app_assoc in E. rewrite !zlen_app, !zlen_word in *. rewrite zlen_guides in *. split; [|lia].
    assert (B : zlen (sFile s) = zlen pre + 8 + 5 * zlen gs + zlen t) by (rewrite E, !zlen_app, !zlen_word, zlen_guides; lia).
    destruct (runs_skips (Z.to_nat (zlen gs)) (zlen pre + 8)) as [u U]; [lia|unfold maxString; lia|].
    refine (runs_header s pre 18 (5 * zlen gs) _ _ _ _ L E ltac:(unfold is_word; lia) ltac:(unfold is_word; lia) _).
    cbv beta iota zeta. replace (5 * zlen gs / 5) with (zlen gs) by (rewrite Z.mul_comm, Z.div_mul; lia).
    replace (negb (zlen gs * 5 =? 5 * zlen gs)) with false by lia.
    eapply runs_bind; [exact U|]. eapply runs_q; [apply runs_ret|]. lia.
  - intros gs N. split; [apply (pl_samples base gs)|]. intros E.
    assert (G : 1 <= zlen gs) by (destruct gs; [congruence|rewrite zlen_cons; pose proof (zlen_pos gs); lia]).
    unfold property in *. rewrite <- !app_assoc in E. rewrite !zlen_app, !zlen_word in *. rewrite zlen_samples in *. split; [|lia].
    assert (B : zlen (sFile s) = zlen pre + 8 + 8 * zlen gs + zlen t) by (rewrite E, !zlen_app, !zlen_word, zlen_samples; lia).
    destruct (runs_skips (Z.to_nat (4 * zlen gs)) (zlen pre + 8)) as [u U]; [lia|unfold maxString; lia|].
    refine (runs_header s pre 39 (8 * zlen gs) _ _ _ _ L E ltac:(unfold is_word; lia) ltac:(unfold is_word; lia) _).
    cbv beta iota zeta. replace (8 * zlen gs mod 2 =? 1) with false by lia.
    replace (8 * zlen gs / 2) with (4 * zlen gs) by lia.
    eapply runs_bind; [exact U|]. eapply runs_q; [apply runs_ret|]. lia.
  - intros cs l NB. split; [apply (pl_colours base cs)|]. intros E.
    unfold property in *. rewrite <- !app_assoc in E. rewrite !zlen_app, !zlen_word in *. pose proof (zlen_pos l).
    assert (B : zlen (sFile s) = zlen pre + 8 + zlen l + 4 + zlen t) by (rewrite E, !zlen_app, !zlen_word; lia).
    assert (H0 : holds s (zlen pre + 8 + zlen l) (word 0)).
    { exists (pre ++ word 1 ++ word (zlen l) ++ l), t. rewrite E, !zlen_app, !zlen_word, <- !app_assoc. split; [reflexivity|lia]. }
    refine (runs_header s pre 1 (zlen l) _ _ _ _ L E ltac:(unfold is_word; lia) ltac:(unfold is_word; lia) _).
    cbv beta iota zeta. replace (negb (base =? 2)) with true by lia.
    eapply runs_bind; [apply runs_skip; unfold maxString; try lia; reflexivity|].
    eapply runs_bind; [apply runs_word; [exact H0|unfold is_word; lia]|]. change (Z.to_nat 0) with O.
    eapply runs_bind; [apply runs_list0|]. eapply runs_q; [apply runs_ret|]. lia.
  - intros a v k O EK. assert (OV : vpath_ok v) by (unfold vpath_ok; rewrite EK; auto).
    split; [apply (pl_vectors base a [v]); auto|]. intros E.
    unfold property in *. rewrite <- !app_assoc in E. rewrite !zlen_app, !zlen_word in *.
    set (l := vectors_bytes a [v]) in *. pose proof (zlen_pos l).
    assert (B : zlen (sFile s) = zlen pre + 8 + zlen l + zlen t) by (rewrite E, !zlen_app, !zlen_word; lia).
    assert (H0 : holds s (zlen pre + 8) l).
    { exists (pre ++ word 25 ++ word (zlen l)), t. rewrite E, !zlen_app, !zlen_word, <- !app_assoc. split; [reflexivity|lia]. }
    refine (runs_header s pre 25 (zlen l) _ _ _ _ L E ltac:(unfold is_word; lia) ltac:(unfold is_word; lia) _).
    cbv beta iota zeta.
    eapply runs_bind; [apply (runs_skipVectors_one s L _ a v k OV EK H0)|]. eapply runs_q; [apply runs_ret|]. fold l. lia.
  - intros l G E. unfold property in *. rewrite <- !app_assoc in E.
    assert (B : zlen (sFile s) = zlen pre + 8 + zlen l + zlen t) by (rewrite E, !zlen_app, !zlen_word; lia).
    refine (runs_header s pre 20 (zlen l) _ _ _ _ L E ltac:(unfold is_word; lia) ltac:(unfold is_word; lia) _).
    cbv beta iota zeta.
    assert (H4 : holds s (zlen pre + 8) (ztake 4 l)).
    { exists (pre ++ word 20 ++ word (zlen l)), (zdrop 4 l ++ t). rewrite E, !zlen_app, !zlen_word, <- !app_assoc.
      split; [|lia]. rewrite (app_assoc (ztake 4 l)), ztake_zdrop. reflexivity. }
    eapply (runs_bind _ _ _ (be (ztake 4 l)) (zlen pre + 12)).
    { destruct (holds_rest s _ _ None H4) as [u R]. unfold runs, rd32, liftM, readUint32.
      rewrite (readBE_ok s 4 _ (ztake 4 l) u (eq_refl : rErr (mkR (zlen pre + 8) None) = None) R) by (apply zlen_ztake; lia).
      unfold advance. cbn. do 3 f_equal. lia. }
    apply runs_ret.
Qed.
Print Assumptions C45_refuted.

(** a whole file: the same picture with and without one guide (position 7, vertical).  An
    unknown property of the same length does no harm. *)
Definition with_props (props : list Z) : list Z :=
  let k := zlen props in
  [103; 105; 109; 112; 32; 120; 99; 102; 32; 118; 48; 48; 51; 0] ++ word 1 ++ word 1 ++ word 0 ++ props
  ++ property 17 [1] ++ word 0 ++ word 0 ++ word (51 + k) ++ word 0
  ++ word 1 ++ word 1 ++ word 1 ++ word 0 ++ word 0 ++ word 0 ++ word (83 + k) ++ word 0
  ++ word 1 ++ word 1 ++ word 4 ++ word (99 + k)
  ++ word 1 ++ word 1 ++ word (115 + k) ++ word 0 ++ [0; 9; 0; 8; 0; 7; 0; 6].
Definition accepted (f : list Z) : bool := match decode 50 f (fun z => z) (fun _ => TErr) with Ret (inr [_]) => true | _ => false end.
Example C45_ex :
  accepted (with_props []) = true /\
  accepted (with_props (property 77 [0; 0; 0; 7; 1])) = true /\
  accepted (with_props (property 21 (parasite_bytes ([97], 1, [9; 8])))) = true /\
  accepted (with_props (property 18 (flat_map guide_bytes [(7, 1)]))) = false /\
  accepted (with_props (property 39 (flat_map sample_bytes [(7, 1)]))) = false /\
  accepted (with_props (property 1 (word 1 ++ [1; 2; 3]))) = false /\
  accepted (with_props (property 25 (vectors_bytes 0 [mkVPath (Some [97]) 1 1 0 [] [mkStroke 0 2 []]]))) = true /\
  accepted (with_props (property 25 (vectors_bytes 0 [mkVPath None 1 1 0 [] [mkStroke 0 2 [(0, [7; 8])]]]))) = false.
Proof. vm_compute. repeat split. Qed.

(** ** C51
    Full statement: if ReadParasites(l) reports no error it has moved at most l bytes and
    allocated at most l bytes.  True for every source that reports io.EOF on short reads
    (every file below 16 MiB); false at the 16 MiB limit (C51_refuted). *)
Definition allocated (ps : list parasite) : Z := fold_right (fun p n => zlen (parName p) + zlen (parData p) + n) 0 ps.
Lemma allocated_app a b : allocated (a ++ b) = allocated a + allocated b.
Proof. unfold allocated. induction a as [|x a IH]; cbn; [lia|]. rewrite IH. lia. Qed.
Lemma readString_len s st v st' : Forall is_u8 (sFile s) -> readString s st = (v, st') -> rErr st' = None ->
  rPos st' = rPos st + 4 /\ v = [] \/ rPos st' = rPos st + 5 + zlen v.
Proof.
  intros HB R N. destruct (readString_inv s st v st' HB R N) as [(-> & _ & ->)|(len & bytes & t & (a & b & c & d & _ & _ & _ & _ & _ & _ & ->) & _ & _ & _ & ->)].
  - left. auto.
  - right. unfold advance. cbn [rPos]. rewrite zlen_app. change (zlen [0]) with 1. lia.
Qed.
Theorem C51_partial s fuel l st ps st' : Forall is_u8 (sFile s) -> zlen (sFile s) <= 16777216 -> sShort s = false ->
  0 <= l < 4294967296 -> okpos st ->
  readParasites fuel s l st = Ret (ps, st') -> rErr st' = None ->
  rPos st <= rPos st' <= rPos st + l /\ allocated ps <= l /\
  Forall (fun p => exists pre post, sFile s = pre ++ parData p ++ post) ps.
Proof.
  intros HB HL HS L O R N.
  assert (Hlen : zlen (sFile s) < 9223372036854775808) by lia.
  set (fromfile := fun p => exists pre post, sFile s = pre ++ parData p ++ post).
  assert (W : wp True (fun _ => True) (readParasites fuel s l) (fun ps st' => rErr st' = None ->
     rPos st <= rPos st' <= rPos st + l /\ allocated ps <= l /\ Forall fromfile ps) st).
  { refine (wp_while True (fun _ => True) _ (fun x st1 => 0 <= fst x < 4294967296 /\ okpos st1 /\ (rErr st1 = None ->
      rPos st <= rPos st1 <= rPos st + (l - fst x) /\ allocated (snd x) <= l - fst x /\ Forall fromfile (snd x)))
      (fun x st1 => match rErr st1 with None => (Z.to_nat (Z.max 0 (zlen (sFile s) - rPos st1) + 1 + 4294967296)) | Some _ => Z.to_nat (fst x) end) _ _ fuel (l, []) st _ (or_introl I)).
    2:{ cbn [fst snd]. split; [lia|]. split; [exact O|]. intros _. cbn. split; [lia|]. split; [lia|constructor]. }
    intros [l0 qs] st0 (L0 & O0 & H0). cbn [fst snd] in *. unfold par_body.
    destruct (l0 =? 0) eqn:Z0; [apply wp_ret; intros N0; specialize (H0 N0); intuition lia|].
    apply wp_bind. unfold rdStr. apply wp_lift. destruct (readString_spec s HB Hlen st0) as (AS & ES & NS).
    destruct (readString s st0) as [name st1] eqn:RSt. cbn [fst snd] in *.
    apply wp_bind. apply wp_rd32; auto. intros flags st2 A2 B2 G2 Z2 W2.
    apply wp_bind. apply wp_rd32; auto. intros pp st3 A3 B3 G3 Z3 W3.
    cbv zeta. set (rd := u32 (4 + u32 (zlen name) + 1 + 4 + 4 + pp)).
    assert (Rd : 0 <= rd < 4294967296) by apply u32_range.
    destruct (AS O0) as [O1 F1]. destruct (A2 O1) as [O2 F2]. destruct (A3 O2) as [O3 F3].
    destruct (l0 <? rd) eqn:LR.
    - apply wp_bind. apply wp_act. apply wp_ret. intros X. exfalso. revert X.
      unfold setError. destruct (rErr st3) eqn:Q; cbn; congruence.
    - apply wp_bind. apply wp_lift. pose proof (adv_readSome s Hlen pp st3 ltac:(lia)) as A4.
      destruct (readSome s pp st3) as [w st4] eqn:RS. cbn [fst snd] in *. apply wp_ret. cbn [fst snd].
      destruct (A4 O3) as [O4 F4].
      split.
      + split; [lia|]. split; [exact O4|]. intros N4.
        destruct (fwd_pos _ _ F4 N4) as [N3 P4]. destruct (fwd_pos _ _ F3 N3) as [N2 P3].
        destruct (fwd_pos _ _ F2 N2) as [N1 P2]. destruct (NS N1) as (N0 & X1 & X2 & X3).
        pose proof (zlen_pos name) as Pn. destruct (H0 N0) as (I1 & I2 & I3).
        destruct (G2 N2) as (_ & Q2 & _ & Q2' & _). destruct (G3 N3) as (_ & Q3 & _ & Q3' & _).
        (* the whole data was delivered *)
        assert (PW : exists t, rest s st3 = w ++ t /\ zlen w = pp /\ st4 = advance st3 pp).
        { destruct (readSome_cases s pp st3 w st4 ltac:(lia) N3 RS) as [(t & R1 & R2 & _ & R3) | (_ & _ & _ & R3 & _)]; [eauto|].
          rewrite (R3 (or_intror HS)) in N4. discriminate. }
        destruct PW as (t & R1 & R2 & R3).
        assert (pp <= 16777216).
        { pose proof (rest_len s st3) as RL. rewrite R1, zlen_app in RL. pose proof (zlen_pos t). pose proof (zlen_pos w). unfold okpos in O3. lia. }
        assert (rd = 13 + zlen name + pp) by (unfold rd; rewrite (u32_small (zlen name)) by lia; rewrite u32_small by lia; lia).
        rewrite allocated_app. cbn [allocated fold_right parName parData]. rewrite R2, Z.sub_diag. cbn [repeat]. change (Z.to_nat 0) with 0%nat. cbn [repeat]. rewrite app_nil_r, R2.
        split.
        { subst st4. cbn [advance rPos] in *. split; [lia|].
          (* the string has consumed at most its length and five *)
          destruct (readString_len s st0 name st1 HB RSt N1) as [[Y Y']|Y]; lia. }
        split; [lia|]. apply Forall_app. split; [exact I3|]. constructor; [|constructor].
        exists (ztake (rPos st3) (sFile s)), t. unfold fromfile. cbn.
        unfold rest in R1. destruct ((rPos st3 <? 0) || (zlen (sFile s) <=? rPos st3)) eqn:B.
        * symmetry in R1. apply app_eq_nil in R1. destruct R1 as [-> ->]. cbn [app]. rewrite app_nil_r. rewrite ztake_all by (unfold okpos in O3; lia). reflexivity.
        * rewrite <- R1. now rewrite ztake_zdrop.
      + unfold okpos in *. destruct (rErr st0) eqn:N0.
        * destruct ES as [-> ->]; [congruence|].
          destruct W2 as [-> ->]; [congruence|]. destruct W3 as [-> ->]; [congruence|].
          assert (rErr st4 <> None) by (apply F4; congruence).
          destruct (rErr st4); [|congruence].
          change (zlen (@nil Z)) with 0 in rd. assert (rd = 13) by reflexivity. lia.
        * destruct (rErr st4) eqn:N4; [lia|].
          destruct (fwd_pos _ _ F4 N4) as [N3 P4]. destruct (fwd_pos _ _ F3 N3) as [N2 P3].
          destruct (fwd_pos _ _ F2 N2) as [N1 P2]. destruct (NS N1) as (_ & X1 & X2 & X3).
          pose proof (zlen_pos name). lia. }
  unfold wp in W. rewrite R in W. exact (W N).
Qed.
Print Assumptions C51_partial.

(** One parasite with an empty name and the declared data length 2^32 - 8 whose header ends
    just before the 16 MiB limit of the reader: 5 + 2^32 wraps to the declared property
    length 5, and ReadParasites(5) hands out 4294967288 bytes, without an error. *)
Theorem C51_refuted f pre x post fuel : f = pre ++ text [] ++ word 0 ++ word 4294967288 ++ [x] ++ post ->
  zlen pre = 16777216 - 14 -> (2 <= fuel)%nat ->
  exists p, readParasites fuel (newReader f) 5 (mkR (zlen pre) None) = Ret ([p], mkR 16777216 None) /\
    zlen (parData p) = 4294967288.
Proof.
  intros E L Fu. set (h := text [] ++ word 0 ++ word 4294967288) in *.
  assert (Ef : f = (pre ++ h ++ [x]) ++ post) by (rewrite E; unfold h; now rewrite <- !app_assoc).
  assert (LL : zlen (pre ++ h ++ [x]) = 16777216) by (rewrite !zlen_app, L; reflexivity).
  assert (NR : newReader f = mkSrc (pre ++ h ++ [x]) true).
  { unfold newReader, maxString. pose proof (zlen_pos post). rewrite Ef, zlen_app, LL.
    replace (_ <? 16777216) with false by lia. now rewrite ztake_app. }
  rewrite NR. set (s := mkSrc (pre ++ h ++ [x]) true).
  assert (Hs : zlen (sFile s) <= maxString) by (unfold s, maxString; cbn [sFile]; lia).
  assert (H : holds s (zlen pre) (h ++ [x])) by (exists pre, []; rewrite app_nil_r; auto).
  unfold h in H. rewrite <- !app_assoc in H.
  apply holds_split in H. destruct H as [H1 H]. rewrite zlen_text in H.
  apply holds_split in H. destruct H as [H2 H]. rewrite zlen_word in H.
  apply holds_split in H. destruct H as [H3 H]. rewrite zlen_word in H. change (zlen (@nil Z)) with 0 in *.
  destruct fuel as [|[|fuel]]; try lia.
  exists (mkPar [] 0 ([x] ++ repeat 0 (Z.to_nat (4294967288 - 1)))). split.
  2:{ cbn [parData]. rewrite zlen_app, zlen_repeat. change (zlen [x]) with 1. rewrite Z2Nat.id; lia. }
  unfold readParasites. cbn [whileM].
  assert (B : runs (par_body s (5, [])) (zlen pre) (inl (0, [mkPar [] 0 ([x] ++ repeat 0 (Z.to_nat (4294967288 - 1)))])) 16777216).
  { unfold par_body. change (5 =? 0) with false. cbv iota.
    eapply runs_bind; [apply runs_text; [exact Hs|exact H1|exists []; split; [constructor|reflexivity]]|]. rewrite zlen_text. change (zlen (@nil Z)) with 0.
    eapply runs_bind; [apply runs_word; [exact H2|unfold is_word; lia]|].
    eapply runs_bind; [apply runs_word; [exact H3|unfold is_word; lia]|]. cbv zeta. change (zlen (@nil Z)) with 0.
    change (u32 (4 + u32 0 + 1 + 4 + 4 + 4294967288)) with 5. change (5 <? 5) with false. cbv iota.
    eapply (runs_bind _ _ _ [x] 16777216).
    { unfold runs, liftM, readSome. cbn [rErr].
      assert (R : rest s (mkR (zlen pre + (5 + 0) + 4 + 4) None) = [x]).
      { unfold rest. cbn [rPos]. unfold s. cbn [sFile]. rewrite LL. replace (_ || _) with false by lia.
        rewrite app_assoc. apply zdrop_app. rewrite zlen_app. change (zlen h) with 13. lia. }
      rewrite R. change (4294967288 <=? zlen [x]) with false. cbv iota. unfold s. cbn [sShort rPos]. change (zlen [x]) with 1. do 3 f_equal. lia. }
    change (5 - 5) with 0. change (zlen [x]) with 1. cbn [app]. apply runs_ret. }
  unfold runs in B. unfold bindM at 1. rewrite B. reflexivity.
Qed.
Print Assumptions C51_refuted.
Example C51_ex :
  readParasites 9 (newReader (parasite_bytes ([97], 1, [9; 8]) ++ [0])) 16 (mkR 0 None) = Ret ([mkPar [97] 1 [9; 8]], mkR 16 None) /\
  (exists st, readParasites 9 (newReader (parasite_bytes ([97], 1, [9; 8]) ++ [0])) 15 (mkR 0 None) = Ret ([], st) /\ rErr st = Some EInvalidParasites) /\
  exists f pre x post, f = pre ++ text [] ++ word 0 ++ word 4294967288 ++ [x] ++ post /\ zlen pre = 16777216 - 14.
Proof.
  split; [vm_compute; reflexivity|]. split; [eexists; vm_compute; split; reflexivity|].
  exists (repeat 0 (Z.to_nat (16777216 - 14)) ++ text [] ++ word 0 ++ word 4294967288 ++ [0] ++ []), (repeat 0 (Z.to_nat (16777216 - 14))), 0, [].
  split; [reflexivity|]. rewrite zlen_repeat, Z2Nat.id; lia.
Qed.
