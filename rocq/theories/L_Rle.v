(** Proofs about the run-length coder. *)
Require Import Verif.Base Verif.L_List Verif.L_Word Verif.M_Reader Verif.M_Rle Verif.S_Rle Verif.L_Reader.
From Coq Require Import ZifyBool ZifyNat.

(** ** Unfolding *)
Definition rle_body (fuel : nat) (s : src) (out p : list Z) (n : Z) (r : rle) (st : rst) : outcome rle_res :=
  let c := Z.min (rleCount r) (zlen p) in
  let (w, st) := if repeatByte r then (repeat (rleData r) (Z.to_nat c), st) else readSome s c st in
  rle_loop fuel s (out ++ w ++ ztake (c - zlen w) (zdrop (zlen w) p)) (zdrop c p) (n + c)
           (mkRle (repeatByte r) (rleData r) (u16 (rleCount r - c))) st.
Definition rle_finish (out p : list Z) (n : Z) (r : rle) (st : rst) : rle_res :=
  mkRR (out ++ p) n
    (if negb (rleCount r =? 0) && (match rErr st with None => true | _ => false end)
     then Some EInvalidRLE else rErr st) r st.

Lemma loop_nil fuel s out n r st : rle_loop fuel s out [] n r st = Ret (rle_finish out [] n r st).
Proof. destruct fuel; reflexivity. Qed.
Lemma loop_err fuel s out p n r st : rErr st <> None -> rle_loop fuel s out p n r st = Ret (rle_finish out p n r st).
Proof.
  intros H. unfold rle_finish. destruct p, fuel; cbn [rle_loop]; destruct (rErr st); try congruence; reflexivity.
Qed.
Lemma loop_pending fuel s out p n r st : p <> [] -> rErr st = None -> rleCount r <> 0 ->
  rle_loop (S fuel) s out p n r st = rle_body fuel s out p n r st.
Proof.
  intros P E C. destruct p as [|x p]; [congruence|]. cbn [rle_loop]. rewrite E.
  destruct (rleCount r =? 0) eqn:Q; [lia|]. unfold rle_body.
  destruct (if repeatByte r then _ else _) as [w st']. reflexivity.
Qed.
Lemma loop_header fuel s out p n r st : p <> [] -> rErr st = None -> rleCount r = 0 ->
  rle_loop (S fuel) s out p n r st =
  let (m, st1) := readUint8 s st in
  match rErr st1 with
  | Some e => Ret (mkRR (out ++ p) n (Some e) r st1)
  | None => let (r2, st2) := rle_header s m r st1 in
            match rErr st2 with
            | Some _ => let st := eof_to_unexpected st2 in Ret (mkRR (out ++ p) n (rErr st) r2 st)
            | None => rle_body fuel s out p n r2 st2
            end
  end.
Proof.
  intros P E C. destruct p as [|x p]; [congruence|]. cbn [rle_loop]. rewrite E.
  destruct (rleCount r =? 0) eqn:Q; [|lia].
  destruct (readUint8 s st) as [m st1]. destruct (rErr st1); [reflexivity|].
  destruct (rle_header s m r st1) as [r2 st2]. destruct (rErr st2); [reflexivity|].
  unfold rle_body. destruct (if repeatByte r2 then _ else _) as [w st']. reflexivity.
Qed.

(** ** Streams whose last packet is not empty *)
Inductive tight : list Z -> list Z -> Prop :=
| ti_nil : tight [] []
| ti_short_run m d e x : 0 <= m < 127 -> tight e x ->
    tight (m :: d :: e) (repeat d (Z.to_nat (m + 1)) ++ x)
| ti_long_run h l d e x : is_u8 h -> is_u8 l -> tight e x -> 0 < 256 * h + l + zlen x ->
    tight (127 :: h :: l :: d :: e) (repeat d (Z.to_nat (256 * h + l)) ++ x)
| ti_long_lit h l ds e x : is_u8 h -> is_u8 l -> zlen ds = 256 * h + l -> tight e x ->
    0 < zlen ds + zlen x ->
    tight (128 :: h :: l :: ds ++ e) (ds ++ x)
| ti_short_lit m ds e x : 128 < m < 256 -> zlen ds = 256 - m -> tight e x ->
    tight (m :: ds ++ e) (ds ++ x).

Lemma tight_expands e x : tight e x -> expands e x.
Proof. induction 1; constructor; assumption. Qed.
Lemma app_zlen0 {A} (a b : list A) : [] = a ++ b -> zlen a = 0 /\ zlen b = 0.
Proof. intros H. symmetry in H. apply app_eq_nil in H. destruct H as [-> ->]. auto. Qed.
Lemma tight_nil e : tight e [] -> e = [].
Proof.
  intros H. remember [] as x eqn:Q.
  destruct H as [|m d e x Hm He|h l d e x Hh Hl He Hpos|h l ds e x Hh Hl Hd He Hpos|m ds e x Hm Hd He];
    [reflexivity| | | |]; symmetry in Q; apply app_zlen0 in Q; rewrite ?zlen_repeat in Q; unfold is_u8 in *; lia.
Qed.
Lemma expands_tight e x : expands e x -> exists e1 e2, e = e1 ++ e2 /\ tight e1 x /\ expands e2 [].
Proof.
  induction 1 as [|m d e x Hm He IH|h l d e x Hh Hl He IH|h l ds e x Hh Hl Hd He IH|m ds e x Hm Hd He IH].
  - exists [], []. repeat split; constructor.
  - destruct IH as (e1 & e2 & -> & T & X). exists (m :: d :: e1), e2. repeat split; auto. now constructor.
  - destruct IH as (e1 & e2 & -> & T & X). pose proof (zlen_pos x). unfold is_u8 in *.
    destruct (Z.eq_dec (256 * h + l + zlen x) 0) as [Z0|NZ].
    + assert (x = []) as -> by (apply zlen_zero; lia). apply tight_nil in T. subst e1.
      assert (h = 0) as -> by lia. assert (l = 0) as -> by lia.
      exists [], (127 :: 0 :: 0 :: d :: e2). repeat split; [constructor|].
      apply (ex_long_run 0 0 d e2 []); unfold is_u8; auto; lia.
    + exists (127 :: h :: l :: d :: e1), e2. repeat split; auto. constructor; auto. lia.
  - destruct IH as (e1 & e2 & -> & T & X). pose proof (zlen_pos x). pose proof (zlen_pos ds). unfold is_u8 in *.
    destruct (Z.eq_dec (zlen ds + zlen x) 0) as [Z0|NZ].
    + assert (x = []) as -> by (apply zlen_zero; lia). apply tight_nil in T. subst e1.
      assert (ds = []) as -> by (apply zlen_zero; lia).
      exists [], (128 :: h :: l :: [] ++ e2). repeat split; [constructor|].
      apply (ex_long_lit h l [] e2 []); auto.
    + exists (128 :: h :: l :: ds ++ e1), e2. cbn [app]. rewrite app_assoc. repeat split; auto. constructor; auto. lia.
  - destruct IH as (e1 & e2 & -> & T & X). exists (m :: ds ++ e1), e2.
    cbn [app]. rewrite app_assoc. repeat split; auto. now constructor.
Qed.

(** ** Reading whole packets *)
Lemma body_run fuel s out p n d c st : rErr st = None -> 0 <= c < 65536 -> c <= zlen p ->
  rle_body fuel s out p n (mkRle true d c) st =
  rle_loop fuel s (out ++ repeat d (Z.to_nat c)) (zdrop c p) (n + c) (mkRle true d 0) st.
Proof.
  intros E C L. unfold rle_body. cbn [rleCount repeatByte rleData].
  rewrite Z.min_l by lia. rewrite zlen_repeat.
  replace (c - Z.of_nat (Z.to_nat c)) with 0 by lia.
  rewrite ztake_0, app_nil_r by lia. rewrite Z.sub_diag. reflexivity.
Qed.
Lemma body_lit fuel s out p n d c st ds t : rErr st = None -> 0 <= c < 65536 -> c <= zlen p ->
  rest s st = ds ++ t -> zlen ds = c -> ds ++ t <> [] ->
  rle_body fuel s out p n (mkRle false d c) st =
  rle_loop fuel s (out ++ ds) (zdrop c p) (n + c) (mkRle false d 0) (advance st c).
Proof.
  intros E C L R D N. unfold rle_body. cbn [rleCount repeatByte rleData].
  rewrite Z.min_l by lia. rewrite (readSome_ok s c st ds t) by assumption.
  rewrite D, Z.sub_diag, ztake_0, app_nil_r by lia. reflexivity.
Qed.

Lemma u16_small z : 0 <= z < 65536 -> u16 z = z.
Proof. apply u16_id. Qed.
Lemma hl_range h l : is_u8 h -> is_u8 l -> 0 <= 256 * h + l < 65536.
Proof. unfold is_u8. lia. Qed.

(** one packet *)
Ltac rest1 := first [ eassumption | cbn [app] in *; eassumption ].
Lemma adv_rest1 s st a t : rest s st = a :: t -> rest s (advance st 1) = t.
Proof. intros R. change 1 with (zlen [a]). now apply (rest_advance s st [a] t). Qed.
Lemma adv_rest2 s st a b t : rest s st = a :: b :: t -> rest s (advance st 2) = t.
Proof. intros R. change 2 with (zlen [a; b]). now apply (rest_advance s st [a; b] t). Qed.

Lemma tight_loop e x : tight e x -> forall fuel s out p n r st t,
  rest s st = e ++ t -> rErr st = None -> zlen x <= zlen p -> rleCount r = 0 -> (length e <= fuel)%nat ->
  exists fuel' r', (fuel - length e <= fuel')%nat /\ rleCount r' = 0 /\
    rle_loop fuel s out p n r st =
    rle_loop fuel' s (out ++ x) (zdrop (zlen x) p) (n + zlen x) r' (advance st (zlen e)).
Proof.
  induction 1 as [|m d e x Hm He IH|h l d e x Hh Hl He IH Hpos|h l ds e x Hh Hl Hd He IH Hpos|m ds e x Hm Hd He IH];
    intros fuel s out p n r st t R E P C F; try (pose proof (zlen_pos x) as X0).
  - exists fuel, r. change (zlen (@nil Z)) with 0. rewrite app_nil_r, Z.add_0_r, advance_0. rewrite zdrop_0 by lia.
    repeat split; auto. cbn. lia.
  - rewrite zlen_app, zlen_repeat in P.
    destruct fuel as [|fuel]; [cbn in F; lia|].
    rewrite loop_header; auto; [|intros ->; rewrite zlen_nil in P; lia].
    cbn [app] in R. rewrite (readUint8_ok _ _ _ _ E R). rewrite advance_err, E.
    unfold rle_header. replace (m <? 127) with true by lia.
    pose proof (adv_rest1 _ _ _ _ R) as R1.
    rewrite (readUint8_ok s (advance st 1) d (e ++ t)); auto.
    rewrite !advance_err, E, u16_small by lia.
    rewrite body_run; rewrite ?advance_err; auto; try lia.
    pose proof (adv_rest1 _ _ _ _ R1) as R2.
    destruct (IH fuel s (out ++ repeat d (Z.to_nat (m + 1))) (zdrop (m + 1) p) (n + (m + 1))
                (mkRle true d 0) (advance (advance st 1) 1) t) as (f' & r' & Lf & Hr & Q); auto.
    { rewrite zlen_zdrop; lia. } { cbn in F. lia. }
    exists f', r'. split; [cbn; cbn in F; lia|]. split; [assumption|].
    rewrite Q. rewrite !advance_advance, zdrop_zdrop, <- app_assoc by lia.
    rewrite zlen_app, zlen_repeat, !zlen_cons.
    f_equal; try lia; f_equal; lia.
  - rewrite zlen_app, zlen_repeat in P. pose proof (hl_range h l Hh Hl) as HR.
    destruct fuel as [|fuel]; [cbn in F; lia|].
    rewrite loop_header; auto; [|intros ->; rewrite zlen_nil in P; lia].
    cbn [app] in R. rewrite (readUint8_ok _ _ _ _ E R). rewrite advance_err, E.
    unfold rle_header. replace (127 <? 127) with false by lia. replace (127 =? 127) with true by lia.
    pose proof (adv_rest1 _ _ _ _ R) as R1.
    rewrite (readUint16_ok s (advance st 1) h l (d :: e ++ t)); auto.
    pose proof (adv_rest2 _ _ _ _ _ R1) as R2.
    rewrite (readUint8_ok s (advance (advance st 1) 2) d (e ++ t)); auto.
    rewrite !advance_err, E.
    rewrite body_run; rewrite ?advance_err; auto; try lia.
    pose proof (adv_rest1 _ _ _ _ R2) as R3.
    destruct (IH fuel s (out ++ repeat d (Z.to_nat (256 * h + l))) (zdrop (256 * h + l) p) (n + (256 * h + l))
                (mkRle true d 0) (advance (advance (advance st 1) 2) 1) t) as (f' & r' & Lf & Hr & Q); auto.
    { rewrite zlen_zdrop; lia. } { cbn in F. lia. }
    exists f', r'. split; [cbn; cbn in F; lia|]. split; [assumption|].
    rewrite Q. rewrite !advance_advance, zdrop_zdrop, <- app_assoc by lia.
    rewrite zlen_app, zlen_repeat, !zlen_cons.
    f_equal; try lia; f_equal; lia.
  - rewrite zlen_app in P. pose proof (hl_range h l Hh Hl) as HR.
    destruct fuel as [|fuel]; [cbn in F; lia|].
    rewrite loop_header; auto; [|intros ->; rewrite zlen_nil in P; lia].
    cbn [app] in R. rewrite (readUint8_ok _ _ _ _ E R). rewrite advance_err, E.
    unfold rle_header. replace (128 <? 127) with false by lia. replace (128 =? 127) with false by lia.
    replace (128 =? 128) with true by lia.
    pose proof (adv_rest1 _ _ _ _ R) as R1.
    rewrite (readUint16_ok s (advance st 1) h l ((ds ++ e) ++ t)); auto.
    rewrite !advance_err, E.
    pose proof (adv_rest2 _ _ _ _ _ R1) as R2. rewrite <- app_assoc in R2.
    assert (NE : ds ++ e ++ t <> []).
    { intros Q. apply app_eq_nil in Q. destruct Q as [-> Q]. apply app_eq_nil in Q. destruct Q as [-> ->].
      assert (x = []) as -> by (inversion He; reflexivity). exact (Z.lt_irrefl 0 Hpos). }
    rewrite (body_lit _ _ _ _ _ _ _ _ ds (e ++ t)); rewrite ?advance_err; auto; try lia.
    assert (R3 := rest_advance _ _ _ _ R2). rewrite Hd in R3.
    destruct (IH fuel s (out ++ ds) (zdrop (256 * h + l) p) (n + (256 * h + l))
                (mkRle false (rleData r) 0) (advance (advance (advance st 1) 2) (256 * h + l)) t) as (f' & r' & Lf & Hr & Q); auto.
    { rewrite zlen_zdrop; lia. } { cbn in F. rewrite app_length in F. lia. }
    exists f', r'. split; [cbn; cbn in F; rewrite app_length in *; lia|]. split; [assumption|].
    rewrite Q. rewrite !advance_advance, zdrop_zdrop, <- app_assoc by lia.
    rewrite zlen_app, !zlen_cons, zlen_app.
    f_equal; try lia; f_equal; lia.
  - rewrite zlen_app in P.
    destruct fuel as [|fuel]; [cbn in F; lia|].
    rewrite loop_header; auto; [|intros ->; rewrite zlen_nil in P; lia].
    cbn [app] in R. rewrite (readUint8_ok _ _ _ _ E R). rewrite advance_err, E.
    unfold rle_header. replace (m <? 127) with false by lia. replace (m =? 127) with false by lia.
    replace (m =? 128) with false by lia.
    pose proof (adv_rest1 _ _ _ _ R) as R1. rewrite <- app_assoc in R1.
    rewrite !advance_err, E, u16_small by lia.
    assert (NE : ds ++ e ++ t <> []).
    { intros Q. apply app_eq_nil in Q. destruct Q as [-> Q]. rewrite zlen_nil in Hd. lia. }
    rewrite (body_lit _ _ _ _ _ _ _ _ ds (e ++ t)); rewrite ?advance_err; auto; try lia.
    assert (R3 := rest_advance _ _ _ _ R1). rewrite Hd in R3.
    destruct (IH fuel s (out ++ ds) (zdrop (256 - m) p) (n + (256 - m))
                (mkRle false (rleData r) 0) (advance (advance st 1) (256 - m)) t) as (f' & r' & Lf & Hr & Q); auto.
    { rewrite zlen_zdrop; lia. } { cbn in F. rewrite app_length in F. lia. }
    exists f', r'. split; [cbn; cbn in F; rewrite app_length in *; lia|]. split; [assumption|].
    rewrite Q. rewrite !advance_advance, zdrop_zdrop, <- app_assoc by lia.
    rewrite zlen_app, !zlen_cons, zlen_app.
    f_equal; try lia; f_equal; lia.
Qed.

Lemma tight_read e x s p r st t : tight e x -> rest s st = e ++ t -> rErr st = None ->
  zlen p = zlen x -> rleCount r = 0 ->
  exists r', rleCount r' = 0 /\
    rle_Read s p r st = Ret (mkRR x (zlen x) None r' (advance st (zlen e))).
Proof.
  intros T R E P C. unfold rle_Read, rle_fuel.
  destruct (tight_loop e x T (S (length p + length (rest s st))) s [] p 0 r st t R E) as (f' & r' & _ & Hr & Q); auto; try lia.
  { rewrite R, app_length. lia. }
  exists r'. split; [assumption|]. rewrite Q, zdrop_all, loop_nil by lia.
  unfold rle_finish. rewrite Hr. cbn [app negb Z.eqb]. rewrite advance_err, E, app_nil_r. reflexivity.
Qed.

(** ** Encoder *)
Lemma concat_app1 {A} (a b : list (list A)) : concat (a ++ b) = concat a ++ concat b.
Proof. apply concat_app. Qed.
Lemma be16_bytes z : 0 <= z < 65536 -> exists h l, be16 z = [h; l] /\ is_u8 h /\ is_u8 l /\ 256 * h + l = z.
Proof.
  intros H. unfold be16. rewrite u16_id by lia. exists (z / 256), (z mod 256).
  pose proof (Z.div_mod z 256). pose proof (Z.mod_pos_bound z 256). unfold is_u8.
  repeat split; try lia.
Qed.
Lemma rle_run_tight run last e x : 0 <= run < 65536 -> tight e x ->
  tight (concat (rle_run run last) ++ e) (repeat last (Z.to_nat run) ++ x).
Proof.
  intros R T. unfold rle_run. destruct (0 <? run) eqn:B0.
  - destruct (run <? 128) eqn:B1; cbn [app concat].
    + rewrite u8_id by lia. replace run with (run - 1 + 1) at 2 by lia. constructor; [lia|assumption].
    + destruct (be16_bytes run) as (h & l & -> & Hh & Hl & Q); [lia|]. cbn [app].
      rewrite <- Q. constructor; auto. pose proof (zlen_pos x). lia.
  - assert (run = 0) as -> by lia. exact T.
Qed.
Lemma forallb_repeat d0 data : forallb (fun b => b =? d0) data = true -> data = repeat d0 (length data).
Proof.
  induction data as [|b l IH]; [reflexivity|]. cbn. intros H. apply andb_prop in H. destruct H as [H1 H2].
  rewrite <- IH by assumption. f_equal. lia.
Qed.
Lemma rle_lit_tight data e x : zlen data < 65536 -> tight e x -> tight (concat (rle_lit data) ++ e) (data ++ x).
Proof.
  intros L T. destruct data as [|d0 data]; [exact T|]. unfold rle_lit.
  set (D := d0 :: data) in *. assert (P : 0 < zlen D) by (unfold D; rewrite zlen_cons; pose proof (zlen_pos data); lia).
  destruct ((zlen D <=? 3) && forallb (fun b => b =? d0) D) eqn:B.
  - apply andb_prop in B. destruct B as [_ B]. apply forallb_repeat in B.
    rewrite B at 2. replace (length D) with (Z.to_nat (zlen D)) by (unfold zlen; lia).
    apply rle_run_tight; [lia|assumption].
  - destruct (zlen D <? 128) eqn:B1; cbn [app concat].
    + rewrite app_nil_r. rewrite (u8_id (zlen D - 1)), u8_id by lia.
      apply ti_short_lit; auto; lia.
    + destruct (be16_bytes (zlen D)) as (h & l & -> & Hh & Hl & Q); [lia|]. cbn [app].
      rewrite app_nil_r. apply ti_long_lit; auto; pose proof (zlen_pos x); lia.
Qed.
Lemma writeRLEData_tight data run last e x : zlen data < 65536 -> 0 <= run < 65536 -> tight e x ->
  tight (concat (writeRLEData data run last) ++ e) (data ++ repeat last (Z.to_nat run) ++ x).
Proof.
  intros L R T. unfold writeRLEData. rewrite concat_app1, <- app_assoc.
  apply rle_lit_tight; [assumption|]. now apply rle_run_tight.
Qed.

Lemma slice_all {A} (d a b c : list A) i j : d = a ++ b ++ c -> zlen a = i -> zlen a + zlen b = j -> slice d i j = b.
Proof.
  intros -> <- <-. unfold slice. rewrite zdrop_app by reflexivity. apply ztake_app. lia.
Qed.
Lemma snoc_repeat {A} (b : A) k : repeat b k ++ [b] = repeat b (S k).
Proof. change [b] with (repeat b 1). rewrite <- repeat_app. f_equal. lia. Qed.

(** the loop invariant: data = W ++ M ++ repeat last run ++ todo, with W written *)
Lemma rle_scan_tight data todo : forall W M n run written last,
  zlen data < 65536 ->
  data = W ++ M ++ repeat last run ++ todo -> written = zlen W -> n = zlen W + zlen M + Z.of_nat run ->
  (todo = [] -> M = [] -> W = [] -> run <> O) ->
  (run = O -> W = [] /\ M = [] /\ hd_error todo = Some last) ->
  tight (concat (rle_scan data todo n (Z.of_nat run) written last)) (M ++ repeat last run ++ todo).
Proof.
  induction todo as [|b todo IH]; intros W M n run written last L D Hw Hn Hne H0; cbn [rle_scan].
  - rewrite app_nil_r in *.
    assert (LD : zlen data = zlen W + zlen M + Z.of_nat run) by (rewrite D, !zlen_app, zlen_repeat; lia).
    pose proof (zlen_pos W). pose proof (zlen_pos M).
    destruct ((Z.of_nat run <=? 3) && (Z.of_nat run <? zlen data)) eqn:B.
    + rewrite (slice_all data W (M ++ repeat last run) []); rewrite ?app_nil_r; auto; [|rewrite zlen_app, zlen_repeat; lia].
      assert (T := writeRLEData_tight (M ++ repeat last run) 0 last [] []).
      cbn [repeat Z.to_nat] in T. rewrite !app_nil_r in T. apply T; [rewrite zlen_app, zlen_repeat; lia|lia|constructor].
    + rewrite (slice_all data W M (repeat last run)); auto; [|lia].
      assert (T := writeRLEData_tight M (Z.of_nat run) last [] []).
      rewrite !app_nil_r, Nat2Z.id in T. apply T; [lia|lia|constructor].
  - destruct (b =? last) eqn:B.
    + assert (b = last) as -> by lia.
      replace (Z.of_nat run + 1) with (Z.of_nat (S run)) by lia.
      replace (M ++ repeat last run ++ last :: todo) with (M ++ repeat last (S run) ++ todo).
      2:{ rewrite <- snoc_repeat, <- app_assoc. reflexivity. }
      apply (IH W); auto; try lia; try discriminate.
      rewrite D, <- snoc_repeat, <- app_assoc. reflexivity.
    + pose proof (zlen_pos W). pose proof (zlen_pos M).
      assert (RN : run <> O). { intros ->. destruct (H0 eq_refl) as (_ & _ & Q). cbn in Q. injection Q as ->. lia. }
      assert (LD : zlen data = zlen W + zlen M + Z.of_nat run + 1 + zlen todo)
        by (rewrite D, !zlen_app, zlen_repeat, zlen_cons; lia).
      pose proof (zlen_pos todo).
      destruct (3 <? Z.of_nat run) eqn:B3.
      * rewrite concat_app1. rewrite (slice_all data W M (repeat last run ++ b :: todo)); auto; [|lia].
        replace (repeat last run) with (repeat last (Z.to_nat (Z.of_nat run))) by (now rewrite Nat2Z.id).
        apply writeRLEData_tight; try lia.
        apply (IH (W ++ M ++ repeat last run) [] (n + 1) 1%nat n b); auto; try lia; try discriminate.
        -- rewrite D, <- !app_assoc. reflexivity.
        -- rewrite !zlen_app, zlen_repeat. lia.
        -- rewrite !zlen_app, zlen_repeat. change (zlen (@nil Z)) with 0. lia.
      * replace (M ++ repeat last run ++ b :: todo) with ((M ++ repeat last run) ++ repeat b 1 ++ todo)
          by (rewrite <- app_assoc; reflexivity).
        apply (IH W (M ++ repeat last run) (n + 1) 1%nat); auto; try lia; try discriminate.
        -- rewrite D, <- !app_assoc. reflexivity.
        -- rewrite zlen_app, zlen_repeat. lia.
Qed.
Lemma writeRLE_tight data : zlen data < 65536 -> tight (concat (writeRLE data)) data.
Proof.
  intros L. destruct data as [|d0 data]; [constructor|]. unfold writeRLE.
  apply (rle_scan_tight (d0 :: data) (d0 :: data) [] [] 0 0 0 d0); auto. discriminate.
Qed.

Lemma rle_round_trip data s p r st t : zlen data < 65536 -> zlen p = zlen data -> rleCount r = 0 ->
  rErr st = None -> rest s st = concat (writeRLE data) ++ t ->
  exists r', rleCount r' = 0 /\
    rle_Read s p r st = Ret (mkRR data (zlen data) None r' (advance st (zlen (concat (writeRLE data))))).
Proof. intros L P C E R. apply (tight_read _ _ s p r st t (writeRLE_tight data L) R E P C). Qed.

(** ** Size *)
Definition tlen (l : list (list Z)) : Z := zlen (concat l).
Lemma tlen_app a b : tlen (a ++ b) = tlen a + tlen b.
Proof. unfold tlen. now rewrite concat_app1, zlen_app. Qed.
Lemma tlen_run run last : 0 <= run ->
  tlen (rle_run run last) = if run =? 0 then 0 else if run <? 128 then 2 else 4.
Proof.
  intros R. unfold rle_run, tlen. destruct (0 <? run) eqn:B; destruct (run =? 0) eqn:B0; try lia; [|reflexivity].
  destruct (run <? 128); reflexivity.
Qed.
Lemma tlen_lit data : tlen (rle_lit data) <= zlen data + (if zlen data =? 0 then 0 else if zlen data <? 128 then 1 else 3)
  /\ (data <> [] -> 0 < tlen (rle_lit data)).
Proof.
  destruct data as [|d0 data]; [split; [vm_compute; discriminate|congruence]|]. unfold rle_lit.
  set (D := d0 :: data). assert (P : 0 < zlen D) by (unfold D; rewrite zlen_cons; pose proof (zlen_pos data); lia).
  destruct (zlen D =? 0) eqn:Q0; [lia|].
  destruct ((zlen D <=? 3) && forallb (fun b => b =? d0) D) eqn:B.
  - rewrite tlen_run by lia. rewrite Q0.
    destruct (zlen D <? 128) eqn:Q; split; try lia.
  - destruct (zlen D <? 128) eqn:Q; unfold tlen; cbn [app concat]; rewrite app_nil_r.
    + rewrite zlen_cons. lia.
    + unfold be16. rewrite !zlen_cons. cbn [app]. rewrite !zlen_cons. lia.
Qed.
Lemma tlen_data data run last : 0 <= run ->
  tlen (writeRLEData data run last) <=
  zlen data + (if zlen data =? 0 then 0 else if zlen data <? 128 then 1 else 3)
  + (if run =? 0 then 0 else if run <? 128 then 2 else 4).
Proof.
  intros R. unfold writeRLEData. rewrite tlen_app, tlen_run by assumption. pose proof (tlen_lit data). lia.
Qed.
Lemma zlen_slice {A} (l : list A) a b : 0 <= a <= b -> b <= zlen l -> zlen (slice l a b) = b - a.
Proof. intros. unfold slice. rewrite zlen_ztake; [lia|]. rewrite zlen_zdrop; lia. Qed.
Lemma rle_scan_size data todo : forall n run written last,
  n + zlen todo = zlen data -> 0 <= run -> 0 <= written -> written + run <= n ->
  128 * (tlen (rle_scan data todo n run written last) - 3) <= 129 * (zlen data - written).
Proof.
  induction todo as [|b todo IH]; intros n run written last Hn Hr Hw Hl; cbn [rle_scan].
  - change (zlen (@nil Z)) with 0 in Hn.
    set (run' := if _ && _ then 0 else run).
    assert (R' : 0 <= run' /\ (run' = 0 \/ run' = run /\ (3 < run \/ run = zlen data))).
    { unfold run'. destruct ((run <=? 3) && (run <? zlen data)) eqn:B; lia. }
    pose proof (tlen_data (slice data written (zlen data - run')) run' last) as T.
    rewrite zlen_slice in T by lia.
    destruct (zlen data - run' - written =? 0) eqn:E0; destruct (zlen data - run' - written <? 128) eqn:E1;
    destruct (run' =? 0) eqn:E2; destruct (run' <? 128) eqn:E3; lia.
  - rewrite zlen_cons in Hn.
    destruct (b =? last) eqn:B; [apply IH; lia|].
    destruct (3 <? run) eqn:B3; [|pose proof (IH (n + 1) 1 written b); pose proof (zlen_pos todo); lia].
    rewrite tlen_app. pose proof (IH (n + 1) 1 n b) as I. pose proof (zlen_pos todo).
    pose proof (tlen_data (slice data written (n - run)) run last) as T.
    rewrite zlen_slice in T by lia.
    destruct (n - run - written =? 0) eqn:E0; destruct (n - run - written <? 128) eqn:E1;
    destruct (run =? 0) eqn:E2; destruct (run <? 128) eqn:E3; lia.
Qed.
Lemma rle_scan_nonempty data todo : forall n run written last,
  n + zlen todo = zlen data -> 0 <= run -> 0 <= written -> written + run <= n -> 0 < zlen data ->
  (written = n -> 0 < zlen todo) -> 0 < tlen (rle_scan data todo n run written last).
Proof.
  induction todo as [|b todo IH]; intros n run written last Hn Hr Hw Hl Hd Hx; cbn [rle_scan].
  - change (zlen (@nil Z)) with 0 in *.
    set (run' := if _ && _ then 0 else run).
    assert (R' : 0 <= run' /\ (run' = 0 \/ run' = run)).
    { unfold run'. destruct ((run <=? 3) && (run <? zlen data)) eqn:B; lia. }
    unfold writeRLEData. rewrite tlen_app, tlen_run by lia.
    destruct (run' =? 0) eqn:Q.
    + destruct (tlen_lit (slice data written (zlen data - run'))) as [_ G].
      assert (zlen (slice data written (zlen data - run')) = zlen data - run' - written) by (apply zlen_slice; lia).
      assert (0 < tlen (rle_lit (slice data written (zlen data - run')))); [|lia].
      apply G. intros N. rewrite N in H. change (zlen (@nil Z)) with 0 in H. lia.
    + assert (0 <= tlen (rle_lit (slice data written (zlen data - run')))) by apply zlen_pos.
      destruct (run' <? 128); lia.
  - rewrite zlen_cons in Hn. pose proof (zlen_pos todo).
    destruct (b =? last) eqn:B; [apply IH; lia|].
    destruct (3 <? run) eqn:B3; [|apply IH; lia].
    rewrite tlen_app.
    assert (0 < tlen (rle_scan data todo (n + 1) 1 n b)) by (apply IH; lia).
    assert (0 <= tlen (writeRLEData (slice data written (n - run)) run last)) by apply zlen_pos. lia.
Qed.
Lemma rle_size data : zlen (concat (writeRLE data)) <= zlen data + zlen data / 128 + 3 /\
  (data <> [] -> 0 < zlen (concat (writeRLE data))).
Proof.
  destruct data as [|d0 data]; [split; [vm_compute; discriminate|congruence]|]. unfold writeRLE.
  set (D := d0 :: data). split.
  - pose proof (rle_scan_size D D 0 0 0 d0) as S. unfold tlen in S. pose proof (zlen_pos D).
    pose proof (Z.div_mod (zlen D) 128). pose proof (Z.mod_pos_bound (zlen D) 128). lia.
  - intros _. pose proof (zlen_pos data). assert (P : 0 < zlen D) by (unfold D; rewrite zlen_cons; lia).
    pose proof (rle_scan_nonempty D D 0 0 0 d0) as S. unfold tlen in S. apply S; lia.
Qed.
