(** C64, inner readers: the strokes and parasites of a vector path. *)
From Coq Require Import ZifyBool ZifyNat.
Require Import Verif.Base Verif.L_List Verif.L_Word Verif.M_Reader Verif.L_Reader Verif.M_Rle Verif.M_Groups Verif.M_Monad Verif.M_Decode
  Verif.M_Encode Verif.L_Encode Verif.S_String Verif.S_File Verif.L_String Verif.L_Run Verif.L_File Verif.M_Paths Verif.P_Paths.

(** what a stroke of the format means: of the six floats of a point (x, y, pressure, tilt,
    tilt, wheel) those that are absent are 1 (pressure) or one half *)
Definition one : Z := 127 * 2 ^ 23.
Definition half : Z := 126 * 2 ^ 23.
Definition six (fs : list Z) : list Z := fs ++ skipn (List.length fs) [0; 0; one; half; half; half].
Definition stroke_value (k : stroke) : vstroke :=
  mkVSt (skClosed k =? 1) (map (fun p => mkVPt (fst p =? 1) (six (snd p))) (skPoints k)).
Definition regular_stroke (k : stroke) : Prop :=
  stroke_ok k /\ (skClosed k = 0 \/ skClosed k = 1) /\
  Forall (fun p => (fst p = 0 \/ fst p = 1) /\ Forall is_word (snd p)) (skPoints k).

Section Strokes.
Variable s : src.
Hypothesis Hlen : zlen (sFile s) <= 16777216.
Ltac hs H := let G := fresh "G" in apply holds_split in H; destruct H as [G H]; rewrite ?zlen_word, ?zlen_text in H.
Ltac ws := match goal with
  | G : holds s ?p (word ?z), F : is_word ?z |- runs (bindM (rd32 s) _) ?p _ _ => eapply runs_bind; [apply (runs_word s p z); [exact G|exact F]|]
  | |- runs (bindM (retM _) _) _ _ _ => eapply runs_bind; [apply runs_ret|]
  end.
Lemma runs_readVPoint nf t fs p : 2 <= nf <= 6 -> zlen fs = nf -> (t = 0 \/ t = 1) -> Forall is_word fs ->
  holds s p (word t ++ flat_map word fs) ->
  runs (readVPoint s nf) p (mkVPt (t =? 1) (six fs)) (p + zlen (word t ++ flat_map word fs)).
Proof.
  intros N L T W H. hs H. unfold readVPoint.
  assert (Z0 : zlen (@nil Z) = 0) by reflexivity. pose proof (fun l : list Z => zlen_pos l) as ZP.
  destruct fs as [|a [|b [|c [|d [|e [|f [|g fs]]]]]]]; rewrite ?zlen_cons, ?Z0 in L; try (pose proof (ZP fs)); try lia; clear ZP;
    repeat match goal with F : Forall is_word (_ :: _) |- _ => pose proof (Forall_inv F); apply Forall_inv_tail in F end;
    cbn [flat_map] in *; rewrite ?app_nil_r in *; repeat match goal with H : holds s _ (word _ ++ _) |- _ => hs H end;
    (eapply runs_bind; [apply (runs_boolword s p t); [exact T|exact G]|]);
    repeat match goal with |- context [?k <=? nf] => first [replace (k <=? nf) with true by lia|replace (k <=? nf) with false by lia] end;
    first [replace (nf =? 6) with true by lia|replace (nf =? 6) with false by lia];
    repeat ws; (eapply runs_q; [apply runs_ret|]); rewrite !zlen_app, ?zlen_word; lia.
Qed.
Lemma runs_readStroke l p k : regular_stroke k -> holds s p (stroke_bytes k) ->
  runs (readStroke s l) p (inl (l ++ [stroke_value k])) (p + zlen (stroke_bytes k)).
Proof.
  intros ([N F] & C & FP) H. pose proof (holds_small s Hlen _ _ H) as HS. unfold stroke_bytes in *. rewrite !zlen_app, !zlen_word in *.
  rewrite (zlen_vpoints (skFloats k)) in HS by assumption. pose proof (zlen_pos (skPoints k)). unfold maxString in *.
  hs H. hs H. hs H. hs H. unfold readStroke.
  assert (W1 : is_word 1) by (unfold is_word; lia). assert (W2 : is_word (skFloats k)) by (unfold is_word; lia).
  assert (W3 : is_word (zlen (skPoints k))) by (unfold is_word; nia).
  ws. change (negb (1 =? 1)) with false. cbv iota.
  eapply runs_bind; [apply (runs_boolword s _ (skClosed k)); [exact C|exact G0]|].
  ws. replace ((skFloats k <? 2) || (6 <? skFloats k)) with false by lia. ws.
  eapply (runs_bind _ _ _ (map (fun p => mkVPt (fst p =? 1) (six (snd p))) (skPoints k))).
  { instantiate (1 := p + 4 + 4 + 4 + 4 + zlen (flat_map (fun p => word (fst p) ++ flat_map word (snd p)) (skPoints k))).
    rewrite length_nat. clear - H F FP N. revert H. generalize (p + 4 + 4 + 4 + 4). induction (skPoints k) as [|q qs IH]; intros z H; cbn [flat_map map length] in *.
    - eapply runs_q; [apply runs_list0|]. change (zlen (@nil Z)) with 0. lia.
    - apply holds_split in H. destruct H as [H1 H2]. pose proof (Forall_inv F) as F1. apply Forall_inv_tail in F. pose proof (Forall_inv FP) as (T & W). apply Forall_inv_tail in FP.
      eapply runs_list_step; [apply runs_readVPoint; eauto|]. eapply runs_q; [apply IH; auto|]. rewrite (zlen_app (word (fst q) ++ _)). lia. }
  eapply runs_q; [apply runs_ret|]. lia.
Qed.
Lemma runs_strokes ks : Forall regular_stroke ks -> forall l p, holds s p (flat_map stroke_bytes ks) ->
  runs (countM (length ks) (readStroke s) l) p (inl (l ++ map stroke_value ks)) (p + zlen (flat_map stroke_bytes ks)).
Proof.
  induction 1 as [|k ks R _ IH]; intros l p H; cbn [flat_map map length countM] in *.
  - rewrite app_nil_r. eapply runs_q; [apply runs_ret|]. change (zlen (@nil Z)) with 0. lia.
  - apply holds_split in H. destruct H as [H1 H2]. eapply runs_bind; [apply runs_readStroke; eauto|]. cbv beta iota.
    replace (l ++ stroke_value k :: map stroke_value ks) with ((l ++ [stroke_value k]) ++ map stroke_value ks) by now rewrite <- app_assoc.
    eapply runs_q; [apply IH; exact H2|]. rewrite zlen_app. lia.
Qed.
Lemma runs_readParasite p r t : holds s p (parasite_bytes r ++ t) -> t <> [] -> par_ok r ->
  runs (readParasite s) p (par_val r) (p + zlen (parasite_bytes r)).
Proof.
  intros H T OK. destruct r as [[name flags] data]. cbn [par_ok] in OK. destruct OK as [U Wf].
  pose proof (holds_small s Hlen _ _ H) as HS. rewrite zlen_app in HS. rewrite zlen_par in *. cbn [par_val]. unfold maxString in *.
  pose proof (zlen_pos name). pose proof (zlen_pos data). pose proof (zlen_pos t).
  unfold parasite_bytes in H. rewrite <- !app_assoc in H. hs H. hs H. hs H. unfold readParasite.
  assert (W3 : is_word (zlen data)) by (unfold is_word; lia).
  eapply runs_bind; [apply runs_text; eauto|]. rewrite zlen_text. ws. ws.
  destruct (holds_rest s _ _ None H) as [u R].
  eapply (runs_bind _ _ _ data).
  { unfold runs, liftM. rewrite <- app_assoc in R.
    rewrite (readSome_ok s (zlen data) _ data _ (eq_refl : rErr (mkR _ None) = None) R eq_refl); [reflexivity|].
    intros Q. apply app_eq_nil in Q. destruct Q as [_ Q]. apply app_eq_nil in Q. tauto. }
  rewrite Z.sub_diag. change (Z.to_nat 0) with O. cbn [repeat]. rewrite app_nil_r.
  unfold advance. cbn [rPos rErr]. eapply runs_q; [apply runs_ret|]. lia.
Qed.
End Strokes.

(** The inner loops of ReadVectors, which a program without the panic of C64 would reach:
    the strokes of a path are read to what they mean; *)
Theorem C64_strokes s pre ks t : sFile s = pre ++ flat_map stroke_bytes ks ++ t -> zlen (sFile s) <= 16777216 -> Forall regular_stroke ks ->
  countM (length ks) (readStroke s) [] (mkR (zlen pre) None) = Ret (inl (map stroke_value ks), mkR (zlen (sFile s) - zlen t) None).
Proof.
  intros E L R. assert (H : holds s (zlen pre) (flat_map stroke_bytes ks)) by (exists pre, t; auto).
  replace (zlen (sFile s) - zlen t) with (zlen pre + zlen (flat_map stroke_bytes ks)) by (rewrite E, !zlen_app; lia).
  exact (runs_strokes s L ks R [] _ H).
Qed.
Print Assumptions C64_strokes.
(** a stroke of another type, or with another number of floats, is refused; *)
Theorem C64_stroke_refused s pre b c nf t l : sFile s = pre ++ word b ++ word c ++ word nf ++ t -> zlen (sFile s) <= 16777216 ->
  is_word b -> is_word nf -> c = 0 \/ c = 1 -> b <> 1 \/ nf < 2 \/ 6 < nf ->
  exists r st, readStroke s l (mkR (zlen pre) None) = Ret (inr r, st) /\
    rErr st = Some (if b =? 1 then EInvalidFloatsNumber else EUnknownStrokeType).
Proof.
  intros E L WB WN C X.
  assert (H : holds s (zlen pre) (word b ++ word c ++ word nf)) by (exists pre, t; split; [now rewrite E, <- !app_assoc|reflexivity]).
  apply holds_split in H. destruct H as [H1 H]. apply holds_split in H. destruct H as [H2 H3]. rewrite !zlen_word in *.
  unfold readStroke. unfold bindM at 1. rewrite (runs_word s _ _ H1 WB).
  destruct (Z.eqb_spec b 1) as [->|NB]; cbn [negb].
  - unfold bindM at 1. rewrite (runs_boolword s _ c C H2). unfold bindM at 1. rewrite (runs_word s _ _ H3 WN).
    replace ((nf <? 2) || (6 <? nf)) with true by lia. eexists _, _. split; [reflexivity|]. reflexivity.
  - eexists _, _. split; [reflexivity|]. reflexivity.
Qed.
Print Assumptions C64_stroke_refused.
(** a parasite keeps its name, flags and data. *)
Theorem C64_parasite s pre name flags data t : sFile s = pre ++ parasite_bytes (name, flags, data) ++ t -> zlen (sFile s) <= 16777216 ->
  t <> [] -> utf8 name -> is_word flags ->
  readParasite s (mkR (zlen pre) None) = Ret (mkPar name flags data, mkR (zlen (sFile s) - zlen t) None).
Proof.
  intros E L T U W. assert (H : holds s (zlen pre) (parasite_bytes (name, flags, data) ++ t)) by (exists pre, []; rewrite app_nil_r; auto).
  replace (zlen (sFile s) - zlen t) with (zlen pre + zlen (parasite_bytes (name, flags, data))) by (rewrite E, !zlen_app; lia).
  exact (runs_readParasite s L _ _ t H T (conj U W)).
Qed.
Print Assumptions C64_parasite.
Definition two_strokes : list stroke := [mkStroke 1 2 [(1, [7; 8])]; mkStroke 0 6 [(0, [1; 2; 3; 4; 5; 6]); (1, [1; 2; 3; 4; 5; 9])]].
Example C64_strokes_ex : Forall regular_stroke two_strokes /\
  map stroke_value two_strokes =
    [mkVSt true [mkVPt true [7; 8; 1065353216; 1056964608; 1056964608; 1056964608]];
     mkVSt false [mkVPt false [1; 2; 3; 4; 5; 6]; mkVPt true [1; 2; 3; 4; 5; 9]]] /\
  countM 2 (readStroke (mkSrc (flat_map stroke_bytes two_strokes) false)) [] (mkR 0 None) =
    Ret (inl (map stroke_value two_strokes), mkR 100 None).
Proof.
  split; [|split; vm_compute; reflexivity].
  apply Forall_cons; [|apply Forall_cons; [|apply Forall_nil]]; unfold regular_stroke, stroke_ok; cbn [skClosed skFloats skPoints];
    repeat split; auto; try lia; repeat (apply Forall_cons || apply Forall_nil); cbn [fst snd]; try reflexivity;
    (split; [auto|]); repeat (apply Forall_cons || apply Forall_nil); unfold is_word; lia.
Qed.
