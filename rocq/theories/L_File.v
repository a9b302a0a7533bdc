(** Image properties and parasites on known bytes. *)
Require Import Verif.Base Verif.L_List Verif.L_Word Verif.M_Reader Verif.L_Reader Verif.M_Rle Verif.M_Color Verif.M_Groups Verif.M_Monad Verif.M_Decode
  Verif.M_Encode Verif.L_Encode Verif.S_String Verif.L_String Verif.L_Run Verif.S_File.
From Coq Require Import ZifyBool ZifyNat.

Lemma word_be32 z : is_word z -> word z = be32 z.
Proof. intros W. unfold be32, word. now rewrite (u32_small z W). Qed.
Lemma zlen_word z : zlen (word z) = 4. Proof. reflexivity. Qed.
Lemma text_str l : zlen l < 4294967295 -> text l = str l.
Proof. intros L. pose proof (zlen_pos l). unfold text, str. rewrite word_be32; [reflexivity|]. unfold is_word. lia. Qed.
Lemma zlen_text l : zlen (text l) = 5 + zlen l.
Proof. unfold text. rewrite !zlen_app, zlen_word. change (zlen [0]) with 1. lia. Qed.

Section File.
Variable s : src.
Hypothesis Hlen : zlen (sFile s) <= maxString.
Let Hlen' : zlen (sFile s) <= 4294967296.
Proof. unfold maxString in Hlen. lia. Qed.

Lemma runs_word p z : holds s p (word z) -> is_word z -> runs (rd32 s) p z (p + 4).
Proof. intros H W. rewrite word_be32 in H by assumption. rewrite <- (u32_small z W) at 1. now apply runs_rd32. Qed.
Lemma holds_small p l : holds s p l -> zlen l <= 16777216.
Proof. intros H. pose proof (holds_range _ _ _ H). unfold maxString in *. lia. Qed.
Lemma runs_text p l : holds s p (text l) -> utf8 l -> runs (rdStr s) p l (p + zlen (text l)).
Proof.
  intros H U. pose proof (holds_small _ _ H). rewrite zlen_text in *. pose proof (zlen_pos l).
  rewrite text_str in * by lia. rewrite <- zlen_str. apply runs_rdStr; auto. unfold maxString. lia.
Qed.
Lemma runs_sktext p l : holds s p (text l) -> runs (skStr s) p tt (p + zlen (text l)).
Proof.
  intros H. pose proof (holds_small _ _ H). rewrite zlen_text in *. pose proof (zlen_pos l).
  rewrite text_str in * by lia. rewrite <- zlen_str. now apply runs_skStr.
Qed.

Lemma runs_skotext p o : holds s p (otext o) -> runs (skStr s) p tt (p + zlen (otext o)).
Proof.
  destruct o as [l|]; [apply runs_sktext|]. cbn [otext]. intros H.
  pose proof (runs_word p 0 H ltac:(unfold is_word; lia)) as R. unfold runs, rd32, liftM in R.
  unfold runs, skStr, actM, skipString. pose proof (holds_range _ _ _ H) as HR. rewrite zlen_word in *.
  destruct (readUint32 s (mkR p None)) as [n q]. injection R as -> ->. pose proof (runs_skip (p + 4) 0 (p + 4)) as K.
  unfold runs, skM, actM in K. apply K; unfold maxString in *; lia.
Qed.

(** reading parasites *)
Definition par_val (r : par_rec) : parasite := let '(name, flags, data) := r in mkPar name flags data.
Lemma zlen_par name flags data : zlen (parasite_bytes (name, flags, data)) = 13 + zlen name + zlen data.
Proof. unfold parasite_bytes. rewrite !zlen_app, zlen_text, !zlen_word. lia. Qed.
Lemma runs_par_body p l ps r t : holds s p (parasite_bytes r ++ t) -> t <> [] -> par_ok r ->
  zlen (parasite_bytes r) <= l ->
  runs (par_body s (l, ps)) p (inl (l - zlen (parasite_bytes r), ps ++ [par_val r])) (p + zlen (parasite_bytes r)).
Proof.
  intros H T OK L. destruct r as [[name flags] data]. cbn [par_ok] in OK. destruct OK as [U Wf].
  pose proof (holds_small _ _ H) as HS. rewrite zlen_app in HS. rewrite zlen_par in *. cbn [par_val].
  pose proof (zlen_pos name). pose proof (zlen_pos data). pose proof (zlen_pos t).
  unfold parasite_bytes in H. rewrite <- !app_assoc in H.
  apply holds_split in H. destruct H as [G1 H]. rewrite zlen_text in H.
  apply holds_split in H. destruct H as [G2 H]. rewrite zlen_word in H.
  apply holds_split in H. destruct H as [G3 H]. rewrite zlen_word in H.
  unfold par_body. replace (l =? 0) with false by lia.
  eapply runs_bind; [apply runs_text; eauto|]. rewrite zlen_text.
  eapply runs_bind; [apply runs_word; [exact G2|exact Wf]|].
  eapply runs_bind; [apply runs_word; [exact G3|unfold is_word; lia]|]. cbv zeta.
  rewrite (u32_small (zlen name)) by lia. rewrite u32_small by lia.
  replace (l <? 4 + zlen name + 1 + 4 + 4 + zlen data) with false by lia.
  destruct (holds_rest s _ _ None H) as [u R].
  eapply (runs_bind _ _ _ data).
  { unfold runs, liftM. rewrite <- app_assoc in R.
    rewrite (readSome_ok s (zlen data) _ data _ (eq_refl : rErr (mkR _ None) = None) R eq_refl); [reflexivity|].
    intros Q. apply app_eq_nil in Q. destruct Q as [_ Q]. apply app_eq_nil in Q. tauto. }
  rewrite Z.sub_diag. cbn [repeat]. change (Z.to_nat 0) with O. cbn [repeat]. rewrite app_nil_r.
  unfold advance. cbn [rPos rErr]. replace (l - (4 + zlen name + 1 + 4 + 4 + zlen data)) with (l - (13 + zlen name + zlen data)) by lia.
  eapply runs_q; [apply runs_ret|]. lia.
Qed.
Lemma runs_readParasites_go rs : forall fuel ps p t, Forall par_ok rs -> t <> [] ->
  holds s p (flat_map parasite_bytes rs ++ t) -> (length rs < fuel)%nat ->
  runs (whileM fuel (par_body s) (zlen (flat_map parasite_bytes rs), ps)) p (ps ++ map par_val rs) (p + zlen (flat_map parasite_bytes rs)).
Proof.
  induction rs as [|r rs IH]; intros fuel ps p t F T H Fu; destruct fuel as [|fuel]; cbn [length] in Fu; try lia.
  - cbn [flat_map map whileM]. change (zlen (@nil Z)) with 0. rewrite app_nil_r.
    eapply runs_bind; [unfold par_body; cbn; apply runs_ret|]. eapply runs_q; [apply runs_ret|]. lia.
  - inversion F as [|? ? F1 F2]; subst. cbn [flat_map map whileM] in *. rewrite <- app_assoc in H. rewrite zlen_app.
    assert (NN : flat_map parasite_bytes rs ++ t <> []) by (intros Q; apply app_eq_nil in Q; tauto).
    pose proof (zlen_pos (flat_map parasite_bytes rs)).
    eapply runs_bind; [apply (runs_par_body p _ ps r _ H NN F1); lia|]. cbv beta iota.
    replace (zlen (parasite_bytes r) + zlen (flat_map parasite_bytes rs) - zlen (parasite_bytes r)) with (zlen (flat_map parasite_bytes rs)) by lia.
    apply holds_split in H. destruct H as [_ H].
    replace (ps ++ par_val r :: map par_val rs) with ((ps ++ [par_val r]) ++ map par_val rs) by now rewrite <- app_assoc.
    eapply runs_q; [apply (IH fuel _ _ t F2 T H); lia|]. lia.
Qed.
Lemma runs_readParasites fuel rs p t : Forall par_ok rs -> t <> [] ->
  holds s p (flat_map parasite_bytes rs ++ t) -> (length rs < fuel)%nat ->
  runs (readParasites fuel s (zlen (flat_map parasite_bytes rs))) p (map par_val rs) (p + zlen (flat_map parasite_bytes rs)).
Proof. intros F T H Fu. exact (runs_readParasites_go rs fuel [] p t F T H Fu). Qed.

(** a counted loop over items *)
Lemma runs_count {S R B} (body : S -> M (S + R)) (enc : B -> list Z) (x : S) :
  forall bs, (forall b p, In b bs -> holds s p (enc b) -> runs (body x) p (inl x) (p + zlen (enc b))) ->
  forall p n, n = length bs -> holds s p (flat_map enc bs) ->
    runs (countM n body x) p (inl x) (p + zlen (flat_map enc bs)).
Proof.
  induction bs as [|b bs IH]; intros K p n -> H; cbn [flat_map length countM] in *.
  - eapply runs_q; [apply runs_ret|]. change (zlen (@nil Z)) with 0. lia.
  - apply holds_split in H. destruct H as [H1 H2]. eapply runs_bind; [apply K; [now left|exact H1]|]. cbv beta iota.
    eapply runs_q; [apply IH; [|reflexivity|exact H2]|].
    + intros b' p' I. apply K. now right.
    + rewrite zlen_app. lia.
Qed.
Lemma zlen_words l : zlen (flat_map word l) = 4 * zlen l.
Proof. induction l as [|z l IH]; [reflexivity|]. cbn [flat_map]. rewrite zlen_app, IH, zlen_word, zlen_cons. lia. Qed.
Lemma zlen_points (l : list (Z * Z * Z)) : zlen (flat_map (fun q => let '(t, x, y) := q in word t ++ word x ++ word y) l) = 12 * zlen l.
Proof. induction l as [|[[a b] c] l IH]; [reflexivity|]. cbn [flat_map]. rewrite !zlen_app, IH, !zlen_word, zlen_cons. lia. Qed.
Lemma zlen_colours (l : list (Z * Z * Z)) : zlen (flat_map (fun c => let '(r, g, b) := c in [r; g; b]) l) = 3 * zlen l.
Proof. induction l as [|[[a b] c] l IH]; [reflexivity|]. cbn [flat_map]. rewrite zlen_app, IH. change (zlen [a; b; c]) with 3. rewrite zlen_cons. lia. Qed.
Lemma length_nat {A} (l : list A) : Z.to_nat (zlen l) = length l.
Proof. unfold zlen. apply Nat2Z.id. Qed.

Ltac hs H := let G := fresh "G" in apply holds_split in H; destruct H as [G H]; rewrite ?zlen_word, ?zlen_text in H.
Lemma runs_skipPaths p a ps : Forall path_ok ps -> holds s p (word a ++ word (zlen ps) ++ flat_map path_bytes ps) ->
  runs (skipPaths s) p tt (p + zlen (word a ++ word (zlen ps) ++ flat_map path_bytes ps)).
Proof.
  intros F H. pose proof (holds_small _ _ H) as HS. rewrite !zlen_app, !zlen_word in *.
  pose proof (zlen_pos (flat_map path_bytes ps)).
  assert (LL : zlen ps <= zlen (flat_map path_bytes ps)).
  { clear. induction ps as [|q ps IH]; [reflexivity|]. cbn [flat_map]. rewrite zlen_app, zlen_cons.
    unfold path_bytes at 1. rewrite !zlen_app, !zlen_word.
    pose proof (zlen_pos (otext (paName q))). pose proof (zlen_pos [paState q]). pose proof (zlen_pos (flat_map word (paExtra q))).
    pose proof (zlen_pos (flat_map (fun q => let '(t, x, y) := q in word t ++ word x ++ word y) (paPoints q))). lia. }
  hs H. hs H. unfold skipPaths.
  eapply runs_bind; [eapply (runs_sk s Hlen'); [exact G|reflexivity]|]. rewrite ?zlen_word.
  pose proof (zlen_pos ps).
  eapply runs_bind; [apply runs_word; [exact G0|unfold is_word; lia]|].
  eapply runs_bind.
  { apply (runs_count _ path_bytes tt ps); [|now rewrite length_nat|exact H].
    intros q p0 I HQ. rewrite Forall_forall in F. destruct (F q I) as (W1 & W2 & V).
    unfold path_bytes in *. pose proof (holds_small _ _ HQ) as HS'.
    repeat rewrite zlen_app in *. repeat rewrite ?zlen_word, ?zlen_text, ?zlen_words, ?zlen_points in *.
    change (zlen [paState q]) with 1 in *. pose proof (zlen_pos (paPoints q)). pose proof (zlen_pos (otext (paName q))).
    hs HQ. hs HQ. hs HQ. change (zlen [paState q]) with 1 in HQ. hs HQ. hs HQ. hs HQ. hs HQ. rewrite zlen_words in HQ.
    eapply runs_bind; [apply runs_skotext; exact G1|].
    eapply runs_bind; [eapply (runs_sk s Hlen'); [exact G2|reflexivity]|]. rewrite ?zlen_word.
    eapply runs_bind; [eapply (runs_sk s Hlen'); [exact G3|reflexivity]|]. change (zlen [paState q]) with 1.
    eapply runs_bind; [eapply (runs_sk s Hlen'); [exact G4|reflexivity]|]. rewrite ?zlen_word.
    eapply runs_bind; [apply runs_word; [exact G5|unfold is_word; lia]|].
    eapply runs_bind; [apply runs_word; [exact G6|unfold is_word; lia]|].
    assert (U : u32 (12 * zlen (paPoints q)) = 12 * zlen (paPoints q)) by (apply u32_small; lia). rewrite U.
    pose proof (holds_range _ _ _ HQ) as HR. pose proof (holds_range _ _ _ G7) as HR7. rewrite zlen_points in *. unfold maxString in *.
    destruct V as [[V E]|[[V E]|[V E]]]; rewrite V, E in *; cbn [Z.eqb Pos.eqb].
    - eapply runs_bind; [eapply runs_skip; unfold maxString; try lia; reflexivity|]. eapply runs_q; [apply runs_ret|]. lia.
    - eapply runs_bind; [eapply runs_skip; unfold maxString; try lia; reflexivity|].
      eapply runs_bind; [eapply runs_skip; unfold maxString; try lia; reflexivity|]. eapply runs_q; [apply runs_ret|]. lia.
    - eapply runs_bind; [eapply runs_skip; unfold maxString; try lia; reflexivity|].
      eapply runs_bind; [eapply runs_skip; unfold maxString; try lia; reflexivity|].
      eapply runs_bind; [eapply runs_skip; unfold maxString; try lia; reflexivity|]. eapply runs_q; [apply runs_ret|]. lia. }
  eapply runs_q; [apply runs_ret|]. lia.
Qed.
Lemma runs_readRGB p r g b : holds s p [r; g; b] -> runs (readRGB s) p (CRGB r g b) (p + 3).
Proof.
  intros H. change [r; g; b] with ([r] ++ [g] ++ [b]) in H. hs H. hs H. change (zlen [r]) with 1 in *. change (zlen [g]) with 1 in *. unfold readRGB.
  eapply runs_bind; [apply runs_rd8; exact G|]. eapply runs_bind; [apply runs_rd8; exact G0|].
  eapply runs_bind; [apply runs_rd8; exact H|]. eapply runs_q; [apply runs_ret|]. lia.
Qed.

(** skipping paths ("vectors"): a point counts for [4 * floats + 1] bytes *)
Lemma zlen_vpoints n (l : list (Z * list Z)) : Forall (fun p => zlen (snd p) = n) l ->
  zlen (flat_map (fun p => word (fst p) ++ flat_map word (snd p)) l) = zlen l * (4 * n + 4).
Proof.
  induction 1 as [|[t fs] l F _ IH]; [reflexivity|]. cbn [flat_map fst snd] in *. rewrite !zlen_app, IH, zlen_word, zlen_words, zlen_cons, F. lia.
Qed.
Lemma runs_skipParasite p r : holds s p (parasite_bytes r) -> runs (skipParasite s) p tt (p + zlen (parasite_bytes r)).
Proof.
  destruct r as [[n f] d]. intros H. pose proof (holds_small _ _ H) as HS. rewrite zlen_par in *. unfold parasite_bytes in H.
  pose proof (zlen_pos n). pose proof (zlen_pos d). hs H. hs H. hs H. unfold skipParasite.
  eapply runs_bind; [apply runs_sktext; exact G|]. rewrite zlen_text.
  eapply runs_bind; [eapply (runs_sk s Hlen'); [exact G0|reflexivity]|]. rewrite ?zlen_word.
  eapply runs_bind; [apply runs_word; [exact G1|unfold is_word; lia]|].
  eapply runs_q; [eapply (runs_sk s Hlen'); [exact H|reflexivity]|]. lia.
Qed.
Lemma runs_skipStroke p k : stroke_ok k -> holds s p (stroke_bytes k) ->
  runs (skipStroke s tt) p (inl tt) (p + zlen (stroke_bytes k) - 3 * zlen (skPoints k)).
Proof.
  intros [N F] H. pose proof (holds_small _ _ H) as HS. pose proof (holds_range _ _ _ H) as HR. unfold stroke_bytes in *. rewrite !zlen_app, !zlen_word in *.
  rewrite (zlen_vpoints (skFloats k)) in * by assumption. pose proof (zlen_pos (skPoints k)).
  hs H. hs H. hs H. hs H. unfold skipStroke, maxString in *.
  eapply runs_bind; [apply runs_word; [exact G|unfold is_word; lia]|]. change (negb (1 =? 1)) with false. cbv iota.
  eapply runs_bind; [eapply (runs_sk s Hlen'); [exact G0|reflexivity]|]. rewrite ?zlen_word.
  eapply runs_bind; [apply runs_word; [exact G1|unfold is_word; lia]|].
  eapply runs_bind; [apply runs_word; [exact G2|unfold is_word; nia]|].
  replace ((2 <=? skFloats k) && (skFloats k <=? 6)) with true by lia.
  assert (B : zlen (skPoints k) * (skFloats k * 4 + 1) <= zlen (skPoints k) * (4 * skFloats k + 4)) by (apply Z.mul_le_mono_nonneg_l; lia).
  rewrite (u32_small (skFloats k * 4 + 1)) by (unfold is_u32; lia). rewrite u32_small by (unfold is_u32; nia).
  eapply runs_bind; [eapply runs_skip; [lia|nia|lia|lia|reflexivity]|]. eapply runs_q; [apply runs_ret|]. lia.
Qed.
Lemma runs_count1 {A R} (body : A -> M (A + R)) x p q : runs (body x) p (inl x) q -> runs (countM 1 body x) p (inl x) q.
Proof. intros H. cbn [countM]. eapply runs_bind; [exact H|]. apply runs_ret. Qed.
Definition skip_vpath (_ : unit) : M (unit + unit) :=
  skStr s;;; skM 4;;; skM 4;;; skM 4;;;
  m <- rd32 s;;
  k <- rd32 s;;
  countM (Z.to_nat m) (fun _ : unit => skipParasite s;;; retM (@inl unit unit tt)) tt;;;
  countM (Z.to_nat k) (skipStroke s) tt.
Lemma zlen_pars_le (rs : list par_rec) : zlen rs <= zlen (flat_map parasite_bytes rs).
Proof. induction rs as [|[[n f] d] rs IH]; [reflexivity|]. cbn [flat_map]. rewrite zlen_app, zlen_par, zlen_cons. pose proof (zlen_pos n). pose proof (zlen_pos d). lia. Qed.
Lemma zlen_strokes_le (ks : list stroke) : zlen ks <= zlen (flat_map stroke_bytes ks).
Proof.
  induction ks as [|k ks IH]; [reflexivity|]. cbn [flat_map]. rewrite zlen_app, zlen_cons. unfold stroke_bytes at 1. rewrite !zlen_app, !zlen_word.
  pose proof (zlen_pos (flat_map (fun p => word (fst p) ++ flat_map word (snd p)) (skPoints k))). lia.
Qed.
(** everything before the strokes *)
Lemma runs_skip_vpath p v q : holds s p (vpath_bytes v) ->
  runs (countM (length (vpStrokes v)) (skipStroke s) tt) (p + zlen (vpath_bytes v) - zlen (flat_map stroke_bytes (vpStrokes v))) (inl tt) q ->
  runs (skip_vpath tt) p (inl tt) q.
Proof.
  intros H K. pose proof (holds_small _ _ H) as HS. unfold vpath_bytes in *. rewrite !zlen_app, !zlen_word in *.
  pose proof (zlen_pars_le (vpParasites v)). pose proof (zlen_strokes_le (vpStrokes v)).
  pose proof (zlen_pos (vpParasites v)). pose proof (zlen_pos (vpStrokes v)). pose proof (zlen_pos (otext (vpName v))).
  hs H. hs H. hs H. hs H. hs H. hs H. hs H. unfold skip_vpath.
  eapply runs_bind; [apply runs_skotext; exact G|].
  eapply runs_bind; [eapply (runs_sk s Hlen'); [exact G0|reflexivity]|]. rewrite ?zlen_word.
  eapply runs_bind; [eapply (runs_sk s Hlen'); [exact G1|reflexivity]|]. rewrite ?zlen_word.
  eapply runs_bind; [eapply (runs_sk s Hlen'); [exact G2|reflexivity]|]. rewrite ?zlen_word.
  eapply runs_bind; [apply runs_word; [exact G3|unfold is_word; lia]|].
  eapply runs_bind; [apply runs_word; [exact G4|unfold is_word; lia]|].
  eapply runs_bind.
  { apply (runs_count _ parasite_bytes tt (vpParasites v)); [|now rewrite length_nat|exact G5].
    intros r y _ Hr. eapply runs_bind; [apply runs_skipParasite; exact Hr|apply runs_ret]. }
  rewrite length_nat. eapply runs_q; [|reflexivity].
  replace (p + zlen (otext (vpName v)) + 4 + 4 + 4 + 4 + 4 + zlen (flat_map parasite_bytes (vpParasites v))) with
    (p + (zlen (otext (vpName v)) + (4 + (4 + (4 + (4 + (4 + (zlen (flat_map parasite_bytes (vpParasites v)) + zlen (flat_map stroke_bytes (vpStrokes v))))))))) - zlen (flat_map stroke_bytes (vpStrokes v))) by lia.
  exact K.
Qed.
Lemma runs_pointless p v : vpath_ok v -> pointless v -> holds s p (vpath_bytes v) ->
  runs (skip_vpath tt) p (inl tt) (p + zlen (vpath_bytes v)).
Proof.
  intros O N H. apply (runs_skip_vpath p v); [exact H|]. unfold vpath_ok, pointless in *. rewrite Forall_forall in O, N.
  eapply runs_q; [apply (runs_count _ stroke_bytes tt (vpStrokes v)); [|reflexivity|]|].
  - intros k y I Hk. eapply runs_q; [apply runs_skipStroke; [exact (O k I)|exact Hk]|]. rewrite (N k I). change (zlen (@nil (Z * list Z))) with 0. lia.
  - unfold vpath_bytes in *. do 6 (apply holds_split in H; destruct H as [_ H]). apply holds_split in H. destruct H as [_ H]. rewrite !zlen_app.
    refine (eq_ind _ (fun z => holds s z _) H _ _). lia.
  - lia.
Qed.
Lemma zlen_vpaths_le (vs : list vpath) : zlen vs <= zlen (flat_map vpath_bytes vs).
Proof.
  induction vs as [|v vs IH]; [reflexivity|]. cbn [flat_map]. rewrite zlen_app, zlen_cons. unfold vpath_bytes at 1. rewrite !zlen_app, !zlen_word.
  pose proof (zlen_pos (otext (vpName v))). pose proof (zlen_pos (flat_map parasite_bytes (vpParasites v))). pose proof (zlen_pos (flat_map stroke_bytes (vpStrokes v))). lia.
Qed.
Lemma runs_skipVectors p a vs q : holds s p (vectors_bytes a vs) ->
  runs (countM (length vs) skip_vpath tt) (p + 12) (inl tt) q -> runs (skipVectors s) p tt q.
Proof.
  intros H K. pose proof (holds_small _ _ H) as HS. unfold vectors_bytes in *. rewrite !zlen_app, !zlen_word in *.
  pose proof (zlen_vpaths_le vs). pose proof (zlen_pos vs). hs H. hs H. hs H. unfold skipVectors.
  eapply runs_bind; [apply runs_word; [exact G|unfold is_word; lia]|]. change (negb (1 =? 1)) with false. cbv iota.
  eapply runs_bind; [eapply (runs_sk s Hlen'); [exact G0|reflexivity]|]. rewrite ?zlen_word.
  eapply runs_bind; [apply runs_word; [exact G1|unfold is_word; lia]|].
  eapply runs_bind; [rewrite length_nat; replace (p + 4 + 4 + 4) with (p + 12) by lia; exact K|]. apply runs_ret.
Qed.
Lemma runs_skipVectors_pointless p a vs : Forall vpath_ok vs -> Forall pointless vs -> holds s p (vectors_bytes a vs) ->
  runs (skipVectors s) p tt (p + zlen (vectors_bytes a vs)).
Proof.
  intros O N H. eapply runs_skipVectors; [exact H|]. rewrite Forall_forall in O, N.
  eapply runs_q; [apply (runs_count _ vpath_bytes tt vs); [|reflexivity|]|].
  - intros v y I Hv. exact (runs_pointless y v (O v I) (N v I) Hv).
  - unfold vectors_bytes in H. do 3 (apply holds_split in H; destruct H as [_ H]). rewrite !zlen_word in H.
    replace (p + 12) with (p + 4 + 4 + 4) by lia. exact H.
  - unfold vectors_bytes. rewrite !zlen_app, !zlen_word. lia.
Qed.
(** one path of one stroke *)
Lemma runs_skipVectors_one p a v k : vpath_ok v -> vpStrokes v = [k] -> holds s p (vectors_bytes a [v]) ->
  runs (skipVectors s) p tt (p + zlen (vectors_bytes a [v]) - 3 * zlen (skPoints k)).
Proof.
  intros O E H. eapply runs_skipVectors; [exact H|]. apply runs_count1.
  unfold vpath_ok in O. rewrite E in O. apply Forall_inv in O.
  unfold vectors_bytes in *. cbn [flat_map] in *. rewrite app_nil_r in *. do 3 (apply holds_split in H; destruct H as [_ H]). rewrite !zlen_word in H.
  replace (p + 4 + 4 + 4) with (p + 12) in H by lia. rewrite !zlen_app, !zlen_word.
  apply (runs_skip_vpath (p + 12) v); [exact H|]. rewrite E. cbn [flat_map length]. rewrite app_nil_r. apply runs_count1.
  unfold vpath_bytes in *. rewrite E in *. cbn [flat_map] in *. rewrite app_nil_r in *.
  do 7 (apply holds_split in H; destruct H as [_ H]). rewrite !zlen_app.
  eapply runs_q; [apply runs_skipStroke; [exact O|]|].
  - refine (eq_ind _ (fun z => holds s z _) H _ _). lia.
  - lia.
Qed.

(** what a property makes of the palette and the compression *)
Definition istep (typ : Z) (l : list Z) (st st' : imgprop_state) : Prop :=
  typ = 17 /\ (exists c, l = [c] /\ st' = (fst st, c)) \/
  typ = 1 /\ (exists cs, l = word (zlen cs) ++ flat_map (fun c => let '(r, g, b) := c in [r; g; b]) cs /\
    st' = (Some (map (fun c => let '(r, g, b) := c in CRGB r g b) cs), snd st)) \/
  typ <> 1 /\ typ <> 17 /\ st' = st.
Theorem property_step base fuel st p typ l t : payload base typ l ->
  (typ = 1 -> base = 2) -> (typ = 18 \/ typ = 39 -> l = []) ->
  (typ = 25 -> exists a vs, l = vectors_bytes a vs /\ Forall vpath_ok vs /\ Forall pointless vs) ->
  holds s p (property typ l ++ t) -> t <> [] -> (Z.to_nat (zlen l) < fuel)%nat ->
  exists st', runs (imgprop_body fuel s base st) p (inl st') (p + zlen (property typ l)) /\ istep typ l st st'.
Proof.
  intros P C1 C2 C3 H T Fu. destruct st as [pal comp]. unfold property in *. rewrite !zlen_app, !zlen_word.
  pose proof (holds_small _ _ H) as HS. rewrite !zlen_app, !zlen_word in HS. pose proof (zlen_pos l). pose proof (zlen_pos t).
  assert (WT : is_word typ).
  { inversion P; subst; try (unfold is_word; lia); auto. cbn in *; unfold is_word; lia. }
  rewrite <- !app_assoc in H. hs H. hs H. pose proof (holds_range _ _ _ H) as HR. rewrite zlen_app in HR. unfold maxString in *.
  assert (X : forall k r, (exists x, runs (k typ (zlen l)) (p + 4 + 4) (inl x : imgprop_state + (err + imgprop_state)) (p + 4 + 4 + zlen l) /\ istep typ l (pal, comp) x) ->
    r = (typ <- rd32 s;; pl <- rd32 s;; k typ pl) ->
    exists x, runs r p (inl x) (p + (4 + (4 + zlen l))) /\ istep typ l (pal, comp) x).
  { intros k r (x & K & J) ->. exists x. split; [|exact J]. eapply runs_bind; [apply runs_word; [exact G|exact WT]|].
    eapply runs_bind; [apply runs_word; [exact G0|unfold is_word; lia]|]. eapply runs_q; [exact K|]. lia. }
  set (q := p + 4 + 4) in *.
  unfold imgprop_body. eapply X; [|reflexivity]. cbv beta. clear X G G0.
  assert (SK : forall y n r, holds s y n -> r = y + zlen n -> runs (skM (zlen n)) y tt r).
  { intros y n r Hy ->. eapply (runs_sk s Hlen'); eauto. }
  inversion P; subst.
  - hs H. assert (B : runs (rdBool s) q b (q + 4)).
    { apply runs_rdBool. rewrite <- word_be32; [exact G|]. unfold is_word. destruct b; lia. }
    cbn in H2. destruct H2 as [<-|[<-|[<-|[]]]]; exists (pal, comp); (split; [|now right; right]); (eapply runs_bind; [exact B|apply runs_ret]).
  - hs H. exists (pal, comp). split; [|now right; right]. eapply runs_bind; [apply runs_word; [exact G|unfold is_word; lia]|].
    replace (255 <? o) with false by lia. apply runs_ret.
  - hs H. exists (pal, comp). split; [|now right; right]. eapply runs_bind; [apply runs_word; [exact G|assumption]|]. apply runs_ret.
  - hs H. exists (pal, c). split; [|left; split; [reflexivity|]; now exists c]. eapply runs_bind; [apply runs_rd8; exact G|]. replace (1 <? c) with false by lia. apply runs_ret.
  - rewrite <- app_assoc in H. hs H. hs H. exists (pal, comp). split; [|now right; right].
    eapply runs_bind; [eapply (SK _ _ _ G); reflexivity|]. eapply runs_bind; [eapply (SK _ _ _ G0); reflexivity|].
    eapply runs_q; [apply runs_ret|]. rewrite zlen_app, !zlen_word. lia.
  - hs H. exists (pal, comp). split; [|now right; right]. eapply runs_bind; [apply runs_word; [exact G|unfold is_word; lia]|].
    replace (4 <? u) with false by lia. apply runs_ret.
  - pose proof (zlen_pos l0). rewrite (C1 eq_refl). rewrite zlen_app, zlen_word, zlen_colours in *. rewrite <- app_assoc in H. hs H. hs H.
    exists (Some (map (fun c => let '(r, g, b) := c in CRGB r g b) l0), comp). split; [|right; left; split; [reflexivity|]; now exists l0]. change (negb (2 =? 2)) with false. cbv iota.
    eapply runs_bind; [apply runs_ret|].
    eapply runs_bind; [apply runs_word; [exact G|unfold is_word; lia]|].
    eapply runs_bind.
    { rewrite length_nat.
      apply (runs_list s (readRGB s) (fun c => let '(r, g, b) := c in [r; g; b]) (fun c => let '(r, g, b) := c in CRGB r g b)); [|reflexivity|exact G0].
      intros [[r g] b] y Hy. now apply runs_readRGB. }
    eapply runs_q; [apply runs_ret|]. rewrite zlen_colours. lia.
  - rewrite <- !app_assoc in H. hs H. hs H. hs H. hs H. hs H. hs H. hs H. exists (pal, comp). split; [|now right; right].
    eapply runs_bind; [eapply (SK _ _ _ G); reflexivity|]. rewrite ?zlen_word. eapply runs_bind; [eapply (SK _ _ _ G0); reflexivity|]. rewrite ?zlen_word.
    do 5 (eapply runs_bind; [apply runs_skotext; eassumption|]).
    eapply runs_q; [apply runs_ret|]. rewrite !zlen_app, !zlen_word. lia.
  - exists (pal, comp). split; [|now right; right]. eapply runs_bind; [apply (runs_readParasites fuel ps q t); auto|apply runs_ret].
    assert (LL : (length ps <= Z.to_nat (zlen (flat_map parasite_bytes ps)))%nat).
    { clear. rewrite length_nat. induction ps as [|[[n f] d] ps IH]; [reflexivity|]. cbn [flat_map length].
      rewrite app_length. pose proof (zlen_par n f d) as L. unfold zlen in L. lia. }
    lia.
  - exists (pal, comp). split; [|now right; right]. hs H. eapply runs_bind; [apply runs_skipPaths; eauto|apply runs_ret].
  - destruct (C3 eq_refl) as (a' & vs' & E & O & N). rewrite E in *. exists (pal, comp). split; [|now right; right]. hs H.
    eapply runs_bind; [apply runs_skipVectors_pointless; eauto|apply runs_ret].
  - rewrite (C2 ltac:(auto)) in *. exists (pal, comp). split; [|now right; right]. change (negb (_ =? _)) with false. cbv iota.
    eapply runs_bind; [apply runs_list0|]. eapply runs_q; [apply runs_ret|]. change (zlen (@nil Z)) with 0; lia.
  - rewrite (C2 ltac:(auto)) in *. exists (pal, comp). split; [|now right; right]. change (zlen (@nil Z)) with 0. change (0 mod 2 =? 1) with false. cbv iota.
    eapply runs_bind; [apply runs_list0|]. eapply runs_q; [apply runs_ret|]. lia.
  - exists (pal, comp). split; [|right; right; split; [intros ->; cbn in *; tauto|split; [intros ->; cbn in *; tauto|reflexivity]]]. hs H.
    replace (runs _ _ _ _) with (runs (skM (zlen l);;; retM (@inl imgprop_state (err + imgprop_state) (pal, comp))) q (inl (pal, comp)) (q + zlen l)).
    { eapply runs_bind; [eapply (SK _ _ _ G); reflexivity|apply runs_ret]. }
    repeat match goal with |- _ = runs (match ?x with _ => _ end) _ _ _ => is_var x; destruct x; try reflexivity; try (exfalso; cbn in *; intuition fail) end.
Qed.
Theorem property_framed base fuel st p typ l t : payload base typ l ->
  (typ = 1 -> base = 2) -> (typ = 18 \/ typ = 39 -> l = []) ->
  (typ = 25 -> exists a vs, l = vectors_bytes a vs /\ Forall vpath_ok vs /\ Forall pointless vs) ->
  holds s p (property typ l ++ t) -> t <> [] -> (Z.to_nat (zlen l) < fuel)%nat ->
  exists st', runs (imgprop_body fuel s base st) p (inl st') (p + zlen (property typ l)).
Proof. intros. destruct (property_step base fuel st p typ l t) as (x & R & _); eauto. Qed.
End File.
