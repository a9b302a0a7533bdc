(** What the parser makes of the lines that WriteText writes. *)
From Coq Require Import String.
Require Import Verif.Base Verif.L_List Verif.M_Color Verif.M_Image Verif.M_Decode Verif.M_Ora Verif.S_Ora Verif.L_Ora Verif.M_Text
  Verif.S_String Verif.L_String Verif.S_Text Verif.L_Text.
From Coq Require Import ZifyBool ZifyNat.
Open Scope Z_scope.
Open Scope list_scope.

Lemma span_all f w : forallb f w = true -> forall r, match r with [] => True | c :: _ => f c = false end -> span f (w ++ r) = (w, r).
Proof.
  intros H r R. induction w as [|c w IH]; cbn [app span].
  - destruct r as [|c r]; [reflexivity|]. cbn [span]. now rewrite R.
  - cbn [forallb] in H. apply andb_prop in H. destruct H as [-> H]. now rewrite (IH H).
Qed.

(** ** numbers *)
Lemma itoa_digits n : 0 <= n -> itoa n <> [] /\ forallb isDigit (itoa n) = true /\ value_of (itoa n) = n.
Proof.
  intros H. unfold itoa. replace (n <? 0) with false by lia. destruct (digits_ok n H) as (N & D & V & _ & _).
  split; [exact N|]. split.
  - apply forallb_forall. intros x Hx. pose proof (proj1 (Forall_forall _ _) D x Hx) as G. cbv beta in G. unfold isDigit. unfold digit in G. lia.
  - assert (G : forall s v, fold_left (fun v c => 10 * v + (c - 48)) s v = S_Ora.value s v).
    { induction s as [|c s IH]; intros v; [reflexivity|]. cbn [fold_left S_Ora.value]. rewrite IH. f_equal. lia. }
    unfold value_of. rewrite G, V. lia.
Qed.

Section Lines.
Variable L : tlibs.
(** a delimiter: what may follow a value *)
Definition delim (s : list Z) : Prop := match s with c :: _ => c = 32 \/ c = 41 | [] => False end.
(** the bytes [w], after a blank, are read as the value [v] *)
Definition reads (w : list Z) (v : M_Text.value) : Prop := forall r, delim r ->
  valueTK (32 :: w ++ r) = (match v with VStr s => KStr s | VNum s => KNum s | VTag _ => KErr end, r) /\
  match v with VNum s => exists n, tl_float L s = Some n | VStr _ => True | VTag _ => False end.

Lemma valueTK_blank s : valueTK (32 :: s) = valueTK s.
Proof. unfold valueTK. cbn [span]. change (isSpace 32) with true. cbv iota. destruct (span isSpace s). reflexivity. Qed.
Lemma reads_quoted s : isb s -> reads (quote L s) (VStr (shown L s)).
Proof.
  intros B r D. split; [|exact I]. rewrite valueTK_blank. pose proof (quotedString_quote L s r B) as Q.
  unfold quote in *. cbn [app] in *. unfold valueTK.
  change (span isSpace (34 :: (quoteBody L (List.length s) s ++ [34]) ++ r)) with (@nil Z, 34 :: (quoteBody L (List.length s) s ++ [34]) ++ r).
  cbn [snd]. change (34 =? 0) with false. change (34 =? 40) with false. change (34 =? 41) with false. change (34 =? 34) with true. cbv iota.
  rewrite Q. reflexivity.
Qed.
Lemma reads_word c w : forallb isValName (c :: w) = true -> reads (c :: w) (VStr (c :: w)).
Proof.
  intros H r D. split; [|exact I]. rewrite valueTK_blank.
  assert (Hc : isValName c = true) by (cbn [forallb] in H; now apply andb_prop in H).
  unfold valueTK. cbn [app span]. replace (isSpace c) with false by (unfold isSpace, isValName in *; lia). cbn [snd].
  replace (c =? 0) with false by (unfold isValName in *; lia). replace (c =? 40) with false by (unfold isValName in *; lia).
  replace (c =? 41) with false by (unfold isValName in *; lia). replace (c =? 34) with false by (unfold isValName in *; lia).
  replace (isDigit c) with false by (unfold isDigit, isValName in *; lia). 
  pose proof (span_all isValName (c :: w) H r) as S. cbn [app] in S. rewrite S; [reflexivity|].
  destruct r as [|x r]; [exact I|]. cbn [delim] in D. destruct D as [-> | ->]; reflexivity.
Qed.
Lemma reads_number n k : float_ok (tl_float L) -> 0 <= n < 4294967296 -> reads (itoa n ++ 46 :: repeat 48 k) (VNum (itoa n ++ 46 :: repeat 48 k)) /\
  numOf L (VNum (itoa n ++ 46 :: repeat 48 k)) = n.
Proof.
  intros F Hn. destruct (itoa_digits n ltac:(lia)) as (N & D & V).
  assert (FL : tl_float L (itoa n ++ 46 :: repeat 48 k) = Some n).
  { pose proof (F (itoa n) k) as X. rewrite V in X. apply X; [|exact N|lia].
    apply Forall_forall. intros x Hx. pose proof (proj1 (forallb_forall _ _) D x Hx) as G. unfold isDigit in G. lia. }
  split; [|cbn [numOf]; now rewrite FL].
  intros r De. split; [|eauto]. rewrite valueTK_blank.
  destruct (itoa n) as [|c w]; [contradiction|]. set (z := repeat 48 k) in *.
  assert (Hc : isDigit c = true) by (cbn [forallb] in D; now apply andb_prop in D).
  unfold valueTK. cbn [app span]. replace (isSpace c) with false by (unfold isSpace, isDigit in *; lia). cbn [snd].
  replace (c =? 0) with false by (unfold isDigit in *; lia). replace (c =? 40) with false by (unfold isDigit in *; lia).
  replace (c =? 41) with false by (unfold isDigit in *; lia). replace (c =? 34) with false by (unfold isDigit in *; lia).
  rewrite Hc.
  pose proof (span_all isDigit (c :: w) D ((46 :: z) ++ r) eq_refl) as S1. cbn [app] in S1. rewrite <- app_assoc. cbn [app]. rewrite S1.
  change (46 =? 46) with true. cbv iota.
  rewrite (span_all isDigit z).
  - rewrite <- ?app_assoc. reflexivity.
  - unfold z. apply forallb_forall. intros x Hx. apply repeat_spec in Hx. subst x. reflexivity.
  - destruct r as [|x r]; [exact I|]. cbn [delim] in De. destruct De as [-> | ->]; reflexivity.
Qed.

(** ** runs of values *)
Definition spaced (ws : list (list Z)) : list Z := flat_map (fun w => 32 :: w) ws.
Lemma delim_spaced ws r : delim r -> delim (spaced ws ++ r).
Proof. destruct ws; cbn; auto. Qed.
Lemma acceptRun_values ws vs : Forall2 reads ws vs -> forall f r k r', delim r -> (List.length ws < f)%nat ->
  valueTK r = (k, r') -> (k = KClose \/ k = KOpen) ->
  acceptRun f (spaced ws ++ r) = Some (vs, k, r').
Proof.
  induction 1 as [|w v ws vs R _ IH]; intros f r k r' D Lf V K; (destruct f as [|f]; [cbn in Lf; lia|]).
  - cbn [spaced flat_map app acceptRun]. rewrite V. destruct K as [-> | ->]; reflexivity.
  - cbn [acceptRun]. cbn [spaced flat_map]. fold (spaced ws). rewrite <- app_assoc. cbn [app].
    destruct (R (spaced ws ++ r) (delim_spaced ws r D)) as [E Fl]. rewrite E. cbn [List.length] in Lf.
    destruct v as [s|s|t]; [| |destruct Fl]; rewrite (IH f r k r' D ltac:(lia) V K); reflexivity.
Qed.
Lemma floatsOk_reads ws vs : Forall2 reads ws vs -> floatsOk L vs = true.
Proof.
  induction 1 as [|w v ws vs R _ IH]; [reflexivity|]. unfold floatsOk in *. cbn [forallb]. rewrite IH.
  destruct (R [41] (or_intror eq_refl)) as [_ F]. destruct v as [s|s|t]; [reflexivity| |destruct F]. destruct F as [n ->]. reflexivity.
Qed.
Lemma readValues_S f name acc s : readValues L (S f) name acc s =
  match acceptRun f s with
  | None => RNoFuel
  | Some (vs, k, r) =>
      if negb (floatsOk L vs) then match k with KDone => REnd | _ => RErr end else
      match k with
      | KClose => ROk (mkTag name (acc ++ vs)) r
      | KOpen =>
          match nameTK r with
          | (KName n, r) =>
              match readValues L f n [] r with
              | ROk t r => readValues L f name (acc ++ vs ++ [VTag t]) r
              | e => e
              end
          | _ => RErr
          end
      | KDone => REnd
      | _ => RErr
      end
  end.
Proof. reflexivity. Qed.
Lemma valueTK_close r : valueTK (41 :: r) = (KClose, r).
Proof. reflexivity. Qed.
Lemma readValues_flat ws vs f name acc r : Forall2 reads ws vs -> (S (List.length ws) < f)%nat ->
  readValues L f name acc (spaced ws ++ 41 :: r) = ROk (mkTag name (acc ++ vs)) r.
Proof.
  intros H Lf. destruct f as [|f]; [lia|]. rewrite readValues_S.
  rewrite (acceptRun_values ws vs H f (41 :: r) KClose r); [|right; reflexivity|lia|reflexivity|now left].
  rewrite (floatsOk_reads _ _ H). reflexivity.
Qed.
Lemma nameTK_ok n r : forallb isValName n = true -> n <> [] -> match r with [] => True | c :: _ => isValName c = false end -> nameTK (n ++ r) = (KName n, r).
Proof. intros H N R. unfold nameTK. rewrite (span_all _ _ H _ R). destruct n; [contradiction|reflexivity]. Qed.

(** a tag that is read whole *)
Definition line (s : list Z) (t : tag) : Prop := forall f r, (6 <= f)%nat -> readTag L f (s ++ r) = ROk t r.
Lemma line_flat n ws vs : forallb isValName n = true -> n <> [] -> Forall2 reads ws vs -> (List.length ws <= 3)%nat ->
  line (40 :: n ++ spaced ws ++ [41]) (mkTag n vs).
Proof.
  intros H N R Lw f r Lf. unfold readTag. cbn [app].
  change (openTK (40 :: (n ++ spaced ws ++ [41]) ++ r)) with (KOpen, (n ++ spaced ws ++ [41]) ++ r). cbv iota.
  rewrite <- !app_assoc. cbn [app]. rewrite nameTK_ok; [|exact H|exact N|destruct ws; reflexivity].
  apply (readValues_flat ws vs f n [] r R). lia.
Qed.
(** a tag with one tag as its value *)
Lemma line_nested n n' ws vs : forallb isValName n = true -> n <> [] -> forallb isValName n' = true -> n' <> [] -> Forall2 reads ws vs -> (List.length ws <= 3)%nat ->
  line (40 :: n ++ 32 :: 40 :: n' ++ spaced ws ++ [41; 41]) (mkTag n [VTag (mkTag n' vs)]).
Proof.
  intros H N H' N' R Lw f r Lf. unfold readTag. cbn [app].
  change (openTK (40 :: (n ++ 32 :: 40 :: n' ++ spaced ws ++ [41; 41]) ++ r)) with (KOpen, (n ++ 32 :: 40 :: n' ++ spaced ws ++ [41; 41]) ++ r). cbv iota.
  rewrite <- app_assoc. rewrite nameTK_ok; [|exact H|exact N|reflexivity]. cbn [app].
  destruct f as [|f]; [lia|]. rewrite readValues_S. destruct f as [|f]; [lia|]. cbn [acceptRun]. rewrite valueTK_blank.
  change (valueTK (40 :: (n' ++ spaced ws ++ [41; 41]) ++ r)) with (KOpen, (n' ++ spaced ws ++ [41; 41]) ++ r). cbv iota.
  change (negb (floatsOk L [])) with false. cbv iota.
  rewrite <- !app_assoc. cbn [app]. rewrite nameTK_ok; [|exact H'|exact N'|destruct ws; reflexivity].
  rewrite (readValues_flat ws vs) by (assumption || lia). rewrite readValues_S. destruct f as [|f]; [lia|]. reflexivity.
Qed.

(** ** all the lines *)
Lemma readTag_nl f s : readTag L f (10 :: s) = readTag L f s.
Proof. unfold readTag, openTK. cbn [span]. change (isSpace 10) with true. cbv iota. destruct (span isSpace s). reflexivity. Qed.
Definition lines (ss : list (list Z)) : list Z := flat_map (fun s => s ++ [10]) ss.
Lemma parse_lines ss ts : Forall2 line ss ts -> forall f, (7 + List.length ss <= f)%nat ->
  parse L f (lines ss ++ [0]) = POk ts /\ parse L f (10 :: lines ss ++ [0]) = POk ts.
Proof.
  induction 1 as [|s t ss ts Hl _ IH]; intros f Lf; (destruct f as [|f]; [lia|]).
  - split; reflexivity.
  - cbn [List.length] in Lf. cbn [parse]. rewrite readTag_nl. cbn [lines flat_map]. fold (lines ss). rewrite <- !app_assoc. cbn [app].
    rewrite (Hl f (10 :: lines ss ++ [0]) ltac:(lia)). destruct (IH f ltac:(lia)) as [_ ->]. auto.
Qed.
End Lines.

(** concrete libraries: nothing outside ASCII printable, digits up to a point, no XML *)
Fixpoint digits_up_to_point (s : list Z) (v : Z) : Z :=
  match s with
  | c :: s => if isDigit c then digits_up_to_point s (10 * v + (c - 48)) else v
  | [] => v
  end.
Definition plain_libs : tlibs := mkTLibs (fun _ => false) (fun s => Some (digits_up_to_point s 0)) (fun _ => ([], true)).
Lemma plain_float : float_ok (tl_float plain_libs).
Proof.
  intros s k F _ _. cbn [tl_float plain_libs]. f_equal. unfold value_of. generalize 0. induction F as [|c s Hc F IH]; intros v.
  - reflexivity.
  - cbn [app digits_up_to_point fold_left]. unfold isDigit. replace (_ && _) with true by lia. apply IH.
Qed.
