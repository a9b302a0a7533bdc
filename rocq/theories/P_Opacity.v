(** C79: the opacity of a layer given as a floating point number (property 33). *)
From Coq Require Import ZifyBool ZifyNat.
Require Import Verif.Base Verif.M_Float Verif.L_List Verif.L_Word Verif.M_Color Verif.M_Composite Verif.M_Rect Verif.M_Image Verif.M_Groups Verif.M_Reader Verif.M_Monad Verif.M_Decode
  Verif.S_String Verif.S_File Verif.S_Props Verif.S_Accept Verif.S_Meaning Verif.P_Props Verif.P_Accept Verif.P_Meaning.

(** [unit_float b m s]: the bits b are those of a float32 from 0 to 1, of the value m / 2^s *)
Definition unit_float (b m s : Z) : Prop :=
  ((b = m /\ 0 <= m < 8388608 /\ s = 149) \/
   (b = (150 - s) * 8388608 + (m - 8388608) /\ 8388608 <= m < 16777216 /\ 23 <= s <= 149)) /\ m <= 2 ^ s.

(** ** rounding *)
Definition ulp (n : Z) : Z := 2 ^ (Z.log2 n - 23).
Lemma ulp_pos n : 0 < n -> 16777216 <= n -> 0 < ulp n.
Proof. intros. apply Z.pow_pos_nonneg; [lia|]. assert (Z.log2 16777216 <= Z.log2 n) by (apply Z.log2_le_mono; lia). change (Z.log2 16777216) with 24 in *. lia. Qed.
Lemma round_near n : 16777216 <= n -> exists q, f32round n = ulp n * q /\ 2 * Z.abs (ulp n * q - n) <= ulp n /\
  (forall k, ulp n * k <= n -> k <= q) /\ (forall k, n <= ulp n * k -> q <= k) /\
  (forall k, 2 * Z.abs (ulp n * k - n) < ulp n -> q = k).
Proof.
  intros H. unfold f32round. replace (n <? 16777216) with false by lia. fold (ulp n). pose proof (ulp_pos n ltac:(lia) H) as U. set (u := ulp n) in *. cbv zeta.
  pose proof (Z.div_mod n u ltac:(lia)) as D. pose proof (Z.mod_pos_bound n u U) as R. set (q := n / u) in *. set (r := n mod u) in *. clearbody q r u.
  assert (A : forall k, u * k <= n -> k <= q) by (intros k K; apply Z.lt_succ_r; apply (Z.mul_lt_mono_pos_l u); lia).
  assert (B : forall k, n <= u * k -> q <= k) by (intros k K; apply (Z.mul_le_mono_pos_l _ _ u); lia).
  assert (B' : forall k, n <= u * k -> 0 < r -> q + 1 <= k) by (intros k K P; apply Z.lt_pred_le; replace (Z.pred (q + 1)) with q by lia; apply (Z.mul_lt_mono_pos_l u); lia).
  assert (C : forall k, 2 * Z.abs (u * k - n) < u -> (k = q /\ 2 * r < u) \/ (k = q + 1 /\ u < 2 * r)).
  { intros k K. destruct (Z.lt_trichotomy k q) as [X|[X|X]].
    - assert (u * k <= u * (q - 1)) by (apply Z.mul_le_mono_nonneg_l; lia). lia.
    - subst k. lia.
    - destruct (Z.eq_dec k (q + 1)) as [->|Y]; [right; lia|]. assert (u * (q + 2) <= u * k) by (apply Z.mul_le_mono_nonneg_l; lia). lia. }
  destruct (2 * r <? u) eqn:E1; [|destruct (u <? 2 * r) eqn:E2; [|destruct (Z.even q) eqn:E3]].
  - exists q. split; [reflexivity|]. split; [lia|]. split; [exact A|]. split; [exact B|]. intros k K. specialize (C k K). lia.
  - exists (q + 1). split; [reflexivity|]. split; [lia|]. split; [intros k K; specialize (A k K); lia|]. split; [intros k K; apply B'; lia|]. intros k K. specialize (C k K). lia.
  - exists q. split; [reflexivity|]. split; [lia|]. split; [exact A|]. split; [exact B|]. intros k K. specialize (C k K). lia.
  - exists (q + 1). split; [reflexivity|]. split; [lia|]. split; [intros k K; specialize (A k K); lia|]. split; [intros k K; apply B'; lia|]. intros k K. specialize (C k K). lia.
Qed.
(** a number in the range of an opacity, in units of 2^-149 *)
Notation one := (2 ^ 149).
Lemma ulp_divides n : 16777216 <= n <= 255 * one -> exists j, 0 < j /\ one = ulp n * j /\ ulp n <= 2 ^ 133 /\ one * 256 = ulp n * (j * 256).
Proof.
  intros H. assert (L : 24 <= Z.log2 n <= 156).
  { assert (Z.log2 16777216 <= Z.log2 n) by (apply Z.log2_le_mono; lia). change (Z.log2 16777216) with 24 in *.
    assert (Z.log2 n < 157); [|lia]. apply Z.log2_lt_pow2; [lia|]. eapply Z.le_lt_trans; [apply H|]. reflexivity. }
  exists (2 ^ (149 - (Z.log2 n - 23))). unfold ulp. split; [apply Z.pow_pos_nonneg; lia|].
  assert (E : one = 2 ^ (Z.log2 n - 23) * 2 ^ (149 - (Z.log2 n - 23))) by (rewrite <- Z.pow_add_r by lia; f_equal; lia).
  split; [exact E|]. split; [apply Z.pow_le_mono_r; lia|]. rewrite E at 1. lia.
Qed.
Lemma round_exact n k : 0 <= n <= 255 * one -> (one * k <= n -> one * k <= f32round n) /\ (n <= one * k -> f32round n <= one * k) /\
  2 * Z.abs (f32round n - n) <= 2 ^ 133 /\ (16777216 <= n -> 2 * Z.abs (one * k - n) < ulp n -> f32round n = one * k).
Proof.
  intros H. destruct (Z_lt_dec n 16777216) as [S|G].
  - unfold f32round. replace (n <? 16777216) with true by lia. split; [auto|]. split; [auto|]. split; [|lia].
    rewrite Z.sub_diag. apply Z.pow_nonneg. lia.
  - destruct (ulp_divides n ltac:(lia)) as (j & J & E & LE & _). destruct (round_near n ltac:(lia)) as (q & -> & N & A & B & C).
    pose proof (ulp_pos n ltac:(lia) ltac:(lia)) as U. rewrite E, <- !Z.mul_assoc. split; [|split; [|split]].
    + intros X. apply Z.mul_le_mono_nonneg_l; [lia|auto].
    + intros X. apply Z.mul_le_mono_nonneg_l; [lia|auto].
    + lia.
    + intros _ X. f_equal. auto.
Qed.
Lemma round_mono n n' : 0 <= n <= n' -> f32round n <= f32round n'.
Proof.
  intros H. destruct (Z_lt_dec n' 16777216) as [S|G].
  { unfold f32round. replace (n <? 16777216) with true by lia. replace (n' <? 16777216) with true by lia. lia. }
  destruct (round_near n' ltac:(lia)) as (q' & E' & N' & A' & B' & C'). pose proof (ulp_pos n' ltac:(lia) ltac:(lia)) as U'.
  assert (P' : 2 ^ Z.log2 n' = ulp n' * 8388608).
  { unfold ulp. change 8388608 with (2 ^ 23). assert (Z.log2 16777216 <= Z.log2 n') by (apply Z.log2_le_mono; lia). change (Z.log2 16777216) with 24 in *.
    rewrite <- Z.pow_add_r by lia. f_equal. lia. }
  assert (LO' : 2 ^ Z.log2 n' <= f32round n').
  { rewrite E', P'. apply Z.mul_le_mono_nonneg_l; [lia|]. apply A'. rewrite <- P'. apply Z.log2_spec. lia. }
  destruct (Z_lt_dec n 16777216) as [S|G'].
  { unfold f32round at 1. replace (n <? 16777216) with true by lia. assert (2 ^ 24 <= 2 ^ Z.log2 n'); [|change (2 ^ 24) with 16777216 in *; lia].
    apply Z.pow_le_mono_r; [lia|]. change 24 with (Z.log2 16777216). apply Z.log2_le_mono. lia. }
  destruct (round_near n ltac:(lia)) as (q & E & N & A & B & C). pose proof (ulp_pos n ltac:(lia) ltac:(lia)) as U.
  destruct (Z.eq_dec (Z.log2 n) (Z.log2 n')) as [X|X].
  - assert (Y : ulp n' = ulp n) by (unfold ulp; now rewrite X). rewrite Y in *. rewrite E, E'. apply Z.mul_le_mono_nonneg_l; [lia|].
    destruct (Z_le_dec q q') as [Z|Z]; [exact Z|]. assert (ulp n * (q' + 1) <= ulp n * q) by (apply Z.mul_le_mono_nonneg_l; lia).
    (* n' rounds below q, n rounds to q: n = n' = the tie *)
    assert (n = n') by lia. subst n'. rewrite E in E'. apply Z.mul_reg_l in E'; lia.
  - assert (Z.log2 n < Z.log2 n') by (pose proof (Z.log2_le_mono n n'); lia).
    transitivity (2 ^ Z.log2 n'); [|exact LO']. transitivity (2 ^ (Z.log2 n + 1)); [|apply Z.pow_le_mono_r; lia].
    assert (P : 2 ^ (Z.log2 n + 1) = ulp n * 16777216).
    { unfold ulp. change 16777216 with (2 ^ 24). assert (Z.log2 16777216 <= Z.log2 n) by (apply Z.log2_le_mono; lia). change (Z.log2 16777216) with 24 in *.
      rewrite <- Z.pow_add_r by lia. f_equal. lia. }
    rewrite E, P. apply Z.mul_le_mono_nonneg_l; [lia|]. apply B. rewrite <- P. pose proof (Z.log2_spec n ltac:(lia)). lia.
Qed.

(** ** the bits *)
Lemma float_mag b m s : unit_float b m s -> f32mag b = m * 2 ^ (149 - s) /\ f32finite b = true /\ f32neg b = false /\ 23 <= s <= 149 /\ 0 <= m < 16777216 /\
  0 <= m * 2 ^ (149 - s) <= one.
Proof.
  intros [K LE].
  assert (R : 23 <= s <= 149 /\ 0 <= m < 16777216) by lia.
  assert (Q : 0 <= m * 2 ^ (149 - s) <= one).
  { split; [apply Z.mul_nonneg_nonneg; [lia|apply Z.pow_nonneg; lia]|].
    replace one with (2 ^ s * 2 ^ (149 - s)) by (rewrite <- Z.pow_add_r by lia; f_equal; lia). apply Z.mul_le_mono_nonneg_r; [apply Z.pow_nonneg; lia|exact LE]. }
  destruct K as [(-> & M & ->)|(-> & M & S)].
  - unfold f32mag, f32finite, f32neg. rewrite (Z.div_small m 8388608), (Z.div_small m 2147483648), (Z.mod_small m) by lia. change (0 mod 256) with 0. cbn [Z.eqb negb].
    change (149 - 149) with 0 in *. rewrite Z.pow_0_r, Z.mul_1_r in *. tauto.
  - unfold f32mag, f32finite, f32neg.
    assert (D1 : ((150 - s) * 8388608 + (m - 8388608)) / 8388608 = 150 - s) by (rewrite Z.add_comm, Z.div_add, Z.div_small; lia).
    assert (D2 : ((150 - s) * 8388608 + (m - 8388608)) mod 8388608 = m - 8388608) by (rewrite Z.add_comm, Z.mod_add, Z.mod_small; lia).
    assert (D3 : ((150 - s) * 8388608 + (m - 8388608)) / 2147483648 = 0) by (apply Z.div_small; lia).
    rewrite D1, D2, D3, Z.mod_small by lia. replace (150 - s =? 0) with false by lia. replace (150 - s =? 255) with false by lia. cbn [negb Z.eqb].
    replace (8388608 + (m - 8388608)) with m by lia. replace (150 - s - 1) with (149 - s) by lia. tauto.
Qed.
Lemma float_byte wild b m s : unit_float b m s -> let x := 255 * (m * 2 ^ (149 - s)) in
  0 <= x <= 255 * one /\ float_opacity wild b = f32round x / one /\ 0 <= float_opacity wild b <= 255 /\ one * float_opacity wild b <= f32round x < one * (float_opacity wild b + 1).
Proof.
  intros F x. destruct (float_mag b m s F) as (M & FI & NE & S & RM & RX). assert (X : 0 <= x <= 255 * one) by (unfold x; lia).
  destruct (round_exact x 0 X) as (A & _ & _ & _). destruct (round_exact x 255 X) as (_ & B & _ & _).
  assert (P : 0 <= f32round x <= one * 255) by lia. assert (Q : 0 <= f32round x / one <= 255).
  { split; [apply Z.div_pos; lia|]. apply Z.div_le_upper_bound; lia. }
  assert (E : float_opacity wild b = f32round x / one).
  { unfold float_opacity. rewrite M, FI, NE. fold x. cbv zeta. cbn [andb orb negb]. now replace (f32round x / one <? 256) with true by lia. }
  split; [exact X|]. split; [exact E|]. rewrite E. split; [exact Q|]. pose proof (Z.div_mod (f32round x) one ltac:(lia)). pose proof (Z.mod_pos_bound (f32round x) one ltac:(lia)). lia.
Qed.

(** ** C79 *)
(** The byte for an opacity from 0 to 1 is 255 times the number, rounded down; a product that
    lies less than 2^-17 below an integer may be taken for that integer. *)
Theorem C79_rounds_down wild b m s : unit_float b m s ->
  let o := float_opacity wild b in 0 <= o <= 255 /\ 255 * m < (o + 1) * 2 ^ s /\ o * 2 ^ s <= 255 * m + 2 ^ (s - 17).
Proof.
  intros F o. destruct (float_byte wild b m s F) as (X & _ & R & Q). fold o in R, Q. set (x := 255 * (m * 2 ^ (149 - s))) in *.
  destruct (float_mag b m s F) as (_ & _ & _ & S & _ & _).
  assert (P : 0 < 2 ^ (149 - s)) by (apply Z.pow_pos_nonneg; lia).
  assert (E : one = 2 ^ s * 2 ^ (149 - s)) by (rewrite <- Z.pow_add_r by lia; f_equal; lia).
  assert (E2 : 2 ^ 132 = 2 ^ (s - 17) * 2 ^ (149 - s)) by (rewrite <- Z.pow_add_r by lia; f_equal; lia).
  split; [exact R|]. split.
  - destruct (round_exact x (o + 1) X) as (A & _). apply (Z.mul_lt_mono_pos_r (2 ^ (149 - s))); [exact P|].
    replace (255 * m * 2 ^ (149 - s)) with x by (unfold x; lia). replace ((o + 1) * 2 ^ s * 2 ^ (149 - s)) with (one * (o + 1)) by (rewrite E; lia). lia.
  - destruct (round_exact x o X) as (_ & _ & N & _). apply (Z.mul_le_mono_pos_r _ _ (2 ^ (149 - s))); [exact P|].
    rewrite Z.mul_add_distr_r, <- E2. replace (255 * m * 2 ^ (149 - s)) with x by (unfold x; lia). replace (o * 2 ^ s * 2 ^ (149 - s)) with (one * o) by (rewrite E; lia).
    change (2 ^ 133) with (2 * 2 ^ 132) in N. lia.
Qed.
Print Assumptions C79_rounds_down.
(** A greater opacity never gives a smaller byte. *)
Theorem C79_monotone wild b m s b' m' s' : unit_float b m s -> unit_float b' m' s' -> m * 2 ^ s' <= m' * 2 ^ s ->
  float_opacity wild b <= float_opacity wild b'.
Proof.
  intros F F' H. destruct (float_byte wild b m s F) as (X & -> & _). destruct (float_byte wild b' m' s' F') as (X' & -> & _).
  destruct (float_mag b m s F) as (_ & _ & _ & S & M & _). destruct (float_mag b' m' s' F') as (_ & _ & _ & S' & M' & _).
  apply Z.div_le_mono; [lia|]. apply round_mono. split; [lia|]. apply Z.mul_le_mono_nonneg_l; [lia|].
  apply (Z.mul_le_mono_pos_r _ _ (2 ^ s * 2 ^ s')); [apply Z.mul_pos_pos; apply Z.pow_pos_nonneg; lia|].
  replace (m * 2 ^ (149 - s) * (2 ^ s * 2 ^ s')) with (one * (m * 2 ^ s')) by (replace one with (2 ^ (149 - s) * 2 ^ s) by (rewrite <- Z.pow_add_r by lia; f_equal; lia); lia).
  replace (m' * 2 ^ (149 - s') * (2 ^ s * 2 ^ s')) with (one * (m' * 2 ^ s)) by (replace one with (2 ^ (149 - s') * 2 ^ s') by (rewrite <- Z.pow_add_r by lia; f_equal; lia); lia).
  apply Z.mul_le_mono_nonneg_l; lia.
Qed.
Print Assumptions C79_monotone.
(** The float32 nearest to k/255 (at most half a unit in its last place away) is read as k: the
    opacities that a byte can say are kept. *)
Theorem C79_bytes_kept wild b m s k : unit_float b m s -> 0 <= k <= 255 -> 2 * Z.abs (255 * m - k * 2 ^ s) <= 255 -> float_opacity wild b = k.
Proof.
  intros F K H. destruct (float_byte wild b m s F) as (X & _ & R & Q). set (o := float_opacity wild b) in *. set (x := 255 * (m * 2 ^ (149 - s))) in *.
  destruct (float_mag b m s F) as (_ & _ & _ & S & M & _).
  assert (P : 0 < 2 ^ (149 - s)) by (apply Z.pow_pos_nonneg; lia).
  assert (E : one = 2 ^ s * 2 ^ (149 - s)) by (rewrite <- Z.pow_add_r by lia; f_equal; lia).
  assert (P2 : 2 ^ (149 - s) <= 2 ^ 126) by (apply Z.pow_le_mono_r; lia).
  assert (EX : x - one * k = (255 * m - k * 2 ^ s) * 2 ^ (149 - s)) by (rewrite E; unfold x; lia).
  assert (AX : Z.abs (x - one * k) <= 127 * 2 ^ (149 - s)) by (rewrite EX, Z.abs_mul, (Z.abs_eq (2 ^ _)) by lia; apply Z.mul_le_mono_nonneg_r; lia).
  destruct (round_exact x k X) as (A & _ & N & C).
  assert (BIG : 127 * 2 ^ 126 + 2 ^ 133 < one) by reflexivity.
  assert (UP : f32round x < one * (k + 1)) by lia.
  assert (LO : one * k <= f32round x).
  { destruct (Z_le_dec (one * k) x) as [Y|Y]; [auto|].
    assert (K1 : 1 <= k) by lia.
    assert (NS : 8388608 <= m).
    { destruct F as [[(_ & M1 & ->)|(_ & M1 & _)] _]; [|lia]. exfalso. change (149 - 149) with 0 in *. rewrite Z.pow_0_r in *.
      assert (one * 1 <= one * k) by (apply Z.mul_le_mono_nonneg_l; lia). assert (255 * m <= 255 * 8388608) by lia. unfold x in *. lia. }
    assert (LT : 255 * m < k * 2 ^ s) by (apply (Z.mul_lt_mono_pos_r (2 ^ (149 - s))); [exact P|]; assert (k * 2 ^ s * 2 ^ (149 - s) = one * k) by (rewrite E; lia); unfold x in Y; lia).
    destruct (Z_lt_dec (255 * m) 2147483648) as [SM|LG].
    - exfalso. assert (T : exists t, k * 2 ^ s = t * 8388608).
      { exists (k * 2 ^ (s - 23)). change 8388608 with (2 ^ 23). rewrite <- Z.mul_assoc, <- Z.pow_add_r by lia. do 2 f_equal. lia. }
      destruct T as [t T]. rewrite T in *. lia.
    - assert (XB : x = 255 * m * 2 ^ (149 - s)) by (unfold x; lia).
      assert (L : Z.log2 x = 31 + (149 - s)).
      { rewrite XB, Z.log2_mul_pow2 by lia. replace (Z.log2 (255 * m)) with 31; [lia|]. symmetry. apply Z.log2_unique; [lia|]. change (2 ^ 31) with 2147483648. change (2 ^ Z.succ 31) with 4294967296. lia. }
      assert (UL : ulp x = 256 * 2 ^ (149 - s)).
      { unfold ulp. rewrite L. replace (31 + (149 - s) - 23) with (8 + (149 - s)) by lia. rewrite Z.pow_add_r by lia. reflexivity. }
      rewrite C; [lia| |rewrite UL; lia].
      rewrite XB. assert (255 * m * 1 <= 255 * m * 2 ^ (149 - s)) by (apply Z.mul_le_mono_nonneg_l; lia). lia. }
  assert (o < k + 1) by (apply (Z.mul_lt_mono_pos_l one); lia). assert (k < o + 1) by (apply (Z.mul_lt_mono_pos_l one); lia). lia.
Qed.
Print Assumptions C79_bytes_kept.

(** ** in a layer *)
Lemma word_same a b : is_word a -> is_word b -> word a = word b -> a = b.
Proof.
  intros A B E. injection E as E1 E2 E3 E4. unfold is_word in *.
  assert (D : forall z, z = 16777216 * (z / 16777216) + 65536 * ((z / 65536) mod 256) + 256 * ((z / 256) mod 256) + z mod 256).
  { intros z. pose proof (Z.div_mod z 256 ltac:(lia)). pose proof (Z.div_mod (z / 256) 256 ltac:(lia)). pose proof (Z.div_mod (z / 65536) 256 ltac:(lia)).
    replace (z / 16777216) with (z / 65536 / 256) by (rewrite Z.div_div by lia; reflexivity). replace (z / 256 / 256) with (z / 65536) in * by (rewrite Z.div_div by lia; reflexivity). lia. }
  rewrite (D a), (D b). congruence.
Qed.
Lemma all_mean_app float mo ps qs a a' : all_mean float mo (ps ++ qs) a a' -> exists b, all_mean float mo ps a b /\ all_mean float mo qs b a'.
Proof.
  revert a. induction ps as [|p ps IH]; intros a; cbn [app all_mean].
  - intros H. exists a. auto.
  - intros (b & M & H). destruct (IH b H) as (c & H1 & H2). exists c. split; [exists b; auto|exact H2].
Qed.
Lemma others_keep float mo qs a a' : Forall (fun q => fst q <> 6 /\ fst q <> 33) qs -> all_mean float mo qs a a' -> aTransparency a' = aTransparency a.
Proof.
  revert a. induction qs as [|q qs IH]; intros a; cbn [all_mean].
  - intros _ ->. reflexivity.
  - intros F (b & M & H). inversion F as [|? ? [N1 N2] F']; subst. rewrite (IH b F' H). inversion M; cbn [aTransparency]; congruence.
Qed.
Lemma float_means float mo b a a' : is_word b -> means float mo 33 (word b) a a' -> aTransparency a' = 255 - float b.
Proof.
  intros W M. inversion M as [|z x y m h t g p ps Wz E1 E2 E3 E4| | | | | | | typ l a0 N]; subst.
  - cbn [aTransparency]. f_equal. f_equal. apply word_same; auto. unfold word. congruence.
  - exfalso. apply N. simpl. tauto.
Qed.
(** A layer whose last word on its opacity is the number k/255, in the nearest float32, is read with
    the transparency 255 - k, whatever else is in the list of its properties. *)
Theorem C79_layer f p w h typ name ps b qs fuel wild ptext d l st' m s k :
  zlen f < 16777216 -> is_word w -> is_word h -> utf8 name -> good_props (dpMode d) (ps ++ (33, word b) :: qs) ->
  Forall (fun q => fst q <> 6 /\ fst q <> 33) qs ->
  has f p (word w ++ word h ++ word typ ++ text name ++ props_bytes (ps ++ (33, word b) :: qs)) ->
  dpBase d = 0 -> 0 <= typ <= 1 ->
  readLayer fuel (newReader f) (float_opacity wild) ptext d (mkR p None) = Ret (l, st') ->
  unit_float b m s -> 0 <= k <= 255 -> 2 * Z.abs (255 * m - k * 2 ^ s) <= 255 ->
  dlTransparency l = 255 - k.
Proof.
  intros L W H U G O A B T D F K N. destruct (C67_partial _ _ _ _ _ _ _ _ _ _ _ _ _ L W H U G A B T D) as (a & M & _ & _ & _ & _ & -> & _).
  destruct (all_mean_app _ _ _ _ _ _ M) as (a1 & _ & M'). cbn [all_mean fst snd] in M'. destruct M' as (a2 & M1 & M2).
  rewrite (others_keep _ _ _ _ _ O M2). rewrite (float_means (fun z => u8 (float_opacity wild z)) gimp_mode b a1 a2).
  - rewrite (C79_bytes_kept wild b m s k F K N). f_equal. apply u8_id. lia.
  - destruct F as [[(-> & R & _)|(-> & R & S)] _]; unfold is_word; lia.
  - exact M1.
Qed.
Print Assumptions C79_layer.

(** An opacity that is no number from 0 to 1 is not refused: the layer is read all the same, with
    a transparency that the Go specification leaves to the implementation. *)
Definition odd_layer (b : Z) : list Z := word 1 ++ word 1 ++ word 0 ++ text [97] ++ props_bytes [(29, []); (33, word b)] ++ pointer 1 0 ++ pointer 1 0.
Theorem C79_refuted : exists b, (forall m s, ~ unit_float b m s) /\
  forall wild, exists l st', readLayer 200 (newReader (odd_layer b)) (float_opacity wild) no_text (mkDP 1 true 0 None 1) (mkR 0 None) = Ret (l, st') /\ rErr st' = None /\
    dlTransparency l = u8 (255 - u8 (wild b)).
Proof.
  exists 2143289344. split.
  - intros m s [[(A & B & _)|(A & B & S)] _]; lia.
  - intros wild. eexists. eexists. split; [vm_compute; reflexivity|]. split; [reflexivity|]. vm_compute. reflexivity.
Qed.
Print Assumptions C79_refuted.

(** 0, 1/255, 127/255, 128/255, 254/255, 1 and the float32 just below 128/255 *)
Example C79_ex :
  map (float_opacity (fun _ => 0)) [0; 998277249; 1056898815; 1056997505; 1065287423; 1065353216; 1056997504] = [0; 1; 127; 128; 254; 255; 127] /\
  unit_float 998277249 8421505 31 /\ 2 * Z.abs (255 * 8421505 - 1 * 2 ^ 31) <= 255 /\
  unit_float 1065287423 16711423 24 /\ 2 * Z.abs (255 * 16711423 - 254 * 2 ^ 24) <= 255 /\
  exists l st', readLayer 200 (newReader (odd_layer 998277249)) (float_opacity (fun _ => 0)) no_text (mkDP 1 true 0 None 1) (mkR 0 None) = Ret (l, st') /\ dlTransparency l = 254.
Proof.
  unfold unit_float. split; [vm_compute; reflexivity|]. split; [lia|]. split; [lia|]. split; [lia|]. split; [lia|].
  eexists. eexists. split; [vm_compute; reflexivity|]. reflexivity.
Qed.
