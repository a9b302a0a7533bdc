(** Lemmas about the compositing model. *)
Require Import Verif.Base Verif.M_Color Verif.M_Composite Verif.S_Color Verif.L_Word Verif.L_Color.
From Coq Require Import ZifyBool ZifyNat.

Definition k_of (a1 a2 : Z) : Z := 65535 * a2 / (65535 - (65535 - a1) * (65535 - a2) / 65535).

Lemma den_bounds a1 a2 : 0 <= a1 <= 65535 -> 0 <= a2 <= 65535 ->
  let d := 65535 - (65535 - a1) * (65535 - a2) / 65535 in
  a1 <= d /\ a2 <= d /\ d <= 65535 /\
  65535 * d - 65534 <= 65535 * (a1 + a2) - a1 * a2 <= 65535 * d.
Proof.
  intros H1 H2. cbv zeta.
  pose proof (div_bounds ((65535 - a1) * (65535 - a2)) 65535 ltac:(lia)) as B.
  set (q := (65535 - a1) * (65535 - a2) / 65535) in *.
  assert (0 <= q) by (apply Z.div_pos; nia).
  assert (q <= 65535 - a1) by nia.
  assert (q <= 65535 - a2) by nia.
  repeat split; nia.
Qed.

Lemma k_range a1 a2 : 0 <= a1 <= 65535 -> 0 <= a2 <= 65535 -> 0 < a1 + a2 ->
  0 <= k_of a1 a2 <= 65535.
Proof.
  intros H1 H2 H3. pose proof (den_bounds a1 a2 H1 H2) as D. cbv zeta in D.
  unfold k_of. apply div_range; nia.
Qed.

Lemma blend_eq a1 x1 a2 x2 :
  0 <= a1 <= 65535 -> 0 <= a2 <= 65535 -> 0 < a1 + a2 ->
  0 <= x1 <= 65535 -> 0 <= x2 <= 65535 ->
  blend a1 x1 a2 x2 =
    Some ((65535 - k_of a1 a2) * x1 / 65535 + k_of a1 a2 * x2 / 65535)
  /\ Z.min x1 x2 - 1 <= (65535 - k_of a1 a2) * x1 / 65535 + k_of a1 a2 * x2 / 65535 <= Z.max x1 x2.
Proof.
  intros H1 H2 H3 Hx1 Hx2.
  pose proof (den_bounds a1 a2 H1 H2) as D. cbv zeta in D.
  pose proof (k_range a1 a2 H1 H2 H3) as K.
  unfold blend.
  rewrite (u32_id (65535 - a1)), (u32_id (65535 - a2)) by lia.
  rewrite (u32_id ((65535 - a1) * (65535 - a2))) by nia.
  rewrite (u32_id (65535 - _ / _)) by lia.
  rewrite udiv_some by lia. cbn [obind].
  rewrite (u32_id (65535 * a2)) by lia.
  fold (k_of a1 a2). set (k := k_of a1 a2) in *.
  rewrite (u32_id (65535 - k)) by lia.
  pose proof (mul16 (65535 - k) x1 ltac:(lia) Hx1).
  pose proof (mul16 k x2 ltac:(lia) Hx2).
  rewrite (u32_id ((65535 - k) * x1)), (u32_id (k * x2)) by lia.
  pose proof (div_bounds ((65535 - k) * x1) 65535 ltac:(lia)) as B1.
  pose proof (div_bounds (k * x2) 65535 ltac:(lia)) as B2.
  set (q1 := (65535 - k) * x1 / 65535) in *. set (q2 := k * x2 / 65535) in *.
  assert (U : q1 + q2 <= Z.max x1 x2) by nia.
  assert (L : Z.min x1 x2 - 1 <= q1 + q2) by nia.
  assert (0 <= q1) by (apply Z.div_pos; lia).
  assert (0 <= q2) by (apply Z.div_pos; lia).
  rewrite (u32_id (q1 + q2)) by lia. rewrite u16_id by lia. auto.
Qed.

(** opaque top / transparent top *)
Lemma k_opaque a1 : 0 <= a1 <= 65535 -> k_of a1 65535 = 65535.
Proof. intros. unfold k_of. replace (65535 - 65535) with 0 by lia. rewrite Z.mul_0_r. reflexivity. Qed.
Lemma k_transparent a1 : k_of a1 0 = 0.
Proof. unfold k_of. rewrite Z.mul_0_r. destruct (65535 - (65535 - a1) * (65535 - 0) / 65535); reflexivity. Qed.

Lemma blend_opaque a1 x1 x2 : 0 <= a1 <= 65535 -> 0 <= x1 <= 65535 -> 0 <= x2 <= 65535 ->
  blend a1 x1 65535 x2 = Some x2.
Proof.
  intros. destruct (blend_eq a1 x1 65535 x2) as [-> _]; try lia.
  rewrite k_opaque by lia. f_equal.
  replace (65535 - 65535) with 0 by lia. rewrite Z.mul_0_l, Z.div_0_l by lia.
  rewrite Z.mul_comm, Z.div_mul by lia. lia.
Qed.
Lemma blend_transparent a1 x1 x2 : 0 < a1 <= 65535 -> 0 <= x1 <= 65535 -> 0 <= x2 <= 65535 ->
  blend a1 x1 0 x2 = Some x1.
Proof.
  intros. destruct (blend_eq a1 x1 0 x2) as [-> _]; try lia.
  rewrite k_transparent. f_equal.
  rewrite Z.sub_0_r, (Z.mul_comm 65535), Z.div_mul by lia. rewrite Z.mul_0_l, Z.div_0_l by lia. lia.
Qed.

(** Accuracy of [blend] against the exact over operator
    (M*a2*x2 + (M-a2)*a1*x1) / (M*(a1+a2) - a1*a2) *)
Lemma blend_accuracy a1 x1 a2 x2 :
  0 <= a1 <= 65535 -> 0 <= a2 <= 65535 -> 0 < a1 + a2 ->
  0 <= x1 <= 65535 -> 0 <= x2 <= 65535 ->
  within 259 (65535 * a2 * x2 + (65535 - a2) * a1 * x1) (65535 * (a1 + a2) - a1 * a2)
    ((65535 - k_of a1 a2) * x1 / 65535 + k_of a1 a2 * x2 / 65535).
Proof.
  intros H1 H2 H3 Hx1 Hx2.
  pose proof (den_bounds a1 a2 H1 H2) as D. cbv zeta in D.
  pose proof (k_range a1 a2 H1 H2 H3) as K.
  set (den := 65535 - (65535 - a1) * (65535 - a2) / 65535) in *.
  set (E := 65535 * (a1 + a2) - a1 * a2) in *.
  assert (HE : 0 < E) by (subst E; nia).
  assert (Hden : 0 < den) by lia.
  pose proof (div_bounds (65535 * a2) den Hden) as KB.
  unfold k_of in K |- *. fold den in K |- *.
  set (k := 65535 * a2 / den) in *.
  (* 0 <= 65535^2*a2 - k*E <= 257*E *)
  assert (HEa : 65535 * a2 <= E) by (subst E; nia).
  assert (LO : k * E <= 65535 * 65535 * a2) by nia.
  set (e := 65535 * den - E).
  assert (He : 0 <= e <= 65534) by (subst e; lia).
  assert (UP1 : 65535 * 65535 * a2 * den - k * E * den <= 256 * E * den + E * den).
  { assert (HH : 65535 * a2 * e <= E * e) by nia.
    assert (G1 : e <= 256 * den).
    { destruct (Z_le_gt_dec 256 den); [lia|].
      assert (a1 <= 255) by lia. assert (a2 <= 255) by lia.
      assert (a1 * a2 <= 65025) by nia.
      assert (den = a1 + a2) by (subst E; lia).
      subst e E. nia. }
    assert (R1 : 65535 * a2 < den * k + den) by lia.
    assert (65535 * a2 * E <= den * k * E + den * E) by nia.
    assert (EE : 65535 * 65535 * a2 * den = 65535 * a2 * E + 65535 * a2 * e) by (subst e; nia).
    assert (E * e <= E * (256 * den)) by nia.
    nia. }
  assert (UP : 65535 * 65535 * a2 - k * E <= 257 * E) by nia.
  clear UP1 He e HEa.
  (* pass to the result *)
  pose proof (div_bounds ((65535 - k) * x1) 65535 ltac:(lia)) as B1.
  pose proof (div_bounds (k * x2) 65535 ltac:(lia)) as B2.
  set (q1 := (65535 - k) * x1 / 65535) in *. set (q2 := k * x2 / 65535) in *.
  unfold within. split; [exact HE|].
  set (v := q1 + q2).
  (* exact numerator N with 65535*N = 65535*E*x1 + 65535^2*a2*(x2-x1) *)
  assert (NN : 65535 * (65535 * a2 * x2 + (65535 - a2) * a1 * x1)
             = 65535 * E * x1 + 65535 * 65535 * a2 * (x2 - x1)) by (subst E; ring).
  set (N := 65535 * a2 * x2 + (65535 - a2) * a1 * x1) in *.
  assert (V : 65535 * x1 + k * (x2 - x1) - 131070 <= 65535 * v <= 65535 * x1 + k * (x2 - x1))
    by (subst v; nia).
  set (T := 65535 * 65535 * a2 - k * E) in *.
  assert (DIFF : 65535 * N = (65535 * x1 + k * (x2 - x1)) * E + T * (x2 - x1)) by (subst T; lia).
  set (w := 65535 * x1 + k * (x2 - x1)) in *.
  assert (T1 : - (65535 * T) <= T * (x2 - x1) <= 65535 * T).
  { assert (0 <= T) by (subst T; lia). nia. }
  assert (HT : 0 <= T <= 257 * E) by (subst T; lia).
  clearbody w v T N. clear - HE V DIFF T1 HT.
  assert (A1 : 65535 * v * E <= w * E) by (apply Z.mul_le_mono_nonneg_r; lia).
  assert (A2 : (w - 131070) * E <= 65535 * v * E) by (apply Z.mul_le_mono_nonneg_r; lia).
  apply Z.abs_le. split; lia.
Qed.

(** everything users need to know about one blended channel *)
Definition blend_spec (a1 x1 a2 x2 v : Z) : Prop :=
  0 <= v <= 65535 /\ Z.min x1 x2 - 1 <= v <= Z.max x1 x2 /\
  within 259 (65535 * a2 * x2 + (65535 - a2) * a1 * x1) (65535 * (a1 + a2) - a1 * a2) v.

Lemma blend_ok a1 x1 a2 x2 :
  0 <= a1 <= 65535 -> 0 <= a2 <= 65535 -> 0 < a1 + a2 ->
  0 <= x1 <= 65535 -> 0 <= x2 <= 65535 ->
  exists v, blend a1 x1 a2 x2 = Some v /\ blend_spec a1 x1 a2 x2 v.
Proof.
  intros. destruct (blend_eq a1 x1 a2 x2) as [E B]; try assumption.
  pose proof (blend_accuracy a1 x1 a2 x2) as A.
  eexists. split; [exact E|]. unfold blend_spec. split; [|split; auto].
  split; [|lia].
  pose proof (k_range a1 a2).
  apply Z.add_nonneg_nonneg; (apply Z.div_pos; [apply Z.mul_nonneg_nonneg|]; lia).
Qed.

Lemma alpha_over_eq a1 a2 : 0 <= a1 <= 65535 -> 0 <= a2 <= 65535 ->
  u16 (u32 (65535 - u32 (u32 (65535 - a1) * u32 (65535 - a2)) / 65535))
  = 65535 - (65535 - a1) * (65535 - a2) / 65535.
Proof.
  intros H1 H2. pose proof (den_bounds a1 a2 H1 H2) as D. cbv zeta in D.
  rewrite (u32_id (65535 - a1)), (u32_id (65535 - a2)) by lia.
  rewrite (u32_id (_ * _)) by nia.
  rewrite u32_id by lia. apply u16_id; lia.
Qed.

Lemma compositeNormal_spec b t : wf64 b -> wf64 t -> 0 < cA b + cA t ->
  exists c, compositeNormal b t = Some c /\ wf64 c /\
    blend_spec (cA b) (cR b) (cA t) (cR t) (cR c) /\
    blend_spec (cA b) (cG b) (cA t) (cG t) (cG c) /\
    blend_spec (cA b) (cB b) (cA t) (cB t) (cB c) /\
    cA c = 65535 - (65535 - cA b) * (65535 - cA t) / 65535.
Proof.
  intros (?&?&?&?) (?&?&?&?) Hp. unfold is_u16 in *. unfold compositeNormal.
  replace ((cA b =? 0) && (cA t =? 0)) with false by lia.
  destruct (blend_ok (cA b) (cR b) (cA t) (cR t)) as (r & -> & Sr); try lia.
  destruct (blend_ok (cA b) (cG b) (cA t) (cG t)) as (g & -> & Sg); try lia.
  destruct (blend_ok (cA b) (cB b) (cA t) (cB t)) as (l & -> & Sl); try lia.
  cbn [obind]. eexists. split; [reflexivity|]. cbn [cR cG cB cA].
  rewrite alpha_over_eq by lia.
  pose proof (den_bounds (cA b) (cA t)) as D. cbv zeta in D.
  split; [|repeat (split; [assumption|]); reflexivity].
  unfold blend_spec in *. unfold wf64, is_u16; cbn [cR cG cB cA]. lia.
Qed.

Lemma compositeNormal_empty b t : cA b = 0 -> cA t = 0 ->
  compositeNormal b t = Some (mk64 0 0 0 0).
Proof. intros H1 H2. unfold compositeNormal. rewrite H1, H2. reflexivity. Qed.

Lemma compositeNormal_ok b t : wf64 b -> wf64 t ->
  exists c, compositeNormal b t = Some c /\ wf64 c.
Proof.
  intros Hb Ht. destruct (Z_lt_le_dec 0 (cA b + cA t)) as [Hp|Hp].
  - destruct (compositeNormal_spec b t Hb Ht Hp) as (c & ? & ? & _). eauto.
  - destruct Hb as (?&?&?&?), Ht as (?&?&?&?). unfold is_u16 in *.
    rewrite compositeNormal_empty by lia. eexists; split; [reflexivity|].
    unfold wf64, is_u16; cbn; lia.
Qed.
