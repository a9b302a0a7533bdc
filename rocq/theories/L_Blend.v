(** Lemmas about the channel functions and the separable modes. *)
Require Import Verif.Base Verif.M_Color Verif.M_Composite Verif.S_Color Verif.S_Composite
  Verif.L_Word Verif.L_Color Verif.L_Composite.
From Coq Require Import ZifyBool ZifyNat.

Definition r16 (x : Z) : Prop := 0 <= x <= 65535.

Lemma clamp_eq n : 0 <= n -> clamp n = Z.min 65535 n.
Proof.
  intros. unfold clamp. destruct (Z.ltb_spec 65535 n); [lia|]. rewrite u16_id; lia.
Qed.
Lemma clamp_range n : 0 <= n -> r16 (clamp n).
Proof. intros. rewrite clamp_eq by lia. unfold r16; lia. Qed.

Lemma div65535 a : let q := a / 65535 in 65535 * q <= a < 65535 * q + 65535.
Proof. cbv zeta. pose proof (div_bounds a 65535). lia. Qed.

Lemma within_floor n d : 0 < d -> within 1 n d (n / d).
Proof.
  intros Hd. unfold within. split; [exact Hd|]. pose proof (div_bounds n d Hd).
  apply Z.abs_le. nia.
Qed.

Lemma multiply_ok x y : r16 x -> r16 y ->
  exists v, compositeMultiply x y = Some v /\ r16 v /\ within 1 (x * y) 65535 v.
Proof.
  unfold r16; intros. unfold compositeMultiply. pose proof (mul16 x y).
  rewrite u32_id by lia.
  assert (0 <= x * y / 65535 <= 65535) by (apply div_range; nia).
  rewrite u16_id by lia. eexists; split; [reflexivity|]. split; [lia|].
  apply within_floor; lia.
Qed.

Lemma screen_ok x y : r16 x -> r16 y ->
  exists v, compositeScreen x y = Some v /\ r16 v /\
    within 1 (65535 * 65535 - (65535 - x) * (65535 - y)) 65535 v.
Proof.
  unfold r16; intros. unfold compositeScreen.
  rewrite (u16_id (65535 - x)), (u16_id (65535 - y)) by lia.
  pose proof (mul16 (65535 - x) (65535 - y)).
  rewrite (u32_id (_ * _)) by lia.
  assert (0 <= (65535 - x) * (65535 - y) / 65535 <= 65535) by (apply div_range; nia).
  rewrite u32_id by lia. rewrite u16_id by lia.
  eexists; split; [reflexivity|]. split; [lia|].
  set (p := (65535 - x) * (65535 - y)) in *. pose proof (div65535 p) as D; cbv zeta in D.
  unfold within. split; [lia|]. apply Z.abs_le. lia.
Qed.

Lemma overlay_eq x y : r16 x -> r16 y ->
  compositeOverlay x y =
   Some ((65535 - y) * (x * x / 65535) / 65535 + y * (65535 - (65535 - y) * (65535 - y) / 65535) / 65535)
  /\ r16 ((65535 - y) * (x * x / 65535) / 65535 + y * (65535 - (65535 - y) * (65535 - y) / 65535) / 65535).
Proof.
  unfold r16; intros Hx Hy. unfold compositeOverlay.
  rewrite !(u32_id (65535 - y)) by lia.
  pose proof (mul16 x x ltac:(lia) ltac:(lia)).
  pose proof (mul16 (65535 - y) (65535 - y) ltac:(lia) ltac:(lia)).
  rewrite (u32_id (x * x)), (u32_id ((65535 - y) * (65535 - y))) by lia.
  assert (A : 0 <= x * x / 65535 <= 65535) by (apply div_range; nia).
  assert (B : 0 <= (65535 - y) * (65535 - y) / 65535 <= 65535) by (apply div_range; nia).
  rewrite (u32_id (65535 - _ / _)) by lia.
  set (a := x * x / 65535) in *. set (b := 65535 - (65535 - y) * (65535 - y) / 65535) in *.
  assert (Hb : 0 <= b <= 65535) by (subst b; lia). clearbody a b.
  pose proof (mul16 (65535 - y) a ltac:(lia) ltac:(lia)). pose proof (mul16 y b ltac:(lia) ltac:(lia)).
  rewrite (u32_id ((65535 - y) * a)), (u32_id (y * b)) by lia.
  assert (0 <= (65535 - y) * a / 65535 <= 65535 - y) by (apply div_range; nia).
  assert (0 <= y * b / 65535 <= y) by (apply div_range; nia).
  rewrite u32_id by lia. rewrite u16_id by lia. split; [reflexivity|lia].
Qed.

Lemma difference_ok x y : r16 x -> r16 y ->
  compositeDifference x y = Some (Z.abs (x - y)).
Proof.
  unfold r16; intros. unfold compositeDifference.
  destruct (Z.ltb_spec y x); rewrite u16_id by lia; f_equal; lia.
Qed.
Lemma addition_ok x y : r16 x -> r16 y ->
  compositeAddition x y = Some (Z.min 65535 (x + y)).
Proof.
  unfold r16; intros. unfold compositeAddition. rewrite u32_id by lia.
  rewrite clamp_eq by lia. reflexivity.
Qed.
Lemma subtract_ok x y : r16 x -> r16 y ->
  compositeSubtract x y = Some (Z.max 0 (x - y)).
Proof.
  unfold r16; intros. unfold compositeSubtract.
  destruct (Z.ltb_spec x y); f_equal; [lia|]. rewrite u16_id by lia. lia.
Qed.
Lemma darken_ok x y : r16 x -> compositeDarkenOnly x y = Some (Z.min x y).
Proof. unfold r16; intros. unfold compositeDarkenOnly. rewrite go_min2 by lia. reflexivity. Qed.
Lemma lighten_ok x y : r16 x -> compositeLightenOnly x y = Some (Z.max x y).
Proof. unfold r16; intros. unfold compositeLightenOnly. rewrite go_max2 by lia. reflexivity. Qed.

Lemma quot_ok n d : 0 <= n -> 0 < d ->
  sat_quot n d (clamp (n / d)) /\ r16 (clamp (n / d)).
Proof.
  intros Hn Hd. assert (0 <= n / d) by (apply Z.div_pos; lia).
  pose proof (div_bounds n d Hd) as B.
  split; [|apply clamp_range; lia]. rewrite clamp_eq by lia.
  unfold sat_quot. right. destruct (Z_le_gt_dec (65535 * d) n).
  - left. split; [lia|]. split; [lia|].
    assert (65535 <= n / d) by (apply Z.div_le_lower_bound; lia). lia.
  - right. split; [lia|]. split; [lia|].
    assert (n / d < 65535) by (apply Z.div_lt_upper_bound; lia).
    rewrite Z.min_r by lia. apply within_floor; lia.
Qed.

Lemma divide_ok x y : r16 x -> r16 y ->
  exists v, compositeDivide x y = Some v /\ r16 v /\ sat_quot (65535 * x) y v.
Proof.
  unfold r16; intros Hx Hy. unfold compositeDivide.
  destruct (Z.eqb_spec y 0).
  - exists (if 65535 * x =? 0 then 0 else 65535). split; [|split].
    + destruct (Z.eqb_spec x 0), (Z.eqb_spec (65535 * x) 0); try lia; reflexivity.
    + destruct (65535 * x =? 0); lia.
    + left. auto.
  - rewrite udiv_some by lia. cbn [obind]. rewrite u32_id by lia.
    destruct (quot_ok (65535 * x) y); try lia. eauto.
Qed.
Lemma dodge_ok x y : r16 x -> r16 y ->
  exists v, compositeDodge x y = Some v /\ r16 v /\ sat_quot (65535 * x) (65535 - y) v.
Proof.
  unfold r16; intros Hx Hy. unfold compositeDodge.
  destruct (Z.eqb_spec y 65535).
  - exists (if 65535 * x =? 0 then 0 else 65535). split; [|split].
    + destruct (Z.eqb_spec x 0), (Z.eqb_spec (65535 * x) 0); try lia; reflexivity.
    + destruct (65535 * x =? 0); lia.
    + left. split; [lia|reflexivity].
  - rewrite (u32_id (65535 - y)) by lia.
    rewrite udiv_some by lia. cbn [obind]. rewrite u32_id by lia.
    destruct (quot_ok (65535 * x) (65535 - y)); try lia. eauto.
Qed.
Lemma grainextract_ok x y : r16 x -> r16 y ->
  compositeGrainExtract x y = Some (Z.max 0 (Z.min 65535 (x - y + 32767))).
Proof.
  unfold r16; intros. unfold compositeGrainExtract. rewrite u32_id by lia.
  destruct (Z.ltb_spec (x + 32767) y); f_equal; [lia|].
  rewrite u32_id by lia. rewrite clamp_eq by lia. lia.
Qed.
Lemma grainmerge_eq x y : r16 x -> r16 y ->
  compositeGrainMerge x y = Some (Z.min 65535 (x + y + 32767)).
Proof.
  unfold r16; intros. unfold compositeGrainMerge. rewrite u32_id by lia.
  rewrite clamp_eq by lia. reflexivity.
Qed.

(** Burn: exact behaviour of the code *)
Lemma burn_eq x y : r16 x -> r16 y ->
  compositeBurn x y = Some
    (if y =? 0 then (if x =? 65535 then 0 else 65535)
     else if 65535 * (65535 - x) / y <=? 65535 then 65535 - 65535 * (65535 - x) / y else 65535).
Proof.
  unfold r16; intros Hx Hy. unfold compositeBurn.
  destruct (Z.eqb_spec y 0); [destruct (x =? 65535); reflexivity|].
  rewrite udiv_some by lia. cbn [obind].
  rewrite (u32_id (65535 - x)) by lia. rewrite (u32_id (65535 * _)) by lia.
  set (q := 65535 * (65535 - x) / y).
  assert (0 <= q <= 4294836225).
  { subst q. split; [apply Z.div_pos; lia|]. apply Z.div_le_upper_bound; nia. }
  f_equal. destruct (Z.leb_spec q 65535).
  - rewrite u32_id by lia. rewrite clamp_eq by lia. lia.
  - replace (u32 (65535 - q)) with (65535 - q + 4294967296).
    + rewrite clamp_eq by lia. lia.
    + unfold u32. symmetry. rewrite <- (Z_mod_plus_full (65535 - q) 1), Z.mul_1_l.
      apply Z.mod_small; lia.
Qed.
Lemma burn_range x y : r16 x -> r16 y -> exists v, compositeBurn x y = Some v /\ r16 v.
Proof.
  intros Hx Hy. rewrite burn_eq by assumption. eexists; split; [reflexivity|].
  unfold r16 in *. destruct (Z.eqb_spec y 0); [destruct (x =? 65535); lia|].
  destruct (Z.leb_spec (65535 * (65535 - x) / y) 65535); [|lia].
  assert (0 <= 65535 * (65535 - x) / y) by (apply Z.div_pos; lia). lia.
Qed.

(** HardLight: exact behaviour of the code *)
Lemma hardlight_ok x y : r16 x -> r16 y -> ~ (x = 0 /\ y = 32767) ->
  exists v, compositeHardLight x y = Some v /\ r16 v /\ hardlight_formula x y v.
Proof.
  unfold r16; intros Hx Hy Hne. unfold compositeHardLight. rewrite !shiftl1.
  rewrite (u32_id (2 * y)) by lia.
  destruct (Z.ltb_spec y 32767).
  - rewrite u32_id by nia.
    assert (0 <= x * (2 * y) / 65535 <= 65535) by (apply div_range; nia).
    rewrite u16_id by lia. eexists; split; [reflexivity|]. split; [lia|].
    left. split; [lia|].
    pose proof (div65535 (x * (2 * y))) as D; cbv zeta in D.
    unfold within. split; [lia|]. apply Z.abs_le; lia.
  - rewrite (u32_id (65535 - x)), (u32_id (131070 - _)) by lia.
    set (p := (65535 - x) * (131070 - 2 * y)).
    assert (Hp : 0 <= p < 4294967296) by (subst p; nia).
    rewrite (u32_id p) by lia.
    pose proof (div65535 p) as D; cbv zeta in D.
    assert (Hq : p / 65535 <= 65535).
    { assert (p < 65535 * 65536); [|lia]. subst p.
      destruct (Z.eq_dec y 32767); [|nia]. subst y. lia. }
    assert (0 <= p / 65535) by (apply Z.div_pos; lia).
    rewrite (u32_id (65535 - _)) by lia. rewrite u16_id by lia.
    eexists; split; [reflexivity|]. split; [lia|].
    destruct (Z.eq_dec y 32767).
    + left. split; [lia|]. unfold within. split; [lia|]. subst y p. apply Z.abs_le. lia.
    + right. split; [lia|]. unfold within. split; [lia|].
      replace (65535 - (2 * y - 65535)) with (131070 - 2 * y) by lia. fold p.
      apply Z.abs_le. lia.
Qed.
Lemma hardlight_range x y : r16 x -> r16 y ->
  exists v, compositeHardLight x y = Some v /\ r16 v.
Proof.
  intros Hx Hy. unfold compositeHardLight, r16.
  destruct (y <? 32767); (eexists; split; [reflexivity|]);
  match goal with |- 0 <= u16 ?z <= _ => pose proof (u16_range z); lia end.
Qed.

Lemma channel_total m f x y : channelFun m = Some f -> r16 x -> r16 y ->
  exists v, f x y = Some v /\ r16 v.
Proof.
  intros Hf Hx Hy. destruct m; try discriminate Hf; injection Hf as <-.
  - destruct (multiply_ok x y) as (v&?&?&?); eauto.
  - destruct (screen_ok x y) as (v&?&?&?); eauto.
  - destruct (overlay_eq x y); eauto.
  - rewrite difference_ok by auto. eexists; split; [reflexivity|]. unfold r16 in *; lia.
  - rewrite addition_ok by auto. eexists; split; [reflexivity|]. unfold r16 in *; lia.
  - rewrite subtract_ok by auto. eexists; split; [reflexivity|]. unfold r16 in *; lia.
  - rewrite darken_ok by auto. eexists; split; [reflexivity|]. unfold r16 in *; lia.
  - rewrite lighten_ok by auto. eexists; split; [reflexivity|]. unfold r16 in *; lia.
  - destruct (divide_ok x y) as (v&?&?&?); eauto.
  - destruct (dodge_ok x y) as (v&?&?&?); eauto.
  - apply burn_range; auto.
  - apply hardlight_range; auto.
  - unfold compositeSoftLight. destruct (overlay_eq x y); eauto.
  - rewrite grainextract_ok by auto. eexists; split; [reflexivity|]. unfold r16 in *; lia.
  - rewrite grainmerge_eq by auto. eexists; split; [reflexivity|]. unfold r16 in *; lia.
Qed.

Lemma separable_fun m : separable m = true -> exists f, channelFun m = Some f.
Proof. destruct m; try discriminate; cbn; eauto. Qed.
Lemma fun_separable m f : channelFun m = Some f -> separable m = true.
Proof. destruct m; try discriminate; reflexivity. Qed.

Lemma wf64_r16 c : wf64 c -> r16 (cR c) /\ r16 (cG c) /\ r16 (cB c) /\ r16 (cA c).
Proof. unfold wf64, is_u16, r16. lia. Qed.

(** exact result of a separable mode on a non-empty bottom *)
Lemma separable_spec m f rnd b t : channelFun m = Some f ->
  wf_color b -> wf_color t -> 0 < cA (colourToNRGBA b) ->
  let bt := colourToNRGBA b in let tp := colourToNRGBA t in
  exists vr vg vb fr fg fb,
    f (cR bt) (cR tp) = Some fr /\ f (cR bt) (cG tp) = Some fg /\ f (cR bt) (cB tp) = Some fb /\
    r16 fr /\ r16 fg /\ r16 fb /\
    blend (cA bt) (cR bt) (Z.min (cA bt) (cA tp)) fr = Some vr /\
    blend (cA bt) (cG bt) (Z.min (cA bt) (cA tp)) fg = Some vg /\
    blend (cA bt) (cB bt) (Z.min (cA bt) (cA tp)) fb = Some vb /\
    over_channel (cA bt) (cR bt) (Z.min (cA bt) (cA tp)) fr vr /\
    over_channel (cA bt) (cG bt) (Z.min (cA bt) (cA tp)) fg vg /\
    over_channel (cA bt) (cB bt) (Z.min (cA bt) (cA tp)) fb vb /\
    composite m rnd b t = Some (CNRGBA64 (mk64 vr vg vb (cA bt))).
Proof.
  intros Hf Hb Ht Ha bt tp.
  destruct (wf64_r16 _ (colourToNRGBA_wf b Hb)) as (R1&G1&B1&A1).
  destruct (wf64_r16 _ (colourToNRGBA_wf t Ht)) as (R2&G2&B2&A2).
  fold bt in R1, G1, B1, A1, Ha. fold tp in R2, G2, B2, A2.
  destruct (channel_total m f (cR bt) (cR tp) Hf R1 R2) as (fr & Er & Fr).
  destruct (channel_total m f (cR bt) (cG tp) Hf R1 G2) as (fg & Eg & Fg).
  destruct (channel_total m f (cR bt) (cB tp) Hf R1 B2) as (fb & Eb & Fb).
  unfold r16 in R1, G1, B1, A1, R2, G2, B2, A2.
  assert (MA : 0 <= Z.min (cA bt) (cA tp) <= 65535) by lia.
  destruct (blend_ok (cA bt) (cR bt) (Z.min (cA bt) (cA tp)) fr) as (vr & Er' & Sr);
    try assumption; try lia.
  destruct (blend_ok (cA bt) (cG bt) (Z.min (cA bt) (cA tp)) fg) as (vg & Eg' & Sg);
    try assumption; try lia.
  destruct (blend_ok (cA bt) (cB bt) (Z.min (cA bt) (cA tp)) fb) as (vb & Eb' & Sb);
    try assumption; try lia.
  exists vr, vg, vb, fr, fg, fb. repeat (split; [assumption|]).
  unfold composite. rewrite Hf. cbv zeta. fold bt tp.
  destruct (Z.eqb_spec (cA bt) 0); [lia|].
  rewrite go_min2 by lia.
  rewrite Er. cbn [obind]. rewrite Er'. cbn [obind].
  rewrite Eg. cbn [obind]. rewrite Eg'. cbn [obind].
  rewrite Eb. cbn [obind]. rewrite Eb'. reflexivity.
Qed.

(** on opaque greys *)
Lemma separable_grey m f rnd x y v : channelFun m = Some f -> r16 x -> r16 y ->
  f x y = Some v -> composite m rnd (grey x) (grey y) = Some (grey v).
Proof.
  intros Hf Hx Hy Hv. unfold r16 in *.
  assert (Hr : r16 v). { destruct (channel_total m f x y Hf Hx Hy) as (w & E & R). congruence. }
  unfold composite. rewrite Hf. cbn [grey colourToNRGBA cA cR cG cB Z.eqb].
  rewrite go_min2, Z.min_id by lia. rewrite Hv. cbn [obind].
  unfold r16 in Hr. rewrite blend_opaque by lia. reflexivity.
Qed.

Lemma grey_wf x : r16 x -> wf_color (grey x).
Proof. unfold r16, grey, wf_color, wf64, is_u16; cbn; lia. Qed.
