(** Lemmas for the compositing and colour properties. *)
Require Import Verif.Base Verif.M_Color Verif.M_Composite Verif.S_Color Verif.S_Composite
  Verif.L_Word Verif.L_Color Verif.L_Composite Verif.L_Blend Verif.L_HSV.
From Coq Require Import ZifyBool ZifyNat.

(** ** Normal *)
Lemma normal_modes m : separable m = false ->
  match m with MBehind | MDissolve | MHue | MSaturation | MColor | MValue | MLuminosity
             | MPlus | MDestinationIn | MDestinationOut | MSourceAtop | MDestinationAtop => False
             | _ => True end ->
  forall rnd b t, composite m rnd b t = c64 (compositeNormal (colourToNRGBA b) (colourToNRGBA t)).
Proof. destruct m; try discriminate; try contradiction; reflexivity. Qed.

Lemma normal_opaque rnd b t : wf_color b -> wf_color t -> cA (colourToNRGBA t) = 65535 ->
  composite MNormal rnd b t = Some (CNRGBA64 (colourToNRGBA t)).
Proof.
  intros Hb Ht Ha. unfold composite. cbn [channelFun]. unfold compositeNormal.
  destruct (wf64_r16 _ (colourToNRGBA_wf b Hb)) as (R1&G1&B1&A1).
  destruct (wf64_r16 _ (colourToNRGBA_wf t Ht)) as (R2&G2&B2&A2).
  set (x := colourToNRGBA b) in *. set (y := colourToNRGBA t) in *. unfold r16 in *.
  rewrite Ha. rewrite andb_comm. cbn [Z.eqb andb].
  rewrite !blend_opaque by lia. cbn [obind]. rewrite alpha_over_eq by lia.
  replace ((65535 - cA x) * (65535 - 65535) / 65535) with 0.
  - cbn. unfold c64. cbn. destruct y; cbn in *. subst. reflexivity.
  - replace (65535 - 65535) with 0 by lia. rewrite Z.mul_0_r. reflexivity.
Qed.

Lemma normal_transparent rnd b t : wf_color b -> wf_color t ->
  cA (colourToNRGBA t) = 0 -> 0 < cA (colourToNRGBA b) ->
  composite MNormal rnd b t = Some (CNRGBA64 (colourToNRGBA b)).
Proof.
  intros Hb Ht Ha Hp. unfold composite. cbn [channelFun]. unfold compositeNormal.
  destruct (wf64_r16 _ (colourToNRGBA_wf b Hb)) as (R1&G1&B1&A1).
  destruct (wf64_r16 _ (colourToNRGBA_wf t Ht)) as (R2&G2&B2&A2).
  set (x := colourToNRGBA b) in *. set (y := colourToNRGBA t) in *. unfold r16 in *.
  rewrite Ha. destruct (Z.eqb_spec (cA x) 0); [lia|]. cbn [andb].
  rewrite !blend_transparent by lia. cbn [obind]. rewrite alpha_over_eq by lia.
  replace (65535 - 0) with 65535 by lia. rewrite Z.div_mul by lia.
  replace (65535 - (65535 - cA x)) with (cA x) by lia. destruct x; reflexivity.
Qed.

Lemma normal_empty rnd b t : cA (colourToNRGBA b) = 0 -> cA (colourToNRGBA t) = 0 ->
  composite MNormal rnd b t = Some (CNRGBA64 (mk64 0 0 0 0)).
Proof. intros Hb Ht. unfold composite; cbn [channelFun]. rewrite compositeNormal_empty by assumption. reflexivity. Qed.

Lemma normal_general rnd b t : wf_color b -> wf_color t ->
  let x := colourToNRGBA b in let y := colourToNRGBA t in
  0 < cA x + cA y ->
  exists c, composite MNormal rnd b t = Some (CNRGBA64 c) /\ wf64 c /\
    over_channel (cA x) (cR x) (cA y) (cR y) (cR c) /\
    over_channel (cA x) (cG x) (cA y) (cG y) (cG c) /\
    over_channel (cA x) (cB x) (cA y) (cB y) (cB c) /\
    (* alpha is 1-(1-ab)(1-at), rounded up *)
    0 <= 65535 * cA c - (65535 * (cA x + cA y) - cA x * cA y) < 65535 /\
    Z.max (cA x) (cA y) <= cA c <= 65535.
Proof.
  intros Hb Ht x y Hp.
  destruct (compositeNormal_spec x y) as (c & E & W & SR & SG & SB & EA);
    [apply colourToNRGBA_wf, Hb|apply colourToNRGBA_wf, Ht|exact Hp|].
  exists c. split; [unfold composite; cbn [channelFun]; fold x y; rewrite E; reflexivity|].
  split; [exact W|]. split; [exact SR|]. split; [exact SG|]. split; [exact SB|].
  destruct (wf64_r16 _ (colourToNRGBA_wf b Hb)) as (_&_&_&A1).
  destruct (wf64_r16 _ (colourToNRGBA_wf t Ht)) as (_&_&_&A2).
  fold x in A1. fold y in A2. unfold r16 in *.
  pose proof (den_bounds (cA x) (cA y)) as D. cbv zeta in D. rewrite EA. lia.
Qed.

(** ** Totality *)
Lemma RGBToHSL_wf cl : wf_color cl ->
  exists h, RGBToHSL cl = Some h /\ wf_color (CHSLA h) /\ hslA h = cA (colourToNRGBA cl)
     /\ hslL h = (mx3 (colourToNRGBA cl) + mn3 (colourToNRGBA cl)) / 2.
Proof.
  intros Hc. pose proof (colourToNRGBA_wf cl Hc) as Hwf.
  set (n := colourToNRGBA cl) in *. pose proof Hwf as (HR&HG&HB&HA). unfold is_u16 in *.
  unfold RGBToHSL. fold n. rewrite go_min3, go_max3 by lia.
  fold (mx3 n) (mn3 n).
  assert (M : 0 <= mn3 n <= mx3 n /\ mx3 n <= 65535) by (unfold mx3, mn3; lia).
  rewrite (u32_id (mx3 n + mn3 n)), (u32_id (mx3 n - mn3 n)) by lia.
  rewrite shiftr1. rewrite (u16_id (_ / 2)) by lia.
  destruct (Z.eqb_spec (mx3 n - mn3 n) 0).
  - eexists; split; [reflexivity|]. cbn [wf_color hslH hslS hslL hslA]; unfold is_u16. lia.
  - rewrite (u16_id (mx3 n)) by lia.
    destruct (hue_ok n Hwf ltac:(lia)) as (h6 & Eh & Hh & _). rewrite Eh.
    rewrite (u32_id (65535 * _)) by lia. rewrite (u32_id (131070 - _)) by lia.
    assert (S : exists s, (if mx3 n + mn3 n <=? 65535
        then udiv (65535 * (mx3 n - mn3 n)) (mx3 n + mn3 n)
        else udiv (65535 * (mx3 n - mn3 n)) (131070 - (mx3 n + mn3 n))) = Some s).
    { destruct (Z.leb_spec (mx3 n + mn3 n) 65535); rewrite udiv_some by lia; eauto. }
    destruct S as (s & ->). cbn [obind].
    eexists; split; [reflexivity|]. cbn [wf_color hslH hslS hslL hslA].
    pose proof (u16_range s). unfold is_u16. lia.
Qed.

Lemma wf_CNRGBA64 n : wf64 n -> wf_color (CNRGBA64 n).
Proof. auto. Qed.

Lemma c64_ok x : (exists c, x = Some c /\ wf64 c) -> exists c, c64 x = Some c /\ wf_color c.
Proof. intros (c & -> & W). exists (CNRGBA64 c). auto. Qed.

Lemma composite_total m rnd b t : wf_color b -> wf_color t ->
  exists c, composite m rnd b t = Some c /\ wf_color c.
Proof.
  intros Hb Ht. pose proof (colourToNRGBA_wf b Hb) as Wb. pose proof (colourToNRGBA_wf t Ht) as Wt.
  destruct (channelFun m) as [f|] eqn:Hf.
  - destruct (Z.eq_dec (cA (colourToNRGBA b)) 0) as [E|E].
    + unfold composite. rewrite Hf, E. cbn [Z.eqb]. eexists; split; [reflexivity|].
      cbn; unfold is_u8; lia.
    + destruct Wb as (?&?&?&?). unfold is_u16 in *.
      destruct (separable_spec m f rnd b t Hf Hb Ht ltac:(lia))
        as (vr & vg & vb & fr & fg & fb & _ & _ & _ & _ & _ & _ & _ & _ & _ & (R1&_) & (R2&_) & (R3&_) & ->).
      eexists; split; [reflexivity|]. cbn; unfold wf64, is_u16; cbn. lia.
  - unfold composite. rewrite Hf.
    pose proof (fun b t Wb Wt => c64_ok _ (compositeNormal_ok b t Wb Wt)) as N.
    destruct m; try discriminate Hf; try (apply N; assumption).
    + eexists; split; [reflexivity|]. unfold compositeDissolve. destruct (_ <? _); [|exact Wb].
      destruct Wt as (?&?&?&?). cbn; unfold wf64, is_u16; cbn; auto with zarith.
    + eexists; split; [reflexivity|]. exact Wb.
    + unfold compositeHue. destruct (_ && _); [eexists; split; [reflexivity|exact Wb]|].
      destruct (RGBToHSV_wf _ (wf_CNRGBA64 _ Wb)) as (h1 & -> & (?&?&?&?) & _).
      destruct (RGBToHSV_wf _ (wf_CNRGBA64 _ Wt)) as (h2 & -> & (?&?&?&?) & _).
      eexists; split; [reflexivity|]. cbn; auto.
    + unfold compositeSaturation.
      destruct (RGBToHSV_wf _ (wf_CNRGBA64 _ Wb)) as (h1 & -> & (?&?&?&?) & _).
      destruct (RGBToHSV_wf _ (wf_CNRGBA64 _ Wt)) as (h2 & -> & (?&?&?&?) & _).
      eexists; split; [reflexivity|]. cbn; auto.
    + unfold compositeColor.
      destruct (RGBToHSL_wf _ (wf_CNRGBA64 _ Wb)) as (h1 & -> & (?&?&?&?) & _).
      destruct (RGBToHSL_wf _ (wf_CNRGBA64 _ Wt)) as (h2 & -> & (?&?&?&?) & _).
      eexists; split; [reflexivity|]. cbn; auto.
    + unfold compositeValue.
      destruct (RGBToHSV_wf _ (wf_CNRGBA64 _ Wb)) as (h1 & -> & (?&?&?&?) & _).
      destruct (RGBToHSV_wf _ (wf_CNRGBA64 _ Wt)) as (h2 & -> & (?&?&?&?) & _).
      eexists; split; [reflexivity|]. cbn; auto.
    + unfold compositeColor.
      destruct (RGBToHSL_wf _ (wf_CNRGBA64 _ Wt)) as (h1 & -> & (?&?&?&?) & _).
      destruct (RGBToHSL_wf _ (wf_CNRGBA64 _ Wb)) as (h2 & -> & (?&?&?&?) & _).
      eexists; split; [reflexivity|]. cbn; auto.
Qed.

(** ** Separable modes *)
Lemma sep_empty_bottom m rnd b t : separable m = true -> cA (colourToNRGBA b) = 0 ->
  composite m rnd b t = Some (CNRGBA 0 0 0 0).
Proof.
  intros Hs Ha. destruct (separable_fun m Hs) as (f & Hf).
  unfold composite. rewrite Hf, Ha. reflexivity.
Qed.
Lemma sep_transparent_top m rnd b t : separable m = true -> wf_color b -> wf_color t ->
  0 < cA (colourToNRGBA b) -> cA (colourToNRGBA t) = 0 ->
  composite m rnd b t = Some (CNRGBA64 (colourToNRGBA b)).
Proof.
  intros Hs Hb Ht Hp Ha. destruct (separable_fun m Hs) as (f & Hf).
  destruct (separable_spec m f rnd b t Hf Hb Ht Hp)
    as (vr & vg & vb & fr & fg & fb & _ & _ & _ & F1 & F2 & F3 & E1 & E2 & E3 & _ & _ & _ & ->).
  destruct (wf64_r16 _ (colourToNRGBA_wf b Hb)) as (R1&G1&B1&A1).
  set (x := colourToNRGBA b) in *. unfold r16 in *.
  rewrite Ha, Z.min_r in E1, E2, E3 by lia.
  rewrite blend_transparent in E1, E2, E3 by lia.
  injection E1 as <-. injection E2 as <-. injection E3 as <-. destruct x; reflexivity.
Qed.
Lemma sep_alpha m rnd b t : separable m = true -> wf_color b -> wf_color t ->
  exists c, composite m rnd b t = Some c /\ cA (colourToNRGBA c) = cA (colourToNRGBA b).
Proof.
  intros Hs Hb Ht. destruct (separable_fun m Hs) as (f & Hf).
  destruct (Z.eq_dec (cA (colourToNRGBA b)) 0) as [E|E].
  - rewrite sep_empty_bottom by assumption. eexists; split; [reflexivity|]. rewrite E. reflexivity.
  - pose proof (colourToNRGBA_wf b Hb) as (?&?&?&?). unfold is_u16 in *.
    destruct (separable_spec m f rnd b t Hf Hb Ht ltac:(lia))
      as (vr & vg & vb & fr & fg & fb & _ & _ & _ & _ & _ & _ & _ & _ & _ & _ & _ & _ & ->).
    eexists; split; reflexivity.
Qed.

(** the red output depends only on the two reds and the two alphas *)
Lemma sep_red m rnd b t b' t' c c' : separable m = true ->
  wf_color b -> wf_color t -> wf_color b' -> wf_color t' ->
  cR (colourToNRGBA b) = cR (colourToNRGBA b') -> cA (colourToNRGBA b) = cA (colourToNRGBA b') ->
  cR (colourToNRGBA t) = cR (colourToNRGBA t') -> cA (colourToNRGBA t) = cA (colourToNRGBA t') ->
  composite m rnd b t = Some c -> composite m rnd b' t' = Some c' ->
  cR (colourToNRGBA c) = cR (colourToNRGBA c').
Proof.
  intros Hs Hb Ht Hb' Ht' ER EA ER' EA' E1 E2.
  destruct (separable_fun m Hs) as (f & Hf).
  destruct (Z.eq_dec (cA (colourToNRGBA b)) 0) as [Z0|Z0].
  - rewrite sep_empty_bottom in E1, E2 by congruence.
    injection E1 as <-. injection E2 as <-. reflexivity.
  - pose proof (colourToNRGBA_wf b Hb) as (?&?&?&?). unfold is_u16 in *.
    destruct (separable_spec m f rnd b t Hf Hb Ht ltac:(lia))
      as (vr & vg & vb & fr & fg & fb & F1 & _ & _ & _ & _ & _ & B1 & _ & _ & _ & _ & _ & X1).
    destruct (separable_spec m f rnd b' t' Hf Hb' Ht' ltac:(lia))
      as (vr' & vg' & vb' & fr' & fg' & fb' & F1' & _ & _ & _ & _ & _ & B1' & _ & _ & _ & _ & _ & X1').
    rewrite E1 in X1. rewrite E2 in X1'. injection X1 as ->. injection X1' as ->. cbn.
    congruence.
Qed.

(** all three channels are alike when the bottom is grey: the result of each
    channel is what the mode gives on a grey of that channel *)
Lemma sep_grey_bottom m rnd b t : separable m = true -> wf_color b -> wf_color t ->
  let x := colourToNRGBA b in let y := colourToNRGBA t in
  cR x = cG x -> cR x = cB x -> 0 < cA x ->
  exists c, composite m rnd b t = Some (CNRGBA64 c) /\
   (forall v, composite m rnd (grey (cR x)) (grey (cR y)) = Some (grey v) ->
      over_channel (cA x) (cR x) (Z.min (cA x) (cA y)) v (cR c)) /\
   (forall v, composite m rnd (grey (cG x)) (grey (cG y)) = Some (grey v) ->
      over_channel (cA x) (cG x) (Z.min (cA x) (cA y)) v (cG c)) /\
   (forall v, composite m rnd (grey (cB x)) (grey (cB y)) = Some (grey v) ->
      over_channel (cA x) (cB x) (Z.min (cA x) (cA y)) v (cB c)).
Proof.
  cbv zeta. intros Hs Hb Ht EG EB Hp. destruct (separable_fun m Hs) as (f & Hf).
  destruct (separable_spec m f rnd b t Hf Hb Ht Hp)
    as (vr & vg & vb & fr & fg & fb & F1 & F2 & F3 & _ & _ & _ & _ & _ & _ & S1 & S2 & S3 & ->).
  destruct (wf64_r16 _ (colourToNRGBA_wf b Hb)) as (R1&G1&B1&A1).
  destruct (wf64_r16 _ (colourToNRGBA_wf t Ht)) as (R2&G2&B2&A2).
  eexists; split; [reflexivity|]. cbn [cR cG cB].
  split; [|split]; intros v Ev.
  - rewrite (separable_grey m f rnd _ _ fr Hf) in Ev by assumption. injection Ev as <-. exact S1.
  - rewrite EG in F2. rewrite (separable_grey m f rnd _ _ fg Hf) in Ev by assumption.
    injection Ev as <-. exact S2.
  - rewrite EB in F3. rewrite (separable_grey m f rnd _ _ fb Hf) in Ev by assumption.
    injection Ev as <-. exact S3.
Qed.

Lemma formula_grey m rnd x y : arithmetic_mode m = true -> r16 x -> r16 y ->
  exists v, composite m rnd (grey x) (grey y) = Some (grey v) /\ mode_formula m x y v /\ r16 v.
Proof.
  intros Hm Hx Hy.
  assert (G : exists f v, channelFun m = Some f /\ f x y = Some v /\ mode_formula m x y v).
  { destruct m; try discriminate Hm; eexists.
    - destruct (multiply_ok x y) as (v&E&_&S); auto. exists v. split; [reflexivity|]. auto.
    - destruct (screen_ok x y) as (v&E&_&S); auto. exists v. split; [reflexivity|]. auto.
    - eexists. split; [reflexivity|]. rewrite difference_ok by auto. split; reflexivity.
    - eexists. split; [reflexivity|]. rewrite addition_ok by auto. split; reflexivity.
    - eexists. split; [reflexivity|]. rewrite subtract_ok by auto. split; reflexivity.
    - eexists. split; [reflexivity|]. rewrite darken_ok by auto. split; reflexivity.
    - eexists. split; [reflexivity|]. rewrite lighten_ok by auto. split; reflexivity.
    - destruct (divide_ok x y) as (v&E&_&S); auto. exists v. split; [reflexivity|]. auto.
    - destruct (dodge_ok x y) as (v&E&_&S); auto. exists v. split; [reflexivity|]. auto.
    - eexists. split; [reflexivity|]. rewrite grainextract_ok by auto. split; reflexivity. }
  destruct G as (f & v & Hf & Ev & F). exists v.
  split; [apply (separable_grey m f); auto|]. split; [exact F|].
  destruct (channel_total m f x y Hf Hx Hy) as (w & E & R). congruence.
Qed.

(** ** Burn *)
Lemma burn_good rnd x y : r16 x -> r16 y -> 65535 - x <= y -> 0 < y ->
  exists v, composite MBurn rnd (grey x) (grey y) = Some (grey v) /\ burn_formula x y v /\ v <= x.
Proof.
  unfold r16; intros Hx Hy Hle Hp.
  exists (65535 - 65535 * (65535 - x) / y). 
  assert (Q : 65535 * (65535 - x) / y <= 65535) by (apply div_range; nia).
  assert (Q0 : 65535 - x <= 65535 * (65535 - x) / y).
  { apply Z.div_le_lower_bound; nia. }
  split; [|split; [|lia]].
  - apply (separable_grey MBurn compositeBurn); auto.
    rewrite burn_eq by (unfold r16; lia). destruct (Z.eqb_spec y 0); [lia|].
    destruct (Z.leb_spec (65535 * (65535 - x) / y) 65535); [reflexivity|lia].
  - unfold burn_formula. right. pose proof (div_bounds (65535 * (65535 - x)) y Hp) as B.
    set (q := 65535 * (65535 - x) / y) in *.
    destruct (Z.eq_dec (65535 - x) y) as [E|E].
    + left. split; [lia|]. split; [lia|]. nia.
    + right. split; [lia|]. split; [lia|]. unfold within. split; [lia|]. apply Z.abs_le. lia.
Qed.
(** wherever the exact result saturates at black the code answers white *)
Lemma burn_bad rnd x y : r16 x -> r16 y -> y < 65535 - x -> 65536 * y <= 65535 * (65535 - x) ->
  composite MBurn rnd (grey x) (grey y) = Some (grey 65535).
Proof.
  unfold r16; intros Hx Hy Hle H2. apply (separable_grey MBurn compositeBurn); auto.
  rewrite burn_eq by (unfold r16; lia). destruct (Z.eqb_spec y 0).
  - destruct (Z.eqb_spec x 65535); [lia|reflexivity].
  - destruct (Z.leb_spec (65535 * (65535 - x) / y) 65535); [|reflexivity].
    assert (65536 <= 65535 * (65535 - x) / y) by (apply Z.div_le_lower_bound; lia). lia.
Qed.

(** ** HardLight *)
Lemma hardlight_good rnd x y : r16 x -> r16 y -> ~ (x = 0 /\ y = 32767) ->
  exists v, composite MHardLight rnd (grey x) (grey y) = Some (grey v) /\ hardlight_formula x y v.
Proof.
  intros Hx Hy Hn. destruct (hardlight_ok x y Hx Hy Hn) as (v & E & R & F).
  exists v. split; [|exact F]. apply (separable_grey MHardLight compositeHardLight); auto.
Qed.

(** ** Overlay, SoftLight *)
Lemma overlay_black_top rnd x : r16 x ->
  exists v, composite MOverlay rnd (grey x) (grey 0) = Some (grey v) /\
            composite MSoftLight rnd (grey x) (grey 0) = Some (grey v) /\ overlay_formula 1 x 0 v.
Proof.
  intros Hx. assert (H0 : r16 0) by (unfold r16; lia).
  destruct (overlay_eq x 0 Hx H0) as [E _].
  eexists; split; [|split].
  - apply (separable_grey MOverlay compositeOverlay); eauto.
  - apply (separable_grey MSoftLight compositeSoftLight); eauto.
  - unfold overlay_formula, within. split; [lia|].
    rewrite Z.mul_0_l. replace (0 / 65535) with 0 by reflexivity.
    replace (65535 - 0) with 65535 by lia.
    rewrite (Z.mul_comm 65535 (x * x / 65535)), Z.div_mul by lia.
    pose proof (div65535 (x * x)) as D; cbv zeta in D. unfold r16 in Hx.
    apply Z.abs_le. lia.
Qed.
Lemma overlay_equal rnd x : r16 x ->
  exists v, composite MOverlay rnd (grey x) (grey x) = Some (grey v) /\
            composite MSoftLight rnd (grey x) (grey x) = Some (grey v) /\ overlay_formula 4 x x v.
Proof.
  intros Hx. destruct (overlay_eq x x Hx Hx) as [E _].
  eexists; split; [|split].
  - apply (separable_grey MOverlay compositeOverlay); eauto.
  - apply (separable_grey MSoftLight compositeSoftLight); eauto.
  - unfold overlay_formula, within. split; [lia|]. unfold r16 in Hx.
    pose proof (div65535 (x * x)) as D1; cbv zeta in D1.
    pose proof (div65535 ((65535 - x) * (65535 - x))) as D2; cbv zeta in D2.
    set (a := x * x / 65535) in *. set (b := (65535 - x) * (65535 - x) / 65535) in *.
    pose proof (div65535 ((65535 - x) * a)) as D3; cbv zeta in D3.
    pose proof (div65535 (x * (65535 - b))) as D4; cbv zeta in D4.
    set (c := (65535 - x) * a / 65535) in *. set (d := x * (65535 - b) / 65535) in *.
    clearbody a b c d.
    assert (A1 : 65535 * ((65535 - x) * a) <= (65535 - x) * (x * x) < 65535 * ((65535 - x) * a) + 65535 * 65536) by nia.
    assert (A2 : x * (65535 * b) <= x * ((65535 - x) * (65535 - x)) <= x * (65535 * b) + x * 65535) by nia.
    apply Z.abs_le. split; nia.
Qed.

(** ** Grain merge *)
Lemma grainmerge_actual rnd x y : r16 x -> r16 y ->
  composite MGrainMerge rnd (grey x) (grey y) = Some (grey (Z.min 65535 (x + y + 32767))).
Proof.
  intros Hx Hy. apply (separable_grey MGrainMerge compositeGrainMerge); auto.
  apply grainmerge_eq; auto.
Qed.

(** ** Dissolve *)
Lemma dissolve_eq rnd b t : 0 <= rnd < 65535 ->
  composite MDissolve rnd b t =
    Some (CNRGBA64 (if rnd <? cA (colourToNRGBA b)
      then mk64 (cR (colourToNRGBA t)) (cG (colourToNRGBA t)) (cB (colourToNRGBA t)) 65535
      else colourToNRGBA b)).
Proof. intros. unfold composite; cbn [channelFun]. unfold compositeDissolve. rewrite u16_id by lia. reflexivity. Qed.

(** ** Hue, Saturation, Value *)
Lemma value_mode rnd b t : wf_color b -> wf_color t ->
  exists c hb hc, composite MValue rnd b t = Some c /\
    mx3 (colourToNRGBA c) = mx3 (colourToNRGBA t) /\ cA (colourToNRGBA c) = cA (colourToNRGBA b) /\
    RGBToHSV b = Some hb /\ c = CHSVA hc /\ hsvH hc = hsvH hb /\ hsvS hc = hsvS hb.
Proof.
  intros Hb Ht. unfold composite; cbn [channelFun]. unfold compositeValue.
  pose proof (colourToNRGBA_wf b Hb) as Wb. pose proof (colourToNRGBA_wf t Ht) as Wt.
  destruct (RGBToHSV_wf _ (wf_CNRGBA64 _ Wb)) as (h1 & E1 & W1 & _ & V1 & A1).
  destruct (RGBToHSV_wf _ (wf_CNRGBA64 _ Wt)) as (h2 & E2 & W2 & _ & V2 & A2).
  rewrite E1, E2. cbn [obind]. eexists _, h1, _. split; [reflexivity|].
  destruct W1 as (?&?&?&?), W2 as (?&?&?&?).
  match goal with |- context [CHSVA ?h] => destruct (hsva_value h) as [X Y]; [cbn; auto|] end.
  cbn [colourToNRGBA] in *. rewrite X, Y. cbn [hsvV hsvA hsvH hsvS].
  split; [exact V2|]. split; [exact A1|]. split; [|auto].
  unfold RGBToHSV in *. cbn [colourToNRGBA] in E1. exact E1.
Qed.
Lemma saturation_mode rnd b t : wf_color b -> wf_color t ->
  exists c hb ht hc, composite MSaturation rnd b t = Some c /\
    mx3 (colourToNRGBA c) = mx3 (colourToNRGBA b) /\ cA (colourToNRGBA c) = cA (colourToNRGBA b) /\
    RGBToHSV b = Some hb /\ RGBToHSV t = Some ht /\ c = CHSVA hc /\
    hsvH hc = hsvH hb /\ hsvS hc = hsvS ht.
Proof.
  intros Hb Ht. unfold composite; cbn [channelFun]. unfold compositeSaturation.
  pose proof (colourToNRGBA_wf b Hb) as Wb. pose proof (colourToNRGBA_wf t Ht) as Wt.
  destruct (RGBToHSV_wf _ (wf_CNRGBA64 _ Wb)) as (h1 & E1 & W1 & _ & V1 & A1).
  destruct (RGBToHSV_wf _ (wf_CNRGBA64 _ Wt)) as (h2 & E2 & W2 & _ & V2 & A2).
  rewrite E1, E2. cbn [obind]. eexists _, h1, h2, _. split; [reflexivity|].
  destruct W1 as (?&?&?&?), W2 as (?&?&?&?).
  match goal with |- context [CHSVA ?h] => destruct (hsva_value h) as [X Y]; [cbn; auto|] end.
  cbn [colourToNRGBA] in *. rewrite X, Y. cbn [hsvV hsvA hsvH hsvS].
  split; [exact V1|]. split; [exact A1|]. 
  split; [unfold RGBToHSV in *; cbn [colourToNRGBA] in E1; exact E1|].
  split; [unfold RGBToHSV in *; cbn [colourToNRGBA] in E2; exact E2|]. auto.
Qed.
Lemma hue_mode rnd b t : wf_color b -> wf_color t ->
  exists c, composite MHue rnd b t = Some c /\
    mx3 (colourToNRGBA c) = mx3 (colourToNRGBA b) /\ cA (colourToNRGBA c) = cA (colourToNRGBA b).
Proof.
  intros Hb Ht. unfold composite; cbn [channelFun]. unfold compositeHue.
  destruct (_ && _); [eexists; split; [reflexivity|split; reflexivity]|].
  pose proof (colourToNRGBA_wf b Hb) as Wb. pose proof (colourToNRGBA_wf t Ht) as Wt.
  destruct (RGBToHSV_wf _ (wf_CNRGBA64 _ Wb)) as (h1 & E1 & W1 & _ & V1 & A1).
  destruct (RGBToHSV_wf _ (wf_CNRGBA64 _ Wt)) as (h2 & E2 & W2 & _ & V2 & A2).
  rewrite E1, E2. cbn [obind]. eexists. split; [reflexivity|].
  destruct W1 as (?&?&?&?), W2 as (?&?&?&?).
  match goal with |- context [CHSVA ?h] => destruct (hsva_value h) as [X Y]; [cbn; auto|] end.
  cbn [colourToNRGBA] in *. rewrite X, Y. auto.
Qed.
Lemma hue_takes_hue rnd b t : wf_color b -> wf_color t ->
  let y := colourToNRGBA t in
  cA y = 65535 -> ~ (cR y = cG y /\ cR y = cB y) ->
  exists hb ht, RGBToHSV b = Some hb /\ RGBToHSV t = Some ht /\
    composite MHue rnd b t = Some (CHSVA (mkHSVA (hsvH ht) (hsvS hb) (hsvV hb) (hsvA hb))).
Proof.
  intros Hb Ht y Ha Hn. unfold composite; cbn [channelFun]. unfold compositeHue.
  pose proof (colourToNRGBA_wf b Hb) as Wb. pose proof (colourToNRGBA_wf t Ht) as Wt.
  destruct (RGBToHSV_wf _ (wf_CNRGBA64 _ Wb)) as (h1 & E1 & W1 & _ & V1 & A1).
  destruct (RGBToHSV_wf _ (wf_CNRGBA64 _ Wt)) as (h2 & E2 & W2 & _ & V2 & A2).
  exists h1, h2. rewrite E1, E2.
  split; [unfold RGBToHSV in *; cbn [colourToNRGBA] in E1; exact E1|].
  split; [unfold RGBToHSV in *; cbn [colourToNRGBA] in E2; exact E2|].
  fold y. unfold nrgba64_RGBA. rewrite Ha. destruct Wt as (?&?&?&?). fold y in H, H0, H1, H2.
  unfold is_u16 in *. cbn [pR pG pB]. rewrite !u32_id by lia. rewrite !Z.div_mul by lia.
  destruct (Z.eqb_spec (cR y) (cG y)), (Z.eqb_spec (cR y) (cB y)); cbn [andb obind]; try reflexivity.
  exfalso; auto.
Qed.
Lemma hue_grey_top rnd b t : let y := colourToNRGBA t in
  cR y = cG y -> cR y = cB y ->
  composite MHue rnd b t = Some (CNRGBA64 (colourToNRGBA b)).
Proof.
  intros y E1 E2. unfold composite; cbn [channelFun]. unfold compositeHue. fold y.
  unfold nrgba64_RGBA. rewrite <- E1, <- E2. cbn [pR pG pB]. rewrite !Z.eqb_refl. reflexivity.
Qed.

(** ** Colour conversions *)
Lemma unpremul_roundtrip r a : 0 <= r <= a -> 0 < a <= 65535 ->
  0 <= r - (r * 65535 / a) * a / 65535 <= 1.
Proof.
  intros. pose proof (div_bounds (r * 65535) a ltac:(lia)) as B1.
  set (q := r * 65535 / a) in *.
  pose proof (div_bounds (q * a) 65535 ltac:(lia)) as B2. nia.
Qed.

Lemma toNRGBA_RGBA c : wf_color c ->
  let p := color_RGBA c in let q := nrgba64_RGBA (colourToNRGBA c) in
  pA q = pA p /\ 0 <= pR p - pR q <= 1 /\ 0 <= pG p - pG q <= 1 /\ 0 <= pB p - pB q <= 1.
Proof.
  intros Hc. cbv zeta.
  assert (GEN : forall p, premultiplied p ->
     let q := nrgba64_RGBA (nrgba64Model_rgba p) in
     pA q = pA p /\ 0 <= pR p - pR q <= 1 /\ 0 <= pG p - pG q <= 1 /\ 0 <= pB p - pB q <= 1).
  { intros p (P1&P2&P3&P4). cbv zeta. unfold nrgba64Model_rgba.
    destruct (Z.eqb_spec (pA p) 65535) as [E|E]; [|destruct (Z.eqb_spec (pA p) 0) as [E0|E0]].
    - unfold nrgba64_RGBA; cbn. rewrite !u16_id by lia. rewrite !u32_id by lia.
      rewrite !Z.div_mul by lia. lia.
    - unfold nrgba64_RGBA; cbn. change (u32 (0 * 0) / 65535) with 0. lia.
    - unfold nrgba64_RGBA; cbn.
      destruct (unpremul_range (pR p) (pA p)) as [-> ?]; try lia.
      destruct (unpremul_range (pG p) (pA p)) as [-> ?]; try lia.
      destruct (unpremul_range (pB p) (pA p)) as [-> ?]; try lia.
      rewrite !u16_id by lia. rewrite !u32_id by nia.
      pose proof (unpremul_roundtrip (pR p) (pA p)).
      pose proof (unpremul_roundtrip (pG p) (pA p)).
      pose proof (unpremul_roundtrip (pB p) (pA p)). lia. }
  assert (E8 : forall x a, 0 <= x < 256 -> 0 <= a < 256 ->
     u32 (u16 (rep8 x) * u16 (rep8 a)) / 65535 = u32 (rep8 x * a) / 255).
  { intros x a Hx Ha. rewrite !rep8_eq by lia. rewrite !u16_id by lia. rewrite !u32_id by nia.
    replace (257 * x * (257 * a)) with (257 * (257 * x * a)) by lia.
    replace 65535 with (257 * 255) by lia. apply Z.div_mul_cancel_l; lia. }
  destruct c; try (apply (GEN (color_RGBA _)), color_RGBA_premul, Hc).
  - cbn in Hc. destruct Hc as (?&?&?&?). unfold is_u8 in *.
    unfold nrgba64_RGBA; cbn. rewrite !E8 by lia. rewrite (rep8_eq a) by lia.
    rewrite u16_id by lia. lia.
  - cbn. lia.
  - cbn in Hc. destruct Hc as (?&?&?). unfold is_u8 in *. unfold nrgba64_RGBA; cbn.
    rewrite !rep8_eq by lia. rewrite !u16_id by lia. rewrite !u32_id by lia.
    rewrite !Z.div_mul by lia. lia.
  - cbn in Hc. destruct Hc as (?&?). unfold is_u8 in *.
    unfold nrgba64_RGBA; cbn. rewrite !E8 by lia. rewrite (rep8_eq a) by lia.
    rewrite u16_id by lia. lia.
  - cbn. lia.
  - cbn. lia.
Qed.

Lemma lib_ToNRGBA_exact c : wf_color c ->
  match c with CRGB _ _ _ | CGrayAlpha _ _ | CHSLA _ | CHSVA _ =>
    nrgba64_RGBA (colourToNRGBA c) = color_RGBA c
  | _ => True end.
Proof.
  intros Hc.
  assert (E8 : forall x a, 0 <= x < 256 -> 0 <= a < 256 ->
     u32 (u16 (rep8 x) * u16 (rep8 a)) / 65535 = u32 (rep8 x * a) / 255).
  { intros x a Hx Ha. rewrite !rep8_eq by lia. rewrite !u16_id by lia. rewrite !u32_id by nia.
    replace (257 * x * (257 * a)) with (257 * (257 * x * a)) by lia.
    replace 65535 with (257 * 255) by lia. apply Z.div_mul_cancel_l; lia. }
  destruct c; try exact I; cbn in Hc; unfold is_u8 in *.
  - destruct Hc as (?&?&?). unfold nrgba64_RGBA; cbn.
    rewrite !rep8_eq by lia. rewrite !u16_id by lia. rewrite !u32_id by lia.
    rewrite !Z.div_mul by lia. reflexivity.
  - destruct Hc as (?&?). unfold nrgba64_RGBA; cbn. rewrite !E8 by lia.
    rewrite (rep8_eq a) by lia. rewrite u16_id by lia. reflexivity.
  - reflexivity.
  - reflexivity.
Qed.

(** ** Colour models *)
Lemma rgbModel_id r g b : is_u8 r -> is_u8 g -> is_u8 b -> rgbModel (CRGB r g b) = (r, g, b).
Proof.
  unfold is_u8; intros. unfold rgbModel; cbn. rewrite !rep8_eq by lia. rewrite !shiftr8.
  assert (E : forall x, 0 <= x < 256 -> 257 * x / 256 = x).
  { intros x Hx. symmetry. apply (Z.div_unique _ _ _ x); lia. }
  rewrite !E by lia. rewrite !u8_id by lia. reflexivity.
Qed.
Lemma rgbModel_idem c : wf_color c ->
  let '(r, g, b) := rgbModel c in rgbModel (CRGB r g b) = rgbModel c.
Proof.
  intros Hc. unfold rgbModel at 1. cbv zeta beta. rewrite rgbModel_id; [reflexivity| | |]; apply u8_range.
Qed.
Lemma grayAlphaModel_opaque y : is_u8 y -> grayAlphaModel (CGrayAlpha y 255) = (y, 255).
Proof.
  unfold is_u8; intros H.
  assert (E : (let '(a, b) := grayAlphaModel (CGrayAlpha y 255) in (a =? y) && (b =? 255)) = true).
  { revert y H. apply sweep256. vm_compute. reflexivity. }
  destruct (grayAlphaModel (CGrayAlpha y 255)) as [a b]. f_equal; lia.
Qed.
Lemma grayAlphaModel_alpha c : wf_color c -> pA (color_RGBA c) / 256 = snd (grayAlphaModel c).
Proof.
  intros Hc. unfold grayAlphaModel; cbn [snd]. rewrite shiftr8.
  pose proof (color_RGBA_premul c Hc) as (?&?&?&?). rewrite u8_id by lia. reflexivity.
Qed.

(** ** Palettes *)
Lemma sq_bound x y : 0 <= x <= 65535 -> 0 <= y <= 65535 -> 0 <= (x - y) * (x - y) <= 65535 * 65535.
Proof.
  intros. rewrite <- (Z.abs_square (x - y)).
  split; [apply Z.mul_nonneg_nonneg; lia|apply Z.mul_le_mono_nonneg; lia].
Qed.
Lemma sqDiff_eq x y : 0 <= x <= 65535 -> 0 <= y <= 65535 -> sqDiff x y = sq4 x y.
Proof.
  intros Hx Hy. unfold sqDiff, sq4. cbv zeta. rewrite shiftr2. f_equal.
  unfold u32. rewrite <- Zmult_mod. apply Z.mod_small. pose proof (sq_bound x y Hx Hy). lia.
Qed.
Lemma sq4_range x y : 0 <= x <= 65535 -> 0 <= y <= 65535 -> 0 <= sq4 x y <= 1073709056.
Proof.
  intros Hx Hy. unfold sq4. pose proof (sq_bound x y Hx Hy).
  set (p := (x - y) * (x - y)) in *. clearbody p. pose proof (div_bounds p 4). lia.
Qed.

Lemma pal_dist_eq p v : premultiplied p -> premultiplied v ->
  pal_dist p v = dist4 p v /\ 0 <= dist4 p v < 4294967295.
Proof.
  intros (?&?&?&?) (?&?&?&?). unfold pal_dist, dist4.
  rewrite !sqDiff_eq by lia.
  pose proof (sq4_range (pR p) (pR v)); pose proof (sq4_range (pG p) (pG v)).
  pose proof (sq4_range (pB p) (pB v)); pose proof (sq4_range (pA p) (pA v)).
  rewrite u32_id by lia. lia.
Qed.

Lemma pal_index_ok p pal0 : premultiplied p -> Forall wf_color pal0 ->
  forall pal pre ret best,
  pal0 = pre ++ pal -> 
  0 <= best ->
  (pre = [] -> best = 4294967295) ->
  (pre <> [] -> exists e, znth pal0 ret = Some e /\ dist4 p (color_RGBA e) = best) ->
  (forall e, In e pre -> best <= dist4 p (color_RGBA e)) ->
  pal0 <> [] ->
  let i := pal_index_from p pal (zlen pre) ret best in
  exists e, znth pal0 i = Some e /\
   forall e', In e' pal0 -> dist4 p (color_RGBA e) <= dist4 p (color_RGBA e').
Proof.
  intros Hp HW pal. induction pal as [|v pal IH]; intros pre ret best Epal Hb0 HbI Hret Hmin Hne i.
  - rewrite app_nil_r in Epal. subst pre.
    destruct (Hret Hne) as (e & E & D). exists e. split; [exact E|]. rewrite D. exact Hmin.
  - assert (Hv : wf_color v). { rewrite Forall_forall in HW. apply HW. rewrite Epal. apply in_app_iff; cbn; auto. }
    destruct (pal_dist_eq p (color_RGBA v) Hp (color_RGBA_premul v Hv)) as [Ed Rd].
    assert (Nv : znth pal0 (zlen pre) = Some v).
    { unfold znth, zlen. destruct (Z.ltb_spec (Z.of_nat (length pre)) 0); [lia|].
      rewrite Nat2Z.id, Epal, nth_error_app2, Nat.sub_diag by lia. reflexivity. }
    assert (Epal' : pal0 = (pre ++ [v]) ++ pal) by (rewrite <- app_assoc; exact Epal).
    assert (Elen : zlen (pre ++ [v]) = zlen pre + 1).
    { unfold zlen. rewrite app_length. cbn [length]. lia. }
    assert (Nn : pre ++ [v] <> []) by (destruct pre; discriminate).
    subst i. cbn [pal_index_from]. rewrite Ed.
    destruct (Z.ltb_spec (dist4 p (color_RGBA v)) best).
    + destruct (Z.eqb_spec (dist4 p (color_RGBA v)) 0).
      * exists v. split; [exact Nv|]. intros e' He'.
        rewrite Forall_forall in HW.
        destruct (pal_dist_eq p (color_RGBA e') Hp (color_RGBA_premul e' (HW _ He'))). lia.
      * rewrite <- Elen. apply IH; auto; try lia.
        -- intros; contradiction.
        -- intros _. exists v. auto.
        -- intros e [He|[<-|[]]]%in_app_iff; [|lia]. specialize (Hmin e He). lia.
    + rewrite <- Elen. apply IH; auto.
      * intros; contradiction.
      * intros _. destruct pre as [|w pre]; [|apply Hret; discriminate].
        specialize (HbI eq_refl). lia.
      * intros e [He|[<-|[]]]%in_app_iff; [auto|lia].
Qed.

Lemma palette_nearest pal c : Forall wf_color pal -> wf_color c -> pal <> [] ->
  exists e, znth pal (alphaPalette_Index pal c) = Some e /\
   (forall e', In e' pal -> dist4 (color_RGBA c) (color_RGBA e) <= dist4 (color_RGBA c) (color_RGBA e')) /\
   alphaPalette_Convert pal c =
     Some (mk64 (pR (color_RGBA e)) (pG (color_RGBA e)) (pB (color_RGBA e)) (pA (color_RGBA c))).
Proof.
  intros HW Hc Hne.
  destruct (pal_index_ok (color_RGBA c) pal (color_RGBA_premul c Hc) HW pal [] 0 4294967295)
    as (e & E & M); auto; try lia; try easy.
  exists e. change (zlen (@nil color)) with 0 in E. fold (alphaPalette_Index pal c) in E.
  split; [exact E|]. split; [exact M|].
  unfold alphaPalette_Convert. rewrite E. cbn [obind].
  assert (We : wf_color e).
  { rewrite Forall_forall in HW. apply HW. unfold znth in E.
    destruct (_ <? 0); [discriminate|]. apply nth_error_In in E. exact E. }
  pose proof (color_RGBA_premul e We) as (?&?&?&?).
  pose proof (color_RGBA_premul c Hc) as (?&?&?&?).
  rewrite !u16_id by lia. reflexivity.
Qed.

Lemma sq4_zero x y : 0 <= sq4 x y -> sq4 x y <= 0 -> Z.abs (x - y) <= 1.
Proof.
  unfold sq4. intros H1 H2. pose proof (div_bounds ((x - y) * (x - y)) 4 ltac:(lia)). nia.
Qed.
Lemma dist4_zero p v : premultiplied p -> premultiplied v -> dist4 p v <= 0 ->
  Z.abs (pR p - pR v) <= 1 /\ Z.abs (pG p - pG v) <= 1 /\ Z.abs (pB p - pB v) <= 1 /\ Z.abs (pA p - pA v) <= 1.
Proof.
  intros (?&?&?&?) (?&?&?&?). unfold dist4. intros D.
  pose proof (sq4_range (pR p) (pR v)); pose proof (sq4_range (pG p) (pG v)).
  pose proof (sq4_range (pB p) (pB v)); pose proof (sq4_range (pA p) (pA v)).
  repeat split; apply sq4_zero; lia.
Qed.
Lemma dist4_refl p : dist4 p p = 0.
Proof. unfold dist4, sq4. rewrite !Z.sub_diag. reflexivity. Qed.

Lemma palette_member pal c : Forall wf_color pal -> wf_color c ->
  (exists e', In e' pal /\ color_RGBA e' = color_RGBA c) ->
  exists e, znth pal (alphaPalette_Index pal c) = Some e /\
   let p := color_RGBA e in let q := color_RGBA c in
   Z.abs (pR p - pR q) <= 1 /\ Z.abs (pG p - pG q) <= 1 /\ Z.abs (pB p - pB q) <= 1 /\ Z.abs (pA p - pA q) <= 1.
Proof.
  intros HW Hc (e' & He' & Ee').
  destruct (palette_nearest pal c HW Hc) as (e & E & M & _).
  { intros ->. contradiction. }
  exists e. split; [exact E|]. cbv zeta.
  specialize (M e' He'). rewrite Ee', dist4_refl in M.
  assert (We : wf_color e).
  { rewrite Forall_forall in HW. apply HW. unfold znth in E.
    destruct (_ <? 0); [discriminate|]. apply nth_error_In in E. exact E. }
  pose proof (dist4_zero _ _ (color_RGBA_premul c Hc) (color_RGBA_premul e We) M). lia.
Qed.
(** on 8-bit opaque palettes membership is exact *)
Lemma palette_member8 pal r g b :
  Forall (fun e => exists r g b, e = CNRGBA r g b 255 /\ is_u8 r /\ is_u8 g /\ is_u8 b) pal ->
  In (CNRGBA r g b 255) pal ->
  znth pal (alphaPalette_Index pal (CNRGBA r g b 255)) = Some (CNRGBA r g b 255).
Proof.
  intros HF Hin.
  assert (HW : Forall wf_color pal).
  { eapply Forall_impl; [|exact HF]. intros e (r'&g'&b'&->&?&?&?). cbn. unfold is_u8 in *; lia. }
  assert (Hc : wf_color (CNRGBA r g b 255)). { rewrite Forall_forall in HW. apply HW, Hin. }
  destruct (palette_member pal _ HW Hc) as (e & E & D); [eauto|].
  rewrite E. f_equal. 
  assert (In e pal). { unfold znth in E. destruct (_ <? 0); [discriminate|]. apply nth_error_In in E. exact E. }
  rewrite Forall_forall in HF. destruct (HF e H) as (r'&g'&b'&->&?&?&?).
  unfold is_u8 in *. cbn in Hc. destruct Hc as (?&?&?&?). unfold is_u8 in *.
  revert D. cbn. rewrite !(rep8_eq _) by lia. rewrite !u32_id by lia. rewrite !Z.div_mul by lia.
  intros (?&?&?&?). f_equal; lia.
Qed.

(** ** Transparency *)
Lemma transparency_ok c ao : wf_color c -> 0 < ao < 255 ->
  exists n, transparency c ao = CNRGBA64 n /\ wf64 n /\
   cR n = cR (colourToNRGBA c) /\ cG n = cG (colourToNRGBA c) /\ cB n = cB (colourToNRGBA c) /\
   cA n = ao * cA (colourToNRGBA c) / 255.
Proof.
  intros Hc Ha. pose proof (colourToNRGBA_wf c Hc) as (?&?&?&?). unfold is_u16 in *.
  unfold transparency. destruct (Z.eqb_spec ao 255); [lia|]. destruct (Z.eqb_spec ao 0); [lia|].
  eexists; split; [reflexivity|]. cbn [cR cG cB cA].
  rewrite rep8_eq by lia. set (a := cA (colourToNRGBA c)) in *.
  rewrite u32_id by nia.
  assert (E : 257 * ao * a / 65535 = ao * a / 255).
  { replace (257 * ao * a) with (257 * (ao * a)) by lia.
    replace 65535 with (257 * 255) by lia. apply Z.div_mul_cancel_l; lia. }
  rewrite E. assert (0 <= ao * a / 255 <= a) by (apply div_range; nia).
  rewrite u16_id by lia. unfold wf64, is_u16; cbn [cR cG cB cA]. lia.
Qed.

Lemma hsla_alpha h : cA (hsla_ToNRGBA h) = hslA h.
Proof.
  unfold hsla_ToNRGBA. destruct (hslS h =? 0); [reflexivity|].
  unfold hcmaToColour. cbv zeta.
  match goal with |- context [let '(_, _) := ?x in _] => destruct x as [[? ?] ?] end. reflexivity.
Qed.

Lemma hsl_partial c : wf_color c ->
  let n := colourToNRGBA c in
  exists h, RGBToHSL c = Some h /\ wf_color (CHSLA h) /\ hslA h = cA n /\
    hslL h = (mx3 n + mn3 n) / 2 /\ cA (hsla_ToNRGBA h) = cA n /\
    (mx3 n = mn3 n -> hsla_ToNRGBA h = n).
Proof.
  intros Hc n. destruct (RGBToHSL_wf c Hc) as (h & E & W & A & L). fold n in A, L.
  exists h. split; [exact E|]. split; [exact W|]. split; [exact A|]. split; [exact L|].
  split; [rewrite hsla_alpha; exact A|].
  intros Heq. pose proof (colourToNRGBA_wf c Hc) as (HR&HG&HB&HA). fold n in HR, HG, HB, HA.
  unfold is_u16 in *.
  assert (ER : cR n = mx3 n /\ cG n = mx3 n /\ cB n = mx3 n) by (unfold mx3, mn3 in *; lia).
  assert (S : hslS h = 0).
  { unfold RGBToHSL in E. fold n in E. rewrite go_min3, go_max3 in E by lia.
    fold (mx3 n) (mn3 n) in E. rewrite Heq, Z.sub_diag in E. cbn in E.
    injection E as <-. reflexivity. }
  unfold hsla_ToNRGBA. rewrite S. cbn [Z.eqb]. rewrite A, L, <- Heq.
  replace (mx3 n + mx3 n) with (mx3 n * 2) by lia. rewrite Z.div_mul by lia.
  destruct ER as (<-&E2&E3). destruct n; cbn in *. congruence.
Qed.

Lemma grayalpha_partial y : is_u8 y ->
  grayAlphaModel (CGrayAlpha y 255) = (y, 255) /\
  forall a, is_u8 a -> snd (grayAlphaModel (CGrayAlpha y a)) = a.
Proof.
  intros Hy. split; [apply grayAlphaModel_opaque, Hy|]. intros a Ha. unfold is_u8 in *.
  unfold grayAlphaModel; cbn [snd color_RGBA pA]. rewrite rep8_eq, shiftr8 by lia.
  replace (257 * a / 256) with a by (apply (Z.div_unique _ _ _ a); lia). apply u8_id; lia.
Qed.

Lemma grainmerge_neutral_bad rnd x : 0 < x <= 65535 ->
  composite MGrainMerge rnd (grey x) (grey 32767) = Some (grey 65535).
Proof.
  intros. rewrite grainmerge_actual by (unfold r16; lia).
  replace (Z.min 65535 (x + 32767 + 32767)) with 65535 by lia. reflexivity.
Qed.
Lemma grainmerge_sat rnd x y : r16 x -> r16 y -> 98302 <= x + y ->
  exists v, composite MGrainMerge rnd (grey x) (grey y) = Some (grey v) /\ grainmerge_formula x y v.
Proof.
  intros Hx Hy Hs. rewrite grainmerge_actual by auto. eexists; split; [reflexivity|].
  unfold grainmerge_formula, r16 in *. lia.
Qed.
Lemma dissolve_partial rnd b t : 0 <= rnd < 65535 ->
  let x := colourToNRGBA b in let y := colourToNRGBA t in
  exists c, composite MDissolve rnd b t = Some (CNRGBA64 c) /\
    (c = x \/ c = mk64 (cR y) (cG y) (cB y) 65535) /\
    (cA x = cA y -> c = (if rnd <? cA y then mk64 (cR y) (cG y) (cB y) 65535 else x)).
Proof.
  intros H x y. rewrite dissolve_eq by exact H. eexists; split; [reflexivity|].
  fold x y. split; [destruct (rnd <? cA x); auto|]. intros ->. reflexivity.
Qed.
Lemma porter_duff_partial rnd b t : wf_color b -> wf_color t ->
  composite MPlus rnd b t = composite MNormal rnd b t /\
  composite MDestinationIn rnd b t = composite MNormal rnd b t /\
  composite MDestinationOut rnd b t = composite MNormal rnd b t /\
  composite MSourceAtop rnd b t = composite MNormal rnd b t /\
  composite MDestinationAtop rnd b t = composite MNormal rnd t b /\
  (cA (colourToNRGBA b) = 65535 ->
     exists c, composite MSourceAtop rnd b t = Some c /\ cA (colourToNRGBA c) = 65535) /\
  (cA (colourToNRGBA t) = 65535 ->
     exists c, composite MDestinationAtop rnd b t = Some c /\ cA (colourToNRGBA c) = 65535).
Proof.
  intros Hb Ht. repeat (split; [reflexivity|]).
  assert (G : forall b t, wf_color b -> wf_color t -> cA (colourToNRGBA b) = 65535 ->
     exists c, composite MNormal rnd b t = Some c /\ cA (colourToNRGBA c) = 65535).
  { intros b' t' Hb' Ht' E.
    pose proof (colourToNRGBA_wf t' Ht') as (_&_&_&A). unfold is_u16 in A.
    destruct (normal_general rnd b' t' Hb' Ht' ltac:(lia)) as (c & Ec & _ & _ & _ & _ & _ & M).
    exists (CNRGBA64 c). split; [exact Ec|]. cbn. lia. }
  split; intros; apply G; assumption.
Qed.
