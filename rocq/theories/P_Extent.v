(** How far the modes and models that break their property break it: for every
    input, exactly when the documented result comes out (C03, C06 - C10, C13, C17).
    The refutations and the true parts are in P_Composite and P_Color. *)
Require Import Verif.Base Verif.M_Color Verif.M_Composite Verif.S_Color Verif.S_Composite
  Verif.L_Word Verif.L_Color Verif.L_Composite Verif.L_Blend Verif.L_HSV Verif.L_Modes.

(** ** C03: over any bottom, every channel of the result is the mix of that
    channel of the bottom with what the mode yields on the RED of the bottom and
    that channel of the top; so it is as documented when the mode does not tell
    the bottom's red from the channel *)
Theorem C03_per_channel_extent_partial : forall m rnd b t,
  separable m = true -> wf_color b -> wf_color t ->
  let x := colourToNRGBA b in let y := colourToNRGBA t in
  0 < cA x ->
  exists c, composite m rnd b t = Some (CNRGBA64 c) /\
   (exists v, composite m rnd (grey (cR x)) (grey (cR y)) = Some (grey v) /\
      over_channel (cA x) (cR x) (Z.min (cA x) (cA y)) v (cR c)) /\
   (exists v, composite m rnd (grey (cR x)) (grey (cG y)) = Some (grey v) /\
      over_channel (cA x) (cG x) (Z.min (cA x) (cA y)) v (cG c)) /\
   (exists v, composite m rnd (grey (cR x)) (grey (cB y)) = Some (grey v) /\
      over_channel (cA x) (cB x) (Z.min (cA x) (cA y)) v (cB c)).
Proof.
  cbv zeta. intros m rnd b t Hs Hb Ht Hp. destruct (separable_fun m Hs) as (f & Hf).
  destruct (separable_spec m f rnd b t Hf Hb Ht Hp)
    as (vr & vg & vb & fr & fg & fb & F1 & F2 & F3 & _ & _ & _ & _ & _ & _ & S1 & S2 & S3 & ->).
  destruct (wf64_r16 _ (colourToNRGBA_wf b Hb)) as (R1&G1&B1&A1).
  destruct (wf64_r16 _ (colourToNRGBA_wf t Ht)) as (R2&G2&B2&A2).
  eexists; split; [reflexivity|]. cbn [cR cG cB].
  split; [|split]; eexists; (split; [apply (separable_grey m f); eassumption|assumption]).
Qed.
Print Assumptions C03_per_channel_extent_partial.
Example C03_extent_ex : composite MMultiply 0 (CNRGBA64 (mk64 20000 60000 40000 65535)) (grey 65535)
  = Some (CNRGBA64 (mk64 20000 20000 20000 65535)).
Proof. vm_compute. reflexivity. Qed.

(** ** C06: burning gives the documented value exactly where it does not saturate *)
Theorem C06_burn_extent_partial : forall rnd x y, 0 <= x <= 65535 -> 0 <= y <= 65535 ->
  exists v, composite MBurn rnd (grey x) (grey y) = Some (grey v) /\
    (burn_formula x y v <-> 65535 - x <= y /\ 0 < y) /\
    (~ (65535 - x <= y /\ 0 < y) -> v = (if (x =? 65535) && (y =? 0) then 0 else 65535)).
Proof.
  intros rnd x y Hx Hy. eexists. split; [apply (separable_grey MBurn compositeBurn); auto; apply burn_eq; auto|].
  destruct (Z.eqb_spec y 0) as [->|Hy0].
  - split.
    + unfold burn_formula. destruct (Z.eqb_spec x 65535); [lia|]. lia.
    + intros _. destruct (Z.eqb_spec x 65535); reflexivity.
  - assert (Hp : 0 < y) by lia. pose proof (div_bounds (65535 * (65535 - x)) y Hp) as B.
    set (q := 65535 * (65535 - x) / y) in *. clearbody q. rewrite andb_false_r.
    assert (Q : q <= 65535 <-> 65535 - x <= y) by (split; intros; nia).
    destruct (Z.leb_spec q 65535) as [L|L].
    + split; [|intros; lia]. split; [intros _; lia|]. intros _. unfold burn_formula. right.
      destruct (Z_lt_le_dec (65535 - x) y) as [E|E].
      * right. split; [lia|]. split; [lia|]. unfold within. split; [lia|]. apply Z.abs_le. lia.
      * left. split; [lia|]. split; [lia|]. nia.
    + split; [|intros _; reflexivity]. split; [|intros; lia]. unfold burn_formula, within. intros; nia.
Qed.
Print Assumptions C06_burn_extent_partial.
Example C06_extent_ex : composite MBurn 0 (grey 65535) (grey 0) = Some (grey 0) /\
  composite MBurn 0 (grey 1) (grey 65534) = Some (grey 0) /\
  composite MBurn 0 (grey 1000) (grey 3000) = Some (grey 65535).
Proof. vm_compute. auto. Qed.

(** ** C07: the one pair of greys on which HardLight is wrong *)
Theorem C07_hardlight_extent_partial : forall rnd x y, 0 <= x <= 65535 -> 0 <= y <= 65535 ->
  exists v, composite MHardLight rnd (grey x) (grey y) = Some (grey v) /\
    (hardlight_formula x y v <-> ~ (x = 0 /\ y = 32767)).
Proof.
  intros rnd x y Hx Hy.
  destruct (Z.eq_dec x 0) as [->|Nx]; [destruct (Z.eq_dec y 32767) as [->|Ny]|].
  - exists 65535. split; [vm_compute; reflexivity|]. unfold hardlight_formula, within. lia.
  - destruct (hardlight_good rnd 0 y Hx Hy) as (v & E & F); [lia|]. exists v. split; [exact E|]. split; auto. lia.
  - destruct (hardlight_good rnd x y Hx Hy) as (v & E & F); [lia|]. exists v. split; [exact E|]. split; auto. lia.
Qed.
Print Assumptions C07_hardlight_extent_partial.

(** ** C08: the error of Overlay and SoftLight is y (x - y) (x + y - 2) on the
    unit scale, to within 4/65535: none only for a black top or a top equal to the
    bottom *)
Theorem C08_overlay_extent_partial : forall rnd x y, 0 <= x <= 65535 -> 0 <= y <= 65535 ->
  exists v, composite MOverlay rnd (grey x) (grey y) = Some (grey v) /\
    composite MSoftLight rnd (grey x) (grey y) = Some (grey v) /\
    within 4 (x * (65535 * x + 2 * y * (65535 - x)) + y * (x - y) * (x + y - 131070)) (65535 * 65535) v /\
    (forall e, overlay_formula e x y v -> Z.abs (y * (x - y) * (x + y - 131070)) <= (e + 4) * (65535 * 65535)) /\
    (forall e, Z.abs (y * (x - y) * (x + y - 131070)) <= e * (65535 * 65535) -> overlay_formula (e + 4) x y v).
Proof.
  intros rnd x y Hx Hy. destruct (overlay_eq x y Hx Hy) as [E _].
  eexists. split; [apply (separable_grey MOverlay compositeOverlay); eauto|].
  split; [apply (separable_grey MSoftLight compositeSoftLight); eauto|].
  match goal with |- within _ _ _ ?v /\ _ => set (w := v) end.
  assert (W : Z.abs (w * (65535 * 65535) - (x * (65535 * x + 2 * y * (65535 - x)) + y * (x - y) * (x + y - 131070)))
     <= 4 * (65535 * 65535)).
  { subst w.
    pose proof (div65535 (x * x)) as D1; cbv zeta in D1.
    pose proof (div65535 ((65535 - y) * (65535 - y))) as D2; cbv zeta in D2.
    set (a := x * x / 65535) in *. set (b := (65535 - y) * (65535 - y) / 65535) in *.
    pose proof (div65535 ((65535 - y) * a)) as D3; cbv zeta in D3.
    pose proof (div65535 (y * (65535 - b))) as D4; cbv zeta in D4.
    set (c := (65535 - y) * a / 65535) in *. set (d := y * (65535 - b) / 65535) in *.
    clearbody a b c d.
    assert (A1 : 65535 * ((65535 - y) * a) <= (65535 - y) * (x * x) < 65535 * ((65535 - y) * a) + 65535 * 65536) by nia.
    assert (A2 : y * (65535 * b) <= y * ((65535 - y) * (65535 - y)) <= y * (65535 * b) + y * 65535) by nia.
    apply Z.abs_le. split; nia. }
  clearbody w. set (t := y * (x - y) * (x + y - 131070)) in *. clearbody t.
  unfold overlay_formula, within in *. split; [split; [lia|exact W]|].
  split; intros e He; [destruct He as [_ He]|split; [lia|]]; lia.
Qed.
Print Assumptions C08_overlay_extent_partial.
Example C08_extent_ex : composite MOverlay 0 (grey 0) (grey 30000) = Some (grey 21179) /\
  Z.abs (30000 * (0 - 30000) * (0 + 30000 - 131070)) / (65535 * 65535) = 21179.
Proof. vm_compute. auto. Qed.

(** ** C09: GrainMerge is right exactly where the documented value is full white *)
Theorem C09_grainmerge_extent_partial : forall rnd x y, 0 <= x <= 65535 -> 0 <= y <= 65535 ->
  exists v, composite MGrainMerge rnd (grey x) (grey y) = Some (grey v) /\
    v = Z.min 65535 (x + y + 32767) /\ (grainmerge_formula x y v <-> 98302 <= x + y).
Proof.
  intros rnd x y Hx Hy. rewrite grainmerge_actual by auto. eexists. split; [reflexivity|].
  split; [reflexivity|]. unfold grainmerge_formula. lia.
Qed.
Print Assumptions C09_grainmerge_extent_partial.
Example C09_extent_ex : composite MGrainMerge 0 (grey 10000) (grey 20000) = Some (grey 62767).
Proof. vm_compute. reflexivity. Qed.

(** ** C10: a draw is answered as documented exactly when the two alphas lie on the
    same side of it, or both answers are the same colour *)
Theorem C10_dissolve_extent_partial : forall rnd b t, 0 <= rnd < 65535 ->
  let x := colourToNRGBA b in let y := colourToNRGBA t in
  let top := mk64 (cR y) (cG y) (cB y) 65535 in
  exists c, composite MDissolve rnd b t = Some (CNRGBA64 c) /\
    (rnd < cA x -> c = top) /\ (cA x <= rnd -> c = x) /\
    (c = (if rnd <? cA y then top else x) <-> ((rnd < cA x <-> rnd < cA y) \/ x = top)).
Proof.
  intros rnd b t H x y top. rewrite dissolve_eq by exact H. eexists; split; [reflexivity|].
  fold x y. fold top. destruct (Z.ltb_spec rnd (cA x)), (Z.ltb_spec rnd (cA y));
    (split; [intros; try reflexivity; lia|]); (split; [intros; try reflexivity; lia|]).
  - split; [intros _; left; lia|reflexivity].
  - split; [intros ->; right; reflexivity|intros [?|E]; [lia|congruence]].
  - split; [intros ->; right; reflexivity|intros [?|E]; [lia|congruence]].
  - split; [intros _; left; lia|reflexivity].
Qed.
Print Assumptions C10_dissolve_extent_partial.
Example C10_extent_ex : composite MDissolve 40000 (grey 9) (CNRGBA64 (mk64 1 2 3 32768)) =
  Some (CNRGBA64 (mk64 1 2 3 65535)).
Proof. vm_compute. reflexivity. Qed.

(** ** C13: no colour with a spread worth mentioning comes back from HSL: some
    channel is off by a quarter of the spread, less 9/65535 *)
Lemma hcma_ends H c m a : 0 <= H <= 65534 -> 0 <= c <= 65537 -> 0 <= m <= 65535 ->
  let p := 6 * H in let o := hcmaToColour H c m a in
  let full f v := f = 65535 /\ v = u16 (u16 c + m) in let none f v := f = 0 /\ v = m in
  (full (profR p) (cR o) \/ full (profG p) (cG o) \/ full (profB p) (cB o)) /\
  (none (profR p) (cR o) \/ none (profG p) (cG o) \/ none (profB p) (cB o)).
Proof.
  intros HH Hc Hm. cbv zeta. unfold hcmaToColour.
  destruct (Z.eqb_spec H 65535); [lia|].
  rewrite (u32_id (H * 6)) by lia. replace (H * 6) with (6 * H) by lia.
  set (p := 6 * H) in *. assert (Hp : 0 <= p <= 393204) by lia. clearbody p.
  set (s := p / 65535). pose proof (div_bounds p 65535 ltac:(lia)) as Bs. fold s in Bs.
  match goal with |- context [u16 (u32 ?x / 65535)] => set (y := u32 x / 65535) end. clearbody y.
  assert (U0 : u16 (0 + m) = m) by (apply u16_id; lia).
  assert (S : s = 0 \/ s = 1 \/ s = 2 \/ s = 3 \/ s = 4 \/ s = 5) by lia.
  destruct S as [S|[S|[S|[S|[S|S]]]]]; rewrite S in *; cbn [Z.eqb Pos.eqb cR cG cB].
  - split; [left|right; right]; (split; [|auto]); unfold profR, profB, cl; lia.
  - split; [right; left|right; right]; (split; [|auto]); unfold profG, profB, cl; lia.
  - split; [right; left|left]; (split; [|auto]); unfold profR, profG, cl; lia.
  - split; [right; right|left]; (split; [|auto]); unfold profR, profB, cl; lia.
  - split; [right; right|right; left]; (split; [|auto]); unfold profG, profB, cl; lia.
  - split; [left|right; left]; (split; [|auto]); unfold profR, profG, cl; lia.
Qed.

(** whatever chroma [c] the code arrives at, the two ends land a quarter of the
    spread away from where they were *)
Lemma hsl_core mx mn L c m M : 0 <= mn < mx -> mx <= 65535 ->
  2 * L <= mx + mn <= 2 * L + 1 -> 0 <= c <= 65537 ->
  m = u16 (L - u16 (Z.shiftr c 2)) -> M = u16 (u16 c + m) ->
  mx - mn <= 4 * Z.max (Z.abs (M - mx)) (Z.abs (m - mn)) + 8.
Proof.
  intros H1 H2 HL Hc Em EM.
  assert (Q : 4 * Z.shiftr c 2 <= c < 4 * Z.shiftr c 2 + 4).
  { rewrite Z.shiftr_div_pow2 by lia. change (2 ^ 2) with 4. pose proof (div_bounds c 4 ltac:(lia)). lia. }
  set (q := Z.shiftr c 2) in *. clearbody q. unfold u16 in *. change (2 ^ 16) with 65536 in *.
  rewrite (Z.mod_small q) in Em by lia.
  pose proof (Z.div_mod (L - q) 65536 ltac:(lia)) as D1. pose proof (Z.mod_pos_bound (L - q) 65536 ltac:(lia)) as B1.
  rewrite <- Em in *.
  pose proof (Z.div_mod c 65536 ltac:(lia)) as D2. pose proof (Z.mod_pos_bound c 65536 ltac:(lia)) as B2.
  set (c' := c mod 65536) in *.
  pose proof (Z.div_mod (c' + m) 65536 ltac:(lia)) as D3. pose proof (Z.mod_pos_bound (c' + m) 65536 ltac:(lia)) as B3.
  rewrite <- EM in *.
  set (i := (L - q) / 65536) in *. set (j := (c' + m) / 65536) in *. set (k := c / 65536) in *.
  clearbody c' i j k.
  assert (i = 0 \/ i = -1) as [-> | ->] by lia; assert (j = 0 \/ j = 1) as [-> | ->] by lia;
  assert (k = 0 \/ k = 1) as [-> | ->] by lia; lia.
Qed.

Theorem C13_hsl_extent_partial : forall c, wf_color c ->
  let n := colourToNRGBA c in
  exists h, RGBToHSL c = Some h /\
    let o := hsla_ToNRGBA h in
    let d := Z.max (Z.abs (cR o - cR n)) (Z.max (Z.abs (cG o - cG n)) (Z.abs (cB o - cB n))) in
    mx3 n - mn3 n <= 4 * d + 36 /\ (o = n -> mx3 n - mn3 n <= 36).
Proof.
  intros cl Hc n. destruct (RGBToHSL_wf cl Hc) as (h & E & W & A & EL). fold n in A, EL.
  exists h. split; [exact E|]. cbv zeta.
  match goal with |- ?P /\ _ => assert (G : P); [|split; [exact G|]] end.
  2:{ intros Eo. rewrite Eo in G. rewrite !Z.sub_diag in G. cbn in G. exact G. }
  pose proof (colourToNRGBA_wf cl Hc) as Hwf. fold n in Hwf.
  pose proof Hwf as (HR&HG&HB&HA). unfold is_u16 in *.
  assert (M : 0 <= mn3 n <= mx3 n /\ mx3 n <= 65535) by (unfold mx3, mn3; lia).
  destruct (Z.eq_dec (mn3 n) (mx3 n)) as [Eq|Ne]; [lia|].
  destruct (hue_ok n Hwf ltac:(lia)) as (h6 & Eh & Hh & PR & PG & PB).
  pose proof (div_bounds (mx3 n + mn3 n) 2 ltac:(lia)) as BL. rewrite <- EL in BL.
  assert (Hhue : hslH h = h6 / 6).
  { unfold RGBToHSL in E. fold n in E. rewrite go_min3, go_max3 in E by lia.
    fold (mx3 n) (mn3 n) in E. rewrite !(u32_id (mx3 n - mn3 n)), (u16_id (mx3 n)) in E by lia.
    destruct (Z.eqb_spec (mx3 n - mn3 n) 0); [lia|]. rewrite Eh in E.
    match type of E with obind ?x _ = _ => destruct x; cbn in E; [|discriminate E] end.
    injection E as <-. reflexivity. }
  unfold hsla_ToNRGBA. destruct (Z.eqb_spec (hslS h) 0) as [S0|S0].
  { cbn [cR cG cB]. unfold mx3, mn3 in *. lia. }
  match goal with |- context [hcmaToColour _ ?x _ _] => set (c := x) end.
  assert (Hc' : 0 <= c <= 65537).
  { subst c. match goal with |- context [u32 ?x / 65535] => pose proof (u32_range x) as U; set (y := u32 x) in * end.
    clearbody y. pose proof (div_bounds y 65535 ltac:(lia)). lia. }
  clearbody c. set (m := u16 (hslL h - u16 (Z.shiftr c 2))).
  pose proof (hsl_core (mx3 n) (mn3 n) (hslL h) c m _ ltac:(lia) ltac:(lia) ltac:(lia) Hc' eq_refl eq_refl) as K.
  assert (Hm : 0 <= m <= 65535). { subst m. pose proof (u16_range (hslL h - u16 (Z.shiftr c 2))). lia. }
  pose proof (div_bounds h6 6 ltac:(lia)) as B6.
  assert (H6 : 0 <= h6 / 6 <= 65534) by lia.
  rewrite Hhue. pose proof (hcma_ends (h6 / 6) c m (hslA h) H6 Hc' Hm) as [F N]. cbv zeta in F, N.
  set (o := hcmaToColour (h6 / 6) c m (hslA h)) in *.
  pose proof (prof_lip (6 * (h6 / 6)) h6) as (L1&L2&L3).
  assert (Hp : Z.abs (6 * (h6 / 6) - h6) <= 5) by (clear - B6; lia).
  set (p := 6 * (h6 / 6)) in *.
  set (v := u16 (u16 c + m)) in *. clearbody o v m p.
  set (C := mx3 n - mn3 n) in *. assert (HC : 0 < C <= 65535) by (clear - M Ne; subst C; lia).
  assert (Hi : forall f g ch, Z.abs (C * g - 65535 * (ch - mn3 n)) <= C -> Z.abs (f - g) <= 5 -> f = 65535 ->
     Z.abs (ch - mx3 n) <= 6).
  { intros f g ch P1 P2 ->. clear - HC P1 P2.
    assert (Z.abs (C * 65535 - C * g) <= 5 * C).
    { rewrite <- Z.mul_sub_distr_l, Z.abs_mul, (Z.abs_eq C) by lia. apply (Zmult_le_compat_l _ _ C) in P2; lia. }
    subst C. apply Z.abs_le; lia. }
  assert (Lo : forall f g ch, Z.abs (C * g - 65535 * (ch - mn3 n)) <= C -> Z.abs (f - g) <= 5 -> f = 0 ->
     Z.abs (ch - mn3 n) <= 6).
  { intros f g ch P1 P2 ->. clear - HC P1 P2.
    assert (Z.abs (C * g) <= 5 * C).
    { rewrite Z.abs_mul, (Z.abs_eq C) by lia. apply (Zmult_le_compat_l _ _ C) in P2; lia. }
    subst C. apply Z.abs_le; lia. }
  assert (F' : exists ch o', In (ch, o') [(cR n, cR o); (cG n, cG o); (cB n, cB o)] /\
     Z.abs (ch - mx3 n) <= 6 /\ o' = v).
  { destruct F as [[F1 F2]|[[F1 F2]|[F1 F2]]]; do 2 eexists.
    - split; [left; reflexivity|]. split; [eapply Hi; [exact PR|eapply Z.le_trans; [eassumption|exact Hp]|exact F1]|exact F2].
    - split; [right; left; reflexivity|]. split; [eapply Hi; [exact PG|eapply Z.le_trans; [eassumption|exact Hp]|exact F1]|exact F2].
    - split; [right; right; left; reflexivity|]. split; [eapply Hi; [exact PB|eapply Z.le_trans; [eassumption|exact Hp]|exact F1]|exact F2]. }
  assert (N' : exists ch o', In (ch, o') [(cR n, cR o); (cG n, cG o); (cB n, cB o)] /\
     Z.abs (ch - mn3 n) <= 6 /\ o' = m).
  { destruct N as [[F1 F2]|[[F1 F2]|[F1 F2]]]; do 2 eexists.
    - split; [left; reflexivity|]. split; [eapply Lo; [exact PR|eapply Z.le_trans; [eassumption|exact Hp]|exact F1]|exact F2].
    - split; [right; left; reflexivity|]. split; [eapply Lo; [exact PG|eapply Z.le_trans; [eassumption|exact Hp]|exact F1]|exact F2].
    - split; [right; right; left; reflexivity|]. split; [eapply Lo; [exact PB|eapply Z.le_trans; [eassumption|exact Hp]|exact F1]|exact F2]. }
  assert (D : forall ch o', In (ch, o') [(cR n, cR o); (cG n, cG o); (cB n, cB o)] ->
    Z.abs (o' - ch) <= Z.max (Z.abs (cR o - cR n)) (Z.max (Z.abs (cG o - cG n)) (Z.abs (cB o - cB n)))).
  { intros ch o' [Q|[Q|[Q|[]]]]; injection Q as <- <-; clear; lia. }
  destruct F' as (c1 & o1 & I1 & A1 & ->). destruct N' as (c2 & o2 & I2 & A2 & ->).
  apply D in I1. apply D in I2.
  set (d := Z.max (Z.abs (cR o - cR n)) (Z.max (Z.abs (cG o - cG n)) (Z.abs (cB o - cB n)))) in *.
  clearbody d. clear - K A1 A2 I1 I2. lia.
Qed.
Print Assumptions C13_hsl_extent_partial.
Example C13_extent_ex :
  option_map hsla_ToNRGBA (RGBToHSL (CNRGBA64 (mk64 50000 10000 30000 65535))) =
    Some (mk64 60000 20000 40002 65535).
Proof. vm_compute. reflexivity. Qed.

(** ** C17: the grey-alpha model multiplies the intensity by the alpha, so it keeps
    a colour of its own type exactly when that is opaque or black *)
Theorem C17_grayalpha_extent_partial : forall y a, is_u8 y -> is_u8 a ->
  exists v, grayAlphaModel (CGrayAlpha y a) = (v, a) /\
    v <= y /\ within 1 (y * a) 255 v /\ (v = y <-> a = 255 \/ y = 0).
Proof.
  unfold is_u8. intros y a Hy Ha.
  exists (257 * y * a / 255 / 256).
  assert (D1 : 0 <= 257 * y * a / 255 <= 65535).
  { split; [apply Z.div_pos; nia|]. apply Z.div_le_upper_bound; nia. }
  assert (E : grayAlphaModel (CGrayAlpha y a) = (257 * y * a / 255 / 256, a)).
  { unfold grayAlphaModel, grayModel; cbn [color_RGBA pA pR pG pB]. rewrite !rep8_eq by lia.
    rewrite (u32_id (257 * y * a)) by nia.
    set (p := 257 * y * a / 255) in *.
    replace (19595 * p + 38470 * p + 7471 * p + 32768) with (65536 * p + 32768) by lia.
    rewrite u32_id by lia.
    replace (Z.shiftr (65536 * p + 32768) 24) with (p / 256).
    2:{ rewrite Z.shiftr_div_pow2 by lia. change (2 ^ 24) with 16777216.
        pose proof (Z.div_mod p 256 ltac:(lia)). pose proof (Z.mod_pos_bound p 256 ltac:(lia)).
        apply (Z.div_unique _ _ _ (65536 * (p mod 256) + 32768)); lia. }
    rewrite u8_id. 2:{ split; [apply Z.div_pos; lia|]. apply Z.div_lt_upper_bound; lia. }
    rewrite shiftr8. replace (257 * a / 256) with a by (apply (Z.div_unique _ _ _ a); lia).
    rewrite u8_id by lia. reflexivity. }
  split; [exact E|].
  pose proof (Z.div_mod (257 * y * a) 255 ltac:(lia)) as M1.
  pose proof (Z.mod_pos_bound (257 * y * a) 255 ltac:(lia)) as B1.
  set (p := 257 * y * a / 255) in *.
  pose proof (Z.div_mod p 256 ltac:(lia)) as M2. pose proof (Z.mod_pos_bound p 256 ltac:(lia)) as B2.
  set (v := p / 256) in *. set (r1 := (257 * y * a) mod 255) in *. set (r2 := p mod 256) in *.
  clearbody p v r1 r2. clear E.
  assert (Ya : y * a <= 255 * y) by nia.
  split; [nia|]. split; [unfold within; split; [lia|]; apply Z.abs_le; nia|].
  split.
  - intros ->. destruct (Z.eq_dec a 255); [auto|]. right. nia.
  - intros [->| ->]; nia.
Qed.
Print Assumptions C17_grayalpha_extent_partial.
Example C17_extent_ex : grayAlphaModel (CGrayAlpha 200 128) = (100, 128).
Proof. vm_compute. reflexivity. Qed.
