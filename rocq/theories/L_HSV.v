(** HSV conversion: error bounds. *)
Require Import Verif.Base Verif.M_Color Verif.M_Composite Verif.S_Color
  Verif.L_Word Verif.L_Color.
From Coq Require Import ZifyBool ZifyNat.

(** the piecewise linear profile of each channel along the hue circle
    (one sixth of the circle = 65535) *)
Definition cl (z : Z) : Z := Z.max 0 (Z.min 65535 z).
Definition profR p := cl (Z.abs (p - 196605) - 65535).
Definition profG p := cl (131070 - Z.abs (p - 131070)).
Definition profB p := cl (131070 - Z.abs (p - 262140)).

Lemma div_exact c : c * 65535 / 65535 = c.
Proof. apply Z.div_mul. lia. Qed.

Lemma hcma_eq H c m a : 0 <= H <= 65534 -> 0 <= c -> 0 <= m -> c + m <= 65535 ->
  hcmaToColour H c m a =
    mk64 (c * profR (6 * H) / 65535 + m) (c * profG (6 * H) / 65535 + m)
         (c * profB (6 * H) / 65535 + m) a.
Proof.
  intros HH Hc Hm Hs. unfold hcmaToColour.
  destruct (Z.eqb_spec H 65535); [lia|].
  rewrite (u32_id (H * 6)) by lia. replace (H * 6) with (6 * H) by lia.
  set (p := 6 * H) in *. assert (Hp : 0 <= p <= 393204) by lia. clearbody p.
  set (s := p / 65535). pose proof (div_bounds p 65535 ltac:(lia)) as Bs. fold s in Bs.
  assert (Hs5 : 0 <= s <= 5) by lia.
  set (x := if 65535 <=? p mod 131070 then 131070 - p mod 131070 else p mod 131070).
  assert (Hx : x = 65535 - Z.abs (65535 - p mod 131070)).
  { subst x. pose proof (Z.mod_pos_bound p 131070).
    destruct (Z.leb_spec 65535 (p mod 131070)); lia. }
  assert (Hmod : p mod 131070 = p - 131070 * (p / 131070)) by (rewrite Z.mod_eq; lia).
  pose proof (div_bounds p 131070 ltac:(lia)) as B2. set (s2 := p / 131070) in *.
  assert (Hx2 : 0 <= x <= 65535) by lia.
  rewrite (u32_id (x * c)) by nia.
  assert (Hxc : 0 <= x * c / 65535 <= c) by (apply div_range; nia).
  rewrite (u16_id c), (u16_id (x * c / 65535)) by lia.
  assert (X0 : c * 0 / 65535 = 0) by (rewrite Z.mul_0_r; reflexivity).
  pose proof (div_exact c) as X1.
  assert (S : s = 0 \/ s = 1 \/ s = 2 \/ s = 3 \/ s = 4 \/ s = 5) by lia.
  rewrite (Z.mul_comm x c) in *.
  destruct S as [S|[S|[S|[S|[S|S]]]]]; rewrite S in *; cbn [Z.eqb Pos.eqb].
  - replace (profR p) with 65535 by (unfold profR, cl; lia).
    replace (profG p) with x by (unfold profG, cl; lia).
    replace (profB p) with 0 by (unfold profB, cl; lia).
    rewrite X0, X1. rewrite !u16_id by lia. reflexivity.
  - replace (profR p) with x by (unfold profR, cl; lia).
    replace (profG p) with 65535 by (unfold profG, cl; lia).
    replace (profB p) with 0 by (unfold profB, cl; lia).
    rewrite X0, X1. rewrite !u16_id by lia. reflexivity.
  - replace (profR p) with 0 by (unfold profR, cl; lia).
    replace (profG p) with 65535 by (unfold profG, cl; lia).
    replace (profB p) with x by (unfold profB, cl; lia).
    rewrite X0, X1. rewrite !u16_id by lia. reflexivity.
  - replace (profR p) with 0 by (unfold profR, cl; lia).
    replace (profG p) with x by (unfold profG, cl; lia).
    replace (profB p) with 65535 by (unfold profB, cl; lia).
    rewrite X0, X1. rewrite !u16_id by lia. reflexivity.
  - replace (profR p) with x by (unfold profR, cl; lia).
    replace (profG p) with 0 by (unfold profG, cl; lia).
    replace (profB p) with 65535 by (unfold profB, cl; lia).
    rewrite X0, X1. rewrite !u16_id by lia. reflexivity.
  - replace (profR p) with 65535 by (unfold profR, cl; lia).
    replace (profG p) with 0 by (unfold profG, cl; lia).
    replace (profB p) with x by (unfold profB, cl; lia).
    rewrite X0, X1. rewrite !u16_id by lia. reflexivity.
Qed.

(** one of the three profiles is at its maximum, one at zero *)
Lemma prof_max p : 0 <= p <= 393210 -> profR p = 65535 \/ profG p = 65535 \/ profB p = 65535.
Proof.
  intros H. assert (p <= 65535 \/ 65535 <= p <= 196605 \/ 196605 <= p <= 327675 \/ 327675 <= p)
    as [?|[?|[?|?]]] by lia.
  - left. unfold profR, cl. lia.
  - right; left. unfold profG, cl. lia.
  - right; right. unfold profB, cl. lia.
  - left. unfold profR, cl. lia.
Qed.
Lemma prof_range p : 0 <= profR p <= 65535 /\ 0 <= profG p <= 65535 /\ 0 <= profB p <= 65535.
Proof. unfold profR, profG, profB, cl. repeat split; lia. Qed.
Lemma prof_lip p q : Z.abs (profR p - profR q) <= Z.abs (p - q) /\
  Z.abs (profG p - profG q) <= Z.abs (p - q) /\ Z.abs (profB p - profB q) <= Z.abs (p - q).
Proof.
  assert (C : forall x y, Z.abs (cl x - cl y) <= Z.abs (x - y)) by (unfold cl; intros; lia).
  unfold profR, profG, profB.
  split; [|split]; (eapply Z.le_trans; [apply C|]); lia.
Qed.


(** the hue: distance from the exact position on the circle, in each profile *)
Lemma hue_ok n : wf64 n -> mn3 n < mx3 n ->
  exists h6, colourToHue n (mx3 n) (mx3 n - mn3 n) = Some (h6 / 6) /\
    0 <= h6 <= 393209 /\
    Z.abs ((mx3 n - mn3 n) * profR h6 - 65535 * (cR n - mn3 n)) <= mx3 n - mn3 n /\
    Z.abs ((mx3 n - mn3 n) * profG h6 - 65535 * (cG n - mn3 n)) <= mx3 n - mn3 n /\
    Z.abs ((mx3 n - mn3 n) * profB h6 - 65535 * (cB n - mn3 n)) <= mx3 n - mn3 n.
Proof.
  intros Hwf Hlt. apply (fun H => H) in Hwf. destruct Hwf as (HR&HG&HB&_). unfold is_u16 in *.
  assert (Q : forall g, let c := mx3 n - mn3 n in 0 <= g <= c ->
     exists q, udiv (u32 (65535 * u16 g)) c = Some q /\ 0 <= q <= 65535 /\
        c * q <= 65535 * g < c * q + c /\ (0 < g -> 1 <= q)).
  { intros g c Hg. assert (c <= 65535) by (subst c; unfold mx3, mn3; lia).
    assert (0 < c) by (subst c; lia). rewrite u16_id by lia. rewrite u32_id by lia.
    rewrite udiv_some by lia. eexists; split; [reflexivity|].
    pose proof (div_bounds (65535 * g) c ltac:(lia)).
    split; [apply div_range; lia|]. split; [lia|].
    intros. apply Z.div_le_lower_bound; lia. }
  cbv zeta in Q. set (c := mx3 n - mn3 n) in *.
  assert (Hc : 0 < c <= 65535) by (subst c; unfold mx3, mn3 in *; lia).
  unfold colourToHue.
  destruct (Z.eqb_spec (mx3 n) (cR n)) as [ER|ER];
  [|destruct (Z.eqb_spec (mx3 n) (cG n)) as [EG|EG];
    [|destruct (Z.eqb_spec (mx3 n) (cB n)) as [EB|EB];
      [|exfalso; unfold mx3 in *; lia]]].
  - destruct (Z.leb_spec (cB n) (cG n)).
    + assert (mn3 n = cB n) by (unfold mx3, mn3 in *; lia).
      destruct (Q (cG n - cB n)) as (q & -> & Hq & B & _); [subst c; unfold mx3, mn3 in *; lia|].
      cbn [obind]. rewrite u32_id by lia. rewrite u16_id by lia.
      exists (0 + q). split; [reflexivity|]. split; [lia|].
      replace (profR (0 + q)) with 65535 by (unfold profR, cl; lia).
      replace (profG (0 + q)) with q by (unfold profG, cl; lia).
      replace (profB (0 + q)) with 0 by (unfold profB, cl; lia). lia.
    + assert (mn3 n = cG n) by (unfold mx3, mn3 in *; lia).
      destruct (Q (cB n - cG n)) as (q & -> & Hq & B & P); [subst c; unfold mx3, mn3 in *; lia|].
      cbn [obind]. rewrite u32_id by lia. specialize (P ltac:(lia)). rewrite u16_id by lia.
      exists (393210 - q). split; [reflexivity|]. split; [lia|].
      replace (profR (393210 - q)) with 65535 by (unfold profR, cl; lia).
      replace (profG (393210 - q)) with 0 by (unfold profG, cl; lia).
      replace (profB (393210 - q)) with q by (unfold profB, cl; lia). lia.
  - destruct (Z.leb_spec (cR n) (cB n)).
    + assert (mn3 n = cR n) by (unfold mx3, mn3 in *; lia).
      destruct (Q (cB n - cR n)) as (q & -> & Hq & B & _); [subst c; unfold mx3, mn3 in *; lia|].
      cbn [obind]. rewrite u32_id by lia. rewrite u16_id by lia.
      exists (131070 + q). split; [reflexivity|]. split; [lia|].
      replace (profR (131070 + q)) with 0 by (unfold profR, cl; lia).
      replace (profG (131070 + q)) with 65535 by (unfold profG, cl; lia).
      replace (profB (131070 + q)) with q by (unfold profB, cl; lia). lia.
    + assert (mn3 n = cB n) by (unfold mx3, mn3 in *; lia).
      destruct (Q (cR n - cB n)) as (q & -> & Hq & B & P); [subst c; unfold mx3, mn3 in *; lia|].
      cbn [obind]. rewrite u32_id by lia. rewrite u16_id by lia.
      exists (131070 - q). split; [reflexivity|]. split; [lia|].
      replace (profR (131070 - q)) with q by (unfold profR, cl; lia).
      replace (profG (131070 - q)) with 65535 by (unfold profG, cl; lia).
      replace (profB (131070 - q)) with 0 by (unfold profB, cl; lia). lia.
  - destruct (Z.leb_spec (cG n) (cR n)).
    + assert (mn3 n = cG n) by (unfold mx3, mn3 in *; lia).
      destruct (Q (cR n - cG n)) as (q & -> & Hq & B & _); [subst c; unfold mx3, mn3 in *; lia|].
      cbn [obind]. rewrite u32_id by lia. rewrite u16_id by lia.
      exists (262140 + q). split; [reflexivity|]. split; [lia|].
      replace (profR (262140 + q)) with q by (unfold profR, cl; lia).
      replace (profG (262140 + q)) with 0 by (unfold profG, cl; lia).
      replace (profB (262140 + q)) with 65535 by (unfold profB, cl; lia). lia.
    + assert (mn3 n = cR n) by (unfold mx3, mn3 in *; lia).
      destruct (Q (cG n - cR n)) as (q & -> & Hq & B & P); [subst c; unfold mx3, mn3 in *; lia|].
      cbn [obind]. rewrite u32_id by lia. rewrite u16_id by lia.
      exists (262140 - q). split; [reflexivity|]. split; [lia|].
      replace (profR (262140 - q)) with 0 by (unfold profR, cl; lia).
      replace (profG (262140 - q)) with q by (unfold profG, cl; lia).
      replace (profB (262140 - q)) with 65535 by (unfold profB, cl; lia). lia.
Qed.

(** what RGBToHSV computes *)
Lemma RGBToHSV_eq cl n : colourToNRGBA cl = n -> wf64 n ->
  (mn3 n = mx3 n /\ RGBToHSV cl = Some (mkHSVA 0 0 (mx3 n) (cA n))) \/
  (mn3 n < mx3 n /\ exists h6, colourToHue n (mx3 n) (mx3 n - mn3 n) = Some (h6 / 6) /\
     0 <= h6 <= 393209 /\
     RGBToHSV cl = Some (mkHSVA (h6 / 6) (65535 * (mx3 n - mn3 n) / mx3 n) (mx3 n) (cA n)) /\
    Z.abs ((mx3 n - mn3 n) * profR h6 - 65535 * (cR n - mn3 n)) <= mx3 n - mn3 n /\
    Z.abs ((mx3 n - mn3 n) * profG h6 - 65535 * (cG n - mn3 n)) <= mx3 n - mn3 n /\
    Z.abs ((mx3 n - mn3 n) * profB h6 - 65535 * (cB n - mn3 n)) <= mx3 n - mn3 n).
Proof.
  intros E Hwf. pose proof Hwf as (HR&HG&HB&_). unfold is_u16 in *.
  unfold RGBToHSV. rewrite E. rewrite go_min3, go_max3 by lia.
  fold (mx3 n). fold (mn3 n).
  assert (M : 0 <= mn3 n <= mx3 n /\ mx3 n <= 65535) by (unfold mx3, mn3; lia).
  rewrite u16_id by lia. destruct (Z.eqb_spec (mx3 n - mn3 n) 0).
  - left. split; [lia|reflexivity].
  - right. split; [lia|].
    destruct (hue_ok n Hwf ltac:(lia)) as (h6 & Eh & Hh & PR & PG & PB).
    exists h6. rewrite Eh. rewrite u32_id by lia. rewrite udiv_some by lia. cbn [obind].
    assert (0 <= 65535 * (mx3 n - mn3 n) / mx3 n <= 65535) by (apply div_range; nia).
    rewrite u16_id by lia. auto 10.
Qed.

(** hue and saturation of any colour are 16-bit, the hue is never 0xffff *)
Lemma RGBToHSV_wf cl : wf_color cl ->
  exists h, RGBToHSV cl = Some h /\ wf_color (CHSVA h) /\ hsvH h <= 65534 /\
    hsvV h = mx3 (colourToNRGBA cl) /\ hsvA h = cA (colourToNRGBA cl).
Proof.
  intros Hc. pose proof (colourToNRGBA_wf cl Hc) as Hwf.
  set (n := colourToNRGBA cl) in *. pose proof Hwf as (HR&HG&HB&HA). unfold is_u16 in *.
  assert (M : 0 <= mn3 n <= mx3 n /\ mx3 n <= 65535) by (unfold mx3, mn3; lia).
  destruct (RGBToHSV_eq cl n eq_refl Hwf) as [[E1 E2]|[L (h6 & _ & Hh & E & _)]].
  - rewrite E2. eexists; split; [reflexivity|]. cbn [wf_color hsvH hsvS hsvV hsvA]; unfold is_u16. lia.
  - rewrite E. eexists; split; [reflexivity|]. cbn [wf_color hsvH hsvS hsvV hsvA]; unfold is_u16.
    assert (0 <= 65535 * (mx3 n - mn3 n) / mx3 n <= 65535) by (apply div_range; nia).
    assert (0 <= h6 / 6 <= 65534).
    { split; [apply Z.div_pos; lia|]. assert (h6 / 6 < 65535); [|lia].
      apply Z.div_lt_upper_bound; lia. }
    lia.
Qed.

(** going back from any HSV colour with a canonical hue *)
Lemma hsva_value h : wf_color (CHSVA h) -> mx3 (hsva_ToNRGBA h) = hsvV h /\ cA (hsva_ToNRGBA h) = hsvA h.
Proof.
  intros (HH&HS&HV&HA). unfold is_u16 in *. unfold hsva_ToNRGBA.
  destruct (Z.eqb_spec (hsvS h) 0).
  - unfold mx3; cbn. lia.
  - pose proof (mul16 (hsvV h) (hsvS h)).
    rewrite u32_id by lia.
    assert (Hc : 0 <= hsvV h * hsvS h / 65535 <= hsvV h) by (apply div_range; nia).
    set (c := hsvV h * hsvS h / 65535) in *. rewrite (u16_id c) by lia. rewrite u16_id by lia.
    assert (G : forall hu, 0 <= hu <= 65534 ->
      mx3 (hcmaToColour hu c (hsvV h - c) (hsvA h)) = hsvV h /\
      cA (hcmaToColour hu c (hsvV h - c) (hsvA h)) = hsvA h).
    { intros hu HH'. rewrite hcma_eq by lia. unfold mx3; cbn.
      split; [|reflexivity].
      pose proof (prof_range (6 * hu)) as (P1&P2&P3).
      assert (R : forall p, 0 <= p <= 65535 -> 0 <= c * p / 65535 <= c)
        by (intros p Hp; apply div_range; nia).
      pose proof (R _ P1); pose proof (R _ P2); pose proof (R _ P3).
      pose proof (div_exact c) as DE.
      destruct (prof_max (6 * hu)) as [P|[P|P]]; [lia| | |]; rewrite <- P in DE at 1; lia. }
    destruct (Z.eq_dec (hsvH h) 65535) as [E|E].
    + replace (hcmaToColour (hsvH h) c (hsvV h - c) (hsvA h))
        with (hcmaToColour 0 c (hsvV h - c) (hsvA h)) by (rewrite E; reflexivity).
      apply G; lia.
    + apply G; lia.
Qed.

Lemma round_channel mx mn c c' m p p' v s :
  0 <= mn -> mn < mx -> mx <= 65535 -> c = mx - mn -> c - 1 <= c' <= c -> 0 <= c' -> m = mx - c' ->
  0 <= p <= 65535 -> 0 <= p' <= 65535 -> Z.abs (p' - p) <= 5 ->
  mn <= v <= mx -> Z.abs (c * p - 65535 * (v - mn)) <= c ->
  s = c' * p' / 65535 + m -> Z.abs (s - v) <= 8.
Proof.
  intros. subst s m. pose proof (div_bounds (c' * p') 65535 ltac:(lia)) as B.
  set (q := c' * p' / 65535) in *.
  assert (D1 : Z.abs (c' * p' - c' * p) <= 5 * c').
  { rewrite <- Z.mul_sub_distr_l, Z.abs_mul, (Z.abs_eq c') by lia. nia. }
  assert (D2 : Z.abs (c' * p - c * p) <= p).
  { assert (c' = c \/ c' = c - 1) as [-> | ->] by lia; lia. }
  clearbody q. lia.
Qed.

Lemma hsv_roundtrip cl : wf_color cl ->
  let n := colourToNRGBA cl in
  exists h, RGBToHSV cl = Some h /\ wf_color (CHSVA h) /\
    cA (hsva_ToNRGBA h) = cA n /\ mx3 (hsva_ToNRGBA h) = mx3 n /\
    Z.abs (cR (hsva_ToNRGBA h) - cR n) <= 8 /\
    Z.abs (cG (hsva_ToNRGBA h) - cG n) <= 8 /\
    Z.abs (cB (hsva_ToNRGBA h) - cB n) <= 8.
Proof.
  intros Hc n. pose proof (colourToNRGBA_wf cl Hc) as Hwf. fold n in Hwf.
  destruct (RGBToHSV_wf cl Hc) as (h & Eh & Wh & Hh & EV & EA). fold n in EV, EA.
  exists h. split; [exact Eh|]. split; [exact Wh|].
  destruct (hsva_value h Wh) as [V A]. rewrite V, A.
  split; [exact EA|]. split; [exact EV|].
  pose proof Hwf as (HR&HG&HB&HA). unfold is_u16 in *.
  assert (M : 0 <= mn3 n <= mx3 n /\ mx3 n <= 65535) by (unfold mx3, mn3; lia).
  assert (Mr : mn3 n <= cR n <= mx3 n /\ mn3 n <= cG n <= mx3 n /\ mn3 n <= cB n <= mx3 n)
    by (unfold mx3, mn3; lia).
  destruct (RGBToHSV_eq cl n eq_refl Hwf) as [[E1 E2]|[L (h6 & _ & Hh6 & E & PR & PG & PB)]].
  - rewrite E2 in Eh. injection Eh as <-. cbn. lia.
  - rewrite E in Eh. injection Eh as <-. cbn [hsvH hsvS hsvV hsvA] in *.
    set (c := mx3 n - mn3 n) in *.
    assert (Hc0 : 0 < c <= mx3 n) by lia.
    pose proof (div_bounds (65535 * c) (mx3 n) ltac:(lia)) as BS.
    assert (Hs : 0 <= 65535 * c / mx3 n <= 65535) by (apply div_range; nia).
    set (s := 65535 * c / mx3 n) in *.
    assert (Hs1 : 1 <= s). { subst s. apply Z.div_le_lower_bound; lia. }
    unfold hsva_ToNRGBA; cbn [hsvH hsvS hsvV hsvA].
    destruct (Z.eqb_spec s 0); [lia|].
    pose proof (mul16 (mx3 n) s ltac:(lia) Hs). rewrite u32_id by lia.
    pose proof (div_bounds (mx3 n * s) 65535 ltac:(lia)) as BC.
    set (c' := mx3 n * s / 65535) in *.
    assert (Hc' : c - 1 <= c' <= c) by nia.
    rewrite (u16_id c') by lia. rewrite u16_id by lia.
    assert (H6 : 0 <= h6 / 6 <= 65534) by lia.
    rewrite hcma_eq by lia. cbn [cR cG cB cA].
    pose proof (div_bounds h6 6 ltac:(lia)) as B6.
    pose proof (prof_lip (6 * (h6 / 6)) h6) as (L1&L2&L3).
    pose proof (prof_range (6 * (h6 / 6))) as (R1&R2&R3).
    pose proof (prof_range h6) as (R4&R5&R6).
    split; [|split].
    + apply (round_channel (mx3 n) (mn3 n) c c' (mx3 n - c') (profR h6) (profR (6 * (h6 / 6))));
        reflexivity || lia.
    + apply (round_channel (mx3 n) (mn3 n) c c' (mx3 n - c') (profG h6) (profG (6 * (h6 / 6))));
        reflexivity || lia.
    + apply (round_channel (mx3 n) (mn3 n) c c' (mx3 n - c') (profB h6) (profB (6 * (h6 / 6))));
        reflexivity || lia.
Qed.
