(** C60: the thumbnail of an ORA file. *)
Require Import Verif.Base Verif.M_Color Verif.M_Composite Verif.M_Rect Verif.M_Image Verif.M_Ora Verif.S_Ora
  Verif.L_Ora2 Verif.P_OraEnc.
From Coq Require Import QArith Qabs Lqa String.
Open Scope Z_scope.
Open Scope list_scope.

(** ** truncation of the rounded quotient *)
Lemma qtrunc_pos n q : 0 <= n -> (inject_Z n <= q)%Q -> (q < inject_Z (n + 1))%Q -> qtrunc q = n.
Proof.
  destruct q as [a b]. unfold qtrunc, Qle, Qlt. cbn [Qnum Qden inject_Z]. rewrite !Z.mul_1_r. intros Hn A B.
  assert (0 <= a) by nia. rewrite Z.quot_div_nonneg by lia.
  symmetry. apply (Z.div_unique_pos a (Z.pos b) n (a - n * Z.pos b)); nia.
Qed.
Lemma qtrunc_neg n q : n <= 0 -> (inject_Z (n - 1) < q)%Q -> (q <= inject_Z n)%Q -> qtrunc q = n.
Proof.
  intros Hn A B. assert (qtrunc (- q)%Q = - n) as E.
  { apply qtrunc_pos; [lia| |].
    - rewrite inject_Z_opp. lra.
    - replace (- n + 1) with (- (n - 1)) by lia. rewrite inject_Z_opp. lra. }
  destruct q as [a b]. unfold qtrunc in *. cbn [Qopp Qnum Qden] in *. rewrite Z.quot_opp_l in E by lia. lia.
Qed.

Lemma fscale_exact L big c : libs_ok L -> 0 < big -> Z.abs c < 2 ^ 45 -> fscale L big c = Z.quot (256 * c) big.
Proof.
  intros OK Hb Hc. unfold fscale.
  set (q := (inject_Z c / (inject_Z big / inject_Z 256))%Q).
  set (n := Z.quot (256 * c) big). set (r := Z.rem (256 * c) big).
  pose proof (Z.quot_rem (256 * c) big ltac:(lia)) as QR. fold n r in QR.
  set (e := (1 / inject_Z big)%Q).
  assert (0 < inject_Z big)%Q as Bp by (change 0%Q with (inject_Z 0); rewrite <- Zlt_Qlt; exact Hb).
  assert (inject_Z big * e == 1)%Q as BE by (unfold e; field; lra).
  assert (0 < e)%Q as Ep by (unfold e; apply Qlt_shift_div_l; lra).
  assert (q == inject_Z 256 * inject_Z c * e)%Q as Q1 by (unfold q, e; field; lra).
  assert (q == inject_Z n + inject_Z r * e)%Q as Q2.
  { rewrite Q1, <- inject_Z_mult, QR, inject_Z_plus, inject_Z_mult.
    setoid_replace ((inject_Z big * inject_Z n + inject_Z r) * e)%Q
      with (inject_Z n * (inject_Z big * e) + inject_Z r * e)%Q by ring.
    rewrite BE. ring. }
  assert (- (2 ^ 45) + 1 <= c <= 2 ^ 45 - 1) as [C1 C2] by lia.
  rewrite Zle_Qle in C1, C2.
  pose proof (Qmult_le_compat_r _ _ e C1 ltac:(lra)) as T1. pose proof (Qmult_le_compat_r _ _ e C2 ltac:(lra)) as T2.
  change (inject_Z (- 2 ^ 45 + 1)) with (-35184372088831 # 1)%Q in T1. change (inject_Z (2 ^ 45 - 1)) with (35184372088831 # 1)%Q in T2.
  change (inject_Z 256) with (256 # 1)%Q in *.
  assert (Z.abs n <= 2 ^ 53) as Nb.
  { unfold n. rewrite <- (Z.quot_abs (256 * c) big) by lia. rewrite (Z.abs_eq big) by lia.
    rewrite Z.quot_div_nonneg by lia. etransitivity; [apply Z.div_le_upper_bound with (q := Z.abs (256 * c)); nia|lia]. }
  destruct (Z.eq_dec r 0) as [R0|R0].
  - (* exact *)
    assert (q == inject_Z n)%Q as Qn by (rewrite Q2, R0; change (inject_Z 0) with 0%Q; ring).
    pose proof (rnd_int L OK q n Qn Nb) as RI. destruct (Z_le_gt_dec 0 n).
    + apply qtrunc_pos; [assumption| |]; rewrite RI; [lra|]. rewrite inject_Z_plus. change (inject_Z 1) with 1%Q. lra.
    + apply qtrunc_neg; [lia| |]; rewrite RI; [|lra]. unfold Z.sub. rewrite inject_Z_plus. change (inject_Z (- (1))) with (-1 # 1)%Q. lra.
  - pose proof (rnd_err L OK q) as RE. set (u := lib_rnd L q) in *. clearbody u.
    apply Qabs_Qle_condition in RE. change (1 # 2 ^ 53)%Q with (1 # 9007199254740992)%Q in RE.
    set (t := (inject_Z c * e)%Q) in *.
    assert (q == (256 # 1) * t)%Q as Q3 by (rewrite Q1; unfold t; ring).
    destruct (Z_le_gt_dec 0 c) as [Hc0|Hc0].
    + (* c >= 0 *)
      pose proof (Z.rem_bound_pos (256 * c) big ltac:(lia) ltac:(lia)) as RB. fold r in RB.
      assert (1 <= r <= big - 1) as [R1 R2] by lia. rewrite Zle_Qle in R1, R2.
      pose proof (Qmult_le_compat_r _ _ e R1 ltac:(lra)) as S1. pose proof (Qmult_le_compat_r _ _ e R2 ltac:(lra)) as S2.
      unfold Z.sub in S2. rewrite inject_Z_plus in S2. change (inject_Z (- (1))) with (-1 # 1)%Q in S2.
      change (inject_Z 1) with 1%Q in S1.
      assert (0 <= inject_Z c)%Q as C0 by (change 0%Q with (inject_Z 0); rewrite <- Zle_Qle; exact Hc0).
      assert (0 <= t)%Q as T0 by (apply Qmult_le_0_compat; lra).
      assert (inject_Z r * e <= inject_Z big * e - e)%Q as S3
        by (eapply Qle_trans; [exact S2|]; apply Qle_lteq; right; ring).
      set (re := (inject_Z r * e)%Q) in *. set (be := (inject_Z big * e)%Q) in *.
      assert (0 <= n) by (unfold n; apply Z.quot_pos; lia).
      rewrite (Qabs_pos q) in RE by lra.
      apply qtrunc_pos; [assumption| |].
      * lra.
      * rewrite inject_Z_plus. change (inject_Z 1) with 1%Q. lra.
    + (* c < 0 *)
      assert (- big < r < 0) as RB.
      { pose proof (Z.rem_bound_abs (256 * c) big ltac:(lia)). pose proof (Z.rem_nonpos (256 * c) big ltac:(lia) ltac:(lia)).
        unfold r in *. lia. }
      assert (1 - big <= r <= -1) as [R1 R2] by lia. rewrite Zle_Qle in R1, R2.
      pose proof (Qmult_le_compat_r _ _ e R1 ltac:(lra)) as S1. pose proof (Qmult_le_compat_r _ _ e R2 ltac:(lra)) as S2.
      unfold Z.sub in S1. rewrite inject_Z_plus, inject_Z_opp in S1. change (inject_Z 1) with 1%Q in S1.
      change (inject_Z (-1)) with (-1 # 1)%Q in S2.
      assert (inject_Z c <= 0)%Q as C0 by (change 0%Q with (inject_Z 0); rewrite <- Zle_Qle; lia).
      assert (t <= 0)%Q as T0.
      { assert (0 <= - inject_Z c * e)%Q as X by (apply Qmult_le_0_compat; lra). unfold t. lra. }
      assert (e - inject_Z big * e <= inject_Z r * e)%Q as S3
        by (eapply Qle_trans; [|exact S1]; apply Qle_lteq; right; ring).
      set (re := (inject_Z r * e)%Q) in *. set (be := (inject_Z big * e)%Q) in *.
      assert (n <= 0).
      { unfold n. replace (256 * c) with (- (256 * - c)) by lia. rewrite Z.quot_opp_l by lia.
        pose proof (Z.quot_pos (256 * - c) big ltac:(lia) ltac:(lia)). lia. }
      rewrite (Qabs_neg q) in RE by lra.
      apply qtrunc_neg; [assumption| |].
      * unfold Z.sub. rewrite inject_Z_plus. change (inject_Z (- (1))) with (-1 # 1)%Q. lra.
      * lra.
Qed.

(** ** the thumbnail *)
(** coordinates for which float64 arithmetic is good enough *)
Definition moderate (b : rect) : Prop :=
  Z.abs (minX b) < 2 ^ 45 /\ Z.abs (minY b) < 2 ^ 45 /\ Z.abs (maxX b) < 2 ^ 45 /\ Z.abs (maxY b) < 2 ^ 45.
(** the image Encode writes as the thumbnail of [m] *)
Definition thumb_of (L : libs) (rnd : nat -> Z) (m : image) : image :=
  thumbnail L rnd m (dx (image_Bounds m)) (dy (image_Bounds m)).
Definition larger (b : rect) : Z := Z.max (dx b) (dy b).
Definition oversized (b : rect) : Prop := 256 < larger b.

Lemma thumb_small L rnd m : ~ oversized (image_Bounds m) -> thumb_of L rnd m = m.
Proof.
  unfold oversized, larger, thumb_of, thumbnail. intros H.
  destruct (Z.ltb_spec 256 (dx (image_Bounds m))), (Z.ltb_spec 256 (dy (image_Bounds m))); try lia. reflexivity.
Qed.
Lemma thumb_large L rnd m : oversized (image_Bounds m) ->
  thumb_of L rnd m = ILeaf (mkPic (thumb_Bounds L (larger (image_Bounds m)) (image_Bounds m)) (image_ColorModel m)
                                  (thumb_At L (larger (image_Bounds m)) (at_of rnd m))).
Proof.
  unfold oversized, larger, thumb_of, thumbnail. intros H.
  replace ((256 <? dx (image_Bounds m)) || (256 <? dy (image_Bounds m))) with true
    by (destruct (Z.ltb_spec 256 (dx (image_Bounds m))), (Z.ltb_spec 256 (dy (image_Bounds m))); try lia; reflexivity).
  replace (if dy (image_Bounds m) <? dx (image_Bounds m) then dx (image_Bounds m) else dy (image_Bounds m))
    with (Z.max (dx (image_Bounds m)) (dy (image_Bounds m)))
    by (destruct (Z.ltb_spec (dy (image_Bounds m)) (dx (image_Bounds m))); lia).
  reflexivity.
Qed.

(** a side from [a] to [b], scaled by 256/k *)
Lemma quot_side a b k : 0 < k -> a <= b -> b - a <= k ->
  0 <= Z.quot (256 * b) k - Z.quot (256 * a) k <= 256.
Proof.
  intros Hk Hab Hd.
  assert (forall x, 0 <= x -> Z.quot (256 * x) k = 256 * x / k) as P by (intros; apply Z.quot_div_nonneg; lia).
  assert (forall x, x <= 0 -> Z.quot (256 * x) k = - ((256 * - x) / k)) as N.
  { intros x Hx. replace (256 * x) with (- (256 * - x)) by lia. rewrite Z.quot_opp_l, Z.quot_div_nonneg by lia. lia. }
  split; [pose proof (Z.quot_le_mono (256 * a) (256 * b) k Hk ltac:(lia)); lia|].
  assert (forall x y, 0 <= x <= y -> y - x <= k -> 256 * y / k <= 256 * x / k + 256) as D.
  { intros x y Hx Hy. rewrite <- (Z.div_add (256 * x) 256 k) by lia. apply Z.div_le_mono; lia. }
  destruct (Z_le_gt_dec 0 a) as [Ha|Ha].
  - rewrite !P by lia. pose proof (D a b). lia.
  - destruct (Z_le_gt_dec b 0) as [Hb|Hb].
    + rewrite !N by lia. pose proof (D (- b) (- a)). lia.
    + rewrite P, N by lia.
      assert (256 * b / k + 256 * - a / k <= (256 * b + 256 * - a) / k).
      { apply Z.div_le_lower_bound; [lia|]. pose proof (Z.mul_div_le (256 * b) k Hk).
        pose proof (Z.mul_div_le (256 * - a) k Hk). nia. }
      assert ((256 * b + 256 * - a) / k <= 256) by (apply Z.div_le_upper_bound; lia). lia.
Qed.

Lemma quot_ratio a b k : 0 < k -> 0 <= a <= b ->
  Z.abs (256 * (b - a) - k * (Z.quot (256 * b) k - Z.quot (256 * a) k)) < k.
Proof.
  intros Hk Ha. rewrite !Z.quot_div_nonneg by lia.
  pose proof (Z.div_mod (256 * a) k ltac:(lia)). pose proof (Z.div_mod (256 * b) k ltac:(lia)).
  pose proof (Z.mod_pos_bound (256 * a) k Hk). pose proof (Z.mod_pos_bound (256 * b) k Hk). nia.
Qed.

Lemma thumb_bounds L rnd m : libs_ok L -> moderate (image_Bounds m) -> oversized (image_Bounds m) ->
  let b := image_Bounds m in let k := larger b in
  image_Bounds (thumb_of L rnd m) =
  mkRect (Z.quot (256 * minX b) k) (Z.quot (256 * minY b) k) (Z.quot (256 * maxX b) k) (Z.quot (256 * maxY b) k).
Proof.
  intros OK (A & B & C & D) O. rewrite (thumb_large L rnd m O). cbn [image_Bounds picBounds]. cbv zeta.
  unfold thumb_Bounds. unfold oversized in O. rewrite !(fscale_exact L) by (assumption || lia). reflexivity.
Qed.

(** The thumbnail is at most 256x256. *)
Theorem C60_fits L rnd m : libs_ok L -> moderate (image_Bounds m) -> rempty (image_Bounds m) = false ->
  0 <= dx (image_Bounds (thumb_of L rnd m)) <= 256 /\ 0 <= dy (image_Bounds (thumb_of L rnd m)) <= 256.
Proof.
  intros OK M E. unfold rempty in E. apply orb_false_iff in E. destruct E as [EX EY]. apply Z.leb_gt in EX, EY.
  destruct (Z_lt_le_dec 256 (larger (image_Bounds m))) as [O|O].
  - rewrite (thumb_bounds L rnd m OK M O). unfold larger in *. unfold dx, dy in *. cbn [minX minY maxX maxY].
    split; apply quot_side; lia.
  - rewrite (thumb_small L rnd m) by (unfold oversized; lia). unfold larger, dx, dy in *. lia.
Qed.
Print Assumptions C60_fits.

(** It has the aspect ratio of the image: both sides are the image's times
    256/(longer side), up to less than one pixel (for images with non-negative
    coordinates), and the longer side is 256. *)
Theorem C60_aspect L rnd m : libs_ok L -> moderate (image_Bounds m) -> rempty (image_Bounds m) = false ->
  0 <= minX (image_Bounds m) -> 0 <= minY (image_Bounds m) -> oversized (image_Bounds m) ->
  let b := image_Bounds m in let t := image_Bounds (thumb_of L rnd m) in
  Z.abs (256 * dx b - larger b * dx t) < larger b /\ Z.abs (256 * dy b - larger b * dy t) < larger b /\ larger t = 256.
Proof.
  intros OK M E X Y O. cbv zeta. rewrite (thumb_bounds L rnd m OK M O).
  unfold rempty in E. apply orb_false_iff in E. destruct E as [EX EY]. apply Z.leb_gt in EX, EY.
  set (b := image_Bounds m) in *. unfold oversized in O.
  assert (0 < larger b) as K0 by lia.
  assert (maxX b - minX b <= larger b) as KX by (unfold larger, dx; apply Z.le_max_l).
  assert (maxY b - minY b <= larger b) as KY by (unfold larger, dy; apply Z.le_max_r).
  assert (larger b = dx b \/ larger b = dy b) as K by (unfold larger; lia). clear O.
  unfold dx at 2. unfold dy at 2. cbn [minX minY maxX maxY].
  split; [apply quot_ratio; lia|]. split; [apply quot_ratio; lia|].
  pose proof (quot_side (minX b) (maxX b) (larger b) K0 ltac:(lia) KX) as SX.
  pose proof (quot_side (minY b) (maxY b) (larger b) K0 ltac:(lia) KY) as SY.
  unfold larger at 1. unfold dx, dy. cbn [minX minY maxX maxY].
  destruct K as [K|K].
  - assert (Z.quot (256 * maxX b) (larger b) = Z.quot (256 * minX b) (larger b) + 256) as Q.
    { clear SX SY. rewrite !Z.quot_div_nonneg by lia.
      replace (256 * maxX b) with (256 * minX b + 256 * larger b) by (rewrite K; unfold dx; lia).
      rewrite Z.div_add by lia. reflexivity. }
    rewrite Q in *. revert SX SY. generalize (Z.quot (256 * minX b) (larger b)), (Z.quot (256 * minY b) (larger b)),
      (Z.quot (256 * maxY b) (larger b)). clear. intros. lia.
  - assert (Z.quot (256 * maxY b) (larger b) = Z.quot (256 * minY b) (larger b) + 256) as Q.
    { clear SX SY. rewrite !Z.quot_div_nonneg by lia.
      replace (256 * maxY b) with (256 * minY b + 256 * larger b) by (rewrite K; unfold dy; lia).
      rewrite Z.div_add by lia. reflexivity. }
    rewrite Q in *. revert SX SY. generalize (Z.quot (256 * minX b) (larger b)), (Z.quot (256 * minY b) (larger b)),
      (Z.quot (256 * maxX b) (larger b)). clear. intros. lia.
Qed.
Print Assumptions C60_aspect.

(** It is not empty if the longer side is at most 256 times the shorter (for an
    image at (0,0)). *)
Theorem C60_nonempty_partial L rnd m w h : libs_ok L -> image_Bounds m = mkRect 0 0 w h ->
  0 < w < 2 ^ 45 -> 0 < h < 2 ^ 45 -> w <= 256 * h -> h <= 256 * w ->
  rempty (image_Bounds (thumb_of L rnd m)) = false.
Proof.
  intros OK B W H A1 A2.
  destruct (Z_lt_le_dec 256 (larger (image_Bounds m))) as [O|O].
  - rewrite (thumb_bounds L rnd m OK) by (assumption || (rewrite B; unfold moderate; cbn; lia)).
    unfold larger in *. rewrite B in *. unfold dx, dy in *. cbn [minX minY maxX maxY] in *. rewrite !Z.sub_0_r in *.
    apply rempty_false; cbn [minX minY maxX maxY]; rewrite !Z.quot_div_nonneg by lia; rewrite Z.mul_0_r, Z.div_0_l by lia;
      apply Z.div_str_pos; lia.
  - rewrite (thumb_small L rnd m) by (unfold oversized; lia). rewrite B. apply rempty_false; cbn; lia.
Qed.
Print Assumptions C60_nonempty_partial.

(** But it is empty for a longer or thinner image, and as png.Encode refuses an
    empty image, the whole Encode fails. *)
Theorem C60_empty_refuted L rnd m w h : libs_ok L -> image_Bounds m = mkRect 0 0 w h ->
  0 < w < 2 ^ 45 -> 0 < h < 2 ^ 45 -> 256 * h < w \/ 256 * w < h ->
  rempty (image_Bounds (thumb_of L rnd m)) = true /\ oraEncode L rnd m = None.
Proof.
  intros OK B W H A.
  assert (rempty (image_Bounds (thumb_of L rnd m)) = true) as E.
  { assert (oversized (image_Bounds m)) as O by (rewrite B; unfold oversized, larger, dx, dy; cbn; lia).
    rewrite (thumb_bounds L rnd m OK) by (assumption || (rewrite B; unfold moderate; cbn; lia)).
    unfold oversized, larger in *. rewrite B in *. unfold dx, dy in *. cbn [minX minY maxX maxY] in *. rewrite !Z.sub_0_r in *.
    unfold rempty. cbn [minX minY maxX maxY]. rewrite !Z.quot_div_nonneg by lia. rewrite Z.mul_0_r, Z.div_0_l by lia.
    destruct A.
    - rewrite (Z.div_small (256 * h)) by lia. rewrite orb_true_r. reflexivity.
    - rewrite (Z.div_small (256 * w)) by lia. reflexivity. }
  split; [exact E|]. unfold oraEncode. destruct (writeLayers L (toLayer m) 0) as [data|]; [|reflexivity]. cbn [obind].
  destruct (lib_png L m); cbn [obind]; [|reflexivity].
  assert (lib_png L (thumbnail L rnd m (maxX (lBounds (toLayer m))) (maxY (lBounds (toLayer m)))) = None) as ->.
  { apply (png_empty L OK). exact E. }
  reflexivity.
Qed.
Print Assumptions C60_empty_refuted.

(** The colour at (x,y) of a thumbnail that was scaled does not depend on y, and
    is the image's colour at a point scaled the wrong way. *)
Theorem C60_at_exact L rnd m x y : libs_ok L -> oversized (image_Bounds m) -> Z.abs x < 2 ^ 45 ->
  at_of rnd (thumb_of L rnd m) x y =
  at_of rnd m (Z.quot (256 * x) (larger (image_Bounds m))) (Z.quot (256 * x) (larger (image_Bounds m))).
Proof.
  intros OK O X. rewrite (thumb_large L rnd m O). unfold at_of at 1. cbn [image_At picAt]. unfold thumb_At.
  unfold oversized in O. rewrite (fscale_exact L) by (assumption || lia).
  destruct (at_of rnd m _ _); reflexivity.
Qed.
Print Assumptions C60_at_exact.

(** a 512x512 picture, each row in its own grey: the thumbnail (half the size)
    shows row 0 where it should show row 20 *)
Definition rows : image := ILeaf (mkPic (mkRect 0 0 512 512) KNRGBA (fun x y => Some (CAlpha (u8 y)))).
Theorem C60_at_refuted : exists L, libs_ok L /\
  image_Bounds (thumb_of L (fun _ => 0) rows) = mkRect 0 0 256 256 /\
  at_of (fun _ => 0) (thumb_of L (fun _ => 0) rows) 0 10 = Some (CAlpha 0) /\
  at_of (fun _ => 0) rows (2 * 0) (2 * 10) = Some (CAlpha 20).
Proof. exists ex_libs. split; [exact ex_libs_ok|]. vm_compute. repeat split; reflexivity. Qed.
Print Assumptions C60_at_refuted.

Example C60_ex :
  image_Bounds (thumb_of ex_libs (fun _ => 0) (leaf_of 1000 300)) = mkRect 0 0 256 76 /\
  image_Bounds (thumb_of ex_libs (fun _ => 0) (leaf_of 100 300)) = mkRect 0 0 85 256 /\
  image_Bounds (thumb_of ex_libs (fun _ => 0) (leaf_of 256 200)) = mkRect 0 0 256 200 /\
  (* 257x1 cannot be encoded, 256x1 can *)
  oraEncode ex_libs (fun _ => 0) (leaf_of 257 1) = None /\
  (exists out, oraEncode ex_libs (fun _ => 0) (leaf_of 256 1) = Some out).
Proof. repeat split; try (vm_compute; reflexivity). eexists; reflexivity. Qed.
