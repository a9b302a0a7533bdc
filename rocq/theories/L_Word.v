(** Arithmetic lemmas about machine words. *)
Require Import Verif.Base Verif.M_Color.
From Coq Require Import ZifyBool ZifyNat.

Lemma u8_id z : 0 <= z < 256 -> u8 z = z.
Proof. intros; apply Z.mod_small; lia. Qed.
Lemma u16_id z : 0 <= z < 65536 -> u16 z = z.
Proof. intros; apply Z.mod_small; lia. Qed.
Lemma u32_id z : 0 <= z < 4294967296 -> u32 z = z.
Proof. intros; apply Z.mod_small; lia. Qed.
Lemma u8_range z : 0 <= u8 z < 256.
Proof. apply Z.mod_pos_bound; lia. Qed.
Lemma u16_range z : 0 <= u16 z < 65536.
Proof. apply Z.mod_pos_bound; lia. Qed.
Lemma u32_range z : 0 <= u32 z < 4294967296.
Proof. apply Z.mod_pos_bound; lia. Qed.

(** sweep over all bytes *)
Definition bytes256 : list Z := map Z.of_nat (seq 0 256).
Lemma in_bytes256 z : 0 <= z < 256 -> In z bytes256.
Proof.
  intros H. unfold bytes256. apply in_map_iff. exists (Z.to_nat z).
  split; [lia|]. apply in_seq. lia.
Qed.
Lemma sweep256 (P : Z -> bool) :
  forallb P bytes256 = true -> forall z, 0 <= z < 256 -> P z = true.
Proof. intros H z Hz. rewrite forallb_forall in H. apply H, in_bytes256, Hz. Qed.

Lemma rep8_eq x : 0 <= x < 256 -> rep8 x = 257 * x.
Proof.
  intros H.
  assert (E : (rep8 x =? 257 * x) = true).
  { revert x H. apply sweep256. vm_compute. reflexivity. }
  lia.
Qed.

Lemma div_bounds a b : 0 < b -> b * (a / b) <= a < b * (a / b) + b.
Proof. intros; pose proof (Z.div_mod a b); pose proof (Z.mod_pos_bound a b); lia. Qed.

Lemma udiv_some x y : y <> 0 -> udiv x y = Some (x / y).
Proof. unfold udiv; intros; destruct (Z.eqb_spec y 0); congruence. Qed.

Lemma shiftr8 x : Z.shiftr x 8 = x / 256.
Proof. rewrite Z.shiftr_div_pow2 by lia. reflexivity. Qed.
Lemma shiftr1 x : Z.shiftr x 1 = x / 2.
Proof. rewrite Z.shiftr_div_pow2 by lia. reflexivity. Qed.
Lemma shiftr2 x : Z.shiftr x 2 = x / 4.
Proof. rewrite Z.shiftr_div_pow2 by lia. reflexivity. Qed.
Lemma shiftr24 x : Z.shiftr x 24 = x / 16777216.
Proof. rewrite Z.shiftr_div_pow2 by lia. reflexivity. Qed.
Lemma shiftl1 x : Z.shiftl x 1 = 2 * x.
Proof. rewrite Z.shiftl_mul_pow2 by lia. lia. Qed.

(** bounds of products of 16-bit values *)
Lemma mul16 x y : 0 <= x <= 65535 -> 0 <= y <= 65535 -> 0 <= x * y <= 4294836225.
Proof. intros; nia. Qed.

Lemma go_min2 a b : a <= 65535 -> go_min [a; b] = Z.min a b.
Proof.
  intros. cbn. destruct (Z.ltb_spec a 65535), (Z.ltb_spec b a), (Z.ltb_spec b 65535); lia.
Qed.
Lemma go_max2 a b : 0 <= a -> go_max [a; b] = Z.max a b.
Proof.
  intros. cbn. destruct (Z.ltb_spec 0 a), (Z.ltb_spec a b), (Z.ltb_spec 0 b); lia.
Qed.
Lemma go_min3 a b c : a <= 65535 -> go_min [a; b; c] = Z.min a (Z.min b c).
Proof.
  intros. unfold go_min; cbn [fold_left].
  destruct (Z.ltb_spec a 65535); destruct (Z.ltb_spec b a);
  try destruct (Z.ltb_spec b 65535); try destruct (Z.ltb_spec c b);
  try destruct (Z.ltb_spec c a); try destruct (Z.ltb_spec c 65535); lia.
Qed.
Lemma go_max3 a b c : 0 <= a -> go_max [a; b; c] = Z.max a (Z.max b c).
Proof.
  intros. unfold go_max; cbn [fold_left].
  destruct (Z.ltb_spec 0 a); destruct (Z.ltb_spec a b);
  try destruct (Z.ltb_spec 0 b); try destruct (Z.ltb_spec b c);
  try destruct (Z.ltb_spec a c); try destruct (Z.ltb_spec 0 c); lia.
Qed.
