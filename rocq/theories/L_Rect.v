(** Lemmas about rectangles. *)
Require Import Verif.Base Verif.M_Rect Verif.S_Rect.
From Coq Require Import ZifyBool.

Lemma pin_spec r x y : pin x y r = true <-> inside r x y.
Proof. unfold pin, inside. lia. Qed.
Lemma pin_false r x y : pin x y r = false <-> ~ inside r x y.
Proof. unfold pin, inside. lia. Qed.
Lemma rempty_spec r : rempty r = true <-> is_empty r.
Proof.
  unfold rempty, is_empty, inside. split; [lia|].
  intros H. specialize (H (minX r) (minY r)). lia.
Qed.
Lemma rempty_false r : rempty r = false <-> inside r (minX r) (minY r).
Proof. unfold rempty, inside. lia. Qed.
Lemma intersect_spec r s x y : inside (intersect r s) x y <-> inside r x y /\ inside s x y.
Proof.
  unfold intersect. cbv zeta. match goal with |- context [rempty ?q] => destruct (rempty q) eqn:E end.
  - rewrite rempty_spec in E. specialize (E x y). unfold inside in *; cbn in *. lia.
  - unfold inside; cbn. lia.
Qed.
Lemma intersect_dims r s : rempty (intersect r s) = false ->
  minX (intersect r s) = Z.max (minX r) (minX s) /\ minY (intersect r s) = Z.max (minY r) (minY s) /\
  maxX (intersect r s) = Z.min (maxX r) (maxX s) /\ maxY (intersect r s) = Z.min (maxY r) (maxY s).
Proof.
  unfold intersect. cbv zeta.
  set (q := mkRect _ _ _ _). destruct (rempty q) eqn:E; [discriminate|]. intros _. cbn. auto.
Qed.
Lemma rect_eqb_eq r s : rect_eqb r s = true <-> r = s.
Proof.
  unfold rect_eqb. destruct r, s; cbn. split.
  - intros. f_equal; lia.
  - intros H. injection H as -> -> -> ->. lia.
Qed.
