(** C93: internal.Min, Max and Mid. *)
From Coq Require Import ZifyBool.
Require Import Verif.Base Verif.M_Color Verif.S_Color.

(** [m] is the least (greatest) of [l] *)
Definition least (l : list Z) (m : Z) : Prop := In m l /\ Forall (fun o => m <= o) l.
Definition greatest (l : list Z) (m : Z) : Prop := In m l /\ Forall (fun o => o <= m) l.

Lemma fold_min l : forall m, let r := fold_left (fun m o => if o <? m then o else m) l m in (r = m \/ In r l) /\ r <= m /\ Forall (fun o => r <= o) l.
Proof.
  induction l as [|o l IH]; intros m; cbn [fold_left]; [split; [now left|split; [lia|constructor]]|].
  destruct (IH (if o <? m then o else m)) as (D & LE & F). cbv zeta in *. set (r := fold_left _ l _) in *.
  assert (O : r <= o /\ r <= m) by (destruct (Z.ltb_spec o m); lia).
  split; [|split; [lia|constructor; [lia|exact F]]].
  destruct D as [D|D]; [|right; now right]. destruct (Z.ltb_spec o m); [right; left; congruence|now left].
Qed.
Lemma fold_max l : forall m, let r := fold_left (fun m o => if m <? o then o else m) l m in (r = m \/ In r l) /\ m <= r /\ Forall (fun o => o <= r) l.
Proof.
  induction l as [|o l IH]; intros m; cbn [fold_left]; [split; [now left|split; [lia|constructor]]|].
  destruct (IH (if m <? o then o else m)) as (D & LE & F). cbv zeta in *. set (r := fold_left _ l _) in *.
  assert (O : o <= r /\ m <= r) by (destruct (Z.ltb_spec m o); lia).
  split; [|split; [lia|constructor; [lia|exact F]]].
  destruct D as [D|D]; [|right; now right]. destruct (Z.ltb_spec m o); [right; left; congruence|now left].
Qed.

(** Min is the least argument, Max the greatest; without arguments they are 65535 and 0. *)
Theorem C93_min l : Forall is_u16 l -> l <> [] -> least l (go_min l).
Proof.
  intros U N. destruct (fold_min l 65535) as (D & _ & F). fold (go_min l) in *. split; [|exact F].
  destruct D as [D|D]; [|exact D]. destruct l as [|o l]; [easy|]. inversion U as [|? ? O]. inversion F as [|? ? O']. subst. unfold is_u16 in O. left. lia.
Qed.
Print Assumptions C93_min.
Theorem C93_max l : Forall is_u16 l -> l <> [] -> greatest l (go_max l).
Proof.
  intros U N. destruct (fold_max l 0) as (D & _ & F). fold (go_max l) in *. split; [|exact F].
  destruct D as [D|D]; [|exact D]. destruct l as [|o l]; [easy|]. inversion U as [|? ? O]. inversion F as [|? ? O']. subst. unfold is_u16 in O. left. lia.
Qed.
Print Assumptions C93_max.
Theorem C93_none : go_min [] = 65535 /\ go_max [] = 0 /\ go_mid [] = 32767.
Proof. repeat split. Qed.
Print Assumptions C93_none.

(** Mid is half way between them, rounded down, if their sum is a uint16. *)
Theorem C93_mid_partial l a b : Forall is_u16 l -> least l a -> greatest l b -> a + b < 65536 ->
  go_mid l = (a + b) / 2 /\ a <= go_mid l <= b.
Proof.
  intros U [IA FA] [IB FB] S. assert (N : l <> []) by (intros ->; contradiction).
  destruct (C93_min l U N) as [I1 F1], (C93_max l U N) as [I2 F2]. rewrite Forall_forall in *.
  assert (go_min l = a) by (pose proof (FA _ I1); pose proof (F1 _ IA); lia). assert (go_max l = b) by (pose proof (FB _ I2); pose proof (F2 _ IB); lia).
  pose proof (U _ IA). pose proof (U _ IB). unfold is_u16 in *. pose proof (FA _ IB). cbv beta in *.
  unfold go_mid, u16. rewrite Z.shiftr_div_pow2 by lia. change (2 ^ 1) with 2. rewrite Z.mod_small by lia. subst. split; [reflexivity|]. Z.to_euclidean_division_equations. lia.
Qed.
Print Assumptions C93_mid_partial.
(** Otherwise the sum wraps around and Mid is below every argument. *)
Theorem C93_mid_refuted l a b : Forall is_u16 l -> least l a -> greatest l b -> 65536 <= a + b ->
  Forall (fun o => go_mid l < o) l.
Proof.
  intros U [IA FA] [IB FB] S. assert (N : l <> []) by (intros ->; contradiction).
  destruct (C93_min l U N) as [I1 F1], (C93_max l U N) as [I2 F2]. rewrite Forall_forall in *.
  assert (go_min l = a) by (pose proof (FA _ I1); pose proof (F1 _ IA); lia). assert (go_max l = b) by (pose proof (FB _ I2); pose proof (F2 _ IB); lia).
  pose proof (U _ IA). pose proof (U _ IB). unfold is_u16 in *. cbv beta in *.
  intros o O. pose proof (FA _ O). unfold go_mid, u16. rewrite Z.shiftr_div_pow2 by lia. change (2 ^ 1) with 2. Z.to_euclidean_division_equations. lia.
Qed.
Print Assumptions C93_mid_refuted.
Example C93_ex : go_min [500; 7; 40000] = 7 /\ go_max [500; 7; 40000] = 40000 /\ go_mid [500; 7; 40000] = 20003 /\
  least [500; 7; 40000] 7 /\ greatest [500; 7; 40000] 40000 /\ go_mid [60000; 50000; 40000] = 17232.
Proof. unfold least, greatest. cbn [In]. repeat split; auto; repeat constructor; lia. Qed.
