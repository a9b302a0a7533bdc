(** Common vocabulary of the model: Go's fixed-width words, option monad,
    Z-indexed lists, outcomes.  No repository code is modelled here. *)
From Coq Require Export ZArith List Lia Bool.
Export ListNotations.
Global Open Scope Z_scope.

(** ** Machine words.  A Go conversion [uint8(x)] etc. (and any arithmetic whose
    operands have that type) keeps the value modulo 2^n. *)
Definition u8  (z : Z) : Z := z mod 256.
Definition u16 (z : Z) : Z := z mod 65536.
Definition u32 (z : Z) : Z := z mod 4294967296.
Definition u64 (z : Z) : Z := z mod 18446744073709551616.
(** two's complement reinterpretation, Go's [int32(x)], [int64(x)] *)
Definition s32 (z : Z) : Z :=
  let m := z mod 4294967296 in if m <? 2147483648 then m else m - 4294967296.
Definition s64 (z : Z) : Z :=
  let m := z mod 18446744073709551616 in
  if m <? 9223372036854775808 then m else m - 18446744073709551616.

Definition is_u8  (z : Z) : Prop := 0 <= z < 256.
Definition is_u16 (z : Z) : Prop := 0 <= z < 65536.
Definition is_u32 (z : Z) : Prop := 0 <= z < 4294967296.

(** ** Option monad, used for "this Go expression panics" = [None]. *)
Definition obind {A B} (x : option A) (f : A -> option B) : option B :=
  match x with Some a => f a | None => None end.
Notation "x <-? e ;; k" := (obind e (fun x => k))
  (at level 61, e at next level, right associativity).
(** Go integer division panics on a zero divisor. *)
Definition udiv (x y : Z) : option Z := if y =? 0 then None else Some (x / y).

(** ** Z-indexed lists (Go slices).  Out of range = [None] = Go panics. *)
Definition zlen {A} (l : list A) : Z := Z.of_nat (length l).
Definition znth {A} (l : list A) (i : Z) : option A :=
  if i <? 0 then None else nth_error l (Z.to_nat i).
Fixpoint upd_nat {A} (l : list A) (i : nat) (v : A) : list A :=
  match l, i with
  | [], _ => []
  | _ :: t, O => v :: t
  | h :: t, S j => h :: upd_nat t j v
  end.
Definition zupd {A} (l : list A) (i : Z) (v : A) : option (list A) :=
  if (i <? 0) || (zlen l <=? i) then None else Some (upd_nat l (Z.to_nat i) v).
Definition ztake {A} (n : Z) (l : list A) : list A := firstn (Z.to_nat n) l.
Definition zdrop {A} (n : Z) (l : list A) : list A := skipn (Z.to_nat n) l.

(** keep integer arithmetic folded under [cbn]/[simpl] (tactic hint only) *)
Global Arguments Z.add : simpl never.
Global Arguments Z.sub : simpl never.
Global Arguments Z.mul : simpl never.
Global Arguments Z.div : simpl never.
Global Arguments Z.modulo : simpl never.
Global Arguments Z.of_nat : simpl never.
Global Arguments Z.to_nat : simpl never.
Global Arguments Z.max : simpl never.
Global Arguments Z.min : simpl never.
Global Arguments Z.abs : simpl never.
Global Arguments Z.shiftr : simpl never.
Global Arguments Z.shiftl : simpl never.
Global Arguments Z.lor : simpl never.
