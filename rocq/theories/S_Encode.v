(** Specifications about the destination of the encoder. *)
Require Import Verif.Base Verif.M_Reader.

(** a destination on which every write succeeds *)
Definition faultless (wr : nat -> Z -> list Z -> Z * option err) : Prop :=
  forall k off p, wr k off p = (zlen p, None).

(** consecutive writes: each starts where the one before ended *)
Fixpoint consecutive (o : Z) (calls : list (Z * list Z)) : Prop :=
  match calls with
  | [] => True
  | (off, p) :: l => off = o /\ consecutive (o + zlen p) l
  end.
(** [bytes] have been written from offset o on, in order *)
Definition laid (o : Z) (calls : list (Z * list Z)) (bytes : list Z) : Prop :=
  consecutive o calls /\ bytes = concat (map snd calls).

(** io.WriterAt's contract: n of the bytes arrive, and fewer than all only with an error *)
Definition honest (wr : nat -> Z -> list Z -> Z * option err) : Prop :=
  forall k off p, 0 <= fst (wr k off p) <= zlen p /\
    (fst (wr k off p) < zlen p -> snd (wr k off p) <> None).
