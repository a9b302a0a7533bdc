(** Programs over a byte source: the reader state (position and sticky error) is
    passed along; loops that Go does not bound take a fuel argument. *)
Require Import Verif.Base Verif.M_Reader.

Definition M (A : Type) : Type := rst -> outcome (A * rst).
Definition retM {A} (a : A) : M A := fun st => Ret (a, st).
Definition bindM {A B} (m : M A) (f : A -> M B) : M B :=
  fun st => match m st with
            | Ret (a, st) => f a st
            | Panic w => Panic w
            | NoFuel => NoFuel
            end.
Notation "x <- e ;; k" := (bindM e (fun x => k)) (at level 61, e at next level, right associativity).
Notation "' p <- e ;; k" := (bindM e (fun x => match x with p => k end))
  (at level 61, p pattern, e at next level, right associativity).
Notation "e ;;; k" := (bindM e (fun _ => k)) (at level 61, right associativity).
(** a call that returns a value; a call for its effect on the reader *)
Definition liftM {A} (f : rst -> A * rst) : M A := fun st => Ret (f st).
Definition actM (f : rst -> rst) : M unit := fun st => Ret (tt, f st).
Definition panicM {A} (w : why) : M A := fun _ => Panic w.
Definition skipM : M unit := retM tt.
(** d.Err *)
Definition errM : M (option err) := fun st => Ret (rErr st, st).
(** d.SetError *)
Definition setErrM (e : err) : M unit := actM (fun st => setError st e).

(** for { ... }: [inl] continues, [inr] leaves the loop *)
Fixpoint whileM {S R} (fuel : nat) (body : S -> M (S + R)) (s : S) : M R :=
  match fuel with
  | O => fun _ => NoFuel
  | S fuel => r <- body s;;
              match r with
              | inl s => whileM fuel body s
              | inr r => retM r
              end
  end.
(** for i := 0; i < n; i++ { ... } with a possible return inside ([inr]) *)
Fixpoint countM {S R} (n : nat) (body : S -> M (S + R)) (s : S) : M (S + R) :=
  match n with
  | O => retM (inl s)
  | S n => r <- body s;;
           match r with
           | inl s => countM n body s
           | inr r => retM (inr r)
           end
  end.
(** n calls, results collected *)
Fixpoint listM {A} (n : nat) (m : M A) : M (list A) :=
  match n with
  | O => retM []
  | S n => a <- m;; l <- listM n m;; retM (a :: l)
  end.
