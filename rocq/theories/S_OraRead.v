(** Which archives can be read (C91). *)
Require Import Verif.Base Verif.M_Image Verif.M_Ora Verif.S_Ora Verif.S_OraDoc.
From Coq Require Import String.
Open Scope Z_scope.
Open Scope list_scope.

(** the offsets and opacities of an element are numbers *)
Definition numbers (L : libs) (as_ : list (list Z * list Z)) : Prop :=
  (forall v, In v (attr "x" as_) \/ In v (attr "y" as_) -> exists n, integer v n) /\
  (forall v, In v (attr "opacity" as_) -> lib_opacity L v <> None).
(** the name of a layer's picture: the empty name if there is none; encoding/xml does not object to a
    repeated attribute, the last counts *)
Definition source (as_ : list (list Z * list Z)) : list Z := last (attr "src" as_) [].
(** What is inside a <stack>: layers with a picture, stacks, unknown elements with anything in them. *)
Inductive understood (L : libs) (ms : list member) : list token -> Prop :=
| un_nil : understood L ms []
| un_other ts : understood L ms ts -> understood L ms (TOther :: ts)
| un_unknown n as_ body ts : unknown n -> balanced body -> understood L ms ts -> understood L ms (TStart n as_ :: body ++ TEnd :: ts)
| un_layer as_ body i ts : numbers L as_ -> picture ms (source as_) i -> balanced body -> understood L ms ts ->
    understood L ms (TStart (str "layer") as_ :: body ++ TEnd :: ts)
| un_stack as_ kids ts : numbers L as_ -> understood L ms kids -> understood L ms ts ->
    understood L ms (TStart (str "stack") as_ :: kids ++ TEnd :: ts).
(** what is passed over on the way to the first <stack> *)
Inductive skipped : list token -> Prop :=
| sk_nil : skipped []
| sk_other ts : skipped ts -> skipped (TOther :: ts)
| sk_end ts : skipped ts -> skipped (TEnd :: ts)
| sk_elem n as_ body ts : n <> str "stack" -> balanced body -> skipped ts -> skipped (TStart n as_ :: body ++ TEnd :: ts).
(** the size is given, by numbers *)
Definition sized (k : string) (as_ : list (list Z * list Z)) : Prop :=
  attr k as_ <> [] /\ forall v, In v (attr k as_) -> exists n, integer v n.
