(** What the destination of ora.Encode sees, for C84. *)
Require Import Verif.Base Verif.M_Image Verif.M_Ora Verif.M_OraWrite.
From Coq Require Import String.
Open Scope Z_scope.
Open Scope list_scope.

(** what the destination took of a write, and of all of them *)
Definition took (w : list Z * option (Z * Z)) : list Z := match snd w with None => fst w | Some (n, _) => ztake n (fst w) end.
Definition accepted (log : list (list Z * option (Z * Z))) : list Z := flat_map took log.
(** no write but the last has failed *)
Definition stops (log : list (list Z * option (Z * Z))) : Prop := forall a w b, log = a ++ w :: b -> b <> [] -> snd w = None.

(** the archive: the bytes of all calls *)
Fixpoint produced (emit : list zop -> zop -> list (list Z)) (before cs : list zop) : list Z :=
  match cs with
  | [] => []
  | c :: cs => List.concat (emit before c) ++ produced emit (before ++ [c]) cs
  end.

(** the calls that write a member *)
Inductive member_calls (L : libs) : list Z * written -> list zop -> Prop :=
| mc_bytes name b : member_calls L (name, WBytes b) [OpCreate name; OpWrite b]
| mc_xml name ts : member_calls L (name, WXml (TOther :: ts)) (OpCreate name :: OpWrite (str "<?xml version=""1.0"" encoding=""UTF-8""?>" ++ [10]) :: map OpToken ts ++ [OpFlush])
| mc_png name i p : lib_png L i = Some p -> member_calls L (name, WPng p) [OpCreate name; OpPng i].
