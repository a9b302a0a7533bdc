(** Model of ora/encode.go:16-300 [Encode] writing to a destination that may fail.

    M_Ora says what [Encode] writes; here are its calls of the libraries and what becomes of
    their errors.  Of the libraries (not part of /repo) is assumed: zip.NewWriter puts a
    bufio.Writer of 4096 bytes before the destination; every call appends bytes to it (what it
    appends is any function of the call and those before: [emit]); a call returns the error of a
    write that failed in it, and may return one of its own ([fails]). *)
Require Import Verif.Base Verif.M_Color Verif.M_Composite Verif.M_Rect Verif.M_Image Verif.M_Ora.
From Coq Require Import String.
Open Scope Z_scope.
Open Scope list_scope.

(** the calls: zip.Writer.Create and CreateHeader, Write to a member, xml.Encoder.EncodeToken and
    Flush, png.Encode to a member, zip.Writer.Close *)
Inductive zop :=
| OpCreate (name : list Z)
| OpWrite (b : list Z)
| OpToken (t : token)
| OpFlush
| OpPng (i : image)
| OpClose.
(** xml.Header *)
Definition xmlHeader : list Z := str "<?xml version=""1.0"" encoding=""UTF-8""?>" ++ [10].

Section Writer.
(** [emit before c]: what the call [c] after [before] appends, in pieces; [fails before c]: it returns an error
    of its own *)
Variables (emit : list zop -> zop -> list (list Z)) (fails : list zop -> zop -> option Z).
(** write number k of the bytes p: [None] all are accepted; [Some (n, e)] the first n are and e is
    returned (io.Writer: an error comes with every short count) *)
Variable dst : nat -> list Z -> option (Z * Z).

(** the calls so far, the buffer and the error of the bufio.Writer, the writes to the destination *)
Record zst := mkZ { zHist : list zop; zBuf : list Z; zErr : option Z; zLog : list (list Z * option (Z * Z)) }.

(** a Write of the destination (bufio.Writer's b.wr.Write): what is left unwritten becomes the buffer *)
Definition send (p : list Z) (st : zst) : zst :=
  let r := dst (List.length (zLog st)) p in
  mkZ (zHist st) (match r with None => [] | Some (n, _) => zdrop n p end) (match r with None => None | Some (_, e) => Some e end)
      (zLog st ++ [(p, r)]).
(** bufio.Writer.Flush *)
Definition bflush (st : zst) : zst :=
  match zErr st, zBuf st with
  | Some _, _ | _, [] => st
  | None, b => send b st
  end.
Definition bufSize : Z := 4096.
Definition append (p : list Z) (st : zst) : zst := mkZ (zHist st) (zBuf st ++ p) (zErr st) (zLog st).
(** bufio.Writer.Write: while there is more than what is free the buffer is filled and flushed, or,
    when empty, passed over; the second time it is empty *)
Definition direct (p : list Z) (st : zst) : zst :=
  match zErr st with
  | Some _ => st
  | None => if bufSize <? zlen p then
              (let st' := send p st in mkZ (zHist st') [] (zErr st') (zLog st'))
            else append p st
  end.
Definition bwrite (p : list Z) (st : zst) : zst :=
  match zErr st with
  | Some _ => st
  | None =>
      let free := bufSize - zlen (zBuf st) in
      if free <? zlen p then
        match zBuf st with
        | [] => direct p st
        | _ => direct (zdrop free p) (bflush (append (ztake free p) st))
        end
      else append p st
  end.

(** errors: of the destination, of a library *)
Inductive werr := EDst (e : Z) | ELib (e : Z).
(** a call; Close ends with a Flush *)
Definition zdo (c : zop) (st : zst) : option werr * zst :=
  let st1 := fold_left (fun st p => bwrite p st) (emit (zHist st) c) st in
  let st2 := match c with OpClose => bflush st1 | _ => st1 end in
  (match zErr st2 with
   | Some e => Some (EDst e)
   | None => option_map ELib (fails (zHist st) c)
   end, mkZ (zHist st ++ [c]) (zBuf st2) (zErr st2) (zLog st2)).

(** [if err != nil { return err }] *)
Definition M (A : Type) : Type := zst -> (A + werr) * zst.
Definition wret {A} (a : A) : M A := fun st => (inl a, st).
Definition wbind {A B} (m : M A) (k : A -> M B) : M B :=
  fun st => let '(r, st) := m st in match r with inl a => k a st | inr e => (inr e, st) end.
Notation "x <-* e ;; k" := (wbind e (fun x => k)) (at level 61, e at next level, right associativity).
Notation "e ;;* k" := (wbind e (fun _ => k)) (at level 61, right associativity).
Definition call (c : zop) : M unit :=
  fun st => let '(r, st) := zdo c st in (match r with None => inl tt | Some e => inr e end, st).

(** encode.go:122-149 [writeLayers] with 151-162 [writeGroup] inlined *)
Fixpoint wLayers (l : layer) (n : Z) {struct l} : M Z :=
  match lImage l with
  | IGroup g =>
      (fix group (g : list layer) (n : Z) : M Z :=
         match g with
         | [] => wret n
         | l :: g => n <-* wLayers l n;; group g n
         end) g n
  | i => call (OpCreate (dataName (n + 1))) ;;* call (OpPng i) ;;* wret (n + 1)
  end.
(** encode.go:164-281 [writeStack] with 283-300 [writeGroupStack] inlined *)
Fixpoint wStack (L : libs) (l : layer) (n : Z) {struct l} : M Z :=
  match lImage l with
  | IGroup g =>
      call (OpToken (TStart (str "stack") (layerAttrs L l))) ;;*
      n <-* (fix group (g : list layer) (n : Z) : M Z :=
               match g with
               | [] => wret n
               | l :: g => n <-* wStack L l n;; group g n
               end) g n;;
      call (OpToken TEnd) ;;* wret n
  | _ =>
      call (OpToken (TStart (str "layer") (layerAttrs L l ++ [(str "src", dataName (n + 1))]))) ;;*
      call (OpToken TEnd) ;;* wret (n + 1)
  end.
(** encode.go:88-120 [writeImage] *)
Definition wImage (L : libs) (rnd : nat -> Z) (m : image) (lim : layer) : M unit :=
  wStack L lim 0 ;;*
  call (OpToken TEnd) ;;*
  call OpFlush ;;*
  call (OpCreate (str "mergedimage.png")) ;;*
  call (OpPng m) ;;*
  call (OpCreate (str "Thumbnails/thumbnail.png")) ;;*
  call (OpPng (thumbnail L rnd m (maxX (lBounds lim)) (maxY (lBounds lim)))).
(** encode.go:17-69 [Encode] before its deferred call *)
Definition wBody (L : libs) (rnd : nat -> Z) (m : image) : M unit :=
  let lim := toLayer m in
  call (OpCreate (str "mimetype")) ;;*
  call (OpWrite mimetypeStr) ;;*
  wLayers lim 0 ;;*
  call (OpCreate (str "stack.xml")) ;;*
  call (OpWrite xmlHeader) ;;*
  call (OpToken (TStart (str "image") [(str "version", str "0.0.3"); (str "w", itoa (maxX (lBounds lim))); (str "h", itoa (maxY (lBounds lim)))])) ;;*
  wImage L rnd m lim.
(** encode.go:24: the deferred zw.Close(), whose error is dropped *)
Definition wEncode (L : libs) (rnd : nat -> Z) (m : image) : option werr * zst :=
  let '(r, st) := wBody L rnd m (mkZ [] [] None []) in
  (match r with inl _ => None | inr e => Some e end, snd (zdo OpClose st)).
End Writer.
