(** Models of the concurrent code: the layer goroutines of decoder.go:327-366 and
    the ReaderAt adapter of internal/bufioToReader.go.  Steps of different
    goroutines interleave in any order; memory is sequentially consistent (the
    Go memory model grants this to race-free programs; the theorems of P_Sched
    show the accesses to be exclusive). *)
Require Import Verif.Base Verif.M_Composite Verif.M_Reader Verif.M_Rect Verif.M_Image Verif.M_Groups Verif.M_Monad Verif.M_Decode.

(** replacing an element *)
Fixpoint upd {A} (l : list A) (i : nat) (v : A) : list A :=
  match l, i with
  | [], _ => []
  | _ :: l, O => v :: l
  | a :: l, S i => a :: upd l i v
  end.

(** ** decoder.go:327-366 [readLayers] *)
Section Layers.
Variable A : Type.                                   (* layer *)
Variable zero : A.                                   (* the zero layer of make([]layer, n) *)
(** what goroutine n computes from its own reader: layer and d.Err; a panic ends
    the process, [NoFuel] stands for a computation that never ends *)
Variable jobs : list (outcome (A * option err)).

(** where a goroutine is *)
Inductive tpc :=
| TNew                     (* not started *)
| TRead                    (* 339-351: reading its layer *)
| TStored (e : option err) (* 351: layers[n] assigned; 353: d.Err != nil? *)
| TLocked (e : err)        (* 354: holds errLock *)
| TSet (e : err)           (* reader.go SetError: r.Err was nil *)
| TUnlock                  (* 355: SetError has returned *)
| TLast                    (* 359: about to call wg.Done *)
| TDone.
Inductive mpc := MSpawn (k : nat) | MWait | MReturned.
Record lstate := mkLS {
  lsPcs : list tpc; lsLayers : list A; lsLock : bool; lsErr : option err;
  lsWg : Z; lsMain : mpc; lsCrashed : bool }.

(** decoder.go:328-335: make, wg.Add *)
Definition ls_init : lstate :=
  mkLS (map (fun _ => TNew) jobs) (map (fun _ => zero) jobs) false None (zlen jobs) (MSpawn 0) false.

Inductive lstep : lstate -> lstate -> Prop :=
(** 337-338: the loop starts goroutine k; after the last one wg.Wait (363) *)
| s_spawn pcs ls lk e wg k : (k < length jobs)%nat ->
    lstep (mkLS pcs ls lk e wg (MSpawn k) false) (mkLS (upd pcs k TRead) ls lk e wg (MSpawn (S k)) false)
| s_spawned pcs ls lk e wg : lstep (mkLS pcs ls lk e wg (MSpawn (length jobs)) false) (mkLS pcs ls lk e wg MWait false)
| s_wait pcs ls lk e : lstep (mkLS pcs ls lk e 0 MWait false) (mkLS pcs ls lk e 0 MReturned false)
(** 339-351: reading, layers[n] = ... *)
| s_read pcs ls lk e wg m n a x : nth_error pcs n = Some TRead -> nth_error jobs n = Some (Ret (a, x)) ->
    lstep (mkLS pcs ls lk e wg m false) (mkLS (upd pcs n (TStored x)) (upd ls n a) lk e wg m false)
| s_panic pcs ls lk e wg m n w : nth_error pcs n = Some TRead -> nth_error jobs n = Some (Panic w) ->
    lstep (mkLS pcs ls lk e wg m false) (mkLS pcs ls lk e wg m true)
(** 353: d.Err == nil *)
| s_noerr pcs ls lk e wg m n : nth_error pcs n = Some (TStored None) ->
    lstep (mkLS pcs ls lk e wg m false) (mkLS (upd pcs n TLast) ls lk e wg m false)
(** 354: errLock.Lock *)
| s_lock pcs ls e wg m n x : nth_error pcs n = Some (TStored (Some x)) ->
    lstep (mkLS pcs ls false e wg m false) (mkLS (upd pcs n (TLocked x)) ls true e wg m false)
(** 355: SetError: the test, then the assignment *)
| s_test0 pcs ls lk wg m n x : nth_error pcs n = Some (TLocked x) ->
    lstep (mkLS pcs ls lk None wg m false) (mkLS (upd pcs n (TSet x)) ls lk None wg m false)
| s_test1 pcs ls lk y wg m n x : nth_error pcs n = Some (TLocked x) ->
    lstep (mkLS pcs ls lk (Some y) wg m false) (mkLS (upd pcs n TUnlock) ls lk (Some y) wg m false)
| s_set pcs ls lk e wg m n x : nth_error pcs n = Some (TSet x) ->
    lstep (mkLS pcs ls lk e wg m false) (mkLS (upd pcs n TUnlock) ls lk (Some x) wg m false)
(** 356: errLock.Unlock *)
| s_unlock pcs ls lk e wg m n : nth_error pcs n = Some TUnlock ->
    lstep (mkLS pcs ls lk e wg m false) (mkLS (upd pcs n TLast) ls false e wg m false)
(** 359: wg.Done *)
| s_done pcs ls lk e wg m n : nth_error pcs n = Some TLast ->
    lstep (mkLS pcs ls lk e wg m false) (mkLS (upd pcs n TDone) ls lk e (wg - 1) m false).

Inductive lreach : lstate -> Prop :=
| r_init : lreach ls_init
| r_step a b : lreach a -> lstep a b -> lreach b.
(** readLayers can return the layers [ls] and leave [e] in dr.Err *)
Definition readLayers_returns (ls : list A) (e : option err) : Prop :=
  exists st, lreach st /\ lsMain st = MReturned /\ lsCrashed st = false /\ lsLayers st = ls /\ lsErr st = e.
End Layers.

(** the zero layer *)
Definition zero_layer : dlayer := mkDL [] ZR MNormal false 0 None false false [].

(** decoder.go:128-172 [decodeImage] with the goroutines: the results it can return *)
Definition decodeImage_returns fuel (s : src) f32op ptext (decompress : bool) (r : err + list layer) : Prop :=
  let st := mkR 0 None in
  match readHeader s st with
  | Panic _ | NoFuel => False
  | Ret (inl e, _) => r = inl e
  | Ret (inr mode, st) =>
      let (width, st) := readUint32 s st in
      let (height, st) := readUint32 s st in
      let bounds := image_Rect 0 0 width height in
      let (baseType, st) := readUint32 s st in
      let (precision, st) := if 0 <? mode then readUint32 s st else (0, st) in
      match readImageProperties fuel s baseType st with
      | Panic _ | NoFuel => False
      | Ret (inl e, _) => r = inl e
      | Ret (inr (pal, comp), st) =>
          match readLayerPointers fuel s mode st with
          | Panic _ | NoFuel => False
          | Ret (lptrs, st) =>
              match rErr st with
              | Some e => r = inl e
              | None =>
                  let d := mkDP comp decompress baseType pal mode in
                  exists ls oe, readLayers_returns dlayer zero_layer (map (readLayerAt fuel s f32op ptext d) lptrs) ls oe /\
                  match oe with
                  | Some e => r = inl e
                  | None =>
                      match makeGroups ls bounds with
                      | inl e => r = inl e
                      | inr (os, m) => r = inr (makeImage os (map_order m))
                      end
                  end
              end
          end
      end
  end.

(** ** internal/bufioToReader.go *)

(** the ReadSeeker behind the adapter: its bytes and position (nobody else uses it) *)
Record rseek := mkRS { rsFile : list Z; rsPos : Z }.
Definition rs_rest (f : rseek) : list Z := zdrop (rsPos f) (rsFile f).

(** where a caller of ReadAt(p, offset) is *)
Inductive cpc :=
| CStart                               (* before 27: readMutex.Lock *)
| CLocked                              (* 34: offset != r.pos? *)
| CSeeked                              (* before 41: Read *)
| CRead (b : list Z) (e : option err)  (* before 42-43: r.pos += n, Unlock *)
| CFailed (e : err)                    (* 37: returned 0, err *)
| CDone (b : list Z) (e : option err). (* 45: returned n = len(b), err; b in p[:n] *)
Record astate := mkAS { asPcs : list cpc; asLock : bool; asPos : Z; asFile : rseek }.

Section Adapter.
(** the calls: offset and len(p) *)
Variable calls : list (Z * Z).
Inductive astep : astate -> astate -> Prop :=
(** 27: readMutex.Lock *)
| a_lock pcs p f n : nth_error pcs n = Some CStart ->
    astep (mkAS pcs false p f) (mkAS (upd pcs n CLocked) true p f)
(** 34: offset == r.pos *)
| a_same pcs lk p f n len : nth_error pcs n = Some CLocked -> nth_error calls n = Some (p, len) ->
    astep (mkAS pcs lk p f) (mkAS (upd pcs n CSeeked) lk p f)
(** 35: Seek succeeds: the ReadSeeker is at offset, which it returns *)
| a_seek pcs lk p f n off len : nth_error pcs n = Some CLocked -> nth_error calls n = Some (off, len) -> off <> p ->
    0 <= off ->
    astep (mkAS pcs lk p f) (mkAS (upd pcs n CSeeked) lk off (mkRS (rsFile f) off))
(** 35-38: Seek fails (it must below 0), returning some position; the ReadSeeker
    may be anywhere; the mutex stays locked *)
| a_fail pcs lk p f n off len p' q e : nth_error pcs n = Some CLocked -> nth_error calls n = Some (off, len) -> off <> p ->
    astep (mkAS pcs lk p f) (mkAS (upd pcs n (CFailed e)) lk p' (mkRS (rsFile f) q))
(** 41: Read delivers some of the bytes from its position on and possibly an
    error; no bytes without an error only if none were asked for; io.EOF only at
    the end *)
| a_read pcs lk p f n off len k e : nth_error pcs n = Some CSeeked -> nth_error calls n = Some (off, len) ->
    0 <= k <= len -> k <= zlen (rs_rest f) -> (k = 0 -> e = None -> len = 0) -> (e = Some EEOF -> k = zlen (rs_rest f)) ->
    astep (mkAS pcs lk p f) (mkAS (upd pcs n (CRead (ztake k (rs_rest f)) e)) lk p (mkRS (rsFile f) (rsPos f + k)))
(** 42-45: r.pos += n; Unlock; return *)
| a_ret pcs lk p f n b e : nth_error pcs n = Some (CRead b e) ->
    astep (mkAS pcs lk p f) (mkAS (upd pcs n (CDone b e)) false (p + zlen b) f).

(** 65-75 [GetReaderAt] of a ReadSeeker: r.pos is 0, the ReadSeeker stays where it is *)
Definition as_plain (f : rseek) : astate := mkAS (map (fun _ => CStart) calls) false 0 f.
(** 48-62 [bufioToReader] of a bufio.Reader around a ReadSeeker: Seek(0, 0) first
    (its error, if any, is ignored: [ok]) *)
Definition as_bufio (ok : bool) (f : rseek) : astate := as_plain (if ok then mkRS (rsFile f) 0 else f).
Inductive areach (i : astate) : astate -> Prop :=
| ar_init : areach i i
| ar_step a b : areach i a -> astep a b -> areach i b.
End Adapter.

(** 65-75 [GetReaderAt], 48-62 [bufioToReader]: what becomes of the Reader *)
Inductive rkind := KReaderAt | KReadSeeker | KOther.
Inductive rdr := Plain (k : rkind) | Bufio (k : rkind).
Inductive adapter := ANil | AItself | AInner | APlainSeek | ABufioSeek.
Definition getReaderAt (r : rdr) : adapter :=
  match r with
  | Bufio KReaderAt => AInner
  | Bufio KReadSeeker => ABufioSeek
  | Plain KReaderAt => AItself
  | Plain KReadSeeker => APlainSeek
  | _ => ANil
  end.
