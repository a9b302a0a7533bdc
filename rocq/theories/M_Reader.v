(** Model of the byte sources of package xcf: xcf/reader.go, the seeking half of
    xcf/skip.go and xcf/props.go, on top of byteio.StickyBigEndianReader,
    io.SectionReader, memio.Buffer and bytes.Reader (dependencies: assumed as
    stated here and in DESIGN.md). *)
Require Import Verif.Base.

(** why a Go program panics: make of an impossible size; an exhausted tile list;
    a nil interface; slice bounds; index; a failed type assertion; the text parser *)
Inductive why := PMake | PTiles | PNil | PSlice | PIndex | PAssert | PText.
(** Result of a model function: a value, a Go panic, or "the model's loop bound
    was too small" (theorems C40: when this can happen). *)
Inductive outcome (A : Type) := Ret (a : A) | Panic (w : why) | NoFuel.
Arguments Ret {A}. Arguments Panic {A}. Arguments NoFuel {A}.
Definition bindO {A B} (x : outcome A) (f : A -> outcome B) : outcome B :=
  match x with Ret a => f a | Panic w => Panic w | NoFuel => NoFuel end.
Notation "x <-! e ;; k" := (bindO e (fun x => k))
  (at level 61, e at next level, right associativity).

(** the error values of package xcf and of io *)
Inductive err :=
| EEOF | EUnexpectedEOF
| EStringTooLong | EInvalidString | EInvalidRLE | EInvalidBoolean
| EInvalidFileTypeID | EUnsupportedVersion | EInvalidHeader | EInvalidProperties
| EInvalidOpacity | EInvalidGuideLength | EInvalidUnit | EInvalidSampleLength
| EInvalidGroup | EUnknownCompression | EMissingAlpha | ENeedReaderAt
| EInvalidLayerType | EInvalidItemPathLength | EInconsistantData
| EInvalidParasites | ENoOpen | ENoName
| EUnknownPathsVersion | EUnknownVectorVersion | EUnknownStrokeType | EInvalidFloatsNumber
| EOtherErr (n : Z).

(** A byte source.  [sFile]: all bytes it can ever deliver.  [sShort]: a Read that
    gets some but not all of the requested bytes reports no error (memio.Buffer;
    io.SectionReader at its limit) rather than io.EOF (bytes.Reader). *)
Record src := mkSrc { sFile : list Z; sShort : bool }.

(** xcf/reader.go:26 [maxString] *)
Definition maxString : Z := 16777216.
(** xcf/reader.go:16-24 [newReader]: io.NewSectionReader(r, 0, maxString) over a
    bytes.Reader-like io.ReaderAt holding [f] *)
Definition newReader (f : list Z) : src :=
  if zlen f <? maxString then mkSrc f false else mkSrc (ztake maxString f) true.
(** &byteio.StickyBigEndianReader{Reader: &data} for a memio.Buffer *)
Definition memReader (data : list Z) : src := mkSrc data true.

(** position and sticky error *)
Record rst := mkR { rPos : Z; rErr : option err }.

(** bytes from the position on *)
Definition rest (s : src) (st : rst) : list Z :=
  if (rPos st <? 0) || (zlen (sFile s) <=? rPos st) then [] else zdrop (rPos st) (sFile s).
Definition advance (st : rst) (n : Z) : rst := mkR (rPos st + n) (rErr st).
Definition withErr (st : rst) (e : err) : rst := mkR (rPos st) (Some e).

(** io.ReadFull of k > 0 bytes through the sticky reader *)
Definition readFull (s : src) (k : Z) (st : rst) : option (list Z) * rst :=
  match rErr st with
  | Some _ => (None, st)
  | None =>
      let r := rest s st in
      if k <=? zlen r then (Some (ztake k r), advance st k)
      else (None, mkR (rPos st + zlen r) (Some (match r with [] => EEOF | _ => EUnexpectedEOF end)))
  end.
(** StickyBigEndianReader.Read: one Read of the underlying reader for k bytes *)
Definition readSome (s : src) (k : Z) (st : rst) : list Z * rst :=
  match rErr st with
  | Some _ => ([], st)
  | None =>
      let r := rest s st in
      match r with
      | [] => ([], withErr st EEOF)
      | _ => if k <=? zlen r then (ztake k r, advance st k)
             else (r, mkR (rPos st + zlen r) (if sShort s then None else Some EEOF))
      end
  end.
(** io.CopyN(buf, d, k): the bytes that reach buf *)
Definition copyN (s : src) (k : Z) (st : rst) : list Z * rst :=
  if k <=? 0 then ([], st) else
  match rErr st with
  | Some _ => ([], st)
  | None =>
      let r := rest s st in
      if k <=? zlen r then (ztake k r, advance st k)
      else (r, mkR (rPos st + zlen r) (Some EEOF))
  end.

(** big-endian value of a byte list *)
Definition be (l : list Z) : Z := fold_left (fun a b => a * 256 + b) l 0.

(** StickyBigEndianReader.ReadUint8/16/32/64, ReadInt32: 0 after an error *)
Definition readBE (s : src) (k : Z) (st : rst) : Z * rst :=
  let (o, st') := readFull s k st in
  (match o with Some l => be l | None => 0 end, st').
Definition readUint8 (s : src) := readBE s 1.
Definition readUint16 (s : src) := readBE s 2.
Definition readUint32 (s : src) := readBE s 4.
Definition readUint64 (s : src) := readBE s 8.
Definition readInt32 (s : src) (st : rst) : Z * rst :=
  let (v, st') := readBE s 4 st in (s32 v, st').

(** xcf/reader.go:59-63 [SetError] *)
Definition setError (st : rst) (e : err) : rst :=
  match rErr st with None => withErr st e | Some _ => st end.
Definition setErrorO (st : rst) (e : option err) : rst :=
  match e with Some e => setError st e | None => st end.

(** xcf/reader.go:55-57 [Goto]: Seek to int64(n); a negative position is refused *)
Definition goto (n : Z) (st : rst) : rst :=
  let m := s64 n in if m <? 0 then st else mkR m (rErr st).
(** xcf/skip.go:5-7 [Skip]: Seek(int64(n), SeekCurrent); n is a uint32 *)
Definition skip (n : Z) (st : rst) : rst :=
  let m := s64 (rPos st + n) in if m <? 0 then st else mkR m (rErr st).
(** xcf/skip.go:9-23: SkipBoolProperty, SkipUint32 and SkipFloat32 are [skip 4], SkipByte is [skip 1];
    they are written so in M_Decode *)
(** xcf/skip.go:25-27 [SkipString] *)
Definition skipString (s : src) (st : rst) : rst :=
  let (n, st) := readUint32 s st in skip n st.

(** unicode/utf8.Valid: the well-formed byte sequences of the Unicode standard *)
Definition between (lo hi b : Z) : bool := (lo <=? b) && (b <=? hi).
Fixpoint utf8_valid (l : list Z) : bool :=
  match l with
  | [] => true
  | a :: l1 =>
    if between 0 127 a then utf8_valid l1
    else match l1 with
    | [] => false
    | b :: l2 =>
      if between 194 223 a then between 128 191 b && utf8_valid l2
      else match l2 with
      | [] => false
      | c :: l3 =>
        if a =? 224 then between 160 191 b && between 128 191 c && utf8_valid l3
        else if between 225 236 a || between 238 239 a then between 128 191 b && between 128 191 c && utf8_valid l3
        else if a =? 237 then between 128 159 b && between 128 191 c && utf8_valid l3
        else match l3 with
        | [] => false
        | d :: l4 =>
          if a =? 240 then between 144 191 b && between 128 191 c && between 128 191 d && utf8_valid l4
          else if between 241 243 a then between 128 191 b && between 128 191 c && between 128 191 d && utf8_valid l4
          else if a =? 244 then between 128 143 b && between 128 191 c && between 128 191 d && utf8_valid l4
          else false
        end
      end
    end
  end.

(** xcf/reader.go:28-53 [ReadString] *)
Definition readString (s : src) (st : rst) : list Z * rst :=
  let (n, st) := readUint32 s st in
  if n =? 0 then ([], st)
  else if maxString <? n then ([], setError st EStringTooLong)
  else match readFull s n st with
       | (None, st) => ([], st)
       | (Some b, st) =>
           let body := ztake (n - 1) b in
           match znth b (n - 1) with
           | Some 0 => if utf8_valid body then (body, st) else ([], setError st EInvalidString)
           | _ => ([], setError st EInvalidString)
           end
       end.

(** xcf/props.go:48-59 [ReadBoolProperty] *)
Definition readBoolProperty (s : src) (st : rst) : bool * rst :=
  let (v, st) := readUint32 s st in
  if v =? 0 then (false, st) else if v =? 1 then (true, st)
  else (false, setError st EInvalidBoolean).
