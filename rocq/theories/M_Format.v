(** Model of the formats registered with package image: xcf/decoder.go:16-38 on top of
    image.Decode, image.DecodeConfig and bufio.Reader (Go's library: assumed as stated here). *)
Require Import Verif.Base Verif.M_Image Verif.M_Reader Verif.M_Decode Verif.M_Sched.

(** What is given to image.Decode: a reader (or a bufio.Reader around it) over [inFile] from which
    [inPos] bytes have been read. *)
Record input := mkInput { inReader : rdr; inFile : list Z; inPos : Z }.
(** xcf/decoder.go:41 [fileTypeID] "gimp xcf " *)
Definition fileTypeID : list Z := [103; 105; 109; 112; 32; 120; 99; 102; 32].
(** image.sniff: Peek sees the bytes from the reader's position on *)
Definition sniffed (i : input) : bool :=
  if list_eq_dec Z.eq_dec (ztake 9 (zdrop (inPos i) (inFile i))) fileTypeID then true else false.
(** image.asReader: what cannot Peek is wrapped in a bufio.Reader *)
Definition asReader (r : rdr) : rdr := match r with Plain k => Bufio k | Bufio k => Bufio k end.
Inductive ferr := ErrFormat | FErr (e : err).
(** image.Decode with package xcf the only one whose magic may match; decoder.go:26-34 [decode]:
    the ReaderAt (itself, or a ReadSeeker that was sought to 0, C50) has all the bytes of the file *)
Definition image_Decode fuel (i : input) f32op ptext : outcome (ferr + list layer) :=
  if sniffed i then
    match getReaderAt (asReader (inReader i)) with
    | ANil => Ret (inl (FErr ENeedReaderAt))
    | _ => match decode fuel (inFile i) f32op ptext with
           | Ret (inl e) => Ret (inl (FErr e))
           | Ret (inr ls) => Ret (inr ls)
           | Panic w => Panic w
           | NoFuel => NoFuel
           end
    end
  else Ret (inl ErrFormat).
(** image.DecodeConfig; decoder.go:16-24 [decodeConfig] *)
Definition image_DecodeConfig fuel (i : input) : outcome (config * option ferr) :=
  if sniffed i then
    match getReaderAt (asReader (inReader i)) with
    | ANil => Ret ((mkCfg 0 0 None), Some (FErr ENeedReaderAt))
    | _ => match decodeConfig fuel (inFile i) with
           | Ret (c, e) => Ret (c, option_map FErr e)
           | Panic w => Panic w
           | NoFuel => NoFuel
           end
    end
  else Ret ((mkCfg 0 0 None), Some ErrFormat).
