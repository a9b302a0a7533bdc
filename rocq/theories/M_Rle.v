(** Model of xcf/rle.go. *)
Require Import Verif.Base Verif.M_Reader.

(** rle.go:11-16 *)
Record rle := mkRle { repeatByte : bool; rleData : Z; rleCount : Z }.
Definition newRle : rle := mkRle false 0 0.

(** rle.go:29-43: header of the next run.  The caller looks at the error. *)
Definition rle_header (s : src) (m : Z) (r : rle) (st : rst) : rle * rst :=
  if m <? 127 then
    let (d, st) := readUint8 s st in (mkRle true d (u16 (m + 1)), st)
  else if m =? 127 then
    let (c, st) := readUint16 s st in
    let (d, st) := readUint8 s st in (mkRle true d c, st)
  else if m =? 128 then
    let (c, st) := readUint16 s st in (mkRle false (rleData r) c, st)
  else (mkRle false (rleData r) (u16 (256 - m)), st).

(** errors.Is(err, io.EOF) after a failed header: rle.go:45-51 *)
Definition eof_to_unexpected (st : rst) : rst :=
  match rErr st with Some EEOF => mkR (rPos st) (Some EUnexpectedEOF) | _ => st end.

(** What a Read call leaves behind: the buffer p after the call, the returned
    count and error, the rle and reader states. *)
Record rle_res := mkRR { rrBuf : list Z; rrN : Z; rrErr : option err; rrRle : rle; rrSt : rst }.

(** rle.go:18-78 [rle.Read]; [out] is the part of the buffer already passed, [p]
    the rest with its old contents, [n] the count so far.  [fuel] bounds the
    number of iterations. *)
Fixpoint rle_loop (fuel : nat) (s : src) (out p : list Z) (n : Z) (r : rle) (st : rst) : outcome rle_res :=
  let finish := Ret (mkRR (out ++ p) n
                  (if negb (rleCount r =? 0) && (match rErr st with None => true | _ => false end)
                   then Some EInvalidRLE else rErr st) r st) in
  match p with
  | [] => finish
  | _ :: _ =>
    match rErr st with
    | Some _ => finish
    | None =>
      match fuel with
      | O => NoFuel
      | S fuel =>
        let body (r : rle) (st : rst) :=
          let c := Z.min (rleCount r) (zlen p) in
          let (w, st) := if repeatByte r then (repeat (rleData r) (Z.to_nat c), st)
                         else readSome s c st in
          (* bytes of p[:c] not delivered keep their old value *)
          let w := w ++ ztake (c - zlen w) (zdrop (zlen w) p) in
          rle_loop fuel s (out ++ w) (zdrop c p) (n + c)
                   (mkRle (repeatByte r) (rleData r) (u16 (rleCount r - c))) st in
        if rleCount r =? 0 then
          let (m, st) := readUint8 s st in
          match rErr st with
          | Some e => Ret (mkRR (out ++ p) n (Some e) r st)
          | None =>
              let (r, st) := rle_header s m r st in
              match rErr st with
              | Some _ => let st := eof_to_unexpected st in
                          Ret (mkRR (out ++ p) n (rErr st) r st)
              | None => body r st
              end
          end
        else body r st
      end
    end
  end.
(** enough for every call, see L_Rle *)
Definition rle_fuel (s : src) (p : list Z) (st : rst) : nat := S (length p + length (rest s st)).
Definition rle_Read (s : src) (p : list Z) (r : rle) (st : rst) : outcome rle_res :=
  rle_loop (rle_fuel s p st) s [] p 0 r st.

(** rle.go:113-153 [WriteRLEData], as the list of underlying Write calls *)
Definition be16 (z : Z) : list Z := [u16 z / 256; u16 z mod 256].
Definition rle_run (run last : Z) : list (list Z) :=
  if 0 <? run then
    (if run <? 128 then [[u8 (run - 1)]] else [[127]; be16 run]) ++ [[last]]
  else [].
Definition rle_lit (data : list Z) : list (list Z) :=
  match data with
  | [] => []
  | d0 :: _ =>
      if (zlen data <=? 3) && forallb (fun b => b =? d0) data
      then rle_run (zlen data) d0
      else (if zlen data <? 128 then [[u8 (255 - u8 (zlen data - 1))]] else [[128]; be16 (zlen data)])
           ++ [data]
  end.
Definition writeRLEData (data : list Z) (run last : Z) : list (list Z) :=
  rle_lit data ++ rle_run run last.

(** data[a:b] *)
Definition slice {A} (l : list A) (a b : Z) : list A := ztake (b - a) (zdrop a l).

(** rle.go:82-111 [WriteRLE]: state (n, run, written, last) of the loop over
    [todo], the part of [data] not yet visited *)
Fixpoint rle_scan (data todo : list Z) (n run written last : Z) : list (list Z) :=
  match todo with
  | [] =>
      let run := if (run <=? 3) && (run <? zlen data) then 0 else run in
      writeRLEData (slice data written (zlen data - run)) run last
  | b :: todo =>
      if b =? last then rle_scan data todo (n + 1) (run + 1) written b
      else if 3 <? run then
        writeRLEData (slice data written (n - run)) run last ++ rle_scan data todo (n + 1) 1 n b
      else rle_scan data todo (n + 1) 1 written b
  end.
Definition writeRLE (data : list Z) : list (list Z) :=
  match data with
  | [] => []
  | d0 :: _ => rle_scan data data 0 0 0 d0
  end.

(** rle.go:155-195 [decoder.readRLE]: [out] is the buffer so far *)
Fixpoint readRLE_loop (fuel : nat) (s : src) (count : Z) (out : list Z) (st : rst) : outcome (list Z * option err * rst) :=
  if 0 <? count then
    match fuel with
    | O => NoFuel
    | S fuel =>
      let (c, st) := readUint8 s st in
      if c <? 127 then
        let (d, st) := readUint8 s st in
        readRLE_loop fuel s (count - (c + 1)) (out ++ [c; d]) st
      else if c =? 127 then
        let (p, st) := readUint16 s st in
        let (d, st) := readUint8 s st in
        readRLE_loop fuel s (count - p) (out ++ [c] ++ be16 p ++ [d]) st
      else if c =? 128 then
        let (p, st) := readUint16 s st in
        let (w, st) := copyN s p st in
        readRLE_loop fuel s (count - p) (out ++ [c] ++ be16 p ++ w) st
      else
        let (w, st) := copyN s (256 - c) st in
        readRLE_loop fuel s (count - (256 - c)) (out ++ [c] ++ w) st
    end
  else Ret (out, if count <? 0 then Some EInvalidRLE else None, st).
Definition readRLE (s : src) (count : Z) (st : rst) : outcome (list Z * option err * rst) :=
  readRLE_loop (S (Z.to_nat count + length (rest s st))) s count [] st.
