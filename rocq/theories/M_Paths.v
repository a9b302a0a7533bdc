(** Model of the readers of paths: xcf/paths.go, xcf/vectors.go and ReadParasite of
    xcf/parasites.go.  The decoder does not call them: it skips these properties
    (skip.go, M_Decode).  A float32 is kept as its bits. *)
Require Import Verif.Base Verif.M_Reader Verif.M_Monad Verif.M_Decode.

(** paths.go:88-92 *)
Definition EInconsistantClosedState : err := EOtherErr 1.

(** paths.go:20-23 [pathPoint], 10-18 [path], 5-8 [paths] *)
Record pathPoint := mkPP { ppControl : bool; ppX : Z; ppY : Z }.
Record opath := mkOP { opName : list Z; opLinked : bool; opClosed : bool; opTattoo : Z; opPoints : list pathPoint }.
Record paths := mkPaths { psIndex : Z; psPaths : list opath }.
Definition zero_opath : opath := mkOP [] false false 0 [].

(** vectors.go:23-26 [point], 18-21 [stroke], 10-16 [vpath], 5-8 [vectors]; the floats
    of a point: x, y, pressure, xtilt, ytilt, wheel *)
Record vpoint := mkVPt { vtControl : bool; vtFloats : list Z }.
Record vstroke := mkVSt { vsClosed : bool; vsPoints : list vpoint }.
Record vector := mkVec { veName : list Z; veTattoo : Z; veVisible : bool; veLinked : bool;
  veParasites : list parasite; veStrokes : list vstroke }.
Record vectors := mkVecs { vcIndex : Z; vcPaths : list vector }.
Definition zero_vector : vector := mkVec [] 0 false false [] [].

Section Paths.
Variable s : src.

(** paths.go:73-81: one point *)
Definition readPathPoint (v : Z) : M pathPoint :=
  c <- rdBool s;;
  if v =? 1 then x <- rdi32 s;; y <- rdi32 s;; retM (mkPP c x y)
  else x <- rd32 s;; y <- rd32 s;; retM (mkPP c x y).
(** paths.go:34-82: one round; [inr]: the function returns *)
Definition readPath (l : list opath) : M (list opath + list opath) :=
  name <- rdStr s;;
  linked <- rdBool s;;
  state <- rd8 s;;
  closed <- rdBool s;;
  if negb (state =? (if closed : bool then 4 else 2)) then
    setErrM EInconsistantClosedState;;; retM (inr (l ++ [mkOP name linked closed 0 []]))
  else
    np <- rd32 s;;
    v <- rd32 s;;
    if (v <? 1) || (3 <? v) then
      setErrM EUnknownPathsVersion;;; retM (inr (l ++ [mkOP name linked closed 0 []]))
    else
      (if (v =? 2) || (v =? 3) then skM 4 else skipM);;;
      tattoo <- (if v =? 3 then rd32 s else retM 0);;
      pts <- listM (Z.to_nat np) (readPathPoint v);;
      retM (inl (l ++ [mkOP name linked closed tattoo pts])).
(** make([]path, n), of which the first are filled *)
Definition filled {A} (zero : A) (n : Z) (l : list A) : list A := l ++ repeat zero (Z.to_nat (n - zlen l)).
(** paths.go:25-86 [ReadPaths] (make of n paths, 48 n bytes, and of np points,
    24 np bytes, is within the address space) *)
Definition readPaths : M paths :=
  a <- rd32 s;;
  n <- rd32 s;;
  r <- countM (Z.to_nat n) readPath [];;
  retM (mkPaths a (filled zero_opath n (match r with inl l | inr l => l end))).

(** parasites.go:67-79 [ReadParasite]; p.data has the declared length *)
Definition readParasite : M parasite :=
  name <- rdStr s;;
  flags <- rd32 s;;
  pp <- rd32 s;;
  w <- liftM (readSome s pp);;
  retM (mkPar name flags (w ++ repeat 0 (Z.to_nat (pp - zlen w)))).

(** vectors.go:75-97: one point; 1 and 0.5 are 1065353216 and 1056964608 *)
Definition readVPoint (nf : Z) : M vpoint :=
  c <- rdBool s;;
  x <- rd32 s;;
  y <- rd32 s;;
  p <- (if 3 <=? nf then rd32 s else retM 1065353216);;
  xt <- (if 4 <=? nf then rd32 s else retM 1056964608);;
  yt <- (if 5 <=? nf then rd32 s else retM 1056964608);;
  w <- (if nf =? 6 then rd32 s else retM 1056964608);;
  retM (mkVPt c [x; y; p; xt; yt; w]).
(** vectors.go:56-98: one stroke; [inr]: the function returns *)
Definition readStroke (l : list vstroke) : M (list vstroke + list vstroke) :=
  b <- rd32 s;;
  if negb (b =? 1) then setErrM EUnknownStrokeType;;; retM (inr l) else
  closed <- rdBool s;;
  nf <- rd32 s;;
  if (nf <? 2) || (6 <? nf) then setErrM EInvalidFloatsNumber;;; retM (inr (l ++ [mkVSt closed []])) else
  np <- rd32 s;;
  pts <- listM (Z.to_nat np) (readVPoint nf);;
  retM (inl (l ++ [mkVSt closed pts])).
(** xs[i]: the index must be in range *)
Definition index_ok (i len : Z) : M unit := if (0 <=? i) && (i <? len) then skipM else panicM PIndex.
(** vectors.go:42-99: one round; lines 48 and 49 assign to vs.paths[n] *)
Definition readVector (n : Z) (l : list vector) : M (list vector + list vector) :=
  name <- rdStr s;;
  tattoo <- rd32 s;;
  visible <- rdBool s;;
  linked <- rdBool s;;
  m <- rd32 s;;
  k <- rd32 s;;
  index_ok n n;;;
  index_ok n n;;;
  ps <- listM (Z.to_nat m) readParasite;;
  r <- countM (Z.to_nat k) readStroke [];;
  let v st := l ++ [mkVec name tattoo visible linked ps (filled (mkVSt false []) k st)] in
  retM (match r with inl st => inl (v st) | inr st => inr (v st) end).
(** vectors.go:28-103 [ReadVectors] *)
Definition readVectors : M vectors :=
  v <- rd32 s;;
  if negb (v =? 1) then setErrM EUnknownVectorVersion;;; retM (mkVecs 0 []) else
  a <- rd32 s;;
  n <- rd32 s;;
  r <- countM (Z.to_nat n) (readVector n) [];;
  retM (mkVecs a (filled zero_vector n (match r with inl l | inr l => l end))).
End Paths.
