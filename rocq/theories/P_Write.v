(** C39 write failures are reported. *)
Require Import Verif.Base Verif.L_List Verif.M_Color Verif.M_Composite Verif.M_Rect Verif.M_Image Verif.M_Groups
  Verif.M_Reader Verif.M_Decode Verif.M_Encode Verif.S_Encode Verif.L_Calls.
From Coq Require Import ZifyBool ZifyNat.

(** Encode returns nil exactly when every WriteAt call it made succeeded in full, and
    otherwise the error of one of the calls; for every destination that keeps
    io.WriterAt's contract, whatever calls fail *)
Theorem C39_reported wr rnd wtext i e calls : honest wr ->
  encode wr rnd wtext i = Some (e, calls) ->
  (e = None <-> Forall (fun c => cErr c = None /\ cGot c = zlen (cReq c)) calls) /\
  (e <> None -> exists c, In c calls /\ cErr c = e).
Proof.
  intros Hw E. destruct (encode_calls _ _ _ _ _ _ E) as (F & N & M).
  split; [split|].
  - intros ->. specialize (N eq_refl). rewrite Forall_forall in *. intros c I. split; [now apply N|].
    destruct (M c I) as [k Ek]. destruct (Hw k (cOff c) (cReq c)) as [B S]. rewrite <- Ek in *. cbn in *.
    rewrite (N c I) in S. destruct (Z.ltb_spec (cGot c) (zlen (cReq c))); [exfalso; now apply S|lia].
  - intros A. destruct e as [e|]; [|reflexivity]. destruct F as (c & I & Ec). rewrite Forall_forall in A.
    destruct (A c I). congruence.
  - intros X. destruct e; [exact F|congruence].
Qed.
Print Assumptions C39_reported.

(** an image whose 20th write fails (for good) after one byte: the error is returned, and
    the calls made later are those of the pointer writers *)
Definition wr_fail (n : nat) (k : nat) (off : Z) (p : list Z) : Z * option err :=
  if (Nat.ltb k n) then (zlen p, None) else (Z.min 1 (zlen p), Some EEOF).
Definition pic1 : pic := mkPic (mkRect 0 0 1 1) KNRGBA (fun x y => Some (CNRGBA 1 2 3 255)).
Example C39_ex :
  let i := IGroup [mkLayer [97] (mkRect 0 0 1 1) MNormal false 0 (ILeaf pic1)] in
  (match encode (wr_fail 20) (fun _ => 0) (fun _ _ _ => None) i with
   | Some (e, calls) => e = Some EEOF /\ zlen (filter (fun c => match cErr c with None => false | _ => true end) calls) = 3
   | None => False
   end) /\
  (match encode (wr_fail 1000) (fun _ => 0) (fun _ _ _ => None) i with
   | Some (e, calls) => e = None /\ zlen calls = 52
   | None => False
   end) /\ honest (wr_fail 20).
Proof.
  cbv zeta. split; [vm_compute; split; reflexivity|]. split; [vm_compute; split; reflexivity|].
  intros k off p. unfold wr_fail. destruct (Nat.ltb k 20); cbn; pose proof (zlen_pos p); split; try lia; discriminate.
Qed.
