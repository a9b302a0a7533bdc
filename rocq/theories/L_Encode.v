Require Import Verif.Base Verif.L_List Verif.L_Word Verif.M_Reader Verif.L_Reader Verif.M_Encode Verif.S_Encode.
From Coq Require Import ZifyBool ZifyNat.

Ltac zdm x k := pose proof (Z.div_mod x k ltac:(lia)); pose proof (Z.mod_pos_bound x k ltac:(lia)).

Lemma be32_len z : zlen (be32 z) = 4. Proof. reflexivity. Qed.
Lemma be32_be z : be (be32 z) = u32 z.
Proof.
  unfold be32, be. set (v := u32 z). cbn [fold_left].
  assert (0 <= v < 4294967296) by (unfold v, u32; apply Z.mod_pos_bound; lia).
  zdm v 256. zdm (v / 256) 256. zdm (v / 65536) 256. zdm v 16777216. zdm v 65536.
  assert (v / 256 / 256 = v / 65536) by (rewrite Z.div_div by lia; reflexivity).
  assert (v / 65536 / 256 = v / 16777216) by (rewrite Z.div_div by lia; reflexivity). lia.
Qed.
Lemma be32_bytes z : Forall is_u8 (be32 z).
Proof.
  unfold be32. set (v := u32 z).
  assert (0 <= v < 4294967296) by (unfold v, u32; apply Z.mod_pos_bound; lia).
  zdm v 256. zdm (v / 256) 256. zdm (v / 65536) 256. zdm v 16777216.
  repeat constructor; unfold is_u8; lia.
Qed.

Lemma readUint32_ok s st z t : rErr st = None -> rest s st = be32 z ++ t ->
  readUint32 s st = (u32 z, advance st 4).
Proof. intros E R. unfold readUint32. rewrite (readBE_ok s 4 st (be32 z) t E R (be32_len z)). now rewrite be32_be. Qed.

(** a write on a faultless destination *)
Lemma put_ok wr p st : faultless wr -> wErr st = None ->
  put wr p st = Some (tt, mkW (mkCall (wPos st) p (zlen p) None :: wLog st) (wPos st + zlen p) None (wRnd st)).
Proof. intros F E. unfold put, writeAt. now rewrite E, F. Qed.
Lemma landed_all off p : landed (mkCall off p (zlen p) None) = (off, p).
Proof. unfold landed. cbn. now rewrite ztake_all by lia. Qed.
