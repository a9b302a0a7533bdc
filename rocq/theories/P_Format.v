(** C82: images read through image.Decode. *)
From Coq Require Import ZifyBool.
Require Import Verif.Base Verif.L_List Verif.M_Color Verif.M_Image Verif.M_Reader Verif.M_Composite Verif.M_Rect Verif.M_Decode Verif.M_Sched Verif.M_Format Verif.S_File
  Verif.S_Accept Verif.S_Kinds Verif.S_Meaning Verif.S_Whole Verif.P_Accept Verif.P_Whole.
Require Verif.S_Groups.

(** [f] is a file whose name of the format stands at p *)
Definition named (f : list Z) (p : Z) : Prop := has f p [103; 105; 109; 112; 32; 120; 99; 102; 32].
Lemma zdrop_app_exact (a b : list Z) : zdrop (zlen a) (a ++ b) = b.
Proof. unfold zdrop, zlen. rewrite Nat2Z.id, skipn_app, skipn_all, Nat.sub_diag. reflexivity. Qed.
Lemma ztake_app_exact (a b : list Z) : ztake (zlen a) (a ++ b) = a.
Proof. unfold ztake, zlen. rewrite Nat2Z.id, firstn_app, firstn_all, Nat.sub_diag, firstn_O. apply app_nil_r. Qed.
Lemma sniffed_named r f p : 0 <= p -> sniffed (mkInput r f p) = true <-> named f p.
Proof.
  intros P. unfold sniffed, named. cbn [inPos inFile]. split.
  - destruct (list_eq_dec _ _ _) as [E|]; [intros _|discriminate].
    assert (L : p <= zlen f).
    { destruct (Z.leb_spec p (zlen f)); [assumption|]. unfold zdrop in E. rewrite skipn_all2 in E by (unfold zlen in *; lia). discriminate. }
    exists (ztake p f), (zdrop 9 (zdrop p f)). split.
    + unfold fileTypeID in E. rewrite <- E. unfold ztake, zdrop. now rewrite !firstn_skipn.
    + unfold ztake, zlen in *. rewrite firstn_length. lia.
  - intros (a & b & -> & <-). rewrite zdrop_app_exact. change 9 with (zlen fileTypeID). rewrite ztake_app_exact.
    now destruct (list_eq_dec Z.eq_dec fileTypeID fileTypeID).
Qed.

(** From its start, a file behind a ReaderAt or a ReadSeeker (buffered or not) is decoded as by
    Decode if it is named, and else refused as of no known format. *)
Theorem C82_start_partial fuel r f f32op ptext : getReaderAt r <> ANil ->
  (named f 0 -> image_Decode fuel (mkInput r f 0) f32op ptext =
     match decode fuel f f32op ptext with Ret (inl e) => Ret (inl (FErr e)) | Ret (inr ls) => Ret (inr ls) | Panic w => Panic w | NoFuel => NoFuel end /\
     image_DecodeConfig fuel (mkInput r f 0) =
     match decodeConfig fuel f with Ret (c, e) => Ret (c, option_map FErr e) | Panic w => Panic w | NoFuel => NoFuel end) /\
  (~ named f 0 -> image_Decode fuel (mkInput r f 0) f32op ptext = Ret (inl ErrFormat)).
Proof.
  intros K. unfold image_Decode, image_DecodeConfig. cbn [inReader inFile]. pose proof (sniffed_named r f 0 ltac:(lia)) as S. split.
  - intros N. apply S in N. rewrite N. destruct r as [[]|[]]; cbn in *; try congruence; split; reflexivity.
  - intros N. destruct (sniffed _); [|reflexivity]. destruct N. now apply S.
Qed.
Print Assumptions C82_start_partial.
Example C82_start_ex : getReaderAt (Plain KReadSeeker) <> ANil /\ named (small 0 0 0) 0 /\ ~ named [71; 73; 70] 0.
Proof.
  split; [discriminate|]. split; [exists [], (skipn 9 (small 0 0 0)); split; reflexivity|].
  intros (a & b & E & Z). destruct a; [discriminate|]. unfold zlen in Z. cbn in Z. lia.
Qed.

(** What can neither be read at offsets nor sought is refused, be it a perfect XCF file. *)
Theorem C82_stream_refuted fuel r f p f32op ptext : getReaderAt r = ANil ->
  exists e, image_Decode fuel (mkInput r f p) f32op ptext = Ret (inl e) /\ image_DecodeConfig fuel (mkInput r f p) = Ret (mkCfg 0 0 None, Some e).
Proof.
  intros K. unfold image_Decode, image_DecodeConfig. destruct (sniffed _); [|eauto]. cbn [inReader]. destruct r as [[]|[]]; try discriminate; cbn; eauto.
Qed.
Print Assumptions C82_stream_refuted.

(** The adapter that takes the reader to be at its start (C50) is never used: a ReadSeeker is wrapped in a bufio.Reader, and that
    has it sought to its start. *)
Theorem C82_adapter r : getReaderAt (asReader r) =
  match r with Plain KReaderAt | Bufio KReaderAt => AInner | Plain KReadSeeker | Bufio KReadSeeker => ABufioSeek | Plain KOther | Bufio KOther => ANil end.
Proof. now destruct r as [[]|[]]. Qed.
Print Assumptions C82_adapter.

(** ** An image further on *)
Lemma forall2_impl {A B} (P Q : A -> B -> Prop) l l' : (forall a b, P a b -> Q a b) -> Forall2 P l l' -> Forall2 Q l l'.
Proof. intros H. induction 1; constructor; auto. Qed.
Lemma has_app f t p l : has f p l -> has (f ++ t) p l.
Proof. intros (a & b & -> & E). exists a, (b ++ t). split; [now rewrite <- !app_assoc|exact E]. Qed.
Lemma pixel_app f t vm p w h nch px : pixel_data f vm p w h nch px -> pixel_data (f ++ t) vm p w h nch px.
Proof.
  intros (q & ptrs & tiles & H1 & H2 & L & T & R). exists q, ptrs, tiles. repeat split; try apply has_app; try apply R; auto.
  eapply forall2_impl; [|exact T]. intros a b. apply has_app.
Qed.
Lemma mask_app f t vm p w h m : mask_data f vm p w h m -> mask_data (f ++ t) vm p w h m.
Proof. intros (n & ps & hp & H & F & P). exists n, ps, hp. split; [now apply has_app|]. split; [exact F|now apply pixel_app]. Qed.
Lemma layer_app float mo ptext f t vm base p D : layer_at float mo ptext f vm base p D -> layer_at float mo ptext (f ++ t) vm base p D.
Proof.
  intros (props & hp & mp & H & R1 & R2 & B & U & HP & G & A & T & PX & MD). exists props, hp, mp. split; [now apply has_app|].
  do 8 (split; [assumption|]). split.
  - destruct (aGroup _); [exact PX|now apply pixel_app].
  - destruct (ldMask D); [|exact MD]. destruct MD as [M1 M2]. split; [exact M1|now apply mask_app].
Qed.
(** bytes after a file are of no account *)
Lemma file_app float mo ptext f t n w h base pal F : file_of float mo ptext f n w h base pal F -> Forall is_u8 t -> zlen (f ++ t) < 16777216 ->
  file_of float mo ptext (f ++ t) n w h base pal F.
Proof.
  intros [Hb L N W1 W2 HB (prec & props & opal & lps & r & bare & W4 & E & Fr & IM & OP & P3 & Fp & LS & NU & AL) LB] T Z.
  constructor; auto; [apply Forall_app; now split|].
  exists prec, props, opal, lps, (r ++ t), bare. split; [exact W4|]. split; [rewrite E, <- !app_assoc; reflexivity|]. do 5 (split; [assumption|]).
  split; [|now split]. eapply forall2_impl; [|exact LS]. intros p [[D g] path] (LA & G & P). split; [now apply layer_app|now split].
Qed.
(** One image after another in the same file: image.Decode at the second gives the first again,
    whatever the second is. *)
Theorem C82_second_refuted f t n w h base pal F fuel f32op ptext r :
  file_of (fun z => u8 (f32op z)) (modes_read base) ptext f n w h base pal F -> masks_ok true F -> 4294967296 <= Z.of_nat fuel ->
  Forall is_u8 t -> zlen (f ++ t) < 16777216 -> named t 0 -> getReaderAt r <> ANil ->
  exists ls, described true pal (mkRect 0 0 w h) 0 0 F ls /\
    image_Decode fuel (mkInput r (f ++ t) (zlen f)) f32op ptext = Ret (inr (S_Groups.bottom_normal ls)).
Proof.
  intros FO MO HF T Z N K. destruct (C80_partial (f ++ t) n w h base pal F fuel f32op ptext true) as (ls & D & E); auto; [now apply file_app|].
  exists ls. split; [exact D|]. unfold image_Decode. pose proof (zlen_pos f).
  assert (S : named (f ++ t) (zlen f)). { destruct N as (a & b & -> & Z0). exists f, b. split; [|reflexivity]. destruct a; [reflexivity|]. pose proof (zlen_pos a). unfold zlen in *. cbn [length] in Z0. lia. }
  apply (sniffed_named r) in S; [|lia]. rewrite S. cbn [inReader inFile].
  unfold decode. rewrite E. destruct r as [[]|[]]; cbn in *; try congruence; reflexivity.
Qed.
Print Assumptions C82_second_refuted.
Example C82_second_ex : file_of (fun z => u8 z) (modes_read 1) no_text (small 0 222 0) 0 2 1 1 [] (small_tree 0 222 0) /\ masks_ok true (small_tree 0 222 0) /\
  zlen (small 0 222 0 ++ small 0 0 0) < 16777216 /\ named (small 0 0 0) 0 /\ small 0 0 0 <> small 0 222 0.
Proof.
  split; [apply C80_ex|]. split; [apply C80_ex|]. split; [reflexivity|]. split; [apply C82_start_ex|]. vm_compute. discriminate.
Qed.
