(** C40 termination and C41 panics of Decode, DecodeCompressed and DecodeConfig. *)
Require Import Verif.Base Verif.L_List Verif.L_Word Verif.M_Reader Verif.L_Reader Verif.M_Rle Verif.S_Rle
  Verif.M_Color Verif.M_Composite Verif.M_Rect Verif.M_Image Verif.M_Compressed
  Verif.M_Groups Verif.M_Monad Verif.M_Decode Verif.S_Decode Verif.L_Decode3 Verif.L_Decode4 Verif.L_Fuel Verif.L_Words.
From Coq Require Import ZifyBool ZifyNat.

(** A file with one layer, laid out by hand: canvas 1x1, the given base type,
    one layer of the given type and size; mask pointer, and what follows the
    level's size (tile pointers, 0, tile data), which starts at offset 98. *)
Definition w32 (n : Z) : list Z := [n / 16777216 mod 256; n / 65536 mod 256; n / 256 mod 256; n mod 256].
Definition one_layer (base typ w h bpp mptr : Z) (level : list Z) : list Z :=
  [103; 105; 109; 112; 32; 120; 99; 102; 32; 118; 48; 48; 51; 0] ++ w32 1 ++ w32 1 ++ w32 base
  ++ [0; 0; 0; 17; 0; 0; 0; 1; 1] ++ w32 0 ++ w32 0 ++ w32 51 ++ w32 0
  ++ w32 w ++ w32 h ++ w32 typ ++ w32 0 ++ w32 0 ++ w32 0 ++ w32 83 ++ w32 mptr
  ++ w32 w ++ w32 h ++ w32 bpp ++ w32 99
  ++ w32 w ++ w32 h ++ level.

(** ** C40
    Full statement: for every file f there is an answer that is reached with every
    sufficient amount of fuel.  It is false (C40_refuted); it holds for
    DecodeConfig, and for Decode and DecodeCompressed on every file that has no
    pixels of width 0 and a height above 2^32 - 64 in it, nor the data of a
    text layer on which the parser of that data hangs. *)
Theorem C40_partial f f32op ptext dec : bytes f -> ~ endless f -> (forall t, text_data f t -> ptext t <> THang) ->
  exists r, r <> NoFuel /\ forall n, 70368744177664 <= Z.of_nat n -> decodeImage n f f32op ptext dec = r.
Proof.
  intros HB HE HT.
  assert (HN : exists n, Z.of_nat n = 70368744177664) by (exists (Z.to_nat 70368744177664); apply Z2Nat.id; lia).
  destruct HN as [N HN]. exists (decodeImage N f f32op ptext dec).
  assert (NN : decodeImage N f f32op ptext dec <> NoFuel).
  { pose proof (decode_ok False N f f32op ptext dec HB HE HT ltac:(right; unfold FUEL; lia)) as D.
    intros Q. rewrite Q in D. exact D. }
  split; [exact NN|]. intros n Hn.
  destruct (le_decodeImage N n f f32op ptext dec ltac:(lia)) as [Q|Q]; [contradiction|now symmetry].
Qed.
Print Assumptions C40_partial.
Theorem C40_config f : bytes f ->
  exists r, forall n, 70368744177664 <= Z.of_nat n -> decodeConfig n f = Ret r.
Proof.
  intros HB.
  assert (HN : exists n, Z.of_nat n = 70368744177664) by (exists (Z.to_nat 70368744177664); apply Z2Nat.id; lia).
  destruct HN as [N HN].
  pose proof (config_ok False N f HB ltac:(right; unfold FUEL; lia)) as D.
  destruct (decodeConfig N f) as [r| |] eqn:Q; [|contradiction|contradiction]. exists r. intros n Hn.
  destruct (le_decodeConfig N n f ltac:(lia)) as [Q'|Q']; congruence.
Qed.
Print Assumptions C40_config.

(** an image of width 0 and height 2^32 - 1 *)
Definition endless_file : list Z := one_layer 0 1 0 4294967295 4 0 (w32 0).

Lemma bind_ret {A B} (m : M A) (g : A -> M B) st a st' : m st = Ret (a, st') -> bindM m g st = g a st'.
Proof. intros H. unfold bindM. now rewrite H. Qed.
Lemma le_ret {A} (a b : outcome A) (x : A) : leo a b -> a = Ret x -> b = Ret x.
Proof. intros [H|H] E; congruence. Qed.

Lemma by64_endless {S} n (body : Z -> S -> M S) (x : S) : (forall v x st, body v x st = NoFuel \/ body v x st = Ret (x, st)) ->
  forall st, by64M n 4294967295 body x st = NoFuel.
Proof.
  intros HB. unfold by64M.
  assert (G : forall k v, 0 <= v -> v mod 64 = 0 -> v < 4294967296 -> forall st, whileM k (fun vs : Z * S => let '(v, st) := vs in
    if v <? 4294967295 then st <- body v st;; retM (inl (u32 (v + 64), st)) else retM (inr st)) (v, x) st = NoFuel).
  { induction k as [|k IH]; intros v V0 V64 V1 st; [reflexivity|]. cbn [whileM]. 
    assert (v <? 4294967295 = true) as B.
    { pose proof (Z.div_mod v 64 ltac:(lia)). lia. }
    unfold bindM at 1. rewrite B. unfold bindM at 1. destruct (HB v x st) as [-> | ->]; [reflexivity|].
    unfold retM. apply IH.
    - unfold u32. apply Z.mod_pos_bound. lia.
    - unfold u32. pose proof (Z.div_mod v 64 ltac:(lia)) as D.
      pose proof (Z.div_mod (v + 64) 4294967296 ltac:(lia)) as D2.
      replace ((v + 64) mod 4294967296) with ((v / 64 + 1 - 67108864 * ((v + 64) / 4294967296)) * 64) by lia.
      apply Z.mod_mul. lia.
    - unfold u32. apply Z.mod_pos_bound. lia. }
  intros st. apply G; lia || reflexivity.
Qed.


Lemma bytes_test l : forallb (fun b => (0 <=? b) && (b <? 256)) l = true -> bytes l.
Proof. intros H. apply Forall_forall. intros x Hx. rewrite forallb_forall in H. specialize (H x Hx). unfold is_u8. lia. Qed.
(** run one step that needs no fuel; one that does, after its run with fuel 10 *)
Ltac step := match goal with |- bindM ?m ?g ?st = _ =>
  let r := eval vm_compute in (m st) in
  match r with Ret (?a, ?st') => rewrite (bind_ret m g st a st') by (vm_compute; reflexivity); cbv beta end end.

Theorem C40_refuted : exists f, bytes f /\ forall n f32op ptext, decode n f f32op ptext = NoFuel.
Proof.
  exists endless_file. split; [apply bytes_test; vm_compute; reflexivity|].
  intros n f32op ptext.
  assert (G : forall k, (10 <= k)%nat -> decodeImage k endless_file f32op ptext true = NoFuel).
  2:{ destruct (le_decodeImage n (10 + n) endless_file f32op ptext true ltac:(lia)) as [H|H]; [exact H|].
      unfold decode. rewrite H. apply G. lia. }
  intros k K. unfold decodeImage, decodeImageFrom. cbv zeta.
  replace (newReader endless_file) with (mkSrc endless_file false) by (vm_compute; reflexivity).
  set (s := mkSrc endless_file false).
  replace (readHeader s (mkR 0 None)) with (@Ret ((err + Z) * rst) (inr 0, mkR 14 None)) by (vm_compute; reflexivity).
  replace (readUint32 s (mkR 14 None)) with (1, mkR 18 None) by (vm_compute; reflexivity).
  replace (readUint32 s (mkR 18 None)) with (1, mkR 22 None) by (vm_compute; reflexivity).
  replace (readUint32 s (mkR 22 None)) with (0, mkR 26 None) by (vm_compute; reflexivity).
  change (0 <? 0) with false. cbv iota.
  rewrite (le_ret _ _ (inr (None, 1), mkR 43 None) (le_readImageProperties 10 k s K 0 (mkR 26 None))) by (vm_compute; reflexivity).
  rewrite (le_ret _ _ ([51], mkR 51 None) (le_readLayerPointers 10 k s K 0 (mkR 43 None))) by (vm_compute; reflexivity).
  cbn [rErr mapO].
  assert (RL : readLayerAt k s f32op ptext (mkDP 1 true 0 None 0) 51 = NoFuel); [|rewrite RL; reflexivity].
  unfold readLayerAt.
  assert (X : (gotoM 51;;; readLayer k s f32op ptext (mkDP 1 true 0 None 0)) (mkR 0 None) = NoFuel); [|rewrite X; reflexivity].
  step. unfold readLayer. step. step. step. cbv zeta. cbn [dpBase]. change (negb (1 / 2 =? 0)) with false. cbv iota.
  step.
  erewrite bind_ret.
  2:{ eapply le_ret; [apply (le_readProperties 10 k s K)|]. vm_compute. reflexivity. }
  cbv beta iota. step. step. step. cbn [dlGroup dlBounds].
  unfold bindM at 1.
  match goal with |- match ?m ?st with _ => _ end = _ => assert (Y : m st = NoFuel); [|rewrite Y; reflexivity] end.
  unfold readImage. step. step.
  change (u32 (dx (mkRect 0 0 0 4294967295))) with 0. change (u32 (dy (mkRect 0 0 0 4294967295))) with 4294967295.
  change (negb ((0 =? 0) && (4294967295 =? 4294967295))) with false. cbv iota. step.
  change (negb (validBPP 1 4)) with false. cbv iota. step. step. step. step.
  change (negb ((0 =? 0) && (4294967295 =? 4294967295))) with false. cbv iota. step. step.
  change (negb (0 =? 0)) with false. cbn [dpDecompress orb]. cbv iota.
  unfold readAndDecompressImage. step. unfold bindM at 1.
  rewrite by64_endless; [reflexivity|].
  intros v x st. unfold by64M. destruct k as [|k']; [now left|right]. reflexivity.
Qed.
Print Assumptions C40_refuted.

(** a file of one 1x1 layer meets the hypotheses *)
Definition small_file : list Z := one_layer 0 1 1 1 4 0 (w32 115 ++ w32 0 ++ [0; 9; 0; 8; 0; 7; 0; 6]).
Example C40_ex : endless endless_file /\
  (bytes small_file /\ ~ endless small_file /\ forall t, ~ text_data small_file t) /\
  decodeConfig 10 endless_file = Ret (mkCfg 1 1 (Some KNRGBA), None).
Proof.
  split; [|split; [|vm_compute; reflexivity]].
  - exists 4294967295. split; [|lia]. exists 83, 4, 99, 99.
    repeat match goal with |- _ /\ _ => split end; try (left; apply rd4_word; vm_compute; reflexivity); try (left; reflexivity); apply rd4_word; vm_compute; reflexivity.
  - split; [apply bytes_test; vm_compute; reflexivity|]. split; [apply sound_sizes; vm_compute; reflexivity|].
    intros t T. apply text_cands_ok in T; [|vm_compute; discriminate]. revert T. apply (eq_ind_r (fun l => ~ In t l) (in_nil (a := t))). vm_compute. reflexivity.
Qed.

(** ** C41
    Full statement: decodeImage never yields Panic.  It is false (C41_refuted).
    Every panic has one of five causes; slice and index expressions never fail. *)
Theorem C41_partial n f f32op ptext dec w : bytes f -> decodeImage n f f32op ptext dec = Panic w -> excuse f ptext dec w.
Proof.
  intros HB H. pose proof (decode_ok True n f f32op ptext dec HB (fun _ => I) (fun _ _ _ => I) (or_introl I)) as D. now rewrite H in D.
Qed.
Print Assumptions C41_partial.
(** so Decode answers every file without such words *)
Theorem C41_returns f f32op ptext : bytes f -> ~ endless f -> ~ huge f -> ~ wrapping f -> ~ base_unknown f ->
  (forall t, text_data f t -> ptext t <> TPanic /\ ptext t <> THang) ->
  exists r, forall n, 70368744177664 <= Z.of_nat n -> decode n f f32op ptext = Ret r.
Proof.
  intros HB HE HH HW HU HT. destruct (C40_partial f f32op ptext true HB HE ltac:(intros t T; now apply HT)) as (r & NR & R).
  assert (HN : exists n, Z.of_nat n = 70368744177664) by (exists (Z.to_nat 70368744177664); apply Z2Nat.id; lia).
  destruct HN as [N HN]. specialize (R N ltac:(lia)) as RN.
  destruct r as [r|w|]; [|exfalso|congruence].
  - exists r. intros n Hn. now apply R.
  - pose proof (C41_partial N f f32op ptext true w HB RN) as X. destruct w; cbn in X; try contradiction; try discriminate X.
    destruct X as (t & T & X). exact (proj1 (HT t T) X).
Qed.
Print Assumptions C41_returns.
Example C41_ex : bytes small_file /\ ~ endless small_file /\ ~ huge small_file /\ ~ wrapping small_file /\ ~ base_unknown small_file /\
  (forall t, ~ text_data small_file t) /\
  match decode 20 small_file (fun z => z) (fun _ => TErr) with Ret (inr _) => True | _ => False end.
Proof.
  split; [apply bytes_test; vm_compute; reflexivity|].
  destruct (sound_sizes small_file ltac:(vm_compute; reflexivity)) as (A & B & C). split; [exact A|]. split; [exact B|]. split; [exact C|].
  split; [|split; [apply C40_ex|vm_compute; exact I]].
  intros (b & W & L). apply word_rd4 in W. vm_compute in W. injection W as <-. lia.
Qed.
(** DecodeConfig never panics *)
Theorem C41_config n f w : bytes f -> decodeConfig n f <> Panic w.
Proof. intros HB H. pose proof (config_ok True n f HB (or_introl I)) as D. now rewrite H in D. Qed.
Print Assumptions C41_config.

Definition no_text (_ : list Z) : tres := TErr.
(** base type 3 with a layer of type 6; a canvas of 2^31 x 2^31; a height of
    2^32 - 1 (width 1); and, for DecodeCompressed, a layer with a mask *)
Definition nil_file := one_layer 3 6 1 1 4 0 (w32 115 ++ w32 0 ++ [0; 9; 0; 8; 0; 7; 0; 6]).
Definition huge_file := one_layer 0 1 2147483648 2147483648 4 0 [].
Definition mask_file := one_layer 0 1 1 1 4 123 (w32 115 ++ w32 0 ++ [0; 9; 0; 8; 0; 7; 0; 6]
  ++ w32 1 ++ w32 1 ++ w32 0 ++ w32 0 ++ w32 0 ++ w32 147 ++ w32 1 ++ w32 1 ++ w32 1 ++ w32 163
  ++ w32 1 ++ w32 1 ++ w32 115 ++ w32 0).
Theorem C41_refuted :
  bytes nil_file /\ bytes huge_file /\ bytes mask_file /\
  decode 20 nil_file (fun z => z) no_text = Panic PNil /\
  decode 20 huge_file (fun z => z) no_text = Panic PMake /\
  decodeCompressed 20 mask_file (fun z => z) no_text = Panic PAssert.
Proof. repeat split; try (apply bytes_test); vm_compute; reflexivity. Qed.
Print Assumptions C41_refuted.
