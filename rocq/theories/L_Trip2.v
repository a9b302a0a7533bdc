(** The decoder on images, masks and layers laid out as in S_Layout. *)
From Coq Require Import ZifyBool ZifyNat.
Require Import Verif.Base Verif.L_List Verif.M_Color Verif.M_Composite Verif.M_Rect Verif.M_Image Verif.M_Reader Verif.L_Reader
  Verif.M_Rle Verif.S_Rle Verif.L_Rle Verif.L_Rle3 Verif.S_Compressed Verif.M_Compressed Verif.L_Compressed Verif.M_Groups Verif.M_Monad Verif.M_Decode Verif.M_Encode
  Verif.L_Encode Verif.S_String Verif.S_File Verif.S_Layout Verif.L_Pix Verif.L_Layout Verif.L_Grid Verif.L_Run Verif.L_File Verif.L_Linked Verif.L_Trip.

Lemma w32_be32 z : w32 z = be32 z.
Proof. unfold w32. rewrite word_be32 by (unfold is_word; apply Z.mod_pos_bound; lia). unfold be32, u32. now rewrite Zmod_mod. Qed.
Lemma string32_str l : string32 l = str l.
Proof. unfold string32, str. now rewrite w32_be32. Qed.
Lemma prop32_len t l : zlen (prop32 t l) = 8 + zlen l.
Proof. unfold prop32. rewrite !zlen_app, !w32_len. lia. Qed.
Lemma s32_small z : -2147483648 <= z < 2147483648 -> s32 (u32 z) = z.
Proof.
  intros H. unfold s32, u32. rewrite Zmod_mod. destruct (Z.leb_spec 0 z).
  - rewrite Z.mod_small by lia. now replace (z <? 2147483648) with true by lia.
  - replace z with (z + 4294967296 + (-1) * 4294967296) at 1 2 by lia. rewrite Z.mod_add by lia. rewrite Z.mod_small by lia.
    replace (z + 4294967296 <? 2147483648) with false by lia. lia.
Qed.
(** the head of a property *)
Lemma prop_split s p t l : holds s p (prop32 t l) -> holds s p (w32 t) /\ holds s (p + 4) (w32 (zlen l)) /\ holds s (p + 8) l.
Proof.
  intros H. unfold prop32 in H. apply holds_split in H as [H1 H]. rewrite w32_len in H.
  apply holds_split in H as [H2 H]. rewrite w32_len in H. replace (p + 4 + 4) with (p + 8) in H by lia. auto.
Qed.
Lemma blocks_offsets s bs : forall p, holds s p (blocks p bs) -> forall i b, znth bs i = Some b ->
  exists q, znth (offsets p bs) i = Some q /\ holds s q (b q).
Proof. intros p H i b N. exact (at_blocks (sFile s) bs p H i b N). Qed.

Section Layers.
Variables (fuel : nat) (s : src) (d : dparams).
Hypothesis Hlen : zlen (sFile s) < 4294967296.
Hypothesis HF : 4294967296 <= Z.of_nat fuel.
Hypothesis Hcomp : dpComp d = 1.
Hypothesis Hmode : dpMode d < 2.

Lemma runs_w32 p z : holds s p (w32 z) -> runs (rd32 s) p (u32 z) (p + 4).
Proof. rewrite w32_be32. now apply runs_rd32. Qed.
Lemma runs_ptr p z : holds s p (w32 z) -> runs (rdPtr s (dpMode d)) p (u32 z) (p + 4).
Proof. unfold rdPtr. replace (dpMode d <? 2) with true by (clear - Hmode; lia). apply runs_w32. Qed.
Lemma runs_ptrs l p : holds s p (flat_map w32 l) -> runs (listM (length l) (rdPtr s (dpMode d))) p (map u32 l) (p + 4 * zlen l).
Proof.
  intros H. eapply runs_q; [apply (runs_list s (rdPtr s (dpMode d)) w32 u32); [|reflexivity|exact H]|now rewrite zlen_w32s].
  intros b q Hb. rewrite w32_len. now apply runs_ptr.
Qed.

(** the pixel data [g] codes [px] *)
Definition codes (g : grid) (px : Z -> Z -> Z -> Z) : Prop :=
  0 <= gdW g <= 4294967232 /\ 0 <= gdH g <= 4294967232 /\ 1 <= gdChannels g <= 4 /\
  zlen (gdTiles g) = tiles_across (gdW g) * tiles_across (gdH g) /\
  tcoded (gdW g) (gdH g) (gdChannels g) (gdTiles g) px.
Definition decoded (mode : Z) (g : grid) (px : Z -> Z -> Z -> Z) (r : rimg) : Prop :=
  if dpDecompress d then exists f, r = RDec mode (gdW g) (gdH g) f /\
    forall x y, 0 <= x < gdW g -> 0 <= y < gdH g -> f x y = map (fun k => px k x y) (zseq (gdChannels g))
  else r = RComp mode (gdW g) (gdH g) (gdTiles g).
Lemma runs_readImage g px p mode : codes g px -> mode <= 5 -> validBPP mode (gdChannels g) = true -> holds s p (grid_bytes g p) ->
  runsTo (readImage fuel s d (gdW g) (gdH g) mode) p (decoded mode g px).
Proof.
  intros (RW & RH & RC & RT & TC) Mo VB H. pose proof (holds_range _ _ _ H) as HR.
  unfold grid_bytes in H. cbv zeta in H. rewrite zlen_map in H. set (q := p + 32 + 4 * zlen (gdTiles g)) in *.
  assert (GL : 4 * zlen (gdTiles g) <= zlen (grid_bytes g p)).
  { unfold grid_bytes. cbv zeta. rewrite !zlen_app, zlen_w32s, zlen_offsets, zlen_map, !w32_len.
    match goal with |- context [zlen (blocks ?a ?b)] => pose proof (zlen_pos (blocks a b)) end. lia. }
  apply holds_split in H as [H1 H]. rewrite w32_len in H. apply holds_split in H as [H2 H]. rewrite w32_len in H.
  apply holds_split in H as [H3 H]. rewrite w32_len in H. apply holds_split in H as [H4 H]. rewrite w32_len in H.
  apply holds_split in H as [H5 H]. rewrite w32_len in H. replace (p + 4 + 4 + 4 + 4 + 4) with (p + 20) in H by lia.
  apply holds_split in H as [H6 H]. rewrite w32_len in H. apply holds_split in H as [H7 H]. rewrite w32_len in H.
  apply holds_split in H as [H8 H]. rewrite zlen_w32s, zlen_offsets, zlen_map in H.
  apply holds_split in H as [H9 H]. rewrite w32_len in H.
  replace (p + 20 + 4 + 4 + 4 * zlen (gdTiles g) + 4) with q in H by (unfold q; lia).
  pose proof (holds_range _ _ _ H6) as R6. rewrite w32_len in R6.
  unfold readImage.
  eapply runsTo_step; [apply runs_w32; exact H1|]. eapply runsTo_step; [apply runs_w32; exact H2|].
  rewrite !u32_small by lia. rewrite !Z.eqb_refl. cbn [andb negb].
  eapply runsTo_step; [apply runs_w32; exact H3|]. rewrite u32_small by lia. rewrite VB. cbn [negb].
  eapply runsTo_step; [apply runs_ptr; exact H4|]. rewrite u32_small by lia.
  eapply runsTo_step; [apply runs_goto; lia|].
  eapply runsTo_step; [apply runs_w32; exact H6|]. eapply runsTo_step; [apply runs_w32; exact H7|].
  rewrite !u32_small by lia. rewrite !Z.eqb_refl. cbn [andb negb].
  eapply runsTo_step.
  { unfold readTiles. eapply runs_bind.
    - unfold allocM. replace (maxAlloc <? _) with false. { apply runs_ret. }
      change (ceil64 (gdW g) * ceil64 (gdH g)) with (tiles_across (gdW g) * tiles_across (gdH g)). unfold maxAlloc. lia.
    - change (ceil64 (gdW g) * ceil64 (gdH g)) with (tiles_across (gdW g) * tiles_across (gdH g)). rewrite <- RT.
      replace (Z.to_nat (zlen (gdTiles g))) with (length (offsets q (map tile_block (gdTiles g)))).
      2:{ pose proof (zlen_offsets q (map tile_block (gdTiles g))) as LO. rewrite zlen_map in LO. unfold zlen in *. lia. }
      apply runs_ptrs. exact H8. }
  rewrite zlen_offsets, zlen_map.
  eapply runsTo_step; [apply runs_w32; exact H9|]. change (u32 0) with 0. cbn [Z.eqb negb].
  set (ptrs := map u32 (offsets q (map tile_block (gdTiles g)))).
  assert (Lp : zlen ptrs = zlen (gdTiles g)) by (unfold ptrs; now rewrite zlen_map, zlen_offsets, zlen_map).
  assert (Hp : forall i chs, znth (gdTiles g) i = Some chs -> exists t, znth ptrs i = Some t /\ 0 <= t < 4294967296 /\ holds s t (concat chs)).
  { intros i chs N. destruct (blocks_offsets s _ _ H i (tile_block chs)) as (t & Nt & Ht); [now rewrite znth_map, N|].
    pose proof (holds_range _ _ _ Ht) as Rt. pose proof (zlen_pos (tile_block chs t)).
    exists t. unfold ptrs. rewrite znth_map, Nt. cbn [option_map]. rewrite u32_small by lia. split; [reflexivity|]. split; [lia|exact Ht]. }
  unfold decoded. rewrite Hcomp. destruct (dpDecompress d); cbn [orb Z.eqb].
  - eapply readAndDecompress_ok; try eassumption; try lia. unfold maxAlloc. lia.
  - eapply readCompressed_ok; try eassumption; try lia. unfold maxAlloc. lia.
Qed.

(** a mask: only Decode can read it *)
Lemma runs_readChannel g px p : dpDecompress d = true -> codes g px -> gdChannels g = 1 -> holds s p (mask_bytes g p) ->
  runsTo (readChannel fuel s d) p (fun r => exists m, r = Some m /\ grayBounds m = mkRect 0 0 (gdW g) (gdH g) /\
    forall x y, grayAt m x y = if pin x y (mkRect 0 0 (gdW g) (gdH g)) then px 0 x y else 0).
Proof.
  intros HD C C1 H. unfold mask_bytes in H. destruct C as (RW & RH & C') eqn:CE. clear CE.
  apply holds_split in H as [H1 H]. rewrite w32_len in H. apply holds_split in H as [H2 H]. rewrite w32_len in H.
  apply holds_split in H as [H3 H]. change (zlen (string32 [])) with 5 in H. apply holds_split in H as [H4 H]. change (zlen (prop32 0 [])) with 8 in H.
  apply holds_split in H as [H5 H]. rewrite w32_len in H. replace (p + 4 + 4 + 5 + 8 + 4) with (p + 25) in H by lia.
  unfold readChannel. eapply runsTo_step; [apply runs_w32; exact H1|]. eapply runsTo_step; [apply runs_w32; exact H2|].
  rewrite !u32_small by lia.
  eapply runsTo_step; [rewrite string32_str in H3; apply runs_skStr; [lia|exact H3]|].
  change (zlen (str [])) with 5.
  eapply (runsTo_step _ _ _ tt (p + 4 + 4 + 5 + 8)).
  { unfold skipProperties. destruct fuel as [|f]; [lia|]. cbn [whileM]. apply holds_split in H4 as [A1 A2]. rewrite w32_len in A2.
    apply holds_split in A2 as [A2 _]. eapply (runs_bind _ _ _ (inr tt)).
    - eapply runs_bind; [apply runs_w32; exact A1|]. eapply runs_bind; [apply runs_w32; exact A2|].
      change (u32 0) with 0. change (u32 (zlen (@nil Z))) with 0. cbn [Z.eqb]. eapply runs_bind; [apply runs_ret|].
      apply runs_ret.
    - eapply runs_q; [apply runs_ret|lia]. }
  pose proof (holds_range _ _ _ H) as HR. pose proof (grid_len g (p + 25)). pose proof (holds_range _ _ _ H1).
  eapply runsTo_step; [apply runs_ptr; exact H5|]. rewrite u32_small by lia. eapply runsTo_step; [apply runs_goto; lia|].
  eapply runsTo_bind; [apply (runs_readImage g px); [exact (conj RW (conj RH C'))|lia| |exact H]|].
  { rewrite C1. reflexivity. }
  intros r q' D. unfold decoded in D. rewrite HD in D. destruct D as (f & -> & P). apply runsTo_ret.
  eexists. split; [reflexivity|]. cbn [grayBounds grayAt]. split; [reflexivity|]. intros x y.
  destruct (pin x y (mkRect 0 0 (gdW g) (gdH g))) eqn:B; [|reflexivity].
  unfold pin in B. cbn in B. rewrite P by lia. rewrite C1. reflexivity.
Qed.

(** ** layer properties *)
Lemma runs_while_inl {S R} (body : S -> M (S + R)) n x p x' q r q' : runs (body x) p (inl x') q ->
  runs (whileM n body x') q r q' -> runs (whileM (Datatypes.S n) body x) p r q'.
Proof. intros H1 H2. cbn [whileM]. eapply runs_bind; [exact H1|]. exact H2. Qed.
Lemma runs_while_inr {S R} (body : S -> M (S + R)) n x p r q : runs (body x) p (inr r) q ->
  runs (whileM (Datatypes.S n) body x) p r q.
Proof. intros H1. cbn [whileM]. eapply runs_bind; [exact H1|]. apply runs_ret. Qed.

Variable f32op : Z -> Z.
Notation lbody := (lprop_body fuel s f32op d).
Ltac start_prop H :=
  let H1 := fresh "P" in let H2 := fresh "P" in let H3 := fresh "P" in
  apply prop_split in H as (H1 & H2 & H3); unfold lprop_body; rewrite ?prop32_len;
  eapply runs_bind; [apply runs_w32; exact H1|]; eapply runs_bind; [apply runs_w32; exact H2|];
  rewrite ?w32_len; match type of H1 with holds _ _ (w32 ?z) => change (u32 z) with z end; cbv iota.
Lemma lp_opacity l ps p o : holds s p (prop32 6 (w32 o)) -> 0 <= o <= 255 ->
  runs (lbody (l, ps)) p (inl (dl_transp l (255 - o), ps)) (p + 12).
Proof.
  intros H O. start_prop H. eapply runs_bind; [apply runs_w32; replace (p + 4 + 4) with (p + 8) by lia; eassumption|].
  rewrite u32_small by lia. replace (255 <? o) with false by lia. eapply runs_bind; [apply runs_ret|].
  assert (u8 (255 - u8 o) = 255 - o) as ->. { unfold u8. rewrite !Z.mod_small; lia. }
  eapply runs_q; [apply runs_ret|lia].
Qed.
Lemma lp_visible l ps p (v : bool) : holds s p (prop32 8 (w32 (if v then 1 else 0))) ->
  runs (lbody (l, ps)) p (inl (dl_invisible l (negb v), ps)) (p + 12).
Proof.
  intros H. start_prop H. eapply runs_bind; [apply runs_rdBool|].
  { rewrite w32_be32 in P1. replace (p + 4 + 4) with (p + 8) by lia. exact P1. }
  eapply runs_q; [apply runs_ret|lia].
Qed.
Lemma lp_offsets l ps p x y : holds s p (prop32 15 (w32 x ++ w32 y)) -> -2147483648 <= x < 2147483648 -> -2147483648 <= y < 2147483648 ->
  runs (lbody (l, ps)) p (inl (dl_bounds l (radd (dlBounds l) x y), ps)) (p + 16).
Proof.
  intros H X Y. start_prop H. apply holds_split in P1 as [P1 P2]. rewrite w32_len in P2. rewrite w32_be32 in *.
  eapply runs_bind; [apply runs_rdi32; replace (p + 4 + 4) with (p + 8) by lia; exact P1|].
  eapply runs_bind; [apply runs_rdi32; replace (p + 4 + 4 + 4) with (p + 8 + 4) by lia; exact P2|].
  rewrite !s32_small by assumption. eapply runs_q; [apply runs_ret|lia].
Qed.
Lemma lp_path l ps p path : holds s p (prop32 30 (flat_map w32 path)) -> Forall (fun z => -2147483648 <= z < 2147483648) path ->
  runs (lbody (l, ps)) p (inl (dl_path l path, ps)) (p + 8 + 4 * zlen path).
Proof.
  intros H F. pose proof (holds_range _ _ _ H) as HR. rewrite prop32_len, zlen_w32s in HR. pose proof (zlen_pos path).
  start_prop H. rewrite zlen_w32s in *. rewrite u32_small by lia.
  replace (4 * zlen path mod 4) with 0 by (rewrite Z.mul_comm, Z.mod_mul; lia). cbn [Z.eqb negb].
  replace (4 * zlen path / 4) with (zlen path) by (rewrite Z.mul_comm, Z.div_mul; lia).
  eapply runs_bind; [apply runs_ret|].
  eapply (runs_bind _ _ _ path).
  { replace path with (map (fun z => s32 (u32 z)) path) at 2.
    2:{ transitivity (map (fun z => z) path); [|apply map_id]. apply map_ext_in. rewrite Forall_forall in F. intros z I. apply s32_small. auto. }
    apply (runs_list s _ w32 (fun z => s32 (u32 z))) with (bs := path).
    - intros b q Hb. rewrite w32_len. eapply runs_bind; [apply runs_w32; exact Hb|]. apply runs_ret.
    - unfold zlen. lia.
    - now replace (p + 4 + 4) with (p + 8) by lia. }
  eapply runs_q; [apply runs_ret|rewrite zlen_w32s; lia].
Qed.
Lemma lp_textflag st p : holds s p (prop32 26 (w32 1)) -> runs (lbody st) p (inl st) (p + 12).
Proof.
  intros H. pose proof (holds_range _ _ _ H) as HR. rewrite prop32_len, w32_len in HR. destruct st as [l ps]. start_prop H.
  eapply runs_bind; [apply runs_skip; [lia..|reflexivity]|]. eapply runs_q; [apply runs_ret|lia].
Qed.
Lemma lp_group l ps p : holds s p (prop32 29 []) -> runs (lbody (l, ps)) p (inl (dl_group l, ps)) (p + 8).
Proof. intros H. start_prop H. eapply runs_q; [apply runs_ret|lia]. Qed.
Definition read_mode (i : Z) : mode := if negb (dpBase d =? 0) then (if i =? 2 then MBehind else MNormal) else mode_of_id i.
Lemma lp_mode l ps p i : holds s p (prop32 7 (w32 i)) -> 0 <= i < 4294967296 ->
  runs (lbody (l, ps)) p (inl (dl_mode l (read_mode i), ps)) (p + 12).
Proof.
  intros H I. start_prop H. eapply runs_bind; [apply runs_w32; replace (p + 4 + 4) with (p + 8) by lia; eassumption|].
  rewrite u32_small by lia. eapply runs_q; [apply runs_ret|lia].
Qed.
Lemma lp_end st p : holds s p (prop32 0 []) -> runs (lbody st) p (inr st) (p + 8).
Proof.
  intros H. destruct st as [l ps]. start_prop H. change (u32 (zlen (@nil Z))) with 0. cbn [Z.eqb]. eapply runs_bind; [apply runs_ret|].
  eapply runs_q; [apply runs_ret|lia].
Qed.
Lemma lp_text l ps p data t : holds s p (prop32 21 (string32 text_layer ++ w32 0 ++ w32 (zlen data) ++ data) ++ t) -> t <> [] ->
  runs (lbody (l, ps)) p (inl (l, [mkPar text_layer 0 data])) (p + 36 + zlen data).
Proof.
  intros H NE. apply holds_split in H as [H HT]. rewrite prop32_len, !zlen_app, !w32_len in HT. change (zlen (string32 text_layer)) with 20 in HT.
  pose proof (holds_range _ _ _ H) as HR. rewrite prop32_len, !zlen_app, !w32_len in HR. change (zlen (string32 text_layer)) with 20 in HR.
  pose proof (zlen_pos data). start_prop H. rewrite !zlen_app, !w32_len. change (zlen (string32 text_layer)) with 20.
  rewrite u32_small by lia.
  eapply (runs_bind _ _ _ [mkPar text_layer 0 data] (p + 36 + zlen data)); [|apply runs_ret].
  unfold readParasites. destruct fuel as [|[|f]] eqn:EF; [lia..|].
  replace (p + 8) with (p + 4 + 4) in P1 by lia. apply holds_split in P1 as [A1 P1]. change (zlen (string32 text_layer)) with 20 in P1.
  apply holds_split in P1 as [A2 P1]. rewrite w32_len in P1. apply holds_split in P1 as [A3 P1]. rewrite w32_len in P1.
  eapply runs_while_inl.
  { unfold par_body. replace (20 + (4 + (4 + zlen data)) =? 0) with false by lia.
    eapply runs_bind; [rewrite string32_str in A1; apply runs_rdStr; [exact A1| |]|].
    - exists text_layer. split; [|reflexivity]. unfold text_layer. repeat constructor; unfold scalar_value; lia.
    - vm_compute. reflexivity.
    - change (zlen (str text_layer)) with 20.
      eapply runs_bind; [apply runs_w32; exact A2|]. eapply runs_bind; [apply runs_w32; exact A3|].
      change (u32 0) with 0. change (u32 (zlen text_layer)) with 15. rewrite (u32_small (zlen data)) by lia. cbv zeta.
      rewrite u32_small by lia. replace (20 + (4 + (4 + zlen data)) <? _) with false by lia.
      destruct (holds_rest s _ _ None (holds_join s _ _ _ P1 ltac:(replace (p + 4 + 4 + 20 + 4 + 4 + zlen data) with (p + (8 + (20 + (4 + (4 + zlen data))))) by lia; exact HT))) as [u R].
      eapply (runs_bind _ _ _ data).
      { unfold runs, liftM. rewrite <- app_assoc in R.
        rewrite (readSome_ok s (zlen data) _ data _ (eq_refl : rErr (mkR _ None) = None) R eq_refl); [reflexivity|].
        intros Q. apply app_eq_nil in Q. destruct Q as [_ Q]. apply app_eq_nil in Q. tauto. }
      rewrite Z.sub_diag. change (Z.to_nat 0) with O. cbn [repeat]. rewrite app_nil_r. unfold advance. cbn [rPos rErr]. apply runs_ret. }
  apply runs_while_inr. unfold par_body.
  match goal with |- context [?x =? 0] => replace x with 0 by lia end. cbn [Z.eqb app].
  eapply runs_q; [apply runs_ret|lia].
Qed.
End Layers.
