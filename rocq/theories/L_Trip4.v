(** The decoder on a file laid out as in S_Layout. *)
From Coq Require Import ZifyBool ZifyNat.
Require Import Verif.Base Verif.L_List Verif.M_Color Verif.M_Composite Verif.M_Rect Verif.M_Image Verif.M_Reader Verif.L_Reader
  Verif.M_Rle Verif.S_Rle Verif.L_Rle Verif.S_Compressed Verif.M_Compressed Verif.M_Groups Verif.M_Monad Verif.M_Decode Verif.M_Encode
  Verif.L_Encode Verif.S_String Verif.S_File Verif.S_Layout Verif.L_Layout Verif.L_Run Verif.L_File Verif.L_Linked Verif.L_Trip Verif.L_Trip2 Verif.L_Trip3.

Definition entry (c : Z * Z * Z) : color := let '(r, g, b) := c in CRGB r g b.
Definition head_palette (h : fhead) : option (list color) := option_map (map entry) (fhPalette h).
Definition head_params (h : fhead) (dc : bool) : dparams := mkDP 1 dc (fhBase h) (head_palette h) 0.
Definition good_fhead (h : fhead) : Prop :=
  0 <= fhW h < 4294967296 /\ 0 <= fhH h < 4294967296 /\ 0 <= fhBase h <= 2 /\ (fhPalette h <> None -> fhBase h = 2).

Section File.
Variables (fuel : nat) (s : src) (f32op : Z -> Z) (ptext : list Z -> tres).
Hypothesis Hlen : zlen (sFile s) < 4294967296.
Hypothesis HF : 4294967296 <= Z.of_nat fuel.

Lemma runs_readHeader t : holds s 0 (magic ++ t) -> runs (readHeader s) 0 (inr 0) 14.
Proof.
  intros H. apply holds_split in H as [H _]. unfold readHeader. eapply runs_bind; [apply (runs_readSome s 0 magic 14 H); [reflexivity|lia]|].
  eapply (runs_bind _ _ _ None); [reflexivity|]. cbv iota. change (Z.to_nat (14 - zlen magic)) with O. cbn [repeat]. rewrite app_nil_r.
  reflexivity.
Qed.
Lemma runs_rdU p z : holds s p (w32 z) -> readUint32 s (mkR p None) = (u32 z, mkR (p + 4) None).
Proof. intros H. apply runs_w32 in H. unfold runs, rd32, liftM in H. congruence. Qed.

Lemma ip_palette base pal comp p cs : base = 2 -> holds s p (prop32 1 (w32 (zlen cs) ++ flat_map (fun c => let '(r, g, b) := c in [r; g; b]) cs)) ->
  runs (imgprop_body fuel s base (pal, comp)) p (inl (Some (map entry cs), comp)) (p + 12 + 3 * zlen cs).
Proof.
  intros -> H. pose proof (holds_range _ _ _ H) as HR. rewrite prop32_len, zlen_app, w32_len, zlen_colours in HR. pose proof (zlen_pos cs).
  apply prop_split in H as (P & P0 & P1). unfold imgprop_body.
  eapply runs_bind; [apply runs_w32; exact P|]. eapply runs_bind; [apply runs_w32; exact P0|]. change (u32 1) with 1. cbv iota.
  change (negb (2 =? 2)) with false. cbv iota. eapply runs_bind; [apply runs_ret|].
  replace (p + 4 + 4) with (p + 8) by lia. apply holds_split in P1 as [P1 P2]. rewrite w32_len in P2.
  eapply runs_bind; [apply runs_w32; exact P1|]. rewrite u32_small by lia.
  eapply runs_bind.
  { rewrite length_nat. apply (runs_list s (readRGB s) (fun c => let '(r, g, b) := c in [r; g; b]) entry); [|reflexivity|exact P2].
    intros [[r g] b] y Hy. now apply runs_readRGB. }
  eapply runs_q; [apply runs_ret|]. rewrite zlen_colours. lia.
Qed.
Lemma ip_compression base pal comp p : holds s p (prop32 17 [1]) -> runs (imgprop_body fuel s base (pal, comp)) p (inl (pal, 1)) (p + 9).
Proof.
  intros H. apply prop_split in H as (P & P0 & P1). unfold imgprop_body.
  eapply runs_bind; [apply runs_w32; exact P|]. eapply runs_bind; [apply runs_w32; exact P0|]. change (u32 17) with 17. cbv iota.
  replace (p + 4 + 4) with (p + 8) by lia. eapply runs_bind; [apply runs_rd8; exact P1|]. eapply runs_q; [apply runs_ret|lia].
Qed.
Lemma ip_end base st p : holds s p (prop32 0 []) -> runs (imgprop_body fuel s base st) p (inr (inr st)) (p + 8).
Proof.
  intros H. apply prop_split in H as (P & P0 & P1). unfold imgprop_body. destruct st as [pal comp].
  eapply runs_bind; [apply runs_w32; exact P|]. eapply runs_bind; [apply runs_w32; exact P0|]. change (u32 0) with 0. cbv iota.
  eapply runs_q; [apply runs_ret|lia].
Qed.
Definition palette_prop (h : fhead) : list Z :=
  match fhPalette h with
  | Some p => prop32 1 (w32 (zlen p) ++ flat_map (fun c => let '(r, g, b) := c in [r; g; b]) p)
  | None => []
  end.
Lemma runs_imageProperties h p : good_fhead h -> holds s p (palette_prop h ++ prop32 17 [1] ++ prop32 0 []) ->
  runs (readImageProperties fuel s (fhBase h)) p (inr (head_palette h, 1)) (p + zlen (palette_prop h) + 17).
Proof.
  intros (W & Hh & B & PB) H. apply holds_split in H as [H1 H]. apply holds_split in H as [H2 H3].
  rewrite prop32_len in H3. change (zlen [1]) with 1 in H3.
  unfold readImageProperties, palette_prop, head_palette in *.
  assert (K : forall n pal q, holds s q (prop32 17 [1]) -> holds s (q + (8 + 1)) (prop32 0 []) ->
    runs (whileM (2 + n) (imgprop_body fuel s (fhBase h)) (pal, 0)) q (inr (pal, 1)) (q + 17)).
  { intros n pal q A1 A2. eapply runs_while_inl; [apply ip_compression; exact A1|]. apply runs_while_inr.
    replace (q + 17) with (q + 9 + 8) by lia. now apply ip_end. }
  destruct (fhPalette h) as [cs|] eqn:EP.
  - replace fuel with (1 + (2 + (fuel - 3)))%nat at 1 by lia. eapply runs_while_inl; [apply ip_palette; [apply PB; discriminate|exact H1]|].
    match type of H2 with holds _ ?x _ => replace (p + 12 + 3 * zlen cs) with x end; [now apply K|].
    rewrite prop32_len, zlen_app, w32_len, zlen_colours. lia.
  - replace fuel with (2 + (fuel - 2))%nat at 1 by lia. cbn [option_map]. change (zlen (@nil Z)) with 0 in *. rewrite Z.add_0_r in *. now apply K.
Qed.

Lemma runs_layerPointers l : forall p acc n, (length l < n)%nat -> Forall (fun z => 0 < z < 4294967296) l -> holds s p (flat_map w32 l ++ w32 0) ->
  runs (whileM n (fun l => p <- rdPtr s 0;; retM (if p =? 0 then inr l else inl (l ++ [p]))) acc) p (acc ++ l) (p + 4 * zlen l + 4).
Proof.
  induction l as [|z l IH]; intros p acc n N F H; (destruct n as [|n]; [cbn in N; lia|]).
  - cbn [flat_map app] in H. eapply runs_q; [apply (runs_while_inr _ _ _ _ _ (p + 4))|change (zlen (@nil Z)) with 0; lia]. rewrite app_nil_r.
    eapply runs_bind; [apply (runs_w32 s p 0 H)|]. reflexivity.
  - cbn [flat_map] in H. rewrite <- app_assoc in H. apply holds_split in H as [H1 H2]. rewrite w32_len in H2. inversion F as [|? ? F1 F2]; subst.
    eapply runs_while_inl.
    + eapply runs_bind; [apply (runs_w32 s p z H1)|]. rewrite u32_small by lia. replace (z =? 0) with false by lia. apply runs_ret.
    + eapply runs_q; [|rewrite zlen_cons; reflexivity]. replace (acc ++ z :: l) with ((acc ++ [z]) ++ l) by now rewrite <- app_assoc.
      eapply runs_q; [apply IH; [cbn in N; lia|exact F2|exact H2]|]. lia.
Qed.

Lemma offsets_range bs : forall q, Forall (fun b => forall p, 0 < zlen (b p)) bs -> 0 < q -> q + zlen (blocks q bs) < 4294967296 ->
  Forall (fun z => 0 < z < 4294967296) (offsets q bs).
Proof.
  induction bs as [|b bs IH]; intros q F Q L; [constructor|]. inversion F as [|? ? F1 F2]; subst. cbn [offsets blocks] in *.
  rewrite zlen_app in L. specialize (F1 q). pose proof (zlen_pos (blocks (q + zlen (b q)) bs)). constructor; [lia|]. apply IH; [exact F2|lia|lia].
Qed.
Lemma layer_pos fl p : 0 < zlen (layer_bytes fl p).
Proof. unfold layer_bytes. cbv zeta. rewrite zlen_app. unfold layer_head at 1. rewrite zlen_app, w32_len.
  match goal with |- 0 < 4 + zlen ?a + zlen ?b => pose proof (zlen_pos a); pose proof (zlen_pos b) end. lia. Qed.

(** the layers at their pointers *)
Lemma mapO_layers d (Q : flayer -> dlayer -> Prop) fls : forall q,
  (forall fl p, In fl fls -> holds s p (layer_bytes fl p) -> runsTo (readLayer fuel s f32op ptext d) p (Q fl)) ->
  holds s q (blocks q (map layer_bytes fls)) -> Forall (fun z => 0 < z < 4294967296) (offsets q (map layer_bytes fls)) ->
  exists dls, Forall2 Q fls dls /\ mapO (readLayerAt fuel s f32op ptext d) (offsets q (map layer_bytes fls)) = Ret (map (fun l => (l, None)) dls).
Proof.
  induction fls as [|fl fls IH]; intros q K H F.
  - exists []. split; [constructor|reflexivity].
  - cbn [map blocks offsets] in *. apply holds_split in H as [H1 H2]. inversion F as [|? ? F1 F2]; subst.
    destruct (IH _ ltac:(intros fl' p I; apply K; now right) H2 F2) as (dls & FD & E).
    destruct (K fl q ltac:(now left) H1) as (dl & q' & R & Hq). exists (dl :: dls). split; [now constructor|].
    cbn [mapO]. unfold readLayerAt at 1.
    assert (G : runs (gotoM q;;; readLayer fuel s f32op ptext d) 0 dl q') by (eapply runs_bind; [apply runs_goto; lia|exact R]).
    unfold runs in G. rewrite G. cbn [rErr]. rewrite E. reflexivity.
Qed.
Lemma first_err_none {A} (l : list A) : first_err (map (fun x => (x, None)) l) = None.
Proof. induction l; [reflexivity|assumption]. Qed.

Lemma file_blocks h fls : holds s 0 (file_bytes h fls) -> let bs := map layer_bytes fls in let q := zlen (file_head h) + 4 * zlen bs + 8 in
  holds s q (blocks q bs) /\ Forall (fun z => 0 < z < 4294967296) (offsets q bs).
Proof.
  intros H bs q. pose proof (holds_range _ _ _ H) as HR.
  unfold file_bytes in H, HR. cbv zeta in H, HR. fold bs in H, HR. fold q in H, HR. rewrite !zlen_app, zlen_w32s, zlen_offsets, !w32_len in HR.
  pose proof (zlen_pos bs) as Zb. pose proof (zlen_pos (blocks q bs)) as Zbl. pose proof (zlen_pos (file_head h)) as Zh.
  apply holds_split in H as [HA H]. apply holds_split in H as [HP H]. rewrite zlen_w32s, zlen_offsets in H.
  apply holds_split in H as [H0 H]. rewrite w32_len in H. apply holds_split in H as [_ H]. rewrite w32_len in H.
  replace (0 + zlen (file_head h) + 4 * zlen bs + 4 + 4) with q in H by (unfold q; lia). split; [exact H|].
  apply offsets_range; [|unfold q; lia|lia]. unfold bs. apply Forall_forall. intros b I p. apply in_map_iff in I as (fl & <- & _). apply layer_pos.
Qed.
(** the part before the layers, given the layers' places *)
Lemma decode_head h ptrs dc : good_fhead h -> Forall (fun z => 0 < z < 4294967296) ptrs -> zlen ptrs < 4294967296 ->
  holds s 0 (file_head h ++ flat_map w32 ptrs ++ w32 0) ->
  decodeImageFrom fuel s f32op ptext dc =
    bindO (mapO (readLayerAt fuel s f32op ptext (head_params h dc)) ptrs) (fun rs =>
    match first_err rs with
    | Some e => Ret (inl e)
    | None => match makeGroups (map fst rs) (mkRect 0 0 (fhW h) (fhH h)) with
              | inl e => Ret (inl e)
              | inr (os, m) => Ret (inr (makeImage os (map_order m)))
              end
    end).
Proof.
  intros GH OF LP H. pose proof GH as (W & Hh & B & PB).
  apply holds_split in H as [HA H].
  assert (EH : file_head h = magic ++ w32 (fhW h) ++ w32 (fhH h) ++ w32 (fhBase h) ++ palette_prop h ++ prop32 17 [1] ++ prop32 0 []) by reflexivity.
  assert (LH : zlen (file_head h) = 26 + zlen (palette_prop h) + 17).
  { rewrite EH, !zlen_app, !w32_len, !prop32_len. change (zlen magic) with 14. change (zlen [1]) with 1. change (zlen (@nil Z)) with 0. lia. }
  pose proof (zlen_pos (palette_prop h)) as Zp.
  rewrite EH in HA. pose proof (runs_readHeader _ HA) as RH.
  apply holds_split in HA as [_ HA]. change (0 + zlen magic) with 14 in HA.
  apply holds_split in HA as [A1 HA]. rewrite w32_len in HA. apply holds_split in HA as [A2 HA]. rewrite w32_len in HA.
  apply holds_split in HA as [A3 HA]. rewrite w32_len in HA.
  unfold decodeImageFrom. unfold runs in RH. rewrite RH.
  rewrite (runs_rdU _ _ A1), (runs_rdU _ _ A2), (runs_rdU _ _ A3). rewrite !u32_small by lia. cbn [Z.ltb Z.compare].
  pose proof (runs_imageProperties h _ GH HA) as RI. unfold runs in RI. rewrite RI.
  assert (RP : runs (readLayerPointers fuel s 0) (14 + 4 + 4 + 4 + zlen (palette_prop h) + 17) ptrs (14 + 4 + 4 + 4 + zlen (palette_prop h) + 17 + 4 * zlen ptrs + 4)).
  { unfold readLayerPointers. apply (runs_layerPointers ptrs _ []); [|exact OF|].
    - rewrite <- length_nat. lia.
    - replace (14 + 4 + 4 + 4 + zlen (palette_prop h) + 17) with (0 + zlen (file_head h)) by lia. exact H. }
  unfold runs in RP. rewrite RP. cbn [rErr]. fold (head_params h dc). unfold head_params.
  unfold image_Rect. rewrite !Z.min_l, !Z.max_r by lia. reflexivity.
Qed.
Lemma decode_file_any h fls dc rs : good_fhead h -> holds s 0 (file_bytes h fls) ->
  (let bs := map layer_bytes fls in let q := zlen (file_head h) + 4 * zlen bs + 8 in
   holds s q (blocks q bs) -> Forall (fun z => 0 < z < 4294967296) (offsets q bs) ->
   mapO (readLayerAt fuel s f32op ptext (head_params h dc)) (offsets q bs) = Ret rs) ->
  decodeImageFrom fuel s f32op ptext dc =
    match first_err rs with
    | Some e => Ret (inl e)
    | None => match makeGroups (map fst rs) (mkRect 0 0 (fhW h) (fhH h)) with
              | inl e => Ret (inl e)
              | inr (os, m) => Ret (inr (makeImage os (map_order m)))
              end
    end.
Proof.
  intros GH H K. destruct (file_blocks _ _ H) as [HB OF]. pose proof (K HB OF) as E. cbv zeta in E.
  pose proof (holds_range _ _ _ H) as HR. unfold file_bytes in H, HR. cbv zeta in H, HR.
  set (bs := map layer_bytes fls) in *. set (q := zlen (file_head h) + 4 * zlen bs + 8) in *.
  rewrite !zlen_app, zlen_w32s, zlen_offsets, !w32_len in HR.
  pose proof (zlen_pos bs) as Zb. pose proof (zlen_pos (blocks q bs)) as Zbl. pose proof (zlen_pos (file_head h)) as Zh.
  rewrite (decode_head h (offsets q bs) dc GH OF); [rewrite E; reflexivity|rewrite zlen_offsets; lia|].
  replace (file_head h ++ flat_map w32 (offsets q bs) ++ w32 0 ++ w32 0 ++ blocks q bs)
    with ((file_head h ++ flat_map w32 (offsets q bs) ++ w32 0) ++ w32 0 ++ blocks q bs) in H by now rewrite <- !app_assoc.
  exact (proj1 (holds_split _ _ _ _ H)).
Qed.
Lemma decode_file h fls dc (Q : flayer -> dlayer -> Prop) : good_fhead h -> holds s 0 (file_bytes h fls) ->
  (forall fl p, In fl fls -> holds s p (layer_bytes fl p) -> runsTo (readLayer fuel s f32op ptext (head_params h dc)) p (Q fl)) ->
  exists dls, Forall2 Q fls dls /\
    decodeImageFrom fuel s f32op ptext dc =
      match makeGroups dls (mkRect 0 0 (fhW h) (fhH h)) with
      | inl e => Ret (inl e)
      | inr (os, m) => Ret (inr (makeImage os (map_order m)))
      end.
Proof.
  intros GH H K.
  assert (exists dls, Forall2 Q fls dls /\ (let bs := map layer_bytes fls in let q := zlen (file_head h) + 4 * zlen bs + 8 in
   holds s q (blocks q bs) -> Forall (fun z => 0 < z < 4294967296) (offsets q bs) ->
   mapO (readLayerAt fuel s f32op ptext (head_params h dc)) (offsets q bs) = Ret (map (fun l => (l, None)) dls))) as (dls & FD & E).
  { pose proof (file_blocks h fls H) as [HB OF]. cbv zeta in HB, OF.
    destruct (mapO_layers (head_params h dc) Q fls _ K HB OF) as (dls & FD & E). exists dls. split; [exact FD|]. cbv zeta. intros _ _. exact E. }
  exists dls. split; [exact FD|]. rewrite (decode_file_any h fls dc _ GH H E). rewrite first_err_none, map_map, map_id. reflexivity.
Qed.
End File.
