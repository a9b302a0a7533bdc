(** C38 encoded files are hole-free and well linked. *)
From Coq Require Import Permutation ZifyBool ZifyNat.
Require Import Verif.Base Verif.L_List Verif.M_Color Verif.M_Composite Verif.M_Rect Verif.M_Image Verif.M_Reader
  Verif.M_Decode Verif.M_Encode Verif.S_Encode Verif.S_File Verif.S_Layout Verif.S_Tree Verif.S_Linked
  Verif.L_Emit Verif.L_Layout Verif.L_Grid Verif.L_Linked.

(** [encodable] for any image: what the lemmas of L_Layout ask for *)
Lemma encode_any wr rnd wtext i e calls : faultless wr -> encode wr rnd wtext i = Some (e, calls) -> encodable i ->
  e = None /\ exists h fls, zlen fls = layers_of i /\ covers calls [(0, file_bytes h fls)] /\
    fhW h = dx (image_Bounds (match i with ILayer l => IGroup [l] | i => i end)) /\
    fhH h = dy (image_Bounds (match i with ILayer l => IGroup [l] | i => i end)) /\
    Forall sound_layer fls /\ Forall2 record_of (all_layers i) fls.
Proof.
  intros FL E EN.
  assert (HD : forall i, fhW (head_of i) = dx (image_Bounds i) /\ fhH (head_of i) = dy (image_Bounds i)).
  { intros j. unfold head_of. destruct (colour_type (image_ColorModel j)) as [[ct f] pal]. auto. }
  assert (GR : forall g, encode wr rnd wtext (IGroup g) = Some (e, calls) -> encodable (IGroup g) ->
    e = None /\ exists h fls, zlen fls = layers_of (IGroup g) /\ covers calls [(0, file_bytes h fls)] /\
    fhW h = dx (image_Bounds (IGroup g)) /\ fhH h = dy (image_Bounds (IGroup g)) /\
    Forall sound_layer fls /\ Forall2 record_of (all_layers (IGroup g)) fls).
  { intros g E' [W L]. destruct (encode_group wr rnd wtext FL g e calls E' W L) as (-> & fls & n' & F & Z & C). split; [reflexivity|].
    exists (head_of (IGroup g)), fls. split; [exact Z|]. split; [exact C|]. destruct (HD (IGroup g)). split; [auto|]. split; [auto|].
    split; [eapply flats_sound; eassumption|]. eapply flats_records; eassumption. }
  assert (PL : plain i -> encodable i -> e = None /\ exists h fls, zlen fls = 1 /\ covers calls [(0, file_bytes h fls)] /\
    fhW h = dx (image_Bounds i) /\ fhH h = dy (image_Bounds i) /\
    Forall sound_layer fls /\ Forall2 record_of [(wrapped i, 0, 0, [])] fls).
  { intros P EN'. assert (W : writable (wrapped i)).
    { unfold wrapped. cbn [writable]. destruct i; try contradiction; destruct EN' as [A B]; auto. }
    destruct (encode_plain wr rnd wtext FL i e calls E P W) as (-> & fls & n' & F & Z & C). split; [reflexivity|].
    exists (head_of i), fls. split; [exact Z|]. split; [exact C|]. destruct (HD i). split; [auto|]. split; [auto|].
    split; [eapply flat_sound; eassumption|].
    rewrite <- (preorder_leaf (wrapped i) 0 0 []) by (destruct i; try contradiction; reflexivity). eapply flat_records; eassumption. }
  destruct i as [p|g|j m|j t|l]; try (exact (PL Logic.I EN)).
  - exact (GR g E EN).
  - rewrite encode_layer in E. destruct EN as [W L].
    destruct (GR [l] E) as (-> & h & fls & Z & R); [split; cbn; [auto|lia]|]. split; [reflexivity|]. exists h, fls.
    split; [rewrite Z; cbn; lia|exact R].
Qed.

(** On a destination where writes succeed, for any encodable image: Encode succeeds; every
    offset from 0 to the end of the file is written by exactly one call, and none beyond; and
    what is written is the layout [file_bytes] of the image's canvas and layers, one record
    for each layer in preorder, so that - up to the 4 GiB a pointer can reach - the file is
    well linked. *)
Theorem C38_hole_free_linked wr rnd wtext i e calls : faultless wr ->
  encode wr rnd wtext i = Some (e, calls) -> encodable i ->
  e = None /\ exists h fls,
    let f := file_bytes h fls in
    let ws := map landed calls in
    (forall a, stored ws a = znth f a) /\
    (forall a, touched ws a = if (0 <=? a) && (a <? zlen f) then 1 else 0) /\
    fhW h = dx (image_Bounds (match i with ILayer l => IGroup [l] | i => i end)) /\
    fhH h = dy (image_Bounds (match i with ILayer l => IGroup [l] | i => i end)) /\
    zlen fls = layers_of i /\ Forall2 record_of (all_layers i) fls /\
    (zlen f <= 4294967296 -> linked_file f h fls).
Proof.
  intros FL E EN. destruct (encode_any _ _ _ _ _ _ FL E EN) as (-> & h & fls & Z & C & W & H & S & R).
  split; [reflexivity|]. exists h, fls. cbv zeta. destruct (covers_laid _ _ _ C) as (cs & P & L).
  apply (Permutation_map landed) in P.
  split; [exact (laid_stored _ _ _ P L)|]. split; [intros a; rewrite (touched_perm _ _ a P); exact (laid_touched _ _ _ L a)|].
  do 4 (split; [assumption|]). now apply linked_bytes.
Qed.
Print Assumptions C38_hole_free_linked.

(** two layers, the second a group of a layer *)
Definition px1 (v : Z) : pic := mkPic (mkRect 0 0 1 1) KNRGBA (fun x y => Some (CNRGBA v 2 3 255)).
Definition tree38 : image := IGroup [
  mkLayer [97] (mkRect 0 0 1 1) MNormal false 0 (IMasked (ILeaf (px1 1)) (mkGray (mkRect 0 0 1 1) (fun _ _ => 7)));
  mkLayer [98] (mkRect 0 0 2 1) MNormal true 10 (IGroup [mkLayer [] (mkRect 1 0 2 1) MScreen false 0 (ILeaf (px1 9))])].
(** 159 calls, 539 bytes; the tile pointer of the last layer and the tile it points to *)
Example C38_ex : exists calls,
  encode (fun _ _ p => (zlen p, None)) (fun _ => 0) (fun _ _ _ => None) tree38 = Some (None, calls) /\
  encodable tree38 /\ layers_of tree38 = 3 /\ zlen calls = 159 /\
  map (stored (map landed calls)) [523; 524; 525; 526] = map Some (word 531) /\
  map (stored (map landed calls)) [531; 532; 533; 534; 535; 536; 537; 538; 539] =
    map Some [0; 9; 0; 2; 0; 3; 0; 255] ++ [None].
Proof.
  eexists. split; [vm_compute; reflexivity|]. split; [|repeat split; vm_compute; reflexivity].
  cbn. unfold fits. repeat split; vm_compute; discriminate || reflexivity.
Qed.
