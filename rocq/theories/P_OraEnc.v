(** C55, C56, C57, C61: the ORA encoder, and the decoder on what it wrote. *)
Require Import Verif.Base Verif.M_Color Verif.M_Composite Verif.M_Rect Verif.M_Image Verif.M_Groups Verif.M_Ora Verif.S_Ora
  Verif.L_List Verif.L_Groups Verif.L_Image Verif.L_Ora Verif.L_Ora2.
From Coq Require Import QArith Qabs String.
Open Scope Z_scope.
Open Scope list_scope.

(** ** C55 *)
(** In every archive Encode writes there is one stack.xml; its n-th <layer>
    element has exactly one src attribute, which is data/n.png; there is exactly
    one member of that name and it holds the n-th leaf's image. *)
Theorem C55_linked L rnd m out : oraEncode L rnd m = Some out ->
  exists ts, filter (named (str "stack.xml")) out = [(str "stack.xml", WXml ts)] /\
    List.length (sources ts) = List.length (leaves (content m)) /\
    forall k i, nth_error (leaves (content m)) k = Some i ->
      exists s p, data_name (Z.of_nat k + 1) s /\ nth_error (sources ts) k = Some [s] /\
        lib_png L i = Some p /\ filter (named s) out = [(s, WPng p)].
Proof.
  unfold oraEncode. destruct (writeLayers L (toLayer m) 0) as [[ds n']|] eqn:W; cbn [obind fst snd]; [|discriminate].
  destruct (lib_png L m) as [mg|] eqn:M; cbn [obind]; [|discriminate].
  destruct (lib_png L (thumbnail L rnd m _ _)) as [th|]; cbn [obind]; [|discriminate].
  pose proof (writeStack_sources L (toLayer m) 0) as SS. remember (fst (writeStack L (toLayer m) 0)) as tk eqn:TK.
  clear TK. intros E. apply (f_equal (fun o => match o with Some x => x | None => [] end)) in E. cbv beta iota in E. subst out.
  apply writeLayers_numbered in W. destruct W as [_ W].
  change (leaves_l (toLayer m)) with (leaves (content m)) in *. set (is := leaves (content m)) in *. clearbody is.
  assert (forall s, hd 0 s <> 100 -> filter (named s) ds = []) as ND.
  { intros s Hs. pose proof (numbered_names L _ ds 0 W ltac:(lia)) as NN. clear - NN Hs.
    induction ds as [|x ds IH]; [reflexivity|]. cbn [filter]. unfold named at 1.
    destruct (list_eq_dec Z.eq_dec (fst x) s) as [E|_].
    - destruct (NN x (or_introl eq_refl)) as (k & _ & Ek). rewrite Ek in E. apply dataName_hd in E; [contradiction|assumption].
    - apply IH. intros y Y. apply NN. right. assumption. }
  eexists. split.
  { cbn [filter]. rewrite filter_app, ND by (vm_compute; discriminate). reflexivity. }
  change (sources (TOther :: TStart (str "image") ?a :: ?r)) with (sources r).
  rewrite sources_app, SS, app_nil_r. split.
  { rewrite map_length. clear. generalize 0. induction (List.length is); intros z; cbn; congruence. }
  intros k i K. exists (dataName (Z.of_nat k + 1)).
  destruct (numbered_filter L is ds 0 k i ltac:(lia) W K) as (p & P & Fp). exists p.
  replace (0 + 1 + Z.of_nat k) with (Z.of_nat k + 1) in Fp by lia.
  split; [apply dataName_name; lia|]. split.
  { rewrite nth_error_map, seqZ_nth by (apply nth_error_Some; rewrite K; discriminate). cbn [option_map].
    do 3 f_equal. lia. }
  split; [assumption|]. cbn [filter]. unfold named at 1. cbn [fst].
  destruct (list_eq_dec Z.eq_dec (str "mimetype") (dataName (Z.of_nat k + 1))) as [E|_].
  { symmetry in E. apply dataName_hd in E; [contradiction|vm_compute; discriminate]. }
  rewrite filter_app, Fp. cbn [filter]. unfold named. cbn [fst].
  repeat match goal with |- context[list_eq_dec Z.eq_dec (str ?a) (dataName ?b)] =>
    destruct (list_eq_dec Z.eq_dec (str a) (dataName b)) as [E|_];
      [symmetry in E; apply dataName_hd in E; [contradiction|vm_compute; discriminate]|] end.
  reflexivity.
Qed.
Print Assumptions C55_linked.

(** libraries for the examples: every non-empty image can be written as a PNG *)
Definition ex_png (i : image) : option pic :=
  if rempty (image_Bounds i) then None
  else Some (mkPic (mkRect 0 0 (dx (image_Bounds i)) (dy (image_Bounds i))) KNRGBA (fun _ _ => Some (CAlpha 0))).
Definition ex_libs : libs := mkLibs ex_png (fun _ => str "0.5") (fun _ => Some 0) (fun s => s) (fun q => q).
Lemma ex_libs_ok : libs_ok ex_libs.
Proof.
  constructor; cbn [lib_png lib_fmt lib_xml lib_rnd ex_libs].
  - intros i E. unfold ex_png. rewrite E. reflexivity.
  - intros i p. unfold ex_png. destruct (rempty (image_Bounds i)); [discriminate|]. intros [= <-]. reflexivity.
  - intros _. printable.
  - intros _ H. discriminate H.
  - reflexivity.
  - intros q n E _. exact E.
  - intros q. assert (q - q == 0)%Q as -> by ring. change (Qabs 0) with 0%Q.
    apply Qmult_le_0_compat; [apply Qabs_nonneg|discriminate].
Qed.

Definition leaf_of (w h : Z) : image := ILeaf (mkPic (mkRect 0 0 w h) KNRGBA (fun x y => Some (CAlpha (u8 (x + y))))).
Definition ex_leaf (name : list Z) (x y w h : Z) (m : mode) (v : bool) (t : Z) : layer :=
  mkLayer name (mkRect x y (x + w) (y + h)) m v t (leaf_of w h).
(** a background, a group of two at (0,0), and a layer above *)
Definition ex_tree : image := IGroup [
  ex_leaf (str "top") 3 1 2 2 MMultiply true 0;
  mkLayer (str "group") (mkRect 0 0 6 4) MScreen false 0
    (IGroup [ex_leaf (str "a") 0 0 3 4 MNormal false 0; ex_leaf (str "b") 2 1 4 2 MHue false 0]);
  ex_leaf [] 0 0 8 5 MNormal false 0].

Definition ex_sources (o : option (list (list Z * written))) : list (list (list Z)) :=
  match o with Some ms => flat_map (fun x => match snd x with WXml ts => sources ts | _ => [] end) ms | None => [] end.
Definition ex_names (o : option (list (list Z * written))) : list (list Z) :=
  match o with Some ms => map fst ms | None => [] end.
Example C55_ex :
  ex_sources (oraEncode ex_libs (fun _ => 0) ex_tree) =
    [[str "data/1.png"]; [str "data/2.png"]; [str "data/3.png"]; [str "data/4.png"]] /\
  ex_names (oraEncode ex_libs (fun _ => 0) ex_tree) =
    [str "mimetype"; str "data/1.png"; str "data/2.png"; str "data/3.png"; str "data/4.png"; str "stack.xml";
     str "mergedimage.png"; str "Thumbnails/thumbnail.png"].
Proof. vm_compute. split; reflexivity. Qed.

(** ** C56 *)
Definition ints_of (m : image) : Prop :=
  is_int (dx (image_Bounds m)) /\ is_int (dy (image_Bounds m)) /\
  forall l, In l (layers (content m)) -> is_int (minX (lBounds l)) /\ is_int (minY (lBounds l)).

Lemma dims_written L w h : libs_ok L -> is_int w -> is_int h ->
  dims (map (fun kv => (fst kv, lib_xml L (snd kv)))
         [(str "version", str "0.0.3"); (str "w", itoa w); (str "h", itoa h)]) None None = inl (w, h).
Proof.
  intros OK W H. cbn [map fst snd dims].
  change (key_eqb (str "version") (str "w")) with false. change (key_eqb (str "version") (str "h")) with false.
  change (key_eqb (str "w") (str "w")) with true. change (key_eqb (str "h") (str "w")) with false.
  change (key_eqb (str "h") (str "h")) with true. cbv iota.
  rewrite !(xml_printable L OK) by apply itoa_printable. unfold atoi_err.
  rewrite !atoi_itoa by assumption. reflexivity.
Qed.

(** What Decode returns for every layered image that Encode wrote, exactly: the
    same tree with the attributes of [back]. *)
Theorem C56_exact L rnd m g out ms :
  libs_ok L -> content m = IGroup g -> ints_of m ->
  oraEncode L rnd m = Some out -> Forall2 (reads_back L) out ms ->
  exists ds, oraDecode L ms = Some (inl ds) /\ backs L (dx (image_Bounds m)) (dy (image_Bounds m)) 0 0 g ds.
Proof.
  intros OK C (IW & IH & IL) En Rb.
  destruct (encode_read L rnd m out ms En Rb) as (s & G & O & Ee & S & A & _).
  cbn [map xml_token] in S.
  destruct (decode_root L ms s _ _ _ _ G O S (dims_written L _ _ OK IW IH)) as (_ & _ & D).
  set (w := dx (image_Bounds m)) in *. set (h := dy (image_Bounds m)) in *.
  destruct (read_layer L ms w h OEOF OK (mkLayer [] ZR MNormal false 0 (IGroup g)) 0 0 0) as (d & B & R).
  { cbn [leaves_l]. rewrite <- C. exact A. }
  { intros k K. rewrite layers_l_image in K. destruct K as [<-|K]; [|apply IL; rewrite C; cbn [lImage] in K; exact K].
    cbn. unfold is_int. lia. }
  inversion B as [? ? ? ? ? H|? ? ? ? g0 k E1 E2 Bk _ ]; subst; [discriminate H|]. injection E1 as <-.
  cbn [lBounds minX minY ZR] in Bk. change (0 + Z.max 0 0) with 0 in Bk.
  destruct (R 1%nat [TEnd] [] [] eq_refl) as (f & Rf).
  rewrite (writeStack_group L (mkLayer [] ZR MNormal false 0 (IGroup g)) g 0 eq_refl) in Rf. cbn [fst map xml_token app] in Rf.
  rewrite map_app, <- app_assoc in Rf. cbn [map xml_token app] in Rf.
  destruct f as [|f]; [discriminate|]. cbn [readStack] in Rf.
  change (key_eqb (str "stack") (str "stack")) with true in Rf. cbv iota in Rf.
  assert (layerAttrs L (mkLayer [] ZR MNormal false 0 (IGroup g)) = []) as LA by reflexivity. rewrite LA in Rf.
  cbn [map processLayerAttrs laX laY la0] in Rf. change (0 + 0) with 0 in Rf.
  assert (fst (writeStack L (toLayer m) 0) = TStart (str "stack") [] :: fst (sgroup L g 0) ++ [TEnd]) as WS.
  { rewrite (writeStack_group L (toLayer m) g 0 C). reflexivity. }
  destruct (readStack f L ms (w, h) OEOF 0 0 (map (xml_token L) (fst (sgroup L g 0)) ++ TEnd :: [TEnd]))
    as [[[ls t']|]|] eqn:RS; try discriminate.
  exists ls. split.
  - eapply D.
    + rewrite WS. cbn [map xml_token app toStack]. rewrite key_eqb_refl. reflexivity.
    + rewrite Ee, !map_app, <- app_assoc. cbn [map xml_token app]. exact RS.
  - destruct (readStack f L ms (w, h) OEOF 0 0 t') as [[[l2 t2]|]|]; try discriminate.
    injection Rf as Ed _ _. rewrite <- Ed in E2. cbn [lImage placed] in E2. injection E2 as <-. exact Bk.
Qed.
Print Assumptions C56_exact.

(** rectangles on the canvas, or without content *)
Definition fits (w h : Z) (r : rect) : Prop :=
  r = ZR \/ (0 <= minX r /\ minX r < maxX r /\ maxX r <= w /\ 0 <= minY r /\ minY r < maxY r /\ maxY r <= h).
Lemma rempty_false r : minX r < maxX r -> minY r < maxY r -> rempty r = false.
Proof. intros. unfold rempty. destruct (Z.leb_spec (maxX r) (minX r)), (Z.leb_spec (maxY r) (minY r)); lia || reflexivity. Qed.
Lemma fits_union w h r s : fits w h r -> fits w h s -> fits w h (union r s).
Proof.
  intros [->|R] [->|S]; unfold union.
  - left. reflexivity.
  - right. exact S.
  - rewrite rempty_false by lia. right. exact R.
  - rewrite !rempty_false by lia. right. cbn. lia.
Qed.
Lemma fits_intersect w h r : fits w h r -> intersect r (mkRect 0 0 w h) = r.
Proof.
  intros [->|R]; unfold intersect; cbn [minX minY maxX maxY ZR].
  - rewrite Z.max_id. destruct (rempty _) eqn:E; [reflexivity|]. unfold rempty in E. cbn in E.
    destruct (Z.leb_spec (Z.min 0 w) 0); cbn in E; [discriminate|lia].
  - rewrite (Z.max_l (minX r)), (Z.max_l (minY r)), (Z.min_l (maxX r)), (Z.min_l (maxY r)) by lia.
    replace (mkRect (minX r) (minY r) (maxX r) (maxY r)) with r by (destruct r; reflexivity).
    rewrite rempty_false by lia. reflexivity.
Qed.
Lemma radd_0 r : radd r 0 0 = r. Proof. destruct r; unfold radd; cbn; f_equal; lia. Qed.
Lemma rsub_0 r : rsub r 0 0 = r. Proof. destruct r; unfold rsub; cbn; f_equal; lia. Qed.

Scheme expressible_mut := Minimality for expressible Sort Prop with expressibles_mut := Minimality for expressibles Sort Prop.

Lemma backs_same L w h : libs_ok L ->
  forall g, expressibles L w h g -> forall ds, backs L w h 0 0 g ds ->
  sames L g ds /\ group_Bounds ds = group_Bounds g /\ Forall (fun l => fits w h (lBounds l)) g.
Proof.
  intros OK.
  assert (forall g ds r, sames L g ds -> fold_left (fun r l => union r (lBounds l)) ds r = fold_left (fun r l => union r (lBounds l)) g r) as GB.
  { intros g. induction g as [|l g IH]; intros ds r S; inversion S as [|? d ? k D K]; subst; [reflexivity|].
    cbn [fold_left]. assert (lBounds d = lBounds l) as -> by (inversion D; assumption). apply IH. assumption. }
  assert (forall g r, fits w h r -> Forall (fun l => fits w h (lBounds l)) g ->
            fits w h (fold_left (fun r l => union r (lBounds l)) g r)) as FU.
  { clear. induction g as [|l g IH]; intros r R F; cbn [fold_left]; [exact R|]. inversion F; subst.
    apply IH; [apply fits_union|]; assumption. }
  apply (expressibles_mut L w h
    (fun l => forall d, back L w h 0 0 l d -> same L l d /\ fits w h (lBounds l))
    (fun g => forall ds, backs L w h 0 0 g ds -> sames L g ds /\ group_Bounds ds = group_Bounds g /\ Forall (fun l => fits w h (lBounds l)) g)).
  - intros l x y NG (Nm & Md & T) B X Y MX MY d Bk.
    inversion Bk as [? ? ? ? p _ P E Bd|? ? ? ? g k E]; subst; [|rewrite E in NG; discriminate].
    destruct Bd as (D1 & [D2 _] & D3 & D4 & D5).
    pose proof (png_bounds L OK _ _ P) as PB.
    assert (rempty (image_Bounds (lImage l)) = false) as NE.
    { destruct (rempty (image_Bounds (lImage l))) eqn:Q; [|reflexivity]. rewrite (png_empty L OK _ Q) in P. discriminate. }
    unfold rempty in NE. apply orb_false_iff in NE. destruct NE as [NX NY]. apply Z.leb_gt in NX, NY.
    assert (fits w h (lBounds l)) as Fi.
    { rewrite B. right. cbn. unfold dx, dy in *. lia. }
    split; [|exact Fi].
    eapply same_leaf; [exact NG|exact P|exact E|congruence| |auto| |congruence].
    + rewrite D5, E. cbn [image_Bounds]. rewrite PB, !Z.add_0_r, rsub_0.
      replace (radd _ _ _) with (lBounds l); [apply fits_intersect; exact Fi|].
      rewrite B. unfold radd. cbn. f_equal; lia.
    + rewrite D3, T. apply andb_true_r.
  - intros l g E (Nm & Md & T) B MX MY _ IH d Bk.
    inversion Bk as [? ? ? ? p NG|? ? ? ? g' k E1 E2 Bs Bd]; subst; [rewrite E in NG; discriminate|].
    rewrite E in E1. injection E1 as <-. rewrite MX, MY in Bs. change (0 + Z.max 0 0) with 0 in Bs.
    destruct (IH _ Bs) as (S & Q & Fi). destruct Bd as (D1 & [D2 _] & D3 & D4 & D5).
    assert (fits w h (group_Bounds g)) as Fg by (apply FU; [left; reflexivity|exact Fi]).
    split; [|rewrite B; exact Fg].
    eapply same_group; [exact E|exact E2|exact S|congruence| |auto| |congruence].
    + rewrite D5, E2, MX, MY. change (Z.max 0 0) with 0. cbn [image_Bounds].
      rewrite !Z.add_0_r, radd_0, rsub_0, Q, B. apply fits_intersect. exact Fg.
    + rewrite D3, T. apply andb_true_r.
  - intros ds Bk. inversion Bk; subst. repeat split; constructor.
  - intros l g _ IHl _ IHg ds Bk. inversion Bk as [|? ? ? d ? k Bl Bg]; subst.
    destruct (IHl _ Bl) as [Sl Fl]. destruct (IHg _ Bg) as (Sg & Qg & Fg).
    assert (sames L (l :: g) (d :: k)) as S by (constructor; assumption).
    split; [exact S|]. split; [apply GB; exact S|constructor; assumption].
Qed.

(** Decode(Encode(m)) has the same tree (order, nesting, names, bounds,
    visibility, opacity, modes, and the leaves as read back from their PNGs) for
    every layered image on a canvas at (0,0) whose layers are [expressible].
    Missing from the full statement: partly transparent layers, negative offsets,
    groups not at (0,0), images whose bounds do not start at (0,0); see the
    [_refuted] theorems. *)
Theorem C56_roundtrip_partial L rnd m g out ms :
  libs_ok L -> content m = IGroup g -> ints_of m ->
  expressibles L (dx (image_Bounds m)) (dy (image_Bounds m)) g ->
  oraEncode L rnd m = Some out -> Forall2 (reads_back L) out ms ->
  exists ds, oraDecode L ms = Some (inl ds) /\ sames L g ds.
Proof.
  intros OK C I X En Rb. destruct (C56_exact L rnd m g out ms OK C I En Rb) as (ds & D & B).
  exists ds. split; [exact D|]. apply (backs_same L _ _ OK g X ds B).
Qed.
Print Assumptions C56_roundtrip_partial.

(** a plain reading of an archive, without indentation *)
Definition read_member (L : libs) (x : list Z * written) : member :=
  match snd x with
  | WBytes b => mkMember (fst x) (zlen b) true b [] OEOF None
  | WXml ts => mkMember (fst x) 0 true [] (map (xml_token L) ts) OEOF None
  | WPng p => mkMember (fst x) 0 true [] [] OEOF (Some (ILeaf p))
  end.
Lemma read_member_ok L out : Forall2 (reads_back L) out (map (read_member L) out).
Proof.
  induction out as [|[s [b|ts|p]] out IH]; cbn [map]; constructor; auto; repeat split; auto.
  cbn [snd read_member mTokens]. induction ts as [|[n as_| |] ts IHt]; cbn; try (f_equal; exact IHt); auto.
Qed.

(** what can be observed of a tree without looking into pictures *)
Inductive obs := OLayer (name : list Z) (b : rect) (m : mode) (v : bool) (t : Z) (k : list obs).
Fixpoint observe (fuel : nat) (l : layer) : obs :=
  OLayer (lName l) (lBounds l) (lMode l) (lInvisible l) (lTransparency l)
    (match fuel, lImage l with S f, IGroup g => map (observe f) g | _, _ => [] end).
Definition round_trip (m : image) : option (res (list obs)) :=
  out <-? oraEncode ex_libs (fun _ => 0) m;;
  match oraDecode ex_libs (map (read_member ex_libs) out) with
  | Some (inl ds) => Some (inl (map (observe 5) ds))
  | Some (inr e) => Some (inr e)
  | None => None
  end.
Definition shape (m : image) : list obs := match m with IGroup g => map (observe 5) g | _ => [] end.

Example C56_ex :
  (exists g, ex_tree = IGroup g /\ expressibles ex_libs 8 5 g) /\ ints_of ex_tree /\
  round_trip ex_tree = Some (inl (shape ex_tree)).
Proof.
  split; [|split].
  - eexists. split; [reflexivity|].
    repeat match goal with
    | |- expressibles _ _ _ (_ :: _) => apply expr_cons
    | |- expressibles _ _ _ [] => apply expr_nil
    | |- expressible _ _ _ (ex_leaf _ ?x ?y _ _ _ _ _) =>
        apply (expr_leaf _ _ _ _ x y); [reflexivity|split; [reflexivity|split; [cbn; tauto|reflexivity]]|reflexivity|..]; vm_compute; discriminate
    | |- expressible _ _ _ _ => eapply expr_group; [reflexivity|split; [reflexivity|split; [cbn; tauto|reflexivity]]|vm_compute; reflexivity..|]
    end.
  - unfold ints_of. split; [vm_compute; split; discriminate|]. split; [vm_compute; split; discriminate|].
    cbn. intros l H. repeat (destruct H as [<-|H]; [vm_compute; repeat split; discriminate|]). contradiction.
  - vm_compute. reflexivity.
Qed.

(** The opacity of every partly transparent layer is lost. *)
Lemma backs_in L w h ox oy g ds l : backs L w h ox oy g ds -> In l g ->
  exists d, In d ds /\ back_attrs L w h ox oy l d /\ (sames L g ds -> same L l d).
Proof.
  intros B. induction B as [|ox oy k d g ds Bk _ IH]; intros I; [contradiction|].
  destruct I as [->|I].
  - exists d. split; [left; reflexivity|]. split; [inversion Bk; assumption|]. intros S. inversion S; assumption.
  - destruct (IH I) as (d' & D & A & S). exists d'. split; [right; assumption|]. split; [assumption|].
    intros SS. apply S. inversion SS; assumption.
Qed.

Theorem C56_opacity_refuted L rnd m g out ms ds l :
  libs_ok L -> content m = IGroup g -> ints_of m ->
  oraEncode L rnd m = Some out -> Forall2 (reads_back L) out ms -> oraDecode L ms = Some (inl ds) ->
  In l g -> lTransparency l <> 0 -> ~ sames L g ds.
Proof.
  intros OK C I En Rb D Il T S. destruct (C56_exact L rnd m g out ms OK C I En Rb) as (ds' & D' & B).
  rewrite D in D'. injection D' as <-.
  destruct (backs_in _ _ _ _ _ _ _ _ B Il) as (d & _ & (_ & _ & _ & Td & _) & Sd).
  specialize (Sd S). inversion Sd; subst; congruence.
Qed.
Print Assumptions C56_opacity_refuted.

(** A hidden, partly transparent layer is read back as visible. *)
Theorem C56_hidden_refuted L rnd m g out ms ds l :
  libs_ok L -> content m = IGroup g -> ints_of m ->
  oraEncode L rnd m = Some out -> Forall2 (reads_back L) out ms -> oraDecode L ms = Some (inl ds) ->
  In l g -> lInvisible l = true -> lTransparency l <> 0 ->
  exists d, In d ds /\ lName d = lib_xml L (lName l) /\ lInvisible d = false.
Proof.
  intros OK C I En Rb D Il V T. destruct (C56_exact L rnd m g out ms OK C I En Rb) as (ds' & D' & B).
  rewrite D in D'. injection D' as <-.
  destruct (backs_in _ _ _ _ _ _ _ _ B Il) as (d & Id & (N & _ & Vd & _ & _) & _).
  exists d. repeat split; auto. rewrite Vd, V. destruct (Z.eqb_spec (lTransparency l) 0); [contradiction|reflexivity].
Qed.
Print Assumptions C56_hidden_refuted.

(** A layer with a negative offset is moved. *)
Theorem C56_negative_refuted L rnd m g out ms ds l :
  libs_ok L -> content m = IGroup g -> ints_of m ->
  oraEncode L rnd m = Some out -> Forall2 (reads_back L) out ms -> oraDecode L ms = Some (inl ds) ->
  In l g -> minX (lBounds l) < 0 \/ minY (lBounds l) < 0 -> ~ sames L g ds.
Proof.
  intros OK C I En Rb D Il Neg S. destruct (C56_exact L rnd m g out ms OK C I En Rb) as (ds' & D' & B).
  rewrite D in D'. injection D' as <-.
  destruct (backs_in _ _ _ _ _ _ _ _ B Il) as (d & _ & (_ & _ & _ & _ & Bd) & Sd).
  specialize (Sd S). assert (lBounds d = lBounds l) as E by (inversion Sd; assumption).
  rewrite E in Bd. rewrite rsub_0 in Bd. unfold intersect in Bd.
  destruct (rempty _); rewrite Bd in Neg; cbn in Neg; lia.
Qed.
Print Assumptions C56_negative_refuted.

(** the three failures, and two more: the children of a group at (2,1) are moved
    by (-2,-1), and with them the group; the only layer, at (1,1), of an image
    whose bounds start there, is clipped to the canvas counted from (0,0) *)
Definition ex_opacity : image := IGroup [ex_leaf (str "a") 0 0 4 4 MNormal true 128].
Definition ex_negative : image := IGroup [ex_leaf (str "a") (-1) 0 4 4 MNormal false 0; ex_leaf (str "b") 0 0 4 4 MNormal false 0].
Definition ex_group_off : image := IGroup [
  mkLayer (str "g") (mkRect 2 1 5 3) MNormal false 0 (IGroup [ex_leaf (str "a") 0 0 3 2 MNormal false 0]);
  ex_leaf [] 0 0 8 8 MNormal false 0].
Definition ex_canvas_off : image := IGroup [ex_leaf (str "a") 1 1 4 4 MNormal false 0].

Theorem C56_refuted :
  round_trip ex_opacity = Some (inl [OLayer (str "a") (mkRect 0 0 4 4) MNormal false 0 []]) /\
  round_trip ex_negative = Some (inl [OLayer (str "a") (mkRect 0 0 4 4) MNormal false 0 []; OLayer (str "b") (mkRect 0 0 4 4) MNormal false 0 []]) /\
  shape ex_group_off = [OLayer (str "g") (mkRect 2 1 5 3) MNormal false 0 [OLayer (str "a") (mkRect 0 0 3 2) MNormal false 0 []];
                        OLayer [] (mkRect 0 0 8 8) MNormal false 0 []] /\
  round_trip ex_group_off = Some (inl
    [OLayer (str "g") (mkRect 0 0 3 2) MNormal false 0 [OLayer (str "a") (mkRect (-2) (-1) 1 1) MNormal false 0 []];
     OLayer [] (mkRect 0 0 8 8) MNormal false 0 []]) /\
  shape ex_canvas_off = [OLayer (str "a") (mkRect 1 1 5 5) MNormal false 0 []] /\
  round_trip ex_canvas_off = Some (inl [OLayer (str "a") (mkRect 1 1 4 4) MNormal false 0 []]).
Proof. vm_compute. repeat split; reflexivity. Qed.
Print Assumptions C56_refuted.

(** ** C57 *)
(** Whatever image Encode accepts, DecodeConfig accepts the file and reports the
    size of the image. *)
Theorem C57_config_partial L rnd m out ms :
  libs_ok L -> is_int (dx (image_Bounds m)) -> is_int (dy (image_Bounds m)) ->
  oraEncode L rnd m = Some out -> Forall2 (reads_back L) out ms ->
  oraConfig ms = inl (dx (image_Bounds m), dy (image_Bounds m)).
Proof.
  intros OK IW IH En Rb. destruct (encode_read L rnd m out ms En Rb) as (s & G & O & Ee & S & _).
  cbn [map xml_token] in S.
  apply (decode_root L ms s _ _ _ _ G O S (dims_written L _ _ OK IW IH)).
Qed.
Print Assumptions C57_config_partial.

(** But Decode rejects the file written for any image that is not layered: its
    <layer> is not inside a <stack>. *)
Theorem C57_refuted L rnd m out ms :
  libs_ok L -> is_int (dx (image_Bounds m)) -> is_int (dy (image_Bounds m)) ->
  is_group (content m) = false ->
  oraEncode L rnd m = Some out -> Forall2 (reads_back L) out ms ->
  oraDecode L ms = Some (inr OUnexpectedEOF).
Proof.
  intros OK IW IH NG En Rb. destruct (encode_read L rnd m out ms En Rb) as (s & G & O & Ee & S & _).
  cbn [map xml_token] in S.
  destruct (decode_root L ms s _ _ _ _ G O S (dims_written L _ _ OK IW IH)) as (_ & D & _).
  apply D. rewrite (writeStack_leaf L (toLayer m) 0 NG). cbn [fst map xml_token app toStack].
  change (key_eqb (str "layer") (str "stack")) with false. cbv iota. rewrite Ee. reflexivity.
Qed.
Print Assumptions C57_refuted.

Example C57_ex :
  (exists out, oraEncode ex_libs (fun _ => 0) (leaf_of 3 2) = Some out) /\
  round_trip (leaf_of 3 2) = Some (inr OUnexpectedEOF) /\
  (* while the same picture inside a layered image is accepted *)
  round_trip (IGroup [ex_leaf [] 0 0 3 2 MNormal false 0]) = Some (inl [OLayer [] (mkRect 0 0 3 2) MNormal false 0 []]).
Proof. split; [eexists; reflexivity|]. vm_compute. split; reflexivity. Qed.

(** ** C61 *)
Lemma op_names : forall op m, In (op, m) ora_ops -> forall m0, op_mode (str op) m0 = m.
Proof. intros op m H m0. cbn in H. repeat (destruct H as [[= <- <-]|H]; [reflexivity|]). contradiction. Qed.

(** Each name of the OpenRaster table is read as its Composite value, and any
    other name leaves the mode of the (new) layer, Normal. *)
Theorem C61_names :
  (forall op m, In (op, m) ora_ops -> forall m0, op_mode (str op) m0 = m) /\
  (forall s m0, ~ In s (map (fun om => str (fst om)) ora_ops) -> op_mode s m0 = m0).
Proof.
  split; [exact op_names|]. intros s m0 N. cbn [map ora_ops fst] in N. unfold op_mode.
  repeat match goal with |- context[key_eqb s ?o] =>
    rewrite (key_eqb_neq s o) by (intros ->; apply N; cbn; tauto) end.
  reflexivity.
Qed.
Print Assumptions C61_names.

(** Reading back any layered image: each layer keeps its mode if OpenRaster can
    name it, and is Normal otherwise. *)
Lemma back_modes L w h ox oy l d : back L w h ox oy l d ->
  Forall2 (fun l d => read_mode (lMode l) (lMode d)) (layers_l l) (layers_l d).
Proof.
  apply (back_mut L w h
    (fun _ _ l d => Forall2 (fun l d => read_mode (lMode l) (lMode d)) (layers_l l) (layers_l d))
    (fun _ _ g k => Forall2 (fun l d => read_mode (lMode l) (lMode d)) (flat_map layers_l g) (flat_map layers_l k))).
  - intros ? ? l0 d0 p NG _ E (_ & M & _). rewrite !layers_l_image, E. rewrite (layers_leaf _ NG).
    constructor; [assumption|constructor].
  - intros ? ? l0 d0 g k E1 E2 _ IH (_ & M & _). rewrite !layers_l_image, E1, E2, !layers_group. constructor; assumption.
  - constructor.
  - intros. cbn [flat_map]. apply Forall2_app; assumption.
Qed.

Theorem C61_modes L rnd m g out ms :
  libs_ok L -> content m = IGroup g -> ints_of m ->
  oraEncode L rnd m = Some out -> Forall2 (reads_back L) out ms ->
  exists ds, oraDecode L ms = Some (inl ds) /\
    Forall2 (fun l d => (nameable (lMode l) -> lMode d = lMode l) /\ (~ nameable (lMode l) -> lMode d = MNormal))
            (layers (IGroup g)) (layers (IGroup ds)).
Proof.
  intros OK C I En Rb. destruct (C56_exact L rnd m g out ms OK C I En Rb) as (ds & D & B).
  exists ds. split; [exact D|]. rewrite !layers_group. clear - B.
  induction B; cbn [flat_map]; [constructor|]. apply Forall2_app; [eapply back_modes; eassumption|assumption].
Qed.
Print Assumptions C61_modes.

Example C61_ex :
  nameable MHue /\ ~ nameable MDissolve /\
  round_trip (IGroup [ex_leaf [] 0 0 1 1 MHue false 0; ex_leaf [] 0 0 1 1 MDissolve false 0; ex_leaf [] 0 0 1 1 MPlus false 0]) =
  Some (inl [OLayer [] (mkRect 0 0 1 1) MHue false 0 []; OLayer [] (mkRect 0 0 1 1) MNormal false 0 [];
             OLayer [] (mkRect 0 0 1 1) MPlus false 0 []]).
Proof.
  split; [cbn; tauto|]. split; [|vm_compute; reflexivity].
  intros H. cbn in H. repeat (destruct H as [H|H]; [discriminate|]). contradiction.
Qed.
