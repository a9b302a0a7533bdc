(** Lemmas about the ORA encoder and what is read back. *)
Require Import Verif.Base Verif.M_Color Verif.M_Composite Verif.M_Rect Verif.M_Image Verif.M_Groups Verif.M_Ora Verif.S_Ora
  Verif.L_List Verif.L_Groups Verif.L_Image Verif.L_Ora.
From Coq Require Import String ZifyBool.
Open Scope Z_scope.
Open Scope list_scope.

(** ** the two traversals *)
Fixpoint wgroup (L : libs) (g : list layer) (n : Z) : option (list (list Z * written) * Z) :=
  match g with
  | [] => Some ([], n)
  | l :: g => r <-? writeLayers L l n;; s <-? wgroup L g (snd r);; Some (fst r ++ fst s, snd s)
  end.
Fixpoint sgroup (L : libs) (g : list layer) (n : Z) : list token * Z :=
  match g with
  | [] => ([], n)
  | l :: g => let r := writeStack L l n in let s := sgroup L g (snd r) in (fst r ++ fst s, snd s)
  end.

Lemma writeLayers_group L l g n : lImage l = IGroup g -> writeLayers L l n = wgroup L g n.
Proof.
  destruct l as [nm b m v t i]. cbn [lImage]. intros ->. cbn [writeLayers lImage].
  revert n. induction g as [|l g IH]; intros n; [reflexivity|]. cbn [wgroup].
  destruct (writeLayers L l n) as [r|]; cbn [obind]; [|reflexivity]. rewrite IH. reflexivity.
Qed.
Lemma writeLayers_leaf L l n : is_group (lImage l) = false ->
  writeLayers L l n = p <-? lib_png L (lImage l);; Some ([(dataName (n + 1), WPng p)], n + 1).
Proof. destruct l as [nm b m v t []]; cbn; intros H; try discriminate; reflexivity. Qed.
Lemma writeStack_group L l g n : lImage l = IGroup g ->
  writeStack L l n = (TStart (str "stack") (layerAttrs L l) :: fst (sgroup L g n) ++ [TEnd], snd (sgroup L g n)).
Proof.
  destruct l as [nm b m v t i]. cbn [lImage]. intros ->. cbn [writeStack lImage].
  assert (forall n, (fix group (g : list layer) (n : Z) {struct g} : list token * Z :=
               match g with
               | [] => ([], n)
               | l :: g => let r := writeStack L l n in let s := group g (snd r) in (fst r ++ fst s, snd s)
               end) g n = sgroup L g n) as G; [|rewrite <- (G n); reflexivity].
  induction g as [|l g IH]; intros k; [reflexivity|]. cbn [sgroup]. cbv zeta. rewrite <- (IH (snd (writeStack L l k))). reflexivity.
Qed.
Lemma writeStack_leaf L l n : is_group (lImage l) = false ->
  writeStack L l n = ([TStart (str "layer") (layerAttrs L l ++ [(str "src", dataName (n + 1))]); TEnd], n + 1).
Proof. destruct l as [nm b m v t []]; cbn; intros H; try discriminate; reflexivity. Qed.

Lemma leaves_group g : leaves (IGroup g) = flat_map leaves_l g.
Proof. cbn [leaves]. induction g as [|l g IH]; [reflexivity|]. cbn [flat_map]. rewrite IH. reflexivity. Qed.
Lemma leaves_leaf i : is_group i = false -> leaves i = [i].
Proof. destruct i; cbn; intros; try discriminate; reflexivity. Qed.
Lemma leaves_l_image l : leaves_l l = leaves (lImage l).
Proof. destruct l; reflexivity. Qed.
Lemma layers_group g : layers (IGroup g) = flat_map layers_l g.
Proof. cbn [layers]. induction g as [|l g IH]; [reflexivity|]. cbn [flat_map]. rewrite IH. reflexivity. Qed.
Lemma layers_l_image l : layers_l l = l :: layers (lImage l).
Proof. destruct l; reflexivity. Qed.
Lemma layers_leaf i : is_group i = false -> layers i = [].
Proof. destruct i; cbn; intros; try discriminate; reflexivity. Qed.

(** induction over layers, by their image *)
Lemma layer_rect' (Q : layer -> Prop) :
  (forall l, is_group (lImage l) = false -> Q l) ->
  (forall l g, lImage l = IGroup g -> Forall Q g -> Q l) ->
  forall l, Q l.
Proof.
  intros HL HG.
  apply (layer_image_ind (fun i => forall l, lImage l = i -> Q l) Q).
  - intros p l E. apply HL. rewrite E. reflexivity.
  - intros g F l E. eapply HG; eassumption.
  - intros i m _ l E. apply HL. rewrite E. reflexivity.
  - intros i t _ l E. apply HL. rewrite E. reflexivity.
  - intros k _ l E. apply HL. rewrite E. reflexivity.
  - intros nm b m v t i H. apply H. reflexivity.
Qed.

(** members numbered from n+1 on, one per leaf *)
Fixpoint numbered (L : libs) (n : Z) (is : list image) (ds : list (list Z * written)) : Prop :=
  match is, ds with
  | [], [] => True
  | i :: is, (s, w) :: ds => s = dataName (n + 1) /\ (exists p, lib_png L i = Some p /\ w = WPng p) /\ numbered L (n + 1) is ds
  | _, _ => False
  end.
Lemma numbered_app L is is' ds ds' : forall n, numbered L n is ds -> numbered L (n + zlen is) is' ds' ->
  numbered L n (is ++ is') (ds ++ ds').
Proof.
  revert ds. induction is as [|i is IH]; intros [|[s w] ds] n; cbn [numbered app]; try contradiction.
  - rewrite zlen_nil, Z.add_0_r. auto.
  - intros (-> & P & N) N'. repeat split; auto. apply IH; auto.
    rewrite zlen_cons in N'. replace (n + 1 + zlen is) with (n + (1 + zlen is)) by lia. assumption.
Qed.

Lemma writeLayers_numbered L l : forall n ds n', writeLayers L l n = Some (ds, n') ->
  n' = n + zlen (leaves_l l) /\ numbered L n (leaves_l l) ds.
Proof.
  induction l as [l H|l g E F] using layer_rect'; intros n ds n'; rewrite leaves_l_image.
  - rewrite writeLayers_leaf, leaves_leaf by assumption. destruct (lib_png L (lImage l)) as [p|] eqn:P; cbn [obind]; [|discriminate].
    intros [= <- <-]. split; [reflexivity|]. cbn. eauto.
  - rewrite (writeLayers_group L l g n E), E, leaves_group. clear E. revert n ds n'.
    induction F as [|k g Hk _ IH]; intros n ds n'; cbn [wgroup flat_map].
    + intros [= <- <-]. split; [rewrite zlen_nil; lia|exact I].
    + destruct (writeLayers L k n) as [[d1 n1]|] eqn:W; cbn [obind fst snd]; [|discriminate].
      destruct (wgroup L g n1) as [[d2 n2]|] eqn:G; cbn [obind fst snd]; [|discriminate].
      intros [= <- <-]. apply Hk in W. apply IH in G. destruct W as [-> W], G as [-> G].
      rewrite zlen_app. split; [lia|]. apply numbered_app; assumption.
Qed.

Lemma writeStack_num L l : forall n, snd (writeStack L l n) = n + zlen (leaves_l l).
Proof.
  induction l as [l H|l g E F] using layer_rect'; intros n; rewrite leaves_l_image.
  - rewrite writeStack_leaf, leaves_leaf by assumption. reflexivity.
  - rewrite (writeStack_group L l g n E), E, leaves_group. cbn [snd]. clear E. revert n.
    induction F as [|k g Hk _ IH]; intros n; cbn [sgroup flat_map fst snd].
    + rewrite zlen_nil. lia.
    + rewrite IH, Hk, zlen_app. lia.
Qed.

Lemma writeStack_noother L l : forall n, strip (fst (writeStack L l n)) = fst (writeStack L l n).
Proof.
  assert (forall a b, strip (a ++ b) = strip a ++ strip b) as SA by (intros; apply filter_app).
  induction l as [l H|l g E F] using layer_rect'; intros n.
  - rewrite writeStack_leaf by assumption. reflexivity.
  - rewrite (writeStack_group L l g n E). cbn [fst]. change (strip (?t :: ?r)) with (t :: strip r).
    cbn. f_equal. fold strip. change (filter _ (?a ++ ?b)) with (strip (a ++ b)). rewrite SA. f_equal. clear E. revert n.
    induction F as [|k g Hk _ IH]; intros n; cbn [sgroup fst]; [reflexivity|]. rewrite SA, Hk, IH. reflexivity.
Qed.

(** ** sources *)
Lemma sources_app a b : sources (a ++ b) = sources a ++ sources b.
Proof.
  induction a as [|[n as_| |] a IH]; cbn [app sources]; auto.
  destruct (list_eq_dec Z.eq_dec n (str "layer")); [cbn [app]; f_equal|]; exact IH.
Qed.
Lemma attr_app k a b : attr k (a ++ b) = attr k a ++ attr k b.
Proof. unfold attr. rewrite filter_app, map_app. reflexivity. Qed.
Lemma attr_layerAttrs L l : attr "src" (layerAttrs L l) = [].
Proof.
  unfold layerAttrs. rewrite !attr_app.
  destruct (lName l); destruct (0 <? minX (lBounds l)); destruct (0 <? minY (lBounds l)); destruct (lInvisible l);
    destruct (lTransparency l =? 0); destruct (lMode l); reflexivity.
Qed.

Fixpoint seqZ (n : Z) (k : nat) : list Z := match k with O => [] | S k => (n + 1) :: seqZ (n + 1) k end.
Lemma seqZ_app a b : forall n, seqZ n (a + b) = seqZ n a ++ seqZ (n + Z.of_nat a) b.
Proof.
  induction a as [|a IH]; intros n; cbn [Nat.add seqZ app].
  - f_equal. lia.
  - rewrite IH. do 3 f_equal. lia.
Qed.
Lemma seqZ_nth k : forall n j, (j < k)%nat -> nth_error (seqZ n k) j = Some (n + 1 + Z.of_nat j).
Proof.
  induction k as [|k IH]; intros n j Hj; [lia|]. destruct j as [|j]; cbn [seqZ nth_error].
  - f_equal. lia.
  - rewrite IH by lia. f_equal. lia.
Qed.

Lemma writeStack_sources L l : forall n,
  sources (fst (writeStack L l n)) = map (fun k => [dataName k]) (seqZ n (List.length (leaves_l l))).
Proof.
  induction l as [l H|l g E F] using layer_rect'; intros n; rewrite leaves_l_image.
  - rewrite writeStack_leaf, leaves_leaf by assumption. cbn [fst sources List.length seqZ map].
    destruct (list_eq_dec Z.eq_dec (str "layer") (str "layer")); [|contradiction].
    rewrite attr_app, attr_layerAttrs. reflexivity.
  - rewrite (writeStack_group L l g n E), E, leaves_group. cbn [fst sources].
    destruct (list_eq_dec Z.eq_dec (str "stack") (str "layer")) as [K|_]; [discriminate K|].
    rewrite sources_app. cbn [sources]. rewrite app_nil_r. clear E. revert n.
    induction F as [|k g Hk _ IH]; intros n; cbn [sgroup flat_map fst].
    + reflexivity.
    + rewrite sources_app, Hk, IH, app_length, seqZ_app, map_app, writeStack_num. reflexivity.
Qed.

(** ** attributes read back *)
Definition xattrs (L : libs) (as_ : list (list Z * list Z)) := map (fun kv => (fst kv, lib_xml L (snd kv))) as_.
Lemma process_app L a b : forall s, processLayerAttrs L (a ++ b) s =
  match processLayerAttrs L a s with inl s => processLayerAttrs L b s | inr e => inr e end.
Proof.
  induction a as [|[k v] a IH]; intros s; cbn [app processLayerAttrs]; [reflexivity|].
  destruct (layerAttr L k v s) as [s'|]; cbn [rbind]; [apply IH|reflexivity].
Qed.

Ltac printable := repeat constructor; vm_compute; discriminate.
Lemma xml_op L m : libs_ok L -> lib_xml L (mode_op m) = mode_op m.
Proof. intros OK. apply (xml_printable L OK). destruct m; printable. Qed.

Definition ora_mode (m : mode) : mode := match mode_op m with [] => MNormal | op => op_mode op MNormal end.
Lemma ora_mode_spec m : read_mode m (ora_mode m).
Proof.
  unfold read_mode, nameable, ora_ops. split.
  - intros H. repeat (destruct H as [<-|H]; [vm_compute; reflexivity|]). contradiction.
  - intros N. destruct m; try reflexivity; exfalso; apply N; cbn; tauto.
Qed.
Lemma read_mode_ora m m' : read_mode m m' <-> m' = ora_mode m.
Proof.
  split; [|intros ->; apply ora_mode_spec]. intros [A B]. destruct (ora_mode_spec m) as [A' B'].
  assert (nameable m \/ ~ nameable m) as [N|N].
  { unfold nameable, ora_ops. cbn. destruct m; try tauto; right; intros H; repeat (destruct H as [H|H]; [discriminate|]); assumption. }
  - rewrite A, A'; auto.
  - rewrite B, B'; auto.
Qed.

Lemma process_layer L l : libs_ok L -> is_int (minX (lBounds l)) -> is_int (minY (lBounds l)) ->
  processLayerAttrs L (xattrs L (layerAttrs L l)) la0 =
  inl (mkLA (lib_xml L (lName l)) (Z.max 0 (minX (lBounds l))) (Z.max 0 (minY (lBounds l))) 0
            (lInvisible l && (lTransparency l =? 0)) (ora_mode (lMode l)) []).
Proof.
  intros OK IX IY. unfold layerAttrs, xattrs. rewrite !map_app.
  set (X := minX (lBounds l)) in *. set (Y := minY (lBounds l)) in *.
  assert (processLayerAttrs L
     (map (fun kv => (fst kv, lib_xml L (snd kv))) (match lName l with [] => [] | n => [(str "name", n)] end)) la0 =
     inl (mkLA (lib_xml L (lName l)) 0 0 0 false MNormal [])) as Hn.
  { destruct (lName l) as [|c nm]; cbn [map processLayerAttrs].
    - rewrite (xml_printable L OK); [reflexivity|constructor].
    - cbn [fst snd]. reflexivity. }
  rewrite process_app, Hn. clear Hn.
  assert (forall nm, processLayerAttrs L (map (fun kv => (fst kv, lib_xml L (snd kv)))
            (if 0 <? X then [(str "x", itoa X)] else [])) (mkLA nm 0 0 0 false MNormal []) =
            inl (mkLA nm (Z.max 0 X) 0 0 false MNormal [])) as Hx.
  { intros nm. destruct (Z.ltb_spec 0 X); cbn [map processLayerAttrs fst snd].
    - rewrite (xml_printable L OK) by apply itoa_printable. unfold layerAttr.
      change (key_eqb (str "x") (str "name")) with false. change (key_eqb (str "x") (str "x")) with true. cbv iota.
      unfold atoi_err. rewrite atoi_itoa by assumption. cbn [rbind]. rewrite Z.max_r by lia. reflexivity.
    - rewrite Z.max_l by lia. reflexivity. }
  rewrite process_app, Hx. clear Hx.
  assert (forall nm x, processLayerAttrs L (map (fun kv => (fst kv, lib_xml L (snd kv)))
            (if 0 <? Y then [(str "y", itoa Y)] else [])) (mkLA nm x 0 0 false MNormal []) =
            inl (mkLA nm x (Z.max 0 Y) 0 false MNormal [])) as Hy.
  { intros nm x. destruct (Z.ltb_spec 0 Y); cbn [map processLayerAttrs fst snd].
    - rewrite (xml_printable L OK) by apply itoa_printable. unfold layerAttr.
      change (key_eqb (str "y") (str "name")) with false. change (key_eqb (str "y") (str "x")) with false.
      change (key_eqb (str "y") (str "y")) with true. cbv iota.
      unfold atoi_err. rewrite atoi_itoa by assumption. cbn [rbind]. rewrite (Z.max_r 0 Y) by lia. reflexivity.
    - rewrite (Z.max_l 0 Y) by lia. reflexivity. }
  rewrite process_app, Hy. clear Hy.
  assert (forall a, processLayerAttrs L (map (fun kv => (fst kv, lib_xml L (snd kv)))
            (if lInvisible l then [(str "visibility", str "hidden")] else [])) a =
            inl (mkLA (laName a) (laX a) (laY a) (laTransp a) (if lInvisible l then true else laInv a) (laMode a) (laSrc a))) as Hi.
  { intros [nm x y t i m s]. destruct (lInvisible l); cbn [map processLayerAttrs fst snd]; [|reflexivity].
    rewrite (xml_printable L OK) by printable. reflexivity. }
  rewrite process_app, Hi. clear Hi. cbn [laName laX laY laTransp laInv laMode laSrc].
  assert (forall a, processLayerAttrs L (map (fun kv => (fst kv, lib_xml L (snd kv)))
            (if lTransparency l =? 0 then [] else [(str "visibility", lib_fmt L (lTransparency l))])) a =
            inl (mkLA (laName a) (laX a) (laY a) (laTransp a) (if lTransparency l =? 0 then laInv a else false) (laMode a) (laSrc a))) as Ht.
  { intros [nm x y t i m s]. destruct (lTransparency l =? 0); cbn [map processLayerAttrs fst snd]; [reflexivity|].
    rewrite (xml_printable L OK) by apply (fmt_printable L OK). unfold layerAttr.
    change (key_eqb (str "visibility") (str "name")) with false. change (key_eqb (str "visibility") (str "x")) with false.
    change (key_eqb (str "visibility") (str "y")) with false. change (key_eqb (str "visibility") (str "opacity")) with false.
    change (key_eqb (str "visibility") (str "visibility")) with true. cbv iota. cbn [rbind processLayerAttrs].
    rewrite (key_eqb_neq _ _ (fmt_hidden L OK _)). reflexivity. }
  rewrite process_app, Ht. clear Ht. cbn [laName laX laY laTransp laInv laMode laSrc].
  assert (forall nm x y t i s, processLayerAttrs L (map (fun kv => (fst kv, lib_xml L (snd kv)))
            (match mode_op (lMode l) with [] => [] | op => [(str "composite-op", op)] end)) (mkLA nm x y t i MNormal s) =
            inl (mkLA nm x y t i (ora_mode (lMode l)) s)) as Hm.
  { intros. unfold ora_mode. pose proof (xml_op L (lMode l) OK) as XO.
    destruct (mode_op (lMode l)) as [|c op]; cbn [map processLayerAttrs fst snd]; [reflexivity|].
    rewrite XO. reflexivity. }
  rewrite Hm. f_equal. f_equal. destruct (lInvisible l), (lTransparency l =? 0); reflexivity.
Qed.

(** ** the tokens of a layer, read back *)
(** every leaf can be found in the archive *)
Fixpoint avail (L : libs) (ms : list member) (n : Z) (is : list image) : Prop :=
  match is with
  | [] => True
  | i :: is => (exists p, lib_png L i = Some p /\ findImage ms (dataName (n + 1)) = inl (ILeaf p)) /\ avail L ms (n + 1) is
  end.
Lemma avail_app L ms a b : forall n, avail L ms n (a ++ b) <-> avail L ms n a /\ avail L ms (n + zlen a) b.
Proof.
  induction a as [|i a IH]; intros n; cbn [app avail].
  - rewrite zlen_nil, Z.add_0_r. tauto.
  - rewrite IH, zlen_cons. replace (n + 1 + zlen a) with (n + (1 + zlen a)) by lia. tauto.
Qed.

Scheme back_mut := Minimality for back Sort Prop with backs_mut := Minimality for backs Sort Prop.

Lemma read_layer L ms w h e : libs_ok L -> forall l ox oy n,
  avail L ms n (leaves_l l) ->
  (forall k, In k (layers_l l) -> is_int (minX (lBounds k)) /\ is_int (minY (lBounds k))) ->
  exists d, back L w h ox oy l d /\
    forall f rest ls rest', readStack f L ms (w, h) e ox oy rest = Some (inl (ls, rest')) ->
    exists f', readStack f' L ms (w, h) e ox oy (map (xml_token L) (fst (writeStack L l n)) ++ rest) =
               Some (inl (d :: ls, rest')).
Proof.
  intros OK l. induction l as [l H|l g E F] using layer_rect'; intros ox oy n A I.
  - rewrite leaves_l_image, leaves_leaf in A by assumption. destruct A as [(p & P & Fd) _].
    destruct (I l) as [IX IY]; [rewrite layers_l_image; left; reflexivity|].
    exists (placed (w, h) ox oy
             (mkLA (lib_xml L (lName l)) (Z.max 0 (minX (lBounds l))) (Z.max 0 (minY (lBounds l))) 0
                (lInvisible l && (lTransparency l =? 0)) (ora_mode (lMode l)) (dataName (n + 1))) (ILeaf p)).
    split.
    + eapply back_leaf; [assumption|exact P|reflexivity|]. repeat split; apply ora_mode_spec; assumption.
    + intros f rest ls rest' R. exists (S f). rewrite writeStack_leaf by assumption.
      cbn [fst map app xml_token readStack].
      change (key_eqb (str "layer") (str "stack")) with false. change (key_eqb (str "layer") (str "layer")) with true.
      cbv iota. rewrite map_app, process_app. fold (xattrs L (layerAttrs L l)). rewrite process_layer by assumption.
      cbn [map fst snd processLayerAttrs]. rewrite (xml_printable L OK) by apply dataName_printable.
      change (layerAttr L (str "src") (dataName (n + 1)) ?a) with
        (@inl lattrs oerr (mkLA (laName a) (laX a) (laY a) (laTransp a) (laInv a) (laMode a) (dataName (n + 1)))).
      cbn [rbind laName laX laY laTransp laInv laMode laSrc]. rewrite Fd. cbn [rbind skipTag].
      rewrite R. reflexivity.
  - assert (exists k, backs L w h (ox + Z.max 0 (minX (lBounds l))) (oy + Z.max 0 (minY (lBounds l))) g k /\
      forall f rest ls rest',
        readStack f L ms (w, h) e (ox + Z.max 0 (minX (lBounds l))) (oy + Z.max 0 (minY (lBounds l))) rest = Some (inl (ls, rest')) ->
        exists f', readStack f' L ms (w, h) e (ox + Z.max 0 (minX (lBounds l))) (oy + Z.max 0 (minY (lBounds l)))
                     (map (xml_token L) (fst (sgroup L g n)) ++ rest) = Some (inl (k ++ ls, rest'))) as (k & B & R).
    { rewrite leaves_l_image, E, leaves_group in A.
      assert (forall j, In j (flat_map layers_l g) -> is_int (minX (lBounds j)) /\ is_int (minY (lBounds j))) as Ig.
      { intros j J. apply I. rewrite layers_l_image, E, layers_group. right. assumption. }
      clear E I. generalize (ox + Z.max 0 (minX (lBounds l))) (oy + Z.max 0 (minY (lBounds l))). intros px py.
      revert n A. induction F as [|j g Hj _ IH]; intros n A.
      - exists []. split; [constructor|]. intros f rest ls rest' R. exists f. exact R.
      - cbn [flat_map] in A, Ig. apply avail_app in A. destruct A as [A1 A2].
        destruct (Hj px py n A1) as (d & Bd & Rd); [intros; apply Ig, in_or_app; auto|].
        destruct (IH (fun j J => Ig j (in_or_app _ _ j (or_intror J))) _ A2) as (k & Bk & Rk).
        exists (d :: k). split; [constructor; assumption|].
        intros f rest ls rest' R. cbn [sgroup fst]. rewrite writeStack_num, map_app, <- app_assoc.
        destruct (Rk _ _ _ _ R) as (f1 & R1). exact (Rd _ _ _ _ R1). }
    destruct (I l) as [IX IY]; [rewrite layers_l_image; left; reflexivity|].
    exists (placed (w, h) ox oy
             (mkLA (lib_xml L (lName l)) (Z.max 0 (minX (lBounds l))) (Z.max 0 (minY (lBounds l))) 0
                (lInvisible l && (lTransparency l =? 0)) (ora_mode (lMode l)) []) (IGroup k)).
    split.
    + eapply back_group; [exact E|reflexivity|exact B|]. repeat split; apply ora_mode_spec; assumption.
    + intros f rest ls rest' R0. rewrite (writeStack_group L l g n E). cbn [fst map xml_token app].
      rewrite map_app, <- app_assoc. cbn [map xml_token app].
      destruct (R 1%nat (TEnd :: rest) [] rest eq_refl) as (f1 & R1). rewrite app_nil_r in R1.
      exists (S (Nat.max f f1)). cbn [readStack].
      change (key_eqb (str "stack") (str "stack")) with true. cbv iota.
      fold (xattrs L (layerAttrs L l)). rewrite process_layer by assumption. cbn [laX laY].
      rewrite (read_more _ _ _ _ _ _ _ _ _ R1) by lia.
      rewrite (read_more _ _ _ _ _ _ _ _ _ R0) by lia. reflexivity.
Qed.

(** ** reading back an archive *)
Lemma strip_cons ts t r : strip ts = t :: r -> exists pre rest, ts = pre ++ t :: rest /\
  Forall (fun t => is_other t = true) pre /\ strip rest = r.
Proof.
  induction ts as [|[n as_| |] ts IH]; cbn; intros H; [discriminate| | |].
  - injection H as <- <-. exists [], ts. repeat split; constructor.
  - injection H as <- <-. exists [], ts. repeat split; constructor.
  - destruct (IH H) as (pre & rest & -> & F & S). exists (TOther :: pre), rest. repeat split; auto.
Qed.

Lemma findImage_read L out ms a s p b : Forall2 (reads_back L) out ms -> out = a ++ (s, WPng p) :: b ->
  (forall x, In x a -> fst x <> s) -> findImage ms s = inl (ILeaf p).
Proof.
  intros R -> N. apply Forall2_app_inv_l in R. destruct R as (m1 & m2 & R1 & R2 & ->).
  induction R1 as [|x m a m1 X R1 IH]; cbn [app findImage].
  - inversion R2 as [|? m ? m2' (Nm & O & Im) _]; subst. cbn [fst snd findImage] in *. rewrite Nm, key_eqb_refl.
    unfold open. rewrite O. cbn [rbind]. rewrite Im. reflexivity.
  - destruct X as (Nm & _). rewrite Nm, (key_eqb_neq (fst x) s) by (apply N; left; reflexivity).
    apply IH. intros y Y. apply N. right. assumption.
Qed.

Lemma numbered_names L is ds : forall n, numbered L n is ds -> 0 <= n ->
  forall x, In x ds -> exists k, n < k /\ fst x = dataName k.
Proof.
  revert ds. induction is as [|i is IH]; intros [|[s w] ds] n; cbn [numbered]; try contradiction.
  intros (-> & _ & N) Hn x [<-|X].
  - exists (n + 1). split; [lia|reflexivity].
  - destruct (IH ds (n + 1) N ltac:(lia) x X) as (k & K & E). exists k. split; [lia|assumption].
Qed.

Lemma numbered_avail L out ms is ds tl : Forall2 (reads_back L) out ms -> forall n pre,
  out = pre ++ ds ++ tl -> 0 <= n -> numbered L n is ds ->
  (forall x, In x pre -> forall k, n < k -> fst x <> dataName k) ->
  avail L ms n is.
Proof.
  intros R. revert ds. induction is as [|i is IH]; intros [|[s w] ds] n pre E Hn; cbn [numbered avail]; try contradiction; auto.
  intros (-> & (p & P & ->) & N) D. split.
  - exists p. split; [assumption|]. apply (findImage_read L out ms pre _ p (ds ++ tl) R); [assumption|].
    intros x X. apply D; [assumption|lia].
  - apply (IH ds (n + 1) (pre ++ [(dataName (n + 1), WPng p)])); [|lia|assumption|].
    + rewrite <- app_assoc. exact E.
    + intros x X k K. apply in_app_or in X. destruct X as [X|[<-|[]]].
      * apply D; [assumption|lia].
      * cbn [fst]. intros Q. apply dataName_inj in Q; lia.
Qed.

Lemma numbered_nth L is ds : forall n k i, numbered L n is ds -> nth_error is k = Some i ->
  exists p, lib_png L i = Some p /\ nth_error ds k = Some (dataName (n + 1 + Z.of_nat k), WPng p).
Proof.
  revert ds. induction is as [|j is IH]; intros [|[s w] ds] n k i; cbn [numbered]; try contradiction.
  - destruct k; discriminate.
  - intros (-> & (p & P & ->) & N) K. destruct k as [|k]; cbn [nth_error] in *.
    + injection K as ->. exists p. split; [assumption|]. do 3 f_equal. lia.
    + destruct (IH ds (n + 1) k i N K) as (q & Q & E). exists q. split; [assumption|]. rewrite E. do 3 f_equal. lia.
Qed.

Definition named (s : list Z) (x : list Z * written) : bool := if list_eq_dec Z.eq_dec (fst x) s then true else false.
Lemma numbered_filter L is ds : forall n k i, 0 <= n -> numbered L n is ds -> nth_error is k = Some i ->
  exists p, lib_png L i = Some p /\
    filter (named (dataName (n + 1 + Z.of_nat k))) ds = [(dataName (n + 1 + Z.of_nat k), WPng p)].
Proof.
  revert ds. induction is as [|j is IH]; intros [|[s w] ds] n k i Hn; cbn [numbered]; try contradiction.
  - destruct k; discriminate.
  - intros (-> & (p & P & ->) & N) K. destruct k as [|k]; cbn [nth_error] in *.
    + injection K as ->. exists p. split; [assumption|]. replace (n + 1 + Z.of_nat 0) with (n + 1) by lia.
      cbn [filter]. unfold named at 1. cbn [fst]. destruct (list_eq_dec Z.eq_dec (dataName (n + 1)) (dataName (n + 1))); [|contradiction].
      f_equal. pose proof (numbered_names L is ds (n + 1) N ltac:(lia)) as NN. clear - NN Hn.
      induction ds as [|x ds IH]; [reflexivity|]. cbn [filter]. unfold named at 1.
      destruct (list_eq_dec Z.eq_dec (fst x) (dataName (n + 1))) as [E|_].
      * destruct (NN x (or_introl eq_refl)) as (k & K & E'). rewrite E' in E. apply dataName_inj in E; lia.
      * apply IH. intros y Y. apply NN. right. assumption.
    + destruct (IH ds (n + 1) k i ltac:(lia) N K) as (q & Q & E). exists q. split; [assumption|].
      replace (n + 1 + Z.of_nat (S k)) with (n + 1 + 1 + Z.of_nat k) by lia. cbn [filter]. unfold named at 1. cbn [fst].
      destruct (list_eq_dec Z.eq_dec (dataName (n + 1)) (dataName (n + 1 + 1 + Z.of_nat k))) as [E2|_]; [|exact E].
      apply dataName_inj in E2; lia.
Qed.

(** getStack passes over other members *)
Lemma getStack_pass ms r a : Forall (fun m => mName m <> str "stack.xml" /\ mName m <> str "mimetype") ms ->
  getStack_loop (ms ++ r) a = getStack_loop r a.
Proof.
  induction 1 as [|m ms [N1 N2] _ IH]; [reflexivity|]. cbn [app getStack_loop].
  rewrite (key_eqb_neq _ _ N1), (key_eqb_neq _ _ N2). exact IH.
Qed.

(** the archive written for [m], read back *)
Lemma encode_read L rnd m out ms : oraEncode L rnd m = Some out -> Forall2 (reads_back L) out ms ->
  exists s, getStack ms = inl s /\ mOpen s = true /\ mEnd s = OEOF /\
    strip (mTokens s) =
      map (xml_token L) (TStart (str "image") [(str "version", str "0.0.3"); (str "w", itoa (dx (image_Bounds m)));
                           (str "h", itoa (dy (image_Bounds m)))]
                         :: fst (writeStack L (toLayer m) 0) ++ [TEnd]) /\
    avail L ms 0 (leaves (content m)) /\
    (exists p, lib_png L m = Some p).
Proof.
  unfold oraEncode. destruct (writeLayers L (toLayer m) 0) as [[ds n']|] eqn:W; cbn [obind fst snd]; [|discriminate].
  destruct (lib_png L m) as [mg|] eqn:M; cbn [obind]; [|discriminate].
  destruct (lib_png L (thumbnail L rnd m _ _)) as [th|]; cbn [obind]; [|discriminate].
  pose proof (writeStack_noother L (toLayer m) 0) as NO. remember (fst (writeStack L (toLayer m) 0)) as tk eqn:TK.
  intros E R. apply (f_equal (fun o => match o with Some x => x | None => [] end)) in E. cbv beta iota in E.
  change (maxX (lBounds (toLayer m))) with (dx (image_Bounds m)) in E.
  change (maxY (lBounds (toLayer m))) with (dy (image_Bounds m)) in E.
  clear TK. apply writeLayers_numbered in W. destruct W as [_ W].
  assert (leaves_l (toLayer m) = leaves (content m)) as LL by reflexivity. rewrite LL in W.
  assert (avail L ms 0 (leaves (content m))) as A.
  { eapply (numbered_avail L out ms _ ds _ R 0 [(str "mimetype", WBytes mimetypeStr)]); [symmetry; exact E|lia|exact W|].
    intros x [<-|[]] k _ Q. symmetry in Q. revert Q. apply dataName_hd. vm_compute. discriminate. }
  rewrite <- E in R. inversion R as [|x1 m1 o1 r1 X1 R1]; subst.
  apply Forall2_app_inv_l in R1. destruct R1 as (md & mt & Rd & Rt & ->).
  inversion Rt as [|x2 s o2 r2 X2 R2]; subst. inversion R2 as [|x3 m3 o3 r3 X3 R3]; subst.
  inversion R3 as [|x4 m4 o4 r4 X4 R4]; subst. inversion R4; subst. clear R Rt R2 R3 R4.
  destruct X1 as (N1 & O1 & Z1 & B1), X2 as (N2 & O2 & E2 & S2), X3 as (N3 & _), X4 as (N4 & _). cbn [fst snd] in *.
  exists s. split; [|].
  - unfold getStack. cbn [getStack_loop]. rewrite N1.
    change (key_eqb (str "mimetype") (str "stack.xml")) with false. change (key_eqb (str "mimetype") (str "mimetype")) with true.
    cbv iota. unfold checkMime. rewrite Z1, O1, B1. rewrite Z.eqb_refl, Z.ltb_irrefl. cbn [negb].
    rewrite ztake_all by lia. rewrite key_eqb_refl.
    rewrite getStack_pass.
    + cbn [getStack_loop]. rewrite N2, N3, N4, key_eqb_refl. reflexivity.
    + pose proof (numbered_names L _ ds 0 W ltac:(lia)) as NN. clear - NN Rd.
      induction Rd as [|x y ds md (X & _) _ IH]; constructor.
      * destruct (NN x (or_introl eq_refl)) as (k & _ & Ek). rewrite X, Ek.
        split; apply dataName_hd; vm_compute; discriminate.
      * apply IH. intros z Z'. apply NN. right. assumption.
  - repeat split; auto; [|eauto]. rewrite S2. f_equal.
    change (strip (TOther :: TStart ?a ?b :: ?c)) with (TStart a b :: strip c).
    assert (forall a b, strip (a ++ b) = strip a ++ strip b) as SA by (intros; apply filter_app).
    rewrite SA, NO. reflexivity.
Qed.

Lemma decode_root L ms s w h as_ r :
  getStack ms = inl s -> mOpen s = true ->
  strip (mTokens s) = TStart (str "image") as_ :: r -> dims as_ None None = inl (w, h) ->
  oraConfig ms = inl (w, h) /\
  (forall x, toStack (mEnd s) r None = inr x -> oraDecode L ms = Some (inr x)) /\
  (forall t f ls t', toStack (mEnd s) r None = inl t -> readStack f L ms (w, h) (mEnd s) 0 0 t = Some (inl (ls, t')) ->
     oraDecode L ms = Some (inl ls)).
Proof.
  intros G O S D. destruct (strip_cons _ _ _ S) as (pre & rest & E & F & Sr).
  assert (getDimensions (mEnd s) (mTokens s) = inl (w, h, rest)) as GD.
  { rewrite E. clear - F D. induction F as [|t pre Ht _ IH]; cbn [app getDimensions].
    - rewrite key_eqb_refl, D. reflexivity.
    - destruct t; try discriminate. exact IH. }
  pose proof (adds_strip rest) as A. rewrite Sr in A.
  pose proof (toStack_adds (mEnd s) r rest A) as T.
  unfold oraConfig, oraDecode, open. rewrite G. cbn [rbind]. rewrite O. cbn [rbind]. rewrite GD. cbn [rbind fst snd].
  split; [reflexivity|]. split.
  - intros x X. rewrite X in T. destruct (toStack (mEnd s) rest None); [contradiction|]. subst. reflexivity.
  - intros t f ls t' X R. rewrite X in T. destruct (toStack (mEnd s) rest None) as [t2|]; [|contradiction]. cbn [rbind].
    pose proof (read_adds L ms (w, h) (mEnd s) (Datatypes.S (List.length t2)) (Datatypes.S (List.length t + f)) 0 0 t t2 T
                  ltac:(lia) ltac:(lia)) as RR.
    rewrite (read_more _ _ _ _ _ _ _ _ _ R) in RR by lia. unfold rel_read in RR.
    destruct (readStack (Datatypes.S (List.length t2)) L ms (w, h) (mEnd s) 0 0 t2) as [[[l2 q]|]|]; try contradiction.
    destruct RR as (<- & _). reflexivity.
Qed.
