(** Lemmas for C88: reading a document. *)
Require Import Verif.Base Verif.M_Color Verif.M_Composite Verif.M_Rect Verif.M_Image Verif.M_Groups Verif.M_Ora Verif.S_Ora
  Verif.S_Rect Verif.S_OraDoc Verif.L_List Verif.L_Groups Verif.L_Ora Verif.L_Ora2.
From Coq Require Import String.
Open Scope Z_scope.
Open Scope list_scope.

Lemma odoc_ind' (P : odoc -> Prop) :
  (forall as_ a body i, P (OLayer as_ a body i)) ->
  (forall as_ a kids, Forall P kids -> P (OStack as_ a kids)) -> forall d, P d.
Proof.
  intros HL HS. fix IH 1. intros [as_ a body i|as_ a kids]; [apply HL|]. apply HS.
  induction kids as [|k kids IHk]; constructor; [apply IH|exact IHk].
Qed.

(** ** numbers *)
Lemma atoi_integer s n : integer s n -> atoi s = Some n.
Proof.
  intros (I & ds & N & D & H).
  assert (undec ds 0 = Some (value ds 0)) as U by (apply undec_value; exact D).
  destruct ds as [|d ds]; [contradiction|].
  inversion D as [|? ? Hd _]; subst.
  assert (is_int n -> (- 9223372036854775808 <=? n) && (n <=? 9223372036854775807) = true) as B by (unfold is_int; clear; lia).
  specialize (B I).
  destruct H as [[[-> | ->] ->]|[-> ->]]; unfold atoi.
  - assert ((d = 48 \/ d = 49 \/ d = 50 \/ d = 51 \/ d = 52) \/ (d = 53 \/ d = 54 \/ d = 55 \/ d = 56 \/ d = 57)) as C
      by (clear - Hd; lia).
    destruct C as [[-> |[-> |[-> |[-> | ->]]]]|[-> |[-> |[-> |[-> | ->]]]]]; rewrite U; cbn [obind]; rewrite B; reflexivity.
  - rewrite U. cbn [obind]. rewrite B. reflexivity.
  - rewrite U. cbn [obind]. rewrite B. reflexivity.
Qed.

(** ** attributes *)
Lemma attr_same k v as_ : attr k ((str k, v) :: as_) = v :: attr k as_.
Proof. unfold attr. cbn [filter fst]. destruct (list_eq_dec Z.eq_dec (str k) (str k)); [reflexivity|contradiction]. Qed.
Lemma attr_other k k' v as_ : k' <> str k -> attr k ((k', v) :: as_) = attr k as_.
Proof. intros N. unfold attr. cbn [filter fst]. destruct (list_eq_dec Z.eq_dec k' (str k)); [contradiction|reflexivity]. Qed.
Lemma given_same k v as_ P Q : given k ((str k, v) :: as_) P Q -> P v /\ attr k as_ = [].
Proof. unfold given. rewrite attr_same. destruct (attr k as_); [auto|contradiction]. Qed.
Lemma given_other k k' v as_ P Q : k' <> str k -> given k ((k', v) :: as_) P Q -> given k as_ P Q.
Proof. intros N. unfold given. now rewrite attr_other. Qed.
Lemma given_none k as_ P (Q : Prop) : attr k as_ = [] -> Q -> given k as_ P Q.
Proof. unfold given. now intros ->. Qed.

(** the attributes, from the state [s] to the state [a] *)
Record leads (L : libs) (as_ : list (list Z * list Z)) (s a : lattrs) : Prop := {
  leads_name : given "name" as_ (fun v => laName a = v) (laName a = laName s);
  leads_x : given "x" as_ (fun v => atoi v = Some (laX a)) (laX a = laX s);
  leads_y : given "y" as_ (fun v => atoi v = Some (laY a)) (laY a = laY s);
  leads_opacity : given "opacity" as_ (fun v => lib_opacity L v = Some (laTransp a)) (laTransp a = laTransp s);
  leads_visibility : given "visibility" as_ (fun v => laInv a = key_eqb v (str "hidden")) (laInv a = laInv s);
  leads_op : given "composite-op" as_ (fun v => laMode a = op_mode v (laMode s)) (laMode a = laMode s);
  leads_src : given "src" as_ (fun v => laSrc a = v) (laSrc a = laSrc s) }.

Ltac others :=
  repeat match goal with
  | H : given ?k ((str ?k, _) :: _) _ _ |- _ => apply given_same in H; destruct H
  | H : given _ ((_, _) :: _) _ _ |- _ =>
      apply given_other in H; [|first [assumption|vm_compute; discriminate]]
  end.
Ltac key k K :=
  lazymatch goal with |- context [key_eqb ?x (str ?s)] =>
    destruct (key_eqb x (str s)) eqn:K;
    [apply key_eqb_eq in K; subst x|
     let N := fresh "N" in
     assert (x <> str s) as N by (let E := fresh in intros E; rewrite E, key_eqb_refl in K; discriminate K); clear K] end.

Lemma process_leads L as_ : forall s a, leads L as_ s a -> processLayerAttrs L as_ s = inl a.
Proof.
  induction as_ as [|[k v] as_ IH]; intros [n x y t i m r] [n' x' y' t' i' m' r'] [H1 H2 H3 H4 H5 H6 H7]; cbn [laName laX laY laTransp laInv laMode laSrc] in *.
  - unfold given in *. cbn in *. subst. reflexivity.
  - cbn [processLayerAttrs]. unfold layerAttr.
    key k K; [|key k K; [|key k K; [|key k K; [|key k K; [|key k K; [|key k K]]]]]]; others; cbn [rbind].
    all: try (unfold atoi_err;
      match goal with E : atoi _ = Some _ |- _ => rewrite E | E : lib_opacity _ _ = Some _ |- _ => rewrite E end; cbn [rbind]).
    all: apply IH; constructor; cbn [laName laX laY laTransp laInv laMode laSrc];
      first [assumption | apply given_none; [assumption|congruence]].
Qed.

Lemma op_mode_operator s m : operator s m -> op_mode s MNormal = m.
Proof.
  intros [(o & I & ->)|[N ->]].
  - unfold ora_ops in I.
    repeat (destruct I as [E|I]; [injection E as <- <-; vm_compute; reflexivity|]). destruct I.
  - unfold op_mode.
    repeat match goal with |- context [key_eqb s (str ?o)] =>
      rewrite (key_eqb_neq s (str o)) by (eapply N; unfold ora_ops; cbn; eauto 30) end.
    reflexivity.
Qed.

Lemma given_impl k as_ (P P' : list Z -> Prop) (Q Q' : Prop) :
  (forall v, P v -> P' v) -> (Q -> Q') -> given k as_ P Q -> given k as_ P' Q'.
Proof. unfold given. intros HP HQ. destruct (attr k as_) as [|v [|]]; auto. Qed.

Definition la_of (a : desc) (src : list Z) : lattrs := mkLA (dName a) (dX a) (dY a) (dTransp a) (dHidden a) (dMode a) src.
Lemma process_says L as_ a src : says L as_ a -> given "src" as_ (fun v => src = v) (src = []) ->
  processLayerAttrs L as_ la0 = inl (la_of a src).
Proof.
  intros [S1 S2 S3 S4 S5 S6] S7. apply process_leads. constructor; cbn [la_of la0 laName laX laY laTransp laInv laMode laSrc].
  - exact S1.
  - eapply given_impl; [| |exact S2]; [intros v; apply atoi_integer|auto].
  - eapply given_impl; [| |exact S3]; [intros v; apply atoi_integer|auto].
  - exact S4.
  - eapply given_impl; [| |exact S5]; [|auto]. intros v H. cbv beta in H.
    destruct (key_eqb v (str "hidden")) eqn:K.
    + apply key_eqb_eq in K. tauto.
    + destruct (dHidden a); [|reflexivity]. rewrite (proj1 H eq_refl), key_eqb_refl in K. discriminate.
  - eapply given_impl; [| |exact S6]; [|auto]. intros v H. symmetry. apply op_mode_operator, H.
  - exact S7.
Qed.

Lemma findImage_picture ms src i : picture ms src i -> findImage ms src = inl i.
Proof.
  intros (pre & m & post & -> & N & F & O & I). induction F as [|k pre Hk _ IH]; cbn [app findImage].
  - rewrite N, key_eqb_refl. unfold open. rewrite O. cbn [rbind]. rewrite I. reflexivity.
  - rewrite (key_eqb_neq _ _ Hk). exact IH.
Qed.

(** ** the layers that are read, and where the code places them *)
Inductive lies (w h : Z) : Z -> Z -> odoc -> layer -> Prop :=
| lies_layer ox oy as_ a body i l : attributes a l -> lImage l = i ->
    lBounds l = rsub (intersect (radd (image_Bounds i) (dX a) (dY a)) (mkRect 0 0 (w + ox) (h + oy))) ox oy ->
    lies w h ox oy (OLayer as_ a body i) l
| lies_stack ox oy as_ a kids l g : attributes a l -> lImage l = IGroup g ->
    Forall2 (lies w h (ox + dX a) (oy + dY a)) kids g ->
    lBounds l = rsub (intersect (radd (group_Bounds g) (dX a) (dY a)) (mkRect 0 0 (w + ox) (h + oy))) ox oy ->
    lies w h ox oy (OStack as_ a kids) l.

Lemma lies_tells w h d : forall ox oy l, lies w h ox oy d l -> tells d l.
Proof.
  induction d as [as_ a body i|as_ a kids IH] using odoc_ind'; intros ox oy l H; inversion H; subst.
  - constructor; auto.
  - econstructor; eauto.
    match goal with F : Forall2 (lies _ _ _ _) _ _ |- _ => clear - F IH; induction F; constructor; inversion IH; subst; eauto end.
Qed.

Lemma key_stack : key_eqb (str "stack") (str "stack") = true. Proof. reflexivity. Qed.
Lemma key_layer : key_eqb (str "layer") (str "stack") = false. Proof. reflexivity. Qed.
Lemma key_layer2 : key_eqb (str "layer") (str "layer") = true. Proof. reflexivity. Qed.

Lemma read_doc L ms w h e d : forall ox oy, valid L ms d ->
  exists l, lies w h ox oy d l /\
    forall f rest ls rest', readStack f L ms (w, h) e ox oy rest = Some (inl (ls, rest')) ->
    exists f', readStack f' L ms (w, h) e ox oy (elements d ++ rest) = Some (inl (l :: ls, rest')).
Proof.
  induction d as [as_ a body i|as_ a kids IH] using odoc_ind'; intros ox oy V; inversion V as [? ? ? ? S B G Gi|? ? ? S G F]; subst.
  - assert (exists src, processLayerAttrs L as_ la0 = inl (la_of a src) /\ findImage ms src = inl i) as (src & P & Fi).
    { unfold given in G. destruct (attr "src" as_) as [|src [|]] eqn:E; try contradiction. exists src. split.
      - apply process_says; [assumption|]. unfold given. now rewrite E.
      - now apply findImage_picture. }
    exists (placed (w, h) ox oy (la_of a src) i). split; [constructor; [repeat split|reflexivity|reflexivity]|].
    intros f rest ls rest' R. exists (Datatypes.S f). cbn [elements app readStack].
    rewrite key_layer, key_layer2, P. cbn [rbind]. change (laSrc (la_of a src)) with src. rewrite Fi. cbn [rbind].
    rewrite <- app_assoc, skip_balanced by assumption. cbn [app skipTag rbind]. rewrite R. reflexivity.
  - assert (exists g, Forall2 (lies w h (ox + dX a) (oy + dY a)) kids g /\
      forall f rest ls rest', readStack f L ms (w, h) e (ox + dX a) (oy + dY a) rest = Some (inl (ls, rest')) ->
      exists f', readStack f' L ms (w, h) e (ox + dX a) (oy + dY a) (flat_map elements kids ++ rest) =
                 Some (inl (g ++ ls, rest'))) as (g & Lg & R).
    { clear S G V. induction kids as [|k kids IHk].
      - exists []. split; [constructor|]. intros f rest ls rest' R. exists f. exact R.
      - inversion IH as [|? ? I1 I2]; subst. inversion F as [|? ? F1 F2]; subst.
        destruct (IHk I2 F2) as (g & Lg & Rg). destruct (I1 (ox + dX a) (oy + dY a) F1) as (l & Ll & Rl).
        exists (l :: g). split; [constructor; assumption|]. intros f rest ls rest' R.
        destruct (Rg _ _ _ _ R) as (f1 & R1). cbn [flat_map]. rewrite <- app_assoc. exact (Rl _ _ _ _ R1). }
    assert (exists src, processLayerAttrs L as_ la0 = inl (la_of a src)) as (src & P).
    { unfold given in G. destruct (attr "src" as_) as [|src [|]] eqn:E; try contradiction; [exists []|exists src];
        (apply process_says; [assumption|unfold given; now rewrite E]). }
    exists (placed (w, h) ox oy (la_of a src) (IGroup g)). split.
    { econstructor; [repeat split|reflexivity|exact Lg|reflexivity]. }
    intros f rest ls rest' R0. cbn [elements app]. rewrite <- app_assoc. cbn [app].
    destruct (R 1%nat (TEnd :: rest) [] rest eq_refl) as (f1 & R1). rewrite app_nil_r in R1.
    exists (Datatypes.S (Nat.max f f1)). cbn [readStack]. rewrite key_stack, P. cbv beta iota.
    change (laX (la_of a src)) with (dX a). change (laY (la_of a src)) with (dY a).
    rewrite (read_more _ _ _ _ _ _ _ _ _ R1) by lia.
    rewrite (read_more _ _ _ _ _ _ _ _ _ R0) by lia. reflexivity.
Qed.

Lemma read_docs L ms w h e ds tail : Forall (valid L ms) ds ->
  exists g f, Forall2 (lies w h 0 0) ds g /\
    readStack f L ms (w, h) e 0 0 (flat_map elements ds ++ TEnd :: tail) = Some (inl (g, tail)).
Proof.
  induction 1 as [|d ds V _ (g & f & Lg & R)].
  - exists [], 1%nat. split; [constructor|reflexivity].
  - destruct (read_doc L ms w h e d 0 0 V) as (l & Ll & Rl). destruct (Rl _ _ _ _ R) as (f' & R').
    exists (l :: g), f'. split; [constructor; assumption|]. cbn [flat_map]. rewrite <- app_assoc. exact R'.
Qed.
