(** Images that can be read at all points of their bounds; those loaded from a described file. *)
From Coq Require Import ZifyBool ZifyNat.
Require Import Verif.Base Verif.L_List Verif.M_Color Verif.S_Color Verif.L_Word Verif.L_Pix Verif.M_Composite Verif.M_Rect Verif.S_Rect Verif.M_Image Verif.S_Image Verif.L_Image
  Verif.M_Reader Verif.M_Monad Verif.M_Decode Verif.S_File Verif.S_Props Verif.S_Compressed Verif.S_Kinds Verif.S_Meaning Verif.S_Whole Verif.S_Panics Verif.P_Panics.
Require Verif.S_Groups.

(** ** Structure *)
Fixpoint groups (i : image) : bool := match i with IGroup _ => true | IMasked i _ => groups i | _ => false end.
Fixpoint readable (i : image) : Prop :=
  match i with
  | ILeaf p => forall x y, inside (picBounds p) x y -> exists c, picAt p x y = Some c /\ wf_color c
  | IGroup g => (fix all (g : list layer) : Prop := match g with [] => True | l :: g => readable_layer l /\ all g end) g
  | IMasked i m => readable i /\ forall x y, is_u8 (grayAt m x y)
  | IText i _ => readable i
  | ILayer l => readable_layer l
  end
with readable_layer (l : layer) : Prop :=
  match l with
  | mkLayer _ b _ _ t im => is_u8 t /\ readable im /\ (groups im = true \/ forall x y, inside b x y -> inside (image_Bounds im) (x - minX b) (y - minY b))
  end.
Lemma readable_group g : readable (IGroup g) <-> Forall readable_layer g.
Proof.
  cbn. induction g as [|l g IH]; [split; auto|]. rewrite IH. split; [intros [A B]; constructor; auto|].
  intros H; inversion H; auto.
Qed.
Lemma readable_at : forall i, readable i -> forall rnd x y n, groups i = true \/ inside (image_Bounds i) x y ->
  exists c k, image_At rnd i x y n = Some (c, k) /\ wf_color c.
Proof.
  apply (image_layer_ind
    (fun i => readable i -> forall rnd x y n, groups i = true \/ inside (image_Bounds i) x y -> exists c k, image_At rnd i x y n = Some (c, k) /\ wf_color c)
    (fun l => readable_layer l -> forall rnd x y n, inside (lBounds l) x y -> exists c k, layer_At rnd l x y n = Some (c, k) /\ wf_color c)).
  - intros p H rnd x y n [[=]|I]. destruct (H x y I) as (c & E & W). cbn. rewrite E. cbn. eauto.
  - intros g HF H rnd x y n _. apply readable_group in H. rewrite group_At_fold.
    apply fold_layers_total.
    + intros. destruct (is_palette _); [apply palette_rule_total|apply over_rule_total]; assumption.
    + unfold bottom_up. apply Forall_forall. intros l Hl. apply filter_In in Hl. destruct Hl as (Hl & SH).
      apply in_rev in Hl. rewrite Forall_forall in HF, H. intros k. apply HF; auto. unfold shown in SH. unfold inside. lia.
    + cbn. unfold is_u8. lia.
  - intros i m IH [H Hm] rnd x y n I. destruct (IH H rnd x y n) as (c & k & E & W). { exact I. } cbn [image_At]. rewrite E. cbn [obind fst snd].
    eexists _, _. split; [reflexivity|]. apply transparency_wf; auto.
  - intros i t IH H rnd x y n [[=]|I]. apply (IH H). now right.
  - intros l IH H rnd x y n [[=]|I]. apply (IH H). exact I.
  - intros nm b m v t i IH (Ht & H & B) rnd x y n I. cbn [lBounds] in I. destruct (IH H rnd (x - minX b) (y - minY b) n) as (c & k & E & W).
    { destruct B as [B|B]; [now left|right; now apply B]. }
    cbn [layer_At]. rewrite E. cbn [obind fst snd]. eexists _, _. split; [reflexivity|].
    apply transparency_wf; auto. apply u8_range.
Qed.
Lemma readable_drawn rnd i : readable i -> drawn rnd i.
Proof. intros R x y n I. destruct (readable_at i R rnd x y n (or_intror I)) as (c & k & -> & _). discriminate. Qed.
Lemma readable_unmask i : readable i -> readable (unmask i).
Proof. destruct i; cbn; tauto. Qed.
Lemma readable_drawn_layer rnd l : readable_layer l -> drawn_layer rnd l.
Proof.
  enough (K : forall i, match i with IGroup g => Forall (fun l => readable_layer l -> drawn_layer rnd l) g | ILayer l => readable_layer l -> drawn_layer rnd l | _ => True end) by exact (K (ILayer l)).
  apply (image_layer_ind
      (fun i => match i with IGroup g => Forall (fun l => readable_layer l -> drawn_layer rnd l) g | ILayer l => readable_layer l -> drawn_layer rnd l | _ => True end)
      (fun l => readable_layer l -> drawn_layer rnd l)); try exact (fun _ => I); auto.
  intros n b m v t j IH (_ & R & _). cbn [drawn_layer]. split; [apply readable_drawn, readable_unmask, R|]. destruct j; try exact I. apply drawn_fold. apply readable_group in R. rewrite Forall_forall in *. auto.
Qed.

(** ** What is loaded *)
Lemma placed_inside canvas ox oy X Y w h x y : let b := S_Groups.placed canvas ox oy (mkRect X Y (X + w) (Y + h)) in
  inside b x y -> inside (mkRect 0 0 w h) (x - minX b) (y - minY b).
Proof.
  cbv zeta. unfold S_Groups.placed, rsub, intersect, inside, ZR. cbn [minX minY maxX maxY]. destruct (rempty _) eqn:E; cbn [minX minY maxX maxY]; lia.
Qed.
Lemma bottom_readable ls : Forall readable_layer ls -> Forall readable_layer (S_Groups.bottom_normal ls).
Proof.
  intros F. unfold S_Groups.bottom_normal. apply Forall_rev in F. destruct (rev ls) as [|[n b m v t i] r]; [constructor|]. apply Forall_rev.
  inversion F as [|? ? R F']. subst. constructor; assumption.
Qed.
Lemma bottom_leaves ls : Forall leaves_drawn (S_Groups.bottom_normal ls) -> Forall leaves_drawn ls.
Proof.
  intros F. unfold S_Groups.bottom_normal in F. destruct (rev ls) as [|[n b m v t i] r] eqn:E.
  - apply (f_equal (@rev _)) in E. rewrite rev_involutive in E. subst. constructor.
  - apply Forall_rev in F. rewrite rev_involutive in F. inversion F as [|? ? R F']. subst. apply (f_equal (@rev _)) in E. rewrite rev_involutive in E. subst. apply Forall_rev. constructor; assumption.
Qed.
