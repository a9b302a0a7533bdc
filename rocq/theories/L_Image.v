(** Lemmas about layered images. *)
Require Import Verif.Base Verif.M_Color Verif.M_Composite Verif.S_Color Verif.M_Rect Verif.S_Rect Verif.M_Image
  Verif.S_Image Verif.L_Word Verif.L_Color Verif.L_Modes Verif.L_Rect.
From Coq Require Import ZifyBool Permutation.

Section Ind.
Variables (P : image -> Prop) (Q : layer -> Prop).
Hypothesis Hleaf : forall p, P (ILeaf p).
Hypothesis Hgroup : forall g, Forall Q g -> P (IGroup g).
Hypothesis Hmask : forall i m, P i -> P (IMasked i m).
Hypothesis Htext : forall i t, P i -> P (IText i t).
Hypothesis Hlay : forall l, Q l -> P (ILayer l).
Hypothesis Hmk : forall n b m v t i, P i -> Q (mkLayer n b m v t i).
Fixpoint image_layer_ind (i : image) : P i :=
  match i with
  | ILeaf p => Hleaf p
  | IGroup g => Hgroup g ((fix all (g : list layer) : Forall Q g :=
        match g with [] => Forall_nil Q | l :: g => Forall_cons l (layer_image_ind l) (all g) end) g)
  | IMasked i m => Hmask i m (image_layer_ind i)
  | IText i t => Htext i t (image_layer_ind i)
  | ILayer l => Hlay l (layer_image_ind l)
  end
with layer_image_ind (l : layer) : Q l :=
  match l with mkLayer n b m v t i => Hmk n b m v t i (image_layer_ind i) end.
End Ind.

Lemma shown_spec x y l : shown x y l = negb (lInvisible l) && pin x y (lBounds l).
Proof. reflexivity. Qed.

(** at_step is the specified rule *)
Lemma at_step_rule rnd pal m c d n :
  at_step rnd pal m c d n = if pal then palette_rule rnd m c d n else over_rule rnd m c d n.
Proof.
  unfold at_step, palette_rule, over_rule. destruct pal, m; cbn [is_dissolve negb andb draw_after];
    try (destruct (composite _ _ _ _); reflexivity);
    cbv zeta; destruct (Z.ltb_spec 32767 (cA (colourToNRGBA d))); destruct (Z.leb_spec 32768 (cA (colourToNRGBA d)));
    (reflexivity || lia).
Qed.

Definition rule_of (pal : bool) := if pal then palette_rule else over_rule.

Lemma group_At_fold rnd g x y n :
  image_At rnd (IGroup g) x y n =
  fold_layers (rule_of (is_palette (image_ColorModel (IGroup g))) rnd) rnd x y (bottom_up x y g) (Some (CAlpha 0, n)).
Proof.
  cbn [image_At]. cbv zeta. generalize (is_palette (image_ColorModel (IGroup g))) as pal. intros pal.
  induction g as [|l g IH].
  - reflexivity.
  - rewrite IH. unfold bottom_up. cbn [rev]. rewrite filter_app. unfold fold_layers. rewrite fold_left_app.
    fold (fold_layers (rule_of pal rnd) rnd x y (filter (shown x y) (rev g)) (Some (CAlpha 0, n))).
    destruct (fold_layers (rule_of pal rnd) rnd x y (filter (shown x y) (rev g)) (Some (CAlpha 0, n))) as [[c k]|].
    + cbn [obind filter]. rewrite shown_spec. destruct (lInvisible l); cbn [negb andb]; [reflexivity|].
      destruct (pin x y (lBounds l)); cbn [negb fold_left]; [|reflexivity].
      cbn [fst snd]. destruct (layer_At rnd l x y k) as [[d k']|]; cbn [obind fst snd]; [|reflexivity].
      rewrite at_step_rule. destruct pal; reflexivity.
    + cbn [obind]. generalize (filter (shown x y) [l]) as q. induction q; [reflexivity|assumption].
Qed.

(** ** totality *)
Lemma wf_group_Forall g : wf_image (IGroup g) <-> Forall wf_layer g.
Proof.
  cbn. induction g as [|l g IH]; [split; auto|]. rewrite IH. split; [intros [A B]; constructor; auto|].
  intros H; inversion H; auto.
Qed.
Lemma transparency_wf c ao : wf_color c -> is_u8 ao -> wf_color (transparency c ao).
Proof.
  intros Hc Ha. unfold is_u8 in Ha. destruct (Z.eq_dec ao 255) as [->|]; [exact Hc|].
  destruct (Z.eq_dec ao 0) as [->|]; [cbn; unfold wf64, is_u16; cbn; lia|].
  destruct (transparency_ok c ao Hc ltac:(lia)) as (m & -> & W & _). exact W.
Qed.
Lemma over_rule_total rnd m c d n : wf_color c -> wf_color d ->
  exists e k, over_rule rnd m c d n = Some (e, k) /\ wf_color e.
Proof.
  intros Hc Hd. unfold over_rule. destruct (composite_total m (rnd n) c d Hc Hd) as (e & -> & We).
  cbn. eauto.
Qed.
Lemma palette_rule_total rnd m c d n : wf_color c -> wf_color d ->
  exists e k, palette_rule rnd m c d n = Some (e, k) /\ wf_color e.
Proof.
  intros Hc Hd. pose proof (colourToNRGBA_wf d Hd) as (?&?&?&?).
  unfold palette_rule. destruct m; try (apply over_rule_total; assumption); cbv zeta;
    (destruct (_ <=? _); eexists _, _; (split; [reflexivity|]); [cbn; unfold wf64, is_u16 in *; cbn; lia|exact Hc]).
Qed.

Lemma fold_layers_total (rule : mode -> color -> color -> nat -> option (color * nat)) rnd x y ls :
  (forall m c d n, wf_color c -> wf_color d -> exists e k, rule m c d n = Some (e, k) /\ wf_color e) ->
  Forall (fun l => forall n, exists c k, layer_At rnd l x y n = Some (c, k) /\ wf_color c) ls ->
  forall c n, wf_color c -> exists e k, fold_layers rule rnd x y ls (Some (c, n)) = Some (e, k) /\ wf_color e.
Proof.
  intros HR HF. induction HF as [|l ls Hl HF IH]; intros c n Hc; cbn; [eauto|].
  destruct (Hl n) as (d & k & -> & Hd). destruct (HR (lMode l) c d k Hc Hd) as (e & k' & -> & He).
  apply IH, He.
Qed.

Lemma image_layer_total : forall i, wf_image i -> forall rnd x y n,
  exists c k, image_At rnd i x y n = Some (c, k) /\ wf_color c.
Proof.
  apply (image_layer_ind
    (fun i => wf_image i -> forall rnd x y n, exists c k, image_At rnd i x y n = Some (c, k) /\ wf_color c)
    (fun l => wf_layer l -> forall rnd x y n, exists c k, layer_At rnd l x y n = Some (c, k) /\ wf_color c)).
  - intros p H rnd x y n. destruct (H x y) as (c & E & W). cbn. rewrite E. cbn. eauto.
  - intros g HF H rnd x y n. apply wf_group_Forall in H. rewrite group_At_fold.
    apply fold_layers_total.
    + intros. destruct (is_palette _); [apply palette_rule_total|apply over_rule_total]; assumption.
    + unfold bottom_up. apply Forall_forall. intros l Hl. apply filter_In in Hl. destruct Hl as (Hl & _).
      apply in_rev in Hl. rewrite Forall_forall in HF, H. intros k. apply HF; auto.
    + cbn. unfold is_u8. lia.
  - intros i m IH [H Hm] rnd x y n. destruct (IH H rnd x y n) as (c & k & E & W). cbn [image_At]. rewrite E. cbn [obind fst snd].
    eexists _, _. split; [reflexivity|]. apply transparency_wf; auto.
  - intros i t IH H rnd x y n. apply (IH H).
  - intros l IH H rnd x y n. apply (IH H).
  - intros nm b m v t i IH [Ht H] rnd x y n. destruct (IH H rnd (x - minX b) (y - minY b) n) as (c & k & E & W).
    cbn [layer_At]. rewrite E. cbn [obind fst snd]. eexists _, _. split; [reflexivity|].
    apply transparency_wf; auto. apply u8_range.
Qed.
Lemma layer_total l : wf_layer l -> forall rnd x y n,
  exists c k, layer_At rnd l x y n = Some (c, k) /\ wf_color c.
Proof. intros H. apply (image_layer_total (ILayer l) H). Qed.

(** ** adding an invisible or non-covering layer changes nothing *)
Lemma not_shown_no_effect rnd g1 l g2 x y n :
  is_palette (image_ColorModel (IGroup (g1 ++ l :: g2))) = is_palette (image_ColorModel (IGroup (g1 ++ g2))) ->
  shown x y l = false ->
  image_At rnd (IGroup (g1 ++ l :: g2)) x y n = image_At rnd (IGroup (g1 ++ g2)) x y n.
Proof.
  intros HP HS. rewrite !group_At_fold, HP. f_equal. unfold bottom_up.
  rewrite !rev_app_distr. cbn [rev]. rewrite !filter_app. cbn [filter]. rewrite HS, app_nil_r. reflexivity.
Qed.

(** ** an opaque Normal layer hides what is below *)
Lemma fold_layers_app rule rnd x y a b s :
  fold_layers rule rnd x y (a ++ b) s = fold_layers rule rnd x y b (fold_layers rule rnd x y a s).
Proof. apply fold_left_app. Qed.

Lemma opaque_hides rnd above l below x y n :
  is_palette (image_ColorModel (IGroup (above ++ [l]))) = false ->
  wf_image (IGroup below) -> wf_layer l -> lMode l = MNormal -> shown x y l = true ->
  (forall k, exists c k', layer_At rnd l x y k = Some (c, k') /\ cA (colourToNRGBA c) = 65535) ->
  exists k, image_At rnd (IGroup (above ++ l :: below)) x y n = image_At rnd (IGroup (above ++ [l])) x y k.
Proof.
  intros HP Hb Hl Hm HS HO.
  assert (HP' : is_palette (image_ColorModel (IGroup (above ++ l :: below))) = false).
  { rewrite <- HP. destruct above; reflexivity. }
  rewrite !group_At_fold, HP'. setoid_rewrite group_At_fold. setoid_rewrite HP.
  unfold bottom_up. rewrite !rev_app_distr. cbn [rev app]. rewrite <- app_assoc. cbn [app].
  rewrite !filter_app. cbn [filter]. rewrite HS, fold_layers_app.
  destruct (fold_layers_total (over_rule rnd) rnd x y (filter (shown x y) (rev below))
     ltac:(intros; apply over_rule_total; assumption)) with (c := CAlpha 0) (n := n) as (c & k & E & W).
  { apply Forall_forall. intros q Hq. apply filter_In in Hq. destruct Hq as (Hq & _). apply in_rev in Hq.
    apply wf_group_Forall in Hb. rewrite Forall_forall in Hb. intros; apply layer_total; auto. }
  { cbn; unfold is_u8; lia. }
  cbn [rule_of]. rewrite E. exists k. cbn [fold_layers fold_left].
  destruct (HO k) as (d & k' & Ed & Ad). destruct (layer_total l Hl rnd x y k) as (d' & k'' & Ed' & Wd).
  rewrite Ed in *. injection Ed' as <- <-. rewrite Hm. unfold over_rule.
  rewrite !normal_opaque by (try assumption; cbn; unfold is_u8; lia). reflexivity.
Qed.

(** ** Bounds *)
Lemma union_spec_min r s : rempty r = false \/ rempty s = false ->
  rempty (union r s) = false /\ subset r (union r s) /\ subset s (union r s) /\
  forall q, subset r q -> subset s q -> subset (union r s) q.
Proof.
  unfold union, subset. intros H.
  destruct (rempty r) eqn:Er; [|destruct (rempty s) eqn:Es].
  - destruct H as [H|H]; [discriminate|]. split; [exact H|]. split; [|split; auto].
    intros x y Hin. exfalso. rewrite rempty_spec in Er. apply (Er x y Hin).
  - split; [exact Er|]. split; [auto|]. split; [|auto].
    intros x y Hin. exfalso. rewrite rempty_spec in Es. apply (Es x y Hin).
  - clear H. split; [unfold rempty in *; cbn; lia|]. split; [|split].
    + unfold inside; cbn; lia.
    + unfold inside; cbn; lia.
    + intros q Hr Hs x y.
      assert (A1 := Hr (minX r) (minY r)). assert (A2 := Hr (maxX r - 1) (maxY r - 1)).
      assert (A3 := Hs (minX s) (minY s)). assert (A4 := Hs (maxX s - 1) (maxY s - 1)).
      unfold rempty, inside in *; cbn. lia.
Qed.

Definition acc_ok (seen : list layer) (r : rect) : Prop :=
  ((forall l, In l seen -> is_empty (lBounds l)) /\ is_empty r) \/
  (rempty r = false /\ (forall l, In l seen -> subset (lBounds l) r) /\
   forall q, (forall l, In l seen -> subset (lBounds l) q) -> subset r q).

Lemma union_acc seen r l : acc_ok seen r -> acc_ok (seen ++ [l]) (union r (lBounds l)).
Proof.
  intros [(A & B)|(A & B & C)].
  - destruct (rempty (lBounds l)) eqn:E.
    + left. split.
      * intros l' Hl. apply in_app_or in Hl. destruct Hl as [Hl|[<-|[]]]; [auto|]. apply rempty_spec, E.
      * unfold union. rewrite (proj2 (rempty_spec r) B). apply rempty_spec, E.
    + right. assert (union r (lBounds l) = lBounds l) as ->.
      { unfold union. rewrite (proj2 (rempty_spec r) B). reflexivity. }
      split; [exact E|]. split.
      * intros l' Hl. apply in_app_or in Hl. destruct Hl as [Hl|[<-|[]]]; [|intros x y; auto].
        intros x y Hin. exfalso. apply (A l' Hl x y Hin).
      * intros q Hq. apply Hq, in_or_app. right; left; reflexivity.
  - right. destruct (union_spec_min r (lBounds l) (or_introl A)) as (U1 & U2 & U3 & U4).
    split; [exact U1|]. split.
    + intros l' Hl. apply in_app_or in Hl. destruct Hl as [Hl|[<-|[]]]; [|exact U3].
      intros x y Hin. apply U2, (B l' Hl), Hin.
    + intros q Hq. apply U4.
      * apply C. intros l' Hl. apply Hq, in_or_app. auto.
      * apply Hq, in_or_app. right; left; reflexivity.
Qed.
Lemma group_Bounds_acc g : acc_ok g (group_Bounds g).
Proof.
  unfold group_Bounds. cut (forall seen r, acc_ok seen r -> acc_ok (seen ++ g) (fold_left (fun r l => union r (lBounds l)) g r)).
  { intros H. apply (H [] ZR). left. split; [intros l []|]. apply rempty_spec. reflexivity. }
  induction g as [|l g IH]; intros seen r H; cbn [fold_left]; [rewrite app_nil_r; exact H|].
  replace (seen ++ l :: g) with ((seen ++ [l]) ++ g) by (rewrite <- app_assoc; reflexivity).
  apply IH, union_acc, H.
Qed.
Lemma group_Bounds_least g :
  (forall l, In l g -> subset (lBounds l) (group_Bounds g)) /\
  (forall q, (forall l, In l g -> subset (lBounds l) q) -> subset (group_Bounds g) q) /\
  ((forall l, In l g -> is_empty (lBounds l)) -> is_empty (group_Bounds g)).
Proof.
  destruct (group_Bounds_acc g) as [(A & B)|(A & B & C)].
  - split; [|split; auto].
    + intros l Hl x y Hin. exfalso. apply (A l Hl x y Hin).
    + intros q _ x y Hin. exfalso. apply (B x y Hin).
  - split; [exact B|]. split; [exact C|]. intros H. exfalso.
    assert (subset (group_Bounds g) ZR) as Z.
    { apply C. intros l Hl x y Hin. exfalso. apply (H l Hl x y Hin). }
    apply rempty_false in A. apply Z in A. unfold inside in A; cbn in A. lia.
Qed.
Lemma same_points_eq r s : rempty r = false -> same_points r s -> r = s.
Proof.
  intros E H. unfold rempty in E.
  assert (A1 := H (minX r) (minY r)). assert (A2 := H (maxX r - 1) (maxY r - 1)).
  assert (A0 : inside s (minX r) (minY r)) by (apply A1; unfold inside; lia).
  assert (A3 := H (minX s) (minY s)). assert (A4 := H (maxX s - 1) (maxY s - 1)).
  destruct r, s; unfold inside in *; cbn in *. f_equal; lia.
Qed.
Lemma group_Bounds_perm g h : Permutation g h -> rEq (group_Bounds g) (group_Bounds h) = true.
Proof.
  intros HP. destruct (group_Bounds_least g) as (A1 & A2 & _). destruct (group_Bounds_least h) as (B1 & B2 & _).
  assert (S : same_points (group_Bounds g) (group_Bounds h)).
  { intros x y. split.
    - apply A2. intros l Hl. apply B1. eapply Permutation_in; eauto.
    - apply B2. intros l Hl. apply A1. eapply Permutation_in; [apply Permutation_sym|]; eauto. }
  unfold rEq. destruct (rempty (group_Bounds g)) eqn:E.
  - assert (rempty (group_Bounds h) = true) as ->.
    { apply rempty_spec. intros x y Hin. apply S in Hin. rewrite rempty_spec in E. apply (E x y Hin). }
    apply orb_true_r.
  - rewrite (same_points_eq _ _ E S). rewrite (proj2 (rect_eqb_eq _ _) eq_refl). reflexivity.
Qed.

(** ** sub-images of layers *)
Lemma sub_layer_at l r rnd x y n : rempty (intersect r (lBounds l)) = false ->
  layer_At rnd (subImageLayer l r) x y n =
  layer_At rnd l (x - Z.max 0 (minX r - minX (lBounds l))) (y - Z.max 0 (minY r - minY (lBounds l))) n.
Proof.
  intros E. destruct (intersect_dims _ _ E) as (X & Y & _). destruct l as [nm b m v t im].
  unfold subImageLayer, lName, lBounds, lMode, lInvisible, lTransparency, lImage in *. cbn [layer_At].
  rewrite X, Y.
  replace (x - Z.max (minX r) (minX b)) with (x - Z.max 0 (minX r - minX b) - minX b) by lia.
  replace (y - Z.max (minY r) (minY b)) with (y - Z.max 0 (minY r - minY b) - minY b) by lia.
  reflexivity.
Qed.
Lemma sub_layer_bounds l r x y : inside (lBounds (subImageLayer l r)) x y <-> inside r x y /\ inside (lBounds l) x y.
Proof. destruct l. apply intersect_spec. Qed.

Lemma sub_palette g r : image_ColorModel (IGroup (image_SubImage g r)) = image_ColorModel (IGroup g).
Proof. destruct g as [|[]]; reflexivity. Qed.

Lemma sub_shown g r x y : inside r x y ->
  bottom_up x y (image_SubImage g r) = map (fun l => subImageLayer l r) (bottom_up x y g).
Proof.
  intros H. unfold bottom_up, image_SubImage. rewrite <- map_rev. induction (rev g) as [|l q IH]; [reflexivity|].
  cbn [map filter]. rewrite IH.
  assert (shown x y (subImageLayer l r) = shown x y l) as ->.
  { rewrite !shown_spec. replace (lInvisible (subImageLayer l r)) with (lInvisible l) by (destruct l; reflexivity). f_equal.
    pose proof (sub_layer_bounds l r x y) as B. destruct (pin x y (lBounds l)) eqn:E.
    - apply pin_spec. apply B. split; [exact H|]. apply pin_spec, E.
    - apply pin_false. rewrite B. rewrite pin_false in E. tauto. }
  destruct (shown x y l); reflexivity.
Qed.
Lemma sub_outside g r rnd x y n : ~ inside r x y ->
  image_At rnd (IGroup (image_SubImage g r)) x y n = Some (CAlpha 0, n).
Proof.
  intros H. rewrite group_At_fold.
  replace (bottom_up x y (image_SubImage g r)) with (@nil layer); [reflexivity|].
  unfold bottom_up, image_SubImage. rewrite <- map_rev. induction (rev g) as [|l q IH]; [reflexivity|].
  cbn [map filter]. rewrite <- IH. rewrite shown_spec.
  assert (pin x y (lBounds (subImageLayer l r)) = false) as ->.
  { apply pin_false. rewrite sub_layer_bounds. tauto. }
  rewrite andb_false_r. reflexivity.
Qed.
Lemma sub_image_at g r rnd x y n : inside r x y ->
  (forall l, In l g -> lInvisible l = false -> inside (lBounds l) x y ->
     minX r <= minX (lBounds l) /\ minY r <= minY (lBounds l)) ->
  image_At rnd (IGroup (image_SubImage g r)) x y n = image_At rnd (IGroup g) x y n.
Proof.
  intros Hin H. rewrite !group_At_fold, sub_palette, sub_shown by exact Hin.
  assert (F : Forall (fun l => shown x y l = true /\ In l g) (bottom_up x y g)).
  { apply Forall_forall. intros l Hl. apply filter_In in Hl. destruct Hl as (A & B). split; [exact B|].
    apply in_rev, A. }
  unfold fold_layers. generalize (Some (CAlpha 0, n)) as s.
  induction F as [|l q [S I] F IH]; intros s; [reflexivity|]. cbn [map fold_left].
  rewrite IH. f_equal. destruct s as [[c k]|]; [|reflexivity].
  rewrite shown_spec in S. apply andb_prop in S. destruct S as (S1 & S2). apply pin_spec in S2.
  destruct (lInvisible l) eqn:V; [discriminate|]. destruct (H l I V S2) as (X & Y).
  rewrite sub_layer_at.
  - replace (x - Z.max 0 (minX r - minX (lBounds l))) with x by lia.
    replace (y - Z.max 0 (minY r - minY (lBounds l))) with y by lia.
    destruct l; reflexivity.
  - apply not_true_iff_false. rewrite rempty_spec. intros E. apply (E x y). apply intersect_spec. auto.
Qed.

(** ** without Dissolve layers no random number is drawn *)
Lemma composite_rnd m r r' b t : m <> MDissolve -> composite m r b t = composite m r' b t.
Proof. destruct m; try reflexivity. congruence. Qed.
Lemma no_dissolve_Forall g : no_dissolve (IGroup g) <-> Forall (fun l => lMode l <> MDissolve /\ no_dissolve_l l) g.
Proof.
  cbn. induction g as [|l g IH]; [split; auto|]. rewrite IH. split; [intros [A B]; constructor; auto|].
  intros H; inversion H; auto.
Qed.
Lemma no_dissolve_det : forall i, no_dissolve i -> forall x y,
  exists o, forall rnd n, image_At rnd i x y n = option_map (fun c => (c, n)) o.
Proof.
  apply (image_layer_ind
    (fun i => no_dissolve i -> forall x y, exists o, forall rnd n, image_At rnd i x y n = option_map (fun c => (c, n)) o)
    (fun l => no_dissolve_l l -> forall x y, exists o, forall rnd n, layer_At rnd l x y n = option_map (fun c => (c, n)) o)).
  - intros p _ x y. exists (picAt p x y). intros rnd n. cbn. destruct (picAt p x y); reflexivity.
  - intros g HF H x y. apply no_dissolve_Forall in H. setoid_rewrite group_At_fold.
    generalize (is_palette (image_ColorModel (IGroup g))) as pal. intros pal.
    assert (F : Forall (fun l => lMode l <> MDissolve /\
        exists o, forall rnd n, layer_At rnd l x y n = option_map (fun c => (c, n)) o) (bottom_up x y g)).
    { apply Forall_forall. intros l Hl. apply filter_In in Hl. destruct Hl as (Hl & _). apply in_rev in Hl.
      rewrite Forall_forall in H, HF. destruct (H l Hl). split; [assumption|]. apply HF; assumption. }
    generalize (CAlpha 0) as c. induction F as [|l q [Hm (o & Ho)] F IH]; intros c.
    + exists (Some c). reflexivity.
    + cbn [fold_layers fold_left].
      assert (S : exists o', forall rnd n, match layer_At rnd l x y n with
                  | Some (d, n') => rule_of pal rnd (lMode l) c d n' | None => None end
                = option_map (fun c => (c, n)) o').
      { destruct o as [d|].
        - assert (N : forall rnd n, over_rule rnd (lMode l) c d n =
              option_map (fun c => (c, n)) (composite (lMode l) 0 c d)).
          { intros. unfold over_rule. rewrite (composite_rnd _ _ 0) by exact Hm.
            destruct (composite (lMode l) 0 c d); cbn; [|reflexivity]. destruct (lMode l); try reflexivity; congruence. }
          destruct pal; cbn [rule_of].
          + exists (if 32768 <=? cA (colourToNRGBA d)
                    then Some (CNRGBA64 (mk64 (cR (colourToNRGBA d)) (cG (colourToNRGBA d)) (cB (colourToNRGBA d)) 65535))
                    else Some c).
            intros rnd n. rewrite Ho. cbn [option_map]. unfold palette_rule.
            destruct (lMode l); try congruence; cbv zeta; destruct (_ <=? _); reflexivity.
          + exists (composite (lMode l) 0 c d). intros rnd n. rewrite Ho. cbn [option_map]. apply N.
        - exists None. intros rnd n. rewrite Ho. reflexivity. }
      destruct S as (o' & S). destruct o' as [c'|].
      * destruct (IH c') as (o2 & E2). exists o2. intros rnd n. rewrite S. apply E2.
      * exists None. intros rnd n. rewrite S. cbn. clear. induction q; [reflexivity|assumption].
  - intros i m IH H x y. destruct (IH H x y) as (o & E).
    exists (option_map (fun c => transparency c (grayAt m x y)) o). intros rnd n. cbn [image_At]. rewrite E.
    destruct o; reflexivity.
  - intros i t IH H x y. apply (IH H).
  - intros l IH H x y. apply (IH H).
  - intros nm b m v t i IH H x y. destruct (IH H (x - minX b) (y - minY b)) as (o & E).
    exists (option_map (fun c => transparency c (u8 (255 - t))) o). intros rnd n. cbn [layer_At]. rewrite E.
    destruct o; reflexivity.
Qed.

(** ** transparency (C19) *)
Lemma layer_at_eq l rnd x y n : layer_At rnd l x y n =
  match image_At rnd (lImage l) (x - minX (lBounds l)) (y - minY (lBounds l)) n with
  | Some (c, k) => Some (transparency c (u8 (255 - lTransparency l)), k) | None => None end.
Proof. destruct l as [nm b m v t im]. cbn [layer_At lImage lBounds lTransparency]. destruct (image_At _ _ _ _ _) as [[]|]; reflexivity. Qed.

Lemma transparency_laws c : wf_color c ->
  transparency c 255 = c /\ transparency c 0 = CNRGBA64 (mk64 0 0 0 0) /\
  (forall o, 0 <= o <= 255 -> wf_color (transparency c o)) /\
  (forall o, 0 < o <= 255 -> let d := colourToNRGBA (transparency c o) in let e := colourToNRGBA c in
     cR d = cR e /\ cG d = cG e /\ cB d = cB e) /\
  (forall o, 0 <= o <= 255 -> cA (colourToNRGBA (transparency c o)) = o * cA (colourToNRGBA c) / 255) /\
  (forall o o', 0 <= o <= o' -> o' <= 255 ->
     cA (colourToNRGBA (transparency c o)) <= cA (colourToNRGBA (transparency c o'))).
Proof.
  intros Hc.
  assert (A : forall o, 0 <= o <= 255 -> cA (colourToNRGBA (transparency c o)) = o * cA (colourToNRGBA c) / 255).
  { intros o Ho. destruct (Z.eq_dec o 255) as [->|]; [|destruct (Z.eq_dec o 0) as [->|]].
    - cbn [transparency Z.eqb]. rewrite Z.mul_comm, Z.div_mul by lia. reflexivity.
    - reflexivity.
    - destruct (transparency_ok c o Hc ltac:(lia)) as (m & -> & _ & _ & _ & _ & E). exact E. }
  split; [reflexivity|]. split; [reflexivity|]. split; [|split; [|split; [exact A|]]].
  - intros o Ho. apply transparency_wf; [exact Hc|unfold is_u8; lia].
  - intros o Ho. cbv zeta. destruct (Z.eq_dec o 255) as [->|]; [auto|].
    destruct (transparency_ok c o Hc ltac:(lia)) as (m & -> & _ & E1 & E2 & E3 & _). auto.
  - intros o o' H H'. rewrite !A by lia. apply Z.div_le_mono; [lia|].
    destruct (colourToNRGBA_wf c Hc) as (_ & _ & _ & W). unfold is_u16 in W. nia.
Qed.
