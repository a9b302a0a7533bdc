(** Which layer lists are accepted; where clipping moves pixels *)
From Coq Require Import Permutation ZifyBool ZifyNat.
Require Import Verif.Base Verif.L_List Verif.L_Pix Verif.L_Word Verif.M_Color Verif.M_Composite Verif.M_Rect Verif.M_Image
  Verif.M_Reader Verif.M_Groups Verif.S_Groups Verif.L_Groups Verif.L_Groups2.

Lemma alphas_spec ls : forall alpha, alphas alpha ls = true <->
  (ls <> [] -> alpha = true) /\ (forall i l, nth_error ls i = Some l -> (S i < length ls)%nat -> dlAlpha l = true).
Proof.
  induction ls as [|l ls IH]; intros alpha.
  - split; auto. intros _. split; [congruence|]. intros [|i] l H; discriminate.
  - cbn [alphas]. rewrite andb_true_iff, IH. split.
    + intros (A & B & C). split; auto. intros [|i] l' E L; cbn in E, L.
      * injection E as <-. apply B. destruct ls; [cbn in L; lia|discriminate].
      * apply (C i l' E). lia.
    + intros (A & C). split; [apply A; discriminate|]. split.
      * intros N. apply (C O l eq_refl). destruct ls; [congruence|cbn; lia].
      * intros i l' E L. apply (C (S i) l' E). cbn. lia.
Qed.

Definition dom (m : gmap) (k : list Z) : Prop := gmap_get m k <> None.
Lemma dom_set m k v k' : dom (gmap_set m k v) k' <-> dom m k' \/ k' = k.
Proof.
  unfold dom. destruct (list_eq_dec Z.eq_dec k' k) as [->|N].
  - rewrite gmap_get_set_same. split; [right; reflexivity|discriminate].
  - rewrite gmap_get_set_other by congruence. tauto.
Qed.
Lemma s32_succ n : 0 <= n < 2147483647 -> s32 (n + 1) = n + 1.
Proof. unfold s32. intros H. rewrite Z.mod_small by lia. destruct (n + 1 <? 2147483648) eqn:Q; lia. Qed.

Lemma steps_known canvas ls : forall os m n, wf os m -> 0 <= n -> n + zlen ls < 2147483648 ->
  let ps := item_paths n (map dlPath ls) in
  (exists r, steps canvas ls (os, m, n) = Some r) <->
  (forall i p, nth_error ps i = Some p -> dom m (path_key (removelast p)) \/
     exists j l q, (j < i)%nat /\ nth_error ls j = Some l /\ dlGroup l = true /\ nth_error ps j = Some q /\
       path_key q = path_key (removelast p)).
Proof.
  induction ls as [|l ls IH]; intros os m n W Hn Hl ps.
  - split; [intros _ [|i] p H; discriminate|]. intros _. eexists. reflexivity.
  - assert (Hn1 : (match dlPath l with [] => s32 (n + 1) | _ => n end) = match dlPath l with [] => n + 1 | _ => n end).
    { destruct (dlPath l); auto. apply s32_succ. rewrite zlen_cons in Hl. pose proof (zlen_pos ls). lia. }
    assert (Ps : ps = eff_path n l :: item_paths (match dlPath l with [] => n + 1 | _ => n end) (map dlPath ls)).
    { unfold ps, eff_path. cbn [map item_paths]. destruct (dlPath l); reflexivity. }
    set (n1 := match dlPath l with [] => n + 1 | _ => n end) in *.
    set (ps1 := item_paths n1 (map dlPath ls)) in *.
    cbn [steps]. pose proof (group_step_eq canvas os m n l) as St.
    destruct (gmap_get m (path_key (removelast (eff_path n l)))) as [gi|] eqn:G.
    2:{ rewrite St. split; [intros [r H]; discriminate|]. intros H.
        specialize (H O (eff_path n l)). rewrite Ps in H. specialize (H eq_refl).
        destruct H as [D|(j & l' & q & Lj & _)]; [contradiction|lia]. }
    assert (exists g, nth_error os gi = Some g) as [g Eg].
    { destruct (nth_error os gi) eqn:Q; eauto. apply nth_error_None in Q.
      pose proof (wf_lt _ _ W gi (gmap_get_in _ _ _ G)). lia. }
    rewrite Eg in St. rewrite Hn1 in St.
    pose proof (group_step_wf _ _ _ _ _ _ _ _ W St) as W1.
    set (m1 := if dlGroup l then _ else m) in *. set (os1 := upd_nat _ _ _) in *. rewrite St.
    rewrite (IH os1 m1 n1 W1).
    2:{ unfold n1; destruct (dlPath l); lia. }
    2:{ rewrite zlen_cons in Hl. unfold n1; destruct (dlPath l); lia. }
    change (item_paths n1 (map dlPath ls)) with ps1. rewrite Ps.
    assert (Dm : forall k, dom m1 k <-> dom m k \/ (dlGroup l = true /\ k = path_key (eff_path n l))).
    { intros k. unfold m1. destruct (dlGroup l); [rewrite dom_set; tauto|]. split; [tauto|]. intros [H|[H _]]; [exact H|discriminate]. }
    split.
    + intros H [|i] p E; cbn in E.
      * injection E as <-. left. unfold dom. congruence.
      * destruct (H i p E) as [D|(j & l' & q & Lj & El & Gl & Eq & K)].
        -- apply Dm in D. destruct D as [D|[D K]]; auto. right. exists O, l, (eff_path n l). repeat split; auto. lia.
        -- right. exists (S j), l', q. repeat split; auto. lia.
    + intros H i p E. destruct (H (S i) p E) as [D|(j & l' & q & Lj & El & Gl & Eq & K)].
      * left. apply Dm. auto.
      * destruct j as [|j]; cbn in El, Eq.
        -- injection El as <-. injection Eq as <-. left. apply Dm. right. auto.
        -- right. exists j, l', q. repeat split; auto. lia.
Qed.

Lemma forallb_removelast {A} (P : A -> bool) l : forallb P l = true -> forallb P (removelast l) = true.
Proof.
  induction l as [|a l IH]; auto. cbn [forallb]. intros H. apply andb_prop in H. destruct H as [Ha Hl].
  destruct l as [|b l]; auto. change (removelast (a :: b :: l)) with (a :: removelast (b :: l)).
  cbn [forallb]. rewrite Ha. exact (IH Hl).
Qed.

Lemma accepted ls canvas : zlen ls < 2147483648 ->
  let ps := item_paths 0 (map dlPath ls) in
  Forall (fun p => forallb scalar p = true) ps ->
  (exists r, makeGroups ls canvas = inr r) <->
  (forall i l, nth_error ls i = Some l -> (S i < length ls)%nat -> dlAlpha l = true) /\
  (forall i p, nth_error ps i = Some p -> removelast p = [] \/
     exists j l, (j < i)%nat /\ nth_error ls j = Some l /\ dlGroup l = true /\ nth_error ps j = Some (removelast p)).
Proof.
  intros Hl ps Sc. unfold makeGroups.
  destruct (loop_steps canvas ls true groups0 gmap0 0) as [L1 L2].
  pose proof (steps_known canvas ls groups0 gmap0 0 wf_init ltac:(lia) ltac:(lia)) as K.
  cbv zeta in K. fold ps in K.
  assert (Sp : forall i p, nth_error ps i = Some p -> forallb scalar p = true).
  { intros i p E. rewrite Forall_forall in Sc. apply Sc. exact (nth_error_In _ _ E). }
  assert (K2 : (exists r, steps canvas ls (groups0, gmap0, 0) = Some r) <->
    (forall i p, nth_error ps i = Some p -> removelast p = [] \/
     exists j l, (j < i)%nat /\ nth_error ls j = Some l /\ dlGroup l = true /\ nth_error ps j = Some (removelast p))).
  { rewrite K. split; intros H i p E.
    - destruct (H i p E) as [D|(j & l & q & Lj & El & Gl & Eq & Kq)].
      + left. destruct (removelast p) as [|r q] eqn:R; auto. exfalso.
        unfold dom, gmap_get, gmap0 in D. cbn [find fst] in D. rewrite key_eqb_neq in D; [congruence|].
        intros Q. exact (path_key_nonempty (r :: q) ltac:(discriminate) (eq_sym Q)).
      + right. exists j, l. repeat split; auto. rewrite <- (path_key_inj q (removelast p)); auto.
        * exact (Sp _ _ Eq).
        * apply forallb_removelast. exact (Sp _ _ E).
    - destruct (H i p E) as [D|(j & l & Lj & El & Gl & Eq)].
      + left. rewrite D. unfold dom. cbn. discriminate.
      + right. exists j, l, (removelast p). auto. }
  split.
  - intros [r H]. pose proof (L2 r H) as Al. split.
    + apply (alphas_spec ls true) in Al. apply Al.
    + apply K2. rewrite (L1 Al) in H. destruct (steps canvas ls (groups0, gmap0, 0)); [eauto|discriminate].
  - intros [Al Kn]. assert (Al' : alphas true ls = true) by (apply alphas_spec; auto).
    rewrite (L1 Al'). apply K2 in Kn. destruct Kn as [[[os m] n] E]. rewrite E. eauto.
Qed.

Lemma rejection_errors ls canvas e : makeGroups ls canvas = inl e -> e = EMissingAlpha \/ e = EInvalidGroup.
Proof.
  unfold makeGroups. generalize true groups0 gmap0 0. induction ls as [|l ls IH]; intros al os m n H; cbn in H; [discriminate|].
  destruct (negb al); [injection H as <-; auto|].
  destruct (group_step canvas os m n l) as [[[os1 m1] n1]|]; [eauto|injection H as <-; auto].
Qed.
Lemma missing_alpha ls canvas : makeGroups ls canvas = inl EMissingAlpha ->
  exists i l, nth_error ls i = Some l /\ (S i < length ls)%nat /\ dlAlpha l = false.
Proof.
  unfold makeGroups. intros H.
  assert (X : exists i l, nth_error (mkDL [] ZR MNormal false 0 None true false [] :: ls) i = Some l /\ (i < length ls)%nat /\ dlAlpha l = false).
  { revert H. change true with (dlAlpha (mkDL [] ZR MNormal false 0 None true false [])) at 1.
    generalize (mkDL [] ZR MNormal false 0 None true false []). generalize groups0 gmap0 0.
    induction ls as [|l ls IH]; intros os m n d H; cbn in H; [discriminate|].
    destruct (dlAlpha d) eqn:D; cbn in H.
    - destruct (group_step canvas os m n l) as [[[os1 m1] n1]|]; [|discriminate].
      destruct (IH os1 m1 n1 l H) as (i & l' & E & L & A). exists (S i), l'. cbn. repeat split; auto. lia.
    - exists O, d. cbn. repeat split; auto. lia. }
  destruct X as ([|i] & l & E & L & A); cbn in E.
  - injection E as <-. discriminate.
  - eauto.
Qed.

Lemma loop_invalid canvas ls : forall al os m n, wf os m -> 0 <= n -> n + zlen ls < 2147483648 ->
  groups_loop canvas ls al os m n = inl EInvalidGroup ->
  let ps := item_paths n (map dlPath ls) in
  exists i p, nth_error ps i = Some p /\ ~ dom m (path_key (removelast p)) /\
    forall j l q, (j < i)%nat -> nth_error ls j = Some l -> dlGroup l = true -> nth_error ps j = Some q ->
      path_key q <> path_key (removelast p).
Proof.
  induction ls as [|l ls IH]; intros al os m n W Hn Hl H ps; [discriminate|].
  cbn [groups_loop] in H. destruct (negb al); [discriminate|].
  assert (Hn1 : (match dlPath l with [] => s32 (n + 1) | _ => n end) = match dlPath l with [] => n + 1 | _ => n end).
  { destruct (dlPath l); auto. apply s32_succ. rewrite zlen_cons in Hl. pose proof (zlen_pos ls). lia. }
  assert (Ps : ps = eff_path n l :: item_paths (match dlPath l with [] => n + 1 | _ => n end) (map dlPath ls)).
  { unfold ps, eff_path. cbn [map item_paths]. destruct (dlPath l); reflexivity. }
  set (n1 := match dlPath l with [] => n + 1 | _ => n end) in *.
  rewrite Ps. pose proof (group_step_eq canvas os m n l) as St.
  destruct (gmap_get m (path_key (removelast (eff_path n l)))) as [gi|] eqn:G.
  2:{ exists O, (eff_path n l). split; auto. split; [unfold dom; congruence|]. intros; lia. }
  assert (exists g, nth_error os gi = Some g) as [g Eg].
  { destruct (nth_error os gi) eqn:Q; eauto. apply nth_error_None in Q.
    pose proof (wf_lt _ _ W gi (gmap_get_in _ _ _ G)). lia. }
  rewrite Eg, Hn1 in St. rewrite St in H.
  pose proof (group_step_wf _ _ _ _ _ _ _ _ W St) as W1.
  rewrite zlen_cons in Hl.
  destruct (IH (dlAlpha l) _ _ n1 W1 ltac:(unfold n1; destruct (dlPath l); lia) ltac:(unfold n1; destruct (dlPath l); lia) H)
    as (i & p & E & D & K).
  exists (S i), p. split; auto. split.
  - intros Dm. apply D. destruct (dlGroup l); auto. apply dom_set. auto.
  - intros [|j] l' q Lj El Gl Eq.
    + cbn in El, Eq. injection El as <-. injection Eq as <-. intros Q. apply D. rewrite Gl. apply dom_set. auto.
    + cbn in El, Eq. apply (K j l' q); auto. lia.
Qed.
Lemma invalid_group ls canvas : zlen ls < 2147483648 -> makeGroups ls canvas = inl EInvalidGroup ->
  let ps := item_paths 0 (map dlPath ls) in
  exists i p, nth_error ps i = Some p /\ removelast p <> [] /\
    forall j l, (j < i)%nat -> nth_error ls j = Some l -> dlGroup l = true -> nth_error ps j <> Some (removelast p).
Proof.
  intros Hl H. destruct (loop_invalid canvas ls true groups0 gmap0 0 wf_init ltac:(lia) ltac:(lia) H) as (i & p & E & D & K).
  exists i, p. split; auto. split.
  - intros R. apply D. rewrite R. unfold dom. cbn. discriminate.
  - intros j l Lj El Gl Eq. exact (K j l _ Lj El Gl Eq eq_refl).
Qed.

(** *** clipping *)
Fixpoint gloop (rnd : nat -> Z) (pal : bool) (x y : Z) (n : nat) (g : list layer) : option (color * nat) :=
  match g with
  | [] => Some (CAlpha 0, n)
  | l :: below =>
      cn <-? gloop rnd pal x y n below;;
      if lInvisible l then Some cn
      else if negb (pin x y (lBounds l)) then Some cn
      else dn <-? layer_At rnd l x y (snd cn);;
           at_step rnd pal (lMode l) (fst cn) (fst dn) (snd dn)
  end.
Lemma group_At_loop rnd g x y n :
  image_At rnd (IGroup g) x y n = gloop rnd (is_palette (image_ColorModel (IGroup g))) x y n g.
Proof.
  cbn [image_At]. generalize (is_palette (image_ColorModel (IGroup g))). intros pal.
  induction g as [|l g IH]; auto. cbn [gloop]. rewrite <- IH. reflexivity.
Qed.

(** two layers that cannot be told apart inside the canvas; (ox,oy) is the origin
    of their coordinates on the canvas *)
Record agree (canvas : rect) (ox oy : Z) (l l' : layer) : Prop := mkAgree {
  ag_inv : lInvisible l = lInvisible l'; ag_mode : lMode l = lMode l';
  ag_model : image_ColorModel (lImage l) = image_ColorModel (lImage l');
  ag_pin : forall x y, pin (x + ox) (y + oy) canvas = true -> pin x y (lBounds l) = pin x y (lBounds l');
  ag_at : forall x y, pin (x + ox) (y + oy) canvas = true -> pin x y (lBounds l) = true ->
          forall rnd n, layer_At rnd l x y n = layer_At rnd l' x y n }.
Lemma agree_loop canvas ox oy g g' : Forall2 (agree canvas ox oy) g g' ->
  forall rnd pal x y n, pin (x + ox) (y + oy) canvas = true ->
  gloop rnd pal x y n g = gloop rnd pal x y n g'.
Proof.
  induction 1 as [|l l' g g' A F IH]; intros rnd pal x y n P; auto. cbn [gloop].
  rewrite (IH rnd pal x y n P), (ag_inv _ _ _ _ _ A), <- (ag_pin _ _ _ _ _ A x y P), (ag_mode _ _ _ _ _ A).
  destruct (gloop rnd pal x y n g') as [cn|]; auto. cbn [obind]. destruct (lInvisible l'); auto.
  destruct (pin x y (lBounds l)) eqn:Q; auto. cbn [negb]. rewrite (ag_at _ _ _ _ _ A x y P Q). reflexivity.
Qed.
Lemma group_model l g : image_ColorModel (IGroup (l :: g)) = image_ColorModel (lImage l).
Proof. destruct l; reflexivity. Qed.
Lemma agree_At canvas ox oy g g' : Forall2 (agree canvas ox oy) g g' ->
  forall rnd x y n, pin (x + ox) (y + oy) canvas = true ->
  image_At rnd (IGroup g) x y n = image_At rnd (IGroup g') x y n.
Proof.
  intros F rnd x y n P. rewrite !group_At_loop.
  replace (image_ColorModel (IGroup g')) with (image_ColorModel (IGroup g)).
  - apply (agree_loop canvas ox oy); auto.
  - destruct F as [|l l' g g' A F]; auto. rewrite !group_model. apply (ag_model _ _ _ _ _ A).
Qed.

Lemma layer_At_eq rnd nm b md v t i x y n : layer_At rnd (mkLayer nm b md v t i) x y n =
  (cn <-? image_At rnd i (x - minX b) (y - minY b) n;; Some (transparency (fst cn) (u8 (255 - t)), snd cn)).
Proof. reflexivity. Qed.

Lemma placed_pin canvas ox oy b x y : pin (x + ox) (y + oy) canvas = true ->
  pin x y (placed canvas ox oy b) = pin x y (rsub b ox oy).
Proof.
  unfold placed, intersect, rempty, pin, rsub, ZR. cbn [minX minY maxX maxY]. intros H.
  match goal with |- context [if ?c then _ else _] => destruct c eqn:E end; cbn [minX minY maxX maxY]; lia.
Qed.
Lemma placed_min canvas ox oy b x y : minX canvas <= minX b -> minY canvas <= minY b ->
  pin x y (placed canvas ox oy b) = true ->
  minX (placed canvas ox oy b) = minX b - ox /\ minY (placed canvas ox oy b) = minY b - oy.
Proof.
  unfold placed, intersect, rempty, pin, rsub, ZR. cbn [minX minY maxX maxY]. intros Hx Hy.
  match goal with |- context [if ?c then _ else _] => destruct c eqn:E end; cbn [minX minY maxX maxY]; lia.
Qed.

Lemma tree_agree canvas : forall f ox oy, starts_inside canvas f ->
  Forall2 (agree canvas ox oy) (tree_layers canvas ox oy f) (tree_unclipped ox oy f).
Proof.
  set (Q := fun f => forall ox oy, starts_inside canvas f ->
    Forall2 (agree canvas ox oy) (tree_layers canvas ox oy f) (tree_unclipped ox oy f)).
  change (forall f, Q f).
  apply (forest_mut (fun nd => match nd with NLeaf _ => True | NGroup _ f => Q f end) Q); auto.
  - intros ox oy _. constructor.
  - intros r nd IHn f IHf ox oy S. cbn [starts_inside] in S. destruct S as ((Sx & Sy) & Sn & Sf).
    cbn [tree_layers tree_unclipped].
    destruct nd as [a|a k]; constructor; try (apply IHf; exact Sf).
    + constructor; auto; cbn [lBounds].
      * intros x y P. apply placed_pin; exact P.
      * intros x y P Pb rnd n. rewrite !layer_At_eq. destruct (placed_min canvas ox oy (aBounds a) x y Sx Sy Pb) as [-> ->].
        reflexivity.
    + pose proof (IHn (minX (aBounds a)) (minY (aBounds a)) Sn) as Fk.
      constructor; auto; cbn [lBounds lImage].
      * destruct Fk as [|l l' g g' A F]; auto. rewrite !group_model. apply (ag_model _ _ _ _ _ A).
      * intros x y P. apply placed_pin; exact P.
      * intros x y P Pb rnd n. rewrite !layer_At_eq. destruct (placed_min canvas ox oy (aBounds a) x y Sx Sy Pb) as [-> ->].
        cbn [rsub minX minY].
        rewrite (agree_At _ _ _ _ _ Fk); auto.
        replace (x - (minX (aBounds a) - ox) + minX (aBounds a)) with (x + ox) by lia.
        replace (y - (minY (aBounds a) - oy) + minY (aBounds a)) with (y + oy) by lia. exact P.
Qed.

Lemma agree_bottom canvas ox oy g g' : Forall2 (agree canvas ox oy) g g' ->
  Forall2 (agree canvas ox oy) (bottom_normal g) (bottom_normal g').
Proof.
  rewrite <- !fix_bottom_spec. induction 1 as [|l l' g g' A F IH]; [constructor|].
  cbn [fix_bottom]. destruct F as [|l2 l2' g g' A2 F].
  - constructor; [|constructor].
    destruct l as [nm b md v t i], l' as [nm' b' md' v' t' i']. destruct A as [A1 A2 A3 A4 A5]. cbn in A1, A2, A3.
    subst md' v'. unfold fix_bottom_layer; cbn [lMode].
    assert (X : agree canvas ox oy (mkLayer nm b MNormal v t i) (mkLayer nm' b' MNormal v t' i')) by (constructor; auto).
    destruct md; auto; constructor; auto.
  - constructor; auto.
Qed.

Lemma clipping_harmless canvas f x y rnd n : starts_inside canvas f -> pin x y canvas = true ->
  image_At rnd (IGroup (bottom_normal (tree_layers canvas 0 0 f))) x y n =
  image_At rnd (IGroup (bottom_normal (tree_unclipped 0 0 f))) x y n.
Proof.
  intros S P. apply (agree_At canvas 0 0).
  - apply agree_bottom, tree_agree, S.
  - rewrite !Z.add_0_r. exact P.
Qed.
