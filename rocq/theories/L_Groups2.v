(** The decoder rebuilds the tree *)
From Coq Require Import Permutation ZifyBool ZifyNat.
Require Import Verif.Base Verif.L_List Verif.L_Pix Verif.L_Word Verif.M_Color Verif.M_Composite Verif.M_Rect Verif.M_Image
  Verif.M_Reader Verif.M_Groups Verif.S_Groups Verif.L_Groups.

Scheme node_mut := Induction for node Sort Prop
  with forest_mut := Induction for forest Sort Prop.

(** *** UTF-8 of scalar values is prefix free *)
Lemma utf8_prefix r r' A B : scalar r = true -> scalar r' = true ->
  rune_utf8 r ++ A = rune_utf8 r' ++ B -> r = r' /\ A = B.
Proof.
  unfold scalar, rune_utf8, between. intros Hr Hr' H.
  assert (R1 : 0 <= r <= 1114111 /\ ~ (55296 <= r <= 57343)) by lia.
  assert (R2 : 0 <= r' <= 1114111 /\ ~ (55296 <= r' <= 57343)) by lia.
  assert (D : forall z k, 0 < k -> z = k * (z / k) + z mod k /\ 0 <= z mod k < k)
    by (intros z k Hk; split; [apply Z.div_mod; lia|apply Z.mod_pos_bound; lia]).
  pose proof (D r 64 ltac:(lia)). pose proof (D (r/64) 64 ltac:(lia)). pose proof (D (r/4096) 64 ltac:(lia)).
  pose proof (D r' 64 ltac:(lia)). pose proof (D (r'/64) 64 ltac:(lia)). pose proof (D (r'/4096) 64 ltac:(lia)).
  assert (r / 64 / 64 = r / 4096) by (rewrite Z.div_div by lia; reflexivity).
  assert (r' / 64 / 64 = r' / 4096) by (rewrite Z.div_div by lia; reflexivity).
  assert (r / 4096 / 64 = r / 262144) by (rewrite Z.div_div by lia; reflexivity).
  assert (r' / 4096 / 64 = r' / 262144) by (rewrite Z.div_div by lia; reflexivity).
  assert (S : ((r <? 0) || (1114111 <? r) || ((55296 <=? r) && (r <=? 57343))) = false) by lia.
  assert (S' : ((r' <? 0) || (1114111 <? r') || ((55296 <=? r') && (r' <=? 57343))) = false) by lia.
  rewrite S, S' in H.
  destruct ((0 <=? r) && (r <=? 127)) eqn:A1; [|destruct ((128 <=? r) && (r <=? 2047)) eqn:A2; [|destruct (r <=? 65535) eqn:A3]];
  (destruct ((0 <=? r') && (r' <=? 127)) eqn:B1; [|destruct ((128 <=? r') && (r' <=? 2047)) eqn:B2; [|destruct (r' <=? 65535) eqn:B3]]);
  cbn [app] in H; injection H; intros; try (split; [lia|assumption]); exfalso; lia.
Qed.

Lemma path_key_app p q : path_key (p ++ q) = path_key p ++ path_key q.
Proof. unfold path_key. rewrite map_app, concat_app. reflexivity. Qed.
Lemma path_key_cons r q : path_key (r :: q) = rune_utf8 r ++ path_key q.
Proof. reflexivity. Qed.
Lemma key_ext_neq p r q r' q' : scalar r = true -> scalar r' = true -> r <> r' ->
  path_key (p ++ r :: q) <> path_key (p ++ r' :: q').
Proof.
  intros S S' N. rewrite !path_key_app, !path_key_cons. intros E. apply app_inv_head in E.
  destruct (utf8_prefix _ _ _ _ S S' E). contradiction.
Qed.
Lemma key_self_neq p r q : path_key (p ++ r :: q) <> path_key p.
Proof.
  rewrite path_key_app. intros E. rewrite <- (app_nil_r (path_key p)) in E at 2. apply app_inv_head in E.
  exact (path_key_nonempty (r :: q) ltac:(discriminate) E).
Qed.
Lemma path_key_inj p q : forallb scalar p = true -> forallb scalar q = true -> path_key p = path_key q -> p = q.
Proof.
  revert q; induction p as [|r p IH]; intros [|r' q] Hp Hq E; auto.
  - exfalso. exact (path_key_nonempty (r' :: q) ltac:(discriminate) (eq_sym E)).
  - exfalso. exact (path_key_nonempty (r :: p) ltac:(discriminate) E).
  - cbn [forallb] in Hp, Hq. apply andb_prop in Hp, Hq. destruct Hp as [Sr Hp], Hq as [Sr' Hq].
    rewrite !path_key_cons in E. destruct (utf8_prefix _ _ _ _ Sr Sr' E) as [-> E']. f_equal. apply IH; auto.
Qed.

(** *** the loop, alpha check aside *)
Definition gstate : Type := (list gobj * gmap * Z)%type.
Fixpoint steps (bounds : rect) (ls : list dlayer) (st : gstate) : option gstate :=
  match ls with
  | [] => Some st
  | l :: ls => let '(os, m, n) := st in
      match group_step bounds os m n l with Some st => steps bounds ls st | None => None end
  end.
Lemma steps_app bounds a b st : steps bounds (a ++ b) st =
  match steps bounds a st with Some st => steps bounds b st | None => None end.
Proof.
  revert st; induction a as [|l a IH]; intros [[os m] n]; auto. cbn [app steps].
  destruct (group_step bounds os m n l); auto.
Qed.
(** every layer but the last has alpha *)
Fixpoint alphas (alpha : bool) (ls : list dlayer) : bool :=
  match ls with [] => true | l :: ls => alpha && alphas (dlAlpha l) ls end.
Lemma loop_steps bounds ls : forall alpha os m n, 
  (alphas alpha ls = true -> groups_loop bounds ls alpha os m n =
     match steps bounds ls (os, m, n) with Some (os, m, _) => inr (os, m) | None => inl EInvalidGroup end) /\
  (forall r, groups_loop bounds ls alpha os m n = inr r -> alphas alpha ls = true).
Proof.
  induction ls as [|l ls IH]; intros alpha os m n; [split; auto|].
  cbn [alphas groups_loop steps]. destruct alpha; cbn [andb negb]; [|split; intros; discriminate].
  destruct (group_step bounds os m n l) as [[[os1 m1] n1]|]; [|split; [reflexivity|discriminate]].
  apply IH.
Qed.

Definition dl_of (x : attrs * bool * list Z) : dlayer :=
  let '(a, g, p) := x in
  mkDL (aName a) (aBounds a) (aMode a) (aInvisible a) (aTransparency a) (aImage a) (aAlpha a) g p.
Definition n_attrs (nd : node) : attrs := match nd with NLeaf a => a | NGroup a _ => a end.
Definition n_group (nd : node) : bool := match nd with NLeaf _ => false | NGroup _ _ => true end.
Fixpoint flen (f : forest) : nat := match f with FNil => O | FCons _ _ f => S (flen f) end.

Section Rebuild.
Variable canvas : rect.

(** the objects and the map represent the forest as the entries of object [gi]
    from number [base] on *)
Fixpoint rep (os : list gobj) (m : gmap) (p : list Z) (gi base : nat) (ox oy : Z) (f : forest) : Prop :=
  match f with
  | FNil => True
  | FCons r nd f =>
      (exists g e, nth_error os gi = Some g /\ nth_error (goGroup g) base = Some e /\
         geLayer e = mkDL (aName (n_attrs nd)) (placed canvas ox oy (aBounds (n_attrs nd))) (aMode (n_attrs nd))
           (aInvisible (n_attrs nd)) (aTransparency (n_attrs nd)) (aImage (n_attrs nd)) (aAlpha (n_attrs nd))
           (n_group nd) (p ++ [r])) /\
      match nd with
      | NLeaf _ => True
      | NGroup a k => exists c gc, gmap_get m (path_key (p ++ [r])) = Some c /\ nth_error os c = Some gc /\
          goParent gc = Some gi /\ goOffset gc = base /\ (gi < c)%nat /\
          length (goGroup gc) = flen k /\
          rep os m (p ++ [r]) c 0 (minX (aBounds a)) (minY (aBounds a)) k
      end /\
      rep os m p gi (S base) ox oy f
  end.

Lemma with_group_self g : with_group g (goGroup g ++ []) = g.
Proof. unfold with_group. rewrite app_nil_r. destruct g; reflexivity. Qed.

Lemma rep_frame os m os2 m2 : forall f p gi base ox oy g es,
  nth_error os gi = Some g -> nth_error os2 gi = Some (with_group g (goGroup g ++ es)) ->
  (forall j o, (gi < j)%nat -> nth_error os j = Some o -> nth_error os2 j = Some o) ->
  (forall r q, In r (labels f) -> gmap_get m2 (path_key (p ++ r :: q)) = gmap_get m (path_key (p ++ r :: q))) ->
  rep os m p gi base ox oy f -> rep os2 m2 p gi base ox oy f.
Proof.
  apply (forest_mut
    (fun nd => match nd with NLeaf _ => True | NGroup _ f => forall p gi base ox oy g es,
      nth_error os gi = Some g -> nth_error os2 gi = Some (with_group g (goGroup g ++ es)) ->
      (forall j o, (gi < j)%nat -> nth_error os j = Some o -> nth_error os2 j = Some o) ->
      (forall r q, In r (labels f) -> gmap_get m2 (path_key (p ++ r :: q)) = gmap_get m (path_key (p ++ r :: q))) ->
      rep os m p gi base ox oy f -> rep os2 m2 p gi base ox oy f end)
    (fun f => forall p gi base ox oy g es,
      nth_error os gi = Some g -> nth_error os2 gi = Some (with_group g (goGroup g ++ es)) ->
      (forall j o, (gi < j)%nat -> nth_error os j = Some o -> nth_error os2 j = Some o) ->
      (forall r q, In r (labels f) -> gmap_get m2 (path_key (p ++ r :: q)) = gmap_get m (path_key (p ++ r :: q))) ->
      rep os m p gi base ox oy f -> rep os2 m2 p gi base ox oy f)); auto.
  intros r nd IHn f IHf p gi base ox oy g es E E2 Fr Fm R. cbn [rep] in R |- *.
  destruct R as ((g0 & e & Eg & Ee & Le) & Rn & Rf). split; [|split].
  - rewrite E in Eg. injection Eg as <-. exists (with_group g (goGroup g ++ es)), e. split; auto. split; auto.
    cbn [goGroup with_group]. rewrite nth_error_app1; auto. apply nth_error_Some; congruence.
  - destruct nd as [a|a k]; auto. destruct Rn as (c & gc & Mc & Ec & Pc & Oc & Lc & Len & Rk).
    exists c, gc. repeat split; auto.
    + rewrite Fm; auto. left; reflexivity.
    + refine (IHn (p ++ [r]) c 0%nat _ _ gc [] Ec _ _ _ Rk).
      * rewrite with_group_self. apply Fr; auto.
      * intros j o Hj. apply Fr. lia.
      * intros r' q _. rewrite <- !app_assoc. cbn [app]. apply Fm. left; reflexivity.
  - refine (IHf p gi (S base) ox oy g es E E2 Fr _ Rf). intros r' q I. apply Fm. right; exact I.
Qed.

Lemma scalar_s32 n : scalar n = true -> s32 (n + 1) = n + 1.
Proof. unfold scalar, s32. intros H. rewrite Z.mod_small by lia. destruct (n + 1 <? 2147483648) eqn:Q; lia. Qed.

Definition forest_goal (f : forest) : Prop :=
  forall bare p os m n gi g, wf os m -> well_labelled f ->
  (bare = true -> p = [] /\ numbered n f) ->
  gmap_get m (path_key p) = Some gi -> nth_error os gi = Some g ->
  exists os' m' es, steps canvas (map dl_of (file_order bare p f)) (os, m, n)
      = Some (os', m', if bare then n + Z.of_nat (flen f) else n) /\
    wf os' m' /\ (length os <= length os')%nat /\
    (forall j o, j <> gi -> nth_error os j = Some o -> nth_error os' j = Some o) /\
    nth_error os' gi = Some (with_group g (goGroup g ++ es)) /\ length es = flen f /\
    (forall k, (forall r q, In r (labels f) -> k <> path_key (p ++ r :: q)) -> gmap_get m' k = gmap_get m k) /\
    rep os' m' p gi (length (goGroup g)) (goX g) (goY g) f.

Lemma forest_steps : forall f, forest_goal f.
Proof.
  apply (forest_mut (fun nd => match nd with NLeaf _ => True | NGroup _ f => forest_goal f end) forest_goal); auto.
  - intros bare p os m n gi g W _ _ M E. exists os, m, []. cbn [file_order map steps flen]. 
    replace (if bare then n + Z.of_nat 0 else n) with n by (destruct bare; lia).
    repeat split; auto; try apply W. rewrite with_group_self. exact E.
  - intros r nd IHn f IHf bare p os m n gi g W WL Hb M E.
    cbn [well_labelled] in WL. destruct WL as (Sr & Nr & WLn & WLf).
    assert (Hr : bare = true -> r = n).
    { intros B. destruct (Hb B) as [_ Nm]. cbn [numbered] in Nm. tauto. }
    set (path := if bare then [] else p ++ [r]).
    set (l := dl_of (n_attrs nd, n_group nd, path)).
    assert (Eff : eff_path n l = p ++ [r]).
    { unfold eff_path, l, path. cbn [dl_of dlPath]. destruct bare.
      - destruct (Hb eq_refl) as [-> _]. rewrite (Hr eq_refl). reflexivity.
      - destruct (p ++ [r]) eqn:Q; auto. apply app_eq_nil in Q. destruct Q; discriminate. }
    (* the head *)
    pose proof (group_step_eq canvas os m n l) as St. rewrite Eff, removelast_last, M, E in St.
    set (e := entry_of canvas g n l) in *.
    set (n1 := match dlPath l with [] => s32 (n + 1) | _ => n end) in *.
    assert (Hn1 : n1 = if bare then n + 1 else n).
    { unfold n1, l, path. cbn [dl_of dlPath]. destruct bare; [apply scalar_s32; rewrite <- (Hr eq_refl); exact Sr|].
      destruct (p ++ [r]) eqn:Q; auto. apply app_eq_nil in Q. destruct Q; discriminate. }
    set (os1 := upd_nat (if dlGroup l then os ++ [new_obj l gi g] else os) gi (with_group g (goGroup g ++ [e]))) in *.
    set (m1 := if dlGroup l then gmap_set m (path_key (p ++ [r])) (length os) else m) in *.
    pose proof (group_step_wf _ _ _ _ _ _ _ _ W St) as W1.
    assert (Lg : (gi < length os)%nat) by (apply nth_error_Some; congruence).
    assert (E1 : nth_error os1 gi = Some (with_group g (goGroup g ++ [e]))).
    { unfold os1. rewrite nth_upd, Nat.eqb_refl. destruct (dlGroup l); rewrite ?app_length; cbn [length];
      [destruct (Nat.ltb_spec gi (length os + 1))|destruct (Nat.ltb_spec gi (length os))]; auto; lia. }
    assert (O1 : forall j o, j <> gi -> nth_error os j = Some o -> nth_error os1 j = Some o).
    { intros j o Nj Hj. unfold os1. rewrite nth_upd. destruct (Nat.eqb_spec gi j); [congruence|].
      destruct (dlGroup l); auto. rewrite nth_error_app1; auto. apply nth_error_Some; congruence. }
    assert (L1 : (length os <= length os1)%nat).
    { unfold os1. rewrite upd_nat_length. destruct (dlGroup l); rewrite ?app_length; lia. }
    assert (M1 : forall k, k <> path_key (p ++ [r]) -> gmap_get m1 k = gmap_get m k).
    { intros k Nk. unfold m1. destruct (dlGroup l); auto. apply gmap_get_set_other. auto. }
    assert (Le : geLayer e = mkDL (aName (n_attrs nd)) (placed canvas (goX g) (goY g) (aBounds (n_attrs nd))) (aMode (n_attrs nd))
           (aInvisible (n_attrs nd)) (aTransparency (n_attrs nd)) (aImage (n_attrs nd)) (aAlpha (n_attrs nd))
           (n_group nd) (p ++ [r])).
    { unfold e, entry_of. cbn [geLayer]. rewrite Eff. reflexivity. }
    (* the children: state after the node *)
    assert (Node : exists os2 m2, steps canvas (map dl_of
          match nd with NLeaf a => [(a, false, path)] | NGroup a k => (a, true, path) :: file_order false (p ++ [r]) k end)
          (os, m, n) = Some (os2, m2, n1) /\ wf os2 m2 /\ (length os <= length os2)%nat /\
        (forall j o, j <> gi -> nth_error os j = Some o -> nth_error os2 j = Some o) /\
        nth_error os2 gi = Some (with_group g (goGroup g ++ [e])) /\
        (forall k, (forall q, k <> path_key (p ++ r :: q)) -> gmap_get m2 k = gmap_get m k) /\
        match nd with
        | NLeaf _ => True
        | NGroup a k => exists c gc, gmap_get m2 (path_key (p ++ [r])) = Some c /\ nth_error os2 c = Some gc /\
          goParent gc = Some gi /\ goOffset gc = length (goGroup g) /\ (gi < c)%nat /\
          length (goGroup gc) = flen k /\
          rep os2 m2 (p ++ [r]) c 0 (minX (aBounds a)) (minY (aBounds a)) k
        end).
    { destruct nd as [a|a k].
      - exists os1, m1. cbn [map steps]. change (dl_of (a, false, path)) with l. rewrite St. repeat split; auto; apply W1.
      - assert (Ec : nth_error os1 (length os) = Some (new_obj l gi g)).
        { unfold os1. rewrite nth_upd. destruct (Nat.eqb_spec gi (length os)); [lia|].
          change (dlGroup l) with true. cbn iota. rewrite nth_error_app2 by lia. rewrite Nat.sub_diag. reflexivity. }
        assert (Mc : gmap_get m1 (path_key (p ++ [r])) = Some (length os)) by apply gmap_get_set_same.
        destruct (IHn false (p ++ [r]) os1 m1 n1 (length os) (new_obj l gi g) W1 WLn ltac:(discriminate) Mc Ec)
          as (os2 & m2 & es & S2 & W2 & L2 & O2 & G2 & Len2 & F2 & R2).
        exists os2, m2. split; [|split; [exact W2|split; [lia|split; [|split; [|split]]]]].
        + cbn [map steps]. change (dl_of (a, true, path)) with l. rewrite St. exact S2.
        + intros j o Nj Hj. apply O2; [|apply O1; auto].
          assert (j < length os)%nat by (apply nth_error_Some; congruence). lia.
        + apply O2; [lia|exact E1].
        + intros q Nq. rewrite F2.
          * apply M1. apply (Nq []).
          * intros r' q' _. rewrite <- app_assoc. apply Nq.
        + exists (length os), (with_group (new_obj l gi g) (goGroup (new_obj l gi g) ++ es)).
          repeat split; auto. rewrite F2; [exact Mc|]. intros r' q' _. intros Q. exact (key_self_neq _ _ _ (eq_sym Q)). }
    destruct Node as (os2 & m2 & S2 & W2 & L2 & O2 & G2 & F2 & R2).
    (* the siblings *)
    assert (Mp : gmap_get m2 (path_key p) = Some gi).
    { rewrite F2; [exact M|]. intros q Q. exact (key_self_neq _ _ _ (eq_sym Q)). }
    assert (Hb2 : bare = true -> p = [] /\ numbered n1 f).
    { intros B. destruct (Hb B) as [Hp Nm]. split; auto. rewrite Hn1, B. cbn [numbered] in Nm. destruct Nm as [-> Nm]. exact Nm. }
    destruct (IHf bare p os2 m2 n1 gi _ W2 WLf Hb2 Mp G2) as (os3 & m3 & es & S3 & W3 & L3 & O3 & G3 & Len3 & F3 & R3).
    cbn [goGroup with_group goX goY goParent goOffset] in G3, R3.
    exists os3, m3, (e :: es). split; [|split; [exact W3|split; [lia|split; [|split; [|split; [|split]]]]]].
    + cbn [file_order]. fold path. rewrite map_app, steps_app, S2, S3. do 2 f_equal. rewrite Hn1. cbn [flen].
      destruct bare; lia.
    + intros j o Nj Hj. apply O3; auto.
    + rewrite G3. unfold with_group. cbn [goGroup goX goY goParent goOffset]. rewrite <- app_assoc. reflexivity.
    + cbn [length flen]. rewrite Len3. reflexivity.
    + intros k Hk. rewrite F3.
      * apply F2. intros q. apply Hk. left; reflexivity.
      * intros r' q I. apply Hk. right; exact I.
    + assert (Keep : forall q, gmap_get m3 (path_key (p ++ r :: q)) = gmap_get m2 (path_key (p ++ r :: q))).
      { intros q. apply F3. intros r' q' I. apply key_ext_neq; auto; [|intros ->; contradiction].
        clear - I WLf. induction f as [|r2 nd f IH]; [contradiction|]. cbn [labels] in I. cbn [well_labelled] in WLf.
        destruct I as [<-|I]; [tauto|]. apply IH; tauto. }
      cbn [rep]. split; [|split].
      * exists (with_group (with_group g (goGroup g ++ [e])) ((goGroup g ++ [e]) ++ es)), e.
        split; [exact G3|]. split; [|exact Le]. cbn [goGroup with_group].
        rewrite <- app_assoc. rewrite nth_error_app2, Nat.sub_diag by lia. reflexivity.
      * destruct nd as [a|a k]; auto. destruct R2 as (c & gc & Mc & Ec & Pc & Oc & Lc & Len & Rk).
        exists c, gc. assert (Ec3 : nth_error os3 c = Some gc) by (apply O3; auto; lia).
        repeat split; auto.
        -- rewrite Keep. exact Mc.
        -- refine (rep_frame os2 m2 os3 m3 k (p ++ [r]) c 0%nat _ _ gc [] Ec _ _ _ Rk).
           ++ rewrite with_group_self. exact Ec3.
           ++ intros j o Hj Ho. apply O3; auto. lia.
           ++ intros r' q _. rewrite <- !app_assoc. cbn [app]. apply Keep.
      * rewrite app_length in R3. cbn [length] in R3. rewrite Nat.add_1_r in R3. exact R3.
Qed.

Lemma skipn_nth {A} (l : list A) i a : nth_error l i = Some a -> skipn i l = a :: skipn (S i) l.
Proof. revert i; induction l as [|b l IH]; intros [|i] H; cbn in H; try discriminate; [injection H as ->; reflexivity|]. cbn [skipn]. rewrite (IH _ H). reflexivity. Qed.

Lemma rep_build os m : wf os m -> forall f p gi base ox oy fuel g,
  nth_error os gi = Some g -> length (goGroup g) = (base + flen f)%nat -> (length os <= fuel + gi)%nat ->
  rep os m p gi base ox oy f ->
  mapi (fun k e => layer_of (geLayer e)
          (match child os (map snd m) gi k with
           | Some c => IGroup (build fuel os (map snd m) c)
           | None => image_of (dlImage (geLayer e))
           end)) base (skipn base (goGroup g)) = tree_layers canvas ox oy f.
Proof.
  intros W.
  set (Q := fun f => forall p gi base ox oy fuel g,
    nth_error os gi = Some g -> length (goGroup g) = (base + flen f)%nat -> (length os <= fuel + gi)%nat ->
    rep os m p gi base ox oy f ->
    mapi (fun k e => layer_of (geLayer e)
            (match child os (map snd m) gi k with
             | Some c => IGroup (build fuel os (map snd m) c)
             | None => image_of (dlImage (geLayer e))
             end)) base (skipn base (goGroup g)) = tree_layers canvas ox oy f).
  change (forall f, Q f).
  apply (forest_mut (fun nd => match nd with NLeaf _ => True | NGroup _ f => Q f end) Q); auto.
  - intros p gi base ox oy fuel g E Len _ _. cbn [flen] in Len. rewrite skipn_all2 by lia. reflexivity.
  - intros r nd IHn f IHf p gi base ox oy fuel g E Len Fu R. cbn [rep] in R.
    destruct R as ((g0 & e & Eg & Ee & Le) & Rn & Rf). rewrite E in Eg. injection Eg as <-.
    rewrite (skipn_nth _ _ _ Ee). cbn [mapi]. cbn [flen] in Len.
    rewrite (IHf p gi (S base) ox oy fuel g E ltac:(lia) Fu Rf).
    cbn [tree_layers]. rewrite Le.
    assert (Cc : child os (map snd m) gi base = match nd with NLeaf _ => None | NGroup _ _ => gmap_get m (path_key (p ++ [r])) end).
    { destruct (child os (map snd m) gi base) as [c|] eqn:C.
      - apply child_in in C. destruct C as [Ic C]. apply is_child_inv in C. destruct C as (gc & Ec & Pc & Oc).
        pose proof (wf_o _ _ W c gc Ec) as P. rewrite Pc in P. destruct P as (_ & pg & e' & Ep & Ee' & Ge).
        rewrite E in Ep. injection Ep as <-. rewrite Oc, Ee in Ee'. injection Ee' as <-. rewrite Le in Ge. cbn in Ge.
        destruct nd as [a|a k]; [discriminate|]. destruct Rn as (c' & gc' & Mc & Ec' & Pc' & Oc' & _).
        rewrite Mc. f_equal. exact (wf_u _ _ W _ _ _ _ _ Ec Ec' Pc Pc' (eq_trans Oc (eq_sym Oc'))).
      - destruct nd as [a|a k]; auto. destruct Rn as (c' & gc' & Mc & Ec' & Pc' & Oc' & _). exfalso.
        pose proof (find_none _ _ C c' (gmap_get_in _ _ _ Mc)) as F.
        rewrite (is_child_intro os gi base c' gc' Ec' Pc' Oc') in F. discriminate. }
    rewrite Cc. destruct nd as [a|a k].
    + reflexivity.
    + destruct Rn as (c & gc & Mc & Ec & Pc & Oc & Lc & Lenc & Rk). rewrite Mc. cbn [n_attrs layer_of dlName dlBounds dlMode dlInvisible dlTransparency].
      unfold layer_of. cbn [dlName dlBounds dlMode dlInvisible dlTransparency]. do 2 f_equal. f_equal.
      destruct fuel as [|fuel]; [assert (gi < length os)%nat by (apply nth_error_Some; congruence); lia|].
      cbn [build]. rewrite Ec. refine (IHn (p ++ [r]) c 0%nat _ _ fuel gc Ec Lenc _ Rk). lia.
Qed.

Lemma fix_bottom_spec l : fix_bottom l = bottom_normal l.
Proof.
  unfold bottom_normal. induction l as [|x l IH]; auto. cbn [fix_bottom].
  destruct l as [|y l].
  - cbn. destruct x as [nm b md v t i]. unfold fix_bottom_layer. cbn. destruct md; reflexivity.
  - rewrite IH. cbn [rev]. destruct (rev l ++ [y]) as [|[nm b md v t i] q] eqn:R.
    + destruct (rev l); discriminate.
    + cbn [app]. cbn [rev]. rewrite rev_app_distr. reflexivity.
Qed.

Lemma rebuild bare f : well_labelled f -> (bare = true -> numbered 0 f) ->
  alphas true (map dl_of (file_order bare [] f)) = true ->
  exists os m, makeGroups (map dl_of (file_order bare [] f)) canvas = inr (os, m) /\
    forall order, Permutation order (map snd m) -> makeImage os order = bottom_normal (tree_layers canvas 0 0 f).
Proof.
  intros WL Nm Al.
  destruct (forest_steps f bare [] groups0 gmap0 0 0%nat (mkGO [] 0 0 None 0) wf_init WL
     ltac:(auto) eq_refl eq_refl) as (os & m & es & S & W & L & O & G & Len & F & R).
  exists os, m. split.
  - unfold makeGroups. destruct (loop_steps canvas (map dl_of (file_order bare [] f)) true groups0 gmap0 0) as [H _].
    rewrite (H Al), S. reflexivity.
  - intros order P. rewrite (makeImage_build os m order W P), fix_bottom_spec. f_equal.
    cbn [build]. rewrite G. cbn [goGroup goX goY length] in R.
    assert (0 < length os)%nat by (apply nth_error_Some; congruence).
    refine (rep_build os m W f [] 0%nat 0%nat 0 0 (length os) _ G _ _ R); [exact Len|].
    (* one more level than needed *)
    lia.
Qed.
End Rebuild.
