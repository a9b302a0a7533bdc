(** Lemmas about the assembly of layers *)
From Coq Require Import Permutation ZifyBool ZifyNat.
Require Import Verif.Base Verif.L_List Verif.L_Pix Verif.M_Color Verif.M_Composite Verif.M_Rect Verif.M_Image
  Verif.M_Reader Verif.M_Groups.

Lemma nth_ext_error {A} (a b : list A) : (forall i, nth_error a i = nth_error b i) -> a = b.
Proof.
  revert b; induction a as [|x a IH]; intros [|y b] H; auto.
  - specialize (H O); discriminate.
  - specialize (H O); discriminate.
  - pose proof (H O) as H0. cbn in H0. injection H0 as ->. f_equal. apply IH. intros i. exact (H (S i)).
Qed.
Lemma nth_upd {A} (l : list A) i j v :
  nth_error (upd_nat l i v) j = if (i =? j)%nat then (if (i <? length l)%nat then Some v else None) else nth_error l j.
Proof.
  destruct (Nat.eqb_spec i j) as [<-|N].
  - destruct (Nat.ltb_spec i (length l)) as [L|L].
    + apply nth_upd_same; exact L.
    + apply nth_error_None. rewrite upd_nat_length. exact L.
  - apply nth_upd_other; exact N.
Qed.
Lemma key_eqb_eq a b : key_eqb a b = true <-> a = b.
Proof. unfold key_eqb. destruct (list_eq_dec Z.eq_dec a b); split; congruence. Qed.
Lemma key_eqb_refl a : key_eqb a a = true.
Proof. apply key_eqb_eq; reflexivity. Qed.
Lemma key_eqb_neq a b : a <> b -> key_eqb a b = false.
Proof. intros N. destruct (key_eqb a b) eqn:E; auto. apply key_eqb_eq in E; contradiction. Qed.

(** *** the map *)
Lemma gmap_get_set_same m k v : gmap_get (gmap_set m k v) k = Some v.
Proof. unfold gmap_get, gmap_set. cbn. rewrite key_eqb_refl. reflexivity. Qed.
Lemma find_filter {A} (p q : A -> bool) l : (forall x, p x = true -> q x = true) ->
  find p (filter q l) = find p l.
Proof.
  intros H. induction l as [|x l IH]; auto. cbn [filter find].
  destruct (q x) eqn:Q; cbn [find]; destruct (p x) eqn:P; auto.
  rewrite (H _ P) in Q. discriminate.
Qed.
Lemma gmap_get_set_other m k k' v : k <> k' -> gmap_get (gmap_set m k v) k' = gmap_get m k'.
Proof.
  intros N. unfold gmap_get, gmap_set. cbn [find fst]. rewrite (key_eqb_neq k k' N).
  rewrite find_filter; auto. intros x E. apply key_eqb_eq in E. subst k'. rewrite key_eqb_neq; auto.
Qed.
Lemma gmap_get_in m k v : gmap_get m k = Some v -> In v (map snd m).
Proof.
  unfold gmap_get. destruct (find _ m) as [kv|] eqn:F; [|discriminate]. intros [= <-].
  apply find_some in F. apply in_map. tauto.
Qed.
Lemma in_filter_map {A B} (f : A -> B) p l x : In x (map f (filter p l)) -> In x (map f l).
Proof. rewrite !in_map_iff. intros (a & E & I). exists a. apply filter_In in I. tauto. Qed.
Lemma nodup_filter_map {A B} (f : A -> B) p l : NoDup (map f l) -> NoDup (map f (filter p l)).
Proof.
  induction l as [|x l IH]; auto. cbn [map filter]. intros N. inversion N; subst.
  destruct (p x); auto. cbn [map]. constructor; auto. intros I. apply in_filter_map in I. contradiction.
Qed.

(** *** invariants of the groups under construction *)
Definition wf_obj (os : list gobj) : Prop :=
  forall gi g, nth_error os gi = Some g ->
    match goParent g with
    | None => gi = O
    | Some p => (p < gi)%nat /\ exists pg e, nth_error os p = Some pg /\
                nth_error (goGroup pg) (goOffset g) = Some e /\ dlGroup (geLayer e) = true
    end.
Definition uniq (os : list gobj) : Prop :=
  forall i j gi gj p, nth_error os i = Some gi -> nth_error os j = Some gj ->
    goParent gi = Some p -> goParent gj = Some p -> goOffset gi = goOffset gj -> i = j.
Definition plain (os : list gobj) : Prop :=
  forall gi g k e, nth_error os gi = Some g -> nth_error (goGroup g) k = Some e ->
    geImage e = GImg (dlImage (geLayer e)).
Record wf (os : list gobj) (m : gmap) : Prop := mkWf {
  wf_o : wf_obj os; wf_u : uniq os; wf_p : plain os;
  wf_nd : NoDup (map snd m); wf_lt : forall v, In v (map snd m) -> (v < length os)%nat;
  wf_root : exists g, nth_error os 0 = Some g /\ goParent g = None /\ goX g = 0 /\ goY g = 0;
  wf_0 : gmap_get m [] = Some O }.

Lemma wf_init : wf groups0 gmap0.
Proof.
  constructor.
  - intros [|gi] g E; cbn in E; [injection E as <-; reflexivity|destruct gi; discriminate].
  - intros [|i] [|j] gi gj p E1 E2; auto; cbn in E1, E2; try (destruct i; discriminate).
    destruct j; discriminate.
  - intros [|gi] g k e E; cbn in E; [injection E as <-|destruct gi; discriminate].
    destruct k; discriminate.
  - cbn. constructor; auto. constructor.
  - cbn. intros v [<-|[]]. auto.
  - eexists. cbn. auto.
  - reflexivity.
Qed.

Lemma rune_nonempty r : rune_utf8 r <> [].
Proof. unfold rune_utf8. repeat (destruct (_ : bool); try discriminate). Qed.
Lemma path_key_nonempty p : p <> [] -> path_key p <> [].
Proof.
  destruct p as [|r p]; [contradiction|]. intros _ E. unfold path_key in E. cbn [map concat] in E.
  apply app_eq_nil in E. destruct E as [E _]. exact (rune_nonempty _ E).
Qed.

(** what one iteration does, in one piece *)
Definition eff_path (n : Z) (l : dlayer) : list Z := match dlPath l with [] => [n] | p => p end.
Definition entry_of (bounds : rect) (g : gobj) (n : Z) (l : dlayer) : gentry :=
  mkGE (mkDL (dlName l) (rsub (intersect (dlBounds l) bounds) (goX g) (goY g)) (dlMode l) (dlInvisible l)
         (dlTransparency l) (dlImage l) (dlAlpha l) (dlGroup l) (eff_path n l)) (GImg (dlImage l)).
Definition with_group (g : gobj) (e : list gentry) : gobj :=
  mkGO e (goX g) (goY g) (goParent g) (goOffset g).
Definition new_obj (l : dlayer) (gi : nat) (g : gobj) : gobj :=
  mkGO [] (minX (dlBounds l)) (minY (dlBounds l)) (Some gi) (length (goGroup g)).
Lemma eff_nonempty n l : eff_path n l <> [].
Proof. unfold eff_path. destruct (dlPath l); discriminate. Qed.

Lemma group_step_eq bounds os m n l :
  group_step bounds os m n l =
  match gmap_get m (path_key (removelast (eff_path n l))) with
  | None => None
  | Some gi =>
      match nth_error os gi with
      | None => None
      | Some g =>
          Some (upd_nat (if dlGroup l then os ++ [new_obj l gi g] else os) gi
                  (with_group g (goGroup g ++ [entry_of bounds g n l])),
                (if dlGroup l then gmap_set m (path_key (eff_path n l)) (length os) else m),
                match dlPath l with [] => s32 (n + 1) | _ => n end)
      end
  end.
Proof.
  unfold group_step, eff_path, entry_of, eff_path, with_group, new_obj.
  destruct (dlPath l) as [|r p]; destruct (gmap_get m _); auto;
  destruct (nth_error os n0); auto; destruct (dlGroup l); reflexivity.
Qed.

Lemma upd_app_old {A} (l k : list A) i v : (i < length l)%nat -> upd_nat (l ++ k) i v = upd_nat l i v ++ k.
Proof. revert i; induction l as [|a l IH]; intros i H; cbn in H; [lia|]. destruct i; cbn; auto. f_equal. apply IH. lia. Qed.

Lemma group_step_wf bounds os m n l os' m' n' : wf os m ->
  group_step bounds os m n l = Some (os', m', n') -> wf os' m'.
Proof.
  intros W. rewrite group_step_eq.
  destruct (gmap_get m _) as [gi|] eqn:G; [|discriminate].
  destruct (nth_error os gi) as [g|] eqn:E; [|discriminate].
  intros [= <- <- _].
  assert (gi < length os)%nat as L by (apply nth_error_Some; congruence).
  set (g' := with_group g (goGroup g ++ [entry_of bounds g n l])).
  set (os1 := if dlGroup l then os ++ [new_obj l gi g] else os).
  assert (L1 : (length os <= length os1)%nat) by (unfold os1; destruct (dlGroup l); rewrite ?app_length; lia).
  assert (O1 : forall i, (i < length os)%nat -> nth_error os1 i = nth_error os i).
  { intros i Hi. unfold os1. destruct (dlGroup l); auto. apply nth_error_app1; exact Hi. }
  (* every object of the result is an old one up to the appended entry, or the new one *)
  assert (Cl : forall i o, nth_error (upd_nat os1 gi g') i = Some o ->
     (i = gi /\ o = g') \/ (i <> gi /\ (i < length os)%nat /\ nth_error os i = Some o)
     \/ (i = length os /\ dlGroup l = true /\ o = new_obj l gi g)).
  { intros i o. rewrite nth_upd. destruct (Nat.eqb_spec gi i) as [<-|N].
    - destruct (Nat.ltb_spec gi (length os1)); [|discriminate]. intros [= <-]. auto.
    - intros Ho. destruct (Nat.lt_ge_cases i (length os)) as [Hi|Hi].
      + right; left. rewrite O1 in Ho by exact Hi. auto.
      + unfold os1 in Ho. destruct (dlGroup l) eqn:D.
        * rewrite nth_error_app2 in Ho by exact Hi.
          destruct (i - length os)%nat eqn:Di; cbn in Ho; [|destruct n0; discriminate].
          injection Ho as <-. right; right. repeat split; auto. lia.
        * apply nth_error_None in Hi. congruence. }
  assert (Gi : nth_error (upd_nat os1 gi g') gi = Some g').
  { rewrite nth_upd, Nat.eqb_refl. destruct (Nat.ltb_spec gi (length os1)); auto. lia. }
  assert (Ot : forall i, i <> gi -> (i < length os)%nat -> nth_error (upd_nat os1 gi g') i = nth_error os i).
  { intros i Ni Hi. rewrite nth_upd. destruct (Nat.eqb_spec gi i); [congruence|]. auto. }
  constructor.
  - (* parents *)
    assert (Old : forall i o, nth_error os i = Some o ->
       match goParent o with
       | None => i = O
       | Some p => (p < i)%nat /\ exists pg e, nth_error (upd_nat os1 gi g') p = Some pg /\
                   nth_error (goGroup pg) (goOffset o) = Some e /\ dlGroup (geLayer e) = true
       end).
    { intros i o Ho. pose proof (wf_o _ _ W i o Ho) as P. destruct (goParent o) as [p|]; auto.
      destruct P as (Lp & pg & e & Ep & Off & Ge). split; auto.
      destruct (Nat.eq_dec p gi) as [->|Np].
      - exists g', e. split; auto. unfold g', with_group; cbn. rewrite E in Ep. injection Ep as <-.
        rewrite nth_error_app1; auto. apply nth_error_Some; congruence.
      - exists pg, e. split; auto. rewrite Ot; auto. apply nth_error_Some; congruence. }
    intros i o Ho. destruct (Cl i o Ho) as [[-> ->]|[(Ni & Hi & Ho')|(-> & D & ->)]].
    + exact (Old gi g E).
    + exact (Old i o Ho').
    + cbn. split; auto. exists g', (entry_of bounds g n l). split; auto. split; [|exact D].
      unfold g', with_group; cbn. rewrite nth_error_app2, Nat.sub_diag by lia. reflexivity.
  - (* distinct places *)
    intros i j oi oj p Hi Hj Pi Pj Off.
    assert (Gp : goParent g' = goParent g /\ goOffset g' = goOffset g) by (split; reflexivity).
    destruct Gp as [Gp Go].
    assert (X : forall i o q, nth_error os i = Some o -> goParent o = Some q -> goOffset o = length (goGroup g) -> q = gi -> False).
    { intros i0 o q Ho Po Of ->. pose proof (wf_o _ _ W i0 o Ho) as P. rewrite Po in P.
      destruct P as (_ & pg & e & Ep & Lt & _). rewrite E in Ep. injection Ep as <-.
      assert (goOffset o < length (goGroup g))%nat by (apply nth_error_Some; congruence). lia. }
    destruct (Cl i oi Hi) as [[-> ->]|[(Ni & Li & Hi')|(-> & D & ->)]];
    destruct (Cl j oj Hj) as [[-> ->]|[(Nj & Lj & Hj')|(-> & D2 & ->)]]; auto.
    + rewrite Gp in Pi. rewrite Go in Off. exact (wf_u _ _ W _ _ _ _ _ E Hj' Pi Pj Off).
    + exfalso. rewrite Gp in Pi. rewrite Go in Off. cbn in Pj, Off. injection Pj as <-. exact (X _ _ _ E Pi Off eq_refl).
    + rewrite Gp in Pj. rewrite Go in Off. exact (wf_u _ _ W _ _ _ _ _ Hi' E Pi Pj Off).
    + exact (wf_u _ _ W _ _ _ _ _ Hi' Hj' Pi Pj Off).
    + exfalso. cbn in Pj, Off. injection Pj as <-. exact (X _ _ _ Hi' Pi Off eq_refl).
    + exfalso. rewrite Gp in Pj. rewrite Go in Off. cbn in Pi, Off. injection Pi as <-. exact (X _ _ _ E Pj (eq_sym Off) eq_refl).
    + exfalso. cbn in Pi, Off. injection Pi as <-. exact (X _ _ _ Hj' Pj (eq_sym Off) eq_refl).
  - (* images untouched *)
    intros i o k e Ho He. destruct (Cl i o Ho) as [[-> ->]|[(Ni & Hi & Ho')|(-> & D & ->)]].
    + unfold g', with_group in He; cbn in He.
      destruct (Nat.lt_ge_cases k (length (goGroup g))) as [Hk|Hk].
      * rewrite nth_error_app1 in He by exact Hk. exact (wf_p _ _ W _ _ _ _ E He).
      * rewrite nth_error_app2 in He by exact Hk.
        destruct (k - length (goGroup g))%nat as [|q]; cbn in He; [|destruct q; discriminate].
        injection He as <-. reflexivity.
    + exact (wf_p _ _ W _ _ _ _ Ho' He).
    + destruct k; discriminate.
  - destruct (dlGroup l); [|apply (wf_nd _ _ W)].
    unfold gmap_set. cbn [map snd]. constructor.
    + intros I. apply in_filter_map in I. apply (wf_lt _ _ W) in I. lia.
    + apply nodup_filter_map, (wf_nd _ _ W).
  - rewrite upd_nat_length. intros v I. destruct (dlGroup l) eqn:D.
    + unfold gmap_set in I. cbn [map snd] in I. unfold os1. rewrite app_length; cbn.
      destruct I as [<-|I]; [lia|]. apply in_filter_map in I. apply (wf_lt _ _ W) in I. lia.
    + apply (wf_lt _ _ W) in I. lia.
  - destruct (wf_root _ _ W) as (r & Er & Pr & Xr & Yr).
    destruct (Nat.eq_dec gi 0) as [->|Ng].
    + exists g'. rewrite E in Er. injection Er as ->. auto.
    + exists r. split; auto. rewrite Ot; auto. apply nth_error_Some; congruence.
  - destruct (dlGroup l); [|apply (wf_0 _ _ W)].
    rewrite gmap_get_set_other; [apply (wf_0 _ _ W)|]. apply path_key_nonempty, eff_nonempty.
Qed.

Lemma groups_loop_wf bounds ls : forall alpha os m n os' m', wf os m ->
  groups_loop bounds ls alpha os m n = inr (os', m') -> wf os' m'.
Proof.
  induction ls as [|l ls IH]; intros alpha os m n os' m' W H.
  - injection H as <- <-. exact W.
  - cbn [groups_loop] in H. destruct (negb alpha); [discriminate|].
    destruct (group_step bounds os m n l) as [[[os1 m1] n1]|] eqn:S; [|discriminate].
    refine (IH _ _ _ _ _ _ _ H). exact (group_step_wf _ _ _ _ _ _ _ _ W S).
Qed.
Lemma makeGroups_wf ls bounds os m : makeGroups ls bounds = inr (os, m) -> wf os m.
Proof. intros H. exact (groups_loop_wf _ _ _ _ _ _ _ _ wf_init H). Qed.

(** *** the image assembled from the objects, without a heap *)
Fixpoint mapi {A B} (f : nat -> A -> B) (k : nat) (l : list A) : list B :=
  match l with [] => [] | a :: l => f k a :: mapi f (S k) l end.
Lemma nth_mapi {A B} (f : nat -> A -> B) l : forall k i,
  nth_error (mapi f k l) i = option_map (f (k + i)%nat) (nth_error l i).
Proof.
  induction l as [|a l IH]; intros k i; [destruct i; reflexivity|].
  destruct i as [|i]; cbn [mapi nth_error]; [rewrite Nat.add_0_r; reflexivity|].
  rewrite IH. replace (S k + i)%nat with (k + S i)%nat by lia. reflexivity.
Qed.
Lemma mapi_length {A B} (f : nat -> A -> B) l : forall k, length (mapi f k l) = length l.
Proof. induction l as [|a l IH]; intros k; cbn; auto. Qed.
(** the live object whose slice goes into entry k of object gi *)
Definition is_child (os : list gobj) (gi k c : nat) : bool :=
  match nth_error os c with
  | Some g => match goParent g with Some p => (p =? gi)%nat && (goOffset g =? k)%nat | None => false end
  | None => false
  end.
Definition child (os : list gobj) (live : list nat) (gi k : nat) : option nat := find (is_child os gi k) live.
Fixpoint build (fuel : nat) (os : list gobj) (live : list nat) (gi : nat) : list layer :=
  match fuel with
  | O => []
  | S fuel =>
      match nth_error os gi with
      | None => []
      | Some g =>
          mapi (fun k e => layer_of (geLayer e)
                  (match child os live gi k with
                   | Some c => IGroup (build fuel os live c)
                   | None => image_of (dlImage (geLayer e))
                   end)) 0 (goGroup g)
      end
  end.

(** the state after visiting the objects [done] *)
Record inv (os : list gobj) (done : list nat) (s : mstate) : Prop := mkInv {
  iv_cur : length (msCur s) = length os;
  iv_lt : forall x, (x < length os)%nat -> (nth x (msCur s) O < length (msHeap s))%nat;
  iv_inj : forall x y, (x < length os)%nat -> (y < length os)%nat ->
           nth x (msCur s) O = nth y (msCur s) O -> x = y;
  iv_arr : forall x g, nth_error os x = Some g ->
           nth_error (msHeap s) (nth x (msCur s) O) =
           Some (mapi (fun k e => mkGE (geLayer e)
                    (match child os done x k with
                     | Some c => GRef (nth c (msCur s) O)
                     | None => geImage e
                     end)) 0 (goGroup g));
  iv_im : msIm s = if existsb (Nat.eqb O) done then Some (nth 0 (msCur s) O) else None }.

Lemma nth_nth_error {A} (l : list A) i d : (i < length l)%nat -> nth_error l i = Some (nth i l d).
Proof. revert i; induction l as [|a l IH]; intros i H; cbn in H; [lia|]. destruct i; cbn; auto. apply IH; lia. Qed.
Lemma nth_upd_nat (l : list nat) i j v : (i < length l)%nat ->
  nth j (upd_nat l i v) O = if (i =? j)%nat then v else nth j l O.
Proof.
  intros L. destruct (Nat.lt_ge_cases j (length l)) as [Hj|Hj].
  - pose proof (nth_upd l i j v) as H.
    rewrite (nth_nth_error (upd_nat l i v) j O) in H by (rewrite upd_nat_length; exact Hj).
    rewrite (nth_nth_error l j O) in H by exact Hj.
    destruct (Nat.ltb_spec i (length l)); [|lia]. destruct (i =? j)%nat; congruence.
  - rewrite !nth_overflow; auto; [|rewrite upd_nat_length; auto].
    destruct (Nat.eqb_spec i j); auto. lia.
Qed.

Lemma inv_init os m : wf os m -> inv os [] (mkMS (map goGroup os) (seq 0 (length os)) None).
Proof.
  intros W. constructor; cbn [msCur msHeap msIm].
  - apply seq_length.
  - intros x H. rewrite seq_nth by exact H. rewrite map_length. lia.
  - intros x y Hx Hy. rewrite !seq_nth by assumption. lia.
  - intros x g E. assert (x < length os)%nat as L by (apply nth_error_Some; congruence).
    rewrite seq_nth by exact L. cbn [Nat.add]. rewrite nth_error_map, E. cbn [option_map]. f_equal.
    apply nth_ext_error. intros i. rewrite nth_mapi. cbn [child find].
    destruct (nth_error (goGroup g) i) as [[l im]|]; reflexivity.
  - reflexivity.
Qed.

Lemma find_app' {A} (f : A -> bool) l x : find f (l ++ [x]) = match find f l with Some y => Some y | None => if f x then Some x else None end.
Proof. induction l as [|a l IH]; cbn; auto. destruct (f a); auto. Qed.

Lemma child_in os done x k c : child os done x k = Some c -> In c done /\ is_child os x k c = true.
Proof. unfold child. apply find_some. Qed.
Lemma is_child_inv os x k c : is_child os x k c = true ->
  exists g, nth_error os c = Some g /\ goParent g = Some x /\ goOffset g = k.
Proof.
  unfold is_child. destruct (nth_error os c) as [g|]; [|discriminate].
  destruct (goParent g) as [p|] eqn:P; [|discriminate]. intros H. apply andb_prop in H. destruct H as [A B].
  apply Nat.eqb_eq in A, B. subst. exists g. auto.
Qed.
Lemma is_child_intro os x k c g : nth_error os c = Some g -> goParent g = Some x -> goOffset g = k ->
  is_child os x k c = true.
Proof. intros E P O. unfold is_child. rewrite E, P, O, !Nat.eqb_refl. reflexivity. Qed.

Lemma inv_step os m done s gi : wf os m -> inv os done s -> (gi < length os)%nat -> ~ In gi done ->
  (forall c, In c done -> (c < length os)%nat) ->
  inv os (done ++ [gi]) (make_step os s gi).
Proof.
  intros W I L Nd Ld.
  destruct I as [Icur Ilt Iinj Iarr Iim].
  destruct (nth_error os gi) as [g|] eqn:E; [|apply nth_error_None in E; lia].
  unfold make_step. rewrite E.
  rewrite (nth_nth_error (msCur s) gi O) by (rewrite Icur; exact L).
  pose proof (Iarr gi g E) as Agi. rewrite Agi.
  set (agi := mapi _ 0 (goGroup g)) in *.
  set (na := length (msHeap s)).
  set (cur' := upd_nat (msCur s) gi na).
  assert (Cur : forall x, nth x cur' O = if (gi =? x)%nat then na else nth x (msCur s) O)
    by (intros x; unfold cur'; apply nth_upd_nat; rewrite Icur; exact L).
  assert (Lcur : length cur' = length os) by (unfold cur'; rewrite upd_nat_length; exact Icur).
  (* a child of gi is not gi; children keep their array *)
  assert (Ch : forall x k c, child os done x k = Some c -> nth c cur' O = nth c (msCur s) O).
  { intros x k c H. apply child_in in H. destruct H as [H _]. rewrite Cur.
    destruct (Nat.eqb_spec gi c); [subst; contradiction|reflexivity]. }
  assert (Inj : forall x y, (x < length os)%nat -> (y < length os)%nat -> nth x cur' O = nth y cur' O -> x = y).
  { intros x y Hx Hy. rewrite !Cur. destruct (Nat.eqb_spec gi x), (Nat.eqb_spec gi y); subst; auto.
    - intros Q. pose proof (Ilt y Hy). unfold na in Q. lia.
    - intros Q. pose proof (Ilt x Hx). unfold na in Q. lia. }
  assert (Ex : existsb (Nat.eqb 0) (done ++ [gi]) = existsb (Nat.eqb 0) done || (0 =? gi)%nat)
    by (rewrite existsb_app; cbn; destruct (0 =? gi)%nat; rewrite ?orb_false_r; reflexivity).
  pose proof (wf_o _ _ W gi g E) as P.
  (* the map after the step, given how the entries changed *)
  assert (Step : forall x gx, nth_error os x = Some gx ->
     goParent g <> Some x ->
     mapi (fun k e => mkGE (geLayer e) match child os (done ++ [gi]) x k with Some c => GRef (nth c cur' O) | None => geImage e end) 0 (goGroup gx)
     = mapi (fun k e => mkGE (geLayer e) match child os done x k with Some c => GRef (nth c (msCur s) O) | None => geImage e end) 0 (goGroup gx)).
  { intros x gx Hx Np. apply nth_ext_error. intros i. rewrite !nth_mapi. cbn [Nat.add].
    destruct (nth_error (goGroup gx) i); auto. cbn [option_map]. do 2 f_equal.
    unfold child. rewrite find_app'. fold (child os done x i).
    destruct (child os done x i) as [c|] eqn:C; [rewrite (Ch _ _ _ C); reflexivity|].
    destruct (is_child os x i gi) eqn:Q; auto. apply is_child_inv in Q. destruct Q as (g2 & E2 & P2 & _).
    rewrite E in E2. injection E2 as <-. contradiction. }
  destruct (goParent g) as [p|] eqn:Pg.
  - destruct P as (Lp & pg & e0 & Ep & Off0 & _).
    assert (Off : (goOffset g < length (goGroup pg))%nat) by (apply nth_error_Some; congruence).
    assert (Lpo : (p < length os)%nat) by lia.
    assert (Cp : nth_error cur' p = Some (nth p (msCur s) O)).
    { rewrite (nth_nth_error cur' p O) by (rewrite Lcur; exact Lpo). rewrite Cur. destruct (Nat.eqb_spec gi p); [lia|reflexivity]. }
    rewrite Cp. pose proof (Iarr p pg Ep) as Ap. pose proof (Ilt p Lpo) as Hp.
    rewrite nth_error_app1 by exact Hp. rewrite Ap.
    set (apg := mapi _ 0 (goGroup pg)) in *.
    assert (Gi0 : gi <> O) by lia.
    constructor; cbn [msCur msHeap msIm].
    + exact Lcur.
    + intros x Hx. rewrite upd_nat_length, app_length; cbn. rewrite Cur. destruct (gi =? x)%nat; unfold na; [lia|].
      pose proof (Ilt x Hx). lia.
    + exact Inj.
    + intros x gx Hx. assert (Lx : (x < length os)%nat) by (apply nth_error_Some; congruence).
      rewrite nth_upd. rewrite app_length; cbn [length].
      destruct (Nat.eqb_spec (nth p (msCur s) O) (nth x cur' O)) as [Q|Q].
      * (* x = p *)
        assert (x = p). { apply Inj; auto. rewrite <- Q. rewrite Cur. destruct (Nat.eqb_spec gi p); [lia|reflexivity]. }
        subst x. rewrite Ep in Hx. injection Hx as <-.
        destruct (Nat.ltb_spec (nth p (msCur s) O) (length (msHeap s) + 1)); [|lia]. f_equal.
        unfold set_image. unfold apg at 1. rewrite nth_mapi.
        destruct (nth_error (goGroup pg) (goOffset g)) as [e|] eqn:Eo; [|apply nth_error_None in Eo; lia].
        cbn [option_map geLayer]. apply nth_ext_error. intros i. rewrite nth_upd. unfold apg. rewrite !nth_mapi. cbn [Nat.add].
        assert (Lm : length (mapi (fun (k : nat) (e0 : gentry) => mkGE (geLayer e0)
             match child os done p k with Some c => GRef (nth c (msCur s) O) | None => geImage e0 end) 0 (goGroup pg)) = length (goGroup pg)).
        { apply mapi_length. }
        rewrite Lm. unfold child. rewrite find_app'. fold (child os done p i).
        destruct (Nat.eqb_spec (goOffset g) i) as [Oi|Oi].
        -- subst i. destruct (Nat.ltb_spec (goOffset g) (length (goGroup pg))); [|lia].
           rewrite Eo. cbn [option_map]. do 2 f_equal.
           destruct (child os done p (goOffset g)) as [c|] eqn:C.
           ++ exfalso. apply child_in in C. destruct C as [Ic C]. apply is_child_inv in C. destruct C as (gc & Ec & Pc & Oc).
              assert (c = gi) by exact (wf_u _ _ W _ _ _ _ _ Ec E Pc Pg Oc). subst; contradiction.
           ++ rewrite (is_child_intro os p (goOffset g) gi g E Pg eq_refl). rewrite Cur, Nat.eqb_refl. reflexivity.
        -- destruct (nth_error (goGroup pg) i); auto. cbn [option_map]. do 2 f_equal.
           destruct (child os done p i) as [c|] eqn:C; [rewrite (Ch _ _ _ C); reflexivity|].
           destruct (is_child os p i gi) eqn:Z; auto. apply is_child_inv in Z. destruct Z as (g2 & E2 & _ & O2).
           rewrite E in E2. injection E2 as <-. congruence.
      * destruct (Nat.eq_dec x p) as [->|Np]; [exfalso; apply Q; rewrite Cur; destruct (Nat.eqb_spec gi p); [lia|reflexivity]|].
        rewrite Step; auto; try congruence.
        rewrite Cur. destruct (Nat.eqb_spec gi x) as [<-|Nx].
        -- unfold na. rewrite nth_error_app2 by lia. rewrite Nat.sub_diag. cbn [nth_error]. rewrite E in Hx. injection Hx as <-. reflexivity.
        -- rewrite nth_error_app1 by (apply Ilt; exact Lx). exact (Iarr x gx Hx).
    + rewrite Ex. rewrite Iim. destruct gi as [|gi]; [lia|]. cbn [Nat.eqb]. rewrite orb_false_r.
      rewrite Cur. cbn [Nat.eqb]. reflexivity.
  - subst gi. constructor; cbn [msCur msHeap msIm].
    + exact Lcur.
    + intros x Hx. rewrite app_length; cbn. rewrite Cur. destruct (0 =? x)%nat; unfold na; [lia|].
      pose proof (Ilt x Hx). lia.
    + exact Inj.
    + intros x gx Hx. assert (Lx : (x < length os)%nat) by (apply nth_error_Some; congruence).
      rewrite Step; auto; try congruence.
      rewrite Cur. destruct (Nat.eqb_spec 0 x) as [<-|Nx].
      * unfold na. rewrite nth_error_app2 by lia. rewrite Nat.sub_diag. cbn [nth_error]. rewrite E in Hx. injection Hx as <-. reflexivity.
      * rewrite nth_error_app1 by (apply Ilt; exact Lx). exact (Iarr x gx Hx).
    + rewrite Ex. cbn [Nat.eqb]. rewrite orb_true_r. rewrite Cur. reflexivity.
Qed.

Lemma inv_fold os m order : wf os m -> forall done s, inv os done s ->
  NoDup (done ++ order) -> (forall c, In c (done ++ order) -> (c < length os)%nat) ->
  inv os (done ++ order) (fold_left (make_step os) order s).
Proof.
  intros W. induction order as [|gi order IH]; intros done s I N L; [rewrite app_nil_r; exact I|].
  cbn [fold_left]. replace (done ++ gi :: order) with ((done ++ [gi]) ++ order) in * by (rewrite <- app_assoc; reflexivity).
  apply IH; auto. apply (inv_step os m); auto.
  - apply L. apply in_or_app. left. apply in_or_app. right. left. reflexivity.
  - intros D. apply NoDup_remove in N || idtac. rewrite <- app_assoc in N. cbn in N. apply NoDup_remove_2 in N.
    apply N. apply in_or_app. left; exact D.
  - intros c Hc. apply L. apply in_or_app. left. apply in_or_app. left; exact Hc.
Qed.

Lemma child_perm os m live live' gi k : wf os m -> Permutation live live' ->
  child os live gi k = child os live' gi k.
Proof.
  intros W P. destruct (child os live gi k) as [c|] eqn:C, (child os live' gi k) as [c'|] eqn:C'; auto.
  - apply child_in in C, C'. destruct C as [_ C], C' as [_ C']. apply is_child_inv in C, C'.
    destruct C as (g & E & Pa & O), C' as (g' & E' & Pa' & O'). f_equal.
    exact (wf_u _ _ W _ _ _ _ _ E E' Pa Pa' (eq_trans O (eq_sym O'))).
  - apply child_in in C. destruct C as [I C]. rewrite (find_none _ _ C' c (Permutation_in _ P I)) in C. discriminate.
  - apply child_in in C'. destruct C' as [I C']. rewrite (find_none _ _ C c' (Permutation_in _ (Permutation_sym P) I)) in C'. discriminate.
Qed.

Lemma mapi_ext {A B} (f g : nat -> A -> B) l : forall k, (forall i a, nth_error l i = Some a -> f (k + i)%nat a = g (k + i)%nat a) ->
  mapi f k l = mapi g k l.
Proof.
  intros k H. apply nth_ext_error. intros i. rewrite !nth_mapi. destruct (nth_error l i) as [a|] eqn:E; auto.
  cbn. f_equal. exact (H i a E).
Qed.
Lemma map_mapi {A B C} (f : B -> C) (g : nat -> A -> B) l : forall k, map f (mapi g k l) = mapi (fun i a => f (g i a)) k l.
Proof. induction l as [|a l IH]; intros k; cbn; auto. f_equal. apply IH. Qed.

Lemma resolve_build os m done s : wf os m -> inv os done s ->
  forall fuel gi, (gi < length os)%nat -> resolve fuel (msHeap s) (nth gi (msCur s) O) = build fuel os done gi.
Proof.
  intros W I. induction fuel as [|fuel IH]; intros gi L; auto. cbn [resolve build].
  destruct (nth_error os gi) as [g|] eqn:E; [|apply nth_error_None in E; lia].
  rewrite (iv_arr _ _ _ I gi g E). rewrite map_mapi. apply mapi_ext. intros k e He. cbn [Nat.add geLayer geImage].
  f_equal. destruct (child os done gi k) as [c|] eqn:C.
  - f_equal. apply IH. apply child_in in C. destruct C as [_ C]. apply is_child_inv in C. destruct C as (gc & Ec & _).
    apply nth_error_Some; congruence.
  - rewrite (wf_p _ _ W _ _ _ _ E He). reflexivity.
Qed.
Lemma build_perm os m live live' : wf os m -> Permutation live live' ->
  forall fuel gi, build fuel os live gi = build fuel os live' gi.
Proof.
  intros W P. induction fuel as [|fuel IH]; intros gi; auto. cbn [build]. destruct (nth_error os gi); auto.
  apply mapi_ext. intros k e _. cbn [Nat.add]. rewrite (child_perm os m live live' gi k W P).
  destruct (child os live' gi k); auto. rewrite IH. reflexivity.
Qed.

Lemma makeImage_build os m order : wf os m -> Permutation order (map snd m) ->
  makeImage os order = fix_bottom (build (S (length os)) os (map snd m) 0).
Proof.
  intros W P. unfold makeImage.
  pose proof (inv_fold os m order W [] _ (inv_init os m W)) as I. cbn [app] in I.
  assert (Lt : forall c, In c order -> (c < length os)%nat)
    by (intros c Hc; apply (wf_lt _ _ W); exact (Permutation_in _ P Hc)).
  specialize (I (Permutation_NoDup (Permutation_sym P) (wf_nd _ _ W)) Lt).
  rewrite (iv_im _ _ _ I).
  assert (Z0 : existsb (Nat.eqb 0) order = true).
  { apply existsb_exists. exists O. split; auto. apply (Permutation_in _ (Permutation_sym P)).
    exact (gmap_get_in _ _ _ (wf_0 _ _ W)). }
  rewrite Z0. f_equal.
  assert (L0 : (0 < length os)%nat).
  { destruct (wf_root _ _ W) as (r & Er & _). apply nth_error_Some; congruence. }
  etransitivity; [apply (resolve_build os m order _ W I); exact L0|].
  apply (build_perm os m); auto.
Qed.

Lemma order_independent ls bounds os m order order' : makeGroups ls bounds = inr (os, m) ->
  Permutation order (map snd m) -> Permutation order' (map snd m) -> makeImage os order = makeImage os order'.
Proof.
  intros H P P'. apply makeGroups_wf in H. rewrite (makeImage_build os m), (makeImage_build os m order'); auto.
Qed.
