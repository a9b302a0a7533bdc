(** C46-C48: assembly of the decoded layers into a layered image *)
From Coq Require Import Permutation.
Require Import Verif.Base Verif.M_Color Verif.M_Composite Verif.M_Rect Verif.M_Image
  Verif.M_Reader Verif.M_Groups Verif.S_Groups Verif.L_Groups Verif.L_Groups2 Verif.L_Groups3.

(** ** C46: whatever layers were decoded (any paths, duplicates, nesting), the image
    is the same for every order in which the map of groups is visited. *)
Theorem C46_order_independent : forall ls canvas os m, makeGroups ls canvas = inr (os, m) ->
  forall order order', Permutation order (map snd m) -> Permutation order' (map snd m) ->
  makeImage os order = makeImage os order'.
Proof. intros ls canvas os m H order order' P P'. exact (order_independent ls canvas os m order order' H P P'). Qed.
Print Assumptions C46_order_independent.

Definition ex_attrs (n x0 y0 x1 y1 : Z) (al : bool) : attrs :=
  mkA [n] (mkRect x0 y0 x1 y1) MMultiply false n
    (Some (ILeaf (mkPic (mkRect 0 0 (x1 - x0) (y1 - y0)) KNRGBA (fun x y => Some (CNRGBA n x y 255))))) al.
Definition ex_tree : forest :=
  FCons 0 (NLeaf (ex_attrs 1 1 1 4 4 true))
  (FCons 1 (NGroup (ex_attrs 2 2 0 9 9 true)
     (FCons 0 (NGroup (ex_attrs 3 3 3 6 7 true) (FCons 0 (NLeaf (ex_attrs 4 4 4 5 5 true)) FNil))
     (FCons 1 (NLeaf (ex_attrs 5 2 2 5 9 true)) FNil)))
  (FCons 2 (NLeaf (ex_attrs 6 0 0 8 8 false)) FNil)).
Definition ex_canvas : rect := mkRect 0 0 8 8.
(** three groups in the map, two orders *)
Example C46_example :
  match makeGroups (map dl_of (file_order true [] ex_tree)) ex_canvas with
  | inr (os, m) => map snd m = [2; 1; 0]%nat /\
      map lName (makeImage os [0; 1; 2]%nat) = [[1]; [2]; [6]] /\ length os = 3%nat
  | inl _ => False
  end.
Proof. vm_compute. auto. Qed.

(** ** C47: the layers of any tree, in file order, are assembled into exactly that
    tree, whether or not the top level carries item paths. *)
Theorem C47_rebuilds_tree : forall canvas bare f, well_labelled f -> (bare = true -> numbered 0 f) ->
  (forall i l, nth_error (file_order bare [] f) i = Some l -> (S i < length (file_order bare [] f))%nat ->
     aAlpha (fst (fst l)) = true) ->
  exists os m, makeGroups (map dl_of (file_order bare [] f)) canvas = inr (os, m) /\
    forall order, Permutation order (map snd m) -> makeImage os order = bottom_normal (tree_layers canvas 0 0 f).
Proof.
  intros canvas bare f WL Nm Al. apply rebuild; auto. apply alphas_spec. split; auto.
  intros i l E L. rewrite map_length in L. rewrite nth_error_map in E.
  destruct (nth_error (file_order bare [] f) i) as [[[a g] p]|] eqn:X; [|discriminate].
  cbn in E. injection E as <-. exact (Al i _ X L).
Qed.
Print Assumptions C47_rebuilds_tree.
Example C47_example : well_labelled ex_tree /\ numbered 0 ex_tree /\
  (forall i l, nth_error (file_order true [] ex_tree) i = Some l -> (S i < length (file_order true [] ex_tree))%nat ->
     aAlpha (fst (fst l)) = true) /\
  map (fun x => snd x) (file_order true [] ex_tree) = [[]; []; [1; 0]; [1; 0; 0]; [1; 1]; []].
Proof.
  split; [cbn; intuition (try discriminate)|]. split; [cbn; intuition|]. split; [|reflexivity].
  intros i l. do 6 (destruct i as [|i]; [cbn; intros [= <-]; try reflexivity; lia|]). destruct i; discriminate.
Qed.

(** A list of layers whose paths are Unicode scalar values is accepted exactly when
    every layer but the last has alpha and every layer's parent is the root or a
    group that came before. *)
Theorem C47_accepted : forall ls canvas, zlen ls < 2147483648 ->
  let ps := item_paths 0 (map dlPath ls) in
  Forall (fun p => forallb scalar p = true) ps ->
  (exists r, makeGroups ls canvas = inr r) <->
  (forall i l, nth_error ls i = Some l -> (S i < length ls)%nat -> dlAlpha l = true) /\
  (forall i p, nth_error ps i = Some p -> removelast p = [] \/
     exists j l, (j < i)%nat /\ nth_error ls j = Some l /\ dlGroup l = true /\ nth_error ps j = Some (removelast p)).
Proof. intros ls canvas H. exact (accepted ls canvas H). Qed.
Print Assumptions C47_accepted.
(** The two errors are reported only for their reason, whatever the paths. *)
Theorem C47_errors : forall ls canvas e, zlen ls < 2147483648 -> makeGroups ls canvas = inl e ->
  let ps := item_paths 0 (map dlPath ls) in
  (e = EMissingAlpha /\ exists i l, nth_error ls i = Some l /\ (S i < length ls)%nat /\ dlAlpha l = false) \/
  (e = EInvalidGroup /\ exists i p, nth_error ps i = Some p /\ removelast p <> [] /\
    forall j l, (j < i)%nat -> nth_error ls j = Some l -> dlGroup l = true -> nth_error ps j <> Some (removelast p)).
Proof.
  intros ls canvas e L H. destruct (rejection_errors ls canvas e H) as [->| ->]; [left|right]; split; auto.
  - exact (missing_alpha ls canvas H).
  - exact (invalid_group ls canvas L H).
Qed.
Print Assumptions C47_errors.
Example C47_errors_example :
  makeGroups (map dl_of [(ex_attrs 1 0 0 1 1 true, false, [7; 0])]) ex_canvas = inl EInvalidGroup /\
  makeGroups (map dl_of [(ex_attrs 1 0 0 1 1 false, false, []); (ex_attrs 2 0 0 1 1 true, false, [])]) ex_canvas
    = inl EMissingAlpha.
Proof. vm_compute. auto. Qed.
(** Labels that are not scalar values all have the same key: two groups are
    confused, and the child of the first ends in the second.  Such labels are
    reached by a group with more than 55296 children, or written in the file. *)
Theorem C47_rebuilds_tree_refuted : exists canvas f os m,
  NoDup (labels f) /\ Forall (fun r => 0 <= r <= 57343) (labels f) /\
  makeGroups (map dl_of (file_order false [] f)) canvas = inr (os, m) /\
  makeImage os (map_order m) <> bottom_normal (tree_layers canvas 0 0 f).
Proof.
  exists (mkRect 0 0 9 9),
    (FCons 55296 (NGroup (ex_attrs 1 0 0 1 1 true) FNil)
    (FCons 55297 (NGroup (ex_attrs 2 0 0 1 1 true) (FCons 0 (NLeaf (ex_attrs 3 0 0 1 1 true)) FNil)) FNil)).
  eexists. eexists. split; [|split; [|split; [reflexivity|]]].
  - cbn. repeat constructor; cbn; intuition (try discriminate).
  - cbn. repeat constructor; lia.
  - intros H. apply (f_equal (map lImage)) in H. cbn in H. discriminate.
Qed.
Print Assumptions C47_rebuilds_tree_refuted.

(** ** C48: false for layers that stick out on the left or at the top. *)
Theorem C48_clipping_refuted : exists canvas f x y os m,
  well_labelled f /\ numbered 0 f /\ pin x y canvas = true /\
  makeGroups (map dl_of (file_order true [] f)) canvas = inr (os, m) /\
  image_At (fun _ => 0) (IGroup (makeImage os (map_order m))) x y 0 <>
  image_At (fun _ => 0) (IGroup (bottom_normal (tree_unclipped 0 0 f))) x y 0.
Proof.
  exists ex_canvas, (FCons 0 (NLeaf (ex_attrs 1 (-2) 0 4 4 true)) FNil), 1, 1. eexists. eexists.
  split; [cbn; intuition|]. split; [cbn; intuition|]. split; [reflexivity|]. split; [reflexivity|].
  vm_compute. discriminate.
Qed.
Print Assumptions C48_clipping_refuted.
(** How far: such a layer shows the pixel of the file that belongs at the point
    moved by the part cut off. *)
Theorem C48_clipping_shifts : forall canvas a rnd x y n, pin x y (placed canvas 0 0 (aBounds a)) = true ->
  forall l l', tree_layers canvas 0 0 (FCons 0 (NLeaf a) FNil) = [l] ->
  tree_unclipped 0 0 (FCons 0 (NLeaf a) FNil) = [l'] ->
  layer_At rnd l x y n =
  layer_At rnd l' (x - Z.max 0 (minX canvas - minX (aBounds a))) (y - Z.max 0 (minY canvas - minY (aBounds a))) n.
Proof.
  intros canvas a rnd x y n P l l' [= <-] [= <-]. rewrite !layer_At_eq. 
  assert (minX (placed canvas 0 0 (aBounds a)) = Z.max (minX (aBounds a)) (minX canvas) /\
          minY (placed canvas 0 0 (aBounds a)) = Z.max (minY (aBounds a)) (minY canvas)) as [-> ->].
  { revert P. unfold placed, intersect, rempty, pin, rsub, ZR. cbn [minX minY maxX maxY].
    match goal with |- context [if ?c then _ else _] => destruct c eqn:E end; cbn [minX minY maxX maxY]; lia. }
  cbn [rsub minX minY].
  replace (x - Z.max 0 (minX canvas - minX (aBounds a)) - (minX (aBounds a) - 0)) with (x - Z.max (minX (aBounds a)) (minX canvas)) by lia.
  replace (y - Z.max 0 (minY canvas - minY (aBounds a)) - (minY (aBounds a) - 0)) with (y - Z.max (minY (aBounds a)) (minY canvas)) by lia.
  reflexivity.
Qed.
Print Assumptions C48_clipping_shifts.
(** What holds: if every layer starts inside the canvas, the decoded image shows at
    every canvas point what the unclipped tree shows.  Missing: layers with a
    negative offset (refuted above). *)
Theorem C48_clipping_partial : forall canvas bare f, well_labelled f -> (bare = true -> numbered 0 f) ->
  (forall i l, nth_error (file_order bare [] f) i = Some l -> (S i < length (file_order bare [] f))%nat ->
     aAlpha (fst (fst l)) = true) ->
  starts_inside canvas f ->
  exists os m, makeGroups (map dl_of (file_order bare [] f)) canvas = inr (os, m) /\
    forall order, Permutation order (map snd m) ->
    forall rnd x y n, pin x y canvas = true ->
    image_At rnd (IGroup (makeImage os order)) x y n =
    image_At rnd (IGroup (bottom_normal (tree_unclipped 0 0 f))) x y n.
Proof.
  intros canvas bare f WL Nm Al S. destruct (C47_rebuilds_tree canvas bare f WL Nm Al) as (os & m & H & K).
  exists os, m. split; auto. intros order P rnd x y n Pc. rewrite (K order P). apply clipping_harmless; auto.
Qed.
Print Assumptions C48_clipping_partial.
(** the example tree has a layer that sticks out at the right *)
Example C48_example : starts_inside ex_canvas ex_tree /\
  image_At (fun _ => 0) (IGroup (bottom_normal (tree_layers ex_canvas 0 0 ex_tree))) 4 5 0 =
  image_At (fun _ => 0) (IGroup (bottom_normal (tree_unclipped 0 0 ex_tree))) 4 5 0.
Proof. split; [cbn; intuition lia|vm_compute; reflexivity]. Qed.
