(** Pixel containers refine the map specification. *)
Require Import Verif.Base Verif.M_Color Verif.S_Color Verif.M_Rect Verif.S_Rect Verif.L_Rect
  Verif.M_Pix Verif.S_Pix Verif.L_Word Verif.L_Color.
From Coq Require Import ZifyBool ZifyNat.

(** ** list facts *)
Lemma upd_nat_length {A} (l : list A) i v : length (upd_nat l i v) = length l.
Proof. revert i; induction l; intros [|i]; cbn; auto. Qed.
Lemma nth_upd_same {A} (l : list A) i v : (i < length l)%nat -> nth_error (upd_nat l i v) i = Some v.
Proof. revert i; induction l; intros [|i]; cbn; intros; try lia; auto. apply IHl; lia. Qed.
Lemma nth_upd_other {A} (l : list A) i j v : i <> j -> nth_error (upd_nat l i v) j = nth_error l j.
Proof.
  revert i j; induction l as [|a l IH]; intros [|i] [|j] H; cbn; auto; try contradiction.
Qed.
Lemma znth_some {A} (l : list A) i : 0 <= i < zlen l -> exists a, znth l i = Some a.
Proof.
  intros H. unfold znth, zlen in *. destruct (Z.ltb_spec i 0); [lia|].
  destruct (nth_error l (Z.to_nat i)) eqn:E; [eauto|].
  apply nth_error_None in E. lia.
Qed.
Lemma znth_range {A} (l : list A) i a : znth l i = Some a -> 0 <= i < zlen l.
Proof.
  unfold znth, zlen. destruct (Z.ltb_spec i 0); [discriminate|]. intros E.
  assert (nth_error l (Z.to_nat i) <> None) as N by congruence.
  apply nth_error_Some in N. lia.
Qed.
Lemma zupd_some {A} (l : list A) i v : 0 <= i < zlen l ->
  exists l', zupd l i v = Some l' /\ zlen l' = zlen l /\
    forall j, znth l' j = if j =? i then Some v else znth l j.
Proof.
  intros H. unfold zupd. destruct (Z.ltb_spec i 0); [lia|]. destruct (Z.leb_spec (zlen l) i); [lia|].
  cbn [orb]. eexists; split; [reflexivity|]. split; [unfold zlen; rewrite upd_nat_length; reflexivity|].
  intros j. unfold znth. destruct (Z.ltb_spec j 0).
  - destruct (Z.eqb_spec j i); [lia|reflexivity].
  - unfold zlen in *. destruct (Z.eqb_spec j i) as [->|N].
    + apply nth_upd_same. lia.
    + apply nth_upd_other. lia.
Qed.
Lemma zlen_nonneg {A} (l : list A) : 0 <= zlen l.
Proof. unfold zlen; lia. Qed.
Lemma nth_snoc {A} (l : list A) x i : nth_error (l ++ [x]) i =
  if Nat.eqb i (length l) then Some x else nth_error l i.
Proof.
  destruct (Nat.eqb_spec i (length l)) as [->|N].
  - rewrite nth_error_app2, Nat.sub_diag by lia. reflexivity.
  - destruct (Nat.lt_ge_cases i (length l)).
    + apply nth_error_app1. assumption.
    + transitivity (@None A); [apply nth_error_None; rewrite app_length; cbn; lia|].
      symmetry. apply nth_error_None. lia.
Qed.

(** ** Generic container, to which the three types are shown equal *)
Section Generic.
Context {P : Type} (zero : P) (conv : list color -> color -> P) (keep_pal : bool).

Definition g_New (h : list (list P)) (r : rect) (pal : list color) : option (list (list P) * view) :=
  b <-? make_slice zero (dx r * dy r);;
  Some (h ++ [b], mkView (length h) 0 (dx r * dy r) (dx r) r (if keep_pal then pal else [])).
Definition g_off (v : view) (x y : Z) : Z :=
  (y - minY (vRect v)) * vStride v + (x - minX (vRect v)).
Definition g_At (h : list (list P)) (v : view) (x y : Z) : option P :=
  if negb (pin x y (vRect v)) then Some zero else slice_get h v (g_off v x y).
Definition g_SetPix (h : list (list P)) (v : view) (x y : Z) (p : P) : option (list (list P)) :=
  if negb (pin x y (vRect v)) then Some h else slice_set h v (g_off v x y) p.
Definition g_SubImage (v : view) (r : rect) : option view :=
  let r := intersect r (vRect v) in
  if rempty r then Some nilview
  else let o := g_off v (minX r) (minY r) in
       if (o <? 0) || (vLen v <? o) then None
       else Some (mkView (vBuf v) (vOff v + o) (vLen v - o) (vStride v) r
                         (if keep_pal then vPal v else [])).
Definition g_step (s : pstate P) (o : pixop P) : option (pstate P * pixout P) :=
  let (h, vs) := s in
  match o with
  | ONew r pal => hv <-? g_New h r pal;; Some ((fst hv, vs ++ [snd hv]), RNone)
  | OSub i r => match nth_error vs i with
      | None => Some (s, RNone)
      | Some v => w <-? g_SubImage v r;; Some ((h, vs ++ [w]), RNone) end
  | OSetPix i x y p => match nth_error vs i with
      | None => Some (s, RNone)
      | Some v => h' <-? g_SetPix h v x y p;; Some ((h', vs), RNone) end
  | OSet i x y c => match nth_error vs i with
      | None => Some (s, RNone)
      | Some v => h' <-? g_SetPix h v x y (conv (vPal v) c);; Some ((h', vs), RNone) end
  | OGet i x y => match nth_error vs i with
      | None => Some (s, RNone)
      | Some v => p <-? g_At h v x y;; Some (s, RPix p) end
  | OBounds i => match nth_error vs i with
      | None => Some (s, RNone)
      | Some v => Some (s, RRect (vRect v)) end
  end.

(** invariant of a view over a canvas allocated with rectangle R *)
Definition pos (R : rect) (x y : Z) : Z := (y - minY R) * dx R + (x - minX R).
Definition cover (h : list (list P)) (Rs : list rect) (cs : list (canvas P)) (v : view) (w : win) : Prop :=
  vRect v = wRect w /\ (keep_pal = true -> vPal v = wPal w) /\
  (v = nilview \/
   exists R, nth_error Rs (wCan w) = Some R /\ vBuf v = wCan w /\
     minX R <= minX (vRect v) <= maxX (vRect v) /\ maxX (vRect v) <= maxX R /\
     minY R <= minY (vRect v) <= maxY (vRect v) /\ maxY (vRect v) <= maxY R /\
     vStride v = dx R /\ vOff v = pos R (minX (vRect v)) (minY (vRect v)) /\
     vLen v = dx R * dy R - vOff v).
Definition buf_ok (b : list P) (R : rect) (f : canvas P) : Prop :=
  zlen b = dx R * dy R /\
  forall x y, inside R x y -> znth b (pos R x y) = Some (f x y).
Definition heap_ok (h : list (list P)) (Rs : list rect) (cs : list (canvas P)) : Prop :=
  length Rs = length h /\ length cs = length h /\
  forall i b R f, nth_error h i = Some b -> nth_error Rs i = Some R -> nth_error cs i = Some f ->
    buf_ok b R f.
Definition sim (s : pstate P) (t : sstate P) : Prop :=
  exists Rs, heap_ok (fst s) Rs (fst t) /\
    length (snd s) = length (snd t) /\
    forall i v w, nth_error (snd s) i = Some v -> nth_error (snd t) i = Some w ->
      cover (fst s) Rs (fst t) v w.

Lemma pos_range R x y : inside R x y -> 0 <= pos R x y < dx R * dy R.
Proof. unfold inside, pos, dx, dy. nia. Qed.
Lemma pos_inj R x y x' y' : inside R x y -> inside R x' y' -> pos R x y = pos R x' y' -> x = x' /\ y = y'.
Proof.
  unfold inside, pos, dx. intros H H' E.
  assert (y = y'); [|nia].
  destruct (Z.lt_trichotomy y y') as [L|[L|L]]; nia.
Qed.

Lemma cover_addr h Rs cs v w x y : heap_ok h Rs cs -> cover h Rs cs v w -> inside (vRect v) x y ->
  exists R b f, nth_error Rs (vBuf v) = Some R /\ nth_error h (vBuf v) = Some b /\
    nth_error cs (wCan w) = Some f /\ vBuf v = wCan w /\
    inside R x y /\ vOff v + g_off v x y = pos R x y /\
    0 <= g_off v x y < vLen v /\ buf_ok b R f.
Proof.
  intros (L1 & L2 & HO) (ER & _ & C) Hin.
  destruct C as [E|(R & NR & EB & X1 & X2 & Y1 & Y2 & ES & EO & EL)].
  { subst v. exfalso. cbn in Hin. unfold inside in Hin. cbn in Hin. lia. }
  assert (HI : inside R x y) by (unfold inside in *; lia).
  destruct (nth_error h (vBuf v)) as [b|] eqn:Nb.
  2:{ exfalso. apply nth_error_None in Nb. rewrite <- EB in NR.
      assert (nth_error Rs (vBuf v) <> None) as N by congruence. apply nth_error_Some in N. lia. }
  destruct (nth_error cs (wCan w)) as [f|] eqn:Nf.
  2:{ exfalso. apply nth_error_None in Nf. rewrite <- EB in Nf.
      assert (nth_error h (vBuf v) <> None) as N by congruence. apply nth_error_Some in N. lia. }
  exists R, b, f. rewrite <- EB in NR, Nf.
  pose proof (pos_range R x y HI) as PR.
  assert (EA : vOff v + g_off v x y = pos R x y).
  { rewrite EO. unfold g_off, pos. rewrite ES. ring. }
  repeat (split; [first [assumption|reflexivity|congruence]|]).
  split; [|exact (HO (vBuf v) b R f Nb NR Nf)].
  split; [|rewrite EL; lia].
  unfold g_off. rewrite ES. unfold inside, dx in *. nia.
Qed.

Lemma g_At_ok h Rs cs v w x y : heap_ok h Rs cs -> cover h Rs cs v w ->
  g_At h v x y = Some (match nth_error cs (wCan w) with
                       | Some f => if pin x y (wRect w) then f x y else zero
                       | None => zero end).
Proof.
  intros HO C. unfold g_At. pose proof C as (ER & _). rewrite <- ER.
  destruct (pin x y (vRect v)) eqn:E; cbn [negb]; [|destruct (nth_error cs (wCan w)); reflexivity].
  apply pin_spec in E.
  destruct (cover_addr h Rs cs v w x y HO C E) as (R & b & f & NR & Nb & Nf & EB & HI & EA & RG & (BL & BV)).
  unfold slice_get. destruct (Z.ltb_spec (g_off v x y) 0); [lia|].
  destruct (Z.leb_spec (vLen v) (g_off v x y)); [lia|]. cbn [orb]. rewrite Nb. cbn [obind].
  rewrite EA, BV by exact HI. rewrite Nf. reflexivity.
Qed.

Lemma g_SetPix_ok h Rs cs v w x y p : heap_ok h Rs cs -> cover h Rs cs v w ->
  exists h', g_SetPix h v x y p = Some h' /\
   let cs' := match nth_error cs (wCan w) with
     | Some f => if pin x y (wRect w) then upd_nat cs (wCan w) (set_pt f x y p) else cs
     | None => cs end in
   heap_ok h' Rs cs' .
Proof.
  intros HO C. unfold g_SetPix. pose proof C as (ER & _). rewrite <- ER.
  destruct (pin x y (vRect v)) eqn:E; cbn [negb].
  2:{ eexists; split; [reflexivity|]. cbv zeta. destruct (nth_error cs (wCan w)); exact HO. }
  apply pin_spec in E.
  destruct (cover_addr h Rs cs v w x y HO C E) as (R & b & f & NR & Nb & Nf & EB & HI & EA & RG & (BL & BV)).
  unfold slice_set. destruct (Z.ltb_spec (g_off v x y) 0); [lia|].
  destruct (Z.leb_spec (vLen v) (g_off v x y)); [lia|]. cbn [orb]. rewrite Nb. cbn [obind].
  rewrite EA. pose proof (pos_range R x y HI) as PR.
  destruct (zupd_some b (pos R x y) p) as (b' & -> & Lb & Vb); [lia|]. cbn [obind].
  eexists; split; [reflexivity|]. cbv zeta. rewrite Nf, <- EB.
  destruct HO as (L1 & L2 & HO). split; [|split].
  - rewrite upd_nat_length. exact L1.
  - rewrite !upd_nat_length. exact L2.
  - intros i b0 R0 f0 Hb HR Hf.
    assert (LB : (vBuf v < length h)%nat) by (apply nth_error_Some; congruence).
    destruct (Nat.eq_dec (vBuf v) i) as [<-|NE].
    + rewrite nth_upd_same in Hb by lia. rewrite nth_upd_same in Hf by lia.
      injection Hb as <-. injection Hf as <-. rewrite NR in HR. injection HR as <-.
      split; [congruence|]. intros a c Hac. rewrite Vb. unfold set_pt.
      destruct (Z.eqb_spec (pos R a c) (pos R x y)) as [EP|NP].
      * destruct (pos_inj R a c x y Hac HI EP) as [-> ->]. rewrite !Z.eqb_refl. reflexivity.
      * destruct (Z.eqb_spec a x), (Z.eqb_spec c y); cbn [andb]; try (apply BV, Hac).
        subst. contradiction.
    + rewrite nth_upd_other in Hb by exact NE. rewrite nth_upd_other in Hf by exact NE. eauto.
Qed.

Lemma cover_frame h h' Rs cs cs' v w : cover h Rs cs v w -> cover h' Rs cs' v w.
Proof. exact (fun H => H). Qed.
Lemma cover_snoc h h' Rs R0 cs cs' v w : cover h Rs cs v w -> cover h' (Rs ++ [R0]) cs' v w.
Proof.
  intros (A & B & C). split; [exact A|]. split; [exact B|].
  destruct C as [C|(R & NR & C)]; [left; exact C|right]. exists R. split; [|exact C].
  rewrite nth_error_app1; [exact NR|]. apply nth_error_Some. congruence.
Qed.

Lemma sub_rect v r : let q := mkRect (Z.max (minX r) (minX (vRect v))) (Z.max (minY r) (minY (vRect v)))
                          (Z.min (maxX r) (maxX (vRect v))) (Z.min (maxY r) (maxY (vRect v))) in
  intersect r (vRect v) = if (minX q <? maxX q) && (minY q <? maxY q) then q else ZR.
Proof.
  cbv zeta. unfold intersect. cbv zeta. set (q := mkRect _ _ _ _).
  destruct (rempty q) eqn:E; unfold rempty in E.
  - destruct ((minX q <? maxX q) && (minY q <? maxY q)) eqn:F; [lia|reflexivity].
  - destruct ((minX q <? maxX q) && (minY q <? maxY q)) eqn:F; [reflexivity|lia].
Qed.

(** The conversion may depend on the palette; it must agree on both sides. *)
Hypothesis conv_pal : keep_pal = false -> forall p q c, conv p c = conv q c.

Lemma sim_step s t o : sim s t -> op_ok o ->
  exists s' r, g_step s o = Some (s', r) /\ r = snd (spec_step zero conv t o) /\
    sim s' (fst (spec_step zero conv t o)).
Proof.
  destruct s as [h vs], t as [cs ws]. intros (Rs & HO & LV & HC) Hop. cbn [fst snd] in *.
  assert (LOOK : forall i, match nth_error vs i, nth_error ws i with
     | Some v, Some w => cover h Rs cs v w | None, None => True | _, _ => False end).
  { intros i. destruct (nth_error vs i) as [v|] eqn:Ev, (nth_error ws i) as [w|] eqn:Ew; auto.
    - eapply HC; eauto.
    - apply nth_error_None in Ew. assert (nth_error vs i <> None) as N by congruence.
      apply nth_error_Some in N. lia.
    - apply nth_error_None in Ev. assert (nth_error ws i <> None) as N by congruence.
      apply nth_error_Some in N. lia. }
  assert (SELF : sim (h, vs) (cs, ws)) by (exists Rs; auto).
  destruct o as [r pal|i r|i x y p|i x y c|i x y|i]; cbn [g_step spec_step].
  - (* New *)
    cbn in Hop. unfold g_New, make_slice.
    assert (0 <= dx r * dy r) by (unfold dx, dy; nia).
    destruct (Z.ltb_spec (dx r * dy r) 0); [lia|]. cbn [obind fst snd].
    eexists _, _. split; [reflexivity|]. split; [reflexivity|].
    exists (Rs ++ [r]). cbn [fst snd]. destruct HO as (L1 & L2 & HO). split; [split; [|split]|split].
    + rewrite !app_length, L1. reflexivity.
    + rewrite !app_length, L2. reflexivity.
    + intros i b R f Hb HR Hf. rewrite nth_snoc in Hb. rewrite nth_snoc in HR. rewrite nth_snoc in Hf. rewrite L1 in HR. rewrite L2 in Hf.
      destruct (Nat.eqb_spec i (length h)); [|eapply HO; eauto].
      injection Hb as <-. injection HR as <-. injection Hf as <-. split.
      * unfold zlen. rewrite repeat_length. lia.
      * intros x y HI. pose proof (pos_range r x y HI) as PR. unfold znth.
        destruct (Z.ltb_spec (pos r x y) 0); [lia|].
        rewrite nth_error_repeat by lia. reflexivity.
    + rewrite !app_length, LV. reflexivity.
    + intros i v w Hv Hw. rewrite nth_snoc in Hv. rewrite nth_snoc in Hw. rewrite LV in Hv.
      destruct (Nat.eqb_spec i (length ws)).
      * injection Hv as <-. injection Hw as <-. split; [reflexivity|]. cbn [vRect wRect vPal wPal vBuf wCan vStride vOff vLen].
        split; [intros ->; reflexivity|].
        right. exists r. rewrite nth_snoc, L1, L2, Nat.eqb_refl. split; [reflexivity|].
        repeat split; try lia; unfold pos; lia.
      * eapply cover_snoc. eapply HC; eauto.
  - (* Sub *)
    specialize (LOOK i). destruct (nth_error vs i) as [v|] eqn:Ev, (nth_error ws i) as [w|] eqn:Ew;
      try contradiction; [|eexists _, _; split; [reflexivity|]; split; [reflexivity|exact SELF]].
    pose proof LOOK as (ER & EP & C). unfold g_SubImage. pose proof (sub_rect v r) as SR.
    cbv zeta in SR |- *. rewrite <- ER.
    set (q := mkRect (Z.max (minX r) (minX (vRect v))) (Z.max (minY r) (minY (vRect v)))
                (Z.min (maxX r) (maxX (vRect v))) (Z.min (maxY r) (maxY (vRect v)))) in *.
    rewrite SR. destruct ((minX q <? maxX q) && (minY q <? maxY q)) eqn:F.
    + assert (Q : rempty q = false) by (unfold rempty; lia). rewrite Q.
      destruct C as [C|(R & NR & EB & X1 & X2 & Y1 & Y2 & ES & EO & EL)].
      { exfalso. subst v. subst q; cbn in *. lia. }
      assert (Hq : minX (vRect v) <= minX q /\ maxX q <= maxX (vRect v) /\
                   minY (vRect v) <= minY q /\ maxY q <= maxY (vRect v)) by (subst q; cbn; lia).
      assert (HI : inside (vRect v) (minX q) (minY q)) by (unfold inside; lia).
      destruct (cover_addr h Rs cs v w _ _ HO LOOK HI) as (R' & b & f & NR' & _ & _ & _ & HI' & EA & RG & _).
      rewrite EB, NR in NR'. injection NR' as <-.
      destruct (Z.ltb_spec (g_off v (minX q) (minY q)) 0); [lia|].
      destruct (Z.ltb_spec (vLen v) (g_off v (minX q) (minY q))); [lia|]. cbn [orb obind].
      eexists _, _. split; [reflexivity|]. split; [reflexivity|].
      exists Rs. cbn [fst snd]. split; [exact HO|]. split; [rewrite !app_length, LV; reflexivity|].
      intros j v' w' Hv Hw. rewrite nth_snoc in Hv. rewrite nth_snoc in Hw. rewrite LV in Hv.
      destruct (Nat.eqb_spec j (length ws)); [|eapply HC; eauto].
      injection Hv as <-. injection Hw as <-. split; [reflexivity|].
      cbn [vRect wRect vPal wPal vBuf wCan vStride vOff vLen].
      split; [intros K; rewrite K; auto|].
      right. exists R. repeat (split; [first [assumption|lia]|]). lia.
    + assert (Q : rempty ZR = true) by reflexivity. rewrite Q. cbn [obind].
      eexists _, _. split; [reflexivity|]. split; [reflexivity|].
      exists Rs. cbn [fst snd]. split; [exact HO|]. split; [rewrite !app_length, LV; reflexivity|].
      intros j v' w' Hv Hw. rewrite nth_snoc in Hv. rewrite nth_snoc in Hw. rewrite LV in Hv.
      destruct (Nat.eqb_spec j (length ws)); [|eapply HC; eauto].
      injection Hv as <-. injection Hw as <-. split; [reflexivity|]. split; [reflexivity|].
      left; reflexivity.
  - (* SetPix *)
    specialize (LOOK i). destruct (nth_error vs i) as [v|] eqn:Ev, (nth_error ws i) as [w|] eqn:Ew;
      try contradiction; [|eexists _, _; split; [reflexivity|]; split; [reflexivity|exact SELF]].
    destruct (g_SetPix_ok h Rs cs v w x y p HO LOOK) as (h' & -> & HO'). cbn [obind].
    eexists _, _. split; [reflexivity|].
    destruct (nth_error cs (wCan w)) as [f|]; [destruct (pin x y (wRect w))|];
      (split; [reflexivity|]; exists Rs; cbn [fst snd]; auto).
  - (* Set *)
    specialize (LOOK i). destruct (nth_error vs i) as [v|] eqn:Ev, (nth_error ws i) as [w|] eqn:Ew;
      try contradiction; [|eexists _, _; split; [reflexivity|]; split; [reflexivity|exact SELF]].
    assert (EC : conv (vPal v) c = conv (wPal w) c).
    { destruct LOOK as (_ & EP & _). destruct keep_pal; [rewrite EP; reflexivity|apply conv_pal; reflexivity]. }
    rewrite EC.
    destruct (g_SetPix_ok h Rs cs v w x y (conv (wPal w) c) HO LOOK) as (h' & -> & HO'). cbn [obind].
    eexists _, _. split; [reflexivity|].
    destruct (nth_error cs (wCan w)) as [f|]; [destruct (pin x y (wRect w))|];
      (split; [reflexivity|]; exists Rs; cbn [fst snd]; auto).
  - (* Get *)
    specialize (LOOK i). destruct (nth_error vs i) as [v|] eqn:Ev, (nth_error ws i) as [w|] eqn:Ew;
      try contradiction; [|eexists _, _; split; [reflexivity|]; split; [reflexivity|exact SELF]].
    rewrite (g_At_ok h Rs cs v w x y HO LOOK). cbn [obind].
    eexists _, _. split; [reflexivity|]. destruct (nth_error cs (wCan w)); (split; [reflexivity|exact SELF]).
  - (* Bounds *)
    specialize (LOOK i). destruct (nth_error vs i) as [v|] eqn:Ev, (nth_error ws i) as [w|] eqn:Ew;
      try contradiction; [|eexists _, _; split; [reflexivity|]; split; [reflexivity|exact SELF]].
    eexists _, _. split; [reflexivity|]. destruct LOOK as (-> & _). split; [reflexivity|exact SELF].
Qed.

Lemma sim_init : sim ([], []) ([], []).
Proof.
  exists []. split; [split; [reflexivity|split; [reflexivity|]]|split; [reflexivity|]].
  - intros [|i] ? ? ? H; discriminate H.
  - intros [|i] ? ? H; discriminate H.
Qed.

Lemma sim_run ops : forall s t, sim s t -> Forall op_ok ops ->
  exists s', prun g_step s ops = Some (s', snd (spec_run zero conv t ops)) /\
    sim s' (fst (spec_run zero conv t ops)).
Proof.
  induction ops as [|o ops IH]; intros s t HS HF; cbn [prun spec_run].
  - eexists; split; [reflexivity|exact HS].
  - inversion HF as [|? ? Ho HF']; subst.
    destruct (sim_step s t o HS Ho) as (s1 & r & E & Er & HS1). rewrite E. cbn [obind fst snd].
    destruct (spec_step zero conv t o) as [t1 r'] eqn:Et. cbn [fst snd] in *.
    destruct (IH s1 t1 HS1 HF') as (s2 & E2 & HS2). rewrite E2. cbn [obind fst snd].
    destruct (spec_run zero conv t1 ops) as [t2 rs]. cbn [fst snd] in *. subst r. eauto.
Qed.
End Generic.

(** ** The three types are instances (RGB and GrayAlpha keep no palette) *)
Lemma rgb_is_generic s o : op_wf wf_color o -> rgb_step s o = g_step (0, 0, 0) conv_rgb false s o.
Proof.
  destruct s as [h vs]. intros HW.
  assert (EO : forall v x y, rgb_PixOffset v x y = g_off v x y) by (intros; unfold rgb_PixOffset, g_off; lia).
  destruct o; cbn [rgb_step g_step]; try reflexivity; destruct (nth_error vs i) as [v|]; try reflexivity.
  - unfold rgb_SubImage, g_SubImage. cbv zeta. rewrite EO. reflexivity.
  - unfold rgb_SetRGB, g_SetPix. rewrite EO. reflexivity.
  - unfold rgb_Set, g_SetPix, conv_rgb. rewrite EO. cbv zeta. cbn in HW.
    pose proof (color_RGBA_premul c HW) as (?&?&?&?). rewrite !shiftr8. rewrite !u8_id by lia. reflexivity.
  - unfold rgb_At, g_At. rewrite EO. reflexivity.
Qed.
Lemma ga_is_generic s o : ga_step s o = g_step (0, 0) conv_ga false s o.
Proof.
  destruct s as [h vs].
  assert (EO : forall v x y, ga_PixOffset v x y = g_off v x y) by (intros; unfold ga_PixOffset, g_off; lia).
  destruct o; cbn [ga_step g_step]; try reflexivity; destruct (nth_error vs i) as [v|]; try reflexivity.
  - unfold ga_SubImage, g_SubImage. cbv zeta. rewrite EO. reflexivity.
  - unfold ga_SetGrayAlpha, g_SetPix. rewrite EO. reflexivity.
  - unfold ga_Set, g_SetPix, conv_ga. rewrite EO. reflexivity.
  - unfold ga_At, g_At. rewrite EO. reflexivity.
Qed.
Lemma pa_is_generic s o : op_wf wf_color o -> pa_step s o = g_step (0, 0) conv_pa true s o.
Proof.
  destruct s as [h vs]. intros HW.
  assert (EO : forall v x y, pa_PixOffset v x y = g_off v x y) by (intros; unfold pa_PixOffset, g_off; lia).
  destruct o; cbn [pa_step g_step]; try reflexivity; destruct (nth_error vs i) as [v|]; try reflexivity.
  - unfold pa_SubImage, g_SubImage. cbv zeta. rewrite EO. reflexivity.
  - unfold pa_SetIndexAlpha, g_SetPix. rewrite EO. reflexivity.
  - unfold pa_Set, g_SetPix, conv_pa. rewrite EO. cbn in HW.
    pose proof (color_RGBA_premul c HW) as (?&?&?&?). rewrite !shiftr8. rewrite (u8_id (_ / 256)) by lia. reflexivity.
  - unfold pa_IndexAlphaAt, g_At. rewrite EO. reflexivity.
Qed.

Lemma prun_ext {P} (f g : pstate P -> pixop P -> option (pstate P * pixout P)) ops :
  (forall o, In o ops -> forall s, f s o = g s o) -> forall s, prun f s ops = prun g s ops.
Proof.
  induction ops as [|o ops IH]; intros H s; cbn [prun]; [reflexivity|].
  rewrite (H o) by (left; reflexivity). destruct (g s o) as [[s1 r]|]; cbn [obind]; [|reflexivity].
  cbn [fst snd]. rewrite IH; [reflexivity|]. intros; apply H; right; assumption.
Qed.

Lemma rgb_refines ops : Forall op_ok ops -> Forall (op_wf wf_color) ops ->
  exists s', prun rgb_step ([], []) ops = Some (s', snd (spec_run (0, 0, 0) conv_rgb ([], []) ops)) /\
    sim false s' (fst (spec_run (0, 0, 0) conv_rgb ([], []) ops)).
Proof.
  intros HO HW. rewrite (prun_ext _ (g_step (0, 0, 0) conv_rgb false)).
  - apply sim_run; [reflexivity|apply sim_init|exact HO].
  - intros o Ho s. apply rgb_is_generic. rewrite Forall_forall in HW. auto.
Qed.
Lemma ga_refines ops : Forall op_ok ops ->
  exists s', prun ga_step ([], []) ops = Some (s', snd (spec_run (0, 0) conv_ga ([], []) ops)) /\
    sim false s' (fst (spec_run (0, 0) conv_ga ([], []) ops)).
Proof.
  intros HO. rewrite (prun_ext _ (g_step (0, 0) conv_ga false)).
  - apply sim_run; [reflexivity|apply sim_init|exact HO].
  - intros o Ho s. apply ga_is_generic.
Qed.
Lemma pa_refines ops : Forall op_ok ops -> Forall (op_wf wf_color) ops ->
  exists s', prun pa_step ([], []) ops = Some (s', snd (spec_run (0, 0) conv_pa ([], []) ops)) /\
    sim true s' (fst (spec_run (0, 0) conv_pa ([], []) ops)).
Proof.
  intros HO HW. rewrite (prun_ext _ (g_step (0, 0) conv_pa true)).
  - apply sim_run; [discriminate|apply sim_init|exact HO].
  - intros o Ho s. apply pa_is_generic. rewrite Forall_forall in HW. auto.
Qed.

(** ** Sub-images share pixels *)
Section Share.
Context {P : Type} (zero : P) (keep_pal : bool).
Lemma g_sub_share (h : list (list P)) Rs cs v w r : heap_ok h Rs cs -> cover keep_pal h Rs cs v w ->
  exists u, g_SubImage keep_pal v r = Some u /\
    (forall x y, inside (vRect u) x y <-> inside r x y /\ inside (vRect v) x y) /\
    (rempty (vRect u) = true -> u = nilview) /\
    forall x y, inside (vRect u) x y -> forall h' p,
      g_At zero h' u x y = g_At zero h' v x y /\ g_SetPix h' u x y p = g_SetPix h' v x y p.
Proof.
  intros HO C. unfold g_SubImage. cbv zeta.
  pose proof (intersect_spec r (vRect v)) as IS. pose proof (intersect_dims r (vRect v)) as ID.
  destruct (rempty (intersect r (vRect v))) eqn:E.
  - exists nilview. split; [reflexivity|]. rewrite rempty_spec in E. split; [|split; [reflexivity|]].
    + intros x y. cbn. unfold inside at 1. cbn. split; [lia|]. intros H. exfalso. apply (E x y), IS, H.
    + intros x y. cbn. unfold inside. cbn. lia.
  - specialize (ID eq_refl). set (q := intersect r (vRect v)) in *.
    assert (QI : inside q (minX q) (minY q)) by (unfold rempty in E; unfold inside; lia).
    assert (VI : inside (vRect v) (minX q) (minY q)) by (apply IS, QI).
    destruct (cover_addr keep_pal h Rs cs v w _ _ HO C VI) as (R & b & f & _ & _ & _ & _ & HI & EA & RG & _).
    destruct (Z.ltb_spec (g_off v (minX q) (minY q)) 0); [lia|].
    destruct (Z.ltb_spec (vLen v) (g_off v (minX q) (minY q))); [lia|]. cbn [orb].
    eexists; split; [reflexivity|]. cbn [vRect]. split; [exact IS|]. split; [congruence|].
    intros x y Hxy h' p.
    assert (Vxy : inside (vRect v) x y) by (apply IS, Hxy).
    destruct (cover_addr keep_pal h Rs cs v w _ _ HO C Vxy) as (R' & b' & f' & _ & _ & _ & _ & _ & _ & RG' & _).
    set (u := mkView _ _ _ _ _ _).
    assert (OFF : g_off u x y = g_off v x y - g_off v (minX q) (minY q)).
    { unfold g_off, u. cbn. ring. }
    assert (ST : 0 <= vStride v).
    { destruct C as (_ & _ & [->|(R0 & _ & _ & ? & ? & ? & ? & ES & _)]); [cbn; lia|].
      rewrite ES. unfold inside, dx in *. lia. }
    assert (LOW : 0 <= g_off u x y).
    { unfold g_off, u. cbn. unfold inside in Hxy. nia. }
    assert (PU : pin x y (vRect u) = true) by (apply pin_spec; exact Hxy).
    assert (PV : pin x y (vRect v) = true) by (apply pin_spec; exact Vxy).
    unfold g_At, g_SetPix. rewrite PU, PV. cbn [negb]. unfold slice_get, slice_set.
    destruct (Z.ltb_spec (g_off u x y) 0); [lia|]. destruct (Z.ltb_spec (g_off v x y) 0); [lia|].
    cbn [vLen vBuf vOff u]. rewrite OFF.
    destruct (Z.leb_spec (vLen v - g_off v (minX q) (minY q)) (g_off v x y - g_off v (minX q) (minY q))); [lia|].
    destruct (Z.leb_spec (vLen v) (g_off v x y)); [lia|]. cbn [orb].
    replace (vOff v + g_off v (minX q) (minY q) + (g_off v x y - g_off v (minX q) (minY q)))
      with (vOff v + g_off v x y) by ring.
    split; reflexivity.
Qed.

(** the slice of a view: every pixel inside the bounds is in it *)
Lemma znth_drop_take {A} (b : list A) o n j : 0 <= o -> 0 <= j < n -> znth (ztake n (zdrop o b)) j = znth b (o + j).
Proof.
  intros Ho Hj. unfold znth, ztake, zdrop. destruct (Z.ltb_spec j 0); [lia|]. destruct (Z.ltb_spec (o + j) 0); [lia|].
  replace (Z.to_nat (o + j)) with (Z.to_nat o + Z.to_nat j)%nat by lia.
  generalize (Z.to_nat o) as a. revert Hj. intros Hj.
  assert (L : (Z.to_nat j < Z.to_nat n)%nat) by lia. revert L. generalize (Z.to_nat j) as i, (Z.to_nat n) as m.
  intros i m L a. transitivity (nth_error (skipn a b) i).
  - generalize (skipn a b) as l. revert i L. induction m; intros i L l; [lia|].
    destruct l; [destruct i; reflexivity|]. destruct i; [reflexivity|]. cbn. apply IHm. lia.
  - revert b. induction a; intros b; [reflexivity|]. destruct b; [destruct i; reflexivity|]. cbn. apply IHa.
Qed.

Lemma elems_of_view (h : list (list P)) Rs cs v w : heap_ok h Rs cs -> cover keep_pal h Rs cs v w ->
  (forall x y, inside (vRect v) x y -> exists p, In p (slice_elems h v) /\ g_At zero h v x y = Some p) /\
  (vOff v = 0 -> vLen v = dx (vRect v) * dy (vRect v) ->
   forall p, In p (slice_elems h v) -> exists x y, inside (vRect v) x y /\ g_At zero h v x y = Some p).
Proof.
  intros HO C. split.
  - intros x y Hxy. destruct (cover_addr keep_pal h Rs cs v w _ _ HO C Hxy)
      as (R & b & f & NR & Nb & _ & _ & HI & EA & RG & (BL & BV)).
    exists (f x y). unfold g_At. rewrite (proj2 (pin_spec _ _ _) Hxy). cbn [negb].
    unfold slice_get, slice_elems. rewrite Nb. destruct (Z.ltb_spec (g_off v x y) 0); [lia|].
    destruct (Z.leb_spec (vLen v) (g_off v x y)); [lia|]. cbn [orb obind]. rewrite EA, BV by exact HI.
    split; [|reflexivity].
    assert (VO : 0 <= vOff v).
    { destruct C as (_ & _ & [->|(R0 & NR0 & _ & ? & ? & ? & ? & ES & EO & _)]); [cbn; lia|].
      rewrite EO. unfold pos, dx, inside in *. nia. }
    assert (N : znth (ztake (vLen v) (zdrop (vOff v) b)) (g_off v x y) = Some (f x y)).
    { rewrite znth_drop_take by lia. rewrite EA. apply BV, HI. }
    unfold znth in N. destruct (g_off v x y <? 0); [discriminate|]. apply nth_error_In in N. exact N.
  - intros VO VL p Hp. apply In_nth_error in Hp. destruct Hp as (j & Hj).
    destruct C as (ER & _ & [->|(R & NR & EB & X1 & X2 & Y1 & Y2 & ES & EO & EL)]).
    { exfalso. unfold slice_elems in Hj. change (vBuf nilview) with O in Hj. change (vLen nilview) with 0 in Hj.
      destruct (nth_error h 0); destruct j; discriminate. }
    unfold slice_elems in Hj. rewrite EB in Hj.
    destruct (nth_error h (wCan w)) as [b|] eqn:Nb; [|destruct j; discriminate].
    assert (JL : (j < length (ztake (vLen v) (zdrop (vOff v) b)))%nat) by (apply nth_error_Some; congruence).
    assert (JB : Z.of_nat j < vLen v).
    { unfold ztake in JL. rewrite firstn_length in JL. lia. }
    assert (VLp : 0 < dx R * dy R) by lia.
    assert (SZ : dx (vRect v) = dx R /\ dy (vRect v) = dy R).
    { rewrite EL, VO, Z.sub_0_r in VL. unfold dx, dy in *. 
      assert (0 < maxX R - minX R /\ 0 < maxY R - minY R) by (split; apply Z.nle_gt; intros ?; nia).
      assert (0 < maxX (vRect v) - minX (vRect v) /\ 0 < maxY (vRect v) - minY (vRect v)) by (split; apply Z.nle_gt; intros ?; nia).
      destruct (Z.eq_dec (maxX (vRect v) - minX (vRect v)) (maxX R - minX R)) as [e|ne].
      - split; [exact e|]. rewrite e in VL. nia.
      - exfalso. nia. }
    destruct SZ as (SX & SY).
    set (x := minX (vRect v) + Z.of_nat j mod dx R). set (y := minY (vRect v) + Z.of_nat j / dx R).
    assert (DX : 0 < dx R) by (unfold dx, dy in *; nia).
    assert (MB := Z.mod_pos_bound (Z.of_nat j) (dx R) DX).
    assert (DB : 0 <= Z.of_nat j / dx R < dy R).
    { split; [apply Z.div_pos; lia|apply Z.div_lt_upper_bound; lia]. }
    assert (HI : inside (vRect v) x y) by (unfold inside, x, y, dx, dy in *; lia).
    exists x, y. split; [exact HI|].
    unfold g_At. rewrite (proj2 (pin_spec _ _ _) HI). cbn [negb]. unfold slice_get.
    assert (EJ : g_off v x y = Z.of_nat j).
    { unfold g_off, x, y. rewrite ES. pose proof (Z.div_mod (Z.of_nat j) (dx R)). lia. }
    rewrite EJ, EB, Nb. destruct (Z.ltb_spec (Z.of_nat j) 0); [lia|].
    destruct (Z.leb_spec (vLen v) (Z.of_nat j)); [lia|]. cbn [orb obind].
    rewrite <- (znth_drop_take b (vOff v) (vLen v)) by lia.
    unfold znth. destruct (Z.ltb_spec (Z.of_nat j) 0); [lia|]. rewrite Nat2Z.id. exact Hj.
Qed.
End Share.

Lemma sim_lookup {P} (k : bool) (s : pstate P) t i v : sim k s t -> nth_error (snd s) i = Some v ->
  exists Rs w, heap_ok (fst s) Rs (fst t) /\ cover k (fst s) Rs (fst t) v w.
Proof.
  intros (Rs & HO & LV & HC) Hv. destruct (nth_error (snd t) i) as [w|] eqn:Ew.
  - exists Rs, w. split; [exact HO|]. eapply HC; eauto.
  - apply nth_error_None in Ew. assert (nth_error (snd s) i <> None) as N by congruence.
    apply nth_error_Some in N. lia.
Qed.

Lemma rgb_reach ops h vs outs i v : Forall op_ok ops -> Forall (op_wf wf_color) ops ->
  prun rgb_step ([], []) ops = Some ((h, vs), outs) -> nth_error vs i = Some v ->
  exists Rs cs w, heap_ok h Rs cs /\ cover false h Rs cs v w.
Proof.
  intros HO HW E Hv. destruct (rgb_refines ops HO HW) as (s' & E' & S). rewrite E in E'.
  injection E' as <- _. destruct (sim_lookup _ _ _ i v S Hv) as (Rs & w & A & B). eauto.
Qed.
Lemma ga_reach ops h vs outs i v : Forall op_ok ops ->
  prun ga_step ([], []) ops = Some ((h, vs), outs) -> nth_error vs i = Some v ->
  exists Rs cs w, heap_ok h Rs cs /\ cover false h Rs cs v w.
Proof.
  intros HO E Hv. destruct (ga_refines ops HO) as (s' & E' & S). rewrite E in E'.
  injection E' as <- _. destruct (sim_lookup _ _ _ i v S Hv) as (Rs & w & A & B). eauto.
Qed.
Lemma pa_reach ops h vs outs i v : Forall op_ok ops -> Forall (op_wf wf_color) ops ->
  prun pa_step ([], []) ops = Some ((h, vs), outs) -> nth_error vs i = Some v ->
  exists Rs cs w, heap_ok h Rs cs /\ cover true h Rs cs v w.
Proof.
  intros HO HW E Hv. destruct (pa_refines ops HO HW) as (s' & E' & S). rewrite E in E'.
  injection E' as <- _. destruct (sim_lookup _ _ _ i v S Hv) as (Rs & w & A & B). eauto.
Qed.

(** ** the sub-image property for each type *)
Lemma rgb_sub_shared ops h vs outs i v : Forall op_ok ops -> Forall (op_wf wf_color) ops ->
  prun rgb_step ([], []) ops = Some ((h, vs), outs) -> nth_error vs i = Some v ->
  shared_view rgb_At rgb_SetRGB rgb_SubImage v.
Proof.
  intros HO HW E Hv r. destruct (rgb_reach _ _ _ _ _ _ HO HW E Hv) as (Rs & cs & w & A & B).
  destruct (g_sub_share (0, 0, 0) false h Rs cs v w r A B) as (u & E1 & E2 & E3 & E4).
  assert (EO : forall v x y, rgb_PixOffset v x y = g_off v x y) by (intros; unfold rgb_PixOffset, g_off; lia).
  exists u. split; [|split; [exact E2|split; [exact E3|]]].
  - rewrite <- E1. unfold rgb_SubImage, g_SubImage. cbv zeta. rewrite EO. reflexivity.
  - intros x y Hxy h' p. specialize (E4 x y Hxy h' p). unfold g_At, g_SetPix in E4.
    unfold rgb_At, rgb_SetRGB. rewrite !EO. exact E4.
Qed.
Lemma ga_sub_shared ops h vs outs i v : Forall op_ok ops ->
  prun ga_step ([], []) ops = Some ((h, vs), outs) -> nth_error vs i = Some v ->
  shared_view ga_At ga_SetGrayAlpha ga_SubImage v.
Proof.
  intros HO E Hv r. destruct (ga_reach _ _ _ _ _ _ HO E Hv) as (Rs & cs & w & A & B).
  destruct (g_sub_share (0, 0) false h Rs cs v w r A B) as (u & E1 & E2 & E3 & E4).
  assert (EO : forall v x y, ga_PixOffset v x y = g_off v x y) by (intros; unfold ga_PixOffset, g_off; lia).
  exists u. split; [|split; [exact E2|split; [exact E3|]]].
  - rewrite <- E1. unfold ga_SubImage, g_SubImage. cbv zeta. rewrite EO. reflexivity.
  - intros x y Hxy h' p. specialize (E4 x y Hxy h' p). unfold g_At, g_SetPix in E4.
    unfold ga_At, ga_SetGrayAlpha. rewrite !EO. exact E4.
Qed.
Lemma pa_sub_shared ops h vs outs i v : Forall op_ok ops -> Forall (op_wf wf_color) ops ->
  prun pa_step ([], []) ops = Some ((h, vs), outs) -> nth_error vs i = Some v ->
  shared_view pa_IndexAlphaAt pa_SetIndexAlpha pa_SubImage v /\
  forall r u, pa_SubImage v r = Some u -> rempty (vRect u) = false -> vPal u = vPal v.
Proof.
  intros HO HW E Hv.
  assert (EO : forall v x y, pa_PixOffset v x y = g_off v x y) by (intros; unfold pa_PixOffset, g_off; lia).
  split.
  - intros r. destruct (pa_reach _ _ _ _ _ _ HO HW E Hv) as (Rs & cs & w & A & B).
    destruct (g_sub_share (0, 0) true h Rs cs v w r A B) as (u & E1 & E2 & E3 & E4).
    exists u. split; [|split; [exact E2|split; [exact E3|]]].
    + rewrite <- E1. unfold pa_SubImage, g_SubImage. cbv zeta. rewrite EO. reflexivity.
    + intros x y Hxy h' p. specialize (E4 x y Hxy h' p). unfold g_At, g_SetPix in E4.
      unfold pa_IndexAlphaAt, pa_SetIndexAlpha. rewrite !EO. exact E4.
  - intros r u. unfold pa_SubImage. cbv zeta. destruct (rempty (intersect r (vRect v))) eqn:F.
    + intros [= <-]. discriminate.
    + destruct (_ || _); [discriminate|]. intros [= <-] _. reflexivity.
Qed.

(** ** Opaque *)
Lemma ga_Opaque_forall h v : ga_Opaque h v = true <-> forall p, In p (slice_elems h v) -> snd p = 255.
Proof.
  unfold ga_Opaque. induction (slice_elems h v) as [|c l IH].
  - split; [intros _ p []|reflexivity].
  - destruct (Z.eqb_spec (snd c) 255) as [e|n]; cbn [negb].
    + rewrite IH. split; [intros H p [<-|H']; auto|intros H p H'; apply H; right; exact H'].
    + split; [discriminate|]. intros H. exfalso. apply n, H. left; reflexivity.
Qed.
Lemma pa_Opaque_exists h v : pa_Opaque h v = true <-> exists p, In p (slice_elems h v) /\ snd p <> 255.
Proof.
  unfold pa_Opaque. induction (slice_elems h v) as [|c l IH].
  - split; [discriminate|intros (p & [] & _)].
  - destruct (Z.eqb_spec (snd c) 255) as [e|n]; cbn [negb].
    + rewrite IH. split; [intros (p & H & H'); exists p; split; [right|]; assumption|].
      intros (p & [<-|H] & H'); [contradiction|eauto].
    + split; [intros _; exists c; split; [left; reflexivity|exact n]|reflexivity].
Qed.

Lemma ga_opaque_true ops h vs outs i v : Forall op_ok ops ->
  prun ga_step ([], []) ops = Some ((h, vs), outs) -> nth_error vs i = Some v ->
  (ga_Opaque h v = true -> all_opaque (ga_At h v) (vRect v)) /\
  (vOff v = 0 -> vLen v = dx (vRect v) * dy (vRect v) ->
   (ga_Opaque h v = true <-> all_opaque (ga_At h v) (vRect v))).
Proof.
  intros HO E Hv. destruct (ga_reach _ _ _ _ _ _ HO E Hv) as (Rs & cs & w & A & B).
  destruct (elems_of_view (0, 0) false h Rs cs v w A B) as (F1 & F2).
  assert (EA : forall x y, ga_At h v x y = g_At (0, 0) h v x y).
  { intros. unfold ga_At, g_At. replace (ga_PixOffset v x y) with (g_off v x y); [reflexivity|].
    unfold ga_PixOffset, g_off; lia. }
  assert (D1 : ga_Opaque h v = true -> all_opaque (ga_At h v) (vRect v)).
  { intros H x y Hxy. rewrite ga_Opaque_forall in H. destruct (F1 x y Hxy) as ([a b] & I & G).
    exists a. rewrite EA, G. apply H in I. cbn in I. subst b. reflexivity. }
  split; [exact D1|]. intros V1 V2. split; [exact D1|]. intros H. apply ga_Opaque_forall. intros p Hp.
  destruct (F2 V1 V2 p Hp) as (x & y & Hxy & G). destruct (H x y Hxy) as (a & H').
  rewrite EA, G in H'. injection H' as ->. reflexivity.
Qed.
Lemma pa_opaque_inverted ops h vs outs i v : Forall op_ok ops -> Forall (op_wf wf_color) ops ->
  prun pa_step ([], []) ops = Some ((h, vs), outs) -> nth_error vs i = Some v ->
  vOff v = 0 -> vLen v = dx (vRect v) * dy (vRect v) ->
  (pa_Opaque h v = false <-> all_opaque (pa_IndexAlphaAt h v) (vRect v)).
Proof.
  intros HO HW E Hv V1 V2. destruct (pa_reach _ _ _ _ _ _ HO HW E Hv) as (Rs & cs & w & A & B).
  destruct (elems_of_view (0, 0) true h Rs cs v w A B) as (F1 & F2).
  assert (EA : forall x y, pa_IndexAlphaAt h v x y = g_At (0, 0) h v x y).
  { intros. unfold pa_IndexAlphaAt, g_At. replace (pa_PixOffset v x y) with (g_off v x y); [reflexivity|].
    unfold pa_PixOffset, g_off; lia. }
  assert (N : pa_Opaque h v = false <-> forall p, In p (slice_elems h v) -> snd p = 255).
  { split.
    - intros H p Hp. destruct (Z.eq_dec (snd p) 255) as [e|n]; [exact e|].
      assert (pa_Opaque h v = true) by (apply pa_Opaque_exists; eauto). congruence.
    - intros H. destruct (pa_Opaque h v) eqn:Q; [|reflexivity]. apply pa_Opaque_exists in Q.
      destruct Q as (p & Hp & np). exfalso. auto. }
  rewrite N. split.
  - intros H x y Hxy. destruct (F1 x y Hxy) as ([a b] & I & G). exists a. rewrite EA, G.
    apply H in I. cbn in I. subst b. reflexivity.
  - intros H p Hp. destruct (F2 V1 V2 p Hp) as (x & y & Hxy & G). destruct (H x y Hxy) as (a & H').
    rewrite EA, G in H'. injection H' as ->. reflexivity.
Qed.

(** ** PalettedAlpha.At *)
Lemma pa_at_ok ops h vs outs i v : Forall op_ok ops -> Forall (op_wf wf_color) ops ->
  prun pa_step ([], []) ops = Some ((h, vs), outs) -> nth_error vs i = Some v ->
  forall x y, exists k a, pa_IndexAlphaAt h v x y = Some (k, a) /\
    pa_At h v x y = match znth (vPal v) k with
                    | Some e => Some (CNRGBA (u8 (pR (color_RGBA e) / 256)) (u8 (pG (color_RGBA e) / 256))
                                             (u8 (pB (color_RGBA e) / 256)) a)
                    | None => None end.
Proof.
  intros HO HW E Hv x y. destruct (pa_reach _ _ _ _ _ _ HO HW E Hv) as (Rs & cs & w & A & B).
  assert (EA : pa_IndexAlphaAt h v x y = g_At (0, 0) h v x y).
  { unfold pa_IndexAlphaAt, g_At. replace (pa_PixOffset v x y) with (g_off v x y); [reflexivity|].
    unfold pa_PixOffset, g_off; lia. }
  unfold pa_At. rewrite EA, (g_At_ok (0, 0) true h Rs cs v w x y A B). cbn [obind].
  match goal with |- context [Some ?q] => destruct q as [k a] end. exists k, a. split; [reflexivity|].
  cbn [fst snd]. destruct (znth (vPal v) k); [|reflexivity]. cbn [obind]. cbv zeta. rewrite !shiftr8. reflexivity.
Qed.
