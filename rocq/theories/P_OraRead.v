(** C91: which archives the ORA decoder reads. *)
Require Import Verif.Base Verif.M_Color Verif.M_Composite Verif.M_Rect Verif.M_Image Verif.M_Groups Verif.M_Ora Verif.S_Ora
  Verif.S_Rect Verif.S_OraDoc Verif.S_OraRead Verif.L_List Verif.L_Groups Verif.L_Ora Verif.L_Ora2 Verif.P_OraDec Verif.L_OraDoc Verif.P_OraDoc.
From Coq Require Import String.
Open Scope Z_scope.
Open Scope list_scope.

(** ** numbers *)
Lemma undec_inv s : forall v r, undec s v = Some r -> Forall digit s /\ r = value s v.
Proof.
  induction s as [|c s IH]; intros v r E; cbn [undec value] in *; [split; [constructor|congruence]|].
  destruct ((48 <=? c) && (c <=? 57)) eqn:D; [|discriminate]. destruct (IH _ _ E) as [F ->]. split; [|reflexivity].
  constructor; [|exact F]. unfold digit. apply andb_prop in D. destruct D as [D1 D2]. apply Z.leb_le in D1, D2. lia.
Qed.
Lemma atoi_signs c s : c <> 45 -> c <> 43 ->
  match c :: s with 45 :: _ => true | _ => false end = false /\ match c :: s with 45 :: t => t | 43 :: t => t | _ => c :: s end = c :: s.
Proof. intros A B. split; destruct c as [|p|p]; try reflexivity; repeat (destruct p as [p|p|]; try reflexivity; try congruence). Qed.
Lemma integer_atoi s n : atoi s = Some n -> integer s n.
Proof.
  assert (T : forall t (g : Z -> Z), match t with [] => None | _ => v <-? undec t 0;; (if (- 9223372036854775808 <=? g v) && (g v <=? 9223372036854775807) then Some (g v) else None) end = Some n ->
    is_int n /\ t <> [] /\ Forall (fun d => 48 <= d <= 57) t /\ n = g (value t 0)).
  { intros t g E. destruct t as [|c t]; [discriminate|]. remember (c :: t) as u. destruct (undec u 0) as [v|] eqn:U; [|discriminate]. cbn [obind] in E.
    apply undec_inv in U. destruct U as [U ->]. destruct ((- 9223372036854775808 <=? g (value u 0)) && _) eqn:B; [|discriminate]. injection E as <-.
    apply andb_prop in B. destruct B as [B1 B2]. apply Z.leb_le in B1, B2. split; [split; assumption|]. split; [subst; discriminate|]. split; [exact U|reflexivity]. }
  unfold atoi. destruct s as [|c s]; [discriminate|]. destruct (Z.eq_dec c 45) as [->|N1]; [|destruct (Z.eq_dec c 43) as [->|N2]].
  - intros E. destruct (T s (fun v => - v) E) as (I & N & F & V). split; [exact I|]. exists s. auto.
  - intros E. destruct (T s (fun v => v) E) as (I & N & F & V). split; [exact I|]. exists s. split; [exact N|]. split; [exact F|]. tauto.
  - destruct (atoi_signs c s N1 N2) as [-> ->]. intros E. destruct (T (c :: s) (fun v => v) E) as (I & N & F & V). split; [exact I|]. exists (c :: s). split; [exact N|]. split; [exact F|]. tauto.
Qed.
Lemma integer_iff s n : integer s n <-> atoi s = Some n.
Proof. split; [apply atoi_integer|apply integer_atoi]. Qed.

(** ** attributes *)
Lemma last_default {A} (l : list A) v d : last (v :: l) d = last l v.
Proof. destruct l as [|w l]; [reflexivity|]. cbn [last]. revert w. induction l as [|x l IH]; intros w; [reflexivity|]. cbn [last]. apply IH. Qed.
Lemma numbers_cons L k v as_ : (k = str "x" \/ k = str "y" -> exists n, integer v n) -> (k = str "opacity" -> lib_opacity L v <> None) ->
  numbers L as_ -> numbers L ((k, v) :: as_).
Proof.
  intros X O [N1 N2]. split; intros u.
  - rewrite !attr_In. intros [[E|I]|[E|I]]; [|apply N1; left; now apply attr_In| |apply N1; right; now apply attr_In]; injection E as -> ->; apply X; auto.
  - rewrite attr_In. intros [E|I]; [injection E as -> ->; now apply O|apply N2; now apply attr_In].
Qed.
Lemma numbers_inv L k v as_ : numbers L ((k, v) :: as_) ->
  (k = str "x" \/ k = str "y" -> exists n, integer v n) /\ (k = str "opacity" -> lib_opacity L v <> None) /\ numbers L as_.
Proof.
  intros [N1 N2]. split; [|split; [|split]].
  - intros [-> | ->]; apply N1; rewrite !attr_In; cbn; auto.
  - intros ->. apply N2. rewrite attr_In. now left.
  - intros u I. apply N1. rewrite !attr_In in *. cbn. tauto.
  - intros u I. apply N2. rewrite !attr_In in *. cbn. tauto.
Qed.
Lemma process_iff L as_ : forall s,
  match processLayerAttrs L as_ s with
  | inl a => numbers L as_ /\ laSrc a = last (attr "src" as_) (laSrc s)
  | inr _ => ~ numbers L as_
  end.
Proof.
  induction as_ as [|[k v] as_ IH]; intros s.
  - cbn. split; [|reflexivity]. split; intros u; cbn; tauto.
  - cbn [processLayerAttrs]. destruct s as [n x y t i m r]. unfold layerAttr.
    assert (Go : forall s', laSrc s' = (if key_eqb k (str "src") then v else r) ->
      (k = str "x" \/ k = str "y" -> exists n, integer v n) -> (k = str "opacity" -> lib_opacity L v <> None) ->
      match processLayerAttrs L as_ s' with
      | inl a => numbers L ((k, v) :: as_) /\ laSrc a = last (attr "src" ((k, v) :: as_)) r
      | inr _ => ~ numbers L ((k, v) :: as_)
      end).
    { intros s' ES X O. specialize (IH s'). destruct (processLayerAttrs L as_ s') as [a|e].
      - destruct IH as [N S]. split; [now apply numbers_cons|]. rewrite S, ES. destruct (key_eqb k (str "src")) eqn:K.
        + apply key_eqb_eq in K. subst k. rewrite attr_same. symmetry. apply last_default.
        + rewrite attr_other; [reflexivity|]. intros ->. now rewrite key_eqb_refl in K.
      - intros N. apply IH. now apply numbers_inv in N. }
    assert (No : (k = str "x" \/ k = str "y") /\ atoi v = None -> ~ numbers L ((k, v) :: as_)).
    { intros [KK A] N. apply numbers_inv in N. destruct N as (N & _). destruct (N KK) as (z & Z0). apply integer_iff in Z0. congruence. }
    destruct (key_eqb k (str "name")) eqn:K1; [apply key_eqb_eq in K1; subst k; cbn [rbind]; apply Go; [reflexivity|intros [|]; discriminate|discriminate]|].
    destruct (key_eqb k (str "x")) eqn:K2; [apply key_eqb_eq in K2; subst k|].
    { unfold atoi_err. destruct (atoi v) as [z|] eqn:A; cbn [rbind]; [|apply No; auto]. apply Go; [reflexivity|intros _; exists z; now apply integer_iff|discriminate]. }
    destruct (key_eqb k (str "y")) eqn:K3; [apply key_eqb_eq in K3; subst k|].
    { unfold atoi_err. destruct (atoi v) as [z|] eqn:A; cbn [rbind]; [|apply No; auto]. apply Go; [reflexivity|intros _; exists z; now apply integer_iff|discriminate]. }
    assert (NX : k = str "x" \/ k = str "y" -> exists n, integer v n) by (intros [-> | ->]; [now rewrite key_eqb_refl in K2|now rewrite key_eqb_refl in K3]).
    destruct (key_eqb k (str "opacity")) eqn:K4; [apply key_eqb_eq in K4; subst k|].
    { destruct (lib_opacity L v) as [z|] eqn:A; cbn [rbind]; [apply Go; [reflexivity|exact NX|intros _; congruence]|]. intros N. apply numbers_inv in N. destruct N as (_ & N & _). now apply N. }
    assert (NO : k = str "opacity" -> lib_opacity L v <> None) by (intros ->; now rewrite key_eqb_refl in K4).
    destruct (key_eqb k (str "visibility")) eqn:K5; [apply key_eqb_eq in K5; subst k; cbn [rbind]; apply Go; auto|].
    destruct (key_eqb k (str "composite-op")) eqn:K6; [apply key_eqb_eq in K6; subst k; cbn [rbind]; apply Go; auto|].
    destruct (key_eqb k (str "src")) eqn:K7; cbn [rbind]; apply Go; auto; now rewrite K7.
Qed.
Lemma picture_findImage ms src i : findImage ms src = inl i -> picture ms src i.
Proof.
  induction ms as [|m ms IH]; cbn [findImage]; [discriminate|]. destruct (key_eqb (mName m) src) eqn:K.
  - unfold open. destruct (mOpen m) eqn:O; cbn [rbind]; [|discriminate]. destruct (mImage m) as [j|] eqn:I; [|discriminate]. intros [= <-].
    apply key_eqb_eq in K. exists [], m, ms. cbn. auto.
  - intros E. destruct (IH E) as (pre & k & post & -> & N & F & R). exists (m :: pre), k, post. split; [reflexivity|]. split; [exact N|]. split; [|exact R].
    constructor; [|exact F]. intros Q. rewrite Q, key_eqb_refl in K. discriminate.
Qed.

(** ** elements *)
Lemma balanced_app a b : balanced a -> balanced b -> balanced (a ++ b).
Proof.
  induction 1 as [|ts _ IH|m as_ body ts B _ _ IH]; intros H; [exact H|constructor; auto|]. rewrite <- app_comm_cons, <- app_assoc, <- app_comm_cons. constructor; auto.
Qed.
Lemma skip_inv e : forall k ts n r, (List.length ts <= k)%nat -> skipTag e ts n = inl r ->
  exists b ts', balanced b /\ ts = b ++ TEnd :: ts' /\ match n with O => ts' = r | S m => skipTag e ts' m = inl r end.
Proof.
  induction k as [|k IH]; intros ts n r Lk E; (destruct ts as [|[m as_| |] ts]; cbn [skipTag List.length] in *; [discriminate| | |]); try lia.
  - destruct (IH ts (S n) r ltac:(lia) E) as (b1 & t1 & B1 & -> & E1). rewrite app_length in Lk. cbn [List.length] in Lk.
    destruct (IH t1 n r ltac:(lia) E1) as (b2 & t2 & B2 & -> & E2). exists (TStart m as_ :: b1 ++ TEnd :: b2), t2. split; [now constructor|].
    split; [|exact E2]. now rewrite <- app_comm_cons, <- app_assoc.
  - exists [], ts. split; [constructor|]. split; [reflexivity|]. destruct n; [congruence|exact E].
  - destruct (IH ts n r ltac:(lia) E) as (b & t & B & -> & E1). exists (TOther :: b), t. split; [now constructor|]. split; [reflexivity|exact E1].
Qed.
Lemma toStack_iff e us q : toStack e us None = inl q <-> exists pre sa, us = pre ++ TStart (str "stack") sa :: q /\ skipped pre.
Proof.
  split.
  - enough (H : forall k us, (List.length us <= k)%nat -> toStack e us None = inl q -> exists pre sa, us = pre ++ TStart (str "stack") sa :: q /\ skipped pre) by (intros E; eapply H; [reflexivity|exact E]).
    clear us. induction k as [|k IH]; intros us Lk E; (destruct us as [|[n as_| |] us]; cbn [toStack List.length] in *; [destruct e; discriminate| | |]); try lia.
    + destruct (key_eqb n (str "stack")) eqn:K.
      * apply key_eqb_eq in K. subst n. injection E as ->. exists [], as_. split; [reflexivity|constructor].
      * rewrite toStack_skip in E. destruct (skipTag e us 0) as [r|] eqn:S; [|discriminate].
        destruct (skip_inv e _ us 0 r ltac:(reflexivity) S) as (b & t & B & -> & ->). rewrite app_length in Lk. cbn [List.length] in Lk.
        destruct (IH r ltac:(lia) E) as (pre & sa & -> & SK). exists (TStart n as_ :: b ++ TEnd :: pre), sa. split; [now rewrite <- app_comm_cons, <- app_assoc|].
        constructor; auto. intros ->. rewrite key_eqb_refl in K. discriminate.
    + destruct (IH us ltac:(lia) E) as (pre & sa & -> & SK). exists (TEnd :: pre), sa. split; [reflexivity|now constructor].
    + destruct (IH us ltac:(lia) E) as (pre & sa & -> & SK). exists (TOther :: pre), sa. split; [reflexivity|now constructor].
  - intros (pre & sa & -> & SK). induction SK as [|ts _ IH|ts _ IH|n as_ body ts N B _ IH]; cbn [app toStack].
    + now rewrite key_eqb_refl.
    + exact IH.
    + exact IH.
    + rewrite (key_eqb_neq _ _ N), toStack_skip, <- app_assoc, (skip_balanced e body B). cbn [app skipTag]. exact IH.
Qed.

(** ** stacks *)
Lemma read_inv L ms lim e f : forall ox oy ts ls r, readStack f L ms lim e ox oy ts = Some (inl (ls, r)) ->
  exists c, ts = c ++ TEnd :: r /\ understood L ms c.
Proof.
  induction f as [|f IH]; intros ox oy ts ls r E; [discriminate|]. cbn [readStack] in E. destruct ts as [|[n as_| |] ts]; [discriminate| | |].
  - assert (Rest : forall l t, match readStack f L ms lim e ox oy t with Some (inl (ls, ts)) => Some (inl (l :: ls, ts)) | r => r end = Some (inl (ls, r)) -> exists c, t = c ++ TEnd :: r /\ understood L ms c).
    { intros l t R. destruct (readStack f L ms lim e ox oy t) as [[[ls1 t1]|]|] eqn:Q; try discriminate. injection R as _ ->. eapply IH; exact Q. }
    destruct (key_eqb n (str "stack")) eqn:K1.
    + apply key_eqb_eq in K1. subst n. pose proof (process_iff L as_ la0) as P. destruct (processLayerAttrs L as_ la0) as [a|]; [|discriminate]. destruct P as [N _].
      destruct (readStack f L ms lim e (ox + laX a) (oy + laY a) ts) as [[[g t1]|]|] eqn:Q; try discriminate. destruct (IH _ _ _ _ _ Q) as (c1 & -> & U1).
      destruct (Rest _ _ E) as (c2 & -> & U2). exists (TStart (str "stack") as_ :: c1 ++ TEnd :: c2). split; [now rewrite <- app_comm_cons, <- app_assoc|now apply un_stack].
    + destruct (key_eqb n (str "layer")) eqn:K2.
      * apply key_eqb_eq in K2. subst n. pose proof (process_iff L as_ la0) as P. destruct (processLayerAttrs L as_ la0) as [a|]; cbn [rbind] in E; [|discriminate]. destruct P as [N S].
        destruct (findImage ms (laSrc a)) as [i|] eqn:F; cbn [rbind] in E; [|discriminate]. destruct (skipTag e ts 0) as [t|] eqn:T; cbn [rbind] in E; [|discriminate].
        destruct (skip_inv e _ ts 0 t ltac:(reflexivity) T) as (b & t' & B & -> & ->). destruct (Rest _ _ E) as (c & -> & U).
        exists (TStart (str "layer") as_ :: b ++ TEnd :: c). split; [now rewrite <- app_comm_cons, <- app_assoc|]. apply (un_layer L ms as_ b i c N); [|exact B|exact U]. apply picture_findImage. unfold source. cbn [la0 laSrc] in S. now rewrite <- S.
      * destruct (skipTag e ts 0) as [t|] eqn:T; [|discriminate].
        destruct (skip_inv e _ ts 0 t ltac:(reflexivity) T) as (b & t' & B & -> & ->). destruct (IH _ _ _ _ _ E) as (c & -> & U).
        exists (TStart n as_ :: b ++ TEnd :: c). split; [now rewrite <- app_comm_cons, <- app_assoc|]. constructor; auto. split; intros ->; [now rewrite key_eqb_refl in K1|now rewrite key_eqb_refl in K2].
  - injection E as _ ->. exists []. split; [reflexivity|constructor].
  - destruct (IH _ _ _ _ _ E) as (c & -> & U). exists (TOther :: c). split; [reflexivity|now constructor].
Qed.
Lemma read_ok L ms lim e c : understood L ms c -> forall ox oy r, exists f ls, readStack f L ms lim e ox oy (c ++ TEnd :: r) = Some (inl (ls, r)).
Proof.
  induction 1 as [|ts _ IH|n as_ body ts U B _ IH|as_ body i ts N P B _ IH|as_ kids ts N _ IHk _ IH]; intros ox oy r.
  - exists 1%nat, []. reflexivity.
  - destruct (IH ox oy r) as (f & ls & R). exists (Datatypes.S f), ls. exact R.
  - destruct (IH ox oy r) as (f & ls & R). exists (Datatypes.S f), ls. cbn [app readStack]. rewrite (key_eqb_neq _ _ (proj1 U)), (key_eqb_neq _ _ (proj2 U)), <- app_assoc, (skip_balanced e body B). exact R.
  - destruct (IH ox oy r) as (f & ls & R). pose proof (process_iff L as_ la0) as Q. destruct (processLayerAttrs L as_ la0) as [a|] eqn:PA; [|contradiction]. destruct Q as [_ S].
    exists (Datatypes.S f), (placed lim ox oy a i :: ls). cbn [app readStack]. rewrite key_layer, key_layer2, PA. cbn [rbind]. cbn [la0 laSrc] in S. rewrite S. fold (source as_). rewrite (findImage_picture _ _ _ P). cbn [rbind].
    rewrite <- app_assoc, (skip_balanced e body B). cbn [app skipTag rbind]. now rewrite R.
  - destruct (IH ox oy r) as (f & ls & R). pose proof (process_iff L as_ la0) as Q. destruct (processLayerAttrs L as_ la0) as [a|] eqn:PA; [|contradiction].
    destruct (IHk (ox + laX a) (oy + laY a) (ts ++ TEnd :: r)) as (f1 & g & R1). exists (Datatypes.S (Nat.max f f1)), (placed lim ox oy a (IGroup g) :: ls).
    cbn [app readStack]. rewrite key_stack, PA, <- app_assoc. cbn [app]. rewrite (read_more _ _ _ _ _ _ _ _ _ R1) by lia. rewrite (read_more _ _ _ _ _ _ _ _ _ R) by lia. reflexivity.
Qed.

(** Decode reads exactly these archives: all members called mimetype are right; the last stack.xml
    can be opened; its root is an <image> with a size; there is a <stack> in it, which is closed, and
    what is in that <stack> is understood.  Nothing after that is looked at.  Of every other archive
    an error is returned. *)
Theorem C91 L ms :
  ((exists ls, oraDecode L ms = Some (inl ls)) <->
   (forall m, In m ms -> mName m = str "mimetype" -> good_mime m) /\
   exists s as_ us pre sa content tail,
     the_stack ms s /\ mOpen s = true /\ root (mTokens s) (str "image") as_ us /\ sized "w" as_ /\ sized "h" as_ /\
     us = pre ++ TStart (str "stack") sa :: content ++ TEnd :: tail /\ skipped pre /\ understood L ms content) /\
  ((exists ls, oraDecode L ms = Some (inl ls)) \/ exists e, oraDecode L ms = Some (inr e)).
Proof.
  split; [|pose proof (oraDecode_fuel L ms) as F; destruct (oraDecode L ms) as [[ls|e]|]; [left|right|contradiction]; eauto].
  assert (SZ : forall k as_, sized k as_ <-> exists n, declares k as_ n).
  { intros k as_. unfold sized, declares. split.
    - intros [NE I]. destruct (exists_last NE) as (vs & v & E). destruct (I v) as (n & N); [rewrite E; apply in_or_app; right; now left|]. exists n. split.
      + intros u U. destruct (I u ltac:(now apply attr_In)) as (z & Z0). exists z. now apply integer_iff.
      + clear I NE. revert vs E. induction as_ as [|[k' v'] as_ IH]; intros vs E; [destruct vs; discriminate|].
        destruct (list_eq_dec Z.eq_dec k' (str k)) as [->|NK].
        * rewrite attr_same in E. destruct vs as [|u vs]; cbn [app] in E.
          -- injection E as -> E. exists [], as_, v. split; [reflexivity|]. split; [now apply integer_iff|]. intros u U. apply attr_In in U. rewrite E in U. destruct U.
          -- injection E as _ E. destruct (IH vs E) as (p & q & u' & -> & A & Q). exists ((str k, v') :: p), q, u'. auto.
        * rewrite attr_other in E by exact NK. destruct (IH vs E) as (p & q & u' & -> & A & Q). exists ((k', v') :: p), q, u'. auto.
    - intros (n & I & p & q & v & -> & A & _). split.
      + intros E. assert (X : In v (attr k (p ++ (str k, v) :: q))) by (apply attr_In; apply in_or_app; right; now left). rewrite E in X. destruct X.
      + intros u U. apply attr_In in U. destruct (I u U) as (z & Z0). exists z. now apply integer_iff. }
  assert (DM : forall as_, (exists w h, dims as_ None None = inl (w, h)) <-> sized "w" as_ /\ sized "h" as_).
  { intros as_. rewrite !SZ. split.
    - intros (w & h & D). apply dims_spec in D. destruct D as [[A|[A _]] [B|[B _]]]; try discriminate. eauto.
    - intros [(w & A) (h & B)]. exists w, h. apply dims_spec. split; now left. }
  unfold oraDecode, getStack. pose proof (getStack_loop_spec ms None) as S. unfold mimes_ok in S. split.
  - intros (ls & E). destruct (getStack_loop ms None) as [s|x]; cbn [rbind] in E; [|discriminate].
    destruct S as [M [T|[T _]]]; [|discriminate]. unfold open in E. destruct (mOpen s) eqn:O; cbn [rbind] in E; [|discriminate].
    pose proof (getDimensions_spec (mEnd s) (mTokens s)) as G. destruct (getDimensions (mEnd s) (mTokens s)) as [[[w h] us]|]; cbn [rbind fst snd] in E; [|discriminate].
    destruct G as (as_ & R & D). destruct (toStack (mEnd s) us None) as [q|] eqn:TS; cbn [rbind] in E; [|discriminate].
    apply toStack_iff in TS. destruct TS as (pre & sa & -> & SK).
    destruct (readStack _ L ms (w, h) (mEnd s) 0 0 q) as [[[l1 t1]|]|] eqn:RS; try discriminate. destruct (read_inv _ _ _ _ _ _ _ _ _ _ RS) as (c & -> & U).
    split; [exact (proj1 (Forall_forall _ _) M)|]. destruct (proj1 (DM as_) ltac:(eauto)) as [SW SH].
    exists s, as_, (pre ++ TStart (str "stack") sa :: c ++ TEnd :: t1), pre, sa, c, t1. auto 10.
  - intros (M & s & as_ & us & pre & sa & c & tail & T & O & R & SW & SH & -> & SK & U).
    assert (E : getStack_loop ms None = inl s).
    { destruct (getStack_loop ms None) as [s'|x].
      - destruct S as [_ [S|[S _]]]; [|discriminate]. f_equal. symmetry. eapply the_stack_unique; eassumption.
      - exfalso. destruct x; try contradiction; [|apply S, Forall_forall; exact M].
        destruct S as (_ & _ & S). rewrite Forall_forall in S. destruct T as (p & q & -> & N & _). apply (S s); [|assumption]. apply in_or_app. right. left. reflexivity. }
    rewrite E. cbn [rbind]. unfold open. rewrite O. cbn [rbind]. destruct R as (pre0 & -> & F). rewrite getDimensions_root by assumption.
    destruct (proj2 (DM as_) (conj SW SH)) as (w & h & D). rewrite D. cbn [rbind fst snd].
    assert (TS : toStack (mEnd s) (pre ++ TStart (str "stack") sa :: c ++ TEnd :: tail) None = inl (c ++ TEnd :: tail)) by (apply toStack_iff; eauto).
    rewrite TS. cbn [rbind]. destruct (read_ok L ms (w, h) (mEnd s) c U 0 0 tail) as (f & ls & R).
    set (q := c ++ TEnd :: tail) in *. destruct (read_fuel L ms (w, h) (mEnd s) (Datatypes.S (List.length q)) (Datatypes.S (List.length q + f)) 0 0 q ltac:(lia) ltac:(lia)) as (r & -> & X).
    rewrite (read_more _ _ _ _ _ _ _ _ _ R) in X by lia. destruct r as [[a b]|]; [|contradiction]. eauto.
Qed.
Print Assumptions C91.

(** An archive with a layer in a stack, beside an unknown element: it is understood, and read; with
    an opacity that is no number, an offset that is none, without its picture, or not closed, it is
    refused. *)
Definition sees (n : Z) : libs := mkLibs (fun _ => None) (fun _ => []) (fun s => if key_eqb s (str "0.5") then Some n else None) (fun s => s) (fun q => q).
Definition content91 (o x src : string) : list token :=
  [TStart (str "note") []; TStart (str "stack") []; TEnd; TEnd;
   TStart (str "stack") [(str "opacity", str o)]; TStart (str "layer") [(str "src", str src); (str "x", str x)]; TOther; TEnd; TEnd].
Definition archive91 (o x src : string) (closed : bool) : list member :=
  [ex_xml (TStart (str "stack") [] :: content91 o x src ++ if closed then [TEnd; TEnd] else []); ex_png "a" (ex_dot 1)].
Definition refused (r : option (res (list layer))) : bool := match r with Some (inr _) => true | _ => false end.
Example C91_ex :
  understood (sees 127) (archive91 "0.5" "-3" "a" true) (content91 "0.5" "-3" "a") /\
  (exists ls, oraDecode (sees 127) (archive91 "0.5" "-3" "a" true) = Some (inl ls) /\ ls <> []) /\
  refused (oraDecode (sees 127) (archive91 "1/2" "-3" "a" true)) = true /\
  refused (oraDecode (sees 127) (archive91 "0.5" "3px" "a" true)) = true /\
  refused (oraDecode (sees 127) (archive91 "0.5" "-3" "b" true)) = true /\
  refused (oraDecode (sees 127) (archive91 "0.5" "-3" "a" false)) = true.
Proof.
  split; [|split].
  - unfold content91. apply (un_unknown _ _ _ _ [TStart (str "stack") []; TEnd]); [split; discriminate|apply (bal_elem _ _ [] []); constructor|].
    apply (un_stack _ _ _ [TStart (str "layer") [(str "src", str "a"); (str "x", str "-3")]; TOther; TEnd]); [| |constructor].
    + split; intros v.
      * intros [I|I]; destruct I.
      * intros [<-|[]]. discriminate.
    + apply (un_layer _ _ _ [TOther] (ex_dot 1)); [| |repeat constructor|constructor].
      * split; intros v; [|intros []]. intros [[<-|[]]|[]]. exists (-3). apply integer_iff. vm_compute. reflexivity.
      * exists [ex_xml (TStart (str "stack") [] :: content91 "0.5" "-3" "a" ++ [TEnd; TEnd])], (ex_png "a" (ex_dot 1)), []. split; [reflexivity|]. split; [reflexivity|].
        split; [repeat constructor; discriminate|]. auto.
  - eexists. split; [vm_compute; reflexivity|discriminate].
  - repeat split; vm_compute; reflexivity.
Qed.
