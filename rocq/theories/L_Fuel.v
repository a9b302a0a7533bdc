(** More fuel never changes an answer of the decoder. *)
Require Import Verif.Base Verif.L_List Verif.M_Reader Verif.M_Rle Verif.M_Color Verif.M_Composite Verif.M_Rect Verif.M_Image Verif.M_Compressed
  Verif.M_Groups Verif.M_Monad Verif.M_Decode.
From Coq Require Import ZifyBool ZifyNat.

(** a either ran out of fuel or is b *)
Definition leo {A} (a b : outcome A) : Prop := a = NoFuel \/ a = b.
Definition leM {A} (m m' : M A) : Prop := forall st, leo (m st) (m' st).
Lemma leM_refl {A} (m : M A) : leM m m.
Proof. intros st. now right. Qed.
Lemma leM_bind {A B} (m m' : M A) (f f' : A -> M B) : leM m m' -> (forall a, leM (f a) (f' a)) -> leM (bindM m f) (bindM m' f').
Proof.
  intros H1 H2 st. unfold leo, bindM. destruct (H1 st) as [-> | ->]; [now left|].
  destruct (m' st) as [[a st1]| |]; [apply H2|now right|now right].
Qed.
Lemma leM_while {S R} n k (b b' : S -> M (S + R)) : (n <= k)%nat -> (forall s, leM (b s) (b' s)) ->
  forall s, leM (whileM n b s) (whileM k b' s).
Proof.
  revert k. induction n as [|n IH]; intros k K H s; [intros st; now left|].
  destruct k as [|k]; [lia|]. cbn [whileM]. apply leM_bind; [apply H|]. intros [s'|r]; [apply IH; [lia|exact H]|apply leM_refl].
Qed.
Lemma leM_list {A} n (m m' : M A) : leM m m' -> leM (listM n m) (listM n m').
Proof. intros H. induction n as [|n IH]; cbn [listM]; [apply leM_refl|]. apply leM_bind; [exact H|]. intros. apply leM_bind; [exact IH|]. intros. apply leM_refl. Qed.
Lemma leM_count {S R} n (b b' : S -> M (S + R)) : (forall s, leM (b s) (b' s)) -> forall s, leM (countM n b s) (countM n b' s).
Proof. intros H. induction n as [|n IH]; intros s; cbn [countM]; [apply leM_refl|]. apply leM_bind; [apply H|]. intros [s'|r]; [apply IH|apply leM_refl]. Qed.

Create HintDb lem.
Ltac same := match goal with |- leM ?a ?b => constr_eq a b; apply leM_refl end.
Ltac lem := intros; cbv beta zeta;
  first [ same
        | match goal with
          | |- leM (bindM _ _) (bindM _ _) => apply leM_bind; lem
          | |- leM (whileM _ _ _) (whileM _ _ _) => apply leM_while; [assumption | lem]
          | |- leM (listM _ _) (listM _ _) => apply leM_list; lem
          | |- leM (countM _ _ _) (countM _ _ _) => apply leM_count; lem
          | |- leM (match ?x with _ => _ end) _ => destruct x; lem
          end
        | solve [auto 1 with lem nocore] ].

Section Fuel.
Variables (n k : nat) (s : src).
Hypothesis NK : (n <= k)%nat.
Lemma le_readParasites l : leM (readParasites n s l) (readParasites k s l).
Proof. unfold readParasites. lem. Qed.
Hint Resolve le_readParasites : lem.
Lemma le_readImageProperties bt : leM (readImageProperties n s bt) (readImageProperties k s bt).
Proof. unfold readImageProperties. apply leM_while; [exact NK|]. intros [p c]. unfold imgprop_body. lem. Qed.
Hint Resolve le_readImageProperties : lem.
Lemma le_readLayerPointers m : leM (readLayerPointers n s m) (readLayerPointers k s m).
Proof. unfold readLayerPointers. lem. Qed.
Lemma le_decodeConfigM : leM (decodeConfigM n s) (decodeConfigM k s).
Proof. unfold decodeConfigM. lem. Qed.
Lemma le_skipProperties : leM (skipProperties n s) (skipProperties k s).
Proof. unfold skipProperties. lem. Qed.
Hint Resolve le_skipProperties : lem.
Variable d : dparams.
Lemma le_by64 {S} lim (b b' : Z -> S -> M S) x : (forall v x, leM (b v x) (b' v x)) -> leM (by64M n lim b x) (by64M k lim b' x).
Proof. intros H. unfold by64M. apply leM_while; [exact NK|]. intros [v y]. destruct (v <? lim); [|lem]. apply leM_bind; [apply H|lem]. Qed.
Lemma le_readImage w h m : leM (readImage n s d w h m) (readImage k s d w h m).
Proof.
  unfold readImage.
  assert (A : forall m b w h t, leM (readAndDecompressImage n s d m b w h t) (readAndDecompressImage k s d m b w h t)).
  { intros. unfold readAndDecompressImage. apply leM_bind; [lem|]. intros _. apply leM_bind; [|lem].
    apply le_by64. intros. apply le_by64. lem. }
  assert (B : forall m b w h t, leM (readCompressedImage n s m b w h t) (readCompressedImage k s m b w h t)).
  { intros. unfold readCompressedImage. apply leM_bind; [lem|]. intros _. apply leM_bind; [|lem].
    apply le_by64. intros. apply le_by64. lem. }
  lem.
Qed.
Hint Resolve le_readImage : lem.
Lemma le_readChannel : leM (readChannel n s d) (readChannel k s d).
Proof. unfold readChannel. lem. Qed.
Hint Resolve le_readChannel : lem.
Lemma le_readMask l : leM (readMask n s d l) (readMask k s d l).
Proof. unfold readMask. lem. Qed.
Hint Resolve le_readMask : lem.
Variables (f32op : Z -> Z) (ptext : list Z -> tres).
Lemma le_finishLayer l ps p : leM (finishLayer n s ptext d l ps p) (finishLayer k s ptext d l ps p).
Proof. unfold finishLayer. lem. Qed.
Hint Resolve le_finishLayer : lem.
Lemma le_readProperties l : leM (readProperties n s f32op d l) (readProperties k s f32op d l).
Proof. unfold readProperties. apply leM_while; [exact NK|]. intros [p c]. unfold lprop_body. lem. Qed.
Hint Resolve le_readProperties : lem.
Lemma le_readLayer : leM (readLayer n s f32op ptext d) (readLayer k s f32op ptext d).
Proof. unfold readLayer. lem. Qed.
Lemma le_readLayerAt p : leo (readLayerAt n s f32op ptext d p) (readLayerAt k s f32op ptext d p).
Proof.
  unfold readLayerAt.
  assert (H : leM (gotoM p;;; readLayer n s f32op ptext d) (gotoM p;;; readLayer k s f32op ptext d)).
  { apply leM_bind; [lem|]. intros. apply le_readLayer. }
  destruct (H (mkR 0 None)) as [-> | ->]; [now left|now right].
Qed.
End Fuel.
Lemma le_mapO {A B} (f f' : A -> outcome B) l : (forall a, leo (f a) (f' a)) -> leo (mapO f l) (mapO f' l).
Proof.
  intros H. induction l as [|a l IH]; cbn [mapO]; [now right|].
  destruct (H a) as [-> | ->]; [now left|]. destruct (f' a); cbn; [|now right|now right].
  destruct IH as [-> | ->]; [now left|now right].
Qed.
Lemma leo_refl {A} (a : outcome A) : leo a a.
Proof. right. reflexivity. Qed.
Lemma le_decodeImage n k f f32op ptext dc : (n <= k)%nat -> leo (decodeImage n f f32op ptext dc) (decodeImage k f f32op ptext dc).
Proof.
  intros NK. unfold decodeImage, decodeImageFrom. cbv zeta. generalize (newReader f). clear f. intros s.
  destruct (readHeader s (mkR 0 None)) as [[[e|mode] st]| |]; [apply leo_refl| |apply leo_refl|apply leo_refl].
  destruct (readUint32 s st) as [w st1]. destruct (readUint32 s st1) as [h st2]. cbv zeta.
  destruct (readUint32 s st2) as [bt st3].
  destruct (if 0 <? mode then readUint32 s st3 else (0, st3)) as [pr st4].
  destruct (le_readImageProperties n k s NK bt st4) as [-> | ->]; [left; reflexivity|].
  destruct (readImageProperties k s bt st4) as [[[e|[pal comp]] st5]| |]; [apply leo_refl| |apply leo_refl|apply leo_refl].
  destruct (le_readLayerPointers n k s NK mode st5) as [-> | ->]; [left; reflexivity|].
  destruct (readLayerPointers k s mode st5) as [[lp st6]| |]; [|apply leo_refl|apply leo_refl].
  destruct (rErr st6); [apply leo_refl|].
  destruct (le_mapO _ _ lp (le_readLayerAt n k s NK (mkDP comp dc bt pal mode) f32op ptext)) as [-> | ->]; [left; reflexivity|apply leo_refl].
Qed.
Lemma le_decodeConfig n k f : (n <= k)%nat -> leo (decodeConfig n f) (decodeConfig k f).
Proof.
  intros NK. unfold decodeConfig. generalize (newReader f). clear f. intros s.
  destruct (le_decodeConfigM n k s NK (mkR 0 None)) as [-> | ->]; [left; reflexivity|apply leo_refl].
Qed.
