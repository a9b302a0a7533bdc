(** Deciding what S_Decode says about a given file, for the examples. *)
Require Import Verif.Base Verif.L_List Verif.M_Reader Verif.M_Decode Verif.S_Decode Verif.L_Piece.
From Coq Require Import ZifyBool ZifyNat.

Definition rd4 (f : list Z) (p : Z) : option Z :=
  if (0 <=? p) && (p + 4 <=? zlen f) then Some (be (ztake 4 (zdrop p f))) else None.
Definition rd8 (f : list Z) (p : Z) : option Z :=
  match rd4 f p, rd4 f (p + 4) with Some a, Some b => Some (4294967296 * a + b) | _, _ => None end.
Definition is (o : option Z) (v : Z) : bool := match o with Some x => x =? v | None => false end.
Lemma is_some o v : o = Some v -> is o v = true.
Proof. intros ->. apply Z.eqb_refl. Qed.

Lemma word_rd4 f p v : word_at f p v -> rd4 f p = Some v.
Proof.
  intros (pre & a & b & c & d & post & -> & P & V). unfold rd4. pose proof (zlen_pos pre). pose proof (zlen_pos post).
  rewrite !zlen_app. change (zlen [a; b; c; d]) with 4. replace (_ && _) with true by lia.
  rewrite <- P, zdrop_app by reflexivity. rewrite ztake_app by reflexivity. now rewrite be4, V.
Qed.
Lemma rd4_word f p v : rd4 f p = Some v -> word_at f p v.
Proof.
  unfold rd4. destruct ((0 <=? p) && (p + 4 <=? zlen f)) eqn:B; [|discriminate]. intros [= <-].
  pose proof (ztake_zdrop p f) as A. pose proof (ztake_zdrop 4 (zdrop p f)) as C.
  assert (LA : zlen (ztake p f) = p) by (apply zlen_ztake; lia).
  assert (L4 : zlen (ztake 4 (zdrop p f)) = 4) by (apply zlen_ztake; rewrite zlen_zdrop; lia).
  set (pre := ztake p f) in *. set (r := ztake 4 _) in *. set (t := zdrop 4 _) in *. clearbody pre r t.
  rewrite <- C in A. rewrite <- A, <- LA. now apply word_at_app.
Qed.
Lemma long_rd8 f p v : long_at f p v -> rd8 f p = Some v.
Proof. intros (a & b & A & B & ->). unfold rd8. now rewrite (word_rd4 _ _ _ A), (word_rd4 _ _ _ B). Qed.
Lemma bytes_take f p w : bytes_at f p w -> 0 <= p /\ p + zlen w <= zlen f /\ ztake (zlen w) (zdrop p f) = w.
Proof.
  intros (pre & post & -> & <-). pose proof (zlen_pos pre). pose proof (zlen_pos post). rewrite !zlen_app.
  rewrite zdrop_app by reflexivity. rewrite ztake_app by reflexivity. split; [lia|]. split; [lia|reflexivity].
Qed.

(** no pixels of a size with [bad] *)
Definition leads (f : list Z) (w h p : Z) (o : option Z) : bool :=
  match o with
  | None => false
  | Some q => is (rd4 f q) w && is (rd4 f (q + 4)) h
      || (9223372036854775808 <=? q) && (is (rd4 f (p + 20)) w && is (rd4 f (p + 24)) h)
  end.
Definition no_pixels (bad : Z -> Z -> bool) (f : list Z) : bool :=
  forallb (fun n => let p := Z.of_nat n in
    match rd4 f p, rd4 f (p + 4) with
    | Some w, Some h => negb (bad w h && (leads f w h p (rd4 f (p + 12)) || leads f w h p (rd8 f (p + 12))))
    | _, _ => true
    end) (seq 0 (List.length f)).
Lemma no_pixels_ok bad f w h : no_pixels bad f = true -> pixels_of f w h -> bad w h = false.
Proof.
  unfold no_pixels. rewrite forallb_forall. intros H (p & n & q & l & A & B & _ & D & L & G & K).
  destruct (bad w h) eqn:BD; [exfalso|reflexivity].
  assert (P : 0 <= p /\ p + 4 <= zlen f).
  { apply word_rd4 in A. unfold rd4 in A. destruct ((0 <=? p) && (p + 4 <=? zlen f)) eqn:Q; [lia|discriminate]. }
  specialize (H (Z.to_nat p)). cbv zeta in H. rewrite Z2Nat.id in H by lia.
  rewrite (word_rd4 _ _ _ A), (word_rd4 _ _ _ B), BD in H. cbn [andb] in H.
  specialize (H ltac:(apply in_seq; unfold zlen in P; lia)).
  assert (LD : forall o, o = Some q -> leads f w h p o = true).
  { intros o ->. unfold leads. destruct L as [->|[Q ->]].
    - now rewrite (is_some _ _ (word_rd4 _ _ _ G)), (is_some _ _ (word_rd4 _ _ _ K)).
    - replace (9223372036854775808 <=? q) with true by lia. replace (p + 24) with (p + 20 + 4) by lia.
      rewrite (is_some _ _ (word_rd4 _ _ _ G)), (is_some _ _ (word_rd4 _ _ _ K)). apply orb_true_r. }
  destruct D as [D|D]; [apply word_rd4 in D|apply long_rd8 in D]; apply LD in D; rewrite D in H; [|rewrite orb_true_r in H]; discriminate H.
Qed.
(** sizes that are trouble *)
Definition bad_size (w h : Z) : bool := (4294967232 <? w) || (4294967232 <? h) || (70368744177664 <? w * h).
Lemma sound_sizes f : no_pixels bad_size f = true -> ~ endless f /\ ~ huge f /\ ~ wrapping f.
Proof.
  intros H. pose proof (fun w h => no_pixels_ok bad_size f w h H) as G. unfold bad_size in G.
  split; [|split]; intros Q; [destruct Q as (h & P & L)|destruct Q as (w & h & P & L)..]; specialize (G _ _ P); lia.
Qed.

(** everything that can be the data of a text parasite *)
Definition text_name : list Z := [103; 105; 109; 112; 45; 116; 101; 120; 116; 45; 108; 97; 121; 101; 114; 0].
Definition text_cands (f : list Z) : list (list Z) :=
  flat_map (fun n => let p := Z.of_nat n in
    if is (rd4 f p) 16 && (if list_eq_dec Z.eq_dec (ztake 16 (zdrop (p + 4) f)) text_name then true else false) then
      [] :: match rd4 f (p + 24) with
            | Some n => let w := ztake n (zdrop (p + 28) f) in [w ++ repeat 0 (Z.to_nat (n - zlen w))]
            | None => []
            end
    else []) (seq 0 (List.length f)).
Lemma text_cands_ok f t : zlen f <= 16777216 -> text_data f t -> In t (text_cands f).
Proof.
  intros FL (p & A & B & C). rewrite Z.min_l in C by exact FL. apply word_rd4 in A. apply bytes_take in B. destruct B as (_ & _ & B).
  assert (P : 0 <= p /\ p + 4 <= zlen f) by (unfold rd4 in A; destruct ((0 <=? p) && (p + 4 <=? zlen f)) eqn:Q; [lia|discriminate]).
  unfold text_cands. apply in_flat_map. exists (Z.to_nat p). split; [apply in_seq; unfold zlen in P; lia|].
  cbv zeta. rewrite Z2Nat.id by lia. rewrite (is_some _ _ A). change (zlen _) with 16 in B. change (16 :: nil) with [16] in B.
  destruct (list_eq_dec Z.eq_dec _ text_name) as [_|N]; [|contradiction N]. cbn [andb].
  destruct C as [->|(C & w & k & D & -> & K)]; [now left|right]. rewrite (word_rd4 _ _ _ C). left.
  apply bytes_take in D. destruct D as (D1 & D2 & D3). pose proof (zlen_pos w).
  assert (W : ztake (zlen (w ++ repeat 0 k)) (zdrop (p + 28) f) = w).
  { rewrite zlen_app, zlen_repeat. destruct K as [->|K]; [now replace (zlen w + Z.of_nat 0) with (zlen w) by lia|].
    transitivity (ztake (zlen w) (zdrop (p + 28) f)); [|exact D3]. rewrite !ztake_all; [reflexivity|rewrite zlen_zdrop; lia|rewrite zlen_zdrop; lia]. }
  rewrite W, zlen_app, zlen_repeat. f_equal. f_equal. lia.
Qed.
