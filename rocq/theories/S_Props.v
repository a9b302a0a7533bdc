(** The properties of layers and channels, from the description of the format. *)
Require Import Verif.Base Verif.S_File.

(** the payloads allowed for the layer property [typ]; [wide]: pointers take eight bytes
    (version 11 on) *)
Inductive lpayload (wide : bool) : Z -> list Z -> Prop :=
| lp_bool typ (b : bool) : In typ [8; 9; 10; 11; 12; 13; 28] -> lpayload wide typ (word (if b then 1 else 0))
| lp_opacity o : 0 <= o <= 255 -> lpayload wide 6 (word o)
| lp_word typ z : In typ [7; 20; 26; 31; 33] -> is_word z -> lpayload wide typ (word z)
| lp_offsets x y : is_word x -> is_word y -> lpayload wide 15 (word x ++ word y)
| lp_none typ : In typ [2; 29] -> lpayload wide typ []
| lp_floating hi lo : lpayload wide 5 ((if wide then word hi else []) ++ word lo)
| lp_path l : Forall is_word l -> lpayload wide 30 (flat_map word l)
| lp_parasites ps : Forall par_ok ps -> lpayload wide 21 (flat_map parasite_bytes ps)
| lp_other typ l : is_word typ -> ~ In typ [0; 2; 5; 6; 7; 8; 9; 10; 11; 12; 13; 15; 20; 21; 26; 28; 29; 30; 31; 33] -> lpayload wide typ l.

(** a channel property: any record but the end; opacity is a word up to 255 *)
Inductive cpayload : Z -> list Z -> Prop :=
| cp_opacity o : 0 <= o <= 255 -> cpayload 6 (word o)
| cp_other typ l : is_word typ -> typ <> 0 -> typ <> 6 -> cpayload typ l.

(** a list of properties and its end *)
Definition props_bytes (l : list (Z * list Z)) : list Z := flat_map (fun q => property (fst q) (snd q)) l ++ property 0 [].

(** the image properties the decoder frames rightly (C45): a colour map only in an indexed image,
    no guides or sample points, no points in vectors *)
Definition framed_image (base : Z) (q : Z * list Z) : Prop :=
  payload base (fst q) (snd q) /\ (fst q = 1 -> base = 2) /\ (fst q = 18 \/ fst q = 39 -> snd q = []) /\
  (fst q = 25 -> exists a vs, snd q = vectors_bytes a vs /\ Forall vpath_ok vs /\ Forall pointless vs).
