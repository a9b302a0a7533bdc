(** A whole file and the layered image it describes, from the format's description:
    every part where its pointer says, in any order and with anything between. *)
Require Import Verif.Base Verif.M_Color Verif.M_Composite Verif.M_Rect Verif.M_Image Verif.M_Decode Verif.S_Rle Verif.L_Rle Verif.S_Compressed Verif.L_Grid
  Verif.S_String Verif.S_File Verif.S_Props Verif.S_Accept Verif.S_Kinds Verif.S_Meaning.
Require Verif.S_Groups.

(** ** Image properties: the colour map (if any) and the compression *)
Definition istate : Type := (option (list (Z * Z * Z)) * Z)%type.
Inductive imeans : Z -> list Z -> istate -> istate -> Prop :=
| im_colours l pal comp : imeans 1 (word (zlen l) ++ flat_map (fun c => let '(r, g, b) := c in [r; g; b]) l) (pal, comp) (Some l, comp)
| im_compression c pal comp : imeans 17 [c] (pal, comp) (pal, c)
| im_nothing typ l st : typ <> 1 -> typ <> 17 -> imeans typ l st st.
Fixpoint all_imean (props : list (Z * list Z)) (a a' : istate) : Prop :=
  match props with
  | [] => a' = a
  | q :: props => exists b, imeans (fst q) (snd q) a b /\ all_imean props b a'
  end.

(** ** Pixels *)
(** the pixel data at p of a drawable w by h with [nch] bytes for each pixel, byte k of the
    pixel (x,y) being px k x y: dimensions, bytes for each pixel, a pointer to the first level;
    there the dimensions, one pointer for each 64x64 tile, row by row, and 0; at each of these
    the run length coded channels of the tile, one after the other, no channel ending with an
    empty packet ([tcoded]) *)
Definition pixel_data (f : list Z) (vm p w h nch : Z) (px : Z -> Z -> Z -> Z) : Prop :=
  exists q ptrs tiles,
    has f p (word w ++ word h ++ word nch ++ pointer vm q) /\
    has f q (word w ++ word h ++ flat_map (pointer vm) ptrs ++ word 0) /\
    zlen ptrs = tiles_across w * tiles_across h /\
    Forall2 (fun t chs => has f t (concat chs)) ptrs tiles /\
    tcoded w h nch tiles px /\
    (forall k x y, 0 <= k < nch -> 0 <= x < w -> 0 <= y < h -> is_u8 (px k x y)).
(** a mask at p: a channel of its own, with a name and properties *)
Definition mask_data (f : list Z) (vm p w h : Z) (m : Z -> Z -> Z) : Prop :=
  exists name props hp, has f p (word w ++ word h ++ text name ++ props_bytes props ++ pointer vm hp) /\
    Forall (fun q => cpayload (fst q) (snd q)) props /\ pixel_data f vm hp w h 1 (fun _ => m).

(** ** Layers *)
(** "gimp-text-layer" *)
Definition text_name : list Z := [103; 105; 109; 112; 45; 116; 101; 120; 116; 45; 108; 97; 121; 101; 114].
(** the text of a layer is in the first parasite of that name; [ptext] reads it *)
Inductive text_said (ptext : list Z -> tres) : list par_rec -> option (list textDatum) -> Prop :=
| ts_none ps : Forall (fun r => fst (fst r) <> text_name) ps -> text_said ptext ps None
| ts_some a flags data b t : Forall (fun r => fst (fst r) <> text_name) a -> ptext data = TOk t ->
    text_said ptext (a ++ (text_name, flags, data) :: b) (Some t).

(** what is said of a layer: name, size, type (0..5), what its properties decide, its pixels,
    mask and text *)
Record ldesc := mkLD {
  ldName : list Z; ldW : Z; ldH : Z; ldType : Z; ldAttrs : attrs;
  ldPx : Z -> Z -> Z -> Z; ldMask : option (Z -> Z -> Z); ldText : option (list textDatum) }.
(** a layer at p: size, type, name, properties, pointers to its pixels and its mask (0: none).
    A group has no pixels and no text of its own. *)
Definition layer_at (float : Z -> Z) (mo : Z -> mode) (ptext : list Z -> tres) (f : list Z) (vm base p : Z) (D : ldesc) : Prop :=
  exists props hp mp,
    has f p (word (ldW D) ++ word (ldH D) ++ word (ldType D) ++ text (ldName D) ++ props_bytes props ++ pointer vm hp ++ pointer vm mp) /\
    0 <= ldW D <= 4294967232 /\ 0 <= ldH D <= 4294967232 /\ ldType D / 2 = base /\ utf8 (ldName D) /\
    0 <= hp < 9223372036854775808 /\
    good_props vm props /\ all_mean float mo props plain (ldAttrs D) /\
    text_said ptext (aParasites (ldAttrs D)) (ldText D) /\
    (if aGroup (ldAttrs D) then ldText D = None
     else pixel_data f vm hp (ldW D) (ldH D) (type_channels (ldType D)) (ldPx D)) /\
    match ldMask D with
    | None => mp = 0
    | Some m => mp <> 0 /\ mask_data f vm mp (ldW D) (ldH D) m
    end.

(** ** The tree of layers *)
Inductive dnode := DLeaf (d : ldesc) | DGroup (d : ldesc) (kids : dforest)
with dforest := DNil | DCons (label : Z) (nd : dnode) (rest : dforest).
Fixpoint dlabels (F : dforest) : list Z := match F with DNil => [] | DCons r _ F => r :: dlabels F end.
(** the numbers of siblings differ and are Unicode scalar values (C47) *)
Fixpoint dlabelled (F : dforest) : Prop :=
  match F with
  | DNil => True
  | DCons r nd F => S_Groups.scalar r = true /\ ~ In r (dlabels F) /\
      match nd with DLeaf _ => True | DGroup _ k => dlabelled k end /\ dlabelled F
  end.
Fixpoint dnumbered (n : Z) (F : dforest) : Prop :=
  match F with DNil => True | DCons r _ F => r = n /\ dnumbered (n + 1) F end.
(** the layers in the order of the file, each with its place in the tree ([bare]: those at the
    top are without it) *)
Fixpoint dorder (bare : bool) (p : list Z) (F : dforest) : list (ldesc * bool * list Z) :=
  match F with
  | DNil => []
  | DCons r nd F =>
      let path := if bare then [] else p ++ [r] in
      match nd with
      | DLeaf d => [(d, false, path)]
      | DGroup d k => (d, true, path) :: dorder false (p ++ [r]) k
      end ++ dorder bare p F
  end.

(** ** The layered image *)
(** a picture of the pixels, with its text, behind its mask *)
Definition pictured (dec : bool) (pal : list (Z * Z * Z)) (D : ldesc) (i : image) : Prop :=
  exists pc, picBounds pc = mkRect 0 0 (ldW D) (ldH D) /\ picModel pc = kind (ldType D) (colour_map pal) /\
    typed (ldType D) pal (ldW D) (ldH D) (ldPx D) (picAt pc) /\
    (forall x y, shown_as (picAt pc x y)
      (if (0 <=? x) && (x <? ldW D) && (0 <=? y) && (y <? ldH D) then meant (ldType D) pal (fun k => ldPx D k x y)
       else outside dec (ldType D) pal)) /\
    i = match ldText D with Some t => IText (ILeaf pc) t | None => ILeaf pc end.
Definition masked (D : ldesc) (i j : image) : Prop :=
  match ldMask D with
  | None => j = i
  | Some m => exists g, j = IMasked i g /\ grayBounds g = mkRect 0 0 (ldW D) (ldH D) /\
      forall x y, grayAt g x y = if (0 <=? x) && (x <? ldW D) && (0 <=? y) && (y <? ldH D) then m x y else 0
  end.
(** [described dec pal canvas ox oy F ls]: the layers ls are those of F in a parent whose corner is
    at (ox,oy) of the canvas *)
Fixpoint described (dec : bool) (pal : list (Z * Z * Z)) (canvas : rect) (ox oy : Z) (F : dforest) (ls : list layer) : Prop :=
  match F with
  | DNil => ls = []
  | DCons _ nd F =>
      exists l rest, ls = l :: rest /\
        let D := match nd with DLeaf d => d | DGroup d _ => d end in
        let a := ldAttrs D in
        lName l = ldName D /\
        lBounds l = S_Groups.placed canvas ox oy (mkRect (aX a) (aY a) (aX a + ldW D) (aY a + ldH D)) /\
        lMode l = aMode a /\ lInvisible l = aHidden a /\ lTransparency l = aTransparency a /\
        match nd with
        | DLeaf d => exists i, pictured dec pal d i /\ masked d i (lImage l)
        | DGroup d k => exists g, described dec pal canvas (aX a) (aY a) k g /\ masked d (IGroup g) (lImage l)
        end /\
        described dec pal canvas ox oy F rest
  end.

(** ** The file *)
(** [f] is a file, of version n, of the image w by h of base type [base] (0: colour, 1: grey, 2: indexed)
    with the colour map [pal] and the layers F, run length coded; all layers but the last in the file have alpha *)
Record file_of (float : Z -> Z) (mo : Z -> mode) (ptext : list Z -> tres) (f : list Z) (n w h base : Z) (pal : list (Z * Z * Z)) (F : dforest) : Prop := mkFile {
  fo_bytes : Forall is_u8 f;
  fo_size : zlen f < 16777216;
  fo_version : 0 <= n <= 13;
  fo_w : is_word w;
  fo_h : is_word h;
  fo_base : 0 <= base <= 2;
  fo_parts : exists prec iprops opal lps rest bare,
    is_word prec /\
    f = image_start n w h base prec ++ props_bytes iprops ++ flat_map (pointer (pointer_kind n)) lps ++ pointer (pointer_kind n) 0 ++ rest /\
    Forall (framed_image base) iprops /\ all_imean iprops (None, 0) (opal, 1) /\
    (base = 2 -> opal = Some pal) /\ Forall bytes3 pal /\
    Forall (fun z => 0 < z) lps /\
    Forall2 (fun p x => let '(D, g, path) := x in
      layer_at float mo ptext f (pointer_kind n) base p D /\ aGroup (ldAttrs D) = g /\ aPath (ldAttrs D) = path)
      lps (dorder bare [] F) /\
    (bare = true -> dnumbered 0 F) /\
    (forall i x, nth_error (dorder bare [] F) i = Some x -> (S i < length (dorder bare [] F))%nat -> Z.odd (ldType (fst (fst x))) = true);
  fo_labels : dlabelled F }.
(** how the decoder reads the mode numbers of the layers of an image of base type [base] (C67) *)
Definition modes_read (base : Z) (z : Z) : mode := if base =? 0 then gimp_mode z else if z =? 2 then MBehind else MNormal.
(** at the origin, or empty *)
Definition placed (D : ldesc) : Prop := (aX (ldAttrs D) = 0 /\ aY (ldAttrs D) = 0) \/ ldW D = 0 \/ ldH D = 0.
(** masks as the decoder can take them: only if it decompresses (C37), of layers and groups at the origin *)
Fixpoint masks_taken (dec : bool) (F : dforest) : Prop :=
  match F with
  | DNil => True
  | DCons _ nd F => match nd with
      | DLeaf d => ldMask d <> None -> dec = true /\ placed d
      | DGroup d k => (ldMask d <> None -> dec = true /\ placed d) /\ masks_taken dec k
      end /\ masks_taken dec F
  end.
(** none of them of a group *)
Fixpoint masks_ok (dec : bool) (F : dforest) : Prop :=
  match F with
  | DNil => True
  | DCons _ nd F => match nd with
      | DLeaf d => ldMask d <> None -> dec = true /\ placed d
      | DGroup d k => ldMask d = None /\ masks_ok dec k
      end /\ masks_ok dec F
  end.
(** the tree without the masks of its groups *)
Definition no_mask (d : ldesc) : ldesc := mkLD (ldName d) (ldW d) (ldH d) (ldType d) (ldAttrs d) (ldPx d) None (ldText d).
Fixpoint unmasked (F : dforest) : dforest :=
  match F with
  | DNil => DNil
  | DCons r (DLeaf d) F => DCons r (DLeaf d) (unmasked F)
  | DCons r (DGroup d k) F => DCons r (DGroup (no_mask d) (unmasked k)) (unmasked F)
  end.
