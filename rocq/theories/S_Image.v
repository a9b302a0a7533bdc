(** Specification of layered images. *)
Require Import Verif.Base Verif.M_Color Verif.M_Composite Verif.S_Color Verif.M_Rect Verif.S_Rect Verif.M_Image.

(** the layer is visible and contains the point *)
Definition shown (x y : Z) (l : layer) : bool :=
  negb (lInvisible l) &&
  ((minX (lBounds l) <=? x) && (x <? maxX (lBounds l)) && (minY (lBounds l) <=? y) && (y <? maxY (lBounds l))).
(** the layers that matter at a point, from the bottom (last) to the top (first) *)
Definition bottom_up (x y : Z) (g : list layer) : list layer := filter (shown x y) (rev g).

(** A layer over the colour [c] reached so far; the second component counts the
    random draws used, of the stream [rnd].
    Ordinary rule: Composite with the layer's mode. *)
Definition draw_after (m : mode) (n : nat) : nat := match m with MDissolve => S n | _ => n end.
Definition over_rule (rnd : nat -> Z) (m : mode) (c d : color) (n : nat) : option (color * nat) :=
  option_map (fun r => (r, draw_after m n)) (composite m (rnd n) c d).
(** a colour model that is a color.Palette *)
Definition palette_model (k : cmodel) : Prop := exists p, k = KPalette p.
(** Rule when the group's colour model is a palette: a layer that is not in
    Dissolve mode either covers (more than half opaque) or does nothing. *)
Definition palette_rule (rnd : nat -> Z) (m : mode) (c d : color) (n : nat) : option (color * nat) :=
  match m with
  | MDissolve => over_rule rnd m c d n
  | _ => let e := colourToNRGBA d in
         if 32768 <=? cA e then Some (CNRGBA64 (mk64 (cR e) (cG e) (cB e) 65535), n) else Some (c, n)
  end.

(** fold of a rule over layers, bottom to top, from the transparent colour *)
Definition fold_layers (rule : mode -> color -> color -> nat -> option (color * nat))
    (rnd : nat -> Z) (x y : Z) (ls : list layer) (s : option (color * nat)) : option (color * nat) :=
  fold_left (fun s l => match s with
      | None => None
      | Some (c, n) => match layer_At rnd l x y n with
          | None => None
          | Some (d, n') => rule (lMode l) c d n' end end) ls s.

(** layered images built from leaves whose At never panics and yields proper
    colours, with byte transparencies and masks *)
Fixpoint wf_image (i : image) : Prop :=
  match i with
  | ILeaf p => forall x y, exists c, picAt p x y = Some c /\ wf_color c
  | IGroup g => (fix all (g : list layer) : Prop :=
                   match g with [] => True | l :: g => wf_layer l /\ all g end) g
  | IMasked i m => wf_image i /\ forall x y, is_u8 (grayAt m x y)
  | IText i _ => wf_image i
  | ILayer l => wf_layer l
  end
with wf_layer (l : layer) : Prop :=
  match l with mkLayer _ _ _ _ t im => is_u8 t /\ wf_image im end.

(** the colour of an outcome (draw count forgotten) *)
Definition colour_of (o : option (color * nat)) : option color := option_map fst o.
(** no random draw is made by the images *)
Fixpoint no_dissolve (i : image) : Prop :=
  match i with
  | ILeaf _ => True
  | IGroup g => (fix all (g : list layer) : Prop :=
                   match g with [] => True | l :: g => (lMode l <> MDissolve /\ no_dissolve_l l) /\ all g end) g
  | IMasked i _ => no_dissolve i
  | IText i _ => no_dissolve i
  | ILayer l => no_dissolve_l l
  end
with no_dissolve_l (l : layer) : Prop :=
  match l with mkLayer _ _ _ _ _ im => no_dissolve im end.
