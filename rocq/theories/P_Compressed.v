(** Property C31: compressed images (xcf/compressed.go). *)
Require Import Verif.Base Verif.M_Color Verif.M_Rect Verif.M_Image Verif.M_Reader Verif.M_Rle Verif.S_Rle
  Verif.M_Compressed Verif.S_Compressed Verif.L_Compressed.

(** ** C31.  For every coded image and whatever At calls were made before, At
    returns the colour of the coded pixel: the tile cache is invisible. *)
Theorem C31_shows_coded_pixels : forall mode w h pal tiles px calls x y,
  0 <= mode <= 5 -> coded w h (type_channels mode) tiles px -> (4 <= mode -> pal <> None) ->
  fst (comp_At mode pal h (comp_history mode pal h (newCI tiles w) calls) x y) =
  if pin x y (mkRect 0 0 w h)
  then match type_color mode (match pal with Some l => l | None => [] end) (fun k => px k x y) with
       | Some c => Ret (Some c)
       | None => Panic PIndex
       end
  else Ret (Some (comp_outside mode)).
Proof.
  intros mode w h pal tiles px calls x y M CO HP.
  destruct (comp_At_ok w h mode tiles px M CO pal (comp_history mode pal h (newCI tiles w) calls) x y) as [-> _].
  { apply (comp_history_ok w h mode tiles px M CO). apply cached_new; assumption. }
  unfold comp_spec. destruct pal as [pal|].
  - rewrite andb_false_r. now destruct (pin x y _).
  - destruct ((mode =? 4) || (mode =? 5)) eqn:B; [exfalso; apply HP; [lia|reflexivity]|].
    cbn [andb]. now destruct (pin x y _).
Qed.
(** so the answer does not depend on the history *)
Theorem C31_history_independent : forall mode w h pal tiles px calls x y,
  0 <= mode <= 5 -> coded w h (type_channels mode) tiles px ->
  fst (comp_At mode pal h (comp_history mode pal h (newCI tiles w) calls) x y) =
  fst (comp_At mode pal h (newCI tiles w) x y).
Proof.
  intros mode w h pal tiles px calls x y M CO.
  destruct (comp_At_ok w h mode tiles px M CO pal (comp_history mode pal h (newCI tiles w) calls) x y) as [-> _].
  { apply (comp_history_ok w h mode tiles px M CO). apply cached_new; assumption. }
  destruct (comp_At_ok w h mode tiles px M CO pal (newCI tiles w) x y) as [-> _].
  { apply cached_new; assumption. }
  reflexivity.
Qed.
(** the hypothesis is needed: with a tile whose data ends early, bytes of the tile
    looked at before show through (the decoder never builds such an image without
    reporting an error, see C30 and C32) *)
Theorem C31_truncated_tile_shows_history : exists tiles calls,
  fst (comp_At 2 None 1 (comp_history 2 None 1 (newCI tiles 65) calls) 64 0) <>
  fst (comp_At 2 None 1 (newCI tiles 65) 64 0).
Proof. exists [[[63; 7]]; [[]]], [(0, 0)]. vm_compute. discriminate. Qed.
Print Assumptions C31_shows_coded_pixels.
Print Assumptions C31_history_independent.
Print Assumptions C31_truncated_tile_shows_history.

(** a 66x1 image with alpha: two tiles, the second 2 wide *)
Example C31_ex :
  let tiles := [[[63; 7]; [63; 255]]; [[254; 8; 9]; [1; 128]]] in
  coded 66 1 2 tiles (fun k x y => if k =? 0 then if x <? 64 then 7 else if x =? 64 then 8 else 9
                                   else if x <? 64 then 255 else 128) /\
  fst (comp_At 3 None 1 (comp_history 3 None 1 (newCI tiles 66) [(65, 0); (3, 0); (64, 0); (0, 9)]) 65 0)
  = Ret (Some (CGrayAlpha 9 128)).
Proof.
  split; [|vm_compute; reflexivity].
  intros i j I J. change (tiles_across 66) with 2 in *. change (tiles_across 1) with 1 in *.
  assert (j = 0) as -> by lia. assert (i = 0 \/ i = 1) as [-> | ->] by lia.
  - exists [[63; 7]; [63; 255]]. split; [reflexivity|]. split; [reflexivity|]. intros k K.
    change (tile_side 66 0) with 64. change (tile_side 1 0) with 1.
    exists (if k =? 0 then [63; 7] else [63; 255]), (if k =? 0 then repeat 7 64 else repeat 255 64).
    assert (k = 0 \/ k = 1) as [-> | ->] by lia; cbn [Z.eqb Pos.eqb].
    + split; [reflexivity|]. split; [exact (ex_short_run 63 7 [] [] ltac:(lia) ex_nil)|]. split; [reflexivity|].
      intros u v U V. assert (v = 0) as -> by lia. replace (64 * 0 + u <? 64) with true by lia.
      unfold znth. replace (0 * 64 + u <? 0) with false by lia. apply nth_error_repeat. lia.
    + split; [reflexivity|]. split; [exact (ex_short_run 63 255 [] [] ltac:(lia) ex_nil)|]. split; [reflexivity|].
      intros u v U V. assert (v = 0) as -> by lia. replace (64 * 0 + u <? 64) with true by lia.
      unfold znth. replace (0 * 64 + u <? 0) with false by lia. apply nth_error_repeat. lia.
  - exists [[254; 8; 9]; [1; 128]]. split; [reflexivity|]. split; [reflexivity|]. intros k K.
    change (tile_side 66 1) with 2. change (tile_side 1 0) with 1.
    exists (if k =? 0 then [254; 8; 9] else [1; 128]), (if k =? 0 then [8; 9] else [128; 128]).
    assert (k = 0 \/ k = 1) as [-> | ->] by lia; cbn [Z.eqb Pos.eqb].
    + split; [reflexivity|]. split; [exact (ex_short_lit 254 [8; 9] [] [] ltac:(lia) eq_refl ex_nil)|]. split; [reflexivity|].
      intros u v U V. assert (v = 0) as -> by lia. assert (u = 0 \/ u = 1) as [-> | ->] by lia; reflexivity.
    + split; [reflexivity|]. split; [exact (ex_short_run 1 128 [] [] ltac:(lia) ex_nil)|]. split; [reflexivity|].
      intros u v U V. assert (v = 0) as -> by lia. assert (u = 0 \/ u = 1) as [-> | ->] by lia; reflexivity.
Qed.
