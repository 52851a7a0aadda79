(** Text added to any page of a message (C87). *)

From Verif Require Import Base Str Multi Color Raster Font Graphic Config Sign Render
  Spec_Multi Spec_Color Spec_Font Spec_Graphic Spec_Sign Spec_Render Spec_Layout Spec_Draw Spec_Page Spec_Fail Spec_Below Spec_Beside Spec_Apart.
Open Scope list_scope.

(** How many pages are shown for the pages [pgs] of a message, after the values
    [before]: two for a page with an off time. *)
Fixpoint shown_for (d : Dms) (before : list Value) (pgs : list (list Value)) : nat :=
  match pgs with
  | [] => 0
  | pg :: r => (if 0 <? snd (times_of d (before ++ pg)) then 2 else 1) + shown_for d (before ++ pg) r
  end.

(** The message [ms] has the page [pg] after the pages [pgs]. *)
Definition HasPage (ms : str) (pgs : list (list Value)) (pg : list Value) : Prop :=
  exists vs rest, Meaning ms (map Ok vs) /\ SplitPages vs (pgs ++ pg :: rest).

(** Up to page [n], [ps'] are the pages [ps]; at page [n], pixels are as before or [P]. *)
Definition GrownAt (n : nat) (P : Z -> Z -> rgb -> Prop) (ps ps' : list Page) : Prop :=
  Forall2 SamePage (firstn n ps) (firstn n ps')
  /\ exists p p', nth_error ps n = Some p /\ nth_error ps' n = Some p'
     /\ pg_duration p' = pg_duration p
     /\ r_width (pg_raster p') = r_width (pg_raster p) /\ r_height (pg_raster p') = r_height (pg_raster p)
     /\ forall x y, on_raster (pg_raster p) x y ->
        r_pixel (pg_raster p') x y = r_pixel (pg_raster p) x y \/ P x y (r_pixel (pg_raster p') x y).

(** [vs ++ ws] is regular text of the last text rectangle of a page. *)
Definition Regular (d : Dms) (e front vs ws : list Value) : Prop :=
  Front front /\ no_text_rect vs /\ Orderly d (e ++ front) (vs ++ ws).

(** The ways to add [ws] to a page [front ++ vs] after pages with the values [e]. *)
Definition LinesBelow (d : Dms) (e front vs ws : list Value) : Prop :=
  Regular d e front vs ws /\ jp_of d (e ++ front ++ vs) = JpTop
  /\ (exists o r, ws = VNewLine o :: r) /\ Forall adds_text ws.
Definition TextBehind (d : Dms) (e front vs ws : list Value) : Prop :=
  Regular d e front vs ws /\ jl_of d (e ++ front ++ vs) = JlLeft
  /\ (exists r v, vs = r ++ [v] /\ is_text v) /\ Forall adds_beside ws.
Definition LaterBlock (d : Dms) (e front vs ws : list Value) : Prop :=
  Regular d e front vs ws
  /\ exists j r, ws = VJustificationPage j :: r /\ Forall adds_text r
     /\ jp_rank (jp_of d (e ++ front ++ vs)) < jp_rank (jp_of d (e ++ front ++ vs ++ [VJustificationPage j])).
Definition LaterRun (d : Dms) (e front vs ws : list Value) : Prop :=
  Regular d e front vs ws /\ (exists r v, vs = r ++ [v] /\ is_text v)
  /\ exists j r, ws = VJustificationLine j :: r /\ Forall adds_beside r
     /\ jl_rank (jl_of d (e ++ front ++ vs)) < jl_rank (jl_of d (e ++ front ++ vs ++ [VJustificationLine j])).

(** The last text rectangle of such a page. *)
Definition place_in (d : Dms) (e front vs : list Value) : Place :=
  mkPlace e (front ++ vs) front (last_rect d front).

(** A colour of a text added. *)
Definition AddedColor (d : Dms) (e front vs ws : list Value) (t : Span) (c : rgb) : Prop :=
  In t (texts d (place_in d e front vs) vs ws) /\ c = foreground_rgb (rs_ctx (span_state t)).
