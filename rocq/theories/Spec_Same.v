(** When the loss of redundant tags and of a blank end cannot be seen (C50). *)

From Verif Require Import Base Multi Color Raster Spec_Multi Spec_Render.

(** No text since the last tag that starts a run of texts. *)
Definition fresh_after (v : Value) (fresh : bool) : bool :=
  match v with
  | VText _ | VHexadecimalCharacter _ => false
  | VNewLine _ | VJustificationLine _ | VTextRectangle _ | VNewPage => true
  | _ => fresh
  end.

(** There is text on the current line. *)
Definition open_after (v : Value) (open : bool) : bool :=
  match v with
  | VText _ | VHexadecimalCharacter _ => true
  | VNewLine _ | VTextRectangle _ | VNewPage => false
  | _ => open
  end.

(** Values that show nothing at the end of a page: settings of later text, and
    the end of a line of text; then the page ends. *)
Fixpoint Silent (open : bool) (vs : list Value) : Prop :=
  match vs with
  | [] => True
  | v :: r =>
      match v with
      | VNewPage => True
      | VNewLine _ => open = true /\ Silent false r
      | VColorForeground _ | VFont _ | VJustificationLine _ | VJustificationPage _
      | VSpacingCharacter _ | VSpacingCharacterEnd => Silent open r
      | _ => False
      end
  end.

(** [ws] is [vs] without some redundant tags ([jl] only where it starts a run of
    texts anyway) and without a silent end. *)
Inductive Trimmed : Settings -> bool -> bool -> list Value -> list Value -> Prop :=
| Tr_keep s fresh open v vs ws :
    Trimmed (apply_setting v s) (fresh_after v fresh) (open_after v open) vs ws ->
    Trimmed s fresh open (v :: vs) (v :: ws)
| Tr_same s fresh open v vs ws :
    Redundant s v -> (forall j, v = VJustificationLine j -> fresh = true) ->
    Trimmed s fresh open vs ws ->
    Trimmed s fresh open (v :: vs) ws
| Tr_end s fresh open vs : Silent open vs -> Forall (fun v => ~ Shown v) vs ->
    Trimmed s fresh open vs [].

(** ** Conditions on a message *)

Definition settings_after (vs : list Value) : Settings :=
  fold_left (fun s v => apply_setting v s) vs settings0.
Definition fresh_at (vs : list Value) : bool := fold_left (fun b v => fresh_after v b) vs true.
Definition open_at (vs : list Value) : bool := fold_left (fun b v => open_after v b) vs false.

(** A [jl] tag that changes nothing only stands where no text precedes it in
    its run, or where nothing is shown after it. *)
Definition JlRegular (vs : list Value) : Prop :=
  forall a j b, vs = a ++ VJustificationLine j :: b ->
    Redundant (settings_after a) (VJustificationLine j) -> Exists Shown b ->
    fresh_at a = true.

(** Two texts without brackets are not separated by redundant tags only. *)
Definition TextsApart (vs : list Value) : Prop :=
  forall a t m u b, vs = a ++ VText t :: m ++ VText u :: b -> plain t -> plain u ->
    Exists Shown (VText u :: b) ->
    ~ Forall (Redundant (settings_after a)) m.

(** Nothing can be seen of what follows the last shown value. *)
Definition TailSilent (vs : list Value) : Prop :=
  forall k t, vs = k ++ t -> (k = [] \/ exists k' v, k = k' ++ [v] /\ Shown v) ->
    Forall (fun v => ~ Shown v) t -> Silent (open_at k) t.

(** A picture of one colour. *)
Definition OneColour (r : Raster rgb) : Prop := exists c, Uniform r c.
