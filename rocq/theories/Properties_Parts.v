(** Property C84: text in two parts. *)

From Coq Require Import String Lia.
From Verif Require Import Base Str Color Raster Font Spec_Font Spec_Parts Proofs_Str Proofs_Font Proofs_Parts Properties_Font.
Open Scope list_scope.

(** The width of a text is that of its first part, the spacing and that of the
    second, which starts with a character that is not of width 0; a first part of
    width 0 does not count. *)
Theorem c84_width : forall md f a b o w, Forall char_fields (f_characters f) -> 0 <= spacing_of f o ->
  text_width Debug f (a ++ b) o = Val (Ok w) ->
  exists wa, text_width md f a o = Val (Ok wa)
    /\ (wa = 0 -> text_width md f b o = Val (Ok w))
    /\ (0 < wa -> StartsWide f b -> exists wb, text_width md f b o = Val (Ok wb) /\ w = wa + spacing_of f o + wb).
Proof. exact width_parts. Qed.
Print Assumptions c84_width.

(** And two texts put together have that width, when it fits in 16 bits. *)
Theorem c84_joined : forall md f a b o wa wb, Forall char_fields (f_characters f) -> 0 <= spacing_of f o ->
  text_width Debug f a o = Val (Ok wa) -> text_width Debug f b o = Val (Ok wb) ->
  (wa = 0 -> text_width md f (a ++ b) o = Val (Ok wb))
  /\ (0 < wa -> StartsWide f b -> wa + spacing_of f o + wb < 65536 ->
      text_width md f (a ++ b) o = Val (Ok (wa + spacing_of f o + wb))).
Proof. exact width_joined. Qed.
Print Assumptions c84_joined.

(** A character missing in the first part is missing in the whole. *)
Theorem c84_missing : forall md f a b o e, text_width md f a o = Val (Err e) -> text_width md f (a ++ b) o = Val (Err e).
Proof. exact width_error. Qed.
Print Assumptions c84_missing.

(** Drawing a text is drawing its first part, and then the second where the first
    and the spacing end; panics and missing characters included. *)
Theorem c84_drawn : forall md f page a b x y sp cf w, Forall char_fields (f_characters f) -> 0 <= sp ->
  text_width Debug f (a ++ b) (Some sp) = Val (Ok w) ->
  exists wa, text_width md f a (Some sp) = Val (Ok wa)
    /\ (wa = 0 -> font_render_text md f page (a ++ b) x y sp cf
                  = let? m := font_render_text md f page a x y sp cf in font_render_text md f m b x y sp cf)
    /\ (0 < wa -> StartsWide f b -> font_render_text md f page (a ++ b) x y sp cf
          = let? m := font_render_text md f page a x y sp cf in font_render_text md f m b (x + wa + sp) y sp cf).
Proof. exact draw_parts. Qed.
Print Assumptions c84_drawn.

Example c84_example : Forall char_fields (f_characters ex_font) /\ StartsWide ex_font (lit "BA")
  /\ text_width Debug ex_font (lit "A" ++ lit "BA") (Some 4) = Val (Ok 19)
  /\ text_width Debug ex_font (lit "A") (Some 4) = Val (Ok 3) /\ text_width Debug ex_font (lit "BA") (Some 4) = Val (Ok 12)
  /\ exists q, font_render_text Debug ex_font (with_color 30 9 (0, 0, 0)) (lit "A" ++ lit "BA") 2 1 4 (255, 0, 0) = Val (Ok q)
     /\ r_pixel q 9 1 = (255, 0, 0) /\ r_pixel q 8 1 = (0, 0, 0).
Proof.
  split; [|split; [|split; [reflexivity|split; [reflexivity|split; [reflexivity|]]]]].
  - destruct ex_font_fields as (_ & _ & _ & _ & H & _). exact H.
  - exists 66, (lit "A"), ex_b. split; [reflexivity|]. split; [|cbn; lia]. now apply character_spec.
  - destruct (font_render_text Debug ex_font (with_color 30 9 (0, 0, 0)) (lit "A" ++ lit "BA") 2 1 4 (255, 0, 0)) as [[q|]| |] eqn:E.
    2-4: vm_compute in E; discriminate E.
    exists q. split; [reflexivity|]. vm_compute in E. injection E as <-. split; reflexivity.
Qed.

(** Not so for a second part that starts with a character of width 0: there is
    spacing on both sides of it in the whole, and none behind it in the part. *)
Theorem c84_narrow : exists f a b wa wb w, font_fields f /\ 0 < wa
  /\ text_width Debug f a None = Val (Ok wa) /\ text_width Debug f b None = Val (Ok wb)
  /\ text_width Debug f (a ++ b) None = Val (Ok w) /\ w <> wa + spacing_of f None + wb.
Proof.
  exists (mkFont 7 (lit "ex") 2 1 3 [ex_a; mkChar 66 0 []]), (lit "A"), (lit "BA"), 3, 3, 8.
  split; [|split; [lia|split; [reflexivity|split; [reflexivity|split; [reflexivity|cbn; lia]]]]].
  unfold font_fields, ex_a, u8. cbn [f_number f_height f_char_spacing f_line_spacing f_characters length].
  splits; try lia. repeat constructor; cbn; try lia; unfold u8, u16; repeat constructor; lia.
Qed.
Print Assumptions c84_narrow.
