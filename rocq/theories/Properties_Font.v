(** Properties C17-C24 and C53: encodings, fonts and font tables. *)

From Coq Require Import String.
From Verif Require Import Base Str Multi Color Oer Crc Raster Font Tfon Graphic Spec_Font Spec_Tfon
  Spec_Crc Proofs_Str Proofs_Oer Proofs_Font Proofs_Glyph Proofs_Table Proofs_Tfon Proofs_Crc.
From Coq Require Import ZifyBool ZifyNat.
Open Scope list_scope.

(** A font with two used slots and an unused one, used in the examples. *)
Definition ex_a : CharacterEntry := mkChar 65 3 [168].
Definition ex_b : CharacterEntry := mkChar 66 5 [255; 192].
Definition ex_font : Font := mkFont 7 (lit "ex") 2 1 3 [ex_a; char_default; ex_b].

Example ex_font_fields : font_fields ex_font.
Proof.
  unfold font_fields, ex_font, u8. cbn [f_number f_height f_char_spacing f_line_spacing f_characters length].
  splits; try lia. repeat constructor; cbn; try lia; unfold u8, u16; repeat constructor; lia.
Qed.
Example ex_font_valid : valid_font ex_font.
Proof. apply font_validate_ok; [apply ex_font_fields|reflexivity]. Qed.
Example ex_font_spells : Spells ex_font (lit "AB") [ex_a; ex_b].
Proof.
  repeat constructor.
  - exists [], [char_default; ex_b]. split; [reflexivity|contradiction].
  - exists [ex_a; char_default], []. split; [reflexivity|]. intros d [<-|[<-|[]]]; discriminate.
Qed.

(** ** C17: OER encoding is uniquely decodable *)

Theorem c17_length_decodes : forall n r, u32 n -> dec_length (length_prefix n ++ r) = Some (n, r).
Proof. exact dec_length_ok. Qed.
Theorem c17_uint_decodes : forall v r, u32 v -> dec_uint (oer_uint v ++ r) = Some (v, r).
Proof. exact dec_uint_ok. Qed.
Theorem c17_octets_decode : forall o r, Z.of_nat (length o) < 4294967296 ->
  dec_octets (octet_string o ++ r) = Some (o, r).
Proof. exact dec_octets_ok. Qed.
Example c17_values : length_prefix 300 = [130; 1; 44] /\ oer_uint 70000 = [3; 1; 17; 112]
  /\ octet_string [9; 8] = [2; 9; 8] /\ dec_length [130; 1; 44; 5] = Some (300, [5]).
Proof. splits; reflexivity. Qed.

Theorem c17_length_prefix_free : forall n m r s, u32 n -> u32 m ->
  length_prefix n ++ r = length_prefix m ++ s -> n = m /\ r = s.
Proof. exact (prefix_free length_prefix dec_length u32 dec_length_ok). Qed.
Theorem c17_uint_prefix_free : forall v w r s, u32 v -> u32 w ->
  oer_uint v ++ r = oer_uint w ++ s -> v = w /\ r = s.
Proof. exact (prefix_free oer_uint dec_uint u32 dec_uint_ok). Qed.
Theorem c17_octets_prefix_free : forall o p r s,
  Z.of_nat (length o) < 4294967296 -> Z.of_nat (length p) < 4294967296 ->
  octet_string o ++ r = octet_string p ++ s -> o = p /\ r = s.
Proof. exact (prefix_free octet_string dec_octets _ dec_octets_ok). Qed.

Theorem c17_font_decodes : forall f r, font_fields f ->
  dec_font (font_oer f ++ r)
  = Some (f_number f, f_height f, f_char_spacing f, f_line_spacing f,
          used_chars (f_characters f), r).
Proof. exact dec_font_ok. Qed.
Theorem c17_font_injective : forall f g, font_fields f -> font_fields g -> font_oer f = font_oer g ->
  f_number f = f_number g /\ f_height f = f_height g /\ f_char_spacing f = f_char_spacing g
  /\ f_line_spacing f = f_line_spacing g
  /\ used_chars (f_characters f) = used_chars (f_characters g).
Proof. exact font_oer_inj. Qed.
Example c17_font : font_oer ex_font
  = [7; 2; 1; 3; 1; 2; 0; 65; 3; 1; 168; 0; 66; 5; 2; 255; 192].
Proof. reflexivity. Qed.

Theorem c17_graphic_layout : forall g, graphic_fields g -> GraphicLayout g (graphic_oer g).
Proof. exact graphic_layout. Qed.
Print Assumptions c17_graphic_layout.
Theorem c17_graphic_injective : forall g h, graphic_fields g -> graphic_fields h ->
  color_kind_ok g -> color_kind_ok h -> graphic_oer g = graphic_oer h ->
  g_number g = g_number h /\ g_height g = g_height h /\ g_width g = g_width h
  /\ g_type g = g_type h /\ g_transparent g = g_transparent h /\ g_bitmap g = g_bitmap h.
Proof. exact graphic_oer_inj. Qed.
Print Assumptions c17_length_decodes.
Print Assumptions c17_uint_decodes.
Print Assumptions c17_octets_decode.
Print Assumptions c17_length_prefix_free.
Print Assumptions c17_uint_prefix_free.
Print Assumptions c17_octets_prefix_free.
Print Assumptions c17_font_decodes.
Print Assumptions c17_font_injective.
Print Assumptions c17_graphic_injective.

(** ** C18: version ids *)

Theorem c18_font_burst : forall f g p a b a' b' q, font_fields f -> font_fields g ->
  font_oer f = p ++ a :: b :: q -> font_oer g = p ++ a' :: b' :: q -> font_oer f <> font_oer g ->
  font_version_id f <> font_version_id g.
Proof.
  intros f g p a b a' b' q Hf Hg. exact (version_burst _ _ p a b a' b' q (font_oer_u8 f Hf) (font_oer_u8 g Hg)).
Qed.
Theorem c18_graphic_burst : forall f g p a b a' b' q, graphic_fields f -> graphic_fields g ->
  graphic_oer f = p ++ a :: b :: q -> graphic_oer g = p ++ a' :: b' :: q ->
  graphic_oer f <> graphic_oer g -> graphic_version_id f <> graphic_version_id g.
Proof.
  intros f g p a b a' b' q Hf Hg.
  exact (version_burst _ _ p a b a' b' q (graphic_oer_u8 f Hf) (graphic_oer_u8 g Hg)).
Qed.
Example c18_burst_case : exists g p a b a' b' q, font_fields g
  /\ font_oer ex_font = p ++ a :: b :: q /\ font_oer g = p ++ a' :: b' :: q /\ font_oer ex_font <> font_oer g.
Proof.
  exists (mkFont 7 (lit "ex") 2 1 3 [ex_a; char_default; mkChar 66 5 [254; 64]]).
  exists [7; 2; 1; 3; 1; 2; 0; 65; 3; 1; 168; 0; 66; 5; 2], 255, 192, 254, 64, []. splits; try reflexivity; [|discriminate].
  unfold font_fields, u8. cbn [f_number f_height f_char_spacing f_line_spacing f_characters length].
  splits; try lia. repeat constructor; cbn; try lia; unfold u8, u16; repeat constructor; lia.
Qed.
Theorem c18_font_pure : forall f g, font_fields f -> font_fields g ->
  f_number f = f_number g -> f_height f = f_height g -> f_char_spacing f = f_char_spacing g ->
  f_line_spacing f = f_line_spacing g ->
  used_chars (f_characters f) = used_chars (f_characters g) ->
  font_version_id f = font_version_id g.
Proof.
  intros f g Hf Hg E1 E2 E3 E4 E5. exact (f_equal (fun l => from_be (crc16 l)) (font_oer_same f g Hf Hg E1 E2 E3 E4 E5)).
Qed.
(** The id is the frame check sequence of the encoding, by polynomial division. *)
Theorem c18_font_id : forall f id, font_fields f -> (font_version_id f = id <-> VersionId (font_oer f) id).
Proof.
  intros f id Hf. pose proof (version_id _ (font_oer_u8 f Hf)) as H. split; [intros <-; exact H|].
  exact (VersionId_fun _ _ _ H).
Qed.
Theorem c18_graphic_id : forall g id, graphic_fields g ->
  (graphic_version_id g = id <-> VersionId (graphic_oer g) id).
Proof.
  intros g id Hg. pose proof (version_id _ (graphic_oer_u8 g Hg)) as H. split; [intros <-; exact H|].
  exact (VersionId_fun _ _ _ H).
Qed.
Theorem c18_id_range : forall f, font_fields f -> u16 (crc16 (font_oer f)).
Proof. intros f Hf. exact (crc16_u16 _ (font_oer_u8 f Hf)). Qed.
Print Assumptions c18_font_burst.
Print Assumptions c18_graphic_burst.
Print Assumptions c18_font_pure.
Print Assumptions c18_id_range.
Print Assumptions c18_font_id.
Print Assumptions c18_graphic_id.

(** ** C19: font validation *)

Theorem c19_accepts : forall f, font_fields f -> (font_validate f = Val (Ok tt) <-> valid_font f).
Proof. exact font_validate_ok. Qed.

(** [char::from_u32(num).unwrap()] on a duplicated surrogate number. *)
Theorem c19_no_panic_refuted : exists f, font_fields f /\ font_validate f = Panic.
Proof.
  exists (mkFont 1 [] 1 0 0 [mkChar 55296 0 []; mkChar 55296 0 []]). split; [|reflexivity].
  unfold font_fields, u8. cbn [f_number f_height f_char_spacing f_line_spacing f_characters length].
  splits; try lia. repeat constructor; cbn; try lia; unfold u8, u16; repeat constructor; lia.
Qed.
Theorem c19_panic_partial : forall f, font_fields f ->
  (font_validate f = Panic
   <-> exists n, FontVerdict f (Err (FDuplicateChar n)) /\ 55296 <= n <= 57343).
Proof. exact font_validate_panic. Qed.
Theorem c19_verdict_partial : forall f r, font_fields f -> font_validate f <> Panic ->
  (font_validate f = Val r <-> FontVerdict f r).
Proof. exact font_validate_verdict. Qed.
Example c19_cases :
  font_validate ex_font = Val (Ok tt)
  /\ font_validate (mkFont 1 [] 2 1 3 [ex_a; mkChar 65 0 []]) = Val (Err (FDuplicateChar 65))
  /\ font_validate (mkFont 1 [] 3 1 3 [ex_a]) = Val (Err FInvalidCharHeight)
  /\ font_validate (mkFont 1 [] 0 1 3 [ex_a]) = Val (Err FInvalidHeight)
  /\ font_validate (mkFont 0 [] 0 1 3 [ex_a]) = Val (Err FInvalidNumber).
Proof. splits; reflexivity. Qed.
Print Assumptions c19_accepts.
Print Assumptions c19_no_panic_refuted.
Print Assumptions c19_panic_partial.
Print Assumptions c19_verdict_partial.

(** ** C20: font tables *)

Theorem c20_validate : forall t, table_fields t ->
  (font_table_validate t = Val (Ok tt) <-> valid_fonts t).
Proof. exact table_validate_ok. Qed.
Theorem c20_verdict : forall t r, table_fields t -> font_table_validate t <> Panic ->
  (font_table_validate t = Val r <-> TableVerdict t r).
Proof. exact table_validate_verdict. Qed.
Theorem c20_font_unique : forall t n f, table_fields t -> font_table_validate t = Val (Ok tt) ->
  1 <= n -> (font_lookup t n = Some f <-> OnlyFont t n f).
Proof.
  intros t n f Ht V Hn. apply font_lookup_spec; [lia|]. apply table_validate_ok in V; auto. apply V.
Qed.
Theorem c20_font_missing : forall t n,
  font_lookup t n = None <-> forall f, In f t -> f_number f <> n.
Proof. exact font_lookup_none. Qed.
Theorem c20_char_unique : forall t n f ch c, table_fields t -> font_table_validate t = Val (Ok tt) ->
  1 <= n -> font_lookup t n = Some f -> 1 <= ch < 65536 ->
  (character f ch = Some c <-> OnlyChar f ch c).
Proof.
  intros t n f ch c Ht V Hn L Hc. apply character_only; [lia|]. apply table_validate_ok in V; auto.
  apply font_lookup_spec in L; [|lia|apply V]. destruct L as (En & pre & post & -> & _).
  apply V; [apply in_elt|]. unfold used_font. lia.
Qed.
Theorem c20_char_missing : forall f ch, character f ch = None
  <-> 65536 <= ch \/ forall c, In c (f_characters f) -> c_number c <> ch.
Proof. exact character_none_iff. Qed.
(** Lookup by name finds the first font with that name. *)
Theorem c20_by_name : forall t name f, font_by_name t name = Some f
  <-> exists pre post, t = pre ++ f :: post /\ Named f name /\ forall g, In g pre -> ~ Named g name.
Proof. exact font_by_name_spec. Qed.
Theorem c20_by_name_missing : forall t name,
  font_by_name t name = None <-> forall f, In f t -> ~ Named f name.
Proof. exact font_by_name_none. Qed.
Example c20_names : font_by_name [font_default 2; ex_font] (lit "ex") = Some ex_font
  /\ font_by_name [ex_font; mkFont 8 (lit "ex" ++ [0; 65]) 2 1 3 []] (lit "e") = None
  /\ font_by_name [mkFont 8 (lit "ex" ++ [0; 65]) 2 1 3 []; ex_font] (lit "ex")
     = Some (mkFont 8 (lit "ex" ++ [0; 65]) 2 1 3 []).
Proof. splits; reflexivity. Qed.
Example c20_table : font_table_validate [font_default 2; ex_font] = Val (Ok tt)
  /\ font_lookup [font_default 2; ex_font] 7 = Some ex_font
  /\ font_lookup [font_default 2; ex_font] 8 = None /\ character ex_font 66 = Some ex_b.
Proof. splits; reflexivity. Qed.
Print Assumptions c20_validate.
Print Assumptions c20_verdict.
Print Assumptions c20_font_unique.
Print Assumptions c20_font_missing.
Print Assumptions c20_char_unique.
Print Assumptions c20_char_missing.
Print Assumptions c20_by_name.
Print Assumptions c20_by_name_missing.

(** ** C21: text width *)

Theorem c21_width_partial : forall md f text o cs, Forall char_fields (f_characters f) ->
  0 <= spacing_of f o -> Spells f text cs ->
  line_width (spacing_of f o) (map c_width cs) < 65536 ->
  text_width md f text o = Val (Ok (line_width (spacing_of f o) (map c_width cs))).
Proof. exact text_width_ok. Qed.
Theorem c21_missing_partial : forall md f text o cs ch, Forall char_fields (f_characters f) ->
  0 <= spacing_of f o -> FirstMissing f text cs ch ->
  line_width (spacing_of f o) (map c_width cs) < 65536 ->
  text_width md f text o = Val (Err (FInvalidChar ch)).
Proof. exact text_width_missing. Qed.
(** Every text falls under one of the two. *)
Theorem c21_cases : forall f text,
  (exists cs, Spells f text cs) \/ exists cs ch, FirstMissing f text cs ch.
Proof. exact spells_or_missing. Qed.
(** The u16 sum overflows exactly when the width of some prefix exceeds it. *)
Theorem c21_overflow_partial : forall f pre post o cs, Forall char_fields (f_characters f) ->
  0 <= spacing_of f o -> Spells f pre cs ->
  65536 <= line_width (spacing_of f o) (map c_width cs) ->
  text_width Debug f (pre ++ post) o = Panic.
Proof. exact text_width_panic. Qed.

Definition wide_font : Font := mkFont 1 [] 1 0 0 [mkChar 65 255 (repeat 0 32)].
Example wide_font_fields : font_fields wide_font.
Proof.
  unfold font_fields, wide_font, u8. cbn [f_number f_height f_char_spacing f_line_spacing f_characters length].
  splits; try lia. repeat constructor; cbn; try lia; unfold u8, u16; repeat constructor; lia.
Qed.
Theorem c21_no_fault_refuted : exists f text, font_fields f /\ valid_font f
  /\ (exists cs, Spells f text cs) /\ text_width Debug f text None = Panic.
Proof.
  exists wide_font, (repeat 65 258). splits.
  - exact wide_font_fields.
  - apply font_validate_ok; [exact wide_font_fields|reflexivity].
  - exists (repeat (mkChar 65 255 (repeat 0 32)) 258). generalize 258%nat. intros k.
    induction k; cbn [repeat]; constructor; auto. split; [lia|]. split; [reflexivity|].
    exists [], []. split; [reflexivity|contradiction].
  - reflexivity.
Qed.
Example c21_case : text_width Debug ex_font (lit "AB") None = Val (Ok 9)
  /\ line_width 1 [3; 5] = 9 /\ line_width 2 [0; 3; 0; 5] = 12
  /\ text_width Debug ex_font (lit "AxB") (Some 4) = Val (Err (FInvalidChar 120)).
Proof. splits; reflexivity. Qed.
Print Assumptions c21_width_partial.
Print Assumptions c21_missing_partial.
Print Assumptions c21_cases.
Print Assumptions c21_overflow_partial.
Print Assumptions c21_no_fault_refuted.

(** ** C22: glyph rendering *)

(** [is_pixel_lit] reads the bits of the glyph. *)
Theorem c22_is_pixel_lit : forall md c row col, 0 <= row -> 0 <= col -> 0 <= c_width c ->
  row * c_width c + col < 18446744073709551616 ->
  exists b, is_pixel_lit md c row col = Val b /\ (b = true <-> Lit c row col).
Proof. exact is_pixel_lit_spec. Qed.

(** Rendering paints exactly the lit pixels, when they are on the raster. *)
Theorem c22_render_partial : forall md f page text x y sp cf cs,
  font_fields f -> sound_font f -> Spells f text cs -> ~ In 0 text -> 0 <= sp ->
  raster_small page -> -1073741824 <= x < 1073741824 ->
  line_width sp (map c_width cs) < 1073741824 ->
  (forall px py, LitText sp (f_height f) cs x y px py -> on_raster page px py) ->
  exists page', font_render_text md f page text x y sp cf = Val (Ok page')
    /\ Painted page page' (LitText sp (f_height f) cs x y) cf.
Proof. exact render_text_spec. Qed.
(** ... and reports the first missing character otherwise. *)
Theorem c22_missing_partial : forall md f page text x y sp cf cs ch,
  font_fields f -> sound_font f -> FirstMissing f text cs ch -> ~ In 0 text -> 0 <= sp ->
  raster_small page -> -1073741824 <= x < 1073741824 ->
  line_width sp (map c_width cs) < 1073741824 ->
  (forall px py, LitText sp (f_height f) cs x y px py -> on_raster page px py) ->
  font_render_text md f page text x y sp cf = Val (Err (FInvalidChar ch)).
Proof. exact render_text_missing. Qed.
(** The lit pixels lie in a box of the text's width and the font's height. *)
Theorem c22_text_box : forall sp h cs x y px py, 0 <= sp -> Forall (fun c => 0 <= c) (map c_width cs) ->
  LitText sp h cs x y px py -> x <= px < x + line_width sp (map c_width cs) /\ y <= py < y + h.
Proof. exact LitText_box. Qed.
(** Without the raster hypothesis rendering panics; and a NUL in the text is
    drawn with the unchecked bitmap of an unused slot. *)
Theorem c22_every_raster_refuted : exists f page text cs, font_fields f /\ valid_font f /\ Spells f text cs
  /\ forall md, font_render_text md f page text 0 0 0 (1, 1, 1) = Panic.
Proof.
  exists ex_font, (with_color 2 2 (0, 0, 0)), (lit "AB"), [ex_a; ex_b].
  split; [apply ex_font_fields|]. split; [apply ex_font_valid|]. split; [apply ex_font_spells|].
  intros []; reflexivity.
Qed.
Theorem c22_nul_refuted : exists f page text cs px py, font_fields f /\ valid_font f /\ Spells f text cs
  /\ ~ LitText 0 (f_height f) cs 0 0 px py
  /\ exists page', font_render_text Debug f page text 0 0 0 (1, 1, 1) = Val (Ok page')
     /\ r_pixel page' px py <> r_pixel page px py.
Proof.
  exists (mkFont 1 [] 1 0 0 [mkChar 0 8 [0; 128]]), (with_color 9 9 (0, 0, 0)), [0], [mkChar 0 8 [0; 128]], 0, 1.
  assert (F : font_fields (mkFont 1 [] 1 0 0 [mkChar 0 8 [0; 128]])).
  { unfold font_fields, u8. cbn [f_number f_height f_char_spacing f_line_spacing f_characters length].
    splits; try lia. repeat constructor; cbn; try lia; unfold u8, u16; repeat constructor; lia. }
  splits; auto.
  - apply font_validate_ok; auto.
  - repeat constructor. exists [], []. split; [reflexivity|contradiction].
  - intros (pre & c & post & E & L & _). cbn in L. lia.
  - eexists. split; [reflexivity|]. discriminate.
Qed.
Example c22_case :
  match font_render_text Debug ex_font (with_color 9 2 (0, 0, 0)) (lit "AB") 0 0 1 (1, 1, 1) with
  | Val (Ok page') =>
      map (fun x => r_pixel page' x 0) (zrange 9)
      = [(1,1,1); (0,0,0); (1,1,1); (0,0,0); (1,1,1); (1,1,1); (1,1,1); (1,1,1); (1,1,1)]
  | _ => False
  end.
Proof. vm_compute. reflexivity. Qed.
(** Rendering in any font, its bitmaps being of any size: it paints exactly what
    the glyphs draw ([InkText]), panics exactly when that is not all on the raster,
    and otherwise reports the first missing character. *)
Theorem c22_exact_partial : forall md f page text x y sp cf cs,
  font_fields f -> Spells f text cs -> 0 <= sp -> raster_small page ->
  -1073741824 <= x < 1073741824 -> -1073741824 <= y < 1073741824 ->
  line_width sp (map c_width cs) < 1073741824 ->
  (exists page', font_render_text md f page text x y sp cf = Val (Ok page')
     /\ Painted page page' (InkText sp (f_height f) cs x y) cf
     /\ forall px py, InkText sp (f_height f) cs x y px py -> on_raster page px py)
  \/ (font_render_text md f page text x y sp cf = Panic
     /\ exists px py, InkText sp (f_height f) cs x y px py /\ ~ on_raster page px py).
Proof. exact render_text_exact. Qed.
Theorem c22_missing_exact_partial : forall md f page text x y sp cf cs ch,
  font_fields f -> FirstMissing f text cs ch -> 0 <= sp -> raster_small page ->
  -1073741824 <= x < 1073741824 -> -1073741824 <= y < 1073741824 ->
  line_width sp (map c_width cs) < 1073741824 ->
  (font_render_text md f page text x y sp cf = Val (Err (FInvalidChar ch))
     /\ forall px py, InkText sp (f_height f) cs x y px py -> on_raster page px py)
  \/ (font_render_text md f page text x y sp cf = Panic
     /\ exists px py, InkText sp (f_height f) cs x y px py /\ ~ on_raster page px py).
Proof. exact render_missing_exact. Qed.
(** In a sound font the glyphs draw the lit pixels of their bitmaps. *)
Theorem c22_ink_lit : forall f text cs sp x y px py, font_fields f -> sound_font f -> Spells f text cs -> ~ In 0 text ->
  (InkText sp (f_height f) cs x y px py <-> LitText sp (f_height f) cs x y px py).
Proof. exact ink_lit. Qed.
(** A glyph 5 pixels wide with 4 bytes in a font 2 pixels high: two rows packed in
    10 bits, and two more rows, each with a byte of its own. *)
Example c22_exact_case :
  match font_render_text Debug (mkFont 1 [] 2 0 0 [mkChar 65 5 [136; 128; 72; 136]]) (with_color 5 4 (0, 0, 0)) (lit "A") 0 0 1 (1, 1, 1) with
  | Val (Ok page') =>
      map (fun y => map (fun x => fst (fst (r_pixel page' x y))) (zrange 5)) (zrange 4)
      = [[1; 0; 0; 0; 1]; [0; 0; 0; 1; 0]; [0; 1; 0; 0; 1]; [1; 0; 0; 0; 1]]
  | _ => False
  end
  /\ font_render_text Debug (mkFont 1 [] 2 0 0 [mkChar 65 5 [136; 128; 72; 136]]) (with_color 5 3 (0, 0, 0)) (lit "A") 0 0 1 (1, 1, 1) = Panic.
Proof. split; vm_compute; reflexivity. Qed.
Print Assumptions c22_exact_partial.
Print Assumptions c22_missing_exact_partial.
Print Assumptions c22_ink_lit.
Print Assumptions c22_is_pixel_lit.
Print Assumptions c22_render_partial.
Print Assumptions c22_missing_partial.
Print Assumptions c22_text_box.
Print Assumptions c22_every_raster_refuted.
Print Assumptions c22_nul_refuted.

(** ** C23: fixed width *)

Theorem c23_width_refuted : exists f, font_fields f /\ valid_font f
  /\ (forall c, In c (f_characters f) -> used c -> c_width c = 3)
  /\ (exists c, In c (f_characters f) /\ used c) /\ font_width f = 0.
Proof.
  exists (mkFont 7 [] 2 1 3 [ex_a; char_default]).
  assert (F : font_fields (mkFont 7 [] 2 1 3 [ex_a; char_default])).
  { unfold font_fields, u8. cbn [f_number f_height f_char_spacing f_line_spacing f_characters length].
    splits; try lia. repeat constructor; cbn; try lia; unfold u8, u16; repeat constructor; lia. }
  splits; auto.
  - apply font_validate_ok; auto.
  - intros c [<-|[<-|[]]] U; [reflexivity|now destruct U].
  - exists ex_a. split; [now left|discriminate].
Qed.
Theorem c23_width_partial : forall f w, w <> 0 ->
  (font_width f = w <-> f_characters f <> [] /\ forall c, In c (f_characters f) -> c_width c = w).
Proof. exact font_width_iff. Qed.
Theorem c23_differ : forall f c d, In c (f_characters f) -> In d (f_characters f) ->
  c_width c <> c_width d -> font_width f = 0.
Proof. exact font_width_differ. Qed.
Example c23_case : font_width (mkFont 1 [] 2 1 3 [ex_a; mkChar 66 3 [0]]) = 3 /\ font_width ex_font = 0.
Proof. splits; reflexivity. Qed.
Print Assumptions c23_width_refuted.
Print Assumptions c23_width_partial.
Print Assumptions c23_differ.

(** ** C24: tfon *)

Theorem c24_roundtrip_partial : forall C f, font_fields f -> valid_font f -> len (f_name f) <= 64 ->
  (length (used_chars (f_characters f)) <= C)%nat ->
  exists ps nm, tfon_write f = Val (Ok ps)
    /\ to_terminator nm = to_terminator (f_name f)
    /\ tfon_parse C ps
       = Val (Ok (mkFont (f_number f) nm
            (match used_chars (f_characters f) with [] => 0 | _ => f_height f end)
            (f_char_spacing f) (f_line_spacing f)
            (used_chars (f_characters f)
             ++ repeat char_default (C - length (used_chars (f_characters f)))))).
Proof. exact tfon_roundtrip. Qed.
(** A valid font without characters loses its height. *)
Theorem c24_roundtrip_refuted : exists f ps g, font_fields f /\ valid_font f
  /\ tfon_write f = Val (Ok ps) /\ tfon_parse 2 ps = Val (Ok g) /\ f_height g <> f_height f.
Proof.
  exists (mkFont 7 name_default 8 1 3 [char_default; char_default]). do 2 eexists.
  assert (F : font_fields (mkFont 7 name_default 8 1 3 [char_default; char_default])).
  { unfold font_fields, u8. cbn [f_number f_height f_char_spacing f_line_spacing f_characters length].
    splits; try lia. repeat constructor; cbn; try lia; unfold u8, u16; repeat constructor; lia. }
  splits; auto; [apply font_validate_ok; auto|reflexivity|reflexivity|discriminate].
Qed.
Theorem c24_no_panic_partial : forall C ps, FitsSlots C ps -> exists r, tfon_parse C ps = Val r.
Proof. exact tfon_parse_fits. Qed.
Theorem c24_panic_partial : forall C h ps, 0 < h -> (forall b, In (PBitmap b) ps -> bm_height b = h) ->
  ~ FitsSlots C ps -> tfon_parse C ps = Panic.
Proof. exact tfon_parse_over. Qed.
Theorem c24_no_panic_refuted : exists C ps, tfon_parse C ps = Panic.
Proof. exists 1%nat, [PCodePoint 65; PBitmap (mkBitmap 1 1 [0]); PCodePoint 66]. reflexivity. Qed.
Example c24_case : tfon_write ex_font = Val (Ok [PFontName (lit "ex"); PFontNumber 7; PCharSpacing 1;
    PLineSpacing 3; PCodePoint 65; PBitmap (mkBitmap 2 3 [168]); PCodePoint 66; PBitmap (mkBitmap 2 5 [255; 192])]).
Proof. reflexivity. Qed.
Print Assumptions c24_roundtrip_partial.
Print Assumptions c24_roundtrip_refuted.
Print Assumptions c24_no_panic_partial.
Print Assumptions c24_panic_partial.
Print Assumptions c24_no_panic_refuted.

(** ** C53: font_mut and graphic_mut *)

Theorem c53_font_mut : forall t n g t', font_mut_set t n g = Some t' <->
  exists pre f post, t = pre ++ f :: post /\ f_number f = n
    /\ (forall k, In k pre -> f_number k <> n) /\ t' = pre ++ g :: post.
Proof. exact font_mut_spec. Qed.
Theorem c53_font_mut_none : forall t n g,
  font_mut_set t n g = None <-> forall f, In f t -> f_number f <> n.
Proof. exact font_mut_none. Qed.
Theorem c53_font_same : forall t n f, font_lookup t n = Some f <->
  exists pre post, t = pre ++ f :: post /\ f_number f = n /\ forall k, In k pre -> f_number k <> n.
Proof. exact font_lookup_first. Qed.
Theorem c53_graphic_mut : forall t n g t', graphic_mut_set t n g = Some t' <->
  exists pre f post, t = pre ++ f :: post /\ g_number f = n
    /\ (forall k, In k pre -> g_number k <> n) /\ t' = pre ++ g :: post.
Proof. exact graphic_mut_spec. Qed.
Theorem c53_graphic_mut_none : forall t n g,
  graphic_mut_set t n g = None <-> forall f, In f t -> g_number f <> n.
Proof. exact graphic_mut_none. Qed.
Theorem c53_graphic_same : forall t n f, graphic_lookup t n = Some f <->
  exists pre post, t = pre ++ f :: post /\ g_number f = n /\ forall k, In k pre -> g_number k <> n.
Proof. exact graphic_lookup_first. Qed.
Example c53_case : font_mut_set [ex_font; font_default 1; font_default 2] 0 wide_font
  = Some [ex_font; wide_font; font_default 2].
Proof. reflexivity. Qed.
Print Assumptions c53_font_mut.
Print Assumptions c53_font_mut_none.
Print Assumptions c53_font_same.
Print Assumptions c53_graphic_mut.
Print Assumptions c53_graphic_mut_none.
Print Assumptions c53_graphic_same.
