(** C59: default signs and the builder.  C60: names and codes of colours. *)

From Coq Require Import String.
From Verif Require Import Base Str Multi Color Font Graphic Config Sign Raster Render Proofs_Default.
Open Scope list_scope.

(** ** C59 *)

(** The default builder builds, whatever the number of slots, and the sign has the
    documented settings. *)
Theorem c59_builds : forall md C F G, exists d, build md (builder_default C F G) = Val (Ok d)
  /\ (pixel_width d, pixel_height d) = (40, 21) /\ (char_width d, char_height d) = (5, 7)
  /\ default_font (d_multi_cfg d) = 1 /\ rs_jl (rs_new d) = JlCenter /\ rs_jp (rs_new d) = JpMiddle
  /\ rs_on_time (rs_new d) = 30 /\ rs_off_time (rs_new d) = 0
  /\ foreground_rgb (dms_color_ctx d) = (255, 112, 224) /\ background_rgb (dms_color_ctx d) = (0, 0, 0)
  /\ (forall f, In f (d_fonts d) -> f_number f = 0 /\ Forall (fun c => c_number c = 0) (f_characters f))
  /\ (forall g, In g (d_graphics d) -> g_number g = 0)
  /\ List.length (d_fonts d) = F /\ List.length (d_graphics d) = G
  /\ forall n, 0 < n -> font_lookup (d_fonts d) n = None /\ graphic_lookup (d_graphics d) n = None.
Proof.
  intros md C F G. eexists. split; [apply default_builds|]. repeat (split; [reflexivity|]).
  cbn [d_fonts d_graphics]. unfold font_table_default, graphic_table_default.
  split; [intros f H%repeat_spec; subst f; split; [reflexivity|]; apply Forall_forall; intros c H%repeat_spec; now subst c|].
  split; [intros g H%repeat_spec; now subst g|]. split; [apply repeat_length|]. split; [apply repeat_length|].
  intros n Hn. split; [induction F as [|F IH]|induction G as [|G IH]]; cbn; auto; destruct n; try lia; exact IH.
Qed.
Print Assumptions c59_builds.

(** A tag is supported by default unless it is one of those that are not rendered. *)
Definition NotRendered (t : Tag) : Prop :=
  In t [TFl; TMs; TMv; TF1; TF2; TF3; TF4; TF5; TF6; TF7; TF8; TF9; TF10; TF11; TF12; TF13].

Theorem c59_tags : forall t,
  contains_tag (supported_multi_tags multi_cfg_default) t = true <-> ~ NotRendered t.
Proof. intros t. unfold NotRendered. destruct t; cbn; intuition discriminate. Qed.
Print Assumptions c59_tags.

(** The parts of a builder are those given last, in whatever order they are given. *)
Theorem c59_setters : forall b s v f m g,
  let parts b := (b_sign_cfg b, b_vms_cfg b, b_fonts b, b_multi_cfg b, b_graphics b) in
  parts (with_sign_cfg b s) = (s, b_vms_cfg b, b_fonts b, b_multi_cfg b, b_graphics b)
  /\ parts (with_vms_cfg b v) = (b_sign_cfg b, v, b_fonts b, b_multi_cfg b, b_graphics b)
  /\ parts (with_font_definition b f) = (b_sign_cfg b, b_vms_cfg b, f, b_multi_cfg b, b_graphics b)
  /\ parts (with_multi_cfg b m) = (b_sign_cfg b, b_vms_cfg b, b_fonts b, m, b_graphics b)
  /\ parts (with_graphic_definition b g) = (b_sign_cfg b, b_vms_cfg b, b_fonts b, b_multi_cfg b, g).
Proof. intros. repeat split. Qed.
Print Assumptions c59_setters.

(** The empty message on the default sign is one black page of three seconds; text
    has no font. *)
Definition dx_sign : Dms :=
  match build Debug (builder_default 1 2 1) with
  | Val (Ok d) => d
  | _ => mkDms sign_cfg_default vms_cfg_default [] multi_cfg_default []
  end.

Example c59_examples :
  (exists p, pages_take Debug dx_sign 5 (pages_new dx_sign (lit "")) = Val [Ok p]
     /\ r_width (pg_raster p) = 40 /\ r_height (pg_raster p) = 21 /\ pg_duration p = 30
     /\ r_pixel (pg_raster p) 3 4 = (0, 0, 0))
  /\ pages_take Debug dx_sign 2 (pages_new dx_sign (lit "HI"))
     = Val [Err (SFontNotDefined 1)].
Proof. split; [eexists; split; [vm_compute; reflexivity|]; repeat split|vm_compute; reflexivity]. Qed.

(** ** C60 *)

(** Codes of classic colours are 0 to 9, in the order of the standard, and are read
    back. *)
Theorem c60_classic :
  (forall c, classic_from_u8 (classic_to_u8 c) = Some c)
  /\ (forall v c, classic_from_u8 v = Some c -> classic_to_u8 c = v)
  /\ (forall v, (exists c, classic_from_u8 v = Some c) <-> 0 <= v <= 9)
  /\ map classic_from_u8 [0; 1; 2; 3; 4; 5; 6; 7; 8; 9]
     = map Some [Black; Red; Yellow; Green; Cyan; Blue; Magenta; White; Orange; Amber].
Proof. exact classic_codes. Qed.
Print Assumptions c60_classic.

(** A name gives the scheme of that name; other names give 1-bit monochrome. *)
Theorem c60_schemes : forall s,
  (scheme_from_str s = Monochrome8Bit <-> s = lit "monochrome8Bit")
  /\ (scheme_from_str s = ColorClassicScheme <-> s = lit "colorClassic")
  /\ (scheme_from_str s = Color24Bit <-> s = lit "color24Bit")
  /\ (scheme_from_str s = Monochrome1Bit
      <-> s = lit "monochrome1Bit" \/ ~ In s [lit "monochrome8Bit"; lit "colorClassic"; lit "color24Bit"]).
Proof. exact scheme_names. Qed.
Print Assumptions c60_schemes.

Example c60_examples : classic_to_u8 Orange = 8 /\ scheme_from_str (lit "color24Bit") = Color24Bit
  /\ scheme_from_str (lit "Color24Bit") = Monochrome1Bit.
Proof. vm_compute. auto. Qed.
