(** Properties C01 to C13: MULTI strings. *)

From Coq Require Import String.
From Verif Require Import Base Str Multi Spec_Multi Proofs_Str Proofs_Split Proofs_Parse Proofs_Tag
  Proofs_Print Proofs_Case Proofs_Norm Proofs_Hex.

(** ** C01 *)

Theorem c01_split_lossless : forall md ms,
  exists ts, split md ms = Val ts /\ concat ts = ms /\ Forall (fun t => t <> []) ts.
Proof. exact split_lossless. Qed.
Print Assumptions c01_split_lossless.

Example c01_example : split Debug (lit "a[[b[nl]c]") =
  Val [lit "a"; lit "[["; lit "b"; lit "[nl]"; lit "c"; lit "]"].
Proof. reflexivity. Qed.

(** ** C02 *)

Theorem c02_split_tokens : forall md ms ts, split md ms = Val ts <-> Tokens ms ts.
Proof. exact split_iff. Qed.
Print Assumptions c02_split_tokens.

Theorem c02_tokens_unique : forall ms ts ts', Tokens ms ts -> Tokens ms ts' -> ts = ts'.
Proof. exact Tokens_unique. Qed.
Print Assumptions c02_tokens_unique.

Theorem c02_tokens_exist : forall ms, exists ts, Tokens ms ts.
Proof. exact Tokens_exists. Qed.
Print Assumptions c02_tokens_exist.

Example c02_example : Tokens (lit "]a[nl[x") [lit "]"; lit "a"; lit "[nl"; lit "[x"].
Proof. apply (c02_split_tokens Debug). reflexivity. Qed.

(** ** C03

    The claim is false: a tag with a non-ASCII character where the parser slices
    at a byte offset panics.  The partial theorems say exactly when. *)

Theorem c03_parsing_never_panics_refuted :
  exists ms, Forall is_char ms /\ forall md,
    normalize md ms = Panic /\ is_blank md ms = Panic /\ text_spans md ms = Panic
    /\ join_text md ms [] = Panic.
Proof.
  exists (91 :: 102 :: 108 :: 233 :: [93]). split.
  - repeat constructor; unfold is_char; lia.
  - intros []; vm_compute; auto.
Qed.
Print Assumptions c03_parsing_never_panics_refuted.

(** The outcome of the parser on every token: a panic exactly on the tokens of
    [PanicToken], otherwise the value or error the grammar gives. *)
Theorem c03_values_panic_partial : forall md ms ts, Tokens ms ts ->
  values md ms = map try_from ts
  /\ Forall (fun t => (try_from t = Panic <-> PanicToken t) /\ try_from t <> Hang) ts.
Proof.
  intros md ms ts HT. split; [exact (values_tokens md ms ts HT)|].
  apply Tokens_Token in HT. eapply Forall_impl; [|exact HT]. intros t (rest & Ht).
  destruct (try_from_token t rest Ht) as [[HP E]|[HP (r & E & _)]]; rewrite E;
    split; try split; auto; try discriminate; intros; contradiction.
Qed.
Print Assumptions c03_values_panic_partial.

Theorem c03_normalize_panic_partial : forall md ms ts, Tokens ms ts ->
  (normalize md ms = Panic <-> Exists PanicToken ts) /\ normalize md ms <> Hang.
Proof. exact normalize_panic. Qed.
Print Assumptions c03_normalize_panic_partial.

Theorem c03_text_spans_panic_partial : forall md ms ts, Tokens ms ts ->
  (text_spans md ms = Panic <-> Exists PanicToken ts) /\ text_spans md ms <> Hang.
Proof. exact text_spans_panic. Qed.
Print Assumptions c03_text_spans_panic_partial.

Theorem c03_join_text_panic_partial : forall md ms sep ts, Tokens ms ts ->
  (join_text md ms sep = Panic <-> Exists PanicToken ts) /\ join_text md ms sep <> Hang.
Proof. exact join_text_panic. Qed.
Print Assumptions c03_join_text_panic_partial.

(** Strings of ASCII characters never panic. *)
Theorem c03_ascii_partial : forall md ms, Forall (fun c => 0 <= c < 128) ms ->
  (exists s, normalize md ms = Val s) /\ (exists b, is_blank md ms = Val b)
  /\ (exists l, text_spans md ms = Val l)
  /\ Forall (fun m => exists r, m = Val r) (values md ms).
Proof. exact ascii_no_panic. Qed.
Print Assumptions c03_ascii_partial.

Example c03_example : Tokens (lit "A[flto]") [lit "A"; lit "[flto]"]
  /\ normalize Debug (lit "A[flto]") = Val (lit "A").
Proof. split; [apply (c02_split_tokens Debug)|]; reflexivity. Qed.

(** ** C04 *)

Theorem c04_tag_accepted : forall body v, parse_tag body = Val (Ok v) <-> TagDenotes body v.
Proof. exact parse_tag_ok. Qed.
Print Assumptions c04_tag_accepted.

Theorem c04_tag_value_error : forall body t,
  parse_tag body = Val (Err (SUnsupportedTagValue t)) <->
  t = body /\ KnownCode body /\ (forall v, ~ TagDenotes body v) /\ ~ SplitsChar body.
Proof. exact parse_tag_err_value. Qed.
Print Assumptions c04_tag_value_error.

Theorem c04_tag_error : forall body t,
  parse_tag body = Val (Err (SUnsupportedTag t)) <-> t = body /\ ~ KnownCode body.
Proof. exact parse_tag_err_tag. Qed.
Print Assumptions c04_tag_error.

(** Whole strings: the iterator yields the meaning of each token. *)
Theorem c04_values_meaning : forall md ms rs, values md ms = map Val rs <-> Meaning ms rs.
Proof. exact values_meaning. Qed.
Print Assumptions c04_values_meaning.

Theorem c04_tag_total : forall body,
  parse_tag body = Panic \/ (exists v, parse_tag body = Val (Ok v))
  \/ parse_tag body = Val (Err (SUnsupportedTagValue body))
  \/ parse_tag body = Val (Err (SUnsupportedTag body)).
Proof. exact parse_tag_total. Qed.
Print Assumptions c04_tag_total.

Example c04_example :
  TagDenotes (lit "tr1,2,30,+4") (VTextRectangle (mkRect 1 2 30 4))
  /\ KnownCode (lit "fo0") /\ ~ KnownCode (lit "zz").
Proof.
  split; [apply c04_tag_accepted; reflexivity|]. split.
  - assert (H : parse_tag (lit "fo0") = Val (Err (SUnsupportedTagValue (lit "fo0")))) by reflexivity.
    apply c04_tag_value_error in H. tauto.
  - assert (H : parse_tag (lit "zz") = Val (Err (SUnsupportedTag (lit "zz")))) by reflexivity.
    apply c04_tag_error in H. tauto.
Qed.

(** ** C05 *)

Theorem c05_parsed_in_range : forall md ms v, In (Val (Ok v)) (values md ms) -> value_ok v.
Proof. exact parsed_in_range. Qed.
Print Assumptions c05_parsed_in_range.

Example c05_example : In (Val (Ok (VFont (Some (255, Some 65535))))) (values Debug (lit "x[fo255,FFFF]")).
Proof. right. left. reflexivity. Qed.

(** ** C06

    False for hexadecimal characters: they are read in base 16 but printed in
    base 10.  Every other value, and every code below ten, reads back. *)

Theorem c06_print_parse_refuted : exists v, Parsable v /\ forall md,
  values md (display v) <> [Val (Ok v)].
Proof.
  exists (VHexadecimalCharacter 65). split; [|intros []; discriminate].
  apply (Pa_tag (lit "hc41")); [repeat constructor; vm_compute; discriminate|].
  apply parse_tag_ok. reflexivity.
Qed.
Print Assumptions c06_print_parse_refuted.

Theorem c06_print_parse_partial : forall md v, Parsable v ->
  values md (display v) = [Val (Ok v)] <-> small_hex v.
Proof. exact print_parse_iff. Qed.
Print Assumptions c06_print_parse_partial.

Theorem c06_parsed_parsable : forall md ms v, In (Val (Ok v)) (values md ms) -> Parsable v.
Proof. exact parsed_parsable. Qed.
Print Assumptions c06_parsed_parsable.

Example c06_example : Parsable (VPageTime (Some 25) None) /\ small_hex (VPageTime (Some 25) None).
Proof.
  split; [|exact I]. apply (c06_parsed_parsable Debug (lit "[PT25]")). left. reflexivity.
Qed.

(** ** C07 to C10

    All of these fail for hexadecimal characters of code ten or more, whose
    printed form reads back as another character or not at all. *)

Theorem c07_normalize_idempotent_refuted : exists ms s s',
  (forall md, normalize md ms = Val s /\ normalize md s = Val s') /\ s <> s'.
Proof.
  exists (lit "[hc41]"), (lit "[hc65]"), (lit "[hc101]"). split; [intros []; auto|discriminate].
Qed.
Print Assumptions c07_normalize_idempotent_refuted.

Theorem c07_normalize_idempotent_partial : forall md ms rs s,
  Meaning ms rs -> Forall small_hex (oks rs) ->
  normalize md ms = Val s -> normalize md s = Val s.
Proof. exact normalize_idempotent. Qed.
Print Assumptions c07_normalize_idempotent_partial.

(** Exactly the strings without hexadecimal characters from ten on are
    normalized in one step. *)
Theorem c07_normalize_idempotent_iff_partial : forall md ms rs s,
  Meaning ms rs -> normalize md ms = Val s ->
  normalize md s = Val s <-> Forall small_hex (oks rs).
Proof. exact normalize_idempotent_iff. Qed.
Print Assumptions c07_normalize_idempotent_iff_partial.

Example c07_example : exists rs s, Meaning (lit "[cf]A[jl3][hc7] [nl]") rs
  /\ Forall small_hex (oks rs) /\ normalize Debug (lit "[cf]A[jl3][hc7] [nl]") = Val s
  /\ s = lit "A[jl3][hc7]".
Proof.
  eexists. eexists. split; [apply (c04_values_meaning Debug); cbn [map];
    instantiate (1 := [Ok _; Ok _; Ok _; Ok _; Ok _; Ok _]); reflexivity|].
  split; [repeat constructor|]. split; reflexivity.
Qed.

Theorem c08_normalize_well_formed_refuted : exists ms s e, forall md,
  normalize md ms = Val s /\ In (Val (Err e)) (values md s).
Proof.
  exists (lit "[hcFFFF]"), (lit "[hc65535]"), (SUnsupportedTagValue (lit "hc65535")).
  intros []; split; auto; left; reflexivity.
Qed.
Print Assumptions c08_normalize_well_formed_refuted.

Theorem c08_normalize_well_formed_partial : forall md ms rs s,
  Meaning ms rs -> Forall small_hex (oks rs) -> normalize md ms = Val s ->
  exists vs, values md s = map (fun v => Val (Ok v)) vs.
Proof. exact normalize_well_formed. Qed.
Print Assumptions c08_normalize_well_formed_partial.

(** Exactly the hexadecimal characters from 10000 on spoil the output. *)
Theorem c08_normalize_well_formed_iff_partial : forall md ms rs s,
  Meaning ms rs -> normalize md ms = Val s ->
  (exists vs, Meaning s (map Ok vs)) <-> Forall printable_hex (oks rs).
Proof. exact normalize_well_formed_iff. Qed.
Print Assumptions c08_normalize_well_formed_iff_partial.

Example c08_hex_example : exists rs, Meaning (lit "[hc270F][zz]") rs /\ Forall printable_hex (oks rs)
  /\ normalize Debug (lit "[hc270F][zz]") = Val (lit "[hc9999]").
Proof.
  eexists. split; [apply (c04_values_meaning Debug); instantiate (1 := [Ok _; Err _]); reflexivity|].
  split; [repeat constructor|reflexivity].
Qed.

Example c08_example : exists rs, Meaning (lit "a[zz][fo0]]b[") rs /\ Forall small_hex (oks rs)
  /\ normalize Debug (lit "a[zz][fo0]]b[") = Val (lit "ab").
Proof.
  eexists. split; [apply (c04_values_meaning Debug);
    instantiate (1 := [Ok _; Err _; Err _; Err _; Ok _; Err _]); reflexivity|].
  split; [repeat constructor|reflexivity].
Qed.

Theorem c09_normalize_visible_refuted : exists ms s,
  (forall md, normalize md ms = Val s) /\
  exists rs rs', Meaning ms rs /\ Meaning s rs' /\
  ~ exists w, visible (oks rs) = visible (oks rs') ++ map IChar w.
Proof.
  exists (lit "[hc41]"), (lit "[hc65]"). split; [intros []; reflexivity|].
  exists [Ok (VHexadecimalCharacter 65)], [Ok (VHexadecimalCharacter 101)].
  split; [apply (values_meaning Debug); reflexivity|].
  split; [apply (values_meaning Debug); reflexivity|].
  intros (w & E). cbn in E. discriminate.
Qed.
Print Assumptions c09_normalize_visible_refuted.

(** The visible content is kept, but for trailing white space. *)
Theorem c09_normalize_visible_partial : forall md ms rs s,
  Meaning ms rs -> Forall small_hex (oks rs) -> normalize md ms = Val s ->
  exists vs w, Meaning s (map Ok vs) /\ visible (oks rs) = visible vs ++ map IChar w
    /\ Forall space w.
Proof. exact normalize_visible. Qed.
Print Assumptions c09_normalize_visible_partial.

(** All content is kept, with the settings in force at each item, but for
    trailing items that show nothing. *)
Theorem c09_normalize_content_partial : forall md ms rs s,
  Meaning ms rs -> Forall small_hex (oks rs) -> normalize md ms = Val s ->
  exists vs tail, Meaning s (map Ok vs)
    /\ content settings0 (oks rs) = content settings0 vs ++ tail
    /\ Forall (fun p => BlankItem (fst p)) tail.
Proof. exact normalize_content. Qed.
Print Assumptions c09_normalize_content_partial.

(** For every string: the content of the output is that of the input, each
    hexadecimal character standing for its decimal code read in base 16 (or for
    a malformed tag, from 10000 on). *)
Theorem c09_normalize_any_partial : forall md ms rs s,
  Meaning ms rs -> normalize md ms = Val s ->
  exists vs rs' tail, Forall2 Reread vs rs' /\ Meaning s rs'
    /\ content settings0 (oks rs) = content settings0 vs ++ tail
    /\ Forall (fun p => BlankItem (fst p)) tail.
Proof. exact normalize_content_any. Qed.
Print Assumptions c09_normalize_any_partial.

Example c09_reread_example : Reread (VHexadecimalCharacter 65) (Ok (VHexadecimalCharacter 101))
  /\ normalize Debug (lit "[hc41]") = Val (lit "[hc65]").
Proof. split; [exact (Rr_hex 65 eq_refl)|reflexivity]. Qed.

Example c09_example :
  content settings0 [VColorForeground (Some (Legacy 3)); VText [65]; VNewPage; VText [32]] =
  [(IChar 65, mkSet (Some (Legacy 3)) None None None);
   (ITag VNewPage, mkSet (Some (Legacy 3)) None None None);
   (IChar 32, mkSet (Some (Legacy 3)) None None None)].
Proof. reflexivity. Qed.

Theorem c10_normalize_minimal_refuted : exists ms s, (forall md, normalize md ms = Val s)
  /\ s <> [] /\ forall rs, Meaning s rs -> ~ exists l v, rs = l ++ [Ok v].
Proof.
  exists (lit "[hcFFFF]"), (lit "[hc65535]"). split; [intros []; reflexivity|].
  split; [discriminate|]. intros rs HM (l & v & ->).
  apply (values_meaning Debug) in HM. rewrite map_app in HM.
  assert (E : values Debug (lit "[hc65535]") =
    [] ++ [Val (Err (SUnsupportedTagValue (lit "hc65535")))]) by reflexivity.
  rewrite E in HM. apply app_inj_tail in HM as [_ HM]. discriminate.
Qed.
Print Assumptions c10_normalize_minimal_refuted.

Theorem c10_normalize_minimal_partial : forall md ms rs s,
  Meaning ms rs -> Forall small_hex (oks rs) -> normalize md ms = Val s ->
  exists vs, Meaning s (map Ok vs) /\ NoRedundant settings0 vs
    /\ (vs = [] \/ exists l v, vs = l ++ [v] /\ Shown v).
Proof. exact normalize_ends. Qed.
Print Assumptions c10_normalize_minimal_partial.

(** For every string: the output has no redundant tag, and is empty or ends with
    a shown value, unless it ends with a hexadecimal character from 10000 on. *)
Theorem c10_normalize_any_partial : forall md ms rs s,
  Meaning ms rs -> normalize md ms = Val s ->
  exists rs', Meaning s rs' /\ NoRedundant settings0 (oks rs')
    /\ (rs' = [] \/ exists l r, rs' = l ++ [r]
        /\ match r with
           | Ok v => Shown v
           | Err _ => exists c, In (VHexadecimalCharacter c) (oks rs) /\ 10000 <= c
           end).
Proof. exact normalize_ends_any. Qed.
Print Assumptions c10_normalize_any_partial.

Example c10_example : NoRedundant settings0 [VFont (Some (3, None)); VText [65]; VFont None; VText [66]]
  /\ ~ NoRedundant settings0 [VFont None; VText [65]].
Proof.
  split; cbn; unfold Redundant; cbn; intuition discriminate.
Qed.

(** ** C11 *)

Theorem c11_is_blank : forall md ms,
  is_blank md ms = Val true <-> exists vs, Meaning ms (map Ok vs) /\ Forall (fun v => ~ Shown v) vs.
Proof. exact is_blank_iff. Qed.
Print Assumptions c11_is_blank.

Theorem c11_is_not_blank : forall md ms ts, Tokens ms ts ->
  is_blank md ms = Val false <->
  exists ts1 vs1 t res ts2, ts = ts1 ++ t :: ts2 /\ Forall2 (fun t v => TokenDenotes t (Ok v)) ts1 vs1
    /\ Forall (fun v => ~ Shown v) vs1 /\ TokenDenotes t res
    /\ match res with Ok v => Shown v | Err _ => True end.
Proof. exact is_blank_false_iff. Qed.
Print Assumptions c11_is_not_blank.

Theorem c11_blank_normalize : forall md ms, is_blank md ms = Val true -> normalize md ms = Val [].
Proof. exact blank_normalize. Qed.
Print Assumptions c11_blank_normalize.

Theorem c11_normalize_blank : forall md ms vs,
  Meaning ms (map Ok vs) -> normalize md ms = Val [] -> is_blank md ms = Val true.
Proof. exact normalize_blank. Qed.
Print Assumptions c11_normalize_blank.

Example c11_example : is_blank Debug (lit "[jl4] [nl]  [np]") = Val true
  /\ is_blank Debug (lit "[g1]") = Val false
  /\ is_blank Debug (lit "[zz]") = Val false.
Proof. repeat split. Qed.

(** ** C12 *)

Theorem c12_join_escaped : forall md t, Forall text_char t -> join_text md (escape t) [] = Val t.
Proof. exact join_escape. Qed.
Print Assumptions c12_join_escaped.

Theorem c12_text_spans : forall md ms l,
  text_spans md ms = Val l <-> exists rs, Meaning ms rs /\ l = texts rs.
Proof. exact text_spans_iff. Qed.
Print Assumptions c12_text_spans.

Theorem c12_join_text : forall md ms sep s,
  join_text md ms sep = Val s <-> exists rs, Meaning ms rs /\ Interspersed sep (texts rs) s.
Proof. exact join_text_iff. Qed.
Print Assumptions c12_join_text.

Example c12_example : escape (lit "a[b]]") = lit "a[[b]]]]"
  /\ join_text Debug (lit "a[nl]b[zz]c") (lit "/") = Val (lit "a/b/c").
Proof. split; reflexivity. Qed.

(** ** C13 *)

Theorem c13_case_insensitive : forall b b', CaseEq b b' ->
  match parse_tag b, parse_tag b' with
  | Val (Ok v), Val (Ok v') => CaseEqValue v v'
  | Val (Err (SUnsupportedTag t)), Val (Err (SUnsupportedTag t')) => t = b /\ t' = b'
  | Val (Err (SUnsupportedTagValue t)), Val (Err (SUnsupportedTagValue t')) => t = b /\ t' = b'
  | Panic, Panic => True
  | _, _ => False
  end.
Proof. exact parse_tag_case. Qed.
Print Assumptions c13_case_insensitive.

Example c13_example : CaseEq (lit "fo1,aBcD") (lit "FO1,AbcD")
  /\ parse_tag (lit "FO1,AbcD") = Val (Ok (VFont (Some (1, Some 43981)))).
Proof. split; [repeat constructor; unfold CaseCh; vm_compute; intuition congruence|reflexivity]. Qed.
