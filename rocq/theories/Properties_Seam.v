(** Property C81: messages put together. *)

From Coq Require Import String Lia.
From Verif Require Import Base Str Multi Spec_Multi Spec_Seam Proofs_Str Proofs_Split Proofs_Norm Proofs_Seam.
Open Scope list_scope.

(** The pieces of two messages put together are the pieces of the first and then
    those of the second, exactly when the last piece of the first is also a piece
    before the second. *)
Theorem c81_split : forall md a b ts us, split md a = Val ts -> split md b = Val us ->
  (split md (a ++ b) = Val (ts ++ us) <-> Seam a b).
Proof. exact split_seam. Qed.
Print Assumptions c81_split.

(** Anything may follow a complete tag. *)
Theorem c81_tag : forall a body b, plain body -> Seam a (91 :: body ++ [93]) -> Seam (a ++ 91 :: body ++ [93]) b.
Proof. exact seam_tag. Qed.
Print Assumptions c81_tag.

(** Then values and errors follow each other, *)
Theorem c81_meaning : forall a b rs rs', Seam a b -> Meaning a rs -> Meaning b rs' -> Meaning (a ++ b) (rs ++ rs').
Proof. exact meaning_seam. Qed.
Print Assumptions c81_meaning.

(** they are blank when both are, *)
Theorem c81_blank : forall md a b x y, Seam a b -> is_blank md a = Val x -> is_blank md b = Val y -> is_blank md (a ++ b) = Val (x && y).
Proof. exact blank_seam. Qed.
Print Assumptions c81_blank.

(** and so do their texts. *)
Theorem c81_spans : forall md a b l k, Seam a b -> text_spans md a = Val l -> text_spans md b = Val k -> text_spans md (a ++ b) = Val (l ++ k).
Proof. exact spans_seam. Qed.
Print Assumptions c81_spans.

Theorem c81_join : forall md a b sep s s' l k, Seam a b -> text_spans md a = Val l -> text_spans md b = Val k ->
  join_text md a sep = Val s -> join_text md b sep = Val s' ->
  (l = [] -> join_text md (a ++ b) sep = Val s') /\ (k = [] -> join_text md (a ++ b) sep = Val s)
  /\ (l <> [] -> k <> [] -> join_text md (a ++ b) sep = Val (s ++ sep ++ s')).
Proof. exact joined_seam. Qed.
Print Assumptions c81_join.

(** Between two texts there is no seam: they become one piece. *)
Theorem c81_merged : forall md a b ts t u us, split md a = Val (ts ++ [t]) -> split md b = Val (u :: us) ->
  t <> [] -> u <> [] -> plain t -> plain u -> split md (a ++ b) = Val (ts ++ [t ++ u] ++ us).
Proof. exact split_merged. Qed.
Print Assumptions c81_merged.

(** Seams after a tag, a text and an unfinished tag; none inside an escaped bracket
    or behind an unfinished tag. *)
Example c81_example : Seam (lit "a[nl]") (lit "]b") /\ Seam (lit "[[a") (lit "[g1]") /\ Seam (lit "[np") (lit "[b")
  /\ ~ Seam (lit "a]") (lit "]b") /\ ~ Seam (lit "[n") (lit "p]")
  /\ join_text Debug (lit "a[nl]" ++ lit "b]]c") (lit "-") = Val (lit "a-b-]-c").
Proof.
  repeat apply conj.
  - apply (split_seam Debug _ _ [lit "a"; lit "[nl]"] [lit "]"; lit "b"]); reflexivity.
  - apply (split_seam Debug _ _ [lit "[["; lit "a"] [lit "[g1]"]); reflexivity.
  - apply (split_seam Debug _ _ [lit "[np"] [lit "[b"]); reflexivity.
  - rewrite <- (split_seam Debug _ _ [lit "a"; lit "]"] [lit "]"; lit "b"]) by reflexivity. discriminate.
  - rewrite <- (split_seam Debug _ _ [lit "[n"] [lit "p"; lit "]"]) by reflexivity. discriminate.
  - reflexivity.
Qed.
