(** C61: reading .tfon properties, exactly. *)

From Coq Require Import String.
From Verif Require Import Base Str Font Tfon Spec_TfonRead Proofs_Str Proofs_TfonRead.
Open Scope list_scope.

(** Bitmap heights are bytes in the external crate. *)
Theorem c61_reads : forall C ps o, (forall b, In (PBitmap b) ps -> 0 <= bm_height b) ->
  (tfon_parse C ps = o <-> TfonReads C ps o).
Proof. exact tfon_parse_exact. Qed.

(** A setting given twice, a code point given twice, one bitmap without rows
    before the others, a code point without bitmap, and room to spare. *)
Definition ex_props : list Property :=
  [PFontNumber 4; PFontName (lit "narrow"); PCharSpacing 2; PCodePoint 32; PBitmap (mkBitmap 0 3 []);
   PFontNumber 5; PCodePoint 64; PCodePoint 65; PBitmap (mkBitmap 2 4 [150]); PIgnored;
   PBitmap (mkBitmap 2 1 [192]); PCodePoint 67].
Example c61_case : (forall b, In (PBitmap b) ex_props -> 0 <= bm_height b)
  /\ tfon_parse 5 ex_props
     = Val (Ok (mkFont 5 (lit "narrow" ++ repeat 0 58) 2 2 0
         [mkChar 32 3 []; mkChar 65 4 [150]; mkChar 0 1 [192]; mkChar 67 0 []; char_default]))
  /\ tfon_parse 3 ex_props = Panic
  /\ tfon_parse 3 (ex_props ++ [PBitmap (mkBitmap 3 1 [0])]) = Panic
  /\ tfon_parse 4 (ex_props ++ [PBitmap (mkBitmap 3 1 [0])]) = Val (Err FInvalidCharHeight).
Proof.
  splits; try reflexivity. intros b H. cbn in H.
  repeat (destruct H as [H|H]; [try discriminate; injection H as <-; cbn; lia|]). destruct H.
Qed.
Print Assumptions c61_reads.
