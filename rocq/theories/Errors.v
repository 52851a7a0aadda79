(** Messages of the error types: the [Display] that [thiserror] derives from the
    [#[error("...")]] attributes. *)

From Coq Require Import String.
From Verif Require Import Base Str Multi Font Graphic Config Sign.
Open Scope list_scope.

(** multi.rs 325-369: [SyntaxError] *)
Definition show_syntax (e : SyntaxError) : str :=
  match e with
  | SOther msg => lit "other: " ++ msg
  | SUnsupportedTag t => lit "unsupported tag: " ++ t
  | SUnsupportedTagValue t => lit "unsupported tag value: " ++ t
  | STextTooBig => lit "text too big"
  | SFontNotDefined n => lit "font not defined: " ++ show n
  | SCharacterNotDefined c => lit "character not defined: " ++ [c]
  | SFieldDeviceNotExist => lit "field device does not exist"
  | SFieldDeviceError => lit "field device error"
  | SFlashRegionError => lit "flashing region error"
  | STagConflict => lit "tag conflict"
  | STooManyPages => lit "too many pages"
  | SFontVersionID => lit "font version ID mismatch"
  | SGraphicID => lit "graphic ID mismatch"
  | SGraphicNotDefined n => lit "graphic not defined: " ++ show n
  end.

(** font/mod.rs 18-38: [FontError] *)
Definition show_font_error (e : FontError) : str :=
  match e with
  | FInvalidNumber => lit "Invalid number"
  | FDuplicateNumber n => lit "Duplicate number: " ++ show n
  | FInvalidChar c => lit "Invalid character: " ++ [c]
  | FDuplicateChar c => lit "Duplicate character: " ++ [c]
  | FInvalidHeight => lit "Invalid height"
  | FInvalidCharHeight => lit "Invalid character height"
  end.

(** graphic.rs 20-43: [GraphicError] *)
Definition show_graphic_error (e : GraphicError) : str :=
  match e with
  | GInvalidNumber => lit "Invalid number"
  | GDuplicateNumber => lit "Duplicate number"
  | GInvalidHeight => lit "Invalid height"
  | GInvalidWidth => lit "Invalid width"
  | GInvalidBitmap => lit "Invalid bitmap"
  | GInvalidTransparentColor => lit "Invalid transparent color"
  | GTooBig => lit "Too big"
  end.

(** config.rs 11-19: [CfgError] *)
Definition show_cfg_error (e : CfgError) : str :=
  match e with
  | InvalidPageCfg => lit "Invalid page config"
  | InvalidDimensions => lit "Invalid sign dimensions"
  end.

(** sign.rs 10-21: [SignError] *)
Definition show_sign_error (e : SignError) : str :=
  match e with
  | ECfg e => lit "Config error: " ++ show_cfg_error e
  | EFont e => lit "Font error: " ++ show_font_error e
  | EGraphic e => lit "Graphic error: " ++ show_graphic_error e
  end.
