(** Replay of the unit tests of src/dms/font/mod.rs, graphic.rs, pattern.rs and
    render.rs on the model.  Conformance evidence only.  The fonts are the
    repository's test/*.tfon files, as the property lists they parse to. *)

From Coq Require Import String.
From Verif Require Import Base Str Multi Color Oer Crc Raster Font Tfon Graphic Config
  Sign Pattern Render.

(** test/F02.tfon *)
Definition f02 : list Property :=
  [ PFontName (lit "fontVersionId example");
    PFontNumber 2;
    PCharSpacing 1;
    PLineSpacing 3;
    PCodePoint 52;
    PBitmap (mkBitmap 7 7 [28; 89; 52; 111; 225; 131; 0]);
    PCodePoint 65;
    PBitmap (mkBitmap 7 6 [123; 60; 255; 207; 60; 192]) ].

(** test/F07.tfon *)
Definition f07 : list Property :=
  [ PFontName (lit "F07");
    PFontNumber 7;
    PCharSpacing 2;
    PLineSpacing 3;
    PCodePoint 32;
    PBitmap (mkBitmap 7 1 [0]);
    PCodePoint 33;
    PBitmap (mkBitmap 7 2 [170; 136]);
    PCodePoint 34;
    PBitmap (mkBitmap 7 3 [180; 0; 0]);
    PCodePoint 35;
    PBitmap (mkBitmap 7 5 [82; 190; 175; 169; 64]);
    PCodePoint 36;
    PBitmap (mkBitmap 7 5 [35; 168; 226; 184; 128]);
    PCodePoint 37;
    PBitmap (mkBitmap 7 5 [198; 68; 68; 76; 96]);
    PCodePoint 38;
    PBitmap (mkBitmap 7 5 [69; 40; 138; 201; 160]);
    PCodePoint 39;
    PBitmap (mkBitmap 7 1 [192]);
    PCodePoint 40;
    PBitmap (mkBitmap 7 3 [42; 72; 136]);
    PCodePoint 41;
    PBitmap (mkBitmap 7 3 [136; 146; 160]);
    PCodePoint 42;
    PBitmap (mkBitmap 7 7 [16; 81; 20; 20; 69; 4; 0]);
    PCodePoint 43;
    PBitmap (mkBitmap 7 5 [1; 9; 242; 16; 0]);
    PCodePoint 44;
    PBitmap (mkBitmap 7 3 [0; 0; 160]);
    PCodePoint 45;
    PBitmap (mkBitmap 7 4 [0; 15; 0; 0]);
    PCodePoint 46;
    PBitmap (mkBitmap 7 2 [0; 8]);
    PCodePoint 47;
    PBitmap (mkBitmap 7 5 [0; 68; 68; 64; 0]);
    PCodePoint 48;
    PBitmap (mkBitmap 7 4 [105; 153; 153; 96]);
    PCodePoint 49;
    PBitmap (mkBitmap 7 3 [89; 36; 184]);
    PCodePoint 50;
    PBitmap (mkBitmap 7 4 [105; 18; 72; 240]);
    PCodePoint 51;
    PBitmap (mkBitmap 7 4 [105; 22; 25; 96]);
    PCodePoint 52;
    PBitmap (mkBitmap 7 5 [17; 149; 47; 136; 64]);
    PCodePoint 53;
    PBitmap (mkBitmap 7 4 [248; 134; 25; 96]);
    PCodePoint 54;
    PBitmap (mkBitmap 7 4 [105; 142; 153; 96]);
    PCodePoint 55;
    PBitmap (mkBitmap 7 4 [241; 18; 36; 64]);
    PCodePoint 56;
    PBitmap (mkBitmap 7 4 [105; 150; 153; 96]);
    PCodePoint 57;
    PBitmap (mkBitmap 7 4 [105; 151; 25; 96]);
    PCodePoint 58;
    PBitmap (mkBitmap 7 2 [8; 128]);
    PCodePoint 59;
    PBitmap (mkBitmap 7 3 [1; 5; 0]);
    PCodePoint 60;
    PBitmap (mkBitmap 7 4 [18; 72; 66; 16]);
    PCodePoint 61;
    PBitmap (mkBitmap 7 4 [0; 240; 240; 0]);
    PCodePoint 62;
    PBitmap (mkBitmap 7 4 [132; 33; 36; 128]);
    PCodePoint 63;
    PBitmap (mkBitmap 7 4 [105; 18; 32; 32]);
    PCodePoint 64;
    PBitmap (mkBitmap 7 5 [116; 103; 89; 193; 192]);
    PCodePoint 65;
    PBitmap (mkBitmap 7 4 [105; 159; 153; 144]);
    PCodePoint 66;
    PBitmap (mkBitmap 7 4 [233; 158; 153; 224]);
    PCodePoint 67;
    PBitmap (mkBitmap 7 4 [105; 136; 137; 96]);
    PCodePoint 68;
    PBitmap (mkBitmap 7 4 [233; 153; 153; 224]);
    PCodePoint 69;
    PBitmap (mkBitmap 7 4 [248; 142; 136; 240]);
    PCodePoint 70;
    PBitmap (mkBitmap 7 4 [248; 142; 136; 128]);
    PCodePoint 71;
    PBitmap (mkBitmap 7 4 [105; 139; 153; 112]);
    PCodePoint 72;
    PBitmap (mkBitmap 7 4 [153; 159; 153; 144]);
    PCodePoint 73;
    PBitmap (mkBitmap 7 3 [233; 36; 184]);
    PCodePoint 74;
    PBitmap (mkBitmap 7 4 [17; 17; 25; 96]);
    PCodePoint 75;
    PBitmap (mkBitmap 7 4 [153; 172; 169; 144]);
    PCodePoint 76;
    PBitmap (mkBitmap 7 4 [136; 136; 136; 240]);
    PCodePoint 77;
    PBitmap (mkBitmap 7 7 [131; 142; 172; 153; 48; 96; 128]);
    PCodePoint 78;
    PBitmap (mkBitmap 7 5 [142; 115; 89; 206; 32]);
    PCodePoint 79;
    PBitmap (mkBitmap 7 4 [105; 153; 153; 96]);
    PCodePoint 80;
    PBitmap (mkBitmap 7 4 [233; 158; 136; 128]);
    PCodePoint 81;
    PBitmap (mkBitmap 7 5 [116; 99; 26; 201; 160]);
    PCodePoint 82;
    PBitmap (mkBitmap 7 4 [233; 158; 169; 144]);
    PCodePoint 83;
    PBitmap (mkBitmap 7 4 [105; 134; 25; 96]);
    PCodePoint 84;
    PBitmap (mkBitmap 7 5 [249; 8; 66; 16; 128]);
    PCodePoint 85;
    PBitmap (mkBitmap 7 4 [153; 153; 153; 96]);
    PCodePoint 86;
    PBitmap (mkBitmap 7 5 [140; 99; 21; 40; 128]);
    PCodePoint 87;
    PBitmap (mkBitmap 7 7 [131; 6; 12; 154; 181; 81; 0]);
    PCodePoint 88;
    PBitmap (mkBitmap 7 5 [140; 84; 69; 70; 32]);
    PCodePoint 89;
    PBitmap (mkBitmap 7 5 [140; 84; 66; 16; 128]);
    PCodePoint 90;
    PBitmap (mkBitmap 7 5 [248; 68; 68; 67; 224]);
    PCodePoint 91;
    PBitmap (mkBitmap 7 3 [242; 73; 56]);
    PCodePoint 92;
    PBitmap (mkBitmap 7 5 [4; 16; 65; 4; 0]);
    PCodePoint 93;
    PBitmap (mkBitmap 7 3 [228; 146; 120]);
    PCodePoint 94;
    PBitmap (mkBitmap 7 5 [34; 162; 0; 0; 0]);
    PCodePoint 95;
    PBitmap (mkBitmap 7 5 [0; 0; 0; 3; 224]);
    PCodePoint 111;
    PBitmap (mkBitmap 7 2 [0; 0]);
    PCodePoint 123;
    PBitmap (mkBitmap 7 7 [3; 10; 36; 138; 24; 63; 0]);
    PCodePoint 124;
    PBitmap (mkBitmap 7 1 [254]);
    PCodePoint 125;
    PBitmap (mkBitmap 7 9 [8; 4; 34; 41; 34; 160; 224; 32]);
    PCodePoint 126;
    PBitmap (mkBitmap 7 2 [0; 0]) ].

(** test/F07-C.tfon *)
Definition f07c : list Property :=
  [ PFontName (lit "F07-C");
    PFontNumber 5;
    PCharSpacing 0;
    PLineSpacing 0;
    PCodePoint 32;
    PBitmap (mkBitmap 7 5 [0; 0; 0; 0; 0]);
    PCodePoint 33;
    PBitmap (mkBitmap 7 5 [33; 8; 66; 0; 128]);
    PCodePoint 34;
    PBitmap (mkBitmap 7 5 [82; 128; 0; 0; 0]);
    PCodePoint 35;
    PBitmap (mkBitmap 7 5 [82; 190; 175; 169; 64]);
    PCodePoint 36;
    PBitmap (mkBitmap 7 5 [35; 168; 226; 184; 128]);
    PCodePoint 37;
    PBitmap (mkBitmap 7 5 [198; 68; 68; 76; 96]);
    PCodePoint 38;
    PBitmap (mkBitmap 7 5 [69; 40; 138; 201; 160]);
    PCodePoint 39;
    PBitmap (mkBitmap 7 5 [33; 0; 0; 0; 0]);
    PCodePoint 40;
    PBitmap (mkBitmap 7 5 [17; 16; 132; 16; 64]);
    PCodePoint 41;
    PBitmap (mkBitmap 7 5 [65; 4; 33; 17; 0]);
    PCodePoint 42;
    PBitmap (mkBitmap 7 5 [37; 92; 71; 84; 128]);
    PCodePoint 43;
    PBitmap (mkBitmap 7 5 [1; 9; 242; 16; 0]);
    PCodePoint 44;
    PBitmap (mkBitmap 7 5 [0; 0; 0; 17; 0]);
    PCodePoint 45;
    PBitmap (mkBitmap 7 5 [0; 0; 224; 0; 0]);
    PCodePoint 46;
    PBitmap (mkBitmap 7 5 [0; 0; 0; 0; 128]);
    PCodePoint 47;
    PBitmap (mkBitmap 7 5 [0; 68; 68; 64; 0]);
    PCodePoint 48;
    PBitmap (mkBitmap 7 5 [50; 82; 148; 164; 192]);
    PCodePoint 49;
    PBitmap (mkBitmap 7 5 [35; 8; 66; 17; 192]);
    PCodePoint 50;
    PBitmap (mkBitmap 7 5 [116; 66; 100; 67; 224]);
    PCodePoint 51;
    PBitmap (mkBitmap 7 5 [116; 66; 96; 197; 192]);
    PCodePoint 52;
    PBitmap (mkBitmap 7 5 [17; 149; 47; 136; 64]);
    PCodePoint 53;
    PBitmap (mkBitmap 7 5 [252; 32; 224; 197; 192]);
    PCodePoint 54;
    PBitmap (mkBitmap 7 5 [116; 97; 232; 197; 192]);
    PCodePoint 55;
    PBitmap (mkBitmap 7 5 [248; 68; 34; 17; 0]);
    PCodePoint 56;
    PBitmap (mkBitmap 7 5 [116; 98; 232; 197; 192]);
    PCodePoint 57;
    PBitmap (mkBitmap 7 5 [116; 98; 240; 197; 192]);
    PCodePoint 58;
    PBitmap (mkBitmap 7 5 [0; 16; 4; 0; 0]);
    PCodePoint 59;
    PBitmap (mkBitmap 7 5 [0; 8; 2; 32; 0]);
    PCodePoint 60;
    PBitmap (mkBitmap 7 5 [17; 17; 4; 16; 64]);
    PCodePoint 61;
    PBitmap (mkBitmap 7 5 [0; 62; 15; 128; 0]);
    PCodePoint 62;
    PBitmap (mkBitmap 7 5 [65; 4; 17; 17; 0]);
    PCodePoint 63;
    PBitmap (mkBitmap 7 5 [100; 132; 66; 0; 128]);
    PCodePoint 64;
    PBitmap (mkBitmap 7 5 [116; 103; 89; 193; 192]);
    PCodePoint 65;
    PBitmap (mkBitmap 7 5 [116; 99; 248; 198; 32]);
    PCodePoint 66;
    PBitmap (mkBitmap 7 5 [244; 99; 232; 199; 192]);
    PCodePoint 67;
    PBitmap (mkBitmap 7 5 [116; 97; 8; 69; 192]);
    PCodePoint 68;
    PBitmap (mkBitmap 7 5 [244; 99; 24; 199; 192]);
    PCodePoint 69;
    PBitmap (mkBitmap 7 5 [252; 33; 232; 67; 224]);
    PCodePoint 70;
    PBitmap (mkBitmap 7 5 [252; 33; 232; 66; 0]);
    PCodePoint 71;
    PBitmap (mkBitmap 7 5 [116; 97; 120; 197; 224]);
    PCodePoint 72;
    PBitmap (mkBitmap 7 5 [140; 99; 248; 198; 32]);
    PCodePoint 73;
    PBitmap (mkBitmap 7 5 [113; 8; 66; 17; 192]);
    PCodePoint 74;
    PBitmap (mkBitmap 7 5 [16; 132; 33; 73; 128]);
    PCodePoint 75;
    PBitmap (mkBitmap 7 5 [140; 169; 138; 74; 32]);
    PCodePoint 76;
    PBitmap (mkBitmap 7 5 [132; 33; 8; 67; 224]);
    PCodePoint 77;
    PBitmap (mkBitmap 7 5 [142; 235; 24; 198; 32]);
    PCodePoint 78;
    PBitmap (mkBitmap 7 5 [142; 115; 89; 206; 32]);
    PCodePoint 79;
    PBitmap (mkBitmap 7 5 [116; 99; 24; 197; 192]);
    PCodePoint 80;
    PBitmap (mkBitmap 7 5 [244; 99; 232; 66; 0]);
    PCodePoint 81;
    PBitmap (mkBitmap 7 5 [116; 99; 26; 201; 160]);
    PCodePoint 82;
    PBitmap (mkBitmap 7 5 [244; 99; 234; 74; 32]);
    PCodePoint 83;
    PBitmap (mkBitmap 7 5 [116; 96; 224; 197; 192]);
    PCodePoint 84;
    PBitmap (mkBitmap 7 5 [249; 8; 66; 16; 128]);
    PCodePoint 85;
    PBitmap (mkBitmap 7 5 [140; 99; 24; 197; 192]);
    PCodePoint 86;
    PBitmap (mkBitmap 7 5 [140; 99; 21; 40; 128]);
    PCodePoint 87;
    PBitmap (mkBitmap 7 5 [140; 99; 26; 213; 64]);
    PCodePoint 88;
    PBitmap (mkBitmap 7 5 [140; 84; 69; 70; 32]);
    PCodePoint 89;
    PBitmap (mkBitmap 7 5 [140; 84; 66; 16; 128]);
    PCodePoint 90;
    PBitmap (mkBitmap 7 5 [248; 68; 68; 67; 224]);
    PCodePoint 91;
    PBitmap (mkBitmap 7 5 [114; 16; 132; 33; 192]);
    PCodePoint 92;
    PBitmap (mkBitmap 7 5 [4; 16; 65; 4; 0]);
    PCodePoint 93;
    PBitmap (mkBitmap 7 5 [112; 132; 33; 9; 192]);
    PCodePoint 94;
    PBitmap (mkBitmap 7 5 [34; 162; 0; 0; 0]);
    PCodePoint 95;
    PBitmap (mkBitmap 7 5 [0; 0; 0; 3; 224]) ].

(** test/F08.tfon *)
Definition f08 : list Property :=
  [ PFontName (lit "F08");
    PFontNumber 8;
    PCharSpacing 2;
    PLineSpacing 2;
    PCodePoint 32;
    PBitmap (mkBitmap 8 1 [0]);
    PCodePoint 33;
    PBitmap (mkBitmap 8 2 [170; 162]);
    PCodePoint 34;
    PBitmap (mkBitmap 8 3 [180; 0; 0]);
    PCodePoint 35;
    PBitmap (mkBitmap 8 5 [82; 190; 175; 169; 64]);
    PCodePoint 36;
    PBitmap (mkBitmap 8 5 [35; 168; 226; 184; 128]);
    PCodePoint 37;
    PBitmap (mkBitmap 8 5 [198; 68; 68; 76; 96]);
    PCodePoint 38;
    PBitmap (mkBitmap 8 5 [69; 40; 138; 202; 109]);
    PCodePoint 39;
    PBitmap (mkBitmap 8 1 [192]);
    PCodePoint 40;
    PBitmap (mkBitmap 8 3 [42; 73; 17]);
    PCodePoint 41;
    PBitmap (mkBitmap 8 3 [136; 146; 84]);
    PCodePoint 42;
    PBitmap (mkBitmap 8 5 [1; 42; 231; 84; 128]);
    PCodePoint 43;
    PBitmap (mkBitmap 8 5 [1; 9; 242; 16; 0]);
    PCodePoint 44;
    PBitmap (mkBitmap 8 3 [0; 0; 20]);
    PCodePoint 45;
    PBitmap (mkBitmap 8 4 [0; 15; 0; 0]);
    PCodePoint 46;
    PBitmap (mkBitmap 8 2 [0; 2]);
    PCodePoint 47;
    PBitmap (mkBitmap 8 5 [8; 68; 66; 34; 16]);
    PCodePoint 48;
    PBitmap (mkBitmap 8 4 [105; 153; 153; 150]);
    PCodePoint 49;
    PBitmap (mkBitmap 8 3 [89; 36; 151]);
    PCodePoint 50;
    PBitmap (mkBitmap 8 5 [116; 66; 38; 66; 31]);
    PCodePoint 51;
    PBitmap (mkBitmap 8 5 [116; 66; 96; 134; 46]);
    PCodePoint 52;
    PBitmap (mkBitmap 8 5 [17; 149; 47; 136; 66]);
    PCodePoint 53;
    PBitmap (mkBitmap 8 5 [252; 32; 224; 134; 46]);
    PCodePoint 54;
    PBitmap (mkBitmap 8 5 [116; 97; 232; 198; 46]);
    PCodePoint 55;
    PBitmap (mkBitmap 8 5 [248; 68; 34; 17; 8]);
    PCodePoint 56;
    PBitmap (mkBitmap 8 5 [116; 98; 232; 198; 46]);
    PCodePoint 57;
    PBitmap (mkBitmap 8 5 [116; 99; 23; 134; 46]);
    PCodePoint 58;
    PBitmap (mkBitmap 8 2 [8; 128]);
    PCodePoint 59;
    PBitmap (mkBitmap 8 3 [1; 5; 0]);
    PCodePoint 60;
    PBitmap (mkBitmap 8 4 [18; 72; 66; 16]);
    PCodePoint 61;
    PBitmap (mkBitmap 8 4 [0; 240; 240; 0]);
    PCodePoint 62;
    PBitmap (mkBitmap 8 4 [132; 33; 36; 128]);
    PCodePoint 63;
    PBitmap (mkBitmap 8 5 [116; 66; 34; 16; 4]);
    PCodePoint 64;
    PBitmap (mkBitmap 8 5 [116; 103; 90; 206; 14]);
    PCodePoint 65;
    PBitmap (mkBitmap 8 5 [116; 99; 31; 198; 49]);
    PCodePoint 66;
    PBitmap (mkBitmap 8 5 [244; 99; 232; 198; 62]);
    PCodePoint 67;
    PBitmap (mkBitmap 8 5 [116; 97; 8; 66; 46]);
    PCodePoint 68;
    PBitmap (mkBitmap 8 5 [244; 99; 24; 198; 62]);
    PCodePoint 69;
    PBitmap (mkBitmap 8 5 [252; 33; 200; 66; 31]);
    PCodePoint 70;
    PBitmap (mkBitmap 8 5 [252; 33; 200; 66; 16]);
    PCodePoint 71;
    PBitmap (mkBitmap 8 5 [116; 97; 9; 198; 46]);
    PCodePoint 72;
    PBitmap (mkBitmap 8 5 [140; 99; 248; 198; 49]);
    PCodePoint 73;
    PBitmap (mkBitmap 8 3 [233; 36; 151]);
    PCodePoint 74;
    PBitmap (mkBitmap 8 4 [17; 17; 17; 150]);
    PCodePoint 75;
    PBitmap (mkBitmap 8 5 [140; 169; 138; 74; 49]);
    PCodePoint 76;
    PBitmap (mkBitmap 8 4 [136; 136; 136; 143]);
    PCodePoint 77;
    PBitmap (mkBitmap 8 7 [131; 142; 172; 153; 48; 96; 193]);
    PCodePoint 78;
    PBitmap (mkBitmap 8 5 [142; 115; 90; 206; 113]);
    PCodePoint 79;
    PBitmap (mkBitmap 8 5 [116; 99; 24; 198; 46]);
    PCodePoint 80;
    PBitmap (mkBitmap 8 5 [244; 99; 232; 66; 16]);
    PCodePoint 81;
    PBitmap (mkBitmap 8 5 [116; 99; 24; 214; 77]);
    PCodePoint 82;
    PBitmap (mkBitmap 8 5 [244; 99; 234; 74; 49]);
    PCodePoint 83;
    PBitmap (mkBitmap 8 5 [116; 96; 224; 134; 46]);
    PCodePoint 84;
    PBitmap (mkBitmap 8 5 [249; 8; 66; 16; 132]);
    PCodePoint 85;
    PBitmap (mkBitmap 8 5 [140; 99; 24; 198; 46]);
    PCodePoint 86;
    PBitmap (mkBitmap 8 5 [140; 99; 24; 169; 68]);
    PCodePoint 87;
    PBitmap (mkBitmap 8 7 [131; 6; 12; 25; 53; 106; 162]);
    PCodePoint 88;
    PBitmap (mkBitmap 8 5 [140; 84; 66; 42; 49]);
    PCodePoint 89;
    PBitmap (mkBitmap 8 5 [140; 84; 162; 16; 132]);
    PCodePoint 90;
    PBitmap (mkBitmap 8 5 [248; 68; 66; 34; 31]);
    PCodePoint 91;
    PBitmap (mkBitmap 8 3 [242; 73; 39]);
    PCodePoint 92;
    PBitmap (mkBitmap 8 5 [132; 16; 66; 8; 33]);
    PCodePoint 93;
    PBitmap (mkBitmap 8 3 [228; 146; 79]);
    PCodePoint 94;
    PBitmap (mkBitmap 8 5 [34; 162; 0; 0; 0]);
    PCodePoint 95;
    PBitmap (mkBitmap 8 5 [0; 0; 0; 0; 31]) ].


(** [*fonts.font_mut(0).unwrap() = tfon::parse(buf).unwrap()], in sequence. *)
Definition add_font (C : nat) (t : FontTable) (ps : list Property) : FontTable :=
  match tfon_parse C ps with
  | Val (Ok f) => match font_mut_set t 0 f with Some t' => t' | None => [] end
  | _ => []
  end.

(** font/mod.rs tests *)
Definition fonts_a : FontTable :=
  Eval vm_compute in add_font 128 (add_font 128 (font_table_default 128 2) f02) f08.
Example t_fonts_valid : font_table_validate fonts_a = Val (Ok tt).
Proof. vm_compute. reflexivity. Qed.
Example t_font_version_id_2 : option_map font_version_id (font_lookup fonts_a 2) = Some 0xED52.
Proof. vm_compute. reflexivity. Qed.
Example t_font_version_id_8 : option_map font_version_id (font_lookup fonts_a 8) = Some 0x28EB.
Proof. vm_compute. reflexivity. Qed.
Example t_font_by_name :
  option_map f_number (font_by_name fonts_a (lit "fontVersionId example")) = Some 2.
Proof. vm_compute. reflexivity. Qed.

(** graphic.rs tests *)
Definition graphics_a : GraphicTable :=
  [ mkGraphic 4 (fstr64 (lit "Example 2")) 6 10 Monochrome1Bit None
      [0x84; 0x92; 0x63; 0x08; 0xC2; 0x48; 0xA1; 0x70];
    mkGraphic 5 (fstr64 (lit "Example 3")) 4 4 ColorClassicScheme (Some (Legacy 7))
      [1; 1; 1; 1; 7; 7; 1; 7; 7; 1; 7; 7; 1; 1; 1; 1];
    mkGraphic 7 (fstr64 (lit "Example 4")) 2 2 Color24Bit (Some (Rgb 0 0xFF 0))
      [0xFF; 0xFF; 0xFF; 0xFF; 0x00; 0xFF; 0x00; 0xFF; 0x00; 0xFF; 0x00; 0xFF] ].
Example t_graphics_valid : graphic_table_validate graphics_a 50 50 = Ok tt.
Proof. vm_compute. reflexivity. Qed.
Example t_graphic_version_id :
  map graphic_version_id graphics_a = [0xBFF5; 0x8FE0; 0x078D].
Proof. vm_compute. reflexivity. Qed.

(** pattern.rs tests *)
Definition sample_sign_cfg (w h : Z) : SignCfg := mkSignCfg 0 4 h w 60 60 2 2 2.
Definition sample_vms_cfg (ch cw h w hp vp : Z) : VmsCfg :=
  mkVmsCfg ch cw h w hp vp (255, 112, 224) (0, 0, 0).
Definition dms_of (m : M (result Dms SignError)) : Dms :=
  match m with
  | Val (Ok d) => d
  | _ => mkDms sign_cfg_default vms_cfg_default [] multi_cfg_default []
  end.
Definition built (m : M (result Dms SignError)) : bool :=
  match m with Val (Ok _) => true | _ => false end.

Definition fonts_p : FontTable :=
  Eval vm_compute in add_font 128 (add_font 128 (font_table_default 128 2) f07) f08.
Definition mcfg (jl : JustificationLine) (jp : JustificationPage) (font : Z)
    (sch : ColorScheme) (fg : Color) : MultiCfg :=
  let c := multi_cfg_default in
  mkMultiCfg (default_background_rgb c) fg 5 5 font jl jp 30 0 2 sch
    (supported_multi_tags c) 4 65535.
Definition build_p : M (result Dms SignError) :=
  build Debug (mkBuilder (sample_sign_cfg 5120 1590) (sample_vms_cfg 0 0 21 50 70 70) fonts_p
    (mcfg JlCenter JpMiddle 8 Monochrome1Bit (Legacy 9)) []).
Example t_build_p : built build_p = true.
Proof. vm_compute. reflexivity. Qed.
Definition dms_p : Dms := Eval vm_compute in dms_of build_p.

Fixpoint fills (l : list (M (result PatValue SyntaxError))) : list (Rectangle * Z) :=
  match l with
  | [] => []
  | Val (Ok (PFill r f)) :: t => (r, f) :: fills t
  | _ :: t => fills t
  end.
Definition pattern_rects (ms : string) := fills (pat_items Debug dms_p (lit ms)).
Example t_fillable_rect1 : pattern_rects "" = [(mkRect 1 1 50 21, 8)].
Proof. vm_compute. reflexivity. Qed.
Example t_fillable_rect2 : pattern_rects "TEXT" = [].
Proof. vm_compute. reflexivity. Qed.
Example t_fillable_rect3 : pattern_rects "[np]" = [(mkRect 1 1 50 21, 8); (mkRect 1 1 50 21, 8)].
Proof. vm_compute. reflexivity. Qed.
Example t_fillable_rect4 : pattern_rects "FIRST[np]" = [(mkRect 1 1 50 21, 8)].
Proof. vm_compute. reflexivity. Qed.
Example t_fillable_rect5 : pattern_rects "[np]SECOND" = [(mkRect 1 1 50 21, 8)].
Proof. vm_compute. reflexivity. Qed.
Example t_fillable_rect6 : pattern_rects "[np][np]" = [(mkRect 1 1 50 21, 8); (mkRect 1 1 50 21, 8); (mkRect 1 1 50 21, 8)].
Proof. vm_compute. reflexivity. Qed.
Example t_fillable_rect7 : pattern_rects "[tr1,1,50,24]" = [(mkRect 1 1 50 24, 8)].
Proof. vm_compute. reflexivity. Qed.
Example t_fillable_rect8 : pattern_rects "[tr1,1,50,24]TEXT" = [].
Proof. vm_compute. reflexivity. Qed.
Example t_fillable_rect9 : pattern_rects "[tr1,1,50,12][tr1,14,50,12]" = [(mkRect 1 1 50 12, 8); (mkRect 1 14 50 12, 8)].
Proof. vm_compute. reflexivity. Qed.
Example t_fillable_rect10 : pattern_rects "[tr1,1,50,12][fo7][tr1,14,50,12]" = [(mkRect 1 1 50 12, 8); (mkRect 1 14 50 12, 7)].
Proof. vm_compute. reflexivity. Qed.
Example t_fillable_rect11 : pattern_rects "[tr1,1,50,12][fo7][tr1,14,50,12][fo8][np]" = [(mkRect 1 1 50 12, 8); (mkRect 1 14 50 12, 7); (mkRect 1 1 50 21, 8)].
Proof. vm_compute. reflexivity. Qed.
Example t_fillable_rect12 : pattern_rects "[tr1,1,25,0][tr26,1,0,0]" = [(mkRect 1 1 25 21, 8); (mkRect 26 1 25 21, 8)].
Proof. vm_compute. reflexivity. Qed.
Example t_fillable_rect13 : pattern_rects "[tr1,1,0,0][np][tr1,1,0,0]" = [(mkRect 1 1 50 21, 8); (mkRect 1 1 50 21, 8)].
Proof. vm_compute. reflexivity. Qed.
Example t_fillable_width_1 : pat_widths Debug dms_p (lit "") = Val [(50, 8, 0); (50, 8, 0)].
Proof. vm_compute. reflexivity. Qed.
Example t_fillable_width_2 : pat_widths Debug dms_p (lit "[np]") = Val [(50, 8, 0); (50, 8, 0); (50, 8, 1); (50, 8, 1)].
Proof. vm_compute. reflexivity. Qed.
Example t_fillable_width_3 : pat_widths Debug dms_p (lit "FIRST[np]") = Val [(50, 8, 0); (50, 8, 0)].
Proof. vm_compute. reflexivity. Qed.
Example t_fillable_width_4 : pat_widths Debug dms_p (lit "[tr1,1,50,12][tr1,14,50,12]") = Val [(50, 8, 0); (50, 8, 1)].
Proof. vm_compute. reflexivity. Qed.
Example t_fillable_width_5 : pat_widths Debug dms_p (lit "[tr1,1,50,12][fo7][tr1,14,50,12]") = Val [(50, 8, 0); (50, 7, 1)].
Proof. vm_compute. reflexivity. Qed.
Example t_fillable_width_6 : pat_widths Debug dms_p (lit "[tr1,1,25,0][tr26,1,0,0]") = Val [(25, 8, 0); (25, 8, 0); (25, 8, 1); (25, 8, 1)].
Proof. vm_compute. reflexivity. Qed.
Definition roundtrip (p ms : string) : M str :=
  let! l := pat_lines Debug dms_p (lit p) (lit ms) in pat_fill Debug dms_p (lit p) l.
Example t_roundtrip_fillable_1_1 : roundtrip "" "[nl]" = Val (lit "[nl]").
Proof. vm_compute. reflexivity. Qed.
Example t_roundtrip_fillable_1_2 : roundtrip "" "LINE 1[nl]LINE 2" = Val (lit "LINE 1[nl]LINE 2").
Proof. vm_compute. reflexivity. Qed.
Example t_roundtrip_fillable_1_3 : roundtrip "" "ABC[nl][jl2]D[jl3]E[jl4]F" = Val (lit "ABC[nl][jl2]D[jl3]E[jl4]F").
Proof. vm_compute. reflexivity. Qed.
Example t_roundtrip_fillable_1_4 : roundtrip "" "ABC[sc3]DEF[/sc][nl]" = Val (lit "ABC[sc3]DEF[/sc][nl]").
Proof. vm_compute. reflexivity. Qed.
Example t_roundtrip_fillable_1_5 : roundtrip "[np]" "[nl][np][nl]" = Val (lit "[nl][np][nl]").
Proof. vm_compute. reflexivity. Qed.
Example t_roundtrip_fillable_1_6 : roundtrip "[np]" "PAGE 1[nl][np]PAGE 2[nl]" = Val (lit "PAGE 1[nl][np]PAGE 2[nl]").
Proof. vm_compute. reflexivity. Qed.
Example t_roundtrip_fillable_1_7 : roundtrip "FIRST[np]" "FIRST[np]SECOND[nl]" = Val (lit "FIRST[np]SECOND[nl]").
Proof. vm_compute. reflexivity. Qed.
Example t_roundtrip_fillable_1_8 : roundtrip "[np][np]" "[nl][np][nl][np][nl]" = Val (lit "[nl][np][nl][np][nl]").
Proof. vm_compute. reflexivity. Qed.
Example t_roundtrip_fillable_1_9 : roundtrip "" "CRASH[nl]AHEAD" = Val (lit "CRASH[nl]AHEAD").
Proof. vm_compute. reflexivity. Qed.
Example t_roundtrip_fillable_1_10 : roundtrip "[tr1,1,50,12][tr1,14,50,12]" "[tr1,1,50,12]FIRST[tr1,14,50,12]SECOND" = Val (lit "[tr1,1,50,12]FIRST[tr1,14,50,12]SECOND").
Proof. vm_compute. reflexivity. Qed.
Example t_roundtrip_fillable_1_11 : roundtrip "[tr1,1,50,12][fo7][tr1,14,50,12]" "[tr1,1,50,12]1ST[fo7][tr1,14,50,12]2ND" = Val (lit "[tr1,1,50,12]1ST[fo7][tr1,14,50,12]2ND").
Proof. vm_compute. reflexivity. Qed.
Example t_roundtrip_fillable_1_12 : roundtrip "[tr1,1,50,8][fo7][tr1,10,50,7]" "[tr1,1,50,8]ABC[fo7][tr1,10,50,7]123" = Val (lit "[tr1,1,50,8]ABC[fo7][tr1,10,50,7]123").
Proof. vm_compute. reflexivity. Qed.
Example t_roundtrip_fillable_1_13 : roundtrip "[g1][tr1,10,50,8]" "[g1][tr1,10,50,8]TEXT" = Val (lit "[g1][tr1,10,50,8]TEXT").
Proof. vm_compute. reflexivity. Qed.
Example t_roundtrip_fillable_2_1 : roundtrip "" "ABC[nl3]DEF" = Val (lit "ABC[nl]DEF").
Proof. vm_compute. reflexivity. Qed.
Example t_roundtrip_fillable_2_2 : roundtrip "" "[cb8]ABC" = Val (lit "[nl]").
Proof. vm_compute. reflexivity. Qed.
Example t_roundtrip_fillable_2_3 : roundtrip "" "[pb0,0,0]ABC" = Val (lit "[nl]").
Proof. vm_compute. reflexivity. Qed.
Example t_roundtrip_fillable_2_4 : roundtrip "" "[cr255,0,0,0]ABC" = Val (lit "[nl]").
Proof. vm_compute. reflexivity. Qed.
Example t_roundtrip_fillable_2_5 : roundtrip "" "[fo7]ABC" = Val (lit "[nl]").
Proof. vm_compute. reflexivity. Qed.
Example t_roundtrip_fillable_2_6 : roundtrip "" "[g1,0,0]ABC" = Val (lit "[nl]").
Proof. vm_compute. reflexivity. Qed.
Example t_roundtrip_fillable_2_7 : roundtrip "" "[jp3]ABC" = Val (lit "[nl]").
Proof. vm_compute. reflexivity. Qed.
Example t_roundtrip_fillable_2_8 : roundtrip "" "[pt50o0]ABC" = Val (lit "[nl]").
Proof. vm_compute. reflexivity. Qed.
Example t_roundtrip_fillable_2_9 : roundtrip "[np]" "PAGE 1[np]PAGE 2" = Val (lit "PAGE 1[nl][np]PAGE 2[nl]").
Proof. vm_compute. reflexivity. Qed.
Example t_roundtrip_fillable_2_10 : roundtrip "FIRST[np]" "FIRST[np]SECOND" = Val (lit "FIRST[np]SECOND[nl]").
Proof. vm_compute. reflexivity. Qed.
Example t_roundtrip_fillable_2_11 : roundtrip "[tr1,1,25,0][tr26,1,0,0]" "[tr1,1,25,0]ONE[tr26,1,0,0]TWO" = Val (lit "[tr1,1,25,0]ONE[nl][tr26,1,0,0]TWO[nl]").
Proof. vm_compute. reflexivity. Qed.
Example t_roundtrip_fillable_2_12 : roundtrip "[tr1,1,0,0][np][tr1,1,0,0]" "[tr1,1,0,0]TEXT[np][tr1,1,0,0]PAGE 2" = Val (lit "[tr1,1,0,0]TEXT[nl][np][tr1,1,0,0]PAGE 2[nl]").
Proof. vm_compute. reflexivity. Qed.
Example t_fillable_lines_fail : pat_lines Debug dms_p (lit "TEXT") (lit "TEXT") = Val [].
Proof. vm_compute. reflexivity. Qed.
Example t_fillable_lines_fail2 :
  pat_lines Debug dms_p (lit "[tr1,1,25,0]") (lit "[tr1,1,25,21]TEXT") = Val [].
Proof. vm_compute. reflexivity. Qed.
Example t_fillable_lines_pages :
  pat_lines Debug dms_p (lit "[np]") (lit "LINE 1[nl]LINE 2")
  = Val [lit "LINE 1"; lit "LINE 2"; []; []].
Proof. vm_compute. reflexivity. Qed.
Example t_fill_1 :
  pat_fill Debug dms_p (lit "LINE 1[nl]LINE 2[nl]LINE 3") [lit "ABC"; lit "DEF"; lit "GHI"]
  = Val (lit "LINE 1[nl]LINE 2[nl]LINE 3").
Proof. vm_compute. reflexivity. Qed.

(** render.rs tests *)
Definition fonts_r : FontTable :=
  Eval vm_compute in add_font 128 (add_font 128 (font_table_default 128 4) f07c) f08.
Definition build_full : M (result Dms SignError) :=
  build Debug (mkBuilder (sample_sign_cfg 2100 1110) (sample_vms_cfg 0 0 30 60 33 33) fonts_r
    (mcfg JlLeft JpTop 8 Color24Bit (Rgb 255 255 255)) []).
Definition build_char : M (result Dms SignError) :=
  build Debug (mkBuilder (sample_sign_cfg 7120 1590) (sample_vms_cfg 7 5 21 100 70 70) fonts_r
    (mcfg JlLeft JpTop 5 Monochrome1Bit (Legacy 9)) []).
Definition build_line : M (result Dms SignError) :=
  build Debug (mkBuilder (sample_sign_cfg 7120 1800) (sample_vms_cfg 8 0 24 100 70 70) fonts_r
    (mcfg JlLeft JpTop 8 Monochrome1Bit (Legacy 9)) []).
Example t_builds : (built build_full, built build_char, built build_line) = (true, true, true).
Proof. vm_compute. reflexivity. Qed.
Definition dms_full : Dms := Eval vm_compute in dms_of build_full.
Definition dms_char : Dms := Eval vm_compute in dms_of build_char.
Definition dms_line : Dms := Eval vm_compute in dms_of build_line.

(** [Pages::new(dms, ms).collect::<Result<Vec<_>>>()]: up to the first error. *)
Fixpoint collect (d : Dms) (n : nat) (p : Pages) : M (result (list Page) SyntaxError) :=
  match n with
  | O => Hang
  | S k =>
      let! r := pages_next Debug d p in
      match r with
      | (None, _) => Val (Ok [])
      | (Some (Err e), _) => Val (Err e)
      | (Some (Ok x), p') =>
          let? l := collect d k p' in Val (Ok (x :: l))
      end
  end.
Definition render (d : Dms) (ms : string) := collect d 40 (pages_new d (lit ms)).
Definition durations (m : M (result (list Page) SyntaxError)) : option (list Z) :=
  match m with Val (Ok l) => Some (map pg_duration l) | _ => None end.
Definition row (r : Raster rgb) (y : Z) : list rgb := map (fun x => r_pixel r x y) (zrange (r_width r)).
Definition pixels (r : Raster rgb) : list rgb := flat_map (row r) (zrange (r_height r)).
Definition lit_positions (m : M (result (list Page) SyntaxError)) : option (list (list Z)) :=
  match m with
  | Val (Ok l) =>
      Some (map (fun pg =>
        map fst (filter (fun p => let '(r, g, b) := snd p in negb ((r =? 0) && (g =? 0) && (b =? 0)))
                   (List.combine (zrange (r_width (pg_raster pg) * r_height (pg_raster pg)))
                      (pixels (pg_raster pg))))) l)
  | _ => None
  end.
Inductive outcome := OkPages (n : nat) | ErrOf (e : SyntaxError) | Bad.
Definition out (m : M (result (list Page) SyntaxError)) : outcome :=
  match m with Val (Ok l) => OkPages (List.length l) | Val (Err e) => ErrOf e | _ => Bad end.
Example t_page_count_1 : out (render dms_full "") = OkPages 1.
Proof. vm_compute. reflexivity. Qed.
Example t_page_count_2 : out (render dms_full "1") = OkPages 1.
Proof. vm_compute. reflexivity. Qed.
Example t_page_count_3 : out (render dms_full "[np]") = OkPages 2.
Proof. vm_compute. reflexivity. Qed.
Example t_page_count_4 : out (render dms_full "1[NP]") = OkPages 2.
Proof. vm_compute. reflexivity. Qed.
Example t_page_count_5 : out (render dms_full "1[Np]2") = OkPages 2.
Proof. vm_compute. reflexivity. Qed.
Example t_page_count_6 : out (render dms_full "1[np]2[nP]") = OkPages 3.
Proof. vm_compute. reflexivity. Qed.
Example t_page_count_7 : out (render dms_full "[pto1]1[np]2") = OkPages 4.
Proof. vm_compute. reflexivity. Qed.
Example t_page_count_8 : out (render dms_full "[pto1][np]") = OkPages 4.
Proof. vm_compute. reflexivity. Qed.
Example t_page_count_ramp :
  out (render dms_full "[fo8][jl2][cf255,255,255]RAMP A[jl4][cf255,255,0]FULL[nl][jl2][cf255,255,255]RAMP B[jl4][cf255,255,0]FULL[nl][jl2][cf255,255,255]RAMP C[jl4][cf255,255,0]FULL")
  = OkPages 1.
Proof. vm_compute. reflexivity. Qed.
Example t_page_times_9 :
  option_map (fun l => nth 0 l (-1)) (durations (render dms_full "")) = Some 30.
Proof. vm_compute. reflexivity. Qed.
Example t_page_times_10 :
  option_map (fun l => nth 0 l (-1)) (durations (render dms_full "[pt25o10]")) = Some 25.
Proof. vm_compute. reflexivity. Qed.
Example t_page_times_11 :
  option_map (fun l => nth 1 l (-1)) (durations (render dms_full "[pt20o10]")) = Some 10.
Proof. vm_compute. reflexivity. Qed.
Example t_page_times_12 :
  option_map (fun l => nth 2 l (-1)) (durations (render dms_full "[pt30o5][np]")) = Some 30.
Proof. vm_compute. reflexivity. Qed.
Example t_page_times_13 :
  option_map (fun l => nth 3 l (-1)) (durations (render dms_full "[pto15][np]")) = Some 15.
Proof. vm_compute. reflexivity. Qed.
Example t_justify_14 : lit_positions (render dms_full ".") = Some [[420]].
Proof. vm_compute. reflexivity. Qed.
Example t_justify_15 : lit_positions (render dms_full "[jl3].") = Some [[449]].
Proof. vm_compute. reflexivity. Qed.
Example t_justify_16 : lit_positions (render dms_full "[jl4].") = Some [[478]].
Proof. vm_compute. reflexivity. Qed.
Example t_justify_17 : lit_positions (render dms_full "[jp3].") = Some [[1080]].
Proof. vm_compute. reflexivity. Qed.
Example t_justify_18 : lit_positions (render dms_full "[jp4].") = Some [[1740]].
Proof. vm_compute. reflexivity. Qed.
Example t_justify_19 : lit_positions (render dms_full " .") = Some [[423]].
Proof. vm_compute. reflexivity. Qed.
Example t_justify_20 : lit_positions (render dms_full "[sc4] .[/sc]") = Some [[425]].
Proof. vm_compute. reflexivity. Qed.
Example t_justify_21 : lit_positions (render dms_full "[sc5] .[/sc]") = Some [[426]].
Proof. vm_compute. reflexivity. Qed.
Example t_justify_22 : lit_positions (render dms_full "[nl].") = Some [[1020]].
Proof. vm_compute. reflexivity. Qed.
Example t_justify_23 : lit_positions (render dms_full "[nl1].") = Some [[960]].
Proof. vm_compute. reflexivity. Qed.
Example t_justify_24 : lit_positions (render dms_full "[nl3].") = Some [[1080]].
Proof. vm_compute. reflexivity. Qed.
Example t_justify_25 : lit_positions (render dms_full "[tr2,1,10,10].") = Some [[421]].
Proof. vm_compute. reflexivity. Qed.
Example t_justify_26 : lit_positions (render dms_full "[tr1,2,10,10].") = Some [[480]].
Proof. vm_compute. reflexivity. Qed.
Example t_justify_27 : lit_positions (render dms_full "[tr2,2,10,10].") = Some [[481]].
Proof. vm_compute. reflexivity. Qed.
Example t_render_28 : out (render dms_char "[tr1,1,12,12]") = ErrOf (SUnsupportedTagValue (lit "[tr1,1,12,12]")).
Proof. vm_compute. reflexivity. Qed.
Example t_render_29 : out (render dms_char "[tr1,1,50,12]") = ErrOf (SUnsupportedTagValue (lit "[tr1,1,50,12]")).
Proof. vm_compute. reflexivity. Qed.
Example t_render_30 : out (render dms_char "[tr1,1,12,14]") = ErrOf (SUnsupportedTagValue (lit "[tr1,1,12,14]")).
Proof. vm_compute. reflexivity. Qed.
Example t_render_31 : out (render dms_char "[tr1,1,50,14]") = OkPages 1.
Proof. vm_compute. reflexivity. Qed.
Example t_render_32 : out (render dms_char "[pb9]") = ErrOf (SUnsupportedTagValue (lit "[pb9]")).
Proof. vm_compute. reflexivity. Qed.
Example t_render_33 : out (render dms_char "[sc1][/sc]") = ErrOf (SUnsupportedTagValue (lit "[sc1]")).
Proof. vm_compute. reflexivity. Qed.
Example t_render_34 : out (render dms_char "[sc0][/sc]") = OkPages 1.
Proof. vm_compute. reflexivity. Qed.
Example t_render_35 : out (render dms_line ".[nl].[nl].") = OkPages 1.
Proof. vm_compute. reflexivity. Qed.
Example t_render_36 : out (render dms_line "[nl]") = OkPages 1.
Proof. vm_compute. reflexivity. Qed.
Example t_render_37 : out (render dms_line "[nl1]") = ErrOf (SUnsupportedTagValue (lit "[nl1]")).
Proof. vm_compute. reflexivity. Qed.
Example t_render_38 : out (render dms_line "[jl3]LINE 1[nl][jl2][jp2]LINE 2") = OkPages 1.
Proof. vm_compute. reflexivity. Qed.
