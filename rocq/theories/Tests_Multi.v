(** Replay of the unit tests of src/dms/multi.rs (from line 1514) on the model.
    Conformance evidence only; strings are written as code points. *)

From Verif Require Import Base Str Multi Color.

Example t_color_component_1 : lerp 0 255 0 = 0.
Proof. vm_compute. reflexivity. Qed.

Example t_color_component_2 : lerp 0 255 128 = 128.
Proof. vm_compute. reflexivity. Qed.

Example t_color_component_3 : lerp 0 255 255 = 255.
Proof. vm_compute. reflexivity. Qed.

Example t_color_component_4 : lerp 0 128 0 = 0.
Proof. vm_compute. reflexivity. Qed.

Example t_color_component_5 : lerp 0 128 128 = 64.
Proof. vm_compute. reflexivity. Qed.

Example t_color_component_6 : lerp 0 128 255 = 128.
Proof. vm_compute. reflexivity. Qed.

Example t_color_component_7 : lerp 128 255 0 = 128.
Proof. vm_compute. reflexivity. Qed.

Example t_color_component_8 : lerp 128 255 128 = 191.
Proof. vm_compute. reflexivity. Qed.

Example t_color_component_9 : lerp 128 255 255 = 255.
Proof. vm_compute. reflexivity. Qed.

Example t_parse_text_s1 : values Debug [84; 72; 73; 83; 32; 73; 83; 32; 65; 32; 84; 69; 83; 84] = [Val (Ok (VText [84; 72; 73; 83; 32; 73; 83; 32; 65; 32; 84; 69; 83; 84]))].
Proof. vm_compute. reflexivity. Qed.

Example t_parse_lower_s1 : values Debug [116; 104; 105; 115; 32; 105; 115; 32; 108; 111; 119; 101; 114; 32; 99; 97; 115; 101] = [Val (Ok (VText [116; 104; 105; 115; 32; 105; 115; 32; 108; 111; 119; 101; 114; 32; 99; 97; 115; 101]))].
Proof. vm_compute. reflexivity. Qed.

(* parse_bracket *)
Example t_parse_bracket_1 : values Debug [91; 91; 97; 93; 93; 98; 91; 91; 91; 91; 99; 93; 93; 91; 91; 93; 93; 93; 93; 100] = [Val (Ok (VText [91])); Val (Ok (VText [97])); Val (Ok (VText [93])); Val (Ok (VText [98])); Val (Ok (VText [91])); Val (Ok (VText [91])); Val (Ok (VText [99])); Val (Ok (VText [93])); Val (Ok (VText [91])); Val (Ok (VText [93])); Val (Ok (VText [93])); Val (Ok (VText [100]))].
Proof. vm_compute. reflexivity. Qed.

(* parse_bracket2 *)
Example t_parse_bracket2_1 : values Debug [91; 91; 91; 91; 91; 91; 91; 91] = [Val (Ok (VText [91])); Val (Ok (VText [91])); Val (Ok (VText [91])); Val (Ok (VText [91]))].
Proof. vm_compute. reflexivity. Qed.

(* parse_cb1 *)
Example t_parse_cb1_1 : values Debug [91; 99; 98; 48; 93; 91; 67; 66; 49; 93; 91; 99; 66; 50; 53; 53; 93; 91; 99; 98; 50; 53; 54; 93; 91; 99; 98; 93] = [Val (Ok (VColorBackground (Some (Legacy 0)))); Val (Ok (VColorBackground (Some (Legacy 1)))); Val (Ok (VColorBackground (Some (Legacy 255)))); Val (Err (SUnsupportedTagValue [99; 98; 50; 53; 54])); Val (Ok (VColorBackground None))].
Proof. vm_compute. reflexivity. Qed.

(* parse_cb2 *)
Example t_parse_cb2_1 : values Debug [91; 99; 98; 88; 93; 91; 99; 98; 48; 44; 48; 44; 48; 93] = [Val (Err (SUnsupportedTagValue [99; 98; 88])); Val (Err (SUnsupportedTagValue [99; 98; 48; 44; 48; 44; 48]))].
Proof. vm_compute. reflexivity. Qed.

(* parse_pb1 *)
Example t_parse_pb1_1 : values Debug [91; 112; 98; 48; 93; 91; 80; 66; 49; 93; 91; 112; 66; 50; 53; 53; 93; 91; 112; 98; 50; 53; 54; 93; 91; 112; 98; 93] = [Val (Ok (VPageBackground (Some (Legacy 0)))); Val (Ok (VPageBackground (Some (Legacy 1)))); Val (Ok (VPageBackground (Some (Legacy 255)))); Val (Err (SUnsupportedTagValue [112; 98; 50; 53; 54])); Val (Ok (VPageBackground None))].
Proof. vm_compute. reflexivity. Qed.

(* parse_pb2 *)
Example t_parse_pb2_1 : values Debug [91; 112; 98; 48; 44; 48; 93] = [Val (Err (SUnsupportedTagValue [112; 98; 48; 44; 48]))].
Proof. vm_compute. reflexivity. Qed.

(* parse_pb3 *)
Example t_parse_pb3_1 : values Debug [91; 112; 98; 53; 48; 44; 49; 53; 48; 44; 50; 48; 48; 93] = [Val (Ok (VPageBackground (Some (Rgb 50 150 200))))].
Proof. vm_compute. reflexivity. Qed.

(* parse_pb4 *)
Example t_parse_pb4_1 : values Debug [91; 112; 98; 48; 44; 48; 44; 50; 53; 53; 44; 48; 93] = [Val (Err (SUnsupportedTagValue [112; 98; 48; 44; 48; 44; 50; 53; 53; 44; 48]))].
Proof. vm_compute. reflexivity. Qed.

(* parse_pb5 *)
Example t_parse_pb5_1 : values Debug [91; 112; 98; 48; 44; 48; 46; 53; 44; 50; 53; 53; 93] = [Val (Err (SUnsupportedTagValue [112; 98; 48; 44; 48; 46; 53; 44; 50; 53; 53]))].
Proof. vm_compute. reflexivity. Qed.

(* parse_cf1 *)
Example t_parse_cf1_1 : values Debug [91; 99; 102; 48; 93; 91; 67; 70; 49; 93; 91; 99; 70; 50; 53; 53; 93; 91; 99; 102; 50; 53; 54; 93; 91; 99; 102; 93] = [Val (Ok (VColorForeground (Some (Legacy 0)))); Val (Ok (VColorForeground (Some (Legacy 1)))); Val (Ok (VColorForeground (Some (Legacy 255)))); Val (Err (SUnsupportedTagValue [99; 102; 50; 53; 54])); Val (Ok (VColorForeground None))].
Proof. vm_compute. reflexivity. Qed.

(* parse_cf2 *)
Example t_parse_cf2_1 : values Debug [91; 99; 102; 48; 44; 48; 93] = [Val (Err (SUnsupportedTagValue [99; 102; 48; 44; 48]))].
Proof. vm_compute. reflexivity. Qed.

(* parse_cf3 *)
Example t_parse_cf3_1 : values Debug [91; 99; 102; 50; 53; 53; 44; 48; 44; 50; 48; 56; 93; 91; 67; 70; 48; 44; 97; 44; 48; 93] = [Val (Ok (VColorForeground (Some (Rgb 255 0 208)))); Val (Err (SUnsupportedTagValue [67; 70; 48; 44; 97; 44; 48]))].
Proof. vm_compute. reflexivity. Qed.

(* parse_cf4 *)
Example t_parse_cf4_1 : values Debug [91; 99; 102; 48; 44; 48; 44; 50; 53; 53; 44; 48; 93] = [Val (Err (SUnsupportedTagValue [99; 102; 48; 44; 48; 44; 50; 53; 53; 44; 48]))].
Proof. vm_compute. reflexivity. Qed.

(* parse_cf5 *)
Example t_parse_cf5_1 : values Debug [91; 99; 102; 48; 44; 48; 46; 53; 44; 50; 53; 53; 93] = [Val (Err (SUnsupportedTagValue [99; 102; 48; 44; 48; 46; 53; 44; 50; 53; 53]))].
Proof. vm_compute. reflexivity. Qed.

(* parse_cr *)
Example t_parse_cr_1 : values Debug [91; 99; 114; 49; 44; 49; 44; 49; 48; 44; 49; 48; 44; 48; 93] = [Val (Ok (VColorRectangle (mkRect 1 1 10 10) (Legacy 0)))].
Proof. vm_compute. reflexivity. Qed.

(* parse_cr2 *)
Example t_parse_cr2_1 : values Debug [91; 67; 82; 49; 44; 48; 44; 49; 48; 44; 49; 48; 44; 48; 93] = [Val (Err (SUnsupportedTagValue [67; 82; 49; 44; 48; 44; 49; 48; 44; 49; 48; 44; 48]))].
Proof. vm_compute. reflexivity. Qed.

(* parse_cr3 *)
Example t_parse_cr3_1 : values Debug [91; 99; 82; 49; 44; 49; 44; 49; 48; 48; 44; 49; 48; 48; 44; 48; 44; 49; 93] = [Val (Err (SUnsupportedTagValue [99; 82; 49; 44; 49; 44; 49; 48; 48; 44; 49; 48; 48; 44; 48; 44; 49]))].
Proof. vm_compute. reflexivity. Qed.

(* parse_cr4 *)
Example t_parse_cr4_1 : values Debug [91; 67; 114; 53; 44; 55; 44; 49; 48; 48; 44; 56; 48; 44; 49; 48; 48; 44; 49; 53; 48; 44; 50; 48; 48; 93] = [Val (Ok (VColorRectangle (mkRect 5 7 100 80) (Rgb 100 150 200)))].
Proof. vm_compute. reflexivity. Qed.

(* parse_cr5 *)
Example t_parse_cr5_1 : values Debug [91; 99; 114; 49; 44; 49; 44; 49; 48; 48; 44; 49; 48; 48; 44; 48; 44; 49; 44; 50; 44; 51; 93] = [Val (Err (SUnsupportedTagValue [99; 114; 49; 44; 49; 44; 49; 48; 48; 44; 49; 48; 48; 44; 48; 44; 49; 44; 50; 44; 51]))].
Proof. vm_compute. reflexivity. Qed.

(* parse_cr6 *)
Example t_parse_cr6_1 : values Debug [91; 99; 114; 49; 48; 48; 44; 50; 48; 48; 44; 49; 48; 48; 48; 44; 50; 48; 48; 48; 44; 50; 53; 53; 44; 50; 48; 56; 44; 48; 93] = [Val (Ok (VColorRectangle (mkRect 100 200 1000 2000) (Rgb 255 208 0)))].
Proof. vm_compute. reflexivity. Qed.

(* parse_f *)
Example t_parse_f_1 : values Debug [91; 70; 93] = [Val (Err (SUnsupportedTagValue [70]))].
Proof. vm_compute. reflexivity. Qed.

(* parse_f1 *)
Example t_parse_f1_1 : values Debug [91; 102; 49; 93] = [Val (Ok (VField 1 None))].
Proof. vm_compute. reflexivity. Qed.

(* parse_f2 *)
Example t_parse_f2_1 : values Debug [91; 102; 49; 51; 93] = [Val (Ok (VField 13 None))].
Proof. vm_compute. reflexivity. Qed.

(* parse_f3 *)
Example t_parse_f3_1 : values Debug [91; 102; 49; 52; 93] = [Val (Err (SUnsupportedTagValue [102; 49; 52]))].
Proof. vm_compute. reflexivity. Qed.

(* parse_f4 *)
Example t_parse_f4_1 : values Debug [91; 70; 52; 44; 49; 93] = [Val (Ok (VField 4 (Some 1)))].
Proof. vm_compute. reflexivity. Qed.

(* parse_fl *)
Example t_parse_fl_1 : values Debug [91; 102; 108; 116; 111; 93] = [Val (Ok (VFlash OnOff None None))].
Proof. vm_compute. reflexivity. Qed.

(* parse_fl2 *)
Example t_parse_fl2_1 : values Debug [91; 70; 76; 79; 84; 93] = [Val (Ok (VFlash OffOn None None))].
Proof. vm_compute. reflexivity. Qed.

(* parse_fl3 *)
Example t_parse_fl3_1 : values Debug [91; 70; 108; 116; 49; 48; 111; 53; 93] = [Val (Ok (VFlash OnOff (Some 10) (Some 5)))].
Proof. vm_compute. reflexivity. Qed.

(* parse_fl4 *)
Example t_parse_fl4_1 : values Debug [91; 102; 76; 111; 48; 116; 57; 57; 93] = [Val (Ok (VFlash OffOn (Some 0) (Some 99)))].
Proof. vm_compute. reflexivity. Qed.

(* parse_fl5 *)
Example t_parse_fl5_1 : values Debug [91; 102; 108; 116; 49; 48; 111; 53; 120; 93] = [Val (Err (SUnsupportedTagValue [102; 108; 116; 49; 48; 111; 53; 120]))].
Proof. vm_compute. reflexivity. Qed.

(* parse_fl6 *)
Example t_parse_fl6_1 : values Debug [91; 102; 108; 116; 49; 48; 111; 49; 48; 48; 93] = [Val (Err (SUnsupportedTagValue [102; 108; 116; 49; 48; 111; 49; 48; 48]))].
Proof. vm_compute. reflexivity. Qed.

(* parse_fl7 *)
Example t_parse_fl7_1 : values Debug [91; 102; 108; 116; 49; 48; 111; 49; 48; 111; 49; 48; 93] = [Val (Err (SUnsupportedTagValue [102; 108; 116; 49; 48; 111; 49; 48; 111; 49; 48]))].
Proof. vm_compute. reflexivity. Qed.

(* parse_fle *)
Example t_parse_fle_1 : values Debug [91; 47; 102; 108; 93] = [Val (Ok VFlashEnd)].
Proof. vm_compute. reflexivity. Qed.

(* parse_fle1 *)
Example t_parse_fle1_1 : values Debug [91; 47; 102; 108; 49; 93] = [Val (Err (SUnsupportedTagValue [47; 102; 108; 49]))].
Proof. vm_compute. reflexivity. Qed.

(* parse_fo *)
Example t_parse_fo_1 : values Debug [91; 102; 111; 93] = [Val (Ok (VFont None))].
Proof. vm_compute. reflexivity. Qed.

(* parse_fo1 *)
Example t_parse_fo1_1 : values Debug [91; 102; 111; 49; 93] = [Val (Ok (VFont (Some (1, None))))].
Proof. vm_compute. reflexivity. Qed.

(* parse_fo2 *)
Example t_parse_fo2_1 : values Debug [91; 102; 79; 50; 44; 48; 48; 48; 48; 93] = [Val (Ok (VFont (Some (2, (Some 0)))))].
Proof. vm_compute. reflexivity. Qed.

(* parse_fo3 *)
Example t_parse_fo3_1 : values Debug [91; 70; 111; 51; 44; 70; 70; 70; 70; 93] = [Val (Ok (VFont (Some (3, (Some 65535)))))].
Proof. vm_compute. reflexivity. Qed.

(* parse_fo4 *)
Example t_parse_fo4_1 : values Debug [91; 70; 79; 52; 44; 70; 70; 70; 70; 70; 93] = [Val (Err (SUnsupportedTagValue [70; 79; 52; 44; 70; 70; 70; 70; 70]))].
Proof. vm_compute. reflexivity. Qed.

(* parse_fo5 *)
Example t_parse_fo5_1 : values Debug [91; 102; 111; 53; 44; 120; 120; 120; 120; 93] = [Val (Err (SUnsupportedTagValue [102; 111; 53; 44; 120; 120; 120; 120]))].
Proof. vm_compute. reflexivity. Qed.

(* parse_fo6 *)
Example t_parse_fo6_1 : values Debug [91; 102; 111; 54; 44; 48; 48; 48; 48; 44; 48; 93] = [Val (Err (SUnsupportedTagValue [102; 111; 54; 44; 48; 48; 48; 48; 44; 48]))].
Proof. vm_compute. reflexivity. Qed.

(* parse_fo7 *)
Example t_parse_fo7_1 : values Debug [91; 70; 111; 55; 44; 97; 98; 99; 100; 93] = [Val (Ok (VFont (Some (7, (Some 43981)))))].
Proof. vm_compute. reflexivity. Qed.

(* parse_fo8 *)
Example t_parse_fo8_1 : values Debug [91; 102; 111; 48; 93] = [Val (Err (SUnsupportedTagValue [102; 111; 48]))].
Proof. vm_compute. reflexivity. Qed.

(* parse_g *)
Example t_parse_g_1 : values Debug [91; 71; 93] = [Val (Err (SUnsupportedTagValue [71]))].
Proof. vm_compute. reflexivity. Qed.

(* parse_g1 *)
Example t_parse_g1_1 : values Debug [91; 103; 49; 93] = [Val (Ok (VGraphic 1 None))].
Proof. vm_compute. reflexivity. Qed.

(* parse_g2 *)
Example t_parse_g2_1 : values Debug [91; 103; 50; 44; 49; 44; 49; 93] = [Val (Ok (VGraphic 2 (Some (1, 1, None))))].
Proof. vm_compute. reflexivity. Qed.

(* parse_g3 *)
Example t_parse_g3_1 : values Debug [91; 103; 51; 44; 49; 93] = [Val (Err (SUnsupportedTagValue [103; 51; 44; 49]))].
Proof. vm_compute. reflexivity. Qed.

(* parse_g4 *)
Example t_parse_g4_1 : values Debug [91; 103; 52; 44; 49; 44; 49; 44; 48; 49; 50; 51; 93] = [Val (Ok (VGraphic 4 (Some (1, 1, (Some 291)))))].
Proof. vm_compute. reflexivity. Qed.

(* parse_g5 *)
Example t_parse_g5_1 : values Debug [91; 103; 53; 44; 49; 44; 48; 44; 48; 49; 50; 51; 93] = [Val (Err (SUnsupportedTagValue [103; 53; 44; 49; 44; 48; 44; 48; 49; 50; 51]))].
Proof. vm_compute. reflexivity. Qed.

(* parse_g6 *)
Example t_parse_g6_1 : values Debug [91; 103; 54; 44; 51; 48; 48; 44; 51; 48; 48; 44; 49; 50; 51; 52; 53; 93] = [Val (Err (SUnsupportedTagValue [103; 54; 44; 51; 48; 48; 44; 51; 48; 48; 44; 49; 50; 51; 52; 53]))].
Proof. vm_compute. reflexivity. Qed.

(* parse_g7 *)
Example t_parse_g7_1 : values Debug [91; 103; 55; 44; 51; 48; 44; 51; 48; 44; 49; 50; 52; 53; 44; 93] = [Val (Err (SUnsupportedTagValue [103; 55; 44; 51; 48; 44; 51; 48; 44; 49; 50; 52; 53; 44]))].
Proof. vm_compute. reflexivity. Qed.

(* parse_g8 *)
Example t_parse_g8_1 : values Debug [91; 71; 56; 44; 53; 48; 44; 53; 48; 44; 66; 101; 101; 102; 93] = [Val (Ok (VGraphic 8 (Some (50, 50, (Some 48879)))))].
Proof. vm_compute. reflexivity. Qed.

(* parse_hc *)
Example t_parse_hc_1 : values Debug [91; 104; 99; 93] = [Val (Err (SUnsupportedTagValue [104; 99]))].
Proof. vm_compute. reflexivity. Qed.

(* parse_hc1 *)
Example t_parse_hc1_1 : values Debug [91; 72; 67; 49; 93] = [Val (Ok (VHexadecimalCharacter 1))].
Proof. vm_compute. reflexivity. Qed.

(* parse_hc2 *)
Example t_parse_hc2_1 : values Debug [91; 104; 99; 70; 70; 70; 70; 93] = [Val (Ok (VHexadecimalCharacter 65535))].
Proof. vm_compute. reflexivity. Qed.

(* parse_hc3 *)
Example t_parse_hc3_1 : values Debug [91; 104; 99; 49; 70; 70; 70; 70; 93] = [Val (Err (SUnsupportedTagValue [104; 99; 49; 70; 70; 70; 70]))].
Proof. vm_compute. reflexivity. Qed.

(* parse_hc4 *)
Example t_parse_hc4_1 : values Debug [91; 104; 99; 88; 88; 120; 120; 93] = [Val (Err (SUnsupportedTagValue [104; 99; 88; 88; 120; 120]))].
Proof. vm_compute. reflexivity. Qed.

(* parse_hc5 *)
Example t_parse_hc5_1 : values Debug [91; 104; 99; 55; 102; 93] = [Val (Ok (VHexadecimalCharacter 127))].
Proof. vm_compute. reflexivity. Qed.

(* parse_jl *)
Example t_parse_jl_1 : values Debug [91; 106; 108; 93] = [Val (Ok (VJustificationLine None))].
Proof. vm_compute. reflexivity. Qed.

(* parse_jl0 *)
Example t_parse_jl0_1 : values Debug [91; 74; 76; 48; 93] = [Val (Err (SUnsupportedTagValue [74; 76; 48]))].
Proof. vm_compute. reflexivity. Qed.

(* parse_jl15 *)
Example t_parse_jl15_1 : values Debug [91; 106; 76; 49; 93; 91; 74; 108; 50; 93; 91; 74; 76; 51; 93; 91; 106; 108; 52; 93; 91; 74; 76; 53; 93] = [Val (Ok (VJustificationLine (Some JlOther))); Val (Ok (VJustificationLine (Some JlLeft))); Val (Ok (VJustificationLine (Some JlCenter))); Val (Ok (VJustificationLine (Some JlRight))); Val (Ok (VJustificationLine (Some JlFull)))].
Proof. vm_compute. reflexivity. Qed.

(* parse_jp *)
Example t_parse_jp_1 : values Debug [91; 106; 112; 93] = [Val (Ok (VJustificationPage None))].
Proof. vm_compute. reflexivity. Qed.

(* parse_jp0 *)
Example t_parse_jp0_1 : values Debug [91; 74; 80; 48; 93] = [Val (Err (SUnsupportedTagValue [74; 80; 48]))].
Proof. vm_compute. reflexivity. Qed.

(* parse_jp14 *)
Example t_parse_jp14_1 : values Debug [91; 106; 80; 49; 93; 91; 74; 112; 50; 93; 91; 74; 80; 51; 93; 91; 106; 112; 52; 93] = [Val (Ok (VJustificationPage (Some JpOther))); Val (Ok (VJustificationPage (Some JpTop))); Val (Ok (VJustificationPage (Some JpMiddle))); Val (Ok (VJustificationPage (Some JpBottom)))].
Proof. vm_compute. reflexivity. Qed.

(* parse_ms *)
Example t_parse_ms_1 : values Debug [91; 109; 115; 48; 93] = [Val (Ok (VManufacturerSpecific 0 None))].
Proof. vm_compute. reflexivity. Qed.

(* parse_ms1 *)
Example t_parse_ms1_1 : values Debug [91; 77; 115; 49; 44; 84; 101; 115; 116; 93] = [Val (Ok (VManufacturerSpecific 1 (Some [84; 101; 115; 116])))].
Proof. vm_compute. reflexivity. Qed.

(* parse_ms2 *)
Example t_parse_ms2_1 : values Debug [91; 77; 115; 57; 57; 57; 44; 82; 65; 78; 68; 79; 77; 32; 106; 117; 110; 107; 93] = [Val (Ok (VManufacturerSpecific 999 (Some [82; 65; 78; 68; 79; 77; 32; 106; 117; 110; 107])))].
Proof. vm_compute. reflexivity. Qed.

(* parse_ms3 *)
Example t_parse_ms3_1 : values Debug [91; 77; 115; 57; 120; 57; 93] = [Val (Err (SUnsupportedTagValue [77; 115; 57; 120; 57]))].
Proof. vm_compute. reflexivity. Qed.

(* parse_mse *)
Example t_parse_mse_1 : values Debug [91; 47; 109; 115; 48; 93] = [Val (Ok (VManufacturerSpecificEnd 0 None))].
Proof. vm_compute. reflexivity. Qed.

(* parse_mse1 *)
Example t_parse_mse1_1 : values Debug [91; 47; 77; 115; 49; 44; 84; 101; 115; 116; 93] = [Val (Ok (VManufacturerSpecificEnd 1 (Some [84; 101; 115; 116])))].
Proof. vm_compute. reflexivity. Qed.

(* parse_mse2 *)
Example t_parse_mse2_1 : values Debug [91; 47; 77; 115; 57; 57; 57; 44; 82; 65; 78; 68; 79; 77; 32; 106; 117; 110; 107; 93] = [Val (Ok (VManufacturerSpecificEnd 999 (Some [82; 65; 78; 68; 79; 77; 32; 106; 117; 110; 107])))].
Proof. vm_compute. reflexivity. Qed.

(* parse_mse3 *)
Example t_parse_mse3_1 : values Debug [91; 47; 77; 115; 57; 120; 57; 93] = [Val (Err (SUnsupportedTagValue [47; 77; 115; 57; 120; 57]))].
Proof. vm_compute. reflexivity. Qed.

(* parse_mv *)
Example t_parse_mv_1 : values Debug [91; 109; 118; 93] = [Val (Err (SUnsupportedTagValue [109; 118]))].
Proof. vm_compute. reflexivity. Qed.

(* parse_mv1 *)
Example t_parse_mv1_1 : values Debug [91; 109; 118; 99; 93] = [Val (Err (SUnsupportedTagValue [109; 118; 99]))].
Proof. vm_compute. reflexivity. Qed.

(* parse_mv2 *)
Example t_parse_mv2_1 : values Debug [91; 109; 118; 99; 108; 93] = [Val (Err (SUnsupportedTagValue [109; 118; 99; 108]))].
Proof. vm_compute. reflexivity. Qed.

(* parse_mv3 *)
Example t_parse_mv3_1 : values Debug [91; 109; 118; 99; 108; 49; 48; 48; 93] = [Val (Err (SUnsupportedTagValue [109; 118; 99; 108; 49; 48; 48]))].
Proof. vm_compute. reflexivity. Qed.

(* parse_mv4 *)
Example t_parse_mv4_1 : values Debug [91; 109; 118; 99; 108; 49; 48; 48; 44; 49; 93] = [Val (Err (SUnsupportedTagValue [109; 118; 99; 108; 49; 48; 48; 44; 49]))].
Proof. vm_compute. reflexivity. Qed.

(* parse_mv5 *)
Example t_parse_mv5_1 : values Debug [91; 109; 118; 99; 108; 49; 48; 48; 44; 49; 44; 49; 48; 93] = [Val (Err (SUnsupportedTagValue [109; 118; 99; 108; 49; 48; 48; 44; 49; 44; 49; 48]))].
Proof. vm_compute. reflexivity. Qed.

(* parse_mv6 *)
Example t_parse_mv6_1 : values Debug [91; 109; 118; 99; 108; 49; 48; 48; 44; 49; 44; 49; 48; 44; 84; 101; 120; 116; 93] = [Val (Ok (VMovingText Circular MvLeft 100 1 10 [84; 101; 120; 116]))].
Proof. vm_compute. reflexivity. Qed.

(* parse_mv7 *)
Example t_parse_mv7_1 : values Debug [91; 109; 118; 99; 114; 49; 53; 48; 44; 50; 44; 53; 44; 42; 77; 79; 86; 73; 78; 71; 42; 93] = [Val (Ok (VMovingText Circular MvRight 150 2 5 [42; 77; 79; 86; 73; 78; 71; 42]))].
Proof. vm_compute. reflexivity. Qed.

(* parse_mv8 *)
Example t_parse_mv8_1 : values Debug [91; 109; 118; 108; 108; 55; 53; 44; 51; 44; 52; 44; 76; 105; 110; 101; 97; 114; 93] = [Val (Ok (VMovingText (Linear 0) MvLeft 75 3 4 [76; 105; 110; 101; 97; 114]))].
Proof. vm_compute. reflexivity. Qed.

(* parse_mv9 *)
Example t_parse_mv9_1 : values Debug [91; 109; 118; 108; 114; 49; 48; 48; 48; 44; 52; 44; 53; 44; 114; 105; 103; 104; 116; 93] = [Val (Ok (VMovingText (Linear 0) MvRight 1000 4 5 [114; 105; 103; 104; 116]))].
Proof. vm_compute. reflexivity. Qed.

(* parse_mv10 *)
Example t_parse_mv10_1 : values Debug [91; 109; 118; 108; 50; 108; 49; 48; 48; 44; 53; 44; 49; 44; 108; 101; 102; 116; 93] = [Val (Ok (VMovingText (Linear 2) MvLeft 100 5 1 [108; 101; 102; 116]))].
Proof. vm_compute. reflexivity. Qed.

(* parse_mv11 *)
Example t_parse_mv11_1 : values Debug [91; 109; 118; 108; 52; 120; 49; 48; 48; 44; 53; 44; 49; 44; 108; 101; 102; 116; 93] = [Val (Err (SUnsupportedTagValue [109; 118; 108; 52; 120; 49; 48; 48; 44; 53; 44; 49; 44; 108; 101; 102; 116]))].
Proof. vm_compute. reflexivity. Qed.

(* parse_mv12 *)
Example t_parse_mv12_1 : values Debug [91; 109; 118; 108; 52; 114; 49; 48; 48; 44; 53; 44; 51; 48; 48; 44; 108; 101; 102; 116; 93] = [Val (Err (SUnsupportedTagValue [109; 118; 108; 52; 114; 49; 48; 48; 44; 53; 44; 51; 48; 48; 44; 108; 101; 102; 116]))].
Proof. vm_compute. reflexivity. Qed.

(* parse_pt *)
Example t_parse_pt_1 : values Debug [91; 112; 116; 93] = [Val (Ok (VPageTime None None))].
Proof. vm_compute. reflexivity. Qed.

(* parse_pt1 *)
Example t_parse_pt1_1 : values Debug [91; 112; 116; 49; 48; 93] = [Val (Ok (VPageTime (Some 10) None))].
Proof. vm_compute. reflexivity. Qed.

(* parse_pt2 *)
Example t_parse_pt2_1 : values Debug [91; 112; 116; 49; 48; 111; 93] = [Val (Ok (VPageTime (Some 10) None))].
Proof. vm_compute. reflexivity. Qed.

(* parse_pt3 *)
Example t_parse_pt3_1 : values Debug [91; 112; 116; 49; 48; 111; 50; 93] = [Val (Ok (VPageTime (Some 10) (Some 2)))].
Proof. vm_compute. reflexivity. Qed.

(* parse_pt4 *)
Example t_parse_pt4_1 : values Debug [91; 112; 116; 49; 48; 111; 50; 111; 93] = [Val (Err (SUnsupportedTagValue [112; 116; 49; 48; 111; 50; 111]))].
Proof. vm_compute. reflexivity. Qed.

(* parse_pt5 *)
Example t_parse_pt5_1 : values Debug [91; 112; 116; 50; 53; 53; 79; 50; 53; 53; 93] = [Val (Ok (VPageTime (Some 255) (Some 255)))].
Proof. vm_compute. reflexivity. Qed.

(* parse_pt6 *)
Example t_parse_pt6_1 : values Debug [91; 80; 84; 79; 93] = [Val (Ok (VPageTime None None))].
Proof. vm_compute. reflexivity. Qed.

(* parse_pt7 *)
Example t_parse_pt7_1 : values Debug [91; 112; 116; 50; 53; 54; 111; 50; 53; 54; 93] = [Val (Err (SUnsupportedTagValue [112; 116; 50; 53; 54; 111; 50; 53; 54]))].
Proof. vm_compute. reflexivity. Qed.

(* parse_pt8 *)
Example t_parse_pt8_1 : values Debug [91; 112; 116; 37; 37; 37; 93] = [Val (Err (SUnsupportedTagValue [112; 116; 37; 37; 37]))].
Proof. vm_compute. reflexivity. Qed.

(* parse_sc *)
Example t_parse_sc_1 : values Debug [91; 115; 99; 93] = [Val (Err (SUnsupportedTagValue [115; 99]))].
Proof. vm_compute. reflexivity. Qed.

(* parse_sc1 *)
Example t_parse_sc1_1 : values Debug [91; 83; 67; 49; 93] = [Val (Ok (VSpacingCharacter 1))].
Proof. vm_compute. reflexivity. Qed.

(* parse_sc2 *)
Example t_parse_sc2_1 : values Debug [91; 83; 99; 57; 57; 93] = [Val (Ok (VSpacingCharacter 99))].
Proof. vm_compute. reflexivity. Qed.

(* parse_sc3 *)
Example t_parse_sc3_1 : values Debug [91; 115; 99; 49; 48; 48; 93] = [Val (Err (SUnsupportedTagValue [115; 99; 49; 48; 48]))].
Proof. vm_compute. reflexivity. Qed.

(* parse_sc4 *)
Example t_parse_sc4_1 : values Debug [91; 115; 99; 50; 44; 49; 93] = [Val (Err (SUnsupportedTagValue [115; 99; 50; 44; 49]))].
Proof. vm_compute. reflexivity. Qed.

(* parse_sce *)
Example t_parse_sce_1 : values Debug [91; 47; 115; 99; 93] = [Val (Ok VSpacingCharacterEnd)].
Proof. vm_compute. reflexivity. Qed.

(* parse_sce1 *)
Example t_parse_sce1_1 : values Debug [91; 47; 115; 99; 49; 93] = [Val (Err (SUnsupportedTagValue [47; 115; 99; 49]))].
Proof. vm_compute. reflexivity. Qed.

(* parse_tr *)
Example t_parse_tr_1 : values Debug [91; 116; 114; 49; 44; 49; 44; 49; 48; 44; 49; 48; 93] = [Val (Ok (VTextRectangle (mkRect 1 1 10 10)))].
Proof. vm_compute. reflexivity. Qed.

(* parse_tr2 *)
Example t_parse_tr2_1 : values Debug [91; 84; 82; 49; 44; 48; 44; 49; 48; 44; 49; 48; 93] = [Val (Err (SUnsupportedTagValue [84; 82; 49; 44; 48; 44; 49; 48; 44; 49; 48]))].
Proof. vm_compute. reflexivity. Qed.

(* parse_tr3 *)
Example t_parse_tr3_1 : values Debug [91; 116; 82; 49; 44; 49; 44; 49; 48; 48; 44; 49; 48; 48; 44; 49; 93] = [Val (Err (SUnsupportedTagValue [116; 82; 49; 44; 49; 44; 49; 48; 48; 44; 49; 48; 48; 44; 49]))].
Proof. vm_compute. reflexivity. Qed.

(* parse_tr4 *)
Example t_parse_tr4_1 : values Debug [91; 84; 114; 53; 44; 55; 44; 49; 48; 48; 44; 56; 48; 93] = [Val (Ok (VTextRectangle (mkRect 5 7 100 80)))].
Proof. vm_compute. reflexivity. Qed.

(* parse_tr5 *)
Example t_parse_tr5_1 : values Debug [91; 116; 114; 49; 44; 49; 44; 44; 49; 48; 48; 93] = [Val (Err (SUnsupportedTagValue [116; 114; 49; 44; 49; 44; 44; 49; 48; 48]))].
Proof. vm_compute. reflexivity. Qed.

(* parse_tr6 *)
Example t_parse_tr6_1 : values Debug [91; 116; 114; 49; 44; 49; 44; 48; 44; 48; 93] = [Val (Ok (VTextRectangle (mkRect 1 1 0 0)))].
Proof. vm_compute. reflexivity. Qed.

(* parse_new_line *)
Example t_parse_new_line_1 : values Debug [91; 110; 108; 93; 91; 78; 76; 48; 93; 91; 78; 108; 49; 93; 91; 110; 76; 57; 93; 91; 110; 108; 49; 48; 93] = [Val (Ok (VNewLine None)); Val (Ok (VNewLine (Some 0))); Val (Ok (VNewLine (Some 1))); Val (Ok (VNewLine (Some 9))); Val (Err (SUnsupportedTagValue [110; 108; 49; 48]))].
Proof. vm_compute. reflexivity. Qed.

(* parse_multi *)
Example t_parse_multi_1 : values Debug [91; 91; 84; 69; 83; 84; 91; 110; 108; 93; 84; 69; 83; 84; 32; 50; 91; 110; 112; 93; 84; 69; 83; 84; 32; 51; 88; 88; 91; 78; 76; 93; 84; 69; 83; 84; 32; 52; 93; 93] = [Val (Ok (VText [91])); Val (Ok (VText [84; 69; 83; 84])); Val (Ok (VNewLine None)); Val (Ok (VText [84; 69; 83; 84; 32; 50])); Val (Ok VNewPage); Val (Ok (VText [84; 69; 83; 84; 32; 51; 88; 88])); Val (Ok (VNewLine None)); Val (Ok (VText [84; 69; 83; 84; 32; 52])); Val (Ok (VText [93]))].
Proof. vm_compute. reflexivity. Qed.

(* parse_valid *)
Example t_parse_valid_1 : values Debug [1; 255] = [Val (Ok (VText [1; 255]))].
Proof. vm_compute. reflexivity. Qed.

(* parse_invalid_1 *)
Example t_parse_invalid_1_1 : values Debug [0] = [Val (Err (SOther [73; 110; 118; 97; 108; 105; 100; 32; 99; 111; 100; 101; 32; 112; 111; 105; 110; 116]))].
Proof. vm_compute. reflexivity. Qed.

(* parse_invalid_2 *)
Example t_parse_invalid_2_1 : values Debug [256] = [Val (Err (SOther [73; 110; 118; 97; 108; 105; 100; 32; 99; 111; 100; 101; 32; 112; 111; 105; 110; 116]))].
Proof. vm_compute. reflexivity. Qed.

(* parse_rustacean *)
Example t_parse_rustacean_1 : values Debug [129408; 129408] = [Val (Err (SOther [73; 110; 118; 97; 108; 105; 100; 32; 99; 111; 100; 101; 32; 112; 111; 105; 110; 116]))].
Proof. vm_compute. reflexivity. Qed.

(* parse_tag *)
Example t_parse_tag_1 : values Debug [91; 120; 91; 120; 93] = [Val (Err (SUnsupportedTag [91; 120])); Val (Err (SUnsupportedTag [120]))].
Proof. vm_compute. reflexivity. Qed.

(* parse_tag2 *)
Example t_parse_tag2_1 : values Debug [93] = [Val (Err (SUnsupportedTag [93]))].
Proof. vm_compute. reflexivity. Qed.

(* parse_tag3 *)
Example t_parse_tag3_1 : values Debug [91; 110; 108] = [Val (Err (SUnsupportedTag [91; 110; 108]))].
Proof. vm_compute. reflexivity. Qed.

(* parse_tag4 *)
Example t_parse_tag4_1 : values Debug [91] = [Val (Err (SUnsupportedTag [91]))].
Proof. vm_compute. reflexivity. Qed.

(* parse_tag5 *)
Example t_parse_tag5_1 : values Debug [91; 120; 93] = [Val (Err (SUnsupportedTag [120]))].
Proof. vm_compute. reflexivity. Qed.

(* parse_tag6 *)
Example t_parse_tag6_1 : values Debug [98; 97; 100; 93] = [Val (Ok (VText [98; 97; 100])); Val (Err (SUnsupportedTag [93]))].
Proof. vm_compute. reflexivity. Qed.

(* parse_tag7 *)
Example t_parse_tag7_1 : values Debug [91; 116; 116; 83; 49; 50; 51; 93; 91; 118; 115; 97; 93; 91; 115; 108; 111; 119; 52; 53; 44; 49; 48; 93; 91; 102; 101; 101; 100; 76; 49; 50; 51; 93; 91; 116; 122; 49; 44; 50; 44; 51; 93] = [Val (Err (SUnsupportedTag [116; 116; 83; 49; 50; 51])); Val (Err (SUnsupportedTag [118; 115; 97])); Val (Err (SUnsupportedTag [115; 108; 111; 119; 52; 53; 44; 49; 48])); Val (Err (SUnsupportedTag [102; 101; 101; 100; 76; 49; 50; 51])); Val (Err (SUnsupportedTag [116; 122; 49; 44; 50; 44; 51]))].
Proof. vm_compute. reflexivity. Qed.

(* parse_tag8 *)
Example t_parse_tag8_1 : values Debug [91; 112; 97; 49; 44; 76; 79; 87; 44; 67; 76; 79; 83; 69; 68; 93; 91; 108; 111; 99; 97; 44; 98; 44; 99; 44; 100; 93] = [Val (Err (SUnsupportedTag [112; 97; 49; 44; 76; 79; 87; 44; 67; 76; 79; 83; 69; 68])); Val (Err (SUnsupportedTag [108; 111; 99; 97; 44; 98; 44; 99; 44; 100]))].
Proof. vm_compute. reflexivity. Qed.

Example t_norm_ok_n1 : normalize Debug [48; 49; 50; 51; 52; 53; 54; 55; 56; 57; 48] = Val [48; 49; 50; 51; 52; 53; 54; 55; 56; 57; 48].
Proof. vm_compute. reflexivity. Qed.

Example t_norm_ok_n2 : normalize Debug [65; 66; 67] = Val [65; 66; 67].
Proof. vm_compute. reflexivity. Qed.

Example t_norm_ok_n3 : normalize Debug [65; 66; 67; 95; 68; 69; 70] = Val [65; 66; 67; 95; 68; 69; 70].
Proof. vm_compute. reflexivity. Qed.

Example t_norm_ok_n4 : normalize Debug [97; 98; 99] = Val [97; 98; 99].
Proof. vm_compute. reflexivity. Qed.

Example t_norm_ok_n5 : normalize Debug [68; 79; 78; 39; 84] = Val [68; 79; 78; 39; 84].
Proof. vm_compute. reflexivity. Qed.

Example t_norm_ok_n6 : normalize Debug [83; 80; 65; 67; 69; 32; 83; 80; 65; 67; 69] = Val [83; 80; 65; 67; 69; 32; 83; 80; 65; 67; 69].
Proof. vm_compute. reflexivity. Qed.

Example t_norm_ok_n7 : normalize Debug [65; 66; 124; 67] = Val [65; 66; 124; 67].
Proof. vm_compute. reflexivity. Qed.

Example t_norm_ok_n8 : normalize Debug [65; 66; 124; 123; 125; 123; 125; 67; 123; 125] = Val [65; 66; 124; 123; 125; 123; 125; 67; 123; 125].
Proof. vm_compute. reflexivity. Qed.

Example t_norm_ok_n9 : normalize Debug [33; 34; 35; 36; 37; 38; 39; 40; 41; 42; 43; 44; 45; 46; 47] = Val [33; 34; 35; 36; 37; 38; 39; 40; 41; 42; 43; 44; 45; 46; 47].
Proof. vm_compute. reflexivity. Qed.

Example t_norm_ok_n10 : normalize Debug [58; 59; 60; 61; 62; 63; 64; 92; 94; 95; 96; 123; 124; 125; 126] = Val [58; 59; 60; 61; 62; 63; 64; 92; 94; 95; 96; 123; 124; 125; 126].
Proof. vm_compute. reflexivity. Qed.

Example t_norm_ok_n11 : normalize Debug [91; 91] = Val [91; 91].
Proof. vm_compute. reflexivity. Qed.

Example t_norm_ok_n12 : normalize Debug [93; 93] = Val [93; 93].
Proof. vm_compute. reflexivity. Qed.

Example t_norm_ok_n13 : normalize Debug [91; 91; 78; 79; 84; 32; 84; 65; 71; 93; 93] = Val [91; 91; 78; 79; 84; 32; 84; 65; 71; 93; 93].
Proof. vm_compute. reflexivity. Qed.

Example t_norm_ok_tags_n1 : normalize Debug [91; 106; 108; 50; 93; 65; 66; 67] = Val [91; 106; 108; 50; 93; 65; 66; 67].
Proof. vm_compute. reflexivity. Qed.

Example t_norm_ok_tags_n2 : normalize Debug [91; 106; 108; 50; 93; 91; 106; 108; 93; 65; 66; 67] = Val [91; 106; 108; 50; 93; 91; 106; 108; 93; 65; 66; 67].
Proof. vm_compute. reflexivity. Qed.

Example t_norm_ok_tags_n3 : normalize Debug [91; 106; 112; 50; 93; 65; 66; 67] = Val [91; 106; 112; 50; 93; 65; 66; 67].
Proof. vm_compute. reflexivity. Qed.

Example t_norm_ok_tags_n4 : normalize Debug [91; 106; 112; 50; 93; 91; 106; 112; 93; 65; 66; 67] = Val [91; 106; 112; 50; 93; 91; 106; 112; 93; 65; 66; 67].
Proof. vm_compute. reflexivity. Qed.

Example t_norm_ok_tags_n5 : normalize Debug [91; 102; 111; 50; 44; 49; 50; 51; 52; 93; 65; 66; 67] = Val [91; 102; 111; 50; 44; 49; 50; 51; 52; 93; 65; 66; 67].
Proof. vm_compute. reflexivity. Qed.

Example t_norm_ok_tags_n6 : normalize Debug [91; 102; 111; 50; 44; 49; 50; 51; 52; 93; 91; 102; 111; 50; 93; 65; 66; 67] = Val [91; 102; 111; 50; 44; 49; 50; 51; 52; 93; 91; 102; 111; 50; 93; 65; 66; 67].
Proof. vm_compute. reflexivity. Qed.

Example t_norm_ok_tags_n7 : normalize Debug [91; 102; 111; 50; 93; 91; 102; 111; 49; 93; 65; 66; 67] = Val [91; 102; 111; 50; 93; 91; 102; 111; 49; 93; 65; 66; 67].
Proof. vm_compute. reflexivity. Qed.

Example t_norm_ok_tags_n8 : normalize Debug [91; 99; 102; 48; 44; 48; 44; 48; 93; 65; 66; 67] = Val [91; 99; 102; 48; 44; 48; 44; 48; 93; 65; 66; 67].
Proof. vm_compute. reflexivity. Qed.

Example t_norm_ok_tags_n9 : normalize Debug [91; 112; 98; 48; 93; 65; 66; 67] = Val [91; 112; 98; 48; 93; 65; 66; 67].
Proof. vm_compute. reflexivity. Qed.

Example t_norm_ok_tags_n10 : normalize Debug [91; 112; 98; 48; 44; 48; 44; 48; 93; 65; 66; 67] = Val [91; 112; 98; 48; 44; 48; 44; 48; 93; 65; 66; 67].
Proof. vm_compute. reflexivity. Qed.

Example t_norm_ok_tags_n11 : normalize Debug [91; 112; 98; 48; 44; 49; 50; 56; 44; 50; 53; 53; 93; 65; 66; 67] = Val [91; 112; 98; 48; 44; 49; 50; 56; 44; 50; 53; 53; 93; 65; 66; 67].
Proof. vm_compute. reflexivity. Qed.

Example t_norm_ok_tags_n12 : normalize Debug [65; 66; 67; 91; 110; 108; 51; 93; 68; 69; 70] = Val [65; 66; 67; 91; 110; 108; 51; 93; 68; 69; 70].
Proof. vm_compute. reflexivity. Qed.

Example t_norm_ok_tags_n13 : normalize Debug [65; 66; 67; 91; 110; 112; 93; 68; 69; 70] = Val [65; 66; 67; 91; 110; 112; 93; 68; 69; 70].
Proof. vm_compute. reflexivity. Qed.

Example t_norm_ok_tags_n14 : normalize Debug [65; 66; 67; 91; 106; 108; 52; 93; 68; 69; 70] = Val [65; 66; 67; 91; 106; 108; 52; 93; 68; 69; 70].
Proof. vm_compute. reflexivity. Qed.

Example t_norm_ok_tags_n15 : normalize Debug [65; 66; 67; 91; 106; 112; 52; 93; 68; 69; 70] = Val [65; 66; 67; 91; 106; 112; 52; 93; 68; 69; 70].
Proof. vm_compute. reflexivity. Qed.

Example t_norm_ok_tags_n16 : normalize Debug [91; 102; 111; 51; 93; 65; 66; 67; 32; 68; 69; 70] = Val [91; 102; 111; 51; 93; 65; 66; 67; 32; 68; 69; 70].
Proof. vm_compute. reflexivity. Qed.

Example t_norm_ok_tags_n17 : normalize Debug [91; 102; 111; 51; 44; 98; 101; 101; 102; 93; 65; 66; 67; 32; 68; 69; 70] = Val [91; 102; 111; 51; 44; 98; 101; 101; 102; 93; 65; 66; 67; 32; 68; 69; 70].
Proof. vm_compute. reflexivity. Qed.

Example t_norm_ok_tags_n18 : normalize Debug [91; 103; 49; 93] = Val [91; 103; 49; 93].
Proof. vm_compute. reflexivity. Qed.

Example t_norm_ok_tags_n19 : normalize Debug [91; 103; 49; 44; 53; 44; 53; 93] = Val [91; 103; 49; 44; 53; 44; 53; 93].
Proof. vm_compute. reflexivity. Qed.

Example t_norm_ok_tags_n20 : normalize Debug [91; 103; 49; 44; 53; 44; 53; 44; 98; 101; 101; 102; 93] = Val [91; 103; 49; 44; 53; 44; 53; 44; 98; 101; 101; 102; 93].
Proof. vm_compute. reflexivity. Qed.

Example t_norm_ok_tags_n21 : normalize Debug [91; 99; 102; 50; 53; 53; 44; 50; 53; 53; 44; 50; 53; 53; 93; 65; 66; 67] = Val [91; 99; 102; 50; 53; 53; 44; 50; 53; 53; 44; 50; 53; 53; 93; 65; 66; 67].
Proof. vm_compute. reflexivity. Qed.

Example t_norm_ok_tags_n22 : normalize Debug [91; 99; 102; 48; 44; 50; 53; 53; 44; 50; 53; 53; 93; 65; 66; 67] = Val [91; 99; 102; 48; 44; 50; 53; 53; 44; 50; 53; 53; 93; 65; 66; 67].
Proof. vm_compute. reflexivity. Qed.

Example t_norm_ok_tags_n23 : normalize Debug [91; 99; 102; 48; 44; 50; 53; 53; 44; 48; 93; 65; 66; 67] = Val [91; 99; 102; 48; 44; 50; 53; 53; 44; 48; 93; 65; 66; 67].
Proof. vm_compute. reflexivity. Qed.

Example t_norm_ok_tags_n24 : normalize Debug [91; 112; 116; 111; 93; 65; 66; 67] = Val [91; 112; 116; 111; 93; 65; 66; 67].
Proof. vm_compute. reflexivity. Qed.

Example t_norm_ok_tags_n25 : normalize Debug [91; 112; 116; 49; 48; 111; 93; 65; 66; 67] = Val [91; 112; 116; 49; 48; 111; 93; 65; 66; 67].
Proof. vm_compute. reflexivity. Qed.

Example t_norm_ok_tags_n26 : normalize Debug [91; 112; 116; 49; 48; 111; 53; 93; 65; 66; 67] = Val [91; 112; 116; 49; 48; 111; 53; 93; 65; 66; 67].
Proof. vm_compute. reflexivity. Qed.

Example t_norm_ok_tags_n27 : normalize Debug [91; 112; 116; 111; 53; 93; 65; 66; 67] = Val [91; 112; 116; 111; 53; 93; 65; 66; 67].
Proof. vm_compute. reflexivity. Qed.

Example t_norm_ok_tags_n28 : normalize Debug [65; 66; 67; 91; 115; 99; 51; 93; 68; 69; 70] = Val [65; 66; 67; 91; 115; 99; 51; 93; 68; 69; 70].
Proof. vm_compute. reflexivity. Qed.

Example t_norm_ok_tags_n29 : normalize Debug [65; 66; 67; 91; 115; 99; 51; 93; 68; 69; 70; 91; 47; 115; 99; 93; 71; 72; 73] = Val [65; 66; 67; 91; 115; 99; 51; 93; 68; 69; 70; 91; 47; 115; 99; 93; 71; 72; 73].
Proof. vm_compute. reflexivity. Qed.

Example t_norm_ok_tags_n30 : normalize Debug [91; 116; 114; 49; 44; 49; 44; 52; 48; 44; 50; 48; 93; 65; 66; 67] = Val [91; 116; 114; 49; 44; 49; 44; 52; 48; 44; 50; 48; 93; 65; 66; 67].
Proof. vm_compute. reflexivity. Qed.

Example t_norm_ok_tags_n31 : normalize Debug [91; 116; 114; 49; 44; 49; 44; 48; 44; 48; 93; 65; 66; 67] = Val [91; 116; 114; 49; 44; 49; 44; 48; 44; 48; 93; 65; 66; 67].
Proof. vm_compute. reflexivity. Qed.

Example t_norm_lowercase_n1 : normalize Debug [91; 67; 66; 50; 53; 53; 93; 65; 66; 67] = Val [91; 99; 98; 50; 53; 53; 93; 65; 66; 67].
Proof. vm_compute. reflexivity. Qed.

Example t_norm_lowercase_n2 : normalize Debug [91; 74; 108; 50; 93; 65; 66; 67] = Val [91; 106; 108; 50; 93; 65; 66; 67].
Proof. vm_compute. reflexivity. Qed.

Example t_norm_lowercase_n3 : normalize Debug [91; 106; 80; 51; 93; 65; 66; 67] = Val [91; 106; 112; 51; 93; 65; 66; 67].
Proof. vm_compute. reflexivity. Qed.

Example t_norm_lowercase_n4 : normalize Debug [91; 70; 79; 49; 93; 65; 66; 67] = Val [91; 102; 111; 49; 93; 65; 66; 67].
Proof. vm_compute. reflexivity. Qed.

Example t_norm_lowercase_n5 : normalize Debug [91; 67; 70; 50; 53; 53; 93; 65; 66; 67] = Val [91; 99; 102; 50; 53; 53; 93; 65; 66; 67].
Proof. vm_compute. reflexivity. Qed.

Example t_norm_lowercase_n6 : normalize Debug [91; 67; 102; 50; 53; 53; 44; 50; 53; 53; 44; 50; 53; 53; 93; 65; 66; 67] = Val [91; 99; 102; 50; 53; 53; 44; 50; 53; 53; 44; 50; 53; 53; 93; 65; 66; 67].
Proof. vm_compute. reflexivity. Qed.

Example t_norm_lowercase_n7 : normalize Debug [91; 80; 66; 50; 53; 53; 93; 65; 66; 67] = Val [91; 112; 98; 50; 53; 53; 93; 65; 66; 67].
Proof. vm_compute. reflexivity. Qed.

Example t_norm_lowercase_n8 : normalize Debug [91; 112; 66; 50; 53; 53; 44; 50; 53; 53; 44; 50; 53; 53; 93; 65; 66; 67] = Val [91; 112; 98; 50; 53; 53; 44; 50; 53; 53; 44; 50; 53; 53; 93; 65; 66; 67].
Proof. vm_compute. reflexivity. Qed.

Example t_norm_lowercase_n9 : normalize Debug [65; 66; 67; 91; 78; 76; 93; 68; 69; 70] = Val [65; 66; 67; 91; 110; 108; 93; 68; 69; 70].
Proof. vm_compute. reflexivity. Qed.

Example t_norm_lowercase_n10 : normalize Debug [91; 103; 49; 44; 52; 44; 52; 44; 66; 69; 69; 70; 93] = Val [91; 103; 49; 44; 52; 44; 52; 44; 98; 101; 101; 102; 93].
Proof. vm_compute. reflexivity. Qed.

Example t_norm_invalid_char_n1 : normalize Debug [128512] = Val [].
Proof. vm_compute. reflexivity. Qed.

Example t_norm_invalid_char_n2 : normalize Debug [128077] = Val [].
Proof. vm_compute. reflexivity. Qed.

Example t_norm_invalid_char_n3 : normalize Debug [129408; 129408; 129408; 129408; 129408; 129408; 129408; 129408] = Val [].
Proof. vm_compute. reflexivity. Qed.

Example t_norm_invalid_char_n4 : normalize Debug [128298] = Val [].
Proof. vm_compute. reflexivity. Qed.

Example t_norm_malformed_tags_n1 : normalize Debug [91] = Val [].
Proof. vm_compute. reflexivity. Qed.

Example t_norm_malformed_tags_n2 : normalize Debug [93] = Val [].
Proof. vm_compute. reflexivity. Qed.

Example t_norm_malformed_tags_n3 : normalize Debug [91; 98; 97; 100; 32; 116; 97; 103] = Val [].
Proof. vm_compute. reflexivity. Qed.

Example t_norm_malformed_tags_n4 : normalize Debug [98; 97; 100; 32; 116; 97; 103; 93] = Val [98; 97; 100; 32; 116; 97; 103].
Proof. vm_compute. reflexivity. Qed.

Example t_norm_malformed_tags_n5 : normalize Debug [98; 97; 100; 91; 116; 97; 103] = Val [98; 97; 100].
Proof. vm_compute. reflexivity. Qed.

Example t_norm_malformed_tags_n6 : normalize Debug [98; 97; 100; 93; 116; 97; 103] = Val [98; 97; 100; 116; 97; 103].
Proof. vm_compute. reflexivity. Qed.

Example t_norm_malformed_tags_n7 : normalize Debug [98; 97; 100; 91; 32; 91; 110; 108; 93; 32; 116; 97; 103] = Val [98; 97; 100; 91; 110; 108; 93; 32; 116; 97; 103].
Proof. vm_compute. reflexivity. Qed.

Example t_norm_malformed_tags_n8 : normalize Debug [98; 97; 100; 32; 93; 116; 97; 103; 32; 91; 110; 108; 93; 88] = Val [98; 97; 100; 32; 116; 97; 103; 32; 91; 110; 108; 93; 88].
Proof. vm_compute. reflexivity. Qed.

Example t_norm_unsupported_tags_n1 : normalize Debug [91; 120; 120; 93] = Val [].
Proof. vm_compute. reflexivity. Qed.

Example t_norm_unsupported_tags_n2 : normalize Debug [91; 97; 98; 93] = Val [].
Proof. vm_compute. reflexivity. Qed.

Example t_norm_unsupported_tags_n3 : normalize Debug [91; 122; 122; 93] = Val [].
Proof. vm_compute. reflexivity. Qed.

Example t_norm_unsupported_tags_n4 : normalize Debug [91; 116; 116; 83; 49; 50; 51; 93] = Val [].
Proof. vm_compute. reflexivity. Qed.

Example t_norm_invalid_tag_values_n1 : normalize Debug [91; 99; 98; 50; 53; 54; 93; 65; 66; 67] = Val [65; 66; 67].
Proof. vm_compute. reflexivity. Qed.

Example t_norm_invalid_tag_values_n2 : normalize Debug [91; 106; 108; 48; 93; 65; 66; 67] = Val [65; 66; 67].
Proof. vm_compute. reflexivity. Qed.

Example t_norm_invalid_tag_values_n3 : normalize Debug [65; 66; 67; 91; 106; 108; 54; 93; 68; 69; 70] = Val [65; 66; 67; 68; 69; 70].
Proof. vm_compute. reflexivity. Qed.

Example t_norm_invalid_tag_values_n4 : normalize Debug [91; 106; 112; 48; 93; 65; 66; 67] = Val [65; 66; 67].
Proof. vm_compute. reflexivity. Qed.

Example t_norm_invalid_tag_values_n5 : normalize Debug [91; 106; 112; 93; 65; 66; 67] = Val [65; 66; 67].
Proof. vm_compute. reflexivity. Qed.

Example t_norm_invalid_tag_values_n6 : normalize Debug [91; 102; 111; 48; 93; 65; 66; 67] = Val [65; 66; 67].
Proof. vm_compute. reflexivity. Qed.

Example t_norm_invalid_tag_values_n7 : normalize Debug [91; 102; 111; 50; 53; 54; 93; 65; 66; 67] = Val [65; 66; 67].
Proof. vm_compute. reflexivity. Qed.

Example t_norm_invalid_tag_values_n8 : normalize Debug [91; 99; 102; 50; 53; 54; 93; 65; 66; 67] = Val [65; 66; 67].
Proof. vm_compute. reflexivity. Qed.

Example t_norm_invalid_tag_values_n9 : normalize Debug [91; 99; 102; 50; 53; 54; 44; 48; 44; 48; 93; 91; 99; 102; 120; 93; 65; 66; 67] = Val [65; 66; 67].
Proof. vm_compute. reflexivity. Qed.

Example t_norm_invalid_tag_values_n10 : normalize Debug [91; 112; 98; 50; 53; 54; 93; 65; 66; 67] = Val [65; 66; 67].
Proof. vm_compute. reflexivity. Qed.

Example t_norm_invalid_tag_values_n11 : normalize Debug [91; 112; 98; 50; 53; 54; 44; 48; 44; 48; 93; 91; 112; 98; 120; 93; 65; 66; 67] = Val [65; 66; 67].
Proof. vm_compute. reflexivity. Qed.

Example t_norm_invalid_tag_values_n12 : normalize Debug [91; 103; 49; 95; 93] = Val [].
Proof. vm_compute. reflexivity. Qed.

Example t_norm_redundant_tags_n1 : normalize Debug [91; 106; 108; 93; 65; 66; 67] = Val [65; 66; 67].
Proof. vm_compute. reflexivity. Qed.

Example t_norm_redundant_tags_n2 : normalize Debug [91; 106; 108; 50; 93; 91; 106; 108; 50; 93; 65; 66; 67] = Val [91; 106; 108; 50; 93; 65; 66; 67].
Proof. vm_compute. reflexivity. Qed.

Example t_norm_redundant_tags_n3 : normalize Debug [91; 106; 112; 50; 93; 91; 106; 112; 50; 93; 65; 66; 67] = Val [91; 106; 112; 50; 93; 65; 66; 67].
Proof. vm_compute. reflexivity. Qed.

Example t_norm_redundant_tags_n4 : normalize Debug [91; 102; 111; 93; 65; 66; 67] = Val [65; 66; 67].
Proof. vm_compute. reflexivity. Qed.

Example t_norm_redundant_tags_n5 : normalize Debug [91; 102; 111; 50; 93; 91; 102; 111; 50; 93; 65; 66; 67] = Val [91; 102; 111; 50; 93; 65; 66; 67].
Proof. vm_compute. reflexivity. Qed.

Example t_norm_redundant_tags_n6 : normalize Debug [91; 99; 102; 93; 65; 66; 67] = Val [65; 66; 67].
Proof. vm_compute. reflexivity. Qed.

Example t_norm_redundant_tags_n7 : normalize Debug [91; 99; 102; 51; 93; 91; 99; 102; 51; 93; 65; 66; 67] = Val [91; 99; 102; 51; 93; 65; 66; 67].
Proof. vm_compute. reflexivity. Qed.

Example t_norm_trailing_whitespace_n1 : normalize Debug [32; 9; 32] = Val [].
Proof. vm_compute. reflexivity. Qed.

Example t_norm_trailing_whitespace_n2 : normalize Debug [91; 110; 108; 93] = Val [].
Proof. vm_compute. reflexivity. Qed.

Example t_norm_trailing_whitespace_n3 : normalize Debug [65; 66; 67; 91; 110; 108; 93] = Val [65; 66; 67].
Proof. vm_compute. reflexivity. Qed.

Example t_norm_trailing_whitespace_n4 : normalize Debug [65; 66; 67; 91; 110; 108; 93; 91; 110; 108; 93] = Val [65; 66; 67].
Proof. vm_compute. reflexivity. Qed.

Example t_norm_trailing_whitespace_n5 : normalize Debug [91; 110; 108; 93; 65; 66; 67; 91; 110; 108; 93] = Val [91; 110; 108; 93; 65; 66; 67].
Proof. vm_compute. reflexivity. Qed.

Example t_norm_trailing_whitespace_n6 : normalize Debug [65; 66; 67; 91; 110; 112; 93] = Val [65; 66; 67].
Proof. vm_compute. reflexivity. Qed.

Example t_norm_trailing_whitespace_n7 : normalize Debug [65; 66; 67; 91; 110; 108; 93; 91; 110; 112; 93; 91; 110; 108; 93] = Val [65; 66; 67].
Proof. vm_compute. reflexivity. Qed.

Example t_norm_trailing_whitespace_n8 : normalize Debug [65; 66; 67; 91; 110; 108; 93; 32; 91; 110; 108; 93] = Val [65; 66; 67].
Proof. vm_compute. reflexivity. Qed.

Example t_norm_trailing_whitespace_n9 : normalize Debug [65; 66; 67; 91; 110; 108; 93; 68; 69; 70; 91; 110; 108; 93] = Val [65; 66; 67; 91; 110; 108; 93; 68; 69; 70].
Proof. vm_compute. reflexivity. Qed.

Example t_norm_trailing_whitespace_n10 : normalize Debug [65; 66; 67; 91; 106; 112; 51; 93] = Val [65; 66; 67].
Proof. vm_compute. reflexivity. Qed.

Example t_norm_trailing_whitespace_n11 : normalize Debug [65; 66; 67; 91; 106; 108; 51; 93] = Val [65; 66; 67].
Proof. vm_compute. reflexivity. Qed.

Example t_norm_trailing_whitespace_n12 : normalize Debug [65; 66; 67; 91; 102; 111; 50; 93; 32] = Val [65; 66; 67].
Proof. vm_compute. reflexivity. Qed.

Example t_norm_trailing_whitespace_n13 : normalize Debug [65; 66; 67; 91; 115; 99; 50; 93] = Val [65; 66; 67].
Proof. vm_compute. reflexivity. Qed.

Example t_blank_b1 : is_blank Debug [] = Val true.
Proof. vm_compute. reflexivity. Qed.

Example t_blank_b2 : is_blank Debug [32] = Val true.
Proof. vm_compute. reflexivity. Qed.

Example t_blank_b3 : is_blank Debug [91; 110; 108; 93] = Val true.
Proof. vm_compute. reflexivity. Qed.

Example t_blank_b4 : is_blank Debug [91; 110; 112; 93] = Val true.
Proof. vm_compute. reflexivity. Qed.

Example t_blank_b5 : is_blank Debug [91; 112; 116; 49; 111; 49; 93] = Val true.
Proof. vm_compute. reflexivity. Qed.

Example t_blank_b6 : is_blank Debug [91; 106; 112; 50; 93] = Val true.
Proof. vm_compute. reflexivity. Qed.

Example t_blank_b7 : is_blank Debug [91; 106; 108; 51; 93] = Val true.
Proof. vm_compute. reflexivity. Qed.

Example t_blank_b8 : is_blank Debug [91; 102; 111; 50; 93] = Val true.
Proof. vm_compute. reflexivity. Qed.

Example t_blank_b9 : is_blank Debug [91; 115; 99; 50; 93] = Val true.
Proof. vm_compute. reflexivity. Qed.

Example t_blank_b10 : is_blank Debug [91; 116; 114; 49; 44; 49; 44; 50; 48; 44; 50; 48; 93] = Val true.
Proof. vm_compute. reflexivity. Qed.

Example t_blank_b11 : is_blank Debug [91; 112; 98; 48; 44; 49; 44; 50; 93] = Val true.
Proof. vm_compute. reflexivity. Qed.

Example t_not_blank_b1 : is_blank Debug [65] = Val false.
Proof. vm_compute. reflexivity. Qed.

Example t_not_blank_b2 : is_blank Debug [91; 99; 114; 50; 53; 53; 44; 48; 44; 48; 93] = Val false.
Proof. vm_compute. reflexivity. Qed.

Example t_not_blank_b3 : is_blank Debug [91; 102; 49; 93] = Val false.
Proof. vm_compute. reflexivity. Qed.

Example t_not_blank_b4 : is_blank Debug [91; 103; 49; 93] = Val false.
Proof. vm_compute. reflexivity. Qed.

Example t_not_blank_b5 : is_blank Debug [91; 104; 99; 52; 49; 93] = Val false.
Proof. vm_compute. reflexivity. Qed.

Example t_not_blank_b6 : is_blank Debug [91; 109; 115; 49; 93] = Val false.
Proof. vm_compute. reflexivity. Qed.

Example t_not_blank_b7 : is_blank Debug [91; 47; 109; 115; 49; 93] = Val false.
Proof. vm_compute. reflexivity. Qed.

Example t_not_blank_b8 : is_blank Debug [91; 109; 118; 99; 108; 49; 48; 48; 44; 49; 44; 49; 48; 44; 84; 101; 120; 116; 93] = Val false.
Proof. vm_compute. reflexivity. Qed.

Example t_text_split_c1 : text_spans Debug [65; 66; 67; 91; 110; 108; 93; 68; 69; 70] = Val [[65; 66; 67]; [68; 69; 70]].
Proof. vm_compute. reflexivity. Qed.

Example t_text_split_c2 : text_spans Debug [65; 66; 67; 91; 110; 112; 93; 68; 69; 70] = Val [[65; 66; 67]; [68; 69; 70]].
Proof. vm_compute. reflexivity. Qed.

Example t_text_split_c3 : text_spans Debug [65; 66; 67; 91; 106; 108; 52; 93; 68; 69; 70] = Val [[65; 66; 67]; [68; 69; 70]].
Proof. vm_compute. reflexivity. Qed.

Example t_text_split_c4 : text_spans Debug [91; 102; 111; 51; 93; 65; 66; 67; 32; 68; 69; 70] = Val [[65; 66; 67; 32; 68; 69; 70]].
Proof. vm_compute. reflexivity. Qed.

Example t_text_split_c5 : text_spans Debug [91; 99; 102; 50; 53; 53; 44; 50; 53; 53; 44; 50; 53; 53; 93; 65; 66; 67] = Val [[65; 66; 67]].
Proof. vm_compute. reflexivity. Qed.

Example t_text_split_c6 : text_spans Debug [65; 66; 67; 91; 115; 99; 50; 93; 68; 69; 70] = Val [[65; 66; 67]; [68; 69; 70]].
Proof. vm_compute. reflexivity. Qed.

Example t_text_split_c7 : text_spans Debug [68; 69; 70; 91; 116; 114; 49; 44; 49; 44; 52; 48; 44; 50; 48; 93; 65; 66; 67] = Val [[68; 69; 70]; [65; 66; 67]].
Proof. vm_compute. reflexivity. Qed.

Example t_text_split_c8 : text_spans Debug [65; 66; 67; 91; 120; 93; 68; 69; 70] = Val [[65; 66; 67]; [68; 69; 70]].
Proof. vm_compute. reflexivity. Qed.

Example t_text_join_j1 : join_text Debug [65; 66; 67; 91; 110; 108; 93; 68; 69; 70] [32] = Val [65; 66; 67; 32; 68; 69; 70].
Proof. vm_compute. reflexivity. Qed.

Example t_text_join_j2 : join_text Debug [65; 66; 67; 91; 110; 112; 93; 68; 69; 70] [32] = Val [65; 66; 67; 32; 68; 69; 70].
Proof. vm_compute. reflexivity. Qed.

Example t_text_join_j3 : join_text Debug [65; 66; 67; 91; 106; 108; 52; 93; 68; 69; 70] [32] = Val [65; 66; 67; 32; 68; 69; 70].
Proof. vm_compute. reflexivity. Qed.

Example t_text_join_j4 : join_text Debug [91; 102; 111; 51; 93; 65; 66; 67; 32; 68; 69; 70] [32] = Val [65; 66; 67; 32; 68; 69; 70].
Proof. vm_compute. reflexivity. Qed.

Example t_text_join_j5 : join_text Debug [91; 99; 102; 50; 53; 53; 44; 50; 53; 53; 44; 50; 53; 53; 93; 65; 66; 67] [32] = Val [65; 66; 67].
Proof. vm_compute. reflexivity. Qed.

Example t_text_join_j6 : join_text Debug [65; 66; 67; 91; 115; 99; 50; 93; 68; 69; 70] [32] = Val [65; 66; 67; 32; 68; 69; 70].
Proof. vm_compute. reflexivity. Qed.

Example t_text_join_j7 : join_text Debug [68; 69; 70; 91; 116; 114; 49; 44; 49; 44; 52; 48; 44; 50; 48; 93; 65; 66; 67] [32] = Val [68; 69; 70; 32; 65; 66; 67].
Proof. vm_compute. reflexivity. Qed.

Example t_text_join_j8 : join_text Debug [65; 66; 67; 91; 120; 93; 68; 69; 70] [95] = Val [65; 66; 67; 95; 68; 69; 70].
Proof. vm_compute. reflexivity. Qed.

(* split_values *)
Example t_split_values_1 : split Debug [84; 69; 83; 84; 91; 110; 108; 93; 84; 69; 88; 84] = Val [[84; 69; 83; 84]; [91; 110; 108; 93]; [84; 69; 88; 84]].
Proof. vm_compute. reflexivity. Qed.

(* split_values *)
Example t_split_values_3 : split Debug [91; 116; 114; 49; 44; 49; 44; 48; 44; 48; 93; 84; 69; 88; 84] = Val [[91; 116; 114; 49; 44; 49; 44; 48; 44; 48; 93]; [84; 69; 88; 84]].
Proof. vm_compute. reflexivity. Qed.

(* split_invalid *)
Example t_split_invalid_1 : split Debug [91; 116; 116; 83; 49; 50; 51; 93; 91; 118; 115; 97; 93; 91; 115; 108; 111; 119; 52; 53; 44; 49; 48; 93; 91; 102; 101; 101; 100; 76; 49; 50; 51; 93; 91; 116; 122; 49; 44; 50; 44; 51; 93] = Val [[91; 116; 116; 83; 49; 50; 51; 93]; [91; 118; 115; 97; 93]; [91; 115; 108; 111; 119; 52; 53; 44; 49; 48; 93]; [91; 102; 101; 101; 100; 76; 49; 50; 51; 93]; [91; 116; 122; 49; 44; 50; 44; 51; 93]].
Proof. vm_compute. reflexivity. Qed.
