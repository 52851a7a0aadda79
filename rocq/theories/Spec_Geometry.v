(** Where the pixels of a sign are, in exact arithmetic.

    Along one axis the face of the sign is [F] millimetres and carries [n]
    pixels, in characters of [cw] pixels.  [pt] and [hb] are the configured
    pitch and border. *)

From Coq Require Import Reals.
From Verif Require Import Base Config Sign.
Open Scope R_scope.

(** Gaps between characters: character [g] is the last one.  A character
    width of 0 or 1 means that there are no characters. *)
Definition Gaps (n cw g : Z) : Prop :=
  if (1 <? cw)%Z then (0 <= g /\ g * cw < n <= (g + 1) * cw)%Z else g = 0%Z.

(** The character of a pixel. *)
Definition CharOf (cw x c : Z) : Prop :=
  if (1 <? cw)%Z then (c * cw <= x < (c + 1) * cw)%Z else c = 0%Z.

(** The distance of the centre of pixel [x] from the edge of the face:

    - the pitch is the configured one, or less if the pixels and one more per
      gap would not fit on the face;
    - without gaps the pixels are centred on the face;
    - with gaps the border is the configured one, or less if it would not
      leave a pixel for every gap;
    - the gaps have equal sizes and take up what is left. *)
Definition Position (F n pt hb cw x : Z) (pos : R) : Prop :=
  exists g c pitch border gap,
    Gaps n cw g /\ CharOf cw x c /\
    pitch = Rmin (IZR pt) (IZR F / IZR (n + g)) /\
    border = (if (0 <? g)%Z then Rmin (IZR hb) ((IZR F - IZR (n + g) * pitch) / 2)
              else (IZR F - IZR n * pitch) / 2) /\
    2 * border + IZR n * pitch + IZR g * gap = IZR F /\
    pos = border + IZR c * gap + (IZR x + / 2) * pitch.

(** Both axes of a sign, in numbers of its configuration. *)
Definition XPosition (d : Dms) (x : Z) (pos : R) : Prop :=
  Position (sign_width (d_sign_cfg d)) (sign_width_pixels (d_vms_cfg d)) (horizontal_pitch (d_vms_cfg d))
           (horizontal_border (d_sign_cfg d)) (char_width_pixels (d_vms_cfg d)) x pos.
Definition YPosition (d : Dms) (y : Z) (pos : R) : Prop :=
  Position (sign_height (d_sign_cfg d)) (sign_height_pixels (d_vms_cfg d)) (vertical_pitch (d_vms_cfg d))
           (vertical_border (d_sign_cfg d)) (char_height_pixels (d_vms_cfg d)) y pos.

(** The configuration fits its types, and the face and the pitch are not 0. *)
Definition XAxis (d : Dms) : Prop :=
  (1 <= sign_width (d_sign_cfg d) < 65536)%Z /\ (1 <= horizontal_pitch (d_vms_cfg d) < 256)%Z /\
  (0 <= horizontal_border (d_sign_cfg d) < 65536)%Z /\ (0 <= char_width_pixels (d_vms_cfg d) < 256)%Z /\
  (exists g, Gaps (sign_width_pixels (d_vms_cfg d)) (char_width_pixels (d_vms_cfg d)) g /\
             1 <= sign_width_pixels (d_vms_cfg d) /\ sign_width_pixels (d_vms_cfg d) + g < 65536)%Z.
Definition YAxis (d : Dms) : Prop :=
  (1 <= sign_height (d_sign_cfg d) < 65536)%Z /\ (1 <= vertical_pitch (d_vms_cfg d) < 256)%Z /\
  (0 <= vertical_border (d_sign_cfg d) < 65536)%Z /\ (0 <= char_height_pixels (d_vms_cfg d) < 256)%Z /\
  (exists g, Gaps (sign_height_pixels (d_vms_cfg d)) (char_height_pixels (d_vms_cfg d)) g /\
             1 <= sign_height_pixels (d_vms_cfg d) /\ sign_height_pixels (d_vms_cfg d) + g < 65536)%Z.
