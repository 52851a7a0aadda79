(** Ranges of parsed values, and printing followed by parsing. *)

From Coq Require Import String.
From Verif Require Import Base Str Multi Spec_Multi Proofs_Str Proofs_Split Proofs_Parse Proofs_Tag.
Ltac Zify.zify_post_hook ::= Z.div_mod_to_equations.

(** ** Parsed parameters are in range *)

Lemma ColorText_ok s c : ColorText s c -> color_ok c.
Proof.
  intros H. inv H; repeat match goal with HN : Num8 _ _ |- _ => apply Num8_range in HN end;
    cbn; unfold u8; lia.
Qed.

Lemma RectText_ok s r : RectText s r -> rect_ok r.
Proof.
  intros H. inv H; repeat match goal with HN : Num16 _ _ |- _ => apply Num16_range in HN end;
    unfold rect_ok, u16; cbn; lia.
Qed.

Lemma OptText_ok (P : str -> Z -> Prop) (Q : Z -> Prop) s o :
  (forall s n, P s n -> Q n) -> OptText P s o -> opt_ok Q o.
Proof. intros H H'. inv H'; cbn; eauto. Qed.

Lemma SepOpt_ok sep (P : str -> Z -> Prop) (Q : Z -> Prop) s a b :
  (forall s n, P s n -> Q n) -> SepOpt sep P s a b -> opt_ok Q a /\ opt_ok Q b.
Proof. intros H H'. inv H'; split; cbn; auto; eapply OptText_ok; eauto. Qed.

Lemma le99_ok s n : le99 s n -> 0 <= n <= 99.
Proof. intros [H H']. apply Num8_range in H. lia. Qed.

Lemma ArgDenotes_ok l r v : ArgDenotes l r v -> value_ok v.
Proof.
  intros H. inv H; cbn; auto;
    try (match goal with HC : ColorText _ _ |- _ => apply ColorText_ok in HC end);
    try (match goal with HR : RectText _ _ |- _ => apply RectText_ok in HR end);
    try (match goal with HS : SepOpt _ le99 _ _ _ |- _ => eapply SepOpt_ok in HS; [|exact le99_ok] end);
    try (match goal with HS : SepOpt _ Num8 _ _ _ |- _ => eapply SepOpt_ok in HS; [|exact Num8_range] end);
    try (match goal with HS : OptText Num8 _ _ |- _ => eapply OptText_ok in HS; [|exact Num8_range] end);
    try (match goal with HS : MovingArgs _ _ _ _ _ _ |- _ => inv HS end);
    repeat match goal with
      | HN : Num8 _ _ |- _ => apply Num8_range in HN
      | HN : Num16 _ _ |- _ => apply Num16_range in HN
      | HN : Num32 _ _ |- _ => apply Num32_range in HN
      | HN : Hex16 _ _ |- _ => apply Hex16_range in HN
      | HN : Hex4 _ _ |- _ => destruct HN as [HN _]
      | HN : DigitVal _ _ _ |- _ => apply DigitVal_nonneg in HN
      end;
    unfold u8, u16, u32 in *; cbn; splits; auto; try lia; try tauto.
Qed.

Lemma TagDenotes_ok b v : TagDenotes b v -> value_ok v.
Proof. intros (l & k & r & _ & _ & H). eapply ArgDenotes_ok; eauto. Qed.

Lemma Parsable_ok v : Parsable v -> value_ok v.
Proof.
  intros H. inv H.
  - cbn. split; [congruence|]. constructor; [|constructor]. unfold text_char. lia.
  - cbn. split; [congruence|]. constructor; [|constructor]. unfold text_char. lia.
  - cbn. auto.
  - eapply TagDenotes_ok; eauto.
Qed.

(** ** Numerals as printed *)

Lemma show_digits_spec fuel : forall n acc,
  0 <= n < 10 ^ Z.of_nat fuel -> (1 <= fuel)%nat ->
  exists ds, show_digits fuel n acc = ds ++ acc /\ Digits 10 ds n
    /\ Forall (fun c => 48 <= c <= 57) ds.
Proof.
  induction fuel as [|f IH]; intros n acc Hn Hf; [lia|].
  assert (Hm : 0 <= n mod 10 < 10) by (apply Z.mod_pos_bound; lia).
  assert (Hd : DigitVal 10 (48 + n mod 10) (n mod 10)) by (unfold DigitVal; lia).
  cbn [show_digits]. destruct (Z.eqb_spec (n / 10) 0) as [E|E].
  - exists [48 + n mod 10]. splits; auto.
    + replace n with (n mod 10) at 2 by lia. now constructor.
    + constructor; [lia|constructor].
  - destruct f as [|f].
    { exfalso. apply E. apply Z.div_small. cbn in Hn. lia. }
    destruct (IH (n / 10) ((48 + n mod 10) :: acc)) as (ds & E1 & D & F); [|lia|].
    { rewrite Nat2Z.inj_succ, Z.pow_succ_r in Hn by lia. split; [apply Z.div_pos; lia|].
      apply Z.div_lt_upper_bound; lia. }
    exists (ds ++ [48 + n mod 10]). splits.
    + rewrite E1, <- app_assoc. reflexivity.
    + rewrite (Z.div_mod n 10) at 2 by lia. rewrite (Z.mul_comm 10). now constructor.
    + apply Forall_app. split; auto. constructor; [lia|constructor].
Qed.

Lemma show_spec n : 0 <= n < 10000000000 ->
  Digits 10 (show n) n /\ Forall (fun c => 48 <= c <= 57) (show n).
Proof.
  intros H. destruct (show_digits_spec 10 n []) as (ds & E & D & F); [cbn; lia|lia|].
  unfold show. rewrite E, app_nil_r. auto.
Qed.

Lemma show_Num bound n : 0 <= n < bound -> bound <= 10000000000 -> Num 10 bound (show n) n.
Proof. intros H Hb. destruct (show_spec n) as [D _]; [lia|]. split; [now left|lia]. Qed.

Lemma show_plain n : 0 <= n < 10000000000 -> plain (show n).
Proof.
  intros H. destruct (show_spec n) as [_ F]; auto. eapply Forall_impl; [|eassumption].
  cbn. lia.
Qed.

Lemma hex_digit_val d : 0 <= d < 16 -> DigitVal 16 (hex_digit d) d.
Proof. intros H. unfold hex_digit, DigitVal. destruct (Z.ltb_spec d 10); lia. Qed.

Lemma hex_digit_range d : 0 <= d < 16 -> 48 <= hex_digit d <= 57 \/ 97 <= hex_digit d <= 102.
Proof. intros H. unfold hex_digit. destruct (Z.ltb_spec d 10); lia. Qed.

Lemma show_hex4_spec n : 0 <= n < 65536 -> Hex4 (show_hex4 n) n /\ plain (show_hex4 n).
Proof.
  intros H. unfold show_hex4.
  assert (M : forall m, 0 <= m mod 16 < 16) by (intros; apply Z.mod_pos_bound; lia).
  split.
  - split; [|reflexivity]. split; [|lia]. left.
    replace n with ((((n / 4096 mod 16) * 16 + n / 256 mod 16) * 16 + n / 16 mod 16) * 16 + n mod 16) at 5
      by lia.
    apply (Dg_snoc 16 [_; _; _]); [|now apply hex_digit_val].
    apply (Dg_snoc 16 [_; _]); [|now apply hex_digit_val].
    apply (Dg_snoc 16 [_]); [|now apply hex_digit_val].
    constructor. now apply hex_digit_val.
  - unfold plain. repeat constructor; match goal with |- hex_digit ?d <> _ =>
      pose proof (hex_digit_range d (M _)); lia end.
Qed.

(** ** Printing *)

Lemma Code_self l k : lit l = k -> Code l k.
Proof. intros <-. unfold Code. induction (lit l); constructor; auto. constructor. Qed.

Lemma plain_app a b : plain (a ++ b) <-> plain a /\ plain b.
Proof. apply Forall_app. Qed.

Lemma show_color_spec c : color_ok c -> ColorText (show_color c) c /\ plain (show_color c).
Proof.
  unfold color_ok, u8. destruct c; cbn [show_color]; intros H.
  - split; [constructor; apply show_Num; lia|]. apply show_plain; lia.
  - split.
    + apply (Ct_rgb (show r) (show g) (show b)); apply show_Num; lia.
    + rewrite !plain_app. splits; try (apply show_plain; lia); repeat constructor; lia.
Qed.

Lemma show_rect_spec r : rect_ok r -> RectText (show_rect r) r /\ plain (show_rect r).
Proof.
  unfold rect_ok, u16. destruct r as [x y w h]; unfold show_rect. cbn [rx ry rwidth rheight].
  intros H. split.
  - apply (Rt (show x) (show y) (show w) (show h)); try (apply show_Num; lia); lia.
  - rewrite !plain_app. splits; try (apply show_plain; lia); repeat constructor; lia.
Qed.

Lemma jl_show j : exists c, show_jl j = [c] /\ jl_of c = Some j /\ c <> 91 /\ c <> 93.
Proof. destruct j; eexists; splits; try reflexivity; lia. Qed.
Lemma jp_show j : exists c, show_jp j = [c] /\ jp_of c = Some j /\ c <> 91 /\ c <> 93.
Proof. destruct j; eexists; splits; try reflexivity; lia. Qed.

Lemma digit_show n : 0 <= n <= 9 -> show n = [48 + n].
Proof.
  intros H. assert (n = 0 \/ n = 1 \/ n = 2 \/ n = 3 \/ n = 4 \/ n = 5 \/ n = 6 \/ n = 7 \/ n = 8 \/ n = 9)
    as C by lia. repeat destruct C as [->|C]; try reflexivity. subst. reflexivity.
Qed.

(** [r] is a canonical way to write [v] after code [l]. *)
Definition Prints (l : string) (r : str) (v : Value) : Prop :=
  display v = (91 :: lit l) ++ r ++ [93] /\ ArgDenotes l r v /\ plain (lit l ++ r).

(** Texts carried by a tag are plain when the tag is. *)
Definition tag_text_plain (v : Value) : Prop :=
  match v with
  | VManufacturerSpecific _ (Some t) | VManufacturerSpecificEnd _ (Some t) => plain t
  | VMovingText _ _ _ _ _ t => plain t
  | _ => True
  end.

Lemma TagDenotes_text_plain b v : plain b -> TagDenotes b v -> tag_text_plain v.
Proof.
  intros Hp (l & k & r & -> & _ & H). apply plain_app in Hp as [_ Hp].
  inv H; cbn; auto; try (match goal with HM : MovingArgs _ _ _ _ _ _ |- _ => inv HM end);
    repeat match goal with
      | HP : plain (_ ++ _) |- _ => apply plain_app in HP as [? HP]
      | HP : plain (_ :: _) |- _ => apply plain_cons in HP as (? & ? & HP)
      end; auto.
Qed.

Definition is_text (v : Value) : bool := match v with VText _ => true | _ => false end.

Lemma ArgDenotes_not_text l r t : ~ ArgDenotes l r (VText t).
Proof. intros H. inv H. Qed.

Ltac pr s := exists s; unfold Prints; splits;
  [ cbn [display]; unfold lit; cbn; repeat (rewrite <- ?app_assoc; cbn); reflexivity
  | try (constructor; auto; fail)
  | rewrite plain_app; split; [repeat constructor; vm_compute; congruence|]; try (now constructor)].

Lemma opt_show_8 bound a : opt_ok (fun n => 0 <= n < bound) a -> bound <= 256 ->
  exists s, OptText (fun s n => Num8 s n /\ n < bound) s a /\ plain s
    /\ s = match a with Some n => show n | None => [] end.
Proof.
  intros H Hb. eexists. splits; [| |reflexivity].
  - destruct a; constructor. cbn in H. split; [apply show_Num; lia|lia].
  - destruct a; [|constructor]. cbn in H. apply show_plain; lia.
Qed.

Lemma sep_opt_show bound (sep : Z -> Prop) c (P : str -> Z -> Prop) a b :
  opt_ok (fun n => 0 <= n < bound) a -> opt_ok (fun n => 0 <= n < bound) b -> bound <= 256 ->
  (forall s n, Num8 s n -> n < bound -> P s n) -> sep c -> c <> 91 -> c <> 93 ->
  exists s s', SepOpt sep P (s ++ [c] ++ s') a b /\ plain (s ++ [c] ++ s')
    /\ s = match a with Some n => show n | None => [] end
    /\ s' = match b with Some n => show n | None => [] end.
Proof.
  intros Ha Hb H HP Hs H1 H2.
  apply opt_show_8 in Ha as (s & Oa & Pa & Ea); auto.
  apply opt_show_8 in Hb as (s' & Ob & Pb & Eb); auto.
  exists s, s'. splits; auto.
  - constructor; auto.
    + inv Oa; constructor. destruct H0; auto.
    + inv Ob; constructor. destruct H0; auto.
  - rewrite !plain_app. splits; auto. repeat constructor; auto.
Qed.

Lemma plain_intro c s : c <> 91 /\ c <> 93 /\ plain s -> plain (c :: s).
Proof. intros (? & ? & ?). constructor; auto. Qed.

Lemma lit_plain_1 c : c <> 91 -> c <> 93 -> plain [c].
Proof. intros. repeat constructor; auto. Qed.

Ltac solve_plain :=
  rewrite ?plain_app; splits; auto; try (apply show_plain; lia);
  try (apply show_hex4_spec; lia);
  try (apply lit_plain_1; lia).

Lemma moving_show d w s r t : 0 <= w < 65536 -> 0 <= s < 256 -> 0 <= r < 256 -> plain t ->
  exists c y, MovingArgs y d w s r t /\ plain y
    /\ y = c :: show w ++ [44] ++ show s ++ [44] ++ show r ++ [44] ++ t
    /\ c = match d with MvLeft => 108 | MvRight => 114 end.
Proof.
  intros Hw Hs Hr Ht. do 2 eexists. splits; [| |reflexivity|reflexivity].
  - constructor; try (apply show_Num; lia). destruct d; constructor; constructor.
  - apply plain_intro. splits; try (destruct d; lia). solve_plain.
Qed.

Lemma ArgDenotes_prints l r v : ArgDenotes l r v -> tag_text_plain v -> small_hex v ->
  exists r', Prints l r' v.
Proof.
  intros H Ht Hh. pose proof (ArgDenotes_ok _ _ _ H) as Hok.
  inv H; cbn [value_ok opt_ok color_ok tag_text_plain small_hex fst snd] in *; unfold u8, u16, u32 in *.
  - pr (@nil Z).
  - pr (show n). constructor. apply show_Num; lia. solve_plain.
  - pr (@nil Z).
  - destruct (show_color_spec c Hok). pr (show_color c). auto.
  - pr (@nil Z).
  - destruct (show_color_spec c Hok). pr (show_color c). auto.
  - destruct Hok as [Hr Hc]. destruct (show_color_spec c Hc), (show_rect_spec _ Hr).
    pr (show_rect r0 ++ [44] ++ show_color c). solve_plain.
  - pr (show n); [constructor; [apply show_Num|]; lia|solve_plain].
  - destruct w as [w|].
    + cbn in Hok. pr (show n ++ [44] ++ show w); [|solve_plain].
      constructor; [apply show_Num; lia|lia|constructor; apply show_Num; lia].
    + pr (show n); [constructor; [apply show_Num|]; lia|solve_plain].
  - pr [116; 111]; [|repeat constructor; lia].
    apply (Ad_flt 116 [111]); [constructor|]. apply (So_two _ _ [] 111 []); constructor; auto.
  - destruct (sep_opt_show 100 sep_o 111 le99 a b) as (x & y & S & P & Ex & Ey); try lia.
    { destruct a; cbn in *; lia. } { destruct b; cbn in *; lia. }
    { intros; split; auto; lia. } { now left. }
    exists (116 :: x ++ [111] ++ y). subst x y. unfold Prints. splits.
    + destruct a, b; cbn [display]; unfold lit; cbn; repeat (rewrite <- ?app_assoc; cbn); reflexivity.
    + apply Ad_flt; auto; constructor.
    + rewrite plain_app. split; [repeat constructor; vm_compute; congruence|].
      apply plain_intro; splits; auto; lia.
  - destruct (sep_opt_show 100 sep_t 116 le99 a b) as (x & y & S & P & Ex & Ey); try lia.
    { destruct a; cbn in *; lia. } { destruct b; cbn in *; lia. }
    { intros; split; auto; lia. } { now left. }
    exists (111 :: x ++ [116] ++ y). subst x y. unfold Prints. splits.
    + destruct a, b; cbn [display]; unfold lit; cbn; repeat (rewrite <- ?app_assoc; cbn); reflexivity.
    + apply Ad_flo; auto; constructor.
    + rewrite plain_app. split; [repeat constructor; vm_compute; congruence|].
      apply plain_intro; splits; auto; lia.
  - pr (@nil Z).
  - pr (@nil Z).
  - pr (show n); [constructor; [apply show_Num|]; lia|solve_plain].
  - pr (show n ++ [44] ++ show_hex4 h); [|solve_plain].
    constructor; [apply show_Num; lia|lia|apply show_hex4_spec; lia].
  - pr (show n); [constructor; [apply show_Num|]; lia|solve_plain].
  - pr (show n ++ [44] ++ show x ++ [44] ++ show y); [|solve_plain].
    constructor; try lia; apply show_Num; lia.
  - pr (show n ++ [44] ++ show x ++ [44] ++ show y ++ [44] ++ show_hex4 h); [|solve_plain].
    constructor; try lia; try (apply show_Num; lia). apply show_hex4_spec; lia.
  - pr (show c); [|solve_plain]. constructor. rewrite digit_show by lia. split; [|lia].
    left. replace c with (48 + c - 48) at 2 by lia. constructor. unfold DigitVal. lia.
  - pr (@nil Z).
  - destruct (jl_show j) as (c' & E & J & N1 & N2). exists [c']. unfold Prints. splits.
    + cbn [display]. rewrite E. reflexivity.
    + now constructor.
    + rewrite plain_app. split; [repeat constructor; vm_compute; congruence|]. solve_plain.
  - pr (@nil Z).
  - destruct (jp_show j) as (c' & E & J & N1 & N2). exists [c']. unfold Prints. splits.
    + cbn [display]. rewrite E. reflexivity.
    + now constructor.
    + rewrite plain_app. split; [repeat constructor; vm_compute; congruence|]. solve_plain.
  - pr (show n); [constructor; apply show_Num; lia|solve_plain].
  - pr (show n ++ [44] ++ t); [constructor; apply show_Num; lia|solve_plain].
  - pr (show n); [constructor; apply show_Num; lia|solve_plain].
  - pr (show n ++ [44] ++ t); [constructor; apply show_Num; lia|solve_plain].
  - destruct (moving_show d w sp r0 t) as (x & y & M & P & E & Ec); try tauto.
    exists (99 :: y). unfold Prints. splits.
    + subst. destruct d; cbn [display show_mv_mode show_mv_dir]; unfold lit; cbn;
        repeat (rewrite <- ?app_assoc; cbn); reflexivity.
    + apply Ad_mvc; auto; constructor.
    + rewrite plain_app. split; [repeat constructor; vm_compute; congruence|].
      apply plain_intro; splits; auto; lia.
  - destruct (moving_show d w sp r0 t) as (x & y & M & P & E & Ec); try tauto.
    exists (108 :: 48 :: y). unfold Prints. splits.
    + subst. destruct d; cbn [display show_mv_mode show_mv_dir]; unfold lit; cbn;
        repeat (rewrite <- ?app_assoc; cbn); reflexivity.
    + apply Ad_mvln; auto; try constructor. unfold DigitVal; lia. lia.
    + rewrite plain_app. split; [repeat constructor; vm_compute; congruence|].
      apply plain_intro; splits; auto; try lia. apply plain_intro; splits; auto; lia.
  - destruct (moving_show d w sp r0 t) as (x & y & M & P & E & Ec); try tauto.
    exists (108 :: 48 + n :: y). unfold Prints. splits.
    + cbn [display show_mv_mode]. rewrite digit_show by lia.
      subst. destruct d; cbn [display show_mv_mode show_mv_dir]; unfold lit; cbn [app];
        cbn - [Z.add show]; repeat (rewrite <- ?app_assoc; cbn - [Z.add show]); reflexivity.
    + apply Ad_mvln; auto; try constructor. unfold DigitVal; lia. lia.
    + rewrite plain_app. split; [repeat constructor; vm_compute; congruence|].
      apply plain_intro; splits; auto; try lia. apply plain_intro; splits; auto; lia.
  - pr (@nil Z).
  - exists [48 + n]. unfold Prints. splits.
    + cbn [display]. rewrite digit_show by lia. reflexivity.
    + constructor. unfold DigitVal; lia.
    + rewrite plain_app. split; [repeat constructor; vm_compute; congruence|]. solve_plain.
  - pr (@nil Z).
  - destruct (sep_opt_show 256 sep_o 111 Num8 a b) as (x & y & S & P & Ex & Ey); try lia.
    { destruct a; cbn in *; lia. } { destruct b; cbn in *; lia. }
    { intros; auto. } { now left. }
    exists (x ++ [111] ++ y). subst x y. unfold Prints. splits.
    + destruct a, b; cbn [display]; unfold lit; cbn; repeat (rewrite <- ?app_assoc; cbn); reflexivity.
    + now apply Ad_pt.
    + rewrite plain_app. split; [repeat constructor; vm_compute; congruence|]. auto.
  - pr (show n); [constructor; [apply show_Num|]; lia|solve_plain].
  - pr (@nil Z).
  - destruct (show_rect_spec _ Hok). pr (show_rect r0). auto.
Qed.

Lemma display_tag b v : plain b -> TagDenotes b v -> small_hex v ->
  exists b', plain b' /\ display v = 91 :: b' ++ [93] /\ TagDenotes b' v.
Proof.
  intros Hp Hd Hs. pose proof (TagDenotes_text_plain _ _ Hp Hd) as Ht.
  destruct Hd as (l & k & r & _ & _ & Ha).
  destruct (ArgDenotes_prints _ _ _ Ha Ht Hs) as (r' & E & A & P).
  exists (lit l ++ r'). splits; auto.
  - rewrite E. cbn. now rewrite <- app_assoc.
  - exists l, (lit l), r'. splits; auto. now apply Code_self.
Qed.

(** ** Printing then parsing *)

Lemma Tokens_one t : t <> [] -> Token t [] -> Tokens t [t].
Proof. intros _ H. rewrite <- (app_nil_r t) at 1. apply Tks_cons; [auto|constructor]. Qed.

Lemma replace_plain c w t : ~ In c t -> replace c w t = t.
Proof.
  intros H. unfold replace. induction t as [|x t IH]; [reflexivity|].
  cbn. destruct (Z.eqb_spec x c); subst; [exfalso; apply H; now left|].
  cbn. f_equal. apply IH. intros Hi. apply H. now right.
Qed.

Lemma display_text t : plain t -> display (VText t) = t.
Proof.
  intros H. cbn [display]. assert (~ In ch_lb t /\ ~ In ch_rb t) as [H1 H2].
  { unfold plain in H. rewrite Forall_forall in H. split; intros Hi; apply H in Hi; lia. }
  rewrite (replace_plain ch_lb) by auto. now apply replace_plain.
Qed.

Lemma print_parse md v : Parsable v -> small_hex v -> values md (display v) = [Val (Ok v)].
Proof.
  intros H Hs. inv H.
  - destruct md; reflexivity.
  - destruct md; reflexivity.
  - rewrite display_text by auto.
    erewrite values_tokens by (apply Tokens_one; [auto|apply Tk_text; auto; now left]).
    cbn [map]. f_equal. now destruct (try_from_text t) as [[_ E]|[F _]].
  - destruct (display_tag _ _ H0 H1 Hs) as (b' & P & -> & D).
    erewrite values_tokens by (apply Tokens_one; [congruence|now apply Tk_tag]).
    cbn [map]. f_equal. rewrite try_from_tag by auto. now apply parse_tag_ok.
Qed.

(** The decimal digits of a number, read as hexadecimal, denote a larger one. *)
Lemma Digits_ne radix t m : Digits radix t m -> t <> [].
Proof. intros H. inv H; auto. congruence. intros E. apply app_eq_nil in E as [_ E]. discriminate. Qed.

Lemma Digits_inv radix t m : Digits radix t m ->
  (exists c, t = [c] /\ DigitVal radix c m)
  \/ (exists s n c d, t = s ++ [c] /\ s <> [] /\ Digits radix s n /\ DigitVal radix c d
                     /\ m = n * radix + d).
Proof.
  intros H. inv H; [left; eauto|right]. do 4 eexists. splits; eauto. eapply Digits_ne; eauto.
Qed.

Lemma Digits_hex_larger s n : Digits 10 s n -> forall m, Digits 16 s m ->
  0 <= n <= m /\ (10 <= n -> n < m).
Proof.
  induction 1 as [c d Hd|s n c d Hs IH Hd]; intros m Hm;
    apply Digits_inv in Hm as [(c' & E & D)|(s' & n' & c' & d' & E & N & D & D' & ->)].
  - injection E as <-. unfold DigitVal in *. lia.
  - change [c] with ([] ++ [c]) in E. apply app_inj_tail in E as [<- _]. congruence.
  - change [c'] with ([] ++ [c']) in E. apply app_inj_tail in E as [-> _].
    apply Digits_ne in Hs. congruence.
  - apply app_inj_tail in E as [-> ->]. destruct (IH _ D) as [I1 I2].
    unfold DigitVal in *. lia.
Qed.

Lemma Tag_hex b c : TagDenotes b (VHexadecimalCharacter c) ->
  exists k r, b = k ++ r /\ Code "hc" k /\ Hex16 r c.
Proof. intros (l & k & r & -> & HC & H). inv H. eauto. Qed.

Lemma print_parse_hex md c : 10 <= c < 65536 ->
  values md (display (VHexadecimalCharacter c)) <> [Val (Ok (VHexadecimalCharacter c))].
Proof.
  intros Hc. destruct (show_spec c) as [HD HF]; [lia|].
  assert (P : plain (show c)) by (apply show_plain; lia).
  assert (E : display (VHexadecimalCharacter c) = 91 :: (104 :: 99 :: show c) ++ [93]) by reflexivity.
  assert (P' : plain (104 :: 99 :: show c)) by (apply plain_intro; splits; try lia; apply plain_intro; splits; auto; lia).
  rewrite E. erewrite values_tokens by (apply Tokens_one; [congruence|now apply Tk_tag]).
  cbn [map]. rewrite try_from_tag by auto. intros H. injection H as H.
  apply parse_tag_ok, Tag_hex in H as (k & r & Ek & HC & [HX _]).
  assert (exists a b, k = [a; b]) as (a & b & ->).
  { unfold Code in HC. inv HC. match goal with H : Forall2 _ _ _ |- _ => inv H end.
    match goal with H : Forall2 _ _ _ |- _ => inv H end. eauto. }
  cbn [app] in Ek. injection Ek as <- <- <-.
  destruct HX as [HX|(s' & Es & _)].
  - destruct (Digits_hex_larger _ _ HD _ HX). lia.
  - rewrite Es in HF. inv HF. lia.
Qed.

Lemma print_parse_iff md v : Parsable v ->
  values md (display v) = [Val (Ok v)] <-> small_hex v.
Proof.
  intros H. split; [|now apply print_parse].
  intros E. destruct v; cbn; auto. pose proof (Parsable_ok _ H) as Hk. cbn in Hk. unfold u16 in Hk.
  destruct (Z_lt_le_dec c 10); auto. exfalso. eapply (print_parse_hex md c); eauto; lia.
Qed.
