(** The statements about files in the form used for the properties. *)
From Coq Require Import String ZArith List Bool Reals Lia Lra ZifyBool ZifyNat.
From Verif Require Import Base.Res Base.Bytes Base.Num Model.Geom Model.SheetIO Model.GridIO Model.Config.
From Verif Require Import Spec.Files Spec.Regions Spec.Workspace Proof.BytesP Proof.SheetP Proof.GridIOP Proof.ConfigP.
Import ListNotations.
Open Scope Z_scope.

Lemma header1_data : sheet_data header1 1 ones ones.
Proof. unfold sheet_data, sheet_typed, all3, bits, int64. cbn. lia. Qed.

Theorem round_trip_thm sysW sysR h xs vs n : sheet_data h n xs vs ->
  exists file xs' vs', write_sheet sysW h xs vs = Ok (file, xs', vs') /\
    read_sheet_header file = Ok (Good (set_count h (wrap64 (sh_countWidth h * sh_countWidth h * sh_countWidth h)), Little)) /\
    forall buf, length buf = (12 * n)%nat ->
      (exists mx, read_sheet_positions sysR file buf = Ok (Good mx) /\ length mx = length xs /\
         words sysR 4 (3 * n) mx = words sysW 4 (3 * n) xs) /\
      (exists mv, read_sheet_velocities sysR file buf = Ok (Good mv) /\ length mv = length vs /\
         words sysR 4 (3 * n) mv = words sysW 4 (3 * n) vs).
Proof. intros (H1 & H2 & H3 & H4 & H5). now apply sheet_round_trip. Qed.

Lemma file_length sys h xs vs n file xs' vs' : sheet_data h n xs vs ->
  write_sheet sys h xs vs = Ok (file, xs', vs') -> length file = (160 + 24 * n)%nat.
Proof.
  intros (HT & Hx & Hv & Hn & Hw) HW. assert (Hi : int64 (sh_gridCount h)) by apply HT.
  pose proof (write_ok sys h xs vs n Hx Hv Hn Hw Hi) as E. cbv zeta in E. rewrite E in HW.
  assert (EF : file = (prefix h ++ (if is_sys_order sys Little then xs else chunkmap (@rev Z) 4 (3 * n) xs)
     ++ (if is_sys_order sys Little then vs else chunkmap (@rev Z) 4 (3 * n) vs))%list) by congruence.
  rewrite EF, !app_length, prefix_length.
  destruct (is_sys_order sys Little); [lia|]. rewrite !chunkmap_length; try lia; intros; now rewrite rev_length.
Qed.

Theorem truncated_refuted_thm sys h xs vs n file xs' vs' buf : sheet_data h n xs vs -> (0 < n)%nat ->
  write_sheet sys h xs vs = Ok (file, xs', vs') -> length buf = (12 * n)%nat ->
  (exists k m, (k < 160 + 12 * n)%nat /\ read_sheet_positions sys (firstn k file) buf = Ok (Good m)) /\
  (exists k m, (k < length file)%nat /\ read_sheet_velocities sys (firstn k file) buf = Ok (Good m)).
Proof.
  intros HD H0 HW Hb. pose proof (file_length _ _ _ _ _ _ _ _ HD HW) as HL. destruct HD as (H1 & H2 & H3 & H4 & H5). split.
  - destruct (truncated_positions sys h xs vs n file xs' vs' 161 buf H1 H2 H3 H4 H5 HW Hb) as (A & _).
    destruct (A ltac:(lia) H0) as (m & E). exists 161%nat, m. split; [lia|exact E].
  - destruct (truncated_positions sys h xs vs n file xs' vs' (161 + 12 * n) buf H1 H2 H3 H4 H5 HW Hb) as (_ & _ & _ & A).
    destruct (A ltac:(lia) H0) as (m & E). exists (161 + 12 * n)%nat, m. split; [lia|exact E].
Qed.
Theorem truncated_partial_thm sys h xs vs n file xs' vs' k buf : sheet_data h n xs vs -> (0 < n)%nat ->
  write_sheet sys h xs vs = Ok (file, xs', vs') -> length buf = (12 * n)%nat ->
  ((k <= 160 + 12 * n)%nat -> forall m, read_sheet_velocities sys (firstn k file) buf <> Ok (Good m)) /\
  (k = 160%nat -> read_sheet_positions sys (firstn k file) buf = Ok Err).
Proof.
  intros (H1 & H2 & H3 & H4 & H5) H0 HW Hb.
  destruct (truncated_positions sys h xs vs n file xs' vs' k buf H1 H2 H3 H4 H5 HW Hb) as (_ & A & B & _).
  destruct (truncated_header sys h xs vs n file xs' vs' k buf H1 H2 H3 H4 H5 HW Hb) as (C & D).
  split.
  - intros Hk m. destruct (le_lt_dec 160 k) as [K|K]; [rewrite B by lia; discriminate|].
    destruct (le_lt_dec 8 k) as [K'|K']; [destruct (D ltac:(lia)) as [-> _]; discriminate|destruct (C K') as [-> _]; discriminate].
  - intros Hk. apply A; auto.
Qed.

Lemma count_bad : bits 32 1 /\ bits 32 0 /\ standard_count 1 0 = 0 /\ 0 <> 1 * 2 ^ 32 + 0.
Proof. unfold bits. split; [lia|]. split; [lia|]. split; [reflexivity|lia]. Qed.

Lemma reverse_spec x : exists y, reverse x = Ok y /\ forall j, 0 <= j < 64 -> Z.testbit y j = Z.testbit x (63 - j).
Proof.
  destruct (reverse_bits x) as (y & E & H). exists y. split; [exact E|]. intros j Hj. rewrite H.
  replace ((0 <=? j) && (j <? 64)) with true by lia. reflexivity.
Qed.
Lemma flag_read v : endianness_version_flag Little = Ok v -> read_endianness_version Little (put Little 8 v) = (-1, version).
Proof. exact (flag_read_little Little v). Qed.
Lemma flag_big_thm v : endianness_version_flag Little = Ok v -> read_endianness_version Big (put Little 8 v) = (-1, 129) /\ 129 <> version.
Proof. intros H. split; [now apply flag_read_big|discriminate]. Qed.

Lemma ball_box_edge' : let b := BallC 1%R 2%R 2%R 1%R 1%R in let L := 10%R in
  ball_check_init b L = Some b /\ ~ inside_period L (v0 (bx_o (ball_box b L))).
Proof. destruct ball_box_edge as (A & B & _). exact (conj A B). Qed.
Lemma ball_checks_bad :
  (let b := BallC 1%R 2%R 2%R 1%R 1%R in ball_check_init b 10%R = Some b /\ box_check_init (ball_box b 10%R) 10%R = None) /\
  (let b := BallC 1%R 2%R 2%R (-1)%R 1%R in ball_check_init b 10%R = Some b /\ (v0 (bx_w (ball_box b 10%R)) < 0)%R).
Proof. destruct ball_box_edge as (A & _ & C). destruct ball_negative as (A' & B' & _). exact (conj (conj A C) (conj A' B')). Qed.

Lemma write_changes' : exists file xs' vs', write_sheet Big header1 ones ones = Ok (file, xs', vs') /\ xs' <> ones /\ vs' <> ones.
Proof. destruct write_changes as (file & E). do 3 eexists. split; [exact E|]. split; discriminate. Qed.

Lemma render_subsample_thm s : (render_valid_subsample s = true -> 0 < s) /\ (power_of_two s -> render_valid_subsample s = true).
Proof.
  split; intros H; [now apply render_valid_any|]. apply render_valid_any. destruct H as (k & Hk & ->). apply Z.pow_pos_nonneg; lia.
Qed.

Lemma ball_check_example : let b := BallC 1%R 5%R 9%R 2%R 0%R in ball_check_init b 10%R = Some (BallC 1%R 5%R 9%R 2%R 1%R).
Proof.
  cbv zeta. unfold ball_check_init, outside. cbn.
  repeat match goal with
  | |- context[Flocq.Core.Raux.Rlt_bool ?a ?b] => destruct (Flocq.Core.Raux.Rlt_bool_spec a b); try lra; cbn
  | |- context[Flocq.Core.Raux.Rle_bool ?a ?b] => destruct (Flocq.Core.Raux.Rle_bool_spec a b); try lra; cbn
  | |- context[Flocq.Core.Raux.Req_bool ?a ?b] => destruct (Flocq.Core.Raux.Req_bool_spec a b); try lra; cbn
  end.
  reflexivity.
Qed.
Lemma box_check_example : axis_name "y" "Y" /\ padded "y" "  y " /\ box_in_period 10 (BoxC (V3 0 1 9)%R (V3 1 20 3)%R "  y ").
Proof.
  split; [unfold axis_name; cbn; auto 10|]. split; [exists 2%nat, 1%nat; reflexivity|].
  unfold box_in_period, all_coords, inside_period. cbn. lra.
Qed.
