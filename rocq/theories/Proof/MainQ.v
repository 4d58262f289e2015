(** File names, validation, modes, rounding and pixel numbers. *)
From Coq Require Import ZArith List Bool Lia ZifyBool ZifyNat Permutation Reals Lra Psatz Ascii String.
From Flocq Require Import Core.Raux.
From Verif Require Import Base.Res Base.ResFacts Base.Num Base.IEEE Base.Convert Model.Geom Model.Config Model.Main Spec.Workspace Spec.Segments
  Proof.SegP Proof.BoundsP Proof.MainP Proof.GeomR.
Import ListNotations.
Open Scope Z_scope.

(** ** Names *)
Lemma names_clash cells : 11 <= cells ->
  exists x y z x' y' z', (0 <= x < cells /\ 0 <= y < cells /\ 0 <= z < cells) /\ (0 <= x' < cells /\ 0 <= y' < cells /\ 0 <= z' < cells) /\
    (x, y, z) <> (x', y', z') /\ sheet_name x y z = sheet_name x' y' z'.
Proof.
  intros H. exists 1, 0, 10, 10, 1, 0. split; [lia|]. split; [lia|]. split; [intro E; injection E; lia|]. reflexivity.
Qed.
Definition digit (c : ascii) : Z := Z.of_nat (nat_of_ascii c) - 48.
Lemma decimal_digit x : 0 <= x < 10 -> exists c, decimal x = String c EmptyString /\ digit c = x.
Proof.
  intros H. assert (C : x = 0 \/ x = 1 \/ x = 2 \/ x = 3 \/ x = 4 \/ x = 5 \/ x = 6 \/ x = 7 \/ x = 8 \/ x = 9) by lia.
  repeat destruct C as [->|C]; [| | | | | | | | |subst x]; eexists; split; reflexivity.
Qed.
Lemma names_distinct cells x y z x' y' z' : cells <= 10 ->
  0 <= x < cells -> 0 <= y < cells -> 0 <= z < cells -> 0 <= x' < cells -> 0 <= y' < cells -> 0 <= z' < cells ->
  sheet_name x y z = sheet_name x' y' z' -> (x, y, z) = (x', y', z').
Proof.
  intros HC Hx Hy Hz Hx' Hy' Hz'. unfold sheet_name.
  destruct (decimal_digit x) as (a & -> & <-); [lia|]. destruct (decimal_digit y) as (b & -> & <-); [lia|]. destruct (decimal_digit z) as (c & -> & <-); [lia|].
  destruct (decimal_digit x') as (a' & -> & <-); [lia|]. destruct (decimal_digit y') as (b' & -> & <-); [lia|]. destruct (decimal_digit z') as (c' & -> & <-); [lia|].
  cbn. intros E. injection E. intros -> -> ->. reflexivity.
Qed.

(** ** Cell numbers *)
Lemma halve_ok f : forall c, (Z.to_nat (Z.log2 c) < f)%nat -> halve f c = Ok (if 1 <=? c then 1 else c).
Proof.
  induction f as [|f IH]; intros c H; [lia|]. cbn [halve].
  destruct (Z.gtb_spec c 1) as [G|G].
  - rewrite Z.quot_div_nonneg by lia.
    assert (L : Z.log2 (c / 2) = Z.log2 c - 1).
    { rewrite <- Z.div2_div. pose proof (Z.log2_shiftr c 1 ltac:(lia)) as E. pose proof (Z.log2_pos c ltac:(lia)).
      rewrite Z.shiftr_div_pow2 in E by lia. change (2 ^ 1) with 2 in E. rewrite Z.div2_div. lia. }
    pose proof (Z.log2_pos c ltac:(lia)). rewrite IH by lia.
    assert (1 <= c / 2) by (apply Z.div_le_lower_bound; lia).
    destruct (Z.leb_spec 1 (c / 2)), (Z.leb_spec 1 c); try lia; reflexivity.
  - destruct (Z.leb_spec 1 c); [f_equal; lia|reflexivity].
Qed.
Lemma valid_cells c : valid_cell_num c = Ok (1 <=? c).
Proof.
  unfold valid_cell_num. rewrite halve_ok by lia. cbn [bind].
  destruct (Z.leb_spec 1 c); [reflexivity|]. f_equal. lia.
Qed.
Lemma valid_cells_bad : valid_cell_num 3 = Ok true /\ ~ power_of_two 3.
Proof.
  split; [reflexivity|]. intros (k & Hk & E). assert (C : k = 0 \/ k = 1 \/ 2 <= k) by lia. destruct C as [->|[->|C]]; [discriminate|discriminate|].
  pose proof (Z.pow_le_mono_r 2 2 k ltac:(lia) C). lia.
Qed.
Lemma valid_cells_partial c : (power_of_two c -> valid_cell_num c = Ok true) /\ (valid_cell_num c = Ok true <-> 1 <= c) /\ (c <= 0 -> valid_cell_num c = Ok false).
Proof.
  rewrite valid_cells. split; [|split].
  - intros (k & Hk & ->). pose proof (Z.pow_pos_nonneg 2 k ltac:(lia) Hk). f_equal. lia.
  - split; [intros E; injection E; lia|intros; f_equal; lia].
  - intros. f_equal. lia.
Qed.

(** ** Modes *)
Lemma perm_filter {A} (f : A -> bool) a b : Permutation a b -> Permutation (filter f a) (filter f b).
Proof.
  induction 1; cbn [filter].
  - constructor.
  - destruct (f x); [now constructor|assumption].
  - destruct (f x), (f y); try reflexivity. apply perm_swap.
  - etransitivity; eassumption.
Qed.
Lemma mode_perm a b : Permutation a b -> get_mode_name a = get_mode_name b.
Proof.
  intros P. unfold get_mode_name. cbv zeta.
  pose proof (Permutation_map fst (perm_filter (fun v : string * string => negb (snd v =? "")%string) a b P)) as Q.
  destruct (map fst (filter _ a)) as [|x [|y l]], (map fst (filter _ b)) as [|x' [|y' l']]; try reflexivity;
    try (pose proof (Permutation_length Q) as L; cbn in L; lia).
  apply Permutation_length_1 in Q. now subst.
Qed.
Lemma mode_thm vars r c e h m : Permutation vars (mode_vars r c e h) -> (get_mode_name vars = Some m <-> only_flag m r c e h).
Proof.
  intros P. rewrite (mode_perm _ _ P). unfold get_mode_name, mode_vars, only_flag. cbn [filter snd].
  destruct (String.eqb_spec r ""), (String.eqb_spec c ""), (String.eqb_spec e ""), (String.eqb_spec h ""); cbn [negb filter map fst];
    (split; [intros E; try discriminate; injection E; intros <-; tauto|intros E; decompose [or and] E; subst; congruence]).
Qed.

(** ** Rounding *)
Open Scope R_scope.
Lemma abs_le x c : Rabs x <= c -> - c <= x <= c.
Proof. unfold Rabs. destruct (Rcase_abs x); lra. Qed.
Lemma ceil_bounds x : IZR (ceil_int (ND := RNum) x) - 1 < x <= IZR (ceil_int (ND := RNum) x).
Proof.
  unfold ceil_int; rn. rewrite opp_IZR. pose proof (Zfloor_lb (- x)). pose proof (Zfloor_ub (- x)). lra.
Qed.
Lemma round_near x : Rabs (IZR (round (ND := RNum) x) - x) <= 1 / 2.
Proof.
  unfold round; rn. pose proof (Zfloor_lb x). pose proof (Zfloor_ub x).
  pose proof (Zfloor_lb (- x)) as A. pose proof (Zfloor_ub (- x)) as B.
  assert (C : (- Zfloor (- x) <= Zfloor x + 1)%Z).
  { assert (- Zfloor (- x) < Zfloor x + 1 + 1)%Z; [|lia]. apply lt_IZR. rewrite !plus_IZR, opp_IZR. lra. }
  apply IZR_le in C. rewrite plus_IZR, opp_IZR in C.
  apply Rabs_le. destruct (Rlt_bool_spec (IZR (- Zfloor (- x)) - x) (x - IZR (Zfloor x))) as [E|E]; rewrite opp_IZR in *; lra.
Qed.
Lemma round_unique x k : Rabs (IZR k - x) < 1 / 2 -> round (ND := RNum) x = k.
Proof.
  intros H. pose proof (round_near x) as N. set (r := round x) in *. clearbody r.
  apply Rabs_def2 in H.
  apply abs_le in N.
  assert (-1 < r - k < 1)%Z; [|lia]. split; apply lt_IZR; rewrite minus_IZR; lra.
Qed.
Lemma round_thm x : Rabs (IZR (round x) - x) <= 1 / 2 /\ (forall n : Z, round (IZR n) = n) /\ (forall n : Z, round (IZR n + 1 / 2) = n).
Proof.
  split; [apply round_near|]. split.
  - intros n. apply round_unique. rewrite Rminus_diag_eq, Rabs_R0 by reflexivity. lra.
  - intros n. unfold round; rn.
    assert (E1 : Zfloor (IZR n + 1 / 2) = n) by (apply Zfloor_imp; rewrite plus_IZR; lra).
    assert (E2 : Zfloor (- (IZR n + 1 / 2)) = (- n - 1)%Z) by (apply Zfloor_imp; rewrite plus_IZR, minus_IZR, opp_IZR; lra).
    rewrite E1, E2. destruct (Rlt_bool_spec (IZR (- (- n - 1)) - (IZR n + 1 / 2)) (IZR n + 1 / 2 - IZR n)) as [E|E]; [|reflexivity].
    rewrite opp_IZR, minus_IZR, opp_IZR in E. lra.
Qed.

Lemma cube_root_thm (pow : R -> R -> R) :
  (forall k : Z, Rabs (pow (IZR (k * k * k)) (1 / 3) - IZR k) < 1 / 2 -> int_cube_root pow (k * k * k) = Ok k) /\
  (forall x c, int_cube_root pow x = Ok c -> (c * c * c = x)%Z) /\
  (forall x, (forall c, (c * c * c <> x)%Z) -> int_cube_root pow x = Panic).
Proof.
  unfold int_cube_root; rn. split; [|split].
  - intros k H. rewrite (round_unique _ k) by (rewrite Rabs_minus_sym; exact H). rewrite Z.eqb_refl. reflexivity.
  - intros x c. set (r := round _). destruct (Z.eqb_spec (r * r * r) x) as [E|E]; cbn [negb]; [intros [= <-]; exact E|discriminate].
  - intros x H. set (r := round _). destruct (Z.eqb_spec (r * r * r) x) as [E|E]; [now apply H in E|reflexivity].
Qed.

(** ** Pixels and particles *)
Lemma max_width_ge (b : box_config R) L : box_fits L b -> 0 < max_width b <= L /\ v0 (bx_w b) <= max_width b /\ v1 (bx_w b) <= max_width b /\ v2 (bx_w b) <= max_width b.
Proof. intros (A & B & C). unfold max_width; rn. destruct (Rlt_bool_spec (v1 (bx_w b)) (v0 (bx_w b))); rb; lra. Qed.

Lemma image_pixels_thm con b L : box_fits L b -> (0 < rc_imagePixels con)%Z ->
  exists cells, total_pixels con b L = Ok cells /\ (rc_imagePixels con <= cells)%Z /\
    Rabs (max_width b / (L / IZR cells) - IZR (rc_imagePixels con)) <= 1 / 2.
Proof.
  intros F HI. destruct (max_width_ge b L F) as (W & _). unfold total_pixels. replace (rc_imagePixels con >? 0)%Z with true by lia.
  rn. destruct (Rlt_bool_spec L (max_width b)) as [G|G]; [lra|].
  set (w := max_width b) in *. set (m := rc_imagePixels con) in *. eexists. split; [reflexivity|].
  pose proof (round_near (L / w * IZR m)) as RN. set (r := round (L / w * IZR m)) in *. clearbody r.
  assert (M : 1 <= IZR m) by (apply IZR_le; lia).
  assert (Q : 1 <= L / w) by (apply (Rmult_le_reg_r w); [lra|]; unfold Rdiv; rewrite Rmult_assoc, Rinv_l by lra; lra).
  assert (B : - (1 / 2) <= IZR r - L / w * IZR m <= 1 / 2).
  { now apply abs_le. }
  assert (K : (m <= r)%Z).
  { assert (m - 1 < r)%Z; [|lia]. apply lt_IZR. rewrite minus_IZR. nra. }
  split; [exact K|]. assert (R1 : 1 <= IZR r) by (apply IZR_le in K; lra).
  replace (w / (L / IZR r) - IZR m) with (w / L * (IZR r - L / w * IZR m)) by (field; lra).
  rewrite Rabs_mult. assert (0 < w / L <= 1).
  { split; [apply Rdiv_lt_0_compat; lra|]. apply (Rmult_le_reg_r L); [lra|]. unfold Rdiv; rewrite Rmult_assoc, Rinv_l by lra; lra. }
  rewrite (Rabs_pos_eq (w / L)) by lra. pose proof (Rabs_pos (IZR r - L / w * IZR m)). nra.
Qed.

Lemma ceil_pos x : 0 < x -> (0 < ceil_int (ND := RNum) x)%Z.
Proof. intros H. pose proof (ceil_bounds x). apply lt_IZR. lra. Qed.

Lemma numbers_thm con b L : accepted_render con = true -> box_fits L b ->
  exists cells pts, box_numbers con b L = Ok (cells, pts) /\ (0 < cells)%Z /\ (0 < pts)%Z /\
    (rc_auto con = true -> exists depth, (match along_axis b with Some w => least_above depth (w / (L / IZR cells)) | None => depth = 1%Z end) /\
       least_above pts (5 * (IZR cells / 500) ^ 3 * IZR (rc_subsample con) ^ 3 / IZR depth)).
Proof.
  intros HA F. unfold accepted_render in HA.
  assert (TP : exists cells, total_pixels con b L = Ok cells /\ (0 < cells)%Z).
  { destruct (Z_lt_dec 0 (rc_imagePixels con)) as [H|H].
    - destruct (image_pixels_thm con b L F H) as (c & E & K & _). exists c. split; [exact E|lia].
    - exists (rc_totalPixels con). unfold total_pixels. replace (rc_imagePixels con >? 0)%Z with false by lia. split; [reflexivity|lia]. }
  destruct TP as (cells & ET & HC). assert (HS : (0 < rc_subsample con)%Z) by lia.
  assert (PC : 1 <= IZR cells) by (apply IZR_le; lia). assert (PS : 1 <= IZR (rc_subsample con)) by (apply IZR_le; lia).
  assert (HL : 0 < L) by (destruct F; lra).
  assert (CW : 0 < L / IZR cells) by (apply Rdiv_lt_0_compat; lra).
  assert (NUM : forall depth, (0 < depth)%Z ->
     let n := ceil_int (ND := RNum) (#5 * cube (#cells / #500) * cube (#(rc_subsample con) / #1) * (#1 / #depth))%num in
     (0 < n)%Z /\ least_above n (5 * (IZR cells / 500) ^ 3 * IZR (rc_subsample con) ^ 3 / IZR depth)).
  { intros depth HD n. assert (PD : 1 <= IZR depth) by (apply IZR_le; lia).
    assert (EX : (#5 * cube (#cells / #500) * cube (#(rc_subsample con) / #1) * (#1 / #depth))%num =
       5 * (IZR cells / 500) ^ 3 * IZR (rc_subsample con) ^ 3 / IZR depth).
    { unfold cube; rn. field. lra. }
    assert (0 < 5 * (IZR cells / 500) ^ 3 * IZR (rc_subsample con) ^ 3 / IZR depth).
    { apply Rdiv_lt_0_compat; [|lra]. apply Rmult_lt_0_compat; [apply Rmult_lt_0_compat; [lra|]|]; apply pow_lt; lra. }
    subst n. rewrite EX. split; [now apply ceil_pos|apply ceil_bounds]. }
  unfold box_numbers, particles. rewrite ET. cbn [bind].
  destruct (rc_auto con) eqn:EA.
  - set (depth := if (bx_axis b =? "X")%string then ceil_int (v0 (bx_w b) / (L / #cells))%num else if (bx_axis b =? "Y")%string then ceil_int (v1 (bx_w b) / (L / #cells))%num
        else if (bx_axis b =? "Z")%string then ceil_int (v2 (bx_w b) / (L / #cells))%num else 1%Z).
    assert (HD : (0 < depth)%Z /\ match along_axis b with Some w => least_above depth (w / (L / IZR cells)) | None => depth = 1%Z end).
    { destruct F as (F0 & F1 & F2). unfold depth, along_axis.
      destruct ((bx_axis b =? "X")%string); [split; [apply ceil_pos; rn; apply Rdiv_lt_0_compat; lra|apply ceil_bounds]|].
      destruct ((bx_axis b =? "Y")%string); [split; [apply ceil_pos; rn; apply Rdiv_lt_0_compat; lra|apply ceil_bounds]|].
      destruct ((bx_axis b =? "Z")%string); [split; [apply ceil_pos; rn; apply Rdiv_lt_0_compat; lra|apply ceil_bounds]|]. split; [lia|reflexivity]. }
    destruct HD as (HD & HX). clearbody depth. cbn [bind]. replace (depth >? 0)%Z with true by lia. cbn [bind].
    destruct (NUM depth HD) as (N1 & N2). do 2 eexists. split; [reflexivity|]. split; [exact HC|]. split; [exact N1|]. intros _. exists depth. auto.
  - cbn [bind]. destruct (Z.gtb_spec (rc_depth con) 0) as [G|G]; cbn [bind].
    + destruct (NUM (rc_depth con) ltac:(lia)) as (N1 & N2). do 2 eexists. split; [reflexivity|]. split; [exact HC|]. split; [exact N1|discriminate].
    + do 2 eexists. split; [reflexivity|]. split; [exact HC|]. split; [lia|discriminate].
Qed.

Definition demo_box : box_config R := BoxC (V3 0 0 0) (V3 50 50 50) "Z"%string.
Lemma demo_fits : box_fits 100 demo_box.
Proof. unfold box_fits, demo_box. cbn [bx_w v0 v1 v2]. lra. Qed.

(** The recorded numbers are not the ones used. *)
Lemma recorded_bad : exists con : render_config, accepted_render con = true /\ box_fits 100 demo_box /\
  exists cells pts, box_numbers con demo_box 100 = Ok (cells, pts) /\ fst (recorded con) <> pts /\ snd (recorded con) <> cells.
Proof.
  set (con := RC 0 0 true 500 0 1). exists con.
  split; [reflexivity|]. split; [exact demo_fits|].
  destruct (numbers_thm con demo_box 100 eq_refl demo_fits) as (cells & pts & E & A & B & _).
  exists cells, pts. split; [exact E|]. cbn. lia.
Qed.
Lemma recorded_ok con b L : accepted_render con = true -> box_fits L b -> rc_imagePixels con = 0%Z -> rc_depth con = 0%Z -> rc_auto con = false ->
  box_numbers con b L = Ok (snd (recorded con), fst (recorded con)).
Proof.
  intros HA F HI HD HU. unfold box_numbers, particles, total_pixels. rewrite HI, HU, HD. reflexivity.
Qed.

(** ** Units *)
Lemma wrap_in L x : 0 < L -> - L <= x < 2 * L -> 0 <= wrap_distance (ND := RNum) L x < L /\ exists k : Z, wrap_distance L x = x + IZR k * L.
Proof.
  intros HL H. unfold wrap_distance; rn. rb; (split; [lra|]); [exists 1%Z|exists (-1)%Z|exists 0%Z]; lra.
Qed.
Lemma units_bad : exists L u x : R, (0 < L /\ 0 < u /\ 0 <= x < L) /\
  ~ 0 <= stored_position (ND := RNum) (NF := RNum) (fun v => v) (fun v => v) L u x < stored_width L u.
Proof.
  exists 100, 1000, 50. split; [lra|].
  unfold stored_position, stored_width, wrap_distance; rn. rb; lra.
Qed.
Lemma units_one L x : 0 < L -> - L <= x < 2 * L ->
  let p := stored_position (ND := RNum) (NF := RNum) (fun v => v) (fun v => v) L 1 x in
  0 <= p < stored_width L 1 /\ exists k : Z, p = x + IZR k * L.
Proof.
  intros HL H p. subst p. unfold stored_position, stored_width; rn. rewrite Rmult_1_r. now apply wrap_in.
Qed.
(** With single precision positions the upper end of the box can be reached. *)
Lemma units_rounded : let L := f64lit 1000 0 in let x := f32lit (-1) (-40) in
  (to_f64 (stored_position to_f32 to_f64 L (f64lit 1 0) x) =? stored_width L (f64lit 1 0))%num = true.
Proof. vm_compute. reflexivity. Qed.

(** ** Velocity bounds need not be tight. *)
Definition fast_first : list (vec3 R) := V3 5 5 5 :: repeat (V3 0 0 0) 26.
Lemma fast_zn i : (1 <= i < 27)%Z -> zn (V3 0 0 0) fast_first i = V3 0 0 0.
Proof.
  intros H. unfold zn, fast_first. replace (Z.to_nat i) with (S (Z.to_nat (i - 1))) by lia. cbn [nth]. apply nth_repeat.
Qed.
Lemma vel_zero l : Forall (fun v => v = V3 0 0 0) l -> vel_of (V3 5 5 5) (V3 0 0 0 :: l) = (V3 0 0 0, V3 5 5 5).
Proof.
  intros H. unfold vel_of. cbn [fold_left].
  assert (Z5 : v_bounds1 (5, 5) 0 = (0, 5)) by (unfold v_bounds1; rn; cbn [fst snd]; rb; try lra; reflexivity).
  assert (Z0 : v_bounds1 (0, 5) 0 = (0, 5)) by (unfold v_bounds1; rn; cbn [fst snd]; rb; try lra; reflexivity).
  assert (B5 : v_bounds (V3 5 5 5, V3 5 5 5) (V3 0 0 0) = (V3 0 0 0, V3 5 5 5)) by (unfold v_bounds; cbn [fst snd v0 v1 v2]; rewrite Z5; reflexivity).
  assert (B0 : v_bounds (V3 0 0 0, V3 5 5 5) (V3 0 0 0) = (V3 0 0 0, V3 5 5 5)) by (unfold v_bounds; cbn [fst snd v0 v1 v2]; rewrite Z0; reflexivity).
  rewrite B5. induction H as [|v l -> H IH]; [reflexivity|]. cbn [fold_left]. rewrite B0. exact IH.
Qed.
Lemma velocity_loose : exists xs vs out name sg,
  write_grids (V3 0 0 0) 3 3 100 xs vs = Ok out /\ get out (cube_index 3 1 1 1) = Ok (name, sg) /\
  Forall (fun v => v = V3 0 0 0) (sg_v sg) /\ sg_vwidth sg = V3 5 5 5.
Proof.
  exists fast_first, fast_first.
  destruct (write_grids_ok (V3 0 0 0) 3 1 3 100 fast_first fast_first) as (out & E & L & H); try lia; [reflexivity|reflexivity|].
  destruct (H 1 1 1)%Z as (sg & G & A & B & C); try lia. exists out, (sheet_name 1 1 1), sg. split; [exact E|]. split; [exact G|].
  destruct B as (LB & B). cbn in LB.
  assert (Z0 : forall i, (0 <= i < 8)%Z -> zn (V3 0 0 0) (sg_v sg) i = V3 0 0 0).
  { intros i Hi.
    assert (EI : exists a b c, (0 <= a <= 1)%Z /\ (0 <= b <= 1)%Z /\ (0 <= c <= 1)%Z /\ i = cube_index (1 + 1) a b c).
    { unfold cube_index. exists (i mod 2)%Z, ((i / 2) mod 2)%Z, (i / 4)%Z.
      assert (C8 : (i = 0 \/ i = 1 \/ i = 2 \/ i = 3 \/ i = 4 \/ i = 5 \/ i = 6 \/ i = 7)%Z) by lia.
      repeat destruct C8 as [->|C8]; [| | | | | | |subst i]; cbn; lia. }
    destruct EI as (a & b & c & Ha & Hb & Hc & ->). rewrite B by assumption. apply fast_zn. unfold periodic_index.
    assert (a = 0 \/ a = 1)%Z as [-> | ->] by lia; assert (b = 0 \/ b = 1)%Z as [-> | ->] by lia; assert (c = 0 \/ c = 1)%Z as [-> | ->] by lia; cbn; lia. }
  assert (AL : Forall (fun v => v = V3 0 0 0) (sg_v sg)).
  { apply Forall_forall. intros v Hv. destruct (In_nth _ _ (V3 0 0 0) Hv) as (k & Hk & <-).
    specialize (Z0 (Z.of_nat k)). unfold zn in Z0. rewrite Nat2Z.id in Z0. apply Z0. unfold zlen in LB. lia. }
  split; [exact AL|]. cbv zeta in C. destruct C as (_ & _ & _ & C4). rewrite C4.
  destruct (sg_v sg) as [|v l] eqn:EV; [unfold zlen in LB; cbn in LB; lia|]. inversion AL as [|? ? -> AL']; subst.
  change (zn (V3 0 0 0) fast_first 0) with (V3 5 5 5). rewrite vel_zero by assumption. cbn [fst snd]. unfold vmap2; rn. cbn [v0 v1 v2]. f_equal; lra.
Qed.
