(** Validators of configuration values. *)
From Coq Require Import ZArith List Bool String Ascii Reals Lia Lra ZifyBool ZifyNat.
From Flocq Require Import Core.Raux.
From Verif Require Import Base.Res Base.ResFacts Base.Num Base.IEEE Model.Geom Model.Density Model.Config Model.Render Spec.Regions Spec.Workspace Proof.RenderP.
Import ListNotations.
Open Scope R_scope.

(** ** Balls *)
Lemma ball_origin_ok L x rad : 0 <= x < L -> 0 < rad < L -> x <> rad -> lower_end L x rad (ball_origin x rad L).
Proof.
  intros Hx Hr Hn. unfold ball_origin, lower_end, inside_period. cbn.
  destruct (Rlt_bool_spec rad x).
  - split; [exists 0%Z; cbn; lra|lra].
  - split; [exists 1%Z; cbn; lra|lra].
Qed.
Lemma ball_box_ok L b : 0 < L -> 0 <= bl_x b < L -> 0 <= bl_y b < L -> 0 <= bl_z b < L ->
  let rad := bl_radius b * bl_multiplier b in
  0 < rad < L -> bl_x b <> rad -> bl_y b <> rad -> bl_z b <> rad ->
  encloses_ball L b (ball_box b L).
Proof.
  intros HL Hx Hy Hz rad Hr N1 N2 N3. unfold encloses_ball, ball_box. cbn [bx_o bx_w v0 v1 v2].
  split; [apply ball_origin_ok; auto|]. split; [apply ball_origin_ok; auto|]. split; [apply ball_origin_ok; auto|].
  unfold all_coords. cbn. lra.
Qed.

Lemma ball_box_edge : let b := BallC 1 2 2 1 1 in let L := 10 in
  ball_check_init b L = Some b /\ ~ inside_period L (v0 (bx_o (ball_box b L))) /\ box_check_init (ball_box b L) L = None.
Proof.
  cbv zeta. unfold ball_check_init, ball_box, box_check_init, ball_origin, outside, inside_period. cbn.
  repeat match goal with
  | |- context[Rlt_bool ?a ?b] => destruct (Rlt_bool_spec a b); try lra; cbn
  | |- context[Rle_bool ?a ?b] => destruct (Rle_bool_spec a b); try lra; cbn
  | |- context[Req_bool ?a ?b] => destruct (Req_bool_spec a b); try lra; cbn
  end.
  split; [reflexivity|]. split; [lra|reflexivity].
Qed.
Lemma ball_negative : let b := BallC 1 2 2 (-1) 1 in let L := 10 in
  ball_check_init b L = Some b /\ v0 (bx_w (ball_box b L)) < 0 /\ box_check_init (ball_box b L) L = None.
Proof.
  cbv zeta. unfold ball_check_init, ball_box, box_check_init, ball_origin, outside. cbn.
  repeat match goal with
  | |- context[Rlt_bool ?a ?b] => destruct (Rlt_bool_spec a b); try lra; cbn
  | |- context[Rle_bool ?a ?b] => destruct (Rle_bool_spec a b); try lra; cbn
  | |- context[Req_bool ?a ?b] => destruct (Req_bool_spec a b); try lra; cbn
  end.
  all: split; [reflexivity|]; split; [lra|reflexivity].
Qed.

(** ** Trimming *)
Open Scope string_scope.
Definition spaces (n : nat) : string := string_of_list_ascii (repeat " "%char n).

Lemma trim_left_spec s : exists i, s = spaces i ++ trim_left s.
Proof.
  induction s as [|c s IH]; [exists O; reflexivity|]. cbn [trim_left].
  destruct (Ascii.eqb_spec c " ") as [->|]; [|exists O; reflexivity].
  destruct IH as (i & E). exists (Datatypes.S i). cbn. f_equal. exact E.
Qed.
Lemma trim_right_spec s : exists j, s = trim_right s ++ spaces j.
Proof.
  induction s as [|c s IH]; [exists O; reflexivity|]. cbn [trim_right].
  destruct IH as (j & E). destruct (trim_right s) as [|t ts].
  - destruct (Ascii.eqb_spec c " ") as [->|].
    + exists (Datatypes.S j). cbn. f_equal. exact E.
    + exists j. cbn. f_equal. exact E.
  - exists j. cbn in E |- *. f_equal. exact E.
Qed.
Lemma trim_right_spaces j : trim_right (spaces j) = "".
Proof. induction j; cbn; [reflexivity|]. unfold spaces in IHj. rewrite IHj. reflexivity. Qed.
Lemma trim_left_spaces i s : trim_left (spaces i ++ s) = trim_left s.
Proof. induction i; cbn; auto. Qed.
Lemma trim_left_all j : trim_left (spaces j) = "".
Proof. induction j; cbn; [reflexivity|]. exact IHj. Qed.
Lemma trim_letter c j : c <> " "%char -> trim_right (trim_left (String c (spaces j))) = String c "".
Proof.
  intros H. cbn [trim_left]. destruct (Ascii.eqb_spec c " ") as [E|E]; [contradiction|].
  cbn [trim_right]. rewrite trim_right_spaces. destruct (Ascii.eqb_spec c " "); [contradiction|reflexivity].
Qed.
Lemma map_string_app f a b : map_string f (a ++ b) = map_string f a ++ map_string f b.
Proof. induction a; cbn; congruence. Qed.
Lemma upper_spaces i : to_upper (spaces i) = spaces i.
Proof. unfold to_upper. induction i; cbn; [reflexivity|]. unfold spaces in IHi. rewrite IHi. reflexivity. Qed.
Lemma up_space c : up_ascii c = " "%char -> c = " "%char.
Proof.
  unfold up_ascii. cbv zeta. destruct ((97 <=? nat_of_ascii c)%nat && (nat_of_ascii c <=? 122)%nat) eqn:E; auto.
  intros H. exfalso. apply (f_equal nat_of_ascii) in H. rewrite nat_ascii_embedding in H by lia. cbn in H. lia.
Qed.
Lemma upper_spaces_inv s i : to_upper s = spaces i -> s = spaces i.
Proof.
  unfold to_upper. revert i; induction s as [|c s IH]; intros [|i]; cbn; try discriminate; auto.
  intros H. injection H as H1 H2. f_equal; [apply up_space; exact H1|]. apply IH. exact H2.
Qed.
Lemma upper_split s a b : to_upper s = a ++ b -> exists a' b', s = a' ++ b' /\ to_upper a' = a /\ to_upper b' = b.
Proof.
  unfold to_upper. revert a; induction s as [|c s IH]; intros a H.
  - destruct a; [|discriminate]. exists "", "". cbn in *. auto.
  - destruct a as [|d a]; cbn in H.
    + exists "", (String c s). cbn. auto.
    + injection H as H1 H2. destruct (IH a H2) as (a' & b' & -> & E1 & E2).
      exists (String c a'), b'. cbn. split; [reflexivity|]. split; [congruence|exact E2].
Qed.
Lemma upper_char c d : up_ascii c = d -> c = d \/ nat_of_ascii d = (nat_of_ascii c - 32)%nat /\ (97 <= nat_of_ascii c <= 122)%nat.
Proof.
  unfold up_ascii. cbv zeta. destruct ((97 <=? nat_of_ascii c)%nat && (nat_of_ascii c <=? 122)%nat) eqn:E; auto.
  intros <-. right. rewrite nat_ascii_embedding by lia. lia.
Qed.
Lemma upper_letter (c d l : ascii) : up_ascii c = d -> nat_of_ascii l = (nat_of_ascii d + 32)%nat -> c = d \/ c = l.
Proof.
  intros H1 H2. apply upper_char in H1. destruct H1 as [H1|[H1 H3]]; auto. right.
  rewrite <- (ascii_nat_embedding c), <- (ascii_nat_embedding l). f_equal. lia.
Qed.

Lemma trim_upper s axis : In axis [""; "X"; "Y"; "Z"] ->
  (trim_space (to_upper s) = axis <-> exists core, axis_name core axis /\ padded core s).
Proof.
  intros HA. unfold trim_space. split.
  - intros H. destruct (trim_left_spec (to_upper s)) as (i & E1). destruct (trim_right_spec (trim_left (to_upper s))) as (j & E2).
    rewrite E2 in E1. rewrite H in E1. clear E2 H.
    apply upper_split in E1. destruct E1 as (s1 & s2 & -> & E1 & E2).
    apply upper_split in E2. destruct E2 as (core & s3 & -> & E2 & E3).
    apply upper_spaces_inv in E1. apply upper_spaces_inv in E3. subst s1 s3.
    exists core. split; [|exists i, j; reflexivity].
    unfold axis_name. unfold to_upper in E2.
    cbn [In] in HA |- *. destruct HA as [<-|[<-|[<-|[<-|[]]]]].
    + destruct core; [auto|discriminate].
    + destruct core as [|c [|]]; try discriminate. cbn in E2. injection E2 as E2.
      destruct (upper_letter _ _ "x"%char E2 eq_refl) as [->| ->]; auto.
    + destruct core as [|c [|]]; try discriminate. cbn in E2. injection E2 as E2.
      destruct (upper_letter _ _ "y"%char E2 eq_refl) as [->| ->]; auto 10.
    + destruct core as [|c [|]]; try discriminate. cbn in E2. injection E2 as E2.
      destruct (upper_letter _ _ "z"%char E2 eq_refl) as [->| ->]; auto 10.
  - intros (core & HC & i & j & ->). fold (spaces i) (spaces j).
    unfold to_upper. rewrite !map_string_app. fold to_upper. rewrite !upper_spaces, trim_left_spaces.
    unfold axis_name in HC. cbn [In] in HC.
    repeat destruct HC as [HC|HC]; [injection HC as <- <-..|contradiction].
    1:{ match goal with |- trim_right (trim_left ?t) = _ => change t with (spaces j) end.
        rewrite trim_left_all. reflexivity. }
    all: match goal with |- trim_right (trim_left ?t) = String ?c "" => change t with (String c (spaces j)) end;
      apply trim_letter; discriminate.
Qed.

(** ** Boxes *)
Lemma outside_spec x L : outside x L = false <-> inside_period L x.
Proof.
  unfold outside, inside_period. cbn. destruct (Rle_bool_spec L x), (Rlt_bool_spec x 0); cbn; split; try congruence; lra.
Qed.

Theorem box_check_ok (L : R) b r : box_check_init b L = Some r <->
  box_in_period L b /\ bx_o r = bx_o b /\ bx_w r = bx_w b /\ exists core, axis_name core (bx_axis r) /\ padded core (bx_axis b).
Proof.
  unfold box_check_init, box_in_period, all_coords. cbn [nleb nofZ RNum].
  pose proof (outside_spec (v0 (bx_o b)) L) as O0. pose proof (outside_spec (v1 (bx_o b)) L) as O1. pose proof (outside_spec (v2 (bx_o b)) L) as O2.
  destruct (Rle_bool_spec (v0 (bx_w b)) 0) as [W0|W0]; [split; [discriminate|intros H; exfalso; lra]|].
  destruct (Rle_bool_spec (v1 (bx_w b)) 0) as [W1|W1]; [split; [discriminate|intros H; exfalso; lra]|].
  destruct (Rle_bool_spec (v2 (bx_w b)) 0) as [W2|W2]; [split; [discriminate|intros H; exfalso; lra]|].
  destruct (outside (v0 (bx_o b)) L); [split; [discriminate|intros (([? [? ?]] & [? [? ?]]) & _); exfalso; assert (true = false) by tauto; discriminate]|].
  destruct (outside (v1 (bx_o b)) L); [split; [discriminate|intros (([? [? ?]] & [? [? ?]]) & _); exfalso; assert (true = false) by tauto; discriminate]|].
  destruct (outside (v2 (bx_o b)) L); [split; [discriminate|intros (([? [? ?]] & [? [? ?]]) & _); exfalso; assert (true = false) by tauto; discriminate]|].
  set (axis := trim_space (to_upper (bx_axis b))).
  assert (HA : (negb (axis =? "") && negb (axis =? "X") && negb (axis =? "Y") && negb (axis =? "Z"))%bool = false <-> In axis [""; "X"; "Y"; "Z"]).
  { cbn [In]. destruct (String.eqb_spec axis ""), (String.eqb_spec axis "X"), (String.eqb_spec axis "Y"), (String.eqb_spec axis "Z");
      cbn; split; intros H; try discriminate; auto 10.
    destruct H as [H|[H|[H|[H|[]]]]]; congruence. }
  destruct (negb (axis =? "") && negb (axis =? "X") && negb (axis =? "Y") && negb (axis =? "Z"))%bool eqn:EA.
  - split; [discriminate|]. intros (_ & _ & _ & core & HN & HP). exfalso.
    assert (HI : In (bx_axis r) [""; "X"; "Y"; "Z"]).
    { unfold axis_name in HN. cbn [In] in HN |- *. repeat destruct HN as [HN|HN]; [injection HN as _ <-..|contradiction]; auto 10. }
    assert (HE : axis = bx_axis r) by (apply (proj2 (trim_upper (bx_axis b) (bx_axis r) HI)); exists core; auto).
    assert (true = false) by (apply HA; rewrite HE; exact HI). discriminate.
  - assert (HI : In axis [""; "X"; "Y"; "Z"]) by (apply HA; reflexivity).
    assert (IN : (0 < v0 (bx_w b) /\ 0 < v1 (bx_w b) /\ 0 < v2 (bx_w b))%R /\ inside_period L (v0 (bx_o b)) /\ inside_period L (v1 (bx_o b)) /\ inside_period L (v2 (bx_o b)))
      by (split; [lra|tauto]).
    split.
    + intros H. assert (HR : r = BoxC (bx_o b) (bx_w b) axis) by congruence. rewrite HR. cbn [bx_o bx_w bx_axis].
      split; [exact IN|]. split; [reflexivity|]. split; [reflexivity|].
      apply (proj1 (trim_upper (bx_axis b) axis HI)). reflexivity.
    + intros (_ & E1 & E2 & core & HN & HP). destruct r as [o w a]. cbn [bx_o bx_w bx_axis] in *. subst o w. do 2 f_equal.
      assert (HI' : In a [""; "X"; "Y"; "Z"]).
      { unfold axis_name in HN. cbn [In] in HN |- *. repeat destruct HN as [HN|HN]; [injection HN as _ <-..|contradiction]; auto 10. }
      apply (proj2 (trim_upper (bx_axis b) a HI')). exists core; auto.
Qed.

(** Balls that are checked and are not at the edge give boxes that would pass. *)
Theorem ball_boxes_pass (L : R) b b' : ball_check_init b L = Some b' ->
  let rad := (bl_radius b' * bl_multiplier b')%R in
  (0 < bl_radius b)%R -> (rad < L)%R -> bl_x b <> rad -> bl_y b <> rad -> bl_z b <> rad ->
  encloses_ball L b' (ball_box b' L) /\ box_check_init (ball_box b' L) L = Some (ball_box b' L).
Proof.
  unfold ball_check_init. cbn [neqb nltb nofZ RNum].
  destruct (Req_bool_spec (bl_radius b) 0); [discriminate|].
  destruct (outside (bl_x b) L) eqn:O0; [discriminate|]. destruct (outside (bl_y b) L) eqn:O1; [discriminate|].
  destruct (outside (bl_z b) L) eqn:O2; [discriminate|].
  apply outside_spec in O0, O1, O2. unfold inside_period in *.
  intros HB. assert (HS : bl_x b' = bl_x b /\ bl_y b' = bl_y b /\ bl_z b' = bl_z b /\ bl_radius b' = bl_radius b /\ (0 < bl_multiplier b')%R).
  { destruct (Req_bool_spec (bl_multiplier b) 0) as [M|M].
    - assert (E : b' = BallC (bl_x b) (bl_y b) (bl_z b) (bl_radius b) 1%R) by (cbn in HB; congruence). rewrite E. cbn. repeat split; auto; lra.
    - destruct (Rlt_bool_spec (bl_multiplier b) 0) as [M'|M']; [discriminate|].
      assert (E : b' = b) by congruence. rewrite E. repeat split; auto. lra. }
  destruct HS as (E0 & E1 & E2 & ER & EM). set (rad := (bl_radius b' * bl_multiplier b')%R). intros HR HL N0 N1 N2.
  assert (HP : (0 < rad)%R) by (unfold rad; apply Rmult_lt_0_compat; lra).
  assert (HE : encloses_ball L b' (ball_box b' L)) by (apply ball_box_ok; fold rad; rewrite ?E0, ?E1, ?E2; auto; lra).
  split; [exact HE|]. apply box_check_ok.
  destruct HE as ((_ & H0) & (_ & H1) & (_ & H2) & (W0 & W1 & W2)). fold rad in W0, W1, W2.
  split; [|split; [reflexivity|split; [reflexivity|]]].
  - unfold box_in_period, all_coords. split; [rewrite W0, W1, W2; lra|auto].
  - exists "". split; [left; reflexivity|]. exists O, O. reflexivity.
Qed.

(** ** Powers of two *)
Open Scope Z_scope.
Lemma subsample_loop_ok fuel : forall s, 0 < s -> s < 2 ^ Z.of_nat fuel ->
  exists b, subsample_loop fuel s = Ok b /\ (b = true <-> power_of_two s).
Proof.
  induction fuel as [|fuel IH]; intros s Hs Hf; [cbn in Hf; lia|]. cbn [subsample_loop].
  destruct (Z.eqb_spec s 1) as [->|N1].
  { exists true. split; auto. split; auto. intros _. exists 0. split; [lia|reflexivity]. }
  rewrite Z.rem_mod_nonneg, Z.quot_div_nonneg by lia.
  pose proof (Z.div_mod s 2 ltac:(lia)) as HD. pose proof (Z.mod_pos_bound s 2 ltac:(lia)) as HM.
  destruct (Z.eqb_spec (s mod 2) 1) as [E|E].
  - exists false. split; auto. split; [discriminate|]. intros (k & Hk & ->). exfalso.
    assert (0 < k) by (destruct (Z.eq_dec k 0); [subst; cbn in N1; lia|lia]).
    replace k with (Z.succ (k - 1)) in E by lia. rewrite Z.pow_succ_r in E by lia. rewrite Z.mul_comm, Z.mod_mul in E by lia. lia.
  - rewrite Nat2Z.inj_succ, Z.pow_succ_r in Hf by lia.
    destruct (IH (s / 2)) as (b & Eb & Hb); [lia|lia|].
    exists b. split; auto. rewrite Hb. split; intros (k & Hk & Hp).
    + exists (Z.succ k). split; [lia|]. rewrite Z.pow_succ_r by lia. lia.
    + assert (0 < k) by (destruct (Z.eq_dec k 0); [subst k; cbn in Hp; lia|lia]).
      exists (k - 1). split; [lia|]. rewrite Hp. replace k with (Z.succ (k - 1)) at 1 by lia. rewrite Z.pow_succ_r by lia. rewrite Z.mul_comm, Z.div_mul by lia. reflexivity.
Qed.
Theorem hist_valid_ok s : exists b, hist_valid_subsample s = Ok b /\ (b = true <-> power_of_two s).
Proof.
  unfold hist_valid_subsample. destruct (Z.leb_spec s 0).
  - exists false. split; auto. split; [discriminate|]. intros (k & Hk & ->). pose proof (Z.pow_pos_nonneg 2 k). lia.
  - apply subsample_loop_ok; auto. rewrite Nat2Z.inj_succ, Z2Nat.id by apply Z.log2_nonneg.
    pose proof (Z.log2_spec s). lia.
Qed.

Lemma render_valid_any s : render_valid_subsample s = true <-> 0 < s.
Proof. unfold render_valid_subsample. lia. Qed.
Lemma not_pow_three : ~ power_of_two 3.
Proof.
  intros (k & Hk & E). assert (k = 0 \/ k = 1 \/ 2 <= k) as [->|[->|K]] by lia; try (cbn in E; lia).
  pose proof (Z.pow_le_mono_r 2 2 k ltac:(lia) K). cbn in H. lia.
Qed.

(** ** Quantity names *)
Lemma valid_quantity_panics name : render_valid_quantity name = Panic.
Proof. reflexivity. Qed.
