(** Grid files: round trip, the flag, and where the format fails. *)
From Coq Require Import ZArith List Bool Lia ZifyBool ZifyNat.
From Verif Require Import Base.Res Base.ResFacts Base.Bytes Model.Geom Model.SheetIO Model.GridIO Spec.Files Proof.BytesP Proof.SheetP.
Import ListNotations.
Open Scope Z_scope.

(** ** Bit reversal *)
Lemma bit_one x i : 0 <= i -> (Z.land 1 (Z.shiftr x i) =? 1) = Z.testbit x i.
Proof.
  intros Hi. rewrite Z.land_comm. change 1 with (Z.ones 1) at 1. rewrite Z.land_ones by lia. change (2 ^ 1) with 2.
  rewrite Z.testbit_spec' || idtac. rewrite <- (Z.add_0_l i) at 2. rewrite <- Z.shiftr_spec by lia.
  rewrite Z.bit0_odd, <- Z.bit0_odd. rewrite Z.bit0_odd. pose proof (Zmod_odd (Z.shiftr x i)) as H. rewrite H.
  destruct (Z.odd (Z.shiftr x i)); reflexivity.
Qed.

Lemma reverse_bits x : exists y, reverse x = Ok y /\ forall j, Z.testbit y j = (0 <=? j) && (j <? 64) && Z.testbit x (63 - j).
Proof.
  unfold reverse.
  assert (K : wp (for_ 0 64 (fun i out => Ok (if Z.land 1 (Z.shiftr x i) =? 1 then Z.lor out (Z.shiftl 1 (63 - i)) else out)) 0)
    (fun y => forall j, Z.testbit y j = (63 - j <? 64) && (0 <=? 63 - j) && Z.testbit x (63 - j))).
  { apply (for_inv (fun m y => forall j, Z.testbit y j = (63 - j <? m) && (0 <=? 63 - j) && Z.testbit x (63 - j))).
    - lia.
    - intros j. rewrite Z.testbit_0_l. replace ((63 - j <? 0) && (0 <=? 63 - j)) with false by lia. reflexivity.
    - intros i y Hi HI. cbn [wp]. intros j. rewrite bit_one by lia.
      destruct (Z.eqb_spec (63 - j) i) as [E|E].
      + replace ((63 - j <? i + 1) && (0 <=? 63 - j)) with true by lia. rewrite E. cbn [andb].
        destruct (Z.testbit x i) eqn:B.
        * rewrite Z.lor_spec, Z.shiftl_spec by lia. replace (j - (63 - i)) with 0 by lia. rewrite orb_true_r. reflexivity.
        * rewrite HI. rewrite E, B. apply andb_false_r.
      + replace (63 - j <? i + 1) with (63 - j <? i) by lia. rewrite <- HI.
        destruct (Z.testbit x i); [|reflexivity]. rewrite Z.lor_spec.
        destruct (Z_lt_dec j 0).
        * rewrite !(Z.testbit_neg_r _ j) by lia. reflexivity.
        * rewrite Z.shiftl_spec by lia.
          replace (Z.testbit 1 (j - (63 - i))) with false; [now rewrite orb_false_r|].
          symmetry. destruct (Z_lt_dec (j - (63 - i)) 0); [apply Z.testbit_neg_r; lia|].
          change 1 with (2 ^ 0). apply Z.pow2_bits_false. lia. }
  apply (proj1 (wp_ok _ _)) in K. destruct K as (y & E & H). exists y. split; [exact E|]. intros j. rewrite H. f_equal. lia.
Qed.

Lemma reverse_twice x : bits 64 x -> exists y, reverse x = Ok y /\ bits 64 y /\ reverse y = Ok x.
Proof.
  intros Hx. destruct (reverse_bits x) as (y & E & Hy). destruct (reverse_bits y) as (w & E2 & Hw).
  exists y. split; [exact E|].
  assert (HY : bits 64 y).
  { unfold bits.
    assert (Y : y = y mod 2 ^ 64).
    { apply Z.bits_inj'. intros j Hj. rewrite Z.testbit_mod_pow2 by lia. rewrite Hy.
      destruct (Z.ltb_spec j 64); [now rewrite !andb_true_l|]. rewrite andb_false_r. reflexivity. }
    rewrite Y. apply Z.mod_pos_bound. lia. }
  split; [exact HY|]. rewrite E2. f_equal. apply Z.bits_inj'. intros j Hj. rewrite Hw, Hy.
  replace (63 - (63 - j)) with j by lia.
  replace (0 <=? j) with true by lia. cbn [andb].
  destruct (Z.ltb_spec j 64).
  - replace ((0 <=? 63 - j) && (63 - j <? 64)) with true by lia. reflexivity.
  - cbn [andb]. symmetry. rewrite <- (Z.mod_small x (2 ^ 64)) by exact Hx. rewrite Z.testbit_mod_pow2 by lia.
    replace (j <? 64) with false by lia. reflexivity.
Qed.

Lemma flag_value : endianness_version_flag Little = Ok 9223372036854775806 /\ endianness_version_flag Big = Ok 9223372036854775809.
Proof. split; vm_compute; reflexivity. Qed.
Lemma flag_read_little o v : endianness_version_flag o = Ok v ->
  read_endianness_version Little (put Little 8 v) = (match o with Little => (-1, 2) | Big => (0, 1) end).
Proof. destruct o; intros H; vm_compute in H; injection H as <-; vm_compute; reflexivity. Qed.
Lemma flag_read_big v : endianness_version_flag Little = Ok v ->
  read_endianness_version Big (put Little 8 v) = (-1, 129).
Proof. intros H; vm_compute in H; injection H as <-; vm_compute; reflexivity. Qed.

(** ** Round trip *)

Lemma grid_decode h rest : bits 64 (gh_flag h) -> int64 (gh_size h) -> int64 (gh_type h) -> int64 (gh_isVector h) ->
  cosmo_typed (gh_cosmo h) -> render_typed (gh_render h) -> loc_typed (gh_loc h) -> loc_typed (gh_vel h) ->
  grid_of_words (decode Little (repeat 8%nat 43) (encode Little (map (pair 8%nat) (grid_fields h)) ++ rest)) = h.
Proof.
  intros H1 H2 H3 H4 H5 H6 H7 H8.
  destruct h as [f s t i c r l v].
  destruct c as [c1 c2 c3 c4 c5 c6 c7 c8]. destruct r as [r1 r2 r3 r4 r5].
  destruct l as [[a1 a2 a3] [b1 b2 b3] [d1 d2 d3] [e1 e2 e3] g]. destruct v as [[a4 a5 a6] [b4 b5 b6] [d4 d5 d6] [e4 e5 e6] g'].
  unfold cosmo_typed, render_typed, loc_typed, all3 in *.
  cbn [gh_flag gh_size gh_type gh_isVector gh_cosmo gh_render gh_loc gh_vel ci_redshift ci_scale ci_omegaM ci_omegaL ci_hubble ci_rhoMean ci_rhoCritical ci_boxWidth ri_particles ri_totalPixels ri_subsample ri_depth ri_axis li_origin li_span li_pixelOrigin li_pixelSpan li_pixelWidth v0 v1 v2] in *.
  repeat match goal with H : Forall _ (_ :: _) |- _ => inversion_clear H | H : _ /\ _ |- _ => destruct H end.
  match goal with |- grid_of_words (decode _ ?sz (encode _ ?m ++ _)) = _ => change sz with (map fst m) end.
  rewrite decode_encode. cbn [map fst snd grid_fields loc_fields v3_list app gh_flag gh_size gh_type gh_isVector gh_cosmo gh_render gh_loc gh_vel ci_redshift ci_scale ci_omegaM ci_omegaL ci_hubble ci_rhoMean ci_rhoCritical ci_boxWidth ri_particles ri_totalPixels ri_subsample ri_depth ri_axis li_origin li_span li_pixelOrigin li_pixelSpan li_pixelWidth v0 v1 v2].
  cbv zeta beta. unfold grid_of_words. cbn [nth Nat.add].
  rewrite !signed_wrap8, !bits8 by assumption. reflexivity.
Qed.

Lemma floats_length o l : length (floats o l) = (4 * length l)%nat.
Proof. unfold floats. rewrite encode_length, map_map. cbn [fst]. unfold list_sum. induction l; cbn [map fold_right length] in *; lia. Qed.
Lemma floats_words l rest : Forall (bits 32) l -> words Little 4 (length l) (floats Little l ++ rest) = l.
Proof.
  intros H. unfold words, floats. replace (repeat 4%nat (length l)) with (map fst (map (pair 4%nat) l)).
  - rewrite decode_encode, map_map. cbn [fst snd]. induction H; cbn [map]; f_equal; auto. now apply bits4.
  - rewrite map_map. cbn [fst]. clear. induction l; cbn; congruence.
Qed.

Lemma grid_length h : length (encode Little (map (pair 8%nat) (grid_fields h))) = grid_size.
Proof. rewrite encode_length. reflexivity. Qed.

Lemma read_header_out q c r l rest flag : typed_out q c r l -> bits 64 flag ->
  read_grid_header (encode Little (map (pair 8%nat) (grid_fields (header_of flag q c r l))) ++ rest) = Good (header_of flag q c r l).
Proof.
  intros (Hq & Hc & Hr & Hl) Hf. unfold read_grid_header.
  rewrite (read_full_app [] _ rest 0 grid_size eq_refl (grid_length _) : read_full (_ ++ rest) 0 grid_size = _).
  rewrite <- (app_nil_r (encode _ _)). rewrite grid_decode; auto; try (cbn; unfold int64; lia).
  unfold loc_typed, all3, zero_loc, bits, int64; cbn. lia.
Qed.

Theorem grid_round_trip q xs c r l : typed_out q c r l -> Forall (bits 32) xs -> zlen xs = pixels l -> zlen xs < 2 ^ 63 ->
  exists file flag, write_buffer q (FScalar xs) c r l = Ok file /\ endianness_version_flag Little = Ok flag /\
    read_grid_header file = Good (header_of flag q c r l) /\ read_grid file = Ok (Good xs).
Proof.
  intros HT HX HP HM. destruct flag_value as [FV _].
  eexists. exists 9223372036854775806. unfold write_buffer. rewrite FV. cbn [bind]. cbv zeta.
  split; [reflexivity|]. split; [reflexivity|].
  assert (HB : bits 64 9223372036854775806) by (unfold bits; lia).
  pose proof (read_header_out q c r l (floats Little xs) _ HT HB) as E. unfold header_of in E |- *. change (Z.of_nat grid_size) with 344.
  split; [exact E|]. unfold read_grid. rewrite E. cbn [gh_isVector gh_loc].
  change (0 =? 1) with false. cbv iota zeta. unfold pixels in HP. rewrite <- HP.
  pose proof (zlen_nonneg xs). rewrite wrap64_id by (unfold int64; lia).
  replace (zlen xs <? 0) with false by lia. unfold zlen. rewrite Nat2Z.id.
  rewrite <- (app_nil_r (floats Little xs)).
  rewrite (read_full_app _ (floats Little xs) [] grid_size); [|apply grid_length|apply floats_length].
  rewrite <- (app_nil_r (floats Little xs)). now rewrite floats_words.
Qed.

(** A vector grid reads back as its first component only, from a header that
    denies being a vector grid. *)
Theorem vector_lost q xs ys zs c r l : typed_out q c r l -> Forall (bits 32) xs -> zlen xs = pixels l -> zlen xs < 2 ^ 63 ->
  exists file hd, write_buffer q (FVector xs ys zs) c r l = Ok file /\
    read_grid_header file = Good hd /\ gh_isVector hd = 0 /\ read_grid file = Ok (Good xs).
Proof.
  intros HT HX HP HM. destruct flag_value as [FV _].
  eexists. exists (header_of 9223372036854775806 q c r l). unfold write_buffer. rewrite FV. cbn [bind]. cbv zeta.
  split; [reflexivity|].
  assert (HB : bits 64 9223372036854775806) by (unfold bits; lia).
  pose proof (read_header_out q c r l (floats Little xs ++ floats Little ys ++ floats Little zs) _ HT HB) as E.
  unfold header_of in E |- *. change (Z.of_nat grid_size) with 344. split; [exact E|]. split; [reflexivity|].
  unfold read_grid. rewrite E. cbn [gh_isVector gh_loc].
  change (0 =? 1) with false. cbv iota zeta. unfold pixels in HP. rewrite <- HP.
  pose proof (zlen_nonneg xs). rewrite wrap64_id by (unfold int64; lia).
  replace (zlen xs <? 0) with false by lia. unfold zlen. rewrite Nat2Z.id.
  rewrite (read_full_app _ (floats Little xs) _ grid_size); [|apply grid_length|apply floats_length].
  rewrite <- (app_nil_r (floats Little xs)). now rewrite floats_words.
Qed.

(** A projected image holds fewer values than its header announces: it cannot
    be read back. *)
Theorem projected_unreadable q xs c r l : typed_out q c r l -> zlen xs < pixels l -> pixels l < 2 ^ 63 ->
  exists file, write_buffer q (FScalar xs) c r l = Ok file /\ read_grid file = Ok Err.
Proof.
  intros HT HP HM. destruct flag_value as [FV _].
  eexists. unfold write_buffer. rewrite FV. cbn [bind]. cbv zeta. split; [reflexivity|].
  assert (HB : bits 64 9223372036854775806) by (unfold bits; lia).
  pose proof (read_header_out q c r l (floats Little xs) _ HT HB) as E. unfold header_of in E |- *. change (Z.of_nat grid_size) with 344.
  unfold read_grid. rewrite E. cbn [gh_isVector gh_loc]. change (0 =? 1) with false. cbv iota zeta.
  fold (pixels l). pose proof (zlen_nonneg xs). rewrite wrap64_id by (unfold int64; lia).
  replace (pixels l <? 0) with false by lia.
  rewrite read_full_short; [reflexivity| |lia].
  rewrite app_length, grid_length, floats_length. unfold zlen in HP. lia.
Qed.
