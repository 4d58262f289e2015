(** Sheet files, raw readers, Gadget counts and the particle buffer. *)
From Coq Require Import ZArith List Bool Lia ZifyBool ZifyNat.
From Verif Require Import Base.Res Base.ResFacts Base.Bytes Model.Geom Model.SheetIO Model.GridIO Spec.Files Proof.BytesP.
Import ListNotations.
Open Scope Z_scope.

(** ** Raw readers *)
Lemma zlen_div {A} (l : list A) k n : (0 < k)%nat -> length l = (k * n)%nat -> zlen l / Z.of_nat k = Z.of_nat n.
Proof. intros Hk H. unfold zlen. rewrite H, Nat2Z.inj_mul, Z.mul_comm. apply Z.div_mul. lia. Qed.

Lemma words_ordered sys o k n l : (k * n <= length l)%nat ->
  words sys k n (if is_sys_order sys o then l else chunkmap (@rev Z) k n l) = words o k n l.
Proof.
  intros H. unfold is_sys_order. destruct (order_eqb o sys) eqn:E.
  - apply order_eqb_spec in E. now subst.
  - apply order_neq in E. subst sys. rewrite words_chunkmap_rev by auto. destruct o; reflexivity.
Qed.

Lemma vec_swap sys o mem n : length mem = (4 * n)%nat ->
  (if is_sys_order sys o then Ok mem else swap_bytes (zlen mem / 4) 4 2 3 mem) =
  Ok (if is_sys_order sys o then mem else chunkmap (@rev Z) 4 n mem).
Proof.
  intros H. destruct (is_sys_order sys o); auto. replace (zlen mem / 4) with (Z.of_nat n) by (symmetry; apply (zlen_div mem 4 n); lia). now apply swap4.
Qed.

Theorem read_vec_ok sys o a b c mem n : length b = (4 * n)%nat -> length mem = length b ->
  exists m, read_vec_as_byte sys o (a ++ b ++ c) (length a) mem = Ok (Good m) /\
    length m = length b /\ words sys 4 n m = words o 4 n b.
Proof.
  intros Hb Hm. unfold read_vec_as_byte. rewrite read_into_app by auto.
  rewrite (vec_swap sys o b n) by auto. cbn [bind]. eexists. split; [reflexivity|]. split.
  - destruct (is_sys_order sys o); auto. apply chunkmap_length; [intros; now rewrite rev_length|lia].
  - apply words_ordered. lia.
Qed.

Theorem read_int64_ok sys o a b c mem n : length b = (8 * n)%nat -> length mem = length b ->
  exists m, read_int64_as_byte sys o (a ++ b ++ c) (length a) mem = Ok (Good m) /\
    length m = length b /\ words sys 8 n m = words o 8 n b.
Proof.
  intros Hb Hm. unfold read_int64_as_byte. rewrite read_into_app by auto.
  assert (E : (if is_sys_order sys o then Ok b else swap_bytes (zlen b / 8) 8 4 7 b) =
    Ok (if is_sys_order sys o then b else chunkmap (@rev Z) 8 n b)).
  { destruct (is_sys_order sys o); auto. replace (zlen b / 8) with (Z.of_nat n) by (symmetry; apply (zlen_div b 8 n); lia). now apply swap8. }
  rewrite E. cbn [bind]. eexists. split; [reflexivity|]. split.
  - destruct (is_sys_order sys o); auto. apply chunkmap_length; [intros; now rewrite rev_length|lia].
  - apply words_ordered. lia.
Qed.

Theorem read_int32_ok sys o a b c n : length b = (4 * n)%nat ->
  read_int32_as_byte sys o (a ++ b ++ c) (length a) n = Ok (Good (map (signed 32) (words o 4 n b))).
Proof.
  intros Hb. unfold read_int32_as_byte. rewrite read_into_app by (rewrite ?repeat_length; auto).
  assert (E : (if is_sys_order sys o then Ok b else swap_bytes (Z.of_nat n) 4 2 3 b) =
    Ok (if is_sys_order sys o then b else chunkmap (@rev Z) 4 n b)).
  { destruct (is_sys_order sys o); auto. now apply swap4. }
  rewrite E. cbn [bind]. now rewrite words_ordered by lia.
Qed.

(** The reader for doubles ignores the declared order. *)
Theorem read_vec64_any sys cvt o a b c n : length b = (24 * n)%nat ->
  read_vec64_as_byte sys cvt o (a ++ b ++ c) (length a) n = Ok (Good (map cvt (words sys 8 (3 * n) b))).
Proof.
  intros Hb. unfold read_vec64_as_byte. rewrite read_into_app by (rewrite ?repeat_length; auto).
  assert (E : (if is_sys_order sys o then Ok b else swap_bytes (Z.of_nat n * 3) 8 4 3 b) = Ok b).
  { destruct (is_sys_order sys o); auto. replace (Z.of_nat n * 3) with (Z.of_nat (3 * n)) by lia. apply swap64. lia. }
  rewrite E. reflexivity.
Qed.
(** The number 1 in big endian order on a little endian machine. *)
Lemma read_vec64_bad :
  let one := 4607182418800017408 in let file := put Big 8 one ++ put Big 8 one ++ put Big 8 one in
  words Big 8 3 file = [one; one; one] /\
  read_vec64_as_byte Little (fun x => x) Big file 0 1 = Ok (Good [61503; 61503; 61503]).
Proof. vm_compute. split; reflexivity. Qed.

Lemma count_low n0 n1 : bits 32 n1 -> standard_count n0 n1 = n1.
Proof.
  intros H. unfold standard_count. rewrite Z.mod_mul by lia. rewrite Z.add_0_r. apply Z.mod_small. exact H.
Qed.

(** ** Sheet files *)
Lemma signed_wrap v : int64 v -> signed 64 (v mod 2 ^ 64) = v.
Proof.
  intros H. unfold int64 in H. unfold signed. change (64 - 1) with 63.
  destruct (Z_lt_dec v 0).
  - replace (v mod 2 ^ 64) with (v + 2 ^ 64) by (apply Z.mod_unique with (q := -1); lia).
    replace (v + 2 ^ 64 <? 2 ^ 63) with false by lia. lia.
  - rewrite Z.mod_small by lia. replace (v <? 2 ^ 63) with true by lia. reflexivity.
Qed.
Lemma signed_wrap8 v : int64 v -> signed 64 (v mod 256 ^ Z.of_nat 8) = v.
Proof. apply signed_wrap. Qed.
Lemma bits8 v : bits 64 v -> v mod 256 ^ Z.of_nat 8 = v.
Proof. intros H. apply Z.mod_small. exact H. Qed.
Lemma bits4 v : bits 32 v -> v mod 256 ^ Z.of_nat 4 = v.
Proof. intros H. apply Z.mod_small. exact H. Qed.
Lemma wrap64_id v : int64 v -> wrap64 v = v.
Proof. apply signed_wrap. Qed.

Lemma sheet_decode o h rest : sheet_typed h ->
  sheet_of_words (decode o sheet_sizes (encode o (sheet_words h) ++ rest)) = h.
Proof.
  intros H. change sheet_sizes with (map fst (sheet_words h)). rewrite decode_encode.
  destruct h as [f1 f2 f3 f4 f5 f6 f7 f8 f9 f10 f11 f12 f13 [a1 a2 a3] [b1 b2 b3] [c1 c2 c3] [d1 d2 d3]].
  unfold sheet_typed, all3 in H. cbn [sh_z sh_omegaM sh_omegaL sh_h100 sh_count sh_countWidth sh_segmentWidth sh_gridWidth sh_gridCount sh_idx sh_cells sh_mass sh_totalWidth sh_origin sh_width sh_velOrigin sh_velWidth v0 v1 v2] in H.
  destruct H as (? & ? & ? & ? & ? & ? & ? & ? & ? & ? & ? & ? & ? & (? & ? & ?) & (? & ? & ?) & (? & ? & ?) & (? & ? & ?)).
  unfold sheet_words, vec_words, sheet_of_words.
  cbn [sh_z sh_omegaM sh_omegaL sh_h100 sh_count sh_countWidth sh_segmentWidth sh_gridWidth sh_gridCount sh_idx sh_cells sh_mass sh_totalWidth sh_origin sh_width sh_velOrigin sh_velWidth v0 v1 v2 map app nth fst snd plus].
  rewrite !signed_wrap8, !bits8, !bits4 by assumption. reflexivity.
Qed.

Lemma sheet_words_length o h : length (encode o (sheet_words h)) = sheet_size.
Proof. rewrite encode_length. reflexivity. Qed.

Definition prefix (h : sheet_header) : list Z := put Little 4 0 ++ put Little 4 (Z.of_nat sheet_size) ++ encode Little (sheet_words h).
Lemma prefix_length h : length (prefix h) = 160%nat.
Proof. unfold prefix. rewrite !app_length, !put_length, sheet_words_length. reflexivity. Qed.

Lemma read_header_ok h rest : sheet_typed h ->
  read_sheet_header (prefix h ++ rest) = Ok (Good (set_count h (wrap64 (sh_countWidth h * sh_countWidth h * sh_countWidth h)), Little)).
Proof.
  intros H. unfold read_sheet_header, read_int32, prefix.
  set (P1 := put Little 4 0). set (P2 := put Little 4 (Z.of_nat sheet_size)). set (E := encode Little (sheet_words h)).
  rewrite <- !app_assoc.
  assert (R1 : read_full (P1 ++ P2 ++ E ++ rest) 0 4 = Some P1) by (apply (read_full_app [] P1); reflexivity).
  rewrite R1. change (signed 32 (word Little P1)) with 0. cbn [bind endianness Z.eqb].
  rewrite (read_full_app P1 P2 (E ++ rest) 4 4) by reflexivity.
  change (signed 32 (word Little P2)) with 152. cbn [bind]. replace (152 =? Z.of_nat sheet_size) with true by reflexivity. cbn [negb].
  assert (R2 : read_full (P1 ++ P2 ++ E ++ rest) 8 sheet_size = Some E).
  { rewrite app_assoc. apply read_full_app; [reflexivity|apply sheet_words_length]. }
  rewrite R2. pose proof (sheet_decode Little h [] H) as K. rewrite app_nil_r in K. fold E in K. rewrite K. reflexivity.
Qed.

Lemma write_ok sys h xs vs n : length xs = (12 * n)%nat -> length vs = (12 * n)%nat ->
  sh_gridCount h = Z.of_nat n -> sh_gridWidth h * sh_gridWidth h * sh_gridWidth h = sh_gridCount h -> int64 (sh_gridCount h) ->
  let f l := if is_sys_order sys Little then l else chunkmap (@rev Z) 4 (3 * n) l in
  write_sheet sys h xs vs = Ok (prefix h ++ f xs ++ f vs, f xs, f vs).
Proof.
  intros Hx Hv Hn Hw Hi f. unfold write_sheet.
  replace (zlen xs / 12) with (Z.of_nat n) by (symmetry; apply (zlen_div xs 12 n); lia).
  replace (zlen vs / 12) with (Z.of_nat n) by (symmetry; apply (zlen_div vs 12 n); lia). rewrite Hn, Z.eqb_refl. cbn [negb].
  rewrite Hw, wrap64_id by auto. rewrite Hn, Z.eqb_refl. cbn [negb endianness Z.eqb bind].
  unfold write_vec_as_byte. rewrite (vec_swap sys Little xs (3 * n)) by lia. cbn [bind].
  rewrite (vec_swap sys Little vs (3 * n)) by lia. cbn [bind]. unfold prefix. rewrite <- !app_assoc. reflexivity.
Qed.

Theorem sheet_round_trip sysW sysR h xs vs n : sheet_typed h ->
  length xs = (12 * n)%nat -> length vs = (12 * n)%nat ->
  sh_gridCount h = Z.of_nat n -> sh_gridWidth h * sh_gridWidth h * sh_gridWidth h = sh_gridCount h ->
  exists file xs' vs', write_sheet sysW h xs vs = Ok (file, xs', vs') /\
    read_sheet_header file = Ok (Good (set_count h (wrap64 (sh_countWidth h * sh_countWidth h * sh_countWidth h)), Little)) /\
    forall buf, length buf = (12 * n)%nat ->
      (exists mx, read_sheet_positions sysR file buf = Ok (Good mx) /\ length mx = length xs /\
         words sysR 4 (3 * n) mx = words sysW 4 (3 * n) xs) /\
      (exists mv, read_sheet_velocities sysR file buf = Ok (Good mv) /\ length mv = length vs /\
         words sysR 4 (3 * n) mv = words sysW 4 (3 * n) vs).
Proof.
  intros HT Hx Hv Hn Hw. assert (Hi : int64 (sh_gridCount h)) by apply HT.
  pose proof (write_ok sysW h xs vs n Hx Hv Hn Hw Hi) as E. cbv zeta in E.
  set (f := fun l => if is_sys_order sysW Little then l else chunkmap (@rev Z) 4 (3 * n) l) in *.
  assert (FL : forall l, length l = (12 * n)%nat -> length (f l) = (12 * n)%nat).
  { intros l Hl. unfold f. destruct (is_sys_order sysW Little); auto. rewrite chunkmap_length; auto; [intros; now rewrite rev_length|lia]. }
  assert (FW : forall l, length l = (12 * n)%nat -> words Little 4 (3 * n) (f l) = words sysW 4 (3 * n) l).
  { intros l Hl. unfold f, is_sys_order. destruct (order_eqb Little sysW) eqn:EO.
    - apply order_eqb_spec in EO. now subst.
    - apply order_neq in EO. subst sysW. rewrite words_chunkmap_rev by lia. reflexivity. }
  exists (prefix h ++ f xs ++ f vs), (f xs), (f vs). split; [exact E|].
  pose proof (read_header_ok h (f xs ++ f vs) HT) as RH. split; [exact RH|].
  intros buf Hb.
  assert (HC : (sh_gridCount (set_count h (wrap64 (sh_countWidth h * sh_countWidth h * sh_countWidth h))) =? zlen buf / 12) = true).
  { cbn [sh_gridCount set_count]. replace (zlen buf / 12) with (Z.of_nat n) by (symmetry; apply (zlen_div buf 12 n); lia). lia. }
  split.
  - unfold read_sheet_positions. rewrite RH. cbn [bind]. rewrite HC. cbn [negb].
    change (4 + 4 + sheet_size)%nat with 160%nat. rewrite <- (prefix_length h).
    destruct (read_vec_ok sysR Little (prefix h) (f xs) (f vs) buf (3 * n)) as (m & R1 & R2 & R3).
    { rewrite FL; lia. } { rewrite FL; lia. }
    exists m. split; [exact R1|]. split; [rewrite R2, FL; lia|]. rewrite R3. now apply FW.
  - unfold read_sheet_velocities. rewrite RH. cbn [bind]. rewrite HC. cbn [negb].
    replace (4 + 4 + sheet_size + length buf)%nat with (length (prefix h ++ f xs))
      by (rewrite app_length, prefix_length, FL by auto; change sheet_size with 152%nat; lia).
    destruct (read_vec_ok sysR Little (prefix h ++ f xs) (f vs) [] buf (3 * n)) as (m & R1 & R2 & R3).
    { rewrite FL; lia. } { rewrite FL; lia. }
    rewrite app_nil_r, <- app_assoc in R1.
    exists m. split; [exact R1|]. split; [rewrite R2, FL; lia|]. rewrite R3. now apply FW.
Qed.

(** What happens to the caller's data. *)
Theorem write_keeps h xs vs file xs' vs' : write_sheet Little h xs vs = Ok (file, xs', vs') -> xs' = xs /\ vs' = vs.
Proof.
  unfold write_sheet. repeat match goal with |- context [if ?c then _ else _] => destruct c; [discriminate|] end.
  cbn. intros H. injection H as _ <- <-. auto.
Qed.
Lemma write_changes : exists file, write_sheet Big header1 ones ones =
  Ok (file, [0; 0; 128; 63; 0; 0; 128; 63; 0; 0; 128; 63], [0; 0; 128; 63; 0; 0; 128; 63; 0; 0; 128; 63]).
Proof. eexists. vm_compute. reflexivity. Qed.

(** ** Truncated files *)
Lemma firstn_prefix k (a b : list Z) : (length a <= k)%nat -> firstn k (a ++ b) = a ++ firstn (k - length a) b.
Proof. intros H. rewrite firstn_app, firstn_all2 by lia. reflexivity. Qed.

Theorem truncated_positions sys h xs vs n file xs' vs' k buf : sheet_typed h ->
  length xs = (12 * n)%nat -> length vs = (12 * n)%nat ->
  sh_gridCount h = Z.of_nat n -> sh_gridWidth h * sh_gridWidth h * sh_gridWidth h = sh_gridCount h ->
  write_sheet sys h xs vs = Ok (file, xs', vs') -> length buf = (12 * n)%nat ->
  ((160 < k)%nat -> (0 < n)%nat -> exists m, read_sheet_positions sys (firstn k file) buf = Ok (Good m)) /\
  (k = 160%nat -> (0 < n)%nat -> read_sheet_positions sys (firstn k file) buf = Ok Err) /\
  ((160 <= k <= 160 + 12 * n)%nat -> (0 < n)%nat -> read_sheet_velocities sys (firstn k file) buf = Ok Err) /\
  ((160 + 12 * n < k)%nat -> (0 < n)%nat -> exists m, read_sheet_velocities sys (firstn k file) buf = Ok (Good m)).
Proof.
  intros HT Hx Hv Hn Hw HW Hb. assert (Hi : int64 (sh_gridCount h)) by apply HT.
  pose (f := fun l => if is_sys_order sys Little then l else chunkmap (@rev Z) 4 (3 * n) l).
  assert (EF : file = prefix h ++ f xs ++ f vs).
  { pose proof (write_ok sys h xs vs n Hx Hv Hn Hw Hi) as E. cbv zeta in E. rewrite E in HW. unfold f. congruence. }
  subst file. clear HW.
  assert (FL : forall l, length l = (12 * n)%nat -> length (f l) = (12 * n)%nat).
  { intros l Hl. unfold f. destruct (is_sys_order sys Little); auto. rewrite chunkmap_length; auto; [intros; now rewrite rev_length|lia]. }
  clearbody f.
  assert (HC : (sh_gridCount (set_count h (wrap64 (sh_countWidth h * sh_countWidth h * sh_countWidth h))) =? zlen buf / 12) = true).
  { cbn [sh_gridCount set_count]. replace (zlen buf / 12) with (Z.of_nat n) by (symmetry; apply (zlen_div buf 12 n); lia). lia. }
  assert (RI : forall p, (p < min k (160 + 24 * n))%nat -> (0 < n)%nat ->
    exists m, read_vec_as_byte sys Little (firstn k (prefix h ++ f xs ++ f vs)) p buf = Ok (Good m)).
  { intros p Hp H0. unfold read_vec_as_byte, read_into.
    assert (Hlen : (0 < length (firstn (length buf) (skipn p (firstn k (prefix h ++ f xs ++ f vs)))))%nat).
    { rewrite firstn_length, skipn_length, firstn_length, !app_length, prefix_length, !FL by auto. lia. }
    remember (firstn (length buf) (skipn p (firstn k (prefix h ++ f xs ++ f vs)))) as b.
    assert (Hbl : (length b <= length buf)%nat) by (subst b; rewrite firstn_length; lia). clear Heqb.
    destruct b as [|x b]; [cbn in Hlen; lia|].
    assert (HL : length ((x :: b) ++ skipn (length (x :: b)) buf) = (4 * (3 * n))%nat) by (rewrite app_length, skipn_length; lia).
    destruct buf as [|y buf]; [cbn in Hb; lia|].
    rewrite (vec_swap sys Little _ (3 * n) HL). cbn [bind]. eauto. }
  assert (RE : forall p, (k <= p)%nat -> (0 < n)%nat ->
    read_vec_as_byte sys Little (firstn k (prefix h ++ f xs ++ f vs)) p buf = Ok Err).
  { intros p Hp H0. unfold read_vec_as_byte, read_into.
    rewrite skipn_all2 by (rewrite firstn_length; lia). rewrite firstn_nil. destruct buf; [cbn in Hb; lia|]. reflexivity. }
  assert (RH : (160 <= k)%nat -> read_sheet_header (firstn k (prefix h ++ f xs ++ f vs)) =
     Ok (Good (set_count h (wrap64 (sh_countWidth h * sh_countWidth h * sh_countWidth h)), Little))).
  { intros Hk. rewrite firstn_prefix by (rewrite prefix_length; lia). now apply read_header_ok. }
  unfold read_sheet_positions, read_sheet_velocities.
  split; [|split; [|split]]; intros Hk H0; rewrite RH by lia; cbn [bind]; rewrite HC; cbn [negb]; change (4 + 4 + sheet_size)%nat with 160%nat.
  - apply RI; lia.
  - apply RE; lia.
  - apply RE; lia.
  - destruct (le_lt_dec (min k (160 + 24 * n)) (160 + length buf)); [|apply RI; lia]. lia.
Qed.

(** Cuts inside the header. *)
Theorem truncated_header sys h xs vs n file xs' vs' k buf : sheet_typed h ->
  length xs = (12 * n)%nat -> length vs = (12 * n)%nat ->
  sh_gridCount h = Z.of_nat n -> sh_gridWidth h * sh_gridWidth h * sh_gridWidth h = sh_gridCount h ->
  write_sheet sys h xs vs = Ok (file, xs', vs') -> length buf = (12 * n)%nat ->
  ((k < 8)%nat -> read_sheet_velocities sys (firstn k file) buf = Panic /\ read_sheet_positions sys (firstn k file) buf = Panic) /\
  ((8 <= k < 160)%nat -> read_sheet_velocities sys (firstn k file) buf = Ok Err /\ read_sheet_positions sys (firstn k file) buf = Ok (Good buf)).
Proof.
  intros HT Hx Hv Hn Hw HW Hb. assert (Hi : int64 (sh_gridCount h)) by apply HT.
  assert (EF : exists r, file = prefix h ++ r).
  { pose proof (write_ok sys h xs vs n Hx Hv Hn Hw Hi) as E. cbv zeta in E. rewrite E in HW. eexists. symmetry in HW. inversion HW. reflexivity. }
  destruct EF as (r0 & ->). clear HW.
  unfold prefix. set (P1 := put Little 4 0). set (P2 := put Little 4 (Z.of_nat sheet_size)). rewrite <- !app_assoc.
  match goal with |- context [P1 ++ P2 ++ ?r] => set (rest := r) end.
  split; intros Hk.
  - assert (K : read_sheet_header (firstn k (P1 ++ P2 ++ rest)) = Panic); [|unfold read_sheet_velocities, read_sheet_positions; rewrite K; auto].
    unfold read_sheet_header, read_int32. destruct (le_lt_dec 4 k).
    + rewrite (firstn_prefix k P1) by (change (length P1) with 4%nat; lia).
      pose proof (read_full_app [] P1 (firstn (k - length P1) (P2 ++ rest)) 0 4 eq_refl eq_refl) as R1. cbn [app] in R1. rewrite R1.
      change (signed 32 (word Little P1)) with 0. cbn [bind endianness Z.eqb].
      rewrite (read_full_short _ 4 4); [reflexivity| |lia]. rewrite app_length, firstn_length. change (length P1) with 4%nat. lia.
    + rewrite (read_full_short _ 0 4); [reflexivity| |lia]. rewrite firstn_length. lia.
  - assert (K : read_sheet_header (firstn k (P1 ++ P2 ++ rest)) = Ok Err); [|unfold read_sheet_velocities, read_sheet_positions; rewrite K; auto].
    rewrite app_assoc, (firstn_prefix k (P1 ++ P2)) by (change (length (P1 ++ P2)) with 8%nat; lia). rewrite <- app_assoc.
    set (r := firstn (k - length (P1 ++ P2)) rest). assert (Hr : (length r < 152)%nat).
    { unfold r. rewrite firstn_length. change (length (P1 ++ P2)) with 8%nat. lia. }
    unfold read_sheet_header, read_int32.
    pose proof (read_full_app [] P1 (P2 ++ r) 0 4 eq_refl eq_refl) as R1. cbn [app] in R1. rewrite R1.
    change (signed 32 (word Little P1)) with 0. cbn [bind endianness Z.eqb].
    rewrite (read_full_app P1 P2 r 4 4) by reflexivity.
    change (signed 32 (word Little P2)) with 152. cbn [bind]. replace (152 =? Z.of_nat sheet_size) with true by reflexivity. cbn [negb].
    rewrite (read_full_short _ 8 sheet_size); [reflexivity| |unfold sheet_size; lia].
    rewrite !app_length. change (length P1) with 4%nat. change (length P2) with 4%nat. unfold sheet_size. lia.
Qed.

(** ** Unreadable headers *)
Theorem header_error_lost sys file buf : read_sheet_header file = Ok Err -> read_sheet_positions sys file buf = Ok (Good buf).
Proof. intros H. unfold read_sheet_positions. now rewrite H. Qed.
Theorem header_error_kept sys file buf : read_sheet_header file = Ok Err -> read_sheet_velocities sys file buf = Ok Err.
Proof. intros H. unfold read_sheet_velocities. now rewrite H. Qed.
Lemma header_error_exists : read_sheet_header (put Little 4 0 ++ put Little 4 100 ++ repeat 0 200) = Ok Err.
Proof. vm_compute. reflexivity. Qed.
Lemma header_flag_panics file : (exists b, read_full file 0 4 = Some b /\ word Little b <> 0 /\ word Little b <> 2 ^ 32 - 1 /\ 0 <= word Little b < 2 ^ 32) ->
  read_sheet_header file = Panic.
Proof.
  intros (b & E & H1 & H2 & H3). unfold read_sheet_header, read_int32. rewrite E. cbn [bind]. unfold endianness, signed.
  change (32 - 1) with 31. destruct (Z.ltb_spec (word Little b) (2 ^ 31)).
  - destruct (Z.eqb_spec (word Little b) 0); [lia|]. destruct (Z.eqb_spec (word Little b) (-1)); [lia|reflexivity].
  - destruct (Z.eqb_spec (word Little b - 2 ^ 32) 0); [lia|]. destruct (Z.eqb_spec (word Little b - 2 ^ 32) (-1)); [lia|reflexivity].
Qed.
