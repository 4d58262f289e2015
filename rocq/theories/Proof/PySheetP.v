(** The Python reader on the files of writeGrids. *)
From Coq Require Import ZArith List Bool Lia ZifyBool ZifyNat String.
From Verif Require Import Base.Res Base.ResFacts Base.Bytes Base.Num Model.Geom Model.SheetIO Model.Main Model.Gadget Model.PyGrid Model.PySheet
  Spec.Files Spec.PyArrays Spec.Segments Spec.PySheets Proof.BytesP Proof.SheetP Proof.SegP.
From Coq Require Import List.
Import ListNotations.
Open Scope Z_scope.
Open Scope res_scope.

Lemma fp_read_enc o a b c rest i k : i = list_sum (map fst a) -> k = list_sum (map fst b) ->
  fp_read (encode o (a ++ b ++ c) ++ rest) i k = encode o b.
Proof.
  intros -> ->. unfold fp_read. rewrite !encode_app, <- !app_assoc. rewrite <- (encode_length o a), <- (encode_length o b).
  rewrite skipn_app, skipn_all2 by lia. rewrite Nat.sub_diag. cbn [skipn app].
  rewrite firstn_app, firstn_all, Nat.sub_diag, firstn_O. apply app_nil_r.
Qed.

Lemma words_enc o w l rest : words o w (length l) (encode o (map (pair w) l) ++ rest) = map (fun v => v mod 256 ^ Z.of_nat w) l.
Proof.
  unfold words. replace (repeat w (length l)) with (map fst (map (pair w) l)).
  - rewrite decode_encode, map_map. reflexivity.
  - rewrite map_map. cbn [fst]. clear. induction l; cbn; congruence.
Qed.

Lemma enc_len o w l : length (encode o (map (pair w) l)) = (w * length l)%nat.
Proof. rewrite encode_length, map_map. cbn [fst]. unfold list_sum. induction l; cbn [map fold_right length] in *; lia. Qed.

Lemma native_enc w n l : length l = n -> native_unpack Little w n (encode Little (map (pair w) l)) = Ok (map (fun v => v mod 256 ^ Z.of_nat w) l).
Proof.
  intros <-. unfold native_unpack. rewrite enc_len, Nat.eqb_refl. rewrite <- (app_nil_r (encode _ _)), words_enc. reflexivity.
Qed.

Definition seen_sheet (h : sheet_header) (x v : list Z) : py_sheet :=
  let gw := sh_gridWidth h in
  PF (sh_z h) (sh_omegaM h) (sh_omegaL h) (sh_h100 h) (sh_count h) (sh_countWidth h) (sh_segmentWidth h) gw (sh_gridCount h)
     (sh_idx h) (sh_cells h) (sh_totalWidth h) (sh_origin h) (sh_width h) (sh_velOrigin h) (sh_velWidth h)
     (NDA [gw; gw; gw; 3] x) (NDA [gw; gw; gw; 3] v) (drop_last gw x) (drop_last gw v).

Lemma fromfile_words a b rest n : length b = (4 * n)%nat -> fromfile Little (a ++ b ++ rest) (length a) (Z.of_nat n) = Ok (words Little 4 n b).
Proof.
  intros H. unfold fromfile. replace (Z.of_nat n <? 0) with false by lia. rewrite Nat2Z.id.
  rewrite (read_full_app a b rest) by (reflexivity || exact H). reflexivity.
Qed.

Lemma words_length o k n l : length (words o k n l) = n.
Proof. unfold words. revert l. induction n; intros l; cbn [repeat decode length]; [reflexivity|]. now rewrite IHn. Qed.

Lemma read_sheet h fx fv n : sheet_typed h -> 0 <= sh_gridWidth h -> sh_gridWidth h * sh_gridWidth h * sh_gridWidth h = Z.of_nat n ->
  length fx = (12 * n)%nat -> length fv = (12 * n)%nat ->
  py_sheet_file Little (prefix h ++ fx ++ fv) = Ok (seen_sheet h (words Little 4 (3 * n) fx) (words Little 4 (3 * n) fv)).
Proof.
  intros HT HW HN HX HV. unfold py_sheet_file.
  pose (w0 := [(4%nat, 0); (4%nat, Z.of_nat sheet_size)]).
  pose (w1 := map (pair 8%nat) [sh_z h; sh_omegaM h; sh_omegaL h; sh_h100 h]).
  pose (w2 := map (pair 8%nat) [sh_count h; sh_countWidth h; sh_segmentWidth h; sh_gridWidth h; sh_gridCount h; sh_idx h; sh_cells h]).
  pose (w3 := map (pair 8%nat) [sh_mass h; sh_totalWidth h]).
  pose (w4 := map (pair 4%nat) [v0 (sh_origin h); v1 (sh_origin h); v2 (sh_origin h); v0 (sh_width h); v1 (sh_width h); v2 (sh_width h)]).
  pose (w5 := map (pair 4%nat) [v0 (sh_velOrigin h); v1 (sh_velOrigin h); v2 (sh_velOrigin h); v0 (sh_velWidth h); v1 (sh_velWidth h); v2 (sh_velWidth h)]).
  assert (P : prefix h = encode Little (w0 ++ w1 ++ w2 ++ w3 ++ w4 ++ w5)).
  { rewrite encode_app. unfold prefix. rewrite app_assoc. f_equal. }
  pose proof (prefix_length h) as LP.
  assert (A1 : fp_read (prefix h ++ fx ++ fv) 8 (4 * 8) = encode Little w1)
    by (rewrite P; exact (fp_read_enc Little w0 w1 (w2 ++ w3 ++ w4 ++ w5) _ 8 32 eq_refl eq_refl)).
  assert (A2 : fp_read (prefix h ++ fx ++ fv) 40 (7 * 8) = encode Little w2)
    by (rewrite P; exact (fp_read_enc Little (w0 ++ w1) w2 (w3 ++ w4 ++ w5) _ 40 56 eq_refl eq_refl)).
  assert (A3 : fp_read (prefix h ++ fx ++ fv) 96 (2 * 8) = encode Little w3)
    by (rewrite P; exact (fp_read_enc Little (w0 ++ w1 ++ w2) w3 (w4 ++ w5) _ 96 16 eq_refl eq_refl)).
  assert (A4 : fp_read (prefix h ++ fx ++ fv) 112 (6 * 4) = encode Little w4)
    by (rewrite P; exact (fp_read_enc Little (w0 ++ w1 ++ w2 ++ w3) w4 w5 _ 112 24 eq_refl eq_refl)).
  assert (A5 : fp_read (prefix h ++ fx ++ fv) 136 (6 * 4) = encode Little w5).
  { rewrite P. pose proof (fp_read_enc Little (w0 ++ w1 ++ w2 ++ w3 ++ w4) w5 [] (fx ++ fv) 136 24 eq_refl eq_refl) as K.
    rewrite app_nil_r in K. exact K. }
  rewrite A1, A2, A3, A4, A5. unfold w1, w2, w3, w4, w5.
  rewrite !native_enc by reflexivity. clear A1 A2 A3 A4 A5 P.
  rewrite <- LP. cbn [bind map nth Nat.add].
  destruct HT as (T1 & T2 & T3 & T4 & T5 & T6 & T7 & T8 & T9 & T10 & T11 & T12 & T13 & (O1 & O2 & O3) & (W1 & W2 & W3) & (P1 & P2 & P3) & (Q1 & Q2 & Q3)).
  rewrite !signed_wrap8 by assumption. rewrite !bits8, !bits4 by assumption.
  replace (3 * (sh_gridWidth h * sh_gridWidth h * sh_gridWidth h)) with (Z.of_nat (3 * n)) by lia.
  rewrite (fromfile_words (prefix h) fx fv (3 * n)) by lia. cbn [bind].
  rewrite words_length.
  replace (length (prefix h) + 4 * (3 * n))%nat with (length (prefix h ++ fx)) by (rewrite app_length; lia).
  replace (prefix h ++ fx ++ fv) with ((prefix h ++ fx) ++ fv ++ []) by (rewrite app_nil_r, app_assoc; reflexivity).
  rewrite fromfile_words by lia. cbn [bind].
  unfold reshape. cbn [existsb fold_right]. unfold zlen. rewrite !words_length.
  replace (sh_gridWidth h <? 0) with false by lia. cbn [orb].
  replace (sh_gridWidth h * (sh_gridWidth h * (sh_gridWidth h * (3 * 1))) =? Z.of_nat (3 * n)) with true by lia.
  cbn [Z.ltb Z.compare orb negb bind]. unfold seen_sheet.
  destruct (sh_origin h), (sh_width h), (sh_velOrigin h), (sh_velWidth h). reflexivity.
Qed.

(** What a machine of any byte order leaves in the file. *)
Lemma written_words sysW n l : length l = (12 * n)%nat ->
  let f := fun l => if is_sys_order sysW Little then l else chunkmap (@rev Z) 4 (3 * n) l in
  length (f l) = (12 * n)%nat /\ words Little 4 (3 * n) (f l) = words sysW 4 (3 * n) l.
Proof.
  intros Hl f. unfold f, is_sys_order. destruct (order_eqb Little sysW) eqn:EO.
  - apply order_eqb_spec in EO. now subst.
  - apply order_neq in EO. subst sysW. rewrite chunkmap_length, words_chunkmap_rev by (try lia; intros; now rewrite rev_length). auto.
Qed.

(** ** Arrays *)
Lemma uniform_nth {A B} (f : A -> list B) L l i r : (forall a, length (f a) = L) -> (r < L)%nat ->
  nth_error (flat_map f l) (i * L + r) = match nth_error l i with Some a => nth_error (f a) r | None => None end.
Proof.
  intros HL Hr. revert i. induction l as [|a l IH]; intros i; cbn [flat_map].
  - destruct i; destruct (_ * _ + _)%nat; reflexivity.
  - destruct i.
    + cbn [Nat.mul Nat.add nth_error]. rewrite nth_error_app1 by (rewrite HL; lia). reflexivity.
    + rewrite nth_error_app2 by (rewrite HL; lia). rewrite HL. cbn [nth_error].
      replace (S i * L + r - L)%nat with (i * L + r)%nat by lia. apply IH.
Qed.

Lemma uniform_len {A B} (f : A -> list B) L l : (forall a, length (f a) = L) -> length (flat_map f l) = (length l * L)%nat.
Proof. intros H. induction l; cbn [flat_map length]; [reflexivity|]. rewrite app_length, H, IHl. lia. Qed.

Lemma range_nth m i : 0 <= i < m -> nth_error (map Z.of_nat (seq 0 (Z.to_nat m))) (Z.to_nat i) = Some i.
Proof.
  intros H. rewrite nth_error_map. rewrite (nth_error_nth' _ 0%nat) by (rewrite seq_length; lia). rewrite seq_nth by lia. cbn. f_equal. lia.
Qed.
Lemma range_len m : 0 <= m -> length (map Z.of_nat (seq 0 (Z.to_nat m))) = Z.to_nat m.
Proof. now rewrite map_length, seq_length. Qed.

Lemma place4 g i j k c : 0 <= i < g -> 0 <= j < g -> 0 <= k < g -> 0 <= c < 3 ->
  place [g; g; g; 3] [i; j; k; c] = Some (((i * g + j) * g + k) * 3 + c).
Proof.
  intros. cbn [place fold_right].
  replace ((0 <=? i) && (i <? g)) with true by lia. replace ((0 <=? j) && (j <? g)) with true by lia.
  replace ((0 <=? k) && (k <? g)) with true by lia. replace ((0 <=? c) && (c <? 3)) with true by lia. f_equal. ring.
Qed.

Lemma drop_element g xs i j k c : zlen xs = 3 * (g * g * g) -> 0 <= i < g - 1 -> 0 <= j < g - 1 -> 0 <= k < g - 1 -> 0 <= c < 3 ->
  element (drop_last g xs) [i; j; k; c] = element (NDA [g; g; g; 3] xs) [i; j; k; c].
Proof.
  intros HL Hi Hj Hk Hc. unfold element, drop_last. cbn [shape elems]. rewrite Z.max_r by lia.
  rewrite !place4 by lia. set (m := g - 1) in *. set (r := map Z.of_nat (seq 0 (Z.to_nat m))).
  assert (LR : length r = Z.to_nat m) by (apply range_len; lia).
  pose (f3 := fun i j k => map (fun c => nth (Z.to_nat (((i * g + j) * g + k) * 3 + c)) xs 0) [0; 1; 2]).
  pose (f2 := fun i j => flat_map (fun k => f3 i j k) r).
  pose (f1 := fun i => flat_map (fun j => f2 i j) r).
  change (nth_error (flat_map f1 r) (Z.to_nat (((i * m + j) * m + k) * 3 + c)) = nth_error xs (Z.to_nat (((i * g + j) * g + k) * 3 + c))).
  assert (L3 : forall i j k, length (f3 i j k) = 3%nat) by reflexivity.
  assert (L2 : forall i j, length (f2 i j) = (Z.to_nat m * 3)%nat) by (intros; unfold f2; rewrite (uniform_len _ 3) by auto; now rewrite LR).
  assert (L1 : forall i, length (f1 i) = (Z.to_nat m * (Z.to_nat m * 3))%nat) by (intros; unfold f1; rewrite (uniform_len _ (Z.to_nat m * 3)) by auto; now rewrite LR).
  assert (B3 : (k * 3 + c) < m * 3) by lia.
  assert (B2 : j * (m * 3) + (k * 3 + c) < m * (m * 3)) by nia.
  replace (Z.to_nat (((i * m + j) * m + k) * 3 + c)) with (Z.to_nat i * (Z.to_nat m * (Z.to_nat m * 3)) + (Z.to_nat j * (Z.to_nat m * 3) + (Z.to_nat k * 3 + Z.to_nat c)))%nat by nia.
  rewrite (uniform_nth f1 (Z.to_nat m * (Z.to_nat m * 3))) by (auto; nia). unfold r. rewrite range_nth by lia. fold r.
  unfold f1. rewrite (uniform_nth (fun j => f2 i j) (Z.to_nat m * 3)) by (auto; nia). unfold r. rewrite range_nth by lia. fold r.
  unfold f2. rewrite (uniform_nth (fun k => f3 i j k) 3) by (auto; lia). unfold r. rewrite range_nth by lia.
  assert (B : 0 <= ((i * g + j) * g + k) * 3 + c < zlen xs).
  { assert (0 <= i * g + j <= g * g - 1) by nia. assert (0 <= (i * g + j) * g + k <= g * g * g - 1) by nia. lia. }
  rewrite (nth_error_nth' xs 0) by (unfold zlen in B; lia).
  unfold f3. assert (C : c = 0 \/ c = 1 \/ c = 2) by lia. destruct C as [->|[->| ->]]; reflexivity.
Qed.

Section Cubes.
Context {F : Type} (enc : F -> Z) (d : vec3 F).
Notation flat l := (flat_map (fun v => [enc (v0 v); enc (v1 v); enc (v2 v)]) l).

Lemma flat_len (l : list (vec3 F)) : length (flat l) = (3 * length l)%nat.
Proof. rewrite (uniform_len _ 3) by auto. lia. Qed.

Lemma cube_element g (seg : list (vec3 F)) a b c k : zlen seg = g * g * g -> 0 <= a < g -> 0 <= b < g -> 0 <= c < g -> 0 <= k < 3 ->
  element (NDA [g; g; g; 3] (flat seg)) [c; b; a; k] = Some (enc (part (zn d seg (cube_index g a b c)) k)).
Proof.
  intros HL Ha Hb Hc Hk. unfold element. cbn [shape elems]. rewrite place4 by lia.
  pose proof (cube_index_range g a b c Ha Hb Hc) as HR.
  replace (((c * g + b) * g + a) * 3 + k) with (cube_index g a b c * 3 + k) by (unfold cube_index; ring).
  replace (Z.to_nat (cube_index g a b c * 3 + k)) with (Z.to_nat (cube_index g a b c) * 3 + Z.to_nat k)%nat by lia.
  rewrite (uniform_nth _ 3) by (auto; lia).
  rewrite (nth_error_nth' seg d) by (unfold zlen in HL; lia). fold (zn d seg (cube_index g a b c)).
  unfold part. assert (C : k = 0 \/ k = 1 \/ k = 2) by lia. destruct C as [->|[->| ->]]; reflexivity.
Qed.

Lemma cube_seen n s x y z all seg : 0 <= s -> holds_cube d n s x y z all seg ->
  sees_cube enc d n s x y z all (s + 1) (NDA [s + 1; s + 1; s + 1; 3] (flat seg)) /\
  sees_cube enc d n s x y z all s (drop_last (s + 1) (flat seg)).
Proof.
  intros Hs [HL HC]. split.
  - split; [reflexivity|]. intros a b c k Ha Hb Hc Hk. rewrite cube_element by auto. rewrite HC by lia. reflexivity.
  - split; [unfold drop_last; cbn [shape]; replace (Z.max 0 (s + 1 - 1)) with s by lia; reflexivity|].
    intros a b c k Ha Hb Hc Hk. rewrite drop_element by (try lia; unfold zlen in *; rewrite flat_len; lia).
    rewrite cube_element by (auto; lia). rewrite HC by lia. reflexivity.
Qed.
End Cubes.

Section Converted.
Context {F : Type} {NF : Num F} (enc : F -> Z) (d : vec3 F).
Hypothesis Henc : forall v, bits 32 (enc v).
Notation flat l := (flat_map (fun v => [enc (v0 v); enc (v1 v); enc (v2 v)]) l).

Lemma flat_bits (l : list (vec3 F)) : map (fun v => v mod 256 ^ Z.of_nat 4) (flat l) = flat l.
Proof.
  induction l as [|v l IH]; [reflexivity|]. cbn [flat_map app map]. rewrite IH, !bits4 by apply Henc. reflexivity.
Qed.

Lemma segment_file sysW hd n s cells x y z xs vs sg : catalog_typed hd -> 0 < cells -> 0 < s -> cells * s <= n < cells * s + cells ->
  (n + 1) * (n + 1) * (n + 1) < 2 ^ 63 -> 0 <= x < cells -> 0 <= y < cells -> 0 <= z < cells ->
  holds_cube d n s x y z xs (sg_x sg) -> holds_cube d n s x y z vs (sg_v sg) ->
  exists file mx mv, sheet_bytes enc sysW hd n cells (cube_index cells x y z) sg = Ok (file, mx, mv) /\
    py_sheet_file Little file = Ok (seen_sheet (sheet_head enc hd n cells (cube_index cells x y z) sg) (flat (sg_x sg)) (flat (sg_v sg))).
Proof.
  intros HT Hc Hs Hn HB Hx Hy Hz [LX _] [LV _].
  assert (EQ : Z.quot n cells = s).
  { rewrite Z.quot_div_nonneg by lia. symmetry. apply (Z.div_unique _ _ _ (n - cells * s)); lia. }
  set (idx := cube_index cells x y z). set (h := sheet_head enc hd n cells idx sg).
  pose (N := Z.to_nat ((s + 1) * (s + 1) * (s + 1))).
  assert (K0 : s <= n /\ cells <= n) by nia.
  assert (K1 : (s + 1) * (s + 1) * (s + 1) <= (n + 1) * (n + 1) * (n + 1)) by (apply Z.mul_le_mono_nonneg; nia).
  assert (K2 : cells * cells * cells <= (n + 1) * (n + 1) * (n + 1)) by (apply Z.mul_le_mono_nonneg; nia).
  assert (K3 : n + 1 <= (n + 1) * (n + 1) * (n + 1)) by nia.
  pose proof (cube_index_range cells x y z Hx Hy Hz) as HI. fold idx in HI.
  assert (KG : 0 <= (s + 1) * (s + 1) * (s + 1)) by nia.
  assert (TH : sheet_typed h).
  { destruct HT as (? & ? & ? & ? & ? & ? & ?). unfold h, sheet_typed, sheet_head. rewrite EQ.
    cbn [sh_z sh_omegaM sh_omegaL sh_h100 sh_count sh_countWidth sh_segmentWidth sh_gridWidth sh_gridCount sh_idx sh_cells sh_mass sh_totalWidth sh_origin sh_width sh_velOrigin sh_velWidth].
    unfold all3, vmap. cbn [v0 v1 v2].
    do 4 (split; [assumption|]). split; [assumption|]. do 6 (split; [unfold int64; lia|]).
    do 2 (split; [assumption|]). repeat split; apply Henc. }
  assert (LM : forall l, zlen l = (s + 1) * (s + 1) * (s + 1) -> length (vec_memory enc sysW l) = (12 * N)%nat).
  { intros l Hl. unfold vec_memory. rewrite enc_len, flat_len. unfold zlen in Hl. unfold N. lia. }
  assert (WM : forall l, zlen l = (s + 1) * (s + 1) * (s + 1) -> words sysW 4 (3 * N) (vec_memory enc sysW l) = flat l).
  { intros l Hl. unfold vec_memory. replace (3 * N)%nat with (length (flat l)) by (rewrite flat_len; unfold zlen in Hl; unfold N; lia).
    rewrite <- (app_nil_r (encode _ _)), words_enc. apply flat_bits. }
  assert (G1 : sh_gridWidth h = s + 1) by (unfold h, sheet_head; cbn [sh_gridWidth]; lia).
  assert (G2 : sh_gridCount h = (s + 1) * (s + 1) * (s + 1)) by (unfold h, sheet_head; cbn [sh_gridCount]; now rewrite EQ).
  pose proof (write_ok sysW h (vec_memory enc sysW (sg_x sg)) (vec_memory enc sysW (sg_v sg)) N (LM _ LX) (LM _ LV)) as E.
  cbv zeta in E. specialize (E ltac:(unfold N; lia) ltac:(rewrite G1, G2; reflexivity) ltac:(unfold int64; lia)).
  destruct (written_words sysW N _ (LM _ LX)) as [X1 X2]. destruct (written_words sysW N _ (LM _ LV)) as [V1 V2].
  do 3 eexists. split; [exact E|].
  rewrite (read_sheet h _ _ N TH) by (try assumption; rewrite ?G1; unfold N; lia).
  rewrite X2, V2, !WM by assumption. reflexivity.
Qed.

Theorem converted_read sysW hd n s cells w xs vs x y z : catalog_typed hd -> 0 < cells -> 0 < s -> cells * s <= n < cells * s + cells ->
  (n + 1) * (n + 1) * (n + 1) < 2 ^ 63 -> zlen xs = n * n * n -> zlen vs = n * n * n ->
  0 <= x < cells -> 0 <= y < cells -> 0 <= z < cells ->
  (exists sg p, python_reads enc d sysW hd n cells w xs vs x y z sg p) /\
  forall sg p, python_reads enc d sysW hd n cells w xs vs x y z sg p ->
    header_reads enc hd n s cells (cube_index cells x y z) sg p /\
    sees_cube enc d n s x y z xs (s + 1) (sf_xn p) /\ sees_cube enc d n s x y z vs (s + 1) (sf_vn p) /\
    sees_cube enc d n s x y z xs s (sf_x p) /\ sees_cube enc d n s x y z vs s (sf_v p) /\
    sf_scale p = ct_omegaM hd /\ sf_omega_m p = ct_omegaL hd /\ sf_count p = ct_count hd.
Proof.
  intros HT Hc Hs Hn HB LX LV Hx Hy Hz.
  assert (EQ : Z.quot n cells = s).
  { rewrite Z.quot_div_nonneg by lia. symmetry. apply (Z.div_unique _ _ _ (n - cells * s)); lia. }
  destruct (write_grids_ok d n s cells w xs vs Hc Hs Hn LX LV) as (out & EO & _ & HO).
  destruct (HO x y z Hx Hy Hz) as (sg & EG & CX & CV & _).
  destruct (segment_file sysW hd n s cells x y z xs vs sg HT Hc Hs Hn HB Hx Hy Hz CX CV) as (file & mx & mv & EB & ER).
  split.
  - do 2 eexists. exists out, file, mx, mv. eauto.
  - intros sg' p (out' & file' & mx' & mv' & EO' & EG' & EB' & ER').
    rewrite EO in EO'. injection EO' as <-. rewrite EG in EG'. injection EG' as <-.
    rewrite EB in EB'. injection EB' as <- <- <-. rewrite ER in ER'. injection ER' as <-.
    destruct (cube_seen enc d n s x y z xs (sg_x sg) ltac:(lia) CX) as [X1 X2].
    destruct (cube_seen enc d n s x y z vs (sg_v sg) ltac:(lia) CV) as [V1 V2].
    unfold header_reads, seen_sheet, sheet_head.
    cbn [sf_z sf_scale sf_omega_m sf_h100 sf_count sf_count_width sf_segment_width sf_grid_width sf_grid_count sf_file_idx sf_file_cells sf_box_width sf_x_origin sf_x_span sf_v_origin sf_v_span sf_xn sf_vn sf_x sf_v
      sh_z sh_omegaM sh_omegaL sh_h100 sh_count sh_countWidth sh_segmentWidth sh_gridWidth sh_gridCount sh_idx sh_cells sh_mass sh_totalWidth sh_origin sh_width sh_velOrigin sh_velWidth].
    rewrite EQ. split; [repeat split|]. split; [exact X1|]. split; [exact V1|]. split; [exact X2|]. split; [exact V2|]. auto.
Qed.

Theorem axes_turned n s x y z all arr w a b c k : sees_cube enc d n s x y z all w arr ->
  0 <= a < w -> 0 <= b < w -> 0 <= c < w -> 0 <= k < 3 ->
  enc (part (zn d all (periodic_index n (s * x + a) (s * y + b) (s * z + c))) k) <>
  enc (part (zn d all (periodic_index n (s * x + c) (s * y + b) (s * z + a))) k) ->
  ~ documented_cube enc d n s x y z all w arr.
Proof.
  intros [_ H] Ha Hb Hc Hk HN HD. specialize (H c b a k Hc Hb Ha Hk). rewrite (HD a b c k Ha Hb Hc Hk) in H. congruence.
Qed.
End Converted.

Theorem sheets_thm {F} {NF : Num F} (enc : F -> Z) d sys hd n s cells w xs vs x y z :
  (forall v, bits 32 (enc v)) -> catalog_typed hd -> 0 < cells -> 0 < s -> cells * s <= n < cells * s + cells ->
  (n + 1) * (n + 1) * (n + 1) < 2 ^ 63 -> zlen xs = n * n * n -> zlen vs = n * n * n ->
  0 <= x < cells -> 0 <= y < cells -> 0 <= z < cells ->
  (exists sg p, python_reads enc d sys hd n cells w xs vs x y z sg p) /\
  forall sg p, python_reads enc d sys hd n cells w xs vs x y z sg p ->
    header_reads enc hd n s cells (cube_index cells x y z) sg p /\
    sees_cube enc d n s x y z xs (s + 1) (sf_xn p) /\ sees_cube enc d n s x y z vs (s + 1) (sf_vn p) /\
    sees_cube enc d n s x y z xs s (sf_x p) /\ sees_cube enc d n s x y z vs s (sf_v p).
Proof.
  intros HE HT Hc Hs Hn HB LX LV Hx Hy Hz.
  destruct (converted_read enc d HE sys hd n s cells w xs vs x y z HT Hc Hs Hn HB LX LV Hx Hy Hz) as [A B].
  split; [exact A|]. intros sg p H. specialize (B sg p H). tauto.
Qed.

Theorem axes_thm {F} {NF : Num F} (enc : F -> Z) d sys hd n s cells w xs vs x y z sg p a b c k :
  (forall v, bits 32 (enc v)) -> catalog_typed hd -> 0 < cells -> 0 < s -> cells * s <= n < cells * s + cells ->
  (n + 1) * (n + 1) * (n + 1) < 2 ^ 63 -> zlen xs = n * n * n -> zlen vs = n * n * n ->
  0 <= x < cells -> 0 <= y < cells -> 0 <= z < cells ->
  python_reads enc d sys hd n cells w xs vs x y z sg p ->
  0 <= a <= s -> 0 <= b <= s -> 0 <= c <= s -> 0 <= k < 3 ->
  enc (part (zn d xs (periodic_index n (s * x + a) (s * y + b) (s * z + c))) k) <>
  enc (part (zn d xs (periodic_index n (s * x + c) (s * y + b) (s * z + a))) k) ->
  ~ documented_cube enc d n s x y z xs (s + 1) (sf_xn p).
Proof.
  intros HE HT Hc Hs Hn HB LX LV Hx Hy Hz HP Ha Hb Hc' Hk HN.
  destruct (converted_read enc d HE sys hd n s cells w xs vs x y z HT Hc Hs Hn HB LX LV Hx Hy Hz) as [_ B].
  destruct (B sg p HP) as (_ & X & _). apply (axes_turned enc d n s x y z xs _ (s + 1) a b c k X); lia || assumption.
Qed.

Theorem fields_thm {F} {NF : Num F} (enc : F -> Z) d sys hd n s cells w xs vs x y z sg p :
  (forall v, bits 32 (enc v)) -> catalog_typed hd -> 0 < cells -> 0 < s -> cells * s <= n < cells * s + cells ->
  (n + 1) * (n + 1) * (n + 1) < 2 ^ 63 -> zlen xs = n * n * n -> zlen vs = n * n * n ->
  0 <= x < cells -> 0 <= y < cells -> 0 <= z < cells ->
  python_reads enc d sys hd n cells w xs vs x y z sg p ->
  sf_omega_m p = ct_omegaL hd /\ sf_scale p = ct_omegaM hd /\ sf_count p = ct_count hd.
Proof.
  intros HE HT Hc Hs Hn HB LX LV Hx Hy Hz HP.
  destruct (converted_read enc d HE sys hd n s cells w xs vs x y z HT Hc Hs Hn HB LX LV Hx Hy Hz) as [_ B].
  destruct (B sg p HP) as (_ & _ & _ & _ & _ & E1 & E2 & E3). auto.
Qed.
