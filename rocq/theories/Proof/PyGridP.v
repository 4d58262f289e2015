(** The Python reader on the files of WriteBuffer. *)
From Coq Require Import ZArith List Bool Lia ZifyBool ZifyNat.
From Verif Require Import Base.Res Base.ResFacts Base.Bytes Model.Geom Model.SheetIO Model.GridIO Model.RenderMain Model.PyGrid Model.Buffers Spec.BufferKinds Spec.Files Spec.PyArrays
  Proof.BytesP Proof.SheetP Proof.GridIOP.
From Verif Require Import Base.Num Proof.ReadHaloM Proof.BuffersP.
Import Base.Bytes Model.SheetIO Spec.Files.
Import ListNotations.
Open Scope Z_scope.
Open Scope res_scope.

Notation enc8 l := (encode Little (map (pair 8%nat) l)).

Lemma enc8_length l : length (enc8 l) = (8 * length l)%nat.
Proof. rewrite encode_length, map_map. cbn [fst]. unfold list_sum. induction l; cbn [map fold_right length] in *; lia. Qed.

Lemma enc8_app a b : enc8 (a ++ b) = enc8 a ++ enc8 b.
Proof. now rewrite map_app, encode_app. Qed.

Lemma slice_enc a b c i j : i = (8 * length a)%nat -> j = (8 * (length a + length b))%nat ->
  py_slice i j (enc8 (a ++ b ++ c)) = enc8 b.
Proof.
  intros -> ->. unfold py_slice. rewrite !enc8_app.
  rewrite skipn_app, skipn_all2 by (rewrite enc8_length; lia).
  rewrite enc8_length, Nat.sub_diag. cbn [skipn app].
  rewrite firstn_app, enc8_length, firstn_all2 by (rewrite enc8_length; lia).
  replace (8 * (length a + length b) - 8 * length a - 8 * length b)%nat with O by lia.
  cbn [firstn]. apply app_nil_r.
Qed.

Lemma unpack_enc n l : length l = n -> endian_unpack n (enc8 l) (-1) = Ok (map (fun v => v mod 256 ^ Z.of_nat 8) l).
Proof.
  intros <-. unfold endian_unpack. rewrite enc8_length, Nat.eqb_refl. change (-1 =? -1) with true. cbv iota.
  f_equal. unfold words. replace (repeat 8%nat (length l)) with (map fst (map (pair 8%nat) l)).
  - rewrite <- (app_nil_r (enc8 l)), decode_encode, map_map. reflexivity.
  - rewrite map_map. cbn [fst]. clear. induction l; cbn; congruence.
Qed.

Notation flag0 := 9223372036854775806.

Lemma fields_of q c r l : grid_fields (header_of flag0 q c r l) =
  [flag0] ++ [344; q; 0] ++
  [ci_redshift c; ci_scale c; ci_omegaM c; ci_omegaL c; ci_hubble c; ci_rhoMean c; ci_rhoCritical c; ci_boxWidth c] ++
  [ri_particles r; ri_totalPixels r; ri_subsample r; ri_depth r; ri_axis r] ++ loc_fields l ++ loc_fields zero_loc.
Proof. reflexivity. Qed.

Lemma header_out q c r l rest : typed_out q c r l ->
  py_read_header Little (enc8 (grid_fields (header_of flag0 q c r l)) ++ rest) = Ok (header_seen q c r l).
Proof.
  intros (Hq & Hc & Hr & Hl). rewrite fields_of.
  pose (f1 := [344; q; 0]).
  pose (f2 := [ci_redshift c; ci_scale c; ci_omegaM c; ci_omegaL c; ci_hubble c; ci_rhoMean c; ci_rhoCritical c; ci_boxWidth c]).
  pose (f3 := [ri_particles r; ri_totalPixels r; ri_subsample r; ri_depth r; ri_axis r]).
  pose (f4 := loc_fields l). pose (f5 := loc_fields zero_loc).
  change (_ ++ _ ++ _) with ([flag0] ++ f1 ++ f2 ++ f3 ++ f4 ++ f5). set (fs := [flag0] ++ f1 ++ f2 ++ f3 ++ f4 ++ f5).
  assert (LF : length (enc8 fs) = 344%nat) by (rewrite enc8_length; reflexivity).
  assert (F8 : firstn 8 (enc8 fs ++ rest) = enc8 [flag0]).
  { rewrite firstn_app, LF. cbn [Nat.sub firstn]. rewrite app_nil_r.
    exact (slice_enc [] [flag0] (f1 ++ f2 ++ f3 ++ f4 ++ f5) 0 8 eq_refl eq_refl). }
  assert (S : firstn 8 (enc8 fs ++ rest) ++ firstn 336 (skipn 8 (enc8 fs ++ rest)) = enc8 fs).
  { generalize dependent (enc8 fs). intros e L _. rewrite !firstn_app, skipn_app, firstn_app, skipn_length, L.
    change (8 - 344)%nat with 0%nat. change (336 - (344 - 8))%nat with 0%nat. rewrite !firstn_O, !app_nil_r.
    rewrite (firstn_all2 (skipn 8 e)) by (rewrite skipn_length, L; lia). apply firstn_skipn. }
  unfold py_read_header. cbv zeta. rewrite F8.
  rewrite (enc8_length [flag0] : length (enc8 [flag0]) = 8%nat). cbn [Nat.eqb negb].
  assert (V : read_endianness_version Little (enc8 [flag0]) = (-1, 2)) by (vm_compute; reflexivity).
  rewrite V. cbn [snd sizes Z.eqb Pos.eqb bind ps_header]. rewrite <- F8, S.
  unfold header_init.
  rewrite (slice_enc [] [flag0] (f1 ++ f2 ++ f3 ++ f4 ++ f5) 0 8 eq_refl eq_refl : py_slice 0 8 (enc8 fs) = _), V.
  rewrite LF. cbn [ps_header ps_type ps_cosmo ps_render ps_loc ps_vel Nat.add Nat.eqb negb andb Z.eqb Pos.eqb Z.geb Z.compare].
  change (1 ?= 2)%positive with Lt. cbn [Pos.compare Pos.compare_cont].
  cbv iota.
  change (2 >=? 2) with true. cbn [andb].
  assert (E1 : py_slice 8 32 (enc8 fs) = enc8 f1) by exact (slice_enc [flag0] f1 (f2 ++ f3 ++ f4 ++ f5) 8 32 eq_refl eq_refl).
  assert (E2 : py_slice 32 96 (enc8 fs) = enc8 f2) by exact (slice_enc ([flag0] ++ f1) f2 (f3 ++ f4 ++ f5) 32 96 eq_refl eq_refl).
  assert (E3 : py_slice 96 136 (enc8 fs) = enc8 f3) by exact (slice_enc ([flag0] ++ f1 ++ f2) f3 (f4 ++ f5) 96 136 eq_refl eq_refl).
  assert (E4 : py_slice 136 240 (enc8 fs) = enc8 f4) by exact (slice_enc ([flag0] ++ f1 ++ f2 ++ f3) f4 f5 136 240 eq_refl eq_refl).
  rewrite E1, E2, E3, E4.
  unfold type_info. rewrite (unpack_enc 3 f1) by reflexivity.
  unfold py_cosmo. rewrite (unpack_enc 8 f2) by reflexivity.
  unfold py_render. rewrite (unpack_enc 5 f3) by reflexivity.
  unfold py_loc. rewrite (unpack_enc 13 f4) by reflexivity.
  unfold f1, f2, f3, f4. clearbody f5. clear E1 E2 E3 E4 f1 f2 f3 f4 f5 V S F8 LF fs.
  destruct c as [c1 c2 c3 c4 c5 c6 c7 c8]. destruct r as [r1 r2 r3 r4 r5].
  destruct l as [[a1 a2 a3] [b1 b2 b3] [d1 d2 d3] [e1 e2 e3] g].
  unfold cosmo_typed, render_typed, loc_typed, all3 in *.
  cbn [ci_redshift ci_scale ci_omegaM ci_omegaL ci_hubble ci_rhoMean ci_rhoCritical ci_boxWidth ri_particles ri_totalPixels ri_subsample ri_depth ri_axis li_origin li_span li_pixelOrigin li_pixelSpan li_pixelWidth v0 v1 v2] in *.
  repeat match goal with H : Forall _ (_ :: _) |- _ => inversion_clear H | H : _ /\ _ |- _ => destruct H end.
  cbn [bind map nth loc_fields v3_list app li_origin li_span li_pixelOrigin li_pixelSpan li_pixelWidth v0 v1 v2].
  assert (int64 344) by (unfold int64; lia).
  rewrite !signed_wrap8, !bits8 by assumption. reflexivity.
Qed.

(** ** The data *)

Lemma axis_cases a : In a [-1; 0; 1; 2] -> a = -1 \/ a = 0 \/ a = 1 \/ a = 2.
Proof. cbn [In]. lia. Qed.

Lemma wrap_mod a : wrap64 a mod 2 ^ 64 = a mod 2 ^ 64.
Proof.
  unfold wrap64, signed. destruct (a mod 2 ^ 64 <? 2 ^ (64 - 1)).
  - now rewrite Zmod_mod.
  - rewrite Zminus_mod, Z_mod_same_full, Z.sub_0_r, !Zmod_mod. reflexivity.
Qed.

Lemma wrap_mul a b : wrap64 (wrap64 a * b) = wrap64 (a * b).
Proof.
  unfold wrap64 at 1 3. f_equal. rewrite Zmult_mod, wrap_mod, <- Zmult_mod. reflexivity.
Qed.

Lemma shape_known r l q c : describes q c r l ->
  grid_shape (ri_axis r) (li_pixelSpan l) = (image_len (ri_axis r) l, Some (image_shape (ri_axis r) l)) /\
  existsb (fun d => d <? 0) (image_shape (ri_axis r) l) = false /\ 0 <= image_len (ri_axis r) l.
Proof.
  intros (_ & HA & HS & HM).
  pose proof (HS 0) as S0. pose proof (HS 1) as S1. pose proof (HS 2) as S2.
  assert (G : existsb (fun d => d <? 0) (image_shape (ri_axis r) l) = false /\ 0 <= image_len (ri_axis r) l).
  { unfold image_len, image_shape. induction (kept (ri_axis r)) as [|i L [IH1 IH2]]; cbn [map existsb fold_right]; [lia|].
    pose proof (HS i). split; [rewrite IH1; lia|]. apply Z.mul_nonneg_nonneg; assumption. }
  split; [|exact G]. destruct G as [_ G]. unfold grid_shape.
  assert (W : wrap64 (image_len (ri_axis r) l) = image_len (ri_axis r) l) by (apply wrap64_id; unfold int64; lia).
  clear HM S0 S1 S2 HS G. unfold image_len, image_shape, span_along, dim_at, v3_list in *.
  destruct (li_pixelSpan l) as [x y z].
  destruct (axis_cases _ HA) as [E|[E|[E|E]]]; rewrite E in *; clear E HA;
    cbn [kept filter Z.eqb Pos.eqb negb map fold_right fold_left v0 v1 v2] in *;
    change (Z.to_nat 0) with 0%nat; change (Z.to_nat 1) with 1%nat; change (Z.to_nat 2) with 2%nat; cbn [nth];
    (rewrite !wrap_mul; rewrite <- ?Z.mul_assoc; rewrite ?wrap_mul; apply (f_equal2 pair); [etransitivity; [apply (f_equal wrap64)|exact W]; ring|reflexivity]).
Qed.

Lemma swap_none xs : maybe_swap Little (-1) xs = xs.
Proof. reflexivity. Qed.

Lemma fromfile_at a xs rest : Forall (bits 32) xs ->
  fromfile Little (a ++ floats Little xs ++ rest) (length a) (zlen xs) = Ok xs.
Proof.
  intros H. unfold fromfile. pose proof (zlen_nonneg xs). replace (zlen xs <? 0) with false by lia.
  unfold zlen. rewrite Nat2Z.id.
  rewrite (read_full_app a (floats Little xs) rest) by (reflexivity || apply floats_length).
  rewrite <- (app_nil_r (floats Little xs)). now rewrite floats_words.
Qed.

Lemma fromfile_start a xs n rest : Forall (bits 32) xs -> (n <= length xs)%nat ->
  fromfile Little (a ++ floats Little xs ++ rest) (length a) (Z.of_nat n) = Ok (firstn n xs).
Proof.
  intros H L. rewrite <- (firstn_skipn n xs) at 1. unfold floats. rewrite map_app, encode_app, <- app_assoc.
  fold (floats Little (firstn n xs)).
  replace (Z.of_nat n) with (zlen (firstn n xs)) by (unfold zlen; rewrite firstn_length; lia).
  apply fromfile_at. apply Forall_forall. intros x Hx. rewrite Forall_forall in H. apply H.
  rewrite <- (firstn_skipn n xs). apply in_or_app. now left.
Qed.

Lemma reshape_ok sh xs : existsb (fun d => d <? 0) sh = false -> fold_right Z.mul 1 sh = zlen xs -> reshape sh xs = Ok (NDA sh xs).
Proof. intros A B. unfold reshape. rewrite A, B, Z.eqb_refl. reflexivity. Qed.

Lemma pos_344 h : length (enc8 (grid_fields h)) = 344%nat.
Proof. rewrite enc8_length. reflexivity. Qed.

Lemma scalar_read q xs c r l : describes q c r l -> (q = 0 \/ q = 3) -> Forall (bits 32) xs ->
  zlen xs = image_len (ri_axis r) l ->
  exists file, write_buffer q (FScalar xs) c r l = Ok file /\
    py_read_header Little file = Ok (header_seen q c r l) /\
    py_read_grid Little file = Ok (PyScalar (NDA (image_shape (ri_axis r) l) xs)).
Proof.
  intros HD HQ HX HL. destruct flag_value as [FV _]. pose proof (proj1 HD) as HT.
  eexists. unfold write_buffer. rewrite FV. cbn [bind]. cbv zeta. split; [reflexivity|].
  change (Z.of_nat grid_size) with 344. change (GH flag0 344 q 0 c r l zero_loc) with (header_of flag0 q c r l).
  pose proof (header_out q c r l (floats Little xs) HT) as E. split; [exact E|].
  unfold py_read_grid. rewrite E. cbn [bind header_seen ph_render ph_loc ph_type ph_sizes pt_end pt_vector ps_header].
  destruct (shape_known r l q c HD) as (-> & SH & SL).
  replace (negb ((q =? 0) || (q =? 3))) with false by lia.
  change (336 + 8)%nat with 344%nat. rewrite <- (pos_344 (header_of flag0 q c r l)), <- HL.
  rewrite <- (app_nil_r (floats Little xs)) at 1. rewrite fromfile_at by assumption. cbn [bind].
  rewrite swap_none, reshape_ok by auto. reflexivity.
Qed.

Lemma vector_read q xs ys zs c r l : describes q c r l -> q <> 0 -> q <> 3 ->
  Forall (bits 32) xs -> Forall (bits 32) ys -> Forall (bits 32) zs ->
  zlen xs = image_len (ri_axis r) l -> zlen ys = image_len (ri_axis r) l -> zlen zs = image_len (ri_axis r) l ->
  exists file, write_buffer q (FVector xs ys zs) c r l = Ok file /\
    py_read_header Little file = Ok (header_seen q c r l) /\
    py_read_grid Little file = Ok (PyVector (NDA (image_shape (ri_axis r) l) xs) (NDA (image_shape (ri_axis r) l) ys)
      (NDA (image_shape (ri_axis r) l) zs)).
Proof.
  intros HD Q0 Q3 HX HY HZ LX LY LZ. destruct flag_value as [FV _]. pose proof (proj1 HD) as HT.
  eexists. unfold write_buffer. rewrite FV. cbn [bind]. cbv zeta. split; [reflexivity|].
  change (Z.of_nat grid_size) with 344. change (GH flag0 344 q 0 c r l zero_loc) with (header_of flag0 q c r l).
  pose proof (header_out q c r l (floats Little xs ++ floats Little ys ++ floats Little zs) HT) as E. split; [exact E|].
  unfold py_read_grid. rewrite E. cbn [bind header_seen ph_render ph_loc ph_type ph_sizes pt_end pt_vector ps_header].
  destruct (shape_known r l q c HD) as (-> & SH & SL).
  replace (negb ((q =? 0) || (q =? 3))) with true by lia.
  change (336 + 8)%nat with 344%nat. pose proof (pos_344 (header_of flag0 q c r l)) as LH.
  set (h := enc8 (grid_fields (header_of flag0 q c r l))) in *. clearbody h.
  assert (A1 : fromfile Little (h ++ floats Little xs ++ floats Little ys ++ floats Little zs) 344 (image_len (ri_axis r) l) = Ok xs).
  { rewrite <- LH, <- LX. now apply fromfile_at. }
  rewrite A1. cbn [bind].
  assert (A2 : fromfile Little (h ++ floats Little xs ++ floats Little ys ++ floats Little zs) (344 + 4 * length xs) (image_len (ri_axis r) l) = Ok ys).
  { replace (344 + 4 * length xs)%nat with (length (h ++ floats Little xs)) by (rewrite app_length, floats_length; lia).
    rewrite app_assoc, <- LY. now apply fromfile_at. }
  rewrite A2. cbn [bind].
  assert (A3 : fromfile Little (h ++ floats Little xs ++ floats Little ys ++ floats Little zs) (344 + 4 * (length xs + length ys)) (image_len (ri_axis r) l) = Ok zs).
  { replace (344 + 4 * (length xs + length ys))%nat with (length (h ++ floats Little xs ++ floats Little ys)) by (rewrite !app_length, !floats_length; lia).
    rewrite <- LZ, <- (app_nil_r (floats Little zs)).
    replace (h ++ floats Little xs ++ floats Little ys ++ floats Little zs ++ []) with ((h ++ floats Little xs ++ floats Little ys) ++ floats Little zs ++ [])
      by (now rewrite <- !app_assoc).
    now apply fromfile_at. }
  rewrite A3. cbn [bind].
  rewrite !swap_none, !reshape_ok by auto. reflexivity.
Qed.

(** ** A grid that was not projected, under a header that says it was *)

Lemma slab_read xs c r l : describes 3 c r l -> Forall (bits 32) xs -> image_len (ri_axis r) l <= zlen xs ->
  exists file, write_buffer 3 (FScalar xs) c r l = Ok file /\
    py_read_grid Little file = Ok (PyScalar (NDA (image_shape (ri_axis r) l) (firstn (Z.to_nat (image_len (ri_axis r) l)) xs))).
Proof.
  intros HD HX HL. destruct flag_value as [FV _]. pose proof (proj1 HD) as HT.
  eexists. unfold write_buffer. rewrite FV. cbn [bind]. cbv zeta. split; [reflexivity|].
  change (Z.of_nat grid_size) with 344. change (GH flag0 344 3 0 c r l zero_loc) with (header_of flag0 3 c r l).
  pose proof (header_out 3 c r l (floats Little xs) HT) as E.
  unfold py_read_grid. rewrite E. cbn [bind header_seen ph_render ph_loc ph_type ph_sizes pt_end pt_vector ps_header].
  destruct (shape_known r l 3 c HD) as (-> & SH & SL).
  change (negb ((3 =? 0) || (3 =? 3))) with false.
  change (336 + 8)%nat with 344%nat. rewrite <- (pos_344 (header_of flag0 3 c r l)).
  rewrite <- (app_nil_r (floats Little xs)) at 1.
  replace (image_len (ri_axis r) l) with (Z.of_nat (Z.to_nat (image_len (ri_axis r) l))) at 1 by lia.
  rewrite fromfile_start by (auto; unfold zlen in HL; lia). cbn [bind].
  rewrite swap_none, reshape_ok; [reflexivity|exact SH|].
  change (fold_right Z.mul 1 (image_shape (ri_axis r) l)) with (image_len (ri_axis r) l).
  unfold zlen in *. rewrite firstn_length. lia.
Qed.

(** The three arrays run together: all three that are read come from the first. *)
Lemma slabs_read q xs ys zs c r l : describes q c r l -> q <> 0 -> q <> 3 -> Forall (bits 32) xs ->
  3 * image_len (ri_axis r) l <= zlen xs ->
  let n := Z.to_nat (image_len (ri_axis r) l) in let sh := image_shape (ri_axis r) l in
  exists file, write_buffer q (FVector xs ys zs) c r l = Ok file /\
    py_read_grid Little file = Ok (PyVector (NDA sh (firstn n xs)) (NDA sh (firstn n (skipn n xs))) (NDA sh (firstn n (skipn (n + n) xs)))).
Proof.
  intros HD Q0 Q3 HX HL n sh. destruct flag_value as [FV _]. pose proof (proj1 HD) as HT.
  eexists. unfold write_buffer. rewrite FV. cbn [bind]. cbv zeta. split; [reflexivity|].
  change (Z.of_nat grid_size) with 344. change (GH flag0 344 q 0 c r l zero_loc) with (header_of flag0 q c r l).
  pose proof (header_out q c r l (floats Little xs ++ floats Little ys ++ floats Little zs) HT) as E.
  unfold py_read_grid. rewrite E. cbn [bind header_seen ph_render ph_loc ph_type ph_sizes pt_end pt_vector ps_header].
  destruct (shape_known r l q c HD) as (-> & SH & SL).
  replace (negb ((q =? 0) || (q =? 3))) with true by lia.
  change (336 + 8)%nat with 344%nat. pose proof (pos_344 (header_of flag0 q c r l)) as LH.
  set (h := enc8 (grid_fields (header_of flag0 q c r l))) in *. clearbody h.
  generalize (floats Little ys ++ floats Little zs). intros rest.
  assert (LX : (3 * n <= length xs)%nat) by (unfold n, zlen in *; lia).
  assert (NL : image_len (ri_axis r) l = Z.of_nat n) by (unfold n; lia).
  assert (G : forall k, (k + n <= length xs)%nat ->
    fromfile Little (h ++ floats Little xs ++ rest) (344 + 4 * k) (image_len (ri_axis r) l) = Ok (firstn n (skipn k xs))).
  { intros k Hk. rewrite <- (firstn_skipn k xs) at 1. unfold floats. rewrite map_app, encode_app.
    fold (floats Little (firstn k xs)). fold (floats Little (skipn k xs)).
    replace (h ++ (floats Little (firstn k xs) ++ floats Little (skipn k xs)) ++ rest)
      with ((h ++ floats Little (firstn k xs)) ++ floats Little (skipn k xs) ++ rest) by (now rewrite <- !app_assoc).
    replace (344 + 4 * k)%nat with (length (h ++ floats Little (firstn k xs)))
      by (rewrite app_length, floats_length, firstn_length; lia).
    rewrite NL. apply fromfile_start.
    - apply Forall_forall. intros x Hx. rewrite Forall_forall in HX. apply HX.
      rewrite <- (firstn_skipn k xs). apply in_or_app. now right.
    - rewrite skipn_length. lia. }
  assert (L1 : forall k, (k + n <= length xs)%nat -> length (firstn n (skipn k xs)) = n).
  { intros k Hk. rewrite firstn_length, skipn_length. lia. }
  pose proof (G 0%nat ltac:(lia)) as G0. change (344 + 4 * 0)%nat with 344%nat in G0. cbn [skipn] in G0.
  rewrite G0. cbn [bind]. pose proof (L1 0%nat ltac:(lia)) as L10. cbn [skipn] in L10. rewrite !L10.
  rewrite (G n) by lia. cbn [bind]. rewrite (L1 n) by lia.
  rewrite (G (n + n)%nat) by lia. cbn [bind].
  rewrite !swap_none, !reshape_ok; try exact SH; try reflexivity;
    change (fold_right Z.mul 1 (image_shape (ri_axis r) l)) with (image_len (ri_axis r) l); rewrite NL; unfold zlen; f_equal.
  - now rewrite (L1 (n + n)%nat) by lia.
  - now rewrite (L1 n) by lia.
  - exact (eq_sym L10).
Qed.

(** ** Big endian machines *)

Lemma big_exits q f c r l : exists file, write_buffer q f c r l = Ok file /\ py_read_grid Big file = Fatal.
Proof.
  destruct flag_value as [FV _]. unfold write_buffer. rewrite FV. cbn [bind]. cbv zeta.
  change (Z.of_nat grid_size) with 344. change (GH flag0 344 q 0 c r l zero_loc) with (header_of flag0 q c r l).
  assert (X : forall rest, py_read_grid Big (enc8 (grid_fields (header_of flag0 q c r l)) ++ rest) = Fatal).
  { intros rest. rewrite fields_of, enc8_app. unfold py_read_grid, py_read_header. cbv zeta.
    rewrite <- app_assoc. generalize (enc8 ([344; q; 0] ++ [ci_redshift c; ci_scale c; ci_omegaM c; ci_omegaL c; ci_hubble c; ci_rhoMean c; ci_rhoCritical c; ci_boxWidth c] ++
      [ri_particles r; ri_totalPixels r; ri_subsample r; ri_depth r; ri_axis r] ++ loc_fields l ++ loc_fields zero_loc) ++ rest).
    intros tl.
    assert (F8 : firstn 8 (enc8 [flag0] ++ tl) = [254; 255; 255; 255; 255; 255; 255; 127]) by reflexivity.
    rewrite F8. reflexivity. }
  destruct f as [xs|xs ys zs]; eexists; (split; [reflexivity|apply X]).
Qed.

(** ** Cells *)

Lemma element_3 d0 d1 d2 xs x y z : 0 <= x < d0 -> 0 <= y < d1 -> 0 <= z < d2 ->
  element (NDA [d2; d1; d0] xs) [z; y; x] = nth_error xs (Z.to_nat (x + d0 * (y + d1 * z))).
Proof.
  intros. unfold element. cbn [shape elems place fold_right].
  replace ((0 <=? z) && (z <? d2)) with true by lia. replace ((0 <=? y) && (y <? d1)) with true by lia.
  replace ((0 <=? x) && (x <? d0)) with true by lia. do 2 f_equal. ring.
Qed.

Lemma element_2 dj dk xs j k : 0 <= j < dj -> 0 <= k < dk ->
  element (NDA [dk; dj] xs) [k; j] = nth_error xs (Z.to_nat (j + dj * k)).
Proof.
  intros. unfold element. cbn [shape elems place fold_right].
  replace ((0 <=? k) && (k <? dk)) with true by lia. replace ((0 <=? j) && (j <? dj)) with true by lia.
  do 2 f_equal. ring.
Qed.

Lemma skipn_twice {A} a : forall b (l : list A), skipn b (skipn a l) = skipn (a + b) l.
Proof. induction a as [|a IH]; intros b l; [reflexivity|]. destruct l; cbn [skipn Nat.add]; [now destruct b|apply IH]. Qed.

(** ** Grids that were not projected *)

Lemma pixels_split a l : In a [0; 1; 2] -> pixels l = span_along l a * image_len a l.
Proof.
  intros H. assert (a = 0 \/ a = 1 \/ a = 2) as [-> | [-> | ->]] by (cbn [In] in H; lia);
    unfold pixels, image_len, image_shape, span_along; cbn [kept filter Z.eqb Pos.eqb negb map fold_right]; ring.
Qed.

Lemma slab_thm xs c r l : describes 3 c r l -> In (ri_axis r) [0; 1; 2] -> Forall (bits 32) xs -> zlen xs = pixels l ->
  2 <= span_along l (ri_axis r) -> 0 < image_len (ri_axis r) l ->
  exists file ys, write_buffer 3 (FScalar xs) c r l = Ok file /\
    py_read_grid Little file = Ok (PyScalar (NDA (image_shape (ri_axis r) l) ys)) /\
    ys = firstn (length ys) xs /\ 2 * zlen ys <= zlen xs.
Proof.
  intros HD HA HX HL HS HP. rewrite (pixels_split _ l HA) in HL.
  destruct (slab_read xs c r l HD HX) as (file & E1 & E2); [nia|].
  eexists _, _. split; [exact E1|]. split; [exact E2|].
  set (n := Z.to_nat (image_len (ri_axis r) l)).
  assert (L : (2 * n <= length xs)%nat) by (unfold n, zlen in *; nia).
  unfold zlen. rewrite firstn_length. split; [f_equal; lia|lia].
Qed.

Lemma slabs_thm q xs ys zs c r l : describes q c r l -> (q = 1 \/ q = 4) -> In (ri_axis r) [0; 1; 2] -> Forall (bits 32) xs ->
  zlen xs = pixels l -> 3 <= span_along l (ri_axis r) ->
  exists file us vs ws rest, write_buffer q (FVector xs ys zs) c r l = Ok file /\
    py_read_grid Little file = Ok (PyVector (NDA (image_shape (ri_axis r) l) us) (NDA (image_shape (ri_axis r) l) vs)
      (NDA (image_shape (ri_axis r) l) ws)) /\ xs = us ++ vs ++ ws ++ rest.
Proof.
  intros HD HQ HA HX HL HS. rewrite (pixels_split _ l HA) in HL.
  destruct (shape_known r l q c HD) as (_ & _ & SL).
  destruct (slabs_read q xs ys zs c r l HD) as (file & E1 & E2); [lia|lia|exact HX|nia|].
  set (n := Z.to_nat (image_len (ri_axis r) l)) in *.
  exists file. exists (firstn n xs), (firstn n (skipn n xs)), (firstn n (skipn (n + n) xs)), (skipn (n + n + n) xs).
  split; [exact E1|]. split; [exact E2|].
  rewrite <- (firstn_skipn n xs) at 1. f_equal. rewrite <- (firstn_skipn n (skipn n xs)) at 1. f_equal.
  rewrite skipn_twice. rewrite <- (firstn_skipn n (skipn (n + n) xs)) at 1. f_equal. rewrite skipn_twice. reflexivity.
Qed.

(** ** From the buffer to the array *)

Section Buffers.
Context {D F : Type} {ND : Num D} {NF : Num F} (down : D -> F) (up : F -> D).

Lemma write_kind q g b q' im : kind q g b -> g_write down b = Ok (q', im) ->
  q' = q /\ match im with Plain _ => q = 0 \/ q = 3 | Triple _ => q <> 0 /\ q <> 3 end.
Proof.
  intros K. unfold g_write. destruct K as [vals loc W Q L|vecs num loc Wv Wn V Q L];
    cbn [g_quantity bind g_final_scalar g_final_vector];
    unfold Density.Density, Density.DensityGradient, Density.Velocity, Density.VelocityDivergence, Density.VelocityCurl.
  - destruct Q as [-> | ->]; cbn [Z.eqb Pos.eqb bind].
    + intros [= <- <-]. auto.
    + destruct (located loc _) as [x| | |]; cbn [bind]; try discriminate. intros [= <- <-]. lia.
  - destruct Q as [-> | [-> | ->]]; cbn [Z.eqb Pos.eqb bind].
    + destruct (Density.finalized_velocity down (Density.visible vecs) (Density.visible num)) as [x| | |]; cbn [bind]; try discriminate. intros [= <- <-]. lia.
    + destruct (located loc _) as [x| | |]; cbn [bind]; try discriminate. intros [= <- <-]. auto.
    + destruct (located loc _) as [x| | |]; cbn [bind]; try discriminate. intros [= <- <-]. lia.
Qed.

Lemma buffer_read (enc : F -> Z) q n g0 b ops b' q' im c r l : (forall x, bits 32 (enc x)) ->
  g_new q n g0 = Ok b -> apply_ops up b ops = Ok b' -> g_write down b' = Ok (q', im) ->
  describes q c r l -> (forall xs, In xs (image_arrays im) -> zlen xs = image_len (ri_axis r) l) ->
  exists file, write_buffer q' (bits_of enc im) c r l = Ok file /\
    py_read_header Little file = Ok (header_seen q c r l) /\
    py_read_grid Little file = Ok (array_of enc (image_shape (ri_axis r) l) im).
Proof.
  intros HE E1 E2 E3 HD HL. destruct (new_kind q n g0 b E1) as [K _].
  pose proof (ops_kind up q ops g0 b b' K E2) as K'. destruct (write_kind q _ b' q' im K' E3) as [-> HK].
  assert (HB : forall xs, Forall (bits 32) (map enc xs)).
  { intros xs. apply Forall_forall. intros v Hv. apply in_map_iff in Hv. destruct Hv as (x & <- & _). apply HE. }
  assert (HM : forall xs, zlen (map enc xs) = zlen xs) by (intros; unfold zlen; now rewrite map_length).
  destruct im as [xs|v]; cbn [bits_of array_of image_arrays] in *.
  - apply scalar_read; auto. rewrite HM. apply HL. now left.
  - apply vector_read; try tauto; auto; rewrite HM; apply HL; cbn [In]; auto.
Qed.
End Buffers.
