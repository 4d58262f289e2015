(** Reading Gadget snapshots. *)
From Coq Require Import ZArith List Bool Lia ZifyBool ZifyNat.
From Verif Require Import Base.Res Base.ResFacts Base.Num Base.Bytes Model.Geom Model.SheetIO Model.GridIO Model.Main Model.Gadget
  Spec.Files Spec.Gadgets Proof.BytesP Proof.SheetP.
Import ListNotations.
Open Scope Z_scope.

(** ** Words *)
Lemma flat_encode o k l : flat_map (put o k) l = encode o (map (pair k) l).
Proof. induction l as [|a l IH]; cbn; [reflexivity|]. rewrite IH. reflexivity. Qed.
Lemma fst_pairs (k : nat) (l : list Z) : map fst (map (pair k) l) = repeat k (length l).
Proof. induction l; cbn; congruence. Qed.
Lemma words_flat o k l rest : Forall (bits (8 * Z.of_nat k)) l -> words o k (length l) (flat_map (put o k) l ++ rest) = l.
Proof.
  intros H. unfold words. rewrite flat_encode, <- (fst_pairs k l), decode_encode, map_map. cbn [fst snd].
  rewrite <- (map_id l) at 2. apply map_ext_in. intros a Ha. rewrite Forall_forall in H. apply H in Ha. apply Z.mod_small.
  unfold bits in Ha. replace (256 ^ Z.of_nat k) with (2 ^ (8 * Z.of_nat k)); [exact Ha|]. rewrite Z.pow_mul_r by lia. reflexivity.
Qed.
Lemma flat_length o k l : length (flat_map (put o k) l) = (k * length l)%nat.
Proof. induction l as [|a l IH]; cbn [flat_map length]; [lia|]. rewrite app_length, put_length, IH, Nat.mul_succ_r. lia. Qed.
Lemma numbers_length o w l : length (numbers o w l) = ((if w then 8 else 4) * length l)%nat.
Proof. apply flat_length. Qed.
Lemma coords_length {A} (l : list (vec3 A)) : length (coords l) = (3 * length l)%nat.
Proof. unfold coords. induction l as [|v l IH]; cbn [flat_map length app]; [lia|]. rewrite IH. lia. Qed.
Lemma zlen_nat {A} (l : list A) n : zlen l = n -> length l = Z.to_nat n.
Proof. unfold zlen. lia. Qed.

Lemma read_int32_put o a v c n : length a = n -> read_int32 o (a ++ put o 4 v ++ c) n = Ok (wrap32 v).
Proof. intros H. unfold read_int32. rewrite read_full_app by (auto; apply put_length). now rewrite word_put. Qed.
Lemma read_int32_end o file pos : (length file < pos + 4)%nat -> read_int32 o file pos = Panic.
Proof. intros H. unfold read_int32. now rewrite read_full_short by lia. Qed.

Lemma wrap32_eq a : exists k, wrap32 a = a + k * 2 ^ 32.
Proof.
  unfold wrap32, signed. pose proof (Z.div_mod a (2 ^ 32)). destruct (_ <? _).
  - exists (- (a / 2 ^ 32)). lia.
  - exists (- (a / 2 ^ 32) - 1). lia.
Qed.
Lemma wrap32_cong a k : wrap32 (a + k * 2 ^ 32) = wrap32 a.
Proof. unfold wrap32. now rewrite Z.mod_add by lia. Qed.
Lemma kind_float n : block_kind n (wrap32 (12 * n)) = Ok true.
Proof. unfold block_kind. now rewrite Z.eqb_refl. Qed.
Lemma kind_double n : 0 < n < 2 ^ 30 -> block_kind n (wrap32 (24 * n)) = Ok false.
Proof.
  intros H. unfold block_kind. destruct (wrap32_eq (12 * n)) as (k & E), (wrap32_eq (24 * n)) as (k' & E').
  replace (wrap32 (12 * n) =? wrap32 (24 * n)) with false by lia.
  replace (wrap32 (wrap32 (12 * n) * 2)) with (wrap32 (24 * n)); [now rewrite Z.eqb_refl|].
  rewrite E. replace ((12 * n + k * 2 ^ 32) * 2) with (24 * n + (2 * k) * 2 ^ 32) by lia. now rewrite wrap32_cong.
Qed.
(** A block of another size. *)
Lemma kind_other n size : 0 <= n -> 24 * n < 2 ^ 31 -> 0 <= size < 2 ^ 31 -> size <> 12 * n -> size <> 24 * n -> block_kind n size = Panic.
Proof.
  intros H0 H1 H2 H3 H4. unfold block_kind.
  assert (W : forall a, 0 <= a < 2 ^ 31 -> wrap32 a = a).
  { intros a Ha. unfold wrap32, signed. rewrite Z.mod_small by lia. replace (a <? 2 ^ (32 - 1)) with true by lia. reflexivity. }
  rewrite (W (12 * n)) by lia. rewrite W by lia. replace (12 * n =? size) with false by lia. replace (12 * n * 2 =? size) with false by lia. reflexivity.
Qed.

(** ** Blocks *)
Section Blocks.
Variables (sys : order) (narrow : Z -> Z).

Lemma block_read o w (l : list (vec3 Z)) a c : (w = true -> o = sys /\ zlen l < 2 ^ 30) -> Forall (bits (wide_bits w)) (coords l) ->
  exists k, block_kind (zlen l) (wrap32 (zlen (numbers o w (coords l)))) = Ok k /\
    read_block sys narrow o k (a ++ numbers o w (coords l) ++ c) (length a) (length l) =
      Ok (map (narrowed narrow w) (coords l), (length a + length (numbers o w (coords l)))%nat).
Proof.
  intros HW HB. set (b := numbers o w (coords l)). assert (LB : length b = ((if w then 8 else 4) * (3 * length l))%nat).
  { unfold b. rewrite numbers_length, coords_length. reflexivity. }
  assert (EP : forall m, (m = length b)%nat -> Nat.min (length a + m) (length (a ++ b ++ c)) = (length a + length b)%nat).
  { intros m ->. rewrite !app_length. lia. }
  destruct l as [|v l0].
  { exists true. split; [destruct w; reflexivity|]. unfold read_block, read_vec_as_byte.
    destruct w; cbn in b; subst b; cbn; (rewrite (proj2 (Nat.eqb_eq _ _) eq_refl) || idtac).
    all: unfold read_into; cbn [length firstn skipn app]; rewrite ?Nat.add_0_r, ?app_length; destruct (is_sys_order sys o); cbn; rewrite Nat.min_l by lia; reflexivity. }
  remember (v :: l0) as l eqn:El. assert (Hn : 0 < zlen l) by (subst l; unfold zlen; cbn; lia).
  destruct w.
  - destruct (HW eq_refl) as [-> HL]. exists false. split.
    + replace (zlen b) with (24 * zlen l) by (unfold zlen; lia). apply kind_double. lia.
    + unfold read_block. rewrite read_vec64_any by lia. cbn [bind]. rewrite EP by lia. do 2 f_equal.
      unfold narrowed. f_equal. unfold b, numbers.
      rewrite <- (app_nil_r (flat_map _ _)). replace (3 * length l)%nat with (length (coords l)) by (rewrite coords_length; lia). apply words_flat. exact HB.
  - exists true. split.
    + replace (zlen b) with (12 * zlen l) by (unfold zlen; lia). apply kind_float.
    + unfold read_block.
      destruct (read_vec_ok sys o a b c (repeat 0 (12 * length l)) (3 * length l)) as (m & E & _ & Wm); [lia|rewrite repeat_length; lia|].
      rewrite E. cbn [bind]. rewrite EP by lia. do 2 f_equal. rewrite Wm.
      unfold narrowed. rewrite map_id. unfold b, numbers.
      rewrite <- (app_nil_r (flat_map _ _)). replace (3 * length l)%nat with (length (coords l)) by (rewrite coords_length; lia). apply words_flat. exact HB.
Qed.
End Blocks.

(** ** Header *)
Lemma six {A} (l : list A) : length l = 6%nat -> exists a b c d e f, l = [a; b; c; d; e; f].
Proof. intros H. do 6 (destruct l as [|? l]; [discriminate|]). destruct l; [|discriminate]. repeat eexists. Qed.

Definition gadget_of (s : snapshot) : gadget_header :=
  GHd (sn_npart s) (sn_mass s) (sn_time s) (sn_redshift s) (sn_total s) (sn_box s) (sn_omegaM s) (sn_omegaL s) (sn_h s).

Lemma header_decode o s : header_typed s -> gadget_of_words (decode o gadget_sizes (header_body o s)) = gadget_of s.
Proof.
  intros (L1 & L2 & L3 & L4 & B1 & B2 & B3 & B4). unfold header_body.
  assert (E : gadget_sizes = map fst (header_fields s)).
  { unfold header_fields. rewrite !map_app, !fst_pairs, L1, L2, L3. reflexivity. }
  rewrite E, decode_encode. clear E. destruct s as [np ma t z sfr fb to co fi bo om ol h ag ha pa x v id xw vw iw].
  unfold header_fields, gadget_of. cbn [sn_npart sn_mass sn_time sn_redshift sn_sfr sn_feedback sn_total sn_cooling sn_files sn_box sn_omegaM sn_omegaL sn_h sn_age sn_hash sn_pad] in *.
  apply six in L1, L2, L3. destruct L1 as (? & ? & ? & ? & ? & ? & ->), L2 as (? & ? & ? & ? & ? & ? & ->), L3 as (? & ? & ? & ? & ? & ? & ->).
  unfold gadget_of_words. cbn [map app nth seq fst snd].
  repeat match goal with H : Forall _ (_ :: _) |- _ => inversion_clear H end.
  rewrite !bits4, !bits8 by assumption. reflexivity.
Qed.
Lemma header_length o s : header_typed s -> length (header_body o s) = 256%nat.
Proof.
  intros (L1 & L2 & L3 & L4 & _). unfold header_body, header_fields. rewrite app_length, encode_length, !map_app, !fst_pairs, L1, L2, L3, L4. reflexivity.
Qed.

Lemma struct_read s rest : header_typed s ->
  read_gadget_struct Little (fortran Little (header_body Little s) ++ rest) = Ok (gadget_of s, 260%nat).
Proof.
  intros H. unfold read_gadget_struct, fortran. rewrite <- !app_assoc.
  pose proof (read_int32_put Little [] (zlen (header_body Little s)) (header_body Little s ++ put Little 4 (zlen (header_body Little s)) ++ rest) 0 eq_refl) as E.
  cbn [app] in E. rewrite E. clear E.
  cbn [bind]. rewrite read_full_app; [|apply put_length|now apply header_length]. now rewrite header_decode.
Qed.
Lemma nth_bits l k : Forall (bits 32) l -> bits 32 (nth k l 0).
Proof. intros H. destruct (Nat.lt_ge_cases k (length l)); [|rewrite nth_overflow by lia; unfold bits; lia]. apply Forall_nth; auto. Qed.
Lemma standardize_ok s : header_typed s -> standardize (gadget_of s) = header_of_snapshot s.
Proof.
  intros (_ & _ & _ & _ & B1 & _ & B2 & _). unfold standardize, header_of_snapshot, gadget_of. cbn [gd_redshift gd_omega0 gd_omegaLambda gd_hubble gd_mass gd_npart gd_npartTotal gd_boxSize].
  rewrite !count_low by (apply nth_bits; assumption). reflexivity.
Qed.
Theorem header_read s rest : header_typed s ->
  read_gadget_header Little (fortran Little (header_body Little s) ++ rest) = Ok (header_of_snapshot s).
Proof. intros H. unfold read_gadget_header. rewrite struct_read by auto. cbn [bind]. now rewrite standardize_ok. Qed.

(** ** Particles *)
Lemma triples_coords {A B} (f : A -> B) (l : list (vec3 A)) : triples (length l) (map f (coords l)) = map (vmap f) l.
Proof. induction l as [|[a b c] l IH]; [reflexivity|]. cbn. unfold coords in IH. now rewrite IH. Qed.

Section Read.
Context {D F : Type} {ND : Num D} {NF : Num F} (up : F -> D) (down : D -> F).
Variables (sys : order) (f32_of : Z -> F) (f64_of : Z -> D) (narrow : Z -> Z) (fsqrt : D -> D).
Notation read_particles := (read_gadget_particles up down sys f32_of f64_of narrow fsqrt).

Notation readable := (readable sys).

(** Up to the ids. *)
Lemma records_read s m ib ids idSize : header_typed s ->
  Forall (bits (wide_bits (sn_xwide s))) (coords (sn_x s)) -> Forall (bits (wide_bits (sn_vwide s))) (coords (sn_v s)) ->
  zlen (sn_x s) = dark s -> zlen (sn_v s) = dark s -> (sn_xwide s = true \/ sn_vwide s = true -> dark s < 2 ^ 30) -> readable s ->
  let pre := records Little s ++ put Little 4 m in
  read_particles Little (pre ++ ib) (dark s) (dark s) ids idSize =
  (if negb (zlen ids =? dark s) then Panic else
   bind (read_ids sys Little idSize (pre ++ ib) (length pre) ids) (fun ids =>
   Ok (map (true_position up down f32_of f64_of narrow s) (sn_x s), map (true_velocity down f32_of f64_of narrow fsqrt s) (sn_v s), ids))).
Proof.
  intros HT TX TV LX LV HN HR pre. unfold read_gadget_particles.
  set (H := header_body Little s). set (X := numbers Little (sn_xwide s) (coords (sn_x s))). set (V := numbers Little (sn_vwide s) (coords (sn_v s))).
  set (pI := put Little 4 m).
  set (file := pre ++ ib).
  set (fH := fortran Little H). assert (LH : length fH = 264%nat) by (unfold fH, fortran, H; rewrite !app_length, !put_length, header_length by auto; reflexivity).
  set (mX := put Little 4 (zlen X)). set (mV := put Little 4 (zlen V)).
  assert (E : file = fH ++ (mX ++ X ++ mX) ++ (mV ++ V ++ mV) ++ pI ++ ib) by (unfold file, pre, records, fH, fortran; rewrite <- !app_assoc; reflexivity).
  replace (read_gadget_struct Little file) with (Ok (gadget_of s, 260%nat)) by (rewrite E; unfold fH, H; symmetry; apply struct_read; auto).
  cbn [bind].
  replace (read_int32 Little file 260) with (Ok (wrap32 (zlen H))).
  2:{ rewrite E. unfold fH, fortran. rewrite <- !app_assoc.
      rewrite (app_assoc (put Little 4 (zlen H)) H). symmetry. apply read_int32_put. rewrite app_length, put_length. unfold H. now rewrite header_length. }
  cbn [bind]. rewrite standardize_ok by auto. change (ct_count (header_of_snapshot s)) with (dark s). rewrite !Z.eqb_refl. cbn [negb].
  destruct (zlen ids =? dark s); cbn [negb]; [|reflexivity]. change (nth 1 (gd_npart (gadget_of s)) 0) with (dark s).
  replace (read_int32 Little file (260 + 4)) with (Ok (wrap32 (zlen X))).
  2:{ rewrite E. rewrite <- !app_assoc. symmetry. apply read_int32_put. exact LH. }
  cbn [bind].
  destruct (block_read sys narrow Little (sn_xwide s) (sn_x s) (fH ++ mX) (mX ++ (mV ++ V ++ mV) ++ pI ++ ib)) as (kx & EK & EX); [rewrite LX; intros W; split; [symmetry; apply HR; auto|apply HN; auto]|auto|].
  rewrite LX in EK. fold X in EK, EX. rewrite EK. cbn [bind].
  replace (Z.to_nat (dark s)) with (length (sn_x s)) by (apply zlen_nat; exact LX).
  replace (read_block sys narrow Little kx file (260 + 8) (length (sn_x s))) with (Ok (map (narrowed narrow (sn_xwide s)) (coords (sn_x s)), (268 + length X)%nat)).
  2:{ symmetry. rewrite E. assert (L2 : length (fH ++ mX) = 268%nat) by (unfold mX; rewrite app_length, put_length, LH; reflexivity).
      rewrite L2 in EX. rewrite <- EX. f_equal. rewrite <- !app_assoc. reflexivity. }
  cbn [bind].
  set (q := (268 + length X)%nat).
  set (aX := fH ++ mX ++ X). assert (LaX : length aX = q) by (unfold aX, mX; rewrite !app_length, LH, put_length; unfold q; lia).
  replace (read_int32 Little file q) with (Ok (wrap32 (zlen X))).
  2:{ symmetry. rewrite E. replace (fH ++ (mX ++ X ++ mX) ++ (mV ++ V ++ mV) ++ pI ++ ib) with (aX ++ mX ++ ((mV ++ V ++ mV) ++ pI ++ ib)) by (unfold aX; rewrite <- !app_assoc; reflexivity).
      now apply read_int32_put. }
  cbn [bind].
  replace (read_int32 Little file (q + 4)) with (Ok (wrap32 (zlen V))).
  2:{ symmetry. rewrite E. replace (fH ++ (mX ++ X ++ mX) ++ (mV ++ V ++ mV) ++ pI ++ ib) with ((aX ++ mX) ++ mV ++ (V ++ mV ++ pI ++ ib)) by (unfold aX; rewrite <- !app_assoc; reflexivity).
      apply read_int32_put. unfold mX. rewrite app_length, put_length, LaX. reflexivity. }
  cbn [bind].
  destruct (block_read sys narrow Little (sn_vwide s) (sn_v s) (aX ++ mX ++ mV) (mV ++ pI ++ ib)) as (kv & EKv & EV); [rewrite LV; intros W; split; [symmetry; apply HR; auto|apply HN; auto]|auto|].
  rewrite LV in EKv. fold V in EKv, EV. rewrite EKv. cbn [bind].
  assert (LaV : length (aX ++ mX ++ mV) = (q + 8)%nat) by (unfold mX, mV; rewrite !app_length, !put_length, LaX; lia).
  assert (EL : length (sn_v s) = length (sn_x s)) by (unfold zlen in *; lia).
  replace (read_block sys narrow Little kv file (q + 8) (length (sn_x s))) with (Ok (map (narrowed narrow (sn_vwide s)) (coords (sn_v s)), (q + 8 + length V)%nat)).
  2:{ symmetry. rewrite E. rewrite LaV, EL in EV. rewrite <- EV. f_equal. unfold aX. rewrite <- !app_assoc. reflexivity. }
  cbn [bind].
  replace (read_int32 Little file (q + 8 + length V)) with (Ok (wrap32 (zlen V))).
  2:{ symmetry. rewrite E. replace (fH ++ (mX ++ X ++ mX) ++ (mV ++ V ++ mV) ++ pI ++ ib) with (((aX ++ mX ++ mV) ++ V) ++ mV ++ (pI ++ ib)) by (unfold aX; rewrite <- !app_assoc; reflexivity).
      apply read_int32_put. rewrite app_length, LaV. reflexivity. }
  cbn [bind].
  replace (read_int32 Little file (q + 8 + length V + 4)) with (Ok (wrap32 m)).
  2:{ symmetry. rewrite E. replace (fH ++ (mX ++ X ++ mX) ++ (mV ++ V ++ mV) ++ pI ++ ib) with ((((aX ++ mX ++ mV) ++ V) ++ mV) ++ pI ++ ib) by (unfold aX; rewrite <- !app_assoc; reflexivity).
      apply read_int32_put. unfold mV at 2. rewrite app_length, app_length, put_length, LaV. reflexivity. }
  cbn [bind].
  replace (q + 8 + length V + 8)%nat with (length pre).
  2:{ unfold pre, records. fold H X V fH pI. unfold fortran. fold mX mV. unfold q. rewrite !app_length, LH. unfold mX, mV, pI. rewrite !put_length. lia. }
  destruct (read_ids _ _ _ _ _ _) as [ids'| | |]; cbn [bind]; try reflexivity.
  rewrite <- EL at 2. rewrite !triples_coords, !map_map. reflexivity.
Qed.

Lemma before_read s ib ids idSize : snapshot_ok s -> readable s ->
  read_particles Little (before_ids Little s ++ ib) (dark s) (dark s) ids idSize =
  (if negb (zlen ids =? dark s) then Panic else
   bind (read_ids sys Little idSize (before_ids Little s ++ ib) (length (before_ids Little s)) ids) (fun ids =>
   Ok (map (true_position up down f32_of f64_of narrow s) (sn_x s), map (true_velocity down f32_of f64_of narrow fsqrt s) (sn_v s), ids))).
Proof. intros (HT & (TX & TV & _) & (LX & LV & _ & HN)) HR. now apply records_read. Qed.

(** A block of positions that is refused. *)
Lemma refused s m rest nx nv ids idSize : header_typed s -> block_kind (dark s) (wrap32 m) = Panic ->
  read_particles Little (fortran Little (header_body Little s) ++ put Little 4 m ++ rest) nx nv ids idSize = Panic.
Proof.
  intros HT HK. unfold read_gadget_particles. rewrite struct_read by auto. cbn [bind].
  set (H := header_body Little s). set (fH := fortran Little H).
  assert (LH : length fH = 264%nat) by (unfold fH, fortran, H; rewrite !app_length, !put_length, header_length by auto; reflexivity).
  replace (read_int32 Little (fH ++ put Little 4 m ++ rest) 260) with (Ok (wrap32 (zlen H))).
  2:{ unfold fH, fortran. rewrite <- !app_assoc.
      rewrite (app_assoc (put Little 4 (zlen H)) H). symmetry. apply read_int32_put. rewrite app_length, put_length. unfold H. now rewrite header_length. }
  cbn [bind]. rewrite standardize_ok by auto.
  destruct (nx =? _); cbn [negb]; [|reflexivity]. destruct (nv =? _); cbn [negb]; [|reflexivity]. destruct (zlen ids =? _); cbn [negb]; [|reflexivity].
  change (nth 1 (gd_npart (gadget_of s)) 0) with (dark s). rewrite read_int32_put by exact LH. cbn [bind]. rewrite HK. reflexivity.
Qed.
End Read.

(** ** Ids *)
Lemma words_flat_mod o k l rest : words o k (length l) (flat_map (put o k) l ++ rest) = map (fun v => v mod 256 ^ Z.of_nat k) l.
Proof. unfold words. rewrite flat_encode, <- (fst_pairs k l), decode_encode, map_map. reflexivity. Qed.
Lemma signed_wrap4 v : - 2 ^ 31 <= v < 2 ^ 31 -> signed 32 (v mod 256 ^ Z.of_nat 4) = v.
Proof.
  intros H. change (256 ^ Z.of_nat 4) with (2 ^ 32). unfold signed. change (32 - 1) with 31. destruct (Z_lt_dec v 0).
  - replace (v mod 2 ^ 32) with (v + 2 ^ 32) by (apply Z.mod_unique with (q := -1); lia). replace (v + 2 ^ 32 <? 2 ^ 31) with false by lia. lia.
  - rewrite Z.mod_small by lia. replace (v <? 2 ^ 31) with true by lia. reflexivity.
Qed.
Definition id_range (w : bool) (i : Z) : Prop := let b := wide_bits w in - 2 ^ (b - 1) <= i < 2 ^ (b - 1).
Lemma signed_ids w l : Forall (id_range w) l ->
  map (fun v => signed (wide_bits w) (v mod 256 ^ Z.of_nat (if w then 8 else 4)%nat)) l = l.
Proof.
  intros H. rewrite <- (map_id l) at 2. apply map_ext_in. intros a Ha. rewrite Forall_forall in H. apply H in Ha.
  destruct w; [apply signed_wrap8|apply signed_wrap4]; exact Ha.
Qed.
Lemma repeat_flat o k n : flat_map (put o k) (repeat 0 n) = repeat 0 (k * n).
Proof.
  assert (P : put o k 0 = repeat 0 k).
  { assert (L : le k 0 = repeat 0 k) by (clear; induction k as [|k IH]; [reflexivity|]; cbn [le repeat]; change (0 mod 256) with 0; change (0 / 256) with 0; now rewrite IH).
    destruct o; cbn; rewrite L; auto. clear. induction k; cbn; auto. rewrite IHk. clear. induction k; cbn; congruence. }
  induction n as [|n IH]; cbn [repeat flat_map]; [now rewrite Nat.mul_0_r|]. rewrite IH, P, Nat.mul_succ_r, Nat.add_comm, repeat_app. reflexivity.
Qed.

(** All the ids. *)
Lemma ids_read sys w l pre c old : Forall (id_range w) l -> length old = length l ->
  read_ids sys Little (wide_bits w) (pre ++ numbers Little w l ++ c) (length pre) old = Ok l.
Proof.
  intros H HL. unfold read_ids. destruct w; cbn [wide_bits Z.eqb Pos.eqb].
  - destruct (read_int64_ok sys Little pre (numbers Little true l) c (flat_map (put sys 8) old) (length l)) as (m & E & _ & W).
    { rewrite numbers_length. lia. } { rewrite flat_length, numbers_length, HL. reflexivity. }
    rewrite E. cbn [bind]. rewrite HL, W. f_equal. unfold numbers. rewrite <- (app_nil_r (flat_map _ _)), words_flat_mod, map_map. now apply (signed_ids true).
  - rewrite HL, read_int32_ok by (rewrite numbers_length; lia). cbn [bind]. f_equal.
    unfold numbers. rewrite <- (app_nil_r (flat_map _ _)), words_flat_mod, map_map. now apply (signed_ids false).
Qed.
(** Only some of the ids: the others are zero. *)
Lemma ids_short sys w l pre j n : Forall (id_range w) l -> length l = n -> (j < n)%nat ->
  read_ids sys Little (wide_bits w) (pre ++ numbers Little w (firstn j l)) (length pre) (repeat 0 n) = Ok (firstn j l ++ repeat 0 (n - j)).
Proof.
  intros H HL HJ. set (a := firstn j l). assert (La : length a = j) by (unfold a; rewrite firstn_length; lia).
  assert (HA : Forall (id_range w) (a ++ repeat 0 (n - j))).
  { apply Forall_app. split.
    - unfold a. rewrite <- (firstn_skipn j l) in H. apply Forall_app in H. apply H.
    - apply Forall_forall. intros i Hi. apply repeat_spec in Hi. subst i. destruct w; cbv; split; congruence. }
  assert (LA : length (a ++ repeat 0 (n - j)) = n) by (rewrite app_length, repeat_length; lia).
  destruct j as [|j0].
  { assert (a = []) by (destruct a; [auto|discriminate]). rewrite H0. cbn [numbers flat_map app]. rewrite Nat.sub_0_r.
    unfold read_ids. rewrite repeat_length, app_nil_r.
    assert (RN : forall mem, (0 < length mem)%nat -> read_into pre (length pre) mem = None).
    { intros mem Hm. unfold read_into. rewrite skipn_all, firstn_nil. destruct mem; [cbn in Hm; lia|reflexivity]. }
    destruct w; cbn [wide_bits Z.eqb Pos.eqb].
    - unfold read_int64_as_byte. rewrite RN by (rewrite flat_length, repeat_length; lia). reflexivity.
    - unfold read_int32_as_byte. rewrite RN by (rewrite repeat_length; lia). reflexivity. }
  set (k := (if w then 8 else 4)%nat).
  assert (EI : forall mem, mem = repeat 0 (k * n) -> read_into (pre ++ numbers Little w a) (length pre) mem = Some (numbers Little w (a ++ repeat 0 (n - S j0)))).
  { intros mem ->. unfold read_into. rewrite skipn_app, skipn_all, Nat.sub_diag. cbn [app skipn].
    assert (LN : length (numbers Little w a) = (k * S j0)%nat) by (rewrite numbers_length, La; reflexivity).
    rewrite firstn_all2 by (rewrite repeat_length, LN; apply Nat.mul_le_mono_l; lia).
    assert (ER : numbers Little w a ++ skipn (length (numbers Little w a)) (repeat 0 (k * n)) = numbers Little w (a ++ repeat 0 (n - S j0))).
    { unfold numbers. rewrite flat_map_app. f_equal. fold (numbers Little w a). rewrite LN. fold k. rewrite repeat_flat.
      replace (k * n)%nat with (k * S j0 + k * (n - S j0))%nat by (rewrite <- Nat.mul_add_distr_l; f_equal; lia).
      rewrite repeat_app, skipn_app, repeat_length, Nat.sub_diag, skipn_all2 by (rewrite repeat_length; lia). reflexivity. }
    rewrite ER. destruct (numbers Little w a) as [|b l0] eqn:En; [|reflexivity]. exfalso. cbn in LN. destruct w; cbn in LN; discriminate. }
  pose proof (ids_read sys w _ pre [] (repeat 0 n) HA) as R. rewrite repeat_length in R. specialize (R (eq_sym LA)). rewrite <- R.
  assert (EJ : forall mem, mem = repeat 0 (k * n) -> read_into (pre ++ numbers Little w (a ++ repeat 0 (n - S j0)) ++ []) (length pre) mem = Some (numbers Little w (a ++ repeat 0 (n - S j0)))).
  { intros mem ->. rewrite read_into_app; auto. rewrite numbers_length, LA, repeat_length. reflexivity. }
  unfold read_ids. rewrite repeat_length. subst k. destruct w; cbn [wide_bits Z.eqb Pos.eqb].
  - unfold read_int64_as_byte. rewrite EI, EJ by apply repeat_flat. reflexivity.
  - unfold read_int32_as_byte. rewrite EI, EJ by reflexivity. reflexivity.
Qed.
(** None of the ids: the slice is unchanged. *)
Lemma ids_none sys w pre old : read_ids sys Little (wide_bits w) pre (length pre) old = Ok old.
Proof.
  destruct old as [|i old].
  { unfold read_ids. cbn. destruct w; cbn; unfold read_int64_as_byte, read_int32_as_byte, read_into; cbn; destruct sys; reflexivity. }
  assert (RN : forall mem, (0 < length mem)%nat -> read_into pre (length pre) mem = None).
  { intros mem Hm. unfold read_into. rewrite skipn_all, firstn_nil. destruct mem; [cbn in Hm; lia|reflexivity]. }
  unfold read_ids. destruct w; cbn [wide_bits Z.eqb Pos.eqb].
  - unfold read_int64_as_byte. rewrite RN by (rewrite flat_length; cbn; lia). reflexivity.
  - unfold read_int32_as_byte. rewrite RN by (rewrite repeat_length; cbn; lia). reflexivity.
Qed.

(** ** Whole files *)
Lemma id_bits_eq s : id_bits s = wide_bits (sn_idwide s).
Proof. reflexivity. Qed.
Lemma dark_count s : snapshot_ok s -> Z.to_nat (dark s) = length (sn_x s) /\ 0 <= dark s.
Proof. intros (_ & _ & (H & _)). unfold zlen in H. lia. Qed.
Section Files.
Context {D F : Type} {ND : Num D} {NF : Num F} (up : F -> D) (down : D -> F).
Variables (sys : order) (f32_of : Z -> F) (f64_of : Z -> D) (narrow : Z -> Z) (fsqrt : D -> D).
Notation read_particles := (read_gadget_particles up down sys f32_of f64_of narrow fsqrt).
Notation readable := (readable sys).

Lemma bytes_header s rest : snapshot_ok s -> read_gadget_header Little (before_ids Little s ++ rest) = Ok (header_of_snapshot s).
Proof. intros H. unfold before_ids, records. rewrite <- !app_assoc. apply header_read. apply H. Qed.

Lemma particles_read s old : snapshot_ok s -> readable s -> zlen old = dark s ->
  read_particles Little (snapshot_bytes Little s) (dark s) (dark s) old (id_bits s) =
  Ok (map (true_position up down f32_of f64_of narrow s) (sn_x s), map (true_velocity down f32_of f64_of narrow fsqrt s) (sn_v s), sn_id s).
Proof.
  intros H HR HL. unfold snapshot_bytes. rewrite before_read by auto. rewrite HL, Z.eqb_refl. cbn [negb].
  rewrite id_bits_eq, ids_read; [reflexivity| |].
  - destruct H as (_ & (_ & _ & H) & _). exact H.
  - destruct H as (_ & _ & (_ & _ & H & _)). unfold zlen in *. lia.
Qed.

Theorem gadget_read s : snapshot_ok s -> readable s ->
  read_gadget up down sys f32_of f64_of narrow fsqrt Little (snapshot_bytes Little s) (id_bits s) =
  Ok (header_of_snapshot s, map (true_position up down f32_of f64_of narrow s) (sn_x s), map (true_velocity down f32_of f64_of narrow fsqrt s) (sn_v s), sn_id s).
Proof.
  intros H HR. unfold read_gadget. unfold snapshot_bytes at 1. rewrite bytes_header by auto. cbn [bind].
  change (ct_count (header_of_snapshot s)) with (dark s). rewrite particles_read; auto.
  unfold zlen. rewrite repeat_length. destruct (dark_count s H). lia.
Qed.

(** A file that ends among the ids. *)
Theorem gadget_short s j : snapshot_ok s -> readable s -> (j < length (sn_id s))%nat ->
  read_gadget up down sys f32_of f64_of narrow fsqrt Little (before_ids Little s ++ numbers Little (sn_idwide s) (firstn j (sn_id s))) (id_bits s) =
  Ok (header_of_snapshot s, map (true_position up down f32_of f64_of narrow s) (sn_x s), map (true_velocity down f32_of f64_of narrow fsqrt s) (sn_v s),
      firstn j (sn_id s) ++ repeat 0 (length (sn_id s) - j)).
Proof.
  intros H HR HJ. unfold read_gadget. rewrite bytes_header by auto. cbn [bind].
  change (ct_count (header_of_snapshot s)) with (dark s). rewrite before_read by auto.
  assert (EN : Z.to_nat (dark s) = length (sn_id s)) by (destruct H as (_ & _ & (_ & _ & H & _)); unfold zlen in H; lia).
  replace (zlen (repeat 0 (Z.to_nat (dark s))) =? dark s) with true by (unfold zlen; rewrite repeat_length; destruct (dark_count s H); lia).
  cbn [negb]. rewrite EN, id_bits_eq, ids_short; auto. destruct H as (_ & (_ & _ & H) & _). exact H.
Qed.

(** ** A file that ends earlier *)
Lemma firstn_full file k pos n : (pos + n <= k)%nat -> read_full (firstn k file) pos n = read_full file pos n.
Proof. intros H. unfold read_full. rewrite skipn_firstn_comm, firstn_firstn. now rewrite Nat.min_l by lia. Qed.
Lemma cut_int32 o file k pos : (k <= length file)%nat ->
  read_int32 o (firstn k file) pos = if Nat.leb (pos + 4) k then read_int32 o file pos else Panic.
Proof.
  intros H. destruct (Nat.leb_spec (pos + 4) k).
  - unfold read_int32. now rewrite firstn_full.
  - apply read_int32_end. rewrite firstn_length. lia.
Qed.
Lemma read_into_length file pos mem m : read_into file pos mem = Some m -> length m = length mem.
Proof.
  unfold read_into. intros H.
  assert (E : length (firstn (length mem) (skipn pos file) ++ skipn (length (firstn (length mem) (skipn pos file))) mem) = length mem).
  { rewrite app_length, skipn_length. pose proof (firstn_le_length (length mem) (skipn pos file)). lia. }
  destruct (firstn (length mem) (skipn pos file)), mem; try discriminate; injection H as <-; exact E.
Qed.
Lemma block_any o k file pos n : exists l,
  read_block sys narrow o k file pos n = Ok (l, Nat.min (pos + (if k then 12 * n else 24 * n)) (length file)).
Proof.
  unfold read_block. destruct k.
  - unfold read_vec_as_byte. destruct (read_into file pos (repeat 0 (12 * n))) as [m|] eqn:E; [|eexists; reflexivity].
    apply read_into_length in E. rewrite repeat_length in E. rewrite (vec_swap sys o m (3 * n)) by lia. eexists. reflexivity.
  - unfold read_vec64_as_byte. destruct (read_into file pos (repeat 0 (24 * n))) as [m|] eqn:E; [|eexists; reflexivity].
    apply read_into_length in E. rewrite repeat_length in E.
    assert (ES : (if is_sys_order sys o then Ok m else swap_bytes (Z.of_nat n * 3) 8 4 3 m) = Ok m).
    { destruct (is_sys_order sys o); auto. replace (Z.of_nat n * 3) with (Z.of_nat (3 * n)) by lia. apply swap64. lia. }
    rewrite ES. eexists. reflexivity.
Qed.
Lemma kind_size o w (l : list (vec3 Z)) : (w = true -> zlen l < 2 ^ 30) -> exists k,
  block_kind (zlen l) (wrap32 (zlen (numbers o w (coords l)))) = Ok k /\ (if k then 12 * length l else 24 * length l)%nat = length (numbers o w (coords l)).
Proof.
  intros H. assert (L : length (numbers o w (coords l)) = ((if w then 8 else 4) * (3 * length l))%nat) by (rewrite numbers_length, coords_length; reflexivity).
  destruct l as [|v l0]; [exists true; destruct w; split; reflexivity|]. remember (v :: l0) as l eqn:El.
  assert (Hn : 0 < zlen l) by (subst l; unfold zlen; cbn; lia). destruct w.
  - exists false. split; [|lia]. replace (zlen (numbers o true (coords l))) with (24 * zlen l) by (unfold zlen; lia). apply kind_double. auto.
  - exists true. split; [|lia]. replace (zlen (numbers o false (coords l))) with (12 * zlen l) by (unfold zlen; lia). apply kind_float.
Qed.

Lemma cut_panics s k nx nv ids idSize : snapshot_ok s -> (k < length (before_ids Little s))%nat ->
  read_particles Little (firstn k (snapshot_bytes Little s)) nx nv ids idSize = Panic.
Proof.
  intros (HT & _ & (LX & LV & _ & HN)) HK. set (file := snapshot_bytes Little s).
  assert (HF : (k <= length file)%nat) by (unfold file, snapshot_bytes; rewrite app_length; lia).
  set (H := header_body Little s). set (X := numbers Little (sn_xwide s) (coords (sn_x s))). set (V := numbers Little (sn_vwide s) (coords (sn_v s))).
  assert (LF : length (firstn k file) = k) by (rewrite firstn_length; lia).
  set (mX := put Little 4 (zlen X)). set (mV := put Little 4 (zlen V)).
  set (fH := fortran Little H). assert (LH : length fH = 264%nat) by (unfold fH, fortran, H; rewrite !app_length, !put_length, header_length by auto; reflexivity).
  assert (E : exists rest, file = fH ++ (mX ++ X ++ mX) ++ (mV ++ V ++ mV) ++ rest).
  { eexists. unfold file, snapshot_bytes, before_ids, records, fH, fortran. rewrite <- !app_assoc. reflexivity. }
  destruct E as (rest & E).
  assert (LB : length (before_ids Little s) = (284 + length X + length V)%nat).
  { unfold before_ids, records. fold H X V fH. unfold fortran. rewrite !app_length, LH, !put_length. lia. }
  unfold read_gadget_particles, read_gadget_struct. rewrite (cut_int32 _ _ _ _ HF).
  destruct (Nat.leb_spec (0 + 4) k) as [K4|]; [|reflexivity].
  assert (E0 : read_int32 Little file 0 = Ok (wrap32 (zlen H))).
  { rewrite E. unfold fH, fortran. rewrite <- !app_assoc. apply (read_int32_put Little [] (zlen H)). reflexivity. }
  rewrite E0. cbn [bind].
  destruct (Nat.lt_ge_cases k 260) as [K260|K260].
  { rewrite read_full_short by (unfold gadget_size; lia). cbn [bind]. rewrite LF, read_int32_end by lia. reflexivity. }
  rewrite firstn_full by (unfold gadget_size; lia).
  assert (EH : read_full file 4 gadget_size = Some H).
  { rewrite E. unfold fH, fortran. rewrite <- !app_assoc. apply read_full_app; [apply put_length|unfold H, gadget_size; now apply header_length]. }
  rewrite EH. unfold H. rewrite header_decode by auto. cbn [bind]. change (4 + gadget_size)%nat with 260%nat.
  rewrite (cut_int32 _ _ _ _ HF). destruct (Nat.leb_spec (260 + 4) k) as [K264|]; [|reflexivity].
  assert (E1 : read_int32 Little file 260 = Ok (wrap32 (zlen H))).
  { rewrite E. unfold fH, fortran. rewrite <- !app_assoc. rewrite (app_assoc (put Little 4 (zlen H)) H). apply read_int32_put. rewrite app_length, put_length. unfold H. now rewrite header_length. }
  rewrite E1. cbn [bind]. rewrite standardize_ok by auto. change (ct_count (header_of_snapshot s)) with (dark s).
  destruct (nx =? dark s); cbn [negb]; [|reflexivity]. destruct (nv =? dark s); cbn [negb]; [|reflexivity].
  destruct (zlen ids =? dark s); cbn [negb]; [|reflexivity].
  change (nth 1 (gd_npart (gadget_of s)) 0) with (dark s). rewrite (cut_int32 _ _ _ _ HF).
  destruct (Nat.leb_spec (260 + 4 + 4) k) as [K268|]; [|reflexivity].
  assert (E2 : read_int32 Little file (260 + 4) = Ok (wrap32 (zlen X))).
  { rewrite E. rewrite <- !app_assoc. apply read_int32_put. exact LH. }
  rewrite E2. cbn [bind].
  destruct (kind_size Little (sn_xwide s) (sn_x s)) as (kx & EK & SK); [rewrite LX; auto|]. fold X in EK, SK. rewrite LX in EK. rewrite EK. cbn [bind].
  replace (Z.to_nat (dark s)) with (length (sn_x s)) by (apply zlen_nat; exact LX).
  destruct (block_any Little kx (firstn k file) (260 + 8) (length (sn_x s))) as (lx & EX). rewrite EX. cbn [bind]. clear EX. rewrite SK, LF.
  destruct (Nat.lt_ge_cases k (268 + length X)) as [KX|KX].
  { rewrite Nat.min_r by lia. rewrite read_int32_end by lia. reflexivity. }
  rewrite Nat.min_l by lia. set (q := (260 + 8 + length X)%nat). rewrite (cut_int32 _ _ _ _ HF).
  destruct (Nat.leb_spec (q + 4) k) as [K1|]; [|reflexivity].
  set (aX := fH ++ mX ++ X). assert (LaX : length aX = q) by (unfold aX, mX; rewrite !app_length, LH, put_length; unfold q; lia).
  assert (E3 : read_int32 Little file q = Ok (wrap32 (zlen X))).
  { rewrite E. replace (fH ++ (mX ++ X ++ mX) ++ (mV ++ V ++ mV) ++ rest) with (aX ++ mX ++ ((mV ++ V ++ mV) ++ rest)) by (unfold aX; rewrite <- !app_assoc; reflexivity).
    now apply read_int32_put. }
  rewrite E3. cbn [bind]. rewrite (cut_int32 _ _ _ _ HF).
  destruct (Nat.leb_spec (q + 4 + 4) k) as [K2|]; [|reflexivity].
  assert (E4 : read_int32 Little file (q + 4) = Ok (wrap32 (zlen V))).
  { rewrite E. replace (fH ++ (mX ++ X ++ mX) ++ (mV ++ V ++ mV) ++ rest) with ((aX ++ mX) ++ mV ++ (V ++ mV ++ rest)) by (unfold aX; rewrite <- !app_assoc; reflexivity).
    apply read_int32_put. unfold mX. rewrite app_length, put_length, LaX. reflexivity. }
  rewrite E4. cbn [bind].
  destruct (kind_size Little (sn_vwide s) (sn_v s)) as (kv & EKv & SKv); [rewrite LV; auto|]. fold V in EKv, SKv. rewrite LV in EKv. rewrite EKv. cbn [bind].
  assert (EL : length (sn_v s) = length (sn_x s)) by (unfold zlen in *; lia). rewrite EL in SKv.
  destruct (block_any Little kv (firstn k file) (q + 8) (length (sn_x s))) as (lv & EV). rewrite EV. cbn [bind]. clear EV. rewrite SKv, LF.
  destruct (Nat.lt_ge_cases k (q + 8 + length V)) as [KV|KV].
  { rewrite Nat.min_r by lia. rewrite read_int32_end by lia. reflexivity. }
  rewrite Nat.min_l by lia. rewrite (cut_int32 _ _ _ _ HF).
  destruct (Nat.leb_spec (q + 8 + length V + 4) k) as [K3|]; [|reflexivity].
  assert (E5 : read_int32 Little file (q + 8 + length V) = Ok (wrap32 (zlen V))).
  { rewrite E. replace (fH ++ (mX ++ X ++ mX) ++ (mV ++ V ++ mV) ++ rest) with (((aX ++ mX) ++ mV ++ V) ++ mV ++ rest) by (unfold aX; rewrite <- !app_assoc; reflexivity).
    apply read_int32_put. unfold mX, mV. rewrite !app_length, !put_length, LaX. lia. }
  rewrite E5. cbn [bind]. rewrite (cut_int32 _ _ _ _ HF).
  destruct (Nat.leb_spec (q + 8 + length V + 4 + 4) k) as [K4'|]; [|reflexivity]. unfold q in *. lia.
Qed.

Theorem gadget_cut s k idSize : snapshot_ok s -> (k < length (before_ids Little s))%nat ->
  read_gadget up down sys f32_of f64_of narrow fsqrt Little (firstn k (snapshot_bytes Little s)) idSize = Panic.
Proof.
  intros H HK. unfold read_gadget, read_gadget_header. destruct (read_gadget_struct Little _) as [[g p]| | |] eqn:E; cbn [bind].
  - rewrite cut_panics by auto. reflexivity.
  - reflexivity.
  - exfalso. revert E. unfold read_gadget_struct, read_int32. destruct (read_full _ 0 4); cbn [bind]; [destruct (read_full _ 4 _)|]; discriminate.
  - exfalso. revert E. unfold read_gadget_struct, read_int32. destruct (read_full _ 0 4); cbn [bind]; [destruct (read_full _ 4 _)|]; discriminate.
Qed.
End Files.

(** ReadGadgetHeader does not notice. *)
Theorem header_cut o file : (4 <= length file < 260)%nat -> read_gadget_header o file = Ok (CHd 0 0 0 0 0 0 0 0).
Proof.
  intros H. unfold read_gadget_header, read_gadget_struct, read_int32.
  assert (E : read_full file 0 4 = Some (firstn 4 file)).
  { unfold read_full. cbn [skipn]. replace (Nat.eqb (length (firstn 4 file)) 4) with true; [reflexivity|]. symmetry. apply Nat.eqb_eq. rewrite firstn_length. lia. }
  rewrite E. cbn [bind]. rewrite read_full_short by (unfold gadget_size; lia). reflexivity.
Qed.
