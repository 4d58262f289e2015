(** Gas in Gadget snapshots, and sets of snapshot files. *)
From Coq Require Import String ZArith List Bool Lia ZifyBool ZifyNat.
From Verif Require Import Base.Res Base.ResFacts Base.Num Base.Bytes Model.Geom Model.SheetIO Model.GridIO Model.Manager Model.Main Model.Gadget
  Spec.Files Spec.Segments Spec.Gadgets Proof.BytesP Proof.SheetP Proof.ParticleP Proof.SegP Proof.MainP Proof.ReadHaloM Proof.ParticleQ Proof.GadgetP.
Import ListNotations.
Open Scope Z_scope.

(** ** Gas *)
Lemma le_glue j k a b : bits (8 * Z.of_nat j) a -> le (j + k) (a + 2 ^ (8 * Z.of_nat j) * b) = le j a ++ le k b.
Proof.
  revert a. induction j as [|j IH]; intros a Ha.
  - unfold bits in Ha. cbn in Ha. assert (a = 0) as -> by lia. cbn [Nat.add le app]. f_equal. change (2 ^ (8 * Z.of_nat 0)) with 1. lia.
  - cbn [Nat.add le app]. unfold bits in Ha.
    assert (E : 2 ^ (8 * Z.of_nat (S j)) = 256 * 2 ^ (8 * Z.of_nat j)).
    { replace (8 * Z.of_nat (S j)) with (8 + 8 * Z.of_nat j) by lia. rewrite Z.pow_add_r by lia. reflexivity. }
    rewrite E in *. replace (a + 256 * 2 ^ (8 * Z.of_nat j) * b) with (a + (2 ^ (8 * Z.of_nat j) * b) * 256) by lia.
    rewrite Z.mod_add by lia. f_equal. rewrite Z.div_add by lia. apply IH. unfold bits.
    split; [apply Z.div_pos; lia|apply Z.div_lt_upper_bound; lia].
Qed.
Lemma glue_bytes l : Nat.even (length l) = true -> Forall (bits 32) l -> numbers Little false l = numbers Little true (glue l).
Proof.
  intros HE HF. assert (G : forall n l, (length l <= n)%nat -> Nat.even (length l) = true -> Forall (bits 32) l -> numbers Little false l = numbers Little true (glue l)).
  { clear. induction n as [|n IH]; intros l HL HE HF; [destruct l; [reflexivity|cbn in HL; lia]|].
    destruct l as [|a [|b l]]; [reflexivity|discriminate|]. inversion_clear HF as [|? ? Ha HF']. inversion_clear HF' as [|? ? Hb HF].
    cbn [glue]. unfold numbers. cbn [flat_map]. cbn [length] in HL. fold (numbers Little false l). fold (numbers Little true (glue l)). rewrite <- (IH l); [|lia|exact HE|exact HF].
    rewrite app_assoc. f_equal. symmetry. apply (le_glue 4 4 a b). exact Ha. }
  now apply (G (length l)).
Qed.
Lemma glue_length l : (2 * length (glue l) <= length l)%nat /\ (Nat.even (length l) = true -> 2 * length (glue l) = length l)%nat.
Proof.
  assert (G : forall n (l : list Z), (length l <= n)%nat -> (2 * length (glue l) <= length l)%nat /\ (Nat.even (length l) = true -> 2 * length (glue l) = length l)%nat).
  { clear. induction n as [|n IH]; intros l HL; [destruct l; [split; auto|cbn in HL; lia]|].
    destruct l as [|a [|b l]]; [split; auto| |]; cbn [glue length] in *; [split; [lia|discriminate]|].
    destruct (IH l ltac:(lia)) as [H1 H2]. split; [lia|]. intros H. specialize (H2 H). lia. }
  now apply (G (length l)).
Qed.
Lemma glue_bits l : Forall (bits 32) l -> Forall (bits 64) (glue l).
Proof.
  assert (G : forall n (l : list Z), (length l <= n)%nat -> Forall (bits 32) l -> Forall (bits 64) (glue l)).
  { clear. induction n as [|n IH]; intros l HL HF; [destruct l; [constructor|cbn in HL; lia]|].
    destruct l as [|a [|b l]]; [constructor|constructor|]. inversion_clear HF as [|? ? Ha HF']. inversion_clear HF' as [|? ? Hb HF].
    cbn [glue]. cbn [length] in HL. constructor; [unfold bits in *; lia|]. apply IH; auto. lia. }
  now apply (G (length l)).
Qed.
Lemma coords_vectors n l : length l = (3 * n)%nat -> coords (vectors l) = l /\ length (vectors l) = n.
Proof.
  revert l. induction n as [|n IH]; intros l H; [destruct l; [auto|discriminate]|].
  destruct l as [|a [|b [|c l]]]; try (cbn in H; lia). destruct (IH l) as [E1 E2]; [cbn [length] in H; lia|].
  cbn [vectors length]. split; [|lia]. unfold coords. cbn [flat_map v0 v1 v2 app]. unfold coords in E1. now rewrite E1.
Qed.

Section Gas.
Context {D F : Type} {ND : Num D} {NF : Num F} (up : F -> D) (down : D -> F).
Variables (f32_of : Z -> F) (f64_of : Z -> D) (narrow : Z -> Z) (fsqrt : D -> D).

Theorem gas_read s : half_gas s ->
  read_gadget up down Little f32_of f64_of narrow fsqrt Little (snapshot_bytes Little s) (id_bits s) =
  Ok (header_of_snapshot s, map (true_position up down f32_of f64_of narrow (misread s)) (sn_x (misread s)),
      map (true_velocity down f32_of f64_of narrow fsqrt (misread s)) (sn_v (misread s)), firstn (Z.to_nat (dark s)) (sn_id s)).
Proof.
  intros (HT & (TX & TV & TI) & WX & WV & _ & HN & LX & LV & LI). set (n := Z.to_nat (dark s)).
  rewrite WX in TX. rewrite WV in TV.
  assert (EV : forall l : list (vec3 Z), zlen l = 2 * dark s -> length (glue (coords l)) = (3 * n)%nat /\ Nat.even (length (coords l)) = true).
  { intros l Hl. assert (HE : Nat.even (length (coords l)) = true).
    { rewrite coords_length. replace (3 * length l)%nat with (2 * (3 * n))%nat by (unfold zlen, n in *; lia). apply Nat.even_spec. now exists (3 * n)%nat. }
    split; auto. destruct (glue_length (coords l)) as [_ H]. specialize (H HE). rewrite coords_length in H. unfold zlen, n in *. lia. }
  destruct (EV _ LX) as [GX EX], (EV _ LV) as [GV EV'].
  destruct (coords_vectors n _ GX) as [CX NX], (coords_vectors n _ GV) as [CV NV].
  assert (ER : records Little s = records Little (misread s)).
  { unfold records, misread. cbn [sn_xwide sn_vwide sn_x sn_v]. rewrite WX, WV, CX, CV, !glue_bytes by auto. reflexivity. }
  unfold read_gadget, snapshot_bytes, before_ids. rewrite ER.
  set (m := zlen (numbers Little (sn_idwide s) (sn_id s))).
  assert (EH : forall rest, read_gadget_header Little ((records Little (misread s) ++ put Little 4 m) ++ rest) = Ok (header_of_snapshot s)).
  { intros rest. rewrite <- ER. unfold records. rewrite <- !app_assoc. now apply header_read. }
  rewrite EH. cbn [bind]. change (ct_count (header_of_snapshot s)) with (dark (misread s)).
  assert (DN : dark (misread s) = dark s) by reflexivity.
  rewrite (records_read up down Little f32_of f64_of narrow fsqrt (misread s) m); auto.
  2:{ cbn [misread sn_xwide sn_x]. rewrite CX. now apply glue_bits. }
  2:{ cbn [misread sn_vwide sn_v]. rewrite CV. now apply glue_bits. }
  2:{ cbn [misread sn_x]. rewrite DN. unfold zlen. rewrite NX. unfold n. lia. }
  2:{ cbn [misread sn_v]. rewrite DN. unfold zlen. rewrite NV. unfold n. lia. }
  2:{ rewrite DN. lia. }
  2:{ intros _. reflexivity. }
  rewrite DN. fold n. replace (zlen (repeat 0 n) =? dark s) with true by (unfold zlen; rewrite repeat_length; unfold n; lia). cbn [negb].
  assert (SI : sn_id s = firstn n (sn_id s) ++ skipn n (sn_id s)) by (symmetry; apply firstn_skipn).
  assert (EN : numbers Little (sn_idwide s) (sn_id s) = numbers Little (sn_idwide s) (firstn n (sn_id s)) ++ numbers Little (sn_idwide s) (skipn n (sn_id s))).
  { rewrite SI at 1. apply flat_map_app. }
  set (rest := put Little 4 m). rewrite EN at 1. rewrite <- (app_assoc (numbers _ _ _)). rewrite id_bits_eq.
  rewrite ids_read.
  - reflexivity.
  - rewrite SI in TI. apply Forall_app in TI. exact (proj1 TI).
  - rewrite repeat_length, firstn_length. unfold zlen, n in *. lia.
Qed.

(** Other mixtures are refused. *)
Theorem mixed_refused sys s idSize : header_typed s -> sn_xwide s = false -> 24 * dark s < 2 ^ 31 -> 12 * zlen (sn_x s) < 2 ^ 31 ->
  zlen (sn_x s) <> dark s -> zlen (sn_x s) <> 2 * dark s ->
  read_gadget up down sys f32_of f64_of narrow fsqrt Little (snapshot_bytes Little s) idSize = Panic.
Proof.
  intros HT HW H1 H2 H3 H4. unfold read_gadget, snapshot_bytes, before_ids, records.
  set (X := numbers Little (sn_xwide s) (coords (sn_x s))). rewrite <- !app_assoc.
  rewrite header_read by auto. cbn [bind]. unfold fortran at 2. rewrite <- !app_assoc. rewrite refused; auto.
  assert (EX : zlen X = 12 * zlen (sn_x s)) by (unfold X, zlen; rewrite numbers_length, HW, coords_length; lia).
  rewrite EX. assert (HD : 0 <= dark s) by (apply (nth_bits (sn_npart s) 1); apply HT).
  assert (W : wrap32 (12 * zlen (sn_x s)) = 12 * zlen (sn_x s)).
  { pose proof (zlen_nonneg (sn_x s)). unfold wrap32, signed. rewrite Z.mod_small by lia. replace (12 * zlen (sn_x s) <? 2 ^ (32 - 1)) with true by lia. reflexivity. }
  rewrite W. pose proof (zlen_nonneg (sn_x s)). apply kind_other; lia.
Qed.
End Gas.

(** ** Sets of files *)
Section Sets.
Context {D F : Type} {ND : Num D} {NF : Num F} (up : F -> D) (down : D -> F).
Variables (sys : order) (f32_of : Z -> F) (f64_of : Z -> D) (narrow : Z -> Z) (fsqrt : D -> D) (pow : D -> D -> D) (con : convert_config D).
Notation readable := (readable sys).
Notation particles := (particles_of up down f32_of f64_of narrow fsqrt con).
Notation catalog := (read_catalog up down sys f32_of f64_of narrow fsqrt con).
Notation catalogs := (read_catalogs up down sys f32_of f64_of narrow fsqrt con).
Notation create := (create_grids up down sys f32_of f64_of narrow fsqrt pow con).
Notation file := (snapshot_bytes Little).

Lemma combine_parts (xs vs : list (vec3 F)) ids : length vs = length xs -> length ids = length xs ->
  let l := List.combine (List.combine xs vs) ids in map p_x l = xs /\ map p_v l = vs /\ map p_id l = ids.
Proof.
  revert vs ids. induction xs as [|x xs IH]; intros [|v vs] [|i ids] H1 H2; try discriminate; [auto|].
  destruct (IH vs ids) as (E1 & E2 & E3); [now inversion H1|now inversion H2|]. cbn in *. rewrite E1, E2, E3. auto.
Qed.
Lemma particles_parts s : snapshot_ok s ->
  map p_x (particles s) = map (fun x => scaled down (cv_xUnits con) (true_position up down f32_of f64_of narrow s x)) (sn_x s) /\
  map p_v (particles s) = map (fun v => scaled down (cv_vUnits con) (true_velocity down f32_of f64_of narrow fsqrt s v)) (sn_v s) /\
  map p_id (particles s) = sn_id s.
Proof.
  intros (_ & _ & (H1 & H2 & H3 & _)). unfold zlen in *. apply combine_parts; rewrite !map_length; lia.
Qed.
Lemma ids_length s : snapshot_ok s -> length (sn_id s) = Z.to_nat (dark s).
Proof. intros (_ & _ & (_ & _ & H & _)). now apply zlen_nat. Qed.

Lemma catalog_gen s rest old idBuf buf ids : snapshot_ok s -> readable s -> dark s <= zlen idBuf -> old = firstn (Z.to_nat (dark s)) idBuf ->
  read_ids sys Little (cv_idSize con) (before_ids Little s ++ rest) (length (before_ids Little s)) old = Ok ids ->
  catalog (before_ids Little s ++ rest) (header_of_snapshot s) idBuf buf =
  bind (pb_append buf (map p_x (particles s)) (map p_v (particles s)) ids) (fun b => Ok (ids ++ skipn (Z.to_nat (dark s)) idBuf, b)).
Proof.
  intros H HR HL -> HI. unfold read_catalog. change (ct_count (header_of_snapshot s)) with (dark s). destruct (dark_count s H) as [_ H0].
  replace ((dark s <? 0) || (zlen idBuf <? dark s))%bool with false by lia.
  rewrite before_read by auto. replace (zlen (firstn (Z.to_nat (dark s)) idBuf) =? dark s) with true by (unfold zlen in *; rewrite firstn_length; lia).
  cbn [negb]. rewrite HI. cbn [bind]. destruct (particles_parts s H) as (-> & -> & _). rewrite !map_map. reflexivity.
Qed.
Lemma catalog_ok s idBuf buf : snapshot_ok s -> readable s -> id_bits s = cv_idSize con -> dark s <= zlen idBuf ->
  catalog (file s) (header_of_snapshot s) idBuf buf =
  bind (pb_append buf (map p_x (particles s)) (map p_v (particles s)) (map p_id (particles s))) (fun b => Ok (sn_id s ++ skipn (Z.to_nat (dark s)) idBuf, b)).
Proof.
  intros H HR HB HL. destruct (particles_parts s H) as (_ & _ & ->). unfold snapshot_bytes.
  eapply catalog_gen; auto. rewrite <- HB, id_bits_eq. apply ids_read.
  - destruct H as (_ & (_ & _ & H) & _). exact H.
  - rewrite firstn_length, ids_length by auto. unfold zlen in HL. lia.
Qed.
Lemma buf_length s (idBuf : list Z) : snapshot_ok s -> dark s <= zlen idBuf -> zlen (sn_id s ++ skipn (Z.to_nat (dark s)) idBuf) = zlen idBuf.
Proof. intros H HL. unfold zlen in *. rewrite app_length, skipn_length, ids_length by auto. lia. Qed.

Definition good (s : snapshot) : Prop := (snapshot_ok s /\ id_bits s = cv_idSize con) /\ readable s.

Lemma catalogs_ok ss idBuf buf : Forall good ss -> Forall (fun s => dark s <= zlen idBuf) ss ->
  catalogs (map file ss) (map header_of_snapshot ss) idBuf buf = append_all buf (map particles ss).
Proof.
  intros HG. revert idBuf buf. induction HG as [|s ss ((H & HB) & HR) HG IH]; intros idBuf buf HL; [reflexivity|].
  inversion_clear HL as [|? ? H1 H2]. cbn [map read_catalogs append_all]. rewrite catalog_ok by auto.
  destruct (pb_append _ _ _ _) as [b| | |]; cbn [bind]; try reflexivity. apply IH. now rewrite buf_length.
Qed.

Definition maxlen (hs : list catalog_header) (m : Z) : Z := fold_left (fun m h => if ct_count h >? m then ct_count h else m) hs m.
Lemma maxlen_ge hs m : m <= maxlen hs m /\ Forall (fun h => ct_count h <= maxlen hs m) hs.
Proof.
  revert m. induction hs as [|h hs IH]; intros m; [split; [cbn; lia|constructor]|]. unfold maxlen in *. cbn [fold_left].
  destruct (IH (if ct_count h >? m then ct_count h else m)) as [H1 H2]. destruct (Z.gtb_spec (ct_count h) m); split; try lia; constructor; auto; lia.
Qed.
Lemma headers_ok ss : Forall good ss -> map_res (read_gadget_header Little) (map file ss) = Ok (map header_of_snapshot ss).
Proof.
  induction 1 as [|s ss ((H & _) & _) HG IH]; [reflexivity|]. cbn [map map_res]. unfold snapshot_bytes at 1. rewrite bytes_header by auto. cbn [bind].
  rewrite IH. reflexivity.
Qed.
Lemma total_nonneg ss : Forall good ss -> 0 <= total_of ss < 2 ^ 32.
Proof.
  destruct 1 as [|s ss (((HT & _ & _) & _) & _) HG]; [cbn; lia|]. cbn [total_of]. apply (nth_bits (sn_total s) 1).
  destruct HT as (_ & _ & _ & _ & _ & _ & H & _). exact H.
Qed.
Definition grid0 (n : Z) : list (vec3 F) := repeat zero_vec (Z.to_nat n).

Theorem create_ok s ss : Forall good (s :: ss) ->
  create (map file (s :: ss)) =
  bind (send zero_vec (grid0 (all_dark s)) (grid0 (all_dark s)) 4096 (map particles (s :: ss))) (fun b =>
  bind (int_cube_root pow (all_dark s)) (fun n => Ok (header_of_snapshot s, n, pb_xs b, pb_vs b))).
Proof.
  intros HG. unfold create_grids. rewrite headers_ok by auto. cbn [bind]. cbn [map]. rewrite (get_ok (header_of_snapshot s)) by (unfold zlen; cbn [length]; lia).
  unfold zn. cbn [Z.to_nat nth bind]. change (ct_totalCount (header_of_snapshot s)) with (all_dark s).
  pose proof (total_nonneg _ HG) as HT. cbn [total_of] in HT. replace (all_dark s <? 0) with false by lia.
  unfold send. fold (grid0 (all_dark s)). change catalogBufLen with 4096.
  destruct (new_particle_buffer _ _ _ _) as [b| | |]; cbn [bind]; try reflexivity.
  change (header_of_snapshot s :: map header_of_snapshot ss) with (map header_of_snapshot (s :: ss)).
  change (file s :: map file ss) with (map file (s :: ss)).
  fold (maxlen (map header_of_snapshot (s :: ss)) 0). rewrite catalogs_ok; auto.
  - change (particles s :: map particles ss) with (map particles (s :: ss)). destruct (append_all _ _) as [b'| | |]; cbn [bind]; try reflexivity.
  - destruct (maxlen_ge (map header_of_snapshot (s :: ss)) 0) as [_ H]. rewrite Forall_map in H. eapply Forall_impl; [|exact H].
    intros a Ha. cbn beta in Ha. change (ct_count (header_of_snapshot a)) with (dark a) in Ha. unfold zlen. rewrite repeat_length. lia.
Qed.

Lemma particle_ids ss : Forall good ss -> map p_id (concat (map particles ss)) = ids_of ss.
Proof.
  induction 1 as [|s ss ((H & _) & _) HG IH]; [reflexivity|]. cbn [map concat]. rewrite map_app, IH. destruct (particles_parts s H) as (_ & _ & ->). reflexivity.
Qed.
Lemma forall_concat {A} (P : A -> Prop) ll : Forall P (concat ll) -> Forall (Forall P) ll.
Proof. induction ll as [|l ll IH]; intros H; constructor; cbn in H; apply Forall_app in H; [apply H|apply IH, H]. Qed.

Theorem create_delivered s ss m : Forall good (s :: ss) -> int_cube_root pow (all_dark s) = Ok m ->
  Forall (fun i => 1 <= i <= all_dark s) (ids_of (s :: ss)) ->
  exists xs vs, create (map file (s :: ss)) = Ok (header_of_snapshot s, m, xs, vs) /\
    delivered (grid0 (all_dark s)) p_x (concat (map particles (s :: ss))) xs /\
    delivered (grid0 (all_dark s)) p_v (concat (map particles (s :: ss))) vs.
Proof.
  intros HG HC HI. rewrite create_ok by auto. pose proof (total_nonneg _ HG) as HT. cbn [total_of] in HT.
  assert (LG : zlen (grid0 (all_dark s)) = all_dark s) by (unfold zlen, grid0; rewrite repeat_length; lia).
  destruct (all_delivered zero_vec 4096 (grid0 (all_dark s)) (grid0 (all_dark s)) (map particles (s :: ss))) as (b & E & H1 & H2); [lia|reflexivity| |].
  - apply forall_concat. rewrite LG. rewrite <- (particle_ids (s :: ss) HG) in HI. rewrite Forall_map in HI. exact HI.
  - rewrite E, HC. cbn [bind]. eauto.
Qed.

Lemma last_unique {V} (l : list (particle V)) p : NoDup (map p_id l) -> In p l -> last_with l (p_id p) = Some p.
Proof.
  intros HN HI. unfold last_with. assert (HN' : NoDup (map p_id (rev l))) by (rewrite map_rev; now apply NoDup_rev). apply in_rev in HI.
  revert HN' HI. generalize (rev l). clear. induction l as [|q l IH]; intros HN HI; [contradiction|]. cbn [find]. cbn [map] in HN. inversion_clear HN as [|? ? H1 H2].
  destruct HI as [->|HI]; [now rewrite Z.eqb_refl|]. destruct (Z.eqb_spec (p_id q) (p_id p)) as [E|]; [|auto].
  exfalso. apply H1. rewrite E. now apply in_map.
Qed.
Lemma last_none {V} (l : list (particle V)) i : ~ In i (map p_id l) -> last_with l i = None.
Proof.
  intros H. unfold last_with. destruct (find _ _) as [p|] eqn:E; [|reflexivity]. exfalso. apply find_some in E. destruct E as [E1 E2].
  apply H. apply in_rev in E1. apply Z.eqb_eq in E2. rewrite <- E2. now apply in_map.
Qed.
Lemma delivered_slot {V} (old new : list V) sel l i d : delivered old sel l new -> 1 <= i <= zlen old ->
  zn d new (i - 1) = match last_with l i with Some p => sel p | None => zn d old (i - 1) end.
Proof.
  intros (_ & H) Hi. unfold zn. rewrite H by (unfold zlen in Hi; lia). replace (Z.of_nat (Z.to_nat (i - 1)) + 1) with i by lia. reflexivity.
Qed.

Theorem create_complete s ss m : Forall good (s :: ss) -> int_cube_root pow (all_dark s) = Ok m -> complete (all_dark s) (ids_of (s :: ss)) ->
  exists xs vs, create (map file (s :: ss)) = Ok (header_of_snapshot s, m, xs, vs) /\ zlen xs = all_dark s /\ zlen vs = all_dark s /\
    forall t p d, In t (s :: ss) -> In p (particles t) -> zn d xs (p_id p - 1) = p_x p /\ zn d vs (p_id p - 1) = p_v p.
Proof.
  intros HG HC (HN & HA). pose proof (total_nonneg _ HG) as HT. cbn [total_of] in HT.
  assert (LG : zlen (grid0 (all_dark s)) = all_dark s) by (unfold zlen, grid0; rewrite repeat_length; lia).
  destruct (create_delivered s ss m HG HC) as (xs & vs & E & H1 & H2); [apply Forall_forall; intros i Hi; now apply HA|].
  exists xs, vs. split; [exact E|]. split; [destruct H1 as [H1 _]; unfold zlen in *; lia|]. split; [destruct H2 as [H2 _]; unfold zlen in *; lia|].
  intros t p d Ht Hp. assert (IP : In p (concat (map particles (s :: ss)))) by (apply in_concat; exists (particles t); split; [apply in_map; exact Ht|exact Hp]).
  assert (Hid : 1 <= p_id p <= all_dark s) by (apply HA; rewrite <- (particle_ids _ HG); now apply in_map).
  rewrite (delivered_slot _ _ _ _ _ d H1), (delivered_slot _ _ _ _ _ d H2) by lia.
  rewrite last_unique; auto. rewrite particle_ids; auto.
Qed.

(** Slots without a particle. *)
Theorem create_missing s ss m i : Forall good (s :: ss) -> int_cube_root pow (all_dark s) = Ok m ->
  Forall (fun i => 1 <= i <= all_dark s) (ids_of (s :: ss)) -> 1 <= i <= all_dark s -> ~ In i (ids_of (s :: ss)) ->
  exists xs vs, create (map file (s :: ss)) = Ok (header_of_snapshot s, m, xs, vs) /\
    forall d, zn d xs (i - 1) = zero_vec /\ zn d vs (i - 1) = zero_vec.
Proof.
  intros HG HC HI Hi HN. destruct (create_delivered s ss m HG HC HI) as (xs & vs & E & H1 & H2). exists xs, vs. split; [exact E|]. intros d.
  assert (LG : zlen (grid0 (all_dark s)) = all_dark s) by (unfold zlen, grid0; rewrite repeat_length; lia).
  assert (ZG : zn d (grid0 (all_dark s)) (i - 1) = zero_vec) by (unfold zn, grid0; apply (repeat_spec (Z.to_nat (all_dark s))); apply nth_In; rewrite repeat_length; lia).
  rewrite (delivered_slot _ _ _ _ _ d H1), (delivered_slot _ _ _ _ _ d H2) by lia. rewrite last_none by (rewrite particle_ids; auto). auto.
Qed.

(** Ids outside the grid never succeed. *)
Theorem create_range s ss r : Forall good (s :: ss) -> create (map file (s :: ss)) = Ok r -> Forall (fun i => 1 <= i <= all_dark s) (ids_of (s :: ss)).
Proof.
  intros HG H. rewrite create_ok in H by auto. apply bind_ok in H. destruct H as (b & H & _). pose proof (total_nonneg _ HG) as HT. cbn [total_of] in HT.
  apply (send_range (all_dark s)) in H; [|lia|unfold zlen, grid0; rewrite repeat_length; lia]. rewrite particle_ids in H by auto. exact H.
Qed.

(** A file that ends before its ids. *)
Lemma with_ids_ok ids s : snapshot_ok s -> length ids = length (sn_id s) -> Forall (id_range (sn_idwide s)) ids -> snapshot_ok (with_ids ids s).
Proof.
  intros (H1 & (H2 & H3 & H4) & (H5 & H6 & H7 & H8)) HL HI. split; [exact H1|]. split; [split; [exact H2|split; [exact H3|exact HI]]|].
  split; [exact H5|]. split; [exact H6|]. split; [|exact H8]. cbn [with_ids sn_id]. unfold zlen in *. rewrite HL. exact H7.
Qed.
Lemma with_ids_before ids s : length ids = length (sn_id s) -> before_ids Little (with_ids ids s) = before_ids Little s.
Proof.
  intros H. unfold before_ids. f_equal. cbn [with_ids sn_id sn_idwide]. unfold zlen. now rewrite !numbers_length, H.
Qed.
Lemma map_res_cons {A B} (f : A -> res B) a l : map_res f (a :: l) = bind (f a) (fun b => bind (map_res f l) (fun l => Ok (b :: l))).
Proof. reflexivity. Qed.
Lemma maxlen_mono hs m : m <= maxlen hs m.
Proof. apply maxlen_ge. Qed.

Lemma stale_step s1 s2 rest hs idBuf buf : good s1 -> good s2 -> dark s1 = dark s2 -> dark s1 <= zlen idBuf ->
  catalogs (file s1 :: before_ids Little s2 :: rest) (header_of_snapshot s1 :: header_of_snapshot s2 :: hs) idBuf buf =
  catalogs (file s1 :: file (with_ids (sn_id s1) s2) :: rest) (header_of_snapshot s1 :: header_of_snapshot s2 :: hs) idBuf buf.
Proof.
  intros ((H1 & B1) & R1) ((H2 & B2) & R2) HD HL. cbn [read_catalogs]. rewrite catalog_ok by auto.
  destruct (pb_append _ _ _ _) as [b| | |]; cbn [bind]; try reflexivity. set (buf1 := sn_id s1 ++ skipn (Z.to_nat (dark s1)) idBuf).
  assert (LB : zlen buf1 = zlen idBuf) by (now apply buf_length).
  assert (EL : length (sn_id s1) = length (sn_id s2)) by (rewrite !ids_length by auto; congruence).
  assert (EW : id_range (sn_idwide s1) = id_range (sn_idwide s2)).
  { rewrite <- B2 in B1. unfold id_bits in B1. destruct (sn_idwide s1), (sn_idwide s2); try discriminate; reflexivity. }
  assert (HW : snapshot_ok (with_ids (sn_id s1) s2)).
  { apply with_ids_ok; auto. rewrite <- EW. destruct H1 as (_ & (_ & _ & H) & _). exact H. }
  assert (E1 : catalog (before_ids Little s2) (header_of_snapshot s2) buf1 b =
    bind (pb_append b (map p_x (particles s2)) (map p_v (particles s2)) (sn_id s1)) (fun b => Ok (sn_id s1 ++ skipn (Z.to_nat (dark s2)) buf1, b))).
  { rewrite <- (app_nil_r (before_ids Little s2)) at 1. eapply catalog_gen; auto; [lia|]. rewrite app_nil_r, <- B2, id_bits_eq, ids_none. f_equal.
    unfold buf1. rewrite firstn_app, <- ids_length, <- EL, firstn_all, Nat.sub_diag by auto. cbn [firstn]. apply app_nil_r. }
  assert (E2 : catalog (file (with_ids (sn_id s1) s2)) (header_of_snapshot s2) buf1 b =
    bind (pb_append b (map p_x (particles s2)) (map p_v (particles s2)) (sn_id s1)) (fun b => Ok (sn_id s1 ++ skipn (Z.to_nat (dark s2)) buf1, b))).
  { change (header_of_snapshot s2) with (header_of_snapshot (with_ids (sn_id s1) s2)). rewrite catalog_ok; auto; [|change (dark (with_ids (sn_id s1) s2)) with (dark s2); lia].
    destruct (particles_parts _ HW) as (-> & -> & ->). destruct (particles_parts _ H2) as (-> & -> & _). reflexivity. }
  rewrite E1, E2. reflexivity.
Qed.
Lemma stale_steps ss s1 s2 rest hs idBuf buf : Forall good ss -> good s1 -> good s2 -> dark s1 = dark s2 ->
  Forall (fun s => dark s <= zlen idBuf) (ss ++ [s1]) ->
  catalogs (map file ss ++ file s1 :: before_ids Little s2 :: rest) (map header_of_snapshot ss ++ header_of_snapshot s1 :: header_of_snapshot s2 :: hs) idBuf buf =
  catalogs (map file ss ++ file s1 :: file (with_ids (sn_id s1) s2) :: rest) (map header_of_snapshot ss ++ header_of_snapshot s1 :: header_of_snapshot s2 :: hs) idBuf buf.
Proof.
  intros HG G1 G2 HD. revert idBuf buf. induction HG as [|s ss ((H & HB) & HR) HG IH]; intros idBuf buf HL.
  - inversion_clear HL. now apply stale_step.
  - cbn [app] in HL. inversion_clear HL as [|? ? H1 H2]. cbn [map app read_catalogs]. rewrite catalog_ok by auto.
    destruct (pb_append _ _ _ _) as [b| | |]; cbn [bind]; try reflexivity. apply IH. now rewrite buf_length.
Qed.

Lemma map_res_app {A B} (f : A -> res B) l l' : map_res f (l ++ l') = bind (map_res f l) (fun a => bind (map_res f l') (fun b => Ok (a ++ b))).
Proof.
  induction l as [|a l IH]; cbn [app map_res bind]; [destruct (map_res f l'); reflexivity|]. destruct (f a); cbn [bind]; try reflexivity. rewrite IH.
  destruct (map_res f l); cbn [bind]; try reflexivity. destruct (map_res f l'); reflexivity.
Qed.
Theorem create_stale ss s1 s2 rest : Forall good ss -> good s1 -> good s2 -> dark s1 = dark s2 ->
  create (map file ss ++ file s1 :: before_ids Little s2 :: rest) = create (map file ss ++ file s1 :: file (with_ids (sn_id s1) s2) :: rest).
Proof.
  intros HG G1 G2 HD. unfold create_grids. rewrite !map_res_app, headers_ok by auto. cbn [bind]. rewrite !map_res_cons.
  assert (E1 : read_gadget_header Little (file s1) = Ok (header_of_snapshot s1)) by (apply bytes_header; apply G1).
  assert (E2 : read_gadget_header Little (before_ids Little s2) = Ok (header_of_snapshot s2)) by (rewrite <- (app_nil_r (before_ids _ _)); apply bytes_header; apply G2).
  assert (E3 : read_gadget_header Little (file (with_ids (sn_id s1) s2)) = Ok (header_of_snapshot s2)).
  { unfold snapshot_bytes. rewrite with_ids_before by (destruct G1 as ((H1 & _) & _), G2 as ((H2 & _) & _); rewrite !ids_length by auto; congruence). apply bytes_header. apply G2. }
  rewrite E1, E2, E3. cbn [bind]. destruct (map_res _ rest) as [hs| | |]; cbn [bind]; try reflexivity.
  destruct (get _ 0) as [h| | |]; cbn [bind]; try reflexivity. destruct (_ <? 0); [reflexivity|].
  destruct (new_particle_buffer _ _ _ _) as [b| | |]; cbn [bind]; try reflexivity.
  rewrite stale_steps; auto. set (all := map header_of_snapshot ss ++ header_of_snapshot s1 :: header_of_snapshot s2 :: hs). fold (maxlen all 0).
  destruct (maxlen_ge all 0) as [_ H]. unfold zlen. rewrite repeat_length. unfold all in H at 2. rewrite Forall_app in H. destruct H as [Ha Hb]. inversion_clear Hb as [|? ? Hb1 _].
  apply Forall_app. split; [|constructor; [change (dark s1) with (ct_count (header_of_snapshot s1)); lia|constructor]].
  rewrite Forall_map in Ha. eapply Forall_impl; [|exact Ha]. intros t Ht. cbn beta in Ht. change (dark t) with (ct_count (header_of_snapshot t)). lia.
Qed.

(** ** Segments *)
Theorem convert_segments s ss n k cells : Forall good (s :: ss) -> 0 < cells -> 0 < k -> n = cells * k -> cv_cells con = cells -> all_dark s = n * n * n ->
  int_cube_root pow (n * n * n) = Ok n -> complete (n * n * n) (ids_of (s :: ss)) ->
  exists out, convert_dir up down sys f32_of f64_of narrow fsqrt pow con (map file (s :: ss)) = Ok out /\ zlen out = cells * cells * cells /\
  forall x y z, 0 <= x < cells -> 0 <= y < cells -> 0 <= z < cells -> exists sg, get out (cube_index cells x y z) = Ok (sheet_name x y z, sg) /\
    zlen (sg_x sg) = (k + 1) * (k + 1) * (k + 1) /\ zlen (sg_v sg) = (k + 1) * (k + 1) * (k + 1) /\
    forall a b c, 0 <= a <= k -> 0 <= b <= k -> 0 <= c <= k ->
    exists t p, In t (s :: ss) /\ In p (particles t) /\ p_id p = 1 + periodic_index n (k * x + a) (k * y + b) (k * z + c) /\
      forall d, zn d (sg_x sg) (cube_index (k + 1) a b c) = p_x p /\ zn d (sg_v sg) (cube_index (k + 1) a b c) = p_v p.
Proof.
  intros HG Hc Hk Hn HC HT HR HA. rewrite <- HT in HR, HA. destruct (create_complete s ss n HG HR HA) as (xs & vs & E & LX & LV & HP).
  unfold convert_dir. rewrite E. cbn [bind]. rewrite HC.
  destruct (segments_thm zero_vec n k cells (down (f64_of (ct_totalWidth (header_of_snapshot s)))) xs vs Hc Hk Hn) as ((out & EO & LO & HO) & _); [lia|lia|].
  exists out. split; [exact EO|]. split; [exact LO|]. intros x y z Hx Hy Hz. destruct (HO x y z Hx Hy Hz) as (sg & G & (L1 & S1) & (L2 & S2)).
  exists sg. split; [exact G|]. split; [exact L1|]. split; [exact L2|]. intros a b c Ha Hb Hcc.
  set (i := 1 + periodic_index n (k * x + a) (k * y + b) (k * z + c)).
  assert (Hn0 : 0 < n) by (subst n; nia).
  assert (Hi : 1 <= i <= n * n * n).
  { unfold i, periodic_index. pose proof (Z.mod_pos_bound (k * x + a) n Hn0). pose proof (Z.mod_pos_bound (k * y + b) n Hn0). pose proof (Z.mod_pos_bound (k * z + c) n Hn0).
    generalize dependent ((k * x + a) mod n). generalize dependent ((k * y + b) mod n). generalize dependent ((k * z + c) mod n). intros. nia. }
  assert (HI : In i (map p_id (concat (map particles (s :: ss))))).
  { rewrite particle_ids by auto. destruct HA as [_ HA]. apply HA. lia. }
  apply in_map_iff in HI. destruct HI as (p & Ep & Ip). apply in_concat in Ip. destruct Ip as (l & Il & Ip). apply in_map_iff in Il. destruct Il as (t & <- & It).
  exists t, p. split; [exact It|]. split; [exact Ip|]. split; [exact Ep|]. intros d.
  assert (IB : forall A (l : list A) (d d' : A), zlen l = (k + 1) * (k + 1) * (k + 1) -> zn d l (cube_index (k + 1) a b c) = zn d' l (cube_index (k + 1) a b c)).
  { intros A l0 d0 d1 Hl. unfold zn. apply nth_indep. unfold zlen in Hl. unfold cube_index. nia. }
  destruct (HP t p zero_vec It Ip) as [P1 P2]. rewrite Ep in P1, P2. unfold i in P1, P2.
  rewrite (IB _ _ d zero_vec L1), (IB _ _ d zero_vec L2), S1, S2 by lia.
  replace (1 + periodic_index n (k * x + a) (k * y + b) (k * z + c) - 1) with (periodic_index n (k * x + a) (k * y + b) (k * z + c)) in P1, P2 by lia. auto.
Qed.

(** The same statements with their hypotheses spelt out. *)
Lemma good_all ss : set_ok (cv_idSize con) ss -> Forall readable ss -> Forall good ss.
Proof. unfold set_ok. rewrite !Forall_forall. intros H1 H2 t Ht. split; auto. Qed.
Theorem grids_complete s ss m : set_ok (cv_idSize con) (s :: ss) -> Forall readable (s :: ss) -> int_cube_root pow (all_dark s) = Ok m ->
  complete (all_dark s) (ids_of (s :: ss)) ->
  exists xs vs, create (map file (s :: ss)) = Ok (header_of_snapshot s, m, xs, vs) /\ zlen xs = all_dark s /\ zlen vs = all_dark s /\
    forall t p d, In t (s :: ss) -> In p (particles t) -> zn d xs (p_id p - 1) = p_x p /\ zn d vs (p_id p - 1) = p_v p.
Proof. intros H1 H2. apply create_complete. now apply good_all. Qed.
Theorem grids_missing s ss m i : set_ok (cv_idSize con) (s :: ss) -> Forall readable (s :: ss) -> int_cube_root pow (all_dark s) = Ok m ->
  Forall (fun i => 1 <= i <= all_dark s) (ids_of (s :: ss)) -> 1 <= i <= all_dark s -> ~ In i (ids_of (s :: ss)) ->
  exists xs vs, create (map file (s :: ss)) = Ok (header_of_snapshot s, m, xs, vs) /\
    forall d, zn d xs (i - 1) = zero_vec /\ zn d vs (i - 1) = zero_vec.
Proof. intros H1 H2. apply create_missing. now apply good_all. Qed.
Theorem grids_range s ss r : set_ok (cv_idSize con) (s :: ss) -> Forall readable (s :: ss) -> create (map file (s :: ss)) = Ok r ->
  Forall (fun i => 1 <= i <= all_dark s) (ids_of (s :: ss)).
Proof. intros H1 H2. apply create_range. now apply good_all. Qed.
Theorem grids_stale ss s1 s2 rest : set_ok (cv_idSize con) (ss ++ [s1; s2]) -> Forall readable (ss ++ [s1; s2]) -> dark s1 = dark s2 ->
  create (map file ss ++ file s1 :: before_ids Little s2 :: rest) = create (map file ss ++ file s1 :: file (with_ids (sn_id s1) s2) :: rest).
Proof.
  intros H1 H2. pose proof (good_all _ H1 H2) as H. apply Forall_app in H. destruct H as (HG & H). inversion_clear H as [|? ? G1 H']. inversion_clear H' as [|? ? G2 _].
  now apply create_stale.
Qed.
Theorem grids_segments s ss n k cells : set_ok (cv_idSize con) (s :: ss) -> Forall readable (s :: ss) -> 0 < cells -> 0 < k -> n = cells * k -> cv_cells con = cells ->
  all_dark s = n * n * n -> int_cube_root pow (n * n * n) = Ok n -> complete (n * n * n) (ids_of (s :: ss)) ->
  exists out, convert_dir up down sys f32_of f64_of narrow fsqrt pow con (map file (s :: ss)) = Ok out /\ zlen out = cells * cells * cells /\
  forall x y z, 0 <= x < cells -> 0 <= y < cells -> 0 <= z < cells -> exists sg, get out (cube_index cells x y z) = Ok (sheet_name x y z, sg) /\
    zlen (sg_x sg) = (k + 1) * (k + 1) * (k + 1) /\ zlen (sg_v sg) = (k + 1) * (k + 1) * (k + 1) /\
    forall a b c, 0 <= a <= k -> 0 <= b <= k -> 0 <= c <= k ->
    exists t p, In t (s :: ss) /\ In p (particles t) /\ p_id p = 1 + periodic_index n (k * x + a) (k * y + b) (k * z + c) /\
      forall d, zn d (sg_x sg) (cube_index (k + 1) a b c) = p_x p /\ zn d (sg_v sg) (cube_index (k + 1) a b c) = p_v p.
Proof. intros H1 H2. apply convert_segments. now apply good_all. Qed.
End Sets.
