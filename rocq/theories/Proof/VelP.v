(** Velocities: whole renderings. *)
From Coq Require Import ZArith String List Bool Reals Lra Lia ZifyBool ZifyNat Permutation.
From Verif Require Import Base.Res Base.ResFacts Base.Num Model.Geom Model.GridDeriv Model.Density Model.Box Model.Render Model.SheetIO Model.Manager.
From Verif Require Import Spec.Geometry Spec.GeomDefs Spec.Fields Spec.FieldDefs Spec.Work Spec.Deposits Spec.Workspace Spec.Renders Spec.VelRenders.
From Verif Require Import Proof.SheetFall Proof.SheetFrame Proof.RenderP Proof.GeomR Proof.ManagerBox Proof.ManagerP Proof.VelWork Proof.VelBox.
Import ListNotations.
Open Scope Z_scope.

Local Notation overlap_of := (box_overlap (ND := RNum) (NF := RNum) (fun x => x)).
Local Notation meetsR := (meets (ND := RNum) (NF := RNum) (fun x => x)).

Lemma vel_ok L skip pool l b b' : vel_box_ok L b -> vel_pool L skip pool l b b' -> vel_box_ok L b' /\ b' = set_vals b (rb_vals b').
Proof.
  intros (B1 & B2 & B3 & B4 & B5 & _) (R1 & R2 & R3 & _). split; [|exact R1]. rewrite R1. unfold box_ok. cbn [set_vals rb_cells rb_cw rb_pts rb_cb rb_proj rb_vals].
  repeat (split; [assumption|]). assumption.
Qed.

Section Passes.
Variables (L : R) (skip q workers len maxP : Z) (pool : list (list (vec3 R))).
Hypothesis Hq : requires_velocity q = Ok true.
Hypothesis HWk : 1 <= workers.
Hypothesis HPool : pool <> [] /\ Forall (fun u => zlen u = maxP /\ Forall unit_simplex u) pool.

Definition ready (m : manager R R) : Prop :=
  m_skip m = skip /\ m_workers m = workers /\ m_q m = q /\ map back (m_unit m) = pool /\
  zlen (m_ws m) = workers /\ Forall (vcap len) (m_ws m).

Lemma render_box_ok file f X choose order ri (m : manager R R) :
  ready m -> 0 <= ri < zlen (m_boxes m) -> zlen (m_valid m) = zlen (m_boxes m) -> m_xs m = sf_xs f -> m_vs m = sf_vs f -> vel_sheet_ok L skip f X ->
  forall b0, let b := zn b0 (m_boxes m) ri in
  vel_box_ok L b -> rb_pts b <= maxP -> faces_ok L skip b f X (units_of pool (rb_pts b)) ->
  existsb (String.eqb file) (zn [] (m_valid m) ri) = meetsR b f ->
  (forall w, meetsR b f = true -> overlap_of b (sf_hd f) = Ok w -> buffer_size w <= len) ->
  (forall id k, 0 <= choose ri id k < zlen pool) -> Permutation (order ri) (zseq workers) ->
  exists m' b', render_box (ND := RNum) (NF := RNum) (fun x => x) (fun x => x) (sf_hd f) file choose order ri m = Ok m' /\ ready m' /\
    m_valid m' = m_valid m /\ m_files m' = m_files m /\ m_xs m' = m_xs m /\ m_vs m' = m_vs m /\
    m_boxes m' = upd (m_boxes m) (Z.to_nat ri) b' /\ vel_pool L skip pool [(f, X)] b b'.
Proof.
  intros (M1 & M2 & M3 & M4 & M5 & M6) Hri HV HX HVs [HS HVl] b0 b HB HP HF HE HL HC HO.
  unfold render_box, requires_file. rewrite (get_ok []) by lia. cbn [bind]. rewrite HE.
  destruct (meetsR b f) eqn:EM; cbn [negb].
  - rewrite (get_ok b0) by lia. cbn [bind]. fold b. destruct (overlap_exists b f) as [w HW]. rewrite HW. cbn [bind].
    specialize (HL w eq_refl HW).
    assert (Hskip : 0 < skip) by apply HS. unfold seg_len, quot. rewrite M1. replace (skip =? 0) with false by lia. cbn [bind].
    assert (Hpts : 0 < rb_pts b) by apply HB.
    destruct (reslice_units maxP pool HPool (m_unit m) (rb_pts b) M4 ltac:(lia)) as (us' & EU & HU1 & HU2). rewrite EU. cbn [bind].
    pose proof (twin_ok L b HB) as HT. pose proof (size_pos L skip (twin b) f X HS HT w HW) as SP.
    destruct (map_res_ex (fun s => prepare (ND := RNum) s (buffer_size w)) (fun _ s' => vbuf len (buffer_size w) s' /\ contents_of s' = blank (buffer_size w)) (m_ws m)) as (ws0 & E0 & HF0).
    { eapply Forall_impl; [|exact M6]. cbv beta. intros s Hs. apply prepare_vector; [exact Hs|lia]. }
    rewrite E0. cbn [bind]. rewrite M3, Hq. cbn [bind]. rewrite M2, HU2, HX, HVs.
    pose proof (units_good maxP pool HPool (rb_pts b) ltac:(lia)) as HG.
    assert (HZ : zlen (units_of pool (rb_pts b)) = zlen pool) by (unfold units_of, zlen; now rewrite map_length).
    assert (U0 : upto L skip (twin b) f X w pool workers len 0 ws0).
    { assert (Z0 : zlen ws0 = workers) by (pose proof (F2_len _ _ _ HF0); unfold zlen in *; lia).
      assert (A : forall id, 0 <= id < workers -> vbuf len (buffer_size w) (zn vb0 ws0 id) /\ contents_of (zn vb0 ws0 id) = blank (buffer_size w)).
      { intros id Hid. assert (HIn : In (zn vb0 ws0 id) ws0) by (apply nth_In; unfold zlen in *; lia).
        revert HIn. generalize (zn vb0 ws0 id). clear - HF0. induction HF0 as [|? ? ? ? H _ IH]; intros s0 HIn; [destruct HIn|].
        destruct HIn as [<-|HIn]; [exact H|exact (IH s0 HIn)]. }
      split; [exact Z0|]. split; [intros; now apply A|]. split; [intros; now apply A|]. exists []. split; [reflexivity|]. intros. lia. }
    destruct (run_all L skip (twin b) f X HS HT w HW pool HG HF HVl (choose ri) ltac:(change (rb_pts (twin b)) with (rb_pts b); rewrite HZ; exact HC) workers len HWk HL ws0 U0) as (ws1 & ws2 & E1 & E2 & U2).
    cbn [nmul nofZ RNum] in *. change (rb_cells (twin b)) with (rb_cells b) in *. change (rb_pts (twin b)) with (rb_pts b) in *. change (rb_cw (twin b)) with (rb_cw b) in *.
    rewrite E1. cbn [bind]. rewrite E2. cbn [bind].
    pose proof HB as (_ & _ & _ & _ & _ & B6 & B7).
    destruct (merge_vectors L skip (twin b) f X HS HT w HW pool (choose ri) ltac:(change (rb_pts (twin b)) with (rb_pts b); rewrite HZ; exact HC) workers len HWk ws2 (order ri) (rb_vals b) U2 HO B6 B7) as (vals & ps & EV & R1 & R2 & R3 & R4).
    assert (HR : vel_pool L skip pool [(f, X)] b (set_vals b vals)).
    { split; [reflexivity|]. split; [exact R1|]. split; [exact R2|]. exists [ps]. split; [constructor; [exact R3|constructor]|].
      intros q0 c Hc. cbn [rb_vals set_vals cell_velocities]. rewrite app_nil_r. exact (R4 q0 c Hc). }
    unfold merge_fix in EV. rewrite EV. cbn [bind]. rewrite set_ok by lia. cbn [bind].
    eexists. exists (set_vals b vals). split; [reflexivity|]. cbn [m_valid m_files m_xs m_vs m_boxes].
    split; [|do 5 (split; [reflexivity|]); exact HR].
    destruct U2 as (V1 & V2 & _). unfold ready. cbn [m_skip m_workers m_q m_unit m_ws]. repeat (split; [assumption || reflexivity|]).
    apply Forall_forall. intros s Hs. apply (In_nth _ _ vb0) in Hs. destruct Hs as (i & Hi & <-). exists (buffer_size w).
    specialize (V2 (Z.of_nat i)). unfold zn in V2. rewrite Nat2Z.id in V2. apply V2. unfold zlen in V1. lia.
  - exists m, b. split; [reflexivity|]. split; [unfold ready; auto 10|]. repeat (split; [reflexivity|]). split.
    + apply (list_ext b0); [now rewrite zlen_upd|]. intros i Hi. rewrite zn_upd by lia. destruct (Z.eqb_spec i ri) as [-> |]; reflexivity.
    + apply vel_skip; auto; [apply HPool|exact (pool_simplex maxP pool HPool)].
Qed.

Variable fs : string -> option (sheet_file R R).
Variable sheet : string -> sheet_file R R.
Variable X : string -> list (vec3 R).
Variables (boxes0 : list (rbox R)) (b0 : rbox R) (valid0 : list (list string)) (grid : Z).
Hypothesis HBoxes : forall i, 0 <= i < zlen boxes0 -> vel_box_ok L (zn b0 boxes0 i) /\ rb_pts (zn b0 boxes0 i) <= maxP.
Hypothesis HValid : zlen valid0 = zlen boxes0.

Definition file_ok (file : string) : Prop :=
  fs file = Some (sheet file) /\ vel_sheet_ok L skip (sheet file) (X file) /\ s_grid (sf_hd (sheet file)) = grid /\
  forall i, 0 <= i < zlen boxes0 -> let b := zn b0 boxes0 i in
    faces_ok L skip b (sheet file) (X file) (units_of pool (rb_pts b)) /\
    existsb (String.eqb file) (zn [] valid0 i) = meetsR b (sheet file) /\
    (forall w, meetsR b (sheet file) = true -> overlap_of b (sf_hd (sheet file)) = Ok w -> buffer_size w <= len).

Definition state (l : list (sheet_file R R * list (vec3 R))) (m : manager R R) : Prop :=
  ready m /\ m_valid m = valid0 /\ zlen (m_xs m) = grid /\ zlen (m_vs m) = grid /\ zlen (m_boxes m) = zlen boxes0 /\
  forall i, 0 <= i < zlen boxes0 -> vel_pool L skip pool l (zn b0 boxes0 i) (zn b0 (m_boxes m) i).

Lemma render_file_ok file choose order l m : file_ok file -> (forall ri id k, 0 <= choose ri id k < zlen pool) ->
  (forall ri, Permutation (order ri) (zseq workers)) -> state l m ->
  exists m', render_file (ND := RNum) (NF := RNum) (fun x => x) (fun x => x) fs file choose order m = Ok (Good m') /\ state (l ++ [sx sheet X file]) m'.
Proof.
  intros (F1 & F2 & F3 & F4) HC HO (S1 & S2 & S3 & SV & S4 & S5). unfold render_file, load_file. rewrite F1, F3, S3, Z.eqb_refl. cbn [negb].
  destruct S1 as (R1 & R2 & R3 & R4 & R5 & R6). rewrite R3, Hq. cbn [bind andb]. rewrite SV, Z.eqb_refl. cbn [negb bind].
  match goal with |- context [for_ 0 _ _ ?m] => set (m1 := m) end. change (m_boxes m1) with (m_boxes m). rewrite S4.
  set (body := render_box _ _ _ _ _ _).
  pose (I := fun k (m2 : manager R R) => ready m2 /\ m_valid m2 = valid0 /\ m_xs m2 = sf_xs (sheet file) /\ m_vs m2 = sf_vs (sheet file) /\ zlen (m_boxes m2) = zlen boxes0 /\
    forall i, 0 <= i < zlen boxes0 -> vel_pool L skip pool (if i <? k then l ++ [sx sheet X file] else l) (zn b0 boxes0 i) (zn b0 (m_boxes m2) i)).
  assert (HI : wp (for_ 0 (zlen boxes0) body m1) (I (zlen boxes0))).
  { apply for_inv; [unfold zlen; lia| |].
    - unfold I, m1, ready. cbn [m_skip m_workers m_q m_unit m_ws m_valid m_xs m_vs m_boxes]. split; [auto 10|]. split; [auto|]. split; [auto|]. split; [auto|]. split; [auto|].
      intros i Hi. replace (i <? 0) with false by lia. auto.
    - intros i m2 Hi (I1 & I2 & I3 & IV & I4 & I5). pose proof (I5 i Hi) as HR. replace (i <? i) with false in HR by lia.
      destruct (HBoxes i Hi) as [HB HP]. destruct (vel_ok _ _ _ _ _ _ HB HR) as [HB' EB'].
      destruct (F4 i Hi) as (G1 & G2 & G3).
      destruct (render_box_ok file (sheet file) (X file) choose order i m2 I1 ltac:(lia) ltac:(rewrite I2; lia) I3 IV F2 b0) as (m3 & b' & E & K1 & K2 & K3 & K4 & KV & K5 & K6).
      + exact HB'.
      + rewrite EB'. exact HP.
      + rewrite EB'. exact G1.
      + rewrite EB', I2. exact G2.
      + rewrite EB'. exact G3.
      + auto.
      + auto.
      + unfold body. rewrite E. unfold I. cbn [wp]. split; [exact K1|]. split; [congruence|]. split; [congruence|]. split; [congruence|].
        split; [rewrite K5, zlen_upd; auto|]. intros j Hj. rewrite K5, zn_upd by lia. destruct (Z.eqb_spec j i) as [-> |].
        * replace (i <? i + 1) with true by lia. eapply vel_trans; eauto.
        * replace (j <? i + 1) with (j <? i) by lia. auto. }
  destruct (for_ 0 (zlen boxes0) body m1) as [m2| | |]; try contradiction. cbn [bind]. exists m2. split; [reflexivity|].
  destruct HI as (I1 & I2 & I3 & IV & I4 & I5). split; [exact I1|]. split; [exact I2|]. split.
  - rewrite I3. pose proof F2 as ((_ & _ & _ & _ & E & _) & _). congruence.
  - split; [rewrite IV; pose proof F2 as (_ & E); congruence|]. split; [exact I4|]. intros i Hi. specialize (I5 i Hi). replace (i <? zlen boxes0) with true in I5 by lia. exact I5.
Qed.

Lemma render_files_ok choose order files : (forall k ri id j, 0 <= choose k ri id j < zlen pool) ->
  (forall k ri, Permutation (order k ri) (zseq workers)) -> Forall file_ok files -> forall k l m, state l m ->
  exists m', render_files (ND := RNum) (NF := RNum) (fun x => x) (fun x => x) fs choose order k files m = Ok (Good m') /\ state (l ++ map (sx sheet X) files) m'.
Proof.
  intros HC HO HF. induction HF as [|file files H1 _ IH]; intros k l m HS.
  - exists m. split; [reflexivity|]. cbn. now rewrite app_nil_r.
  - cbn [render_files]. destruct (render_file_ok file (choose k) (order k) l m H1 (HC k) (HO k) HS) as (m1 & E & S1). rewrite E. cbn [bind].
    destruct (IH (k + 1) _ m1 S1) as (m2 & E2 & S2). exists m2. split; [exact E2|]. cbn [map].
    replace (l ++ sx sheet X file :: map (sx sheet X) files) with ((l ++ [sx sheet X file]) ++ map (sx sheet X) files) by now rewrite <- app_assoc. exact S2.
Qed.
End Passes.

(** Files that are left out would add nothing. *)
Lemma vel_filter L skip pool (sx : string -> sheet_file R R * list (vec3 R)) keep files b b' :
  (forall file, In file files -> keep file = false -> vel_pool L skip pool [sx file] b b) ->
  vel_pool L skip pool (map sx (filter keep files)) b b' -> vel_pool L skip pool (map sx files) b b'.
Proof.
  intros HK (R1 & R2 & R3 & us & R4 & R5). split; [auto|]. split; [auto|]. split; [auto|].
  assert (G : exists us', Forall2 (fun s ps => uses_of (s_seg (sf_hd (fst s))) skip (units_of pool (rb_pts b)) ps) (map sx files) us' /\
    forall q c, in_grid (image_size b) c -> total_of (gives (box_depth b) q) (cell_velocities L skip b (map sx files) us' c) =
      total_of (gives (box_depth b) q) (cell_velocities L skip b (map sx (filter keep files)) us c)).
  { clear R1 R2 R3 R5. revert us R4. induction files as [|file files IH]; intros us R4.
    - exists us. split; [exact R4|]. auto.
    - cbn [filter map] in *. assert (HK' : forall g, In g files -> keep g = false -> vel_pool L skip pool [sx g] b b) by (intros; apply HK; [now right|auto]).
      destruct (keep file) eqn:EK.
      + cbn [map] in R4. inversion R4 as [|? ps ? us1 P1 P2]; subst. destruct (IH HK' us1 P2) as (us' & Q1 & Q2).
        exists (ps :: us'). split; [constructor; auto|]. intros q c Hc. cbn [map cell_velocities]. now rewrite !total_app, Q2.
      + destruct (IH HK' us R4) as (us' & Q1 & Q2).
        destruct (HK file (or_introl eq_refl) EK) as (_ & _ & _ & us0 & P1 & P2).
        inversion P1 as [|? ps ? us1 P3 P4]; subst. inversion P4; subst. exists (ps :: us'). split; [constructor; auto|].
        intros q c Hc. cbn [cell_velocities]. rewrite total_app, Q2 by auto. specialize (P2 q c Hc). cbn [cell_velocities] in P2. rewrite app_nil_r in P2. lra. }
  destruct G as (us' & G1 & G2). exists us'. split; [exact G1|]. intros q c Hc. rewrite G2 by auto. auto.
Qed.

(** ** A whole run *)
Lemma new_ws q n k : requires_velocity q = Ok true -> 0 <= n -> 0 <= k ->
  forall (boxes : list (rbox R)) (b0 : rbox R), boxes <> [] ->
  exists ws, for_ 0 k (fun _ l => _ <- get boxes 0 ;; b <- new_buffer (ND := RNum) q n ;; Ok (l ++ [b]))%res [] = Ok ws /\ zlen ws = k /\ Forall (vcap n) ws.
Proof.
  intros Hq Hn Hk boxes b0 HB.
  assert (HI : wp (for_ 0 k (fun _ l => _ <- get boxes 0 ;; b <- new_buffer (ND := RNum) q n ;; Ok (l ++ [b]))%res []) (fun ws => zlen ws = k /\ Forall (vcap n) ws)).
  { apply (for_inv (fun k ws => zlen ws = k /\ Forall (vcap n) ws)); [lia|auto|]. intros i l Hi [H1 H2].
    destruct boxes as [|b1 boxes]; [congruence|]. cbn [get Z.ltb Z.compare Z.to_nat nth_error bind].
    assert (E : new_buffer (ND := RNum) q n = Ok (VBuf q (GS (repeat (Density.zero3 (ND := RNum)) (Z.to_nat n)) n) (GS (repeat 0 (Z.to_nat n)) n))).
    { unfold new_buffer, requires_velocity, gmake in *. destruct ((q =? Density) || (q =? DensityGradient))%bool eqn:E.
      - discriminate.
      - destruct ((q =? Velocity) || (q =? VelocityDivergence) || (q =? VelocityCurl))%bool; [|discriminate].
        replace (n <? 0) with false by lia. reflexivity. }
    cbn [get Z.ltb Z.compare Z.to_nat nth_error bind]. rewrite E. cbn [bind wp]. rewrite zlen_snoc. split; [lia|]. apply Forall_app. split; [auto|]. constructor; [|constructor].
    exists n. cbn [vbuf back vis]. unfold zlen. rewrite !repeat_length. lia. }
  destruct (for_ 0 k _ []) as [ws| | |]; try contradiction. exists ws. auto.
Qed.

Theorem job_ok L skip q workers rnd choose order fs (sheet : string -> sheet_file R R) X files boxes grid :
  files <> [] -> boxes <> [] -> 1 <= workers -> requires_velocity q = Ok true ->
  (forall bi j, unit_cube (rnd bi j)) -> (forall k ri id j, 0 <= choose k ri id j < 64) ->
  (forall k ri, Permutation (order k ri) (zseq workers)) ->
  Forall (vel_box_ok L) boxes ->
  (forall file, In file files -> fs file = Some (sheet file) /\ vel_sheet_ok L skip (sheet file) (X file) /\
     s_grid (sf_hd (sheet file)) = grid /\
     forall b, In b boxes -> faces_ok L skip b (sheet file) (X file) (unit_pool rnd (rb_pts b))) ->
  exists out, render_job (ND := RNum) (NF := RNum) (fun x => x) (fun x => x) fs workers rnd choose order files boxes q skip = Ok out /\
    Forall2 (fun b b' => vel_rendered L skip (unit_pool rnd (rb_pts b)) (map (fun file => (sheet file, X file)) files) b b') boxes out.
Proof.
  intros HFil HBox HWk Hq HR HC HO HB HF.
  destruct boxes as [|b0 boxes0] eqn:EBX; [congruence|]. rewrite <- EBX in *. clear EBX.
  set (maxP := max_points boxes). set (pool := unit_pool rnd maxP).
  assert (HBi : forall i, 0 <= i < zlen boxes -> In (zn b0 boxes i) boxes) by (intros i Hi; apply nth_In; unfold zlen in Hi; lia).
  assert (HPt : forall b, In b boxes -> 0 <= rb_pts b <= maxP).
  { intros b Hb. split; [|now apply max_points_ge]. rewrite Forall_forall in HB. destruct (HB b Hb) as (_ & _ & ? & _). lia. }
  assert (HM : 0 <= maxP).
  { destruct boxes as [|b1 r]; [congruence|]. specialize (HPt b1 (or_introl eq_refl)). lia. }
  pose proof (pool_good rnd maxP HR HM) as HPool. fold pool in HPool.
  assert (HZ : zlen pool = 64) by reflexivity.
  destruct (scan_all (ND := RNum) (NF := RNum) (fun x => x) fs sheet boxes b0 files (fun g Hg => proj1 (HF g Hg)) (SC (repeat [] (List.length boxes)) [] 0))
    as (s & ES & S1 & S2 & S3 & S4 & S5).
  { cbn [sc_valid]. unfold zlen. now rewrite repeat_length. }
  cbn [sc_valid sc_files sc_max app] in *.
  destruct (new_ws q (sc_max s) workers Hq S3 ltac:(lia) boxes b0 HBox) as (ws & EW & W1 & W2).
  unfold render_job, new_manager. replace (workers <? 0) with false by lia. rewrite ES. cbn [bind].
  destruct files as [|first rest] eqn:EFL; [congruence|]. rewrite <- EFL in *.
  assert (EG : get files 0 = Ok first) by now rewrite EFL.
  assert (HFirst : In first files) by (rewrite EFL; now left).
  clear EFL. rewrite EG. cbn [bind].
  destruct (HF first HFirst) as (G1 & G2 & G3 & _). rewrite G1, G3.
  assert (HGrid : 0 <= grid).
  { destruct G2 as ((_ & _ & _ & _ & E & _) & _). rewrite <- G3, <- E. unfold zlen. lia. }
  replace (grid <? 0) with false by lia. rewrite Hq. cbn [bind]. rewrite EW. cbn [bind].
  unfold set_skip. cbn [m_skip].
  assert (EP : power_of_two manager_skip0) by (exists 0; split; [lia|reflexivity]).
  rewrite (proj1 (subsample_ok manager_skip0 skip) EP). cbn [bind]. unfold render_density. cbn [m_files m_xs m_vs m_unit m_skip m_workers m_ws m_boxes m_valid m_q].
  rewrite S2.
  assert (HFaces : forall file i, In file files -> 0 <= i < zlen boxes -> faces_ok L skip (zn b0 boxes i) (sheet file) (X file) (units_of pool (rb_pts (zn b0 boxes i)))).
  { intros file i Hf Hi. destruct (HF file Hf) as (_ & _ & _ & K). unfold pool. rewrite units_of_pool by (apply HPt; auto). apply K. auto. }
  match goal with |- context [render_files _ _ fs choose order 0 ?fl ?m] => set (m0 := m); set (fl0 := fl) end.
  destruct (render_files_ok L skip q workers (sc_max s) maxP pool Hq HWk HPool fs sheet X boxes b0 (sc_valid s) grid) with (choose := choose) (order := order) (files := fl0) (k := 0)
    (l := @nil (sheet_file R R * list (vec3 R))) (m := m0) as (m' & EM & (_ & _ & _ & _ & K4 & K5)).
  - intros i Hi. split; [rewrite Forall_forall in HB; auto|apply HPt; auto].
  - exact S1.
  - rewrite HZ. exact HC.
  - exact HO.
  - apply Forall_forall. intros file Hfl. unfold fl0 in Hfl. apply filter_In in Hfl. destruct Hfl as [Hfl _].
    destruct (HF file Hfl) as (F1 & F2 & F3 & _). split; [exact F1|]. split; [exact F2|]. split; [exact F3|]. intros i Hi. cbv zeta. split; [auto|]. split.
    + rewrite S4 by auto. assert (EI : existsb (String.eqb file) files = true).
      { apply existsb_exists. exists file. split; [auto|apply String.eqb_refl]. }
      rewrite EI. cbn [andb]. replace (existsb (String.eqb file) (zn [] (repeat [] (List.length boxes)) i)) with false; [reflexivity|].
      unfold zn. rewrite nth_repeat. reflexivity.
    + intros w HMt HW. eapply S5; eauto.
  - unfold state, ready, m0. cbn [m_skip m_workers m_q m_unit m_ws m_valid m_xs m_boxes]. split.
    + split; [reflexivity|]. split; [reflexivity|]. split; [reflexivity|]. split; [apply unit_bufs_back|]. split; [exact W1|exact W2].
    + split; [reflexivity|]. split; [unfold zlen; rewrite repeat_length; lia|]. split; [cbn [m_vs]; unfold zlen; rewrite repeat_length; lia|]. split; [reflexivity|].
      intros i Hi. apply vel_refl; rewrite Forall_forall in HB; apply HB; auto.
  - rewrite EM. cbn [bind]. eexists. split; [reflexivity|]. cbn [app] in K5.
    assert (KF : forall i, 0 <= i < zlen boxes -> vel_rendered L skip (unit_pool rnd (rb_pts (zn b0 boxes i))) (map (fun file => (sheet file, X file)) files) (zn b0 boxes i) (zn b0 (m_boxes m') i)).
    { intros i Hi. specialize (K5 i Hi). rewrite <- (units_of_pool rnd _ maxP) by (apply HPt; auto). fold pool.
      apply (vel_filter L skip pool (sx sheet X) (kept (ND := RNum) (NF := RNum) (fun x => x) sheet boxes)); [|exact K5].
      intros file Hfl HK. destruct (HF file Hfl) as (F1 & [F2 _] & F3 & _). apply vel_skip; auto.
      - rewrite Forall_forall in HB. auto.
      - apply HPool.
      - eapply Forall_impl; [|apply HPool]. cbv beta. tauto.
      - unfold kept in HK. destruct (meetsR (zn b0 boxes i) (sheet file)) eqn:EMt; [|exact EMt].
        exfalso. assert (HK' : existsb (fun b => meetsR b (sheet file)) boxes = true); [|congruence]. apply existsb_exists. exists (zn b0 boxes i). auto. }
    clear - K4 KF. apply (Forall2_zn b0 b0); auto.
Qed.
