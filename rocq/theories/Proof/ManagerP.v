(** Whole renderings: which files are kept for which box, and the passes over
    files and boxes. *)
From Coq Require Import ZArith String List Bool Reals Lra Lia ZifyBool ZifyNat Permutation.
From Verif Require Import Base.Res Base.ResFacts Base.Num Model.Geom Model.GridDeriv Model.Density Model.Box Model.Render Model.SheetIO Model.Manager.
From Verif Require Import Spec.Geometry Spec.GeomDefs Spec.Fields Spec.FieldDefs Spec.Work Spec.Deposits Spec.Workspace Spec.Renders.
From Verif Require Import Proof.SheetFall Proof.SheetFrame Proof.RenderP Proof.GeomR Proof.ManagerBox.
Import ListNotations.
Open Scope Z_scope.

Lemma Forall2_zn {A B} (da : A) (db : B) (P : A -> B -> Prop) l l' : zlen l' = zlen l -> (forall i, 0 <= i < zlen l -> P (zn da l i) (zn db l' i)) -> Forall2 P l l'.
Proof.
  unfold zlen, zn. revert l'. induction l as [|a l IH]; intros [|b l'] HL H; cbn [List.length] in *; try lia; constructor.
  - exact (H 0 ltac:(lia)).
  - apply IH; [lia|]. intros i Hi. specialize (H (i + 1) ltac:(lia)). replace (Z.to_nat (i + 1)) with (S (Z.to_nat i)) in H by lia. exact H.
Qed.

(** ** Choosing files, in any arithmetic *)
Section Scan.
Context {D F : Type} {ND : Num D} {NF : Num F} (up : F -> D).
Variable fs : string -> option (sheet_file D F).
Variable sheet : string -> sheet_file D F.
Variable boxes : list (rbox D).
Variable b0 : rbox D.

Lemma overlap_total (b : rbox D) (h : Manager.sheet D F) : exists w, box_overlap up b h = Ok w.
Proof.
  unfold box_overlap. destruct (rb_proj b); [|eauto]. unfold overlap2D, quot. replace (2 =? 0) with false by lia. cbn [bind].
  match goal with |- context [if ?c then _ else _] => destruct c end; eauto.
Qed.

Definition scanned (file : string) (k : Z) (s0 : scan) (r : scan * bool) : Prop :=
  let s := fst r in
  zlen (sc_valid s) = zlen boxes /\ sc_files s = sc_files s0 /\ sc_max s0 <= sc_max s /\
  snd r = existsb (fun b => meets up b (sheet file)) (firstn (Z.to_nat k) boxes) /\
  (forall i g, 0 <= i < zlen boxes -> existsb (String.eqb g) (zn [] (sc_valid s) i) =
     existsb (String.eqb g) (zn [] (sc_valid s0) i) || ((i <? k) && String.eqb g file && meets up (zn b0 boxes i) (sheet file))) /\
  (forall i w, 0 <= i < k -> meets up (zn b0 boxes i) (sheet file) = true -> box_overlap up (zn b0 boxes i) (sf_hd (sheet file)) = Ok w ->
     buffer_size w <= sc_max s).

Lemma firstn_snoc {A} (d : A) l k : 0 <= k < zlen l -> firstn (Z.to_nat (k + 1)) l = firstn (Z.to_nat k) l ++ [zn d l k].
Proof.
  intros H. replace (Z.to_nat (k + 1)) with (S (Z.to_nat k)) by lia. unfold zn, zlen in *.
  assert (Hk : (Z.to_nat k < List.length l)%nat) by lia. clear H. revert Hk. generalize (Z.to_nat k). clear k.
  induction l as [|x l IH]; intros [|k] Hk; cbn in *; try lia; auto. rewrite <- IH by lia. reflexivity.
Qed.

Lemma scan_step file k s0 r : 0 <= k < zlen boxes -> scanned file k s0 r ->
  exists r', scan_box up (sf_hd (sheet file)) file boxes k r = Ok r' /\ scanned file (k + 1) s0 r'.
Proof.
  intros Hk (S1 & S2 & S3 & S4 & S5 & S6). unfold scan_box. rewrite (get_ok b0) by lia. cbn [bind].
  assert (EX : existsb (fun b => meets up b (sheet file)) (firstn (Z.to_nat (k + 1)) boxes) =
    snd r || meets up (zn b0 boxes k) (sheet file)).
  { rewrite (firstn_snoc b0) by auto. rewrite existsb_app, S4. cbn [existsb]. now rewrite orb_false_r. }
  fold (meets up (zn b0 boxes k) (sheet file)). destruct (meets up (zn b0 boxes k) (sheet file)) eqn:EM.
  - destruct (overlap_total (zn b0 boxes k) (sf_hd (sheet file))) as [w EW]. rewrite EW. cbn [bind].
    rewrite (get_ok []) by lia. cbn [bind]. rewrite set_ok by lia. cbn [bind]. eexists. split; [reflexivity|].
    unfold scanned. cbn [fst snd sc_valid sc_files sc_max]. split; [now rewrite zlen_upd|]. split; [auto|].
    split; [destruct (buffer_size w >? sc_max (fst r)) eqn:E; lia|]. split; [rewrite EX; now rewrite orb_true_r|]. split.
    + intros i g Hi. rewrite zn_upd by lia. destruct (Z.eqb_spec i k) as [-> |].
      * cbn [existsb]. rewrite S5 by lia. rewrite EM. replace (k <? k) with false by lia. replace (k <? k + 1) with true by lia.
        destruct (String.eqb g file), (existsb (String.eqb g) (zn [] (sc_valid s0) k)); reflexivity.
      * rewrite S5 by lia. f_equal. f_equal. f_equal. lia.
    + intros i w' Hi HM HW. destruct (Z.eqb_spec i k) as [-> |].
      * rewrite EW in HW. injection HW as <-. destruct (buffer_size w >? sc_max (fst r)) eqn:E; lia.
      * assert (buffer_size w' <= sc_max (fst r)) by (apply (S6 i); auto; lia). destruct (buffer_size w >? sc_max (fst r)) eqn:E; lia.
  - exists r. split; [reflexivity|]. unfold scanned. split; [auto|]. split; [auto|]. split; [auto|]. split; [rewrite EX; now rewrite orb_false_r|]. split.
    + intros i g Hi. rewrite S5 by lia. f_equal. destruct (Z.eqb_spec i k) as [-> |].
      * rewrite EM. now rewrite !andb_false_r.
      * f_equal. f_equal. lia.
    + intros i w' Hi HM HW. destruct (Z.eqb_spec i k) as [-> |]; [congruence|]. apply (S6 i); auto. lia.
Qed.

Lemma scan_one file s0 : zlen (sc_valid s0) = zlen boxes ->
  exists r, for_ 0 (zlen boxes) (scan_box up (sf_hd (sheet file)) file boxes) (s0, false) = Ok r /\ scanned file (zlen boxes) s0 r.
Proof.
  intros HV. assert (HI : wp (for_ 0 (zlen boxes) (scan_box up (sf_hd (sheet file)) file boxes) (s0, false)) (scanned file (zlen boxes) s0)).
  { apply (for_inv (fun k => scanned file k s0)); [unfold zlen; lia| |].
    - unfold scanned. cbn. repeat (split; auto; try lia). intros i g Hi. replace (i <? 0) with false by lia. now rewrite orb_false_r.
    - intros i s Hi Hs. destruct (scan_step file i s0 s Hi Hs) as (r & -> & Hr). exact Hr. }
  destruct (for_ _ _ _ _); try contradiction. eauto.
Qed.

Definition kept (file : string) : bool := existsb (fun b => meets up b (sheet file)) boxes.

Lemma scan_all files : (forall file, In file files -> fs file = Some (sheet file)) -> forall s0, zlen (sc_valid s0) = zlen boxes ->
  exists s, scan_files up fs boxes files s0 = Ok (Good s) /\ zlen (sc_valid s) = zlen boxes /\
    sc_files s = sc_files s0 ++ filter kept files /\ sc_max s0 <= sc_max s /\
    (forall i g, 0 <= i < zlen boxes -> existsb (String.eqb g) (zn [] (sc_valid s) i) =
       existsb (String.eqb g) (zn [] (sc_valid s0) i) || (existsb (String.eqb g) files && meets up (zn b0 boxes i) (sheet g))) /\
    (forall i file w, 0 <= i < zlen boxes -> In file files -> meets up (zn b0 boxes i) (sheet file) = true ->
       box_overlap up (zn b0 boxes i) (sf_hd (sheet file)) = Ok w -> buffer_size w <= sc_max s).
Proof.
  induction files as [|file files IH]; intros HFs s0 HV.
  - exists s0. cbn. rewrite app_nil_r. repeat (split; auto; try lia). intros. now rewrite orb_false_r.
  - cbn [scan_files]. rewrite (HFs file) by now left. destruct (scan_one file s0 HV) as ((s1 & hit) & E & S1 & S2 & S3 & S4 & S5 & S6).
    rewrite E. cbn [bind fst snd] in *.
    rewrite firstn_all2 in S4 by (unfold zlen; lia). fold (kept file) in S4.
    set (s2 := if hit then _ else _).
    assert (V2 : sc_valid s2 = sc_valid s1) by (unfold s2; now destruct hit). assert (M2 : sc_max s2 = sc_max s1) by (unfold s2; now destruct hit).
    destruct (IH (fun g Hg => HFs g (or_intror Hg)) s2) as (s & E' & T1 & T2 & T3 & T4 & T5); [now rewrite V2|].
    exists s. split; [exact E'|]. split; [auto|]. split.
    { rewrite T2. cbn [filter]. rewrite <- S4. unfold s2. destruct hit; cbn [sc_files]; rewrite S2; auto. now rewrite <- app_assoc. }
    split; [lia|]. split.
    + intros i g Hi. rewrite T4, V2, S5 by auto. cbn [existsb]. replace (i <? zlen boxes) with true by lia. cbn [andb].
      destruct (String.eqb_spec g file) as [-> |]; cbn [andb orb].
      * destruct (existsb _ (zn [] _ _)), (existsb _ files), (meets _ _ _); reflexivity.
      * now rewrite orb_false_r.
    + intros i g w Hi [<-|Hg] HM HW; [|now apply (T5 i g)].
      assert (buffer_size w <= sc_max s1) by (apply (S6 i); auto). lia.
Qed.
End Scan.

(** ** Rendering *)
Local Notation overlap_of := (box_overlap (ND := RNum) (NF := RNum) (fun x => x)).
Local Notation meetsR := (meets (ND := RNum) (NF := RNum) (fun x => x)).

Lemma rendered_ok L skip pool l b b' : box_ok L b -> rendered_pool L skip pool l b b' -> box_ok L b' /\ b' = set_vals b (rb_vals b').
Proof.
  intros (B1 & B2 & B3 & B4 & B5 & _) (R1 & R2 & R3 & _). split; [|exact R1]. rewrite R1. unfold box_ok. cbn [set_vals rb_cells rb_cw rb_pts rb_cb rb_proj rb_vals].
  repeat (split; [assumption|]). assumption.
Qed.

Section Passes.
Variables (L : R) (skip q workers len maxP : Z) (pool : list (list (vec3 R))).
Hypothesis Hq : requires_velocity q = Ok false.
Hypothesis HWk : 1 <= workers.
Hypothesis HPool : pool <> [] /\ Forall (fun u => zlen u = maxP /\ Forall unit_simplex u) pool.

Definition ready (m : manager R R) : Prop :=
  m_skip m = skip /\ m_workers m = workers /\ m_q m = q /\ map back (m_unit m) = pool /\
  zlen (m_ws m) = workers /\ Forall (scap len) (m_ws m).

Lemma units_good pts : 0 <= pts <= maxP -> good_units pts (units_of pool pts).
Proof.
  intros H. unfold good_units, units_of. rewrite Forall_map. eapply Forall_impl; [|apply HPool]. cbv beta. intros u [H1 H2]. split.
  - unfold zlen in *. rewrite firstn_length. lia.
  - rewrite Forall_forall in *. intros x Hx. apply H2. eapply firstn_sub; eauto.
Qed.

Lemma pool_simplex : Forall (Forall unit_simplex) pool.
Proof. eapply Forall_impl; [|apply HPool]. cbv beta. tauto. Qed.

Lemma reslice_units (us : list (gslice (vec3 R))) pts : map back us = pool -> 0 <= pts <= maxP ->
  exists us', map_res (fun u => reslice u 0 pts) us = Ok us' /\ map back us' = pool /\ map visible us' = units_of pool pts.
Proof.
  intros HU Hp.
  destruct (map_res_ex (fun u => reslice u 0 pts) (fun u u' => back u' = back u /\ vis u' = pts) us) as (us' & E & HF).
  - apply Forall_forall. intros u Hu. exists (GS (back u) pts). split; [|auto]. apply reslice_ok.
    destruct HPool as [_ HP]. rewrite Forall_forall in HP. destruct (HP (back u)) as [-> _]; [rewrite <- HU; now apply in_map|lia].
  - exists us'. split; [exact E|]. unfold units_of. rewrite <- HU. clear - HF. induction HF as [|u u' us us' [H1 H2] _ [IH1 IH2]]; [auto|].
    cbn [map]. split; [f_equal; auto|]. f_equal; [|auto]. unfold visible. rewrite H1, H2. reflexivity.
Qed.

Lemma render_box_ok file f X choose order ri (m : manager R R) :
  ready m -> 0 <= ri < zlen (m_boxes m) -> zlen (m_valid m) = zlen (m_boxes m) -> m_xs m = sf_xs f -> sheet_ok L skip f X ->
  forall b0, let b := zn b0 (m_boxes m) ri in
  box_ok L b -> rb_pts b <= maxP -> faces_ok L skip b f X (units_of pool (rb_pts b)) ->
  existsb (String.eqb file) (zn [] (m_valid m) ri) = meetsR b f ->
  (forall w, meetsR b f = true -> overlap_of b (sf_hd f) = Ok w -> buffer_size w <= len) ->
  (forall id k, 0 <= choose ri id k < zlen pool) -> Permutation (order ri) (zseq workers) ->
  exists m' b', render_box (ND := RNum) (NF := RNum) (fun x => x) (fun x => x) (sf_hd f) file choose order ri m = Ok m' /\ ready m' /\
    m_valid m' = m_valid m /\ m_files m' = m_files m /\ m_xs m' = m_xs m /\
    m_boxes m' = upd (m_boxes m) (Z.to_nat ri) b' /\ rendered_pool L skip pool [(f, X)] b b'.
Proof.
  intros (M1 & M2 & M3 & M4 & M5 & M6) Hri HV HX HS b0 b HB HP HF HE HL HC HO.
  unfold render_box, requires_file. rewrite (get_ok []) by lia. cbn [bind]. rewrite HE.
  destruct (meetsR b f) eqn:EM; cbn [negb].
  - rewrite (get_ok b0) by lia. cbn [bind]. fold b. destruct (overlap_exists b f) as [w HW]. rewrite HW. cbn [bind].
    specialize (HL w eq_refl HW).
    assert (Hskip : 0 < skip) by apply HS. unfold seg_len, quot. rewrite M1. replace (skip =? 0) with false by lia. cbn [bind].
    assert (Hpts : 0 < rb_pts b) by apply HB.
    destruct (reslice_units (m_unit m) (rb_pts b) M4 ltac:(lia)) as (us' & EU & HU1 & HU2). rewrite EU. cbn [bind].
    pose proof (size_pos L skip b f X HS HB w HW) as SP.
    destruct (map_res_ex (fun s => prepare (ND := RNum) s (buffer_size w)) (fun _ s' => sbuf len (buffer_size w) s' /\ contents_of s' = Scalar (repeat 0%R (Z.to_nat (buffer_size w)))) (m_ws m)) as (ws0 & E0 & HF0).
    { eapply Forall_impl; [|exact M6]. cbv beta. intros s Hs. apply prepare_scalar; [exact Hs|lia]. }
    rewrite E0. cbn [bind]. rewrite M3, Hq. cbn [bind]. rewrite M2, HU2, HX.
    pose proof (units_good (rb_pts b) ltac:(lia)) as HG.
    assert (HZ : zlen (units_of pool (rb_pts b)) = zlen pool) by (unfold units_of, zlen; now rewrite map_length).
    assert (U0 : upto L skip b f X w pool workers len 0 ws0).
    { assert (Z0 : zlen ws0 = workers) by (pose proof (F2_len _ _ _ HF0); unfold zlen in *; lia).
      assert (A : forall id, 0 <= id < workers -> sbuf len (buffer_size w) (zn sb0 ws0 id) /\ contents_of (zn sb0 ws0 id) = Scalar (repeat 0%R (Z.to_nat (buffer_size w)))).
      { intros id Hid. assert (HIn : In (zn sb0 ws0 id) ws0) by (apply nth_In; unfold zlen in *; lia).
        revert HIn. generalize (zn sb0 ws0 id). clear - HF0. induction HF0 as [|? ? ? ? H _ IH]; intros s0 HIn; [destruct HIn|].
        destruct HIn as [<-|HIn]; [exact H|exact (IH s0 HIn)]. }
      split; [exact Z0|]. split; [intros; now apply A|]. split; [intros; now apply A|]. exists []. split; [reflexivity|]. intros. lia. }
    destruct (run_all L skip b f X HS HB w HW pool HG HF (m_vs m) (choose ri) ltac:(rewrite HZ; exact HC) workers len HWk HL ws0 U0) as (ws1 & ws2 & E1 & E2 & U2).
    cbn [nmul nofZ RNum] in *. rewrite E1. cbn [bind]. rewrite E2. cbn [bind].
    destruct (merge_ok L skip b f X HS HB w HW pool (m_vs m) (choose ri) ltac:(rewrite HZ; exact HC) workers len HWk ws2 (order ri) U2 HO) as (vals & EV & HR).
    unfold merge_fix in EV. rewrite EV. cbn [bind]. rewrite set_ok by lia. cbn [bind].
    eexists. exists (set_vals b vals). split; [reflexivity|]. cbn [m_valid m_files m_xs m_boxes].
    split; [|split; [reflexivity|split; [reflexivity|split; [reflexivity|split; [reflexivity|exact HR]]]]].
    destruct U2 as (V1 & V2 & _). unfold ready. cbn [m_skip m_workers m_q m_unit m_ws]. repeat (split; [assumption || reflexivity|]).
    apply Forall_forall. intros s Hs. apply (In_nth _ _ sb0) in Hs. destruct Hs as (i & Hi & <-). exists (buffer_size w).
    specialize (V2 (Z.of_nat i)). unfold zn in V2. rewrite Nat2Z.id in V2. apply V2. unfold zlen in V1. lia.
  - exists m, b. split; [reflexivity|]. split; [unfold ready; auto 10|]. repeat (split; [reflexivity|]). split.
    + apply (list_ext b0); [now rewrite zlen_upd|]. intros i Hi. rewrite zn_upd by lia. destruct (Z.eqb_spec i ri) as [-> |]; reflexivity.
    + apply rendered_skip; auto; [apply HPool|apply pool_simplex].
Qed.

Variable fs : string -> option (sheet_file R R).
Variable sheet : string -> sheet_file R R.
Variable X : string -> list (vec3 R).
Variables (boxes0 : list (rbox R)) (b0 : rbox R) (valid0 : list (list string)) (grid : Z).
Hypothesis HBoxes : forall i, 0 <= i < zlen boxes0 -> box_ok L (zn b0 boxes0 i) /\ rb_pts (zn b0 boxes0 i) <= maxP.
Hypothesis HValid : zlen valid0 = zlen boxes0.

Definition sx (file : string) : sheet_file R R * list (vec3 R) := (sheet file, X file).

Definition file_ok (file : string) : Prop :=
  fs file = Some (sheet file) /\ sheet_ok L skip (sheet file) (X file) /\ s_grid (sf_hd (sheet file)) = grid /\
  forall i, 0 <= i < zlen boxes0 -> let b := zn b0 boxes0 i in
    faces_ok L skip b (sheet file) (X file) (units_of pool (rb_pts b)) /\
    existsb (String.eqb file) (zn [] valid0 i) = meetsR b (sheet file) /\
    (forall w, meetsR b (sheet file) = true -> overlap_of b (sf_hd (sheet file)) = Ok w -> buffer_size w <= len).

Definition state (l : list (sheet_file R R * list (vec3 R))) (m : manager R R) : Prop :=
  ready m /\ m_valid m = valid0 /\ zlen (m_xs m) = grid /\ zlen (m_boxes m) = zlen boxes0 /\
  forall i, 0 <= i < zlen boxes0 -> rendered_pool L skip pool l (zn b0 boxes0 i) (zn b0 (m_boxes m) i).

Lemma render_file_ok file choose order l m : file_ok file -> (forall ri id k, 0 <= choose ri id k < zlen pool) ->
  (forall ri, Permutation (order ri) (zseq workers)) -> state l m ->
  exists m', render_file (ND := RNum) (NF := RNum) (fun x => x) (fun x => x) fs file choose order m = Ok (Good m') /\ state (l ++ [sx file]) m'.
Proof.
  intros (F1 & F2 & F3 & F4) HC HO (S1 & S2 & S3 & S4 & S5). unfold render_file, load_file. rewrite F1, F3, S3, Z.eqb_refl. cbn [negb].
  destruct S1 as (R1 & R2 & R3 & R4 & R5 & R6). rewrite R3, Hq. cbn [bind andb]. 
  match goal with |- context [for_ 0 _ _ ?m] => set (m1 := m) end. change (m_boxes m1) with (m_boxes m). rewrite S4.
  set (body := render_box _ _ _ _ _ _).
  pose (I := fun k (m2 : manager R R) => ready m2 /\ m_valid m2 = valid0 /\ m_xs m2 = sf_xs (sheet file) /\ zlen (m_boxes m2) = zlen boxes0 /\
    forall i, 0 <= i < zlen boxes0 -> rendered_pool L skip pool (if i <? k then l ++ [sx file] else l) (zn b0 boxes0 i) (zn b0 (m_boxes m2) i)).
  assert (HI : wp (for_ 0 (zlen boxes0) body m1) (I (zlen boxes0))).
  { apply for_inv; [unfold zlen; lia| |].
    - unfold I, m1, ready. cbn [m_skip m_workers m_q m_unit m_ws m_valid m_xs m_boxes]. split; [auto 10|]. split; [auto|]. split; [auto|]. split; [auto|].
      intros i Hi. replace (i <? 0) with false by lia. auto.
    - intros i m2 Hi (I1 & I2 & I3 & I4 & I5). pose proof (I5 i Hi) as HR. replace (i <? i) with false in HR by lia.
      destruct (HBoxes i Hi) as [HB HP]. destruct (rendered_ok _ _ _ _ _ _ HB HR) as [HB' EB'].
      destruct (F4 i Hi) as (G1 & G2 & G3).
      destruct (render_box_ok file (sheet file) (X file) choose order i m2 I1 ltac:(lia) ltac:(rewrite I2; lia) I3 F2 b0) as (m3 & b' & E & K1 & K2 & K3 & K4 & K5 & K6).
      + exact HB'.
      + rewrite EB'. exact HP.
      + rewrite EB'. exact G1.
      + rewrite EB', I2. exact G2.
      + rewrite EB'. exact G3.
      + auto.
      + auto.
      + unfold body. rewrite E. unfold I. cbn [wp]. split; [exact K1|]. split; [congruence|]. split; [congruence|].
        split; [rewrite K5, zlen_upd; auto|]. intros j Hj. rewrite K5, zn_upd by lia. destruct (Z.eqb_spec j i) as [-> |].
        * replace (i <? i + 1) with true by lia. eapply rendered_trans; eauto.
        * replace (j <? i + 1) with (j <? i) by lia. auto. }
  destruct (for_ 0 (zlen boxes0) body m1) as [m2| | |]; try contradiction. cbn [bind]. exists m2. split; [reflexivity|].
  destruct HI as (I1 & I2 & I3 & I4 & I5). split; [exact I1|]. split; [exact I2|]. split.
  - rewrite I3. pose proof F2 as (_ & _ & _ & _ & E & _). congruence.
  - split; [exact I4|]. intros i Hi. specialize (I5 i Hi). replace (i <? zlen boxes0) with true in I5 by lia. exact I5.
Qed.

Lemma render_files_ok choose order files : (forall k ri id j, 0 <= choose k ri id j < zlen pool) ->
  (forall k ri, Permutation (order k ri) (zseq workers)) -> Forall file_ok files -> forall k l m, state l m ->
  exists m', render_files (ND := RNum) (NF := RNum) (fun x => x) (fun x => x) fs choose order k files m = Ok (Good m') /\ state (l ++ map sx files) m'.
Proof.
  intros HC HO HF. induction HF as [|file files H1 _ IH]; intros k l m HS.
  - exists m. split; [reflexivity|]. cbn. now rewrite app_nil_r.
  - cbn [render_files]. destruct (render_file_ok file (choose k) (order k) l m H1 (HC k) (HO k) HS) as (m1 & E & S1). rewrite E. cbn [bind].
    destruct (IH (k + 1) _ m1 S1) as (m2 & E2 & S2). exists m2. split; [exact E2|]. cbn [map].
    replace (l ++ sx file :: map sx files) with ((l ++ [sx file]) ++ map sx files) by now rewrite <- app_assoc. exact S2.
Qed.
End Passes.

(** Files that are left out would add nothing. *)
Lemma rendered_filter L skip pool (sx : string -> sheet_file R R * list (vec3 R)) keep files b b' :
  (forall file, In file files -> keep file = false -> rendered_pool L skip pool [sx file] b b) ->
  rendered_pool L skip pool (map sx (filter keep files)) b b' -> rendered_pool L skip pool (map sx files) b b'.
Proof.
  intros HK (R1 & R2 & R3 & us & R4 & R5). split; [auto|]. split; [auto|]. split; [auto|].
  assert (G : exists us', Forall2 (fun s ps => uses_of (s_seg (sf_hd (fst s))) skip (units_of pool (rb_pts b)) ps) (map sx files) us' /\
    forall c, in_grid (image_size b) c -> sheets_add L skip b (map sx files) us' c = sheets_add L skip b (map sx (filter keep files)) us c).
  { clear R1 R2 R3 R5. revert us R4. induction files as [|file files IH]; intros us R4.
    - exists us. split; [exact R4|]. auto.
    - cbn [filter map] in *. assert (HK' : forall g, In g files -> keep g = false -> rendered_pool L skip pool [sx g] b b) by (intros; apply HK; [now right|auto]).
      destruct (keep file) eqn:EK.
      + cbn [map] in R4. inversion R4 as [|? ps ? us1 P1 P2]; subst. destruct (IH HK' us1 P2) as (us' & Q1 & Q2).
        exists (ps :: us'). split; [constructor; auto|]. intros c Hc. cbn [map sheets_add]. now rewrite Q2.
      + destruct (IH HK' us R4) as (us' & Q1 & Q2).
        destruct (HK file (or_introl eq_refl) EK) as (_ & _ & _ & us0 & P1 & P2).
        inversion P1 as [|? ps ? us1 P3 P4]; subst. inversion P4; subst. exists (ps :: us'). split; [constructor; auto|].
        intros c Hc. cbn [sheets_add]. rewrite Q2 by auto. specialize (P2 c Hc). cbn [sheets_add] in P2. lra. }
  destruct G as (us' & G1 & G2). exists us'. split; [exact G1|]. intros c Hc. rewrite G2 by auto. auto.
Qed.

(** ** A whole run *)
Lemma max_points_ge boxes b : In b boxes -> rb_pts b <= max_points (D := R) boxes.
Proof.
  unfold max_points.
  assert (G : forall l m, m <= fold_left (fun m b => if rb_pts b >? m then rb_pts b else m) l m /\
    forall b : rbox R, In b l -> rb_pts b <= fold_left (fun m b => if rb_pts b >? m then rb_pts b else m) l m).
  { induction l as [|x l IH]; intros m; cbn [fold_left]; [split; [lia|intros ? []]|].
    destruct (IH (if rb_pts x >? m then rb_pts x else m)) as [I1 I2]. split; [destruct (Z.gtb_spec (rb_pts x) m); lia|].
    intros c [<-|Hc]; [destruct (Z.gtb_spec (rb_pts x) m); lia|auto]. }
  intros H. now apply G.
Qed.

Lemma firstn_map {A B} (g : A -> B) k l : firstn k (map g l) = map g (firstn k l).
Proof. revert l. induction k as [|k IH]; intros [|x l]; cbn; auto. now rewrite IH. Qed.
Lemma firstn_zseq k n : 0 <= k <= n -> firstn (Z.to_nat k) (zseq n) = zseq k.
Proof.
  intros H. unfold zseq. rewrite firstn_map. f_equal. replace (Z.to_nat n) with (Z.to_nat k + (Z.to_nat n - Z.to_nat k))%nat by lia.
  rewrite seq_app, firstn_app, seq_length, Nat.sub_diag, firstn_O, app_nil_r. apply firstn_all2. rewrite seq_length. lia.
Qed.

Lemma unit_bufs_back rnd pts : map back (unit_bufs (NF := RNum) rnd UnitBufCount pts) = unit_pool rnd pts.
Proof. unfold unit_bufs, unit_pool, zseq. rewrite !map_map. apply map_ext. intros i. cbn [back]. rewrite map_map. reflexivity. Qed.

Lemma units_of_pool rnd pts maxP : 0 <= pts <= maxP -> units_of (unit_pool rnd maxP) pts = unit_pool rnd pts.
Proof.
  intros H. unfold units_of, unit_pool. rewrite map_map. apply map_ext. intros bi. unfold distribute_unit. now rewrite firstn_map, firstn_map, firstn_zseq.
Qed.

Lemma pool_good rnd maxP : (forall bi j, unit_cube (rnd bi j)) -> 0 <= maxP ->
  unit_pool rnd maxP <> [] /\ Forall (fun u => zlen u = maxP /\ Forall unit_simplex u) (unit_pool rnd maxP).
Proof.
  intros H Hm. split; [unfold unit_pool; cbn; discriminate|]. unfold unit_pool. rewrite Forall_map. apply Forall_forall. intros bi _. split.
  - unfold distribute_unit, zseq, zlen. rewrite !map_length, seq_length. lia.
  - apply distribute_unit_simplex. rewrite Forall_map. apply Forall_forall. intros j _. apply H.
Qed.

Lemma new_ws q n k : requires_velocity q = Ok false -> 0 <= n -> 0 <= k ->
  forall (boxes : list (rbox R)) (b0 : rbox R), boxes <> [] ->
  exists ws, for_ 0 k (fun _ l => _ <- get boxes 0 ;; b <- new_buffer (ND := RNum) q n ;; Ok (l ++ [b]))%res [] = Ok ws /\ zlen ws = k /\ Forall (scap n) ws.
Proof.
  intros Hq Hn Hk boxes b0 HB.
  assert (HI : wp (for_ 0 k (fun _ l => _ <- get boxes 0 ;; b <- new_buffer (ND := RNum) q n ;; Ok (l ++ [b]))%res []) (fun ws => zlen ws = k /\ Forall (scap n) ws)).
  { apply (for_inv (fun k ws => zlen ws = k /\ Forall (scap n) ws)); [lia|auto|]. intros i l Hi [H1 H2].
    destruct boxes as [|b1 boxes]; [congruence|]. cbn [get Z.ltb Z.compare Z.to_nat nth_error bind].
    assert (E : new_buffer (ND := RNum) q n = Ok (SBuf q (GS (repeat 0%R (Z.to_nat n)) n))).
    { unfold new_buffer, requires_velocity, gmake in *. destruct ((q =? Density) || (q =? DensityGradient))%bool eqn:E.
      - replace (n <? 0) with false by lia. reflexivity.
      - exfalso. destruct ((q =? Velocity) || (q =? VelocityDivergence) || (q =? VelocityCurl))%bool; discriminate. }
    cbn. rewrite E. cbn [bind wp]. rewrite zlen_snoc. split; [lia|]. apply Forall_app. split; [auto|]. constructor; [|constructor].
    exists n. cbn [sbuf back vis]. split; [unfold zlen; rewrite repeat_length; lia|reflexivity]. }
  destruct (for_ 0 k _ []) as [ws| | |]; try contradiction. exists ws. auto.
Qed.

Theorem job_ok L skip q workers rnd choose order fs (sheet : string -> sheet_file R R) X files boxes grid :
  files <> [] -> boxes <> [] -> 1 <= workers -> requires_velocity q = Ok false ->
  (forall bi j, unit_cube (rnd bi j)) -> (forall k ri id j, 0 <= choose k ri id j < 64) ->
  (forall k ri, Permutation (order k ri) (zseq workers)) ->
  Forall (box_ok L) boxes ->
  (forall file, In file files -> fs file = Some (sheet file) /\ sheet_ok L skip (sheet file) (X file) /\
     s_grid (sf_hd (sheet file)) = grid /\
     forall b, In b boxes -> faces_ok L skip b (sheet file) (X file) (unit_pool rnd (rb_pts b))) ->
  exists out, render_job (ND := RNum) (NF := RNum) (fun x => x) (fun x => x) fs workers rnd choose order files boxes q skip = Ok out /\
    Forall2 (fun b b' => rendered L skip (unit_pool rnd (rb_pts b)) (map (fun file => (sheet file, X file)) files) b b') boxes out.
Proof.
  intros HFil HBox HWk Hq HR HC HO HB HF.
  destruct boxes as [|b0 boxes0] eqn:EBX; [congruence|]. rewrite <- EBX in *. clear EBX.
  set (maxP := max_points boxes). set (pool := unit_pool rnd maxP).
  assert (HBi : forall i, 0 <= i < zlen boxes -> In (zn b0 boxes i) boxes) by (intros i Hi; apply nth_In; unfold zlen in Hi; lia).
  assert (HPt : forall b, In b boxes -> 0 <= rb_pts b <= maxP).
  { intros b Hb. split; [|now apply max_points_ge]. rewrite Forall_forall in HB. destruct (HB b Hb) as (_ & _ & ? & _). lia. }
  assert (HM : 0 <= maxP).
  { destruct boxes as [|b1 r]; [congruence|]. specialize (HPt b1 (or_introl eq_refl)). lia. }
  pose proof (pool_good rnd maxP HR HM) as HPool. fold pool in HPool.
  assert (HZ : zlen pool = 64) by reflexivity.
  destruct (scan_all (ND := RNum) (NF := RNum) (fun x => x) fs sheet boxes b0 files (fun g Hg => proj1 (HF g Hg)) (SC (repeat [] (List.length boxes)) [] 0))
    as (s & ES & S1 & S2 & S3 & S4 & S5).
  { cbn [sc_valid]. unfold zlen. now rewrite repeat_length. }
  cbn [sc_valid sc_files sc_max app] in *.
  destruct (new_ws q (sc_max s) workers Hq S3 ltac:(lia) boxes b0 HBox) as (ws & EW & W1 & W2).
  unfold render_job, new_manager. replace (workers <? 0) with false by lia. rewrite ES. cbn [bind].
  destruct files as [|first rest] eqn:EFL; [congruence|]. rewrite <- EFL in *.
  assert (EG : get files 0 = Ok first) by now rewrite EFL.
  assert (HFirst : In first files) by (rewrite EFL; now left).
  clear EFL. rewrite EG. cbn [bind].
  destruct (HF first HFirst) as (G1 & G2 & G3 & _). rewrite G1, G3.
  assert (HGrid : 0 <= grid).
  { destruct G2 as (_ & _ & _ & _ & E & _). rewrite <- G3, <- E. unfold zlen. lia. }
  replace (grid <? 0) with false by lia. rewrite Hq. cbn [bind]. rewrite EW. cbn [bind].
  unfold set_skip. cbn [m_skip].
  assert (EP : power_of_two manager_skip0) by (exists 0; split; [lia|reflexivity]).
  rewrite (proj1 (subsample_ok manager_skip0 skip) EP). cbn [bind]. unfold render_density. cbn [m_files m_xs m_vs m_unit m_skip m_workers m_ws m_boxes m_valid m_q].
  rewrite S2.
  assert (HFaces : forall file i, In file files -> 0 <= i < zlen boxes -> faces_ok L skip (zn b0 boxes i) (sheet file) (X file) (units_of pool (rb_pts (zn b0 boxes i)))).
  { intros file i Hf Hi. destruct (HF file Hf) as (_ & _ & _ & K). unfold pool. rewrite units_of_pool by (apply HPt; auto). apply K. auto. }
  match goal with |- context [render_files _ _ fs choose order 0 ?fl ?m] => set (m0 := m); set (fl0 := fl) end.
  destruct (render_files_ok L skip q workers (sc_max s) maxP pool Hq HWk HPool fs sheet X boxes b0 (sc_valid s) grid) with (choose := choose) (order := order) (files := fl0) (k := 0)
    (l := @nil (sheet_file R R * list (vec3 R))) (m := m0) as (m' & EM & (_ & _ & _ & K4 & K5)).
  - intros i Hi. split; [rewrite Forall_forall in HB; auto|apply HPt; auto].
  - exact S1.
  - rewrite HZ. exact HC.
  - exact HO.
  - apply Forall_forall. intros file Hfl. unfold fl0 in Hfl. apply filter_In in Hfl. destruct Hfl as [Hfl _].
    destruct (HF file Hfl) as (F1 & F2 & F3 & _). split; [exact F1|]. split; [exact F2|]. split; [exact F3|]. intros i Hi. cbv zeta. split; [auto|]. split.
    + rewrite S4 by auto. assert (EI : existsb (String.eqb file) files = true).
      { apply existsb_exists. exists file. split; [auto|apply String.eqb_refl]. }
      rewrite EI. cbn [andb]. replace (existsb (String.eqb file) (zn [] (repeat [] (List.length boxes)) i)) with false; [reflexivity|].
      unfold zn. rewrite nth_repeat. reflexivity.
    + intros w HMt HW. eapply S5; eauto.
  - unfold state, ready, m0. cbn [m_skip m_workers m_q m_unit m_ws m_valid m_xs m_boxes]. split.
    + split; [reflexivity|]. split; [reflexivity|]. split; [reflexivity|]. split; [apply unit_bufs_back|]. split; [exact W1|exact W2].
    + split; [reflexivity|]. split; [unfold zlen; rewrite repeat_length; lia|]. split; [reflexivity|].
      intros i Hi. apply rendered_refl; rewrite Forall_forall in HB; apply HB; auto.
  - rewrite EM. cbn [bind]. eexists. split; [reflexivity|]. cbn [app] in K5.
    assert (KF : forall i, 0 <= i < zlen boxes -> rendered L skip (unit_pool rnd (rb_pts (zn b0 boxes i))) (map (fun file => (sheet file, X file)) files) (zn b0 boxes i) (zn b0 (m_boxes m') i)).
    { intros i Hi. specialize (K5 i Hi). rewrite <- (units_of_pool rnd _ maxP) by (apply HPt; auto). fold pool.
      apply (rendered_filter L skip pool (sx sheet X) (kept (ND := RNum) (NF := RNum) (fun x => x) sheet boxes)); [|exact K5].
      intros file Hfl HK. destruct (HF file Hfl) as (F1 & F2 & F3 & _). apply rendered_skip; auto.
      - rewrite Forall_forall in HB. auto.
      - apply HPool.
      - eapply Forall_impl; [|apply HPool]. cbv beta. tauto.
      - unfold kept in HK. destruct (meetsR (zn b0 boxes i) (sheet file)) eqn:EMt; [|exact EMt].
        exfalso. assert (HK' : existsb (fun b => meetsR b (sheet file)) boxes = true); [|congruence]. apply existsb_exists. exists (zn b0 boxes i). auto. }
    clear - K4 KF. apply (Forall2_zn b0 b0); auto.
Qed.
