(** All tetrahedra of one sheet, split over workers. *)
From Coq Require Import ZArith List Bool Reals Lra Lia ZifyBool ZifyNat Permutation.
From Flocq Require Import Core.Raux.
From Verif Require Import Base.Res Base.ResFacts Base.Num Model.Geom Model.GridDeriv Model.Box Model.Render Model.SheetIO Model.Manager.
From Verif Require Import Spec.Geometry Spec.GeomDefs Spec.Fields Spec.FieldDefs Spec.Work Spec.Deposits Spec.Renders.
From Verif Require Import Proof.GridP Proof.GeomR Proof.SheetScale Proof.SheetCull Proof.SheetFall Proof.SheetFrame Proof.SheetPass Proof.MassP Proof.AddP Proof.WorkP.
Import ListNotations.
Open Scope R_scope.
Local Notation mc_tetraR := (mc_tetra (D := R) (F := R) (ND := RNum) (NF := RNum) (fun x => x)).
Local Notation worker_runR := (worker_run (D := R) (F := R) (ND := RNum) (NF := RNum) (fun x => x)).

Lemma filter_map_zlen {A B} (g : A -> B) (P : B -> bool) l : zlen (filter P (map g l)) = zlen (filter (fun a => P (g a)) l).
Proof. unfold zlen. induction l as [|a l IH]; cbn; auto. destruct (P (g a)); cbn [length]; lia. Qed.
Lemma filter_ext_zlen {A} (P Q : A -> bool) l : (forall a, In a l -> P a = Q a) -> zlen (filter P l) = zlen (filter Q l).
Proof.
  intros H. unfold zlen. induction l as [|a l IH]; cbn; auto. rewrite (H a) by now left.
  assert (IH' := IH (fun a Ha => H a (or_intror Ha))). destruct (Q a); cbn [length]; lia.
Qed.
Lemma filter_none_zlen {A} (P : A -> bool) l : (forall a, In a l -> P a = false) -> zlen (filter P l) = 0%Z.
Proof. intros H. unfold zlen. induction l as [|a l IH]; cbn; auto. rewrite (H a) by now left. apply IH. intros; apply H; now right. Qed.

Lemma low_vector L skip b f X (HS : sheet_ok L skip f X) (HB : box_ok L b) w
  (HW : box_overlap (ND := RNum) (NF := RNum) (fun x => x) b (sf_hd f) = Ok w) :
  let xcb := sheet_cells (ND := RNum) (NF := RNum) (fun x => x) (sf_hd f) (rb_cells b) in
  exists lo : vec3 Z, forall a, axis a -> low_ok b w a (vget lo a) /\
  (exists K, vget lo a - vget (origin xcb) a + vget (origin (bufCb w)) a = K * rb_cells b)%Z /\
  forall x X0, 0 <= x < L -> vget (s_origin (sf_hd f)) a <= X0 <= vget (s_origin (sf_hd f)) a + vget (s_width (sf_hd f)) a -> rcong L X0 x ->
    scaled1 L b f w a x = (IZR (rb_cells b) / L) * X0 + IZR (vget lo a - vget (origin xcb) a) /\
    IZR (vget lo a) <= scaled1 L b f w a x < IZR (vget lo a + vget (width xcb) a).
Proof.
  cbv zeta. destruct (low_exists L skip b f X HS HB w HW 0%Z axis0) as [l0 H0].
  destruct (low_exists L skip b f X HS HB w HW 1%Z axis1) as [l1 H1]. destruct (low_exists L skip b f X HS HB w HW 2%Z axis2) as [l2 H2].
  exists (V3 l0 l1 l2). intros a Ha. apply axis_cases in Ha. destruct Ha as [-> |[-> | ->]]; [exact H0|exact H1|exact H2].
Qed.

Section Work.
Variables (L : R) (skip : Z) (b : rbox R) (f : sheet_file R R) (X : list (vec3 R)).
Hypothesis HS : sheet_ok L skip f X.
Hypothesis HB : box_ok L b.
Variable w : overlap.
Hypothesis HW : box_overlap (ND := RNum) (NF := RNum) (fun x => x) b (sf_hd f) = Ok w.
Variable units : list (list (vec3 R)).
Hypothesis HU : good_units (rb_pts b) units.
Hypothesis HF : faces_ok L skip b f X units.
Let h := sf_hd f.
Let n := rb_cells b.
Let xcb := sheet_cells (ND := RNum) (NF := RNum) (fun x => x) h n.
Let scaled := scale_xs (D := R) (NF := RNum) (fun x => x) w xcb (rb_cw b * IZR n) (sf_xs f).
Let m := (s_seg h + 1)%Z.
Variable vs : list (vec3 R).

Section Worker.
Variable choose : Z -> Z.
Hypothesis HC : forall k, (0 <= choose k < zlen units)%Z.
Let mc := MC (F := R) w (s_seg h) (rb_pts b) n skip units choose.

Lemma tetra_image c dir v st : cube_room m skip c -> (0 <= dir < 6)%Z ->
  sized (ms_buf st) (buffer_size w) -> is_scalar (ms_buf st) = true ->
  exists us st', In us units /\ mc_tetraR mc false scaled vs v (lattice_index m c) dir st = Ok st' /\
    sized (ms_buf st') (buffer_size w) /\ is_scalar (ms_buf st') = true /\
    forall c', in_grid (image_size b) c' ->
      contribution w Value (ms_buf st') c' = contribution w Value (ms_buf st) c' + IZR (hits L b X m skip ((c, dir), us) c') * point_value w v.
Proof.
  intros HR HD H1 H2. destruct (low_vector L skip b f X HS HB w HW) as [lo Hlo].
  destruct (corner_range skip f c dir HR HD) as (RA & RB & RC & RE). fold h m in RA, RB, RC, RE.
  pose proof (scaled_len L skip b f X HS w) as SL. fold h n xcb scaled m in SL.
  set (us := nth (Z.to_nat (choose (ms_n st))) units []).
  assert (HI : In us units) by (apply nth_In; specialize (HC (ms_n st)); unfold zlen in HC; lia).
  assert (HUS : zlen us = rb_pts b /\ Forall unit_simplex us) by (unfold good_units in HU; rewrite Forall_forall in HU; apply HU; auto).
  destruct HUS as [HUL HUF]. rewrite Forall_forall in HUF.
  exists us. unfold mc_tetra. cbn [mc_seg mc_skip mc_unit mc_choose mc_sub mc_cells mc_points mc]. fold m.
  rewrite tetra_idxs_cells by auto. cbn [bind i0 i1 i2 i3].
  rewrite !(get_ok zero3) by (rewrite SL; auto). cbn [bind]. unfold zn.
  set (pa := nth _ scaled zero3). set (pb := nth _ scaled zero3). set (pc := nth _ scaled zero3). set (pd := nth _ scaled zero3).
  change (rel_cb mc) with (CB (cb_subtr (domCb w) (bufCb w)) (width (domCb w))). cbn [nofZ RNum].
  destruct (cb_intersect (tetra_cell_bounds (tetra_init (ms_tet st) pa pb pc pd) 1) (CB (cb_subtr (domCb w) (bufCb w)) (width (domCb w))) n) eqn:EM; cbn [negb].
  2:{ eexists. split; [auto|]. split; [reflexivity|]. cbn [ms_buf]. split; [auto|]. split; [auto|]. intros c' Hc'.
      unfold hits. cbn [fst snd]. rewrite filter_none_zlen; [simpl; ring|]. intros u Hu.
      destruct (seen L b (sample X m skip c dir u) c') eqn:ES; auto. exfalso.
      pose proof (seen_meets L skip b f X HS HB w HW lo Hlo c dir u HR HD (HUF u Hu) c' (ms_tet st) Hc' ES) as EM'.
      fold h n xcb scaled m pa pb pc pd in EM'. congruence. }
  rewrite (get_ok []) by auto. cbn [bind]. change (zn [] units (choose (ms_n st))) with us.
  set (t := tetra_init (ms_tet st) pa pb pc pd).
  assert (DC : c0 (snd (tetra_barycenter (NF := RNum) t)) = pa /\ c1 (snd (tetra_barycenter (NF := RNum) t)) = pb /\
    c2 (snd (tetra_barycenter (NF := RNum) t)) = pc /\ c3 (snd (tetra_barycenter (NF := RNum) t)) = pd).
  { unfold tetra_barycenter, t. cbn. auto. }
  unfold distribute_tetra. destruct (tetra_barycenter t) as [ba t'] eqn:EB. cbn [snd] in DC. destruct DC as (C0 & C1 & C2 & C3).
  cbv iota beta.
  assert (EP : map (bary_point t' ba) us = map (fun u => mix u pa pb pc pd) us).
  { apply map_ext. intros u. rewrite bary_point_mix, C0, C1, C2, C3. reflexivity. }
  rewrite EP. destruct (wrap_map mc t' (map (fun u => mix u pa pb pc pd) us)) as (g & -> & Hg).
  assert (HG : forall p a, axis a -> vget (g p) a = vget p a \/ vget p a < 0 /\ vget (g p) a = vget p a + IZR n).
  { intros p a Ha. destruct (Hg p a Ha) as [HG _]. cbn [mc_sub mc] in HG. rewrite (w_cells L b f HB w HW) in HG. exact HG. }
  assert (HG0 : is_seg w = true -> forall p a, axis a -> vget (g p) a = vget p a).
  { intros ES p a Ha. destruct (Hg p a Ha) as [_ HG0]. apply HG0.
    pose proof (corners_in L skip b f X HS HB w HW lo Hlo c dir HR HD a Ha) as CI. fold h n xcb scaled m pa pb pc pd in CI.
    destruct (low_seg L skip b f X HS HB w HW lo Hlo a Ha ES) as [E0 _]. rewrite E0 in CI.
    inversion_clear CI as [|? ? I0 HI1]. inversion_clear HI1 as [|? ? I1 HI2].
    inversion_clear HI2 as [|? ? I2 HI3]. inversion_clear HI3 as [|? ? I3 _].
    unfold coord_neg. rewrite C0, C1, C2, C3. cbn [nltb nofZ RNum]. simpl (IZR 0) in *.
    rewrite !Rlt_bool_false by lra. reflexivity. }
  rewrite map_map.
  assert (HFP : forall u, In u us -> okd w = Segment3D \/ (forall a, axis a -> let y := vget (sample X m skip c dir u) a * IZR n / L in y <> IZR (Zfloor y))).
  { intros u Hu. destruct HF as [(w' & E1 & E2)|HOF].
    - left. rewrite HW in E1. congruence.
    - right. intros a Ha. apply (HOF c dir us u a); auto. }
  assert (HP : Forall (placeable w) (map (fun u => g (mix u pa pb pc pd)) us)).
  { rewrite Forall_map, Forall_forall. intros u Hu.
    apply (wrapped_placeable L skip b f X HS HB w HW lo Hlo c dir u HR HD (HUF u Hu) g HG HG0 (HFP u Hu)). }
  assert (EL : zlen (map (fun u => g (mix u pa pb pc pd)) us) = rb_pts b) by (rewrite <- HUL; unfold zlen; now rewrite map_length).
  destruct (deposit_image w (ms_buf st) (map (fun u => g (mix u pa pb pc pd)) us) v) as (b' & E1 & E2 & E3 & E4); auto.
  { exact (w_valid L skip b f X HS HB w HW). } { exact (w_mergeable L skip b f X HS HB w HW). } { exact (w_thin L b f HB w HW). }
  rewrite EL in E1. rewrite E1. cbn [bind]. eexists. split; [auto|]. split; [reflexivity|]. cbn [ms_buf]. split; [auto|]. split; [auto|].
  intros c' Hc'. rewrite E4 by (rewrite (w_image L b f HB w HW); auto). do 3 f_equal. unfold hits, count. cbn [fst snd].
  rewrite (filter_map_zlen (fun u => g (mix u pa pb pc pd)) (fun p => falls w p c')). apply filter_ext_zlen. intros u Hu.
  apply (wrapped_falls L skip b f X HS HB w HW lo Hlo c dir u HR HD g HG HG0).
Qed.

Lemma all_hits_app ps qs c : all_hits L b X m skip (ps ++ qs) c = (all_hits L b X m skip ps c + all_hits L b X m skip qs c)%Z.
Proof. unfold all_hits. rewrite map_app. induction (map (fun p => hits L b X m skip p c) ps) as [|a l IH]; cbn [app fold_right]; lia. Qed.

Definition gained (l : list (cell * Z)) v (st st' : mcstate R R) : Prop :=
  sized (ms_buf st') (buffer_size w) /\ is_scalar (ms_buf st') = true /\
  exists ps, map fst ps = l /\ Forall (fun p => In (snd p) units) ps /\
    forall c', in_grid (image_size b) c' ->
      contribution w Value (ms_buf st') c' = contribution w Value (ms_buf st) c' + IZR (all_hits L b X m skip ps c') * point_value w v.

Lemma gained_app l l' v s1 s2 s3 : gained l v s1 s2 -> gained l' v s2 s3 -> gained (l ++ l') v s1 s3.
Proof.
  intros (_ & _ & ps & A1 & A2 & A3) (B1 & B2 & qs & B3 & B4 & B5). split; [auto|]. split; [auto|]. exists (ps ++ qs).
  split; [rewrite map_app; congruence|]. split; [apply Forall_app; auto|]. intros c' Hc'. rewrite B5, A3, all_hits_app, plus_IZR by auto. lra.
Qed.
Lemma gained_nil v st : sized (ms_buf st) (buffer_size w) -> is_scalar (ms_buf st) = true -> gained [] v st st.
Proof. intros H1 H2. split; [auto|]. split; [auto|]. exists []. split; [auto|]. split; [auto|]. intros. unfold all_hits. simpl. ring. Qed.

Lemma cell_image c v st : cube_room m skip c -> sized (ms_buf st) (buffer_size w) -> is_scalar (ms_buf st) = true ->
  exists st', for_ 0 6 (fun dir st => mc_tetraR mc false scaled vs v (lattice_index m c) dir st) st = Ok st' /\
    gained (list_prod [c] (zseq 6)) v st st'.
Proof.
  intros HR H1 H2. apply wp_ok.
  refine (for_inv (fun k st' => gained (list_prod [c] (zseq k)) v st st') 0 6 _ st _ _ _)%Z; [lia| |].
  - apply gained_nil; auto.
  - intros d s1 Hd HG. apply wp_ok. assert (HG' := HG). destruct HG' as (K1 & K2 & _).
    destruct (tetra_image c d v s1 HR Hd K1 K2) as (us & s2 & E0 & E1 & E2 & E3 & E4). exists s2. split; [exact E1|].
    rewrite zseq_snoc by lia. replace (list_prod [c] (zseq d ++ [d])) with (list_prod [c] (zseq d) ++ [(c, d)])
      by (cbn [list_prod]; rewrite !app_nil_r, map_app; reflexivity).
    eapply gained_app; [exact HG|]. split; [auto|]. split; [auto|]. exists [((c, d), us)]. split; [auto|]. split; [auto|].
    intros c' Hc'. rewrite E4 by auto. unfold all_hits. cbn [map fold_right]. now rewrite Z.add_0_r.
Qed.

Lemma list_image l v : (forall c, In c l -> cube_room m skip c) -> forall st,
  sized (ms_buf st) (buffer_size w) -> is_scalar (ms_buf st) = true ->
  exists st', each l (fun c st => for_ 0 6 (fun dir st => mc_tetraR mc false scaled vs v (lattice_index m c) dir st) st) st = Ok st' /\
    gained (list_prod l (zseq 6)) v st st'.
Proof.
  induction l as [|c l IH]; intros HR st H1 H2; cbn [each].
  - exists st. split; [auto|]. apply gained_nil; auto.
  - destruct (cell_image c v st) as (s1 & E1 & G1); auto with datatypes. rewrite E1. cbn [bind].
    destruct (IH ltac:(intros; apply HR; now right) s1) as (s2 & E2 & G2); try apply G1.
    exists s2. split; [auto|]. replace (list_prod (c :: l) (zseq 6)) with (list_prod [c] (zseq 6) ++ list_prod l (zseq 6))
      by (cbn [list_prod]; now rewrite app_nil_r).
    eapply gained_app; eauto.
Qed.

Lemma sample_value_ok : (0 < s_count h)%Z ->
  point_value w (scaled_val (D := R) (F := R) (ND := RNum) mc false (pt_val (ND := RNum) false n (s_count h))) = sample_value b (s_count h) skip.
Proof.
  intros Hc. pose proof (n_ge L b HB) as Hn. assert (HP : (0 < rb_pts b)%Z) by apply HB.
  assert (EV : scaled_val (D := R) (F := R) (ND := RNum) mc false (pt_val (ND := RNum) false n (s_count h)) =
    (IZR (rb_cells b) / IZR (s_count h)) ^ 3 * IZR skip ^ 3 / 6 / IZR (rb_pts b)).
  { unfold scaled_val, pt_val. cbn [nmul ndiv nofZ RNum mc_points mc_skip mc]. rewrite !mult_IZR. unfold n.
    assert (IZR (rb_pts b) <> 0) by (apply not_0_IZR; lia). assert (IZR (s_count h) <> 0) by (apply not_0_IZR; lia).
    field. auto. }
  unfold sample_value. rewrite EV. unfold point_value, box_depth.
  destruct (overlap_cases L b f HB w HW) as [(-> & [-> | ->])|(q & -> & Hq & [-> | ->])]; cbn [okd oproj domCb bufCb].
  - simpl (IZR 1). cbn. field. split; apply not_0_IZR; lia.
  - cbn. field. split; apply not_0_IZR; lia.
  - destruct (image_axes q) as [[i j] d]. reflexivity.
  - destruct (image_axes q) as [[i j] d]. reflexivity.
Qed.

Lemma worker_image workers id buf : (0 <= id < workers)%Z -> sized buf (buffer_size w) -> is_scalar buf = true ->
  exists o ps, worker_runR mc false (s_count h) workers id buf scaled vs = Ok o /\ sized o (buffer_size w) /\ is_scalar o = true /\
    map fst ps = list_prod (worker_list (s_seg h / skip) skip workers id) (zseq 6) /\ Forall (fun p => In (snd p) units) ps /\
    forall c', in_grid (image_size b) c' ->
      contribution w Value o c' = contribution w Value buf c' + sample_value b (s_count h) skip * IZR (all_hits L b X m skip ps c').
Proof.
  intros Hid H1 H2. assert (HSk : (0 < skip <= s_seg h)%Z) by apply HS. assert (Hcw : (0 < s_count h)%Z) by apply HS.
  rewrite worker_run_list by (auto; exact HSk). cbn [mc_seg mc_skip mc].
  assert (HN : (0 < s_seg h / skip)%Z) by (apply Z.div_str_pos; lia).
  destruct (list_image (worker_list (s_seg h / skip) skip workers id)
    (scaled_val (D := R) (F := R) (ND := RNum) mc false (pt_val (ND := RNum) false n (s_count h)))) with (st := MS (D := R) buf 0 (tetra_zero (NF := RNum)) (tetra_zero (NF := RNum)))
    as (s' & E1 & E2 & E3 & ps & E4 & E5 & E6); auto.
  { intros c Hc. apply base_cell_room; auto. eapply Permutation_in; [apply (workers_partition (s_seg h / skip) skip workers); lia|].
    rewrite in_flat_map. exists id. rewrite in_zseq. auto. }
  fold m. change (mc_cells mc) with n. rewrite E1. cbn [bind]. exists (ms_buf s'), ps. repeat (split; [solve [auto]|]).
  intros c' Hc'. rewrite E6, sample_value_ok by auto. cbn [ms_buf]. lra.
Qed.
End Worker.
End Work.
