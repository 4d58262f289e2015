(** Velocities: all tetrahedra of one sheet, split over workers. *)
From Coq Require Import ZArith List Bool Reals Lra Lia ZifyBool ZifyNat Permutation.
From Flocq Require Import Core.Raux.
From Verif Require Import Base.Res Base.ResFacts Base.Num Model.Geom Model.GridDeriv Model.Box Model.Render Model.SheetIO Model.Manager.
From Verif Require Import Spec.Geometry Spec.GeomDefs Spec.Fields Spec.FieldDefs Spec.Work Spec.Matrix Spec.Deposits Spec.Renders Spec.VelRenders.
From Verif Require Import Proof.GridP Proof.GeomR Proof.SheetScale Proof.SheetCull Proof.SheetFall Proof.SheetFrame Proof.SheetPass Proof.SheetWork Proof.MassP Proof.AddP Proof.DepositP Proof.SumP Proof.WorkP.
Import ListNotations.
Open Scope R_scope.
Local Notation mc_tetraR := (mc_tetra (D := R) (F := R) (ND := RNum) (NF := RNum) (fun x => x)).
Local Notation worker_runR := (worker_run (D := R) (F := R) (ND := RNum) (NF := RNum) (fun x => x)).

Lemma total_app f l l' : total_of f (l ++ l') = total_of f l + total_of f l'.
Proof. unfold total_of. induction l as [|a l IH]; cbn [app fold_right]; lra. Qed.
Lemma total_nil f : total_of f [] = 0.
Proof. reflexivity. Qed.
Lemma total_map f (g : vec3 R -> vec3 R) l : total_of f (map g l) = total_of (fun u => f (g u)) l.
Proof. unfold total_of. induction l as [|a l IH]; cbn [map fold_right]; congruence. Qed.

(** Points that add different amounts. *)
Lemma pick_each w c (G : vec3 R -> vec3 R) (k : vec3 R -> R) l : valid_overlap w -> mergeable w -> thin w -> (forall u, In u l -> placeable w (G u)) ->
  in_grid (image_width w (domCb w)) c ->
  pick w c (fun j => sum 0 (zlen l) (fun i => if lands w (G (nth (Z.to_nat i) l zero3)) j then k (nth (Z.to_nat i) l zero3) else 0)) =
  total_of k (filter (fun u => falls w (G u) c) l).
Proof.
  intros HV HM HT HF HI. induction l as [|p l IH].
  - cbn. apply pick_zero. reflexivity.
  - specialize (IH (fun u Hu => HF u (or_intror Hu))).
    assert (EZ : zlen (p :: l) = (zlen l + 1)%Z) by (unfold zlen; cbn [length]; lia).
    rewrite (pick_ext w c _ (fun j => (if lands w (G p) j then k p else 0) + sum 0 (zlen l) (fun i => if lands w (G (nth (Z.to_nat i) l zero3)) j then k (nth (Z.to_nat i) l zero3) else 0))).
    + rewrite pick_plus, IH, pick_lands by (auto with datatypes). cbn [filter]. destruct (falls w (G p) c); cbn [total_of fold_right]; unfold total_of; lra.
    + intros j _. rewrite EZ, sum_first by (pose proof (zlen_nonneg l); lia). cbn [Z.to_nat nth]. f_equal.
      rewrite <- (sum_shift 0 (zlen l) 1). apply sum_ext. intros i Hi.
      replace (Z.to_nat (i + 1)) with (S (Z.to_nat i)) by lia. reflexivity.
Qed.

(** What one point gives to a component of a vector buffer. *)
Definition piece (v : R) (q : component) (p : vec3 R) : R :=
  match q with VelX => v * v0 p | VelY => v * v1 p | VelZ => v * v2 p | Number => 1 | Value => 0 end.

(** A deposit raises what the image gets by what the points in the cell add. *)
Lemma deposit_vectors w b (G H : vec3 R -> vec3 R) us v : valid_overlap w -> mergeable w -> thin w -> sized b (buffer_size w) -> is_scalar b = false ->
  (forall u, In u us -> placeable w (G u)) ->
  exists b', interpolate (ND := RNum) (NF := RNum) w b (map G us) v (WVector (map H us)) 0 (zlen us) 1 = Ok b' /\ sized b' (buffer_size w) /\ is_scalar b' = false /\
    forall q c, in_grid (image_width w (domCb w)) c ->
      contribution w q b' c = contribution w q b c + total_of (fun u => piece (point_value w v) q (H u)) (filter (fun u => falls w (G u) c) us).
Proof.
  intros HV HM HT HS HSc HP. assert (EL : zlen (map G us) = zlen us) by apply zlen_map.
  destruct (interpolate_ok w b (map G us) v (WVector (map H us))) as (b' & E1 & E2 & E3 & E4 & _); auto.
  { destruct b; [discriminate|]. cbn. rewrite !zlen_map. reflexivity. }
  { rewrite Forall_map, Forall_forall. exact HP. }
  rewrite EL in *. exists b'. split; [auto|]. split; [auto|]. split; [congruence|]. intros q c HC. rewrite !contribution_pick.
  rewrite (pick_ext w c _ (fun j => comp q b j + sum 0 (zlen us) (fun i => if lands w (G (nth (Z.to_nat i) us zero3)) j then piece (point_value w v) q (H (nth (Z.to_nat i) us zero3)) else 0))).
  - rewrite pick_plus. f_equal. apply (pick_each w c G (fun u => piece (point_value w v) q (H u))); auto.
  - intros j Hj. rewrite buffer_size_volume in Hj by auto. rewrite E4 by auto. f_equal. apply sum_ext. intros k Hk.
    assert (EN : forall K : vec3 R -> vec3 R, nth (Z.to_nat k) (map K us) zero3 = K (nth (Z.to_nat k) us zero3)).
    { intros K. rewrite (nth_indep _ zero3 (K zero3)) by (rewrite map_length; unfold zlen in Hk; lia). apply map_nth. }
    rewrite EN. destruct (lands w _ j); [|reflexivity]. destruct b; [discriminate|]. unfold amount, piece. destruct q; try reflexivity; now rewrite EN.
Qed.

Lemma filter_none {A} (P : A -> bool) l : (forall a, In a l -> P a = false) -> filter P l = [].
Proof. intros H. induction l as [|a l IH]; cbn; auto. rewrite (H a) by now left. apply IH. intros; apply H; now right. Qed.

Section Work.
Variables (L : R) (skip : Z) (b : rbox R) (f : sheet_file R R) (X : list (vec3 R)).
Hypothesis HS : sheet_ok L skip f X.
Hypothesis HB : box_ok L b.
Variable w : overlap.
Hypothesis HW : box_overlap (ND := RNum) (NF := RNum) (fun x => x) b (sf_hd f) = Ok w.
Variable units : list (list (vec3 R)).
Hypothesis HU : good_units (rb_pts b) units.
Hypothesis HF : faces_ok L skip b f X units.
Let h := sf_hd f.
Let n := rb_cells b.
Let xcb := sheet_cells (ND := RNum) (NF := RNum) (fun x => x) h n.
Let scaled := scale_xs (D := R) (NF := RNum) (fun x => x) w xcb (rb_cw b * IZR n) (sf_xs f).
Let m := (s_seg h + 1)%Z.
Let vs := sf_vs f.
Hypothesis HVs : zlen vs = s_grid h.

Section Worker.
Variable choose : Z -> Z.
Hypothesis HC : forall k, (0 <= choose k < zlen units)%Z.
Let mc := MC (F := R) w (s_seg h) (rb_pts b) n skip units choose.

Lemma tetra_image c dir v st : cube_room m skip c -> (0 <= dir < 6)%Z ->
  sized (ms_buf st) (buffer_size w) -> is_scalar (ms_buf st) = false ->
  exists us st', In us units /\ mc_tetraR mc true scaled vs v (lattice_index m c) dir st = Ok st' /\
    sized (ms_buf st') (buffer_size w) /\ is_scalar (ms_buf st') = false /\
    forall q c', in_grid (image_size b) c' ->
      contribution w q (ms_buf st') c' = contribution w q (ms_buf st) c' + total_of (piece (point_value w v) q) (use_velocities L b X vs m skip ((c, dir), us) c').
Proof.
  intros HR HD H1 H2. destruct (low_vector L skip b f X HS HB w HW) as [lo Hlo].
  destruct (corner_range skip f c dir HR HD) as (RA & RB & RC & RE). fold h m in RA, RB, RC, RE.
  pose proof (scaled_len L skip b f X HS w) as SL. fold h n xcb scaled m in SL.
  set (us := nth (Z.to_nat (choose (ms_n st))) units []).
  assert (HI : In us units) by (apply nth_In; specialize (HC (ms_n st)); unfold zlen in HC; lia).
  assert (HUS : zlen us = rb_pts b /\ Forall unit_simplex us) by (unfold good_units in HU; rewrite Forall_forall in HU; apply HU; auto).
  destruct HUS as [HUL HUF]. rewrite Forall_forall in HUF.
  exists us. unfold mc_tetra. cbn [mc_seg mc_skip mc_unit mc_choose mc_sub mc_cells mc_points mc]. fold m.
  rewrite tetra_idxs_cells by auto. cbn [bind i0 i1 i2 i3].
  rewrite !(get_ok zero3 scaled) by (rewrite SL; auto). cbn [bind].
  assert (VL : zlen vs = (m * m * m)%Z) by (rewrite HVs; apply HS).
  rewrite !(get_ok zero3 vs) by (rewrite VL; auto). cbn [bind]. unfold zn.
  set (va := nth (Z.to_nat (lattice_index m (cadd c skip (fst (dirs_of dir))))) vs zero3).
  set (vb := nth (Z.to_nat (lattice_index m (cadd c skip (snd (dirs_of dir))))) vs zero3).
  set (vc := nth (Z.to_nat (lattice_index m (cadd c skip (V3 1 1 1)%Z))) vs zero3).
  set (vd := nth (Z.to_nat (lattice_index m c)) vs zero3).
  set (pa := nth _ scaled zero3). set (pb := nth _ scaled zero3). set (pc := nth _ scaled zero3). set (pd := nth _ scaled zero3).
  change (rel_cb mc) with (CB (cb_subtr (domCb w) (bufCb w)) (width (domCb w))). cbn [nofZ RNum].
  destruct (cb_intersect (tetra_cell_bounds (tetra_init (ms_tet st) pa pb pc pd) 1) (CB (cb_subtr (domCb w) (bufCb w)) (width (domCb w))) n) eqn:EM; cbn [negb].
  2:{ eexists. split; [auto|]. split; [reflexivity|]. cbn [ms_buf]. split; [auto|]. split; [auto|]. intros q c' Hc'.
      unfold use_velocities. cbn [fst snd]. rewrite filter_none; [cbn [map]; rewrite total_nil; ring|]. intros u Hu.
      destruct (seen L b (sample X m skip c dir u) c') eqn:ES; auto. exfalso.
      pose proof (seen_meets L skip b f X HS HB w HW lo Hlo c dir u HR HD (HUF u Hu) c' (ms_tet st) Hc' ES) as EM'.
      fold h n xcb scaled m pa pb pc pd in EM'. congruence. }
  rewrite (get_ok []) by auto. cbn [bind]. change (zn [] units (choose (ms_n st))) with us.
  set (t := tetra_init (ms_tet st) pa pb pc pd).
  assert (DC : c0 (snd (tetra_barycenter (NF := RNum) t)) = pa /\ c1 (snd (tetra_barycenter (NF := RNum) t)) = pb /\
    c2 (snd (tetra_barycenter (NF := RNum) t)) = pc /\ c3 (snd (tetra_barycenter (NF := RNum) t)) = pd).
  { unfold tetra_barycenter, t. cbn. auto. }
  unfold distribute_tetra. destruct (tetra_barycenter t) as [ba t'] eqn:EB. cbn [snd] in DC. destruct DC as (C0 & C1 & C2 & C3).
  cbv iota beta.
  assert (EP : map (bary_point t' ba) us = map (fun u => mix u pa pb pc pd) us).
  { apply map_ext. intros u. rewrite bary_point_mix, C0, C1, C2, C3. reflexivity. }
  rewrite EP. destruct (wrap_map mc t' (map (fun u => mix u pa pb pc pd) us)) as (g & -> & Hg).
  assert (HG : forall p a, axis a -> vget (g p) a = vget p a \/ vget p a < 0 /\ vget (g p) a = vget p a + IZR n).
  { intros p a Ha. destruct (Hg p a Ha) as [HG _]. cbn [mc_sub mc] in HG. rewrite (w_cells L b f HB w HW) in HG. exact HG. }
  assert (HG0 : is_seg w = true -> forall p a, axis a -> vget (g p) a = vget p a).
  { intros ES p a Ha. destruct (Hg p a Ha) as [_ HG0]. apply HG0.
    pose proof (corners_in L skip b f X HS HB w HW lo Hlo c dir HR HD a Ha) as CI. fold h n xcb scaled m pa pb pc pd in CI.
    destruct (low_seg L skip b f X HS HB w HW lo Hlo a Ha ES) as [E0 _]. rewrite E0 in CI.
    inversion_clear CI as [|? ? I0 HI1]. inversion_clear HI1 as [|? ? I1 HI2].
    inversion_clear HI2 as [|? ? I2 HI3]. inversion_clear HI3 as [|? ? I3 _].
    unfold coord_neg. rewrite C0, C1, C2, C3. cbn [nltb nofZ RNum]. simpl (IZR 0) in *.
    rewrite !Rlt_bool_false by lra. reflexivity. }
  rewrite map_map.
  assert (HFP : forall u, In u us -> okd w = Segment3D \/ (forall a, axis a -> let y := vget (sample X m skip c dir u) a * IZR n / L in y <> IZR (Zfloor y))).
  { intros u Hu. destruct HF as [(w' & E1 & E2)|HOF].
    - left. rewrite HW in E1. congruence.
    - right. intros a Ha. apply (HOF c dir us u a); auto. }
  assert (HP : Forall (placeable w) (map (fun u => g (mix u pa pb pc pd)) us)).
  { rewrite Forall_map, Forall_forall. intros u Hu.
    apply (wrapped_placeable L skip b f X HS HB w HW lo Hlo c dir u HR HD (HUF u Hu) g HG HG0 (HFP u Hu)). }
  assert (EL : zlen (map (fun u => g (mix u pa pb pc pd)) us) = rb_pts b) by (rewrite <- HUL; unfold zlen; now rewrite map_length).
  set (tv := tetra_init (ms_vtet st) va vb vc vd).
  assert (DV : c0 (snd (tetra_barycenter (NF := RNum) tv)) = va /\ c1 (snd (tetra_barycenter (NF := RNum) tv)) = vb /\
    c2 (snd (tetra_barycenter (NF := RNum) tv)) = vc /\ c3 (snd (tetra_barycenter (NF := RNum) tv)) = vd).
  { unfold tetra_barycenter, tv. cbn. auto. }
  destruct (tetra_barycenter tv) as [bv tv'] eqn:EBV. cbn [snd] in DV. destruct DV as (D0 & D1 & D2 & D3). cbv iota beta.
  assert (EPV : map (vmap (fun x : R => x)) (map (bary_point tv' bv) us) = map (fun u => mix u va vb vc vd) us).
  { rewrite map_map. apply map_ext. intros u. rewrite bary_point_mix, D0, D1, D2, D3. reflexivity. }
  rewrite EPV. rewrite Forall_map, Forall_forall in HP.
  destruct (deposit_vectors w (ms_buf st) (fun u => g (mix u pa pb pc pd)) (fun u => mix u va vb vc vd) us v) as (b' & E1 & E2 & E3 & E4); auto.
  { exact (w_valid L skip b f X HS HB w HW). } { exact (w_mergeable L skip b f X HS HB w HW). } { exact (w_thin L b f HB w HW). }
  rewrite HUL in E1. rewrite E1. cbn [bind]. eexists. split; [auto|]. split; [reflexivity|]. cbn [ms_buf]. split; [auto|]. split; [auto|].
  intros q c' Hc'. rewrite E4 by (rewrite (w_image L b f HB w HW); auto). f_equal. unfold use_velocities. cbn [fst snd].
  rewrite total_map. change (sample vs m skip c dir) with (fun u => mix u va vb vc vd). f_equal. apply filter_ext_in. intros u Hu.
  apply (wrapped_falls L skip b f X HS HB w HW lo Hlo c dir u HR HD g HG HG0).
Qed.

Definition gained (l : list (cell * Z)) v (st st' : mcstate R R) : Prop :=
  sized (ms_buf st') (buffer_size w) /\ is_scalar (ms_buf st') = false /\
  exists ps, map fst ps = l /\ Forall (fun p => In (snd p) units) ps /\
    forall q c', in_grid (image_size b) c' ->
      contribution w q (ms_buf st') c' = contribution w q (ms_buf st) c' + total_of (piece (point_value w v) q) (sheet_velocities L skip b (f, X) ps c').

Lemma gained_app l l' v s1 s2 s3 : gained l v s1 s2 -> gained l' v s2 s3 -> gained (l ++ l') v s1 s3.
Proof.
  intros (_ & _ & ps & A1 & A2 & A3) (B1 & B2 & qs & B3 & B4 & B5). split; [auto|]. split; [auto|]. exists (ps ++ qs).
  split; [rewrite map_app; congruence|]. split; [apply Forall_app; auto|]. intros q c' Hc'. rewrite B5, A3 by auto. unfold sheet_velocities. rewrite flat_map_app, total_app. apply Rplus_assoc.
Qed.
Lemma gained_nil v st : sized (ms_buf st) (buffer_size w) -> is_scalar (ms_buf st) = false -> gained [] v st st.
Proof. intros H1 H2. split; [auto|]. split; [auto|]. exists []. split; [auto|]. split; [auto|]. intros. cbn [sheet_velocities flat_map]. rewrite total_nil. ring. Qed.

Lemma cell_image c v st : cube_room m skip c -> sized (ms_buf st) (buffer_size w) -> is_scalar (ms_buf st) = false ->
  exists st', for_ 0 6 (fun dir st => mc_tetraR mc true scaled vs v (lattice_index m c) dir st) st = Ok st' /\
    gained (list_prod [c] (zseq 6)) v st st'.
Proof.
  intros HR H1 H2. apply wp_ok.
  refine (for_inv (fun k st' => gained (list_prod [c] (zseq k)) v st st') 0 6 _ st _ _ _)%Z; [lia| |].
  - apply gained_nil; auto.
  - intros d s1 Hd HG. apply wp_ok. assert (HG' := HG). destruct HG' as (K1 & K2 & _).
    destruct (tetra_image c d v s1 HR Hd K1 K2) as (us & s2 & E0 & E1 & E2 & E3 & E4). exists s2. split; [exact E1|].
    rewrite zseq_snoc by lia. replace (list_prod [c] (zseq d ++ [d])) with (list_prod [c] (zseq d) ++ [(c, d)])
      by (cbn [list_prod]; rewrite !app_nil_r, map_app; reflexivity).
    eapply gained_app; [exact HG|]. split; [auto|]. split; [auto|]. exists [((c, d), us)]. split; [auto|]. split; [auto|].
    intros q c' Hc'. rewrite E4 by auto. unfold sheet_velocities. cbn [flat_map fst snd]. now rewrite app_nil_r.
Qed.

Lemma list_image l v : (forall c, In c l -> cube_room m skip c) -> forall st,
  sized (ms_buf st) (buffer_size w) -> is_scalar (ms_buf st) = false ->
  exists st', each l (fun c st => for_ 0 6 (fun dir st => mc_tetraR mc true scaled vs v (lattice_index m c) dir st) st) st = Ok st' /\
    gained (list_prod l (zseq 6)) v st st'.
Proof.
  induction l as [|c l IH]; intros HR st H1 H2; cbn [each].
  - exists st. split; [auto|]. apply gained_nil; auto.
  - destruct (cell_image c v st) as (s1 & E1 & G1); auto with datatypes. rewrite E1. cbn [bind].
    destruct (IH ltac:(intros; apply HR; now right) s1) as (s2 & E2 & G2); try apply G1.
    exists s2. split; [auto|]. replace (list_prod (c :: l) (zseq 6)) with (list_prod [c] (zseq 6) ++ list_prod l (zseq 6))
      by (cbn [list_prod]; now rewrite app_nil_r).
    eapply gained_app; eauto.
Qed.

Lemma piece_adds q p : piece (point_value w (scaled_val (D := R) (F := R) (ND := RNum) mc true (pt_val (ND := RNum) true n (s_count h)))) q p = gives (box_depth b) q p.
Proof.
  unfold scaled_val, pt_val. cbn [nofZ RNum].
  assert (E : point_value w 1 = / IZR (box_depth b)).
  { unfold point_value, box_depth.
    destruct (overlap_cases L b f HB w HW) as [(-> & [-> | ->])|(d & -> & Hq & [-> | ->])]; cbn [okd oproj domCb bufCb].
    - simpl (IZR 1). cbn. field.
    - cbn. field.
    - destruct (image_axes d) as [[i j] e]. unfold Rdiv. apply Rmult_1_l.
    - destruct (image_axes d) as [[i j] e]. unfold Rdiv. apply Rmult_1_l. }
  simpl (IZR 1). rewrite E. unfold piece, gives, Rdiv. destruct q; auto using Rmult_comm.
Qed.

Lemma worker_image workers id buf : (0 <= id < workers)%Z -> sized buf (buffer_size w) -> is_scalar buf = false ->
  exists o ps, worker_runR mc true (s_count h) workers id buf scaled vs = Ok o /\ sized o (buffer_size w) /\ is_scalar o = false /\
    map fst ps = list_prod (worker_list (s_seg h / skip) skip workers id) (zseq 6) /\ Forall (fun p => In (snd p) units) ps /\
    forall q c', in_grid (image_size b) c' ->
      contribution w q o c' = contribution w q buf c' + total_of (gives (box_depth b) q) (sheet_velocities L skip b (f, X) ps c').
Proof.
  intros Hid H1 H2. assert (HSk : (0 < skip <= s_seg h)%Z) by apply HS. assert (Hcw : (0 < s_count h)%Z) by apply HS.
  rewrite worker_run_list by (auto; exact HSk). cbn [mc_seg mc_skip mc].
  assert (HN : (0 < s_seg h / skip)%Z) by (apply Z.div_str_pos; lia).
  destruct (list_image (worker_list (s_seg h / skip) skip workers id)
    (scaled_val (D := R) (F := R) (ND := RNum) mc true (pt_val (ND := RNum) true n (s_count h)))) with (st := MS (D := R) buf 0 (tetra_zero (NF := RNum)) (tetra_zero (NF := RNum)))
    as (s' & E1 & E2 & E3 & ps & E4 & E5 & E6); auto.
  { intros c Hc. apply base_cell_room; auto. eapply Permutation_in; [apply (workers_partition (s_seg h / skip) skip workers); lia|].
    rewrite in_flat_map. exists id. rewrite in_zseq. auto. }
  fold m. change (mc_cells mc) with n. rewrite E1. cbn [bind]. exists (ms_buf s'), ps. repeat (split; [solve [auto]|]).
  intros q c' Hc'. rewrite E6 by auto. cbn [ms_buf]. f_equal. unfold total_of. induction (sheet_velocities L skip b (f, X) ps c') as [|p l IH]; [reflexivity|].
  cbn [fold_right]. now rewrite IH, piece_adds.
Qed.
End Worker.
End Work.
