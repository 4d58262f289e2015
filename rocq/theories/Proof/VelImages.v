(** Velocities: the images a run ends with. *)
From Coq Require Import ZArith String List Bool Reals Lra Lia ZifyBool ZifyNat Permutation.
From Verif Require Import Base.Res Base.ResFacts Base.Num Model.Geom Model.GridDeriv Model.Density Model.Box Model.Render Model.SheetIO Model.Manager.
From Verif Require Import Spec.Geometry Spec.GeomDefs Spec.Fields Spec.FieldDefs Spec.Work Spec.Deposits Spec.Workspace Spec.Renders Spec.VelRenders.
From Verif Require Import Proof.GridDerivP Proof.ImageP Proof.MassP Proof.SheetPass Proof.WorkP Proof.ManagerBox Proof.ManagerP Proof.VelWork Proof.VelBox Proof.VelP Proof.RenderMainP.
Import ListNotations.
Open Scope R_scope.

Lemma Forall2_imp {A B} (P Q : A -> B -> Prop) l m : (forall a b, P a b -> Q a b) -> Forall2 P l m -> Forall2 Q l m.
Proof. intros H. induction 1; constructor; auto. Qed.
Lemma total_number d l : total_of (gives d Number) l = IZR (zlen l).
Proof.
  induction l as [|v l IH]; [reflexivity|]. change (total_of (gives d Number) (v :: l)) with (1 + total_of (gives d Number) l). rewrite IH.
  unfold zlen. cbn [List.length]. rewrite Nat2Z.inj_succ, succ_IZR. ring.
Qed.
Lemma total_div f d l : total_of (fun v => f v / IZR d) l = total_of f l / IZR d.
Proof. unfold total_of. induction l as [|v l IH]; cbn [fold_right]; [unfold Rdiv; ring|]. rewrite IH. unfold Rdiv. ring. Qed.

Lemma depth_pos L b : vel_box_ok L b -> (0 < box_depth b)%Z.
Proof.
  intros (_ & _ & _ & H & HP & _). unfold box_depth. destruct (rb_proj b) as [p|]; [|lia].
  unfold image_axes. destruct p as [|[]|]; try lia; apply H; cbn; auto.
Qed.

Lemma averages_images L skip units l b b' vecs num out : vel_box_ok L b -> empty_vectors b ->
  vel_rendered L skip units l b b' -> rb_vals b' = Vector vecs num -> averages_of vecs num out -> mean_images L skip units l b out.
Proof.
  intros HB HE (_ & R2 & R3 & us & R4 & R5) EV HO. rewrite EV in *. cbn [sized] in R2. destruct R2 as [HV HN].
  exists us. split; [exact R4|]. intros c Hc.
  pose proof (cell_index_range _ _ Hc) as HR. pose proof (depth_pos L b HB) as HD.
  destruct HO as (_ & _ & _ & HO). specialize (HO (cell_index (image_size b) c) ltac:(lia)). cbv zeta in *. 
  set (k := Z.to_nat (cell_index (image_size b) c)) in *. set (vs := cell_velocities L skip b l us c).
  assert (E0 : forall q, comp q (rb_vals b) (cell_index (image_size b) c) = 0).
  { intros q. unfold empty_vectors in HE. rewrite HE. unfold comp. fold k.
    assert (Hk : (k < Z.to_nat (volume (image_size b)))%nat) by (unfold k; lia).
    destruct q; try reflexivity; rewrite ?nth_repeat; try (rewrite (nth_indep _ _ (V3 0 0 0)) by (rewrite repeat_length; exact Hk); rewrite nth_repeat; reflexivity); reflexivity. }
  pose proof (R5 Number c Hc) as CN. pose proof (R5 VelX c Hc) as CX. pose proof (R5 VelY c Hc) as CY. pose proof (R5 VelZ c Hc) as CZ.
  rewrite E0 in CN, CX, CY, CZ. rewrite Rplus_0_l in CN, CX, CY, CZ. fold vs in CN, CX, CY, CZ. cbn [comp] in CN, CX, CY, CZ. fold k in CN, CX, CY, CZ.
  rewrite total_number in CN. apply eq_IZR in CN. 
  change (gives (box_depth b) VelX) with (fun v => v0 v / IZR (box_depth b)) in CX. change (gives (box_depth b) VelY) with (fun v => v1 v / IZR (box_depth b)) in CY.
  change (gives (box_depth b) VelZ) with (fun v => v2 v / IZR (box_depth b)) in CZ. rewrite total_div in CX, CY, CZ.
  change Deposits.zero3 with (V3 0 0 0) in *. rewrite CN, CX, CY, CZ in HO. destruct HO as (O0 & O1 & O2). rewrite O0, O1, O2.
  assert (G : forall f : vec3 R -> R, average (total_of f vs / IZR (box_depth b)) (zlen vs) = match vs with [] => 0 | _ => mean_of f vs / IZR (box_depth b) end).
  { intros f. unfold average. destruct vs as [|v r] eqn:Er; [reflexivity|]. replace (zlen (v :: r) =? 0)%Z with false by (unfold zlen; cbn [List.length]; lia).
    unfold mean_of. field. split; apply not_0_IZR; [unfold zlen; cbn [List.length]; lia|lia]. }
  auto.
Qed.

Lemma rendered_images L skip units l b b' : vel_box_ok L b -> empty_vectors b -> (30 <= volume (image_size b))%Z ->
  vel_rendered L skip units l b b' ->
  exists vecs num out, rb_vals b' = Vector vecs num /\ finalized_velocity (D := R) (F := R) (NF := RNum) (fun x => x) vecs num = Ok out /\
    mean_images L skip units l b out.
Proof.
  intros HB HE H30 HR. pose proof HR as (_ & R2 & R3 & _). destruct (rb_vals b') as [|vecs num] eqn:EV; [discriminate|]. cbn [sized] in R2. destruct R2 as [HV HN].
  destruct (velocity_averages vecs num) as (out & EO & HO); [lia|lia|].
  exists vecs, num, out. split; [reflexivity|]. split; [exact EO|]. exact (averages_images L skip units l b b' vecs num out HB HE HR EV HO).
Qed.

Theorem images_ok L skip q workers rnd choose order fs (sheet : string -> sheet_file R R) X files boxes grid :
  files <> [] -> boxes <> [] -> (1 <= workers)%Z -> requires_velocity q = Ok true ->
  (forall bi j, unit_cube (rnd bi j)) -> (forall k ri id j, (0 <= choose k ri id j < 64)%Z) ->
  (forall k ri, Permutation (order k ri) (zseq workers)) ->
  Forall (fun b => vel_box_ok L b /\ empty_vectors b /\ (30 <= volume (image_size b))%Z) boxes ->
  (forall file, In file files -> fs file = Some (sheet file) /\ vel_sheet_ok L skip (sheet file) (X file) /\
     s_grid (sf_hd (sheet file)) = grid /\
     forall b, In b boxes -> faces_ok L skip b (sheet file) (X file) (unit_pool rnd (rb_pts b))) ->
  exists bs, render_job (ND := RNum) (NF := RNum) (fun x => x) (fun x => x) fs workers rnd choose order files boxes q skip = Ok bs /\
    Forall2 (fun b b' => exists vecs num out, rb_vals b' = Vector vecs num /\
      finalized_velocity (D := R) (F := R) (NF := RNum) (fun x => x) vecs num = Ok out /\
      mean_images L skip (unit_pool rnd (rb_pts b)) (map (fun file => (sheet file, X file)) files) b out) boxes bs.
Proof.
  intros H1 H2 H3 H4 H5 H6 H7 HB HF.
  destruct (VelP.job_ok L skip q workers rnd choose order fs sheet X files boxes grid) as (bs & E & R); auto.
  { eapply Forall_impl; [|exact HB]. cbv beta. tauto. }
  exists bs. split; [exact E|]. clear - HB R. revert HB. induction R as [|b b' l l' H R IH]; intros HB; constructor; inversion_clear HB as [|? ? (B1 & B2 & B3) HB'].
  - now apply (rendered_images L skip _ _ b b').
  - auto.
Qed.

(** ** Uniform motion *)
Lemma sample_uniform V seg skip c dir u v : cube_room (seg + 1) skip c -> (0 <= dir < 6)%Z -> zlen V = ((seg + 1) * (seg + 1) * (seg + 1))%Z -> Forall (eq v) V ->
  sample V (seg + 1) skip c dir u = v.
Proof.
  intros HR HD HL HV.
  destruct (corner_range skip (SF (Sheet 0 seg 0 0 v v) V V) c dir HR HD) as (RA & RB & RC & RE). cbn [sf_hd s_seg] in *.
  assert (G : forall i, (0 <= i < (seg + 1) * (seg + 1) * (seg + 1))%Z -> nth (Z.to_nat i) V zero3 = v).
  { intros i Hi. rewrite Forall_forall in HV. symmetry. apply HV, nth_In. unfold zlen in HL. lia. }
  unfold sample, tetra_corners, lattice_point. rewrite !G by auto. unfold mix. destruct v as [a b d]. cbn [v0 v1 v2]. f_equal; ring.
Qed.

Lemma velocities_uniform L skip units b l us v c :
  Forall (fun s => (0 < skip <= s_seg (sf_hd (fst s)))%Z /\ zlen (sf_vs (fst s)) = ((s_seg (sf_hd (fst s)) + 1) * (s_seg (sf_hd (fst s)) + 1) * (s_seg (sf_hd (fst s)) + 1))%Z /\ all_move v (fst s)) l ->
  Forall2 (fun s ps => uses_of (s_seg (sf_hd (fst s))) skip units ps) l us ->
  Forall (eq v) (cell_velocities L skip b l us c).
Proof.
  intros HL HU. induction HU as [|s ps l us [HP _] HU IH]; cbn [cell_velocities]; [constructor|]. inversion_clear HL as [|? ? (A1 & A2 & A3) HL'].
  apply Forall_app. split; [|auto]. unfold sheet_velocities. apply Forall_flat_map. apply Forall_forall. intros [[k dir] U] Hp.
  assert (HI : In (k, dir) (list_prod (base_cells (s_seg (sf_hd (fst s)) / skip) skip) (zseq 6))).
  { eapply Permutation_in; [exact HP|]. change (k, dir) with (fst (k, dir, U)). now apply in_map. }
  rewrite in_prod_iff, in_zseq in HI. destruct HI as [I1 I2]. unfold use_velocities. cbn [fst snd]. rewrite Forall_map. apply Forall_forall. intros u _.
  symmetry. apply sample_uniform; auto. apply base_cell_room; auto.
Qed.

Lemma mean_uniform f v l : Forall (eq v) l -> l <> [] -> mean_of f l = f v.
Proof.
  intros H HN. unfold mean_of. assert (E : total_of f l = IZR (zlen l) * f v).
  { clear HN. induction H as [|x l <- _ IH]; [unfold total_of, zlen; simpl; ring|]. unfold total_of, zlen in *. cbn [fold_right List.length].
    rewrite IH, Nat2Z.inj_succ, succ_IZR. ring. }
  rewrite E. field. apply not_0_IZR. destruct l; [congruence|]. unfold zlen. cbn [List.length]. lia.
Qed.

Theorem uniform_ok L skip q workers rnd choose order fs (sheet : string -> sheet_file R R) X files boxes grid v :
  files <> [] -> boxes <> [] -> (1 <= workers)%Z -> requires_velocity q = Ok true ->
  (forall bi j, unit_cube (rnd bi j)) -> (forall k ri id j, (0 <= choose k ri id j < 64)%Z) ->
  (forall k ri, Permutation (order k ri) (zseq workers)) ->
  Forall (fun b => vel_box_ok L b /\ empty_vectors b /\ (30 <= volume (image_size b))%Z) boxes ->
  (forall file, In file files -> fs file = Some (sheet file) /\ vel_sheet_ok L skip (sheet file) (X file) /\ all_move v (sheet file) /\
     s_grid (sf_hd (sheet file)) = grid /\
     forall b, In b boxes -> faces_ok L skip b (sheet file) (X file) (unit_pool rnd (rb_pts b))) ->
  exists bs, render_job (ND := RNum) (NF := RNum) (fun x => x) (fun x => x) fs workers rnd choose order files boxes q skip = Ok bs /\
    Forall2 (fun b b' => exists vecs num out, rb_vals b' = Vector vecs num /\
      finalized_velocity (D := R) (F := R) (NF := RNum) (fun x => x) vecs num = Ok out /\
      shows L skip (unit_pool rnd (rb_pts b)) (map (fun file => (sheet file, X file)) files) b v out) boxes bs.
Proof.
  intros H1 H2 H3 H4 H5 H6 H7 HB HF.
  destruct (images_ok L skip q workers rnd choose order fs sheet X files boxes grid) as (bs & E & R); auto.
  { intros file Hf. destruct (HF file Hf) as (F1 & F2 & _ & F4 & F5). auto. }
  exists bs. split; [exact E|]. clear E. eapply Forall2_imp; [|exact R]. cbv beta. intros b b' (vecs & num & out & E1 & E2 & us & E3 & E4).
  exists vecs, num, out. split; [auto|]. split; [auto|]. exists us. split; [auto|]. intros c Hc. specialize (E4 c Hc). cbv zeta in *.
  assert (HU : Forall (eq v) (cell_velocities L skip b (map (fun file => (sheet file, X file)) files) us c)).
  { eapply velocities_uniform; [|exact E3]. rewrite Forall_map. apply Forall_forall. intros file Hf. cbn [fst].
    destruct (HF file Hf) as (_ & [S1 S2] & S3 & _). pose proof S1 as (_ & K1 & _ & K2 & _). split; [exact K1|]. split; [congruence|exact S3]. }
  destruct (cell_velocities L skip b _ us c) as [|p r] eqn:EC.
  - destruct E4 as (-> & -> & ->). unfold Rdiv. repeat split; ring.
  - rewrite !(mean_uniform _ v) in E4 by (auto; discriminate). destruct E4 as (-> & -> & ->). unfold Rdiv. repeat split; ring.
Qed.
