(** From Gadget files to images. *)
From Coq Require Import String ZArith List Bool Lia ZifyBool ZifyNat Reals Lra Permutation.
From Flocq Require Import Core.Raux.
From Verif Require Import Base.Res Base.ResFacts Base.Num Base.Bytes Model.Geom Model.GridDeriv Model.Density Model.SheetIO Model.GridIO Model.Manager Model.Main Model.Pipeline Model.Gadget
  Spec.Files Spec.GeomDefs Spec.Work Spec.Renders Spec.Segments Spec.Pipelines Spec.Gadgets Spec.GadgetImages Proof.BytesP Proof.SegP Proof.MainP Proof.PipelineP Proof.ReadHaloM Proof.GadgetP Proof.GadgetQ.
Import ListNotations.
Open Scope Z_scope.

Lemma into_box_range L x : (0 < L -> - L <= x < 2 * L -> 0 <= into_box (ND := RNum) L x < L)%R.
Proof.
  intros HL Hx. unfold into_box. cbn [nltb nleb nofZ nadd nsub RNum].
  destruct (Rlt_bool_spec x 0); [lra|]. destruct (Rle_bool_spec L x); lra.
Qed.

Section Images.
Variables (L : R) (sys : Bytes.order) (f32_of f64_of : Z -> R) (nar : Z -> Z) (pow : R -> R -> R) (con : convert_config R).
Notation idR := (fun x : R => x).
Notation parts := (real_particles f32_of f64_of nar con).

Lemma particle_range s p a : snapshot_ok s -> cv_xUnits con = 1%R -> (0 < L)%R -> f64_of (sn_box s) = L ->
  Forall (fun c => - L <= f32_of (narrowed nar (sn_xwide s) c) < 2 * L)%R (coords (sn_x s)) -> In p (parts s) -> In a [0; 1; 2] -> (0 <= vget (p_x p) a < L)%R.
Proof.
  intros HO HU HL HB HC HP Ha.
  destruct (particles_parts (ND := RNum) (NF := RNum) idR idR f32_of f64_of nar sqrt con s HO) as (E & _).
  apply (in_map p_x) in HP. unfold real_particles in HP. rewrite E in HP. apply in_map_iff in HP. destruct HP as (x & <- & Ix).
  assert (HX : forall c, In c [v0 x; v1 x; v2 x] -> (0 <= into_box (ND := RNum) (f64_of (sn_box s)) (f32_of (narrowed nar (sn_xwide s) c)) * 1 < L)%R).
  { intros c Hc. rewrite Rmult_1_r, HB. apply into_box_range; [exact HL|]. rewrite Forall_forall in HC. apply HC.
    unfold coords. apply in_flat_map. exists x. auto. }
  unfold scaled, true_position. rewrite HU. cbn [In] in Ha. decompose [or] Ha; subst; try contradiction; cbn [vget vmap v0 v1 v2 Z.eqb Pos.eqb]; apply HX; cbn [In]; auto.
Qed.

Theorem images s ss n k cells skip q workers rnd choose order files boxes :
  set_ok (cv_idSize con) (s :: ss) -> Forall (readable sys) (s :: ss) -> in_periods L f32_of f64_of nar (s :: ss) -> cv_xUnits con = 1%R -> cv_cells con = cells ->
  0 < cells -> n = cells * k -> all_dark s = n * n * n -> int_cube_root pow (n * n * n) = Ok n -> complete (n * n * n) (ids_of (s :: ss)) ->
  narrow_segments L n k cells (flat_map parts (s :: ss)) -> render_input L cells skip k q workers rnd choose order files boxes ->
  exists out img, convert_dir (ND := RNum) (NF := RNum) idR idR sys f32_of f64_of nar sqrt pow con (map (snapshot_bytes Little) (s :: ss)) = Ok out /\
    render_job (ND := RNum) (NF := RNum) idR idR (on_disk n cells L out) workers rnd choose order files boxes q skip = Ok img /\
    Forall2 (fun b b' => (cells <= 10 -> image_mean b' = (image_mean b + 1)%R) /\ (11 <= cells -> (image_mean b' < image_mean b + 1)%R)) boxes img.
Proof.
  intros HS HR (HL & HP) HU HC Hc Hn HT HR3 HA HN (Hs & Hd & HB0 & HB & Hw & Hq & H1 & H2 & H3 & HF).
  assert (HG : Forall (good sys con) (s :: ss)).
  { clear - HS HR. unfold set_ok in HS. rewrite Forall_forall in *. intros t Ht. split; auto. }
  pose proof HA as HA'. pose proof HR3 as HR3'. rewrite <- HT in HR3', HA'.
  destruct (create_complete (ND := RNum) (NF := RNum) idR idR sys f32_of f64_of nar sqrt pow con s ss n HG HR3' HA') as (xs & vs & E & LX & LV & HX).
  assert (Hn0 : 0 < n) by (subst n; nia).
  assert (SL : forall i, 0 <= i < n * n * n -> exists t p, In t (s :: ss) /\ In p (parts t) /\ p_id p = 1 + i /\ forall d, zn d xs i = p_x p).
  { intros i Hi. assert (HI : In (1 + i) (map p_id (concat (map parts (s :: ss))))).
    { unfold real_particles. rewrite particle_ids with (sys := sys) by auto. apply HA. lia. }
    apply in_map_iff in HI. destruct HI as (p & Ep & Ip). apply in_concat in Ip. destruct Ip as (l & Il & Ip). apply in_map_iff in Il. destruct Il as (t & <- & It).
    exists t, p. split; [exact It|]. split; [exact Ip|]. split; [exact Ep|]. intros d. destruct (HX t p d It Ip) as [P _]. rewrite Ep in P. replace (1 + i - 1) with i in P by lia. exact P. }
  assert (EB : f64_of (ct_totalWidth (header_of_snapshot s)) = L) by (inversion_clear HP as [|? ? (H & _) _]; exact H).
  destruct (pipeline_full L zero_vec n k cells skip xs vs q workers rnd choose order files boxes) as (img & EI & HI); auto; try lia.
  - intros a Ha. apply Forall_forall. intros x Hx. apply (In_nth _ _ zero_vec) in Hx. destruct Hx as (i & Hi & Ex).
    destruct (SL (Z.of_nat i)) as (t & p & It & Ip & _ & Hz); [unfold zlen in LX; lia|]. specialize (Hz zero_vec). unfold zn in Hz. rewrite Nat2Z.id, Ex in Hz. rewrite Hz.
    rewrite Forall_forall in HP. destruct (HP t It) as (B1 & B2). apply (particle_range t p a); auto.
    unfold set_ok in HS. rewrite Forall_forall in HS. apply (HS t It).
  - intros x y z coord Hx Hy Hz Hcd. destruct (HN x y z coord Hx Hy Hz Hcd) as (lo & len & Hlen & HI). exists lo, len. split; [exact Hlen|].
    intros a b c Ha Hb Hcc. set (i := periodic_index n (k * x + a) (k * y + b) (k * z + c)).
    assert (Hi : 0 <= i < n * n * n).
    { unfold i, periodic_index. pose proof (Z.mod_pos_bound (k * x + a) n Hn0). pose proof (Z.mod_pos_bound (k * y + b) n Hn0). pose proof (Z.mod_pos_bound (k * z + c) n Hn0).
      generalize dependent ((k * x + a) mod n). generalize dependent ((k * y + b) mod n). generalize dependent ((k * z + c) mod n). intros. nia. }
    destruct (SL i Hi) as (t & p & It & Ip & Ep & Hzz). rewrite Hzz. apply (HI a b c p); auto. apply in_flat_map. eauto.
  - unfold convert_and_render in EI. apply bind_ok in EI. destruct EI as (out & EO & EI). exists out, img. split; [|split; [exact EI|exact HI]].
    unfold convert_dir. rewrite E. cbn [bind]. rewrite HC, EB. exact EO.
Qed.

Theorem images_mean s ss n k cells skip q workers rnd choose order files boxes :
  gadget_input L sys f32_of f64_of nar pow con s ss n k cells -> render_input L cells skip k q workers rnd choose order files boxes -> cells <= 10 ->
  exists out img, convert_dir (ND := RNum) (NF := RNum) idR idR sys f32_of f64_of nar sqrt pow con (map (snapshot_bytes Little) (s :: ss)) = Ok out /\
    render_job (ND := RNum) (NF := RNum) idR idR (on_disk n cells L out) workers rnd choose order files boxes q skip = Ok img /\
    Forall2 (fun b b' => image_mean b' = (image_mean b + 1)%R) boxes img.
Proof.
  intros (H1 & H2 & H3 & H4 & H5 & H6 & H7 & H8 & H9 & H10 & H11) HI HC.
  destruct (images s ss n k cells skip q workers rnd choose order files boxes H1 H2 H3 H4 H5 H6 H7 H8 H9 H10 H11 HI) as (out & img & E1 & E2 & HF).
  exists out, img. split; [exact E1|]. split; [exact E2|]. clear - HF HC. induction HF as [|b b' l l' [HX _] _ IH]; constructor; auto.
Qed.
Theorem images_lost s ss n k cells skip q workers rnd choose order files boxes :
  gadget_input L sys f32_of f64_of nar pow con s ss n k cells -> render_input L cells skip k q workers rnd choose order files boxes -> 11 <= cells ->
  exists out img, convert_dir (ND := RNum) (NF := RNum) idR idR sys f32_of f64_of nar sqrt pow con (map (snapshot_bytes Little) (s :: ss)) = Ok out /\
    render_job (ND := RNum) (NF := RNum) idR idR (on_disk n cells L out) workers rnd choose order files boxes q skip = Ok img /\
    Forall2 (fun b b' => (image_mean b' < image_mean b + 1)%R) boxes img.
Proof.
  intros (H1 & H2 & H3 & H4 & H5 & H6 & H7 & H8 & H9 & H10 & H11) HI HC.
  destruct (images s ss n k cells skip q workers rnd choose order files boxes H1 H2 H3 H4 H5 H6 H7 H8 H9 H10 H11 HI) as (out & img & E1 & E2 & HF).
  exists out, img. split; [exact E1|]. split; [exact E2|]. clear - HF HC. induction HF as [|b b' l l' [_ HX] _ IH]; constructor; auto.
Qed.
End Images.
