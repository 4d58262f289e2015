(** Whole runs of the histogram program. *)
From Coq Require Import String.
From Coq Require Import ZArith List Reals Bool Permutation Lia Lra.
From Verif Require Import Base.Res Base.ResFacts Base.Num Model.Geom Model.GridDeriv Model.Config Model.Density Model.Render Model.SheetIO Model.Hist Model.Manager Model.RenderMain Model.HistMain
  Spec.Geometry Spec.GeomDefs Spec.Work Spec.Histograms Spec.HistDefs Spec.Renders Spec.RenderMains Spec.HistMains
  Proof.WorkP Proof.HistP Proof.HistQ Proof.HistS Proof.HistT Proof.HistW Proof.ManagerBox Proof.RenderMainP.
Import ListNotations.
Open Scope Z_scope.
Open Scope res_scope.
Local Notation idR := (fun x : R => x).

Section Merge.
Variable hists : list (list Z).
Variable bins : Z.
Definition merge_hists : list Z -> list Z -> res (list Z) :=
  fix merge ids counts := match ids with
   | [] => Ok counts
   | id :: ids => h <- get hists id ;; counts <- add_counts bins h counts ;; merge ids counts
   end.
Lemma merge_ok ids : 0 <= bins -> Forall (fun id => 0 <= id < zlen hists /\ zlen (zn [] hists id) = bins) ids ->
  forall counts, zlen counts = bins -> exists counts', merge_hists ids counts = Ok counts' /\ zlen counts' = bins /\
    forall j, 0 <= j < bins -> zn 0 counts' j = zn 0 counts j + zsum (map (fun id => zn 0 (zn [] hists id) j) ids).
Proof.
  intros HB. induction 1 as [|id ids [H1 H2] _ IH]; intros counts HL; cbn [merge_hists].
  - exists counts. split; [reflexivity|]. split; auto. intros j Hj. cbn [map zsum fold_right]. lia.
  - rewrite (get_ok []) by lia. cbn [bind].
    destruct (add_counts_ok bins (zn [] hists id) counts) as (c1 & E & L1 & J1); try lia. rewrite E. cbn [bind].
    destruct (IH c1 ltac:(lia)) as (c2 & E2 & L2 & J2). exists c2. split; auto. split; auto.
    intros j Hj. rewrite J2, J1 by lia. cbn [map zsum fold_right]. unfold zsum. lia.
Qed.
End Merge.

Lemma work_union (hd : hist_sheet R R) skip workers c : 0 < skip -> 1 <= workers ->
  In c (flat_map (work_of hd skip workers) (zseq workers)) <->
  In c (base_cells (hs_seg hd / skip) skip) /\ (lattice_index (hs_grid hd) c mod (skip * skip * skip * workers) < workers).
Proof.
  intros Hs Hw. rewrite in_flat_map. unfold work_of, cube_list. split.
  - intros (w & Hw1 & H). apply in_zseq in Hw1. apply filter_In in H. destruct H as [H1 H2]. apply Z.eqb_eq in H2. split; auto. lia.
  - intros [H1 H2]. pose proof (Z.mod_pos_bound (lattice_index (hs_grid hd) c) (skip * skip * skip * workers) ltac:(nia)) as B.
    eexists. split; [apply in_zseq; split; [apply B|exact H2]|]. apply filter_In. split; auto. apply Z.eqb_refl.
Qed.

Section Pass.
Variables (points : Z) (m : hist_manager R R) (hd : hist_sheet R R) (xs : list (vec3 R)) (info : hist_info R) (box : hist_box R).
Variables (choose : Z -> Z -> Z) (order : list Z).
Hypothesis HS : hist_setup points hd (hm_skip m) xs box info (hm_gridHd m) (hm_grid m) (hm_units m).
Hypothesis HQ : Config.to_lower (hm_quantity m) = "density"%string.
Hypothesis HW : 1 <= hm_workers m.
Hypothesis HCh : forall id n, 0 <= choose id n < zlen (hm_units m).
Hypothesis HO : Permutation order (zseq (hm_workers m)).
Hypothesis HL : zlen (hb_counts box) = hi_bins info.

Lemma hist_pass_ok : exists counts cubes sss,
  hist_pass idR idR log10R m hd xs info choose order box = Ok counts /\ zlen counts = hi_bins info /\
  used_cubes hd (hm_skip m) (hm_workers m) xs cubes /\
  Forall2 (tetra_samples (hm_units m) hd (hm_skip m) xs box (hm_gridHd m) (hm_grid m)) (list_prod cubes (zseq 6)) sss /\
  forall j, 0 <= j < hi_bins info -> zn 0 counts j = zn 0 (hb_counts box) j + zsum (map (info_count info j) sss).
Proof.
  pose proof HS as (_ & Hskip & _ & _ & _ & _ & _ & _ & (HB & _) & _).
  set (skip := hm_skip m) in *. set (workers := hm_workers m) in *.
  unfold hist_pass. fold skip workers.
  destruct (tabulate_wp (fun id => chan_histogram idR idR log10R hd skip xs box info (hm_gridHd m) (hm_grid m) (hm_units m) (hm_quantity m) workers id (choose id))
    (fun id h => zlen h = hi_bins info /\ exists sss, Forall2 (tetra_samples (hm_units m) hd skip xs box (hm_gridHd m) (hm_grid m)) (list_prod (filter (inside_b hd skip xs) (work_of hd skip workers id)) (zseq 6)) sss /\
       forall j, 0 <= j < hi_bins info -> zn 0 h j = zsum (map (info_count info j) sss)) workers ltac:(lia)) as (hists & E & LH & HH).
  { intros id Hid. destruct (chan_histogram_ok _ _ _ _ _ _ _ _ _ HS (choose id) (HCh id) (hm_quantity m) workers id HQ HW) as (h & sss & E1 & E2 & E3 & E4).
    exists h. split; [exact E1|]. split; [exact E2|]. exists sss. split; assumption. }
  rewrite E. cbn [bind]. fold (merge_hists hists (hi_bins info)).
  destruct (merge_ok hists (hi_bins info) order ltac:(lia)) with (counts := hb_counts box) as (counts & EM & LM & JM); [|exact HL|].
  { apply Forall_forall. intros id Hid. apply (Permutation_in _ HO) in Hid. apply in_zseq in Hid. split; [lia|]. apply (HH [] id Hid). }
  destruct (concat_work_all (tetra_samples (hm_units m) hd skip xs box (hm_gridHd m) (hm_grid m))
    (fun i => list_prod (filter (inside_b hd skip xs) (work_of hd skip workers (Z.of_nat i))) (zseq 6)) (Z.to_nat workers)
    (fun j ss => info_count info j ss) (fun i j => zn 0 (zn [] hists (Z.of_nat i)) j) (fun j => 0 <= j < hi_bins info)) as (ss & F & J).
  { intros i Hi. destruct (HH [] (Z.of_nat i) ltac:(lia)) as (_ & sss & F & J). exists sss. split; assumption. }
  rewrite flat_prod, Z2Nat.id in F by lia.
  exists counts, (filter (inside_b hd skip xs) (flat_map (work_of hd skip workers) (zseq workers))), ss.
  split; [exact EM|]. split; [exact LM|]. split; [|split; [exact F|]].
  - split.
    + apply NoDup_filter. unfold work_of. now apply cube_lists_nodup.
    + intros c. rewrite filter_In, (work_union hd skip workers c) by lia. split.
      * intros [[H1 H2] H3]. split; auto. split; auto. apply (inside_b_ok _ _ _ _ _ _ _ _ _ HS c); auto.
        now apply (base_room _ _ _ _ _ _ _ _ _ HS (choose 0) (HCh 0)).
      * intros (H1 & H2 & H3). split; auto. apply (inside_b_ok _ _ _ _ _ _ _ _ _ HS c); auto.
        now apply (base_room _ _ _ _ _ _ _ _ _ HS (choose 0) (HCh 0)).
  - intros j Hj. rewrite JM by auto. f_equal. etransitivity; [|exact (J j Hj)].
    rewrite (zsum_perm _ _ (Permutation_map _ HO)). rewrite <- (Z2Nat.id workers) at 1 by lia. rewrite <- seq_zseq, map_map. reflexivity.
Qed.
End Pass.

Lemma intersect_meets L (hd : hist_sheet R R) (box : hist_box R) : hs_total hd = L ->
  (forall k, 0 <= k < 3 -> (0 <= vget (hs_origin hd) k < L)%R /\ (0 < vget (hs_width hd) k <= L)%R) ->
  (forall k, 0 <= k < 3 -> (0 <= vget (hb_origin box) k < L)%R /\ (0 < vget (hb_span box) k <= L)%R) ->
  (hist_intersect idR hd box = true <-> sheet_meets hd (hb_origin box) (hb_span box)).
Proof.
  intros <- H1 H2. unfold hist_intersect, sheet_meets. rewrite all3_true. split; intros H k Hk.
  - apply (intersect1D_iff _ _ _ _ (hs_total hd)); try apply H1; try apply H2; auto.
  - apply intersect1D_iff; try apply H1; try apply H2; auto.
Qed.

Lemma Forall2_imp {A B} (P Q : A -> B -> Prop) l m : (forall a b, P a b -> Q a b) -> Forall2 P l m -> Forall2 Q l m.
Proof. intros H. induction 1; constructor; auto. Qed.
Lemma Forall2_of_map {A B C} (f : A -> B) (P : B -> C -> Prop) l m : Forall2 P (map f l) m <-> Forall2 (fun a c => P (f a) c) l m.
Proof.
  split; revert m; induction l as [|a l IH]; intros m F; cbn in *; inversion F; subst; constructor; auto.
Qed.

Lemma pool_visible rnd pts : 0 <= pts -> map visible (unit_bufs (NF := RNum) rnd UnitBufCount pts) = unit_pool rnd pts.
Proof.
  intros HP. unfold unit_bufs, unit_pool, UnitBufCount. rewrite map_map. unfold zseq at 2. rewrite map_map. apply map_ext. intros bi.
  unfold visible. cbn [vis back].
  replace (map (fun j => rnd (Z.of_nat bi) (Z.of_nat j)) (seq 0 (Z.to_nat pts))) with (map (rnd (Z.of_nat bi)) (zseq pts)) by (unfold zseq; now rewrite map_map).
  apply firstn_all2. unfold distribute_unit, zseq. rewrite !map_length, seq_length. lia.
Qed.

Section Run.
Variables (L : R) (con : hist_config R) (bounds : list (option (bounds_file R))) (parts : list (list (string * box_config R)))
  (workers : Z) (rnd : Z -> Z -> vec3 R) (choose : Z -> Z -> Z -> Z -> Z) (order : Z -> Z -> list Z) (g : hist_grid R) (grid : list R).
Variables (fs : string -> option (hfile R R)) (count : Z).
Hypothesis HR : hist_request L con bounds parts workers rnd choose order g grid.
Let info := con_info con.
Let bins := hi_bins info.
Let skip := hc_subsample con.
Let units := unit_pool rnd (hc_particles con).

Definition file_ok (file : string) (f : hfile R R) : Prop := fs file = Some f /\ hist_sheet_ok L skip count f.
Definition box_in (b : hist_box R) : Prop :=
  (forall k, 0 <= k < 3 -> (0 <= vget (hb_origin b) k < L)%R /\ (0 < vget (hb_span b) k <= L)%R) /\ zlen (hb_counts b) = bins.
(** A manager of this run. *)
Definition man_ok (m : hist_manager R R) : Prop :=
  zlen (hm_xs m) = count /\ hm_units m = units /\ hm_skip m = skip /\ hm_quantity m = hc_quantity con /\ hm_workers m = workers /\
  hm_gridHd m = g /\ hm_grid m = grid /\ Forall box_in (hm_boxes m).
Definition box_gets (fl : list (hfile R R)) (b b' : hist_box R) : Prop :=
  hb_origin b' = hb_origin b /\ hb_span b' = hb_span b /\ zlen (hb_counts b') = bins /\
  exists adds, Forall2 (file_adds skip workers info g grid units (hb_origin b) (hb_span b)) fl adds /\
    forall j, 0 <= j < bins -> zn 0 (hb_counts b') j = zn 0 (hb_counts b) j + zsum (map (fun a => a j) adds).

Lemma units_ok : Forall (fun u => exists ps, Forall unit_cube ps /\ zlen ps = hc_particles con /\ u = distribute_unit ps) units.
Proof.
  destruct HR as (_ & _ & HP & _ & _ & _ & _ & HU & _). unfold units, unit_pool. apply Forall_forall. intros u Hu. apply in_map_iff in Hu.
  destruct Hu as (bi & <- & _). exists (map (rnd bi) (zseq (hc_particles con))). split; [|split; auto].
  - apply Forall_forall. intros q Hq. apply in_map_iff in Hq. destruct Hq as (j & <- & _). apply HU.
  - unfold zlen, zseq. rewrite !map_length, seq_length. lia.
Qed.

Lemma setup_ok f box : hist_sheet_ok L skip count f -> box_in box -> hist_setup (hc_particles con) (hf_hd f) skip (hf_xs f) box info g grid units.
Proof.
  intros (E1 & E2 & E3 & E4 & E5 & E6 & E7 & E8 & E9) (B1 & B2).
  destruct HR as (_ & HI & HP & HSk & _ & _ & _ & _ & _ & _ & HG1 & HG2 & HG3 & HG4). unfold hist_setup. rewrite E1.
  split; [intros k Hk; rewrite E1; specialize (E2 k Hk); lra|]. split; [exact HSk|]. split; [exact E3|]. split; [exact E4|]. split; [exact E5|].
  split; [lia|]. split; [exact E9|]. split; [intros k Hk; specialize (B1 k Hk); lra|]. split; [exact HI|]. split; [exact HG1|]. split; [exact HG2|].
  split; [exact HG3|]. split; [exact HG4|exact units_ok].
Qed.

Lemma zlen_units : zlen units = 64.
Proof. unfold units, unit_pool, zlen, zseq. rewrite !map_length, seq_length. reflexivity. Qed.

Lemma one_box f k bi m box : hist_sheet_ok L skip count f -> man_ok m -> box_in box ->
  exists b', (if negb (hist_intersect idR (hf_hd f) box) then Ok box
     else counts <- hist_pass idR idR log10R m (hf_hd f) (hf_xs f) info (choose k bi) (order k bi) box ;; Ok (HB (hb_origin box) (hb_span box) counts)) = Ok b' /\ box_gets [f] box b'.
Proof.
  intros HF (M1 & M2 & M3 & M4 & M5 & M6 & M7 & M8) HBx.
  pose proof HF as (F1 & F2 & _). pose proof (intersect_meets L (hf_hd f) box F1 F2 (proj1 HBx)) as IM.
  destruct (hist_intersect idR (hf_hd f) box); cbn [negb].
  - destruct HR as (HQ & _ & _ & _ & _ & _ & HW & _ & HCh & HO & _).
    destruct (hist_pass_ok (hc_particles con) m (hf_hd f) (hf_xs f) info box (choose k bi) (order k bi)) as (counts & cubes & sss & E & EL & EC & EF & EJ).
    + rewrite M2, M3, M6, M7. now apply setup_ok.
    + now rewrite M4.
    + now rewrite M5.
    + rewrite M2, zlen_units. intros; apply HCh.
    + rewrite M5. apply HO.
    + apply HBx.
    + rewrite E. cbn [bind]. eexists. split; [reflexivity|]. cbn [hb_origin hb_span hb_counts].
      split; [reflexivity|]. split; [reflexivity|]. split; [exact EL|].
      rewrite M2, M3, M6, M7 in EF. rewrite M3, M5 in EC.
      exists [fun j => zsum (map (info_count info j) sss)]. split.
      * constructor; [|constructor]. split; [intros _; exists cubes, sss; split; [exact EC|]; split; [exact EF|reflexivity]|].
        intros NM. exfalso. now apply NM, IM.
      * intros j Hj. rewrite EJ by auto. cbn [map]. change (zsum [zsum (map (info_count info j) sss)]) with (zsum (map (info_count info j) sss) + 0). lia.
  - exists box. split; [reflexivity|]. split; [reflexivity|]. split; [reflexivity|]. split; [apply HBx|].
    exists [fun _ => 0]. split; [|intros j Hj; cbn; lia].
    constructor; [|constructor]. split; [|reflexivity]. intros MM. apply IM in MM. discriminate.
Qed.

Lemma from_file_ok file f k m : file_ok file f -> man_ok m ->
  exists m', hist_from_file idR idR log10R fs info (choose k) (order k) file m = Ok (Good m') /\ man_ok m' /\
    hm_files m' = hm_files m /\ Forall2 (box_gets [f]) (hm_boxes m) (hm_boxes m').
Proof.
  intros [EF HF] HM. pose proof HM as (M1 & M2 & M3 & M4 & M5 & M6 & M7 & M8). unfold hist_from_file. rewrite EF.
  set (body := fun bi s => let '(xs, boxes) := s in _).
  pose (d := HB (V3 0 0 0)%R (V3 0 0 0)%R [] : hist_box R).
  assert (HP : forall xs, zlen xs = count -> positions_or_old f xs = hf_xs f).
  { intros xs Hx. unfold positions_or_old. destruct HF as (_ & _ & _ & _ & _ & -> & _). rewrite Hx, Z.eqb_refl. reflexivity. }
  rewrite Forall_forall in M8.
  assert (K : wp (for_ 0 (zlen (hm_boxes m)) body (hm_xs m, hm_boxes m)) (fun s => zlen (fst s) = count /\ zlen (snd s) = zlen (hm_boxes m) /\
    (forall i, 0 <= i < zlen (hm_boxes m) -> box_gets [f] (zn d (hm_boxes m) i) (zn d (snd s) i)) /\
    (forall i, zlen (hm_boxes m) <= i < zlen (hm_boxes m) -> zn d (snd s) i = zn d (hm_boxes m) i))).
  { apply (for_inv (fun n s => zlen (fst s) = count /\ zlen (snd s) = zlen (hm_boxes m) /\
      (forall i, 0 <= i < n -> box_gets [f] (zn d (hm_boxes m) i) (zn d (snd s) i)) /\
      (forall i, n <= i < zlen (hm_boxes m) -> zn d (snd s) i = zn d (hm_boxes m) i))).
    - unfold zlen; lia.
    - cbn [fst snd]. split; [exact M1|]. split; [reflexivity|]. split; [intros; lia|reflexivity].
    - intros i [xs boxes] Hi (I1 & I2 & I3 & I4). cbn [fst snd] in *. unfold body, wp.
      rewrite (get_ok d) by lia. cbn [bind]. rewrite I4 by lia.
      assert (HBi : box_in (zn d (hm_boxes m) i)).
      { apply M8. unfold zn. apply nth_In. unfold zlen in Hi. lia. }
      destruct (one_box f k i m (zn d (hm_boxes m) i) HF HM HBi) as (b' & E & G).
      destruct (hist_intersect idR (hf_hd f) (zn d (hm_boxes m) i)); cbn [negb] in *.
      + rewrite HP by auto. destruct (hist_pass idR idR log10R m (hf_hd f) (hf_xs f) info (choose k i) (order k i) (zn d (hm_boxes m) i)) as [counts| | |]; try discriminate.
        cbn [bind] in E |- *. injection E as E. rewrite set_ok by lia. cbn [bind fst snd].
        split; [destruct HF as (_ & _ & _ & _ & _ & _ & HX & _); exact HX|]. split; [rewrite zlen_upd; lia|]. split.
        * intros i' Hi'. rewrite zn_upd by lia. destruct (Z.eqb_spec i' i) as [->|]; [now rewrite E|]. apply I3. lia.
        * intros i' Hi'. rewrite zn_upd_neq by lia. apply I4. lia.
      + injection E as E. cbn [fst snd]. split; [exact I1|]. split; [exact I2|]. split.
        * intros i' Hi'. destruct (Z.eq_dec i' i) as [->|]; [|apply I3; lia]. rewrite I4 by lia. rewrite E at 2. exact G.
        * intros i' Hi'. apply I4. lia. }
  apply (proj1 (wp_ok _ _)) in K. destruct K as ([xs boxes] & E & K1 & K2 & K3 & _). rewrite E. cbn [bind fst snd] in *.
  assert (FB : Forall2 (box_gets [f]) (hm_boxes m) boxes).
  { apply Forall2_nth_intro with (a := d); [unfold zlen in *; lia|]. intros b i Hi.
    specialize (K3 (Z.of_nat i) ltac:(unfold zlen; lia)). unfold zn in K3. rewrite !Nat2Z.id in K3.
    rewrite (nth_indep boxes b d) by (unfold zlen in *; lia). exact K3. }
  eexists. split; [reflexivity|]. split; [|split; [reflexivity|exact FB]].
  repeat split; auto. cbn [hm_boxes].
  clear - FB M8. induction FB as [|b b' l l' G FB IH]; constructor.
  - destruct G as (G1 & G2 & G3 & _). destruct (M8 b (or_introl eq_refl)) as [B1 _]. split; [rewrite G1, G2; exact B1|exact G3].
  - apply IH. intros x Hx. apply M8. now right.
Qed.

Lemma gets_trans f fl b b1 b' : box_gets [f] b b1 -> box_gets fl b1 b' -> box_gets (f :: fl) b b'.
Proof.
  intros (A1 & A2 & A3 & adds1 & A4 & A5) (B1 & B2 & B3 & adds2 & B4 & B5). inversion A4 as [|? add ? ? HA HN]; subst. inversion HN; subst.
  split; [congruence|]. split; [congruence|]. split; [exact B3|]. exists (add :: adds2). rewrite A1, A2 in B4. split; [now constructor|].
  intros j Hj. rewrite B5, A5 by auto. cbn [map zsum fold_right]. unfold zsum. lia.
Qed.

Lemma files_ok files fl : Forall2 file_ok files fl -> forall k m, man_ok m ->
  exists m', hist_files idR idR log10R fs info choose order k files m = Ok (Good m') /\ man_ok m' /\ Forall2 (box_gets fl) (hm_boxes m) (hm_boxes m').
Proof.
  induction 1 as [|file f files fl HF _ IH]; intros k m HM; cbn [hist_files].
  - exists m. split; [reflexivity|]. split; [exact HM|]. destruct HM as (_ & _ & _ & _ & _ & _ & _ & HB). revert HB. generalize (hm_boxes m) as l.
    induction l as [|b l IH]; intros HB; constructor; [|apply IH; now inversion HB]. inversion HB as [|? ? [_ HBb]]; subst.
    split; [reflexivity|]. split; [reflexivity|]. split; [exact HBb|]. exists []. split; [constructor|]. intros j Hj. cbn. lia.
  - destruct (from_file_ok file f k m HF HM) as (m1 & E1 & M1 & _ & G1). rewrite E1. cbn [bind].
    destruct (IH (k + 1) m1 M1) as (m2 & E2 & M2 & G2). exists m2. split; [exact E2|]. split; [exact M2|].
    refine (Forall2_imp _ _ _ _ _ (Forall2_two _ _ _ _ _ G1 G2)). intros b b' (b1 & A & B). exact (gets_trans f fl b b1 b' A B).
Qed.

(** ** The program *)
Lemma centers_table count_of (cs : list R) (ns : list Z) : hist_centers (ND := RNum) log10R pow10R info = Ok cs -> zlen ns = bins ->
  (forall j, 0 <= j < bins -> zn 0 ns j = count_of j) -> List.combine cs ns = table info count_of.
Proof.
  intros E L1 HJ. destruct HR as (_ & HI & _). destruct (centers_thm info HI) as (cs' & E' & L2 & HC). rewrite E in E'. injection E' as <-.
  unfold table. apply (list_ext (0%R, 0)).
  - unfold zlen in *. rewrite combine_length, map_length. unfold zseq. rewrite map_length, seq_length. unfold bins in *. lia.
  - intros j Hj. assert (Hj' : 0 <= j < bins) by (unfold zlen in *; rewrite combine_length in Hj; unfold bins in *; lia).
    unfold zn at 1. rewrite combine_nth by (unfold zlen in *; unfold bins in *; lia). fold (zn 0%R cs j). fold (zn 0 ns j).
    rewrite HJ, (proj1 (HC j Hj')) by auto. unfold zn, zseq. rewrite map_map.
    set (row := fun x : nat => (bin_middle (is_log info) (hi_min info) (hi_max info) (hi_bins info) (Z.of_nat x), count_of (Z.of_nat x))).
    rewrite (nth_indep _ _ (row O)) by (rewrite map_length, seq_length; unfold bins in *; lia).
    rewrite (map_nth row), seq_nth by (unfold bins in *; lia). unfold row. rewrite Nat.add_0_l, Z2Nat.id by lia. reflexivity.
Qed.


Lemma main_files files first f : get files 0 = Ok first -> file_ok first f ->
  exists m0 cs, man_ok m0 /\ hm_files m0 = files /\ hist_centers (ND := RNum) log10R pow10R info = Ok cs /\
  hm_boxes m0 = map (fun c => HB (bx_o (snd c)) (bx_w (snd c)) (repeat 0 (Z.to_nat bins))) (concat parts) /\
  hist_main idR idR log10R pow10R fs workers rnd choose order files (Some (g, grid)) con bounds =
    (r <- hist_files idR idR log10R fs info choose order 0 files m0 ;;
     match r with
     | Err => Fatal
     | Good m => Ok (map (fun p => (hist_path con (fst (fst p)), List.combine (snd (snd p)) (hb_counts (fst (snd p))))) (List.combine (concat parts) (List.combine (hm_boxes m) (map (fun _ => cs) (concat parts)))))
     end).
Proof.
  intros E0 [Ef Hf].
  pose proof HR as (HQ & HI & HP & HSk & HBd & HBx & HW & HU & HCh & HO & HG). unfold hist_main.
  assert (Hbins : 0 < bins) by apply HI. rewrite E0. cbn [bind]. rewrite Ef. cbn [hist_total].
  pose proof Hf as (-> & _ & _ & _ & _ & Hcount & HX & Hc3 & _).
  rewrite (proj2 (proj1 (all_bounds_thm L bounds) (concat parts)) (ex_intro _ parts (conj HBd eq_refl))). cbn [bind].
  assert (EB : map_res (fun c => new_hist_box (snd c) (hc_bins con)) (concat parts) = Ok (map (fun c => HB (bx_o (snd c)) (bx_w (snd c)) (repeat 0 (Z.to_nat bins))) (concat parts))).
  { generalize (concat parts) as l. induction l as [|c l IH]; [reflexivity|]. cbn [map_res map]. unfold new_hist_box at 1.
    change (hc_bins con) with bins. replace (bins <? 0) with false by lia. cbn [bind]. change bins with (hc_bins con). rewrite IH. reflexivity. }
  rewrite EB. cbn [bind]. unfold new_hist_manager. rewrite E0. cbn [bind]. rewrite Ef, Hcount.
  assert (Hcn : 0 <= count) by (rewrite <- HX; unfold zlen; lia).
  replace ((count <? 0) || (hc_particles con <? 0)) with false by lia. cbn [bind].
  unfold hist_subsample. cbn [hm_skip]. change (subsample 1 (hc_subsample con)) with (Ok (A := Z) (hc_subsample con)). cbn [bind hm_xs hm_files hm_boxes hm_units hm_quantity hm_workers hm_gridHd hm_grid].
  unfold hist_run. cbn [hm_xs hm_files hm_boxes hm_units hm_quantity hm_workers hm_gridHd hm_grid hm_skip].
  fold (con_info con). fold info. fold bins.
  replace ((workers <? 0) || (bins <? 0) && ((0 <? workers) || (0 <? zlen (map (fun c : string * box_config R => HB (bx_o (snd c)) (bx_w (snd c)) (repeat 0 (Z.to_nat bins))) (concat parts))))) with false by lia.
  rewrite (get_ok []) by (rewrite pool_visible by lia; fold units; rewrite zlen_units; lia). cbn [bind].
  rewrite map_map. cbn [hb_origin hb_span].
  set (boxes := map (fun c : string * box_config R => HB (bx_o (snd c)) (bx_w (snd c)) (repeat 0 (Z.to_nat bins))) (concat parts)).
  destruct (centers_thm info HI) as (cs & EC & LC & HC).
  assert (ECs : map_res (fun _ : hist_box R => hist_centers (ND := RNum) log10R pow10R info) boxes = Ok (map (fun _ => cs) (concat parts))).
  { unfold boxes. generalize (concat parts) as l. induction l as [|b l IH]; [reflexivity|]. cbn [map_res map]. rewrite IH, EC. reflexivity. }
  rewrite ECs. cbn [bind]. rewrite pool_visible by lia. fold units skip.
  set (m0 := HM _ files boxes units skip _ workers g grid).
  assert (M0 : man_ok m0).
  { unfold man_ok, m0. cbn [hm_xs hm_files hm_boxes hm_units hm_quantity hm_workers hm_gridHd hm_grid hm_skip]. repeat split.
    - unfold zlen. rewrite repeat_length. lia.
    - unfold boxes. apply Forall_forall. intros b Hb. apply in_map_iff in Hb. destruct Hb as (c & <- & Hc). rewrite Forall_forall in HBx.
      split; cbn [hb_origin hb_span hb_counts]; [exact (HBx c Hc)|]. unfold zlen. rewrite repeat_length. lia. }
  exists m0, cs. split; [exact M0|]. split; [reflexivity|]. split; [exact EC|]. split; [reflexivity|].
  destruct (hist_files idR idR log10R fs info choose order 0 files m0) as [[m|]| | |]; reflexivity.
Qed.

Variable sheet : string -> hfile R R.
Variable files : list string.
Hypothesis HF0 : files <> [].
Hypothesis HF : forall file, In file files -> file_ok file (sheet file).

Theorem hist_main_ok : exists out,
  hist_main idR idR log10R pow10R fs workers rnd choose order files (Some (g, grid)) con bounds = Ok out /\
  Forall2 (fun c o => fst o = hist_path con (fst c) /\ exists adds,
    Forall2 (file_adds skip workers info g grid units (bx_o (snd c)) (bx_w (snd c))) (map sheet files) adds /\
    snd o = table info (fun j => zsum (map (fun a => a j) adds))) (concat parts) out.
Proof.
  assert (E0 : exists first, get files 0 = Ok first /\ In first files).
  { clear - HF0. destruct files as [|first rest]; [congruence|]. exists first. split; [reflexivity|now left]. }
  destruct E0 as (first & E0 & I0).
  destruct (main_files files first (sheet first) E0 (HF first I0)) as (m0 & cs & M0 & _ & EC & EB0 & ->).
  assert (FF : Forall2 file_ok files (map sheet files)).
  { clear - HF. induction files as [|x l IH]; cbn [map]; constructor; [apply HF; now left|apply IH; intros; apply HF; now right]. }
  destruct (files_ok files (map sheet files) FF 0 m0 M0) as (m' & ER & _ & GB). rewrite ER. cbn [bind].
  eexists. split; [reflexivity|]. rewrite EB0 in GB. apply (proj1 (Forall2_of_map _ _ (concat parts) _)) in GB.
  apply combine_out. cbn [fst snd].
  assert (EL : List.length (concat parts) = List.length (hm_boxes m')) by (exact (Forall2_len _ _ _ GB)).
  assert (GC : Forall2 (fun (c : string * box_config R) (p : hist_box R * list R) => exists adds,
     Forall2 (file_adds skip workers info g grid units (bx_o (snd c)) (bx_w (snd c))) (map sheet files) adds /\
     List.combine (snd p) (hb_counts (fst p)) = table info (fun j => zsum (map (fun a => a j) adds))) (concat parts) (List.combine (hm_boxes m') (map (fun _ => cs) (concat parts)))).
  { assert (EB' : map (fun _ : string * box_config R => cs) (concat parts) = map (fun _ : hist_box R => cs) (hm_boxes m')).
    { clear - EL. revert EL. generalize (hm_boxes m') as l. induction (concat parts) as [|c l' IH]; intros [|b l] E; try discriminate; cbn; auto. f_equal. apply IH. cbn in E. congruence. }
    rewrite EB'. clear - GB EC HR. induction GB as [|c b l l' H GB IH]; cbn [map combine]; constructor; [|exact IH].
    destruct H as (_ & _ & G3 & adds & G4 & G5). cbn [hb_origin hb_span hb_counts] in *. exists adds. split; [exact G4|]. cbn [fst snd].
    apply centers_table; auto. intros j Hj. rewrite G5 by auto. replace (zn 0 (repeat 0 (Z.to_nat bins)) j) with 0; [lia|].
    unfold zn. now rewrite nth_repeat. }
  clear - GC. induction GC as [|c p l l' (adds & A & B) GC IH]; constructor; auto. split; [reflexivity|]. exists adds. split; assumption.
Qed.
End Run.
