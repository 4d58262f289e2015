(** Velocities: one pass of the manager, one file in one box. *)
From Coq Require Import ZArith List Bool Reals Lra Lia ZifyBool ZifyNat Permutation String.
From Flocq Require Import Core.Raux.
From Verif Require Import Base.Res Base.ResFacts Base.Num Model.Geom Model.GridDeriv Model.Density Model.Box Model.Render Model.SheetIO Model.Manager.
From Verif Require Import Spec.Geometry Spec.GeomDefs Spec.Fields Spec.FieldDefs Spec.Work Spec.Deposits Spec.Workspace Spec.Renders Spec.VelRenders.
From Verif Require Import Proof.SheetFall Proof.SheetFrame Proof.SheetPass Proof.SheetWork Proof.SheetCull Proof.RenderP Proof.MassP Proof.AddP Proof.WorkP Proof.ManagerBox Proof.VelWork.
Import ListNotations.
Open Scope R_scope.
Local Notation overlap_of := (box_overlap (ND := RNum) (NF := RNum) (fun x => x)).

(** The box with a scalar image: where points go does not depend on the image. *)
Definition twin (b : rbox R) : rbox R := set_vals b (Scalar (repeat 0 (Z.to_nat (volume (image_size b))))).
Lemma volume_pos L b : vel_box_ok L b -> (0 <= volume (image_size b))%Z.
Proof. intros (_ & _ & _ & _ & _ & H & _). unfold sized in H. destruct (rb_vals b); [rewrite <- H|destruct H as [<- _]]; unfold zlen; lia. Qed.
Lemma twin_ok L b : vel_box_ok L b -> box_ok L (twin b).
Proof.
  intros H. pose proof (volume_pos L b H) as HV. destruct H as (H1 & H2 & H3 & H4 & H5 & _). repeat (split; [assumption|]). split; [|reflexivity].
  unfold sized, twin, zlen. cbn [rb_vals set_vals]. rewrite repeat_length. change (image_size (set_vals b _)) with (image_size b). lia.
Qed.

(** ** Growing images *)
Definition vel_pool L skip pool l b b' := vel_rendered L skip (units_of pool (rb_pts b)) l b b'.

Lemma vel_refl L skip pool b : sized (rb_vals b) (volume (image_size b)) -> is_scalar (rb_vals b) = false -> vel_pool L skip pool [] b b.
Proof.
  intros H1 H2. split; [destruct b; reflexivity|]. split; [auto|]. split; [auto|]. exists []. split; [constructor|]. intros. cbn [cell_velocities]. rewrite total_nil. ring.
Qed.

Lemma velocities_app L skip b l l' us us' c : List.length l = List.length us ->
  cell_velocities L skip b (l ++ l') (us ++ us') c = cell_velocities L skip b l us c ++ cell_velocities L skip b l' us' c.
Proof.
  revert us. induction l as [|s l IH]; intros [|ps us] H; try discriminate; cbn [app cell_velocities]; [reflexivity|].
  rewrite IH by (injection H as H; exact H). apply app_assoc.
Qed.
Lemma velocities_set L skip b v l us c : cell_velocities L skip (set_vals b v) l us c = cell_velocities L skip b l us c.
Proof. revert us. induction l as [|s l IH]; intros [|ps us]; cbn [cell_velocities]; auto. rewrite IH. reflexivity. Qed.

Lemma vel_trans L skip pool l l' b b1 b2 : vel_pool L skip pool l b b1 -> vel_pool L skip pool l' b1 b2 -> vel_pool L skip pool (l ++ l') b b2.
Proof.
  intros (A1 & A2 & A3 & us & A4 & A5) (B1 & B2 & B3 & us' & B4 & B5).
  assert (EB : b1 = set_vals b (rb_vals b1)) by exact A1. rewrite EB in B1, B2, B4, B5.
  change (image_size (set_vals b (rb_vals b1))) with (image_size b) in *. change (rb_pts (set_vals b (rb_vals b1))) with (rb_pts b) in *.
  split; [rewrite B1; reflexivity|]. split; [auto|]. split; [auto|]. exists (us ++ us'). split; [apply Forall2_app; auto|].
  intros q c Hc. rewrite B5, velocities_set by auto. cbn [rb_vals set_vals]. rewrite A5 by auto.
  rewrite velocities_app, total_app by exact (F2_len _ _ _ A4). apply Rplus_assoc.
Qed.

Lemma vel_skip L skip pool b f X : sheet_ok L skip f X -> vel_box_ok L b -> pool <> [] ->
  Forall (Forall unit_simplex) pool ->
  cb_intersect (sheet_cells (ND := RNum) (NF := RNum) (fun x => x) (sf_hd f) (rb_cells b)) (rb_cb b) (rb_cells b) = false ->
  vel_pool L skip pool [(f, X)] b b.
Proof.
  intros HS HB HP HPool HN. pose proof HB as (_ & _ & _ & _ & _ & B6 & B7).
  split; [destruct b; reflexivity|]. split; [auto|]. split; [auto|].
  destruct pool as [|u0 pool]; [congruence|]. set (units := units_of (u0 :: pool) (rb_pts b)).
  set (cells := list_prod (base_cells (s_seg (sf_hd f) / skip) skip) (zseq 6)).
  set (ps := map (fun t : cell * Z => (t, firstn (Z.to_nat (rb_pts b)) u0)) cells).
  exists [ps]. split.
  - constructor; [|constructor]. cbn [fst]. split.
    + unfold ps. rewrite map_map. cbn [fst]. rewrite map_id. apply Permutation_refl.
    + unfold ps. rewrite Forall_map. apply Forall_forall. intros t _. cbn [snd]. now left.
  - intros q c' Hc'. cbn [cell_velocities]. rewrite app_nil_r. unfold sheet_velocities. cbn [fst snd].
    assert (E : flat_map (fun p => use_velocities L b X (sf_vs f) (s_seg (sf_hd f) + 1) skip p c') ps = []); [|rewrite E, total_nil; ring].
    assert (G : forall p, In p ps -> use_velocities L b X (sf_vs f) (s_seg (sf_hd f) + 1) skip p c' = []).
    2:{ clear - G. induction ps as [|p l IH]; cbn [flat_map]; [reflexivity|]. rewrite (G p) by now left. apply IH. intros; apply G; now right. }
    intros p Hp. unfold ps in Hp. rewrite in_map_iff in Hp. destruct Hp as ([c dir] & <- & Ht). unfold cells in Ht. rewrite in_prod_iff in Ht. destruct Ht as [Hc Hd].
    rewrite in_zseq in Hd. unfold use_velocities. cbn [fst snd]. rewrite filter_none; [reflexivity|]. intros u Hu.
    destruct (seen L b _ c') eqn:ES; auto. exfalso.
    assert (cb_intersect (sheet_cells (ND := RNum) (NF := RNum) (fun x => x) (sf_hd f) (rb_cells b)) (rb_cb b) (rb_cells b) = true); [|congruence].
    apply (sheet_cells_near L skip (twin b) f X HS (twin_ok L b HB) c dir u c'); auto.
    + apply base_cell_room; auto. apply HS.
    + rewrite Forall_forall in HPool. specialize (HPool u0 (or_introl eq_refl)). rewrite Forall_forall in HPool. apply HPool.
      eapply firstn_sub; eauto.
Qed.

(** ** The workers of one pass *)

(** A vector buffer with room for [len] values of which [n] are shown. *)
Definition vbuf (len n : Z) (s : buffer R) : Prop :=
  match s with VBuf _ v k => (zlen (back v) = len /\ vis v = n) /\ zlen (back k) = len /\ vis k = n | _ => False end.
Definition vcap (len : Z) (s : buffer R) : Prop := exists n, vbuf len n s.
Definition blank (n : Z) : contents R := Vector (repeat (V3 0 0 0) (Z.to_nat n)) (repeat 0%Z (Z.to_nat n)).

Lemma clear_both {A B} (s : gslice A) (t : gslice B) x y m : (0 <= m <= vis s)%Z -> (vis s <= zlen (back s))%Z -> vis t = vis s -> (vis t <= zlen (back t))%Z ->
  exists s' t', for_ 0 m (fun i st => let '(s, t) := st in s <- gset s i x ;; t <- gset t i y ;; Ok (s, t))%res (s, t) = Ok (s', t') /\
    vis s' = vis s /\ zlen (back s') = zlen (back s) /\ firstn (Z.to_nat m) (back s') = repeat x (Z.to_nat m) /\
    vis t' = vis t /\ zlen (back t') = zlen (back t) /\ firstn (Z.to_nat m) (back t') = repeat y (Z.to_nat m).
Proof.
  intros H1 H2 H3 H4. destruct (clear_loop s x m H1 H2) as (s' & E1 & E2 & E3 & E4).
  destruct (clear_loop t y m ltac:(lia) H4) as (t' & F1 & F2 & F3 & F4). exists s', t'.
  split; [exact (for_pair m _ _ s t s' t' (proj1 H1) E1 F1)|]. auto 10.
Qed.

Lemma prepare_vector len n s : vcap len s -> (0 <= n <= len)%Z ->
  exists s', prepare s n = Ok s' /\ vbuf len n s' /\ contents_of s' = blank n.
Proof.
  intros [n0 H] Hn. destruct s as [|q v k]; [destruct H|]. destruct H as [[H1 H2] [H3 H4]].
  unfold prepare. cbn [buf_slice]. rewrite !reslice_ok by lia. cbn [bind buf_clear vis].
  destruct (clear_both (GS (back v) n) (GS (back k) n) (Density.zero3 (ND := RNum)) 0%Z n) as (s' & t' & E1 & E2 & E3 & E4 & E5 & E6 & E7); cbn [vis back] in *; try lia.
  rewrite E1. cbn [bind]. eexists. split; [reflexivity|]. cbn [vbuf contents_of]. split; [lia|].
  unfold visible, blank. rewrite E2, E5, E4, E7. reflexivity.
Qed.

Lemma hide_ok {A} len n (v : gslice A) l : zlen (back v) = len -> vis v = n -> (0 <= n <= len)%Z -> zlen l = n ->
  zlen (back (hide v l)) = len /\ vis (hide v l) = n /\ visible (hide v l) = l.
Proof.
  intros H1 H2 Hn Hl. cbn [hide back vis]. split; [unfold zlen in *; rewrite app_length, skipn_length; lia|]. split; [auto|].
  unfold visible. cbn [hide back vis]. replace (Z.to_nat (vis v)) with (List.length l) by (unfold zlen in Hl; lia).
  rewrite firstn_app, firstn_all, Nat.sub_diag. cbn. apply app_nil_r.
Qed.
Lemma with_vectors_ok len n s l k : vbuf len n s -> (0 <= n <= len)%Z -> zlen l = n -> zlen k = n ->
  vbuf len n (with_contents s (Vector l k)) /\ contents_of (with_contents s (Vector l k)) = Vector l k.
Proof.
  destruct s as [|q v c]; cbn [vbuf]; [tauto|]. intros [[H1 H2] [H3 H4]] Hn Hl Hk. cbn [with_contents contents_of vbuf].
  destruct (hide_ok len n v l H1 H2 Hn Hl) as (A1 & A2 & A3). destruct (hide_ok len n c k H3 H4 Hn Hk) as (B1 & B2 & B3).
  rewrite A3, B3. auto.
Qed.

Lemma zn_indep {A} (l : list A) d d' i : (0 <= i < zlen l)%Z -> zn d l i = zn d' l i.
Proof. intros H. unfold zn. apply nth_indep. unfold zlen in H. lia. Qed.
Definition vb0 : buffer R := VBuf 0 (GS [] 0) (GS [] 0).

Lemma total_concat L skip b s pss c f : total_of f (sheet_velocities L skip b s (List.concat pss) c) =
  rsum (map (fun ps => total_of f (sheet_velocities L skip b s ps c)) pss).
Proof.
  induction pss as [|ps pss IH]; cbn [List.concat map rsum fold_right]; [reflexivity|]. unfold sheet_velocities in *.
  rewrite flat_map_app, total_app, IH. reflexivity.
Qed.

Section Box.
Variables (L : R) (skip : Z) (b : rbox R) (f : sheet_file R R) (X : list (vec3 R)).
Hypothesis HS : sheet_ok L skip f X.
Hypothesis HB : box_ok L b.
Variable w : overlap.
Hypothesis HW : overlap_of b (sf_hd f) = Ok w.
Variable pool : list (list (vec3 R)).
Let units := units_of pool (rb_pts b).
Hypothesis HU : good_units (rb_pts b) units.
Hypothesis HF : faces_ok L skip b f X units.
Hypothesis HVs : zlen (sf_vs f) = s_grid (sf_hd f).
Variable choose : Z -> Z -> Z.
Hypothesis HC : forall id k, (0 <= choose id k < zlen units)%Z.
Variables (workers len : Z).
Hypothesis HWk : (1 <= workers)%Z.
Hypothesis HL : (buffer_size w <= len)%Z.
Let h := sf_hd f.
Let n := rb_cells b.
Let scaled := scale_xs (D := R) (NF := RNum) (fun x => x) w (sheet_cells (ND := RNum) (NF := RNum) (fun x => x) h n) (rb_cw b * IZR n) (sf_xs f).
Let mc := MC w (s_seg h) (rb_pts b) n skip units (fun _ => 0%Z).
Let run := run_worker (ND := RNum) (NF := RNum) (fun x => x) mc choose true (s_count h) workers scaled (sf_vs f).

Definition done_ok (id : Z) (ps : list use) (o : contents R) : Prop :=
  sized o (buffer_size w) /\ is_scalar o = false /\
  map fst ps = list_prod (worker_list (s_seg h / skip) skip workers id) (zseq 6) /\ Forall (fun p => In (snd p) units) ps /\
  forall q c, in_grid (image_size b) c ->
    contribution w q o c = total_of (gives (box_depth b) q) (sheet_velocities L skip b (f, X) ps c).

Definition upto (k : Z) (ws : list (buffer R)) : Prop :=
  zlen ws = workers /\ (forall id, (0 <= id < workers)%Z -> vbuf len (buffer_size w) (zn vb0 ws id)) /\
  (forall id, (k <= id < workers)%Z -> contents_of (zn vb0 ws id) = blank (buffer_size w)) /\
  exists pss, zlen pss = k /\ forall id, (0 <= id < k)%Z -> done_ok id (zn [] pss id) (contents_of (zn vb0 ws id)).

Lemma run_step k ws : (0 <= k < workers)%Z -> upto k ws -> exists ws', run k ws = Ok ws' /\ upto (k + 1) ws'.
Proof.
  intros Hk (U1 & U2 & U3 & pss & U4 & U5). unfold run, run_worker. rewrite (get_ok vb0) by lia. cbn [bind].
  pose proof (size_pos L skip b f X HS HB w HW) as SP. specialize (U2) as U2'.
  destruct (VelWork.worker_image L skip b f X HS HB w HW units HU HF HVs (choose k) (HC k) workers k (contents_of (zn vb0 ws k))) as (o & ps & E1 & E2 & E3 & E4 & E5 & E6).
  - exact Hk.
  - rewrite U3 by lia. unfold sized, blank, zlen. rewrite !repeat_length. lia.
  - rewrite U3 by lia. reflexivity.
  - fold h n scaled in E1. cbn [mc_sub mc_seg mc_points mc_cells mc_skip mc_unit mc]. fold n. rewrite E1. cbn [bind]. rewrite set_ok by lia.
    eexists. split; [reflexivity|]. destruct o as [|l kn]; [discriminate|]. cbn [sized] in E2.
    destruct (with_vectors_ok len (buffer_size w) (zn vb0 ws k) l kn) as [G1 G2]; auto; try apply E2.
    split; [now rewrite zlen_upd|]. split; [|split].
    + intros id Hid. rewrite zn_upd by lia. destruct (Z.eqb_spec id k); auto.
    + intros id Hid. rewrite zn_upd by lia. destruct (Z.eqb_spec id k); [lia|]. apply U3. lia.
    + exists (pss ++ [ps]). rewrite zlen_snoc. split; [lia|]. intros id Hid. rewrite zn_snoc, zn_upd, U4 by lia.
      destruct (Z.eqb_spec id k) as [-> |]; [|apply U5; lia].
      rewrite G2. split; [exact E2|]. split; [reflexivity|]. split; [exact E4|]. split; [exact E5|].
      intros q c Hc. rewrite E6 by auto. rewrite U3 by lia. rewrite (contribution_pick w q (blank _)), pick_zero; [apply Rplus_0_l|].
      intros j. unfold blank. assert (A : forall m, nth (Z.to_nat j) (repeat (V3 0 0 0) m) zero3 = V3 0 0 0).
      { intros m. destruct (Nat.lt_ge_cases (Z.to_nat j) m); [rewrite (nth_indep _ _ (V3 0 0 0)) by (rewrite repeat_length; lia); apply nth_repeat|].
        apply nth_overflow. rewrite repeat_length. lia. }
      destruct q; cbn [comp]; rewrite ?A; try reflexivity. now rewrite nth_repeat.
Qed.

Lemma run_all ws : upto 0 ws -> exists ws1 ws2, for_ 0 (workers - 1) run ws = Ok ws1 /\ run (workers - 1)%Z ws1 = Ok ws2 /\ upto workers ws2.
Proof.
  intros H0. pose proof (for_inv upto 0 (workers - 1) run ws ltac:(lia) H0) as HI.
  assert (HI' : wp (for_ 0 (workers - 1) run ws) (upto (workers - 1))).
  { apply HI. intros i s Hi Hu. destruct (run_step i s ltac:(lia) Hu) as (s' & E & Hs'). rewrite E. exact Hs'. }
  destruct (for_ 0 (workers - 1) run ws) as [ws1| | |]; try contradiction. cbn [wp] in *.
  destruct (run_step (workers - 1) ws1 ltac:(lia) HI') as (ws2 & E & H2). exists ws1, ws2. split; [reflexivity|]. split; [exact E|].
  now replace workers with (workers - 1 + 1)%Z by lia.
Qed.

Lemma merge_vectors ws order vals0 : upto workers ws -> Permutation order (zseq workers) ->
  sized vals0 (volume (image_size b)) -> is_scalar vals0 = false ->
  exists vals ps, merge_fix w ws order vals0 = Ok vals /\ sized vals (volume (image_size b)) /\ is_scalar vals = false /\
    uses_of (s_seg h) skip units ps /\
    forall q c, in_grid (image_size b) c -> comp q vals (cell_index (image_size b) c) =
      comp q vals0 (cell_index (image_size b) c) + total_of (gives (box_depth b) q) (sheet_velocities L skip b (f, X) ps c).
Proof.
  intros (U1 & U2 & _ & pss & U4 & U5) HO B6 B7.
  assert (HIn : forall id, In id order -> (0 <= id < workers)%Z).
  { intros id Hid. apply in_zseq. eapply Permutation_in; eauto. }
  rewrite merge_each by (rewrite U1; exact HIn).
  destruct (add_each_ok w (map (fun id => contents_of (zn sb0 ws id)) order) vals0) as (g & G1 & G2 & G3 & G4).
  - exact (w_mergeable L skip b f X HS HB w HW).
  - rewrite Forall_map. apply Forall_forall. intros id Hid. destruct (U5 id (HIn id Hid)) as (D1 & D2 & _).
    rewrite buffer_size_volume by exact (w_valid L skip b f X HS HB w HW). rewrite B7.
    rewrite (zn_indep ws sb0 vb0) by (rewrite U1; auto). auto.
  - rewrite (w_image L b f HB w HW). exact B6.
  - rewrite (w_image L b f HB w HW) in *. exists g, (List.concat pss). split; [exact G1|]. split; [exact G2|].
    split; [rewrite G3; exact B7|]. split; [split|].
    + apply perm_trans with (list_prod (flat_map (worker_list (s_seg h / skip) skip workers) (zseq workers)) (zseq 6)).
      2: { apply perm_list_prod, workers_partition; [apply Z.div_str_pos; apply HS|apply HS|lia]. }
      rewrite list_prod_flat_map, concat_map, flat_map_concat_map. rewrite (list_zn [] pss) at 1. rewrite map_map, U4.
      erewrite map_ext_in; [apply Permutation_refl|]. intros id Hid. rewrite in_zseq in Hid. apply (U5 id Hid).
    + apply Forall_forall. intros p Hp. rewrite in_concat in Hp. destruct Hp as (ps & Hps & Hp).
      rewrite (list_zn [] pss), in_map_iff in Hps. destruct Hps as (id & <- & Hid). rewrite in_zseq, U4 in Hid.
      destruct (U5 id Hid) as (_ & _ & _ & D4 & _). rewrite Forall_forall in D4. auto.
    + intros q c Hc. rewrite G4 by auto. f_equal. rewrite map_map.
      rewrite (rsum_perm _ (map (fun id => contribution w q (contents_of (zn sb0 ws id)) c) (zseq workers))) by now apply Permutation_map.
      rewrite total_concat. rewrite (list_zn [] pss), map_map, U4. f_equal. apply map_ext_in. intros id Hid. rewrite in_zseq in Hid.
      rewrite (zn_indep ws sb0 vb0) by (rewrite U1; auto). destruct (U5 id Hid) as (_ & _ & _ & _ & D5). apply D5. exact Hc.
Qed.
End Box.
