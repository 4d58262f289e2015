(** One pass of the manager: one file in one box. *)
From Coq Require Import ZArith List Bool Reals Lra Lia ZifyBool ZifyNat Permutation String.
From Flocq Require Import Core.Raux.
From Verif Require Import Base.Res Base.ResFacts Base.Num Model.Geom Model.GridDeriv Model.Density Model.Box Model.Render Model.SheetIO Model.Manager.
From Verif Require Import Spec.Geometry Spec.GeomDefs Spec.Fields Spec.FieldDefs Spec.Work Spec.Deposits Spec.Workspace Spec.Renders.
From Verif Require Import Proof.SheetFall Proof.SheetFrame Proof.SheetPass Proof.SheetWork Proof.SheetCull Proof.RenderP Proof.MassP Proof.AddP Proof.WorkP.
Import ListNotations.
Open Scope R_scope.
Local Notation overlap_of := (box_overlap (ND := RNum) (NF := RNum) (fun x => x)).

Lemma F2_len {A B} (P : A -> B -> Prop) l l' : Forall2 P l l' -> List.length l = List.length l'.
Proof. induction 1; simpl; congruence. Qed.

(** ** Growing images *)

(** The first [pts] points of every buffer of a pool. *)
Definition units_of (pool : list (list (vec3 R))) (pts : Z) : list (list (vec3 R)) := map (firstn (Z.to_nat pts)) pool.
Definition rendered_pool L skip pool l b b' := rendered L skip (units_of pool (rb_pts b)) l b b'.

Lemma rendered_refl L skip pool b : sized (rb_vals b) (volume (image_size b)) -> is_scalar (rb_vals b) = true -> rendered_pool L skip pool [] b b.
Proof.
  intros H1 H2. split; [destruct b; reflexivity|]. split; [auto|]. split; [auto|]. exists []. split; [constructor|]. intros. simpl. ring.
Qed.

Lemma sheets_add_app L skip b l l' us us' c : List.length l = List.length us ->
  sheets_add L skip b (l ++ l') (us ++ us') c = sheets_add L skip b l us c + sheets_add L skip b l' us' c.
Proof.
  revert us. induction l as [|s l IH]; intros [|ps us] H; try discriminate; cbn [app sheets_add]; [ring|].
  rewrite IH by (injection H as H; exact H). ring.
Qed.
Lemma sheets_add_set L skip b v l us c : sheets_add L skip (set_vals b v) l us c = sheets_add L skip b l us c.
Proof. revert us. induction l as [|s l IH]; intros [|ps us]; cbn [sheets_add]; auto. rewrite IH. reflexivity. Qed.

Lemma rendered_trans L skip pool l l' b b1 b2 : rendered_pool L skip pool l b b1 -> rendered_pool L skip pool l' b1 b2 -> rendered_pool L skip pool (l ++ l') b b2.
Proof.
  intros (A1 & A2 & A3 & us & A4 & A5) (B1 & B2 & B3 & us' & B4 & B5).
  assert (EB : b1 = set_vals b (rb_vals b1)) by exact A1. rewrite EB in B1, B2, B4, B5.
  change (image_size (set_vals b (rb_vals b1))) with (image_size b) in *. change (rb_pts (set_vals b (rb_vals b1))) with (rb_pts b) in *.
  split; [rewrite B1; reflexivity|]. split; [auto|]. split; [auto|]. exists (us ++ us'). split; [apply Forall2_app; auto|].
  intros c Hc. rewrite B5, sheets_add_set by auto. cbn [rb_vals set_vals]. rewrite A5 by auto.
  rewrite sheets_add_app by exact (F2_len _ _ _ A4). ring.
Qed.

Lemma firstn_sub {A} (x : A) k l : In x (firstn k l) -> In x l.
Proof. revert l. induction k as [|k IH]; intros [|y l]; cbn; try tauto. intros [H|H]; auto. Qed.

(** A sheet that does not reach the box adds nothing, whatever is sampled. *)
Lemma sheet_cells_near L skip b f X (HS : sheet_ok L skip f X) (HB : box_ok L b) c dir u c' :
  cube_room (s_seg (sf_hd f) + 1) skip c -> (0 <= dir < 6)%Z -> unit_simplex u -> in_grid (image_size b) c' ->
  seen L b (sample X (s_seg (sf_hd f) + 1) skip c dir u) c' = true ->
  cb_intersect (sheet_cells (ND := RNum) (NF := RNum) (fun x => x) (sf_hd f) (rb_cells b)) (rb_cb b) (rb_cells b) = true.
Proof.
  intros HR HD HU HI HSn. destruct (overlap_exists b f) as [w HW].
  destruct (low_vector L skip b f X HS HB w HW) as [lo Hlo].
  set (xcb := sheet_cells _ _ _) in *. pose proof (n_ge L b HB) as Hn.
  assert (G : forall a, axis a -> intersect_axis (vget (origin xcb) a) (vget (width xcb) a) (vget (origin (rb_cb b)) a) (vget (width (rb_cb b)) a) (rb_cells b) = true).
  { intros a Ha. pose proof (sheet_axis_range L skip b f X HS HB a Ha) as SR. pose proof (box_axis_range L b HB a Ha) as XR. fold xcb in SR.
    destruct (seen_cell L skip b f X HB w lo Hlo c dir u c' HI HSn a Ha) as (e & He & Hk).
    pose proof (point_in L skip b f X HS HB w HW lo Hlo c dir u HR HD HU a Ha) as PI.
    destruct (point_floor L skip b f X HS HB w HW lo Hlo c dir u HR HD a Ha) as [K EK]. fold xcb in PI.
    set (y := vget (mix u _ _ _ _) a) in PI, EK. destruct (Hlo a Ha) as (_ & (K2 & EK2) & _).
    apply intersect_axis_near; try lia. exists (Zfloor y - vget lo a + vget (origin xcb) a)%Z, (vget (origin (rb_cb b)) a + e)%Z.
    unfold in_range. split; [|split; [lia|]].
    - assert (vget lo a <= Zfloor y)%Z by (apply Zfloor_lub; apply PI).
      assert (Zfloor y < vget lo a + vget (width xcb) a)%Z by (apply lt_IZR; apply Rle_lt_trans with y; [apply Zfloor_lb|apply PI]). lia.
    - destruct Hk as [k Hk]. exists (k + K - K2)%Z. lia. }
  unfold cb_intersect. apply andb_true_intro. split; [apply andb_true_intro; split|]; [exact (G 0%Z axis0)|exact (G 1%Z axis1)|exact (G 2%Z axis2)].
Qed.

Lemma all_hits_none L b X m skip ps c : (forall p, In p ps -> hits L b X m skip p c = 0%Z) -> all_hits L b X m skip ps c = 0%Z.
Proof. unfold all_hits. intros H. induction ps as [|p ps IH]; cbn [map fold_right]; auto. rewrite (H p) by now left. rewrite IH by (intros; apply H; now right). reflexivity. Qed.

Lemma rendered_skip L skip pool b f X : sheet_ok L skip f X -> box_ok L b -> pool <> [] ->
  Forall (Forall unit_simplex) pool ->
  cb_intersect (sheet_cells (ND := RNum) (NF := RNum) (fun x => x) (sf_hd f) (rb_cells b)) (rb_cb b) (rb_cells b) = false ->
  rendered_pool L skip pool [(f, X)] b b.
Proof.
  intros HS HB HP HPool HN. pose proof HB as (_ & _ & _ & _ & _ & B6 & B7).
  split; [destruct b; reflexivity|]. split; [auto|]. split; [auto|].
  destruct pool as [|u0 pool]; [congruence|]. set (units := units_of (u0 :: pool) (rb_pts b)).
  set (cells := list_prod (base_cells (s_seg (sf_hd f) / skip) skip) (zseq 6)).
  set (ps := map (fun t : cell * Z => (t, firstn (Z.to_nat (rb_pts b)) u0)) cells).
  exists [ps]. split.
  - constructor; [|constructor]. cbn [fst]. split.
    + unfold ps. rewrite map_map. cbn [fst]. rewrite map_id. apply Permutation_refl.
    + unfold ps. rewrite Forall_map. apply Forall_forall. intros t _. cbn [snd]. now left.
  - intros c' Hc'. cbn [sheets_add]. unfold sheet_adds. cbn [fst snd]. rewrite all_hits_none; [simpl; ring|].
    intros p Hp. unfold ps in Hp. rewrite in_map_iff in Hp. destruct Hp as ([c dir] & <- & Ht). unfold cells in Ht. rewrite in_prod_iff in Ht. destruct Ht as [Hc Hd].
    rewrite in_zseq in Hd. unfold hits. cbn [fst snd]. apply filter_none_zlen. intros u Hu.
    destruct (seen L b _ c') eqn:ES; auto. exfalso.
    assert (cb_intersect (sheet_cells (ND := RNum) (NF := RNum) (fun x => x) (sf_hd f) (rb_cells b)) (rb_cb b) (rb_cells b) = true); [|congruence].
    eapply sheet_cells_near; eauto.
    + apply base_cell_room; auto. apply HS.
    + rewrite Forall_forall in HPool. specialize (HPool u0 (or_introl eq_refl)). rewrite Forall_forall in HPool. apply HPool.
      eapply firstn_sub; eauto.
Qed.

(** ** The workers of one pass *)
Lemma map_res_ex {A B} (f : A -> res B) (P : A -> B -> Prop) l : Forall (fun a => exists b, f a = Ok b /\ P a b) l ->
  exists l', map_res f l = Ok l' /\ Forall2 P l l'.
Proof.
  induction 1 as [|a l (b & E & Hb) _ (l' & E' & F')]; [exists []; split; [reflexivity|constructor]|].
  exists (b :: l'). cbn [map_res]. rewrite E. cbn [bind]. rewrite E'. cbn [bind]. split; [reflexivity|now constructor].
Qed.

(** A scalar buffer with room for [len] values of which [n] are shown. *)
Definition sbuf (len n : Z) (s : buffer R) : Prop :=
  match s with SBuf _ v => zlen (back v) = len /\ vis v = n | _ => False end.
Definition scap (len : Z) (s : buffer R) : Prop := exists n, sbuf len n s.

Lemma prepare_scalar len n s : scap len s -> (0 <= n <= len)%Z ->
  exists s', prepare s n = Ok s' /\ sbuf len n s' /\ contents_of s' = Scalar (repeat 0 (Z.to_nat n)).
Proof.
  intros [n0 H] Hn. destruct s as [q v|]; [|destruct H]. destruct H as [H1 H2].
  unfold prepare. cbn [buf_slice]. rewrite reslice_ok by lia. cbn [bind buf_clear vis].
  destruct (clear_loop (GS (back v) n) (nofZ (Num := RNum) 0) n) as (s' & E1 & E2 & E3 & E4); cbn [vis back] in *; try lia.
  rewrite E1. cbn [bind]. eexists. split; [reflexivity|]. cbn [sbuf contents_of]. split; [lia|].
  unfold visible. rewrite E2. f_equal. exact E4.
Qed.

Lemma with_contents_ok len n s l : sbuf len n s -> (0 <= n <= len)%Z -> zlen l = n ->
  sbuf len n (with_contents s (Scalar l)) /\ contents_of (with_contents s (Scalar l)) = Scalar l.
Proof.
  destruct s as [q v|]; cbn [sbuf]; [|tauto]. intros [H1 H2] Hn Hl. cbn [with_contents contents_of hide sbuf back vis visible].
  unfold visible. cbn [back vis]. split.
  - split; [|auto]. unfold zlen in *. rewrite app_length, skipn_length. lia.
  - f_equal. replace (Z.to_nat (vis (hide v l))) with (List.length l) by (cbn [hide vis]; unfold zlen in Hl; lia). cbn [hide back].
    rewrite firstn_app, firstn_all, Nat.sub_diag. cbn. apply app_nil_r.
Qed.

Definition sb0 : buffer R := SBuf 0 (GS [] 0).

Lemma zlen_snoc {A} (l : list A) x : zlen (l ++ [x]) = (zlen l + 1)%Z.
Proof. unfold zlen. rewrite app_length. cbn. lia. Qed.
Lemma zn_snoc {A} (d : A) l x i : (0 <= i <= zlen l)%Z -> zn d (l ++ [x]) i = if (i =? zlen l)%Z then x else zn d l i.
Proof.
  intros H. unfold zn, zlen in *. destruct (Z.eqb_spec i (Z.of_nat (List.length l))) as [-> |].
  - rewrite Nat2Z.id, app_nth2, Nat.sub_diag by lia. reflexivity.
  - rewrite app_nth1 by lia. reflexivity.
Qed.

Lemma hits_app L b X m skip ps qs c : all_hits L b X m skip (ps ++ qs) c = (all_hits L b X m skip ps c + all_hits L b X m skip qs c)%Z.
Proof. unfold all_hits. induction ps as [|p ps IH]; cbn [app map fold_right]; [reflexivity|]. rewrite IH. lia. Qed.
Lemma all_hits_concat L b X m skip pss c : all_hits L b X m skip (List.concat pss) c = fold_right Z.add 0%Z (map (fun ps => all_hits L b X m skip ps c) pss).
Proof. induction pss as [|ps pss IH]; cbn [List.concat map fold_right]; [reflexivity|]. rewrite hits_app, IH. reflexivity. Qed.

Lemma rsum_zsum (k : R) (f : list use -> Z) pss : rsum (map (fun ps => k * IZR (f ps)) pss) = k * IZR (fold_right Z.add 0%Z (map f pss)).
Proof. induction pss as [|ps pss IH]; cbn [map rsum fold_right]; [lra|]. unfold rsum in IH. rewrite IH, plus_IZR. lra. Qed.

Lemma list_prod_flat_map {A B C} (g : C -> list A) (l : list C) (k : list B) : list_prod (flat_map g l) k = flat_map (fun x => list_prod (g x) k) l.
Proof.
  induction l as [|x l IH]; [reflexivity|]. cbn [flat_map]. rewrite <- IH. clear IH. induction (g x) as [|a t IHt]; [reflexivity|].
  cbn [app list_prod]. rewrite IHt, app_assoc. reflexivity.
Qed.
Lemma perm_list_prod {A B} (l l' : list A) (k : list B) : Permutation l l' -> Permutation (list_prod l k) (list_prod l' k).
Proof.
  induction 1; cbn [list_prod]; auto.
  - now apply Permutation_app_head.
  - rewrite !app_assoc. apply Permutation_app_tail, Permutation_app_comm.
  - eapply perm_trans; eauto.
Qed.

Lemma list_zn {A} (d : A) l : l = map (zn d l) (zseq (zlen l)).
Proof.
  apply (list_ext d); [unfold zseq; rewrite zlen_map; unfold zlen; rewrite map_length, seq_length; lia|].
  intros i Hi. unfold zn at 2. unfold zseq. rewrite map_map. rewrite (nth_indep _ d (zn d l (Z.of_nat 0%nat))); [|rewrite map_length, seq_length; unfold zlen in *; lia].
  rewrite (map_nth (fun x => zn d l (Z.of_nat x))). rewrite seq_nth by (unfold zlen in *; lia). f_equal. lia.
Qed.

Section Box.
Variables (L : R) (skip : Z) (b : rbox R) (f : sheet_file R R) (X : list (vec3 R)).
Hypothesis HS : sheet_ok L skip f X.
Hypothesis HB : box_ok L b.
Variable w : overlap.
Hypothesis HW : overlap_of b (sf_hd f) = Ok w.
Lemma size_pos : (0 <= buffer_size w)%Z.
Proof.
  pose proof (buf_axis_range L skip b f X HS HB w HW 0%Z axis0) as (_ & A0). pose proof (buf_axis_range L skip b f X HS HB w HW 1%Z axis1) as (_ & A1).
  pose proof (buf_axis_range L skip b f X HS HB w HW 2%Z axis2) as (_ & A2). cbn [vget Z.eqb Pos.eqb] in *.
  unfold buffer_size. cbv zeta. set (a0 := v0 _) in *. set (a1 := v1 _) in *. set (a2 := v2 _) in *. clearbody a0 a1 a2.
  destruct (okd w); repeat match goal with |- context [if ?c then _ else _] => destruct c end; nia.
Qed.

Variable pool : list (list (vec3 R)).
Let units := units_of pool (rb_pts b).
Hypothesis HU : good_units (rb_pts b) units.
Hypothesis HF : faces_ok L skip b f X units.
Variable vs : list (vec3 R).
Variable choose : Z -> Z -> Z.
Hypothesis HC : forall id k, (0 <= choose id k < zlen units)%Z.
Variables (workers len : Z).
Hypothesis HWk : (1 <= workers)%Z.
Hypothesis HL : (buffer_size w <= len)%Z.
Let h := sf_hd f.
Let n := rb_cells b.
Let scaled := scale_xs (D := R) (NF := RNum) (fun x => x) w (sheet_cells (ND := RNum) (NF := RNum) (fun x => x) h n) (rb_cw b * IZR n) (sf_xs f).
Let mc := MC w (s_seg h) (rb_pts b) n skip units (fun _ => 0%Z).
Let run := run_worker (ND := RNum) (NF := RNum) (fun x => x) mc choose false (s_count h) workers scaled vs.

Definition done_ok (id : Z) (ps : list use) (o : contents R) : Prop :=
  sized o (buffer_size w) /\ is_scalar o = true /\
  map fst ps = list_prod (worker_list (s_seg h / skip) skip workers id) (zseq 6) /\ Forall (fun p => In (snd p) units) ps /\
  forall c, in_grid (image_size b) c ->
    contribution w Value o c = sample_value b (s_count h) skip * IZR (all_hits L b X (s_seg h + 1) skip ps c).

Definition upto (k : Z) (ws : list (buffer R)) : Prop :=
  zlen ws = workers /\ (forall id, (0 <= id < workers)%Z -> sbuf len (buffer_size w) (zn sb0 ws id)) /\
  (forall id, (k <= id < workers)%Z -> contents_of (zn sb0 ws id) = Scalar (repeat 0 (Z.to_nat (buffer_size w)))) /\
  exists pss, zlen pss = k /\ forall id, (0 <= id < k)%Z -> done_ok id (zn [] pss id) (contents_of (zn sb0 ws id)).

Lemma run_step k ws : (0 <= k < workers)%Z -> upto k ws -> exists ws', run k ws = Ok ws' /\ upto (k + 1) ws'.
Proof.
  intros Hk (U1 & U2 & U3 & pss & U4 & U5). unfold run, run_worker. rewrite (get_ok sb0) by lia. cbn [bind].
  pose proof size_pos as SP. specialize (U2) as U2'.
  destruct (worker_image L skip b f X HS HB w HW units HU HF vs (choose k) (HC k) workers k (contents_of (zn sb0 ws k))) as (o & ps & E1 & E2 & E3 & E4 & E5 & E6).
  - exact Hk.
  - rewrite U3 by lia. unfold sized, zlen. rewrite repeat_length. lia.
  - rewrite U3 by lia. reflexivity.
  - fold h n scaled in E1. cbn [mc_sub mc_seg mc_points mc_cells mc_skip mc_unit mc]. fold n. rewrite E1. cbn [bind]. rewrite set_ok by lia.
    eexists. split; [reflexivity|]. destruct o as [l|]; [|discriminate]. cbn [sized] in E2.
    destruct (with_contents_ok len (buffer_size w) (zn sb0 ws k) l) as [G1 G2]; auto.
    split; [now rewrite zlen_upd|]. split; [|split].
    + intros id Hid. rewrite zn_upd by lia. destruct (Z.eqb_spec id k); auto.
    + intros id Hid. rewrite zn_upd by lia. destruct (Z.eqb_spec id k); [lia|]. apply U3. lia.
    + exists (pss ++ [ps]). rewrite zlen_snoc. split; [lia|]. intros id Hid. rewrite zn_snoc, zn_upd, U4 by lia.
      destruct (Z.eqb_spec id k) as [-> |]; [|apply U5; lia].
      rewrite G2. split; [exact E2|]. split; [reflexivity|]. split; [exact E4|]. split; [exact E5|].
      intros c Hc. rewrite E6 by auto. rewrite U3 by lia. rewrite (contribution_pick w Value (Scalar _)), pick_zero; [apply Rplus_0_l|].
      intros j. cbn [comp]. destruct (Nat.lt_ge_cases (Z.to_nat j) (Z.to_nat (buffer_size w))).
      * apply nth_repeat.
      * apply nth_overflow. rewrite repeat_length. lia.
Qed.

Lemma run_all ws : upto 0 ws -> exists ws1 ws2, for_ 0 (workers - 1) run ws = Ok ws1 /\ run (workers - 1)%Z ws1 = Ok ws2 /\ upto workers ws2.
Proof.
  intros H0. pose proof (for_inv upto 0 (workers - 1) run ws ltac:(lia) H0) as HI.
  assert (HI' : wp (for_ 0 (workers - 1) run ws) (upto (workers - 1))).
  { apply HI. intros i s Hi Hu. destruct (run_step i s ltac:(lia) Hu) as (s' & E & Hs'). rewrite E. exact Hs'. }
  destruct (for_ 0 (workers - 1) run ws) as [ws1| | |]; try contradiction. cbn [wp] in *.
  destruct (run_step (workers - 1) ws1 ltac:(lia) HI') as (ws2 & E & H2). exists ws1, ws2. split; [reflexivity|]. split; [exact E|].
  now replace workers with (workers - 1 + 1)%Z by lia.
Qed.

Definition merge_fix (ws : list (buffer R)) := fix merge ids vals := match ids with
           | [] => Ok vals
           | id :: ids => s <- get ws id ;; vals <- overlap_add (ND := RNum) w (contents_of s) vals ;; merge ids vals
           end%res.
Lemma merge_each ws ids : (forall id, In id ids -> (0 <= id < zlen ws)%Z) -> forall vals,
  merge_fix ws ids vals = each (map (fun id => contents_of (zn sb0 ws id)) ids) (overlap_add (ND := RNum) w) vals.
Proof.
  induction ids as [|id ids IH]; intros H vals; [reflexivity|]. cbn [map each merge_fix].
  rewrite (get_ok sb0) by (apply H; now left). cbn [bind]. destruct (overlap_add w _ vals); cbn [bind]; auto.
  apply IH. intros. apply H. now right.
Qed.

Lemma merge_ok ws order : upto workers ws -> Permutation order (zseq workers) ->
  exists vals, merge_fix ws order (rb_vals b) = Ok vals /\ rendered_pool L skip pool [(f, X)] b (set_vals b vals).
Proof.
  intros (U1 & U2 & _ & pss & U4 & U5) HO.
  assert (HIn : forall id, In id order -> (0 <= id < workers)%Z).
  { intros id Hid. apply in_zseq. eapply Permutation_in; eauto. }
  rewrite merge_each by (rewrite U1; exact HIn).
  pose proof HB as (_ & _ & _ & _ & _ & B6 & B7).
  destruct (add_each_ok w (map (fun id => contents_of (zn sb0 ws id)) order) (rb_vals b)) as (g & G1 & G2 & G3 & G4).
  - exact (w_mergeable L skip b f X HS HB w HW).
  - rewrite Forall_map. apply Forall_forall. intros id Hid. destruct (U5 id (HIn id Hid)) as (D1 & D2 & _).
    rewrite buffer_size_volume by exact (w_valid L skip b f X HS HB w HW). rewrite D2, B7. auto.
  - rewrite (w_image L b f HB w HW). exact B6.
  - rewrite (w_image L b f HB w HW) in *. exists g. split; [exact G1|]. split; [reflexivity|]. split; [exact G2|].
    split; [cbn [rb_vals set_vals]; rewrite G3; exact B7|]. exists [List.concat pss]. split.
    + constructor; [|constructor]. cbn [fst]. fold h units. split.
      * apply perm_trans with (list_prod (flat_map (worker_list (s_seg h / skip) skip workers) (zseq workers)) (zseq 6)).
        2: { apply perm_list_prod, workers_partition; [apply Z.div_str_pos; apply HS|apply HS|lia]. }
        rewrite list_prod_flat_map, concat_map, flat_map_concat_map. rewrite (list_zn [] pss) at 1. rewrite map_map, U4.
        erewrite map_ext_in; [apply Permutation_refl|]. intros id Hid. rewrite in_zseq in Hid. apply (U5 id Hid).
      * apply Forall_forall. intros p Hp. rewrite in_concat in Hp. destruct Hp as (ps & Hps & Hp).
        rewrite (list_zn [] pss), in_map_iff in Hps. destruct Hps as (id & <- & Hid). rewrite in_zseq, U4 in Hid.
        destruct (U5 id Hid) as (_ & _ & _ & D4 & _). rewrite Forall_forall in D4. auto.
    + intros c Hc. cbn [rb_vals set_vals sheets_add]. rewrite G4 by auto. f_equal. rewrite Rplus_0_r.
      unfold sheet_adds. cbn [fst snd]. fold h. rewrite map_map.
      rewrite (rsum_perm _ (map (fun id => contribution w Value (contents_of (zn sb0 ws id)) c) (zseq workers))) by now apply Permutation_map.
      rewrite all_hits_concat, <- rsum_zsum. rewrite (list_zn [] pss), map_map, U4. f_equal. apply map_ext_in. intros id Hid. rewrite in_zseq in Hid.
      destruct (U5 id Hid) as (_ & _ & _ & _ & D5). apply D5. exact Hc.
Qed.
End Box.
