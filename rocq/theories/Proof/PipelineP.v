(** The files of writeGrids are sheets the manager renders. *)
From Coq Require Import ZArith String List Bool Reals Lra Lia ZifyBool ZifyNat Permutation.
From Flocq Require Import Core.Raux.
From Verif Require Import Base.Res Base.ResFacts Base.Num Model.Geom Model.GridDeriv Model.Density Model.Box Model.Render Model.SheetIO Model.Main Model.Manager Model.Pipeline.
From Verif Require Import Spec.Geometry Spec.GeomDefs Spec.Fields Spec.Matrix Spec.Work Spec.Segments Spec.Renders Spec.Pipelines.
From Verif Require Import Proof.SegP Proof.MainP Proof.MainQ Proof.RenderP Proof.SheetFrame Proof.ManagerBox Proof.ManagerP Proof.ManagerMass Proof.ManagerX Spec.ManagerEx.
Import ListNotations.
Open Scope Z_scope.

(** ** The mean of images, any number of files *)
Theorem job_share L skip q workers rnd choose order fs (sheet : string -> sheet_file R R) X files boxes grid seg cnt :
  files <> [] -> boxes <> [] -> 1 <= workers -> requires_velocity q = Ok false ->
  (forall bi j, unit_cube (rnd bi j)) -> (forall k ri id j, 0 <= choose k ri id j < 64) ->
  (forall k ri, Permutation (order k ri) (zseq workers)) ->
  Forall (box_ok L) boxes ->
  (forall file, In file files -> fs file = Some (sheet file) /\ sheet_ok L skip (sheet file) (X file) /\
     s_grid (sf_hd (sheet file)) = grid /\ s_seg (sf_hd (sheet file)) = seg /\ s_count (sf_hd (sheet file)) = cnt /\
     forall b, In b boxes -> faces_ok L skip b (sheet file) (X file) (unit_pool rnd (rb_pts b))) ->
  seg mod skip = 0 ->
  exists out, render_job (ND := RNum) (NF := RNum) (fun x => x) (fun x => x) fs workers rnd choose order files boxes q skip = Ok out /\
    Forall2 (fun b b' => whole b -> image_mean b' = (image_mean b + IZR (zlen files) * (IZR seg / IZR cnt) ^ 3)%R) boxes out.
Proof.
  intros H1 H2 H3 H4 H5 H6 H7 H8 HF HD.
  destruct (job_ok L skip q workers rnd choose order fs sheet X files boxes grid H1 H2 H3 H4 H5 H6 H7 H8) as (out & E & HO).
  { intros file Hf. destruct (HF file Hf) as (A & B & C & _ & _ & G). auto. }
  exists out. split; [exact E|]. clear E.
  assert (HL : Forall (fun s => s_seg (sf_hd (fst s)) = seg /\ s_count (sf_hd (fst s)) = cnt) (map (fun file => (sheet file, X file)) files)).
  { rewrite Forall_map. apply Forall_forall. intros file Hf. destruct (HF file Hf) as (_ & _ & _ & A & B & _). auto. }
  assert (HSg : 0 < skip <= seg /\ 0 < cnt).
  { destruct files as [|g r]; [congruence|]. destruct (HF g (or_introl eq_refl)) as (_ & (_ & A & B & _) & _ & E1 & E2 & _). rewrite <- E1, <- E2. auto. }
  assert (ES : shares (map (fun file => (sheet file, X file)) files) = (IZR (zlen files) * (IZR seg / IZR cnt) ^ 3)%R).
  { replace (zlen files) with (zlen (map (fun file => (sheet file, X file)) files)) by (unfold zlen; now rewrite map_length).
    clear -HL. induction HL as [|s l (H1 & H2) _ IH]; [unfold zlen; cbn; ring|]. cbn [shares]. rewrite IH, H1, H2.
    replace (zlen (s :: l)) with (zlen l + 1)%Z by (unfold zlen; cbn [List.length]; lia). rewrite plus_IZR. ring. }
  clear HF H1 H2. induction HO as [|b b' bs bs' HR _ IH]; constructor.
  - intros HW. inversion_clear H8 as [|? ? HB _].
    rewrite (mean_ok L skip _ _ b b' HB HW (units_len rnd (rb_pts b) (Z.lt_le_incl _ _ (proj1 (proj2 (proj2 HB))))) ltac:(eapply Forall_impl; [|exact HL]; cbv beta; intros s [-> ->]; tauto) HR).
    f_equal. exact ES.
  - apply IH. now inversion H8.
Qed.

(** ** Unwrapped positions *)
Lemma unwrap1_ok L o w x : (0 < L -> 0 <= w < L -> periodic_in L o w x -> o <= unwrap1 L o x <= o + w)%R.
Proof.
  intros HL HW (k & Hk). unfold unwrap1. replace (Zceil ((o - x) / L)) with k; [exact Hk|]. symmetry. apply Zceil_imp. rewrite minus_IZR.
  assert (E : ((o - x) / L * L = o - x)%R) by (field; lra). split; apply (Rmult_lt_reg_r L) || apply (Rmult_le_reg_r L); lra.
Qed.

Lemma unwrap_ok L o w x : (0 < L)%R -> (forall a, In a [0; 1; 2] -> (0 <= vget w a < L)%R /\ periodic_in L (vget o a) (vget w a) (vget x a)) ->
  unwrapped L o w x (unwrap L o x).
Proof.
  intros HL H a Ha. destruct (H a Ha) as [H1 H2].
  assert (E : vget (unwrap L o x) a = unwrap1 L (vget o a) (vget x a)).
  { cbn [In] in Ha. decompose [or] Ha; subst; try contradiction; reflexivity. }
  rewrite E. split; [now apply unwrap1_ok|]. exists (Zceil ((vget o a - vget x a) / L)). reflexivity.
Qed.

(** ** Files on disk *)
Lemma cube_coords g i : 0 < g -> 0 <= i < g * g * g ->
  exists a b c, 0 <= a < g /\ 0 <= b < g /\ 0 <= c < g /\ i = cube_index g a b c.
Proof.
  intros Hg Hi. exists (i mod g), ((i / g) mod g), (i / g / g).
  split; [apply Z.mod_pos_bound; lia|]. split; [apply Z.mod_pos_bound; lia|]. split.
  - split; [apply Z.div_pos; [apply Z.div_pos; lia|lia]|]. rewrite Z.div_div by lia. apply Z.div_lt_upper_bound; [nia|lia].
  - unfold cube_index. pose proof (Z.div_mod i g ltac:(lia)). pose proof (Z.div_mod (i / g) g ltac:(lia)). nia.
Qed.

Section Disk.
Variables (L : R) (d : vec3 R) (n s cells skip : Z) (xs vs : list (vec3 R)).
Hypotheses (HL : (0 < L)%R) (Hc : 0 < cells) (Hs : 0 < skip <= s) (Hn : n = cells * s) (LX : zlen xs = n * n * n) (LV : zlen vs = n * n * n).
Hypotheses (HX : forall a, In a [0; 1; 2] -> Forall (fun x => (0 <= vget x a < L)%R) xs) (HN : narrow L d n s cells xs).

Lemma cube_elements x y z seg : 0 <= x < cells -> 0 <= y < cells -> 0 <= z < cells -> holds_cube d n s x y z xs seg ->
  forall p, In p seg -> In p xs /\ exists a b c, 0 <= a <= s /\ 0 <= b <= s /\ 0 <= c <= s /\ p = zn d xs (periodic_index n (s * x + a) (s * y + b) (s * z + c)).
Proof.
  intros Hx Hy Hz (LS & H) p Hp. apply (In_nth _ _ d) in Hp. destruct Hp as (i & Hi & E).
  destruct (cube_coords (s + 1) (Z.of_nat i)) as (a & b & c & Ha & Hb & Hcc & Ei); [lia|unfold zlen in LS; lia|].
  specialize (H a b c ltac:(lia) ltac:(lia) ltac:(lia)). rewrite <- Ei in H. unfold zn in H at 1. rewrite Nat2Z.id, E in H. split.
  - rewrite H. unfold zn. apply nth_In. unfold periodic_index.
    pose proof (Z.mod_pos_bound (s * x + a) n ltac:(nia)). pose proof (Z.mod_pos_bound (s * y + b) n ltac:(nia)). pose proof (Z.mod_pos_bound (s * z + c) n ltac:(nia)).
    unfold zlen in LX. nia.
  - exists a, b, c. repeat (split; [lia|]). exact H.
Qed.

Lemma coord_vget a : In a [0; 1; 2] -> In (fun p : vec3 R => vget p a) [fun p => v0 p; fun p => v1 p; fun p => v2 p].
Proof. cbn [In]. intros H. decompose [or] H; subst; try contradiction; auto. Qed.

Lemma sheet_of_ok out i name sg : write_grids (NF := RNum) d n cells L xs vs = Ok out -> get out i = Ok (name, sg) ->
  let f := sheet_of n cells L sg in
  sheet_ok L skip f (unwrap_sheet L f) /\ s_grid (sf_hd f) = (s + 1) * (s + 1) * (s + 1) /\ s_seg (sf_hd f) = s /\ s_count (sf_hd f) = n /\
  exists x y z, 0 <= x < cells /\ 0 <= y < cells /\ 0 <= z < cells /\ name = sheet_name x y z.
Proof.
  intros HW G.
  destruct (positions_thm d n s cells L xs vs Hc ltac:(lia) Hn LX LV) as (out' & E & HB). assert (out' = out) as -> by congruence. clear E.
  destruct (segments_thm d n s cells L xs vs Hc ltac:(lia) Hn LX LV) as ((out' & E & LO & HH) & _). assert (out' = out) as -> by congruence. clear E.
  destruct (cube_coords cells i Hc ltac:(rewrite <- LO; exact (get_inv _ _ _ G))) as (x & y & z & Hx & Hy & Hz & Ei).
  destruct (HH x y z Hx Hy Hz) as (sg' & G' & HS & _). rewrite <- Ei in G'. assert (sg' = sg /\ name = sheet_name x y z) as [-> ->] by (split; congruence). clear HH G'.
  pose proof (cube_elements x y z (sg_x sg) Hx Hy Hz HS) as EL. specialize (HB i _ sg G).
  assert (Q : Z.quot n cells = s) by (rewrite Hn, Z.mul_comm; apply Z.quot_mul; lia).
  assert (IR : forall a, In a [0; 1; 2] -> Forall (fun p => (0 <= vget p a < L)%R) (sg_x sg)).
  { intros a Ha. apply Forall_forall. intros p Hp. exact (proj1 (Forall_forall _ _) (HX a Ha) p (proj1 (EL p Hp))). }
  assert (BA : forall a, In a [0; 1; 2] -> bounds_axis L (vget (sg_origin sg) a) (vget (sg_width sg) a) (map (fun p => vget p a) (sg_x sg))).
  { intros a Ha. apply (HB (fun p => vget p a) (coord_vget a Ha) (IR a Ha)).
    destruct (HN x y z (fun p => vget p a) Hx Hy Hz (coord_vget a Ha)) as (lo & len & Hlen & HP). exists lo, len. split; [exact Hlen|].
    intros p Hp. apply in_map_iff in Hp. destruct Hp as (p' & <- & Hp). destruct (EL p' Hp) as (_ & j & k & l & Hj & Hk & Hl & ->). exact (HP j k l Hj Hk Hl). }
  cbv zeta. unfold sheet_of, unwrap_sheet. cbn [sf_hd sf_xs s_origin s_grid s_seg s_count]. rewrite Q.
  split; [|split; [reflexivity|split; [reflexivity|split; [reflexivity|exists x, y, z; auto]]]].
  unfold sheet_ok. cbn [sf_hd sf_xs s_origin s_grid s_seg s_count s_total s_width].
  split; [reflexivity|]. split; [exact Hs|]. split; [nia|]. split; [reflexivity|]. split; [exact (proj1 HS)|]. split.
  - intros a Ha. destruct (BA a Ha) as (B1 & B2 & _). split; [exact B1|]. split; [exact B2|apply IR; exact Ha].
  - assert (GEN : Forall (fun p => unwrapped L (sg_origin sg) (sg_width sg) p (unwrap L (sg_origin sg) p)) (sg_x sg)).
    { apply Forall_forall. intros p Hp. apply unwrap_ok; [exact HL|]. intros a Ha. destruct (BA a Ha) as (_ & B2 & B3 & _). split; [lra|].
      apply B3. apply in_map_iff. exists p. auto. }
    clear -GEN. induction GEN; constructor; auto.
Qed.

Lemma on_disk_some out file : write_grids (NF := RNum) d n cells L xs vs = Ok out ->
  (exists x y z, 0 <= x < cells /\ 0 <= y < cells /\ 0 <= z < cells /\ file = sheet_name x y z) ->
  exists i name sg, get out i = Ok (name, sg) /\ on_disk n cells L out file = Some (sheet_of n cells L sg).
Proof.
  intros HW (x & y & z & Hx & Hy & Hz & ->).
  destruct (segments_thm d n s cells L xs vs Hc ltac:(lia) Hn LX LV) as ((out' & E & LO & HH) & _). assert (out' = out) as -> by congruence. clear E.
  destruct (HH x y z Hx Hy Hz) as (sg & G & _). unfold on_disk.
  destruct (find _ (rev out)) as [[nm g]|] eqn:EF.
  - apply find_some in EF. destruct EF as [I _]. apply in_rev in I. apply (In_nth _ _ (nm, g)) in I. destruct I as (j & Hj & EJ).
    exists (Z.of_nat j), nm, g. split; [|reflexivity]. rewrite (get_ok (nm, g)) by (unfold zlen; lia). unfold zn. now rewrite Nat2Z.id, EJ.
  - exfalso. pose proof (get_inv _ _ _ G) as Hi. rewrite (get_ok (sheet_name x y z, sg)) in G by exact Hi. injection G as G.
    assert (I : In (sheet_name x y z, sg) (rev out)). { apply -> in_rev. rewrite <- G. unfold zn. apply nth_In. unfold zlen in Hi. lia. }
    pose proof (find_none _ _ EF _ I) as C. cbn in C. rewrite String.eqb_refl in C. discriminate.
Qed.

Variables (q workers : Z) (rnd : Z -> Z -> vec3 R) (choose : Z -> Z -> Z -> Z -> Z) (order : Z -> Z -> list Z) (files : list string) (boxes : list (rbox R)).
Hypotheses (H2 : boxes <> []) (H3 : 1 <= workers) (H4 : requires_velocity q = Ok false)
  (H5 : forall bi j, unit_cube (rnd bi j)) (H6 : forall k ri id j, 0 <= choose k ri id j < 64)
  (H7 : forall k ri, Permutation (order k ri) (zseq workers)) (H8 : Forall (box_ok L) boxes) (HD : s mod skip = 0) (HLs : lists_sheets cells files)
  (HFc : forall out file f b, write_grids (NF := RNum) d n cells L xs vs = Ok out -> on_disk n cells L out file = Some f -> In b boxes ->
     faces_ok L skip b f (unwrap_sheet L f) (unit_pool rnd (rb_pts b))).

Theorem pipeline_share : exists img,
  convert_and_render (ND := RNum) (NF := RNum) (fun x => x) (fun x => x) d n cells L xs vs workers rnd choose order files boxes q skip = Ok img /\
  Forall2 (fun b b' => whole b -> image_mean b' = (image_mean b + IZR (zlen files) / IZR (cells * cells * cells))%R) boxes img.
Proof.
  destruct (segments_thm d n s cells L xs vs Hc ltac:(lia) Hn LX LV) as ((out & E & _ & _) & _). unfold convert_and_render. rewrite E. cbn [bind].
  destruct (get out 0) as [[nm0 sg0]| | |] eqn:G0.
  2-4: exfalso; destruct (on_disk_some out (sheet_name 0 0 0) E) as (i & nm & sg & G & _);
       [exists 0, 0, 0; repeat (split; [lia|]); reflexivity|pose proof (get_inv _ _ _ G); rewrite (get_ok (nm, sg)) in G0 by lia; discriminate].
  set (f0 := sheet_of n cells L sg0).
  set (sheet := fun file => match on_disk n cells L out file with Some f => f | None => f0 end).
  destruct (job_share L skip q workers rnd choose order (on_disk n cells L out) sheet (fun file => unwrap_sheet L (sheet file)) files boxes
              ((s + 1) * (s + 1) * (s + 1)) s n) as (img & EJ & HM); auto.
  - intros ->. destruct HLs as [_ H]. apply (proj2 (H (sheet_name 0 0 0))). exists 0, 0, 0. repeat (split; [lia|]). reflexivity.
  - intros file Hf. destruct (on_disk_some out file E (proj1 (proj2 HLs file) Hf)) as (i & nm & sg & G & ED). unfold sheet. rewrite ED.
    destruct (sheet_of_ok out i nm sg E G) as (S1 & S2 & S3 & S4 & _). repeat (split; [assumption || reflexivity|]).
    intros b Hb. exact (HFc out file _ b E ED Hb).
  - exists img. split; [exact EJ|]. clear EJ. clear -HM Hn Hc Hs. induction HM as [|b b' bs bs' HM _ IH]; constructor; [|exact IH].
    intros HW. rewrite (HM HW). f_equal. rewrite Hn, !mult_IZR. unfold Rdiv. field. split; apply not_0_IZR; lia.
Qed.
End Disk.

(** ** How many names there are *)
Definition triples (cells : Z) : list (Z * Z * Z) := list_prod (list_prod (zseq cells) (zseq cells)) (zseq cells).
Definition name_of (t : Z * Z * Z) : string := let '(x, y, z) := t in sheet_name x y z.
Lemma zseq_in k i : In i (zseq k) <-> 0 <= i < k.
Proof.
  unfold zseq. rewrite in_map_iff. split.
  - intros (j & <- & Hj). apply in_seq in Hj. lia.
  - intros H. exists (Z.to_nat i). split; [lia|]. apply in_seq. lia.
Qed.
Lemma zseq_nodup k : NoDup (zseq k).
Proof. unfold zseq. apply FinFun.Injective_map_NoDup; [intros a b; lia|apply seq_NoDup]. Qed.
Lemma prod_nodup {A B} (l : list A) (m : list B) : NoDup l -> NoDup m -> NoDup (list_prod l m).
Proof.
  intros HL HM. induction HL as [|a l Ha HL IH]; [constructor|]. cbn [list_prod].
  assert (forall (u v : list (A * B)), NoDup u -> NoDup v -> (forall x, In x u -> ~ In x v) -> NoDup (u ++ v)) as APP.
  { induction u as [|x u IHu]; intros v HU HV HD; [exact HV|]. inversion HU; subst. cbn. constructor.
    - rewrite in_app_iff. intros [|]; [contradiction|]. apply (HD x); [now left|assumption].
    - apply IHu; auto. intros y Hy. apply HD. now right. }
  apply APP; [apply FinFun.Injective_map_NoDup; [intros x y E; congruence|exact HM]|exact IH|].
  intros x Hx Hi. apply in_map_iff in Hx. destruct Hx as (y & <- & _). apply in_prod_iff in Hi. tauto.
Qed.
Lemma triples_in cells x y z : In (x, y, z) (triples cells) <-> 0 <= x < cells /\ 0 <= y < cells /\ 0 <= z < cells.
Proof. unfold triples. rewrite !in_prod_iff, !zseq_in. tauto. Qed.
Lemma triples_nodup cells : NoDup (triples cells).
Proof. repeat apply prod_nodup; apply zseq_nodup. Qed.
Lemma triples_len cells : 0 <= cells -> zlen (triples cells) = cells * cells * cells.
Proof. intros H. unfold zlen, triples. rewrite !prod_length. unfold zseq. rewrite map_length, seq_length. lia. Qed.
Lemma lists_names cells files : lists_sheets cells files -> forall file, In file files <-> In file (map name_of (triples cells)).
Proof.
  intros [_ H] file. rewrite H, in_map_iff. split.
  - intros (x & y & z & Hx & Hy & Hz & ->). exists (x, y, z). split; [reflexivity|]. apply triples_in. auto.
  - intros ([[x y] z] & <- & Hi). apply triples_in in Hi. exists x, y, z. tauto.
Qed.

Lemma few_names cells files : 0 <= cells <= 10 -> lists_sheets cells files -> zlen files = cells * cells * cells.
Proof.
  intros Hc HF. rewrite <- triples_len by lia.
  assert (P : Permutation files (map name_of (triples cells))).
  { apply NoDup_Permutation; [apply HF| |exact (lists_names cells files HF)].
    pose proof (triples_nodup cells) as HN. assert (HI : forall t, In t (triples cells) -> In t (triples cells)) by auto. revert HI HN. generalize (triples cells) at 1 3 4.
    induction l as [|t l IH]; intros HI HN; [constructor|]. inversion HN; subst. cbn [map]. constructor; [|apply IH; [intros; apply HI; now right|assumption]].
    intros Hi. apply in_map_iff in Hi. destruct Hi as ([[x y] z] & E & Hi). apply H1. destruct t as [[x' y'] z'].
    assert (A : In (x', y', z') (triples cells)) by (apply HI; now left). assert (B : In (x, y, z) (triples cells)) by (apply HI; now right).
    apply triples_in in A, B. cbn [name_of] in E.
    rewrite <- (names_distinct cells x y z x' y' z') by (tauto || lia). exact Hi. }
  unfold zlen. now rewrite (Permutation_length P), map_length.
Qed.

Lemma lost_names cells files : 11 <= cells -> lists_sheets cells files -> zlen files < cells * cells * cells.
Proof.
  intros Hc HF. rewrite <- triples_len by lia.
  destruct (names_clash cells Hc) as (x & y & z & x' & y' & z' & H1 & H2 & NE & EN).
  assert (A : In (x, y, z) (triples cells)) by (apply triples_in; tauto). assert (B : In (x', y', z') (triples cells)) by (apply triples_in; tauto).
  apply in_split in A. destruct A as (l1 & l2 & E). rewrite E in B.
  assert (B' : In (x', y', z') (l1 ++ l2)). { apply in_app_or in B. apply in_or_app. destruct B as [|[|]]; [tauto|congruence|tauto]. }
  assert (I : incl files (map name_of (l1 ++ l2))).
  { intros file Hf. apply (lists_names cells files HF) in Hf. rewrite E, map_app in Hf. cbn [map] in Hf. rewrite map_app. apply in_app_or in Hf.
    destruct Hf as [Hf|[EF|Hf]]; [apply in_or_app; auto| |apply in_or_app; auto].
    rewrite <- map_app, <- EF. change (name_of (x, y, z)) with (sheet_name x y z). rewrite EN. change (sheet_name x' y' z') with (name_of (x', y', z')). now apply in_map. }
  pose proof (NoDup_incl_length (proj1 HF) I) as LE. unfold zlen. rewrite E. rewrite map_length, app_length in LE. rewrite app_length. cbn [List.length]. lia.
Qed.

(** ** Boxes that show everything in three dimensions *)
Lemma whole_segment L skip f X b : sheet_ok L skip f X -> box_ok L b -> whole b -> rb_proj b = None ->
  exists w, box_overlap (ND := RNum) (NF := RNum) (fun x => x) b (sf_hd f) = Ok w /\ okd w = Segment3D.
Proof.
  intros HS HB HW HP. unfold box_overlap. rewrite HP. eexists. split; [reflexivity|]. unfold overlap3D.
  set (xcb := sheet_cells _ _ _). destruct (buffer_size _ <=? buffer_size _) eqn:E; [reflexivity|exfalso].
  assert (G : forall a, In a [0; 1; 2] -> 0 <= vget (width xcb) a <= rb_cells b).
  { intros a Ha. pose proof (sheet_axis_range L skip b f X HS HB a Ha) as (_ & W & _). fold xcb in W. lia. }
  pose proof (G 0 ltac:(cbn; auto)) as G0. pose proof (G 1 ltac:(cbn; auto)) as G1. pose proof (G 2 ltac:(cbn; auto)) as G2.
  pose proof (HW 0 ltac:(cbn; auto)) as W0. pose proof (HW 1 ltac:(cbn; auto)) as W1. pose proof (HW 2 ltac:(cbn; auto)) as W2.
  unfold buffer_size in E. cbn [okd bufCb vget Z.eqb Pos.eqb] in *. apply Z.leb_gt in E. rewrite W0, W1, W2 in E.
  set (n := rb_cells b) in *. set (a0 := v0 (width xcb)) in *. set (a1 := v1 (width xcb)) in *. set (a2 := v2 (width xcb)) in *.
  assert (a0 * a1 <= n * n) by (apply Z.mul_le_mono_nonneg; lia). assert (0 <= a0 * a1) by nia. assert (a0 * a1 * a2 <= n * n * n) by (apply Z.mul_le_mono_nonneg; lia). lia.
Qed.

Theorem pipeline_full L d n s cells skip xs vs q workers rnd choose order files boxes :
  (0 < L)%R -> 0 < cells -> 0 < skip <= s -> s mod skip = 0 -> n = cells * s -> zlen xs = n * n * n -> zlen vs = n * n * n ->
  (forall a, In a [0; 1; 2] -> Forall (fun x => (0 <= vget x a < L)%R) xs) -> narrow L d n s cells xs ->
  boxes <> [] -> Forall (fun b => box_ok L b /\ whole b /\ rb_proj b = None) boxes ->
  1 <= workers -> requires_velocity q = Ok false ->
  (forall bi j, unit_cube (rnd bi j)) -> (forall k ri id j, 0 <= choose k ri id j < 64) -> (forall k ri, Permutation (order k ri) (zseq workers)) ->
  lists_sheets cells files ->
  exists img,
    convert_and_render (ND := RNum) (NF := RNum) (fun x => x) (fun x => x) d n cells L xs vs workers rnd choose order files boxes q skip = Ok img /\
    Forall2 (fun b b' => (cells <= 10 -> image_mean b' = (image_mean b + 1)%R) /\ (11 <= cells -> (image_mean b' < image_mean b + 1)%R)) boxes img.
Proof.
  intros HL Hc Hs Hd Hn LX LV HX HN HB0 HB Hw Hq HR HC HO HF.
  destruct (pipeline_share L d n s cells skip xs vs HL Hc Hs Hn LX LV HX HN q workers rnd choose order files boxes) as (img & E & H); auto.
  - eapply Forall_impl; [|exact HB]. cbv beta. tauto.
  - intros out file f b HWr HD Hb. rewrite Forall_forall in HB. destruct (HB b Hb) as (B1 & B2 & B3). left.
    assert (exists i name sg, get out i = Ok (name, sg) /\ f = sheet_of n cells L sg) as (i & nm & sg & G & ->).
    { unfold on_disk in HD. destruct (find _ (rev out)) as [[nm g]|] eqn:EF; [|discriminate]. injection HD as <-.
      apply find_some in EF. destruct EF as [I _]. apply in_rev in I. apply (In_nth _ _ (nm, g)) in I. destruct I as (j & Hj & EJ).
      exists (Z.of_nat j), nm, g. split; [|reflexivity]. rewrite (get_ok (nm, g)) by (unfold zlen; lia). unfold zn. now rewrite Nat2Z.id, EJ. }
    destruct (sheet_of_ok L d n s cells skip xs vs HL Hc Hs Hn LX LV HX HN out i nm sg HWr G) as (S1 & _).
    exact (whole_segment L skip _ _ b S1 B1 B2 B3).
  - exists img. split; [exact E|]. clear E.
    assert (C0 : (0 < IZR (cells * cells * cells))%R) by (apply IZR_lt; nia).
    clear HB0. induction H as [|b b' bs bs' H _ IH]; constructor; [|apply IH; now inversion HB].
    + inversion_clear HB as [|? ? (_ & HW & _) _]. split; intros H10; rewrite (H HW).
      * rewrite (few_names cells files ltac:(lia) HF). f_equal. unfold Rdiv. apply Rinv_r. lra.
      * apply Rplus_lt_compat_l. apply (Rmult_lt_reg_r (IZR (cells * cells * cells))); [exact C0|]. unfold Rdiv. rewrite Rmult_assoc, Rinv_l, Rmult_1_r, Rmult_1_l by lra.
        apply IZR_lt. now apply lost_names.
Qed.

Section Split.
Variables (L : R) (d : vec3 R) (n s cells skip : Z) (xs vs : list (vec3 R)) (q workers : Z) (rnd : Z -> Z -> vec3 R)
  (choose : Z -> Z -> Z -> Z -> Z) (order : Z -> Z -> list Z) (files : list string) (boxes : list (rbox R)).
Local Notation input := (pipeline_input L d n s cells skip xs vs q workers rnd choose order files boxes).
Lemma pipeline_ten : input -> cells <= 10 -> exists img,
  convert_and_render (ND := RNum) (NF := RNum) (fun x => x) (fun x => x) d n cells L xs vs workers rnd choose order files boxes q skip = Ok img /\
  Forall2 (fun b b' => image_mean b' = (image_mean b + 1)%R) boxes img.
Proof.
  intros (A1 & A2 & A3 & A4 & A5 & A6 & A7 & A8 & A9 & B1 & B2 & B3 & B4 & B5 & B6 & B7 & B8) H.
  destruct (pipeline_full L d n s cells skip xs vs q workers rnd choose order files boxes) as (img & E & F); auto.
  exists img. split; [exact E|]. clear -F H. induction F as [|b b' bs bs' [F _] _ IH]; constructor; auto.
Qed.
Lemma pipeline_eleven : input -> 11 <= cells -> exists img,
  convert_and_render (ND := RNum) (NF := RNum) (fun x => x) (fun x => x) d n cells L xs vs workers rnd choose order files boxes q skip = Ok img /\
  Forall2 (fun b b' => (image_mean b' < image_mean b + 1)%R) boxes img.
Proof.
  intros (A1 & A2 & A3 & A4 & A5 & A6 & A7 & A8 & A9 & B1 & B2 & B3 & B4 & B5 & B6 & B7 & B8) H.
  destruct (pipeline_full L d n s cells skip xs vs q workers rnd choose order files boxes) as (img & E & F); auto.
  exists img. split; [exact E|]. clear -F H. induction F as [|b b' bs bs' [_ F] _ IH]; constructor; auto.
Qed.
End Split.

(** ** Examples *)
Lemma lists_exist cells : exists files, lists_sheets cells files.
Proof.
  exists (nodup string_dec (map name_of (triples cells))). split; [apply NoDup_nodup|]. intros file. rewrite nodup_In, in_map_iff. split.
  - intros ([[x y] z] & <- & H). apply triples_in in H. exists x, y, z. tauto.
  - intros (x & y & z & Hx & Hy & Hz & ->). exists (x, y, z). split; [reflexivity|]. apply triples_in. auto.
Qed.

Lemma narrow_all L d n s cells xs lo len : (0 <= len < L / 2)%R ->
  (forall coord, In coord [v0; v1; v2] -> Forall (fun p => (lo <= coord p <= lo + len)%R) (d :: xs)) -> narrow L d n s cells xs.
Proof.
  intros HL H x y z coord _ _ _ HC. exists lo, len. split; [exact HL|]. intros a b c _ _ _. exists 0.
  assert (I : In (zn d xs (periodic_index n (s * x + a) (s * y + b) (s * z + c))) (d :: xs)).
  { unfold zn. destruct (nth_in_or_default (Z.to_nat (periodic_index n (s * x + a) (s * y + b) (s * z + c))) xs d) as [I|E]; [now right|rewrite E; now left]. }
  pose proof (proj1 (Forall_forall _ _) (H coord HC) _ I). lra.
Qed.

Lemma input_example cells xs : 0 < cells -> zlen xs = cells * cells * cells ->
  (forall coord, In coord [v0; v1; v2] -> Forall (fun p => (1 <= coord p <= 1 + 1)%R) xs) ->
  exists files, pipeline_input 8 (V3 1 1 1)%R cells 1 cells 1 xs xs Density 2 (fun _ _ => quarter) (fun _ _ _ _ => 3) (fun _ _ => [1; 0]) files [real_box].
Proof.
  intros Hc LX HX. destruct (lists_exist cells) as (files & HF). exists files. unfold pipeline_input.
  assert (HV : forall a, In a [0; 1; 2] -> Forall (fun x => (1 <= vget x a <= 1 + 1)%R) xs).
  { intros a Ha. apply axis_cases in Ha. destruct Ha as [-> |[-> | ->]]; [apply (HX v0)|apply (HX v1)|apply (HX v2)]; cbn; auto. }
  split; [lra|]. split; [exact Hc|]. split; [lia|]. split; [reflexivity|]. split; [lia|]. split; [exact LX|]. split; [exact LX|]. split.
  { intros a Ha. eapply Forall_impl; [|exact (HV a Ha)]. cbv beta. intros; lra. }
  split.
  { apply (narrow_all 8 _ _ _ _ _ 1 1); [lra|]. intros coord HC. constructor; [|apply HX; exact HC]. cbn [In] in HC. decompose [or] HC; subst; try contradiction; cbn [v0 v1 v2]; lra. }
  split; [discriminate|]. split; [constructor; [|constructor]; split; [exact real_box_ok|split; [exact real_whole|reflexivity]]|].
  split; [lia|]. split; [reflexivity|]. split; [intros; exact quarter_in|]. split; [intros; lia|]. split; [|exact HF].
  intros _ _. apply perm_swap.
Qed.

Lemma input_cases cells xs :
  (cells = 2 /\ xs = [V3 1 1 1; V3 2 1 1; V3 1 2 1; V3 2 2 1; V3 1 1 2; V3 2 1 2; V3 1 2 2; V3 2 2 2]%R) \/ (cells = 11 /\ xs = repeat (V3 2 1 2)%R 1331) ->
  exists files, pipeline_input 8 (V3 1 1 1)%R cells 1 cells 1 xs xs Density 2 (fun _ _ => quarter) (fun _ _ _ _ => 3) (fun _ _ => [1; 0]) files [real_box].
Proof.
  intros [[-> ->]|[-> ->]]; apply input_example; try lia.
  - reflexivity.
  - intros coord HC. cbn [In] in HC. decompose [or] HC; subst; try contradiction;
      repeat (apply Forall_cons; [cbn [v0 v1 v2]; lra|]); constructor.
  - unfold zlen. rewrite repeat_length. reflexivity.
  - intros coord HC. apply Forall_forall. intros p Hp. apply repeat_spec in Hp. subst p.
    cbn [In] in HC. decompose [or] HC; subst; try contradiction; cbn [v0 v1 v2]; lra.
Qed.
