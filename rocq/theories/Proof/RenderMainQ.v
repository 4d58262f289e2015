(** Proofs about Model/RenderMain.v, continued: full images and what is recorded. *)
From Coq Require Import ZArith String List Reals Bool Lia Lra Permutation.
From Coq Require Import ZifyBool ZifyNat.
From Verif Require Import Base.Res Base.ResFacts Base.Num Base.IEEE Base.Convert Model.Geom Model.GridDeriv Model.Cosmo Model.Config Model.Density Model.Box Model.Render Model.SheetIO Model.Main Model.Manager Model.RenderMain
  Spec.GeomDefs Spec.Matrix Spec.Fields Spec.FieldDefs Spec.Work Spec.Deposits Spec.Renders Spec.Segments Spec.RenderMains Spec.ManagerEx Proof.SumP Proof.ImageP Proof.MainQ Proof.ManagerBox Proof.ManagerMass Proof.ManagerP Proof.ManagerX Proof.RenderMainP.
Import ListNotations.
Open Scope Z_scope.
Ltac rn := cbn [nadd nsub nmul ndiv nopp nabs nltb nleb neqb nofZ ntrunc nfloor RNum] in *.

Lemma sum_blocks a b (f : Z -> R) : 0 <= a -> 0 <= b -> sum 0 b (fun y => sum 0 a (fun x => f (x + y * a))) = sum 0 (a * b) f.
Proof.
  intros Ha Hb. apply (sum_ind (fun b s => s = sum 0 (a * b) f)); [rewrite sum_nil by lia; reflexivity| |exact Hb].
  intros y s Hy _ ->. rewrite (sum_split 0 (a * y) (a * (y + 1))) by nia. f_equal.
  rewrite (sum_shift 0 a (y * a) f). f_equal; lia.
Qed.

Lemma list_total v : sum 0 (zlen v) (fun k => nth (Z.to_nat k) v 0%R) = fold_right Rplus 0%R v.
Proof.
  induction v as [|x v IH]; [reflexivity|]. cbn [fold_right]. rewrite <- IH.
  assert (E : zlen (x :: v) = zlen v + 1) by (unfold zlen; cbn [List.length]; lia).
  assert (0 <= zlen v) by (unfold zlen; lia).
  rewrite E, sum_first by lia. change (nth (Z.to_nat 0) (x :: v) 0%R) with x. f_equal.
  rewrite <- (sum_shift 0 (zlen v) 1 (fun k => nth (Z.to_nat k) (x :: v) 0%R)). apply sum_ext. intros k Hk.
  replace (Z.to_nat (k + 1)) with (S (Z.to_nat k)) by lia. reflexivity.
Qed.

Lemma image_mean_list b : sized (rb_vals b) (volume (image_size b)) -> is_scalar (rb_vals b) = true ->
  (match image_size b with (x, y, z) => 0 <= x /\ 0 <= y /\ 0 <= z end) -> image_mean b = mean_of (rb_vals b).
Proof.
  unfold image_mean. destruct (rb_vals b) as [v|]; [|discriminate]. intros HS _ HP. cbn [sized] in HS. unfold mean_of. rewrite HS. f_equal.
  destruct (image_size b) as [[x y] z]. unfold image_total, cell_index, comp, volume in *.
  rewrite <- list_total, HS. rewrite <- (sum_blocks (x * y) z) by nia. apply sum_ext. intros k Hk.
  rewrite <- (sum_blocks x y (fun j => nth (Z.to_nat (j + k * (x * y))) v 0%R)) by lia. reflexivity.
Qed.

Lemma fresh_mean L cells pts q c b : requires_velocity q = Ok false -> shows L cells pts q c b -> image_mean b = 0%R.
Proof.
  intros Hq (_ & _ & _ & _ & _ & E). rewrite Hq in E. unfold image_mean. rewrite image_total_zero; [unfold Rdiv; ring|].
  intros k Hk. rewrite E. cbn [comp]. set (i := Z.to_nat _). set (n := Z.to_nat _). clearbody i n.
  destruct (Nat.lt_ge_cases i n); [apply nth_repeat|apply nth_overflow; rewrite repeat_length; lia].
Qed.

Lemma spans_whole L cells pts q c b : (0 < L)%R -> 0 < cells -> spans_all L cells c -> shows L cells pts q c b -> whole b.
Proof.
  intros HL Hc HS (E1 & _ & E3 & HB & _) a Ha. specialize (HS a Ha). specialize (HB a Ha). cbv zeta in *. rewrite E3 in HB. rewrite E1.
  assert (Hc' : (0 < IZR cells)%R) by (apply IZR_lt; lia).
  assert (Hh : (0 < L / IZR cells)%R) by (apply Rdiv_lt_0_compat; assumption).
  set (f := vget (origin (rb_cb b)) a) in *. set (n := vget (width (rb_cb b)) a) in *. set (h := (L / IZR cells)%R) in *.
  assert (EL : L = (IZR cells * h)%R) by (unfold h; field; lra).
  assert (Z1 : forall i j, (IZR i * h < IZR j * h)%R -> i < j) by (intros i j H; apply lt_IZR; apply (Rmult_lt_reg_r h); assumption).
  assert (f < 1) by (apply Z1; lra). assert (0 < f + 1) by (apply Z1; lra).
  assert (f + n - 1 < cells) by (apply Z1; lra).
  assert (cells - 1 < f + n) by (apply Z1; rewrite minus_IZR; lra). lia.
Qed.

Lemma good_cells L con c cells pts : good_config L con c -> box_numbers con c L = Ok (cells, pts) -> 4 <= cells.
Proof. intros (_ & cells' & pts' & E & H & _) E'. rewrite E in E'. injection E' as <- <-. exact H. Qed.

Lemma size_nonneg L b : box_ok L b -> match image_size b with (x, y, z) => 0 <= x /\ 0 <= y /\ 0 <= z end.
Proof.
  intros (_ & _ & _ & HW & HP & _).
  pose proof (HW 0 ltac:(cbn; tauto)) as H0. pose proof (HW 1 ltac:(cbn; tauto)) as H1. pose proof (HW 2 ltac:(cbn; tauto)) as H2.
  destruct (vget_v (width (rb_cb b))) as (V0 & V1 & V2). rewrite V0 in H0. rewrite V1 in H1. rewrite V2 in H2.
  unfold image_size. destruct (rb_proj b) as [p|].
  - assert (p = 0 \/ p = 1 \/ p = 2) as [->|[->| ->]] by lia; unfold image_axes; cbn [Z.eqb Pos.eqb]; rewrite ?V0, ?V1, ?V2; lia.
  - unfold wcell. lia.
Qed.

Theorem main_full L con names bounds parts q workers rnd choose order fs sheet X files grid seg cnt :
  main_input L con names bounds parts q workers rnd choose order fs sheet X files grid ->
  (forall file, In file files -> s_seg (sf_hd (sheet file)) = seg /\ s_count (sf_hd (sheet file)) = cnt) ->
  seg mod rc_subsample con = 0 -> zlen files * seg ^ 3 = cnt ^ 3 ->
  exists out, render_main (ND := RNum) (NF := RNum) (fun x => x) (fun x => x) fs workers rnd choose order files con names bounds = Ok out /\
  Forall2 (fun c o => forall cells pts, box_numbers con (snd c) L = Ok (cells, pts) -> spans_all L cells (snd c) -> mean_of (snd (snd o)) = 1%R) (concat parts) out.
Proof.
  intros IN HSC HD HT. pose proof (main_run _ _ _ _ _ _ _ _ _ _ _ _ _ _ _ IN) as (boxes & out & FB & HBO & HFA & EJ & FJ & _ & ER).
  destruct IN as (HL & HFil & Hcon & HQ & HP & HNE & HG & HWk & HR & HC & HO & HF).
  assert (Hq : requires_velocity q = Ok false) by (destruct HQ as [[_ ->] | [_ ->]]; reflexivity).
  assert (HBN : boxes <> []) by (intros ->; inversion FB; auto).
  destruct (job_mean L (rc_subsample con) q workers rnd choose order fs sheet X files boxes grid seg cnt) as (out' & EJ' & FM); auto.
  { intros file Hf. destruct (HF file Hf) as (A & B & D & _). destruct (HSC file Hf) as [S1 S2]. split; [exact A|]. split; [exact B|]. split; [exact D|]. split; [exact S1|]. split; [exact S2|]. intros b Hb. exact (HFA file b Hf Hb). }
  rewrite EJ in EJ'. injection EJ' as <-.
  eexists. split; [exact ER|]. apply combine_out. clear ER EJ HFA HNE HP HBN HF HSC.
  revert out FJ FM. induction FB as [|c b l m (cells & pts & EN & S) F IH]; intros out FJ FM; inversion FJ as [|? b' ? out' HR' FJ']; subst; constructor.
  - intros cells' pts' EN' HS. rewrite EN in EN'. injection EN' as <- <-.
    inversion FM as [|? ? ? ? HM _]; subst. inversion HBO as [|? ? HB _]; subst. inversion HG as [|? ? HGc _]; subst.
    destruct HR' as (Eb & Hs & Hi & _). cbn [output snd fst].
    assert (EI : image_size b' = image_size b) by (rewrite Eb; reflexivity).
    rewrite <- (image_mean_list b'); [|rewrite EI; assumption|assumption|rewrite EI; apply (size_nonneg L b HB)].
    rewrite HM; [rewrite (fresh_mean _ _ _ _ _ _ Hq S); ring|].
    eapply spans_whole; [exact HL| |exact HS|exact S]. pose proof (good_cells _ _ _ _ _ HGc EN). lia.
  - inversion FM; inversion HBO; inversion HG; subst; auto.
Qed.

(** ** What is recorded *)
Lemma string_app_nil s : (s ++ "")%string = s.
Proof. induction s; cbn; congruence. Qed.
Lemma string_app_len a b : String.length (a ++ b) = (String.length a + String.length b)%nat.
Proof. induction a; cbn; congruence. Qed.
Lemma string_app_left a b c : (a ++ b = a ++ c -> b = c)%string.
Proof. induction a; cbn; [auto|]. intros E. injection E. auto. Qed.
Lemma string_app_right a b c : (b ++ a = c ++ a -> b = c)%string.
Proof.
  revert c. induction b as [|x b IH]; intros [|y c] E; [reflexivity| | |].
  - apply (f_equal String.length) in E. cbn [append String.length] in E. rewrite string_app_len in E. lia.
  - apply (f_equal String.length) in E. cbn [append String.length] in E. rewrite string_app_len in E. lia.
  - cbn in E. injection E as -> E. f_equal. auto.
Qed.
Lemma path_inj names a b : output_path names a = output_path names b -> a = b.
Proof. unfold output_path. intros E. apply string_app_left, string_app_left, string_app_left in E. apply string_app_right in E. exact E. Qed.

Lemma found_last {A} (out : list (string * A)) o : NoDup (map fst out) -> In o out -> found out (fst o) = Some (snd o).
Proof.
  intros HN HI. unfold found.
  assert (HN' : NoDup (map fst (rev out))) by (rewrite map_rev; apply NoDup_rev, HN).
  apply in_rev in HI. revert HN' HI. generalize (rev out). clear. intros l. induction l as [|[n a] l IH]; [intros _ []|].
  cbn [map fst find]. intros HN [<-|HI].
  - cbn [fst snd]. rewrite String.eqb_refl. reflexivity.
  - inversion HN as [|? ? HNi HN']; subst. destruct (String.eqb_spec n (fst o)) as [->|_]; [|auto].
    destruct HNi. apply in_map_iff. eauto.
Qed.

Theorem own_file L con names bounds parts q workers rnd choose order fs sheet X files grid :
  main_input L con names bounds parts q workers rnd choose order fs sheet X files grid -> NoDup (map fst (concat parts)) ->
  exists out, render_main (ND := RNum) (NF := RNum) (fun x => x) (fun x => x) fs workers rnd choose order files con names bounds = Ok out /\
  Forall2 (fun c o => fst o = (rn_output names ++ "/" ++ rn_prepend names ++ fst c ++ rn_append names ++ ".gtet")%string /\ found out (fst o) = Some (snd o)) (concat parts) out.
Proof.
  intros IN HN. destruct (main_ok _ _ _ _ _ _ _ _ _ _ _ _ _ _ _ IN) as (out & E & F). exists out. split; [exact E|]. clear IN E.
  assert (EM : map fst out = map (output_path names) (map fst (concat parts))).
  { induction F as [|c o l m (? & ? & ? & ? & _ & _ & _ & ->) F IH]; [reflexivity|]. cbn [map fst] in *. inversion HN; subst. f_equal. auto. }
  assert (HNo : NoDup (map fst out)).
  { rewrite EM. clear - HN. induction HN as [|n l H HN IH]; cbn; constructor; [|exact IH]. intros Hi. apply in_map_iff in Hi. destruct Hi as (n' & E & Hi). apply path_inj in E. subst. auto. }
  assert (HA : forall o, In o out -> found out (fst o) = Some (snd o)) by (intros o; apply found_last, HNo).
  clear EM HNo HN. revert F HA. generalize (found out). intros look. generalize (concat parts) as l, out as m. intros l m F.
  induction F as [|c o l m (? & ? & ? & ? & _ & _ & _ & ->) F IH]; intros HA; constructor.
  - split; [reflexivity|]. apply HA. now left.
  - apply IH. intros o' Ho'. apply HA. now right.
Qed.

Theorem location_ok L cells pts q config con : (0 < L)%R -> 0 < cells -> 0 <= q < EndQuantity -> valid_axis (bx_axis config) ->
  (forall a, In a [0; 1; 2] -> (0 <= vget (bx_w config) a)%R) ->
  exists b, new_box (ND := RNum) L pts cells q config = Ok b /\ forall vals,
  let '(loc, rec, v) := output (ND := RNum) con config (set_vals b vals) in
  v = vals /\ lc_pixelWidth loc = (L / IZR cells)%R /\
  (forall a, In a [0; 1; 2] -> let h := (L / IZR cells)%R in
     (vget (lc_origin loc) a = IZR (vget (lc_pixelOrigin loc) a) * h)%R /\ (vget (lc_span loc) a = IZR (vget (lc_pixelSpan loc) a) * h)%R /\
     (vget (lc_origin loc) a <= vget (bx_o config) a < vget (lc_origin loc) a + h)%R /\
     (vget (lc_origin loc) a + vget (lc_span loc) a - h <= vget (bx_o config) a + vget (bx_w config) a < vget (lc_origin loc) a + vget (lc_span loc) a)%R) /\
  (projectable q = true -> rr_axis rec = match rb_proj b with Some p => p | None => -1 end) /\
  (rb_proj b = None -> volume (image_size b) = v0 (lc_pixelSpan loc) * v1 (lc_pixelSpan loc) * v2 (lc_pixelSpan loc)) /\
  rr_particles rec = rc_particles con /\ rr_totalPixels rec = rc_totalPixels con /\ rr_subsample rec = rc_subsample con.
Proof.
  intros HL Hc Hq Hax Hw. destruct (new_box_ok L cells pts q config HL Hc Hq Hax Hw) as (b & E & S). exists b. split; [exact E|].
  intros vals. destruct S as (E1 & E2 & E3 & HB & E4 & E5). unfold output. cbn [rb_cb rb_cw rb_vals set_vals].
  split; [reflexivity|]. split; [exact E3|]. split.
  - intros a Ha. specialize (HB a Ha). cbv zeta in *. unfold new_location. cbn [lc_origin lc_span lc_pixelOrigin lc_pixelSpan].
    rewrite E3 in *. rewrite !plus_IZR, !minus_IZR, !plus_IZR in HB.
    destruct Ha as [<-|[<-|[<-|[]]]]; cbn [vget Z.eqb Pos.eqb v0 v1 v2] in *; rn; lra.
  - split; [|split].
    + intros Hp. rewrite E4, Hp. destruct (axis_cases _ Hax) as [->|[->|[->| ->]]]; reflexivity.
    + intros Hp. unfold image_size. rewrite Hp. reflexivity.
    + auto.
Qed.

Theorem axis_bad L cells pts q config con : (0 < L)%R -> 0 < cells -> 0 <= q < EndQuantity -> projectable q = false ->
  In (bx_axis config) ["X"; "Y"; "Z"]%string -> (forall a, In a [0; 1; 2] -> (0 <= vget (bx_w config) a)%R) ->
  exists b, new_box (ND := RNum) L pts cells q config = Ok b /\ rb_proj b = None /\
    0 <= rr_axis (snd (fst (output (ND := RNum) con config b))) <= 2.
Proof.
  intros HL Hc Hq Hp Hax Hw.
  assert (Hax' : valid_axis (bx_axis config)) by (right; exact Hax).
  destruct (new_box_ok L cells pts q config HL Hc Hq Hax' Hw) as (b & E & S). exists b. split; [exact E|].
  destruct S as (_ & _ & _ & _ & E4 & _). rewrite Hp in E4. split; [exact E4|].
  unfold output, new_render_record. cbn [fst snd rr_axis].
  cbn [In] in Hax. destruct Hax as [E0|[E0|[E0|[]]]]; rewrite <- E0; cbn; lia.
Qed.

Theorem depth_bad particles pixels skip : 0 < particles -> 0 < pixels -> 0 < skip ->
  let needed := (5 * (IZR pixels / 500) ^ 3 * IZR skip ^ 3 / IZR particles)%R in
  least_above (projection_depth (ND := RNum) particles pixels skip) (4 * needed / IZR skip ^ 6)%R.
Proof.
  intros Hp Hx Hs needed. unfold least_above, projection_depth.
  assert (0 < IZR particles)%R by (apply IZR_lt; lia). assert (0 < IZR skip)%R by (apply IZR_lt; lia).
  match goal with |- context [ceil_int ?e] => replace (4 * needed / IZR skip ^ 6)%R with e; [apply ceil_bounds|] end.
  unfold needed, cube. rn. field. lra.
Qed.
