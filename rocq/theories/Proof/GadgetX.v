(** The hypotheses of the Gadget theorems can be met. *)
From Coq Require Import ZArith Reals String List Bool Lia Lra ZifyBool ZifyNat Permutation.
From Flocq Require Import Core.Raux.
From Verif Require Import Base.Res Base.ResFacts Base.Num Base.Bytes Model.Geom Model.GridDeriv Model.Density Model.SheetIO Model.Main Model.Manager Model.Gadget.
From Verif Require Import Spec.Files Spec.GeomDefs Spec.Work Spec.Renders Spec.Segments Spec.ManagerEx Spec.Pipelines Spec.Gadgets Spec.GadgetImages Spec.GadgetRuns Spec.GadgetEx.
From Verif Require Import Proof.MainQ Proof.ManagerX Proof.PipelineP Proof.GadgetP Proof.GadgetQ Proof.GadgetR Proof.GadgetM.
Import ListNotations.
Open Scope Z_scope.

Lemma all_bits b l : forallb (fun x => (0 <=? x) && (x <? 2 ^ b)) l = true -> Forall (bits b) l.
Proof.
  intros H. apply Forall_forall. intros x Hx. rewrite forallb_forall in H. apply H in Hx. unfold bits. lia.
Qed.
Lemma demo_header npart total xs ids w : Forall (bits 32) npart -> length npart = 6%nat -> bits 32 total -> header_typed (demo_with npart total xs ids w).
Proof.
  intros HN HL HT. unfold header_typed. cbn [demo_with sn_npart sn_mass sn_total sn_pad sn_time sn_redshift sn_box sn_omegaM sn_omegaL sn_h].
  split; [exact HL|]. split; [reflexivity|]. split; [reflexivity|]. split; [reflexivity|]. split; [exact HN|].
  split; [now apply all_bits|]. split; [|now apply all_bits]. repeat (apply Forall_cons; [unfold bits in *; lia|]); apply Forall_nil.
Qed.
Lemma demo_typed npart total xs ids w : Forall (fun c => 0 <= c < 10) (coords xs) -> Forall (fun i => 1 <= i < 2 ^ 31) ids -> particles_typed (demo_with npart total xs ids w).
Proof.
  intros HX HI. unfold particles_typed. cbn [demo_with sn_x sn_v sn_id sn_xwide sn_vwide sn_idwide wide_bits].
  assert (H : Forall (bits 32) (coords xs)) by (eapply Forall_impl; [|exact HX]; unfold bits; intros; lia).
  split; [exact H|]. split; [exact H|]. eapply Forall_impl; [|exact HI]. cbv beta. intros i Hi. unfold id_bits. cbn [demo_with sn_idwide]. destruct w; [change (64 - 1) with 63|change (32 - 1) with 31]; lia.
Qed.
Lemma demo_ok total xs ids : Forall (fun c => 0 <= c < 10) (coords xs) -> Forall (fun i => 1 <= i < 2 ^ 31) ids -> bits 32 total -> zlen xs < 2 ^ 32 -> zlen ids = zlen xs ->
  snapshot_ok (demo total xs ids) /\ id_bits (demo total xs ids) = 32.
Proof.
  intros HX HI HT HL HE. split; [|reflexivity]. split; [|split].
  - apply demo_header; auto. pose proof (zlen_nonneg xs). repeat (apply Forall_cons; [unfold bits in *; lia|]); apply Forall_nil.
  - now apply demo_typed.
  - unfold dark_only, dark, demo. cbn [demo_with sn_x sn_v sn_id sn_npart nth sn_xwide sn_vwide]. repeat split; auto. intros [H|H]; discriminate.
Qed.
Lemma demo_readable sys total xs ids : readable sys (demo total xs ids).
Proof. intros [H|H]; discriminate H. Qed.
Ltac small := repeat (apply Forall_cons; [lia|]); apply Forall_nil.

Lemma single_ok : snapshot_ok single /\ id_bits single = 32.
Proof. apply demo_ok; try reflexivity; [cbn; small|cbn; small|unfold bits; lia]. Qed.
Lemma halves_ok : set_ok 32 halves.
Proof.
  constructor; [|constructor; [|constructor]]; apply demo_ok; try reflexivity; try (unfold bits; lia); cbn [coords flat_map app v0 v1 v2]; small.
Qed.
Lemma halves_readable sys : Forall (readable sys) halves.
Proof. constructor; [|constructor; [|constructor]]; apply demo_readable. Qed.
Lemma halves_complete : complete 8 (ids_of halves).
Proof.
  unfold complete, ids_of, halves, first_half, second_half, demo. cbn [flat_map demo_with sn_id app]. split.
  - repeat constructor; cbn [In]; lia.
  - intros i. cbn [In]. lia.
Qed.
Lemma root_ok n : 0 <= n -> int_cube_root (ND := RNum) (root n) (n * n * n) = Ok n.
Proof.
  intros _. unfold int_cube_root, root. destruct (round_thm 0) as (_ & H & _). rewrite H, Z.eqb_refl. reflexivity.
Qed.

(** ** Gas *)
Lemma mixed_gas : half_gas mixed.
Proof.
  unfold half_gas. split; [apply demo_header; [apply all_bits; reflexivity|reflexivity|unfold bits; lia]|].
  split; [apply demo_typed; [cbn; small|small]|]. repeat split; reflexivity.
Qed.
Lemma mixed_words : sn_x (misread mixed) = [V3 (1 + 2 ^ 32 * 2) (3 + 2 ^ 32 * 4) (5 + 2 ^ 32 * 6)].
Proof. reflexivity. Qed.
Lemma gaseous_header : header_typed gaseous /\ sn_xwide gaseous = false /\ 24 * dark gaseous < 2 ^ 31 /\ 12 * zlen (sn_x gaseous) < 2 ^ 31 /\
  zlen (sn_x gaseous) <> dark gaseous /\ zlen (sn_x gaseous) <> 2 * dark gaseous.
Proof.
  split; [apply demo_header; [apply all_bits; reflexivity|reflexivity|unfold bits; lia]|]. cbv. repeat split; discriminate.
Qed.

(** ** Byte order *)
Theorem big_endian : exists s h, snapshot_ok s /\ readable Little s /\ dark s = 1 /\
  read_gadget_header Big (snapshot_bytes Big s) = Ok h /\ ct_count h = 2 ^ 24.
Proof.
  exists single. eexists. split; [apply single_ok|]. split; [apply demo_readable|]. split; [reflexivity|]. split; [vm_compute; reflexivity|reflexivity].
Qed.

(** ** Images *)
Lemma near_narrow (n k cells : Z) con ss : (forall c, In c (coords (flat_map sn_x ss)) -> 1 <= c <= 2) -> Forall (fun s => sn_box s = 8 /\ sn_xwide s = false) ss -> cv_xUnits con = 1%R ->
  Forall snapshot_ok ss ->
  narrow_segments 8 n k cells (flat_map (real_particles IZR IZR same con) ss).
Proof.
  intros HC HB HU HO x y z coord _ _ _ HI. exists 1%R, 1%R. split; [lra|]. intros a b c p _ _ _ HP _. exists 0.
  apply in_flat_map in HP. destruct HP as (s & Hs & HP). rewrite Forall_forall in HB, HO. destruct (HB s Hs) as (HB1 & HW).
  destruct (particles_parts (ND := RNum) (NF := RNum) (fun x => x) (fun x => x) IZR IZR same sqrt con s (HO s Hs)) as (E & _).
  apply (in_map p_x) in HP. unfold real_particles in HP. rewrite E in HP. apply in_map_iff in HP. destruct HP as (v & <- & Iv).
  assert (HV : forall q, In q [v0 v; v1 v; v2 v] -> (1 <= into_box (ND := RNum) (IZR (sn_box s)) (IZR (narrowed same (sn_xwide s) q)) * 1 <= 2)%R).
  { intros q Hq. rewrite HB1, HW. unfold narrowed, into_box. cbn [nltb nleb nofZ nadd nsub RNum].
    assert (1 <= q <= 2). { apply HC. unfold coords. apply in_flat_map. exists v. split; [|exact Hq]. apply in_flat_map. exists s. auto. }
    assert (1 <= IZR q <= 2)%R by (split; apply IZR_le; lia).
    destruct (Rlt_bool_spec (IZR q) 0); [lra|]. destruct (Rle_bool_spec 8 (IZR q)); lra. }
  unfold scaled, true_position. rewrite HU. cbn [In] in HI. decompose [or] HI; subst; try contradiction; cbn [vmap v0 v1 v2];
    (match goal with |- context [narrowed same _ ?q] => assert (HQ := HV q ltac:(cbn [In]; auto)) end); cbn [nmul RNum]; lra.
Qed.
Lemma demo_periods ss : (forall c, In c (coords (flat_map sn_x ss)) -> 1 <= c <= 2) -> Forall (fun s => sn_box s = 8 /\ sn_xwide s = false) ss -> in_periods 8 IZR IZR same ss.
Proof.
  intros HC HB. split; [lra|]. apply Forall_forall. intros s Hs. rewrite Forall_forall in HB. destruct (HB s Hs) as (-> & ->). split; [reflexivity|].
  apply Forall_forall. intros q Hq. unfold narrowed.
  assert (1 <= q <= 2). { apply HC. unfold coords in *. apply in_flat_map in Hq. destruct Hq as (v & Hv & Hq). apply in_flat_map. exists v. split; [|exact Hq]. apply in_flat_map. exists s. auto. }
  assert (1 <= IZR q <= 2)%R by (split; apply IZR_le; lia). lra.
Qed.
Lemma demo_render cells : exists files, render_input 8 cells 1 1 Density 2 (fun _ _ => quarter) (fun _ _ _ _ => 3) (fun _ _ => [1; 0]) files [real_box].
Proof.
  destruct (lists_exist cells) as (files & HF). exists files. unfold render_input. split; [lia|]. split; [reflexivity|]. split; [discriminate|].
  split; [constructor; [|constructor]; split; [exact real_box_ok|split; [exact real_whole|reflexivity]]|].
  split; [lia|]. split; [reflexivity|]. split; [intros; exact quarter_in|]. split; [intros; lia|]. split; [|exact HF]. intros _ _. apply perm_swap.
Qed.

Lemma crowd_ok N : Z.of_nat N < 2 ^ 31 -> set_ok 32 [crowd N].
Proof.
  intros HN. constructor; [|constructor]. apply demo_ok.
  - apply Forall_forall. intros c Hc. unfold coords in Hc. apply in_flat_map in Hc. destruct Hc as (v & Hv & Hc). apply repeat_spec in Hv. subst v. cbn [v0 v1 v2 In] in Hc. lia.
  - apply Forall_forall. intros i Hi. apply in_map_iff in Hi. destruct Hi as (j & <- & Hj). apply in_seq in Hj. lia.
  - unfold bits. lia.
  - unfold zlen. rewrite repeat_length. lia.
  - unfold zlen. now rewrite map_length, seq_length, repeat_length.
Qed.
Lemma crowd_complete N : complete (Z.of_nat N) (ids_of [crowd N]).
Proof.
  unfold ids_of. cbn [flat_map]. rewrite app_nil_r. unfold crowd, demo. cbn [demo_with sn_id]. split.
  - apply FinFun.Injective_map_NoDup; [intros a b H; lia|apply seq_NoDup].
  - intros i. rewrite in_map_iff. split; [intros (j & <- & Hj); apply in_seq in Hj; lia|]. intros Hi. exists (Z.to_nat i). split; [lia|]. apply in_seq. lia.
Qed.
Lemma crowd_near N c : In c (coords (flat_map sn_x [crowd N])) -> 1 <= c <= 2.
Proof.
  cbn [flat_map]. rewrite app_nil_r. unfold coords. intros Hc. apply in_flat_map in Hc. destruct Hc as (v & Hv & Hc). apply repeat_spec in Hv. subst v. cbn [v0 v1 v2 In] in Hc. lia.
Qed.
Lemma halves_near c : In c (coords (flat_map sn_x halves)) -> 1 <= c <= 2.
Proof. unfold coords. cbn [flat_map halves first_half second_half demo demo_with sn_x app v0 v1 v2 In]. lia. Qed.

Notation image_input := (gadget_input 8 Big IZR IZR same).
Lemma halves_images : image_input (root 2) (plain 2) first_half [second_half] 2 1 2.
Proof.
  unfold gadget_input. split; [exact halves_ok|]. split; [apply halves_readable|].
  assert (HB : Forall (fun s => sn_box s = 8 /\ sn_xwide s = false) halves) by (constructor; [|constructor; [|constructor]]; split; reflexivity).
  split; [apply (demo_periods halves halves_near HB)|]. split; [reflexivity|]. split; [reflexivity|]. split; [lia|]. split; [reflexivity|]. split; [reflexivity|].
  split; [apply (root_ok 2); lia|]. split; [exact halves_complete|]. apply (near_narrow 2 1 2 (plain 2) halves halves_near HB); [reflexivity|].
  pose proof halves_ok as H. unfold set_ok in H. eapply Forall_impl; [|exact H]. cbv beta. intros s (H1 & _). exact H1.
Qed.
Lemma crowd_images (n : Z) : 0 < n < 1000 -> image_input (root n) (plain n) (crowd (Z.to_nat (n * n * n))) [] n 1 n.
Proof.
  intros Hn. set (N := Z.to_nat (n * n * n)). assert (EN : Z.of_nat N = n * n * n) by lia. assert (HN : Z.of_nat N < 2 ^ 31) by (rewrite EN; nia).
  unfold gadget_input. split; [now apply crowd_ok|]. split; [constructor; [apply demo_readable|constructor]|].
  assert (HB : Forall (fun s => sn_box s = 8 /\ sn_xwide s = false) [crowd N]) by (constructor; [|constructor]; split; reflexivity).
  split; [apply (demo_periods [crowd N] (crowd_near N) HB)|]. split; [reflexivity|]. split; [reflexivity|]. split; [lia|]. split; [lia|].
  split; [unfold all_dark, crowd, demo; cbn [demo_with sn_total nth]; exact EN|]. split; [apply (root_ok n); lia|].
  split; [rewrite <- EN; apply crowd_complete|]. apply (near_narrow n 1 n (plain n) [crowd N] (crowd_near N) HB); [reflexivity|].
  pose proof (crowd_ok N HN) as H. unfold set_ok in H. eapply Forall_impl; [|exact H]. cbv beta. intros s (H1 & _). exact H1.
Qed.

(** ** Missing ids *)
Lemma first_ok : set_ok 32 first_only /\ Forall (readable Little) first_only /\ Forall (fun i => 1 <= i <= 8) (ids_of first_only) /\ ~ In 2 (ids_of first_only).
Proof.
  pose proof halves_ok as H. inversion_clear H as [|? ? H1 H2]. split; [constructor; [exact H1|constructor]|]. split; [constructor; [apply demo_readable|constructor]|].
  unfold ids_of, first_only, first_half, demo. cbn [flat_map demo_with sn_id app In]. split; [small|lia].
Qed.

Lemma plain_accepted : accepted (plain 2) /\ accepted (iterated 2 3) /\ accepted (iterated 2 (-1)).
Proof.
  assert (H : forall a b : string, (a <> b <-> (a =? b)%string = false)) by (intros; symmetry; apply String.eqb_neq).
  unfold accepted, plain, iterated. cbn [cv_itInput cv_itOutput cv_input cv_output cv_cells cv_idSize cv_format].
  split; [|split]; (split; [|split; [lia|split; [lia|left; reflexivity]]]); [right|left|left]; repeat split; discriminate.
Qed.
Lemma halves_differ : sn_id first_half <> sn_id second_half.
Proof. discriminate. Qed.
Lemma single_cut : (4 <= List.length (firstn 100 (snapshot_bytes Little single)) < 260)%nat.
Proof. cbv. lia. Qed.
