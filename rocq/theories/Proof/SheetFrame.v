(** The coordinates in which one sheet is rendered into one box. *)
From Coq Require Import ZArith List Bool Reals Lra Lia ZifyBool ZifyNat.
From Flocq Require Import Core.Raux.
From Verif Require Import Base.Res Base.ResFacts Base.Num Model.Geom Model.GridDeriv Model.Box Model.Render Model.SheetIO Model.Manager.
From Verif Require Import Spec.Geometry Spec.GeomDefs Spec.Fields Spec.FieldDefs Spec.Work Spec.Deposits Spec.Renders.
From Verif Require Import Proof.SheetScale Proof.SheetFall.
Import ListNotations.
Open Scope R_scope.

Definition axis (a : Z) : Prop := In a [0; 1; 2]%Z.
Lemma axis_cases a : axis a -> a = 0%Z \/ a = 1%Z \/ a = 2%Z.
Proof. unfold axis. cbn. intuition auto. Qed.
Lemma axis0 : axis 0. Proof. cbn; auto. Qed.
Lemma axis1 : axis 1. Proof. cbn; auto. Qed.
Lemma axis2 : axis 2. Proof. cbn; auto. Qed.
#[global] Hint Resolve axis0 axis1 axis2 : axis.

Definition is_seg (w : overlap) : bool := match okd w with Segment2D | Segment3D => true | _ => false end.

Section Frame.
Variables (L : R) (skip : Z) (b : rbox R) (f : sheet_file R R) (X : list (vec3 R)).
Hypothesis HS : sheet_ok L skip f X.
Hypothesis HB : box_ok L b.
Let h := sf_hd f.
Let n := rb_cells b.
Let s := IZR n / L.
Let xcb := sheet_cells (ND := RNum) (NF := RNum) (fun x => x) h n.

Lemma L_pos : 0 < L.
Proof. destruct HS as (_ & _ & _ & _ & _ & H & _). destruct (H 0%Z axis0) as (? & _). lra. Qed.
Lemma n_ge : (4 <= n)%Z. Proof. apply HB. Qed.
Lemma s_pos0 : 0 < s. Proof. apply s_pos; [apply L_pos|pose proof n_ge; lia]. Qed.

Lemma sheet_cells_axis a : axis a ->
  vget (origin xcb) a = Zfloor (vget (s_origin h) a * s) /\
  vget (width xcb) a = (1 + Zfloor ((vget (s_origin h) a + vget (s_width h) a) * s) - Zfloor (vget (s_origin h) a * s))%Z.
Proof.
  intros Ha. pose proof L_pos as HL. pose proof n_ge as Hn. destruct HS as (EL & _).
  unfold xcb, sheet_cells, header_cells. fold h in EL. rewrite EL. cbn [nfloor ndiv nadd nofZ RNum].
  apply axis_cases in Ha. destruct Ha as [-> | [-> | ->]]; cbn [vget Z.eqb Pos.eqb origin width v0 v1 v2 fst snd];
    rewrite !(div_cw L n) by (auto; lia); auto.
Qed.

Lemma sheet_axis_range a : axis a -> (0 <= vget (origin xcb) a < n /\ 1 <= vget (width xcb) a <= n /\ 2 * vget (width xcb) a < n + 4)%Z.
Proof.
  intros Ha. destruct (sheet_cells_axis a Ha) as [-> ->]. pose proof n_ge as Hn. pose proof L_pos as HL.
  destruct HS as (_ & _ & _ & _ & _ & H & _). destruct (H a Ha) as (H1 & H2 & _). fold h in H1, H2.
  pose proof (org_range L n HL ltac:(lia) _ H1) as O. pose proof (wid_range L n HL ltac:(lia) (vget (s_origin h) a) _ H2) as W. fold s in O, W. lia.
Qed.

Lemma box_axis_range a : axis a -> (0 <= vget (origin (rb_cb b)) a < n /\ 0 < vget (width (rb_cb b)) a <= n)%Z.
Proof. intros Ha. apply HB. exact Ha. Qed.

Lemma overlap_cases w : box_overlap (ND := RNum) (NF := RNum) (fun x => x) b h = Ok w ->
  (rb_proj b = None /\ (w = Overlap Segment3D xcb (rb_cb b) n (-1) \/ w = Overlap Domain3D (rb_cb b) (rb_cb b) n (-1))) \/
  (exists p, rb_proj b = Some p /\ (0 <= p <= 2)%Z /\
     (w = Overlap Segment2D xcb (rb_cb b) n p \/ w = Overlap Domain2D (rb_cb b) (rb_cb b) n p)).
Proof.
  unfold box_overlap. fold n xcb. assert (HP : match rb_proj b with Some p => (0 <= p <= 2)%Z | None => True end) by apply HB.
  destruct (rb_proj b) as [p|].
  - unfold overlap2D, quot. replace (2 =? 0)%Z with false by lia. cbn [bind]. intros E. right. exists p. split; [auto|]. split; [auto|].
    match type of E with (if ?c then _ else _) = _ => destruct c end; injection E as <-; auto.
  - intros E. left. split; [auto|]. injection E as E. unfold overlap3D in E.
    match type of E with (if ?c then _ else _) = _ => destruct c end; subst w; auto.
Qed.

Lemma overlap_exists : exists w, box_overlap (ND := RNum) (NF := RNum) (fun x => x) b h = Ok w.
Proof.
  unfold box_overlap. destruct (rb_proj b) as [p|]; [|eauto]. unfold overlap2D, quot. replace (2 =? 0)%Z with false by lia. cbn [bind].
  match goal with |- context [if ?c then _ else _] => destruct c end; eauto.
Qed.

Variable w : overlap.
Hypothesis HW : box_overlap (ND := RNum) (NF := RNum) (fun x => x) b h = Ok w.

Lemma w_cells : ocells w = n.
Proof. destruct (overlap_cases w HW) as [(_ & [-> | ->])|(p & _ & _ & [-> | ->])]; reflexivity. Qed.
Lemma w_dom : domCb w = rb_cb b.
Proof. destruct (overlap_cases w HW) as [(_ & [-> | ->])|(p & _ & _ & [-> | ->])]; reflexivity. Qed.
Lemma w_buf : bufCb w = if is_seg w then xcb else rb_cb b.
Proof. destruct (overlap_cases w HW) as [(_ & [-> | ->])|(p & _ & _ & [-> | ->])]; reflexivity. Qed.

Lemma buf_axis_range a : axis a -> (0 <= vget (origin (bufCb w)) a < n /\ 0 < vget (width (bufCb w)) a <= n)%Z.
Proof. intros Ha. rewrite w_buf. pose proof (sheet_axis_range a Ha). pose proof (box_axis_range a Ha). destruct (is_seg w); lia. Qed.

Lemma w_valid : valid_overlap w.
Proof.
  pose proof n_ge. split; [rewrite w_cells; lia|]. split.
  - destruct (overlap_cases w HW) as [(_ & [-> | ->])|(p & _ & ? & [-> | ->])]; cbn; auto.
  - pose proof (buf_axis_range 0 axis0). pose proof (buf_axis_range 1 axis1). pose proof (buf_axis_range 2 axis2). cbn [vget Z.eqb Pos.eqb] in *. lia.
Qed.

Lemma w_fits a : axis a -> fits_axis w a.
Proof.
  intros Ha. unfold fits_axis. rewrite w_cells, w_dom. pose proof (buf_axis_range a Ha). pose proof (box_axis_range a Ha). lia.
Qed.

Lemma w_mergeable : mergeable w.
Proof.
  pose proof n_ge. pose proof (axes_in (oproj w)) as HA. unfold mergeable. pose proof w_fits as HF.
  destruct (image_axes (oproj w)) as [[i j] k]. destruct HA as (A1 & A2 & A3).
  split; [rewrite w_cells; lia|].
  destruct (overlap_cases w HW) as [(_ & [E|E])|(p & _ & Hp & [E|E])]; rewrite E in *; cbn [okd oproj bufCb domCb] in *.
  - auto with axis.
  - split; [auto|]. pose proof (box_axis_range 0 axis0). pose proof (box_axis_range 1 axis1). pose proof (box_axis_range 2 axis2). cbn [vget Z.eqb Pos.eqb] in *. lia.
  - auto.
  - split; [auto|]. pose proof (box_axis_range i A1). pose proof (box_axis_range j A2). lia.
Qed.

Lemma w_thin : thin w.
Proof.
  unfold thin. rewrite w_cells, w_dom.
  destruct (okd w); auto; intros a Ha; apply (box_axis_range a Ha).
Qed.

Lemma w_image : image_width w (domCb w) = image_size b.
Proof.
  rewrite w_dom. unfold image_width, image_size.
  destruct (overlap_cases w HW) as [(-> & [-> | ->])|(p & -> & _ & [-> | ->])]; cbn [okd oproj]; auto;
  destruct (image_axes p) as [[? ?] ?]; reflexivity.
Qed.

(** ** Scaled coordinates *)
Definition scaled1 (a : Z) (x : R) : R :=
  if is_seg w then scale_segment1 (NF := RNum) (vget (origin xcb) a) n L x
  else scale_domain1 (NF := RNum) (vget (origin xcb) a) (vget (origin (bufCb w)) a) n L x.
(** The lowest cell of the sheet, counted from the corner of the buffer. *)
Definition low_ok (a lo : Z) : Prop :=
  if is_seg w then lo = 0%Z else (- n <= 2 * lo <= n)%Z.

Lemma low_exists a : axis a -> exists lo,
  low_ok a lo /\ (exists K, lo - vget (origin xcb) a + vget (origin (bufCb w)) a = K * n)%Z /\
  forall x X0, 0 <= x < L -> vget (s_origin h) a <= X0 <= vget (s_origin h) a + vget (s_width h) a -> rcong L X0 x ->
    scaled1 a x = s * X0 + IZR (lo - vget (origin xcb) a) /\
    IZR lo <= scaled1 a x < IZR (lo + vget (width xcb) a).
Proof.
  intros Ha. pose proof L_pos as HL. pose proof n_ge as Hn. pose proof (sheet_axis_range a Ha) as HR.
  destruct (sheet_cells_axis a Ha) as [EO EW]. pose proof (buf_axis_range a Ha) as HBR.
  assert (HH : 0 <= vget (s_origin h) a < L /\ 0 <= vget (s_width h) a < L / 2) by (destruct HS as (_ & _ & _ & _ & _ & H & _); destruct (H a Ha) as (? & ? & _); auto).
  destruct HH as [H1 H2].
  assert (SEG : forall x X0, 0 <= x < L -> vget (s_origin h) a <= X0 <= vget (s_origin h) a + vget (s_width h) a -> rcong L X0 x ->
    scale_segment1 (NF := RNum) (vget (origin xcb) a) n L x = X0 * s - IZR (vget (origin xcb) a) /\
    0 <= X0 * s - IZR (vget (origin xcb) a) < IZR (vget (width xcb) a)).
  { intros x X0 Hx HX HC. rewrite EO, EW. apply (scale_segment_axis L n HL ltac:(lia) _ _ x X0 H1 H2 Hx HX HC). }
  unfold low_ok, scaled1. destruct (is_seg w) eqn:E.
  - exists 0%Z. split; [auto|]. split.
    + exists 0%Z. rewrite w_buf, E. lia.
    + intros x X0 Hx HX HC. destruct (SEG x X0 Hx HX HC) as [-> B]. rewrite minus_IZR, plus_IZR. split; [simpl; ring|]. simpl (IZR 0). lra.
  - destruct (domain_diff_ok L n ltac:(lia) 0 0 (vget (origin xcb) a) (vget (origin (bufCb w)) a)) as (e & E1 & E2); try lia.
    exists (vget (origin xcb) a - vget (origin (bufCb w)) a + e * n)%Z. split; [auto|]. split; [exists e; ring|].
    intros x X0 Hx HX HC. unfold scale_domain1. destruct (SEG x X0 Hx HX HC) as [-> B]. rewrite E1. cbn [nadd RNum].
    set (lo := (vget (origin xcb) a - vget (origin (bufCb w)) a + e * n)%Z) in *.
    rewrite minus_IZR, plus_IZR. split; [ring|]. lra.
Qed.

Lemma low_room a lo : axis a -> low_ok a lo ->
  (is_seg w = true -> lo = 0 /\ vget (width xcb) a = vget (width (bufCb w)) a)%Z /\
  (- n <= lo /\ lo + vget (width xcb) a <= 2 * n)%Z.
Proof.
  intros Ha Hl. pose proof (sheet_axis_range a Ha). pose proof n_ge. unfold low_ok in Hl. destruct (is_seg w) eqn:E.
  - split; [|lia]. intros _. split; [auto|]. rewrite w_buf, E. reflexivity.
  - split; [discriminate|]. lia.
Qed.
End Frame.
