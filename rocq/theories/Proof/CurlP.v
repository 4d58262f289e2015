(** Gradient, divergence and curl; what the calls do to
    the option objects. *)
From Coq Require Import ZArith List Lia Lra Bool Reals.
From Coq Require Import ZifyBool ZifyNat.
From Verif Require Import Base.Res Base.ResFacts Base.Num Base.IEEE Base.Convert Model.Geom Model.GridDeriv.
From Verif Require Import Spec.Geometry Spec.Fields Spec.FieldDefs Spec.Stencils Spec.Filtering Proof.InterpP Proof.GridDerivP.
Import ListNotations.
Open Scope R_scope.

Section Calls.
Variables (org w : vec3 Z) (bw : R) (cells : Z) (opt : deriv_options) (p : opt_ptr) (m : opt_mem).
Hypothesis Ho : load m p = opt.
Hypothesis Hord : (order opt = 2 \/ order opt = 4)%Z.
Hypothesis Hn : (order opt < v0 w /\ order opt < v1 w /\ order opt < v2 w)%Z.
Let W := wcell w.
Let gl := new_grid_location org w bw cells.
Let dx := bw / IZR cells.
Let P := taken_slope W (order opt) dx (fun a => periodic opt && (cells =? axis_of a W)%Z)%bool.
Let rd := grid_deriv (ND := RNum) (NF := RNum) (fun x : R => x) gl.

Lemma deriv_all axis o' vals out : (axis = 0 \/ axis = 1 \/ axis = 2)%Z -> order o' = order opt -> periodic o' = periodic opt ->
  zlen vals = volume W -> zlen out = volume W ->
  exists o, rd vals out axis o' = Ok o /\ zlen o = volume W /\
    forall c, in_grid W c -> at_cell W o c = combine_op (dop o') (at_cell W out c) (P vals axis c).
Proof.
  intros Hax EO EP Lv Lo.
  assert (order o' < vget w axis)%Z as Hn'.
  { rewrite EO. unfold vget. destruct Hax as [-> | [-> | ->]]; cbn [Z.eqb Pos.eqb]; lia. }
  destruct (faces_thm org w axis vals out bw cells o') as (o & E & L & V); auto.
  - destruct Hord; lia.
  - rewrite EO. auto.
  - exists o. split; [exact E|]. split; [exact L|]. rewrite EO, EP in V. exact V.
Qed.

Lemma load_store_op q : order (load (store_op m p q) p) = order opt /\ dop (load (store_op m p q) p) = q /\ periodic (load (store_op m p q) p) = periodic opt.
Proof. rewrite <- Ho. destruct p, m; repeat split; reflexivity. Qed.

Lemma gradient_ok vals outs : zlen vals = volume W ->
  zlen (v0 outs) = volume W -> zlen (v1 outs) = volume W -> zlen (v2 outs) = volume W ->
  exists a b d, gradient (ND := RNum) (NF := RNum) (fun x : R => x) gl vals outs p m = Ok (V3 a b d, m) /\
    forall c, in_grid W c ->
      at_cell W a c = combine_op (dop opt) (at_cell W (v0 outs) c) (P vals 0 c) /\
      at_cell W b c = combine_op (dop opt) (at_cell W (v1 outs) c) (P vals 1 c) /\
      at_cell W d c = combine_op (dop opt) (at_cell W (v2 outs) c) (P vals 2 c).
Proof.
  intros L L0 L1 L2. unfold gradient. rewrite Ho. fold rd.
  destruct (deriv_all 0 opt vals (v0 outs)) as (a & -> & La & Va); auto.
  destruct (deriv_all 1 opt vals (v1 outs)) as (b & -> & Lb & Vb); auto.
  destruct (deriv_all 2 opt vals (v2 outs)) as (d & -> & Ld & Vd); auto.
  cbn [bind]. exists a, b, d. split; auto.
Qed.

Lemma divergence_ok vecs out :
  zlen (v0 vecs) = volume W -> zlen (v1 vecs) = volume W -> zlen (v2 vecs) = volume W -> zlen out = volume W ->
  exists o, divergence (ND := RNum) (NF := RNum) (fun x : R => x) gl vecs out p m = Ok (o, store_op m p OpAdd) /\
    zlen o = volume W /\
    forall c, in_grid W c ->
      at_cell W o c = combine_op (dop opt) (at_cell W out c) (P (v0 vecs) 0 c) + P (v1 vecs) 1 c + P (v2 vecs) 2 c.
Proof.
  intros L0 L1 L2 L. unfold divergence. cbv zeta. rewrite Ho. fold rd. destruct (load_store_op OpAdd) as (EO & ED & EP).
  destruct (deriv_all 0 opt (v0 vecs) out) as (a & -> & La & Va); auto. cbn [bind].
  destruct (deriv_all 1 (load (store_op m p OpAdd) p) (v1 vecs) a) as (b & -> & Lb & Vb); auto. cbn [bind].
  destruct (deriv_all 2 (load (store_op m p OpAdd) p) (v2 vecs) b) as (d & -> & Ld & Vd); auto. cbn [bind].
  exists d. split; [reflexivity|]. split; [auto|]. intros c Hc. rewrite Vd, Vb, Va by auto. rewrite ED. reflexivity.
Qed.

Lemma curl_ok vecs outs :
  zlen (v0 vecs) = volume W -> zlen (v1 vecs) = volume W -> zlen (v2 vecs) = volume W ->
  zlen (v0 outs) = volume W -> zlen (v1 outs) = volume W -> zlen (v2 outs) = volume W ->
  exists a b d, curl (ND := RNum) (NF := RNum) (fun x : R => x) gl vecs outs p m = Ok (V3 a b d, store_op m p OpSubtract) /\
    forall c, in_grid W c ->
      at_cell W a c = combine_op (dop opt) (at_cell W (v0 outs) c) (P (v2 vecs) 1 c) - P (v1 vecs) 2 c /\
      at_cell W b c = combine_op (dop opt) (at_cell W (v1 outs) c) (P (v0 vecs) 2 c) - P (v2 vecs) 0 c /\
      at_cell W d c = combine_op (dop opt) (at_cell W (v2 outs) c) (P (v1 vecs) 0 c) - P (v0 vecs) 1 c.
Proof.
  intros L0 L1 L2 M0 M1 M2. unfold curl. cbv zeta. rewrite Ho. fold rd. destruct (load_store_op OpSubtract) as (EO & ED & EP).
  destruct (deriv_all 1 opt (v2 vecs) (v0 outs)) as (a & -> & La & Va); auto. cbn [bind].
  destruct (deriv_all 2 opt (v0 vecs) (v1 outs)) as (b & -> & Lb & Vb); auto. cbn [bind].
  destruct (deriv_all 0 opt (v1 vecs) (v2 outs)) as (d & -> & Ld & Vd); auto. cbn [bind].
  destruct (deriv_all 2 (load (store_op m p OpSubtract) p) (v1 vecs) a) as (a' & -> & La' & Va'); auto. cbn [bind].
  destruct (deriv_all 0 (load (store_op m p OpSubtract) p) (v2 vecs) b) as (b' & -> & Lb' & Vb'); auto. cbn [bind].
  destruct (deriv_all 1 (load (store_op m p OpSubtract) p) (v0 vecs) d) as (d' & -> & Ld' & Vd'); auto. cbn [bind].
  exists a', b', d'. split; [reflexivity|]. intros c Hc. rewrite Va', Vb', Vd', Va, Vb, Vd by auto. rewrite ED. split; [|split]; reflexivity.
Qed.
End Calls.

(** Concrete failures, in IEEE arithmetic. *)
Lemma axis2_edge_bad :
  (o <- grid_deriv to_f32 cube5 (field5 (fun _ _ z => z)) zero5 2 (DO false OpNone 2) ;; v <- get o 0 ;; Ok (neqb v (nofZ 0)))%res = Ok true.
Proof. vm_compute. reflexivity. Qed.

Lemma axis2_wrap_bad :
  (o <- grid_deriv to_f32 cube5 (field5 (fun _ _ z => z)) zero5 2 (DO true OpNone 2) ;; v <- get o 0 ;; Ok (neqb v (nofZ 0)))%res = Ok true.
Proof. vm_compute. reflexivity. Qed.

Lemma curl_twice_bad :
  let call := curl to_f32 cube5 (V3 zero5 (field5 (fun x _ _ => x)) zero5) (V3 zero5 zero5 zero5) PNil in
  ('(r1, m1) <- call (OM options_default options_default) ;; '(r2, _) <- call m1 ;;
   a <- get (v2 r1) 62 ;; b <- get (v2 r2) 62 ;; Ok (neqb a (nofZ 1), neqb b (nofZ (-1))))%res = Ok (true, true).
Proof. vm_compute. reflexivity. Qed.

Lemma divergence_options_bad :
  exists r m, divergence to_f32 cube5 (V3 zero5 zero5 zero5) zero5 PUser (OM options_default options_default) = Ok (r, m) /\ dop (om_user m) = OpAdd.
Proof. eexists. eexists. split; vm_compute; reflexivity. Qed.

Lemma store_op_load m p q : load (store_op m p q) p = DO (periodic (load m p)) q (order (load m p)).
Proof. destruct p, m; reflexivity. Qed.

Lemma gradient_thm org w bw cells p m vals outs :
  let opt := load m p in let W := wcell w in let P := taken_slope W (order opt) (bw / IZR cells) (fun a => periodic opt && (cells =? axis_of a W)%Z)%bool in
  (order opt = 2 \/ order opt = 4)%Z -> (order opt < v0 w /\ order opt < v1 w /\ order opt < v2 w)%Z ->
  zlen vals = volume W -> zlen (v0 outs) = volume W -> zlen (v1 outs) = volume W -> zlen (v2 outs) = volume W ->
  dop opt = OpNone ->
  exists a b d, gradient (ND := RNum) (NF := RNum) (fun x : R => x) (new_grid_location org w bw cells) vals outs p m = Ok (V3 a b d, m) /\
    forall c, in_grid W c ->
      at_cell W a c = P vals 0%Z c /\ at_cell W b c = P vals 1%Z c /\ at_cell W d c = P vals 2%Z c.
Proof.
  intros opt W P HO HN L L0 L1 L2 ON.
  destruct (gradient_ok org w bw cells opt p m eq_refl HO HN vals outs L L0 L1 L2) as (a & b & d & E & V).
  rewrite ON in V. exists a, b, d. split; auto.
Qed.

Lemma divergence_thm org w bw cells p m vecs out :
  let opt := load m p in let W := wcell w in let P := taken_slope W (order opt) (bw / IZR cells) (fun a => periodic opt && (cells =? axis_of a W)%Z)%bool in
  (order opt = 2 \/ order opt = 4)%Z -> (order opt < v0 w /\ order opt < v1 w /\ order opt < v2 w)%Z ->
  zlen (v0 vecs) = volume W -> zlen (v1 vecs) = volume W -> zlen (v2 vecs) = volume W -> zlen out = volume W ->
  dop opt = OpNone ->
  exists o m', divergence (ND := RNum) (NF := RNum) (fun x : R => x) (new_grid_location org w bw cells) vecs out p m = Ok (o, m') /\ zlen o = volume W /\
    load m' p = DO (periodic opt) OpAdd (order opt) /\
    forall c, in_grid W c -> at_cell W o c = P (v0 vecs) 0%Z c + P (v1 vecs) 1%Z c + P (v2 vecs) 2%Z c.
Proof.
  intros opt W P HO HN L L0 L1 L2 ON.
  destruct (divergence_ok org w bw cells opt p m eq_refl HO HN vecs out L L0 L1 L2) as (o & E & L' & V).
  rewrite ON in V. exists o. eexists. split; [exact E|]. split; [auto|]. split; [apply store_op_load|]. exact V.
Qed.

Lemma curl_thm org w bw cells p m vecs outs :
  let opt := load m p in let W := wcell w in let P := taken_slope W (order opt) (bw / IZR cells) (fun a => periodic opt && (cells =? axis_of a W)%Z)%bool in
  (order opt = 2 \/ order opt = 4)%Z -> (order opt < v0 w /\ order opt < v1 w /\ order opt < v2 w)%Z ->
  zlen (v0 vecs) = volume W -> zlen (v1 vecs) = volume W -> zlen (v2 vecs) = volume W ->
  zlen (v0 outs) = volume W -> zlen (v1 outs) = volume W -> zlen (v2 outs) = volume W ->
  dop opt = OpNone ->
  exists a b d m', curl (ND := RNum) (NF := RNum) (fun x : R => x) (new_grid_location org w bw cells) vecs outs p m = Ok (V3 a b d, m') /\
    load m' p = DO (periodic opt) OpSubtract (order opt) /\
    forall c, in_grid W c ->
      at_cell W a c = P (v2 vecs) 1%Z c - P (v1 vecs) 2%Z c /\
      at_cell W b c = P (v0 vecs) 2%Z c - P (v2 vecs) 0%Z c /\
      at_cell W d c = P (v1 vecs) 0%Z c - P (v0 vecs) 1%Z c.
Proof.
  intros opt W P HO HN L0 L1 L2 M0 M1 M2 ON.
  destruct (curl_ok org w bw cells opt p m eq_refl HO HN vecs outs L0 L1 L2 M0 M1 M2) as (a & b & d & E & V).
  rewrite ON in V. exists a, b, d. eexists. split; [exact E|]. split; [apply store_op_load|]. exact V.
Qed.
