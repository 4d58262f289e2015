(** Derivatives of fields on grids (render/geom/deriv.go). *)
From Coq Require Import ZArith List Reals Lra Lia.
From Verif Require Import Base.Res Base.Num Base.IEEE Base.Convert Model.Geom Model.GridDeriv.
From Verif Require Import Spec.Geometry Spec.Fields Spec.FieldDefs Spec.Stencils Spec.Filtering Proof.GridDerivP Proof.CurlP.
Import ListNotations.
Open Scope R_scope.
Local Notation grid_derivR := (grid_deriv (D := R) (F := R) (ND := RNum) (NF := RNum) (fun x => x)).
Local Notation gradientR := (gradient (D := R) (F := R) (ND := RNum) (NF := RNum) (fun x => x)).
Local Notation divergenceR := (divergence (D := R) (F := R) (ND := RNum) (NF := RNum) (fun x => x)).
Local Notation curlR := (curl (D := R) (F := R) (ND := RNum) (NF := RNum) (fun x => x)).

(** C61: with one sided formulas at the edges, every cell whose line along the
    axis holds a polynomial gets the exact derivative. *)
Theorem C61_deriv_edges : forall org w axis vals out bw cells opt,
  (0 < v0 w /\ 0 < v1 w /\ 0 < v2 w)%Z -> (axis = 0 \/ axis = 1)%Z -> (order opt = 2 \/ order opt = 4)%Z ->
  (order opt < vget w axis)%Z -> zlen vals = volume (wcell w) -> zlen out = volume (wcell w) ->
  periodic opt = false \/ cells <> vget w axis ->
  exists o, grid_derivR (new_grid_location org w bw cells) vals out axis opt = Ok o /\ zlen o = volume (wcell w) /\
  forall c p, in_grid (wcell w) c -> bw / IZR cells <> 0 -> (zlen p <= order opt + 1)%Z ->
    (forall k, (0 <= k < vget w axis)%Z -> at_cell (wcell w) vals (moved axis c k) = poly p (IZR k * (bw / IZR cells))) ->
    at_cell (wcell w) o c =
      combine_op (dop opt) (at_cell (wcell w) out c) (poly (dpoly p) (IZR (axis_of axis c) * (bw / IZR cells))).
Proof. exact edges_thm. Qed.
Print Assumptions C61_deriv_edges.

Example C61_edges_example : at_cell (3, 1, 1)%Z [0; 1; 4] (2, 0, 0)%Z = poly [0; 0; 1] (IZR 2 * (3 / IZR 3)) /\
  volume (wcell (V3 3 1 1)%Z) = zlen ([0; 1; 4]%R).
Proof. split; [change (4 = poly [0; 0; 1] (IZR 2 * (3 / IZR 3))); cbn [poly]; field|reflexivity]. Qed.

(** C61: on a grid that covers the whole periodic box every cell gets the
    central difference of the periodically continued line. *)
Theorem C61_deriv_wrap : forall org w axis vals out bw cells opt,
  (0 < v0 w /\ 0 < v1 w /\ 0 < v2 w)%Z -> (axis = 0 \/ axis = 1)%Z -> (order opt = 2 \/ order opt = 4)%Z ->
  (order opt < vget w axis)%Z -> zlen vals = volume (wcell w) -> zlen out = volume (wcell w) ->
  periodic opt = true -> cells = vget w axis ->
  exists o, grid_derivR (new_grid_location org w bw cells) vals out axis opt = Ok o /\ zlen o = volume (wcell w) /\
  forall c, in_grid (wcell w) c ->
    at_cell (wcell w) o c = combine_op (dop opt) (at_cell (wcell w) out c)
      (central (order opt) (bw / IZR cells)
         (fun k => at_cell (wcell w) vals (moved axis c (k mod vget w axis)%Z)) (axis_of axis c)).
Proof. exact wraps_thm. Qed.
Print Assumptions C61_deriv_wrap.

Example C61_wrap_example : (0 < 3 /\ 0 < 1)%Z /\ order (DO true OpAdd 2) = 2%Z /\ vget (V3 3 1 1)%Z 0 = 3%Z.
Proof. repeat split; reflexivity. Qed.

(** The central differences are exact on polynomials. *)
Theorem C61_central_exact : forall ord h a i, ord = 2%Z \/ ord = 4%Z -> (zlen a <= ord + 1)%Z -> h <> 0 ->
  central ord h (fun k => poly a (IZR k * h)) i = poly (dpoly a) (IZR i * h).
Proof. exact central_exact. Qed.
Print Assumptions C61_central_exact.

Example C61_central_example : (zlen ([1; 2; 3; 4; 5]%R) <= 4 + 1)%Z.
Proof. discriminate. Qed.

(** So are the weights for the points next to an edge. *)
Theorem C61_weights_exact : forall ord h a lo p, ord = 2%Z \/ ord = 4%Z -> (0 <= p <= ord)%Z -> (zlen a <= ord + 1)%Z -> h <> 0 ->
  stencil ord h (fun k => poly a (IZR k * h)) lo p = poly (dpoly a) (IZR (lo + p) * h).
Proof. exact stencil_exact. Qed.
Print Assumptions C61_weights_exact.

(** Every cell gets the slope of its line from the nearest points, whatever the line holds. *)
Theorem C61_everywhere : forall org w axis vals out bw cells opt,
  (0 < v0 w /\ 0 < v1 w /\ 0 < v2 w)%Z -> (axis = 0 \/ axis = 1)%Z -> (order opt = 2 \/ order opt = 4)%Z ->
  (order opt < vget w axis)%Z -> zlen vals = volume (wcell w) -> zlen out = volume (wcell w) ->
  exists o, grid_derivR (new_grid_location org w bw cells) vals out axis opt = Ok o /\ zlen o = volume (wcell w) /\
  forall c, in_grid (wcell w) c -> at_cell (wcell w) o c = combine_op (dop opt) (at_cell (wcell w) out c)
    (field_slope (wcell w) (order opt) (bw / IZR cells) (periodic opt && (cells =? axis_of axis (wcell w))%Z) vals axis c).
Proof. exact everywhere_thm. Qed.
Print Assumptions C61_everywhere.

Example C61_everywhere_example : field_slope (3, 1, 1)%Z 2 1 false [0; 1; 4] 0%Z (2, 0, 0)%Z = 4 /\ window 2 3 2 = 0%Z /\ window 4 9 7 = 4%Z.
Proof. exact slope_ex. Qed.

(** C62: false of the code at the faces z = 0, where the step along the axis is
    wrong: the derivative of the field z is 0 there, and not 1. *)
Theorem C62_axis2_refuted :
  (o <- grid_deriv to_f32 cube5 (field5 (fun _ _ z => z)) zero5 2 (DO false OpNone 2) ;; v <- get o 0 ;; Ok (neqb v (nofZ 0)))%res = Ok true.
Proof. exact axis2_edge_bad. Qed.
Print Assumptions C62_axis2_refuted.

(** The same with wrap-around: 0 in place of (1 - 4) / 2. *)
Theorem C62_axis2_wrap_refuted :
  (o <- grid_deriv to_f32 cube5 (field5 (fun _ _ z => z)) zero5 2 (DO true OpNone 2) ;; v <- get o 0 ;; Ok (neqb v (nofZ 0)))%res = Ok true.
Proof. exact axis2_wrap_bad. Qed.
Print Assumptions C62_axis2_wrap_refuted.

(** What holds on every axis: no panic, and the slopes, except next to the faces
    across axis 2, where the neighbours in the list are taken for the neighbours along
    the axis. *)
Theorem C62_faces_partial : forall org w axis vals out bw cells opt,
  (0 < v0 w /\ 0 < v1 w /\ 0 < v2 w)%Z -> (axis = 0 \/ axis = 1 \/ axis = 2)%Z -> (order opt = 2 \/ order opt = 4)%Z ->
  (order opt < vget w axis)%Z -> zlen vals = volume (wcell w) -> zlen out = volume (wcell w) ->
  let W := wcell w in
  exists o, grid_derivR (new_grid_location org w bw cells) vals out axis opt = Ok o /\ zlen o = volume W /\
  forall c, in_grid W c -> at_cell W o c = combine_op (dop opt) (at_cell W out c)
    (taken_slope W (order opt) (bw / IZR cells) (fun a => periodic opt && (cells =? axis_of a W)%Z)%bool vals axis c).
Proof. exact faces_thm. Qed.
Print Assumptions C62_faces_partial.

(** In particular central differences away from the two faces. *)
Theorem C62_interior_partial : forall org w axis vals out bw cells opt,
  (0 < v0 w /\ 0 < v1 w /\ 0 < v2 w)%Z -> (axis = 0 \/ axis = 1 \/ axis = 2)%Z -> (order opt = 2 \/ order opt = 4)%Z ->
  (order opt < vget w axis)%Z -> zlen vals = volume (wcell w) -> zlen out = volume (wcell w) ->
  exists o, grid_derivR (new_grid_location org w bw cells) vals out axis opt = Ok o /\ zlen o = volume (wcell w) /\
  forall c, in_grid (wcell w) c -> (order opt / 2 <= axis_of axis c < vget w axis - order opt / 2)%Z ->
    at_cell (wcell w) o c = combine_op (dop opt) (at_cell (wcell w) out c)
      (central (order opt) (bw / IZR cells) (fun k => at_cell (wcell w) vals (moved axis c k)) (axis_of axis c)).
Proof. exact interior_thm. Qed.
Print Assumptions C62_interior_partial.

Example C62_example : in_grid (wcell (V3 1 1 3)%Z) (0, 0, 1)%Z /\ (2 / 2 <= axis_of 2 (0, 0, 1) < vget (V3 1 1 3) 2 - 2 / 2)%Z.
Proof. unfold in_grid, wcell. cbn. lia. Qed.

(** C63: false of the code: the curl of the same field with the default options
    changes its sign at the second call, and the caller's options are changed. *)
Theorem C63_curl_twice_refuted :
  let call := curl to_f32 cube5 (V3 zero5 (field5 (fun x _ _ => x)) zero5) (V3 zero5 zero5 zero5) PNil in
  ('(r1, m1) <- call (OM options_default options_default) ;; '(r2, _) <- call m1 ;;
   a <- get (v2 r1) 62 ;; b <- get (v2 r2) 62 ;; Ok (neqb a (nofZ 1), neqb b (nofZ (-1))))%res = Ok (true, true).
Proof. exact curl_twice_bad. Qed.
Print Assumptions C63_curl_twice_refuted.

Theorem C63_divergence_options_refuted :
  exists r m, divergence to_f32 cube5 (V3 zero5 zero5 zero5) zero5 PUser (OM options_default options_default) = Ok (r, m) /\
    dop (om_user m) = OpAdd.
Proof. exact divergence_options_bad. Qed.
Print Assumptions C63_divergence_options_refuted.

(** What holds, with the slopes of C62.  Gradient leaves all options alone; the
    first Divergence or Curl with options that say None gives the divergence or
    the curl, and leaves the options changed as stated. *)
Theorem C63_gradient_partial : forall org w bw cells p m vals outs,
  let opt := load m p in let W := wcell w in let P := taken_slope W (order opt) (bw / IZR cells) (fun a => periodic opt && (cells =? axis_of a W)%Z)%bool in
  (order opt = 2 \/ order opt = 4)%Z -> (order opt < v0 w /\ order opt < v1 w /\ order opt < v2 w)%Z ->
  zlen vals = volume W -> zlen (v0 outs) = volume W -> zlen (v1 outs) = volume W -> zlen (v2 outs) = volume W ->
  dop opt = OpNone ->
  exists a b d, gradientR (new_grid_location org w bw cells) vals outs p m = Ok (V3 a b d, m) /\
    forall c, in_grid W c ->
      at_cell W a c = P vals 0%Z c /\ at_cell W b c = P vals 1%Z c /\ at_cell W d c = P vals 2%Z c.
Proof. exact gradient_thm. Qed.
Print Assumptions C63_gradient_partial.

Theorem C63_divergence_partial : forall org w bw cells p m vecs out,
  let opt := load m p in let W := wcell w in let P := taken_slope W (order opt) (bw / IZR cells) (fun a => periodic opt && (cells =? axis_of a W)%Z)%bool in
  (order opt = 2 \/ order opt = 4)%Z -> (order opt < v0 w /\ order opt < v1 w /\ order opt < v2 w)%Z ->
  zlen (v0 vecs) = volume W -> zlen (v1 vecs) = volume W -> zlen (v2 vecs) = volume W -> zlen out = volume W ->
  dop opt = OpNone ->
  exists o m', divergenceR (new_grid_location org w bw cells) vecs out p m = Ok (o, m') /\ zlen o = volume W /\
    load m' p = DO (periodic opt) OpAdd (order opt) /\
    forall c, in_grid W c -> at_cell W o c = P (v0 vecs) 0%Z c + P (v1 vecs) 1%Z c + P (v2 vecs) 2%Z c.
Proof. exact divergence_thm. Qed.
Print Assumptions C63_divergence_partial.

Theorem C63_curl_partial : forall org w bw cells p m vecs outs,
  let opt := load m p in let W := wcell w in let P := taken_slope W (order opt) (bw / IZR cells) (fun a => periodic opt && (cells =? axis_of a W)%Z)%bool in
  (order opt = 2 \/ order opt = 4)%Z -> (order opt < v0 w /\ order opt < v1 w /\ order opt < v2 w)%Z ->
  zlen (v0 vecs) = volume W -> zlen (v1 vecs) = volume W -> zlen (v2 vecs) = volume W ->
  zlen (v0 outs) = volume W -> zlen (v1 outs) = volume W -> zlen (v2 outs) = volume W ->
  dop opt = OpNone ->
  exists a b d m', curlR (new_grid_location org w bw cells) vecs outs p m = Ok (V3 a b d, m') /\
    load m' p = DO (periodic opt) OpSubtract (order opt) /\
    forall c, in_grid W c ->
      at_cell W a c = P (v2 vecs) 1%Z c - P (v1 vecs) 2%Z c /\
      at_cell W b c = P (v0 vecs) 2%Z c - P (v2 vecs) 0%Z c /\
      at_cell W d c = P (v1 vecs) 0%Z c - P (v0 vecs) 1%Z c.
Proof. exact curl_thm. Qed.
Print Assumptions C63_curl_partial.

(** Without options, a package not yet used differentiates to fourth order and does not wrap. *)
Theorem C63_default_partial : forall org w bw cells u vals outs,
  let W := wcell w in let P := taken_slope W 4 (bw / IZR cells) (fun _ => false) in
  (4 < v0 w /\ 4 < v1 w /\ 4 < v2 w)%Z ->
  zlen vals = volume W -> zlen (v0 outs) = volume W -> zlen (v1 outs) = volume W -> zlen (v2 outs) = volume W ->
  exists a b d, gradientR (new_grid_location org w bw cells) vals outs PNil (OM options_default u) = Ok (V3 a b d, OM options_default u) /\
    forall c, in_grid W c ->
      at_cell W a c = P vals 0%Z c /\ at_cell W b c = P vals 1%Z c /\ at_cell W d c = P vals 2%Z c.
Proof.
  exact (fun org w bw cells u vals outs H A B C D =>
    gradient_thm org w bw cells PNil (OM options_default u) vals outs (or_intror eq_refl) H A B C D eq_refl).
Qed.
Print Assumptions C63_default_partial.

Example C63_example : let m := OM options_default options_default in
  dop (load m PNil) = OpNone /\ (order (load m PNil) < 5)%Z /\ in_grid (5, 5, 5)%Z (4, 2, 0)%Z.
Proof. cbv. repeat split; reflexivity || discriminate. Qed.
