(** Converted snapshots as Python should see them. *)
From Coq Require Import ZArith List Bool.
From Verif Require Import Base.Res Base.Bytes Base.ResFacts Base.Num Model.Geom Model.Main Model.Gadget Model.PyGrid Model.PySheet Spec.Files Spec.PyArrays Spec.Segments.
Import ListNotations.
Open Scope Z_scope.

Definition catalog_typed (hd : catalog_header) : Prop :=
  bits 64 (ct_z hd) /\ bits 64 (ct_omegaM hd) /\ bits 64 (ct_omegaL hd) /\ bits 64 (ct_h100 hd) /\
  int64 (ct_count hd) /\ bits 64 (ct_mass hd) /\ bits 64 (ct_totalWidth hd).

Definition part {A} (v : vec3 A) (k : Z) : A := if k =? 0 then v0 v else if k =? 1 then v1 v else v2 v.

(** [a] has shape (w, w, w, 3) and holds, at [c, b, a], the vectors of the
    lattice [all] of width [n] at the corner (s * x, s * y, s * z) plus (a, b, c). *)
Definition sees_cube {F} (enc : F -> Z) (d : vec3 F) (n s x y z : Z) (all : list (vec3 F)) (w : Z) (arr : nda) : Prop :=
  shape arr = [w; w; w; 3] /\
  forall a b c k, 0 <= a < w -> 0 <= b < w -> 0 <= c < w -> 0 <= k < 3 ->
    element arr [c; b; a; k] = Some (enc (part (zn d all (periodic_index n (s * x + a) (s * y + b) (s * z + c))) k)).

(** The fields of the header that mean what the comment of gtet.py says. *)
Definition header_reads {F} (enc : F -> Z) (hd : catalog_header) (n s cells idx : Z) (sg : segment F) (p : py_sheet) : Prop :=
  sf_z p = ct_z hd /\ sf_h100 p = ct_h100 hd /\ sf_count_width p = n /\ sf_segment_width p = s /\ sf_grid_width p = s + 1 /\
  sf_grid_count p = (s + 1) * (s + 1) * (s + 1) /\ sf_file_idx p = idx /\ sf_file_cells p = cells /\ sf_box_width p = ct_totalWidth hd /\
  sf_x_origin p = vmap enc (sg_origin sg) /\ sf_x_span p = vmap enc (sg_width sg) /\
  sf_v_origin p = vmap enc (sg_vorigin sg) /\ sf_v_span p = vmap enc (sg_vwidth sg).

(** What the comment says of the indices: the first is that of the x dimension. *)
Definition documented_cube {F} (enc : F -> Z) (d : vec3 F) (n s x y z : Z) (all : list (vec3 F)) (w : Z) (arr : nda) : Prop :=
  forall a b c k, 0 <= a < w -> 0 <= b < w -> 0 <= c < w -> 0 <= k < 3 ->
    element arr [a; b; c; k] = Some (enc (part (zn d all (periodic_index n (s * x + a) (s * y + b) (s * z + c))) k)).

(** Of the conversion of [xs] and [vs], the file of segment (x, y, z) as Python reads it. *)
Definition python_reads {F} {NF : Num F} (enc : F -> Z) (d : vec3 F) (sys : order) (hd : catalog_header) (n cells : Z) (w : F)
    (xs vs : list (vec3 F)) (x y z : Z) (sg : segment F) (p : py_sheet) : Prop :=
  exists out file mx mv, write_grids d n cells w xs vs = Ok out /\
    get out (cube_index cells x y z) = Ok (sheet_name x y z, sg) /\
    sheet_bytes enc sys hd n cells (cube_index cells x y z) sg = Ok (file, mx, mv) /\
    py_sheet_file Little file = Ok p.
