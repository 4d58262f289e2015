(** Model of the reader of /repo/python/gtet.py, and of the bytes that writeGrids
    in /repo/render/main/main.go hands to it.  Files are lists of bytes, floats
    their bit patterns.  An uncaught exception is [Panic]. *)
From Coq Require Import ZArith List Bool.
From Verif Require Import Base.Res Base.Bytes Model.Geom Model.SheetIO Model.Main Model.Gadget Model.PyGrid.
Import ListNotations.
Open Scope Z_scope.
Open Scope res_scope.

(** fp.read(n) at an offset: fewer bytes at the end of the file. *)
Definition fp_read (file : list Z) (pos n : nat) : list Z := firstn n (skipn pos file).

(** struct.unpack with n equal letters of w bytes, in the order of the machine. *)
Definition native_unpack (sys : order) (w n : nat) (s : list Z) : res (list Z) :=
  if Nat.eqb (length s) (w * n) then Ok (words sys w n s) else Panic.

(** gtet.py:53-64, 77-80.  x_width and xn_width of line 59 are
    [sf_segment_width] and [sf_grid_width]. *)
Record py_sheet := PF {
  sf_z : Z; sf_scale : Z; sf_omega_m : Z; sf_h100 : Z;
  sf_count : Z; sf_count_width : Z; sf_segment_width : Z; sf_grid_width : Z; sf_grid_count : Z; sf_file_idx : Z; sf_file_cells : Z;
  sf_box_width : Z; sf_x_origin : vec3 Z; sf_x_span : vec3 Z; sf_v_origin : vec3 Z; sf_v_span : vec3 Z;
  sf_xn : nda; sf_vn : nda; sf_x : nda; sf_v : nda }.

(** a[:-1,:-1,:-1,:] of an array of shape (gw, gw, gw, 3), gtet.py:79-80. *)
Definition drop_last (gw : Z) (xs : list Z) : nda :=
  let m := Z.max 0 (gw - 1) in
  let r := map Z.of_nat (seq 0 (Z.to_nat m)) in
  NDA [m; m; m; 3] (flat_map (fun i => flat_map (fun j => flat_map (fun k =>
    map (fun c => nth (Z.to_nat (((i * gw + j) * gw + k) * 3 + c)) xs 0) [0; 1; 2]) r) r) r).

(** gtet.py:6-82.  Opening succeeds; Python's integers do not wrap. *)
Definition py_sheet_file (sys : order) (file : list Z) : res py_sheet :=
  cosmo <- native_unpack sys 8 4 (fp_read file 8 (4 * 8)) ;;
  index <- native_unpack sys 8 7 (fp_read file 40 (7 * 8)) ;;
  misc <- native_unpack sys 8 2 (fp_read file 96 (2 * 8)) ;;
  pos <- native_unpack sys 4 6 (fp_read file 112 (6 * 4)) ;;
  vel <- native_unpack sys 4 6 (fp_read file 136 (6 * 4)) ;;
  let f i := nth i cosmo 0 in
  let int i := signed 64 (nth i index 0) in
  let vec l i := V3 (nth i l 0) (nth (i + 1) l 0) (nth (i + 2) l 0) in
  let gw := int 3%nat in
  let n := gw * gw * gw in
  x <- fromfile sys file 160 (3 * n) ;;
  v <- fromfile sys file (160 + 4 * length x) (3 * n) ;;
  xn <- reshape [gw; gw; gw; 3] x ;;
  vn <- reshape [gw; gw; gw; 3] v ;;
  Ok (PF (f 0%nat) (f 1%nat) (f 2%nat) (f 3%nat)
         (int 0%nat) (int 1%nat) (int 2%nat) gw (int 4%nat) (int 5%nat) (int 6%nat)
         (nth 1 misc 0) (vec pos 0%nat) (vec pos 3%nat) (vec vel 0%nat) (vec vel 3%nat)
         xn vn (drop_last gw x) (drop_last gw v)).

Section Written.
(** [enc] is the bit pattern of a float32. *)
Context {F : Type} (enc : F -> Z).

(** main.go:368-385, 403 and 511-516: the header of segment [idx].  The
    multiplication of Mass by MUnits is left out. *)
Definition sheet_head (hd : catalog_header) (countWidth cells idx : Z) (sg : segment F) : sheet_header :=
  let segmentWidth := Z.quot countWidth cells in
  let gridWidth := segmentWidth + 1 in
  SH (ct_z hd) (ct_omegaM hd) (ct_omegaL hd) (ct_h100 hd)
     (ct_count hd) countWidth segmentWidth gridWidth (gridWidth * gridWidth * gridWidth) idx cells
     (ct_mass hd) (ct_totalWidth hd)
     (vmap enc (sg_origin sg)) (vmap enc (sg_width sg)) (vmap enc (sg_vorigin sg)) (vmap enc (sg_vwidth sg)).

(** The memory of a slice of vectors. *)
Definition vec_memory (sys : order) (l : list (vec3 F)) : list Z :=
  encode sys (map (pair 4%nat) (flat_map (fun v => [enc (v0 v); enc (v1 v); enc (v2 v)]) l)).

(** main.go:395: the file of one segment, and what WriteSheet does to the slices. *)
Definition sheet_bytes (sys : order) (hd : catalog_header) (countWidth cells idx : Z) (sg : segment F) : res (list Z * list Z * list Z) :=
  write_sheet sys (sheet_head hd countWidth cells idx sg) (vec_memory sys (sg_x sg)) (vec_memory sys (sg_v sg)).
End Written.
