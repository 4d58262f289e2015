(** Model of /repo/render/io/output.go and of the flag decoding in
    /repo/python/gotetra.py. *)
From Coq Require Import ZArith List Bool.
From Verif Require Import Base.Res Base.Bytes Model.Geom Model.SheetIO.
Import ListNotations.
Open Scope Z_scope.
Open Scope res_scope.

(** output.go:23-58.  Doubles are bit patterns, int64 fields signed. *)
Record location_info := LI { li_origin : vec3 Z; li_span : vec3 Z; li_pixelOrigin : vec3 Z; li_pixelSpan : vec3 Z; li_pixelWidth : Z }.
Record cosmo_info := CI { ci_redshift : Z; ci_scale : Z; ci_omegaM : Z; ci_omegaL : Z; ci_hubble : Z; ci_rhoMean : Z; ci_rhoCritical : Z; ci_boxWidth : Z }.
Record render_info := RI { ri_particles : Z; ri_totalPixels : Z; ri_subsample : Z; ri_depth : Z; ri_axis : Z }.
Record grid_header := GH {
  gh_flag : Z; gh_size : Z; gh_type : Z; gh_isVector : Z;
  gh_cosmo : cosmo_info; gh_render : render_info; gh_loc : location_info; gh_vel : location_info }.

Definition v3_list (v : vec3 Z) : list Z := [v0 v; v1 v; v2 v].
Definition loc_fields (l : location_info) : list Z :=
  v3_list (li_origin l) ++ v3_list (li_span l) ++ v3_list (li_pixelOrigin l) ++ v3_list (li_pixelSpan l) ++ [li_pixelWidth l].

(** The fields in the order of the struct declaration, 8 bytes each. *)
Definition grid_fields (h : grid_header) : list Z :=
  [gh_flag h; gh_size h; gh_type h; gh_isVector h] ++
  (let c := gh_cosmo h in [ci_redshift c; ci_scale c; ci_omegaM c; ci_omegaL c; ci_hubble c; ci_rhoMean c; ci_rhoCritical c; ci_boxWidth c]) ++
  (let r := gh_render h in [ri_particles r; ri_totalPixels r; ri_subsample r; ri_depth r; ri_axis r]) ++
  loc_fields (gh_loc h) ++ loc_fields (gh_vel h).
(** unsafe.Sizeof(hd) *)
Definition grid_size : nat := 344.

Definition grid_of_words (l : list Z) : grid_header :=
  let w i := nth i l 0 in let int i := signed 64 (w i) in
  let loc i := LI (V3 (w i) (w (i + 1)%nat) (w (i + 2)%nat)) (V3 (w (i + 3)%nat) (w (i + 4)%nat) (w (i + 5)%nat))
                  (V3 (int (i + 6)%nat) (int (i + 7)%nat) (int (i + 8)%nat)) (V3 (int (i + 9)%nat) (int (i + 10)%nat) (int (i + 11)%nat))
                  (w (i + 12)%nat) in
  GH (w 0%nat) (int 1%nat) (int 2%nat) (int 3%nat)
     (CI (w 4%nat) (w 5%nat) (w 6%nat) (w 7%nat) (w 8%nat) (w 9%nat) (w 10%nat) (w 11%nat))
     (RI (int 12%nat) (int 13%nat) (int 14%nat) (int 15%nat) (int 16%nat))
     (loc 17%nat) (loc 30%nat).

(** output.go:178-184 on 64 bit words. *)
Definition reverse (x : Z) : res Z :=
  for_ 0 64 (fun i out => Ok (if Z.land 1 (Z.shiftr x i) =? 1 then Z.lor out (Z.shiftl 1 (63 - i)) else out)) 0.

Definition version : Z := 2.  (* output.go:20 *)

(** output.go:169-176 *)
Definition endianness_version_flag (o : order) : res Z :=
  r <- reverse (version - 1) ;;
  let flag := Z.lor r (version - 1) in
  if order_eqb o Little then Ok (Z.lxor flag (2 ^ 64 - 1)) else Ok flag.

(** What buf.FinalizedScalarBuffer and buf.FinalizedVectorBuffer return, as bit
    patterns of float32. *)
Inductive finalized := FScalar (xs : list Z) | FVector (xs ys zs : list Z).

Definition floats (o : order) (l : list Z) : list Z := encode o (map (pair 4%nat) l).
Definition zero_loc : location_info := LI (V3 0 0 0) (V3 0 0 0) (V3 0 0 0) (V3 0 0 0) 0.

(** output.go:141-167 with [end] = LittleEndian (output.go:17).  The header is
    written before IsVectorGrid is assigned; Vel is not assigned at all. *)
Definition write_buffer (quantity : Z) (buf : finalized) (c : cosmo_info) (r : render_info) (l : location_info) : res (list Z) :=
  let o := Little in
  flag <- endianness_version_flag o ;;
  let hd := GH flag (Z.of_nat grid_size) quantity 0 c r l zero_loc in
  let out := encode o (map (pair 8%nat) (grid_fields hd)) in
  match buf with
  | FScalar xs => Ok (out ++ floats o xs)
  | FVector xs ys zs => Ok (out ++ floats o xs ++ floats o ys ++ floats o zs)
  end.

(** output.go:60-67.  Opening the file succeeds. *)
Definition read_grid_header (file : list Z) : outcome grid_header :=
  match read_full file 0 grid_size with
  | None => Err
  | Some b => Good (grid_of_words (decode Little (repeat 8%nat 43) b))
  end.

(** output.go:69-89: the float32 bit patterns before the conversion to float64. *)
Definition read_grid (file : list Z) : res (outcome (list Z)) :=
  match read_grid_header file with
  | Err => Ok Err
  | Good hd =>
      if gh_isVector hd =? 1 then Ok Err else
      let sp := li_pixelSpan (gh_loc hd) in
      let n := wrap64 (v0 sp * v1 sp * v2 sp) in
      if n <? 0 then Panic else
      match read_full file grid_size (4 * Z.to_nat n) with
      | None => Ok Err
      | Some b => Ok (Good (words Little 4 (Z.to_nat n) b))
      end
  end.

(** python/gotetra.py:53-58: flag is the signed 64 bit value of the first eight
    bytes in the byte order of the machine.  Results: endianness, version. *)
Definition read_endianness_version (sys : order) (s : list Z) : Z * Z :=
  let flag := signed 64 (word sys s) in
  let ver := Z.land flag 4294967295 in
  let e := if Z.shiftr ver 31 =? 0 then 0 else -1 in
  (e, if e =? 0 then ver else 1 + Z.land (Z.lnot ver) 4294967295).
