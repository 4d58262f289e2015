(** Model of the reader of /repo/python/gotetra.py: read_header and read_grid.
    Files are lists of bytes, floats their bit patterns.  An uncaught exception
    is [Panic], [exit(1)] is [Fatal].  Opening succeeds, and the text mode of
    line 69 returns the bytes of the file, as in Python 2 on Unix.  What is only
    printed is left out. *)
From Coq Require Import ZArith List Bool.
From Verif Require Import Base.Res Base.Bytes Model.Geom Model.GridIO.
Import ListNotations.
Open Scope Z_scope.
Open Scope res_scope.

(** gotetra.py:34-51 *)
Record py_sizes := PS { ps_header : nat; ps_type : nat; ps_cosmo : nat; ps_render : nat; ps_loc : nat; ps_vel : nat }.
Definition sizes (ver : Z) : res py_sizes :=
  if ver =? 1 then Ok (PS 232 24 64 40 104 0)
  else if ver =? 2 then Ok (PS 336 24 64 40 104 104)
  else Fatal.

(** s[a: b] *)
Definition py_slice (a b : nat) (s : list Z) : list Z := firstn (b - a) (skipn a s).

(** gotetra.py:210-213, for formats of n letters of eight bytes each. *)
Definition endian_unpack (n : nat) (s : list Z) (e : Z) : res (list Z) :=
  if Nat.eqb (length s) (8 * n) then Ok (words (if e =? -1 then Little else Big) 8 n s) else Panic.

(** gotetra.py:226-235 *)
Record py_type := PT { pt_end : Z; pt_size : Z; pt_grid : Z; pt_vector : bool }.
Definition type_info (s : list Z) (e : Z) : res py_type :=
  d <- endian_unpack 3 s e ;;
  let int i := signed 64 (nth i d 0) in
  Ok (PT e (int 0%nat) (int 1%nat) (negb ((int 1%nat =? 0) || (int 1%nat =? 3)))).

(** gotetra.py:277-287 *)
Definition py_cosmo (s : list Z) (e : Z) : res cosmo_info :=
  d <- endian_unpack 8 s e ;;
  let w i := nth i d 0 in
  Ok (CI (w 0%nat) (w 1%nat) (w 2%nat) (w 3%nat) (w 4%nat) (w 5%nat) (w 6%nat) (w 7%nat)).

(** gotetra.py:318-326 *)
Definition py_render (s : list Z) (e : Z) : res render_info :=
  d <- endian_unpack 5 s e ;;
  let int i := signed 64 (nth i d 0) in
  Ok (RI (int 0%nat) (int 1%nat) (int 2%nat) (int 3%nat) (int 4%nat)).

(** gotetra.py:363-371 *)
Definition py_loc (s : list Z) (e : Z) : res location_info :=
  d <- endian_unpack 13 s e ;;
  let w i := nth i d 0 in let int i := signed 64 (w i) in
  Ok (LI (V3 (w 0%nat) (w 1%nat) (w 2%nat)) (V3 (w 3%nat) (w 4%nat) (w 5%nat))
         (V3 (int 6%nat) (int 7%nat) (int 8%nat)) (V3 (int 9%nat) (int 10%nat) (int 11%nat)) (w 12%nat)).

(** gotetra.py:160-200; dim, pw and axis are read off [ph_loc] and [ph_render]. *)
Record py_header := PH { ph_version : Z; ph_sizes : py_sizes; ph_type : py_type; ph_cosmo : cosmo_info; ph_render : render_info; ph_loc : location_info }.
Definition header_init (sys : order) (s : list Z) (sz : py_sizes) : res py_header :=
  let '(e, ver) := read_endianness_version sys (py_slice 0 8 s) in
  if negb (Nat.eqb (length s) (ps_header sz + 8)) then Panic else
  let type_start := 8%nat in
  let type_end := (ps_type sz + type_start)%nat in
  let cosmo_end := (type_end + ps_cosmo sz)%nat in
  let render_end := (cosmo_end + ps_render sz)%nat in
  let loc_end := (render_end + ps_loc sz)%nat in
  let vel_end := (loc_end + ps_vel sz)%nat in
  if (ver =? 1) && negb (Nat.eqb loc_end (ps_header sz + 8)) then Panic else
  if (ver >=? 2) && negb (Nat.eqb vel_end (ps_header sz + 8)) then Panic else
  t <- type_info (py_slice type_start type_end s) e ;;
  c <- py_cosmo (py_slice type_end cosmo_end s) e ;;
  r <- py_render (py_slice cosmo_end render_end s) e ;;
  l <- py_loc (py_slice render_end loc_end s) e ;;
  Ok (PH ver sz t c r l).

(** gotetra.py:65-74 *)
Definition py_read_header (sys : order) (file : list Z) : res py_header :=
  let flag_s := firstn 8 file in
  if negb (Nat.eqb (length flag_s) 8) then Panic else
  sz <- sizes (snd (read_endianness_version sys flag_s)) ;;
  header_init sys (flag_s ++ firstn (ps_header sz) (skipn 8 file)) sz.

(** A numpy array, its elements in the order of memory. *)
Record nda := NDA { shape : list Z; elems : list Z }.
Inductive py_grid := PyScalar (a : nda) | PyVector (a b c : nda).

(** np.reshape *)
Definition reshape (sh : list Z) (xs : list Z) : res nda :=
  if existsb (fun d => d <? 0) sh || negb (fold_right Z.mul 1 sh =? zlen xs) then Panic else Ok (NDA sh xs).

(** array.array("f").fromfile of n items at an offset, on a machine of byte order [sys]. *)
Definition fromfile (sys : order) (file : list Z) (pos : nat) (n : Z) : res (list Z) :=
  if n <? 0 then Panic else
  match read_full file pos (4 * Z.to_nat n) with Some b => Ok (words sys 4 (Z.to_nat n) b) | None => Panic end.

(** gotetra.py:87-93; byteswap works in place. *)
Definition maybe_swap (sys : order) (e : Z) (xs : list Z) : list Z :=
  if order_eqb sys Little && (e =? -1) then xs
  else if order_eqb sys Big && (e =? 0) then xs
  else map (fun v => word Big (put Little 4 v)) xs.

(** hd.dim[i] *)
Definition dim_at (dim : vec3 Z) (i : Z) : Z := nth (Z.to_nat i) (v3_list dim) 0.

(** gotetra.py:95-101 and the shapes of 115-122, 132-135: the number of items
    and the shape; j and k are unset for other axes. *)
Definition grid_shape (axis : Z) (dim : vec3 Z) : Z * option (list Z) :=
  let n := fold_left (fun n i => if i =? axis then n else wrap64 (n * dim_at dim i)) [0; 1; 2] 1 in
  (n, if axis =? -1 then Some [dim_at dim 2; dim_at dim 1; dim_at dim 0]
      else if axis =? 0 then Some [dim_at dim 2; dim_at dim 1]
      else if axis =? 1 then Some [dim_at dim 2; dim_at dim 0]
      else if axis =? 2 then Some [dim_at dim 1; dim_at dim 0]
      else None).

(** gotetra.py:76-136 *)
Definition py_read_grid (sys : order) (file : list Z) : res py_grid :=
  hd <- py_read_header sys file ;;
  let '(n, sh) := grid_shape (ri_axis (ph_render hd)) (li_pixelSpan (ph_loc hd)) in
  let e := pt_end (ph_type hd) in
  let pos := (ps_header (ph_sizes hd) + 8)%nat in
  let shaped xs := match sh with Some s => reshape s (maybe_swap sys e xs) | None => Panic end in
  if pt_vector (ph_type hd) then
    xs <- fromfile sys file pos n ;;
    ys <- fromfile sys file (pos + 4 * length xs) n ;;
    zs <- fromfile sys file (pos + 4 * (length xs + length ys)) n ;;
    a <- shaped xs ;; b <- shaped ys ;; c <- shaped zs ;;
    Ok (PyVector a b c)
  else
    xs <- fromfile sys file pos n ;;
    a <- shaped xs ;;
    Ok (PyScalar a).
