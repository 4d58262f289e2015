(** Model of the Gadget-2 reader of /repo/render/io/io.go and of lGadget2Main of
    /repo/render/main/main.go: from the bytes of snapshot files to sheet segments.
    [D] is float64, [F] is float32; the fields of files are bit patterns. *)
From Coq Require Import ZArith List Bool String.
From Verif Require Import Base.Res Base.Num Base.Bytes Model.Geom Model.SheetIO Model.Manager Model.Main.
Import ListNotations.
Open Scope Z_scope.
Open Scope res_scope.

(** io.go:79-90.  The flags, HashTabSize and the padding are not kept. *)
Record gadget_header := GHd {
  gd_npart : list Z; gd_mass : list Z; gd_time : Z; gd_redshift : Z; gd_npartTotal : list Z;
  gd_boxSize : Z; gd_omega0 : Z; gd_omegaLambda : Z; gd_hubble : Z }.

(** The sizes of the fields in the order of the declaration, without the padding. *)
Definition gadget_sizes : list nat :=
  repeat 4%nat 6 ++ repeat 8%nat 6 ++ [8; 8]%nat ++ [4; 4]%nat ++ repeat 4%nat 6 ++ [4; 4]%nat ++ [8; 8; 8; 8]%nat ++ [4; 4]%nat.
(** The number of bytes binary.Read takes for the struct. *)
Definition gadget_size : nat := 256.

Definition gadget_of_words (l : list Z) : gadget_header :=
  let w i := nth i l 0 in let six i := map w (seq i 6) in
  GHd (six 0%nat) (six 6%nat) (w 12%nat) (w 13%nat) (six 16%nat) (w 24%nat) (w 25%nat) (w 26%nat) (w 27%nat).
Definition gadget_zero : gadget_header := gadget_of_words [].

(** io.go:94-100, 141-144, 165-168: the flag, then the header, always in little endian
    order; an error of binary.Read is dropped.  The header and the number of bytes
    that have been consumed. *)
Definition read_gadget_struct (o : order) (file : list Z) : res (gadget_header * nat) :=
  _ <- read_int32 o file 0 ;;
  match read_full file 4 gadget_size with
  | Some b => Ok (gadget_of_words (decode Little gadget_sizes b), (4 + gadget_size)%nat)
  | None => Ok (gadget_zero, List.length file)
  end.

(** io.go:27-41 (the fields that are set), 103-118.  Doubles are bit patterns. *)
Record catalog_header := CHd {
  ct_z : Z; ct_omegaM : Z; ct_omegaL : Z; ct_h100 : Z; ct_mass : Z; ct_count : Z; ct_totalCount : Z; ct_totalWidth : Z }.
Definition standardize (g : gadget_header) : catalog_header :=
  CHd (gd_redshift g) (gd_omega0 g) (gd_omegaLambda g) (gd_hubble g) (nth 1 (gd_mass g) 0)
      (standard_count (nth 0 (gd_npart g) 0) (nth 1 (gd_npart g) 0))
      (standard_count (nth 0 (gd_npartTotal g) 0) (nth 1 (gd_npartTotal g) 0)) (gd_boxSize g).

(** io.go:135-149.  Opening the file succeeds. *)
Definition read_gadget_header (o : order) (file : list Z) : res catalog_header :=
  '(g, _) <- read_gadget_struct o file ;; Ok (standardize g).

Section Particles.
Context {D F : Type} {ND : Num D} {NF : Num F} (up : F -> D) (down : D -> F).
(** The byte order of the machine, the float32 and the float64 with a bit pattern,
    the conversion of float64 patterns to float32 patterns, and math.Sqrt. *)
Variables (sys : order) (f32_of : Z -> F) (f64_of : Z -> D) (narrow : Z -> Z) (fsqrt : D -> D).

(** io.go:205-209, 222-226: the components of n vectors, and where the file stands
    afterwards.  Errors are dropped.  Where the file is too short the rest of the
    slice is zero here; in the code it keeps its old contents. *)
Definition read_block (o : order) (readF32 : bool) (file : list Z) (pos n : nat) : res (list Z * nat) :=
  let size := if readF32 then (12 * n)%nat else (24 * n)%nat in
  r <- (if readF32 then
          r <- read_vec_as_byte sys o file pos (repeat 0 (12 * n)) ;;
          Ok (match r with Good m => words sys 4 (3 * n) m | Err => repeat 0 (3 * n) end)
        else
          r <- read_vec64_as_byte sys narrow o file pos n ;;
          Ok (match r with Good l => l | Err => repeat 0 (3 * n) end)) ;;
  Ok (r, Nat.min (pos + size) (List.length file)).

(** io.go:195-203, 213-220: whether a block of [size] bytes holds float32. *)
Definition block_kind (npart1 size : Z) : res bool :=
  let f32Size := wrap32 (12 * npart1) in
  if f32Size =? size then Ok true
  else if wrap32 (f32Size * 2) =? size then Ok false
  else Panic.

(** io.go:227-236.  [ids] is the slice before the call, which is kept where nothing
    is read. *)
Definition read_ids (o : order) (idSize : Z) (file : list Z) (pos : nat) (ids : list Z) : res (list Z) :=
  let n := List.length ids in
  if idSize =? 64 then
    r <- read_int64_as_byte sys o file pos (flat_map (put sys 8) ids) ;;
    Ok (match r with Good m => map (signed 64) (words sys 8 n m) | Err => ids end)
  else if idSize =? 32 then
    r <- read_int32_as_byte sys o file pos n ;;
    Ok (match r with Good l => l | Err => ids end)
  else Panic.

(** The words of n vectors. *)
Fixpoint triples {A} (n : nat) (l : list A) : list (vec3 A) :=
  match n, l with
  | S n, a :: b :: c :: l => V3 a b c :: triples n l
  | _, _ => []
  end.

(** io.go:155-247 for slices xs and vs of length [nx] and [nv].  Opening the file
    succeeds. *)
Definition read_gadget_particles (o : order) (file : list Z) (nx nv : Z) (ids : list Z) (idSize : Z) :
    res (list (vec3 F) * list (vec3 F) * list Z) :=
  '(g, pos) <- read_gadget_struct o file ;;
  _ <- read_int32 o file pos ;;
  let count := ct_count (standardize g) in
  if negb (nx =? count) then Panic else if negb (nv =? count) then Panic else if negb (zlen ids =? count) then Panic else
  let n := Z.to_nat count in let n1 := nth 1 (gd_npart g) 0 in
  xSize <- read_int32 o file (pos + 4) ;;
  kx <- block_kind n1 xSize ;;
  '(xs, pos) <- read_block o kx file (pos + 8) n ;;
  _ <- read_int32 o file pos ;;
  vSize <- read_int32 o file (pos + 4) ;;
  kv <- block_kind n1 vSize ;;
  '(vs, pos) <- read_block o kv file (pos + 8) n ;;
  _ <- read_int32 o file pos ;;
  _ <- read_int32 o file (pos + 4) ;;
  ids <- read_ids o idSize file (pos + 8) ids ;;
  let rootA := down (fsqrt (f64_of (gd_time g))) in
  let position x := down (wrap_distance (f64_of (gd_boxSize g)) (up (f32_of x))) in
  let velocity v := (f32_of v * rootA)%num in
  Ok (map (vmap position) (triples n xs), map (vmap velocity) (triples n vs), ids).

(** io.go:252-263 *)
Definition read_gadget (o : order) (file : list Z) (idSize : Z) : res (catalog_header * list (vec3 F) * list (vec3 F) * list Z) :=
  h <- read_gadget_header o file ;;
  '(xs, vs, ids) <- read_gadget_particles o file (ct_count h) (ct_count h) (repeat 0 (Z.to_nat (ct_count h))) idSize ;;
  Ok (h, xs, vs, ids).

(** ** createGrids *)
Variable pow : D -> D -> D.

(** config.go:220-225, 240-250.  MUnits, LogFile and ProfileFile are left out. *)
Record convert_config := CC {
  cv_input : string; cv_output : string; cv_cells : Z; cv_idSize : Z; cv_format : string;
  cv_itInput : string; cv_itOutput : string; cv_start : Z; cv_end : Z; cv_xUnits : D; cv_vUnits : D }.

Definition zero_vec : vec3 F := V3 (#0)%num (#0)%num (#0)%num.
(** main.go:25-27 *)
Definition catalogBufLen : Z := 2 ^ 12.

(** main.go:318-343, one snapshot file with its header.  [idBuf] is the whole array
    behind the slice idBuf; what the buffers of the positions and velocities held
    before does not matter, see [read_block]. *)
Definition read_catalog (con : convert_config) (file : list Z) (h : catalog_header) (idBuf : list Z) (buf : particle_buffer (vec3 F)) :
    res (list Z * particle_buffer (vec3 F)) :=
  let n := ct_count h in
  if (n <? 0) || (zlen idBuf <? n) then Panic else
  '(xs, vs, ids) <- read_gadget_particles Little file n n (firstn (Z.to_nat n) idBuf) (cv_idSize con) ;;
  let xs := map (vmap (fun x => x * down (cv_xUnits con))%num) xs in
  let vs := map (vmap (fun v => v * down (cv_vUnits con))%num) vs in
  buf <- pb_append buf xs vs ids ;;
  Ok (ids ++ skipn (Z.to_nat n) idBuf, buf).

Fixpoint read_catalogs (con : convert_config) (files : list (list Z)) (hs : list catalog_header) (idBuf : list Z) (buf : particle_buffer (vec3 F)) :
    res (particle_buffer (vec3 F)) :=
  match files, hs with
  | file :: files, h :: hs => '(idBuf, buf) <- read_catalog con file h idBuf buf ;; read_catalogs con files hs idBuf buf
  | _, _ => Ok buf
  end.

(** main.go:280-353: the first header, CountWidth, and the two grids.  The
    multiplication of Mass by MUnits is left out. *)
Definition create_grids (con : convert_config) (files : list (list Z)) : res (catalog_header * Z * list (vec3 F) * list (vec3 F)) :=
  hs <- map_res (read_gadget_header Little) files ;;
  h <- get hs 0 ;;
  let total := ct_totalCount h in
  if total <? 0 then Panic else
  let grid := repeat zero_vec (Z.to_nat total) in
  let maxLen := fold_left (fun m h => if ct_count h >? m then ct_count h else m) hs 0 in
  buf <- new_particle_buffer zero_vec grid grid catalogBufLen ;;
  buf <- read_catalogs con files hs (repeat 0 (Z.to_nat maxLen)) buf ;;
  buf <- pb_flush buf ;;
  countWidth <- int_cube_root pow total ;;
  Ok (h, countWidth, pb_xs buf, pb_vs buf).

(** main.go:269-276 for one directory, the contents of whose files are given. *)
Definition convert_dir (con : convert_config) (files : list (list Z)) : res (list (string * segment F)) :=
  '(h, countWidth, xs, vs) <- create_grids con files ;;
  write_grids zero_vec countWidth (cv_cells con) (down (f64_of (ct_totalWidth h))) xs vs.

(** fmt.Sprintf(format, i), and the contents of the files of a directory in the
    order of ioutil.ReadDir, if there is such a directory. *)
Variables (sprintf : string -> Z -> string) (listing : string -> option (list (list Z))).
Definition given (s : string) : bool := negb (String.eqb s "").

(** main.go:243-277: the directories that are written, and what is written. *)
Definition lgadget2_main (con : convert_config) : res (list (string * list (string * segment F))) :=
  let '(first, last) := if given (cv_itInput con) then (cv_start con, cv_end con) else (0, 0) in
  for_ first (last + 1) (fun i out =>
    let '(input, output) :=
      if given (cv_itInput con) then (sprintf (cv_itInput con) i, sprintf (cv_itOutput con) i) else (cv_input con, cv_output con) in
    match listing input with
    | None => Fatal
    | Some files => d <- convert_dir con files ;; Ok (out ++ [(output, d)])
    end) [].

(** main.go:174-191, config.go:227-232, 265-276. *)
Definition convert_snapshot (con : convert_config) : res (list (string * list (string * segment F))) :=
  if negb (given (cv_input con)) && negb (given (cv_itInput con)) then Fatal
  else if negb (given (cv_output con)) && negb (given (cv_itOutput con)) then Fatal
  else if negb (cv_cells con >? 0) then Fatal
  else if negb (Bool.eqb (given (cv_itInput con)) (given (cv_itOutput con))) then Fatal
  else if negb ((cv_idSize con =? 64) || (cv_idSize con =? 32)) then Fatal
  else if String.eqb (cv_format con) "LGadget-2" || String.eqb (cv_format con) "Arepo-type-2" then lgadget2_main con
  else Fatal.

(** config.go:253-262 *)
Definition default_convert : convert_config := CC "" "" 0 64 "" "" "" 0 (-1) (#1)%num (#1)%num.
End Particles.
Arguments convert_config D : clear implicits.
