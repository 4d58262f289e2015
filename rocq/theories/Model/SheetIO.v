(** Model of /repo/render/io/io.go and buffer.go: sheet files, Gadget headers and
    the particle buffer.  Floating point numbers are their bit patterns, since
    the code only moves them. *)
From Coq Require Import ZArith List Bool.
From Verif Require Import Base.Res Base.Bytes Model.Geom.
Import ListNotations.
Open Scope Z_scope.
Open Scope res_scope.

(** An error value or nil next to the other results. *)
Inductive outcome (A : Type) := Good (a : A) | Err.
Arguments Good {A} a.
Arguments Err {A}.

(** io.go:55-75.  Doubles and floats are bit patterns, int64 fields signed. *)
Record sheet_header := SH {
  sh_z : Z; sh_omegaM : Z; sh_omegaL : Z; sh_h100 : Z;
  sh_count : Z; sh_countWidth : Z; sh_segmentWidth : Z; sh_gridWidth : Z; sh_gridCount : Z;
  sh_idx : Z; sh_cells : Z;
  sh_mass : Z; sh_totalWidth : Z;
  sh_origin : vec3 Z; sh_width : vec3 Z; sh_velOrigin : vec3 Z; sh_velWidth : vec3 Z }.

Definition vec_words (v : vec3 Z) : list (nat * Z) := [(4%nat, v0 v); (4%nat, v1 v); (4%nat, v2 v)].

(** The fields in the order of the struct declaration. *)
Definition sheet_words (h : sheet_header) : list (nat * Z) :=
  map (pair 8%nat) [sh_z h; sh_omegaM h; sh_omegaL h; sh_h100 h;
    sh_count h; sh_countWidth h; sh_segmentWidth h; sh_gridWidth h; sh_gridCount h; sh_idx h; sh_cells h;
    sh_mass h; sh_totalWidth h] ++
  vec_words (sh_origin h) ++ vec_words (sh_width h) ++ vec_words (sh_velOrigin h) ++ vec_words (sh_velWidth h).
Definition sheet_sizes : list nat := repeat 8%nat 13 ++ repeat 4%nat 12.
(** unsafe.Sizeof(SheetHeader{}) *)
Definition sheet_size : nat := 152.

Definition sheet_of_words (l : list Z) : sheet_header :=
  let w i := nth i l 0 in let int i := signed 64 (w i) in
  let vec i := V3 (w i) (w (i + 1)%nat) (w (i + 2)%nat) in
  SH (w 0%nat) (w 1%nat) (w 2%nat) (w 3%nat)
     (int 4%nat) (int 5%nat) (int 6%nat) (int 7%nat) (int 8%nat) (int 9%nat) (int 10%nat)
     (w 11%nat) (w 12%nat) (vec 13%nat) (vec 16%nat) (vec 19%nat) (vec 22%nat).

Definition set_count (h : sheet_header) (n : Z) : sheet_header :=
  SH (sh_z h) (sh_omegaM h) (sh_omegaL h) (sh_h100 h)
     n (sh_countWidth h) (sh_segmentWidth h) (sh_gridWidth h) (sh_gridCount h) (sh_idx h) (sh_cells h)
     (sh_mass h) (sh_totalWidth h) (sh_origin h) (sh_width h) (sh_velOrigin h) (sh_velWidth h).

(** io.go:93-99 *)
Definition read_int32 (o : order) (file : list Z) (pos : nat) : res Z :=
  match read_full file pos 4 with Some b => Ok (signed 32 (word o b)) | None => Panic end.

(** io.go:265-275 *)
Definition endianness (flag : Z) : res order :=
  if flag =? 0 then Ok Little else if flag =? -1 then Ok Big else Panic.

(** io.go:278-303.  Opening the file succeeds. *)
Definition read_sheet_header (file : list Z) : res (outcome (sheet_header * order)) :=
  flag <- read_int32 Little file 0 ;;
  o <- endianness flag ;;
  size <- read_int32 o file 4 ;;
  if negb (size =? Z.of_nat sheet_size) then Ok Err else
  match read_full file 8 sheet_size with
  | None => Ok Err
  | Some b =>
      let h := sheet_of_words (decode o sheet_sizes b) in
      let c := sh_countWidth h in
      Ok (Good (set_count h (wrap64 (c * c * c)), o))
  end.

(** The loops that reverse the bytes of every word, io.go:422-427, 481-486,
    511-516 and 540-545 with [half] = 2 or 4 and [last] = 3 or 7, and io.go:449-454
    with [half] = 4 and [last] = 3. *)
Definition swap_bytes (n width half last : Z) (mem : list Z) : res (list Z) :=
  for_ 0 n (fun i mem =>
    for_ 0 half (fun j mem => swap mem (i * width + j) (i * width + last - j)) mem) mem.

Section Machine.
(** The byte order of the machine, see isSysOrder, io.go:559-571. *)
Variable sys : order.
Definition is_sys_order (o : order) : bool := order_eqb o sys.

(** io.go:410-434.  [mem] is the memory of the slice. *)
Definition read_vec_as_byte (o : order) (file : list Z) (pos : nat) (mem : list Z) : res (outcome (list Z)) :=
  match read_into file pos mem with
  | None => Ok Err
  | Some mem =>
      m <- (if is_sys_order o then Ok mem else swap_bytes (zlen mem / 4) 4 2 3 mem) ;;
      Ok (Good m)
  end.

(** io.go:436-467.  [cvt] is the conversion from float64 to float32 on bit
    patterns; the result is the list of values. *)
Definition read_vec64_as_byte (cvt : Z -> Z) (o : order) (file : list Z) (pos n : nat) : res (outcome (list Z)) :=
  match read_into file pos (repeat 0 (24 * n)) with
  | None => Ok Err
  | Some mem =>
      m <- (if is_sys_order o then Ok mem else swap_bytes (Z.of_nat n * 3) 8 4 3 mem) ;;
      Ok (Good (map cvt (words sys 8 (3 * n) m)))
  end.

(** io.go:471-496: the bytes written and the caller's memory afterwards. *)
Definition write_vec_as_byte (o : order) (mem : list Z) : res (list Z * list Z) :=
  m <- (if is_sys_order o then Ok mem else swap_bytes (zlen mem / 4) 4 2 3 mem) ;;
  Ok (m, m).

(** io.go:499-523 *)
Definition read_int64_as_byte (o : order) (file : list Z) (pos : nat) (mem : list Z) : res (outcome (list Z)) :=
  match read_into file pos mem with
  | None => Ok Err
  | Some mem =>
      m <- (if is_sys_order o then Ok mem else swap_bytes (zlen mem / 8) 8 4 7 mem) ;;
      Ok (Good m)
  end.

(** io.go:527-556: the result is the list of values. *)
Definition read_int32_as_byte (o : order) (file : list Z) (pos n : nat) : res (outcome (list Z)) :=
  match read_into file pos (repeat 0 (4 * n)) with
  | None => Ok Err
  | Some mem =>
      m <- (if is_sys_order o then Ok mem else swap_bytes (Z.of_nat n) 4 2 3 mem) ;;
      Ok (Good (map (signed 32) (words sys 4 n m)))
  end.

(** io.go:314-331: a non-nil error is [Err]; the result is the memory of the
    buffer. *)
Definition read_sheet_positions (file : list Z) (buf : list Z) : res (outcome (list Z)) :=
  r <- read_sheet_header file ;;
  match r with
  | Err => Ok (Good buf)
  | Good (h, o) =>
      if negb (sh_gridCount h =? zlen buf / 12) then Ok Err
      else read_vec_as_byte o file (4 + 4 + sheet_size) buf
  end.

(** io.go:334-348 *)
Definition read_sheet_velocities (file : list Z) (buf : list Z) : res (outcome (list Z)) :=
  r <- read_sheet_header file ;;
  match r with
  | Err => Ok Err
  | Good (h, o) =>
      if negb (sh_gridCount h =? zlen buf / 12) then Ok Err
      else read_vec_as_byte o file (4 + 4 + sheet_size + length buf) buf
  end.

(** io.go:352-386.  Creating and writing the file succeed.  Results: the file and
    the memory of the two slices afterwards. *)
Definition write_sheet (h : sheet_header) (xs vs : list Z) : res (list Z * list Z * list Z) :=
  if negb (sh_gridCount h =? zlen xs / 12) then Fatal
  else if negb (sh_gridCount h =? zlen vs / 12) then Fatal
  else if negb (wrap64 (sh_gridWidth h * sh_gridWidth h * sh_gridWidth h) =? sh_gridCount h) then Fatal
  else
    let flag := 0 in
    o <- endianness flag ;;
    '(bx, xs) <- write_vec_as_byte o xs ;;
    '(bv, vs) <- write_vec_as_byte o vs ;;
    Ok (put o 4 flag ++ put o 4 (Z.of_nat sheet_size) ++ encode o (sheet_words h) ++ bx ++ bv, xs, vs).
End Machine.

(** io.go:78-90, 103-118: the particle counts.  uint32 arithmetic. *)
Definition standard_count (npart0 npart1 : Z) : Z :=
  (npart1 + (npart0 * 2 ^ 32) mod 2 ^ 32) mod 2 ^ 32.

(** ** buffer.go *)
Section ParticleBuffer.
Context {V : Type}.

(** buffer.go:10-15 *)
Record particle_buffer := PB { pb_x : list V; pb_v : list V; pb_id : list Z; pb_idx : Z; pb_xs : list V; pb_vs : list V }.

(** buffer.go:18-26; [z] is the zero vector. *)
Definition new_particle_buffer (z : V) (xs vs : list V) (bufSize : Z) : res particle_buffer :=
  if bufSize <? 0 then Panic
  else let n := Z.to_nat bufSize in Ok (PB (repeat z n) (repeat z n) (repeat 0 n) 0 xs vs).

(** buffer.go:45-51 *)
Definition pb_flush (b : particle_buffer) : res particle_buffer :=
  '(xs, vs) <- for_ 0 (pb_idx b) (fun i s =>
    let '(xs, vs) := s in
    id <- get (pb_id b) i ;;
    x <- get (pb_x b) i ;; xs <- set xs (id - 1) x ;;
    v <- get (pb_v b) i ;; vs <- set vs (id - 1) v ;;
    Ok (xs, vs)) (pb_xs b, pb_vs b) ;;
  Ok (PB (pb_x b) (pb_v b) (pb_id b) 0 xs vs).

(** buffer.go:30-41 *)
Definition pb_append (b : particle_buffer) (xBuf vBuf : list V) (idBuf : list Z) : res particle_buffer :=
  for_ 0 (zlen xBuf) (fun pi b =>
    x <- get xBuf pi ;; xs <- set (pb_x b) (pb_idx b) x ;;
    v <- get vBuf pi ;; vs <- set (pb_v b) (pb_idx b) v ;;
    id <- get idBuf pi ;; ids <- set (pb_id b) (pb_idx b) id ;;
    let b := PB xs vs ids (pb_idx b + 1) (pb_xs b) (pb_vs b) in
    if pb_idx b =? zlen (pb_x b) then pb_flush b else Ok b) b.
End ParticleBuffer.
Arguments particle_buffer V : clear implicits.
