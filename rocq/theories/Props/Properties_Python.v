(** The images as the Python reader sees them. *)
From Coq Require Import ZArith List Reals Lia Lra.
From Verif Require Import Base.Res Base.ResFacts Base.Bytes Base.Num Model.Geom Model.SheetIO Model.GridIO Model.RenderMain
  Model.Main Model.Gadget Model.Buffers Model.PyGrid Model.PySheet Model.PyRender Spec.BufferKinds Spec.Files Spec.PyArrays Spec.Segments Spec.PySheets Spec.PyOwners Spec.Slabs
  Proof.PyGridP Proof.PySheetP Proof.PySheetQ Proof.PyRenderP.
Import ListNotations.
Open Scope Z_scope.

(** C194: on a little endian machine the file of every buffer is read back, the
    header field by field and the image number by number, projected or not. *)
Theorem C194_read_partial : forall (D F : Type) (ND : Num D) (NF : Num F) (down : D -> F) (up : F -> D) (enc : F -> Z)
    q n g0 b ops b' q' im c r l, (forall x, bits 32 (enc x)) ->
  g_new q n g0 = Ok b -> apply_ops up b ops = Ok b' -> g_write down b' = Ok (q', im) ->
  describes q c r l -> (forall xs, In xs (image_arrays im) -> zlen xs = image_len (ri_axis r) l) ->
  exists file, write_buffer q' (bits_of enc im) c r l = Ok file /\
    py_read_header Little file = Ok (header_seen q c r l) /\
    py_read_grid Little file = Ok (array_of enc (image_shape (ri_axis r) l) im).
Proof. exact @buffer_read. Qed.
Print Assumptions C194_read_partial.

(** The index of a pixel: the x axis is last, as the comment of read_grid says. *)
Theorem C194_cells : forall xs,
  (forall d0 d1 d2 x y z, 0 <= x < d0 -> 0 <= y < d1 -> 0 <= z < d2 ->
    element (NDA [d2; d1; d0] xs) [z; y; x] = nth_error xs (Z.to_nat (x + d0 * (y + d1 * z)))) /\
  (forall dj dk j k, 0 <= j < dj -> 0 <= k < dk ->
    element (NDA [dk; dj] xs) [k; j] = nth_error xs (Z.to_nat (j + dj * k))).
Proof. exact (fun xs => conj (fun a b c => element_3 a b c xs) (fun a b => element_2 a b xs)). Qed.
Print Assumptions C194_cells.

(** False of the code: on a big endian machine no file is read. *)
Theorem C194_big_refuted : forall q f c r l,
  exists file, write_buffer q f c r l = Ok file /\ py_read_grid Big file = Fatal.
Proof. exact big_exits. Qed.
Print Assumptions C194_big_refuted.

(** False of the code: quantities that cannot be projected are written as whole
    grids under a header that may still name an axis (C157).  Of a divergence
    the first part comes back as if it were the image; of a gradient or a curl
    all three arrays that come back are parts of the first component. *)
Theorem C194_slab_refuted : forall xs c r l,
  describes 3 c r l -> In (ri_axis r) [0; 1; 2] -> Forall (bits 32) xs -> zlen xs = pixels l ->
  2 <= span_along l (ri_axis r) -> 0 < image_len (ri_axis r) l ->
  exists file ys, write_buffer 3 (FScalar xs) c r l = Ok file /\
    py_read_grid Little file = Ok (PyScalar (NDA (image_shape (ri_axis r) l) ys)) /\
    ys = firstn (length ys) xs /\ 2 * zlen ys <= zlen xs.
Proof. exact slab_thm. Qed.
Print Assumptions C194_slab_refuted.

Theorem C194_slabs_refuted : forall q xs ys zs c r l,
  describes q c r l -> (q = 1 \/ q = 4) -> In (ri_axis r) [0; 1; 2] -> Forall (bits 32) xs -> zlen xs = pixels l ->
  3 <= span_along l (ri_axis r) ->
  exists file us vs ws rest, write_buffer q (FVector xs ys zs) c r l = Ok file /\
    py_read_grid Little file = Ok (PyVector (NDA (image_shape (ri_axis r) l) us) (NDA (image_shape (ri_axis r) l) vs)
      (NDA (image_shape (ri_axis r) l) ws)) /\ xs = us ++ vs ++ ws ++ rest.
Proof. exact slabs_thm. Qed.
Print Assumptions C194_slabs_refuted.

(** A box of 2 by 3 by 4 pixels, projected along y. *)
Definition loc194 : location_info := LI (V3 0 0 0) (V3 0 0 0) (V3 (-1) 0 5) (V3 2 3 4) 4607182418800017408.
Definition render194 (axis : Z) : render_info := RI 50 100 1 4 axis.
Example C194_example :
  (forall q axis, 0 <= q <= 4 -> -1 <= axis <= 2 -> describes q (CI 1 2 3 4 5 6 7 8) (render194 axis) loc194) /\
  image_shape 1 loc194 = [4; 2] /\ image_len 1 loc194 = 8 /\ image_shape (-1) loc194 = [4; 3; 2] /\
  3 <= span_along loc194 1 /\ 3 <= span_along loc194 2 /\ pixels loc194 = 24.
Proof.
  split; [|repeat split; discriminate].
  intros q axis HQ HA. unfold describes. split; [|split; [|split]].
  - unfold typed_out, cosmo_typed, render_typed, loc_typed, all3, int64, bits. cbn.
    repeat split; repeat constructor; lia.
  - cbn. lia.
  - intros i. unfold span_along. destruct (i =? 0), (i =? 1); cbn; lia.
  - assert (axis = -1 \/ axis = 0 \/ axis = 1 \/ axis = 2) as [-> | [-> | [-> | ->]]] by lia; reflexivity.
Qed.

(** Eight densities written and read, two rows of four. *)
Example C194_density_example :
  exists b file, g_new 0 8 None = Ok b /\
    g_write (fun x : R => x) b = Ok (0, Plain (repeat 0%R 8)) /\
    write_buffer 0 (FScalar [1; 2; 3; 4; 5; 6; 7; 8]) (CI 1 2 3 4 5 6 7 8) (render194 1) loc194 = Ok file /\
    py_read_grid Little file = Ok (PyScalar (NDA [4; 2] [1; 2; 3; 4; 5; 6; 7; 8])).
Proof.
  eexists _, _. split; [reflexivity|]. split; [reflexivity|]. split; [vm_compute; reflexivity|].
  vm_compute. reflexivity.
Qed.

(** C195: the files of a converted snapshot, written on any machine and read by
    gtet.py on a little endian one.  Every file is read, the fields of the header
    named in [header_reads] are those of the snapshot and of the segment, and the
    four arrays hold the lattice, with the first index along z. *)
Theorem C195_sheets_partial : forall (F : Type) (NF : Num F) (enc : F -> Z) d sys hd n s cells w xs vs x y z,
  (forall v, bits 32 (enc v)) -> catalog_typed hd -> 0 < cells -> 0 < s -> cells * s <= n < cells * s + cells ->
  (n + 1) * (n + 1) * (n + 1) < 2 ^ 63 -> zlen xs = n * n * n -> zlen vs = n * n * n ->
  0 <= x < cells -> 0 <= y < cells -> 0 <= z < cells ->
  (exists sg p, python_reads enc d sys hd n cells w xs vs x y z sg p) /\
  forall sg p, python_reads enc d sys hd n cells w xs vs x y z sg p ->
    header_reads enc hd n s cells (cube_index cells x y z) sg p /\
    sees_cube enc d n s x y z xs (s + 1) (sf_xn p) /\ sees_cube enc d n s x y z vs (s + 1) (sf_vn p) /\
    sees_cube enc d n s x y z xs s (sf_x p) /\ sees_cube enc d n s x y z vs s (sf_v p).
Proof. exact @sheets_thm. Qed.
Print Assumptions C195_sheets_partial.

(** False of the code: the comment of gtet.py has the first index along x.  No
    array with two particles that change places when x and z do is as it says. *)
Theorem C195_axes_refuted : forall (F : Type) (NF : Num F) (enc : F -> Z) d sys hd n s cells w xs vs x y z sg p a b c k,
  (forall v, bits 32 (enc v)) -> catalog_typed hd -> 0 < cells -> 0 < s -> cells * s <= n < cells * s + cells ->
  (n + 1) * (n + 1) * (n + 1) < 2 ^ 63 -> zlen xs = n * n * n -> zlen vs = n * n * n ->
  0 <= x < cells -> 0 <= y < cells -> 0 <= z < cells ->
  python_reads enc d sys hd n cells w xs vs x y z sg p ->
  0 <= a <= s -> 0 <= b <= s -> 0 <= c <= s -> 0 <= k < 3 ->
  enc (part (zn d xs (periodic_index n (s * x + a) (s * y + b) (s * z + c))) k) <>
  enc (part (zn d xs (periodic_index n (s * x + c) (s * y + b) (s * z + a))) k) ->
  ~ documented_cube enc d n s x y z xs (s + 1) (sf_xn p).
Proof. exact @axes_thm. Qed.
Print Assumptions C195_axes_refuted.

(** False of the code: the field omega_m holds OmegaL and the field scale holds
    OmegaM, and count is that of the first snapshot file, not of the box. *)
Theorem C195_fields_refuted : forall (F : Type) (NF : Num F) (enc : F -> Z) d sys hd n s cells w xs vs x y z sg p,
  (forall v, bits 32 (enc v)) -> catalog_typed hd -> 0 < cells -> 0 < s -> cells * s <= n < cells * s + cells ->
  (n + 1) * (n + 1) * (n + 1) < 2 ^ 63 -> zlen xs = n * n * n -> zlen vs = n * n * n ->
  0 <= x < cells -> 0 <= y < cells -> 0 <= z < cells ->
  python_reads enc d sys hd n cells w xs vs x y z sg p ->
  sf_omega_m p = ct_omegaL hd /\ sf_scale p = ct_omegaM hd /\ sf_count p = ct_count hd.
Proof. exact @fields_thm. Qed.
Print Assumptions C195_fields_refuted.

(** No particle stands twice in the arrays x of the files, and every particle
    stands in one if the number of cells divides the width of the lattice. *)
Theorem C195_unique_partial : forall n s cells, 0 < s -> 0 < cells -> cells * s <= n < cells * s + cells ->
  (forall i t t', stands n s cells i t -> stands n s cells i t' -> t = t') /\
  (n = cells * s -> forall i, 0 <= i < n * n * n -> exists t, stands n s cells i t).
Proof. exact unique_thm. Qed.
Print Assumptions C195_unique_partial.

(** False of the code: otherwise file_cells * x_width is not count_width, and the
    particles at the upper ends stand in no file. *)
Theorem C195_uneven_refuted : forall (F : Type) (NF : Num F) (enc : F -> Z) d sys hd n s cells w xs vs x y z sg p,
  (forall v, bits 32 (enc v)) -> catalog_typed hd -> 0 < cells -> 0 < s -> cells * s <= n < cells * s + cells ->
  (n + 1) * (n + 1) * (n + 1) < 2 ^ 63 -> zlen xs = n * n * n -> zlen vs = n * n * n ->
  0 <= x < cells -> 0 <= y < cells -> 0 <= z < cells ->
  python_reads enc d sys hd n cells w xs vs x y z sg p -> cells * s < n ->
  sf_file_cells p * sf_segment_width p <> sf_count_width p /\
  forall i j k, 0 <= i < n -> 0 <= j < n -> 0 <= k < n -> cells * s <= i \/ cells * s <= j \/ cells * s <= k ->
    ~ exists t, stands n s cells (cube_index n i j k) t.
Proof. exact @uneven_thm. Qed.
Print Assumptions C195_uneven_refuted.

Example C195_unique_example : 2 * 3 <= 7 < 2 * 3 + 2 /\ stands 7 3 2 (cube_index 7 4 1 5) (1, 0, 1, 1, 1, 2) /\ 2 * 3 <= 6.
Proof. unfold stands, periodic_index, cube_index. cbn. lia. Qed.

(** Eight particles in one segment, (1, 0, 0) alone away from the corner; half of
    them are in the first snapshot file. *)
Definition enc195 (r : R) : Z := if Req_EM_T r 0 then 0 else 1065353216.
Definition hd195 : catalog_header := CHd 0 4599075939470750515 4604480259023595110 4604480259023595110 0 4 8 4636737291354636288.
Definition at195 (x : R) : vec3 R := V3 x 0%R 0%R.
Definition xs195 : list (vec3 R) := map at195 [0; 1; 0; 0; 0; 0; 0; 0]%R.
Example C195_example : (forall v, bits 32 (enc195 v)) /\ catalog_typed hd195 /\ 1 * 2 <= 2 < 1 * 2 + 1 /\ zlen xs195 = 2 * 2 * 2 /\
  ct_omegaL hd195 <> ct_omegaM hd195 /\ ct_count hd195 <> 2 * 2 * 2 /\
  enc195 (part (zn (at195 0) xs195 (periodic_index 2 (2 * 0 + 1) (2 * 0 + 0) (2 * 0 + 0))) 0) <>
  enc195 (part (zn (at195 0) xs195 (periodic_index 2 (2 * 0 + 0) (2 * 0 + 0) (2 * 0 + 1))) 0).
Proof.
  split; [intros v; unfold enc195, bits; destruct (Req_EM_T v 0); lia|].
  split; [unfold catalog_typed, bits, int64, hd195; cbn; lia|].
  split; [lia|]. split; [reflexivity|]. split; [discriminate|]. split; [discriminate|].
  change (enc195 1 <> enc195 0). unfold enc195. destruct (Req_EM_T 1 0) as [E|_]; [exfalso; now apply R1_neq_R0|].
  destruct (Req_EM_T 0 0) as [_|E]; [discriminate|now destruct E].
Qed.

(** C196: the picture render.py makes of an unprojected grid.  For an odd depth
    it is the mean of that many layers about the middle of the box. *)
Theorem C196_layers_partial : forall d depth (a : cube R) nz ny nx u v,
  cb_shape a = [nz; ny; nx] -> 1 <= depth <= thickness d a -> Z.Odd depth ->
  exists lo, 0 <= lo /\ lo + depth <= thickness d a /\ -1 <= 2 * lo + depth - thickness d a <= 1 /\
    picture d depth a u v = Some (layers_mean (layer d a u v) lo depth).
Proof. exact odd_thm. Qed.
Print Assumptions C196_layers_partial.

(** The thickness of the box as depth shows the whole box. *)
Theorem C196_whole_partial : forall d (a : cube R) nz ny nx u v, cb_shape a = [nz; ny; nx] -> 0 < thickness d a ->
  picture d (thickness d a) a u v = Some (layers_mean (layer d a u v) 0 (thickness d a)).
Proof. exact whole_thm. Qed.
Print Assumptions C196_whole_partial.

(** False of the code: for even depths it is the mean of one layer more. *)
Theorem C196_even_refuted : forall d depth (a : cube R) nz ny nx u v,
  cb_shape a = [nz; ny; nx] -> 0 <= depth < thickness d a -> Z.Even depth ->
  exists lo, 0 <= lo /\ lo + depth + 1 <= thickness d a /\
    picture d depth a u v = Some (layers_mean (layer d a u v) lo (depth + 1)).
Proof. exact even_thm. Qed.
Print Assumptions C196_even_refuted.

(** False of the code: a depth above the thickness of the box shows only some of
    the last layers, because a negative index counts from the end. *)
Theorem C196_deep_refuted : forall d depth k (a : cube R) nz ny nx u v,
  cb_shape a = [nz; ny; nx] -> 0 < thickness d a -> 1 <= k <= thickness d a -> depth / 2 = thickness d a / 2 + k ->
  picture d depth a u v = Some (layers_mean (layer d a u v) (thickness d a - k) k).
Proof. exact deep_thm. Qed.
Print Assumptions C196_deep_refuted.

(** The coordinate in the title lies in the layers shown if the box has as many
    pixels along x as along z, and the depth in the title is theirs. *)
Theorem C196_title_partial : forall d depth (a : cube R) nz ny nx ox oy oz pw,
  cb_shape a = [nz; ny; nx] -> 1 <= depth <= thickness d a -> Z.Odd depth -> (0 < pw)%R -> d = DimY \/ nz / 2 = nx / 2 ->
  exists lo, (forall u v, picture d depth a u v = Some (layers_mean (layer d a u v) lo depth)) /\
    (corner d [ox; oy; oz] + IZR lo * pw <= title_middle d a [ox; oy; oz] pw < corner d [ox; oy; oz] + IZR (lo + depth) * pw)%R /\
    (title_depth depth pw = IZR (lo + depth) * pw - IZR lo * pw)%R.
Proof. exact title_in. Qed.
Print Assumptions C196_title_partial.

(** False of the code: otherwise it may lie outside of the box, since half the
    pixels along x are counted along z and the other way round. *)
Theorem C196_title_refuted : forall (a : cube R) nz ny nx ox oy oz pw,
  cb_shape a = [nz; ny; nx] -> (0 < pw)%R -> 0 <= nz -> 0 <= nx ->
  (2 * nz + 2 <= nx -> (corner DimZ [ox; oy; oz] + IZR nz * pw < title_middle DimZ a [ox; oy; oz] pw)%R) /\
  (2 * nx + 2 <= nz -> (corner DimX [ox; oy; oz] + IZR nx * pw < title_middle DimX a [ox; oy; oz] pw)%R).
Proof. exact title_out. Qed.
Print Assumptions C196_title_refuted.

(** Every number of the picture is drawn at the coordinates of its pixel. *)
Theorem C196_extent_partial : forall d (a : cube R) nz ny nx ox oy oz pw u v,
  cb_shape a = [nz; ny; nx] -> 0 < nz -> 0 < ny -> 0 < nx ->
  imshow_at (extent d [ox; oy; oz] [IZR nx * pw; IZR ny * pw; IZR nz * pw]%R) (rows d a) (columns d a) u v =
  (across d [ox; oy; oz] + (IZR v + 1 / 2) * pw, Slabs.down d [ox; oy; oz] + (IZR u + 1 / 2) * pw)%R.
Proof. exact extent_thm. Qed.
Print Assumptions C196_extent_partial.

(** A projected grid is accepted for the direction of its projection only, is
    drawn at its coordinates, and the title gives the middle and the depth of
    what was projected. *)
Theorem C196_projected_partial : forall d axis nx ny nz ox oy oz pw u v, 0 <= axis <= 2 -> accepts axis d = true -> 0 < nz -> 0 < ny -> 0 < nx -> (0 < pw)%R ->
  let origin := [ox; oy; oz] in
  let span := [IZR nx * pw; IZR ny * pw; IZR nz * pw]%R in
  axis = header_axis d /\
  (exists nr nc, snd (grid_shape axis (V3 nx ny nz)) = Some [nr; nc] /\
    imshow_at (extent d origin span) nr nc u v = (across d origin + (IZR v + 1 / 2) * pw, Slabs.down d origin + (IZR u + 1 / 2) * pw)%R) /\
  (2 * (projected_middle d origin span - corner d origin) = corner d span)%R /\
  projected_depth d span pw = corner d span.
Proof. exact projected_thm. Qed.
Print Assumptions C196_projected_partial.

(** A box of 12 by 5 by 5 pixels seen along z: three layers for depth 3 and for
    depth 2, one for depth 6. *)
Definition cube196 : cube R := Cube [5; 5; 12] (fun z y x => IZR (z * z)).
Example C196_example : cb_shape cube196 = [5; 5; 12] /\ 1 <= 3 <= thickness DimZ cube196 /\ Z.Odd 3 /\ Z.Even 2 /\
  layers 5 3 = [1; 2; 3] /\ layers 5 2 = [1; 2; 3] /\ 6 / 2 = thickness DimZ cube196 / 2 + 1 /\ layers 5 6 = [4] /\ 2 * 5 + 2 <= 12 /\ accepts 2 DimZ = true /\
  layers_mean (layer DimZ cube196 0 0) 1 3 = (14 / 3)%R /\ layers_mean (layer DimZ cube196 0 0) 4 1 = 16%R.
Proof.
  split; [reflexivity|]. split; [cbn; lia|]. split; [now exists 1|]. split; [now exists 1|].
  do 4 (split; [reflexivity|]). split; [lia|]. split; [reflexivity|].
  unfold layers_mean. simpl. split; lra.
Qed.
