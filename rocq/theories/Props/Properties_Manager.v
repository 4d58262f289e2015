(** Properties of the rendering manager (C149-C154). *)
From Coq Require Import ZArith String List Bool Reals Permutation.
From Verif Require Import Base.Res Base.Num Base.IEEE Base.Convert Model.Geom Model.GridDeriv Model.Density Model.Box Model.Render Model.SheetIO Model.Manager Model.Pipeline
  Spec.Geometry Spec.GeomDefs Spec.Work Spec.Renders Spec.ManagerEx Spec.Pipelines Proof.RenderP Proof.ManagerP Proof.ManagerX Proof.PipelineP.
Import ListNotations.
Open Scope Z_scope.

(** C149: holds in exact arithmetic.  [X] are the positions unwrapped by periods. *)
Theorem C149_scaled_partial : forall L skip (f : sheet_file R R) X b w, sheet_ok L skip f X -> box_ok L b ->
  box_overlap (ND := RNum) (NF := RNum) (fun x => x) b (sf_hd f) = Ok w ->
  let S := scale_xs (D := R) (NF := RNum) (fun x => x) w (sheet_cells (ND := RNum) (NF := RNum) (fun x => x) (sf_hd f) (rb_cells b))
             (rb_cw b * IZR (rb_cells b))%R (sf_xs f) in
  zlen S = zlen (sf_xs f) /\
  forall a, In a [0; 1; 2] -> exists K, forall i, 0 <= i < zlen (sf_xs f) ->
    let y := vget (nth (Z.to_nat i) S zero3) a in
    y = (vget (nth (Z.to_nat i) X zero3) a * IZR (rb_cells b) / L - IZR (vget (origin (bufCb w)) a) + IZR (K * rb_cells b))%R /\
    (okd w = Segment2D \/ okd w = Segment3D -> (0 <= y < IZR (vget (width (bufCb w)) a))%R).
Proof. exact scaled_in_buffer. Qed.
Print Assumptions C149_scaled_partial.

(** C149: false in float32: all particles are inside the bounding box of the
    header, one is scaled to a place outside of the buffer, and the run panics. *)
Theorem C149_scaled_refuted : let f := cube_sheet on_edge in let h := sf_hd f in
  forallb (fun x => forallb (fun a => (vget (s_origin h) a <=? vget x a)%num && (vget x a <=? vget (s_origin h) a + vget (s_width h) a)%num) [0; 1; 2]) (sf_xs f) = true /\
  exists w, box_overlap to_f64 small_box h = Ok w /\ okd w = Segment3D /\ v0 (width (bufCb w)) = 5 /\
    (cube_scaled on_edge w <? #5)%num = false /\ cube_job on_edge = Panic.
Proof. exact scaled_bad. Qed.
Print Assumptions C149_scaled_refuted.

Example C149_example : sheet_ok 8 1 real_sheet (sf_xs real_sheet) /\ box_ok 8 real_box /\
  box_overlap (ND := RNum) (NF := RNum) (fun x => x) real_box (sf_hd real_sheet) =
    Ok (Overlap Segment3D (CB (V3 0 0 0) (V3 2 2 2)) (CB (V3 0 0 0) (V3 4 4 4)) 4 (-1)) /\
  match cube_job (f32lit 1 (-1)) with Ok _ => true | _ => false end = true.
Proof. split; [exact real_sheet_ok|]. split; [exact real_box_ok|]. split; [exact real_overlap|vm_compute; reflexivity]. Qed.

(** C150: false of the code: without files, or without boxes, it panics. *)
Theorem C150_no_files_refuted : forall {D F} {ND : Num D} {NF : Num F} (up : F -> D) (down : D -> F) fs numCores rnd choose order boxes q skip,
  0 <= numCores -> render_job up down fs numCores rnd choose order [] boxes q skip = Panic.
Proof. exact @no_files. Qed.
Print Assumptions C150_no_files_refuted.

Theorem C150_no_boxes_refuted : forall {D F} {ND : Num D} {NF : Num F} (up : F -> D) (down : D -> F) fs numCores rnd choose order first f files q skip,
  1 <= numCores -> fs first = Some f -> 0 <= s_grid (sf_hd f) -> (forall file, In file files -> fs file <> None) ->
  render_job up down fs numCores rnd choose order (first :: files) [] q skip = Panic.
Proof. exact @no_boxes. Qed.
Print Assumptions C150_no_boxes_refuted.

(** A file that cannot be read, or with another number of particles, is reported. *)
Theorem C150_unreadable_partial : forall {D F} {ND : Num D} {NF : Num F} (up : F -> D) (down : D -> F) fs numCores rnd choose order files boxes q skip,
  0 <= numCores -> (exists file, In file files /\ fs file = None) ->
  render_job up down fs numCores rnd choose order files boxes q skip = Fatal.
Proof. exact @unreadable. Qed.
Print Assumptions C150_unreadable_partial.

Theorem C150_sizes_partial : forall {D F} {ND : Num D} {NF : Num F} (up : F -> D) (down : D -> F) fs m file f choose order,
  fs file = Some f -> s_grid (sf_hd f) <> zlen (m_xs m) -> render_file up down fs file choose order m = Ok Err.
Proof. exact @other_size. Qed.
Print Assumptions C150_sizes_partial.

Example C150_example : 0 <= s_grid (sf_hd real_sheet) /\ s_grid (sf_hd real_sheet) <> zlen (sf_xs real_sheet ++ sf_xs real_sheet).
Proof. split; discriminate. Qed.

(** C151: in any arithmetic, a file is kept if the cells of its header and of
    some box meet; the box asks for it if its own do; and the buffers of all
    workers are as long as any box needs. *)
Theorem C151_files : forall {D F} {ND : Num D} {NF : Num F} (up : F -> D) fs (sheet : string -> sheet_file D F) numCores rnd files boxes q m,
  (forall file, In file files -> fs file = Some (sheet file)) ->
  new_manager up fs numCores rnd files boxes q = Ok (Good m) ->
  m_files m = filter (fun file => existsb (fun b => meets up b (sheet file)) boxes) files /\
  (forall i b file, nth_error boxes i = Some b -> In file files -> requires_file m (Z.of_nat i) file = Ok (meets up b (sheet file))) /\
  (forall b file w, In b boxes -> In file files -> meets up b (sheet file) = true -> box_overlap up b (sf_hd (sheet file)) = Ok w ->
     Forall (fun s => buf_length s >= buffer_size w) (m_ws m)).
Proof. exact @manager_files. Qed.
Print Assumptions C151_files.

Example C151_example : match new_manager to_f64 (fun _ => Some (cube_sheet (f32lit 1 (-1)))) 2 (fun _ _ => V3 (nofZ 0) (nofZ 0) (nofZ 0))
    ["a"%string; "b"%string] [small_box] Density with
  | Ok (Good m) => m_files m = ["a"%string; "b"%string] /\ map buf_length (m_ws m) = [125; 125]
  | _ => False
  end.
Proof. vm_compute. split; reflexivity. Qed.

(** C152 *)
Theorem C152_job : forall L skip q workers rnd choose order fs (sheet : string -> sheet_file R R) X files boxes grid,
  files <> [] -> boxes <> [] -> 1 <= workers -> requires_velocity q = Ok false ->
  (forall bi j, unit_cube (rnd bi j)) -> (forall k ri id j, 0 <= choose k ri id j < 64) ->
  (forall k ri, Permutation (order k ri) (zseq workers)) ->
  Forall (box_ok L) boxes ->
  (forall file, In file files -> fs file = Some (sheet file) /\ sheet_ok L skip (sheet file) (X file) /\
     s_grid (sf_hd (sheet file)) = grid /\
     forall b, In b boxes -> faces_ok L skip b (sheet file) (X file) (unit_pool rnd (rb_pts b))) ->
  exists out, render_job (ND := RNum) (NF := RNum) (fun x => x) (fun x => x) fs workers rnd choose order files boxes q skip = Ok out /\
    Forall2 (fun b b' => rendered L skip (unit_pool rnd (rb_pts b)) (map (fun file => (sheet file, X file)) files) b b') boxes out.
Proof. exact job_ok. Qed.
Print Assumptions C152_job.

Example C152_example : sheet_ok 8 1 real_sheet (sf_xs real_sheet) /\ box_ok 8 real_box /\ unit_cube quarter /\
  faces_ok 8 1 real_box real_sheet (sf_xs real_sheet) (unit_pool (fun _ _ => quarter) 1).
Proof. split; [exact real_sheet_ok|]. split; [exact real_box_ok|]. split; [exact quarter_in|apply real_faces]. Qed.

(** C153 *)
Theorem C153_mean : forall L skip q workers rnd choose order fs (sheet : string -> sheet_file R R) X files boxes grid seg cnt,
  files <> [] -> boxes <> [] -> 1 <= workers -> requires_velocity q = Ok false ->
  (forall bi j, unit_cube (rnd bi j)) -> (forall k ri id j, 0 <= choose k ri id j < 64) ->
  (forall k ri, Permutation (order k ri) (zseq workers)) ->
  Forall (box_ok L) boxes ->
  (forall file, In file files -> fs file = Some (sheet file) /\ sheet_ok L skip (sheet file) (X file) /\
     s_grid (sf_hd (sheet file)) = grid /\ s_seg (sf_hd (sheet file)) = seg /\ s_count (sf_hd (sheet file)) = cnt /\
     forall b, In b boxes -> faces_ok L skip b (sheet file) (X file) (unit_pool rnd (rb_pts b))) ->
  seg mod skip = 0 -> zlen files * seg ^ 3 = cnt ^ 3 ->
  exists out, render_job (ND := RNum) (NF := RNum) (fun x => x) (fun x => x) fs workers rnd choose order files boxes q skip = Ok out /\
    Forall2 (fun b b' => whole b -> image_mean b' = (image_mean b + 1)%R) boxes out.
Proof. exact job_mean. Qed.
Print Assumptions C153_mean.

(** One cube that is the whole sheet, one worker, one point per tetrahedron: the
    empty image has mean 0 before and 1 afterwards. *)
Example C153_example : whole real_box /\ image_mean real_box = 0%R /\
  exists b', render_job (ND := RNum) (NF := RNum) (fun x => x) (fun x => x) (fun _ => Some real_sheet) 1
    (fun _ _ => quarter) (fun _ _ _ _ => 0) (fun _ _ => [0]) ["sheet"%string] [real_box] Density 1 = Ok [b'] /\ image_mean b' = 1%R.
Proof. split; [exact real_whole|]. split; [exact real_mean0|exact real_job]. Qed.

(** C154: with more than ten segments per axis files overwrite each other (C86),
    and every image of the whole simulation lacks mass. *)
Theorem C154_lost_refuted : forall L d n s cells skip xs vs q workers rnd choose order files boxes,
  pipeline_input L d n s cells skip xs vs q workers rnd choose order files boxes -> 11 <= cells -> exists img,
  convert_and_render (ND := RNum) (NF := RNum) (fun x => x) (fun x => x) d n cells L xs vs workers rnd choose order files boxes q skip = Ok img /\
  Forall2 (fun b b' => (image_mean b' < image_mean b + 1)%R) boxes img.
Proof. exact pipeline_eleven. Qed.
Print Assumptions C154_lost_refuted.

(** C154: holds for at most ten segments per axis. *)
Theorem C154_pipeline_partial : forall L d n s cells skip xs vs q workers rnd choose order files boxes,
  pipeline_input L d n s cells skip xs vs q workers rnd choose order files boxes -> cells <= 10 -> exists img,
  convert_and_render (ND := RNum) (NF := RNum) (fun x => x) (fun x => x) d n cells L xs vs workers rnd choose order files boxes q skip = Ok img /\
  Forall2 (fun b b' => image_mean b' = (image_mean b + 1)%R) boxes img.
Proof. exact pipeline_ten. Qed.
Print Assumptions C154_pipeline_partial.

(** Eight particles, or 1331 at one place, two workers. *)
Example C154_example : forall cells xs,
  (cells = 2 /\ xs = [V3 1 1 1; V3 2 1 1; V3 1 2 1; V3 2 2 1; V3 1 1 2; V3 2 1 2; V3 1 2 2; V3 2 2 2]%R) \/ (cells = 11 /\ xs = repeat (V3 2 1 2)%R 1331) ->
  exists files, pipeline_input 8 (V3 1 1 1)%R cells 1 cells 1 xs xs Density 2 (fun _ _ => quarter) (fun _ _ _ _ => 3) (fun _ _ => [1; 0]) files [real_box].
Proof. exact input_cases. Qed.
