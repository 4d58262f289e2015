(** Model of the manager of /repo/render/render.go: which sheet files are kept
    for which rendering box, the buffers, and the passes over files, boxes and
    workers.  [D] is float64, [F] is float32.  The goroutines of one pass are in
    [Render.pstep]; here the workers run one after the other, each on its own
    buffer, and their buffers are merged in an arbitrary given order. *)
From Coq Require Import ZArith List Bool String.
From Verif Require Import Base.Res Base.Num Model.Geom Model.GridDeriv Model.Density Model.Box Model.Render Model.SheetIO.
Import ListNotations.
Open Scope Z_scope.
Open Scope res_scope.

(** ** Files and boxes *)

(** The fields of io.SheetHeader (io.go:54-65) that are used here. *)
Record sheet (D F : Type) := Sheet {
  s_total : D; s_seg : Z; s_count : Z; s_grid : Z; s_origin : vec3 F; s_width : vec3 F }.
Arguments Sheet {D F}. Arguments s_total {D F}. Arguments s_seg {D F}. Arguments s_count {D F}.
Arguments s_grid {D F}. Arguments s_origin {D F}. Arguments s_width {D F}.

(** What a readable sheet file holds; the reading of bytes is in SheetIO.v. *)
Record sheet_file (D F : Type) := SF { sf_hd : sheet D F; sf_xs : list (vec3 F); sf_vs : list (vec3 F) }.
Arguments SF {D F}. Arguments sf_hd {D F}. Arguments sf_xs {D F}. Arguments sf_vs {D F}.

(** box.go:47-65, 98-100: box2D if there is a projection axis, box3D if not.
    [rb_vals] are the contents of the buffer bvals. *)
Record rbox (D : Type) := RB {
  rb_cb : cellbounds; rb_pts : Z; rb_cells : Z; rb_cw : D; rb_proj : option Z; rb_vals : contents D }.
Arguments RB {D}. Arguments rb_cb {D}. Arguments rb_pts {D}. Arguments rb_cells {D}. Arguments rb_cw {D}.
Arguments rb_proj {D}. Arguments rb_vals {D}.
Definition set_vals {D} (b : rbox D) (v : contents D) : rbox D :=
  RB (rb_cb b) (rb_pts b) (rb_cells b) (rb_cw b) (rb_proj b) v.

(** render.go:23-56.  [m_valid] holds, for each renderer, the keys of validSegs.
    The fields that are set anew for every file (hd, xCb, scaledXs, over, cb and
    the interpolators) are arguments of the functions below; g is left out. *)
Record manager (D F : Type) := Man {
  m_xs : list (vec3 F); m_vs : list (vec3 F); m_unit : list (gslice (vec3 F)); m_skip : Z; m_workers : Z;
  m_ws : list (buffer D); m_boxes : list (rbox D); m_valid : list (list string); m_files : list string; m_q : Z }.
Arguments Man {D F}. Arguments m_xs {D F}. Arguments m_vs {D F}. Arguments m_unit {D F}. Arguments m_skip {D F}.
Arguments m_workers {D F}. Arguments m_ws {D F}. Arguments m_boxes {D F}. Arguments m_valid {D F}.
Arguments m_files {D F}. Arguments m_q {D F}.

Section Manager.
Context {D F : Type} {ND : Num D} {NF : Num F} (up : F -> D) (down : D -> F).

(** hd.CellBounds(cells) *)
Definition sheet_cells (h : sheet D F) (cells : Z) : cellbounds :=
  header_cells up (s_total h) cells (s_origin h) (s_width h).

(** b.Overlap(hd), box.go:70-94, 102-122 *)
Definition box_overlap (b : rbox D) (h : sheet D F) : res overlap :=
  match rb_proj b with
  | Some p => overlap2D (rb_cb b) (rb_cells b) p (sheet_cells h (rb_cells b))
  | None => Ok (overlap3D (rb_cb b) (rb_cells b) (sheet_cells h (rb_cells b)))
  end.

(** The file system: [None] is a file whose header cannot be read. *)
Variable fs : string -> option (sheet_file D F).

(** ** NewManager *)

(** The variables of render.go:89-115. *)
Record scan := SC { sc_valid : list (list string); sc_files : list string; sc_max : Z }.

(** render.go:97-108, one box. *)
Definition scan_box (hd : sheet D F) (file : string) (boxes : list (rbox D)) (i : Z) (s : scan * bool) : res (scan * bool) :=
  b <- get boxes i ;;
  let cells := rb_cells b in
  if cb_intersect (sheet_cells hd cells) (rb_cb b) cells then
    w <- box_overlap b hd ;;
    let n := buffer_size w in
    v <- get (sc_valid (fst s)) i ;;
    valid <- set (sc_valid (fst s)) i (file :: v) ;;
    Ok (SC valid (sc_files (fst s)) (if n >? sc_max (fst s) then n else sc_max (fst s)), true)
  else Ok s.

(** render.go:92-114 *)
Fixpoint scan_files (boxes : list (rbox D)) (files : list string) (s : scan) : res (outcome scan) :=
  match files with
  | [] => Ok (Good s)
  | file :: rest =>
      match fs file with
      | None => Ok Err
      | Some f =>
          '(s, hit) <- for_ 0 (zlen boxes) (scan_box (sf_hd f) file boxes) (s, false) ;;
          scan_files boxes rest (if hit : bool then SC (sc_valid s) (sc_files s ++ [file]) (sc_max s) else s)
      end
  end.

(** render.go:64-67 *)
Definition max_points (boxes : list (rbox D)) : Z :=
  fold_left (fun m b => if rb_pts b >? m then rb_pts b else m) boxes 0.

(** render.go:152-169.  Point [j] of buffer [bi] is [rnd bi j] before folding. *)
Definition unit_bufs (rnd : Z -> Z -> vec3 F) (nUnit pts : Z) : list (gslice (vec3 F)) :=
  map (fun bi => GS (distribute_unit (map (fun j => rnd (Z.of_nat bi) (Z.of_nat j)) (seq 0 (Z.to_nat pts)))) pts)
    (seq 0 (Z.to_nat nUnit)).

Definition UnitBufCount : Z := 64.  (* render.go:15 *)

(** render.go:58-148.  [numCores] is NumCores. *)
Definition new_manager (numCores : Z) (rnd : Z -> Z -> vec3 F) (files : list string) (boxes : list (rbox D)) (q : Z) :
    res (outcome (manager D F)) :=
  let maxPoints := max_points boxes in
  let units := unit_bufs rnd UnitBufCount maxPoints in
  if numCores <? 0 then Panic else
  r <- scan_files boxes files (SC (repeat [] (List.length boxes)) [] 0) ;;
  match r with
  | Err => Ok Err
  | Good s =>
      first <- get files 0 ;;
      match fs first with
      | None => Ok Err
      | Some f =>
          let n := s_grid (sf_hd f) in
          if n <? 0 then Panic else
          rv <- requires_velocity q ;;
          let zeros := repeat (V3 (#0) (#0) (#0))%num (Z.to_nat n) in
          ws <- for_ 0 numCores (fun _ l =>
                  _ <- get boxes 0 ;; b <- new_buffer q (sc_max s) ;; Ok (l ++ [b])) [] ;;
          Ok (Good (Man zeros (if rv : bool then zeros else []) units manager_skip0 numCores ws boxes (sc_valid s) (sc_files s) q))
      end
  end.

(** render.go:217-223 *)
Definition set_skip (m : manager D F) (len : Z) : res (manager D F) :=
  k <- subsample (m_skip m) len ;;
  Ok (Man (m_xs m) (m_vs m) (m_unit m) k (m_workers m) (m_ws m) (m_boxes m) (m_valid m) (m_files m) (m_q m)).

(** ** RenderDensity *)

(** render.go:288-301.  A file is read into xs and vs only if its GridCount is
    their length. *)
Definition load_file (m : manager D F) (file : string) : res (outcome (manager D F * sheet D F)) :=
  match fs file with
  | None => Ok Err
  | Some f =>
      let n := s_grid (sf_hd f) in
      if negb (n =? zlen (m_xs m)) then Ok Err else
      rv <- requires_velocity (m_q m) ;;
      if (rv : bool) && negb (n =? zlen (m_vs m)) then Ok Err else
      Ok (Good (Man (sf_xs f) (if rv : bool then sf_vs f else m_vs m) (m_unit m) (m_skip m) (m_workers m) (m_ws m)
                  (m_boxes m) (m_valid m) (m_files m) (m_q m), sf_hd f))
  end.

(** render.go:171-173 *)
Definition requires_file (m : manager D F) (ri : Z) (file : string) : res bool :=
  l <- get (m_valid m) ri ;; Ok (existsb (String.eqb file) l).

(** render.go:175-178 with ScaleVecs (box.go:249-251, 276-278, 309-311, 390-392). *)
Definition scale_xs (w : overlap) (xcb : cellbounds) (boxWidth : D) (xs : list (vec3 F)) : list (vec3 F) :=
  let bw := down boxWidth in
  let one f :=
    match okd w with
    | Segment2D | Segment3D => scale_segment1 (f (origin xcb)) (ocells w) bw
    | Domain2D | Domain3D => scale_domain1 (f (origin xcb)) (f (origin (bufCb w))) (ocells w) bw
    end in
  map (fun p => V3 (one v0 (v0 p)) (one v1 (v1 p)) (one v2 (v2 p))) xs.

(** What a buffer shows and the buffer with other visible contents. *)
Definition contents_of (b : buffer D) : contents D :=
  match b with SBuf _ v => Scalar (visible v) | VBuf _ v n => Vector (visible v) (visible n) end.
Definition hide {A} (s : gslice A) (l : list A) : gslice A := GS (l ++ skipn (Z.to_nat (vis s)) (back s)) (vis s).
Definition with_contents (b : buffer D) (c : contents D) : buffer D :=
  match b, c with
  | SBuf q v, Scalar l => SBuf q (hide v l)
  | VBuf q v n, Vector l k => VBuf q (hide v l) (hide n k)
  | _, _ => b
  end.

(** Apply [f] to every element. *)
Fixpoint map_res {A B} (f : A -> res B) (l : list A) : res (list B) :=
  match l with [] => Ok [] | a :: l => b <- f a ;; l <- map_res f l ;; Ok (b :: l) end.

(** render.go:305-323: worker [id] on its buffer. *)
Definition run_worker (mc : mcarlo F) (choose : Z -> Z -> Z) (rv : bool) (countWidth workers : Z) (xs vs : list (vec3 F))
    (id : Z) (ws : list (buffer D)) : res (list (buffer D)) :=
  b <- get ws id ;;
  let mc := MC (mc_sub mc) (mc_seg mc) (mc_points mc) (mc_cells mc) (mc_skip mc) (mc_unit mc) (choose id) in
  c <- worker_run up mc rv countWidth workers id (contents_of b) xs vs ;;
  set ws id (with_contents b c).

(** render.go:257-277 with initWorkspaces (191-213): one file in one box.
    [choose id] are the random choices of worker [id] and [order] is the order in
    which the workers finish. *)
Definition render_box (hd : sheet D F) (file : string) (choose : Z -> Z -> Z -> Z) (order : Z -> list Z)
    (ri : Z) (m : manager D F) : res (manager D F) :=
  req <- requires_file m ri file ;;
  if negb req then Ok m else
  b <- get (m_boxes m) ri ;;
  let xcb := sheet_cells hd (rb_cells b) in
  w <- box_overlap b hd ;;
  let scaled := scale_xs w xcb (rb_cw b * #(rb_cells b))%num (m_xs m) in
  _ <- seg_len (s_seg hd) (m_skip m) ;;
  units <- map_res (fun u => reslice u 0 (rb_pts b)) (m_unit m) ;;
  ws <- map_res (fun s => prepare s (buffer_size w)) (m_ws m) ;;
  rv <- requires_velocity (m_q m) ;;
  let mc := MC w (s_seg hd) (rb_pts b) (rb_cells b) (m_skip m) (map visible units) (fun _ => 0) in
  let run := run_worker mc (choose ri) rv (s_count hd) (m_workers m) scaled (m_vs m) in
  ws <- for_ 0 (m_workers m - 1) run ws ;;
  ws <- run (m_workers m - 1) ws ;;
  vals <- (fix merge ids vals := match ids with
           | [] => Ok vals
           | id :: ids => s <- get ws id ;; vals <- overlap_add w (contents_of s) vals ;; merge ids vals
           end) (order ri) (rb_vals b) ;;
  boxes <- set (m_boxes m) ri (set_vals b vals) ;;
  Ok (Man (m_xs m) (m_vs m) units (m_skip m) (m_workers m) ws boxes (m_valid m) (m_files m) (m_q m)).

(** render.go:247-286 *)
Definition render_file (file : string) (choose : Z -> Z -> Z -> Z) (order : Z -> list Z) (m : manager D F) :
    res (outcome (manager D F)) :=
  r <- load_file m file ;;
  match r with
  | Err => Ok Err
  | Good (m, hd) => m <- for_ 0 (zlen (m_boxes m)) (render_box hd file choose order) m ;; Ok (Good m)
  end.

(** render.go:230-236.  The choices and orders are those of file number k, k + 1, ... *)
Fixpoint render_files (choose : Z -> Z -> Z -> Z -> Z) (order : Z -> Z -> list Z) (k : Z) (files : list string) (m : manager D F) :
    res (outcome (manager D F)) :=
  match files with
  | [] => Ok (Good m)
  | file :: rest =>
      r <- render_file file (choose k) (order k) m ;;
      match r with Err => Ok Err | Good m => render_files choose order (k + 1) rest m end
  end.
Definition render_density choose order (m : manager D F) : res (outcome (manager D F)) :=
  render_files choose order 0 (m_files m) m.

(** main.go:560-564: the images of a run, or log.Fatal. *)
Definition render_job (numCores : Z) rnd choose order (files : list string) (boxes : list (rbox D)) (q skip : Z) :
    res (list (rbox D)) :=
  r <- new_manager numCores rnd files boxes q ;;
  match r with
  | Err => Fatal
  | Good m =>
      m <- set_skip m skip ;;
      r <- render_density choose order m ;;
      match r with Err => Fatal | Good m => Ok (m_boxes m) end
  end.

End Manager.
