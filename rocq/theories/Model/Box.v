(** Model of /repo/render/box.go and of the sheet header's CellBounds in
    /repo/render/io/io.go.  [D] is float64, [F] is float32. *)
From Coq Require Import ZArith List Bool String.
From Verif Require Import Base.Res Base.Stride Base.Num Model.Geom Model.GridDeriv Model.Density.
Import ListNotations.
Open Scope Z_scope.
Open Scope res_scope.

(** ** Cells of a region *)
Section Cells.
Context {D : Type} {ND : Num D}.

(** box.go:160-166, 196-202: first cell and number of cells along one axis. *)
Definition box_cells1 (cellWidth origin width : D) : Z * Z :=
  let o := nfloor (origin / cellWidth)%num in
  let w := 1 + nfloor ((width + origin) / cellWidth)%num in
  (o, w - o).

(** box.go:156-166, 192-202 *)
Definition box_cells (boxWidth : D) (cells : Z) (origin width : vec3 D) : cellbounds :=
  let cw := (boxWidth / #cells)%num in
  let c f := box_cells1 cw (f origin) (f width) in
  CB (V3 (fst (c v0)) (fst (c v1)) (fst (c v2))) (V3 (snd (c v0)) (snd (c v1)) (snd (c v2))).
End Cells.

(** io.go:390-406: header origins and widths are float32, TotalWidth float64. *)
Definition header_cells {D F} {ND : Num D} {NF : Num F} (up : F -> D)
    (totalWidth : D) (cells : Z) (origin width : vec3 F) : cellbounds :=
  let cw := (totalWidth / #cells)%num in
  let c f :=
    let o := nfloor (up (f origin) / cw)%num in
    let w := 1 + nfloor (up (f origin + f width)%num / cw)%num in
    (o, w - o) in
  CB (V3 (fst (c v0)) (fst (c v1)) (fst (c v2))) (V3 (snd (c v0)) (snd (c v1)) (snd (c v2))).

(** ** Overlaps *)

(** box.go:219-235, 301-303, 487-489, 536-538, 584-586, 638-640: the four overlap
    types.  [oproj] is the
    projection axis of the two dimensional ones. *)
Inductive okind := Segment2D | Segment3D | Domain2D | Domain3D.
Record overlap := Overlap { okd : okind; bufCb : cellbounds; domCb : cellbounds; ocells : Z; oproj : Z }.

(** box.go:237-247, 305-307 *)
Definition buffer_size (w : overlap) : Z :=
  let wd := width (bufCb w) in
  match okd w with
  | Segment2D | Domain2D =>
      let p0 := if 0 =? oproj w then 1 else v0 wd in
      let p1 := if 1 =? oproj w then p0 else p0 * v1 wd in
      if 2 =? oproj w then p1 else p1 * v2 wd
  | _ => v0 wd * v1 wd * v2 wd
  end.

(** box.go:70-94 *)
Definition overlap2D (cb : cellbounds) (cells proj : Z) (hdCb : cellbounds) : res overlap :=
  let seg := Overlap Segment2D hdCb cb cells proj in
  let dom := Overlap Domain2D cb cb cells proj in
  half <- quot cells 2 ;;
  if (buffer_size seg <=? buffer_size dom) ||
     ((v0 (width (bufCb dom)) >=? half) || (v1 (width (bufCb dom)) >=? half) || (v2 (width (bufCb dom)) >=? half))
  then Ok seg else Ok dom.

(** box.go:102-122 *)
Definition overlap3D (cb : cellbounds) (cells : Z) (hdCb : cellbounds) : overlap :=
  let seg := Overlap Segment3D hdCb cb cells (-1) in
  let dom := Overlap Domain3D cb cb cells (-1) in
  if buffer_size seg <=? buffer_size dom then seg else dom.

(** box.go:700-707 *)
Definition box_bound (x cells : Z) : Z :=
  if x <? 0 then x + cells else if x >=? cells then x - cells else x.

(** box.go:320-322, 354-356, 496-498, 593-598: the two axes of the image and the
    projection axis. *)
Definition dims (proj : Z) : Z * Z * Z :=
  if proj =? 0 then (1, 2, 0) else if proj =? 1 then (0, 2, 1) else (0, 1, 2).

Section Overlaps.
Context {D F : Type} {ND : Num D} {NF : Num F}.

(** box.go:685-691 *)
Definition int_floor (x : F) : Z := if (x >? #0)%num then ntrunc x else ntrunc (x - #1)%num.

(** Contents of a buffer: ScalarBuffer, VectorBuffer and CountBuffer of
    density.Buffer.  Scalar buffers have no counts. *)
Inductive contents :=
| Scalar (vals : list D)
| Vector (vecs : list (vec3 D)) (counts : list Z).

(** The argument bweights; NilBuffer is [WScalar []]. *)
Inductive weights :=
| WScalar (vals : list D)
| WVector (vecs : list (vec3 D)).

(** The innermost statements of the four Interpolate methods, box.go:518-531,
    559-563, 569-571, 577-579, 619-632, 666-679. *)
Definition deposit (b : contents) (bufIdx : Z) (ptVal : D) (w : weights) (idx : Z) : res contents :=
  match b with
  | Vector vecs counts =>
      wv <- (match w with WVector l => get l idx | WScalar _ => Panic end) ;;
      v <- get vecs bufIdx ;;
      vecs <- set vecs bufIdx (vmap2 (fun a x => (a + ptVal * x)%num) v wv) ;;
      c <- get counts bufIdx ;;
      counts <- set counts bufIdx (c + 1) ;;
      Ok (Vector vecs counts)
  | Scalar vals =>
      let wlen := match w with WScalar l => zlen l | WVector l => zlen l end in
      if wlen =? 0 then
        v <- get vals bufIdx ;; vals <- set vals bufIdx (v + ptVal)%num ;; Ok (Scalar vals)
      else
        x <- (match w with WScalar l => get l idx | WVector _ => Panic end) ;;
        v <- get vals bufIdx ;; vals <- set vals bufIdx (v + ptVal * x)%num ;; Ok (Scalar vals)
  end.

(** box.go:491-534 *)
Definition interpolate_seg2 (w : overlap) (b : contents) (xs : list (vec3 F)) (ptVal : D) (bw : weights)
    (low high jump : Z) : res contents :=
  let '(iDim, jDim, kDim) := dims (oproj w) in
  let kOffset := vget (origin (domCb w)) kDim - vget (origin (bufCb w)) kDim in
  let length := vget (width (bufCb w)) iDim in
  let ptVal := (ptVal / #(vget (width (domCb w)) kDim))%num in
  stride low high jump (fun idx b =>
    pt <- get xs idx ;;
    let i := ntrunc (vget pt iDim) in
    let j := ntrunc (vget pt jDim) in
    let k := int_floor (vget pt kDim) in
    let kk := box_bound (k - kOffset) (ocells w) in
    if (kk <? vget (width (domCb w)) kDim) && (kk >=? 0)
    then deposit b (i + j * length) ptVal bw idx else Ok b) b.

(** box.go:540-582 *)
Definition interpolate_seg3 (w : overlap) (b : contents) (xs : list (vec3 F)) (ptVal : D) (bw : weights)
    (low high jump : Z) : res contents :=
  let length := v0 (width (bufCb w)) in
  let area := v0 (width (bufCb w)) * v1 (width (bufCb w)) in
  stride low high jump (fun idx b =>
    pt <- get xs idx ;;
    deposit b (ntrunc (v0 pt) + ntrunc (v1 pt) * length + ntrunc (v2 pt) * area) ptVal bw idx) b.

(** box.go:588-636 *)
Definition interpolate_dom2 (w : overlap) (b : contents) (xs : list (vec3 F)) (ptVal : D) (bw : weights)
    (low high jump : Z) : res contents :=
  let '(iDim, jDim, kDim) := dims (oproj w) in
  let wd := width (bufCb w) in
  let length := vget wd iDim in
  let ptVal := (ptVal / #(vget wd kDim))%num in
  stride low high jump (fun idx b =>
    pt <- get xs idx ;;
    let i := box_bound (int_floor (vget pt iDim)) (ocells w) in
    if i <? vget wd iDim then
      let j := box_bound (int_floor (vget pt jDim)) (ocells w) in
      if j <? vget wd jDim then
        let k := box_bound (int_floor (vget pt kDim)) (ocells w) in
        if k <? vget wd kDim then deposit b (i + j * length) ptVal bw idx
        else Ok b
      else Ok b
    else Ok b) b.

(** box.go:642-683 *)
Definition interpolate_dom3 (w : overlap) (b : contents) (xs : list (vec3 F)) (ptVal : D) (bw : weights)
    (low high jump : Z) : res contents :=
  let wd := width (bufCb w) in
  let length := v0 wd in
  let area := v0 wd * v1 wd in
  stride low high jump (fun idx b =>
    pt <- get xs idx ;;
    let i := box_bound (int_floor (v0 pt)) (ocells w) in
    if i <? v0 wd then
      let j := box_bound (int_floor (v1 pt)) (ocells w) in
      if j <? v1 wd then
        let k := box_bound (int_floor (v2 pt)) (ocells w) in
        if k <? v2 wd then deposit b (i + j * length + k * area) ptVal bw idx
        else Ok b
      else Ok b
    else Ok b) b.

Definition interpolate (w : overlap) (b : contents) (xs : list (vec3 F)) (ptVal : D) (bw : weights)
    (low high jump : Z) : res contents :=
  match okd w with
  | Segment2D => interpolate_seg2 w b xs ptVal bw low high jump
  | Segment3D => interpolate_seg3 w b xs ptVal bw low high jump
  | Domain2D => interpolate_dom2 w b xs ptVal bw low high jump
  | Domain3D => interpolate_dom3 w b xs ptVal bw low high jump
  end.

(** ** Add *)

(** grid[domIdx] += buf[bufIdx], with the counts where there are any. *)
Definition add_cell (buf grid : contents) (bufIdx domIdx : Z) : res contents :=
  match buf, grid with
  | Scalar bv, Scalar gv =>
      x <- get bv bufIdx ;; g <- get gv domIdx ;; gv <- set gv domIdx (g + x)%num ;; Ok (Scalar gv)
  | Vector bv bn, Vector gv gn =>
      x <- get bv bufIdx ;; g <- get gv domIdx ;; gv <- set gv domIdx (vmap2 nadd g x) ;;
      c <- get bn bufIdx ;; n <- get gn domIdx ;; gn <- set gn domIdx (n + c) ;;
      Ok (Vector gv gn)
  | _, _ => Panic
  end.

Definition contents_len (b : contents) : Z :=
  match b with Scalar v => zlen v | Vector v _ => zlen v end.

(** box.go:253-274, 280-299 *)
Definition add_domain (buf grid : contents) : res contents :=
  for_ 0 (contents_len buf) (fun i g => add_cell buf g i i) grid.

(** The wrapped coordinate, box.go:325-330 and similar. *)
Definition dom_coord (w : overlap) (dim b : Z) : Z :=
  let d := b + (vget (origin (bufCb w)) dim - vget (origin (domCb w)) dim) in
  if d <? 0 then d + ocells w else if d >=? ocells w then d - ocells w else d.

(** box.go:313-388 *)
Definition add_segment2D (w : overlap) (buf grid : contents) : res contents :=
  let '(iDim, jDim, _) := dims (oproj w) in
  let bw := width (bufCb w) in let dw := width (domCb w) in
  for_ 0 (vget bw jDim) (fun jBuf g =>
    let jDom := dom_coord w jDim jBuf in
    if jDom >=? vget dw jDim then Ok g else
    let flatDomJ := jDom * vget dw iDim in
    let flatBufJ := jBuf * vget bw iDim in
    for_ 0 (vget bw iDim) (fun iBuf g =>
      let iDom := dom_coord w iDim iBuf in
      if iDom >=? vget dw iDim then Ok g else
      add_cell buf g (iBuf + flatBufJ) (iDom + flatDomJ)) g) grid.

(** box.go:394-485 *)
Definition add_segment3D (w : overlap) (buf grid : contents) : res contents :=
  let bw := width (bufCb w) in let dw := width (domCb w) in
  for_ 0 (v2 bw) (fun zBuf g =>
    let zDom := dom_coord w 2 zBuf in
    if zDom >=? v2 dw then Ok g else
    let flatDomZ := zDom * v1 dw * v0 dw in
    let flatBufZ := zBuf * v1 bw * v0 bw in
    for_ 0 (v1 bw) (fun yBuf g =>
      let yDom := dom_coord w 1 yBuf in
      if yDom >=? v1 dw then Ok g else
      let flatDomY := yDom * v0 dw in
      let flatBufY := yBuf * v0 bw in
      for_ 0 (v0 bw) (fun xBuf g =>
        let xDom := dom_coord w 0 xBuf in
        if xDom >=? v0 dw then Ok g else
        add_cell buf g (xBuf + flatBufY + flatBufZ) (xDom + flatDomY + flatDomZ)) g) g) grid.

Definition overlap_add (w : overlap) (buf grid : contents) : res contents :=
  match okd w with
  | Segment2D => add_segment2D w buf grid
  | Segment3D => add_segment3D w buf grid
  | Domain2D | Domain3D => add_domain buf grid
  end.

End Overlaps.
Arguments contents D : clear implicits.
Arguments weights D : clear implicits.
