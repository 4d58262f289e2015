(** Model of /repo/render/geom/deriv.go and of GridLocation in grid.go.
    [D] stands for float64 and [F] for float32; [cvt] is the conversion
    float32(x).  The six derivTaker types (deriv.go:241-284) differ only in the
    order and in the assignment operator, which are arguments here; [vals] and
    [out] are different slices. *)
From Coq Require Import ZArith List Bool.
From Verif Require Import Base.Res Base.Num Model.Geom.
Import ListNotations.
Open Scope Z_scope.
Open Scope res_scope.

(** deriv.go:13-18 *)
Inductive deriv_op := OpAdd | OpSubtract | OpNone.

(** deriv.go:7-11 *)
Record deriv_options := DO { periodic : bool; dop : deriv_op; order : Z }.

(** deriv.go:20 *)
Definition options_default : deriv_options := DO false OpNone 4.

(** grid.go:13-17 *)
Record grid_location (D : Type) := GL { gl_grid : grid; gl_cells : Z; gl_box : D }.
Arguments GL {D} gl_grid gl_cells gl_box.
Arguments gl_grid {D} g.
Arguments gl_cells {D} g.
Arguments gl_box {D} g.

Section GridDeriv.
Context {D F : Type} {ND : Num D} {NF : Num F} (cvt : D -> F).

(** grid.go:45-59 *)
Definition new_grid_location (o w : vec3 Z) (boxWidth : D) (cells : Z) : grid_location D :=
  GL (new_grid o w) cells boxWidth.

(** deriv.go:165-172 *)
Definition flat (ord : Z) (vals : list F) (denom : F) (idx di : Z) : res F :=
  if ord =? 2 then
    a <- get vals (idx + di) ;; b <- get vals (idx - di) ;;
    Ok ((a - b) / denom)%num
  else
    a <- get vals (idx + 2 * di) ;; b <- get vals (idx + di) ;;
    c <- get vals (idx - di) ;; d <- get vals (idx - 2 * di) ;;
    Ok ((- a + #8 * b + #(-8) * c + d) / denom)%num.

(** deriv.go:174-184 and 221-239 *)
Definition edge (ord : Z) (vals : list F) (denom : F) (idx di pos : Z) : res F :=
  if ord =? 2 then
    if pos =? 1 then
      a <- get vals idx ;; b <- get vals (idx + di) ;; c <- get vals (idx + 2 * di) ;;
      Ok ((#(-3) * a + #4 * b + - c) / denom)%num
    else if pos =? -1 then
      a <- get vals idx ;; b <- get vals (idx - di) ;; c <- get vals (idx - 2 * di) ;;
      Ok ((#(-3) * a + #4 * b + - c) / - denom)%num
    else Panic
  else
    if pos =? 1 then
      a <- get vals (idx + 4 * di) ;; b <- get vals (idx + 3 * di) ;; c <- get vals (idx + 2 * di) ;;
      d <- get vals (idx + 1 * di) ;; e <- get vals idx ;;
      Ok ((#(-3) * a + #16 * b - #36 * c + #48 * d - #25 * e) / denom)%num
    else if pos =? 2 then
      a <- get vals (idx - di) ;; b <- get vals idx ;; c <- get vals (idx + di) ;;
      d <- get vals (idx + 2 * di) ;; e <- get vals (idx + 3 * di) ;;
      Ok ((#(-3) * a - #10 * b + #18 * c + #(-6) * d + e) / denom)%num
    else if pos =? -2 then
      a <- get vals (idx + di) ;; b <- get vals idx ;; c <- get vals (idx - di) ;;
      d <- get vals (idx - 2 * di) ;; e <- get vals (idx - 3 * di) ;;
      Ok ((#(-3) * a - #10 * b + #18 * c + #(-6) * d + e) / - denom)%num
    else if pos =? -1 then
      a <- get vals (idx - 4 * di) ;; b <- get vals (idx - 3 * di) ;; c <- get vals (idx - 2 * di) ;;
      d <- get vals (idx - di) ;; e <- get vals idx ;;
      Ok ((#(-3) * a + #16 * b - #36 * c + #48 * d - #25 * e) / - denom)%num
    else Panic.

(** deriv.go:186-197 and 199-219 *)
Definition wrap (ord : Z) (vals : list F) (denom : F) (idx di pos w : Z) : res F :=
  if ord =? 2 then
    '(lo, hi) <- (if pos =? 1 then Ok (idx + (w - 1) * di, idx + di)
                  else if pos =? -1 then Ok (idx - di, idx - (w - 1) * di)
                  else Panic) ;;
    a <- get vals hi ;; b <- get vals lo ;; Ok ((a - b) / denom)%num
  else
    '(im2, im1, ip1, ip2) <-
      (if pos =? 1 then Ok (idx + (w - 2) * di, idx + (w - 1) * di, idx + di, idx + 2 * di)
       else if pos =? 2 then Ok (idx + (w - 2) * di, idx - di, idx + di, idx + 2 * di)
       else if pos =? -2 then Ok (idx - 2 * di, idx - di, idx + di, idx - (w - 2) * di)
       else if pos =? -1 then Ok (idx - 2 * di, idx - di, idx - (w - 1) * di, idx - (w - 2) * di)
       else Panic) ;;
    a <- get vals ip2 ;; b <- get vals ip1 ;; c <- get vals im1 ;; d <- get vals im2 ;;
    Ok ((- a + #8 * b + #(-8) * c + d) / denom)%num.

(** deriv.go:250-284: the three ways of storing a value. *)
Definition store (op : deriv_op) (out : list F) (idx : Z) (v : F) : res (list F) :=
  match op with
  | OpNone => set out idx v
  | OpAdd => o <- get out idx ;; set out idx (o + v)%num
  | OpSubtract => o <- get out idx ;; set out idx (o - v)%num
  end.

(** Component number [axis] of a [3]int. *)
Definition vget {A} (v : vec3 A) (axis : Z) : A :=
  if axis =? 0 then v0 v else if axis =? 1 then v1 v else v2 v.
Definition vset {A} (v : vec3 A) (axis : Z) (a : A) : vec3 A :=
  if axis =? 0 then V3 a (v1 v) (v2 v) else if axis =? 1 then V3 (v0 v) a (v2 v) else V3 (v0 v) (v1 v) a.

(** deriv.go:68-103 and 105-140.  The two functions are the same but for the
    method called on the derivTaker, which is [f idx di pos] here. *)
Definition border (g : grid) (axis ord : Z) (lb ub : vec3 Z) (op : deriv_op)
    (f : Z -> Z -> Z -> res F) (out : list F) : res (list F) :=
  for_ (- (ord / 2)) (ord / 2 + 1) (fun pos out =>
    if pos =? 0 then Ok out else
    let a := if pos >? 0 then pos - 1 else vget (width (gcb g)) axis + pos in
    if axis =? 0 then
      for_ (v2 lb) (v2 ub) (fun z out => for_ (v1 lb) (v1 ub) (fun y out =>
        let idx := a + y * glength g + z * garea g in
        v <- f idx 1 pos ;; store op out idx v) out) out
    else if axis =? 1 then
      for_ (v2 lb) (v2 ub) (fun z out => for_ (v0 lb) (v0 ub) (fun x out =>
        let idx := x + a * glength g + z * garea g in
        v <- f idx (glength g) pos ;; store op out idx v) out) out
    else
      for_ (v1 lb) (v1 ub) (fun y out => for_ (v0 lb) (v0 ub) (fun x out =>
        let idx := x + y * glength g + a * garea g in
        v <- f idx 1 pos ;; store op out idx v) out) out) out.

(** deriv.go:21-66 together with newDerivTaker, 286-320. *)
Definition grid_deriv (gl : grid_location D) (vals out : list F) (axis : Z) (opt : deriv_options) : res (list F) :=
  let g := gl_grid gl in
  let w := width (gcb g) in
  if (axis >? 2) || (axis <? 0) then Fatal
  else if vget w axis <? 3 then Fatal
  else if negb (order opt =? 2) && negb (order opt =? 4) then Fatal
  else
    let lb := vset (V3 0 0 0) axis (order opt / 2) in
    let ub := vset w axis (vget w axis - order opt / 2) in
    let dx := (gl_box gl / #(gl_cells gl))%num in
    let denom := if order opt =? 2 then cvt (dx * #2)%num else cvt (dx * #12)%num in
    let di := if axis =? 1 then glength g else if axis =? 2 then garea g else 1 in
    out <- for_ (v0 lb) (v0 ub) (fun x out => for_ (v1 lb) (v1 ub) (fun y out => for_ (v2 lb) (v2 ub) (fun z out =>
      let idx := x + y * glength g + z * garea g in
      v <- flat (order opt) vals denom idx di ;; store (dop opt) out idx v) out) out) out ;;
    if negb (periodic opt) || negb (gl_cells gl =? vget w axis) then
      border g axis (order opt) lb ub (dop opt) (fun idx di pos => edge (order opt) vals denom idx di pos) out
    else
      border g axis (order opt) lb ub (dop opt) (fun idx di pos => wrap (order opt) vals denom idx di pos (vget w axis)) out.

(** Option objects: the package default and the one of the caller.  A nil
    pointer selects the package default (deriv.go:25, 327-330, 348-350, 362). *)
Record opt_mem := OM { om_default : deriv_options; om_user : deriv_options }.
Inductive opt_ptr := PNil | PUser.
Definition load (m : opt_mem) (p : opt_ptr) : deriv_options :=
  match p with PNil => om_default m | PUser => om_user m end.
Definition store_op (m : opt_mem) (p : opt_ptr) (o : deriv_op) : opt_mem :=
  match p with
  | PNil => OM (DO (periodic (om_default m)) o (order (om_default m))) (om_user m)
  | PUser => OM (om_default m) (DO (periodic (om_user m)) o (order (om_user m)))
  end.

(** deriv.go:322-341.  [tmp := op; *op = *tmp] copies an object to itself. *)
Definition curl (gl : grid_location D) (vecs outs : vec3 (list F)) (p : opt_ptr) (m : opt_mem) : res (vec3 (list F) * opt_mem) :=
  a <- grid_deriv gl (v2 vecs) (v0 outs) 1 (load m p) ;;
  b <- grid_deriv gl (v0 vecs) (v1 outs) 2 (load m p) ;;
  c <- grid_deriv gl (v1 vecs) (v2 outs) 0 (load m p) ;;
  let m := store_op m p OpSubtract in
  a <- grid_deriv gl (v1 vecs) a 2 (load m p) ;;
  b <- grid_deriv gl (v2 vecs) b 0 (load m p) ;;
  c <- grid_deriv gl (v0 vecs) c 1 (load m p) ;;
  Ok (V3 a b c, m).

(** deriv.go:343-356 *)
Definition divergence (gl : grid_location D) (vecs : vec3 (list F)) (out : list F) (p : opt_ptr) (m : opt_mem) : res (list F * opt_mem) :=
  out <- grid_deriv gl (v0 vecs) out 0 (load m p) ;;
  let m := store_op m p OpAdd in
  out <- grid_deriv gl (v1 vecs) out 1 (load m p) ;;
  out <- grid_deriv gl (v2 vecs) out 2 (load m p) ;;
  Ok (out, m).

(** deriv.go:358-366 *)
Definition gradient (gl : grid_location D) (vals : list F) (outs : vec3 (list F)) (p : opt_ptr) (m : opt_mem) : res (vec3 (list F) * opt_mem) :=
  a <- grid_deriv gl vals (v0 outs) 0 (load m p) ;;
  b <- grid_deriv gl vals (v1 outs) 1 (load m p) ;;
  c <- grid_deriv gl vals (v2 outs) 2 (load m p) ;;
  Ok (V3 a b c, m).

End GridDeriv.
