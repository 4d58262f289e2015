(** Model of /repo/math/mat/mat.go, and of mat32.go, which is the same in float32
    without the products with vectors and the transposition.

    A Matrix is its row-major values with width and height.  Methods writing to
    an argument return its new value.  Slices that may share memory in the code
    (SolveVector(b, b), SolveMatrix(out, out)) are handled where that happens;
    see the comments. *)
From Coq Require Import ZArith List Bool.
From Verif Require Import Base.Res Base.Num.
Import ListNotations.
Open Scope Z_scope.
Open Scope res_scope.

Section Mat.
Context {F : Type} {NF : Num F}.

(** mat.go:16-19, mat32.go:7-11 *)
Record matrix := Mat { m_vals : list F; m_w : Z; m_h : Z }.

(** mat.go:24-28, mat32.go:17-21 *)
Record lufactors := LUF { lu_m : matrix; lu_pivot : list Z; lu_d : F }.

(** mat.go:31-49, mat32.go:24-42 *)
Definition new_matrix (vals : list F) (w h : Z) : res matrix :=
  if w <=? 0 then Panic
  else if h <=? 0 then Panic
  else if negb (w * h =? zlen vals) then Panic
  else Ok (Mat vals w h).

(** make([]float64, n) *)
Definition zeros (n : Z) : res (list F) :=
  if n <? 0 then Panic else Ok (repeat (#0)%num (Z.to_nat n)).

(** x[i] += v *)
Definition add_at (l : list F) (i : Z) (v : F) : res (list F) :=
  o <- get l i ;; set l i (o + v)%num.

(** mat.go:60-79, mat32.go:53-72 (the destination's values are zeroed first). *)
Definition mult_at (m1 m2 out : matrix) : res matrix :=
  if negb (m_w m1 =? m_h m2) then Panic
  else
    vals <- for_ 0 (m_h m1) (fun i vals =>
      let off := i * m_w m1 in
      for_ 0 (m_w m2) (fun j vals =>
        for_ 0 (m_w m1) (fun k vals =>
          a <- get (m_vals m1) (off + k) ;;
          b <- get (m_vals m2) (k * m_w m2 + j) ;;
          add_at vals (off + j) (a * b)%num) vals) vals)
      (map (fun _ => (#0)%num) (m_vals out)) ;;
    Ok (Mat vals (m_w out) (m_h out)).

(** mat.go:52-56, mat32.go:45-49 *)
Definition mult (m1 m2 : matrix) : res matrix :=
  let h := m_h m1 in let w := m_w m2 in
  z <- zeros (h * w) ;;
  out <- new_matrix z w h ;;
  mult_at m1 m2 out.

(** mat.go:82-95 *)
Definition mult_vec (m : matrix) (v out : list F) : res (list F) :=
  if negb (m_h m =? zlen out) || negb (m_w m =? zlen v) then Panic
  else
    '(out, _) <- for_ 0 (m_h m) (fun j '(out, offset) =>
      out <- for_ 0 (m_w m) (fun i out =>
        a <- get (m_vals m) (offset + i) ;;
        x <- get v i ;;
        add_at out j (a * x)%num) out ;;
      Ok (out, offset + m_w m)) (map (fun _ => (#0)%num) out, 0) ;;
    Ok out.

(** mat.go:98-110 *)
Definition vec_mult (v : list F) (m : matrix) (out : list F) : res (list F) :=
  if negb (m_h m =? zlen v) || negb (m_w m =? zlen out) then Panic
  else
    for_ 0 (m_w m) (fun i out =>
      sum <- for_ 0 (m_h m) (fun j sum =>
        x <- get v j ;;
        a <- get (m_vals m) (i + m_w m * j) ;;
        Ok (sum + x * a)%num) (#0)%num ;;
      set out i sum) (map (fun _ => (#0)%num) out).

(** mat.go:154-168 *)
Definition base_transpose (m out : list F) (width height mXLow mYLow mXWidth mYWidth outXLow outYLow : Z) : res (list F) :=
  for_ 0 mYWidth (fun y out =>
    let my := mYLow + y in let outx := outXLow + y in
    let mOffset := my * width in
    for_ 0 mXWidth (fun x out =>
      let mx := mXLow + x in let outy := outYLow + x in
      a <- get m (mOffset + mx) ;;
      set out (outy * height + outx) a) out) out.

(** mat.go:124 *)
Definition transposeRecWidth : Z := 16000000.

(** mat.go:125-152.  [cut] is transposeRecWidth; the recursion is bounded by fuel. *)
Fixpoint rec_transpose (fuel : nat) (cut : Z) (m out : list F)
    (width height mXLow mYLow mXWidth mYWidth outXLow outYLow : Z) : res (list F) :=
  match fuel with
  | O => NoFuel
  | S fuel =>
    if (mXWidth <=? cut) && (mYWidth <=? cut) then
      base_transpose m out width height mXLow mYLow mXWidth mYWidth outXLow outYLow
    else if mXWidth >? mYWidth then
      h <- quot mXWidth 2 ;;
      out <- rec_transpose fuel cut m out width height mXLow mYLow h mYWidth outXLow outYLow ;;
      rec_transpose fuel cut m out width height (mXLow + h) mYLow (mXWidth - h) mYWidth outXLow (outYLow + h)
    else
      h <- quot mYWidth 2 ;;
      out <- rec_transpose fuel cut m out width height mXLow mYLow mXWidth h outXLow outYLow ;;
      rec_transpose fuel cut m out width height mXLow (mYLow + h) mXWidth (mYWidth - h) (outXLow + h) outYLow
  end.

(** mat.go:112-122 *)
Definition transpose (m : matrix) : res matrix :=
  vals <- zeros (m_h m * m_w m) ;;
  out <- new_matrix vals (m_h m) (m_w m) ;;
  v <- rec_transpose (S (Z.to_nat (m_w m + m_h m))) transposeRecWidth (m_vals m) (m_vals out)
         (m_w m) (m_h m) 0 0 (m_w m) (m_h m) 0 0 ;;
  Ok (Mat v (m_w out) (m_h out)).

(** mat.go:231-239: reciprocal of the largest entry of each row. *)
Definition lu_scale (n : Z) (m : list F) : res (list F) :=
  tabulate n (fun i =>
    big <- for_ 0 n (fun j big =>
      a <- get m (i * n + j) ;;
      let tmp := nabs a in
      Ok (if (tmp >? big)%num then tmp else big)) (#0)%num ;;
    if (big =? #0)%num then Panic else Ok (#1 / big)%num).

(** mat.go:243-250: search of the pivot; [imax] keeps its old value if no
    entry of the column is larger than zero. *)
Definition lu_search (n k : Z) (m vv : list F) (imax : Z) : res Z :=
  '(_, imax) <- for_ k n (fun i '(big, imax) =>
    v <- get vv i ;;
    a <- get m (i * n + k) ;;
    let tmp := (v * nabs a)%num in
    Ok (if (tmp >? big)%num then (tmp, i) else (big, imax))) ((#0)%num, imax) ;;
  Ok imax.

(** mat.go:252-255 *)
Definition lu_swap (n k imax : Z) (m : list F) : res (list F) :=
  for_ 0 n (fun j m => swap m (imax * n + j) (k * n + j)) m.

(** mat.go:261-267 *)
Definition lu_eliminate (n k : Z) (m : list F) : res (list F) :=
  for_ (k + 1) n (fun i m =>
    a <- get m (i * n + k) ;;
    p <- get m (k * n + k) ;;
    m <- set m (i * n + k) (a / p)%num ;;
    tmp <- get m (i * n + k) ;;
    for_ (k + 1) n (fun j m =>
      b <- get m (k * n + j) ;;
      a <- get m (i * n + j) ;;
      set m (i * n + j) (a - tmp * b)%num) m) m.

(** the constant 1e-20 (mat.go:260) as a fraction; only the exact instance is used. *)
Definition tiny : F := (#1 / #(10 ^ 20))%num.

(** mat.go:242-268: one column; state (values, vv, pivot, d, imax). *)
Definition lu_column (n k : Z) (s : list F * list F * list Z * F * Z) : res (list F * list F * list Z * F * Z) :=
  let '(m, vv, pivot, d, imax) := s in
  imax <- lu_search n k m vv imax ;;
  '(m, vv, d) <-
    (if negb (k =? imax) then
       m <- lu_swap n k imax m ;;
       vk <- get vv k ;;
       vv <- set vv imax vk ;;
       Ok (m, vv, (- d)%num)
     else Ok (m, vv, d)) ;;
  pivot <- set pivot k imax ;;
  p <- get m (k * n + k) ;;
  m <- (if (p =? #0)%num then set m (k * n + k) tiny else Ok m) ;;
  m <- lu_eliminate n k m ;;
  Ok (m, vv, pivot, d, imax).

(** mat.go:227-269, mat32.go:131-173 *)
Definition factorize (n : Z) (m : list F) (pivot : list Z) : res (list F * list Z * F) :=
  vv <- lu_scale n m ;;
  '(m, _, pivot, d, _) <- for_ 0 n (lu_column n) (m, vv, pivot, (#1)%num, 0) ;;
  Ok (m, pivot, d).

(** mat.go:196-225, mat32.go:102-129: LU with NewLUFactors and LUFactorsAt. *)
Definition lu (m : matrix) : res lufactors :=
  if negb (m_w m =? m_h m) then Panic
  else
    let n := m_w m in
    z <- zeros (n * n) ;;
    (* copy(luf.lu.Vals, m.Vals) *)
    let vals := firstn (length z) (m_vals m) ++ skipn (length (m_vals m)) z in
    '(vals, pivot, d) <- factorize n vals (repeat 0 (Z.to_nat n)) ;;
    Ok (LUF (Mat vals n n) pivot d).

(** mat.go:299-310, mat32.go:203-214 *)
Definition forward_subst (n : Z) (pivot : list Z) (lu bs ys : list F) : res (list F) :=
  ys <- for_ 0 n (fun i ys =>
    p <- get pivot i ;;
    b <- get bs i ;;
    set ys p b) ys ;;
  for_ 0 n (fun i ys =>
    sum <- for_ 0 i (fun j sum =>
      a <- get lu (i * n + j) ;;
      y <- get ys j ;;
      Ok (sum + a * y)%num) (#0)%num ;;
    y <- get ys i ;;
    set ys i (y - sum)%num) ys.

(** mat.go:314-322, mat32.go:218-226.  The code is only called with ys and xs the same slice. *)
Definition back_subst (n : Z) (lu xs : list F) : res (list F) :=
  for_down (n - 1) 0 (fun i xs =>
    sum <- for_ (i + 1) n (fun j sum =>
      a <- get lu (i * n + j) ;;
      x <- get xs j ;;
      Ok (sum + a * x)%num) (#0)%num ;;
    y <- get xs i ;;
    p <- get lu (i * n + i) ;;
    set xs i ((y - sum) / p)%num) xs.

(** mat.go:274-295, mat32.go:178-199.  If bs and xs are the same slice the code copies bs first,
    so passing the same list twice models that case. *)
Definition lu_solve_vector (luf : lufactors) (bs xs : list F) : res (list F) :=
  let n := m_w (lu_m luf) in
  if negb (n =? zlen bs) then Panic
  else if negb (n =? zlen xs) then Panic
  else
    _ <- get bs 0 ;;
    ys <- forward_subst n (lu_pivot luf) (m_vals (lu_m luf)) bs xs ;;
    back_subst n (m_vals (lu_m luf)) ys.

(** mat.go:327-354, mat32.go:231-258.  The values of b are never read. *)
Definition lu_solve_matrix (luf : lufactors) (b x : matrix) : res matrix :=
  let n := m_w (lu_m luf) in
  if negb (m_w b =? m_h b) then Panic
  else if negb (m_w x =? m_h x) then Panic
  else if negb (n =? m_w b) then Panic
  else if negb (n =? m_w x) then Panic
  else
    xs <- for_ 0 n (fun j xs =>
      col <- tabulate n (fun i => get xs (i * n + j)) ;;
      col <- lu_solve_vector luf col col ;;
      for_ 0 n (fun i xs => c <- get col i ;; set xs (i * n + j) c) xs) (m_vals x) ;;
    Ok (Mat xs (m_w x) (m_h x)).

(** mat.go:358-375, mat32.go:262-279 *)
Definition lu_invert_at (luf : lufactors) (out : matrix) : res matrix :=
  let n := m_w (lu_m luf) in
  if negb (m_w out =? m_h out) then Panic
  else if negb (n =? m_w out) then Panic
  else
    vals <- for_ 0 n (fun i vals => set vals (i * n + i) (#1)%num) (map (fun _ => (#0)%num) (m_vals out)) ;;
    lu_solve_matrix luf (Mat vals (m_w out) (m_h out)) (Mat vals (m_w out) (m_h out)).

(** mat.go:379-388, mat32.go:283-292 *)
Definition lu_determinant (luf : lufactors) : res F :=
  let n := m_w (lu_m luf) in
  for_ 0 n (fun i d => a <- get (m_vals (lu_m luf)) (i * n + i) ;; Ok (d * a)%num) (lu_d luf).

(** mat.go:171-175, mat32.go:75-79 *)
Definition invert (m : matrix) : res matrix :=
  l <- lu m ;;
  z <- zeros (zlen (m_vals m)) ;;
  inv <- new_matrix z (m_w m) (m_h m) ;;
  lu_invert_at l inv.

(** mat.go:178-181, mat32.go:82-85 *)
Definition determinant (m : matrix) : res F := l <- lu m ;; lu_determinant l.

(** mat.go:184-188, mat32.go:88-92 *)
Definition solve_vector (m : matrix) (bs : list F) : res (list F) :=
  xs <- zeros (zlen bs) ;;
  l <- lu m ;;
  lu_solve_vector l bs xs.

(** mat.go:191-195, mat32.go:95-99 *)
Definition solve_matrix (m b : matrix) : res matrix :=
  z <- zeros (zlen (m_vals m)) ;;
  x <- new_matrix z (m_w m) (m_h m) ;;
  l <- lu m ;;
  lu_solve_matrix l b x.

End Mat.
Arguments matrix F : clear implicits.
Arguments lufactors F : clear implicits.
