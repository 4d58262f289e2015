(** Model of /repo/math/interpolate/filter.go.

    The boundary condition is one of the four constants (the Go type is an int;
    other values are not modelled).  In [convolve] the destination is a fresh
    slice, so it does not share memory with the input. *)
From Coq Require Import ZArith List Bool.
From Verif Require Import Base.Res Base.Num Model.Mat.
Import ListNotations.
Open Scope Z_scope.
Open Scope res_scope.

(** filter.go:23-28 *)
Inductive boundary := Periodic | Reflection | ZeroPad | Extension.

Section Filter.
Context {F : Type} {NF : Num F}.
(** math.Exp, and math.Pow with an integer exponent. *)
Variable fexp : F -> F.
Variable fpow : F -> Z -> F.

(** filter.go:10-13 *)
Record kernel := Kernel { k_cs : list F; k_center : Z }.

(** filter.go:32-52 *)
Definition bc_get (b : boundary) (xs : list F) (i : Z) : res F :=
  if i <? 0 then
    match b with
    | Periodic => get xs (zlen xs - 1 + i)
    | Reflection => get xs (- (i + 1))
    | ZeroPad => Ok (#0)%num
    | Extension => get xs 0
    end
  else if i >=? zlen xs then
    match b with
    | Periodic => get xs (i - zlen xs)
    | Reflection => get xs ((zlen xs - 1) - (i - zlen xs - 1))
    | ZeroPad => Ok (#0)%num
    | Extension => get xs (zlen xs - 1)
    end
  else get xs i.

(** filter.go:93-103: the value used by the first loop of ConvolveAt. *)
Definition read_left (b : boundary) (xs : list F) (idx : Z) : res F :=
  if idx <? 0 then
    match b with
    | Periodic => get xs ((zlen xs - 1) + idx)
    | Reflection => get xs (- (idx - 1))
    | ZeroPad => Ok (#0)%num
    | Extension => get xs 0
    end
  else get xs idx.

(** filter.go:119-129: the value used by the last loop. *)
Definition read_right (b : boundary) (xs : list F) (idx : Z) : res F :=
  if idx >=? zlen xs then
    match b with
    | Periodic => get xs (idx - zlen xs)
    | Reflection => get xs (2 * (zlen xs - 1) - idx)
    | ZeroPad => Ok (#0)%num
    | Extension => get xs (zlen xs - 1)
    end
  else get xs idx.

(** The inner loop of filter.go:92-105, 109-112, 118-131. *)
Definition window (rd : Z -> res F) (k : kernel) (i : Z) : res F :=
  for_ 0 (zlen (k_cs k)) (fun j sum =>
    c <- get (k_cs k) j ;;
    let idx := i + j - k_center k in
    x <- rd idx ;;
    Ok (sum + x * c)%num) (#0)%num.

(** filter.go:86-135 *)
Definition convolve_at (k : kernel) (xs : list F) (b : boundary) (out : list F) : res (list F) :=
  let n := zlen xs in
  let nl := k_center k in
  let nr := zlen (k_cs k) - 1 - k_center k in
  out <- for_ 0 (nl + 1) (fun i out => s <- window (read_left b xs) k i ;; set out i s) out ;;
  out <- for_ (nl + 1) (n - nr) (fun i out => s <- window (get xs) k i ;; set out i s) out ;;
  for_ (n - nr) n (fun i out => s <- window (read_right b xs) k i ;; set out i s) out.

(** filter.go:78-82 *)
Definition convolve (k : kernel) (xs : list F) (b : boundary) : res (list F) :=
  out <- zeros (zlen xs) ;; convolve_at k xs b out.

(** filter.go:137-141 *)
Definition normalize (cs : list F) : res (list F) :=
  sum <- for_ 0 (zlen cs) (fun i s => c <- get cs i ;; Ok (s + c)%num) (#0)%num ;;
  for_ 0 (zlen cs) (fun i cs => c <- get cs i ;; set cs i (c / sum)%num) cs.

(** filter.go:145-163 *)
Definition new_gaussian (width : Z) (sigma dx : F) : res kernel :=
  if negb (Z.rem width 2 =? 1) then Panic
  else
    cs <- zeros width ;;
    let center := Z.quot width 2 in
    cs <- for_ 0 (center + 1) (fun i cs =>
      let x := (#(i - center) * dx)%num in
      set cs i (fexp ((- x) * x / (#2 * sigma * sigma))%num)) cs ;;
    cs <- for_ (center + 1) (zlen cs) (fun i cs =>
      c <- get cs (zlen cs - 1 - i) ;; set cs i c) cs ;;
    cs <- normalize cs ;;
    Ok (Kernel cs center).

(** filter.go:166-177 *)
Definition new_tophat (width : Z) : res kernel :=
  if negb (Z.rem width 2 =? 1) then Panic
  else
    cs <- zeros width ;;
    cs <- for_ 0 (zlen cs) (fun i cs => set cs i (#1)%num) cs ;;
    cs <- normalize cs ;;
    Ok (Kernel cs (Z.quot width 2)).

(** filter.go:236-241: the sum of the powers. *)
Definition moment (n ipj : Z) : res F :=
  let s := if ipj =? 0 then (#1)%num else (#0)%num in
  s <- for_ 1 (n + 1) (fun k s => Ok (s + fpow (#k) ipj)%num) s ;;
  for_ 1 (n + 1) (fun k s => Ok (s + fpow (#(- k)) ipj)%num) s.

(** filter.go:232-249: the matrix of the normal equations.  The inner loop
    counts imj = -mm, -mm + 2, ..., mm. *)
Definition moment_matrix (m n : Z) : res (matrix F) :=
  abuf <- zeros ((m + 1) * (m + 1)) ;;
  a <- new_matrix abuf (m + 1) (m + 1) ;;
  vals <- for_ 0 (m * 2 + 1) (fun ipj vals =>
    s <- moment n ipj ;;
    let mm := 2 * m - ipj in
    let mm := if mm >? ipj then ipj else mm in
    for_ 0 (mm + 1) (fun t vals =>
      let imj := - mm + 2 * t in
      let i := Z.quot (ipj + imj) 2 in
      let j := Z.quot (ipj - imj) 2 in
      set vals (j * m_w a + i) s) vals) (m_vals a) ;;
  Ok (Mat vals (m_w a) (m_h a)).

(** filter.go:229-266: the coefficients for a window of [width] points. *)
Definition savgol (width m ld : Z) : res (list F) :=
  let n := Z.quot width 2 in
  a <- moment_matrix m n ;;
  l <- lu a ;;
  b <- zeros (m + 1) ;;
  b <- set b ld (#1)%num ;;
  b <- lu_solve_vector l b b ;;
  cs <- zeros width ;;
  for_ (- n) (n + 1) (fun i cs =>
    b0 <- get b 0 ;;
    '(sum, _) <- for_ 1 (m + 1) (fun mm '(sum, fac) =>
      let fac := (fac * #i)%num in
      c <- get b mm ;;
      Ok ((sum + c * fac)%num, fac)) (b0, (#1)%num) ;;
    set cs (i + n) sum) cs.

(** filter.go:182-195 *)
Definition new_savgol (order width : Z) : res kernel :=
  if negb (Z.rem width 2 =? 1) then Panic
  else if width <=? order then Panic
  else
    cs <- savgol width order 0 ;;
    Ok (Kernel cs (Z.quot width 2)).

(** filter.go:268-272 *)
Definition factorial (x : Z) : res Z := for_ 2 (x + 1) (fun i prod => Ok (prod * i)) 1.

(** filter.go:208-227 *)
Definition new_savgol_deriv (dx : F) (dOrder pOrder width : Z) : res kernel :=
  if negb (Z.rem width 2 =? 1) then Panic
  else if dOrder >? pOrder then Panic
  else if width <=? pOrder then Panic
  else
    cs <- savgol width pOrder dOrder ;;
    f <- factorial dOrder ;;
    cs <- for_ 0 (zlen cs) (fun i cs =>
      c <- get cs i ;; set cs i (c * (#f / fpow dx dOrder))%num) cs ;;
    Ok (Kernel cs (Z.quot width 2)).

End Filter.
Arguments kernel F : clear implicits.
