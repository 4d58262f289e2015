(** Model of /repo/math/calc/deriv.go.  The option Out only supplies the
    destination; it is the argument [out] here. *)
From Coq Require Import ZArith List Bool.
From Verif Require Import Base.Res Base.Num.
Import ListNotations.
Open Scope Z_scope.
Open Scope res_scope.

Section Calc.
Context {F : Type} {NF : Num F}.

(** deriv.go:36-37 *)
Definition copy_loop (xs out : list F) : res (list F) :=
  for_ 0 (zlen xs) (fun i out => x <- get xs i ;; set out i x) out.

(** deriv.go:39-43 *)
Definition deriv2 (xs ys out : list F) : res (list F) :=
  let n := zlen xs in
  out <- for_ 1 (n - 1) (fun i out =>
    yr <- get ys (i + 1) ;; yl <- get ys (i - 1) ;;
    xr <- get xs (i + 1) ;; xl <- get xs (i - 1) ;;
    set out i ((yr - yl) / (xr - xl))%num) out ;;
  y0 <- get ys 0 ;; y1 <- get ys 1 ;; y2 <- get ys 2 ;;
  x2 <- get xs 2 ;; x0 <- get xs 0 ;;
  out <- set out 0 ((- #3 * y0 + #4 * y1 - y2) / (x2 - x0))%num ;;
  ya <- get ys (n - 1) ;; yb <- get ys (n - 2) ;; yc <- get ys (n - 3) ;;
  xa <- get xs (n - 1) ;; xc <- get xs (n - 3) ;;
  set out (n - 1) (- (- #3 * ya + #4 * yb - yc) / (xa - xc))%num.

(** deriv.go:45-57 *)
Definition deriv4 (xs ys out : list F) : res (list F) :=
  let n := zlen xs in
  out <- for_ 2 (n - 2) (fun i out =>
    a <- get ys (i + 2) ;; b <- get ys (i + 1) ;; c <- get ys (i - 1) ;; d <- get ys (i - 2) ;;
    xr <- get xs (i + 2) ;; xl <- get xs (i - 1) ;;
    set out i ((- a + #8 * b - #8 * c + d) / (#3 * (xr - xl)))%num) out ;;
  y4 <- get ys 4 ;; y3 <- get ys 3 ;; y2 <- get ys 2 ;; y1 <- get ys 1 ;; y0 <- get ys 0 ;;
  x4 <- get xs 4 ;; x0 <- get xs 0 ;;
  out <- set out 0 ((- #3 * y4 + #16 * y3 - #36 * y2 + #48 * y1 - #25 * y0) / (#3 * (x4 - x0)))%num ;;
  z1 <- get ys (n - 1) ;; z2 <- get ys (n - 2) ;; z3 <- get ys (n - 3) ;; z4 <- get ys (n - 4) ;; z5 <- get ys (n - 5) ;;
  x5 <- get xs (n - 5) ;; xn <- get xs (n - 1) ;;
  out <- set out (n - 2) ((- #3 * z1 - #10 * z2 + #18 * z3 - #6 * z4 + z5) / (#3 * (x5 - xn)))%num ;;
  out <- set out 1 ((- #3 * y0 - #10 * y1 + #18 * y2 - #6 * y3 + y4) / (#3 * (x4 - x0)))%num ;;
  set out (n - 1) ((- #3 * z5 + #16 * z4 - #36 * z3 + #48 * z2 - #25 * z1) / (#3 * (x5 - xn)))%num.

(** deriv.go:22-62 *)
Definition deriv_out (xs ys out : list F) (order : Z) : res (list F) :=
  if negb (zlen ys =? zlen xs) then Panic
  else if negb (zlen out =? zlen xs) then Panic
  else if order =? 0 then copy_loop xs out
  else if order =? 2 then deriv2 xs ys out
  else if order =? 4 then deriv4 xs ys out
  else Panic.

(** deriv.go:27-29: without the option a fresh slice is used. *)
Definition deriv (xs ys : list F) (order : Z) : res (list F) :=
  deriv_out xs ys (repeat (#0)%num (length xs)) order.

End Calc.
