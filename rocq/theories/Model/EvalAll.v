(** Model of the EvalAll methods of /repo/math/interpolate
    (linear_interpolators.go, spline.go and cubic_interpolators.go).

    The variadic parameter out is an option: only its first slice is used.
    The slice out[0] may share its memory with an input slice in the code;
    here slices are values, so such calls are not covered. *)
From Coq Require Import ZArith List.
From Verif Require Import Base.Res Base.Num Model.Interp Model.Spline.
Import ListNotations.
Open Scope Z_scope.
Open Scope res_scope.

Section EvalAll.
Context {F : Type} {NF : Num F}.

(** The common first line, linear_interpolators.go:62, 189 and 319,
    spline.go:96-98, cubic_interpolators.go:102 and 269. *)
Definition first_out {A} (xs : list A) (out : option (list F)) : list F :=
  match out with
  | Some o => o
  | None => repeat #0%num (length xs)
  end.

(** The common loop, linear_interpolators.go:63, 190 and 320, spline.go:100-102,
    cubic_interpolators.go:103 and 270.  The evaluation may change the
    interpolator, so it is threaded through. *)
Definition eval_loop {S A} (ev : S -> A -> res (F * S)) (arg : Z -> res A) (n : Z) (s : S) (out : list F)
  : res (list F * S) :=
  for_ 0 n (fun i '(out, s) =>
    a <- arg i ;;
    '(v, s) <- ev s a ;;
    out <- set out i v ;;
    Ok (out, s)) (out, s).

(** linear_interpolators.go:61-65 *)
Definition linear_eval_all (l : linear F) (xs : list F) (out : option (list F)) : res (list F) :=
  '(out, _) <- eval_loop (fun l x => v <- linear_eval l x ;; Ok (v, l)) (get xs) (zlen xs) l (first_out xs out) ;;
  Ok out.

(** linear_interpolators.go:188-192 *)
Definition bilinear_eval_all (b : bilinear F) (xs ys : list F) (out : option (list F)) : res (list F) :=
  '(out, _) <- eval_loop (fun b '(x, y) => v <- bilinear_eval b x y ;; Ok (v, b))
    (fun i => x <- get xs i ;; y <- get ys i ;; Ok (x, y)) (zlen xs) b (first_out xs out) ;;
  Ok out.

(** linear_interpolators.go:318-322 *)
Definition trilinear_eval_all (t : trilinear F) (xs ys zs : list F) (out : option (list F)) : res (list F) :=
  '(out, _) <- eval_loop (fun t '(x, y, z) => v <- trilinear_eval t x y z ;; Ok (v, t))
    (fun i => x <- get xs i ;; y <- get ys i ;; z <- get zs i ;; Ok (x, y, z)) (zlen xs) t (first_out xs out) ;;
  Ok out.

(** spline.go:95-105 *)
Definition spline_eval_all (sp : spline F) (xs : list F) (out : option (list F)) : res (list F) :=
  '(out, _) <- eval_loop (fun sp x => v <- spline_eval sp x ;; Ok (v, sp)) (get xs) (zlen xs) sp (first_out xs out) ;;
  Ok out.

(** cubic_interpolators.go:101-105.  The interpolator changes: it remembers the
    last y. *)
Definition bicubic_eval_all (b : bicubic F) (xs ys : list F) (out : option (list F)) : res (list F * bicubic F) :=
  eval_loop (fun b '(x, y) => bicubic_eval b x y)
    (fun i => x <- get xs i ;; y <- get ys i ;; Ok (x, y)) (zlen xs) b (first_out xs out).

(** cubic_interpolators.go:268-272 *)
Definition tricubic_eval_all (t : tricubic F) (xs ys zs : list F) (out : option (list F)) : res (list F * tricubic F) :=
  eval_loop (fun t '(x, y, z) => tricubic_eval t x y z)
    (fun i => x <- get xs i ;; y <- get ys i ;; z <- get zs i ;; Ok (x, y, z)) (zlen xs) t (first_out xs out).

End EvalAll.
