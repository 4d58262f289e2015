(** Model of /repo/math/rand/rand.go with all three backends, of golang.go, of
    the seeding in tausworthe.go, and of what draws from them in
    /repo/render/geom/tetra.go and /repo/render/render.go.

    The generator of the Go library is the stream [go seed k]: the value of call
    number k of Float64 after rand.NewSource(seed). *)
From Coq Require Import ZArith List Bool.
From Verif Require Import Base.Res Base.Num Base.Bytes Base.IEEE Base.Convert Model.Rand Model.Geom.
Import ListNotations.
Open Scope Z_scope.
Open Scope res_scope.

(** rand.go:12-16, golang.go:7-9 *)
Inductive backend :=
| BXor (s : xorst)
| BGo (src : Z -> f64) (pos : Z)
| BTaus (g : taus f64).

Section Gen.
Variable go : Z -> Z -> f64.

(** rand.go:62-65 for the Golang backend, as tausworthe.go:23 uses it *)
Definition scale (low high f : f64) : f64 :=
  if neqb low (nofZ 0) && neqb high (nofZ 1) then f else nadd (nmul f (nsub high low)) low.

(** tausworthe.go:21-25; [f] is halved after each digit. *)
Fixpoint taus_digits (src : Z -> f64) (n : nat) (pos : Z) (f : f64) (seq : list f64) : res (list f64 * Z) :=
  match n with
  | O => Ok (seq, pos)
  | S n =>
      '(seq, pos) <- for_ 0 (zlen seq) (fun i '(seq, pos) =>
        v <- get seq i ;; seq <- set seq i (nadd v (scale (nofZ 0) f (src pos))) ;; Ok (seq, pos + 1)) (seq, pos) ;;
      taus_digits src n pos (ndiv f (nofZ 2)) seq
  end.

(** tausworthe.go:16-34 *)
Definition taus_seed (seed : Z) : res (taus f64) :=
  '(seq, _) <- taus_digits (go (signed 64 seed)) 15 0 (nofZ 1) (repeat (nofZ 0) (Z.to_nat taus_len)) ;;
  Ok (taus_init (map (fun v => if nleb (nofZ 1) v then nsub v (nofZ 1) else v) seq)).

(** rand.go:37-54; seeds are uint64, the types are 0 (Xorshift), 1 (Golang) and
    2 (Tausworthe). *)
Definition gen_new (gt seed : Z) : res backend :=
  if gt =? 0 then Ok (BXor (xor_init seed))
  else if gt =? 1 then Ok (BGo (go (signed 64 seed)) 0)
  else if gt =? 2 then g <- taus_seed seed ;; Ok (BTaus g)
  else Panic.

(** Next: xorshift.go:23-31, golang.go:16-18, tausworthe.go:36-50 *)
Definition gen_next (b : backend) : res (f64 * backend) :=
  match b with
  | BXor s => '(v, s) <- xor_next s ;; Ok (v, BXor s)
  | BGo src pos => Ok (src pos, BGo src (pos + 1))
  | BTaus g => '(v, g) <- taus_next g ;; Ok (v, BTaus g)
  end.

(** NextSequence: xorshift.go:33-41, golang.go:20-24, tausworthe.go:52-70.
    Fuel: only Xorshift repeats draws. *)
Definition gen_next_sequence (fuel : nat) (b : backend) (target : list f64) : res (list f64 * backend) :=
  match b with
  | BXor s => '(vs, s) <- xor_next_sequence fuel s target ;; Ok (vs, BXor s)
  | BGo src pos =>
      '(vs, pos) <- for_ 0 (zlen target) (fun i '(t, pos) => t <- set t i (src pos) ;; Ok (t, pos + 1)) (target, pos) ;;
      Ok (vs, BGo src pos)
  | BTaus g => '(vs, g) <- taus_next_sequence g target ;; Ok (vs, BTaus g)
  end.

(** rand.go:56-60 *)
Definition gen_uniform_int (b : backend) (low high : Z) : res (Z * backend) :=
  '(f, b) <- gen_next b ;;
  Ok (nfloor (nadd (nmul (nofZ (high - low)) f) (nofZ low)), b).

(** rand.go:62-65 *)
Definition gen_uniform (b : backend) (low high : f64) : res (f64 * backend) :=
  '(f, b) <- gen_next b ;; Ok (scale low high f, b).

(** rand.go:67-73 *)
Definition gen_uniform_at (fuel : nat) (b : backend) (low high : f64) (target : list f64) : res (list f64 * backend) :=
  '(target, b) <- gen_next_sequence fuel b target ;;
  if neqb low (nofZ 0) && neqb high (nofZ 1) then Ok (target, b) else
  target <- for_ 0 (zlen target) (fun i t => v <- get t i ;; set t i (nadd (nmul v (nsub high low)) low)) target ;;
  Ok (target, b).

(** render.go:155-168 before DistributeUnit: [n] vectors of three numbers. *)
Definition draw_vec (b : backend) : res (vec3 f32 * backend) :=
  '(x, b) <- gen_uniform b (nofZ 0) (nofZ 1) ;;
  '(y, b) <- gen_uniform b (nofZ 0) (nofZ 1) ;;
  '(z, b) <- gen_uniform b (nofZ 0) (nofZ 1) ;;
  Ok (V3 (to_f32 x) (to_f32 y) (to_f32 z), b).
Fixpoint draw_vecs (n : nat) (b : backend) : res (list (vec3 f32) * backend) :=
  match n with
  | O => Ok ([], b)
  | S n => '(v, b) <- draw_vec b ;; '(vs, b) <- draw_vecs n b ;; Ok (v :: vs, b)
  end.
Fixpoint draw_bufs (nUnit : nat) (pts : nat) (b : backend) : res (list (list (vec3 f32)) * backend) :=
  match nUnit with
  | O => Ok ([], b)
  | S n => '(v, b) <- draw_vecs pts b ;; '(vs, b) <- draw_bufs n pts b ;; Ok (v :: vs, b)
  end.

(** render.go:155-172.  [seed] is the time. *)
Definition unit_bufs64 (seed nUnit pts : Z) : res (list (list (vec3 f32))) :=
  b <- gen_new 2 seed ;;
  '(bufs, _) <- draw_bufs (Z.to_nat nUnit) (Z.to_nat pts) b ;;
  Ok (map distribute_unit bufs).

End Gen.

Section Sample.
Context {F : Type} {NF : Num F}.
Variable of64 : f64 -> F.   (* float32(x) *)

(** tetra.go:308-324; [n] is len(vecBuf).  The second result is randBuf. *)
Definition random_sample (fuel : nat) (t : tetra F) (b : backend) (randBuf : list f64) (n : Z) :
  res (list (vec3 F) * list f64 * tetra F * backend) :=
  if negb (zlen randBuf =? n * 3) then Panic else
  '(rs, b) <- gen_uniform_at fuel b (nofZ 0) (nofZ 1) randBuf ;;
  pts <- tabulate n (fun i => x <- get rs i ;; y <- get rs (n + i) ;; z <- get rs (2 * n + i) ;;
    Ok (V3 (of64 x) (of64 y) (of64 z))) ;;
  let '(vs, t) := distribute t pts in
  Ok (vs, rs, t, b).

(** tetra.go:425-447; [up] is float64(x).  Elements of [out] beyond the points
    keep their values. *)
Definition distribute_tetra64 {D : Type} (up : F -> D) (t : tetra F) (pts : list (vec3 F)) (out : list (vec3 D)) :
  res (list (vec3 D) * tetra F) :=
  let '(b, t) := tetra_barycenter t in
  out <- for_ 0 (zlen pts) (fun i out =>
    p <- get pts i ;;
    let v := bary_point t b p in
    set out i (V3 (up (v0 v)) (up (v1 v)) (up (v2 v)))) out ;;
  Ok (out, t).
End Sample.
