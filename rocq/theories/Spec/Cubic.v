(** Tridiagonal systems and natural cubic splines, independently of the code. *)
From Coq Require Import ZArith List Reals.
From Verif Require Import Base.Res.
Import ListNotations.
Open Scope R_scope.

(** Row [i] of the product of a tridiagonal matrix (lower, main and upper
    diagonal [a], [b], [c]) with a vector. *)
Definition tri_row (n : nat) (a b c u : list R) (i : nat) : R :=
  (if Nat.eqb i 0 then 0 else nth i a 0 * nth (i - 1) u 0)
  + nth i b 0 * nth i u 0
  + (if Nat.eqb (S i) n then 0 else nth i c 0 * nth (S i) u 0).

Definition tri_solves (a b c r u : list R) : Prop :=
  length u = length r /\
  forall i, (i < length r)%nat -> tri_row (length r) a b c u i = nth i r 0.

Definition diag_dominant (a b c : list R) : Prop :=
  forall i, (i < length b)%nat ->
    (if Nat.eqb i 0 then 0 else Rabs (nth i a 0)) +
    (if Nat.eqb (S i) (length b) then 0 else Rabs (nth i c 0)) < Rabs (nth i b 0).

(** A cubic polynomial in (x - h), and its derivatives. *)
Record cubic := Cubic { q_h : R; q0 : R; q1 : R; q2 : R; q3 : R }.
Definition cubic_at (p : cubic) (x : R) : R :=
  q0 p + q1 p * (x - q_h p) + q2 p * (x - q_h p) ^ 2 + q3 p * (x - q_h p) ^ 3.
Definition cubic_d (p : cubic) : cubic := Cubic (q_h p) (q1 p) (2 * q2 p) (3 * q3 p) 0.

(** [ps] are the pieces of the natural cubic spline through the points
    (xs[i], ys[i]): they interpolate, and the first and second derivatives
    match at the interior points; the second derivative vanishes at the ends. *)
Definition natural_spline (xs ys : list R) (ps : nat -> cubic) : Prop :=
  let n := length xs in
  (forall i, (S i < n)%nat ->
     cubic_at (ps i) (nth i xs 0) = nth i ys 0 /\
     cubic_at (ps i) (nth (S i) xs 0) = nth (S i) ys 0) /\
  (forall i, (S (S i) < n)%nat ->
     cubic_at (cubic_d (ps i)) (nth (S i) xs 0) = cubic_at (cubic_d (ps (S i))) (nth (S i) xs 0) /\
     cubic_at (cubic_d (cubic_d (ps i))) (nth (S i) xs 0) =
       cubic_at (cubic_d (cubic_d (ps (S i)))) (nth (S i) xs 0)) /\
  cubic_at (cubic_d (cubic_d (ps 0%nat))) (nth 0 xs 0) = 0 /\
  cubic_at (cubic_d (cubic_d (ps (n - 2)%nat))) (nth (n - 1) xs 0) = 0.

(** [x] lies between [a] and [b], in whichever order they are. *)
Definition between (a b x : R) : Prop := a <= x <= b \/ b <= x <= a.

(** The function computed by partial code, extended by 0 where it panics. *)
Definition value (r : res R) : R := match r with Ok v => v | _ => 0 end.

(** [x] lies strictly between [a] and [b]. *)
Definition strictly_between (a b x : R) : Prop := a < x < b \/ b < x < a.

(** ** Histories of calls *)
(** An object whose calls return a value and the new object: the object after a
    list of calls, and the answer of one call. *)
Fixpoint after {S C V} (call : S -> C -> res (V * S)) (s : S) (cs : list C) : res S :=
  match cs with
  | [] => Ok s
  | c :: cs => bind (call s c) (fun p => after call (snd p) cs)
  end.

Definition answer {S C V} (call : S -> C -> res (V * S)) (s : S) (c : C) : res V :=
  bind (call s c) (fun p => Ok (fst p)).
