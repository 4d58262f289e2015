(** Result type with explicit panics, checked slice access and bounded loops.
    Nothing in this file models a particular function of /repo; it fixes the
    meaning of the Go constructs used by the models. *)
From Coq Require Import ZArith List Bool.
Import ListNotations.
Open Scope Z_scope.

(** [Ok]: the function returned.  [Panic]: a Go run-time panic or an explicit
    call of [panic].  [Fatal]: [log.Fatal] (process exit).  [NoFuel]: the bound
    given to a [while]-style loop was exhausted; theorems always exclude it. *)
Inductive res (A : Type) : Type :=
| Ok (a : A)
| Panic
| Fatal
| NoFuel.
Arguments Ok {A} a.
Arguments Panic {A}.
Arguments Fatal {A}.
Arguments NoFuel {A}.

Definition bind {A B} (r : res A) (k : A -> res B) : res B :=
  match r with
  | Ok a => k a
  | Panic => Panic
  | Fatal => Fatal
  | NoFuel => NoFuel
  end.

Declare Scope res_scope.
Delimit Scope res_scope with res.
Notation "x <- e ;; k" := (bind e (fun x => k))
  (at level 61, e at next level, right associativity) : res_scope.
Notation "' p <- e ;; k" := (bind e (fun p => k))
  (at level 61, p pattern, e at next level, right associativity) : res_scope.
Open Scope res_scope.

(** [len(xs)] as a Go [int]. *)
Definition zlen {A} (l : list A) : Z := Z.of_nat (length l).

(** [xs[i]] with the bounds check of the Go run time. *)
Definition get {A} (l : list A) (i : Z) : res A :=
  if i <? 0 then Panic
  else match nth_error l (Z.to_nat i) with
       | Some a => Ok a
       | None => Panic
       end.

Fixpoint upd {A} (l : list A) (n : nat) (v : A) : list A :=
  match l, n with
  | [], _ => []
  | _ :: t, O => v :: t
  | h :: t, S n' => h :: upd t n' v
  end.

(** [xs[i] = v] with the bounds check. *)
Definition set {A} (l : list A) (i : Z) (v : A) : res (list A) :=
  if (i <? 0) || (zlen l <=? i) then Panic
  else Ok (upd l (Z.to_nat i) v).

(** [xs[i], xs[j] = xs[j], xs[i]] *)
Definition swap {A} (l : list A) (i j : Z) : res (list A) :=
  x <- get l i ;;
  y <- get l j ;;
  l1 <- set l i y ;;
  set l1 j x.

(** [for i := i0; ...; i++] for exactly [n] iterations. *)
Fixpoint for_n {S} (n : nat) (i : Z) (body : Z -> S -> res S) (s : S) : res S :=
  match n with
  | O => Ok s
  | Datatypes.S n' => s' <- body i s ;; for_n n' (i + 1) body s'
  end.

(** [for i := lo; i < hi; i++ { s = body(i, s) }] *)
Definition for_ {S} (lo hi : Z) (body : Z -> S -> res S) (s : S) : res S :=
  for_n (Z.to_nat (hi - lo)) lo body s.

Fixpoint down_n {S} (n : nat) (i : Z) (body : Z -> S -> res S) (s : S) : res S :=
  match n with
  | O => Ok s
  | Datatypes.S n' => s' <- body i s ;; down_n n' (i - 1) body s'
  end.

(** [for i := hi; i >= lo; i-- { s = body(i, s) }] *)
Definition for_down {S} (hi lo : Z) (body : Z -> S -> res S) (s : S) : res S :=
  down_n (Z.to_nat (hi - lo + 1)) hi body s.

(** General loop: the body either continues with a new state or leaves. *)
Fixpoint loop {S A} (fuel : nat) (body : S -> res (S + A)) (s : S) : res A :=
  match fuel with
  | O => NoFuel
  | Datatypes.S f =>
      r <- body s ;;
      match r with
      | inl s' => loop f body s'
      | inr a => Ok a
      end
  end.

(** Go's [a / b] and [a % b] on ints: truncation towards zero, panic on 0. *)
Definition quot (a b : Z) : res Z := if b =? 0 then Panic else Ok (Z.quot a b).
Definition rem (a b : Z) : res Z := if b =? 0 then Panic else Ok (Z.rem a b).

(** Postcondition of a computation: it returns, and the result satisfies [P]. *)
Definition wp {A} (r : res A) (P : A -> Prop) : Prop :=
  match r with Ok a => P a | _ => False end.

(** [out := make([]T, n); for i := range out { out[i] = f(i) }]: a freshly
    allocated slice filled in index order ([make] panics for negative [n]). *)
Fixpoint tab_n {A} (n : nat) (i : Z) (f : Z -> res A) : res (list A) :=
  match n with
  | O => Ok []
  | S n' => x <- f i ;; r <- tab_n n' (i + 1) f ;; Ok (x :: r)
  end.
Definition tabulate {A} (n : Z) (f : Z -> res A) : res (list A) :=
  if n <? 0 then Panic else tab_n (Z.to_nat n) 0 f.

(** [xs[lo:hi]] (capacity equal to length). *)
Definition slice {A} (l : list A) (lo hi : Z) : res (list A) :=
  if (lo <? 0) || (hi <? lo) || (zlen l <? hi) then Panic
  else Ok (firstn (Z.to_nat (hi - lo)) (skipn (Z.to_nat lo) l)).
