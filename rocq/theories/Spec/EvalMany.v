(** What evaluating an interpolator at many points means, independently of the
    model's loops. *)
From Coq Require Import List.
From Verif Require Import Base.Res.
Import ListNotations.

(** The value at the i-th point is the i-th entry of [out]; the entries of the
    slice [dst] beyond the last point are kept. *)
Definition evaluated {A V} (value : A -> res V) (pts : list A) (dst out : list V) : Prop :=
  exists vs, Forall2 (fun p v => value p = Ok v) pts vs /\
    length pts <= length dst /\ out = vs ++ skipn (length pts) dst.

(** The slice that receives the values: a given one, or a new one without any
    further entries. *)
Definition receives {A V} (pts : list A) (given : option (list V)) (dst : list V) : Prop :=
  match given with
  | Some o => dst = o
  | None => length dst = length pts
  end.
