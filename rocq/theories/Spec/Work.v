(** Splitting a segment into cubes of the particle lattice and running through
    a list, independently of the code. *)
From Coq Require Import ZArith List.
From Verif Require Import Base.Res Spec.Geometry.
Import ListNotations.
Open Scope Z_scope.
Open Scope res_scope.

Definition zseq (n : Z) : list Z := map Z.of_nat (seq 0 (Z.to_nat n)).

(** Corners of the n^3 cubes of side [skip]. *)
Definition base_cells (n skip : Z) : list cell :=
  flat_map (fun z => flat_map (fun y => map (fun x => (x * skip, y * skip, z * skip)) (zseq n)) (zseq n)) (zseq n).

(** The unit cube at [c] lies in the cube of side [skip] at [b]. *)
Definition inside_cube (skip : Z) (b c : cell) : Prop := in_box c b (skip, skip, skip).

(** Run [body] for the elements of a list in order. *)
Fixpoint each {A S} (l : list A) (body : A -> S -> res S) (s : S) : res S :=
  match l with [] => Ok s | a :: l => s' <- body a s ;; each l body s' end.
