(** Small snapshots for the examples.  Bit patterns are read as the integers they
    are, the box is 8 wide and the scale factor 4. *)
From Coq Require Import ZArith Reals String List Bool.
From Verif Require Import Base.Res Base.ResFacts Base.Num Base.Bytes Model.Geom Model.Gadget Spec.Gadgets.
Import ListNotations.
Open Scope Z_scope.

Definition demo_with (npart : list Z) (total : Z) (xs : list (vec3 Z)) (ids : list Z) (idwide : bool) : snapshot :=
  Sn npart (repeat 0 6) 4 0 0 0 [0; total; 0; 0; 0; 0] 0 1 8 1 0 1 0 0 (repeat 0 88) xs xs ids false false idwide.
Definition demo (total : Z) (xs : list (vec3 Z)) (ids : list Z) : snapshot := demo_with [0; zlen xs; 0; 0; 0; 0] total xs ids false.

Definition single : snapshot := demo 1 [V3 9 2 3] [1].
(** A lattice of eight particles in two files, out of order. *)
Definition first_half : snapshot := demo 8 [V3 1 2 1; V3 1 1 1; V3 2 2 2; V3 2 1 2] [3; 1; 8; 6].
Definition second_half : snapshot := demo 8 [V3 2 1 1; V3 2 2 1; V3 1 1 2; V3 1 2 2] [2; 4; 5; 7].
Definition halves : list snapshot := [first_half; second_half].
Definition first_only : list snapshot := [first_half].
(** One gas particle and one of dark matter, and two of gas. *)
Definition mixed : snapshot := demo_with [1; 1; 0; 0; 0; 0] 1 [V3 1 2 3; V3 4 5 6] [2; 1] false.
Definition gaseous : snapshot := demo_with [2; 1; 0; 0; 0; 0] 1 [V3 1 2 3; V3 4 5 6; V3 7 1 2] [2; 3; 1] false.
(** A crowd of N particles. *)
Definition crowd (N : nat) : snapshot := demo (Z.of_nat N) (repeat (V3 2 1 2) N) (map Z.of_nat (seq 1 N)).

Definition plain (cells : Z) : convert_config R := CC "in" "out" cells 32 "LGadget-2" "" "" 0 (-1) 1%R 1%R.
Definition iterated (cells last : Z) : convert_config R := CC "" "" cells 32 "LGadget-2" "in%d" "out%d" 0 last 1%R 1%R.
Definition same (z : Z) : Z := z.
Definition root (n : Z) : R -> R -> R := fun _ _ => IZR n.
