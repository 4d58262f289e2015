(** What can be asked of a buffer, and what is done to one between questions. *)
From Coq Require Import ZArith List.
From Verif Require Import Base.Res Model.Geom Model.GridDeriv Model.Density Model.Box Model.Buffers.
From Verif Require Import Base.Num.
Import ListNotations.
Open Scope Z_scope.
Open Scope res_scope.

(** The calls that change a buffer. *)
Inductive buf_op (D F : Type) :=
| OSlice (low high : Z)
| OClear
| OLocation (g : option (grid_location D))
| OVectors (vecs : list (vec3 F)).
Arguments OSlice {D F} low high.
Arguments OClear {D F}.
Arguments OLocation {D F} g.
Arguments OVectors {D F} vecs.

Section History.
Context {D F : Type} {ND : Num D} (up : F -> D).

Definition apply_op (b : gbuf D) (o : buf_op D F) : res (gbuf D) :=
  match o with
  | OSlice low high => g_slice b low high
  | OClear => g_clear b
  | OLocation g => Ok (g_set_location b g)
  | OVectors vecs => '(b, _) <- g_set_vectors up b vecs ;; Ok b
  end.

Fixpoint apply_ops (b : gbuf D) (l : list (buf_op D F)) : res (gbuf D) :=
  match l with [] => Ok b | o :: l => b <- apply_op b o ;; apply_ops b l end.

(** The location last given. *)
Fixpoint last_location (g : option (grid_location D)) (l : list (buf_op D F)) : option (grid_location D) :=
  match l with
  | [] => g
  | OLocation g' :: l => last_location g' l
  | _ :: l => last_location g l
  end.
End History.

(** Quantities by number: 0 density, 1 gradient of the density, 2 velocity,
    3 divergence and 4 curl of the velocity. *)
Definition from_velocity (q : Z) : bool := 2 <=? q.
Definition three_images (q : Z) : bool := (q =? 1) || (q =? 2) || (q =? 4).

(** What a buffer of quantity [q] answers. *)
Definition answers {D F} {ND : Num D} {NF : Num F} (down : D -> F) (q : Z) (b : gbuf D) : Prop :=
  g_quantity b = Ok q /\
  (g_count b = None <-> from_velocity q = false) /\
  (g_vector b = None <-> from_velocity q = false) /\
  (g_scalar b = None <-> from_velocity q = true) /\
  (forall num, g_count b = Some num -> zlen num = g_length b) /\
  (forall vecs, g_vector b = Some vecs -> zlen vecs = g_length b) /\
  (forall vals, g_scalar b = Some vals -> zlen vals = g_length b) /\
  (g_final_scalar down b = Ok None <-> three_images q = true) /\
  (g_final_vector down b = Ok None <-> three_images q = false).

(** What is in a buffer, as its getters show it. *)
Definition holds {D} (b : gbuf D) (c : contents D) : Prop :=
  match c with
  | Scalar vals => g_scalar b = Some vals
  | Vector vecs num => g_vector b = Some vecs /\ g_count b = Some num
  end.

(** The buffers the program starts from. *)
Definition fresh {D} {ND : Num D} (b : gbuf D) : Prop :=
  (exists q n g, g_new q n g = Ok b) \/ (exists rhos, b = wrapper_density_buffer rhos) \/
  (exists l, b = GScalar (GS l (zlen l))) \/ (exists l, b = GVector (GS l (zlen l))).

(** [b'] holds what [b] holds after [f], [f] being applied to every array. *)
Definition changed {D} (fs : list D -> list D) (fv : list (vec3 D) -> list (vec3 D)) (fn : list Z -> list Z)
    (b b' : gbuf D) : Prop :=
  g_scalar b' = option_map fs (g_scalar b) /\ g_vector b' = option_map fv (g_vector b) /\
  g_count b' = option_map fn (g_count b).

(** Elements [low] to [high - 1]. *)
Definition part {A} (low high : Z) (l : list A) : list A := firstn (Z.to_nat (high - low)) (skipn (Z.to_nat low) l).
