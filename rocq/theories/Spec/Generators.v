(** Vocabulary for statements about random generators. *)
From Coq Require Import ZArith List Reals.
From Flocq Require Import Core BinarySingleNaN.
From Verif Require Import Base.Res Base.Num Base.IEEE Model.RandGen Model.Geom Spec.Streams Spec.GeomDefs.
Open Scope Z_scope.

Definition unit_float (v : f64) : Prop := is_finite v = true /\ (0 <= B2R v < 1)%R.
Definition closed_float (v : f64) : Prop := is_finite v = true /\ (0 <= B2R v <= 1)%R.

(** What the Go library documents for Float64, for every seed and call. *)
Definition go_stream (go : Z -> Z -> f64) : Prop := forall seed k, unit_float (go seed k).

(** [b] is a generator of type [gt], some time after it was made. *)
Definition made (go : Z -> Z -> f64) (gt : Z) (b : backend) : Prop :=
  exists seed b0 k vs, gen_new go gt seed = Ok b0 /\ draws gen_next k b0 = Ok (vs, b).

(** A single-precision point of the closed unit cube. *)
Definition cube32 (p : vec3 f32) : Prop :=
  (is_finite (v0 p) = true /\ is_finite (v1 p) = true /\ is_finite (v2 p) = true) /\
  unit_cube (V3 (B2R (v0 p)) (B2R (v1 p)) (B2R (v2 p))).
