(** Ranges of stored fields and the destination of particles. *)
From Coq Require Import ZArith List Bool.
From Verif Require Import Base.Res Base.Bytes Model.Geom Model.SheetIO Model.GridIO.
Import ListNotations.
Open Scope Z_scope.
Open Scope res_scope.

Definition bits (n v : Z) : Prop := 0 <= v < 2 ^ n.
Definition int64 (v : Z) : Prop := - 2 ^ 63 <= v < 2 ^ 63.
Definition all3 (P : Z -> Prop) (v : vec3 Z) : Prop := P (v0 v) /\ P (v1 v) /\ P (v2 v).

(** Every field holds a value of its type. *)
Definition sheet_typed (h : sheet_header) : Prop :=
  bits 64 (sh_z h) /\ bits 64 (sh_omegaM h) /\ bits 64 (sh_omegaL h) /\ bits 64 (sh_h100 h) /\
  int64 (sh_count h) /\ int64 (sh_countWidth h) /\ int64 (sh_segmentWidth h) /\ int64 (sh_gridWidth h) /\
  int64 (sh_gridCount h) /\ int64 (sh_idx h) /\ int64 (sh_cells h) /\
  bits 64 (sh_mass h) /\ bits 64 (sh_totalWidth h) /\
  all3 (bits 32) (sh_origin h) /\ all3 (bits 32) (sh_width h) /\ all3 (bits 32) (sh_velOrigin h) /\ all3 (bits 32) (sh_velWidth h).

Definition loc_typed (l : location_info) : Prop :=
  all3 (bits 64) (li_origin l) /\ all3 (bits 64) (li_span l) /\ all3 int64 (li_pixelOrigin l) /\ all3 int64 (li_pixelSpan l) /\
  bits 64 (li_pixelWidth l).
Definition cosmo_typed (c : cosmo_info) : Prop :=
  Forall (bits 64) [ci_redshift c; ci_scale c; ci_omegaM c; ci_omegaL c; ci_hubble c; ci_rhoMean c; ci_rhoCritical c; ci_boxWidth c].
Definition render_typed (r : render_info) : Prop :=
  Forall int64 [ri_particles r; ri_totalPixels r; ri_subsample r; ri_depth r; ri_axis r].

(** Number of pixels of a box without projection. *)
Definition pixels (l : location_info) : Z := v0 (li_pixelSpan l) * v1 (li_pixelSpan l) * v2 (li_pixelSpan l).

(** A particle: position, velocity, id. *)
Definition particle (V : Type) : Type := V * V * Z.
Definition p_x {V} (p : particle V) : V := fst (fst p).
Definition p_v {V} (p : particle V) : V := snd (fst p).
Definition p_id {V} (p : particle V) : Z := snd p.

(** The last particle with the given id. *)
Definition last_with {V} (l : list (particle V)) (id : Z) : option (particle V) :=
  find (fun p => p_id p =? id) (rev l).
(** Slot k (counted from 0) belongs to id k + 1. *)
Definition delivered {V} (old : list V) (sel : particle V -> V) (l : list (particle V)) (new : list V) : Prop :=
  length new = length old /\
  forall k d, (k < length old)%nat ->
    nth k new d = match last_with l (Z.of_nat k + 1) with Some p => sel p | None => nth k old d end.

(** Append batches one after the other, then flush. *)
Fixpoint append_all {V} (b : particle_buffer V) (batches : list (list (particle V))) : res (particle_buffer V) :=
  match batches with
  | [] => Ok b
  | c :: rest => b <- pb_append b (map p_x c) (map p_v c) (map p_id c) ;; append_all b rest
  end.
Definition send {V} (z : V) (xs vs : list V) (bufSize : Z) (batches : list (list (particle V))) : res (particle_buffer V) :=
  b <- new_particle_buffer z xs vs bufSize ;; b <- append_all b batches ;; pb_flush b.

(** A sheet of one particle and its data on a big endian machine, 1.0 each. *)
Definition header1 : sheet_header := SH 0 0 0 0 1 1 0 1 1 0 1 0 0 (V3 0 0 0) (V3 0 0 0) (V3 0 0 0) (V3 0 0 0).
Definition ones : list Z := [63; 128; 0; 0; 63; 128; 0; 0; 63; 128; 0; 0].

(** The description of a grid. *)
Definition typed_out (q : Z) c r l := int64 q /\ cosmo_typed c /\ render_typed r /\ loc_typed l.
Definition header_of (flag q : Z) c r l : grid_header := GH flag 344 q 0 c r l zero_loc.

(** The data of a sheet fits its header: n particles on a cubic grid. *)
Definition sheet_data (h : sheet_header) (n : nat) (xs vs : list Z) : Prop :=
  sheet_typed h /\ length xs = (12 * n)%nat /\ length vs = (12 * n)%nat /\ sh_gridCount h = Z.of_nat n /\
  sh_gridWidth h * sh_gridWidth h * sh_gridWidth h = sh_gridCount h.
