(** What a Gadget-2 snapshot holds and how its file is laid out. *)
From Coq Require Import ZArith List Bool.
From Verif Require Import Base.Res Base.Num Base.Bytes Model.Geom Model.Gadget Spec.Files.
Import ListNotations.
Open Scope Z_scope.

(** The fields of the header, then the particles with their ids, and whether
    positions, velocities and ids take eight bytes rather than four.  Floats are
    bit patterns. *)
Record snapshot := Sn {
  sn_npart : list Z; sn_mass : list Z; sn_time : Z; sn_redshift : Z; sn_sfr : Z; sn_feedback : Z;
  sn_total : list Z; sn_cooling : Z; sn_files : Z; sn_box : Z; sn_omegaM : Z; sn_omegaL : Z; sn_h : Z;
  sn_age : Z; sn_hash : Z; sn_pad : list Z;
  sn_x : list (vec3 Z); sn_v : list (vec3 Z); sn_id : list Z; sn_xwide : bool; sn_vwide : bool; sn_idwide : bool }.

Definition header_fields (s : snapshot) : list (nat * Z) :=
  map (pair 4%nat) (sn_npart s) ++ map (pair 8%nat) (sn_mass s ++ [sn_time s; sn_redshift s]) ++
  map (pair 4%nat) ([sn_sfr s; sn_feedback s] ++ sn_total s ++ [sn_cooling s; sn_files s]) ++
  map (pair 8%nat) [sn_box s; sn_omegaM s; sn_omegaL s; sn_h s] ++ map (pair 4%nat) [sn_age s; sn_hash s].

(** Every record stands between two copies of its length. *)
Definition fortran (o : order) (body : list Z) : list Z := put o 4 (zlen body) ++ body ++ put o 4 (zlen body).
Definition coords {A} (l : list (vec3 A)) : list A := flat_map (fun v => [v0 v; v1 v; v2 v]) l.
Definition numbers (o : order) (wide : bool) (l : list Z) : list Z := flat_map (put o (if wide then 8 else 4)%nat) l.

Definition header_body (o : order) (s : snapshot) : list Z := encode o (header_fields s) ++ sn_pad s.
(** The first three records, the file up to the mark in front of the ids, and the
    whole file. *)
Definition records (o : order) (s : snapshot) : list Z :=
  fortran o (header_body o s) ++ fortran o (numbers o (sn_xwide s) (coords (sn_x s))) ++
  fortran o (numbers o (sn_vwide s) (coords (sn_v s))).
Definition before_ids (o : order) (s : snapshot) : list Z := records o s ++ put o 4 (zlen (numbers o (sn_idwide s) (sn_id s))).
Definition snapshot_bytes (o : order) (s : snapshot) : list Z :=
  before_ids o s ++ numbers o (sn_idwide s) (sn_id s) ++ put o 4 (zlen (numbers o (sn_idwide s) (sn_id s))).

(** A machine reads doubles only in its own byte order. *)
Definition readable (sys : order) (s : snapshot) : Prop := sn_xwide s = true \/ sn_vwide s = true -> sys = Little.

Definition id_bits (s : snapshot) : Z := if sn_idwide s then 64 else 32.
Definition wide_bits (w : bool) : Z := if w then 64 else 32.

(** Every field holds a value of its type. *)
Definition header_typed (s : snapshot) : Prop :=
  List.length (sn_npart s) = 6%nat /\ List.length (sn_mass s) = 6%nat /\ List.length (sn_total s) = 6%nat /\ List.length (sn_pad s) = 88%nat /\
  Forall (bits 32) (sn_npart s) /\ Forall (bits 64) (sn_mass s) /\ Forall (bits 32) (sn_total s) /\
  Forall (bits 64) [sn_time s; sn_redshift s; sn_box s; sn_omegaM s; sn_omegaL s; sn_h s].
Definition particles_typed (s : snapshot) : Prop :=
  Forall (bits (wide_bits (sn_xwide s))) (coords (sn_x s)) /\ Forall (bits (wide_bits (sn_vwide s))) (coords (sn_v s)) /\
  Forall (fun i => - 2 ^ (id_bits s - 1) <= i < 2 ^ (id_bits s - 1)) (sn_id s).

(** The number of dark matter particles in this file, and in all files. *)
Definition dark (s : snapshot) : Z := nth 1 (sn_npart s) 0.
Definition all_dark (s : snapshot) : Z := nth 1 (sn_total s) 0.
(** There is nothing but dark matter.  There are fewer than
    2^30 particles if doubles are used. *)
Definition dark_only (s : snapshot) : Prop :=
  zlen (sn_x s) = dark s /\ zlen (sn_v s) = dark s /\ zlen (sn_id s) = dark s /\
  (sn_xwide s = true \/ sn_vwide s = true -> dark s < 2 ^ 30).
Definition snapshot_ok (s : snapshot) : Prop := header_typed s /\ particles_typed s /\ dark_only s.

Definition header_of_snapshot (s : snapshot) : catalog_header :=
  CHd (sn_redshift s) (sn_omegaM s) (sn_omegaL s) (sn_h s) (nth 1 (sn_mass s) 0) (dark s) (all_dark s) (sn_box s).

Section Values.
Context {D F : Type} {ND : Num D} {NF : Num F} (up : F -> D) (down : D -> F).
Variables (f32_of : Z -> F) (f64_of : Z -> D) (narrow : Z -> Z) (fsqrt : D -> D).

(** One period added or taken away. *)
Definition into_box (L x : D) : D := (if x <? #0 then x + L else if L <=? x then x - L else x)%num.
Definition narrowed (w : bool) (x : Z) : Z := if w then narrow x else x.
Definition true_position (s : snapshot) (x : vec3 Z) : vec3 F :=
  vmap (fun c => down (into_box (f64_of (sn_box s)) (up (f32_of (narrowed (sn_xwide s) c))))) x.
(** Gadget stores velocities divided by the root of the scale factor. *)
Definition true_velocity (s : snapshot) (v : vec3 Z) : vec3 F :=
  vmap (fun c => f32_of (narrowed (sn_vwide s) c) * down (fsqrt (f64_of (sn_time s))))%num v.

(** The particles of a file in the units of the configuration. *)
Definition scaled (u : D) (v : vec3 F) : vec3 F := vmap (fun c => c * down u)%num v.
Definition particles_of (con : convert_config D) (s : snapshot) : list (particle (vec3 F)) :=
  List.combine (List.combine (map (fun x => scaled (cv_xUnits con) (true_position s x)) (sn_x s))
                   (map (fun v => scaled (cv_vUnits con) (true_velocity s v)) (sn_v s))) (sn_id s).
End Values.

(** Pairs of words of four bytes as words of eight, and numbers as vectors. *)
Fixpoint glue (l : list Z) : list Z := match l with a :: b :: l => (a + 2 ^ 32 * b) :: glue l | _ => [] end.
Fixpoint vectors (l : list Z) : list (vec3 Z) := match l with a :: b :: c :: l => V3 a b c :: vectors l | _ => [] end.
(** As many gas particles as dark matter particles, single precision. *)
Definition half_gas (s : snapshot) : Prop :=
  header_typed s /\ particles_typed s /\ sn_xwide s = false /\ sn_vwide s = false /\
  nth 0 (sn_npart s) 0 = dark s /\ 0 < dark s < 2 ^ 30 /\
  zlen (sn_x s) = 2 * dark s /\ zlen (sn_v s) = 2 * dark s /\ zlen (sn_id s) = 2 * dark s.
Definition misread (s : snapshot) : snapshot :=
  Sn (sn_npart s) (sn_mass s) (sn_time s) (sn_redshift s) (sn_sfr s) (sn_feedback s) (sn_total s) (sn_cooling s) (sn_files s)
     (sn_box s) (sn_omegaM s) (sn_omegaL s) (sn_h s) (sn_age s) (sn_hash s) (sn_pad s)
     (vectors (glue (coords (sn_x s)))) (vectors (glue (coords (sn_v s)))) (firstn (Z.to_nat (dark s)) (sn_id s)) true true (sn_idwide s).

(** A set of files that together hold a simulation, all with ids of the given size. *)
Definition set_ok (idSize : Z) (ss : list snapshot) : Prop :=
  Forall (fun s => snapshot_ok s /\ id_bits s = idSize) ss.
Definition total_of (ss : list snapshot) : Z := match ss with s :: _ => all_dark s | [] => 0 end.
Definition ids_of (ss : list snapshot) : list Z := flat_map sn_id ss.
(** Every id from 1 to n once. *)
Definition complete (n : Z) (ids : list Z) : Prop := NoDup ids /\ forall i, In i ids <-> 1 <= i <= n.

(** The file with other ids. *)
Definition with_ids (ids : list Z) (s : snapshot) : snapshot :=
  Sn (sn_npart s) (sn_mass s) (sn_time s) (sn_redshift s) (sn_sfr s) (sn_feedback s) (sn_total s) (sn_cooling s) (sn_files s)
     (sn_box s) (sn_omegaM s) (sn_omegaL s) (sn_h s) (sn_age s) (sn_hash s) (sn_pad s) (sn_x s) (sn_v s) ids (sn_xwide s) (sn_vwide s) (sn_idwide s).
