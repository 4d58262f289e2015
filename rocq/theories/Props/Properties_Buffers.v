(** The buffers of the renderer, as the rest of the program asks them. *)
From Coq Require Import ZArith List Reals.
From Verif Require Import Base.Res Base.ResFacts Base.Num Model.Geom Model.GridDeriv Model.Density
  Model.Box Model.RenderMain Model.Buffers Spec.BufferKinds Proof.BuffersP.
Import ListNotations.
Open Scope Z_scope.

(** C193: whatever is done to a new buffer, it answers as its quantity says. *)
Theorem C193_answers : forall (D F : Type) (ND : Num D) (NF : Num F) (down : D -> F) (up : F -> D) q n g b l b',
  g_new q n g = Ok b -> apply_ops up b l = Ok b' -> answers down q b'.
Proof. exact @buffer_answers. Qed.
Print Assumptions C193_answers.

(** Every quantity and length has a new buffer. *)
Theorem C193_new : forall (D : Type) (ND : Num D) q n (g : option (grid_location D)),
  0 <= q <= 4 -> 0 <= n -> exists b, g_new q n g = Ok b /\ g_length b = n.
Proof. exact @new_exists. Qed.
Print Assumptions C193_new.

(** SetVectors fills a velocity buffer from the front, and refuses a scalar one. *)
Theorem C193_set_vectors : forall (D F : Type) (ND : Num D) (up : F -> D) q n g b l b' vecs,
  g_new q n g = Ok b -> apply_ops up b l = Ok b' ->
  (from_velocity q = false -> g_set_vectors up b' vecs = Ok (b', false)) /\
  (from_velocity q = true -> g_length b' < zlen vecs -> g_set_vectors up b' vecs = Panic) /\
  (from_velocity q = true -> zlen vecs <= g_length b' ->
     exists b2 old, g_set_vectors up b' vecs = Ok (b2, true) /\ g_vector b' = Some old /\
       g_vector b2 = Some (map (vmap up) vecs ++ skipn (length vecs) old) /\
       g_count b2 = g_count b' /\ g_length b2 = g_length b').
Proof. exact @set_vectors_thm. Qed.
Print Assumptions C193_set_vectors.

(** WriteBuffer writes the image of what the buffer holds, at the location last given. *)
Theorem C193_written : forall (D F : Type) (ND : Num D) (NF : Num F) (down : D -> F) (up : F -> D) q n g0 b l b' g c,
  g_new q n g0 = Ok b -> apply_ops up b l = Ok b' -> last_location g0 l = Some g -> holds b' c ->
  g_write down b' = (im <- final_image down q g c ;; Ok (q, im))%res.
Proof. exact @buffer_write. Qed.
Print Assumptions C193_written.

(** Without a location the three derivatives cannot be written. *)
Theorem C193_nowhere : forall (D F : Type) (ND : Num D) (NF : Num F) (down : D -> F) (up : F -> D) q n g0 b l b',
  g_new q n g0 = Ok b -> apply_ops up b l = Ok b' -> last_location g0 l = None ->
  (q = 1 \/ q = 3 \/ q = 4) -> g_write down b' = Panic.
Proof. exact @buffer_nowhere. Qed.
Print Assumptions C193_nowhere.

(** The two buffers that are not of a quantity: neither names one, and neither can be written. *)
Theorem C193_raw : forall (D F : Type) (ND : Num D) (NF : Num F) (down : D -> F) vals vecs,
  g_quantity (GScalar vals : gbuf D) = Panic /\ g_quantity (GVector vecs : gbuf D) = Panic /\
  g_write down (GScalar vals) = Panic /\ g_write down (GVector vecs) = Panic.
Proof. exact @raw_panics. Qed.
Print Assumptions C193_raw.

(** Slice shows the part asked for, in every array of the buffer. *)
Theorem C193_slice : forall (D F : Type) (ND : Num D) (up : F -> D) b0 l b low high,
  fresh b0 -> apply_ops up b0 l = Ok b -> 0 <= low <= high -> high <= g_length b ->
  exists b', g_slice b low high = Ok b' /\ g_length b' = high - low /\
    changed (part low high) (part low high) (part low high) b b'.
Proof. exact @slice_thm. Qed.
Print Assumptions C193_slice.

(** Clear makes every number zero and keeps the length. *)
Theorem C193_clear : forall (D F : Type) (ND : Num D) (up : F -> D) b0 l b,
  fresh b0 -> apply_ops up b0 l = Ok b ->
  exists b', g_clear b = Ok b' /\ g_length b' = g_length b /\
    changed (map (fun _ => nofZ 0)) (map (fun _ => V3 (nofZ 0) (nofZ 0) (nofZ 0))) (map (fun _ => 0)) b b'.
Proof. exact @clear_thm. Qed.
Print Assumptions C193_clear.

(** Densities wrapped in a buffer are a density buffer and are written as they are. *)
Theorem C193_wrapper : forall (D F : Type) (ND : Num D) (NF : Num F) (down : D -> F) rhos,
  let b := wrapper_density_buffer rhos in
  g_quantity b = Ok 0 /\ g_length b = zlen rhos /\ g_scalar b = Some rhos /\
  g_write down b = Ok (0, Plain (map down rhos)).
Proof. exact @wrapper_thm. Qed.
Print Assumptions C193_wrapper.

(** The finished arrays of the two buffers without a quantity. *)
Theorem C193_raw_final : forall (D F : Type) (ND : Num D) (NF : Num F) (down : D -> F) vals vecs,
  g_final_scalar down (GScalar (GS vals (zlen vals))) = Ok (Some (map down vals)) /\
  g_final_vector down (GScalar (GS vals (zlen vals))) = Ok None /\
  g_final_scalar down (GVector (GS vecs (zlen vecs))) = Ok None /\
  exists xs ys zs, g_final_vector down (GVector (GS vecs (zlen vecs))) = Ok (Some (V3 xs ys zs)) /\
    length xs = length vecs /\ length ys = length vecs /\ length zs = length vecs /\
    forall k v, nth_error vecs k = Some v ->
      nth_error xs k = Some (down (v0 v)) /\ nth_error ys k = Some (down (v1 v)) /\ nth_error zs k = Some (down (v2 v)).
Proof. exact @raw_final. Qed.
Print Assumptions C193_raw_final.

(** A curl buffer of eight cells cut to four, told where it is, and given two vectors. *)
Definition ops193 : list (buf_op R R) :=
  [OSlice 2 6; OClear; OLocation (Some (GL (new_grid (V3 0 0 0) (V3 2 2 1)) 2 10%R));
   OVectors [V3 1 2 3; V3 4 5 6]%R].
Example C193_example :
  exists b b', g_new 4 8 None = Ok b /\ apply_ops (fun x => x) b ops193 = Ok b' /\ g_length b' = 4 /\
    g_vector b' = Some [V3 1 2 3; V3 4 5 6; V3 0 0 0; V3 0 0 0]%R /\
    g_count b' = Some [0; 0; 0; 0] /\ last_location None ops193 <> None.
Proof.
  eexists _, _. split; [reflexivity|]. split; [reflexivity|].
  split; [reflexivity|]. split; [reflexivity|]. split; [reflexivity|discriminate].
Qed.

(** A density buffer of three cells, cut to two and written: no location is needed;
    a gradient buffer without one cannot be written. *)
Example C193_density_example :
  exists b b1, apply_ops (fun x : R => x) (wrapper_density_buffer [1; 2; 3]%R) [OSlice 1 3] = Ok b /\
    g_write (fun x : R => x) b = Ok (0, Plain [2; 3]%R) /\
    g_new 1 2 None = Ok b1 /\ g_write (fun x : R => x) b1 = Panic.
Proof. eexists _, _. repeat split. Qed.

(** Raw vectors, cut and cleared. *)
Example C193_raw_example :
  fresh (GVector (GS [V3 1 2 3; V3 4 5 6]%R 2)) /\
  exists b b', apply_ops (fun x : R => x) (GVector (GS [V3 1 2 3; V3 4 5 6]%R 2)) [OSlice 1 2] = Ok b /\
    g_vector b = Some [V3 4 5 6]%R /\ g_clear b = Ok b' /\ g_vector b' = Some [V3 0 0 0]%R.
Proof.
  split; [right; right; right; exists [V3 1 2 3; V3 4 5 6]%R; reflexivity|].
  eexists _, _. repeat split.
Qed.
