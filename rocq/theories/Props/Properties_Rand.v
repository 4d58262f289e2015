(** Properties of math/rand. *)
From Coq Require Import ZArith List Reals Lia Lra.
From Flocq Require Import Core BinarySingleNaN.
From Verif Require Import Base.Res Base.ResFacts Base.Num Base.IEEE Model.Rand Spec.Streams
  Proof.XorshiftP Proof.TausP Proof.SobolP.
Import ListNotations.
Open Scope Z_scope.

(** A generator state: four uint32 words, not all zero. *)
Definition xor_state (s : xorst) : Prop :=
  (0 <= xx s < 2 ^ 32 /\ 0 <= xy s < 2 ^ 32 /\ 0 <= xz s < 2 ^ 32 /\ 0 <= xw s < 2 ^ 32) /\
  ~ (xx s = 0 /\ xy s = 0 /\ xz s = 0 /\ xw s = 0).

(** C08 *)
Theorem C08_xorshift_unit : forall seed n,
  exists vs s, draws xor_next n (xor_init seed) = Ok (vs, s) /\ length vs = n /\
    Forall (fun v => is_finite v = true /\ (0 <= B2R v < 1)%R) vs.
Proof. exact xor_stream_ok. Qed.
Print Assumptions C08_xorshift_unit.

(** A state whose first three draws are rejected (w = 0), so the retry loop runs. *)
Definition ex_xor : xorst := XorSt 0 0 0 1.
Definition ex_retry : xorst := XorSt 1 0 0 0.
Example C08_example :
  match xor_next (XorSt 0 5 0 0) with Ok (v, _) => B2SF v | _ => B2SF (B754_nan : f64) end =
  match xor_next (XorSt 5 0 0 0) with Ok (v, _) => B2SF v | _ => B2SF (B754_nan : f64) end.
Proof. vm_compute. reflexivity. Qed.

(** C09 *)
Theorem C09_xorshift_batch : forall s target, xor_state s ->
  exists vs s', draws xor_next (length target) s = Ok (vs, s') /\
  exists fuel0, forall fuel, (fuel0 <= fuel)%nat -> xor_next_sequence fuel s target = Ok (vs, s').
Proof. intros s target [A B]. exact (xor_batch_full s target A B). Qed.
Print Assumptions C09_xorshift_batch.

Example C09_example : xor_state (XorSt 0 5 0 0) /\
  match xor_next_sequence 20 (XorSt 0 5 0 0) (repeat B754_nan 3) with
  | Ok (vs, s) => (map B2SF vs, s) | _ => ([], ex_xor) end =
  match draws xor_next 3 (XorSt 0 5 0 0) with
  | Ok (vs, s) => (map B2SF vs, s) | _ => ([], ex_retry) end.
Proof. split; [unfold xor_state; simpl; lia | vm_compute; reflexivity]. Qed.

(** C10 *)
Theorem C10_uniform_int : forall s n, xor_state s -> 1 <= n <= 2 ^ 31 ->
  exists r s', uniform_int s 0 n = Ok (r, s') /\ 0 <= r < n /\ xor_state s'.
Proof. intros s n [A B] H. exact (uniform_int_ok s n A B H). Qed.
Print Assumptions C10_uniform_int.

(** w = 1 after the step: the largest value the generator returns. *)
Example C10_example : xor_state (XorSt 0 0 0 1) /\
  match uniform_int (XorSt 0 0 0 1) 0 (2 ^ 31) with Ok (r, _) => r | _ => -1 end = 2 ^ 31 - 1.
Proof. split; [unfold xor_state; simpl; lia | vm_compute; reflexivity]. Qed.

(** C11 *)
Theorem C11_tausworthe_stream : forall (table : list R) n,
  zlen table = 9689 -> Forall (fun x => 0 <= x < 1)%R table ->
  exists outs g, draws taus_next n (taus_init table) = Ok (outs, g) /\ length outs = n /\
    Forall (fun x => 0 <= x < 1)%R outs /\
    forall m, 0 <= m < Z.of_nat n ->
      diff_mod1 (past 0%R table outs m) (past 0%R table outs (m - 2444)) (past 0%R table outs (m - 4187)).
Proof. exact taus_R. Qed.
Print Assumptions C11_tausworthe_stream.

Theorem C11_tausworthe_batch : forall (F : Type) (NF : Num F) (g : taus F) target,
  taus_next_sequence g target = draws taus_next (length target) g.
Proof. exact @taus_batch. Qed.
Print Assumptions C11_tausworthe_batch.

Example C11_example : exists table : list R,
  zlen table = 9689 /\ Forall (fun x => 0 <= x < 1)%R table.
Proof.
  exists (repeat (1 / 2)%R (Z.to_nat 9689)). split.
  - rewrite zlen_repeat. lia.
  - apply Forall_forall. intros x H. apply repeat_spec in H. subst x. lra.
Qed.

(** C12: false of the code. *)
Theorem C12_tausworthe_below_one_refuted : exists (table : list f64) v g,
  zlen table = 9689 /\ Forall (fun v => is_finite v = true /\ (0 <= B2R v < 1)%R) table /\
  taus_next (taus_init table) = Ok (v, g) /\ is_finite v = true /\ B2R v = 1%R.
Proof. exact taus_one. Qed.
Print Assumptions C12_tausworthe_below_one_refuted.

(** What holds: outputs never leave the closed interval [0, 1], even after the
    value 1 has been stored in the table. *)
Theorem C12_tausworthe_closed_partial : forall (table : list f64) n,
  zlen table = 9689 -> Forall (fun v => is_finite v = true /\ (0 <= B2R v <= 1)%R) table ->
  exists outs g, draws taus_next n (taus_init table) = Ok (outs, g) /\ length outs = n /\
    Forall (fun v => is_finite v = true /\ (0 <= B2R v <= 1)%R) outs.
Proof. exact taus_f64. Qed.
Print Assumptions C12_tausworthe_closed_partial.

Example C12_example : exists table : list f64,
  zlen table = 9689 /\ Forall (fun v => is_finite v = true /\ (0 <= B2R v <= 1)%R) table.
Proof.
  exists bad_table. split; [exact bad_table_len|].
  eapply Forall_impl; [|exact bad_table_ok]. intros a [A B]. split; [exact A|lra].
Qed.

(** C13 *)
Theorem C13_sobol_distinct : forall d n, 1 <= d <= 6 -> Z.of_nat n <= 2 ^ 30 - 2 ->
  exists s0 pts s, new_sobol = Ok s0 /\ draws (fun s => sobol_next s d) n s0 = Ok (pts, s) /\
    length pts = n /\
    Forall (fun p => zlen p = d /\ Forall (fun v => is_finite v = true /\ (0 <= B2R v < 1)%R) p) pts /\
    forall i j k, (i < j < n)%nat -> Z.of_nat k < d ->
      B2R (nth k (nth i pts []) (nofZ 0)) <> B2R (nth k (nth j pts []) (nofZ 0)).
Proof. exact sobol_distinct. Qed.
Print Assumptions C13_sobol_distinct.

(** The first three points in two dimensions. *)
Example C13_example :
  match new_sobol with
  | Ok s => match draws (fun s => sobol_next s 2) 3 s with
            | Ok (pts, _) => map (map B2SF) pts | _ => [] end
  | _ => [] end =
  map (map B2SF) [[f64lit 3 (-2); f64lit 1 (-2)]; [f64lit 1 (-2); f64lit 3 (-2)]; [f64lit 7 (-3); f64lit 1 (-3)]].
Proof. vm_compute. reflexivity. Qed.

(** C14: false of the code.  Call number 2^30 - 1 is an index panic. *)
Theorem C14_sobol_capacity_refuted : forall d, 1 <= d <= 6 ->
  exists s0 pts s, new_sobol = Ok s0 /\
    draws (fun s => sobol_next s d) (Z.to_nat (2 ^ 30 - 2)) s0 = Ok (pts, s) /\
    sobol_next s d = Panic.
Proof. exact sobol_capacity. Qed.
Print Assumptions C14_sobol_capacity_refuted.

(** C15: false of the code. *)
Theorem C15_sobol_reinit_refuted : exists s0 p1 s1 s2 q s3,
  new_sobol = Ok s0 /\ sobol_next s0 1 = Ok (p1, s1) /\ sobol_init s1 = Ok s2 /\
  sobol_next s2 1 = Ok (q, s3) /\ map B2SF q <> map B2SF p1.
Proof. exact sobol_reinit_bad. Qed.
Print Assumptions C15_sobol_reinit_refuted.

(** After c * 2^p earlier calls the first 2^p - 2 points are those of a fresh sequence. *)
Theorem C15_sobol_reinit_partial : forall d p c m,
  1 <= d <= 6 -> 0 <= p -> 0 <= c -> Z.of_nat m + 1 < 2 ^ p ->
  c * 2 ^ p + Z.of_nat m <= 2 ^ 30 - 2 ->
  exists s0 pts s pre s1 s2 s3, new_sobol = Ok s0 /\
    draws (fun s => sobol_next s d) m s0 = Ok (pts, s) /\
    draws (fun s => sobol_next s d) (Z.to_nat (c * 2 ^ p)) s0 = Ok (pre, s1) /\
    sobol_init s1 = Ok s2 /\
    draws (fun s => sobol_next s d) m s2 = Ok (pts, s3).
Proof. exact sobol_reinit_partial. Qed.
Print Assumptions C15_sobol_reinit_partial.

Theorem C15_sobol_reinit_distinct_partial : forall d n m,
  1 <= d <= 6 -> Z.of_nat n + Z.of_nat m <= 2 ^ 30 - 2 ->
  exists s0 pre s1 s2 pts s3, new_sobol = Ok s0 /\
    draws (fun s => sobol_next s d) n s0 = Ok (pre, s1) /\ sobol_init s1 = Ok s2 /\
    draws (fun s => sobol_next s d) m s2 = Ok (pts, s3) /\ length pts = m /\
    Forall (fun p => zlen p = d /\ Forall (fun v => is_finite v = true /\ (0 <= B2R v < 1)%R) p) pts /\
    forall i j k, (i < j < m)%nat -> Z.of_nat k < d ->
      B2R (nth k (nth i pts []) (nofZ 0)) <> B2R (nth k (nth j pts []) (nofZ 0)).
Proof. exact sobol_reinit_distinct. Qed.
Print Assumptions C15_sobol_reinit_distinct_partial.

Example C15_example : 1 <= 3 <= 6 /\ 0 <= 4 /\ 0 <= 5 /\ Z.of_nat 14 + 1 < 2 ^ 4 /\
  5 * 2 ^ 4 + Z.of_nat 14 <= 2 ^ 30 - 2.
Proof. lia. Qed.
