(** Properties of the generators of math/rand behind their common interface, and
    of the code that samples with them. *)
From Coq Require Import ZArith List Reals Lia Lra.
From Flocq Require Import Core BinarySingleNaN.
From Verif Require Import Base.Res Base.ResFacts Base.Num Base.IEEE Base.IEEER Base.Convert Model.Rand Model.RandGen Model.Geom
  Spec.Streams Spec.Geometry Spec.GeomDefs Spec.Generators Spec.Work Proof.TausP Proof.RandG Proof.RandU.
Import ListNotations.
Open Scope Z_scope.

(** A stream as the Go library documents it. *)
Definition ex_go : Z -> Z -> f64 := fun _ k => if Z.even k then top64 else nofZ 0.
Example ex_go_ok : go_stream ex_go.
Proof.
  intros s k. unfold ex_go. destruct (Z.even k); [apply top64_ok|]. destruct (den_int 0 ltac:(lia)) as [A B]. split; [exact A|rewrite B; lra].
Qed.

(** C186 *)
Theorem C186_new : forall go gt seed, go_stream go ->
  (0 <= gt <= 2 -> exists b, gen_new go gt seed = Ok b /\ made go gt b) /\
  (~ 0 <= gt <= 2 -> gen_new go gt seed = Panic).
Proof. exact new_made. Qed.
Print Assumptions C186_new.

Theorem C186_draws : forall go gt b n, go_stream go -> made go gt b ->
  exists vs b', draws gen_next n b = Ok (vs, b') /\ length vs = n /\ Forall closed_float vs /\
    (gt <> 2 -> Forall unit_float vs) /\ made go gt b'.
Proof. exact made_draws_n. Qed.
Print Assumptions C186_draws.

Theorem C186_uniform_at : forall go gt b low high target, go_stream go -> made go gt b ->
  exists fuel0, forall fuel, (fuel0 <= fuel)%nat ->
    gen_uniform_at fuel b low high target = draws (fun b => gen_uniform b low high) (length target) b.
Proof. exact made_uniform_at. Qed.
Print Assumptions C186_uniform_at.

Example C186_example : go_stream ex_go /\ made ex_go 1 (BGo (ex_go 7) 0) /\
  match gen_uniform_at 0 (BGo (ex_go 7) 0) (nofZ 2) (nofZ 6) (repeat (nofZ 9) 3) with
  | Ok (vs, _) => map (fun v => nfloor v) vs | _ => [] end = [6; 2; 6] /\
  gen_new ex_go 3 7 = Panic.
Proof.
  split; [exact ex_go_ok|]. split; [exists 7, (BGo (ex_go 7) 0), O, []; split; reflexivity|]. split; [vm_compute; reflexivity|reflexivity].
Qed.

(** C187 *)
Theorem C187_seed : forall go seed, go_stream go ->
  exists table, taus_seed go seed = Ok (taus_init table) /\ zlen table = 9689 /\ Forall unit_float table.
Proof. exact seed_ok. Qed.
Print Assumptions C187_seed.

Theorem C187_unit_buffers_partial : forall go seed nUnit pts, go_stream go -> 0 <= nUnit -> 0 <= pts ->
  exists raw, unit_bufs64 go seed nUnit pts = Ok (map distribute_unit raw) /\ zlen raw = nUnit /\
    Forall (fun ps => zlen ps = pts /\ Forall cube32 ps) raw.
Proof. exact unit_bufs_ok. Qed.
Print Assumptions C187_unit_buffers_partial.

(** The cube is closed: a draw below one can become one in single precision. *)
Theorem C187_half_open_refuted : exists v : f64, unit_float v /\ neqb (to_f32 v) (nofZ 1) = true.
Proof. exact (ex_intro _ top64 f32_one). Qed.
Print Assumptions C187_half_open_refuted.

Example C187_example : go_stream ex_go /\ 0 <= 2 /\ 0 <= 3.
Proof. split; [exact ex_go_ok|lia]. Qed.

(** C188 *)
Theorem C188_uniform_partial : forall go gt b l h, go_stream go -> gt <> 2 -> made go gt b -> is_finite l = true -> is_finite h = true ->
  (B2R l <= B2R h)%R -> (Rabs (B2R l) <= bpow radix2 1022)%R -> (Rabs (B2R h) <= bpow radix2 1022)%R ->
  exists r b', gen_uniform b l h = Ok (r, b') /\ is_finite r = true /\ (B2R l <= B2R r <= B2R h)%R.
Proof. exact made_uniform. Qed.
Print Assumptions C188_uniform_partial.

Theorem C188_uniform_int_partial : forall go gt b n, go_stream go -> gt <> 2 -> made go gt b -> 1 <= n <= 2 ^ 53 ->
  exists r b', gen_uniform_int b 0 n = Ok (r, b') /\ 0 <= r < n.
Proof. exact made_uniform_int. Qed.
Print Assumptions C188_uniform_int_partial.

Theorem C188_uniform_int_xorshift_partial : forall go b low high, go_stream go -> made go 0 b -> - 2 ^ 19 <= low < high -> high <= 2 ^ 19 ->
  exists r b', gen_uniform_int b low high = Ok (r, b') /\ low <= r < high.
Proof. exact made_uniform_xor. Qed.
Print Assumptions C188_uniform_int_xorshift_partial.

(** The upper bound is not excluded. *)
Theorem C188_uniform_int_refuted : exists go b b', go_stream go /\ gen_new go 1 0 = Ok b /\ gen_uniform_int b 1 2 = Ok (2, b').
Proof. exact int_high. Qed.
Print Assumptions C188_uniform_int_refuted.

Theorem C188_uniform_refuted : exists go b l h r b', go_stream go /\ gen_new go 1 0 = Ok b /\ nltb l h = true /\
  gen_uniform b l h = Ok (r, b') /\ neqb r h = true.
Proof. exact uniform_high. Qed.
Print Assumptions C188_uniform_refuted.

(** With Tausworthe, which can return one, the result can lie above [h]. *)
Theorem C188_uniform_tausworthe_refuted : exists (table : list f64) l h r b', zlen table = 9689 /\ Forall unit_float table /\
  nltb l h = true /\ gen_uniform (BTaus (taus_init table)) l h = Ok (r, b') /\ nltb h r = true.
Proof. exact uniform_above. Qed.
Print Assumptions C188_uniform_tausworthe_refuted.

Example C188_example : made ex_go 0 (BXor (xor_init 1)) /\ - 2 ^ 19 <= -7 < 12 /\ 12 <= 2 ^ 19 /\
  match gen_uniform_int (BXor (xor_init 1)) (-7) 12 with Ok (r, _) => r | _ => 99 end = -5.
Proof. split; [exists 1, (BXor (xor_init 1)), O, []; split; reflexivity|]. split; [lia|]. split; [lia|]. vm_compute. reflexivity. Qed.

(** C189 *)
Theorem C189_random_sample : forall go gt b (t : tetra R) buf n, go_stream go -> made go gt b -> 0 <= n -> zlen buf = n * 3 ->
  exists vs b', draws gen_next (length buf) b = Ok (vs, b') /\
  exists fuel0, forall fuel, (fuel0 <= fuel)%nat ->
    let pts := map (fun i => V3 (B2R (zn (nofZ 0) vs i)) (B2R (zn (nofZ 0) vs (n + i))) (B2R (zn (nofZ 0) vs (2 * n + i)))) (zseq n) in
    random_sample (B2R (prec:=53) (emax:=1024)) fuel t b buf n = Ok (fst (distribute t pts), vs, snd (distribute t pts), b') /\
    zlen (fst (distribute t pts)) = n /\
    Forall (fun x => in_tetra (tup x) (tup (c0 t)) (tup (c1 t)) (tup (c2 t)) (tup (c3 t))) (fst (distribute t pts)).
Proof. exact sample_ok. Qed.
Print Assumptions C189_random_sample.

Theorem C189_random_sample_lengths : forall (F : Type) (NF : Num F) (of64 : f64 -> F) fuel t b buf n, zlen buf <> n * 3 ->
  random_sample of64 fuel t b buf n = Panic.
Proof. exact @sample_panic. Qed.
Print Assumptions C189_random_sample_lengths.

Theorem C189_double : forall (F D : Type) (NF : Num F) (up : F -> D) (t : tetra F) pts out, zlen pts <= zlen out ->
  distribute_tetra64 up t pts out =
  Ok (map (fun v => V3 (up (v0 v)) (up (v1 v)) (up (v2 v))) (fst (distribute_tetra t pts)) ++ skipn (length pts) out,
      snd (distribute_tetra t pts)).
Proof. exact @d64_ok. Qed.
Print Assumptions C189_double.

Theorem C189_double_short : forall (F D : Type) (NF : Num F) (up : F -> D) (t : tetra F) pts out, zlen out < zlen pts ->
  distribute_tetra64 up t pts out = Panic.
Proof. exact @d64_panic. Qed.
Print Assumptions C189_double_short.

Example C189_example : made ex_go 1 (BGo (ex_go 7) 0) /\ zlen (repeat (nofZ 0 : f64) 6) = 2 * 3.
Proof. split; [exists 7, (BGo (ex_go 7) 0), O, []; split; reflexivity|reflexivity]. Qed.
