(** The cycle of the Xorshift generator and the spread of the Sobol points. *)
From Coq Require Import ZArith NArith List Lia Bool Reals.
From Flocq Require Import Core BinarySingleNaN.
From Verif Require Import Base.Res Base.ResFacts Base.Num Base.IEEE Model.Rand Spec.Streams Spec.Nets Spec.Polys
  Proof.XorPeriod Proof.SobolQ Proof.SobolNet Proof.SobolTab.
Import ListNotations.
Open Scope Z_scope.

(** A generator state: four uint32 words, not all zero. *)
Definition live_state (s : xorst) : Prop :=
  (0 <= xx s < 2 ^ 32 /\ 0 <= xy s < 2 ^ 32 /\ 0 <= xz s < 2 ^ 32 /\ 0 <= xw s < 2 ^ 32) /\
  ~ (xx s = 0 /\ xy s = 0 /\ xz s = 0 /\ xw s = 0).

(** C191: the state comes back after 2^128 - 1 steps, and no two states on the way agree. *)
Theorem C191_period : forall s, live_state s ->
  N.iter (2 ^ 128 - 1) xor_step s = s /\
  forall i j, (i < j < i + (2 ^ 128 - 1))%N -> N.iter i xor_step s <> N.iter j xor_step s.
Proof. intros s [A B]. exact (conj (it_period s A) (fun i j H => it_inj i j s A B H)). Qed.
Print Assumptions C191_period.

(** Every state is on that one cycle. *)
Theorem C191_one_cycle : forall s t, live_state s -> live_state t ->
  exists i, (i < 2 ^ 128 - 1)%N /\ N.iter i xor_step s = t.
Proof. intros s t [A B] [C D]. exact (one_cycle s t A B C D). Qed.
Print Assumptions C191_one_cycle.

(** In draws, which pass over the states with w = 0: exactly 2^128 - 2^96. *)
Theorem C191_draws : forall s n, live_state s -> xw s <> 0 -> Z.of_nat n = 2 ^ 128 - 2 ^ 96 ->
  (exists vs, draws xor_next n s = Ok (vs, s)) /\
  (forall m vs s', (0 < m < n)%nat -> draws xor_next m s = Ok (vs, s') -> s' <> s).
Proof. intros s n [A _] W H. exact (draws_period s n A W H). Qed.
Print Assumptions C191_draws.

(** The states of seeds 7 and 8, two steps of the first, and a length that fits. *)
Example C191_example : live_state (xor_init 7) /\ live_state (xor_init 8) /\ xw (xor_init 7) <> 0 /\
  N.iter 2 xor_step (xor_init 7) = XorSt 521288629 7 3656013431 504890834 /\
  exists n, Z.of_nat n = 2 ^ 128 - 2 ^ 96.
Proof.
  unfold live_state; cbn [xx xy xz xw xor_init]. change (7 mod 2 ^ 32) with 7. change (8 mod 2 ^ 32) with 8.
  split; [lia|]. split; [lia|]. split; [lia|]. split; [vm_compute; reflexivity|].
  exists (Z.to_nat (2 ^ 128 - 2 ^ 96)). apply Z2Nat.id. lia.
Qed.

(** C192: in each coordinate a block of 2^p points, starting at a multiple of
    2^p when the first point delivered is counted as number 2, falls one into
    each interval of length 1 / 2^p. *)
Theorem C192_coordinate_partial : forall d n, 1 <= d <= 6 -> Z.of_nat n <= 2 ^ 30 - 2 ->
  exists s0 pts s, new_sobol = Ok s0 /\ draws (fun s => sobol_next s d) n s0 = Ok (pts, s) /\
    length pts = n /\
    forall k p c, Z.of_nat k < d -> 0 <= p -> 2 <= c * 2 ^ p -> (c + 1) * 2 ^ p <= Z.of_nat n + 2 ->
    forall y, 0 <= y < 2 ^ p ->
      exists i, c * 2 ^ p <= Z.of_nat i + 2 < (c + 1) * 2 ^ p /\
        forall j, c * 2 ^ p <= Z.of_nat j + 2 < (c + 1) * 2 ^ p ->
          cell p y (B2R (nth k (nth j pts []) (nofZ 0))) <-> j = i.
Proof. exact sobol_coordinate. Qed.
Print Assumptions C192_coordinate_partial.

(** The first two coordinates: two points of such a block in each box whose
    area is 2 / 2^p. *)
Theorem C192_plane_partial : forall d n, 2 <= d <= 6 -> Z.of_nat n <= 2 ^ 30 - 2 ->
  exists s0 pts s, new_sobol = Ok s0 /\ draws (fun s => sobol_next s d) n s0 = Ok (pts, s) /\
    length pts = n /\
    forall p a b c, 0 <= a -> 0 <= b -> p = a + b + 1 -> 2 <= c * 2 ^ p ->
      (c + 1) * 2 ^ p <= Z.of_nat n + 2 ->
    forall ya yb, 0 <= ya < 2 ^ a -> 0 <= yb < 2 ^ b ->
      exists i1 i2, i1 <> i2 /\ c * 2 ^ p <= Z.of_nat i1 + 2 < (c + 1) * 2 ^ p /\
        c * 2 ^ p <= Z.of_nat i2 + 2 < (c + 1) * 2 ^ p /\
        forall i, c * 2 ^ p <= Z.of_nat i + 2 < (c + 1) * 2 ^ p ->
          (cell a ya (B2R (nth 0 (nth i pts []) (nofZ 0))) /\
           cell b yb (B2R (nth 1 (nth i pts []) (nofZ 0)))) <-> i = i1 \/ i = i2.
Proof. exact sobol_plane. Qed.
Print Assumptions C192_plane_partial.

(** False of coordinates three and four: however many points are drawn, none
    falls in the square [0, 1/4) x [1/4, 1/2). *)
Theorem C192_squares_refuted : forall d n, 4 <= d <= 6 -> Z.of_nat n <= 2 ^ 30 - 2 ->
  exists s0 pts s, new_sobol = Ok s0 /\ draws (fun s => sobol_next s d) n s0 = Ok (pts, s) /\
    length pts = n /\
    Forall (fun p : list f64 =>
      ~ (cell 2 0 (B2R (nth 2 p (nofZ 0))) /\ cell 2 1 (B2R (nth 3 p (nofZ 0))))) pts.
Proof. exact sobol_hole. Qed.
Print Assumptions C192_squares_refuted.

(** The tables are what the method asks for: different primitive polynomials, and
    for each as many odd initial numbers as its degree, number j below 2^(j+1). *)
Theorem C192_tables : forall k, (k < 6)%nat ->
  let d := nth k initMDeg 0 in let a := nth k initIp 0 in
  1 <= d /\ 0 <= a < 2 ^ (d - 1) /\ primitive d (poly d a) /\
  (forall j, (j < Z.to_nat d)%nat ->
     Z.odd (nth (6 * j + k) initIv 0) = true /\ 0 < nth (6 * j + k) initIv 0 < 2 ^ (Z.of_nat j + 1)) /\
  (forall k', (k' < 6)%nat -> k' <> k -> poly (nth k' initMDeg 0) (nth k' initIp 0) <> poly d a).
Proof. exact tables_ok. Qed.
Print Assumptions C192_tables.

(** Fourteen points in four dimensions.  In eighths, the second coordinate of
    points 8 to 15; in quarters, the third and fourth coordinates of all. *)
Definition net_points : list (list f64) :=
  match new_sobol with
  | Ok s => match draws (fun s => sobol_next s 4) 14 s with Ok (pts, _) => pts | _ => [] end
  | _ => [] end.
Definition slot (p : Z) (x : f64) : Z := nfloor (nmul (nofZ (2 ^ p)) x).
Example C192_example :
  (1 <= 4 <= 6 /\ Z.of_nat 14 <= 2 ^ 30 - 2 /\ 2 <= 1 * 2 ^ 3 /\ (1 + 1) * 2 ^ 3 <= Z.of_nat 14 + 2) /\
  map (fun q => slot 3 (nth 1 q (nofZ 0))) (skipn 6 net_points) = [6; 2; 0; 4; 3; 7; 5; 1] /\
  map (fun q => (slot 2 (nth 2 q (nofZ 0)), slot 2 (nth 3 q (nofZ 0)))) net_points =
    [(3, 3); (1, 1); (2, 0); (0, 2); (3, 1); (1, 3); (0, 0);
     (2, 2); (1, 1); (3, 3); (0, 2); (2, 0); (1, 3); (3, 1)].
Proof. split; [lia|]. vm_compute. split; reflexivity. Qed.
