(** Properties of math/sort. *)
From Coq Require Import ZArith List Permutation Reals Lia Lra.
From Flocq Require Import Core BinarySingleNaN.
From Verif Require Import Base.Res Base.Num Base.IEEE Model.Sort Spec.Sorting Proof.SortInst.
Import ListNotations.
Open Scope Z_scope.

(** Some doubles for the examples: 3, -1, 2.5, -0, +infinity. *)
Definition ex_xs : list f64 :=
  [f64lit 3 0; f64lit (-1) 0; f64lit 5 (-1); B754_zero true; B754_infinity false].

(** C01 *)
Theorem C01_shell_sorts : forall xs : list f64,
  Forall (fun x => is_nan x = false) xs ->
  exists ys, shell xs = Ok ys /\ Permutation xs ys /\ ascending Bltb ys.
Proof. exact shell_f64. Qed.
Print Assumptions C01_shell_sorts.

Example C01_example : Forall (fun x => is_nan x = false) ex_xs /\
  match shell ex_xs with Ok ys => map B2SF ys | _ => [] end =
  map B2SF [f64lit (-1) 0; B754_zero true; f64lit 5 (-1); f64lit 3 0; B754_infinity false].
Proof. split; [repeat constructor | vm_compute; reflexivity]. Qed.

(** C02 *)
Theorem C02_quick_sorts : forall xs : list f64,
  Forall (fun x => is_nan x = false) xs ->
  exists ys, quick xs = Ok ys /\ Permutation xs ys /\ ascending Bltb ys.
Proof. exact quick_f64. Qed.
Print Assumptions C02_quick_sorts.

(** 30 elements, so the partition step runs. *)
Definition ex_long : list f64 := map (fun k => f64lit ((k * 7) mod 11 - 5) (-1)) (map Z.of_nat (seq 0 30)).
Example C02_example : Forall (fun x => is_nan x = false) ex_long /\
  match quick ex_long with Ok ys => map (fun y => B2SF y) (firstn 4 ys) | _ => [] end =
  map B2SF [f64lit (-5) (-1); f64lit (-5) (-1); f64lit (-5) (-1); f64lit (-2) 0].
Proof. split; [repeat constructor | vm_compute; reflexivity]. Qed.

(** C03: no assumption on the values at all. *)
Theorem C03_sorts_total : forall xs : list f64,
  (exists ys, shell xs = Ok ys /\ Permutation xs ys) /\
  (exists ys, quick xs = Ok ys /\ Permutation xs ys).
Proof. exact sorts_any_f64. Qed.
Print Assumptions C03_sorts_total.

Example C03_example :
  match shell [B754_nan; f64lit 1 0; B754_nan; f64lit 0 0] with Ok ys => length ys | _ => 0%nat end = 4%nat.
Proof. vm_compute. reflexivity. Qed.

(** C04 *)
Theorem C04_nth_largest : forall (xs : list f64) n buf,
  Forall (fun x => is_nan x = false) xs -> 1 <= n <= Z.of_nat (length xs) ->
  match buf with Some b => length b = length xs | None => True end ->
  exists v ys, NthLargest xs n buf = Ok (v, ys) /\
    is_nth_largest Bltb v n xs /\ Permutation xs ys.
Proof. exact NthLargest_f64. Qed.
Print Assumptions C04_nth_largest.

Theorem C04_nth_largest_buffer : forall (xs : list f64) n b1 b2,
  length b1 = length xs -> length b2 = length xs ->
  NthLargest xs n (Some b1) = NthLargest xs n (Some b2) /\
  NthLargest xs n (Some b1) = NthLargest xs n None.
Proof. exact SortP.NthLargest_buf. Qed.
Print Assumptions C04_nth_largest_buffer.

Theorem C04_nth_largest_panics : forall (xs : list f64) n b,
  xs = [] \/ length b <> length xs -> NthLargest xs n (Some b) = Panic.
Proof. exact SortP.NthLargest_panics. Qed.
Print Assumptions C04_nth_largest_panics.

Example C04_example :
  match NthLargest ex_xs 2 (Some (map (fun _ => B754_nan) ex_xs)) with
  | Ok (v, _) => B2SF v | _ => B2SF (B754_nan : f64) end = B2SF (f64lit 3 0).
Proof. vm_compute. reflexivity. Qed.

(** C05: false of the code.  Median([1,2,3]) is 3. *)
Theorem C05_median_refuted : exists (xs : list f64) v ys,
  Forall (fun x => is_nan x = false) xs /\ length xs = 3%nat /\
  Median xs None = Ok (v, ys) /\ ~ is_median Bltb v xs.
Proof. exact median_counterexample. Qed.
Print Assumptions C05_median_refuted.

(** What Median returns instead: the floor(len/2)-th largest element. *)
Theorem C05_median_partial : forall (xs : list f64) buf,
  Forall (fun x => is_nan x = false) xs -> (2 <= length xs)%nat ->
  match buf with Some b => length b = length xs | None => True end ->
  exists v ys, Median xs buf = Ok (v, ys) /\
    is_nth_largest Bltb v (Z.of_nat (length xs) / 2) xs.
Proof. exact Median_f64. Qed.
Print Assumptions C05_median_partial.

Example C05_example :
  match Median ex_xs None with Ok (v, _) => B2SF v | _ => B2SF (B754_nan : f64) end = B2SF (f64lit 3 0).
Proof. vm_compute. reflexivity. Qed.

(** C06: false of the code at p = 0. *)
Theorem C06_percentile_refuted : exists (xs : list f64) (p : f64),
  Forall (fun x => is_nan x = false) xs /\ xs <> [] /\
  Bleb (f64lit 0 0) p = true /\ Bleb p (f64lit 1 0) = true /\
  Percentile xs p None = Panic.
Proof. exact percentile_counterexample. Qed.
Print Assumptions C06_percentile_refuted.

(** p = 1 does not give an extreme element either. *)
Theorem C06_percentile_one_refuted : exists (xs : list f64) v ys,
  Forall (fun x => is_nan x = false) xs /\ xs <> [] /\
  Percentile xs (f64lit 1 0) None = Ok (v, ys) /\
  (exists x, In x xs /\ Bltb x v = true) /\ (exists x, In x xs /\ Bltb v x = true).
Proof. exact percentile_one_counterexample. Qed.
Print Assumptions C06_percentile_one_refuted.

(** For p*len >= 1 (exact arithmetic) the result is the element of rank
    min(floor(p*len), len-1) from the top. *)
Theorem C06_percentile_partial : forall (xs : list R) (p : R) buf,
  (0 <= p <= 1)%R -> (2 <= length xs)%nat -> (1 <= p * IZR (Z.of_nat (length xs)))%R ->
  match buf with Some b => length b = length xs | None => True end ->
  exists v ys, Percentile xs p buf = Ok (v, ys) /\
    is_nth_largest Rlt_bool v
      (Z.min (Zfloor (p * IZR (Z.of_nat (length xs)))) (Z.of_nat (length xs) - 1)) xs.
Proof. exact Percentile_R. Qed.
Print Assumptions C06_percentile_partial.

Example C06_example : (0 <= /2 <= 1)%R /\ (2 <= length [1; 2; 3; 4]%R)%nat /\
  (1 <= /2 * IZR (Z.of_nat (length [1; 2; 3; 4]%R)))%R.
Proof. simpl. repeat split; try lia; lra. Qed.

(** C07, for every element type with any arithmetic. *)
Theorem C07_reverse : forall (xs : list f64),
  reverse xs = Ok (rev xs) /\ bind (reverse xs) reverse = Ok xs.
Proof. exact reverse_rev. Qed.
Print Assumptions C07_reverse.

Example C07_example : match reverse ex_xs with Ok ys => map B2SF ys | _ => [] end = rev (map B2SF ex_xs).
Proof. vm_compute. reflexivity. Qed.
