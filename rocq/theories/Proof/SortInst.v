(** Instances of the sorting lemmas at IEEE doubles and at the reals. *)
From Coq Require Import ZArith List Bool Lia Permutation Sorted Reals Lra.
From Flocq Require Import Core BinarySingleNaN.
From Verif Require Import Base.Res Base.Num Base.IEEE Base.IEEEFacts Base.ResFacts
  Model.Sort Spec.Sorting Proof.SortP.
Import ListNotations.
Open Scope Z_scope.

Definition not_nan (x : f64) : Prop := is_nan x = false.

Lemma asym64 (x y : f64) : nltb x y = true -> nltb y x = false.
Proof. apply bltb_asym. Qed.
Lemma trans64 (x y z : f64) : not_nan x -> not_nan y -> not_nan z ->
  nltb y x = false -> nltb z y = false -> nltb z x = false.
Proof. apply bltb_trans. Qed.

Lemma wp_ex {A} (r : res A) (Q : A -> Prop) : wp r Q -> exists a, r = Ok a /\ Q a.
Proof. apply wp_ok. Qed.

Lemma shell_f64 (xs : list f64) :
  Forall not_nan xs ->
  exists ys, shell xs = Ok ys /\ Permutation xs ys /\ ascending Bltb ys.
Proof.
  intros H. apply wp_ex. apply wp_conj; [apply shell_perm|].
  apply (shell_sorted asym64 not_nan); auto.
  apply trans64.
Qed.

Lemma quick_f64 (xs : list f64) :
  Forall not_nan xs ->
  exists ys, quick xs = Ok ys /\ Permutation xs ys /\ ascending Bltb ys.
Proof.
  intros H. apply wp_ex. apply wp_conj; [apply (quick_perm asym64)|].
  apply (quick_sorted asym64 not_nan); auto.
  apply trans64.
Qed.

Lemma sorts_any_f64 (xs : list f64) :
  (exists ys, shell xs = Ok ys /\ Permutation xs ys) /\
  (exists ys, quick xs = Ok ys /\ Permutation xs ys).
Proof.
  split; apply wp_ex; [apply shell_perm | apply (quick_perm asym64)].
Qed.

Lemma NthLargest_f64 (xs : list f64) n buf :
  Forall not_nan xs -> 1 <= n <= Z.of_nat (length xs) ->
  match buf with Some b => length b = length xs | None => True end ->
  exists v ys, NthLargest xs n buf = Ok (v, ys) /\ is_nth_largest Bltb v n xs /\ Permutation xs ys.
Proof.
  intros HP Hn HB.
  pose proof (NthLargest_ok asym64 not_nan trans64 xs n buf HP Hn HB) as H.
  apply wp_ex in H. destruct H as [[v ys] [E H]]. eauto.
Qed.

Lemma Median_f64 (xs : list f64) buf :
  Forall not_nan xs -> (2 <= length xs)%nat ->
  match buf with Some b => length b = length xs | None => True end ->
  exists v ys, Median xs buf = Ok (v, ys) /\ is_nth_largest Bltb v (Z.of_nat (length xs) / 2) xs.
Proof.
  intros HP HL HB. unfold Median.
  destruct (Z.eqb_spec (zlen xs) 0); [unfold zlen in *; lia|].
  destruct (NthLargest_f64 xs (zlen xs / 2) buf) as (v & ys & E & H & _); auto.
  { unfold zlen. pose proof (Z.div_lt (Z.of_nat (length xs)) 2). 
    assert (1 <= Z.of_nat (length xs) / 2) by (apply Z.div_le_lower_bound; lia). lia. }
  eauto.
Qed.

Lemma Percentile_R (xs : list R) (p : R) buf :
  (0 <= p <= 1)%R -> (2 <= length xs)%nat -> (1 <= p * IZR (Z.of_nat (length xs)))%R ->
  match buf with Some b => length b = length xs | None => True end ->
  exists v ys, Percentile xs p buf = Ok (v, ys) /\
    is_nth_largest Rlt_bool v
      (Z.min (Zfloor (p * IZR (Z.of_nat (length xs)))) (Z.of_nat (length xs) - 1)) xs.
Proof.
  intros Hp HL H1 HB. unfold Percentile. cbn [nltb nmul nofZ ntrunc RNum].
  fold (zlen xs) in *. assert (HZ : 2 <= zlen xs) by (unfold zlen; lia).
  destruct (Z.eqb_spec (zlen xs) 0) as [?|_]; [lia|].
  rewrite (Rlt_bool_false 1 p) by lra. rewrite (Rlt_bool_false p 0) by lra. cbn [orb].
  assert (L2 : (0 <= IZR (zlen xs))%R) by (apply IZR_le; lia).
  assert (U : (p * IZR (zlen xs) <= IZR (zlen xs))%R) by nra.
  rewrite Ztrunc_floor by lra.
  set (n := Zfloor (p * IZR (zlen xs))) in *.
  assert (N1 : 1 <= n) by (unfold n; apply Zfloor_lub; simpl; lra).
  assert (N2 : n <= zlen xs).
  { unfold n. apply le_IZR. apply Rle_trans with (2 := U). apply Zfloor_lb. }
  assert (E : (if n =? zlen xs then n - 1 else n) = Z.min n (zlen xs - 1)).
  { destruct (Z.eqb_spec n (zlen xs)); lia. }
  rewrite E.
  pose proof (NthLargest_ok (N := RNum) rlt_asym (fun _ => True)
     ltac:(intros x y z _ _ _; apply rlt_trans) xs (Z.min n (zlen xs - 1)) buf) as H.
  specialize (H ltac:(apply Forall_forall; auto) ltac:(lia) HB).
  apply wp_ex in H. destruct H as [[v ys] [EQ [H _]]]. eauto.
Qed.

Lemma reverse_rev {F} {N : Num F} (xs : list F) :
  reverse xs = Ok (rev xs) /\ bind (reverse xs) reverse = Ok xs.
Proof.
  assert (E : forall ys : list F, reverse ys = Ok (rev ys)).
  { intros [|d ys]; [reflexivity|].
    pose proof (reverse_ok d (d :: ys)) as H. apply wp_ex in H. destruct H as [a [E ->]]. auto. }
  rewrite (E xs). cbn [bind]. rewrite E, rev_involutive. auto.
Qed.

(** Counterexamples *)
Definition xs123 : list f64 := [f64lit 1 0; f64lit 2 0; f64lit 3 0].

Lemma median_counterexample : exists (xs : list f64) v ys,
  Forall (fun x => is_nan x = false) xs /\ length xs = 3%nat /\
  Median xs None = Ok (v, ys) /\ ~ is_median Bltb v xs.
Proof.
  assert (C : match Median xs123 None with
              | Ok (v, _) => Nat.ltb (2 * below Bltb v xs123) (length xs123)
              | _ => true end = false) by (vm_compute; reflexivity).
  destruct (Median xs123 None) as [[v ys]| | |] eqn:E; try discriminate.
  exists xs123, v, ys. split; [repeat constructor|]. split; [reflexivity|]. split; [exact E|].
  intros (_ & H & _). apply Nat.ltb_ge in C. exact (Nat.lt_irrefl _ (Nat.lt_le_trans _ _ _ H C)).
Qed.

Lemma percentile_counterexample : exists (xs : list f64) (p : f64),
  Forall (fun x => is_nan x = false) xs /\ xs <> [] /\
  Bleb (f64lit 0 0) p = true /\ Bleb p (f64lit 1 0) = true /\
  Percentile xs p None = Panic.
Proof.
  exists [f64lit 1 0; f64lit 2 0], (f64lit 0 0).
  split; [repeat constructor|]. split; [discriminate|].
  repeat split; vm_compute; reflexivity.
Qed.

Lemma percentile_one_counterexample : exists (xs : list f64) v ys,
  Forall (fun x => is_nan x = false) xs /\ xs <> [] /\
  Percentile xs (f64lit 1 0) None = Ok (v, ys) /\
  (exists x, In x xs /\ Bltb x v = true) /\ (exists x, In x xs /\ Bltb v x = true).
Proof.
  assert (C : match Percentile xs123 (f64lit 1 0) None with
              | Ok (v, _) => Bltb (f64lit 1 0) v && Bltb v (f64lit 3 0)
              | _ => false end = true) by (vm_compute; reflexivity).
  destruct (Percentile xs123 (f64lit 1 0) None) as [[v ys]| | |] eqn:E; try discriminate.
  apply andb_prop in C. destruct C.
  exists xs123, v, ys. split; [repeat constructor|]. split; [discriminate|]. split; [exact E|].
  split; [exists (f64lit 1 0) | exists (f64lit 3 0)]; split; unfold xs123; simpl; auto.
Qed.
