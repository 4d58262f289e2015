(** Slices of slices, and which quantities need velocities. *)
From Coq Require Import ZArith List Bool Lia ZifyBool ZifyNat.
From Verif Require Import Base.Res Base.ResFacts Model.Density.
Import ListNotations.
Open Scope Z_scope.

Lemma nth_error_skip {A} (l : list A) k i : nth_error (skipn k l) i = nth_error l (k + i).
Proof. revert l. induction k as [|k IH]; intros [|x l]; cbn; auto. now destruct i. Qed.
Lemma nth_error_first {A} (l : list A) k i : (i < k)%nat -> nth_error (firstn k l) i = nth_error l i.
Proof. revert l i. induction k as [|k IH]; intros [|x l] [|i] H; cbn; auto; try lia. apply IH. lia. Qed.

Lemma slice_shows {A} (s : gslice A) low high : 0 <= low <= high -> high <= zlen (back s) ->
  exists t, reslice s low high = Ok t /\ zlen (visible t) = high - low /\
    (forall i, 0 <= i < high - low -> nth_error (visible t) (Z.to_nat i) = nth_error (back s) (Z.to_nat (low + i))) /\
    (forall i, 0 <= i -> nth_error (back t) (Z.to_nat i) = nth_error (back s) (Z.to_nat (low + i))).
Proof.
  intros H1 H2. unfold reslice. replace ((low <? 0) || (high <? low) || (zlen (back s) <? high)) with false by lia.
  eexists. split; [reflexivity|]. unfold visible. cbn [back vis].
  assert (G : forall i, 0 <= i -> nth_error (skipn (Z.to_nat low) (back s)) (Z.to_nat i) = nth_error (back s) (Z.to_nat (low + i))).
  { intros i Hi. rewrite nth_error_skip. f_equal. lia. }
  split; [unfold zlen in *; rewrite firstn_length, skipn_length; lia|]. split; [|exact G].
  intros i Hi. rewrite nth_error_first by lia. apply G. lia.
Qed.

Lemma velocities q :
  (In q [Velocity; VelocityDivergence; VelocityCurl] -> requires_velocity q = Ok true) /\
  (In q [Density; DensityGradient] -> requires_velocity q = Ok false) /\
  (~ In q [Density; DensityGradient; Velocity; VelocityDivergence; VelocityCurl] -> requires_velocity q = Panic).
Proof.
  split; [|split]; intros H.
  - cbn [In] in H. decompose [or] H; subst; try contradiction; reflexivity.
  - cbn [In] in H. decompose [or] H; subst; try contradiction; reflexivity.
  - unfold requires_velocity. cbn [In] in H.
    destruct (q =? Density) eqn:E1; [apply Z.eqb_eq in E1; exfalso; apply H; auto|].
    destruct (q =? DensityGradient) eqn:E2; [apply Z.eqb_eq in E2; exfalso; apply H; auto|].
    destruct (q =? Velocity) eqn:E3; [apply Z.eqb_eq in E3; exfalso; apply H; auto|].
    destruct (q =? VelocityDivergence) eqn:E4; [apply Z.eqb_eq in E4; exfalso; apply H; auto 6|].
    destruct (q =? VelocityCurl) eqn:E5; [apply Z.eqb_eq in E5; exfalso; apply H; auto 7|]. reflexivity.
Qed.
