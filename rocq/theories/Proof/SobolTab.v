From Coq Require Import ZArith List Lia.
From Coq Require Import ZifyBool ZifyNat.
From Verif Require Import Base.Res Model.Rand Spec.Polys.
Import ListNotations.
Open Scope Z_scope.

Lemma tables_ok : forall k, (k < 6)%nat ->
  let d := nth k initMDeg 0 in let a := nth k initIp 0 in
  1 <= d /\ 0 <= a < 2 ^ (d - 1) /\ primitive d (poly d a) /\
  (forall j, (j < Z.to_nat d)%nat ->
     Z.odd (nth (6 * j + k) initIv 0) = true /\ 0 < nth (6 * j + k) initIv 0 < 2 ^ (Z.of_nat j + 1)) /\
  (forall k', (k' < 6)%nat -> k' <> k -> poly (nth k' initMDeg 0) (nth k' initIp 0) <> poly d a).
Proof.
  intros k Hk d a. subst d a.
  do 6 (destruct k as [|k]; [
    split; [cbn; lia|]; split; [cbn; lia|]; split; [split; [reflexivity|]|split];
    [ match goal with |- forall n, (0 < n < ?b)%nat -> _ => let b' := eval vm_compute in b in change b with b' end;
      intros n Hn; do 15 (destruct n as [|n]; [first [lia | vm_compute; discriminate]|]); lia
    | match goal with |- forall n, (n < ?b)%nat -> _ => let b' := eval vm_compute in b in change b with b' end;
      intros j Hj; do 4 (destruct j as [|j]; [first [lia | vm_compute; repeat split]|]); lia
    | intros k' H1 H2; do 6 (destruct k' as [|k']; [first [lia | vm_compute; discriminate]|]); lia ] |]); lia.
Qed.
