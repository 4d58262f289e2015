(** Loops that fill a slice, and loops that accumulate a sum. *)
From Coq Require Import ZArith List Lia Lra Bool Reals.
From Coq Require Import ZifyBool ZifyNat.
From Verif Require Import Base.Res Base.ResFacts Base.Num Spec.Matrix Proof.SumP.
Import ListNotations.
Open Scope Z_scope.

Lemma fill_ok {A} (d : A) (f : Z -> res A) (g : Z -> A) lo hi out :
  0 <= lo -> lo <= hi -> hi <= zlen out -> (forall i, lo <= i < hi -> f i = Ok (g i)) ->
  wp (for_ lo hi (fun i out => s <- f i ;; set out i s) out)
    (fun o => zlen o = zlen out /\ forall i, 0 <= i < zlen out -> zn d o i = if (lo <=? i) && (i <? hi) then g i else zn d out i).
Proof.
  intros H0 H1 H2 HF.
  apply (for_inv (fun k o => zlen o = zlen out /\
    forall i, 0 <= i < zlen out -> zn d o i = if (lo <=? i) && (i <? k) then g i else zn d out i)); [lia| |].
  - split; [auto|]. intros i Hi. destruct (Z.leb_spec lo i), (Z.ltb_spec i lo); cbn [andb]; auto; lia.
  - intros i o Hi [L V]. rewrite HF by lia. cbn [bind]. rewrite set_ok by lia. cbn [wp].
    split; [rewrite zlen_upd; lia|]. intros j Hj. rewrite zn_upd by lia. rewrite V by lia.
    destruct (Z.eqb_spec j i), (Z.leb_spec lo j), (Z.ltb_spec j i), (Z.ltb_spec j (i + 1)); cbn [andb]; subst; auto; lia.
Qed.

(** The body may read the slice being filled. *)
Lemma fill_gen {A} (d : A) (body : Z -> list A -> res (list A)) (g : Z -> A) lo hi out :
  0 <= lo -> lo <= hi -> hi <= zlen out ->
  (forall i o, lo <= i < hi -> zlen o = zlen out ->
     (forall k, 0 <= k < zlen out -> zn d o k = if (lo <=? k) && (k <? i) then g k else zn d out k) ->
     body i o = set o i (g i)) ->
  wp (for_ lo hi body out)
    (fun o => zlen o = zlen out /\ forall i, 0 <= i < zlen out -> zn d o i = if (lo <=? i) && (i <? hi) then g i else zn d out i).
Proof.
  intros H0 H1 H2 HF.
  apply (for_inv (fun k o => zlen o = zlen out /\
    forall i, 0 <= i < zlen out -> zn d o i = if (lo <=? i) && (i <? k) then g i else zn d out i)); [lia| |].
  - split; [auto|]. intros i Hi. destruct (Z.leb_spec lo i), (Z.ltb_spec i lo); cbn [andb]; auto; lia.
  - intros i o Hi [L V]. rewrite HF by (auto; lia). rewrite set_ok by lia. cbn [wp].
    split; [rewrite zlen_upd; lia|]. intros j Hj. rewrite zn_upd by lia. rewrite V by lia.
    destruct (Z.eqb_spec j i), (Z.leb_spec lo j), (Z.ltb_spec j i), (Z.ltb_spec j (i + 1)); cbn [andb]; subst; auto; lia.
Qed.

Lemma acc_ok (body : Z -> R -> res R) (g : Z -> R) lo hi s0 : lo <= hi ->
  (forall i s, lo <= i < hi -> body i s = Ok (s + g i)%R) -> for_ lo hi body s0 = Ok (s0 + sum lo hi g)%R.
Proof.
  intros H B. assert (wp (for_ lo hi body s0) (fun s => s = (s0 + sum lo hi g)%R)) as W.
  { apply (for_inv (fun k s => s = (s0 + sum lo k g)%R)); [lia|rewrite sum_nil by lia; lra|].
    intros i s Hi ->. rewrite B by lia. cbn [wp]. rewrite sum_last by lia. lra. }
  apply wp_ok in W. destruct W as [s [-> ->]]. reflexivity.
Qed.
