(** Loops with a step. *)
From Coq Require Import ZArith List Bool Lia ZifyBool ZifyNat.
From Verif Require Import Base.Res Base.ResFacts Base.Stride.
Import ListNotations.
Open Scope Z_scope.

(** Number of rounds. *)
Definition rounds (lo hi step : Z) : Z := if hi <=? lo then 0 else (hi - lo - 1) / step + 1.

Lemma rounds_nonneg lo hi step : 0 < step -> 0 <= rounds lo hi step.
Proof. unfold rounds. intros. destruct (Z.leb_spec hi lo); [lia|]. pose proof (Z.div_pos (hi - lo - 1) step). lia. Qed.

Lemma rounds_spec lo hi step t : 0 < step -> 0 <= t -> (t < rounds lo hi step <-> lo + t * step < hi).
Proof.
  unfold rounds. intros HS HT. destruct (Z.leb_spec hi lo); [nia|].
  split; intros H1.
  - pose proof (Z.mul_div_le (hi - lo - 1) step HS). nia.
  - assert (t <= (hi - lo - 1) / step); [|lia]. apply Z.div_le_lower_bound; lia.
Qed.

Lemma rounds_le lo hi step : 0 < step -> lo <= hi -> rounds lo hi step <= hi - lo.
Proof.
  unfold rounds. intros HS H. destruct (Z.leb_spec hi lo); [lia|].
  pose proof (Z.div_le_upper_bound (hi - lo - 1) step (hi - lo - 1)). nia.
Qed.

Lemma rounds_next lo hi step : 0 < step -> lo < hi -> rounds (lo + step) hi step = rounds lo hi step - 1.
Proof.
  intros HS H. unfold rounds. destruct (Z.leb_spec hi lo); [lia|]. destruct (Z.leb_spec hi (lo + step)).
  - rewrite Z.div_small by lia. lia.
  - replace (hi - lo - 1) with (hi - (lo + step) - 1 + 1 * step) by lia. rewrite Z.div_add by lia. lia.
Qed.

Lemma stride_n_for {S} (body : Z -> S -> res S) hi step : 0 < step -> forall n fuel lo t s,
  rounds (lo + t * step) hi step = Z.of_nat n -> (n < fuel)%nat ->
  stride_n fuel (lo + t * step) hi step body s = for_n n t (fun t => body (lo + t * step)) s.
Proof.
  intros HS. induction n as [|n IH]; intros fuel lo t s HR HF.
  - destruct fuel as [|fuel]; [lia|]. cbn [stride_n for_n].
    assert (~ 0 < rounds (lo + t * step) hi step) by lia.
    rewrite rounds_spec in H by lia. destruct (Z.ltb_spec (lo + t * step) hi); [lia|reflexivity].
  - destruct fuel as [|fuel]; [lia|]. cbn [stride_n for_n].
    assert (0 < rounds (lo + t * step) hi step) by lia. rewrite rounds_spec in H by lia.
    destruct (Z.ltb_spec (lo + t * step) hi); [|lia].
    destruct (body (lo + t * step) s) as [s'| | |]; cbn [bind]; auto.
    replace (lo + t * step + step) with (lo + (t + 1) * step) by lia. apply IH; [|lia].
    replace (lo + (t + 1) * step) with (lo + t * step + step) by lia. rewrite rounds_next by lia. lia.
Qed.

Lemma stride_for {S} (body : Z -> S -> res S) lo hi step s : 0 < step ->
  stride lo hi step body s = for_ 0 (rounds lo hi step) (fun t => body (lo + t * step)) s.
Proof.
  intros HS. unfold stride, for_.
  pose proof (rounds_nonneg lo hi step HS).
  replace lo with (lo + 0 * step) at 2 by lia. apply stride_n_for; auto.
  - replace (lo + 0 * step) with lo by lia. lia.
  - destruct (Z.leb_spec hi lo); [|pose proof (rounds_le lo hi step HS ltac:(lia)); lia].
    assert (rounds lo hi step = 0) by (unfold rounds; now replace (hi <=? lo) with true by lia). lia.
Qed.

Lemma stride_one {S} (body : Z -> S -> res S) hi s : 0 <= hi -> stride 0 hi 1 body s = for_ 0 hi body s.
Proof.
  intros H. rewrite stride_for by lia.
  replace (rounds 0 hi 1) with hi by (unfold rounds; destruct (Z.leb_spec hi 0); [lia|rewrite Z.div_1_r; lia]).
  apply for_ext. intros. f_equal; lia.
Qed.
